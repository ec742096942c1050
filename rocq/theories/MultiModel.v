(** MultiModel.v — paragraphs on a page: MultiCell (gopdf.go:1166-1208) and MultiCellWithOption (1271-1322), put
    together from the drawing calls of DrawModel.v and the line breaking of SplitModel.v, over any [num].

    Simplification: AddChars keeps the number of characters (subset_font_obj.go:137-165 appends one rune per rune), so
    the test [i == length-1] of MultiCell is true exactly at the last character. *)
From Verif Require Import Base NumModel UnitModel DrawModel.
Require Verif.SplitModel.

Section Multi.
  Variable N : num.
  Notation T := (T N).
  Infix "+." := (nadd N) (at level 50, left associativity).
  Infix "-." := (nsub N) (at level 50, left associativity).
  Infix "*." := (nmul N) (at level 40, left associativity).
  Infix "/." := (ndiv N) (at level 40, left associativity).
  Notation nZ := (nofZ N).

  (** gopdf.go:1909-1921 MeasureTextWidth, in units; None: an error. *)
  Definition measureText (s : ds N) (f : fontv) (t : list Z) : option T :=
    match createContent N f (fv_add f t) (s_size N s) (s_cs N s) None with
    | Some (_, _, tw) => Some (pointsToUnits N (s_cfg N s) tw)
    | None => None
    end.
  (** 1172-1181, 1287-1295: the line height, in units. *)
  Definition lineHeight (s : ds N) (f : fontv) (t : list Z) : option T :=
    match createContent N f (fv_add f t) (s_size N s) (s_cs N s) None with
    | Some (_, ch, _) => Some (pointsToUnits N (s_cfg N s) ch)
    | None => None
    end.
  (** A call whose error is ignored. *)
  Definition silently (s : ds N) (c : call N) : ds N := match step N s c with Some s' => s' | None => s end.
  Definition cellRect (wd ht : T) : option (rect N) := Some (Build_rect N wd ht (defcfg N 0)).

  (** 1312-1319 *)
  Definition lineOpt (o : cellopt N) (isLast : bool) : cellopt N :=
    Build_cellopt N (lineAlign (o_align N o) isLast) (o_border N o) (o_float N o) (o_cup N o) (o_clh N o) (o_cut N o) (o_gs N o).
  Fixpoint lineLoop (s : ds N) (wd ht lh x : T) (o : cellopt N) (tr : option (option Z)) (lines : list (list Z)) : ds N :=
    match lines with
    | [] => s
    | l :: rest =>
        let s := silently s (CellOpt N (cellRect wd ht) l (lineOpt o (match rest with [] => true | _ => false end)) tr) in
        let s := silently s (Br N lh) in
        let s := silently s (SetX N x) in
        lineLoop s wd ht lh x o tr rest
    end.
  Inductive mres := MDone (s : ds N) | MError | MPanic | MRunning.
  (** 1302-1309; Go's float64(shiftLines) *)
  Definition startHeight (ht lh : T) (n : nat) : T :=
    if Nat.ltb 1 n then ht -. (lh +. nZ 3 /. nZ 2) *. nZ (Z.of_nat (Nat.div n 2 + (if Nat.eqb (Nat.modulo n 2) 0 then 0 else 1))) else ht.
  (** 1272-1321; [bo]: the break option; [tr]: the Transparency option; [fuel]: how many iterations of
      SplitTextWithOption are looked at (it may not return: C22). *)
  Definition multiCellWithOption (fuel : nat) (s : ds N) (wd ht : T) (text : list Z) (bo : SplitModel.breakopt) (o : cellopt N)
             (tr : option (option Z)) : mres :=
    let o := Build_cellopt N (o_align N o) (o_border N o) (o_float N o) (o_cup N o) (o_clh N o) (o_cut N o) (o_gs N o ++ trOf N s tr) in
    let x := pointsToUnits N (s_cfg N s) (s_x N s) in
    match s_font N s with
    | None => MPanic
    | Some (_, f) =>
        match lineHeight s f text with
        | None => MError
        | Some lh =>
            match SplitModel.splitText (nadd N) (fun a b => nlt N b a) (nle N) (measureText s f) fuel bo text wd with
            | SplitModel.Running _ => MRunning
            | SplitModel.Fail => MError
            | SplitModel.Crash => MPanic
            | SplitModel.Done lines => MDone (lineLoop s wd (startHeight ht lh (List.length lines)) lh x o tr lines)
            end
        end
    end.

  (** MultiCell: 1192-1205.  Each line is drawn as soon as it is complete; drawing changes nothing the measuring looks at,
      so the lines are computed first (SplitModel.multiCell). *)
  Fixpoint cellLoop (s : ds N) (wd lh x : T) (lines : list (list Z)) : ds N :=
    match lines with
    | [] => s
    | l :: rest =>
        let s := silently s (Cell N (cellRect wd lh) l) in
        let s := silently s (Br N lh) in
        let s := silently s (SetX N x) in
        cellLoop s wd lh x rest
    end.
  Definition measured0 (s : ds N) (f : fontv) (t : list Z) : T := match measureText s f t with Some v => v | None => nZ 0 end.
  Definition multiCell (s : ds N) (wd ht : T) (text : list Z) : mres :=
    let x := pointsToUnits N (s_cfg N s) (s_x N s) in
    match s_font N s with
    | None => MPanic
    | Some (_, f) =>
        match lineHeight s f text with
        | None => MError
        | Some lh => MDone (cellLoop s wd lh x (SplitModel.multiCell (nadd N) (fun a b => nlt N b a) (measured0 s f) (fv_add f text) [] (nZ 0) lh wd ht))
        end
    end.
End Multi.
