(** TrModel.v — transparency: validation, the two caches, the ExtGState objects and the pointers they keep.

    Models transparency.go, ext_g_state_obj.go, gopdf.go:2395-2457 and the places where drawing calls turn a
    [*Transparency] option into a graphics state index (gopdf.go:226-232, 286-292, 323-329, 507-513, 1122-1128,
    1276-1282, 1995-2002).  Alpha is a float64 ([F64]); memory is explicit, because ExtGState keeps a pointer to the
    caller's Alpha.  Simplifications: the other objects of the document are only counted ([EOther]); "Draw" stands for
    any of the calls listed above. *)
From Coq Require Import Floats.SpecFloat.
From Verif Require Import Base NumModel DocModel.
Open Scope Z_scope.

(** transparency.go:12-29 *)
Definition blend_modes : list bytes := map bs
  ["/Hue"; "/Color"; "/Normal"; "/Darken"; "/Screen"; "/Overlay"; "/Lighten"; "/Multiply"; "/Exclusion"; "/ColorBurn";
   "/HardLight"; "/SoftLight"; "/Difference"; "/Saturation"; "/Luminosity"; "/ColorDodge"]%string.
(** transparency.go:101-139 defineBlendModeType *)
Definition defineBlendModeType (m : bytes) : option bytes :=
  match m with
  | [] => Some (bs "/Normal")
  | _ => if existsb (list_eqb m) blend_modes then Some m else None
  end.
(** transparency.go:34-38 *)
Record transp := { t_alpha : f64; t_bm : bytes; t_gs : Z }.
(** transparency.go:40-55 NewTransparency *)
Definition newTransparency (alpha : f64) (m : bytes) : option transp :=
  if SFltb alpha (f64_ofZ 0) || SFltb (f64_ofZ 1) alpha then None
  else match defineBlendModeType m with
       | Some b => Some {| t_alpha := alpha; t_bm := b; t_gs := 0 |}
       | None => None
       end.
(** transparency.go:57-61 GetId *)
Definition getId (t : transp) : bytes := f64_fmt 3 (t_alpha t) ++ bs "_" ++ t_bm t.

(** ext_g_state_obj.go:13-19: CA and ca point to the Alpha field of a Transparency ([p], an address); BM points to a
    private copy (gopdf.go:2436). *)
Inductive addr := Var (n : nat) | Priv (n : nat).        (* the caller's variables; the copies made by SetTransparency *)
Inductive eobj := EOther | EAlpha (p : addr) (bm : bytes) | ESMask (mask : nat).
(** ext_g_state_obj.go:28-45 GetId of the options of saveTransparency, and of a mask. *)
Definition alpha_id (a : f64) (bm : bytes) : bytes :=
  bs "CA_" ++ f64_fmt 3 a ++ bs ";" ++ bs "ca_" ++ f64_fmt 3 a ++ bs ";" ++ bs "BM_" ++ bm ++ bs ";".
Definition smask_id (i : nat) : bytes := bs "SMask_" ++ fmt_d (Z.of_nat i) ++ bs "_0_R;".

Record tst := {
  h_vars : list transp; h_priv : list transp;   (* memory: Transparency structs *)
  h_objs : list eobj;                     (* gp.pdfObjs *)
  h_ext : list (bytes * nat);             (* curr.extGStatesMap: id -> Index *)
  h_tr : list (bytes * transp);           (* curr.transparencyMap *)
  h_cur : option Z;                       (* curr.transparency: its extGStateIndex *)
  h_draws : list (option Z) }.            (* extGStateIndexes recorded by each drawing call *)

Definition mem (s : tst) (p : addr) : option transp :=
  match p with Var n => nth_error (h_vars s) n | Priv n => nth_error (h_priv s) n end.
Definition store (p : addr) (t : transp) (s : tst) : tst :=
  {| h_vars := match p with Var n => upd (h_vars s) n (fun _ => t) | _ => h_vars s end;
     h_priv := match p with Priv n => upd (h_priv s) n (fun _ => t) | _ => h_priv s end;
     h_objs := h_objs s; h_ext := h_ext s; h_tr := h_tr s; h_cur := h_cur s; h_draws := h_draws s |}.

(** ext_g_state_obj.go:47-74 GetCachedExtGState *)
Definition cachedExt (id : bytes) (o : eobj) (s : tst) : nat * tst :=
  match lookup id (h_ext s) with
  | Some i => (i, s)
  | None => let i := List.length (h_objs s) in
            (i, {| h_vars := h_vars s; h_priv := h_priv s; h_objs := h_objs s ++ [o]; h_ext := (id, i) :: h_ext s; h_tr := h_tr s; h_cur := h_cur s; h_draws := h_draws s |})
  end.
(** gopdf.go:2431-2457 saveTransparency: [p] is the pointer passed; None = nil. *)
Definition save (p : addr) (s : tst) : option Z * tst :=
  match mem s p with
  | None => (None, s)                                   (* no such variable: not a Go program *)
  | Some t =>
      match lookup (getId t) (h_tr s) with
      | Some c => (Some (t_gs c), s)
      | None =>
          if negb (SFeqb (t_alpha t) (f64_ofZ 1)) then
            let '(i, s) := cachedExt (alpha_id (t_alpha t) (t_bm t)) (EAlpha p (t_bm t)) s in
            let t' := {| t_alpha := t_alpha t; t_bm := t_bm t; t_gs := Z.of_nat i + 1 |} in
            (Some (t_gs t'), store p t' {| h_vars := h_vars s; h_priv := h_priv s; h_objs := h_objs s; h_ext := h_ext s;
                                           h_tr := (getId t', t') :: h_tr s; h_cur := h_cur s; h_draws := h_draws s |})
          else (None, s)
      end
  end.

Inductive top :=
| Declare (t : transp)                    (* the caller makes a Transparency (NewTransparency or a literal) *)
| Assign (v : nat) (a : f64) (bm : bytes) (* the caller assigns to its fields *)
| SetT (v : nat)                          (* SetTransparency( *v ): by value *)
| ClearT
| DrawT (v : option nat)                  (* a drawing call with the option &v, or without *)
| MaskT                                   (* a masked image: group, mask and its ExtGState *)
| AddT.                                   (* anything else that adds an object *)

Definition declare (t : transp) (s : tst) : tst :=
  {| h_vars := h_vars s ++ [t]; h_priv := h_priv s; h_objs := h_objs s; h_ext := h_ext s; h_tr := h_tr s; h_cur := h_cur s; h_draws := h_draws s |}.
Definition copy (t : transp) (s : tst) : addr * tst :=
  (Priv (List.length (h_priv s)),
   {| h_vars := h_vars s; h_priv := h_priv s ++ [t]; h_objs := h_objs s; h_ext := h_ext s; h_tr := h_tr s; h_cur := h_cur s; h_draws := h_draws s |}).
Definition set_cur (c : option Z) (s : tst) : tst :=
  {| h_vars := h_vars s; h_priv := h_priv s; h_objs := h_objs s; h_ext := h_ext s; h_tr := h_tr s; h_cur := c; h_draws := h_draws s |}.
Definition drawn (g : option Z) (s : tst) : tst :=
  {| h_vars := h_vars s; h_priv := h_priv s; h_objs := h_objs s; h_ext := h_ext s; h_tr := h_tr s; h_cur := h_cur s; h_draws := h_draws s ++ [g] |}.
Definition add_obj (o : eobj) (s : tst) : tst :=
  {| h_vars := h_vars s; h_priv := h_priv s; h_objs := h_objs s ++ [o]; h_ext := h_ext s; h_tr := h_tr s; h_cur := h_cur s; h_draws := h_draws s |}.

Definition tstep (s : tst) (o : top) : tst :=
  match o with
  | Declare t => declare t s
  | Assign v a bm =>
      match nth_error (h_vars s) v with
      | Some t => store (Var v) {| t_alpha := a; t_bm := bm; t_gs := t_gs t |} s
      | None => s
      end
  | SetT v =>                                                     (* gopdf.go:2400-2409 *)
      match nth_error (h_vars s) v with
      | Some t => let '(p, s) := copy t s in let '(g, s) := save p s in set_cur g s
      | None => s
      end
  | ClearT => set_cur None s                                      (* gopdf.go:2411-2413 *)
  | DrawT None => drawn (h_cur s) s                               (* gopdf.go:2416-2428 getCachedTransparency *)
  | DrawT (Some v) => let '(g, s) := save (Var v) s in drawn g s
  | MaskT =>                                                      (* gopdf.go:607-648; smask_obj.go:36-50 *)
      let s := add_obj EOther s in let m := List.length (h_objs s) in
      let s := add_obj EOther s in snd (cachedExt (smask_id m) (ESMask m) s)
  | AddT => add_obj EOther s
  end.
Definition tinit : tst := {| h_vars := []; h_priv := []; h_objs := repeat EOther 4; h_ext := []; h_tr := []; h_cur := None; h_draws := [] |}.
Definition trun (l : list top) : tst := fold_left tstep l tinit.

(** ext_g_state_obj.go:82-109 ExtGState.write *)
Definition w3 (a : f64) : bytes := f64_fmt 3 a.          (* "%.3F" is "%.3f" in Go *)
Definition ext_text (a : f64) (bm : bytes) : bytes :=
  bs "<<" ++ [NL] ++ bs "	/Type /ExtGState" ++ [NL] ++ bs "	/ca " ++ w3 a ++ [NL] ++ bs "	/CA " ++ w3 a ++ [NL]
  ++ bs "	/BM " ++ bm ++ [NL] ++ bs ">>" ++ [NL].
Definition body (s : tst) (i : nat) : option bytes :=
  match nth_error (h_objs s) i with
  | Some (EAlpha p bm) => option_map (fun t => ext_text (t_alpha t) bm) (mem s p)
  | _ => None
  end.
