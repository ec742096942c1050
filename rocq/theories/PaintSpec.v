(** PaintSpec.v — what a viewer paints for a content stream (ISO 32000-1, 8.3-8.5): every painted path and external
    object together with the transformations, clipping paths, line width, dash pattern, colours and extended
    graphics states in force.  And, independently of how gopdf writes it, what the drawing calls ask for. *)
From Verif Require Import Base StrModel NumModel UnitModel DrawModel DrawSpec.

(** ** The viewer *)
(** A path: its construction operators with their operands.  A transformation: the six operands of [cm]; the
    current transformation is the list of those in force, outermost first. *)
Definition gpath := list op.
Definition gmat := list tok.
Record pgs := { p_ctm : list gmat; p_clip : list (list gmat * gpath * bytes); p_lw : list tok; p_dash : list tok;
                p_stroke : list op; p_fill : option (list op);     (* None only on the asking side: anything *)
                p_ext : list tok }.
Definition wd (s : string) : tok := TWord (bs s).
Definition pgs0 : pgs :=
  {| p_ctm := []; p_clip := []; p_lw := [wd "1"]; p_dash := [TOpen; TClose; wd "0"]; p_stroke := [black]; p_fill := Some [black]; p_ext := [] |}.
Inductive what := Painted (p : gpath) (how : bytes) | External (name : list tok).
Definition mark := (pgs * what)%type.
Record pv := { pv_g : pgs; pv_stack : list pgs; pv_path : gpath; pv_pend : option bytes; pv_out : list mark }.

Definition set_ctm (g : pgs) (m : list gmat) : pgs :=
  {| p_ctm := m; p_clip := p_clip g; p_lw := p_lw g; p_dash := p_dash g; p_stroke := p_stroke g; p_fill := p_fill g; p_ext := p_ext g |}.
Definition set_clip (g : pgs) (c : list (list gmat * gpath * bytes)) : pgs :=
  {| p_ctm := p_ctm g; p_clip := c; p_lw := p_lw g; p_dash := p_dash g; p_stroke := p_stroke g; p_fill := p_fill g; p_ext := p_ext g |}.
Definition set_lw (g : pgs) (v : list tok) : pgs :=
  {| p_ctm := p_ctm g; p_clip := p_clip g; p_lw := v; p_dash := p_dash g; p_stroke := p_stroke g; p_fill := p_fill g; p_ext := p_ext g |}.
Definition set_dash (g : pgs) (v : list tok) : pgs :=
  {| p_ctm := p_ctm g; p_clip := p_clip g; p_lw := p_lw g; p_dash := v; p_stroke := p_stroke g; p_fill := p_fill g; p_ext := p_ext g |}.
Definition set_stroke (g : pgs) (v : list op) : pgs :=
  {| p_ctm := p_ctm g; p_clip := p_clip g; p_lw := p_lw g; p_dash := p_dash g; p_stroke := v; p_fill := p_fill g; p_ext := p_ext g |}.
Definition set_fill (g : pgs) (v : option (list op)) : pgs :=
  {| p_ctm := p_ctm g; p_clip := p_clip g; p_lw := p_lw g; p_dash := p_dash g; p_stroke := p_stroke g; p_fill := v; p_ext := p_ext g |}.
Definition set_ext (g : pgs) (v : list tok) : pgs :=
  {| p_ctm := p_ctm g; p_clip := p_clip g; p_lw := p_lw g; p_dash := p_dash g; p_stroke := p_stroke g; p_fill := p_fill g; p_ext := v |}.

(** SC/SCN give the components of a colour in the space last chosen by CS (8.6.8). *)
Definition in_space (now : list op) (o : op) : list op :=
  match now with cs :: _ => if among (snd cs) ["CS"; "cs"]%string then [cs; o] else [o] | [] => [o] end.
Definition pwith (v : pv) (g : pgs) : pv :=
  {| pv_g := g; pv_stack := pv_stack v; pv_path := pv_path v; pv_pend := pv_pend v; pv_out := pv_out v |}.
Definition pmark (v : pv) (k : mark) : pv :=
  {| pv_g := pv_g v; pv_stack := pv_stack v; pv_path := pv_path v; pv_pend := pv_pend v; pv_out := pv_out v ++ [k] |}.
(** End of a path: it becomes part of the clipping path if W or W* was given (8.5.4). *)
Definition pend (v : pv) : pv :=
  let g := pv_g v in
  {| pv_g := match pv_pend v with Some b => set_clip g (p_clip g ++ [(p_ctm g, pv_path v, b)]) | None => g end;
     pv_stack := pv_stack v; pv_path := []; pv_pend := None; pv_out := pv_out v |}.
Definition pstep (v : pv) (o : op) : pv :=
  let '(args, b) := o in let g := pv_g v in
  if among b ["q"]%string then {| pv_g := g; pv_stack := g :: pv_stack v; pv_path := pv_path v; pv_pend := pv_pend v; pv_out := pv_out v |}
  else if among b ["Q"]%string then
    match pv_stack v with
    | [] => v
    | g' :: st => {| pv_g := g'; pv_stack := st; pv_path := pv_path v; pv_pend := pv_pend v; pv_out := pv_out v |}
    end
  else if among b ["cm"]%string then pwith v (set_ctm g (p_ctm g ++ [args]))
  else if among b ["w"]%string then pwith v (set_lw g args)
  else if among b ["d"]%string then pwith v (set_dash g args)
  else if among b ["gs"]%string then pwith v (set_ext g (p_ext g ++ args))
  else if among b ["g"; "rg"; "k"; "cs"]%string then pwith v (set_fill g (Some [o]))
  else if among b ["sc"; "scn"]%string then pwith v (set_fill g (option_map (fun f => in_space f o) (p_fill g)))
  else if among b ["G"; "RG"; "K"; "CS"]%string then pwith v (set_stroke g [o])
  else if among b ["SC"; "SCN"]%string then pwith v (set_stroke g (in_space (p_stroke g) o))
  else if among b ["m"; "l"; "c"; "v"; "y"; "h"; "re"]%string then
    {| pv_g := g; pv_stack := pv_stack v; pv_path := pv_path v ++ [o]; pv_pend := pv_pend v; pv_out := pv_out v |}
  else if among b ["W"; "W*"]%string then
    {| pv_g := g; pv_stack := pv_stack v; pv_path := pv_path v; pv_pend := Some b; pv_out := pv_out v |}
  else if among b ["n"]%string then pend v
  else if among b paint_ops then pend (pmark v (g, Painted (pv_path v) b))
  else if among b ["Do"]%string then pmark v (g, External args)
  else v.
Definition pview_from (v : pv) (l : list op) : pv := fold_left pstep l v.
Definition pv0 : pv := {| pv_g := pgs0; pv_stack := []; pv_path := []; pv_pend := None; pv_out := [] |}.
Definition marks (content : bytes) : list mark := pv_out (pview_from pv0 (content_ops content)).

(** ** What the calls ask for *)
Section Asked.
  Variable N : num.
  Variable rot : T N -> T N * T N.              (* cosine and sine of an angle in degrees *)
  Notation T := (T N).
  Infix "+." := (nadd N) (at level 50, left associativity).
  Infix "-." := (nsub N) (at level 50, left associativity).
  Infix "*." := (nmul N) (at level 40, left associativity).
  Infix "/." := (ndiv N) (at level 40, left associativity).
  Notation nZ := (nofZ N).
  (** Numbers as printed: [d k x] with k decimals. *)
  Definition d (k : nat) (x : T) : tok := TWord (nfmt N k x).
  Notation d2 := (d 2).
  Definition op_ (args : list tok) (s : string) : op := (args, bs s).
  Definition black' (s : string) : op := op_ [wd "0"] s.

  (** The page (its height in points, the document's unit) and what was asked for so far. *)
  Record asked := { a_cfg : ucfg N; a_H : T; a_tr : option Z; a_coltext : bool; a_g : pgs; a_stack : list pgs; a_out : list mark }.
  Definition ag (a : asked) (g : pgs) (st : list pgs) : asked :=
    {| a_cfg := a_cfg a; a_H := a_H a; a_tr := a_tr a; a_coltext := a_coltext a; a_g := g; a_stack := st; a_out := a_out a |}.
  Definition atr (a : asked) (t : option Z) (c : bool) : asked :=
    {| a_cfg := a_cfg a; a_H := a_H a; a_tr := t; a_coltext := c; a_g := a_g a; a_stack := a_stack a; a_out := a_out a |}.
  Definition amark (a : asked) (k : mark) : asked :=
    {| a_cfg := a_cfg a; a_H := a_H a; a_tr := a_tr a; a_coltext := a_coltext a; a_g := a_g a; a_stack := a_stack a; a_out := a_out a ++ [k] |}.

  Definition extOf (t : option Z) : list tok := match t with Some i => [TName (bs "GS" ++ fmt_d i)] | None => [] end.
  (** A shape painted in the state in force, with transparency [t]. *)
  Definition shape (a : asked) (t : option Z) (p : gpath) (how : string) : asked :=
    amark a (set_ext (a_g a) (p_ext (a_g a) ++ extOf t), Painted p (bs how)).
  Definition rotAbout (H x y angle : T) : list gmat :=            (* turn by the angle, (x, H - y) staying fixed *)
    let '(c, s) := rot angle in
    [[d 5 c; d 5 s; d 5 (nneg N s); d 5 c; d2 x; d2 (H -. y)];
     [wd "1"; wd "0"; wd "0"; wd "1"; d2 (nneg N x); d2 (nneg N (H -. y))]].
  (** The path through points given in points from the top left corner. *)
  Definition through (H : T) (pts : list (T * T)) : gpath :=
    match pts with
    | [] => []
    | p0 :: r => op_ [d2 (fst p0); d2 (H -. snd p0)] "m" :: map (fun p => op_ [d2 (fst p); d2 (H -. snd p)] "l") r
    end.
  Definition is (st : bytes) (s : string) : bool := list_eqb st (bs s).
  (** the ellipse in a box, as four Bezier curves from the middle of one side to the middle of the next *)
  Definition ellipse (H x1 y1 x2 y2 : T) : gpath :=
    let k := nfrac N 55228 100000 in
    let rx := (x2 -. x1) /. nZ 2 in let ry := (y2 -. y1) /. nZ 2 in
    let mx := x1 +. rx in let my := H -. (y1 +. ry) in
    let low := H -. y2 in let high := H -. y1 in
    let curve a b c e f g := op_ [d2 a; d2 b; d2 c; d2 e; d2 f; d2 g] "c" in
    [op_ [d2 mx; d2 low] "m";
     curve (mx +. rx *. k) low x2 (my -. ry *. k) x2 my;
     curve x2 (my +. ry *. k) (mx +. rx *. k) high mx high;
     curve (mx -. rx *. k) high x1 (my +. ry *. k) x1 my;
     curve x1 (my -. ry *. k) (mx -. rx *. k) low mx low].
  Definition dashOf (t : bytes) : list tok :=
    if is t "dashed" then [TOpen; wd "5"; TClose; wd "2"]
    else if is t "dotted" then [TOpen; wd "2"; wd "3"; TClose; wd "11"] else [TOpen; TClose; wd "0"].
  Definition rgbOf (r g b : Z) : list tok := map (fun v => d 3 (nZ v /. nZ 255)) [r; g; b].
  Definition cmykOf (c m y k : Z) : list tok := map (fun v => d2 (nZ v /. nZ 100)) [c; m; y; k].
  Definition clamp01 (v : T) : T := if nlt N v (nZ 0) then nZ 0 else if nlt N (nZ 1) v then nZ 1 else v.

  (** An image: all lengths in points.  Not a mask: turned about the middle of the visible box, mirrored, clipped to
      the visible box, then the unit square is mapped to the image's box. *)
  Definition imageMark (H : T) (g : pgs) (idx : Z) (o : imgopt N) : mark :=
    let W := io_w N o in let Ht := io_h N o in
    let X := io_x N o in let Y := io_y N o in
    let fl := io_hf N o || io_v N o in
    let flipx (v len : T) := if io_hf N o then nneg N v -. len else v in
    let flipy (v len : T) := if io_v N o then nneg N v -. len else v in
    let visible := match io_crop N o with Some (_, _, cw, ch) => (cw, ch) | None => (W, Ht) end in
    let turn := match io_mask N o with Some _ => [] | None => rotAbout H (X +. fst visible /. nZ 2) (Y +. snd visible /. nZ 2) (io_angle N o) end in
    let flip := if fl then [[wd (if io_hf N o then "-1" else "1"); wd "0"; wd "0"; wd (if io_v N o then "-1" else "1"); wd "0"; wd "0"]] else [] in
    let outer := p_ctm g ++ turn ++ flip in
    let clip := match io_crop N o with
                | Some (_, _, cw, ch) => [(outer, [op_ [d2 (flipx X cw); d2 (flipy (H -. Y -. ch) ch); d2 cw; d2 ch] "re"], bs "W*")]
                | None => []
                end in
    let mturn := match io_mask N o with
                 | Some ma => if neq N (ma +. io_angle N o) (nZ 0) then [] else rotAbout H (X +. W /. nZ 2) (Y +. Ht /. nZ 2) (ma +. io_angle N o)
                 | None => []
                 end in
    let '(px, py) := match io_crop N o with
                     | Some (cx, cy, _, _) => (X -. cx, H -. Y +. (cy -. Ht))
                     | None => (X, H -. Y -. Ht)
                     end in
    let place := [d2 W; wd "0"; wd "0"; d2 Ht; d2 (flipx px W); d2 (flipy py Ht)] in
    (set_ctm (set_clip (set_ext g (p_ext g ++ map (fun i => TName (bs "GS" ++ fmt_d i)) (io_gs N o))) (p_clip g ++ clip)) (outer ++ mturn ++ [place]),
     External [TName (bs "I" ++ fmt_d (idx + 1))]).

  (** [ideal = true]: the current transparency applies to every shape.  [ideal = false]: not to those drawn by
      RectFromLowerLeft, RectFromUpperLeft, Oval and Curve. *)
  Definition ask (ideal : bool) (a : asked) (c : call N) : asked :=
    let u := unitsToPoints N (a_cfg a) in
    let H := a_H a in let g := a_g a in let st := a_stack a in
    let now := a_tr a in
    let some := if ideal then now else None in
    let chosen tr := match tr with None => now | Some t => t end in
    let corner x y w h := [op_ [d2 (u x); d2 (H -. y); d2 (u w); d2 (u h)] "re"] in
    let strokefill st' := (if is st' "F" then "f" else if is st' "FD" || is st' "DF" then "B" else "S")%string in
    let closefill st' := (if is st' "F" then "f" else if is st' "FD" || is st' "DF" then "b" else "s")%string in
    let pst st' := match st' with PSdraw => "S" | PSfill => "f" | PSdrawfill => "B" end%string in
    let P p := (u (fst p), u (snd p)) in
    match c with
    | SetLineWidth _ v => ag a (set_lw g [d2 (u v)]) st
    | SetLineType _ t => ag a (set_dash g (dashOf t)) st
    | SetCustomLineType _ l p => ag a (set_dash g (TOpen :: map (fun v => d2 (u v)) l ++ [TClose; d2 (u p)])) st
    | Line _ x1 y1 x2 y2 => shape a now [op_ [d2 (u x1); d2 (H -. u y1)] "m"; op_ [d2 (u x2); d2 (H -. u y2)] "l"] "S"
    | RectLL _ x y w h => shape a some (corner x (u y) w h) "S"
    | RectUL _ x y w h => shape a some (corner x (u y +. u h) w h) "S"
    | RectLLOpt _ x y w h s tr => shape a (chosen tr) (corner x (u y) w h) (pst s)
    | RectULOpt _ x y w h s tr => shape a (chosen tr) (corner x (u y +. u h) w h) (pst s)
    | Oval _ x1 y1 x2 y2 => shape a some (ellipse H (u x1) (u y1) (u x2) (u y2)) "S"
    | Curve _ x0 y0 x1 y1 x2 y2 x3 y3 s =>
        shape a some [op_ [d2 (u x0); d2 (H -. u y0)] "m"; op_ [d2 (u x1); d2 (H -. u y1); d2 (u x2); d2 (H -. u y2); d2 (u x3); d2 (H -. u y3)] "c"] (strokefill s)
    | Polygon _ pts s => shape a now (through H (map P pts)) (closefill s)
    | ClipPolygon _ pts => ag a (set_clip g (p_clip g ++ [(p_ctm g, through H (map P pts) ++ [op_ [] "h"], bs "W")])) st
    | SaveGS _ => ag a g (g :: st)
    | Rotate _ angle x y => ag a (set_ctm g (p_ctm g ++ rotAbout H (u x) (u y) angle)) (g :: st)
    | RestoreGS _ | RotateReset _ => match st with [] => a | g' :: st' => ag a g' st' end
    | SetGrayFill _ v => atr (ag a (set_fill g (Some [op_ [d2 (clamp01 v)] "g"])) st) (a_tr a) false
    | SetGrayStroke _ v => ag a (set_stroke g [op_ [d2 (clamp01 v)] "G"]) st
    | SetStrokeColor _ r g' b => ag a (set_stroke g [op_ (rgbOf r g' b) "RG"]) st
    | SetFillColor _ r g' b => ag a (set_fill g (Some [op_ (rgbOf r g' b) "rg"])) st
    | SetStrokeColorCMYK _ c m y k => ag a (set_stroke g [op_ (cmykOf c m y k) "K"]) st
    | SetFillColorCMYK _ c m y k => ag a (set_fill g (Some [op_ (cmykOf c m y k) "k"])) st
    | SetTextColor _ _ _ _ | SetTextColorCMYK _ _ _ _ _ => atr a (a_tr a) true
    | SetTransparency _ t => atr a t (a_coltext a)
    | ClearTransparency _ => atr a None (a_coltext a)
    (* Coloured text leaves the fill colour unspecified, text in gray mode leaves it alone. *)
    | Text _ _ | Cell _ _ _ | CellOpt _ _ _ _ _ | PlaceHolder _ _ => if a_coltext a then ag a (set_fill g None) st else a
    | Image _ idx o => amark a (imageMark H g idx o)
    | Template _ name sx sy tx ty =>                  (* 8.10: its own line width and colours, scaled and moved *)
        amark a (set_fill (set_stroke (set_lw (set_ctm g (p_ctm g ++ [[d 4 sx; wd "0"; wd "0"; d 4 sy; d 4 tx; d 4 (ty +. H)]])) [wd "1"]) [black' "G"]) (Some [black' "g"]),
                 External [TName (tl name)])
    | ColorSpace _ n => ag a (set_stroke g [op_ [TName (bs "CS" ++ fmt_d (n + 1))] "CS"; op_ [wd "1.0000"] "SCN"]) st
    | SetX _ _ | SetY _ _ | SetXY _ _ _ | Br _ _ | SetFont _ _ _ _ _ | SetFontSize _ _ | SetCharSpacing _ _ => a
    end.
  Definition asks (ideal : bool) (a : asked) (l : list (call N)) : asked := fold_left (ask ideal) l a.
End Asked.
