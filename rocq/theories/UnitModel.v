(** UnitModel.v — config.go:64-170 (unit conversion), rect.go, box.go (unit overrides), margin.go, and the
    cursor functions of gopdf.go (364-485) with the automatic page break, over any [num]. *)
From Coq Require Import QArith.
From Verif Require Import Base NumModel.
Open Scope Z_scope.

Section Units.
  Variable N : num.
  Notation T := (T N).
  Definition nZ (z : Z) : T := nofZ N z.
  Definition nfrac (a b : Z) : T := ndiv N (nZ a) (nZ b).      (* an untyped Go constant a/b *)

  (** Config.Unit and Config.ConversionForUnit (config.go:43-60); defaultUnitConfig (150-160). *)
  Record ucfg := { u_unit : Z; u_conv : T }.
  Definition defcfg (t : Z) : ucfg := {| u_unit := t; u_conv := nZ 0 |}.

  (** config.go:5-24: UnitUnset=0, PT=1, MM=2, CM=3, IN=4, PX=5; constant factors. *)
  Definition factor (t : Z) : option T :=
    if t =? 1 then Some (nZ 1)
    else if t =? 2 then Some (nfrac 360 127)          (* 72.0/25.4 *)
    else if t =? 3 then Some (nfrac 3600 127)         (* 72.0/2.54 *)
    else if t =? 4 then Some (nZ 72)
    else if t =? 5 then Some (nfrac 3 4)
    else None.
  (** config.go:85-103 unitsToPoints, 110-128 pointsToUnits. *)
  Definition unitsToPoints (c : ucfg) (u : T) : T :=
    if negb (neq N (u_conv c) (nZ 0)) then nmul N u (u_conv c)
    else match factor (u_unit c) with Some k => nmul N u k | None => u end.
  Definition pointsToUnits (c : ucfg) (u : T) : T :=
    if negb (neq N (u_conv c) (nZ 0)) then ndiv N u (u_conv c)
    else match factor (u_unit c) with Some k => ndiv N u k | None => u end.

  (** rect.go:4-20, 21-34, 37-50: Rect.PointsToUnits(t) and Rect.UnitsToPoints(t): a fresh default config for
      the unit t, unless the rectangle carries its own unit.  52-62: the unexported unitsToPoints(cfg). *)
  Record rect := { r_w : T; r_h : T; r_over : ucfg }.
  Definition rectCfg (r : rect) (c : ucfg) : ucfg := if u_unit (r_over r) =? 0 then c else r_over r.
  Definition rectU2P_cfg (r : rect) (c : ucfg) : rect :=
    let c := rectCfg r c in {| r_w := unitsToPoints c (r_w r); r_h := unitsToPoints c (r_h r); r_over := defcfg 0 |}.
  Definition rectU2P (r : rect) (t : Z) : rect := rectU2P_cfg r (defcfg t).
  Definition rectP2U (r : rect) (t : Z) : rect :=
    let c := rectCfg r (defcfg t) in {| r_w := pointsToUnits c (r_w r); r_h := pointsToUnits c (r_h r); r_over := defcfg 0 |}.
  (** box.go:8-49, the same for the four sides. *)
  Record box := { b_l : T; b_t : T; b_r : T; b_b : T; b_over : ucfg }.
  Definition boxU2P_cfg (b : box) (c : ucfg) : box :=
    let c := if u_unit (b_over b) =? 0 then c else b_over b in
    {| b_l := unitsToPoints c (b_l b); b_t := unitsToPoints c (b_t b); b_r := unitsToPoints c (b_r b);
       b_b := unitsToPoints c (b_b b); b_over := defcfg 0 |}.
  Definition boxU2P (b : box) (t : Z) : box := boxU2P_cfg b (defcfg t).

  (** The cursor part of GoPdf: config, default page size (points), current page size, margins (points),
      cursor (points), number of pages and how often SetX was called. *)
  Record cur := { k_cfg : ucfg; k_defH : T; k_pageH : T; k_ml : T; k_mt : T; k_mr : T; k_mb : T;
                  k_x : T; k_y : T; k_setx : Z; k_pages : Z }.
  Definition with_xy (k : cur) (x y : T) (sx : Z) : cur :=
    {| k_cfg := k_cfg k; k_defH := k_defH k; k_pageH := k_pageH k; k_ml := k_ml k; k_mt := k_mt k; k_mr := k_mr k;
       k_mb := k_mb k; k_x := x; k_y := y; k_setx := sx; k_pages := k_pages k |}.
  (** gopdf.go:800-848 AddPage, the part that concerns the cursor (callbacks restore it, 838-847). *)
  Definition addPage (k : cur) : cur :=
    {| k_cfg := k_cfg k; k_defH := k_defH k; k_pageH := k_defH k; k_ml := k_ml k; k_mt := k_mt k; k_mr := k_mr k;
       k_mb := k_mb k; k_x := k_ml k; k_y := k_mt k; k_setx := k_setx k; k_pages := k_pages k + 1 |}.
  (** margin.go:57-104. *)
  Definition marginTop (k : cur) : T := pointsToUnits (k_cfg k) (k_mt k).
  Definition marginBottom (k : cur) : T := pointsToUnits (k_cfg k) (k_mb k).
  Definition marginLeft (k : cur) : T := pointsToUnits (k_cfg k) (k_ml k).
  Definition marginRight (k : cur) : T := pointsToUnits (k_cfg k) (k_mr k).
  (** margin.go:23-27 SetMargins. *)
  Definition setMargins (k : cur) (l t r b : T) : cur :=
    {| k_cfg := k_cfg k; k_defH := k_defH k; k_pageH := k_pageH k;
       k_ml := unitsToPoints (k_cfg k) l; k_mt := unitsToPoints (k_cfg k) t; k_mr := unitsToPoints (k_cfg k) r;
       k_mb := unitsToPoints (k_cfg k) b; k_x := k_x k; k_y := k_y k; k_setx := k_setx k; k_pages := k_pages k |}.
  (** gopdf.go:364-374, 467-485. *)
  Definition setX (k : cur) (x : T) : cur := with_xy k (unitsToPoints (k_cfg k) x) (k_y k) (k_setx k + 1).
  Definition setY (k : cur) (y : T) : cur := with_xy k (k_x k) (unitsToPoints (k_cfg k) y) (k_setx k).
  Definition setXY (k : cur) (x y : T) : cur :=
    with_xy k (unitsToPoints (k_cfg k) x) (unitsToPoints (k_cfg k) y) (k_setx k + 1).
  Definition getX (k : cur) : T := pointsToUnits (k_cfg k) (k_x k).
  Definition getY (k : cur) : T := pointsToUnits (k_cfg k) (k_y k).
  (** 344-348 Br. *)
  Definition br (k : cur) (h : T) : cur := with_xy k (k_ml k) (nadd N (k_y k) (unitsToPoints (k_cfg k) h)) (k_setx k).
  (** 383-391 SetNewY: the test uses the old cursor and compares points with MarginBottom() in units. *)
  Definition setNewY (k : cur) (y h : T) : cur :=
    let y := unitsToPoints (k_cfg k) y in let h := unitsToPoints (k_cfg k) h in
    let over := nlt N (nsub N (k_pageH k) (marginBottom k)) (nadd N (k_y k) h) in
    let k' := if over then addPage k else k in
    with_xy k' (k_x k') (if over then marginTop k else y) (k_setx k').
  (** 399-407 SetNewYIfNoOffset: the test uses the new y. *)
  Definition setNewYIfNoOffset (k : cur) (y h : T) : cur :=
    let y := unitsToPoints (k_cfg k) y in let h := unitsToPoints (k_cfg k) h in
    let over := nlt N (nsub N (k_pageH k) (marginBottom k)) (nadd N y h) in
    let k' := if over then addPage k else k in
    with_xy k' (k_x k') (if over then marginTop k else y) (k_setx k').
  (** 416-425 SetNewXY. *)
  Definition setNewXY (k : cur) (y x h : T) : cur := setX (setNewY k y h) x.
End Units.
Arguments u_unit {N}. Arguments u_conv {N}.
