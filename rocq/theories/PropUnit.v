(** PropUnit.v — C19 (unit conversion) and C20 (automatic page break). *)
From Coq Require Import QArith Lqa.
From Coq Require Import Floats.SpecFloat.
From Verif Require Import Base NumModel UnitModel.
Open Scope Q_scope.

(** ** C19 *)
(** Specification: the number of points of one unit, 1 for "no unit", and the custom factor when given. *)
Definition points_per_unit (unit : Z) (custom : Q) : Q :=
  if Qeq_bool custom 0 then
    match unit with 2%Z => 72 / (254 # 10) | 3%Z => 72 / (254 # 100) | 4%Z => 72 | 5%Z => 72 / 96 | _ => 1 end
  else custom.

Lemma ppu_nonzero unit custom : ~ points_per_unit unit custom == 0.
Proof.
  unfold points_per_unit. destruct (Qeq_bool custom 0) eqn:E.
  - destruct unit as [|p|p]; try discriminate. do 3 (destruct p as [p|p|]; try discriminate).
  - intros H. apply Qeq_bool_iff in H. congruence.
Qed.
Lemma unit_cases (t : Z) : factor Qn t = None /\ (forall c, Qeq_bool c 0 = true -> points_per_unit t c == 1) \/
  (exists k, factor Qn t = Some k /\ ~ k == 0 /\ forall c, Qeq_bool c 0 = true -> k == points_per_unit t c).
Proof.
  unfold factor, points_per_unit.
  destruct (Z.eqb_spec t 1) as [->|N1]; [right; eexists; split; [reflexivity|split; [intros H; discriminate H|intros c ->; reflexivity]]|].
  destruct (Z.eqb_spec t 2) as [->|N2]; [right; eexists; split; [reflexivity|split; [intros H; discriminate H|intros c ->; reflexivity]]|].
  destruct (Z.eqb_spec t 3) as [->|N3]; [right; eexists; split; [reflexivity|split; [intros H; discriminate H|intros c ->; reflexivity]]|].
  destruct (Z.eqb_spec t 4) as [->|N4]; [right; eexists; split; [reflexivity|split; [intros H; discriminate H|intros c ->; reflexivity]]|].
  destruct (Z.eqb_spec t 5) as [->|N5]; [right; eexists; split; [reflexivity|split; [intros H; discriminate H|intros c ->; reflexivity]]|].
  left. split; [reflexivity|]. intros c ->. destruct t as [|p|p]; try reflexivity. do 3 (destruct p as [p|p|]; try reflexivity; try congruence).
Qed.
(** In exact arithmetic every unit and every custom factor converts by the factor the unit stands for ... *)
Theorem C19_conversion_factor (c : ucfg Qn) (u : Q) :
  unitsToPoints Qn c u == u * points_per_unit (u_unit c) (u_conv c) /\
  pointsToUnits Qn c u == u / points_per_unit (u_unit c) (u_conv c).
Proof.
  unfold unitsToPoints, pointsToUnits. cbn [neq Qn nmul ndiv nZ nofZ]. unfold nZ. cbn [nofZ Qn]. change (inject_Z 0) with 0.
  destruct (Qeq_bool (u_conv c) 0) eqn:E; cbn [negb].
  - destruct (unit_cases (u_unit c)) as [[-> H]|(k & -> & H & K)].
    + rewrite (H _ E). split; field.
    + rewrite <- (K _ E). split; reflexivity.
  - unfold points_per_unit. rewrite E. split; reflexivity.
Qed.
(** ... so converting to points and back loses nothing. *)
Theorem C19_round_trip (c : ucfg Qn) (u : Q) :
  pointsToUnits Qn c (unitsToPoints Qn c u) == u /\ unitsToPoints Qn c (pointsToUnits Qn c u) == u.
Proof.
  pose proof (ppu_nonzero (u_unit c) (u_conv c)) as NZ. split.
  - rewrite (proj2 (C19_conversion_factor c _)), (proj1 (C19_conversion_factor c _)). field. exact NZ.
  - rewrite (proj1 (C19_conversion_factor c _)), (proj2 (C19_conversion_factor c _)). field. exact NZ.
Qed.
(** Scalars, rectangles and boxes agree as long as no custom factor is set (and the rectangle carries no
    unit of its own), whatever the arithmetic. *)
Theorem C19_rect_uniform (N : num) (c : ucfg N) (r : rect N) :
  u_conv c = nZ N 0 -> u_unit (r_over N r) = 0%Z ->
  r_w N (rectU2P N r (u_unit c)) = unitsToPoints N c (r_w N r) /\ r_h N (rectU2P N r (u_unit c)) = unitsToPoints N c (r_h N r).
Proof.
  intros C U. destruct c as [t k]. cbn [u_conv u_unit] in *. subst k. unfold rectU2P, rectU2P_cfg, rectCfg. rewrite U. cbn. split; reflexivity.
Qed.
(** Back to units: a rectangle in points converts by the factor of the unit asked for, unless it carries its own unit, which then
    counts in both directions (exact arithmetic). *)
Theorem C19_rect_back (r : rect Qn) (t : Z) :
  let k := if (u_unit (r_over Qn r) =? 0)%Z then points_per_unit t 0 else points_per_unit (u_unit (r_over Qn r)) (u_conv (r_over Qn r)) in
  r_w Qn (rectP2U Qn r t) == r_w Qn r / k /\ r_h Qn (rectP2U Qn r t) == r_h Qn r / k /\
  r_w Qn (rectU2P Qn r t) == r_w Qn r * k /\ r_h Qn (rectU2P Qn r t) == r_h Qn r * k.
Proof.
  unfold rectP2U, rectU2P, rectU2P_cfg, rectCfg. destruct (u_unit (r_over Qn r) =? 0)%Z; cbn [r_w r_h].
  - pose proof (fun u => C19_conversion_factor (defcfg Qn t) u) as H. repeat split; apply H.
  - repeat split; apply C19_conversion_factor.
Qed.
Theorem C19_rect_round_trip (r : rect Qn) (t : Z) : u_unit (r_over Qn r) = 0%Z ->
  r_w Qn (rectP2U Qn (rectU2P Qn r t) t) == r_w Qn r /\ r_h Qn (rectP2U Qn (rectU2P Qn r t) t) == r_h Qn r.
Proof.
  intros U. destruct (C19_rect_back (rectU2P Qn r t) t) as (A & B & _). destruct (C19_rect_back r t) as (_ & _ & C & D).
  cbv zeta in *. replace (u_unit (r_over Qn (rectU2P Qn r t)) =? 0)%Z with true in A, B by reflexivity. rewrite U in C, D. cbn [Z.eqb] in C, D.
  rewrite A, B, C, D. split; field; apply ppu_nonzero.
Qed.
Theorem C19_box_uniform (N : num) (c : ucfg N) (b : box N) :
  u_conv c = nZ N 0 -> u_unit (b_over N b) = 0%Z ->
  let b' := boxU2P N b (u_unit c) in
  b_l N b' = unitsToPoints N c (b_l N b) /\ b_t N b' = unitsToPoints N c (b_t N b) /\
  b_r N b' = unitsToPoints N c (b_r N b) /\ b_b N b' = unitsToPoints N c (b_b N b).
Proof.
  intros C U. destruct c as [t k]. cbn [u_conv u_unit] in *. subst k. unfold boxU2P, boxU2P_cfg. rewrite U. cbn. repeat split; reflexivity.
Qed.
(** With a custom factor (Config.ConversionForUnit) they disagree: a length given as a scalar is scaled, the
    same length given as a Rect or Box (cells, images, page sizes of AddPageWithOption) is not. *)
Theorem C19_custom_factor_rect_refuted :
  forall (k w h : Q) (t : Z), ~ k == 0 ->
    let c := Build_ucfg Qn t k in
    let r := Build_rect Qn w h (defcfg Qn 0) in
    unitsToPoints Qn c w == w * k /\ r_w Qn (rectU2P Qn r t) == w * points_per_unit t 0.
Proof.
  intros k w h t K. cbv zeta. split.
  - rewrite (proj1 (C19_conversion_factor _ _)). cbn [u_unit u_conv]. unfold points_per_unit.
    destruct (Qeq_bool k 0) eqn:E; [apply Qeq_bool_iff in E; contradiction|reflexivity].
  - exact (proj1 (C19_conversion_factor (defcfg Qn t) w)).
Qed.
Theorem C19_custom_factor_witness_refuted :
  exists (c : ucfg Qn) (r : rect Qn), u_unit (r_over Qn r) = 0%Z /\ ~ r_w Qn (rectU2P Qn r (u_unit c)) == unitsToPoints Qn c (r_w Qn r).
Proof. exists (Build_ucfg Qn 0 (72 / 300)), (Build_rect Qn 100 100 (defcfg Qn 0)). split; [reflexivity|]. vm_compute. discriminate. Qed.

(** In the float64 arithmetic the code uses, the round trip is not exact: with millimetres, reading back a
    position (SetX, then GetX) can give a different number. *)
Definition mm_cfg : ucfg F64 := defcfg F64 2.
Definition half (z : Z) : f64 := SFdiv prec64 emax64 (f64_ofZ z) (f64_ofZ 10).
Theorem C19_float_round_trip_refuted :
  pointsToUnits F64 mm_cfg (unitsToPoints F64 mm_cfg (f64_ofZ 7)) <> f64_ofZ 7 /\
  nfmt F64 17 (pointsToUnits F64 mm_cfg (unitsToPoints F64 mm_cfg (f64_ofZ 7))) = bs "7.00000000000000089".
Proof. split; [vm_compute; discriminate|vm_compute; reflexivity]. Qed.
(** What is read back through the cursor and margin getters is what was set (exact arithmetic). *)
Theorem C19_getters (k : cur Qn) (a b l t r m : Q) :
  getX Qn (setX Qn k a) == a /\ getY Qn (setY Qn k b) == b /\
  getX Qn (setXY Qn k a b) == a /\ getY Qn (setXY Qn k a b) == b /\
  marginLeft Qn (setMargins Qn k l t r m) == l /\ marginTop Qn (setMargins Qn k l t r m) == t /\
  marginRight Qn (setMargins Qn k l t r m) == r /\ marginBottom Qn (setMargins Qn k l t r m) == m.
Proof. repeat split; apply C19_round_trip. Qed.

(** Br goes to the left margin, the given number of units further down, and touches nothing else. *)
Theorem C19_br (k : cur Qn) (h : Q) :
  getX Qn (br Qn k h) == marginLeft Qn k /\ getY Qn (br Qn k h) == getY Qn k + h /\ k_pages Qn (br Qn k h) = k_pages Qn k /\
  marginLeft Qn (br Qn k h) = marginLeft Qn k /\ marginTop Qn (br Qn k h) = marginTop Qn k.
Proof.
  split; [reflexivity|]. split; [|repeat split; reflexivity].
  change (pointsToUnits Qn (k_cfg Qn k) (nadd Qn (k_y Qn k) (unitsToPoints Qn (k_cfg Qn k) h)) == pointsToUnits Qn (k_cfg Qn k) (k_y Qn k) + h).
  pose proof (ppu_nonzero (u_unit (k_cfg Qn k)) (u_conv (k_cfg Qn k))) as NZ. cbn [nadd Qn].
  rewrite !(proj2 (C19_conversion_factor _ _)), (proj1 (C19_conversion_factor _ _)). field. exact NZ.
Qed.

(** ** C20 *)
(** Specification.  A block of height [h] (points) at the cursor fits when it ends at or above the bottom
    margin of the page. *)
Definition fits (k : cur Qn) (h : Q) : Prop := k_y Qn k + h <= k_pageH Qn k - k_mb Qn k.
(** "The block stays where asked if it fits there, otherwise a new page starts with the cursor at its top
    left margin corner." *)
Definition breaks_properly (k k' : cur Qn) (y h : Q) : Prop :=
  (y + h <= k_pageH Qn k - k_mb Qn k -> k_pages Qn k' = k_pages Qn k /\ k_y Qn k' == y /\ k_x Qn k' = k_x Qn k /\ fits k' h) /\
  (~ y + h <= k_pageH Qn k - k_mb Qn k -> k_pages Qn k' = (k_pages Qn k + 1)%Z /\ k_y Qn k' == k_mt Qn k /\ k_x Qn k' = k_ml Qn k /\
     (k_mt Qn k + h <= k_defH Qn k - k_mb Qn k -> fits k' h)).

Lemma u2p_one (c : ucfg Qn) u : points_per_unit (u_unit c) (u_conv c) == 1 -> unitsToPoints Qn c u == u.
Proof. intros E. rewrite (proj1 (C19_conversion_factor c u)), E. ring. Qed.
Lemma p2u_one (c : ucfg Qn) u : points_per_unit (u_unit c) (u_conv c) == 1 -> pointsToUnits Qn c u == u.
Proof. intros E. rewrite (proj2 (C19_conversion_factor c u)), E. field. Qed.
Lemma Qlt_cases a b : nlt Qn a b = true /\ a < b \/ nlt Qn a b = false /\ b <= a.
Proof.
  cbn [nlt Qn]. destruct (Qle_bool b a) eqn:E; cbn [negb].
  - right. split; [reflexivity|now apply Qle_bool_iff].
  - left. split; [reflexivity|]. apply Qnot_le_lt. intros H. apply Qle_bool_iff in H. congruence.
Qed.
(** Proved when the document unit is points (or none): SetNewYIfNoOffset. *)
Theorem C20_no_offset_points (k : cur Qn) (y h : Q) :
  points_per_unit (u_unit (k_cfg Qn k)) (u_conv (k_cfg Qn k)) == 1 -> breaks_properly k (setNewYIfNoOffset Qn k y h) y h.
Proof.
  intros P. unfold setNewYIfNoOffset. cbv zeta. pose proof (u2p_one _ y P) as Ey. pose proof (u2p_one _ h P) as Eh.
  pose proof (p2u_one _ (k_mb Qn k) P) as Eb. pose proof (p2u_one _ (k_mt Qn k) P) as Et. fold (marginBottom Qn k) in Eb. fold (marginTop Qn k) in Et.
  cbn [nsub nadd Qn].
  destruct (Qlt_cases (k_pageH Qn k - marginBottom Qn k) (unitsToPoints Qn (k_cfg Qn k) y + unitsToPoints Qn (k_cfg Qn k) h)) as [[-> L]|[-> L]];
    rewrite Ey, Eh, Eb in L; split; intros H; try lra; cbn [with_xy k_pages k_y k_x addPage]; unfold fits; cbn [with_xy k_y k_pageH k_mb addPage];
    repeat split; try assumption; try lra; try (rewrite Et; lra); try (rewrite Ey; lra).
Qed.
(** SetNewY and SetNewXY behave so when the requested y is the current one. *)
Theorem C20_new_y_points (k : cur Qn) (y h : Q) :
  points_per_unit (u_unit (k_cfg Qn k)) (u_conv (k_cfg Qn k)) == 1 -> k_y Qn k == y -> breaks_properly k (setNewY Qn k y h) y h.
Proof.
  intros P Y. unfold setNewY. cbv zeta. pose proof (u2p_one _ y P) as Ey. pose proof (u2p_one _ h P) as Eh.
  pose proof (p2u_one _ (k_mb Qn k) P) as Eb. pose proof (p2u_one _ (k_mt Qn k) P) as Et. fold (marginBottom Qn k) in Eb. fold (marginTop Qn k) in Et.
  cbn [nsub nadd Qn].
  destruct (Qlt_cases (k_pageH Qn k - marginBottom Qn k) (k_y Qn k + unitsToPoints Qn (k_cfg Qn k) h)) as [[-> L]|[-> L]];
    rewrite Eh, Eb, Y in L; split; intros H; try lra; cbn [with_xy k_pages k_y k_x addPage]; unfold fits; cbn [with_xy k_y k_pageH k_mb addPage];
    repeat split; try assumption; try lra; try (rewrite Et; lra); try (rewrite Ey; lra).
Qed.
(** For every unit and every function: whether a page is added is decided by comparing with the bottom margin
    expressed in document units. *)
Theorem C20_break_condition (k : cur Qn) (y h : Q) :
  let f := points_per_unit (u_unit (k_cfg Qn k)) (u_conv (k_cfg Qn k)) in
  (k_pages Qn (setNewYIfNoOffset Qn k y h) = (k_pages Qn k + 1)%Z <-> k_pageH Qn k - k_mb Qn k / f < y * f + h * f) /\
  (k_pages Qn (setNewY Qn k y h) = (k_pages Qn k + 1)%Z <-> k_pageH Qn k - k_mb Qn k / f < k_y Qn k + h * f).
Proof.
  cbv zeta. unfold setNewYIfNoOffset, setNewY. cbv zeta. cbn [nsub nadd Qn].
  pose proof (proj1 (C19_conversion_factor (k_cfg Qn k) y)) as Ey. pose proof (proj1 (C19_conversion_factor (k_cfg Qn k) h)) as Eh.
  pose proof (proj2 (C19_conversion_factor (k_cfg Qn k) (k_mb Qn k))) as Eb. fold (marginBottom Qn k) in Eb.
  split.
  - destruct (Qlt_cases (k_pageH Qn k - marginBottom Qn k) (unitsToPoints Qn (k_cfg Qn k) y + unitsToPoints Qn (k_cfg Qn k) h)) as [[-> L]|[-> L]];
      rewrite Ey, Eh, Eb in L; cbn [with_xy k_pages addPage]; split; intros H; try lia; try lra; try reflexivity.
  - destruct (Qlt_cases (k_pageH Qn k - marginBottom Qn k) (k_y Qn k + unitsToPoints Qn (k_cfg Qn k) h)) as [[-> L]|[-> L]];
      rewrite Eh, Eb in L; cbn [with_xy k_pages addPage]; split; intros H; try lia; try lra; try reflexivity.
Qed.
(** Refuted for other units: a centimetre document, page 800pt high, bottom margin 2cm (7200/127 = 56.69pt).
    A block of 1cm asked for at y = 26.5cm would end at 779.5pt, inside the bottom margin (743.3pt), but no page is
    added, because 2 (not 56.69) is subtracted from the page height.  And after a break the cursor is at
    2 points instead of 2cm. *)
Definition cm_doc (y : Q) : cur Qn :=
  let m := unitsToPoints Qn (defcfg Qn 3) 2 in Build_cur Qn (defcfg Qn 3) 800 800 m m m m m y 0 1.
Theorem C20_units_refuted :
  (k_pages Qn (setNewYIfNoOffset Qn (cm_doc 100) (265 # 10) 1) = 1%Z /\
   ~ fits (setNewYIfNoOffset Qn (cm_doc 100) (265 # 10) 1) (unitsToPoints Qn (defcfg Qn 3) 1)) /\
  (k_pages Qn (setNewYIfNoOffset Qn (cm_doc 100) 28 1) = 2%Z /\
   k_y Qn (setNewYIfNoOffset Qn (cm_doc 100) 28 1) == 2 /\ k_mt Qn (cm_doc 100) == 7200 / 127).
Proof.
  split; [split; [vm_compute; reflexivity|unfold fits; vm_compute; intros H; apply H; reflexivity]|].
  split; [vm_compute; reflexivity|split; vm_compute; reflexivity].
Qed.
(** Refuted for SetNewY when y is not the current position (points): the cursor is at 100, SetNewY(750, 100) on
    an 800pt page leaves the block across the bottom margin, because the old position is tested. *)
Theorem C20_new_y_refuted :
  exists k : cur Qn, points_per_unit (u_unit (k_cfg Qn k)) (u_conv (k_cfg Qn k)) == 1 /\
    k_pages Qn (setNewY Qn k 750 100) = k_pages Qn k /\ ~ fits (setNewY Qn k 750 100) 100.
Proof.
  exists (Build_cur Qn (defcfg Qn 1) 800 800 10 10 10 10 10 100 0 1). split; [reflexivity|].
  split; [vm_compute; reflexivity|]. unfold fits. vm_compute. intros H. now apply H.
Qed.
(** The hypotheses of C20_no_offset_points and C20_new_y_points are met by an A4-like page in points; one call
    keeps the page, another adds one. *)
Example C20_instance :
  let k := Build_cur Qn (defcfg Qn 1) 842 842 10 10 10 10 10 700 0 1 in
  points_per_unit (u_unit (k_cfg Qn k)) (u_conv (k_cfg Qn k)) == 1 /\
  k_pages Qn (setNewYIfNoOffset Qn k 700 100) = 1%Z /\ k_pages Qn (setNewYIfNoOffset Qn k 800 100) = 2%Z /\
  k_pages Qn (setNewY Qn k 700 200) = 2%Z.
Proof. cbv zeta. split; [reflexivity|]. repeat split; vm_compute; reflexivity. Qed.
Example C19_instance :      (* 10 mm and 1 cm are the same number of points; a custom factor overrides the unit *)
  unitsToPoints Qn (defcfg Qn 2) 10 == unitsToPoints Qn (defcfg Qn 3) 1 /\ unitsToPoints Qn (Build_ucfg Qn 2 (72 / 300)) 300 == 72.
Proof. split; vm_compute; reflexivity. Qed.

Print Assumptions C19_conversion_factor.
Print Assumptions C19_round_trip.
Print Assumptions C19_rect_uniform.
Print Assumptions C19_box_uniform.
Print Assumptions C19_custom_factor_rect_refuted.
Print Assumptions C19_custom_factor_witness_refuted.
Print Assumptions C19_float_round_trip_refuted.
Print Assumptions C19_getters.
Print Assumptions C20_no_offset_points.
Print Assumptions C20_new_y_points.
Print Assumptions C20_break_condition.
Print Assumptions C20_units_refuted.
Print Assumptions C20_new_y_refuted.

(** SetNewXY: the same decision, and the block starts at the x asked for, on whichever page. *)
Theorem C20_new_xy_points (k : cur Qn) (y x h : Q) :
  points_per_unit (u_unit (k_cfg Qn k)) (u_conv (k_cfg Qn k)) == 1 -> k_y Qn k == y ->
  let k' := setNewXY Qn k y x h in
  k_x Qn k' == x /\
  (y + h <= k_pageH Qn k - k_mb Qn k -> k_pages Qn k' = k_pages Qn k /\ k_y Qn k' == y /\ fits k' h) /\
  (~ y + h <= k_pageH Qn k - k_mb Qn k -> k_pages Qn k' = (k_pages Qn k + 1)%Z /\ k_y Qn k' == k_mt Qn k /\
     (k_mt Qn k + h <= k_defH Qn k - k_mb Qn k -> fits k' h)).
Proof.
  intros P Y k'. destruct (C20_new_y_points k y h P Y) as [A B]. unfold k', setNewXY, setX. cbn [with_xy k_x k_y k_pages]. unfold fits in *. cbn [with_xy k_y k_pageH k_mb].
  split.
  - rewrite (u2p_one (k_cfg Qn (setNewY Qn k y h)) x); [reflexivity|]. unfold setNewY. cbv zeta. destruct (nlt Qn _ _); exact P.
  - split; intros H; [destruct (A H) as (A1 & A2 & A3 & A4)|destruct (B H) as (A1 & A2 & A3 & A4)]; auto.
Qed.
Print Assumptions C20_new_xy_points.
