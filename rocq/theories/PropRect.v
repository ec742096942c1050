(** PropRect.v — C44: Rectangle validates its arguments; C56: what it draws stays inside the rectangle. *)
From Coq Require Import QArith Lqa.
From Coq Require Import Floats.SpecFloat.
From Verif Require Import Base NumModel UnitModel DrawModel RectModel.
Open Scope Z_scope.

(** ** C44, exact arithmetic *)
(** Inverted or empty coordinates, or — where corners are to be rounded — a radius exceeding a side. *)
Definition unacceptable (x0 y0 x1 y1 radius : Q) (n : Z) : Prop :=
  (x1 <= x0)%Q \/ (y1 <= y0)%Q \/ (0 < n /\ (0 < radius)%Q /\ ((x1 - x0 < radius)%Q \/ (y1 - y0 < radius)%Q)).
(** One polygon more than before, and nothing else changed. *)
Definition draws (s s' : ds Qn) (pts : list (Q * Q)) (style : bytes) : Prop := s' = add Qn s (CPolygon Qn (s_pageH Qn s) (map (ptU2P Qn s) pts) style (trOf Qn s None)).

Lemma Qle_bool_true a b : Qle_bool a b = true <-> (a <= b)%Q. Proof. apply Qle_bool_iff. Qed.
Lemma Qle_bool_false a b : Qle_bool a b = false <-> (b < a)%Q.
Proof.
  split.
  - intros H. apply Qnot_le_lt. intros K. apply Qle_bool_iff in K. congruence.
  - intros H. destruct (Qle_bool a b) eqn:E; [|reflexivity]. apply Qle_bool_iff in E. exfalso. apply (Qlt_not_le _ _ H E).
Qed.
Lemma nlt_q a b : nlt Qn a b = true <-> (a < b)%Q.
Proof. cbn. rewrite negb_true_iff. apply Qle_bool_false. Qed.
Lemma nlt_q_false a b : nlt Qn a b = false <-> (b <= a)%Q.
Proof. cbn. rewrite negb_false_iff. apply Qle_bool_iff. Qed.
(** The loop over the angles runs [n] times. *)
Lemma degrees_count (n : Z) (angle : Q) : 0 < n -> (angle == 90 / inject_Z (n + 1))%Q -> forall k j acc fuel, Z.of_nat k + j = n -> 0 <= j -> (acc == inject_Z (j + 1) * angle)%Q -> (k <= fuel)%nat ->
  exists l, degrees Qn fuel acc angle = Some l /\ List.length l = k.
Proof.
  intros Hn Ea. assert (P : (0 < inject_Z (n + 1))%Q) by (change 0%Q with (inject_Z 0); rewrite <- Zlt_Qlt; lia).
  assert (A90 : (inject_Z (n + 1) * angle == 90)%Q) by (rewrite Ea; field; intros H; rewrite H in P; discriminate P).
  assert (Ap : (0 < angle)%Q) by (rewrite Ea; apply Qlt_shift_div_l; [exact P|reflexivity]).
  induction k as [|k IH]; intros j acc fuel K J Eacc F.
  - exists []. split; [|reflexivity]. assert (L : nlt Qn acc (nofZ Qn 90) = false).
    { apply nlt_q_false. cbn [nofZ Qn]. rewrite Eacc. replace (j + 1) with (n + 1) by lia. rewrite A90. apply Qle_refl. }
    destruct fuel; cbn [degrees]; rewrite L; reflexivity.
  - destruct fuel as [|fuel]; [lia|]. assert (L : nlt Qn acc (nofZ Qn 90) = true).
    { apply nlt_q. cbn [nofZ Qn]. change (inject_Z 90) with 90%Q. rewrite Eacc, <- A90. apply Qmult_lt_compat_r; [exact Ap|]. rewrite <- Zlt_Qlt. lia. }
    destruct (IH (j + 1) (acc + angle)%Q fuel) as (l & E & Len); [lia|lia| |lia|].
    { rewrite Eacc, !inject_Z_plus. ring. }
    exists (acc :: l). cbn [degrees]. rewrite L. change (nadd Qn acc angle) with (acc + angle)%Q. rewrite E. split; [reflexivity|]. cbn [List.length]. f_equal. exact Len.
Qed.

Theorem C44_rectangle_validates :
  forall cos sin pi s x0 y0 x1 y1 style radius n, exists budget, forall fuel, (budget <= fuel)%nat ->
    let result := rectangle Qn cos sin pi fuel s x0 y0 x1 y1 style radius n in
    (unacceptable x0 y0 x1 y1 radius n -> result = (s, ErrInvalidRectangleCoordinates)) /\
    (~ unacceptable x0 y0 x1 y1 radius n -> exists s' pts, result = (s', Done) /\ draws s s' pts style /\
       Z.of_nat (List.length pts) = if (0 <? n) && negb (Qle_bool radius 0) then 4 * (n + 2) else 4).
Proof.
  intros cos sin pi s x0 y0 x1 y1 style radius n. exists (Z.to_nat n). intros fuel F result. unfold result, rectangle, unacceptable, draws.
  change (nle Qn) with Qle_bool. cbn [step].
  destruct (Qle_bool x1 x0) eqn:E1; [apply Qle_bool_iff in E1; cbn [orb]; split; [reflexivity|intros H; exfalso; apply H; now left]|]. apply Qle_bool_false in E1.
  destruct (Qle_bool y1 y0) eqn:E2; [apply Qle_bool_iff in E2; cbn [orb]; split; [reflexivity|intros H; exfalso; apply H; right; now left]|]. apply Qle_bool_false in E2.
  cbn [orb]. change (nofZ Qn 0) with 0%Q.
  destruct (Z.leb_spec n 0) as [Hn|Hn]; [|destruct (Qle_bool radius 0) eqn:E3].
  - cbn [orb]. split; [intros [H|[H|[H _]]]; [exfalso; exact (Qlt_not_le _ _ E1 H)|exfalso; exact (Qlt_not_le _ _ E2 H)|lia]|].
    intros _. do 2 eexists. split; [reflexivity|]. split; [reflexivity|]. replace (0 <? n) with false by lia. reflexivity.
  - cbn [orb]. apply Qle_bool_iff in E3. split; [intros [H|[H|(_ & H & _)]]; exfalso; [exact (Qlt_not_le _ _ E1 H)|exact (Qlt_not_le _ _ E2 H)|exact (Qlt_not_le _ _ H E3)]|].
    intros _. do 2 eexists. split; [reflexivity|]. split; [reflexivity|]. rewrite andb_false_r. reflexivity.
  - cbn [orb]. apply Qle_bool_false in E3.
    destruct (nlt Qn (nsub Qn x1 x0) radius) eqn:E4; [apply nlt_q in E4; cbn [orb]; split; [reflexivity|intros H; exfalso; apply H; right; right; split; [lia|split; [exact E3|now left]]]|].
    destruct (nlt Qn (nsub Qn y1 y0) radius) eqn:E5; [apply nlt_q in E5; cbn [orb]; split; [reflexivity|intros H; exfalso; apply H; right; right; split; [lia|split; [exact E3|now right]]]|].
    cbn [orb]. apply nlt_q_false in E4. apply nlt_q_false in E5. cbn [nsub Qn] in E4, E5.
    split; [intros [H|[H|(_ & _ & [H|H])]]; exfalso; [exact (Qlt_not_le _ _ E1 H)|exact (Qlt_not_le _ _ E2 H)|exact (Qlt_not_le _ _ H E4)|exact (Qlt_not_le _ _ H E5)]|]. intros _.
    set (angle := ndiv Qn (nofZ Qn 90) (nofZ Qn (n + 1))).
    destruct (degrees_count n angle Hn ltac:(reflexivity) (Z.to_nat n) 0 angle fuel) as (l & D & L); [lia|lia|cbn; ring|exact F|].
    rewrite D. do 2 eexists. split; [reflexivity|]. split; [reflexivity|]. cbn [negb]. rewrite andb_true_r. replace (0 <? n) with true by lia.
    unfold corner_points. cbn [List.length app]. repeat (rewrite app_length || rewrite map_length || rewrite rev_length || cbn [List.length app]). rewrite L. lia.
Qed.
Print Assumptions C44_rectangle_validates.

(** ** C44, float64: the same with the comparisons and the subtraction of float64 (any arithmetic, in fact), whenever the
    loop over the angles ends. *)
Theorem C44_rectangle_validates_float64_partial :
  forall cos sin pi fuel s x0 y0 x1 y1 style radius n,
    let result := rectangle F64 cos sin pi fuel s x0 y0 x1 y1 style radius n in
    let bad := SFleb x1 x0 || SFleb y1 y0 || ((0 <? n) && negb (SFleb radius (S754_zero false)) &&
                (SFltb (SFsub prec64 emax64 x1 x0) radius || SFltb (SFsub prec64 emax64 y1 y0) radius)) in
    (bad = true -> result = (s, ErrInvalidRectangleCoordinates)) /\
    (bad = false -> snd result <> ErrInvalidRectangleCoordinates /\
       (snd result = Done -> exists pts, fst result = add F64 s (CPolygon F64 (s_pageH F64 s) (map (ptU2P F64 s) pts) style (trOf F64 s None)))).
Proof.
  intros. subst result bad. unfold rectangle. change (nle F64) with SFleb. change (nlt F64) with SFltb. change (nsub F64) with (SFsub prec64 emax64). change (nofZ F64 0) with (S754_zero false). cbn [step].
  destruct (SFleb x1 x0 || SFleb y1 y0); [cbn [orb]; split; [reflexivity|discriminate]|]. cbn [orb].
  replace (0 <? n) with (negb (n <=? 0)) by lia. destruct (n <=? 0); cbn [negb andb orb].
  { split; [discriminate|]. intros _. split; [discriminate|]. intros _. eexists. reflexivity. }
  destruct (SFleb radius (S754_zero false)); cbn [negb andb orb].
  { split; [discriminate|]. intros _. split; [discriminate|]. intros _. eexists. reflexivity. }
  destruct (SFltb (SFsub prec64 emax64 x1 x0) radius || SFltb (SFsub prec64 emax64 y1 y0) radius); [split; [reflexivity|discriminate]|].
  split; [discriminate|]. intros _. destruct (degrees _ _ _ _); (split; [discriminate|]); [|discriminate]. intros _. eexists. reflexivity.
Qed.
Print Assumptions C44_rectangle_validates_float64_partial.

(** Both cases occur, rounded and plain. *)
Example C44_met : unacceptable 0 0 10 5 6 3 /\ ~ unacceptable 0 0 10 5 2 3 /\ ~ unacceptable 0 0 10 5 6 0.
Proof.
  unfold unacceptable. split; [right; right; repeat split; try lia; try reflexivity; right; reflexivity|].
  split; intros [H|[H|(H1 & H2 & [H|H])]]; (lia || (apply (Qle_not_lt _ _ H); reflexivity) || (apply (Qlt_not_le _ _ H); discriminate)).
Qed.

(** ** C56: the outline drawn lies inside the rectangle asked for (exact arithmetic; cosine and sine between 0 and 1 on the
    first quadrant). *)
Definition quadrant (cos sin : Q -> Q) (pi : Q) : Prop := (0 < pi)%Q /\ forall v, (0 <= v)%Q -> (v <= pi / 2)%Q -> (0 <= cos v <= 1)%Q /\ (0 <= sin v <= 1)%Q.
Definition inside (x0 y0 x1 y1 : Q) (p : Q * Q) : Prop := (x0 <= fst p <= x1)%Q /\ (y0 <= snd p <= y1)%Q.
Lemma degrees_range fuel : forall (acc angle : Q) l, (0 < acc)%Q -> (0 < angle)%Q -> degrees Qn fuel acc angle = Some l -> Forall (fun v => 0 < v < 90)%Q l.
Proof.
  induction fuel as [|fuel IH]; intros acc angle l A B; cbn [degrees].
  - destruct (nlt Qn acc (nofZ Qn 90)); [discriminate|]. intros H. injection H as <-. constructor.
  - destruct (nlt Qn acc (nofZ Qn 90)) eqn:E; [|intros H; injection H as <-; constructor].
    destruct (degrees Qn fuel (nadd Qn acc angle) angle) as [r|] eqn:D; [|discriminate]. intros H. injection H as <-. constructor; [split; [exact A|apply nlt_q in E; exact E]|].
    assert (A' : (0 < acc + angle)%Q) by (change (0 < (acc : Q) + (angle : Q))%Q; cbn in A, B; lra). exact (IH _ _ _ A' B D).
Qed.
Theorem C56_drawn_inside :
  forall cos sin pi fuel s (x0 y0 x1 y1 : Q) style (radius : Q) n s', quadrant cos sin pi ->
    rectangle Qn cos sin pi fuel s x0 y0 x1 y1 style radius n = (s', Done) ->
    exists pts, draws s s' pts style /\ Forall (inside x0 y0 x1 y1) pts.
Proof.
  intros cos sin pi fuel s x0 y0 x1 y1 style radius n s' [Ppi Qd] H. unfold rectangle in H. change (nle Qn) with Qle_bool in H. cbn [step] in H.
  destruct (Qle_bool x1 x0) eqn:E1; [discriminate|]. destruct (Qle_bool y1 y0) eqn:E2; [discriminate|]. cbn [orb] in H. apply Qle_bool_false in E1. apply Qle_bool_false in E2.
  destruct ((n <=? 0) || Qle_bool radius (nofZ Qn 0)) eqn:E3.
  - apply (f_equal fst) in H; cbn [fst] in H; subst s'. eexists. split; [unfold draws; reflexivity|]. unfold inside. repeat constructor; cbn [fst snd]; lra.
  - apply orb_false_elim in E3 as [Hn E3]. apply Z.leb_gt in Hn. apply Qle_bool_false in E3. change (nofZ Qn 0) with 0%Q in E3.
    destruct (nlt Qn (nsub Qn x1 x0) radius) eqn:E4; [discriminate|]. destruct (nlt Qn (nsub Qn y1 y0) radius) eqn:E5; [discriminate|]. cbn [orb] in H.
    apply nlt_q_false in E4. apply nlt_q_false in E5. cbn [nsub Qn] in E4, E5.
    set (angle := ndiv Qn (nofZ Qn 90) (nofZ Qn (n + 1))) in H.
    assert (Ap : (0 < angle)%Q). { unfold angle. cbn [ndiv nofZ Qn]. apply Qlt_shift_div_l; [change 0%Q with (inject_Z 0); rewrite <- Zlt_Qlt; lia|reflexivity]. }
    destruct (degrees Qn fuel angle angle) as [l|] eqn:D; [|discriminate]. apply (f_equal fst) in H; cbn [fst] in H; subst s'. eexists. split; [unfold draws; reflexivity|].
    pose proof (degrees_range fuel _ _ _ Ap Ap D) as R. clear D.
    set (rad := map (fun v => ndiv Qn (nmul Qn v pi) (nofZ Qn 180)) l).
    assert (RR : Forall (fun v => (0 <= cos v <= 1)%Q /\ (0 <= sin v <= 1)%Q) rad).
    { unfold rad. apply Forall_map. eapply Forall_impl; [|exact R]. intros v [V1 V2]. cbn [ndiv nmul nofZ Qn]. change (inject_Z 180) with 180%Q. apply Qd.
      - apply Qle_shift_div_l; [reflexivity|]. rewrite Qmult_0_l. apply Qmult_le_0_compat; lra.
      - apply Qle_shift_div_r; [reflexivity|]. setoid_replace (pi / 2 * 180)%Q with (90 * pi)%Q by field. apply Qmult_le_compat_r; lra. }
    clearbody rad. clear R l.
    assert (RV : Forall (fun v => (0 <= cos v <= 1)%Q /\ (0 <= sin v <= 1)%Q) (rev rad)) by (apply Forall_rev; exact RR).
    assert (B : forall c, (0 <= c <= 1)%Q -> (0 <= radius * c <= radius)%Q).
    { intros c [C1 C2]. split; [apply Qmult_le_0_compat; lra|]. rewrite <- (Qmult_1_r radius) at 2. rewrite !(Qmult_comm radius). apply Qmult_le_compat_r; lra. }
    assert (MV : forall f vs, Forall (fun v => (0 <= cos v <= 1)%Q /\ (0 <= sin v <= 1)%Q) vs ->
       (forall v, (0 <= radius * cos v <= radius)%Q -> (0 <= radius * sin v <= radius)%Q -> inside x0 y0 x1 y1 (f v)) -> Forall (inside x0 y0 x1 y1) (map f vs)).
    { intros f vs Hv Hf. apply Forall_map. eapply Forall_impl; [|exact Hv]. intros v [C1 C2]. apply Hf; now apply B. }
    unfold corner_points. cbn [nadd nsub nmul Qn].
    repeat first [apply Forall_nil | apply Forall_app; split | apply Forall_cons | apply MV; [assumption|intros v C1 C2]]; unfold inside; cbn [fst snd]; lra.
Qed.
Print Assumptions C56_drawn_inside.
Example C56_met : quadrant (fun _ => (1#2)%Q) (fun _ => (1#2)%Q) 3.
Proof. split; [reflexivity|]. intros v _ _. split; split; discriminate. Qed.
(** In float64 the number of points on a corner is not always the one asked for: 12 gives 13. *)
Theorem C56_corner_points_float64_refuted :
  exists n l, degrees F64 20 (ndiv F64 (nofZ F64 90) (nofZ F64 (n + 1))) (ndiv F64 (nofZ F64 90) (nofZ F64 (n + 1))) = Some l /\ Z.of_nat (List.length l) = n + 1.
Proof. exists 12. eexists. split; [vm_compute; reflexivity|reflexivity]. Qed.
Print Assumptions C56_corner_points_float64_refuted.
(** … and a radius between half a side and the side is accepted, though the corners then cross. *)
Theorem C56_corners_may_cross_refuted :
  exists x0 y0 x1 y1 radius n, ~ unacceptable x0 y0 x1 y1 radius n /\ (x1 - radius < x0 + radius)%Q.
Proof. exists 0%Q, 0%Q, 10%Q, 10%Q, 8%Q, 3. split; [|reflexivity]. intros [H|[H|(H1 & H2 & [H|H])]]; revert H; unfold Qle, Qlt; cbn; lia. Qed.
Print Assumptions C56_corners_may_cross_refuted.

(** ** C56, the outline: with rounding, corner after corner, the points go round four quarter circles of the given radius,
    at the angles 0, 90/(n+1), 2·90/(n+1), …, 90 degrees. *)
Definition same_point (p q : Q * Q) : Prop := (fst p == fst q)%Q /\ (snd p == snd q)%Q.
Section Outline.
  Variables (cos sin : Q -> Q) (pi radius : Q) (n : Z).
  (** the k-th of the n+1 steps of a quarter turn, in radians, and its cosine and sine (exact at both ends) *)
  Definition turn (k : Z) : Q := (inject_Z k * (90 / inject_Z (n + 1)) * pi / 180)%Q.
  Definition cosk (k : Z) : Q := if k =? 0 then 1%Q else if k =? n + 1 then 0%Q else cos (turn k).
  Definition sink (k : Z) : Q := if k =? 0 then 0%Q else if k =? n + 1 then 1%Q else sin (turn k).
  Definition upto (m : Z) : list Z := map Z.of_nat (seq 0 (Z.to_nat (m + 1))).
  (** a quarter circle around (cx,cy), towards the side (sx,sy) *)
  Definition quarter (cx cy sx sy : Q) (ks : list Z) : list (Q * Q) := map (fun k => (cx + sx * (radius * cosk k), cy + sy * (radius * sink k))%Q) ks.
  Definition outline (x0 y0 x1 y1 : Q) : list (Q * Q) :=
    quarter (x0 + radius) (y0 + radius) (-1) (-1) (upto (n + 1)) ++ quarter (x1 - radius) (y0 + radius) 1 (-1) (rev (upto (n + 1))) ++
    quarter (x1 - radius) (y1 - radius) 1 1 (upto (n + 1)) ++ quarter (x0 + radius) (y1 - radius) (-1) 1 (rev (upto (n + 1))).
End Outline.
Lemma degrees_are (n : Z) (angle : Q) : 0 < n -> (angle == 90 / inject_Z (n + 1))%Q -> forall fuel k j acc, Z.of_nat k + j = n -> 0 <= j -> (acc == inject_Z (j + 1) * angle)%Q -> forall l,
  degrees Qn fuel acc angle = Some l -> Forall2 (fun a i => (a == inject_Z (Z.of_nat i) * angle)%Q) l (seq (Z.to_nat (j + 1)) k).
Proof.
  intros Hn Ea. assert (P : (0 < inject_Z (n + 1))%Q) by (change 0%Q with (inject_Z 0); rewrite <- Zlt_Qlt; lia).
  assert (A90 : (inject_Z (n + 1) * angle == 90)%Q) by (rewrite Ea; field; intros H; rewrite H in P; discriminate P).
  assert (Ap : (0 < angle)%Q) by (rewrite Ea; apply Qlt_shift_div_l; [exact P|reflexivity]).
  induction fuel as [|fuel IH]; intros k j acc K J Eacc l; cbn [degrees]; destruct k as [|k].
  - destruct (nlt Qn acc _); [discriminate|]. intros H. injection H as <-. constructor.
  - assert (L : nlt Qn acc (nofZ Qn 90) = true).
    { apply nlt_q. cbn [nofZ Qn]. change (inject_Z 90) with 90%Q. rewrite Eacc, <- A90. apply Qmult_lt_compat_r; [exact Ap|]. rewrite <- Zlt_Qlt. lia. }
    rewrite L. discriminate.
  - assert (L : nlt Qn acc (nofZ Qn 90) = false).
    { apply nlt_q_false. cbn [nofZ Qn]. rewrite Eacc. replace (j + 1) with (n + 1) by lia. rewrite A90. apply Qle_refl. }
    rewrite L. intros H. injection H as <-. constructor.
  - assert (L : nlt Qn acc (nofZ Qn 90) = true).
    { apply nlt_q. cbn [nofZ Qn]. change (inject_Z 90) with 90%Q. rewrite Eacc, <- A90. apply Qmult_lt_compat_r; [exact Ap|]. rewrite <- Zlt_Qlt. lia. }
    rewrite L. destruct (degrees Qn fuel (nadd Qn acc angle) angle) as [r|] eqn:D; [|discriminate]. intros H. injection H as <-. cbn [seq]. constructor.
    + rewrite Z2Nat.id by lia. exact Eacc.
    + replace (S (Z.to_nat (j + 1))) with (Z.to_nat (j + 1 + 1)) by lia. refine (IH k (j + 1) _ ltac:(lia) ltac:(lia) _ r D).
      change (nadd Qn acc angle) with (acc + angle)%Q. rewrite Eacc, !inject_Z_plus. ring.
Qed.
Lemma upto_split n : 0 < n -> upto (n + 1) = 0 :: map Z.of_nat (seq 1 (Z.to_nat n)) ++ [n + 1].
Proof.
  intros H. unfold upto. replace (Z.to_nat (n + 1 + 1)) with (1 + (Z.to_nat n + 1))%nat by lia. rewrite seq_app. cbn [seq app map Nat.add Z.of_nat]. f_equal.
  rewrite seq_app, map_app. f_equal. cbn [seq map]. f_equal. lia.
Qed.
Lemma Forall2_rev {A B} (R : A -> B -> Prop) l m : Forall2 R l m -> Forall2 R (rev l) (rev m).
Proof. induction 1; [constructor|]. cbn [rev]. apply Forall2_app; [assumption|]. constructor; [assumption|constructor]. Qed.
Lemma Forall2_maps {A B C D} (R : C -> D -> Prop) (S : A -> B -> Prop) (f : A -> C) (g : B -> D) l m : (forall a b, S a b -> R (f a) (g b)) -> Forall2 S l m -> Forall2 R (map f l) (map g m).
Proof. intros H. induction 1; constructor; auto. Qed.
Theorem C56_rounded_outline :
  forall cos sin pi fuel s (x0 y0 x1 y1 : Q) style (radius : Q) n s',
    (forall a b, a == b -> cos a == cos b)%Q -> (forall a b, a == b -> sin a == sin b)%Q -> 0 < n -> (0 < radius)%Q ->
    rectangle Qn cos sin pi fuel s x0 y0 x1 y1 style radius n = (s', Done) ->
    exists pts, draws s s' pts style /\ Forall2 same_point pts (outline cos sin pi radius n x0 y0 x1 y1).
Proof.
  intros cos sin pi fuel s x0 y0 x1 y1 style radius n s' HC HS Hn Hr H. unfold rectangle in H. change (nle Qn) with Qle_bool in H. cbn [step] in H.
  destruct (Qle_bool x1 x0) eqn:E1; [discriminate|]. destruct (Qle_bool y1 y0) eqn:E2; [discriminate|]. cbn [orb] in H.
  replace (n <=? 0) with false in H by lia. change (nofZ Qn 0) with 0%Q in H. apply Qle_bool_false in Hr. rewrite Hr in H. apply Qle_bool_false in Hr. cbn [orb] in H.
  destruct (nlt Qn (nsub Qn x1 x0) radius); [discriminate|]. destruct (nlt Qn (nsub Qn y1 y0) radius); [discriminate|]. cbn [orb] in H.
  set (angle := ndiv Qn (nofZ Qn 90) (nofZ Qn (n + 1))) in H.
  destruct (degrees Qn fuel angle angle) as [l|] eqn:D; [|discriminate]. apply (f_equal fst) in H; cbn [fst] in H; subst s'. eexists. split; [unfold draws; reflexivity|].
  assert (DD : Forall2 (fun a i => (a == inject_Z (Z.of_nat i) * angle)%Q) l (seq 1 (Z.to_nat n))).
  { refine (degrees_are n angle Hn (Qeq_refl _) fuel (Z.to_nat n) 0 angle ltac:(lia) ltac:(lia) _ l D). cbn. ring. }
  clear D. set (rad := map (fun v => ndiv Qn (nmul Qn v pi) (nofZ Qn 180)) l).
  set (mid := map Z.of_nat (seq 1 (Z.to_nat n))).
  assert (G : Forall2 (fun a k => (a == turn pi n k)%Q /\ k <> 0 /\ k <> n + 1) rad mid).
  { unfold rad, mid. assert (B : Forall (fun i => (1 <= i < 1 + Z.to_nat n)%nat) (seq 1 (Z.to_nat n))) by (apply Forall_forall; intros i; now rewrite in_seq).
    revert DD B. generalize (seq 1 (Z.to_nat n)). clear -Hn. intros is DD. induction DD as [|a i l is A DD IH]; intros B; [constructor|]. inversion B as [|? ? B1 B2]; subst.
    cbn [map]. constructor; [|exact (IH B2)]. split; [|lia]. unfold turn. change (a * pi / 180 == inject_Z (Z.of_nat i) * (90 / inject_Z (n + 1)) * pi / 180)%Q.
    rewrite A. change angle with (90 / inject_Z (n + 1))%Q. reflexivity. }
  clearbody rad. clear DD l angle.
  assert (Arc : forall cx cy sx sy f, (forall v, f v = ((cx + sx * (radius * cos v))%Q, (cy + sy * (radius * sin v))%Q) \/ same_point (f v) ((cx + sx * (radius * cos v))%Q, (cy + sy * (radius * sin v))%Q)) ->
    forall r m, Forall2 (fun a k => (a == turn pi n k)%Q /\ k <> 0 /\ k <> n + 1) r m -> Forall2 same_point (map f r) (quarter cos sin pi radius n cx cy sx sy m)).
  { intros cx cy sx sy f F r m. apply Forall2_maps. intros a k (A & K0 & K1). unfold cosk, sink. replace (k =? 0) with false by lia. replace (k =? n + 1) with false by lia.
    pose proof (HC _ _ A) as CA. pose proof (HS _ _ A) as SA. destruct (F a) as [->|[F1 F2]]; split; cbn [fst snd]; [now rewrite CA|now rewrite SA|rewrite F1; cbn [fst]; now rewrite CA|rewrite F2; cbn [snd]; now rewrite SA]. }
  pose proof (Forall2_rev _ _ _ G) as GR.
  unfold outline. rewrite (upto_split n Hn). fold mid. cbn [rev]. rewrite rev_app_distr. cbn [rev app]. unfold quarter at 1 2 3 4. cbn [map]. rewrite !map_app. cbn [map].
  assert (C0 : cosk cos pi n 0 = 1%Q) by reflexivity. assert (S0 : sink sin pi n 0 = 0%Q) by reflexivity.
  assert (C1 : cosk cos pi n (n + 1) = 0%Q) by (unfold cosk; replace (n + 1 =? 0) with false by lia; now rewrite Z.eqb_refl).
  assert (S1 : sink sin pi n (n + 1) = 1%Q) by (unfold sink; replace (n + 1 =? 0) with false by lia; now rewrite Z.eqb_refl).
  rewrite C0, C1, S0, S1. unfold corner_points. cbn [nadd nsub nmul Qn]. repeat (cbn [app]; rewrite <- ?app_assoc). cbn [app].
  fold (quarter cos sin pi radius n (x0 + radius) (y0 + radius) (-1) (-1) mid) (quarter cos sin pi radius n (x1 - radius) (y0 + radius) 1 (-1) (rev mid))
       (quarter cos sin pi radius n (x1 - radius) (y1 - radius) 1 1 mid) (quarter cos sin pi radius n (x0 + radius) (y1 - radius) (-1) 1 (rev mid)).
  repeat first [apply Forall2_nil | apply Forall2_cons; [split; cbn [fst snd]; ring|] | apply Forall2_app; [apply Arc; [intros v; right; split; cbn [fst snd]; ring|assumption]|]].
Qed.
Print Assumptions C56_rounded_outline.
(** Without rounding the polygon is the rectangle's four corners, in order, in any arithmetic. *)
Theorem C56_plain_outline :
  forall N cos sin pi fuel s (x0 y0 x1 y1 : T N) style (radius : T N) n,
    nle N x1 x0 = false -> nle N y1 y0 = false -> n <= 0 \/ nle N radius (nofZ N 0) = true ->
    rectangle N cos sin pi fuel s x0 y0 x1 y1 style radius n
    = (add N s (CPolygon N (s_pageH N s) (map (ptU2P N s) [(x0, y0); (x1, y0); (x1, y1); (x0, y1)]) style (trOf N s None)), Done).
Proof.
  intros N cos sin pi fuel s x0 y0 x1 y1 style radius n H1 H2 H3. unfold rectangle. rewrite H1, H2. cbn [orb].
  replace ((n <=? 0) || nle N radius (nofZ N 0)) with true; [reflexivity|]. destruct H3 as [H3| ->]; [|now rewrite orb_true_r]. now replace (n <=? 0) with true by lia.
Qed.
Print Assumptions C56_plain_outline.
Definition blank : ds Qn := Build_ds Qn (Build_ucfg Qn 4 0%Q) 10%Q 800%Q 10%Q 20%Q 0 None 0%Q 0 0%Q false None 0%Q 1%Q None [].
Example C56_outline_met : snd (rectangle Qn (fun _ => (7#10)%Q) (fun _ => (7#10)%Q) 3%Q 5 blank 10%Q 10%Q 60%Q 40%Q (bs "D") 8%Q 1) = Done.
Proof. unfold rectangle. cbn [step]. set (p := corner_points _ _ _ _ _ _ _ _). reflexivity. Qed.
