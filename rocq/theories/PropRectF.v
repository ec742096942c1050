(** C44 in float64: the loop over the angles (gopdf.go:2069-2075, accAngle += angle while accAngle < 90) ends, and collects
    the number of angles asked for, or one more. *)
From Coq Require Import ZArith Reals Lia Lra Bool List SpecFloat.
From Flocq Require Import Core.
From Verif Require Import Base NumModel UnitModel DrawModel RectModel FloatReal.
Import ListNotations.
Local Open Scope R_scope.

(** The [j]-th partial sum is within j/2^46 of j+1 angles. *)
Section Loop.
  Variables (n : Z) (angle : f64) (alpha : R).
  Hypothesis Hn : (0 < n < 2 ^ 24)%Z.
  Hypothesis Ha : is64 angle alpha.
  Hypothesis Hal : Rabs (IZR (n + 1) * alpha - 90) <= bpow radix2 (-46).
  Lemma np : 0 < IZR (n + 1). Proof using Hn. apply IZR_lt. lia. Qed.
  Lemma alpha_pos : 90 * / IZR (n + 1) - bpow radix2 (-46) <= alpha <= 46.
  Proof using Hn Hal.
    pose proof np as P. apply Rabs_le_inv in Hal.
    assert (B : 0 < bpow radix2 (-46) < / 2) by (split; [apply bpow_gt_0|]; change (/ 2) with (bpow radix2 (-1)); apply bpow_lt; lia).
    assert (N2 : 2 <= IZR (n + 1)) by (apply IZR_le; lia).
    split.
    - apply Rmult_le_reg_l with (IZR (n + 1)); [exact P|]. rewrite Rmult_minus_distr_l.
      replace (IZR (n + 1) * (90 * / IZR (n + 1))) with 90 by (field; lra). nra.
    - nra.
  Qed.
  Lemma loop k : forall j acc r fuel, (Z.of_nat k + j = n + 1)%Z -> (0 <= j)%Z -> is64 acc r ->
    Rabs (r - IZR (j + 1) * alpha) <= IZR j * bpow radix2 (-46) -> (k <= fuel)%nat ->
    exists l, degrees F64 fuel acc angle = Some l /\ (List.length l = k \/ S (List.length l) = k).
  Proof using Hn Ha Hal.
    pose proof np as P. pose proof alpha_pos as [A1 A2]. apply Rabs_le_inv in Hal.
    assert (B45 : bpow radix2 (-45) = 2 * bpow radix2 (-46)) by (change 2 with (bpow radix2 1); rewrite <- bpow_plus; reflexivity).
    assert (B46 : 0 < bpow radix2 (-46)) by apply bpow_gt_0.
    assert (B24 : bpow radix2 (-46) * IZR (2 ^ 24) = bpow radix2 (-22)) by (change (IZR (2 ^ 24)) with (bpow radix2 24); rewrite <- bpow_plus; reflexivity).
    assert (S22 : bpow radix2 (-22) * IZR (2 ^ 24) = 4) by (change (IZR (2 ^ 24)) with (bpow radix2 24); rewrite <- bpow_plus; reflexivity).
    assert (T22 : bpow radix2 (-46) <= bpow radix2 (-22) * / 4) by (change (/ 4) with (bpow radix2 (-2)); rewrite <- bpow_plus; apply bpow_le; lia).
    assert (Nn : IZR (n + 1) <= IZR (2 ^ 24)) by (apply IZR_le; lia).
    assert (Q22 : 0 < bpow radix2 (-22)) by apply bpow_gt_0.
    (* one angle is much longer than all the errors together *)
    assert (Long : 20 * bpow radix2 (-22) <= alpha).
    { apply Rle_trans with (2 := A1). assert (22 * bpow radix2 (-22) <= 90 * / IZR (n + 1)); [|lra].
      apply Rmult_le_reg_r with (IZR (n + 1)); [exact P|].
      replace (90 * / IZR (n + 1) * IZR (n + 1)) with 90 by (field; lra). nra. }
    induction k as [|k IH]; intros j acc r fuel K J HA HR F.
    - exists []. split; [|now left]. assert (j = n + 1)%Z by lia. subst j.
      assert (D : nlt F64 acc (nofZ F64 90) = false).
      { change (nlt F64) with SFltb. change (nofZ F64) with f64_ofZ. rewrite (ltb_is _ _ _ _ HA (ofZ_is 90 ltac:(lia))).
        apply Rlt_bool_false. apply Rabs_le_inv in HR. rewrite !plus_IZR in *.
        assert (IZR n * bpow radix2 (-46) <= bpow radix2 (-22)) by nra. change (IZR 1) with 1 in *. nra. }
      destruct fuel; cbn [degrees]; rewrite D; reflexivity.
    - destruct fuel as [|fuel]; [lia|]. cbn [degrees].
      change (nlt F64) with SFltb. change (nofZ F64 90) with (f64_ofZ 90). rewrite (ltb_is _ _ _ _ HA (ofZ_is 90 ltac:(lia))).
      apply Rabs_le_inv in HR.
      assert (J0 : 0 <= IZR j) by now apply IZR_le.
      assert (J1 : IZR j <= IZR (2 ^ 24)) by (apply IZR_le; lia).
      assert (JE : IZR j * bpow radix2 (-46) <= bpow radix2 (-22)) by nra.
      destruct (Rlt_bool_spec r 90) as [L|L].
      + assert (R0 : 0 <= r) by (rewrite plus_IZR in HR; change (IZR 1) with 1 in HR; nra).
        assert (SM : Rabs (r + alpha) < bpow radix2 8) by (rewrite Rabs_pos_eq by lra; change (bpow radix2 8) with 256; lra).
        assert (N64 : is64 (SFadd 53 1024 acc angle) (rnd (r + alpha))).
        { apply add_is; [exact HA|exact Ha|]. apply small_fin. apply Rlt_le, Rlt_le_trans with (1 := SM). change (bpow radix2 8 <= bpow radix2 53). apply bpow_le. lia. }
        pose proof (rnd_abs_err (r + alpha) 8 SM ltac:(lia)) as ER. change (8 - 53)%Z with (-45)%Z in ER. rewrite B45 in ER.
          destruct (IH (j + 1)%Z (SFadd 53 1024 acc angle) (rnd (r + alpha)) fuel) as (l & E & LL); [lia|lia|exact N64| |lia|].
          { apply Rabs_le_inv in ER. apply Rabs_le. rewrite !plus_IZR in *. change (IZR 1) with 1 in *. lra. }
          change (nadd F64 acc angle) with (SFadd 53 1024 acc angle). rewrite E. eexists. split; [reflexivity|]. cbn [List.length]. lia.
      + (* stopping one step early is impossible unless this is the last *)
        exists []. split; [reflexivity|]. cbn [List.length]. destruct k as [|k]; [now right|exfalso].
        assert (J2 : (j + 1 <= n)%Z) by lia. apply IZR_le in J2. rewrite plus_IZR in HR, J2, Hal. change (IZR 1) with 1 in *. nra.
  Qed.
End Loop.
Lemma angle_is n : (0 < n < 2 ^ 24)%Z -> let a := rnd (90 / IZR (n + 1)) in
  is64 (SFdiv 53 1024 (f64_ofZ 90) (f64_ofZ (n + 1))) a /\ Rabs (IZR (n + 1) * a - 90) <= bpow radix2 (-46).
Proof.
  intros Hn a. assert (P : 2 <= IZR (n + 1)) by (apply IZR_le; lia). assert (Nn : IZR (n + 1) <= IZR (2 ^ 24)) by (apply IZR_le; lia).
  assert (Q : 0 < 90 / IZR (n + 1) <= 45).
  { split; [apply Rdiv_lt_0_compat; lra|]. apply Rmult_le_reg_r with (IZR (n + 1)); [lra|]. unfold Rdiv. rewrite Rmult_assoc, Rinv_l by lra. lra. }
  split.
  - apply div_is; [apply (ofZ_is 90); lia|apply ofZ_is; lia|lra|]. apply small_fin. rewrite Rabs_pos_eq by lra.
    apply Rle_trans with 45; [lra|]. apply IZR_le. lia.
  - pose proof (rnd_err (90 / IZR (n + 1))) as E. rewrite (Rabs_pos_eq (90 / IZR (n + 1))) in E by lra. fold a in E.
    assert (L : bpow radix2 (-1022) <= 90 / IZR (n + 1)).
    { apply Rle_trans with (bpow radix2 (-24)); [apply bpow_le; lia|]. apply Rmult_le_reg_r with (IZR (n + 1)); [lra|].
      unfold Rdiv. rewrite Rmult_assoc, Rinv_l, Rmult_1_r by lra.
      assert (M : bpow radix2 (-24) * IZR (2 ^ 24) = 1) by (change (IZR (2 ^ 24)) with (bpow radix2 24); rewrite <- bpow_plus; reflexivity).
      assert (0 < bpow radix2 (-24)) by apply bpow_gt_0. nra. }
    specialize (E L). replace (IZR (n + 1) * a - 90) with (IZR (n + 1) * (a - 90 / IZR (n + 1))) by (field; lra).
    rewrite Rabs_mult, (Rabs_pos_eq (IZR (n + 1))) by lra.
    apply Rle_trans with (IZR (n + 1) * (/ 2 * bpow radix2 (-52) * (90 / IZR (n + 1)))).
    + apply Rmult_le_compat_l; [lra|exact E].
    + replace (IZR (n + 1) * (/ 2 * bpow radix2 (-52) * (90 / IZR (n + 1)))) with (45 * bpow radix2 (-52)) by (field; lra).
      assert (M : bpow radix2 (-46) = 64 * bpow radix2 (-52)) by (change 64 with (bpow radix2 6); rewrite <- bpow_plus; reflexivity).
      assert (0 < bpow radix2 (-52)) by apply bpow_gt_0. lra.
Qed.
Local Open Scope Z_scope.
(** For up to 2^24 points per corner, whatever the float64 arguments (infinities and NaN included): the answer is the error, with
    nothing drawn, exactly when the float64 comparisons say so; otherwise exactly one polygon is drawn, with four corners of
    [k] rounded points each, [k] being the number asked for or one more. *)
Theorem C44_rectangle_validates_float64 :
  forall cos sin pi s x0 y0 x1 y1 style radius n fuel, n < 2 ^ 24 -> (Z.to_nat n < fuel)%nat ->
    let result := rectangle F64 cos sin pi fuel s x0 y0 x1 y1 style radius n in
    let rounded := (0 <? n) && negb (SFleb radius (S754_zero false)) in
    let bad := SFleb x1 x0 || SFleb y1 y0 || (rounded &&
                (SFltb (SFsub prec64 emax64 x1 x0) radius || SFltb (SFsub prec64 emax64 y1 y0) radius)) in
    (bad = true -> result = (s, ErrInvalidRectangleCoordinates)) /\
    (bad = false -> exists pts k, result = (add F64 s (CPolygon F64 (s_pageH F64 s) (map (ptU2P F64 s) pts) style (trOf F64 s None)), Done) /\
       (k = n \/ k = n + 1) /\ Z.of_nat (List.length pts) = if rounded then 4 * (k + 2) else 4).
Proof.
  intros cos sin pi s x0 y0 x1 y1 style radius n fuel HN HF. cbv zeta. unfold rectangle. change (nle F64) with SFleb. change (nlt F64) with SFltb. change (nsub F64) with (SFsub prec64 emax64). change (nofZ F64 0) with (S754_zero false). cbn [step].
  destruct (SFleb x1 x0 || SFleb y1 y0); [cbn [orb]; split; [reflexivity|discriminate]|]. cbn [orb].
  assert (NN : (0 <? n) = negb (n <=? 0)) by lia. rewrite NN. destruct (Z.leb_spec n 0) as [L|L]; cbn [negb andb orb].
  { split; [discriminate|]. intros _. eexists. exists n. split; [reflexivity|]. split; [now left|reflexivity]. }
  destruct (SFleb radius (S754_zero false)); cbn [negb andb orb].
  { split; [discriminate|]. intros _. eexists. exists n. split; [reflexivity|]. split; [now left|reflexivity]. }
  destruct (SFltb (SFsub prec64 emax64 x1 x0) radius || SFltb (SFsub prec64 emax64 y1 y0) radius); [split; [reflexivity|discriminate]|].
  split; [discriminate|]. intros _.
  destruct (angle_is n ltac:(lia)) as [A1 A2].
  change (ndiv F64 (nofZ F64 90) (nofZ F64 (n + 1))) with (SFdiv 53 1024 (f64_ofZ 90) (f64_ofZ (n + 1))).
  destruct (loop n _ _ ltac:(lia) A1 A2 (S (Z.to_nat n)) 0 _ _ fuel ltac:(lia) ltac:(lia) A1) as (l & E & LL); [|lia|].
  { change (IZR (0 + 1)) with 1%R. change (IZR 0) with 0%R. rewrite Rmult_1_l, Rmult_0_l. unfold Rminus. rewrite Rplus_opp_r, Rabs_R0. apply Rle_refl. }
  rewrite E. eexists. exists (Z.of_nat (List.length l)). split; [reflexivity|]. split; [lia|].
  unfold corner_points. cbn [List.length app]. repeat (rewrite app_length || rewrite map_length || rewrite rev_length || cbn [List.length app]). lia.
Qed.
Print Assumptions C44_rectangle_validates_float64.

(** One point too many does happen: asked for 12 points per corner, every acceptable call draws 13, because twelve sums of
    the rounded 90/13 stay just below 90.  (The extra point almost coincides with the end of the corner.) *)
Theorem C44_point_count_refuted : forall cos sin pi s x0 y0 x1 y1 style radius,
  SFleb x1 x0 || SFleb y1 y0 || SFleb radius (S754_zero false) ||
    (SFltb (SFsub prec64 emax64 x1 x0) radius || SFltb (SFsub prec64 emax64 y1 y0) radius) = false ->
  exists pts, rectangle F64 cos sin pi 20 s x0 y0 x1 y1 style radius 12 =
      (add F64 s (CPolygon F64 (s_pageH F64 s) (map (ptU2P F64 s) pts) style (trOf F64 s None)), Done) /\
    Z.of_nat (List.length pts) = 4 * (12 + 1 + 2).
Proof.
  intros cos sin pi s x0 y0 x1 y1 style radius H.
  apply orb_false_iff in H as [H H4]. apply orb_false_iff in H as [H H3]. unfold rectangle.
  change (nle F64) with SFleb. change (nlt F64) with SFltb. change (nsub F64) with (SFsub prec64 emax64). change (nofZ F64 0) with (S754_zero false). cbn [step].
  rewrite H, H3, H4. change (12 <=? 0) with false. cbn [orb].
  destruct (degrees F64 20 (ndiv F64 (nofZ F64 90) (nofZ F64 (12 + 1))) (ndiv F64 (nofZ F64 90) (nofZ F64 (12 + 1)))) as [l|] eqn:E; [|vm_compute in E; discriminate].
  assert (L : List.length l = 13%nat) by (vm_compute in E; injection E as <-; reflexivity).
  eexists. split; [reflexivity|].
  unfold corner_points. cbn [List.length app]. repeat (rewrite app_length || rewrite map_length || rewrite rev_length || cbn [List.length app]). rewrite L. reflexivity.
Qed.
Print Assumptions C44_point_count_refuted.
Example C44_point_count_met : let x := f64_ofZ in
  SFleb (x 100) (x 0) || SFleb (x 50) (x 0) || SFleb (x 10) (S754_zero false) ||
    (SFltb (SFsub prec64 emax64 (x 100) (x 0)) (x 10) || SFltb (SFsub prec64 emax64 (x 50) (x 0)) (x 10)) = false.
Proof. reflexivity. Qed.

(** And with an enormous count the loop never ends: the sum stops growing long before 90. *)
Lemma is64_fun x a b : is64 x a -> is64 x b -> a = b.
Proof. intros (_ & _ & <-) (_ & _ & <-). reflexivity. Qed.
Lemma stuck : rnd (64 + bpow radix2 (-48)) = 64%R.
Proof.
  set (t := SFdiv 53 1024 (f64_ofZ 1) (f64_ofZ (2 ^ 48))).
  assert (T : is64 t (bpow radix2 (-48))).
  { assert (E : rnd (1 / IZR (2 ^ 48)) = bpow radix2 (-48)).
    { assert (V : (1 / IZR (2 ^ 48))%R = bpow radix2 (-48)).
      { change (IZR (2 ^ 48)) with (bpow radix2 48). change (bpow radix2 (-48)) with (bpow radix2 (- (48))). rewrite (bpow_opp radix2 48). unfold Rdiv. apply Rmult_1_l. }
      rewrite V.
      apply rnd_id, bpow_fmt. lia. }
    rewrite <- E. apply div_is; [apply (ofZ_is 1); lia|apply ofZ_is; lia|apply Rgt_not_eq, IZR_lt; lia|].
    rewrite E, Rabs_pos_eq by apply bpow_ge_0. apply bpow_lt. lia. }
  apply (is64_fun (SFadd 53 1024 (f64_ofZ 64) t)).
  - apply add_is; [apply (ofZ_is 64); lia|exact T|]. apply small_fin.
    assert (bpow radix2 (-48) <= 1)%R by (change 1%R with (bpow radix2 0); apply bpow_le; lia). assert (0 < bpow radix2 (-48))%R by apply bpow_gt_0.
    rewrite Rabs_pos_eq by lra. apply Rle_trans with 65%R; [lra|]. apply IZR_le. lia.
  - change (SFadd 53 1024 (f64_ofZ 64) t) with (f64_ofZ 64). apply (ofZ_is 64). lia.
Qed.
Lemma never fuel : forall acc angle r a, is64 acc r -> is64 angle a -> (0 <= a <= bpow radix2 (-48))%R -> (0 <= r <= 64)%R -> degrees F64 fuel acc angle = None.
Proof.
  induction fuel as [|f IH]; intros acc angle r a A B Ha Hr; cbn [degrees]; change (nlt F64) with SFltb; change (nofZ F64 90) with (f64_ofZ 90);
    rewrite (ltb_is _ _ _ _ A (ofZ_is 90 ltac:(lia))), Rlt_bool_true by lra; [reflexivity|].
  change (nadd F64 acc angle) with (SFadd 53 1024 acc angle).
  assert (S : (rnd (r + a) <= 64)%R) by (rewrite <- stuck; apply rnd_le; lra).
  assert (P : (0 <= rnd (r + a))%R) by (rewrite <- (rnd_Z 0) by lia; apply rnd_le; simpl; lra).
  rewrite (IH _ _ (rnd (r + a)) a); [reflexivity| |exact B|exact Ha|lra].
  apply add_is; [exact A|exact B|]. rewrite Rabs_pos_eq by exact P. apply Rle_lt_trans with (1 := S). change 64%R with (bpow radix2 6). apply bpow_lt. lia.
Qed.
Theorem C44_never_returns_refuted : forall n, 2 ^ 55 <= n < 2 ^ 63 - 1 -> forall fuel cos sin pi s x0 y0 x1 y1 style radius,
  SFleb x1 x0 || SFleb y1 y0 || SFleb radius (S754_zero false) ||
    (SFltb (SFsub prec64 emax64 x1 x0) radius || SFltb (SFsub prec64 emax64 y1 y0) radius) = false ->
  rectangle F64 cos sin pi fuel s x0 y0 x1 y1 style radius n = (s, Running).
Proof.
  intros n Hn fuel cos sin pi s x0 y0 x1 y1 style radius H.
  apply orb_false_iff in H as [H H4]. apply orb_false_iff in H as [H H3]. unfold rectangle.
  change (nle F64) with SFleb. change (nlt F64) with SFltb. change (nsub F64) with (SFsub prec64 emax64). change (nofZ F64 0) with (S754_zero false). cbn [step].
  rewrite H, H3, H4. replace (n <=? 0) with false by lia. cbn [orb].
  change (ndiv F64 (nofZ F64 90) (nofZ F64 (n + 1))) with (SFdiv 53 1024 (f64_ofZ 90) (f64_ofZ (n + 1))).
  set (m := rnd (IZR (n + 1))).
  assert (M1 : (bpow radix2 55 <= m)%R).
  { unfold m. rewrite <- (rnd_id (bpow radix2 55)) by (apply bpow_fmt; lia). apply rnd_le. change (bpow radix2 55) with (IZR (2 ^ 55)). apply IZR_le. lia. }
  assert (M2 : (m <= bpow radix2 63)%R).
  { unfold m. rewrite <- (rnd_id (bpow radix2 63)) by (apply bpow_fmt; lia). apply rnd_le. change (bpow radix2 63) with (IZR (2 ^ 63)). apply IZR_le. lia. }
  assert (M0 : (0 < m)%R) by (apply Rlt_le_trans with (2 := M1); apply bpow_gt_0).
  assert (Mi : is64 (f64_ofZ (n + 1)) m).
  { assert (E : F2R (Float radix2 (n + 1) 0) = IZR (n + 1)) by (unfold F2R; simpl; ring).
    generalize (norm_is (n + 1) 0 false). cbv zeta. rewrite E. intros G. apply G. fold m. rewrite Rabs_pos_eq by lra.
    apply Rle_lt_trans with (1 := M2). apply bpow_lt. lia. }
  assert (A1 : (0 <= rnd (90 / m) <= bpow radix2 (-48))%R).
  { split; [rewrite <- (rnd_Z 0) by lia; apply rnd_le; simpl; apply Rlt_le, Rdiv_lt_0_compat; lra|].
    rewrite <- (rnd_id (bpow radix2 (-48))) by (apply bpow_fmt; lia). apply rnd_le.
    apply Rmult_le_reg_r with m; [exact M0|]. unfold Rdiv. rewrite Rmult_assoc, Rinv_l, Rmult_1_r by lra.
    apply Rle_trans with (bpow radix2 (-48) * bpow radix2 55)%R; [rewrite <- bpow_plus; change (bpow radix2 (-48 + 55)) with 128%R; lra|].
    apply Rmult_le_compat_l; [apply bpow_ge_0|exact M1]. }
  assert (A : is64 (SFdiv 53 1024 (f64_ofZ 90) (f64_ofZ (n + 1))) (rnd (90 / m))).
  { apply div_is; [apply (ofZ_is 90); lia|exact Mi|lra|]. rewrite Rabs_pos_eq by lra. apply Rle_lt_trans with (1 := proj2 A1). apply bpow_lt. lia. }
  rewrite (never fuel _ _ _ _ A A); [reflexivity|exact A1|]. split; [lra|]. apply Rle_trans with (1 := proj2 A1).
  change 64%R with (bpow radix2 6). apply bpow_le. lia.
Qed.
Print Assumptions C44_never_returns_refuted.
