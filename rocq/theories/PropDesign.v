(** C60, the font descriptor's numbers in float64: what core/math.go:3-10 and subfont_descriptor_obj.go:65-67 compute
    (a float64 product, quotient, sum and truncation) is the exact ratio 1000*val/upem rounded to the nearest
    integer, ties away from zero, for every value a 16-bit font table can hold. *)
From Coq Require Import ZArith Reals Lia Lra SpecFloat.
From Flocq Require Import Core.
From Verif Require Import NumModel ObjModel FloatReal.
Local Open Scope Z_scope.

Lemma half_is : is64 (SFdiv prec64 emax64 (f64_ofZ 1) (f64_ofZ 2)) (/ 2)%R.
Proof.
  assert (E : rnd (1 / 2) = (/ 2)%R).
  { assert (F : fmt64 (IZR 1 / IZR (2 ^ 1))) by (apply fmt_frac; lia).
    change (IZR (2 ^ 1)) with 2%R in F. change (IZR 1) with 1%R in F. rewrite rnd_id by exact F. lra. }
  rewrite <- E. apply div_is; [exact (ofZ_is 1 ltac:(lia))|exact (ofZ_is 2 ltac:(lia))|lra|].
  rewrite E. rewrite Rabs_pos_eq by lra. apply Rlt_trans with 1%R; [lra|]. change 1%R with (bpow radix2 0). apply bpow_lt. lia.
Qed.

(** Round half away from zero of [a / u], through float64. *)
Lemma coreRound_spec (x : f64) (a u : Z) : (Z.abs a <= 2 ^ 35) -> (0 < u <= 2 ^ 16) ->
  is64 x (rnd (IZR a / IZR u)) ->
  coreRound x = if a <? 0 then - ((2 * - a + u) / (2 * u)) else (2 * a + u) / (2 * u).
Proof.
  intros A U X. unfold coreRound.
  rewrite (ltb_is x (f64_ofZ 0) _ _ X (ofZ_is 0 ltac:(lia))).
  assert (Up : (0 < IZR u)%R) by (apply IZR_lt; lia).
  assert (Big : forall r : R, (Rabs r <= IZR (2 ^ 36))%R -> (Rabs (rnd r) <= IZR (2 ^ 36))%R).
  { intros r H. apply rnd_abs_le; [apply fmt_Z; lia|exact H]. }
  assert (Fin : (IZR (2 ^ 36) < bpow radix2 1024)%R) by (change (bpow radix2 36 < bpow radix2 1024)%R; apply bpow_lt; lia).
  assert (Q : (Rabs (IZR a / IZR u) <= IZR (2 ^ 35))%R).
  { unfold Rdiv. rewrite Rabs_mult, <- abs_IZR. rewrite (Rabs_pos_eq (/ IZR u)) by (left; now apply Rinv_0_lt_compat).
    apply Rle_trans with (IZR (Z.abs a) * 1)%R.
    - apply Rmult_le_compat_l; [apply IZR_le; lia|].
      rewrite <- Rinv_1. apply Rinv_le_contravar; [lra|apply IZR_le; lia].
    - rewrite Rmult_1_r. now apply IZR_le. }
  assert (Q2 : (Rabs (rnd (IZR a / IZR u)) <= IZR (2 ^ 35))%R) by (apply rnd_abs_le; [apply fmt_Z; lia|exact Q]).
  destruct (Z.ltb_spec a 0) as [N|N].
  - assert (Q3 : (rnd (IZR a / IZR u) < 0)%R).
    { apply Rle_lt_trans with (- (IZR 1 / IZR (2 ^ 16)))%R.
      - rewrite <- (rnd_id (- (IZR 1 / IZR (2 ^ 16)))) by (apply generic_format_opp, fmt_frac; lia). apply rnd_le.
        apply Rmult_le_reg_r with (IZR u * IZR (2 ^ 16))%R; [apply Rmult_lt_0_compat; [lra|apply IZR_lt; lia]|].
        replace (IZR a / IZR u * (IZR u * IZR (2 ^ 16)))%R with (IZR a * IZR (2 ^ 16))%R by (field; lra).
        replace (- (IZR 1 / IZR (2 ^ 16)) * (IZR u * IZR (2 ^ 16)))%R with (- IZR u)%R by (field; apply Rgt_not_eq, IZR_lt; lia).
        rewrite <- mult_IZR, <- opp_IZR. apply IZR_le. nia.
      - assert (0 < IZR 1 / IZR (2 ^ 16))%R by (apply Rdiv_lt_0_compat; apply IZR_lt; lia). lra. }
    rewrite Rlt_bool_true by exact Q3.
    assert (E : (rnd (rnd (IZR a / IZR u) - / 2) = - rnd (rnd (IZR (- a) / IZR u) + / 2))%R).
    { rewrite opp_IZR. replace (- IZR a / IZR u)%R with (- (IZR a / IZR u))%R by (field; lra).
      rewrite (rnd_opp (IZR a / IZR u)), <- rnd_opp. f_equal. lra. }
    assert (W : is64 (SFsub prec64 emax64 x (SFdiv prec64 emax64 (f64_ofZ 1) (f64_ofZ 2))) (rnd (rnd (IZR a / IZR u) - / 2))).
    { apply sub_is; [exact X|exact half_is|]. apply Rle_lt_trans with (2 := Fin). apply Big.
      apply Rabs_le_inv in Q2. apply Rabs_le. rewrite (mult_IZR 2 (2 ^ 35) : IZR (2 ^ 36) = _). 
      assert (1 <= IZR (2 ^ 35))%R by (apply IZR_le; lia). lra. }
    assert (T : Ztrunc (rnd (rnd (IZR a / IZR u) - / 2)) = - ((2 * - a + u) / (2 * u))).
    { rewrite E, Ztrunc_opp, Ztrunc_floor.
      - rewrite half_up_exact by lia. reflexivity.
      - rewrite <- (rnd_Z 0) by lia. apply rnd_le. rewrite opp_IZR.
        replace (- IZR a / IZR u)%R with (- (IZR a / IZR u))%R by (field; lra). rewrite rnd_opp. simpl. lra. }
    rewrite (trunc_is _ _ W), T; [reflexivity|].
    assert (0 <= (2 * - a + u) / (2 * u) <= 2 ^ 36); [|lia].
    split; [apply Z.div_pos; lia|]. apply Z.div_le_upper_bound; nia.
  - assert (Q3 : (0 <= rnd (IZR a / IZR u))%R).
    { rewrite <- (rnd_Z 0) by lia. apply rnd_le. simpl. apply Rmult_le_pos; [now apply IZR_le|left; now apply Rinv_0_lt_compat]. }
    rewrite Rlt_bool_false by exact Q3.
    assert (W : is64 (SFadd prec64 emax64 x (SFdiv prec64 emax64 (f64_ofZ 1) (f64_ofZ 2))) (rnd (rnd (IZR a / IZR u) + / 2))).
    { apply add_is; [exact X|exact half_is|]. apply Rle_lt_trans with (2 := Fin). apply Big.
      apply Rabs_le_inv in Q2. apply Rabs_le. rewrite (mult_IZR 2 (2 ^ 35) : IZR (2 ^ 36) = _).
      assert (1 <= IZR (2 ^ 35))%R by (apply IZR_le; lia). lra. }
    assert (T : Ztrunc (rnd (rnd (IZR a / IZR u) + / 2)) = ((2 * a + u) / (2 * u))).
    { rewrite Ztrunc_floor.
      - rewrite half_up_exact by lia. reflexivity.
      - rewrite <- (rnd_Z 0) by lia. apply rnd_le. simpl. lra. }
    rewrite (trunc_is _ _ W), T; [reflexivity|].
    assert (0 <= (2 * a + u) / (2 * u) <= 2 ^ 36); [|lia].
    split; [apply Z.div_pos; lia|]. apply Z.div_le_upper_bound; nia.
Qed.

(** The nearest integer to [a / u], and away from zero when two are equally near. *)
Definition nearest_away (a u n : Z) : Prop :=
  2 * Z.abs (n * u - a) <= u /\ (2 * Z.abs (n * u - a) = u -> Z.abs a < Z.abs (n * u)).

Lemma nearest_away_pos a u : 0 <= a -> 0 < u -> nearest_away a u ((2 * a + u) / (2 * u)).
Proof.
  intros A U. pose proof (Z.div_mod (2 * a + u) (2 * u) ltac:(lia)). pose proof (Z.mod_pos_bound (2 * a + u) (2 * u) ltac:(lia)).
  set (n := (2 * a + u) / (2 * u)) in *. set (r := (2 * a + u) mod (2 * u)) in *.
  assert (0 <= n) by (apply Z.div_pos; lia). assert (0 <= n * u) by nia. unfold nearest_away. split; lia.
Qed.

Theorem C60_design_units (val upem : Z) : - 2 ^ 16 < val < 2 ^ 16 -> 0 < upem < 2 ^ 16 ->
  nearest_away (1000 * val) upem (designUnitsToPdf val upem).
Proof.
  intros V U. unfold designUnitsToPdf.
  assert (M : is64 (SFmul prec64 emax64 (f64_ofZ val) (f64_ofZ 1000)) (IZR (1000 * val))).
  { assert (E : rnd (IZR val * IZR 1000) = IZR (1000 * val)).
    { rewrite <- mult_IZR, rnd_Z by lia. f_equal. lia. }
    rewrite <- E. apply mul_is; [apply ofZ_is; lia|apply ofZ_is; lia|]. rewrite E, <- abs_IZR.
    apply Rle_lt_trans with (IZR (2 ^ 53)); [apply IZR_le; lia|]. change (bpow radix2 53 < bpow radix2 1024)%R. apply bpow_lt. lia. }
  assert (Up : (0 < IZR upem)%R) by (apply IZR_lt; lia).
  assert (X : is64 (SFdiv prec64 emax64 (SFmul prec64 emax64 (f64_ofZ val) (f64_ofZ 1000)) (f64_ofZ upem)) (rnd (IZR (1000 * val) / IZR upem))).
  { apply div_is; [exact M|apply ofZ_is; lia|lra|].
    apply Rle_lt_trans with (IZR (2 ^ 53)); [|change (bpow radix2 53 < bpow radix2 1024)%R; apply bpow_lt; lia].
    apply rnd_abs_le; [apply fmt_Z; lia|]. unfold Rdiv. rewrite Rabs_mult, <- abs_IZR.
    rewrite (Rabs_pos_eq (/ IZR upem)) by (left; now apply Rinv_0_lt_compat).
    apply Rle_trans with (IZR (Z.abs (1000 * val)) * 1)%R.
    - apply Rmult_le_compat_l; [apply IZR_le; lia|]. rewrite <- Rinv_1. apply Rinv_le_contravar; [lra|apply IZR_le; lia].
    - rewrite Rmult_1_r. apply IZR_le. lia. }
  rewrite (coreRound_spec _ (1000 * val) upem ltac:(lia) ltac:(lia) X).
  destruct (Z.ltb_spec (1000 * val) 0) as [N|N]; [|apply nearest_away_pos; lia].
  generalize (nearest_away_pos (- (1000 * val)) upem ltac:(lia) ltac:(lia)).
  set (n := (2 * - (1000 * val) + upem) / (2 * upem)). unfold nearest_away. lia.
Qed.
(** Example: a 2048-unit font, ascent 1901 and descent -483 (928.2 and -235.8), and a tie: 1000*1/2000 rounds to 1. *)
Example C60_design_units_met :
  designUnitsToPdf 1901 2048 = 928 /\ designUnitsToPdf (-483) 2048 = -236 /\ designUnitsToPdf 1 2000 = 1 /\ designUnitsToPdf (-1) 2000 = -1.
Proof. vm_compute. repeat split. Qed.
Print Assumptions C60_design_units.
