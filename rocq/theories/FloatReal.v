(** What the model's float64 operations compute, as real numbers.  The model (NumModel.v) uses the standard
    library's executable IEEE 754 operations (SpecFloat); this file relates them, for finite operands and without
    overflow, to "round to nearest even of the exact result", using Flocq's proofs about the same algorithms.
    Nothing here models code in /repo: it is a library for the float64 theorems. *)
From Coq Require Import ZArith Reals Lia Lra Bool SpecFloat.
From Flocq Require Import Core Relative BinarySingleNaN.
From Verif Require Import NumModel.

Local Open Scope R_scope.
Notation p64 := 53%Z (only parsing).
Notation m64 := 1024%Z (only parsing).
Lemma Hp : FLX.Prec_gt_0 53. Proof. unfold FLX.Prec_gt_0; lia. Qed.
Lemma Hm : Prec_lt_emax 53 1024. Proof. unfold Prec_lt_emax; lia. Qed.
Local Existing Instance Hp.
Local Existing Instance Hm.

(** Rounding to the nearest float64, ties to even (unbounded exponent above). *)
Definition rnd (r : R) : R := round radix2 (FLT_exp (-1074) 53) ZnearestE r.

(** [is64 x r]: the float64 [x] is a finite number, of value [r]. *)
Definition is64 (x : f64) (r : R) : Prop :=
  SpecFloat.valid_binary 53 1024 x = true /\ is_finite_SF x = true /\ SF2R radix2 x = r.

Lemma is64_B x r : is64 x r <-> exists b : binary_float 53 1024, B2SF b = x /\ is_finite b = true /\ B2R b = r.
Proof.
  split.
  - intros (V & F & R). exists (SF2B x V). split; [apply B2SF_SF2B|]. split; [now rewrite is_finite_SF2B|]. now rewrite B2R_SF2B.
  - intros (b & <- & F & <-). split; [apply valid_binary_B2SF|]. split; [now rewrite is_finite_SF_B2SF|]. apply SF2R_B2SF.
Qed.

Lemma round_nearest_even_equiv s m l : round_nearest_even m l = choice_mode mode_NE s m l.
Proof. case l; [reflexivity|intro c]. case c; [ | reflexivity..]. now simpl; unfold Round.cond_incr; case Z.even. Qed.
Lemma binary_round_aux_equiv sx mx ex lx :
  SpecFloat.binary_round_aux 53 1024 sx mx ex lx = binary_round_aux 53 1024 mode_NE sx mx ex lx.
Proof.
  unfold SpecFloat.binary_round_aux, binary_round_aux. set (mrse' := shr_fexp _ _ _).
  case mrse'; intros mrs' e'; simpl. now rewrite (round_nearest_even_equiv sx).
Qed.
Lemma binary_round_equiv s m e : SpecFloat.binary_round 53 1024 s m e = binary_round 53 1024 mode_NE s m e.
Proof.
  unfold SpecFloat.binary_round, binary_round, shl_align_fexp.
  set (mez := shl_align _ _ _); case mez as [mz ez]. apply binary_round_aux_equiv.
Qed.
Lemma binary_normalize_equiv m e szero :
  SpecFloat.binary_normalize 53 1024 m e szero = B2SF (binary_normalize 53 1024 Hp Hm mode_NE m e szero).
Proof.
  case m as [ | p | p].
  - now simpl.
  - simpl; rewrite B2SF_SF2B; apply binary_round_equiv.
  - simpl; rewrite B2SF_SF2B; apply binary_round_equiv.
Qed.
Lemma mul_equiv (x y : binary_float 53 1024) : SFmul 53 1024 (B2SF x) (B2SF y) = B2SF (Bmult mode_NE x y).
Proof.
  case x as [sx|sx| |sx mx ex Bx]; case y as [sy|sy| |sy my ey By]; [now trivial.. | ].
  simpl. rewrite B2SF_SF2B. apply binary_round_aux_equiv.
Qed.
Lemma add_equiv (x y : binary_float 53 1024) : SFadd 53 1024 (B2SF x) (B2SF y) = B2SF (Bplus mode_NE x y).
Proof.
  case x as [sx|sx| |sx mx ex Bx]; case y as [sy|sy| |sy my ey By]; [now (trivial || simpl; case Bool.eqb).. | ].
  apply binary_normalize_equiv.
Qed.
Lemma sub_equiv (x y : binary_float 53 1024) : SFsub 53 1024 (B2SF x) (B2SF y) = B2SF (Bminus mode_NE x y).
Proof.
  case x as [sx|sx| |sx mx ex Bx]; case y as [sy|sy| |sy my ey By]; [now (trivial || simpl; case Bool.eqb).. | ].
  simpl. unfold Zminus. rewrite <- cond_Zopp_negb. apply binary_normalize_equiv.
Qed.
Lemma div_equiv (x y : binary_float 53 1024) : SFdiv 53 1024 (B2SF x) (B2SF y) = B2SF (Bdiv mode_NE x y).
Proof.
  case x as [sx|sx| |sx mx ex Bx]; case y as [sy|sy| |sy my ey By]; [now (trivial || simpl; case Bool.eqb).. | ].
  simpl. rewrite B2SF_SF2B. set (melz := SFdiv_core_binary _ _ _ _ _ _). case melz as [[mz ez] lz]. apply binary_round_aux_equiv.
Qed.

Theorem add_is x y a b : is64 x a -> is64 y b -> Rabs (rnd (a + b)) < bpow radix2 1024 -> is64 (SFadd 53 1024 x y) (rnd (a + b)).
Proof.
  rewrite !is64_B. intros (bx & <- & Fx & <-) (by_ & <- & Fy & <-) H. rewrite add_equiv.
  exists (Bplus mode_NE bx by_). split; [reflexivity|].
  generalize (Bplus_correct 53 1024 Hp Hm mode_NE bx by_ Fx Fy). rewrite Rlt_bool_true; [|exact H]. now intros (-> & -> & _).
Qed.
Theorem sub_is x y a b : is64 x a -> is64 y b -> Rabs (rnd (a - b)) < bpow radix2 1024 -> is64 (SFsub 53 1024 x y) (rnd (a - b)).
Proof.
  rewrite !is64_B. intros (bx & <- & Fx & <-) (by_ & <- & Fy & <-) H. rewrite sub_equiv.
  exists (Bminus mode_NE bx by_). split; [reflexivity|].
  generalize (Bminus_correct 53 1024 Hp Hm mode_NE bx by_ Fx Fy). rewrite Rlt_bool_true; [|exact H]. now intros (-> & -> & _).
Qed.
Theorem mul_is x y a b : is64 x a -> is64 y b -> Rabs (rnd (a * b)) < bpow radix2 1024 -> is64 (SFmul 53 1024 x y) (rnd (a * b)).
Proof.
  rewrite !is64_B. intros (bx & <- & Fx & <-) (by_ & <- & Fy & <-) H. rewrite mul_equiv.
  exists (Bmult mode_NE bx by_). split; [reflexivity|].
  generalize (Bmult_correct 53 1024 Hp Hm mode_NE bx by_). rewrite Rlt_bool_true; [|exact H]. rewrite Fx, Fy. now intros (-> & -> & _).
Qed.
Theorem div_is x y a b : is64 x a -> is64 y b -> b <> 0 -> Rabs (rnd (a / b)) < bpow radix2 1024 -> is64 (SFdiv 53 1024 x y) (rnd (a / b)).
Proof.
  rewrite !is64_B. intros (bx & <- & Fx & <-) (by_ & <- & Fy & <-) N H. rewrite div_equiv.
  exists (Bdiv mode_NE bx by_). split; [reflexivity|].
  generalize (Bdiv_correct 53 1024 Hp Hm mode_NE bx by_ N). rewrite Rlt_bool_true; [|exact H]. rewrite Fx. now intros (-> & -> & _).
Qed.
Theorem ltb_is x y a b : is64 x a -> is64 y b -> SFltb x y = Rlt_bool a b.
Proof. rewrite !is64_B. intros (bx & <- & Fx & <-) (by_ & <- & Fy & <-). exact (Bltb_correct 53 1024 bx by_ Fx Fy). Qed.
Theorem leb_is x y a b : is64 x a -> is64 y b -> SFleb x y = Rle_bool a b.
Proof. rewrite !is64_B. intros (bx & <- & Fx & <-) (by_ & <- & Fy & <-). exact (Bleb_correct 53 1024 bx by_ Fx Fy). Qed.
Theorem eqb_is x y a b : is64 x a -> is64 y b -> SFeqb x y = Req_bool a b.
Proof. rewrite !is64_B. intros (bx & <- & Fx & <-) (by_ & <- & Fy & <-). exact (Beqb_correct 53 1024 bx by_ Fx Fy). Qed.

Lemma norm_is m e s : let r := F2R (Float radix2 m e) in
  Rabs (rnd r) < bpow radix2 1024 -> is64 (SpecFloat.binary_normalize 53 1024 m e s) (rnd r).
Proof.
  intros r H. rewrite binary_normalize_equiv, is64_B. eexists. split; [reflexivity|].
  generalize (binary_normalize_correct 53 1024 Hp Hm mode_NE m e s). cbv zeta. rewrite Rlt_bool_true; [|exact H]. now intros (-> & -> & _).
Qed.

(** Rounding: monotone, the identity on float64 values, relative error at most 2^-53 away from the subnormals. *)
Definition fmt64 (r : R) : Prop := generic_format radix2 (FLT_exp (-1074) 53) r.
Lemma is64_fmt x r : is64 x r -> fmt64 r.
Proof. rewrite is64_B. intros (b & _ & _ & <-). exact (generic_format_B2R 53 1024 b). Qed.
Lemma rnd_id r : fmt64 r -> rnd r = r.
Proof. apply round_generic, valid_rnd_N. Qed.
Lemma rnd_fmt r : fmt64 (rnd r).
Proof. apply generic_format_round; [apply FLT_exp_valid; exact Hp|apply valid_rnd_N]. Qed.
Lemma rnd_le a b : a <= b -> rnd a <= rnd b.
Proof. apply round_le; [apply FLT_exp_valid; exact Hp|apply valid_rnd_N]. Qed.
Lemma fmt_Z (z : Z) : (Z.abs z <= 2 ^ 53)%Z -> fmt64 (IZR z).
Proof.
  intros H. destruct (Z.eq_dec (Z.abs z) (2 ^ 53)) as [E|E].
  - assert (F : fmt64 (bpow radix2 53)) by (apply generic_format_bpow; unfold FLT_exp; lia).
    replace (bpow radix2 53) with (IZR (2 ^ 53)) in F by reflexivity.
    destruct (Z.abs_eq_or_opp z) as [A|A]; rewrite A in E; [now rewrite E|].
    replace z with (- 2 ^ 53)%Z by lia. rewrite opp_IZR. now apply generic_format_opp.
  - apply generic_format_FLT. exists (Float radix2 z 0).
    + unfold F2R; simpl. ring.
    + simpl. lia.
    + simpl. lia.
Qed.
Lemma rnd_Z z : (Z.abs z <= 2 ^ 53)%Z -> rnd (IZR z) = IZR z.
Proof. intros H. apply rnd_id, fmt_Z, H. Qed.
Lemma rnd_abs_le r b : fmt64 b -> Rabs r <= b -> Rabs (rnd r) <= b.
Proof. intros F H. apply abs_round_le_generic; [apply FLT_exp_valid; exact Hp|apply valid_rnd_N|exact F|exact H]. Qed.
Lemma rnd_err r : bpow radix2 (-1022) <= Rabs r -> Rabs (rnd r - r) <= / 2 * bpow radix2 (-52) * Rabs r.
Proof. intros H. apply (relative_error_N_FLT radix2 (-1074) 53 ltac:(exact Hp) (fun x => negb (Z.even x)) r). exact H. Qed.
Lemma bpow_fmt e : (-1074 <= e)%Z -> fmt64 (bpow radix2 e).
Proof. intros H. apply generic_format_bpow. unfold FLT_exp. lia. Qed.

Lemma ofZ_is z : (Z.abs z <= 2 ^ 53)%Z -> is64 (f64_ofZ z) (IZR z).
Proof.
  intros H. unfold f64_ofZ. change prec64 with 53%Z. change emax64 with 1024%Z.
  assert (E : F2R (Float radix2 z 0) = IZR z) by (unfold F2R; simpl; ring).
  generalize (norm_is z 0 false). cbv zeta. rewrite E, rnd_Z by exact H. intros G. apply G.
  rewrite <- abs_IZR. apply Rle_lt_trans with (IZR (2 ^ 53)); [now apply IZR_le|].
  change (bpow radix2 53 < bpow radix2 1024). apply bpow_lt. lia.
Qed.

(** Truncation toward zero. *)
Lemma magn_val m e : let '(n, d) := magn m e in (0 < d)%Z /\ (0 <= n)%Z /\ F2R (Float radix2 (Zpos m) e) = IZR n / IZR d.
Proof.
  unfold magn. destruct (Z.leb_spec 0 e).
  - split; [lia|]. split; [apply Z.mul_nonneg_nonneg; [lia|now apply Z.pow_nonneg]|]. unfold F2R; cbn [Fnum Fexp].
    rewrite mult_IZR. change (2 ^ e)%Z with (radix2 ^ e)%Z. rewrite IZR_Zpower by exact H. field.
  - split; [apply Z.pow_pos_nonneg; lia|]. split; [lia|]. unfold F2R; cbn [Fnum Fexp].
    change (2 ^ (- e))%Z with (radix2 ^ (- e))%Z. rewrite IZR_Zpower by lia.
    rewrite bpow_opp. field. apply Rgt_not_eq, bpow_gt_0.
Qed.
Lemma floor_div n d : (0 < d)%Z -> Zfloor (IZR n / IZR d) = (n / d)%Z.
Proof. intros H. apply Zfloor_div. lia. Qed.
Lemma trunc_is0 x r : is64 x r -> f64_trunc x = toInt64 (Ztrunc r) \/ (f64_trunc x = 0 /\ Ztrunc r = 0)%Z.
Proof.
  intros (V & F & <-). destruct x as [s|s| |s m e]; simpl in F; try discriminate.
  - right. split; [reflexivity|]. simpl. apply Ztrunc_IZR with (n := 0%Z).
  - left. generalize (magn_val m e). simpl. destruct (magn m e) as [n d]. intros (D & N & E).
    f_equal.
    assert (P : (0 <= IZR n / IZR d)%R).
    { apply Rmult_le_pos; [now apply IZR_le|]. left. apply Rinv_0_lt_compat. now apply IZR_lt. }
    destruct s.
    + change (cond_Zopp true (Z.pos m)) with (- Z.pos m)%Z. rewrite F2R_Zopp, E, Ztrunc_opp, Ztrunc_floor, floor_div by assumption. reflexivity.
    + change (cond_Zopp false (Z.pos m)) with (Z.pos m). rewrite E, Ztrunc_floor, floor_div by assumption. reflexivity.
Qed.
Lemma trunc_is x r : is64 x r -> (- 2 ^ 63 <= Ztrunc r < 2 ^ 63)%Z -> f64_trunc x = Ztrunc r.
Proof.
  intros H B. destruct (trunc_is0 x r H) as [-> | [-> ->]]; [|reflexivity].
  unfold toInt64. destruct B as [B1 B2]. apply Z.leb_le in B1. apply Z.ltb_lt in B2. now rewrite B1, B2.
Qed.

(** A number that has [k] binary digits after the point and is not too large is a float64. *)
Lemma fmt_frac (z k : Z) : (Z.abs z <= 2 ^ 53)%Z -> (0 <= k <= 1000)%Z -> fmt64 (IZR z / IZR (2 ^ k)).
Proof.
  intros H K. assert (P : IZR (2 ^ k) = bpow radix2 k) by (change 2%Z with (radix_val radix2); apply IZR_Zpower; lia).
  rewrite P. unfold Rdiv. rewrite <- bpow_opp.
  destruct (Z.eq_dec (Z.abs z) (2 ^ 53)) as [E|E].
  - assert (F : fmt64 (bpow radix2 53 * bpow radix2 (- k))) by (rewrite <- bpow_plus; apply bpow_fmt; lia).
    replace (bpow radix2 53) with (IZR (2 ^ 53)) in F by reflexivity.
    destruct (Z.abs_eq_or_opp z) as [A|A]; rewrite A in E; [now rewrite E|].
    replace z with (- 2 ^ 53)%Z by lia. rewrite opp_IZR, Ropp_mult_distr_l_reverse. now apply generic_format_opp.
  - apply generic_format_FLT. exists (Float radix2 z (- k)).
    + unfold F2R; simpl. ring.
    + cbn [Fnum]. change (Z.pow_pos 2 53) with (2 ^ 53)%Z. change (radix2 ^ 53)%Z with (2 ^ 53)%Z. lia.
    + cbn [Fexp]. lia.
Qed.
Lemma rnd_opp r : rnd (- r) = - rnd r.
Proof. apply round_NE_opp. Qed.

(** Round half up through float64: exact for fractions with a denominator up to 2^16. *)
Lemma half_up_exact (a u : Z) : (0 <= a <= 2 ^ 35)%Z -> (0 < u <= 2 ^ 16)%Z ->
  Zfloor (rnd (rnd (IZR a / IZR u) + / 2)) = ((2 * a + u) / (2 * u))%Z.
Proof.
  intros A U. set (n := ((2 * a + u) / (2 * u))%Z).
  assert (Hn : (n * (2 * u) <= 2 * a + u < (n + 1) * (2 * u))%Z).
  { unfold n. pose proof (Z.div_mod (2 * a + u) (2 * u) ltac:(lia)). pose proof (Z.mod_pos_bound (2 * a + u) (2 * u) ltac:(lia)). lia. }
  assert (Bn : (0 <= n <= 2 ^ 35 + 1)%Z) by nia.
  assert (Up : 0 < IZR u) by (apply IZR_lt; lia).
  assert (L : IZR (2 * n - 1) / IZR (2 ^ 1) <= IZR a / IZR u).
  { change (IZR (2 ^ 1)) with 2. apply Rmult_le_reg_r with (2 * IZR u); [lra|].
    replace (IZR a / IZR u * (2 * IZR u)) with (2 * IZR a) by (field; lra).
    replace (IZR (2 * n - 1) / 2 * (2 * IZR u)) with (IZR (2 * n - 1) * IZR u) by (field; lra).
    rewrite <- !mult_IZR. apply IZR_le. lia. }
  assert (T : IZR a / IZR u <= IZR ((2 * n + 1) * 2 ^ 16 - 1) / IZR (2 ^ 17)).
  { apply Rmult_le_reg_r with (IZR u * IZR (2 ^ 17)); [apply Rmult_lt_0_compat; [lra|apply IZR_lt; lia]|].
    replace (IZR a / IZR u * (IZR u * IZR (2 ^ 17))) with (IZR a * IZR (2 ^ 17)) by (field; lra).
    replace (IZR ((2 * n + 1) * 2 ^ 16 - 1) / IZR (2 ^ 17) * (IZR u * IZR (2 ^ 17))) with (IZR ((2 * n + 1) * 2 ^ 16 - 1) * IZR u)
      by (field; apply Rgt_not_eq, IZR_lt; lia).
    rewrite <- !mult_IZR. apply IZR_le. nia. }
  apply Zfloor_imp. split.
  - apply Rle_trans with (rnd (IZR n)); [rewrite rnd_Z by lia; lra|]. apply rnd_le.
    assert (G : IZR (2 * n - 1) / IZR (2 ^ 1) <= rnd (IZR a / IZR u)).
    { rewrite <- (rnd_id (IZR (2 * n - 1) / IZR (2 ^ 1))) by (apply fmt_frac; lia). now apply rnd_le. }
    change (IZR (2 ^ 1)) with 2 in G. rewrite minus_IZR, mult_IZR in G. lra.
  - assert (G : rnd (IZR a / IZR u) <= IZR ((2 * n + 1) * 2 ^ 16 - 1) / IZR (2 ^ 17)).
    { rewrite <- (rnd_id (IZR ((2 * n + 1) * 2 ^ 16 - 1) / IZR (2 ^ 17))) by (apply fmt_frac; lia). now apply rnd_le. }
    apply Rle_lt_trans with (IZR ((n + 1) * 2 ^ 17 - 1) / IZR (2 ^ 17)).
    + rewrite <- (rnd_id (IZR ((n + 1) * 2 ^ 17 - 1) / IZR (2 ^ 17))) by (apply fmt_frac; lia). apply rnd_le.
      rewrite minus_IZR, mult_IZR, plus_IZR in *. rewrite mult_IZR in G. change (2 ^ 17)%Z with (2 * 2 ^ 16)%Z in *. rewrite mult_IZR in *.
      assert (0 < IZR (2 ^ 16)) by (apply IZR_lt; lia). set (K := IZR (2 ^ 16)) in *.
      replace ((IZR n + 1) * (2 * K) - 1) with (((2 * IZR n + 1) * K - 1) + K) by ring.
      unfold Rdiv in *. rewrite Rmult_plus_distr_r. replace (K * / (2 * K)) with (/ 2) by (field; lra). lra.
    + rewrite minus_IZR, mult_IZR. assert (0 < IZR (2 ^ 17)) by (apply IZR_lt; lia).
      unfold Rdiv. rewrite Rmult_minus_distr_r, Rmult_assoc, Rinv_r, Rmult_1_r by lra.
      assert (0 < / IZR (2 ^ 17)) by now apply Rinv_0_lt_compat. lra.
Qed.
(** Absolute error of one rounding. *)
Lemma rnd_abs_err r e : Rabs r < bpow radix2 e -> (-1021 <= e)%Z -> Rabs (rnd r - r) <= / 2 * bpow radix2 (e - 53).
Proof.
  intros H E. destruct (Req_dec r 0) as [->|N].
  - rewrite (rnd_Z 0) by lia. simpl. rewrite Rminus_0_r, Rabs_R0. apply Rmult_le_pos; [lra|apply bpow_ge_0].
  - apply Rle_trans with (/ 2 * ulp radix2 (FLT_exp (-1074) 53) r).
    + apply error_le_half_ulp. apply FLT_exp_valid; exact Hp.
    + apply Rmult_le_compat_l; [lra|]. rewrite ulp_neq_0 by exact N. apply bpow_le. unfold cexp, FLT_exp.
      assert (mag radix2 r <= e)%Z by (apply mag_le_bpow; assumption). lia.
Qed.
Lemma small_fin r : Rabs r <= IZR (2 ^ 53) -> Rabs (rnd r) < bpow radix2 1024.
Proof.
  intros H. apply Rle_lt_trans with (IZR (2 ^ 53)); [apply rnd_abs_le; [apply fmt_Z; lia|exact H]|].
  change (bpow radix2 53 < bpow radix2 1024). apply bpow_lt. lia.
Qed.
