(** C19 in float64: how far the conversions of config.go:85-128 are from the exact ones. *)
From Coq Require Import QArith ZArith Reals Qreals Lia Lra Bool SpecFloat.
From Flocq Require Import Core.
From Verif Require Import Base NumModel UnitModel PropUnit FloatReal.
Local Open Scope R_scope.

(** Zero, or a magnitude between 2^-990 and 2^990. *)
Definition ordinary (r : R) : Prop := r = 0 \/ bpow radix2 (-990) <= Rabs r <= bpow radix2 990.
(** Within one part in 2^51. *)
Definition about (r exact : R) : Prop := Rabs (r - exact) <= bpow radix2 (-51) * Rabs exact.

Lemma b52 : bpow radix2 (-51) = 4 * (/ 2 * bpow radix2 (-52)).
Proof. change (bpow radix2 (-51)) with (bpow radix2 (1 + -52)). rewrite bpow_plus. change (bpow radix2 1) with 2. lra. Qed.
Lemma b52s : 0 < / 2 * bpow radix2 (-52) < / 16.
Proof.
  assert (0 < bpow radix2 (-52)) by apply bpow_gt_0. assert (bpow radix2 (-52) < bpow radix2 (-3)) by (apply bpow_lt; lia).
  change (bpow radix2 (-3)) with (/ 8) in *. lra.
Qed.
(** [x] is [r] up to a relative error of one rounding. *)
Definition off1 (a r : R) : Prop := Rabs (a - r) <= / 2 * bpow radix2 (-52) * Rabs r.
Lemma off1_rnd r : (r = 0 \/ bpow radix2 (-1022) <= Rabs r) -> off1 (rnd r) r.
Proof.
  intros [-> | H]; [|now apply rnd_err]. unfold off1. rewrite (rnd_Z 0) by lia. simpl. rewrite Rminus_0_r, Rabs_R0. lra.
Qed.
Lemma off1_abs a r : off1 a r -> Rabs r * (1 - / 2 * bpow radix2 (-52)) <= Rabs a <= Rabs r * (1 + / 2 * bpow radix2 (-52)).
Proof.
  unfold off1. intros H. pose proof (Rabs_triang_inv a r). pose proof (Rabs_triang (a - r) r) as T. replace (a - r + r) with a in T by ring.
  pose proof (Rabs_triang_inv r a) as T2. rewrite Rabs_minus_sym in T2. lra.
Qed.
Lemma fin990 r : Rabs r <= bpow radix2 1023 -> Rabs (rnd r) < bpow radix2 1024.
Proof. intros H. apply Rle_lt_trans with (bpow radix2 1023); [apply rnd_abs_le; [apply bpow_fmt; lia|exact H]|apply bpow_lt; lia]. Qed.
Lemma absprod r k : Rabs (r * k) = Rabs r * Rabs k. Proof. apply Rabs_mult. Qed.

Section Conv.
  Variables (x kf : f64) (r k K : R).
  Hypothesis Hx : is64 x r.
  Hypothesis Hk : is64 kf k.
  Hypothesis Hr : ordinary r.
  Hypothesis Bk : bpow radix2 (-20) <= Rabs k <= bpow radix2 20.
  Hypothesis HK : off1 k K.
  Lemma k0 : k <> 0.
  Proof using Bk. intros E. assert (B := proj1 Bk). rewrite E, Rabs_R0 in B. clear - B. assert (0 < bpow radix2 (-20)) by apply bpow_gt_0. lra. Qed.
  Lemma prod_big : r = 0 \/ bpow radix2 (-1010) <= Rabs (r * k) <= bpow radix2 1010.
  Proof using Hr Bk.
    destruct Hr as [H|[H1 H2]]; [now left|right]. rewrite absprod.
    change (bpow radix2 (-1010)) with (bpow radix2 (-990 + -20)). change (bpow radix2 1010) with (bpow radix2 (990 + 20)). rewrite !bpow_plus.
    split; apply Rmult_le_compat; try lra; try apply bpow_ge_0; try apply Rabs_pos.
  Qed.
  Lemma quot_big : r = 0 \/ bpow radix2 (-1010) <= Rabs (r / k) <= bpow radix2 1010.
  Proof using Hr Bk.
    destruct Hr as [H|[H1 H2]]; [now left|right]. pose proof k0 as K0. unfold Rdiv. rewrite Rabs_mult, Rabs_inv.
    assert (P : 0 < Rabs k) by now apply Rabs_pos_lt.
    change (bpow radix2 (-1010)) with (bpow radix2 (-990 + - (20))). change (bpow radix2 1010) with (bpow radix2 (990 + - (-20))).
    rewrite !bpow_plus, (bpow_opp radix2 20), (bpow_opp radix2 (-20)).
    split; apply Rmult_le_compat; try lra; try apply bpow_ge_0; try apply Rabs_pos; try (left; apply Rinv_0_lt_compat; (exact P || apply bpow_gt_0)).
    - apply Rinv_le_contravar; [exact P|lra].
    - apply Rinv_le_contravar; [apply bpow_gt_0|lra].
  Qed.
  Lemma mul_ok : is64 (SFmul 53 1024 x kf) (rnd (r * k)) /\ off1 (rnd (r * k)) (r * k).
  Proof using Hx Hk Hr Bk.
    destruct prod_big as [H|[H1 H2]].
    - assert (E : r * k = 0) by (rewrite H; ring). split; [apply mul_is; [exact Hx|exact Hk|]; apply fin990; rewrite E, Rabs_R0; apply bpow_ge_0|].
      apply off1_rnd. now left.
    - split; [apply mul_is; [exact Hx|exact Hk|]; apply fin990; apply Rle_trans with (1 := H2); apply bpow_le; lia|].
      apply off1_rnd. right. apply Rle_trans with (2 := H1). apply bpow_le. lia.
  Qed.
  Lemma div_ok : is64 (SFdiv 53 1024 x kf) (rnd (r / k)) /\ off1 (rnd (r / k)) (r / k).
  Proof using Hx Hk Hr Bk.
    destruct quot_big as [H|[H1 H2]].
    - assert (E : r / k = 0) by (rewrite H; unfold Rdiv; ring). split; [apply div_is; [exact Hx|exact Hk|exact k0|]; apply fin990; rewrite E, Rabs_R0; apply bpow_ge_0|].
      apply off1_rnd. now left.
    - split; [apply div_is; [exact Hx|exact Hk|exact k0|]; apply fin990; apply Rle_trans with (1 := H2); apply bpow_le; lia|].
      apply off1_rnd. right. apply Rle_trans with (2 := H1). apply bpow_le. lia.
  Qed.
  Lemma mul_about : about (rnd (r * k)) (r * K).
  Proof using Hx Hk Hr Bk HK.
    destruct mul_ok as [_ O]. unfold about, off1 in *. rewrite b52. pose proof b52s as S. set (e := / 2 * bpow radix2 (-52)) in *.
    rewrite !absprod in *. pose proof (off1_abs _ _ HK) as [_ A]. fold e in A.
    replace (rnd (r * k) - r * K) with ((rnd (r * k) - r * k) + r * (k - K)) by ring.
    apply Rle_trans with (1 := Rabs_triang _ _). rewrite (Rabs_mult r).
    assert (Rabs r * Rabs (k - K) <= Rabs r * (e * Rabs K)) by (apply Rmult_le_compat_l; [apply Rabs_pos|exact HK]).
    assert (e * (Rabs r * Rabs k) <= e * (Rabs r * (Rabs K * (1 + e)))) by (apply Rmult_le_compat_l; [lra|]; apply Rmult_le_compat_l; [apply Rabs_pos|exact A]).
    assert (T : 0 <= Rabs r * Rabs K) by (apply Rmult_le_pos; apply Rabs_pos).
    replace (e * (Rabs r * (Rabs K * (1 + e)))) with (e * (Rabs r * Rabs K) * (1 + e)) in * by ring.
    replace (Rabs r * (e * Rabs K)) with (e * (Rabs r * Rabs K)) in * by ring. set (t := Rabs r * Rabs K) in *.
    assert (0 <= e * t) by (apply Rmult_le_pos; lra). assert (e * t * (1 + e) <= e * t * 2) by (apply Rmult_le_compat_l; lra). lra.
  Qed.
  Lemma div_about : about (rnd (r / k)) (r / K).
  Proof using Hx Hk Hr Bk HK.
    destruct div_ok as [_ O]. unfold about, off1 in *. rewrite b52. pose proof b52s as S. pose proof (off1_abs _ _ HK) as [A _]. set (e := / 2 * bpow radix2 (-52)) in *.
    pose proof k0 as K0. assert (P : 0 < Rabs k) by now apply Rabs_pos_lt.
    assert (KN : K <> 0).
    { intros E. rewrite E, Rabs_R0, Rmult_0_r in HK. rewrite Rminus_0_r in HK. lra. }
    assert (PK : 0 < Rabs K) by now apply Rabs_pos_lt.
    replace (rnd (r / k) - r / K) with ((rnd (r / k) - r / k) + (r / k) * ((K - k) / K)) by (field; split; assumption).
    apply Rle_trans with (1 := Rabs_triang _ _). rewrite (Rabs_mult (r / k)).
    assert (D : Rabs ((K - k) / K) <= e).
    { unfold Rdiv. rewrite Rabs_mult, Rabs_inv, Rabs_minus_sym. apply Rmult_le_reg_r with (Rabs K); [exact PK|].
      rewrite Rmult_assoc, Rinv_l, Rmult_1_r by lra. exact HK. }
    assert (Q : Rabs (r / k) * (1 - e) <= Rabs (r / K)).
    { unfold Rdiv. rewrite !Rabs_mult, !Rabs_inv. rewrite Rmult_assoc. apply Rmult_le_compat_l; [apply Rabs_pos|].
      apply Rmult_le_reg_l with (Rabs k); [exact P|]. rewrite <- Rmult_assoc, Rinv_r, Rmult_1_l by lra.
      apply Rmult_le_reg_r with (Rabs K); [exact PK|]. rewrite (Rmult_assoc (Rabs k)), Rinv_l, Rmult_1_r by lra. lra. }
    set (u := Rabs (r / k)) in *. set (v := Rabs (r / K)) in *. assert (U : 0 <= u) by apply Rabs_pos.
    assert (u * Rabs ((K - k) / K) <= u * e) by now apply Rmult_le_compat_l.
    assert (u <= 2 * v) by nra. assert (e * u <= e * (2 * v)) by (apply Rmult_le_compat_l; lra). lra.
  Qed.
End Conv.
(** Converting and converting back. *)
Lemma back_about x kf r k : is64 x r -> is64 kf k -> ordinary r -> bpow radix2 (-20) <= Rabs k <= bpow radix2 20 ->
  exists r', is64 (SFdiv 53 1024 (SFmul 53 1024 x kf) kf) r' /\ about r' r.
Proof.
  intros Hx Hk Hr Bk. destruct (mul_ok x kf r k Hx Hk Hr Bk) as [M O]. pose proof (k0 k Bk) as K0.
  pose proof b52s as S. pose proof (off1_abs _ _ O) as A. set (p := rnd (r * k)) in *.
  assert (PK : p / k - r = (p - r * k) / k) by (field; exact K0).
  assert (Q : Rabs (p / k - r) <= / 2 * bpow radix2 (-52) * Rabs r).
  { rewrite PK. unfold Rdiv. rewrite Rabs_mult, Rabs_inv. apply Rmult_le_reg_r with (Rabs k); [now apply Rabs_pos_lt|].
    rewrite Rmult_assoc, Rinv_l, Rmult_1_r by (now apply Rabs_no_R0). unfold off1 in O. rewrite absprod in O. lra. }
  pose proof (off1_abs (p / k) r Q) as A2. set (e := / 2 * bpow radix2 (-52)) in *.
  assert (Z : r = 0 \/ bpow radix2 (-1022) <= Rabs (p / k) <= bpow radix2 1023).
  { destruct Hr as [H|[H1 H2]]; [now left|right]. assert (0 < bpow radix2 (-990)) by apply bpow_gt_0. assert (0 < bpow radix2 990) by apply bpow_gt_0. split.
    - apply Rle_trans with (bpow radix2 (-991)); [apply bpow_le; lia|].
      assert (E : bpow radix2 (-990) = 2 * bpow radix2 (-991)) by (change (bpow radix2 (-990)) with (bpow radix2 (1 + -991)); rewrite bpow_plus; reflexivity).
      nra.
    - apply Rle_trans with (bpow radix2 991); [|apply bpow_le; lia].
      assert (E : bpow radix2 991 = 2 * bpow radix2 990) by (change (bpow radix2 991) with (bpow radix2 (1 + 990)); rewrite bpow_plus; reflexivity).
      nra. }
  exists (rnd (p / k)). split.
  - apply div_is; [exact M|exact Hk|exact K0|]. apply fin990. destruct Z as [Z|Z]; [|lra].
    assert (E : Rabs r = 0) by (rewrite Z; apply Rabs_R0). rewrite E in A2. apply Rle_trans with 0; [lra|apply bpow_ge_0].
  - assert (O2 : off1 (rnd (p / k)) (p / k)).
    { apply off1_rnd. destruct Z as [Z|Z]; [left|right; lra]. assert (E : Rabs r = 0) by (rewrite Z; apply Rabs_R0). rewrite E in A2.
      destruct (Req_dec (p / k) 0) as [?|N]; [assumption|]. apply Rabs_pos_lt in N. lra. }
    unfold off1, about in *. rewrite b52. fold e in O2 |- *.
    replace (rnd (p / k) - r) with ((rnd (p / k) - p / k) + (p / k - r)) by ring. apply Rle_trans with (1 := Rabs_triang _ _).
    assert (0 <= Rabs r) by apply Rabs_pos. nra.
Qed.

(** The compiled constants of config.go:5-24. *)
Lemma frac_is (a b : Z) : (0 < a < 2 ^ 12)%Z -> (0 < b < 2 ^ 12)%Z ->
  let k := rnd (IZR a / IZR b) in is64 (SFdiv 53 1024 (f64_ofZ a) (f64_ofZ b)) k /\ off1 k (IZR a / IZR b) /\ bpow radix2 (-20) <= Rabs k <= bpow radix2 20.
Proof.
  intros A B k. assert (A1 : 1 <= IZR a <= bpow radix2 12) by (split; [apply IZR_le|change (bpow radix2 12) with (IZR (2 ^ 12)); apply IZR_le]; lia).
  assert (B1 : 1 <= IZR b <= bpow radix2 12) by (split; [apply IZR_le|change (bpow radix2 12) with (IZR (2 ^ 12)); apply IZR_le]; lia).
  assert (P : bpow radix2 (-20) <= IZR a / IZR b <= bpow radix2 20).
  { split; apply Rmult_le_reg_r with (IZR b); try lra; unfold Rdiv; rewrite (Rmult_assoc (IZR a)), Rinv_l, Rmult_1_r by lra.
    - apply Rle_trans with (bpow radix2 (-20) * bpow radix2 12); [apply Rmult_le_compat_l; [apply bpow_ge_0|lra]|].
      rewrite <- bpow_plus. apply Rle_trans with (bpow radix2 0); [apply bpow_le; lia|]. change (bpow radix2 0) with 1. lra.
    - apply Rle_trans with (bpow radix2 20 * 1); [rewrite Rmult_1_r; apply Rle_trans with (1 := proj2 A1); apply bpow_le; lia|].
      apply Rmult_le_compat_l; [apply bpow_ge_0|lra]. }
  assert (P0 : 0 < bpow radix2 (-20)) by apply bpow_gt_0.
  assert (KP : bpow radix2 (-20) <= k <= bpow radix2 20).
  { unfold k. rewrite <- (rnd_id (bpow radix2 (-20))) at 1 by (apply bpow_fmt; lia). rewrite <- (rnd_id (bpow radix2 20)) by (apply bpow_fmt; lia).
    split; apply rnd_le; lra. }
  split; [|split].
  - apply div_is; [apply ofZ_is; lia|apply ofZ_is; lia|lra|]. fold k. rewrite Rabs_pos_eq by lra. apply Rle_lt_trans with (1 := proj2 KP). apply bpow_lt. lia.
  - apply off1_rnd. right. rewrite Rabs_pos_eq by lra. apply Rle_trans with (2 := proj1 P). apply bpow_le. lia.
  - rewrite Rabs_pos_eq by lra. exact KP.
Qed.
(** The factor a document works with: the custom one if set (as it is, and of a sensible size), otherwise the unit's. *)
Definition works_with (c : ucfg F64) (K : R) : Prop :=
  (SFeqb (u_conv c) (f64_ofZ 0) = true /\ K = Q2R (points_per_unit (u_unit c) 0)) \/
  (SFeqb (u_conv c) (f64_ofZ 0) = false /\ is64 (u_conv c) K /\ bpow radix2 (-20) <= Rabs K <= bpow radix2 20).

Lemma off1_refl k : off1 k k.
Proof. unfold off1. replace (k - k) with 0 by ring. rewrite Rabs_R0. apply Rmult_le_pos; [|apply Rabs_pos]. pose proof b52s. lra. Qed.
Lemma about_refl r : about r r.
Proof. unfold about. replace (r - r) with 0 by ring. rewrite Rabs_R0. apply Rmult_le_pos; [apply bpow_ge_0|apply Rabs_pos]. Qed.
Lemma int_factor z : (0 < z < 2 ^ 12)%Z -> is64 (f64_ofZ z) (IZR z) /\ off1 (IZR z) (IZR z) /\ bpow radix2 (-20) <= Rabs (IZR z) <= bpow radix2 20.
Proof.
  intros H. split; [apply ofZ_is; lia|]. split; [apply off1_refl|]. rewrite <- abs_IZR. split.
  - apply Rle_trans with (bpow radix2 0); [apply bpow_le; lia|]. change (bpow radix2 0) with 1. apply IZR_le. lia.
  - change (bpow radix2 20) with (IZR (2 ^ 20)). apply IZR_le. lia.
Qed.
(** Either no conversion at all (factor one), or a float64 factor one rounding away from the unit's. *)
Lemma factor_cases (t : Z) : (factor F64 t = None /\ Q2R (points_per_unit t 0) = 1) \/
  exists kf k, factor F64 t = Some kf /\ is64 kf k /\ off1 k (Q2R (points_per_unit t 0)) /\ bpow radix2 (-20) <= Rabs k <= bpow radix2 20.
Proof.
  unfold factor.
  destruct (Z.eqb_spec t 1) as [->|N1]; [right; do 2 eexists; split; [reflexivity|]; destruct (int_factor 1 ltac:(lia)) as (A & B & C); split; [exact A|split; [|exact C]]; unfold Q2R; cbn; replace (1 * / 1) with 1 by lra; exact B|].
  destruct (Z.eqb_spec t 2) as [->|N2].
  { right. destruct (frac_is 360 127 ltac:(lia) ltac:(lia)) as (A & B & C). do 2 eexists. split; [reflexivity|]. split; [exact A|split; [|exact C]].
    replace (Q2R (points_per_unit 2 0)) with (IZR 360 / IZR 127) by (unfold Q2R; cbn; lra). exact B. }
  destruct (Z.eqb_spec t 3) as [->|N3].
  { right. destruct (frac_is 3600 127 ltac:(lia) ltac:(lia)) as (A & B & C). do 2 eexists. split; [reflexivity|]. split; [exact A|split; [|exact C]].
    replace (Q2R (points_per_unit 3 0)) with (IZR 3600 / IZR 127) by (unfold Q2R; cbn; lra). exact B. }
  destruct (Z.eqb_spec t 4) as [->|N4].
  { right. destruct (int_factor 72 ltac:(lia)) as (A & B & C). do 2 eexists. split; [reflexivity|]. split; [exact A|split; [|exact C]].
    replace (Q2R (points_per_unit 4 0)) with (IZR 72) by (unfold Q2R; cbn; lra). exact B. }
  destruct (Z.eqb_spec t 5) as [->|N5].
  { right. destruct (frac_is 3 4 ltac:(lia) ltac:(lia)) as (A & B & C). do 2 eexists. split; [reflexivity|]. split; [exact A|split; [|exact C]].
    replace (Q2R (points_per_unit 5 0)) with (IZR 3 / IZR 4) by (unfold Q2R; cbn; lra). exact B. }
  left. split; [reflexivity|]. unfold points_per_unit. cbn [Qeq_bool]. destruct t as [|p|p]; try (unfold Q2R; cbn; lra).
  do 3 (destruct p as [p|p|]; try (unfold Q2R; cbn; lra); try congruence).
Qed.

(** Every conversion in float64 is within one part in 2^51 of the exact one, and so is a conversion to points and back
    (SetX then GetX, SetMargins then MarginLeft, …). *)
Theorem C19_float64_conversions (c : ucfg F64) (K : R) (x : f64) (r : R) : works_with c K -> is64 x r -> ordinary r ->
  (exists p, is64 (unitsToPoints F64 c x) p /\ about p (r * K)) /\
  (exists u, is64 (pointsToUnits F64 c x) u /\ about u (r / K)) /\
  (exists r', is64 (pointsToUnits F64 c (unitsToPoints F64 c x)) r' /\ about r' r).
Proof.
  intros W X O. unfold unitsToPoints, pointsToUnits. change (neq F64) with SFeqb. change (nmul F64) with (SFmul 53 1024). change (ndiv F64) with (SFdiv 53 1024).
  change (nZ F64 0) with (f64_ofZ 0). destruct W as [[E ->]|(E & KI & KB)]; rewrite E; cbn [negb].
  - destruct (factor_cases (u_unit c)) as [[-> ->]|(kf & k & -> & I & F & B)].
    + replace (r * 1) with r by ring. replace (r / 1) with r by field. split; [|split]; exists r; (split; [exact X|apply about_refl]).
    + split; [|split].
      * eexists. split; [exact (proj1 (mul_ok x kf r k X I O B))|exact (mul_about x kf r k _ X I O B F)].
      * eexists. split; [exact (proj1 (div_ok x kf r k X I O B))|exact (div_about x kf r k _ X I O B F)].
      * exact (back_about x kf r k X I O B).
  - split; [|split].
    + eexists. split; [exact (proj1 (mul_ok x _ r K X KI O KB))|exact (mul_about x _ r K _ X KI O KB (off1_refl K))].
    + eexists. split; [exact (proj1 (div_ok x _ r K X KI O KB))|exact (div_about x _ r K _ X KI O KB (off1_refl K))].
    + exact (back_about x _ r K X KI O KB).
Qed.
Print Assumptions C19_float64_conversions.
(** The cursor and margin getters in float64. *)
Theorem C19_getters_float64 (k : cur F64) (K : R) (x : f64) (r : R) : works_with (k_cfg F64 k) K -> is64 x r -> ordinary r ->
  forall got, In got [getX F64 (setX F64 k x); getY F64 (setY F64 k x); getX F64 (setXY F64 k x x); getY F64 (setXY F64 k x x);
                      marginLeft F64 (setMargins F64 k x x x x); marginTop F64 (setMargins F64 k x x x x);
                      marginRight F64 (setMargins F64 k x x x x); marginBottom F64 (setMargins F64 k x x x x)] ->
  exists r', is64 got r' /\ about r' r.
Proof.
  intros W X O got H. pose proof (proj2 (proj2 (C19_float64_conversions _ K x r W X O))) as G.
  cbn [In] in H. repeat (destruct H as [<-|H]; [exact G|]). contradiction.
Qed.
Print Assumptions C19_getters_float64.
(** The hypotheses are met: seven millimetres. *)
Example C19_float64_met : works_with mm_cfg (Q2R (72 / (254 # 10))) /\ is64 (f64_ofZ 7) 7 /\ ordinary 7.
Proof.
  split; [left; split; reflexivity|]. split; [apply (ofZ_is 7); lia|]. right. rewrite Rabs_pos_eq by lra. split.
  - apply Rle_trans with (bpow radix2 0); [apply bpow_le; lia|]. change (bpow radix2 0) with 1. lra.
  - apply Rle_trans with (bpow radix2 3); [change (bpow radix2 3) with 8; lra|apply bpow_le; lia].
Qed.
