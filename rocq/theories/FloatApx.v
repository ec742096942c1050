(** FloatApx.v — a float64 beside the rational number it stands for, and how far apart they drift under the
    operations.  Nothing here models code in /repo: it is a library for the float64 theorems. *)
From Coq Require Import QArith ZArith Reals Qreals Lia Lra Bool SpecFloat.
From Flocq Require Import Core Plus_error BinarySingleNaN.
From Verif Require Import Base NumModel NumRead PaintNum UnitModel PropUnit FloatReal PropUnitF.
Local Open Scope R_scope.

Definition eps : R := bpow radix2 (-28).
Definition big : R := bpow radix2 20.
(** [ap n x q]: the finite float64 [x] is [q] up to n/2^28, and [q] is at most n * 2^20. *)
Definition ap (n : Z) (x : f64) (q : Q) : Prop := exists r, is64 x r /\ Rabs (r - Q2R q) <= IZR n * eps /\ Rabs (Q2R q) <= IZR n * big.
Lemma eps_pos : 0 < eps. Proof. apply bpow_gt_0. Qed.
Lemma eps_val : eps = / IZR (2 ^ 28). Proof. reflexivity. Qed.
Lemma big_val : big = IZR (2 ^ 20). Proof. reflexivity. Qed.
Lemma eps_small : eps <= / 1000000.
Proof. rewrite eps_val. apply Rinv_le; [lra|]. apply IZR_le. lia. Qed.
Lemma ap_mono n m x q : (n <= m)%Z -> ap n x q -> ap m x q.
Proof.
  intros L (r & A & B & C). apply IZR_le in L. pose proof eps_pos. assert (0 < big) by (rewrite big_val; apply IZR_lt; lia).
  exists r. split; [exact A|]. split; nra.
Qed.
Lemma ap_exact x q : is64 x (Q2R q) -> Rabs (Q2R q) <= big -> ap 1 x q.
Proof. intros A B. exists (Q2R q). split; [exact A|]. replace (Q2R q - Q2R q) with 0 by ring. rewrite Rabs_R0. pose proof eps_pos. split; lra. Qed.
Lemma ap_Qeq n x q q' : (q == q')%Q -> ap n x q -> ap n x q'.
Proof. intros E (r & A & B). exists r. rewrite <- (Qeq_eqR _ _ E). split; assumption. Qed.
(** one rounding of a value below 2^25 *)
Lemma rnd_small r : Rabs r <= IZR (2 ^ 24) + 1 -> is_true true /\ Rabs (rnd r - r) <= / 2 * eps /\ Rabs (rnd r) < bpow radix2 1024.
Proof.
  intros H. split; [reflexivity|]. split.
  - assert (L : Rabs r < bpow radix2 25) by (apply Rle_lt_trans with (1 := H); change (bpow radix2 25) with (IZR (2 ^ 25)); rewrite <- (plus_IZR _ 1); apply IZR_lt; lia).
    apply (rnd_abs_err r 25) in L; [|lia]. exact L.
  - apply small_fin. apply Rle_trans with (1 := H). rewrite <- (plus_IZR _ 1). apply IZR_le. lia.
Qed.
Lemma ap_r n x q : (0 <= n <= 16)%Z -> ap n x q -> exists r, is64 x r /\ Rabs (r - Q2R q) <= IZR n * eps /\ Rabs (Q2R q) <= IZR n * big /\ Rabs r <= IZR (2 ^ 24) + / 1000.
Proof.
  intros L (r & A & B & C). exists r. split; [exact A|]. split; [exact B|]. split; [exact C|].
  assert (N : IZR n <= 16) by (apply (IZR_le n 16); lia). assert (N0 : 0 <= IZR n) by (apply (IZR_le 0 n); lia).
  pose proof (Rabs_triang (r - Q2R q) (Q2R q)) as T. replace (r - Q2R q + Q2R q) with r in T by ring.
  pose proof eps_small as E. pose proof eps_pos. rewrite big_val in *. replace (IZR (2 ^ 24)) with (16 * IZR (2 ^ 20)) by (rewrite <- mult_IZR; reflexivity).
  assert (0 < IZR (2 ^ 20)) by (apply IZR_lt; lia). nra.
Qed.
Lemma ap_sum (sub : bool) n m x y p q : (0 <= n)%Z -> (0 <= m)%Z -> (n + m <= 15)%Z -> ap n x p -> ap m y q ->
  ap (n + m + 1) ((if sub then nsub F64 else nadd F64) x y) ((if sub then Qminus else Qplus) p q).
Proof.
  intros N M L (r & A & B & C) (s & D & E & F).
  set (v := if sub then r - s else r + s). set (w := if sub then Q2R p - Q2R q else Q2R p + Q2R q).
  assert (W : Q2R ((if sub then Qminus else Qplus) p q) = w) by (unfold w; destruct sub; [apply Q2R_minus|apply Q2R_plus]).
  assert (VW : Rabs (v - w) <= IZR n * eps + IZR m * eps).
  { unfold v, w. destruct sub.
    - replace (r - s - (Q2R p - Q2R q)) with ((r - Q2R p) + (- (s - Q2R q))) by ring. apply Rle_trans with (1 := Rabs_triang _ _). rewrite Rabs_Ropp. lra.
    - replace (r + s - (Q2R p + Q2R q)) with ((r - Q2R p) + (s - Q2R q)) by ring. apply Rle_trans with (1 := Rabs_triang _ _). lra. }
  assert (WB : Rabs w <= IZR (n + m) * big).
  { rewrite plus_IZR, Rmult_plus_distr_r. unfold w. destruct sub; [replace (Q2R p - Q2R q) with (Q2R p + - Q2R q) by ring|]; apply Rle_trans with (1 := Rabs_triang _ _); rewrite ?Rabs_Ropp; lra. }
  assert (NM : IZR (n + m) <= 15) by (apply (IZR_le _ 15); lia). assert (NM0 : 0 <= IZR (n + m)) by (apply (IZR_le 0); lia).
  assert (VB : Rabs v <= IZR (2 ^ 24) + 1).
  { pose proof (Rabs_triang (v - w) w) as T. replace (v - w + w) with v in T by ring. rewrite <- Rmult_plus_distr_r, <- plus_IZR in VW. pose proof eps_small. pose proof eps_pos.
    rewrite big_val in WB. replace (IZR (2 ^ 24)) with (16 * IZR (2 ^ 20)) by (rewrite <- mult_IZR; reflexivity). assert (0 < IZR (2 ^ 20)) by (apply IZR_lt; lia). nra. }
  destruct (rnd_small v VB) as (_ & R1 & R2). exists (rnd v). split.
  - destruct sub; [now apply sub_is|now apply add_is].
  - rewrite W. rewrite !plus_IZR. pose proof eps_pos. split.
    + replace (rnd v - w) with ((rnd v - v) + (v - w)) by ring. apply Rle_trans with (1 := Rabs_triang _ _). lra.
    + rewrite plus_IZR in WB. assert (0 < big) by (rewrite big_val; apply IZR_lt; lia). lra.
Qed.
Lemma ap_add n m x y p q : (0 <= n)%Z -> (0 <= m)%Z -> (n + m <= 15)%Z -> ap n x p -> ap m y q -> ap (n + m + 1) (nadd F64 x y) (p + q)%Q.
Proof. exact (ap_sum false n m x y p q). Qed.
Lemma ap_sub n m x y p q : (0 <= n)%Z -> (0 <= m)%Z -> (n + m <= 15)%Z -> ap n x p -> ap m y q -> ap (n + m + 1) (nsub F64 x y) (p - q)%Q.
Proof. exact (ap_sum true n m x y p q). Qed.
Lemma is64_opp x r : is64 x r -> is64 (nneg F64 x) (- r).
Proof.
  intros (A & B & C). unfold is64. destruct x as [s|s| |s m e]; try discriminate; cbn [nneg F64 SFopp].
  - split; [reflexivity|]. split; [reflexivity|]. cbn in *. lra.
  - split; [exact A|]. split; [reflexivity|]. rewrite <- C. cbn [SF2R]. unfold F2R. cbn [Fnum Fexp]. destruct s; cbn [negb cond_Zopp]; rewrite <- Ropp_mult_distr_l_reverse, <- opp_IZR; reflexivity.
Qed.
Lemma ap_opp n x q : ap n x q -> ap n (nneg F64 x) (- q)%Q.
Proof.
  intros (r & A & B & C). exists (- r). split; [now apply is64_opp|]. rewrite Q2R_opp. split.
  - replace (- r - - Q2R q) with (- (r - Q2R q)) by ring. now rewrite Rabs_Ropp.
  - now rewrite Rabs_Ropp.
Qed.
(** any operation that is a rounding of a value close to the exact one *)
Lemma ap_round n m x v w q : (0 <= m <= 16)%Z -> (Rabs v <= IZR (2 ^ 24) + 1 -> Rabs (rnd v) < bpow radix2 1024 -> is64 x (rnd v)) -> Q2R q = w ->
  Rabs (v - w) <= (IZR n + / 2) * eps -> (0 <= n)%Z -> (n + 1 <= m)%Z -> Rabs w <= IZR m * big -> ap m x q.
Proof.
  intros M X W E N NM B. apply IZR_le in NM. rewrite plus_IZR in NM. assert (M16 : IZR m <= 16) by (apply (IZR_le m 16); lia). assert (N0 : 0 <= IZR n) by (apply (IZR_le 0 n); lia).
  pose proof eps_small. pose proof eps_pos.
  assert (VB : Rabs v <= IZR (2 ^ 24) + 1).
  { pose proof (Rabs_triang (v - w) w) as T. replace (v - w + w) with v in T by ring.
    rewrite big_val in B. replace (IZR (2 ^ 24)) with (16 * IZR (2 ^ 20)) by (rewrite <- mult_IZR; reflexivity). assert (0 < IZR (2 ^ 20)) by (apply IZR_lt; lia). nra. }
  destruct (rnd_small v VB) as (_ & R1 & R2). exists (rnd v). split; [now apply X|]. rewrite W. split; [|exact B].
  replace (rnd v - w) with ((rnd v - v) + (v - w)) by ring. apply Rle_trans with (1 := Rabs_triang _ _). nra.
Qed.
(** multiplication by a factor at most one, itself rounded *)
Lemma ap_scale n x q kf k K : (0 <= n <= 15)%Z -> is64 kf k -> Rabs (k - Q2R K) <= bpow radix2 (-54) -> Rabs (Q2R K) <= 1 -> ap n x q -> ap (n + 1) (nmul F64 x kf) (q * K)%Q.
Proof.
  intros L KI KD KB X. destruct (ap_r n x q ltac:(lia) X) as (r & A & B & C & D).
  assert (N : IZR n <= 15) by (apply (IZR_le n 15); lia). assert (N0 : 0 <= IZR n) by (apply (IZR_le 0 n); lia). pose proof eps_pos. pose proof eps_small.
  assert (BG : 0 < big) by (rewrite big_val; apply IZR_lt; lia).
  assert (B53 : bpow radix2 (-54) = eps * (/ IZR (2 ^ 26))). { unfold eps. change (-54)%Z with (-28 + -26)%Z. rewrite bpow_plus. reflexivity. }
  eapply (ap_round n (n + 1) _ (r * k) (Q2R q * Q2R K)); [lia| |apply Q2R_mult| |lia|lia|].
  - intros _ F. now apply mul_is.
  - replace (r * k - Q2R q * Q2R K) with ((r - Q2R q) * Q2R K + r * (k - Q2R K)) by ring. apply Rle_trans with (1 := Rabs_triang _ _). rewrite !Rabs_mult, Rmult_plus_distr_r.
    apply Rplus_le_compat.
    + rewrite <- (Rmult_1_r (IZR n * eps)). apply Rmult_le_compat; try apply Rabs_pos; assumption.
    + apply Rle_trans with ((IZR (2 ^ 24) + / 1000) * bpow radix2 (-54)); [apply Rmult_le_compat; try apply Rabs_pos; assumption|]. rewrite B53.
      replace ((IZR (2 ^ 24) + / 1000) * (eps * / IZR (2 ^ 26))) with (eps * ((IZR (2 ^ 24) + / 1000) * / IZR (2 ^ 26))) by ring. rewrite (Rmult_comm (/ 2)). apply Rmult_le_compat_l; [lra|].
      replace (IZR (2 ^ 26)) with 67108864 by reflexivity. replace (IZR (2 ^ 24)) with 16777216 by reflexivity. lra.
  - rewrite Rabs_mult, plus_IZR. apply Rle_trans with (IZR n * big * 1); [apply Rmult_le_compat; try apply Rabs_pos; assumption|]. lra.
Qed.
Lemma ap_half n x q : (0 <= n <= 15)%Z -> ap n x q -> ap (n + 1) (ndiv F64 x (nofZ F64 2)) (q / inject_Z 2)%Q.
Proof.
  intros L X. destruct (ap_r n x q ltac:(lia) X) as (r & A & B & C & D). assert (N0 : 0 <= IZR n) by (apply (IZR_le 0 n); lia). pose proof eps_pos.
  assert (BG : 0 < big) by (rewrite big_val; apply IZR_lt; lia).
  assert (Q2 : Q2R (q / inject_Z 2) = Q2R q / 2). { rewrite Q2R_div by discriminate. f_equal. unfold Q2R. cbn. lra. }
  eapply (ap_round n (n + 1) _ (r / 2) (Q2R q / 2)); [lia| |exact Q2| |lia|lia|].
  - intros _ F. apply (div_is x _ r 2); [exact A|apply (ofZ_is 2); lia|lra|exact F].
  - replace (r / 2 - Q2R q / 2) with ((r - Q2R q) * / 2) by field. rewrite Rabs_mult, (Rabs_pos_eq (/ 2)) by lra. nra.
  - unfold Rdiv. rewrite Rabs_mult, (Rabs_pos_eq (/ 2)), plus_IZR by lra. nra.
Qed.
(** the quotient of two small whole numbers *)
Lemma ap_quot a b : (0 <= a < 2 ^ 20)%Z -> (0 < b < 2 ^ 20)%Z -> ap 1 (ndiv F64 (nofZ F64 a) (nofZ F64 b)) (inject_Z a / inject_Z b)%Q.
Proof.
  intros A B. assert (B0 : 1 <= IZR b) by (apply (IZR_le 1); lia). assert (A0 : 0 <= IZR a) by (apply (IZR_le 0); lia). assert (A1 : IZR a <= IZR (2 ^ 20)) by (apply IZR_le; lia).
  assert (NZ : ~ (inject_Z b == 0)%Q) by (unfold Qeq; cbn; lia).
  assert (V : 0 <= IZR a / IZR b <= IZR (2 ^ 20)).
  { split; [apply Rmult_le_pos; [exact A0|apply Rlt_le, Rinv_0_lt_compat; lra]|]. apply Rle_trans with (2 := A1). unfold Rdiv. rewrite <- (Rmult_1_r (IZR a)) at 2. apply Rmult_le_compat_l; [exact A0|].
    rewrite <- Rinv_1. apply Rinv_le; lra. }
  eapply (ap_round 0 1 _ (IZR a / IZR b) (IZR a / IZR b)); [lia| | | |lia|lia|].
  - intros _ F. apply div_is; [apply ofZ_is; lia|apply ofZ_is; lia|lra|exact F].
  - rewrite Q2R_div by exact NZ. unfold Q2R. cbn. field. lra.
  - replace (IZR a / IZR b - IZR a / IZR b) with 0 by ring. rewrite Rabs_R0. pose proof eps_pos. nra.
  - rewrite Rabs_pos_eq by lra. rewrite big_val. lra.
Qed.
Lemma ap_Z a : (0 <= a < 2 ^ 20)%Z -> ap 1 (nofZ F64 a) (inject_Z a).
Proof.
  intros A. apply ap_exact; unfold Q2R, inject_Z; cbn [Qnum Qden]; rewrite Rinv_1, Rmult_1_r.
  - apply ofZ_is. lia.
  - rewrite Rabs_pos_eq by (apply (IZR_le 0); lia). rewrite big_val. apply IZR_le. lia.
Qed.
(** ** Printed *)
Lemma f64_val_is x r : is64 x r -> exists v, f64_val x = Some v /\ Q2R v = r.
Proof.
  intros (A & B & C). destruct x as [s|s| |s m e]; try discriminate; cbn [f64_val].
  - exists 0%Q. split; [reflexivity|]. rewrite <- C. cbn. unfold Q2R. cbn. lra.
  - pose proof (magn_val m e) as M. destruct (magn m e) as [n dd]. destruct M as (D0 & N0 & E). eexists. split; [reflexivity|]. rewrite <- C. cbn [SF2R].
    assert (F : Q2R (Qmake n (Z.to_pos dd)) = IZR n / IZR dd) by (unfold Q2R; cbn [Qnum Qden]; rewrite Z2Pos.id by lia; reflexivity).
    destruct s; cbn [qsgn cond_Zopp].
    + rewrite Q2R_opp, F, <- E. change (Z.neg m) with (- Z.pos m)%Z. unfold F2R. cbn [Fnum Fexp]. rewrite opp_IZR. ring.
    + rewrite F, <- E. reflexivity.
Qed.
(** ** Units *)
(** The same settings: the same unit, and the same factor of one's own, none or of a sensible size. *)
Definition same_cfg (c : ucfg F64) (c' : ucfg Qn) : Prop :=
  u_unit c = u_unit c' /\ is64 (u_conv c) (Q2R (u_conv c')) /\
  ((u_conv c' == 0)%Q \/ bpow radix2 (-20) <= Rabs (Q2R (u_conv c')) <= bpow radix2 20).
Lemma off1_exact k K r : off1 k K -> Rabs (r * K) <= big -> Rabs (r * k - r * K) <= / 4 * eps.
Proof.
  intros O B. unfold off1 in O. replace (r * k - r * K) with (r * (k - K)) by ring. rewrite Rabs_mult in *.
  assert (E : / 2 * bpow radix2 (-52) = eps * / IZR (2 ^ 25)). { unfold eps. replace (/ 2 * bpow radix2 (-52)) with (bpow radix2 (-53)) by (change (-53)%Z with (-1 + -52)%Z; rewrite bpow_plus; reflexivity). change (-53)%Z with (-28 + -25)%Z. rewrite bpow_plus. reflexivity. }
  rewrite E in O. apply Rle_trans with (Rabs r * (eps * / IZR (2 ^ 25) * Rabs K)); [apply Rmult_le_compat_l; [apply Rabs_pos|exact O]|].
  replace (Rabs r * (eps * / IZR (2 ^ 25) * Rabs K)) with (eps * / IZR (2 ^ 25) * (Rabs r * Rabs K)) by ring.
  apply Rle_trans with (eps * / IZR (2 ^ 25) * big); [apply Rmult_le_compat_l; [|exact B]|].
  - apply Rmult_le_pos; [apply Rlt_le, eps_pos|apply Rlt_le, Rinv_0_lt_compat; apply IZR_lt; lia].
  - rewrite big_val. replace (IZR (2 ^ 25)) with 33554432 by reflexivity. replace (IZR (2 ^ 20)) with 1048576 by reflexivity. pose proof eps_pos. lra.
Qed.
Lemma ap_units c c' x q : same_cfg c c' -> is64 x (Q2R q) -> Rabs (Q2R (unitsToPoints Qn c' q)) <= big -> ap 1 (unitsToPoints F64 c x) (unitsToPoints Qn c' q).
Proof.
  intros (U & CI & CB) X B. unfold unitsToPoints in *. change (neq F64) with SFeqb. change (neq Qn) with Qeq_bool in *. change (nZ F64 0) with (f64_ofZ 0). change (nZ Qn 0) with 0%Q in *.
  rewrite (eqb_is _ _ (Q2R (u_conv c')) 0 CI) by (apply (ofZ_is 0); lia).
  assert (R0 : forall v w K, (Rabs v <= IZR (2 ^ 24) + 1 -> Rabs (rnd v) < bpow radix2 1024 -> is64 w (rnd v)) -> Q2R K = v -> Rabs v <= big -> ap 1 w K).
  { intros v w K I E BB. eapply (ap_round 0 1 _ v v); [lia|exact I|exact E| |lia|lia|lra]. replace (v - v) with 0 by ring. rewrite Rabs_R0. pose proof eps_pos. nra. }
  destruct (Req_bool_spec (Q2R (u_conv c')) 0) as [Z|NZ].
  - assert (QZ : Qeq_bool (u_conv c') 0 = true). { apply Qeq_bool_iff. apply eqR_Qeq. rewrite Z. unfold Q2R. cbn. lra. }
    rewrite QZ in *. cbn [negb] in *. rewrite U. destruct (factor_cases (u_unit c')) as [[-> E1]|(kf & k & -> & I & F & KB)].
    + destruct (unit_cases (u_unit c')) as [[E _]|(k' & E & NZ' & E')]; rewrite E in *; [now apply ap_exact|].
      specialize (E' 0%Q eq_refl). apply Qeq_eqR in E'. rewrite E1 in E'. change (nmul Qn) with Qmult in *. assert (QK : Q2R (q * k') = Q2R q) by (rewrite Q2R_mult, E'; ring).
      rewrite QK in B. apply (ap_Qeq 1 x q); [|now apply ap_exact]. apply eqR_Qeq. now rewrite QK.
    + destruct (unit_cases (u_unit c')) as [[E E']|(k' & E & NZ' & E')]; rewrite E in *; specialize (E' 0%Q eq_refl); apply Qeq_eqR in E'.
      * assert (K1 : Q2R (points_per_unit (u_unit c') 0) = 1) by (rewrite E'; unfold Q2R; cbn; lra). rewrite K1 in F.
        eapply (ap_round 0 1 _ (Q2R q * k) (Q2R q)); [lia| |reflexivity| |lia|lia|lra].
        -- intros _ FN. now apply mul_is.
        -- pose proof (off1_exact k 1 (Q2R q) F ltac:(rewrite Rmult_1_r; exact B)) as O. rewrite Rmult_1_r in O. pose proof eps_pos. lra.
      * change (nmul Qn) with Qmult in *. rewrite Q2R_mult in B. rewrite <- E' in F.
        eapply (ap_round 0 1 _ (Q2R q * k) (Q2R q * Q2R k')); [lia| |apply Q2R_mult| |lia|lia|lra].
        -- intros _ FN. now apply mul_is.
        -- pose proof (off1_exact k _ (Q2R q) F B) as O. pose proof eps_pos. lra.
  - assert (QZ : Qeq_bool (u_conv c') 0 = false). { destruct (Qeq_bool _ _) eqn:Q; [|reflexivity]. apply Qeq_bool_iff, Qeq_eqR in Q. exfalso. apply NZ. rewrite Q. unfold Q2R. cbn. lra. }
    rewrite QZ in *. cbn [negb] in *. change (nmul Qn) with Qmult in *. rewrite Q2R_mult in B. apply (R0 (Q2R q * Q2R (u_conv c'))); [|apply Q2R_mult|exact B].
    intros _ FN. now apply mul_is.
Qed.
