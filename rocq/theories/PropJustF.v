(** PropJustF.v — C38 in float64: a justified cell fills its width, up to the rounding of the steps to whole thousandths
    of the font size, of float64, and of the size to the three decimals it is written with. *)
From Coq Require Import QArith ZArith Reals Qreals Qabs Lqa Lia Bool SpecFloat.
From Flocq Require Import Core BinarySingleNaN Plus_error.
From Verif Require Import Base StrSpec StrModel PropStr NumModel NumRead PaintNum UnitModel DrawModel DrawSpec DrawLex DrawNest DrawView PropDraw PropText PropWidth PropUnit FloatReal PropUnitF FloatApx PropWidthF.
Open Scope Z_scope.

Section Num.
  Local Open Scope R_scope.
  Local Existing Instance Hp.
  Lemma rnd_any r : Rabs (rnd r - r) <= bpow radix2 (-53) * Rabs r + bpow radix2 (-100).
  Proof.
    assert (P1 : 0 <= bpow radix2 (-53) * Rabs r) by (apply Rmult_le_pos; [apply bpow_ge_0|apply Rabs_pos]). assert (P2 : 0 < bpow radix2 (-100)) by apply bpow_gt_0.
    destruct (Rle_or_lt (bpow radix2 (-1022)) (Rabs r)) as [L|L].
    - apply Rle_trans with (1 := rnd_err r L). replace (bpow radix2 (-53)) with (/ 2 * bpow radix2 (-52)); [Lra.lra|]. change (-53)%Z with (-1 + -52)%Z. rewrite bpow_plus. reflexivity.
    - assert (L' : Rabs r < bpow radix2 (-1021)) by (apply Rlt_trans with (1 := L); apply bpow_lt; lia).
      apply Rle_trans with (1 := rnd_abs_err r (-1021) L' ltac:(lia)). apply Rle_trans with (bpow radix2 (-100)); [|Lra.lra].
      apply Rle_trans with (bpow radix2 (-1021 - 53)); [assert (0 < bpow radix2 (-1021 - 53)) by apply bpow_gt_0; Lra.lra|]. apply bpow_le. lia.
  Qed.
  Lemma round_is x r : is64 x r -> Rabs r <= IZR (2 ^ 60) -> Rabs (IZR (f64_round x) - r) <= / 2.
  Proof.
    intros (V & F & C) B. destruct x as [sg|sg| |sg m e]; try discriminate F.
    - cbn [SF2R] in C. cbn [f64_round]. subst r. rewrite Rabs_pos_eq; Lra.lra.
    - cbn [f64_round]. pose proof (magn_val m e) as MV. destruct (magn m e) as [n d]. destruct MV as (D0 & N0 & MV). cbn [SF2R] in C.
      assert (D1 : 0 < IZR d) by (apply (IZR_lt 0); lia).
      set (t := IZR n / IZR d) in *. assert (T0 : 0 <= t) by (unfold t; apply Rmult_le_pos; [apply (IZR_le 0); lia|left; now apply Rinv_0_lt_compat]).
      assert (RT : r = if sg then - t else t). { rewrite <- C. destruct sg; cbn [cond_Zopp]; [rewrite F2R_Zopp|]; now rewrite MV. }
      assert (RB : Rabs (IZR (roundHA n d) - t) <= / 2).
      { unfold roundHA. set (h := ((2 * n + d) / (2 * d))%Z). pose proof (Z.div_mod (2 * n + d) (2 * d) ltac:(lia)) as DM. pose proof (Z.mod_pos_bound (2 * n + d) (2 * d) ltac:(lia)) as MB. fold h in DM.
        assert (B1 : (2 * d * h <= 2 * n + d)%Z) by lia. assert (B2 : (2 * n - d <= 2 * d * h)%Z) by lia.
        apply IZR_le in B1, B2. rewrite plus_IZR, !mult_IZR in B1. rewrite minus_IZR, !mult_IZR in B2.
        assert (NV : IZR n = t * IZR d) by (unfold t; field; Lra.lra). rewrite NV in B1, B2. apply Rabs_le. clear - B1 B2 D1. split; (apply Rmult_le_reg_r with (IZR d); [Lra.lra|Lra.lra]). }
      assert (TB : t <= IZR (2 ^ 60)) by (rewrite RT in B; destruct sg; rewrite ?Rabs_Ropp, Rabs_pos_eq in B; assumption).
      assert (H0 : (0 <= roundHA n d)%Z) by (apply roundHA_pos; lia).
      assert (H1 : (roundHA n d <= 2 ^ 60 + 1)%Z). { apply le_IZR. rewrite plus_IZR. apply Rabs_le_inv in RB. Lra.lra. }
      assert (TI : forall z, (Z.abs z <= 2 ^ 60 + 1)%Z -> toInt64 z = z). { intros z Z1. unfold toInt64. replace ((- 2 ^ 63 <=? z)%Z && (z <? 2 ^ 63)%Z) with true by lia. reflexivity. }
      destruct sg.
      + rewrite TI by lia. rewrite RT, opp_IZR. replace (- IZR (roundHA n d) - - t) with (- (IZR (roundHA n d) - t)) by ring. now rewrite Rabs_Ropp.
      + rewrite TI by lia. now rewrite RT.
  Qed.
  Lemma adjust64 W Wr m mr k x S : is64 W Wr -> is64 m mr -> Rabs Wr <= 1048576 -> Rabs mr <= 1048576 -> is64 x S -> / 1000 <= S <= 1048576 -> (k <= 2 ^ 31)%Z ->
    let A := justifyAdjustment F64 (nsub F64 W m) k x in
    ((k <= 0)%Z \/ Wr <= mr -> A = 0%Z) /\
    ((0 < k)%Z -> mr < Wr -> Rabs (IZR k * (- IZR A * (S / 1000)) - (Wr - mr)) <= IZR k * S / 2000 + / IZR (2 ^ 28)).
  Proof.
    intros IW IM BW BM IX [S1 S2] K2 A. set (sl := Wr - mr). apply Rabs_le_inv in BW, BM.
    assert (E1 : is64 (nsub F64 W m) (rnd sl)). { apply sub_is; [exact IW|exact IM|]. apply small_fin. fold sl. unfold sl. apply Rabs_le. rewrite (eq_refl : IZR (2 ^ 53) = 9007199254740992). Lra.lra. }
    assert (ZI : is64 (nofZ F64 0) 0) by (apply (ofZ_is 0); lia).
    unfold A, justifyAdjustment. split.
    - intros H. replace (_ || _ || _)%bool with true; [reflexivity|]. symmetry. destruct H as [H|H]; [replace (k <=? 0)%Z with true by lia; reflexivity|].
      assert (E : nle F64 (nsub F64 W m) (nofZ F64 0) = true). { change (SFleb (nsub F64 W m) (nofZ F64 0) = true). rewrite (leb_is _ _ _ _ E1 ZI). apply Rle_bool_true. rewrite <- (rnd_Z 0) by lia. apply rnd_le. unfold sl. Lra.lra. }
      rewrite E. now rewrite orb_true_r.
    - intros K1 LT. set (B := (_ || _ || _)%bool).
      assert (Dv : bpow radix2 (-53) = / 9007199254740992) by reflexivity. assert (Hv : bpow radix2 (-100) = / IZR (2 ^ 100)) by reflexivity.
      assert (SL : 0 < sl <= 2097152) by (unfold sl; Lra.lra).
      pose proof (rnd_any sl) as R1. rewrite (Rabs_pos_eq sl) in R1 by Lra.lra. set (r1 := rnd sl) in *.
      assert (P1 : 0 <= r1) by (unfold r1; rewrite <- (rnd_Z 0) by lia; apply rnd_le; Lra.lra).
      set (K := IZR k). assert (KB : 1 <= K <= 2147483648) by (unfold K; split; [apply (IZR_le 1); lia|apply (IZR_le _ (2 ^ 31)); lia]).
      set (d := bpow radix2 (-53)) in *. set (h := bpow radix2 (-100)) in *.
      assert (DB : 0 < d <= / 9007199254740992) by (rewrite Dv; Lra.lra). assert (HB : 0 < h <= / 1267650600228229401496703205376) by (rewrite Hv; cbn [Z.pow Z.pow_pos Pos.iter Z.mul Pos.mul]; Lra.lra).
      apply Rabs_le_inv in R1. assert (D1 : d * sl <= / 9007199254740992 * 2097152) by (apply Rmult_le_compat; Lra.lra).
      assert (B1 : r1 <= 2097153) by Lra.lra.
      (* the quotient by the number of gaps *)
      set (q2 := r1 / K). set (r2 := rnd q2). assert (Q2B : 0 <= q2 <= 2097153). { unfold q2, Rdiv. assert (0 < / K <= 1) by (split; [apply Rinv_0_lt_compat; Lra.lra|rewrite <- Rinv_1; apply Rinv_le; Lra.lra]). split; [apply Rmult_le_pos; Lra.lra|]. apply Rle_trans with (r1 * 1); [apply Rmult_le_compat_l; Lra.lra|Lra.lra]. }
      assert (KQ : K * q2 = r1) by (unfold q2; field; Lra.lra).
      assert (E2 : is64 (ndiv F64 (nsub F64 W m) (nofZ F64 k)) r2). { apply (div_is _ _ r1 K); [exact E1|apply ofZ_is; lia|Lra.lra|]. apply small_fin. fold q2. rewrite Rabs_pos_eq by Lra.lra. rewrite (eq_refl : IZR (2 ^ 53) = 9007199254740992). Lra.lra. }
      pose proof (rnd_any q2) as R2. fold r2 d h in R2. rewrite (Rabs_pos_eq q2) in R2 by Lra.lra. apply Rabs_le_inv in R2.
      assert (P2 : 0 <= r2) by (unfold r2; rewrite <- (rnd_Z 0) by lia; apply rnd_le; Lra.lra).
      assert (B2 : r2 <= 2097154) by (assert (d * q2 <= / 9007199254740992 * 2097153) by (apply Rmult_le_compat; Lra.lra); Lra.lra).
      assert (X2 : - (d * r1 + K * h) <= K * r2 - r1 <= d * r1 + K * h).
      { assert (T : K * (d * q2 + h) = d * r1 + K * h) by (rewrite <- KQ; ring). replace (K * r2 - r1) with (K * (r2 - q2)) by (rewrite <- KQ; ring). rewrite <- T. split; [rewrite Ropp_mult_distr_r|]; (apply Rmult_le_compat_l; Lra.lra). }
      (* thousandths *)
      set (q3 := r2 * 1000). set (r3 := rnd q3).
      assert (E3 : is64 (nmul F64 (ndiv F64 (nsub F64 W m) (nofZ F64 k)) (nofZ F64 1000)) r3). { apply (mul_is _ _ r2 1000); [exact E2|apply (ofZ_is 1000); lia|]. apply small_fin. fold q3. unfold q3. rewrite Rabs_pos_eq by Lra.lra. rewrite (eq_refl : IZR (2 ^ 53) = 9007199254740992). Lra.lra. }
      pose proof (rnd_any q3) as R3. fold r3 d h in R3. assert (Q3B : 0 <= q3 <= 2097154000) by (unfold q3; Lra.lra). rewrite (Rabs_pos_eq q3) in R3 by Lra.lra. apply Rabs_le_inv in R3.
      assert (P3 : 0 <= r3) by (unfold r3; rewrite <- (rnd_Z 0) by lia; apply rnd_le; Lra.lra).
      assert (B3 : r3 <= 2097155000) by (assert (d * q3 <= / 9007199254740992 * 2097154000) by (apply Rmult_le_compat; Lra.lra); Lra.lra).
      assert (X3 : - (d * (K * r2) + K * h / 1000) <= K * r3 / 1000 - K * r2 <= d * (K * r2) + K * h / 1000).
      { assert (T : K / 1000 * (d * q3 + h) = d * (K * r2) + K * h / 1000) by (unfold q3; field). replace (K * r3 / 1000 - K * r2) with (K / 1000 * (r3 - q3)) by (unfold q3; field). rewrite <- T. split; [rewrite Ropp_mult_distr_r|]; (apply Rmult_le_compat_l; Lra.lra). }
      (* the quotient by the size *)
      set (q4 := r3 / S). set (r4 := rnd q4). assert (S0 : 0 < S) by Lra.lra.
      assert (IS : 0 < / S <= 1000) by (split; [now apply Rinv_0_lt_compat|rewrite <- (Rinv_inv 1000); apply Rinv_le; Lra.lra]).
      assert (Q4B : 0 <= q4 <= 2097155000000). { unfold q4, Rdiv. split; [apply Rmult_le_pos; Lra.lra|]. apply Rle_trans with (2097155000 * 1000); [apply Rmult_le_compat; Lra.lra|Lra.lra]. }
      assert (E4 : is64 (ndiv F64 (nmul F64 (ndiv F64 (nsub F64 W m) (nofZ F64 k)) (nofZ F64 1000)) x) r4). { apply (div_is _ _ r3 S); [exact E3|exact IX|Lra.lra|]. apply small_fin. fold q4. rewrite Rabs_pos_eq by Lra.lra. rewrite (eq_refl : IZR (2 ^ 53) = 9007199254740992). Lra.lra. }
      pose proof (rnd_any q4) as R4. fold r4 d h in R4. rewrite (Rabs_pos_eq q4) in R4 by Lra.lra. apply Rabs_le_inv in R4.
      assert (SQ : S * q4 = r3) by (unfold q4; field; Lra.lra).
      assert (X4 : - (d * (K * r3 / 1000) + K * S / 1000 * h) <= K * S / 1000 * r4 - K * r3 / 1000 <= d * (K * r3 / 1000) + K * S / 1000 * h).
      { assert (T : K * S / 1000 * (d * q4 + h) = d * (K * r3 / 1000) + K * S / 1000 * h) by (rewrite <- SQ; field). replace (K * S / 1000 * r4 - K * r3 / 1000) with (K * S / 1000 * (r4 - q4)) by (rewrite <- SQ; field). rewrite <- T.
        assert (0 <= K * S / 1000) by (unfold Rdiv; apply Rmult_le_pos; [apply Rmult_le_pos|]; Lra.lra). split; [rewrite Ropp_mult_distr_r|]; (apply Rmult_le_compat_l; Lra.lra). }
      assert (BF : B = false).
      { unfold B. replace (k <=? 0)%Z with false by lia. cbn [orb]. change (nle F64) with SFleb.
        assert (N1 : 0 < r1).
        { destruct P1 as [P1|P1]; [exact P1|]. exfalso. symmetry in P1. revert P1. unfold r1, sl. unfold rnd, Rminus. refine (round_plus_neq_0 radix2 (FLT_exp (-1074) 53) ZnearestE Wr (- mr) (is64_fmt _ _ IW) (generic_format_opp _ _ _ (is64_fmt _ _ IM)) _); apply Rgt_not_eq; Lra.lra. }
        rewrite (leb_is _ _ _ _ E1 ZI), (leb_is _ _ _ _ IX ZI). rewrite !Rle_bool_false by Lra.lra. reflexivity. }
      rewrite BF.
      pose proof (is64_opp _ _ E4) as E5. set (y := nneg F64 _) in *. change (nround F64 y) with (f64_round y).
      assert (R4B : 0 <= r4 <= 2097156000000). { split; [unfold r4; rewrite <- (rnd_Z 0) by lia; apply rnd_le; Lra.lra|]. assert (d * q4 <= / 9007199254740992 * 2097155000000) by (apply Rmult_le_compat; Lra.lra). Lra.lra. }
      assert (RD : Rabs (IZR (f64_round y) - - r4) <= / 2). { apply round_is; [exact E5|]. rewrite Rabs_Ropp, Rabs_pos_eq by Lra.lra. rewrite (eq_refl : IZR (2 ^ 60) = 1152921504606846976). Lra.lra. }
      set (a := IZR (f64_round y)) in *. apply Rabs_le_inv in RD.
      assert (KS : 0 <= K * S / 1000) by (unfold Rdiv; apply Rmult_le_pos; [apply Rmult_le_pos|]; Lra.lra).
      assert (X5 : - (K * S / 2000) <= K * (- a * (S / 1000)) - K * S / 1000 * r4 <= K * S / 2000).
      { replace (K * (- a * (S / 1000)) - K * S / 1000 * r4) with (K * S / 1000 * (- a - r4)) by field. replace (K * S / 2000) with (K * S / 1000 * / 2) by field. split; [rewrite Ropp_mult_distr_r|]; (apply Rmult_le_compat_l; Lra.lra). }
      (* sizes of the parts *)
      assert (D2 : d * r1 <= / 9007199254740992 * 2097153) by (apply Rmult_le_compat; Lra.lra).
      assert (H2 : K * h <= 2147483648 * / 1267650600228229401496703205376) by (apply Rmult_le_compat; Lra.lra).
      assert (K2B : 0 <= K * r2 <= 4194304) by (split; [apply Rmult_le_pos; Lra.lra|Lra.lra]).
      assert (D3 : d * (K * r2) <= / 9007199254740992 * 4194304) by (apply Rmult_le_compat; Lra.lra).
      assert (K3B : 0 <= K * r3 / 1000 <= 4194305) by (split; [unfold Rdiv; apply Rmult_le_pos; [apply Rmult_le_pos|]; Lra.lra|Lra.lra]).
      assert (D4 : d * (K * r3 / 1000) <= / 9007199254740992 * 4194305) by (apply Rmult_le_compat; Lra.lra).
      assert (KSB : K * S / 1000 <= 2147483648 * 1048576) by (assert (K * S <= 2147483648 * 1048576) by (apply Rmult_le_compat; Lra.lra); Lra.lra).
      assert (H4 : K * S / 1000 * h <= 2147483648 * 1048576 * / 1267650600228229401496703205376) by (apply Rmult_le_compat; Lra.lra).
      fold K. rewrite (eq_refl : IZR (2 ^ 28) = 268435456). clear - R1 X2 X3 X4 X5 D1 D2 D3 D4 H2 H4 HB. apply Rabs_le. split; Lra.lra.
  Qed.
End Num.

(** ** Specification *)
(** MeasureTextWidth's answer [w] is [u] thousandths of an em of size [S], to one part in 2^51. *)
Definition about_width (w : f64) (u : Z) (S : Q) : Prop :=
  Z.abs u <= 2 ^ 53 -> exists m, f64_val w = Some m /\ (Qabs (m - inject_Z u * milli * S) <= (1 # 2 ^ 51) * Qabs (inject_Z u * milli * S))%Q.
(** One justified cell of exact width [Wq], font size [S], no letter spacing; text = pre ++ body ++ post, blanks around the body. *)
Definition fills64 (wds : bytes -> Z -> Z) (e : event) (grp : list (piece F64)) : Prop :=
  forall p ps W H Wq S pre body post, grp = p :: ps -> p_cell F64 p = true -> p_rect F64 p = Some (W, H) -> has (p_align F64 p) oJustify = true ->
    is64 W (Q2R Wq) -> (Qabs Wq <= 1048576)%Q -> (exists b, p_cs F64 p = S754_zero b) -> is64 (p_size F64 p) (Q2R S) -> ((1 # 1000) <= S /\ S <= 1048576)%Q ->
    p_text F64 p = pre ++ body ++ post -> spaces pre -> spaces post -> body = [] \/ solid body -> count_sp body <= 2 ^ 31 ->
    ps = [] /\
    (* s: the size written; A: the adjustment of each gap, u: the width, in thousandths *)
    exists (s a : Q) (A u : Z) (w : f64) (pos : list Q),
      text_width F64 (p_fv F64 p) (p_size F64 p) (p_cs F64 p) (p_text F64 p) = Some w /\ about_width w u S /\
      show_pens wds e = Some pos /\ show_advance wds e = Some a /\
      (Qabs (s - S) <= 501 # 1000000)%Q /\ (forall k, S * 1000 == inject_Z k -> s == S)%Q /\
      (* every character ends where its measured prefix ends, plus one step per earlier space inside the body *)
      (forall j, (j < List.length (p_text F64 p))%nat -> exists q uj wj, nth_error pos j = Some q /\
          text_width F64 (p_fv F64 p) (p_size F64 p) (p_cs F64 p) (firstn (Datatypes.S j) (p_text F64 p)) = Some wj /\ about_width wj uj S /\
          (q == inject_Z (uj - A * count_sp (firstn (j - List.length pre) body)) * milli * s)%Q) /\
      (a == inject_Z (u - A * count_sp body) * milli * s)%Q /\
      (count_sp body = 0 -> A = 0) /\
      (Z.abs u <= 2 ^ 53 -> forall m, f64_val w = Some m -> (Qabs m <= 1048576)%Q ->
        (* no room: unchanged *)
        (Wq <= m -> A = 0%Z)%Q /\
        (* otherwise the text fills the width, up to the rounding of the steps to thousandths, and of float64 *)
        (0 < count_sp body -> (m < Wq)%Q ->
           (Qabs (m + inject_Z (- A * count_sp body) * milli * S - Wq) <= inject_Z (count_sp body) * S * (1 # 2000) + (1 # 2 ^ 28))%Q)).

Lemma Qabs_Rabs (x : Q) : Q2R (Qabs x) = Rabs (Q2R x).
Proof.
  apply Qabs_case; intros H; apply Qle_Rle in H; replace (Q2R 0) with 0%R in H by (unfold Q2R; cbn; Lra.lra).
  - now rewrite Rabs_pos_eq.
  - rewrite Q2R_opp. now rewrite Rabs_left1.
Qed.
Lemma width_said z x S : is64 x (Q2R S) -> (/ 1000 <= Q2R S <= 1048576)%R -> about_width (nmul F64 (nofZ F64 z) (ndiv F64 x (nofZ F64 1000))) z S.
Proof.
  intros SZ SR ZB. destruct (width_about z _ _ ZB SZ SR) as (r & I & AB). destruct (f64_val_is _ r I) as (m & M & MR). exists m. split; [exact M|].
  assert (E : Q2R (inject_Z z * milli * S) = (IZR z * (Q2R S / 1000))%R) by (rewrite !Q2R_mult, Q2Rz; replace (Q2R milli) with (/ 1000)%R by (unfold Q2R; cbn; Lra.lra); field).
  unfold about in AB. rewrite <- E, <- MR in AB. set (v := (inject_Z z * milli * S)%Q) in *. clearbody v. clear - AB.
  assert (B51 : Q2R (1 # 2 ^ 51) = bpow radix2 (-51)) by (unfold Q2R; cbn; Lra.lra).
  apply Rle_Qle. rewrite Q2R_mult, B51. rewrite !Qabs_Rabs, Q2R_minus. exact AB.
Qed.
Lemma f64_val_back x m : f64_val x = Some m -> (exists r, is64 x r) -> is64 x (Q2R m).
Proof. intros V (r & I). destruct (f64_val_is x r I) as (m' & V' & R). rewrite V in V'. injection V' as <-. now rewrite R. Qed.

Section JustF.
  Variable ft : Z -> fontv.
  Variable wds : bytes -> Z -> Z.
  Lemma holds_fills64 s0 e c grp : tinv F64 s0 c -> showsText F64 e c -> holds F64 ft c grp -> Forall (sound64 wds) grp -> fills64 wds e grp.
  Proof.
    intros TI (g & -> & A1 & A2 & _) HO SO p ps W H Wq S pre body post -> CE RC AL IW BW (b & CS) SZ SB TX PR PO BO K31.
    assert (PN : ps = []).
    { destruct HO as (_ & _ & _ & _ & _ & _ & _ & _ & _ & _ & _ & _ & _ & _ & Q12 & _). destruct ps as [|q ps]; [reflexivity|]. apply Forall_inv in Q12. destruct Q12 as (_ & _ & _ & _ & _ & _ & _ & Q & _). rewrite CE in Q. discriminate Q. }
    subst ps. split; [reflexivity|].
    destruct HO as (Q1 & Q2 & Q2' & Q3 & Q4 & Q5 & Q6 & Q7 & Q8 & Q9 & Q9r & Q9a & Q10 & Q11 & Q12 & Q13).
    pose proof (Forall_inv SO) as (EM & U). cbn [flat_map] in Q11. rewrite app_nil_r in Q11. set (txt := p_text F64 p) in *.
    assert (RG : Forall (registered (p_fv F64 p) (wds (fname (p_font F64 p)))) txt) by (apply Forall_forall; intros r I; destruct (EM r I) as (g1 & G1 & _ & G3); now exists g1).
    assert (SR : (/ 1000 <= Q2R S <= 1048576)%R).
    { destruct SB as [B1 B2]. apply Qle_Rle in B1, B2. assert (E1 : Q2R (1 # 1000) = (/ 1000)%R) by (unfold Q2R; cbn; Lra.lra). assert (E2 : Q2R 1048576 = 1048576%R) by (unfold Q2R; cbn; Lra.lra). rewrite E1 in B1. rewrite E2 in B2. Lra.lra. }
    assert (ST : ttf2pdf (ntrunc F64 (nmul F64 (ndiv F64 (nofZ F64 (fv_upem (p_fv F64 p))) (p_size F64 p)) (p_cs F64 p))) (fv_upem (p_fv F64 p)) = 0).
    { rewrite CS, (step_zero _ _ _ b U SZ SR). unfold ttf2pdf. reflexivity. }
    assert (SQ : ttf2pdf (ntrunc Qn (nmul Qn (ndiv Qn (nofZ Qn (fv_upem (p_fv F64 p))) (1 # 1)%Q) (0 # 1)%Q)) (fv_upem (p_fv F64 p)) = 0) by (apply (spacing_zero (fv_upem (p_fv F64 p)) (1 # 1)%Q (0 # 1)%Q); reflexivity).
    assert (SQ' : ttf2pdf (ntrunc Qn (inject_Z (fv_upem (p_fv F64 p)) / (1 # 1) * (0 # 1))%Q) (fv_upem (p_fv F64 p)) = 0) by exact SQ.
    destruct (trim_val _ _ SZ SR) as (s & S1 & S2 & S3). destruct (zero_written b) as (t & Z0 & TZ).
    assert (WI : forall x z, sumWidth F64 (p_fv F64 p) (p_size F64 p) (p_cs F64 p) true 0 0 x = Some z -> text_width F64 (p_fv F64 p) (p_size F64 p) (p_cs F64 p) x = Some (nmul F64 (nofZ F64 z) (ndiv F64 (p_size F64 p) (nofZ F64 1000)))).
    { intros x z SW. unfold text_width, createContent. replace (fv_upem (p_fv F64 p) =? 0) with false by lia. rewrite SW. reflexivity. }
    assert (MK : reading (items F64 c) = Some (PropWidth.marks (p_fv F64 p) (justOf F64 c) 0 0 0 txt)).
    { unfold items. cbn [reading]. change (@nil Z) with (flat_map hex4 []). rewrite reading_marks; [rewrite Q2, Q11; reflexivity| |constructor].
      intros r g0 I CI. rewrite Q11 in I. rewrite Q2 in CI. destruct (EM r I) as (g1 & G1 & G2 & _). rewrite CI in G1. injection G1 as ->. exact G2. }
    assert (VI : forall A (F : (Z -> Z) -> Q -> Q -> list PropWidth.show -> A), viewed F wds (EShow g [n2 F64 (calX F64 c); n2 F64 (calY F64 c)] (items F64 c)) = Some (F (wds (fname (p_font F64 p))) s t (PropWidth.marks (p_fv F64 p) (justOf F64 c) 0 0 0 txt))).
    { intros A F. cbn [viewed]. rewrite A1, A2, Q1, Q3, Q5, CS. change (nfmtTrim F64) with f64_trim. rewrite S1, Z0, MK. reflexivity. }
    destruct (marks_advance (p_fv F64 p) (wds (fname (p_font F64 p))) s t (1 # 1)%Q (0 # 1)%Q (justOf F64 c) txt 0 0 0 ltac:(lia) RG) as (z & SW & AD).
    cbn [negb Z.ltb Z.compare] in SW. rewrite <- (sumWidth_step (p_fv F64 p) (p_size F64 p) (p_cs F64 p) (1 # 1)%Q (0 # 1)%Q (eq_trans ST (eq_sym SQ))) in SW.
    pose proof (WI _ _ SW) as MW. set (w := nmul F64 (nofZ F64 z) (ndiv F64 (p_size F64 p) (nofZ F64 1000))) in *.
    (* the adjustment *)
    assert (IC : interiorSpaceCount txt = count_sp body).
    { rewrite TX. destruct BO as [->|SD]; [|now apply interior_all]. cbn [app]. rewrite interior_blank; [reflexivity|]. apply Forall_app. auto. }
    set (A := justifyAdjustment F64 (nsub F64 W w) (count_sp body) (p_size F64 p)).
    assert (JO : match justOf F64 c with Some (a, _, _) => a | None => 0 end = A /\
                 forall j, match justOf F64 c with Some (a, _, _) => a | None => 0 end * stretched (justOf F64 c) (firstn j txt) 0 = A * count_sp (firstn (j - List.length pre) body)).
    { destruct TI as (_ & _ & _ & TR). rewrite Q9r, Q11, Q2, Q3, Q5 in TR. destruct (TR W H RC) as (T1 & T2 & T3). rewrite MW in T3. injection T3 as T3.
      unfold justOf. rewrite Q9r, RC, Q9, CE, Q9a, AL. cbn [andb]. rewrite Q11, IC, T1, <- T3, Q3. fold A.
      destruct (Z.eqb_spec A 0) as [E0|NZ]; [rewrite E0; split; [reflexivity|]; intros j; reflexivity|].
      destruct (nonSpaceBounds txt) as [fi la] eqn:NB. split; [reflexivity|]. intros j. f_equal. cbn [stretched].
      destruct BO as [->|SD].
      - exfalso. apply NZ. reflexivity.
      - rewrite TX, bounds_of in NB by assumption. injection NB as <- <-. rewrite TX. now apply interior_firstn. }
    destruct JO as [JA JC].
    assert (AL' : (List.length txt - List.length pre >= List.length body)%nat) by (rewrite TX, !app_length; lia).
    pose proof (JC (List.length txt)) as JL. rewrite firstn_all, (firstn_all2 body AL') in JL. rewrite JL, SQ', Z.mul_0_l, Z.sub_0_r in AD.
    assert (WS : about_width w z S) by (apply width_said; assumption).
    exists s. eexists. exists A, z, w. eexists. split; [exact MW|]. split; [exact WS|]. split; [apply (VI _ (fun wd s t l => pens wd s t 0%Q l))|]. split; [apply VI|]. split.
    { apply Qabs_Qle_condition. apply Rabs_le_inv in S2. assert (H5 : Q2R (501 # 1000000) = (501 / 1000000)%R) by (unfold Q2R; cbn; Lra.lra). split; apply Rle_Qle; rewrite ?Q2R_opp, Q2R_minus, H5; Lra.lra. }
    split.
    { intros k K. apply eqR_Qeq. apply (S3 k). apply Qeq_eqR in K. rewrite Q2R_mult, Q2Rz in K. rewrite <- K. unfold Q2R. cbn. Lra.lra. }
    split.
    { intros j LJ. destruct (marks_pens (p_fv F64 p) (wds (fname (p_font F64 p))) s t (1 # 1)%Q (0 # 1)%Q (justOf F64 c) txt 0 0 0 0%Q ltac:(lia) RG j LJ) as (q & zj & N1 & SJ & QJ).
      cbn [negb Z.ltb Z.compare] in SJ. rewrite <- (sumWidth_step (p_fv F64 p) (p_size F64 p) (p_cs F64 p) (1 # 1)%Q (0 # 1)%Q (eq_trans ST (eq_sym SQ))) in SJ.
      exists q, zj. eexists. split; [exact N1|]. split; [apply WI; exact SJ|]. split; [apply width_said; assumption|].
      rewrite QJ, JC, SQ', Z.mul_0_l, Z.sub_0_r, TZ. ring. }
    split; [rewrite AD, TZ; ring|].
    assert (QW : (Rabs (Q2R Wq) <= 1048576)%R). { rewrite <- Qabs_Rabs. apply Qle_Rle in BW. replace (Q2R 1048576) with 1048576%R in BW by (unfold Q2R; cbn; Lra.lra). exact BW. }
    split; [intros K0; unfold A; rewrite K0; reflexivity|].
    intros ZB m M BM.
    assert (IM : is64 w (Q2R m)). { apply f64_val_back; [exact M|]. destruct (width_about z _ _ ZB SZ SR) as (r & I & _). now exists r. }
    assert (QM : (Rabs (Q2R m) <= 1048576)%R). { rewrite <- Qabs_Rabs. apply Qle_Rle in BM. replace (Q2R 1048576) with 1048576%R in BM by (unfold Q2R; cbn; Lra.lra). exact BM. }
    destruct (adjust64 W _ w _ (count_sp body) (p_size F64 p) _ IW IM QW QM SZ SR K31) as [F1 F2]. fold A in F1, F2. split.
    - intros LE. apply F1. right. now apply Qle_Rle.
    - intros G0 LT. apply Qlt_Rlt in LT. specialize (F2 G0 LT). apply Rle_Qle. rewrite Qabs_Rabs, Q2R_plus, Q2R_minus, Q2R_plus, !Q2R_mult, !Q2Rz, mult_IZR, opp_IZR.
      replace (Q2R milli) with (/ 1000)%R by (unfold Q2R; cbn; Lra.lra). replace (Q2R (1 # 2000)) with (/ 2000)%R by (unfold Q2R; cbn; Lra.lra).
      replace (Q2R (1 # 2 ^ 28)) with (/ IZR (2 ^ 28))%R by (unfold Q2R; cbn; Lra.lra).
      match goal with |- (Rabs ?x <= _)%R => replace x with (IZR (count_sp body) * (- IZR A * (Q2R S / 1000)) - (Q2R Wq - Q2R m))%R by field end. exact F2.
  Qed.
End JustF.

(** C38, in float64: on a fresh page, after any orderly history of calls. *)
Theorem C38_float64 (rot : f64 -> f64 * f64) (ft : Z -> fontv) (wds : bytes -> Z -> Z) (s s' : ds F64) (calls : list (call F64)) (content : bytes) :
  s_caches F64 s = [] -> s_font F64 s = None -> s_mode F64 s = false -> s_color F64 s = None ->
  fonts_named F64 ft calls -> orderly F64 false calls -> Forall (sound64 wds) (pieces F64 s calls) ->
  run F64 s calls = Some s' -> content_write F64 rot (s_caches F64 s') = Some content ->
  exists groups, List.concat groups = pieces F64 s calls /\ Forall2 (fun e grp => shown F64 e grp /\ fills64 wds e grp) (shows content) groups.
Proof.
  intros E F M C FN OR SO R W. destruct (shown_caches F64 rot F64_prints ft s s' calls content E F M C FN OR R W) as (G & ts & CG & SH & K1 & K3).
  exists G. split; [exact CG|]. rewrite <- CG in SO. apply Forall_concat in SO. clear - SH K1 K3 SO. revert G K1 K3 SO. generalize dependent (shows content).
  intros es SH. induction SH as [|e c es ts S1 SH IH]; intros G K1 K3 SO; inversion K1; subst; [constructor|]. inversion K3; subst. inversion SO; subst.
  constructor; [split; [eapply holds_shown; eassumption|eapply holds_fills64; eassumption]|now apply IH].
Qed.

(** " x y z " justified in a cell of 100.5 points at 12.3 points, in float64. *)
Definition jcallsF : list (call F64) :=
  [SetFont F64 0 dfont (nfrac F64 123 10) 0; SetXY F64 (nofZ F64 30) (nofZ F64 60);
   CellOpt F64 (Some (Build_rect F64 (nfrac F64 201 2) (nofZ F64 20) (defcfg F64 0))) (bs " x y z ") (Build_cellopt F64 oJustify 0 oBottom (nofZ F64 0) (nofZ F64 0) (nofZ F64 0) []) None].
Definition jcontentF : bytes := Eval vm_compute in got (outcome F64 (norot F64) (dpage F64) jcallsF).
Lemma jcallsF_fonts : fonts_named F64 (fun _ => dfont) jcallsF.
Proof. intros n f size st H. repeat (destruct H as [H|H]; [try discriminate H; now injection H as _ <- _ _|]); contradiction. Qed.
Definition about_cell (p : piece F64) := (p_cell F64 p, p_rect F64 p, has (p_align F64 p) oJustify, p_cs F64 p, p_size F64 p, p_text F64 p).
Lemma half_201 : is64 (nfrac F64 201 2) (Q2R (201 # 2)).
Proof.
  assert (X : exists r, is64 (nfrac F64 201 2) r).
  { exists (rnd (IZR 201 / IZR 2)). apply (div_is _ _ (IZR 201) (IZR 2)); [apply ofZ_is; lia|apply ofZ_is; lia|Lra.lra|]. apply small_fin. rewrite Rabs_pos_eq by Lra.lra. apply Rle_trans with 101%R; [Lra.lra|]. apply (IZR_le 101). lia. }
  destruct X as (r & X). destruct (f64_val_is _ r X) as (v & V & R). assert (V0 : option_map Qred (f64_val (nfrac F64 201 2)) = Some (201 # 2)) by (vm_cast_no_check (eq_refl (Some (201 # 2)))). rewrite V in V0. cbn [option_map] in V0. injection V0 as V0.
  assert (Q : (v == 201 # 2)%Q) by (rewrite <- (Qred_correct v), V0; reflexivity). apply Qeq_eqR in Q. rewrite <- Q, R. exact X.
Qed.
Example C38_float64_met : fonts_named F64 (fun _ => dfont) jcallsF /\ orderly F64 false jcallsF /\ Forall (sound64 dwds) (pieces F64 (dpage F64) jcallsF) /\
  outcome F64 (norot F64) (dpage F64) jcallsF = Some jcontentF /\
  map about_cell (pieces F64 (dpage F64) jcallsF) = [(true, Some (nfrac F64 201 2, nofZ F64 20), true, nofZ F64 0, nfrac F64 123 10, bs " x y z ")] /\
  bs " x y z " = bs " " ++ bs "x y z" ++ bs " " /\ solid (bs "x y z") /\ is64 (nfrac F64 201 2) (Q2R (201 # 2)) /\
  (exists S, is64 (nfrac F64 123 10) (Q2R S) /\ ((1 # 1000) <= S /\ S <= 1048576)%Q) /\
  map (fun e => option_map Qred (show_advance dwds e)) (shows jcontentF) = [Some (100491 # 1000)].
Proof.
  split; [exact jcallsF_fonts|]. split; [cbn; repeat split; discriminate|]. split.
  { pose proof (pieces_font F64 (fun _ => dfont) jcallsF (dpage F64) jcallsF_fonts ltac:(discriminate)) as F. assert (B : forallb okF (pieces F64 (dpage F64) jcallsF) = true) by (vm_cast_no_check (eq_refl true)).
    rewrite forallb_forall in B. apply Forall_forall. intros p I. rewrite Forall_forall in F. specialize (F p I). cbn beta in F. specialize (B p I). split; [|rewrite F; split; [reflexivity|discriminate]].
    intros r IR. unfold okF in B. rewrite forallb_forall in B. specialize (B r IR). apply andb_true_iff in B as [B1 B2]. rewrite F. cbn [fv_ci fv_cw dfont]. exists (r - 29). split; [reflexivity|]. split; [lia|].
    unfold dwds. destruct (Z.eqb_spec r 32) as [->|]; [reflexivity|]. replace (r - 29 =? 3) with false by lia. reflexivity. }
  split; [vm_compute; reflexivity|]. split; [vm_compute; reflexivity|]. split; [reflexivity|]. split.
  { split; [exists 120, (bs " y z"); split; [reflexivity|lia]|exists (bs "x y "), 122; split; [reflexivity|lia]]. }
  split; [exact half_201|]. split; [exact size123|]. vm_compute. reflexivity.
Qed.
Print Assumptions C38_float64.
