(** PropWidthF.v — C39 in float64: the measured width is the advance the viewer computes, up to the rounding of float64
    and the three decimals the size is written with. *)
From Coq Require Import QArith ZArith Reals Qreals Qabs Lqa Lia Bool SpecFloat.
From Flocq Require Import Core BinarySingleNaN.
From Verif Require Import Base StrSpec StrModel PropStr NumModel NumRead PaintNum UnitModel DrawModel DrawSpec DrawLex DrawNest DrawView PropDraw PropText PropWidth PropUnit FloatReal PropUnitF FloatApx.
Open Scope Z_scope.

(** ** Specification *)
Definition embedded64 (wds : bytes -> Z -> Z) (p : piece F64) : Prop :=
  forall r, In r (p_text F64 p) -> exists g, fv_ci (p_fv F64 p) r = Some g /\ 0 <= g < 65536 /\ fv_cw (p_fv F64 p) r = Some (wds (fname (p_font F64 p)) g).
Definition sound64 (wds : bytes -> Z -> Z) (p : piece F64) : Prop := embedded64 wds p /\ 0 < fv_upem (p_fv F64 p) <= 2 ^ 16.
(** The piece is no justified cell, has no letter spacing (zero), and [S] is the exact value of its font size. *)
Definition ordinary_text (p : piece F64) (S : Q) : Prop :=
  (p_cell F64 p = false \/ has (p_align F64 p) oJustify = false) /\ (exists b, p_cs F64 p = S754_zero b) /\
  is64 (p_size F64 p) (Q2R S) /\ ((1 # 1000) <= S /\ S <= 1048576)%Q.
(** The text shown advances by [u] thousandths of the size [s] written in the content, and MeasureTextWidth says [u]
    thousandths of the size set, to one part in 2^51; what is written is the size set, to three decimals. *)
Definition advances64 (wds : bytes -> Z -> Z) (e : event) (grp : list (piece F64)) : Prop :=
  match grp with
  | [] => False
  | p :: _ =>
      forall S, ordinary_text p S ->
      exists (u : Z) (s a : Q) (w : f64),
        text_width F64 (p_fv F64 p) (p_size F64 p) (p_cs F64 p) (flat_map (p_text F64) grp) = Some w /\ show_advance wds e = Some a /\
        (a == inject_Z u * milli * s)%Q /\
        (Qabs (s - S) <= 501 # 1000000)%Q /\ (forall k, S * 1000 == inject_Z k -> s == S)%Q /\
        (Z.abs u <= 2 ^ 53 -> exists m, f64_val w = Some m /\ (Qabs (m - inject_Z u * milli * S) <= (1 # 2 ^ 51) * Qabs (inject_Z u * milli * S))%Q)
  end.

(** ** Proof *)
Lemma Q2Rz n : Q2R (inject_Z n) = IZR n. Proof. unfold Q2R. cbn [inject_Z Qnum Qden]. rewrite Rinv_1. ring. Qed.
(** The sum of the widths depends on the arithmetic only through the step of the letter spacing. *)
Lemma sumWidth_step f size cs size' cs' : ttf2pdf (ntrunc F64 (nmul F64 (ndiv F64 (nofZ F64 (fv_upem f)) size) cs)) (fv_upem f) = ttf2pdf (ntrunc Qn (nmul Qn (ndiv Qn (nofZ Qn (fv_upem f)) size') cs')) (fv_upem f) ->
  forall txt first lr lg, sumWidth F64 f size cs first lr lg txt = sumWidth Qn f size' cs' first lr lg txt.
Proof.
  intros E. induction txt as [|r t IH]; intros first lr lg; cbn [sumWidth]; [reflexivity|]. destruct (fv_ci f r) as [g|]; [|apply IH]. cbv zeta. rewrite E.
  destruct (fv_cw f r); [|reflexivity]. rewrite IH. reflexivity.
Qed.
Section Step.
  Local Open Scope R_scope.
  Lemma quot_up u x S : (0 < u <= 2 ^ 16)%Z -> is64 x S -> / 1000 <= S <= 1048576 -> exists r, is64 (ndiv F64 (nofZ F64 u) x) r.
  Proof.
    intros U X [S1 S2]. exists (rnd (IZR u / S)). apply (div_is _ _ (IZR u) S); [apply ofZ_is; lia|exact X|Lra.lra|]. apply small_fin.
    assert (U1 : 1 <= IZR u) by (apply (IZR_le 1); lia). assert (U2 : IZR u <= 65536) by (apply (IZR_le u 65536); lia).
    assert (I0 : 0 < / S) by (apply Rinv_0_lt_compat; Lra.lra). assert (I : / S <= 1000) by (rewrite <- (Rinv_inv 1000); apply Rinv_le; Lra.lra).
    unfold Rdiv. rewrite Rabs_pos_eq by (apply Rmult_le_pos; Lra.lra). apply Rle_trans with (65536 * 1000); [apply Rmult_le_compat; Lra.lra|]. rewrite <- mult_IZR. apply IZR_le. lia.
  Qed.
  Lemma step_zero u x S b : (0 < u <= 2 ^ 16)%Z -> is64 x S -> / 1000 <= S <= 1048576 -> ntrunc F64 (nmul F64 (ndiv F64 (nofZ F64 u) x) (S754_zero b)) = 0%Z.
  Proof.
    intros U X B. destruct (quot_up u x S U X B) as (r & (_ & F & _)). set (q := ndiv F64 _ _) in *. clearbody q. destruct q; try discriminate F; reflexivity.
  Qed.
  (** the width *)
  Lemma width_about z x S : (Z.abs z <= 2 ^ 53)%Z -> is64 x S -> / 1000 <= S <= 1048576 ->
    exists r, is64 (nmul F64 (nofZ F64 z) (ndiv F64 x (nofZ F64 1000))) r /\ about r (IZR z * (S / 1000)).
  Proof.
    intros Z X [S1 S2]. change (ndiv F64) with (SFdiv 53 1024). change (nmul F64) with (SFmul 53 1024).
    assert (B0 : 0 < bpow radix2 (-1022)) by apply bpow_gt_0.
    assert (L : bpow radix2 (-1022) <= / 2000000). { apply Rle_trans with (bpow radix2 (-21)); [apply bpow_le; lia|]. replace (bpow radix2 (-21)) with (/ 2097152) by reflexivity. apply Rinv_le; Lra.lra. }
    set (k := S / 1000). assert (KB : / 1000000 <= k <= 1049) by (unfold k; Lra.lra).
    assert (O1 : off1 (rnd k) k) by (apply off1_rnd; right; rewrite Rabs_pos_eq by Lra.lra; Lra.lra).
    pose proof (off1_abs _ _ O1) as A1. pose proof b52s as BS. set (e := / 2 * bpow radix2 (-52)) in *. rewrite (Rabs_pos_eq k) in A1 by Lra.lra.
    assert (K1 : is64 (SFdiv 53 1024 x (nofZ F64 1000)) (rnd k)).
    { apply (div_is _ _ S 1000); [exact X|apply (ofZ_is 1000); lia|Lra.lra|]. apply small_fin. fold k. rewrite Rabs_pos_eq by Lra.lra. apply Rle_trans with 1049; [Lra.lra|]. apply (IZR_le 1049). lia. }
    set (p := IZR z * rnd k).
    assert (ZB : Rabs (IZR z) <= 9007199254740992) by (rewrite <- abs_IZR; apply (IZR_le _ (2 ^ 53)); exact Z).
    assert (Z0 : z = 0%Z \/ 1 <= Rabs (IZR z)) by (destruct (Z.eq_dec z 0); [now left|right; rewrite <- abs_IZR; apply (IZR_le 1); lia]).
    assert (RK : / 2000000 <= Rabs (rnd k)) by (apply Rle_trans with (k * (1 - e)); [|apply A1]; apply Rle_trans with (/ 1000000 * (15 / 16)); [Lra.lra|apply Rmult_le_compat; Lra.lra]).
    assert (RK2 : Rabs (rnd k) <= 2048) by (apply Rle_trans with (k * (1 + e)); [apply A1|]; apply Rle_trans with (1049 * (17 / 16)); [apply Rmult_le_compat; Lra.lra|Lra.lra]).
    assert (O2 : off1 (rnd p) p).
    { apply off1_rnd. destruct Z0 as [->|Z0]; [left; unfold p; ring|right]. unfold p. rewrite Rabs_mult. apply Rle_trans with (1 := L). rewrite <- (Rmult_1_l (/ 2000000)). apply Rmult_le_compat; Lra.lra. }
    exists (rnd p). split.
    - apply mul_is; [apply ofZ_is; lia|exact K1|]. apply fin990. fold p. unfold p. rewrite Rabs_mult. apply Rle_trans with (9007199254740992 * 2048); [apply Rmult_le_compat; try apply Rabs_pos; [exact ZB|exact RK2]|].
      replace (9007199254740992 * 2048) with (bpow radix2 64) by (cbn; Lra.lra). apply bpow_le. lia.
    - unfold about, off1 in *. fold e in O1, O2. fold k. rewrite b52. fold e. set (q := IZR z * k).
      assert (PQ : Rabs (p - q) <= e * Rabs q).
      { unfold p, q. replace (IZR z * rnd k - IZR z * k) with (IZR z * (rnd k - k)) by ring. rewrite !Rabs_mult. apply Rle_trans with (Rabs (IZR z) * (e * Rabs k)); [apply Rmult_le_compat_l; [apply Rabs_pos|exact O1]|right; ring]. }
      assert (PA : Rabs p <= (1 + e) * Rabs q). { replace p with ((p - q) + q) by ring. apply Rle_trans with (1 := Rabs_triang _ _). Lra.lra. }
      replace (rnd p - q) with ((rnd p - p) + (p - q)) by ring. apply Rle_trans with (1 := Rabs_triang _ _). apply Rle_trans with (e * ((1 + e) * Rabs q) + e * Rabs q).
      + apply Rplus_le_compat; [|exact PQ]. apply Rle_trans with (1 := O2). apply Rmult_le_compat_l; [Lra.lra|exact PA].
      + replace (e * ((1 + e) * Rabs q) + e * Rabs q) with ((e * (2 + e)) * Rabs q) by ring. apply Rmult_le_compat_r; [apply Rabs_pos|]. rewrite (Rmult_comm 4). apply Rmult_le_compat_l; Lra.lra.
  Qed.
  (** the size as written *)
  Lemma trim_val x S : is64 x S -> / 1000 <= S <= 1048576 -> exists s, number_val (f64_trim x) = Some s /\ Rabs (Q2R s - S) <= 501 / 1000000 /\ forall k : Z, S * 1000 = IZR k -> Q2R s = S.
  Proof.
    intros X [S1 S2].
    assert (M : is64 (SFmul 53 1024 (f64_ofZ 1000) x) (rnd (1000 * S))).
    { apply mul_is; [apply (ofZ_is 1000); lia|exact X|]. apply small_fin. rewrite Rabs_pos_eq by Lra.lra. apply Rle_trans with (1000 * 1048576); [Lra.lra|]. rewrite <- mult_IZR. apply IZR_le. lia. }
    assert (E : Rabs (rnd (1000 * S) - 1000 * S) <= / 16777216).
    { apply Rle_trans with (/ 2 * bpow radix2 (30 - 53)); [apply rnd_abs_err; [|lia]|].
      - rewrite Rabs_pos_eq by Lra.lra. replace (bpow radix2 30) with (IZR (2 ^ 30)) by reflexivity. apply Rle_lt_trans with (1000 * 1048576); [Lra.lra|]. rewrite <- mult_IZR. apply IZR_lt. lia.
      - right. replace (/ 16777216) with (bpow radix2 (-24)) by reflexivity. change (-24)%Z with (-1 + (30 - 53))%Z. rewrite bpow_plus. reflexivity. }
    unfold f64_trim. change prec64 with 53%Z. change emax64 with 1024%Z. set (y := SFmul 53 1024 (f64_ofZ 1000) x) in *. set (v := rnd (1000 * S)) in *. clearbody y.
    assert (V1 : / 2 <= v) by (apply Rabs_le_inv in E; Lra.lra).
    assert (EX : forall k : Z, S * 1000 = IZR k -> v = IZR k).
    { intros k K. unfold v. rewrite Rmult_comm, K. apply rnd_Z. assert (0 <= IZR k <= 1048576000) by Lra.lra. assert (0 <= k)%Z by (apply le_IZR; Lra.lra). assert (k <= 1048576000)%Z by (apply le_IZR; Lra.lra). lia. }
    destruct M as (V & F & C). clearbody v. destruct y as [sg|sg| |sg m e]; try discriminate F.
    - cbn [SF2R] in C. Lra.lra.
    - pose proof (magn_val m e) as MV. destruct (magn m e) as [n d]. destruct MV as (D0 & N0 & MV). cbn [SF2R] in C. destruct sg.
      { exfalso. cbn [cond_Zopp] in C. rewrite F2R_Zopp in C. assert (0 < F2R (Float radix2 (Z.pos m) e)) by (apply F2R_gt_0; reflexivity). Lra.lra. }
      cbn [cond_Zopp] in C. rewrite MV in C. assert (D1 : 0 < IZR d) by (apply (IZR_lt 0); lia).
      assert (RH : (0 <= roundHA n d)%Z) by (apply roundHA_pos; lia).
      assert (RB : Rabs (IZR (roundHA n d) - v) <= / 2).
      { unfold roundHA. set (h := ((2 * n + d) / (2 * d))%Z). pose proof (Z.div_mod (2 * n + d) (2 * d) ltac:(lia)) as DM. pose proof (Z.mod_pos_bound (2 * n + d) (2 * d) ltac:(lia)) as MB. fold h in DM.
        assert (B1 : (2 * d * h <= 2 * n + d)%Z) by lia. assert (B2 : (2 * n - d <= 2 * d * h)%Z) by lia.
        apply IZR_le in B1, B2. rewrite plus_IZR, !mult_IZR in B1. rewrite minus_IZR, !mult_IZR in B2. rewrite <- C.
        assert (NV : IZR n = (IZR n / IZR d) * IZR d) by (field; Lra.lra). set (t := IZR n / IZR d) in *. rewrite NV in B1, B2. apply Rabs_le. clear - B1 B2 D1. split; (apply Rmult_le_reg_r with (IZR d); [Lra.lra|Lra.lra]). }
      destruct (trim3_val false (roundHA n d) RH) as (s & SV & SE). exists s. split; [exact SV|].
      assert (SR : Q2R s = IZR (roundHA n d) / 1000). { apply Qeq_eqR in SE. rewrite SE. unfold Q2R, qsgn. cbn [Qnum Qden]. reflexivity. }
      rewrite SR. split.
      + apply Rabs_le_inv in E. apply Rabs_le_inv in RB. apply Rabs_le. Lra.lra.
      + intros k K. pose proof (EX k K) as VK. rewrite VK in RB. rewrite <- minus_IZR, <- abs_IZR in RB. assert (A : (Z.abs (roundHA n d - k) < 1)%Z) by (apply lt_IZR; Lra.lra).
        assert (RK : roundHA n d = k) by lia. rewrite RK. rewrite <- K. field.
  Qed.
End Step.
Lemma zero_written b : exists q, number_val (f64_trim (S754_zero b)) = Some q /\ (q == 0)%Q.
Proof. destruct b; eexists; (split; [vm_compute; reflexivity|reflexivity]). Qed.

Section WidthF.
  Variable ft : Z -> fontv.
  Variable wds : bytes -> Z -> Z.
  Lemma plain_just64 c p ps : holds F64 ft c (p :: ps) -> (p_cell F64 p = false \/ has (p_align F64 p) oJustify = false) -> justOf F64 c = None.
  Proof.
    intros (Q1 & Q2 & Q2' & Q3 & Q4 & Q5 & Q6 & Q7 & Q8 & Q9 & Q9r & Q9a & _) PL. unfold justOf. destruct (c_rect F64 c); [|reflexivity]. rewrite Q9, Q9a. destruct PL as [-> | ->]; [reflexivity|]. now rewrite andb_false_r.
  Qed.
  (** [advances64] with the sum of the widths made explicit. *)
  Definition sums64 (e : event) (grp : list (piece F64)) : Prop :=
    match grp with
    | [] => False
    | p :: _ =>
        forall S, ordinary_text p S ->
        exists (u : Z) (s a : Q) (w : f64),
          sumWidth F64 (p_fv F64 p) (p_size F64 p) (p_cs F64 p) true 0 0 (flat_map (p_text F64) grp) = Some u /\
          text_width F64 (p_fv F64 p) (p_size F64 p) (p_cs F64 p) (flat_map (p_text F64) grp) = Some w /\ show_advance wds e = Some a /\
          (a == inject_Z u * milli * s)%Q /\
          (Qabs (s - S) <= 501 # 1000000)%Q /\ (forall k, S * 1000 == inject_Z k -> s == S)%Q /\
          (Z.abs u <= 2 ^ 53 -> exists m, f64_val w = Some m /\ (Qabs (m - inject_Z u * milli * S) <= (1 # 2 ^ 51) * Qabs (inject_Z u * milli * S))%Q)
    end.
  Lemma holds_sums64 e c grp : showsText F64 e c -> holds F64 ft c grp -> Forall (sound64 wds) grp -> sums64 e grp.
  Proof.
    intros (g & -> & A1 & A2 & _) HO SO. destruct grp as [|p ps]; [contradiction|]. intros S (PL & (b & CS) & SZ & SB).
    pose proof (plain_just64 c p ps HO PL) as JU. destruct HO as (Q1 & Q2 & Q2' & Q3 & Q4 & Q5 & Q6 & Q7 & Q8 & Q9 & Q9r & Q9a & Q10 & Q11 & Q12 & Q13).
    pose proof (Forall_inv SO) as (_ & U). set (txt := flat_map (p_text F64) (p :: ps)) in *.
    assert (EM : forall r, In r txt -> exists g, fv_ci (p_fv F64 p) r = Some g /\ 0 <= g < 65536 /\ fv_cw (p_fv F64 p) r = Some (wds (fname (p_font F64 p)) g)).
    { intros r I. apply in_flat_map in I as (q & IQ & IR). rewrite Forall_forall in SO. destruct (SO q IQ) as [E _]. specialize (E r IR). destruct IQ as [<-|IQ]; [exact E|].
      rewrite Forall_forall in Q12. destruct (Q12 q IQ) as (B1 & B2 & _). now rewrite B1, B2 in E. }
    assert (RG : Forall (registered (p_fv F64 p) (wds (fname (p_font F64 p)))) txt) by (apply Forall_forall; intros r I; destruct (EM r I) as (g1 & G1 & _ & G3); now exists g1).
    assert (SR : (/ 1000 <= Q2R S <= 1048576)%R).
    { destruct SB as [B1 B2]. apply Qle_Rle in B1, B2. assert (E1 : Q2R (1 # 1000) = (/ 1000)%R) by (unfold Q2R; cbn; Lra.lra). assert (E2 : Q2R 1048576 = 1048576%R) by (unfold Q2R; cbn; Lra.lra). rewrite E1 in B1. rewrite E2 in B2. Lra.lra. }
    assert (ST : ttf2pdf (ntrunc F64 (nmul F64 (ndiv F64 (nofZ F64 (fv_upem (p_fv F64 p))) (p_size F64 p)) (p_cs F64 p))) (fv_upem (p_fv F64 p)) = 0).
    { rewrite CS, (step_zero _ _ _ b U SZ SR). unfold ttf2pdf. reflexivity. }
    assert (SQ : ttf2pdf (ntrunc Qn (nmul Qn (ndiv Qn (nofZ Qn (fv_upem (p_fv F64 p))) (1 # 1)%Q) (0 # 1)%Q)) (fv_upem (p_fv F64 p)) = 0) by (apply (spacing_zero (fv_upem (p_fv F64 p)) (1 # 1)%Q (0 # 1)%Q); reflexivity).
    destruct (trim_val _ _ SZ SR) as (s & S1 & S2 & S3). destruct (zero_written b) as (t & Z0 & TZ).
    destruct (marks_advance (p_fv F64 p) (wds (fname (p_font F64 p))) s t (1 # 1)%Q (0 # 1)%Q None txt 0 0 0 ltac:(lia) RG) as (z & SW & AD).
    cbn [negb Z.ltb Z.compare] in SW. rewrite <- (sumWidth_step (p_fv F64 p) (p_size F64 p) (p_cs F64 p) (1 # 1)%Q (0 # 1)%Q (eq_trans ST (eq_sym SQ))) in SW.
    assert (WI : text_width F64 (p_fv F64 p) (p_size F64 p) (p_cs F64 p) txt = Some (nmul F64 (nofZ F64 z) (ndiv F64 (p_size F64 p) (nofZ F64 1000)))).
    { unfold text_width, createContent. replace (fv_upem (p_fv F64 p) =? 0) with false by lia. rewrite SW. reflexivity. }
    assert (MK : reading (items F64 c) = Some (PropWidth.marks (p_fv F64 p) None 0 0 0 txt)).
    { unfold items. cbn [reading]. change (@nil Z) with (flat_map hex4 []). rewrite reading_marks; [rewrite JU, Q2, Q11; reflexivity| |constructor].
      intros r g0 I CI. rewrite Q11 in I. rewrite Q2 in CI. destruct (EM r I) as (g1 & G1 & G2 & _). rewrite CI in G1. injection G1 as ->. exact G2. }
    assert (VI : show_advance wds (EShow g [n2 F64 (calX F64 c); n2 F64 (calY F64 c)] (items F64 c)) = Some (advance (wds (fname (p_font F64 p))) s t (PropWidth.marks (p_fv F64 p) None 0 0 0 txt))).
    { unfold show_advance. cbn [viewed]. rewrite A1, A2, Q1, Q3, Q5, CS. change (nfmtTrim F64) with f64_trim. rewrite S1, Z0, MK. reflexivity. }
    exists z, s, (advance (wds (fname (p_font F64 p))) s t (PropWidth.marks (p_fv F64 p) None 0 0 0 txt)), (nmul F64 (nofZ F64 z) (ndiv F64 (p_size F64 p) (nofZ F64 1000))).
    split; [exact SW|]. split; [exact WI|]. split; [exact VI|]. split.
    { rewrite AD. unfold stretched. rewrite Z.mul_0_l, Z.sub_0_r. change (inject_Z (fv_upem (p_fv F64 p)) / (1 # 1) * (0 # 1))%Q with (nmul Qn (ndiv Qn (nofZ Qn (fv_upem (p_fv F64 p))) (1 # 1)%Q) (0 # 1)%Q). rewrite SQ, Z.mul_0_l, Z.sub_0_r, TZ. ring. }
    split.
    { apply Qabs_Qle_condition. apply Rabs_le_inv in S2. assert (H5 : Q2R (501 # 1000000) = (501 / 1000000)%R) by (unfold Q2R; cbn; Lra.lra). split; apply Rle_Qle; rewrite ?Q2R_opp, Q2R_minus, H5; Lra.lra. }
    split.
    { intros k K. apply eqR_Qeq. apply (S3 k). apply Qeq_eqR in K. rewrite Q2R_mult, Q2Rz in K. rewrite <- K. unfold Q2R. cbn. Lra.lra. }
    intros ZB. destruct (width_about z _ _ ZB SZ SR) as (r & I & AB). destruct (f64_val_is _ r I) as (m & M & MR). exists m. split; [exact M|].
    assert (E : Q2R (inject_Z z * milli * S) = (IZR z * (Q2R S / 1000))%R) by (rewrite !Q2R_mult, Q2Rz; replace (Q2R milli) with (/ 1000)%R by (unfold Q2R; cbn; Lra.lra); field).
    unfold about in AB. rewrite <- E, <- MR in AB.
    set (v := (inject_Z z * milli * S)%Q) in *. clearbody v. clear - AB.
    assert (B51 : Q2R (1 # 2 ^ 51) = bpow radix2 (-51)) by (unfold Q2R; cbn; Lra.lra).
    apply Rle_Qle. rewrite Q2R_mult, B51.
    assert (QA : forall x, Q2R (Qabs x) = Rabs (Q2R x)).
    { intros x. apply Qabs_case; intros H; apply Qle_Rle in H; replace (Q2R 0) with 0%R in H by (unfold Q2R; cbn; Lra.lra).
      - now rewrite Rabs_pos_eq.
      - rewrite Q2R_opp. now rewrite Rabs_left1. }
    rewrite !QA, Q2R_minus. exact AB.
  Qed.
  Lemma holds_advances64 e c grp : showsText F64 e c -> holds F64 ft c grp -> Forall (sound64 wds) grp -> advances64 wds e grp.
  Proof.
    intros A B C. pose proof (holds_sums64 e c grp A B C) as H. destruct grp as [|p ps]; [exact H|]. intros S O. destruct (H S O) as (u & s & a & w & _ & H'). exists u, s, a, w. exact H'.
  Qed.
End WidthF.

(** C39, in float64: on a fresh page, after any orderly history of calls. *)
Theorem C39_float64 (rot : f64 -> f64 * f64) (ft : Z -> fontv) (wds : bytes -> Z -> Z) (s s' : ds F64) (calls : list (call F64)) (content : bytes) :
  s_caches F64 s = [] -> s_font F64 s = None -> s_mode F64 s = false -> s_color F64 s = None ->
  fonts_named F64 ft calls -> orderly F64 false calls -> Forall (sound64 wds) (pieces F64 s calls) ->
  run F64 s calls = Some s' -> content_write F64 rot (s_caches F64 s') = Some content ->
  exists groups, List.concat groups = pieces F64 s calls /\ Forall2 (fun e grp => shown F64 e grp /\ advances64 wds e grp) (shows content) groups.
Proof.
  intros E F M C FN OR SO R W. destruct (shown_caches F64 rot F64_prints ft s s' calls content E F M C FN OR R W) as (G & ts & CG & SH & K1 & K3).
  exists G. split; [exact CG|]. rewrite <- CG in SO. apply Forall_concat in SO. clear - SH K1 K3 SO. revert G K1 K3 SO. generalize dependent (shows content).
  intros es SH. induction SH as [|e c es ts S1 SH IH]; intros G K1 K3 SO; inversion K1; subst; [constructor|]. inversion K3; subst. inversion SO; subst.
  constructor; [split; [eapply holds_shown; eassumption|eapply holds_advances64; eassumption]|now apply IH].
Qed.

(** "AV" and " b", one text object, in float64 and at 12.3 points (a size float64 has no exact number for). *)
Definition wcallsF : list (call F64) :=
  [SetFont F64 0 dfont (nfrac F64 123 10) 0; SetXY F64 (nofZ F64 30) (nofZ F64 40); Text F64 (bs "AV"); Text F64 (bs " b")].
Definition wcontentF : bytes := Eval vm_compute in got (outcome F64 (norot F64) (dpage F64) wcallsF).
Definition okF (p : piece F64) : bool := forallb (fun r => (29 <=? r) && (r <? 65536)) (p_text F64 p).
Definition about64 (p : piece F64) : bool * T F64 * T F64 := (p_cell F64 p, p_cs F64 p, p_size F64 p).
Lemma wcallsF_fonts : fonts_named F64 (fun _ => dfont) wcallsF.
Proof. intros n f size st H. repeat (destruct H as [H|H]; [try discriminate H; now injection H as _ <- _ _|]); contradiction. Qed.
Definition q123 : Q := Eval vm_compute in match f64_val (nfrac F64 123 10) with Some v => v | None => 0%Q end.
Lemma val123 : f64_val (nfrac F64 123 10) = Some q123. Proof. vm_cast_no_check (eq_refl (Some q123)). Qed.
Lemma size123 : exists S, is64 (nfrac F64 123 10) (Q2R S) /\ ((1 # 1000) <= S /\ S <= 1048576)%Q.
Proof.
  exists q123. split; [|split; discriminate].
  assert (I : exists r, is64 (nfrac F64 123 10) r).
  { exists (rnd (IZR 123 / IZR 10)). apply (div_is _ _ (IZR 123) (IZR 10)); [apply ofZ_is; lia|apply ofZ_is; lia|Lra.lra|]. apply small_fin. rewrite Rabs_pos_eq by Lra.lra. apply Rle_trans with 13%R; [Lra.lra|]. apply (IZR_le 13). lia. }
  destruct I as (r & I). destruct (f64_val_is _ r I) as (v' & V' & R). rewrite val123 in V'. injection V' as <-. rewrite R. exact I.
Qed.
Example C39_float64_met : fonts_named F64 (fun _ => dfont) wcallsF /\ orderly F64 false wcallsF /\ Forall (sound64 dwds) (pieces F64 (dpage F64) wcallsF) /\
  outcome F64 (norot F64) (dpage F64) wcallsF = Some wcontentF /\
  map (fun e => option_map Qred (show_advance dwds e)) (shows wcontentF) = [Some (20541 # 1000)] /\
  map about64 (pieces F64 (dpage F64) wcallsF) = [(false, nofZ F64 0, nfrac F64 123 10); (false, nofZ F64 0, nfrac F64 123 10)] /\
  exists S, is64 (nfrac F64 123 10) (Q2R S) /\ ((1 # 1000) <= S /\ S <= 1048576)%Q.
Proof.
  split; [exact wcallsF_fonts|]. split; [cbn; repeat split; discriminate|]. split.
  { pose proof (pieces_font F64 (fun _ => dfont) wcallsF (dpage F64) wcallsF_fonts ltac:(discriminate)) as F. assert (B : forallb okF (pieces F64 (dpage F64) wcallsF) = true) by (vm_cast_no_check (eq_refl true)).
    rewrite forallb_forall in B. apply Forall_forall. intros p I. rewrite Forall_forall in F. specialize (F p I). cbn beta in F. specialize (B p I). split; [|rewrite F; split; [reflexivity|discriminate]].
    intros r IR. unfold okF in B. rewrite forallb_forall in B. specialize (B r IR). apply andb_true_iff in B as [B1 B2]. rewrite F. cbn [fv_ci fv_cw dfont]. exists (r - 29). split; [reflexivity|]. split; [lia|].
    unfold dwds. destruct (Z.eqb_spec r 32) as [->|]; [reflexivity|]. replace (r - 29 =? 3) with false by lia. reflexivity. }
  split; [vm_compute; reflexivity|]. split; [vm_compute; reflexivity|]. split; [vm_compute; reflexivity|]. exact size123.
Qed.
Print Assumptions C39_float64.
