(** PropAlignF.v — C55 in float64: the text of a cell is placed as its alignment says, whatever the rounding. *)
From Coq Require Import QArith ZArith Reals Qreals Qabs Lqa Lia Bool SpecFloat.
From Flocq Require Import Core.
From Verif Require Import Base StrModel NumModel NumRead PaintNum UnitModel DrawModel DrawSpec DrawLex DrawNest DrawView PropDraw PropText PropWidth PropUnit FloatReal PropUnitF FloatApx PropDrawF PropImagePlace PropImagePlaceF.
Open Scope Z_scope.

(** ** Specification.  As in PropAlign.v, now for the values of the float64 numbers ([num_arg x q]: the float64 [x] is
    exactly [q], at most 2^20 points); the position is the number printed in the content, with two decimals. *)
Definition closeto (a b : Q) : Prop := (Qabs (a - b) <= 5001 # 1000000)%Q.
Section Placed.
  Local Open Scope Q_scope.
  Definition ascF (f : fontv) (size : Q) : Q := inject_Z (fv_tasc f) * size / inject_Z (fv_upem f).
  Definition descF (f : fontv) (size : Q) : Q := inject_Z (fv_tdesc f) * size / inject_Z (fv_upem f).
  Definition up20 (q : Q) : Prop := Qabs q <= 1048576.
  Definition placed64 (e : event) (grp : list (piece F64)) : Prop :=
    forall p ps W H, grp = p :: ps -> p_cell F64 p = true -> p_rect F64 p = Some (W, H) ->
    exists w, text_width F64 (p_fv F64 p) (p_size F64 p) (p_cs F64 p) (p_text F64 p) = Some w /\       (* MeasureTextWidth *)
    forall qx qy qp qw qh qs qt, num_arg (p_x F64 p) qx -> num_arg (p_y F64 p) qy -> num_arg (p_pageH F64 p) qp -> num_arg W qw -> num_arg H qh ->
      num_arg (p_size F64 p) qs -> num_arg w qt -> Qabs qs <= 4096 -> up20 (ascF (p_fv F64 p) qs) -> up20 (descF (p_fv F64 p) qs) ->
      let left := qx in let right := qx + qw in let top := qp - qy in let bottom := top - qh in
      let asc := ascF (p_fv F64 p) qs in let desc := descF (p_fv F64 p) qs in let al := p_align F64 p in
      exists g arr tx ty x y, e = EShow g [TWord tx; TWord ty] arr /\ number_val tx = Some x /\ number_val ty = Some y /\
        (has al oRight = true -> closeto (x + qt) right) /\
        (has al oRight = false -> has al oCenter = true -> closeto (x + qt / 2) ((left + right) / 2)) /\
        (has al oRight = false -> has al oCenter = false -> closeto x left) /\
        (has al oBottom = true -> closeto (y + desc) bottom) /\
        (has al oBottom = false -> has al oMiddle = true -> closeto (y + (asc + desc) / 2) ((top + bottom) / 2)) /\
        (has al oBottom = false -> has al oMiddle = false -> closeto (y + asc) top).
End Placed.

(** ** Proof *)
Section Typo.
  Local Open Scope R_scope.
  Lemma ap_typo v u x (q : Q) : (Z.abs v <= 2 ^ 15)%Z -> (0 < u <= 2 ^ 16)%Z -> num_arg x q -> Rabs (Q2R q) <= 4096 ->
    Rabs (IZR v * Q2R q / IZR u) <= IZR (2 ^ 20) -> ap 3 (convertTypoUnit F64 v u x) (inject_Z v * q / inject_Z u)%Q.
  Proof.
    intros V U (X & _) S A. unfold convertTypoUnit.
    assert (U1 : 1 <= IZR u) by (apply (IZR_le 1); lia). assert (V1 : Rabs (IZR v) <= IZR (2 ^ 15)) by (rewrite <- abs_IZR; now apply IZR_le).
    change (nmul F64) with (SFmul 53 1024). change (ndiv F64) with (SFdiv 53 1024).
    assert (T1 : is64 (SFmul 53 1024 (nZ F64 v) (nZ F64 1000)) (IZR (v * 1000))).
    { rewrite <- (rnd_Z (v * 1000)) by lia. rewrite mult_IZR. apply mul_is; [apply ofZ_is; lia|apply ofZ_is; lia|]. rewrite <- mult_IZR. apply small_fin. rewrite <- abs_IZR. apply IZR_le. lia. }
    set (a := IZR (v * 1000) / IZR u).
    assert (AB : Rabs a <= IZR (2 ^ 15) * 1000).
    { unfold a, Rdiv. rewrite mult_IZR, !Rabs_mult. rewrite (Rabs_pos_eq 1000) by Lra.lra. rewrite (Rabs_pos_eq (/ IZR u)) by (apply Rlt_le, Rinv_0_lt_compat; Lra.lra).
      assert (I : / IZR u <= 1) by (rewrite <- Rinv_1; apply Rinv_le; Lra.lra). assert (I0 : 0 < / IZR u) by (apply Rinv_0_lt_compat; Lra.lra).
      pose proof (Rabs_pos (IZR v)). assert (0 <= Rabs (IZR v) * 1000) by Lra.lra. rewrite <- (Rmult_1_r (IZR (2 ^ 15) * 1000)). apply Rmult_le_compat; Lra.lra. }
    assert (E2 : Rabs (rnd a - a) <= bpow radix2 (-29)).
    { apply Rle_trans with (/ 2 * bpow radix2 (25 - 53)); [apply rnd_abs_err; [|lia]|].
      - apply Rle_lt_trans with (1 := AB). replace (bpow radix2 25) with (IZR (2 ^ 25)) by reflexivity. replace 1000 with (IZR 1000) by reflexivity. rewrite <- mult_IZR. apply IZR_lt. lia.
      - right. change (-29)%Z with (-1 + (25 - 53))%Z. rewrite bpow_plus. reflexivity. }
    assert (T2 : is64 (SFdiv 53 1024 (SFmul 53 1024 (nZ F64 v) (nZ F64 1000)) (nZ F64 u)) (rnd a)).
    { apply div_is; [exact T1|apply ofZ_is; lia|Lra.lra|]. apply small_fin. apply Rle_trans with (1 := AB). replace 1000 with (IZR 1000) by reflexivity. rewrite <- mult_IZR. apply IZR_le. lia. }
    set (b := rnd a * Q2R q). set (w := IZR v * Q2R q / IZR u) in *.
    assert (P29 : bpow radix2 (-29) = / 536870912) by reflexivity. assert (P24 : bpow radix2 (-24) = / 16777216) by reflexivity. assert (P20 : IZR (2 ^ 20) = 1048576) by reflexivity.
    assert (BW : Rabs (b - 1000 * w) <= 4096 * / 536870912).
    { replace (b - 1000 * w) with ((rnd a - a) * Q2R q). 2: { unfold b, w, a. rewrite mult_IZR. field. Lra.lra. }
      rewrite Rabs_mult, Rmult_comm. rewrite P29 in E2. apply Rmult_le_compat; try apply Rabs_pos; assumption. }
    assert (B30 : Rabs b <= 1048576001).
    { replace b with ((b - 1000 * w) + 1000 * w) by ring. apply Rle_trans with (1 := Rabs_triang _ _). rewrite (Rabs_mult 1000), (Rabs_pos_eq 1000) by Lra.lra. rewrite P20 in A. Lra.lra. }
    assert (T3 : is64 (SFmul 53 1024 (SFdiv 53 1024 (SFmul 53 1024 (nZ F64 v) (nZ F64 1000)) (nZ F64 u)) x) (rnd b)).
    { apply mul_is; [exact T2|exact X|]. apply small_fin. apply Rle_trans with (1 := B30). apply IZR_le. lia. }
    assert (E3 : Rabs (rnd b - b) <= / 16777216).
    { apply Rle_trans with (/ 2 * bpow radix2 (30 - 53)); [apply rnd_abs_err; [|lia]|].
      - apply Rle_lt_trans with (1 := B30). replace (bpow radix2 30) with (IZR (2 ^ 30)) by reflexivity. apply IZR_lt. lia.
      - right. rewrite <- P24. change (-24)%Z with (-1 + (30 - 53))%Z. rewrite bpow_plus. reflexivity. }
    set (c := rnd b / 1000).
    assert (CW : Rabs (c - w) <= (/ 16777216 + 4096 * / 536870912) * / 1000).
    { replace (c - w) with (((rnd b - b) + (b - 1000 * w)) * / 1000) by (unfold c; field). rewrite Rabs_mult, (Rabs_pos_eq (/ 1000)) by Lra.lra.
      apply Rmult_le_compat_r; [Lra.lra|]. apply Rle_trans with (1 := Rabs_triang _ _). Lra.lra. }
    eapply (ap_round 2 3 _ c w); [lia| | | |lia|lia|].
    - intros _ F. apply div_is; [exact T3|apply (ofZ_is 1000); lia|Lra.lra|exact F].
    - unfold w. rewrite Q2R_div, Q2R_mult by (unfold Qeq; cbn; lia). unfold Q2R at 1 3. cbn [inject_Z Qnum Qden]. unfold Rdiv. rewrite Rinv_1. now rewrite !Rmult_1_r.
    - apply Rle_trans with (1 := CW). rewrite eps_val. replace (IZR (2 ^ 28)) with 268435456 by reflexivity. Lra.lra.
    - apply Rle_trans with (1 := A). rewrite big_val, P20. Lra.lra.
  Qed.
  Lemma half_is : is64 (nfrac F64 1 2) (/ 2).
  Proof.
    assert (E : rnd (IZR 1 / IZR 2) = / 2) by (replace (IZR 1 / IZR 2) with (bpow radix2 (-1)) by (cbn; Lra.lra); rewrite rnd_id by (apply bpow_fmt; lia); reflexivity).
    rewrite <- E. apply (div_is _ _ (IZR 1) (IZR 2)); [apply ofZ_is; lia|apply ofZ_is; lia|Lra.lra|]. rewrite E. apply small_fin || idtac.
    rewrite Rabs_pos_eq by Lra.lra. apply Rlt_le_trans with (bpow radix2 0); [cbn; Lra.lra|]. apply bpow_le. lia.
  Qed.
  Lemma ap_halfmul n x (q : Q) : ap n x q -> (0 <= n <= 15)%Z -> ap (n + 1) (nmul F64 x (nfrac F64 1 2)) (q * (1 # 2))%Q.
  Proof.
    intros A L. eapply ap_scale; [lia|exact half_is| | |exact A]; unfold Q2R; cbn [Qnum Qden].
    - replace (/ 2 - 1 * / 2) with 0 by Lra.lra. rewrite Rabs_R0. apply bpow_ge_0.
    - rewrite Rabs_pos_eq; Lra.lra.
  Qed.
End Typo.
Lemma Qabs_R (q : Q) (n : Z) : (Qabs q <= inject_Z n)%Q -> (Rabs (Q2R q) <= IZR n)%R.
Proof.
  intros H. apply Qabs_Qle_condition in H as [A B]. apply Qle_Rle in A, B. rewrite Q2R_opp in A.
  assert (E : Q2R (inject_Z n) = IZR n) by (unfold Q2R; cbn [inject_Z Qnum Qden]; rewrite Rinv_1; ring). rewrite E in *. now apply Rabs_le.
Qed.
Lemma asc_R f z q : 0 < fv_upem f -> up20 (inject_Z z * q / inject_Z (fv_upem f))%Q -> (Rabs (IZR z * Q2R q / IZR (fv_upem f)) <= IZR (2 ^ 20))%R.
Proof.
  intros U H. apply (Qabs_R _ 1048576) in H. rewrite Q2R_div, Q2R_mult in H by (unfold Qeq; cbn; lia).
  assert (E : forall n, Q2R (inject_Z n) = IZR n) by (intros n; unfold Q2R; cbn [inject_Z Qnum Qden]; rewrite Rinv_1; ring). rewrite !E in H. exact H.
Qed.
Lemma close_ap n x q (lhs rhs : Q) : ap n x q -> 0 <= n <= 16 -> (lhs - rhs == prF 2 x - q)%Q -> closeto lhs rhs.
Proof. intros A L E. pose proof (near2F n x q A L) as W. unfold within in W. unfold closeto. rewrite E. exact W. Qed.

(** Typographic measures of a font file: sixteen bits signed, the em square sixteen bits. *)
Definition plausible (f : fontv) : Prop := 0 < fv_upem f <= 2 ^ 16 /\ Z.abs (fv_tasc f) <= 2 ^ 15 /\ Z.abs (fv_tdesc f) <= 2 ^ 15.

Section C55F.
  Variable rot : f64 -> f64 * f64.
  Variable ft : Z -> fontv.
  Lemma holds_placed64 s e c grp : tinv F64 s c -> showsText F64 e c -> holds F64 ft c grp -> Forall (fun p => plausible (p_fv F64 p)) grp -> placed64 e grp.
  Proof using ft.
    clear rot. intros (_ & _ & _ & TR) (g & -> & _) HO SO p ps W H -> CE RC.
    assert (PN : ps = []).
    { destruct HO as (_ & _ & _ & _ & _ & _ & _ & _ & _ & _ & _ & _ & _ & _ & Q12 & _). destruct ps as [|q ps]; [reflexivity|]. apply Forall_inv in Q12. destruct Q12 as (_ & _ & _ & _ & _ & _ & _ & Q & _). rewrite CE in Q. discriminate Q. }
    subst ps. destruct HO as (Q1 & Q2 & Q2' & Q3 & Q4 & Q5 & Q6 & Q7 & Q8 & Q9 & Q9r & Q9a & Q10 & Q11 & Q12 & Q13).
    rewrite Q9r, Q11, Q2, Q3, Q5 in TR. cbn [flat_map] in TR. rewrite app_nil_r in TR. destruct (TR W H RC) as (T1 & T2 & T3).
    exists (c_tw F64 c). split; [exact T3|]. intros qx qy qp qw qh qs qt NX NY NP NW NH NS NT S12 AU DU left right top bottom asc desc al.
    pose proof (Forall_inv SO) as (U & VA & VD).
    pose proof (ap_typo _ _ _ _ VA U NS (Qabs_R _ 4096 S12) (asc_R _ _ _ (proj1 U) AU)) as TA. pose proof (ap_typo _ _ _ _ VD U NS (Qabs_R _ 4096 S12) (asc_R _ _ _ (proj1 U) DU)) as TD.
    change (inject_Z (fv_tasc (p_fv F64 p)) * qs / inject_Z (fv_upem (p_fv F64 p)))%Q with asc in TA. change (inject_Z (fv_tdesc (p_fv F64 p)) * qs / inject_Z (fv_upem (p_fv F64 p)))%Q with desc in TD.
    apply num_ap in NX, NY, NP, NW, NH, NT. clear AU DU S12 NS VA VD U SO TR.
    assert (EX : exists n q, ap n (calX F64 c) q /\ 0 <= n <= 16 /\ (has al oRight = true -> q == right - qt)%Q /\ (has al oRight = false -> has al oCenter = true -> q == (left + right) / 2 - qt / 2)%Q /\
      (has al oRight = false -> has al oCenter = false -> q == left)%Q).
    { unfold calX. rewrite Q9, CE, Q9a. fold al. rewrite Q6, T1. destruct (has al oRight); [|destruct (has al oCenter)].
      - eexists _, _. split; [eapply ap_subN; [eapply ap_addN; [exact NX|exact NW|lia|lia|lia]|exact NT|lia|lia|lia]|]. split; [lia|]. split; [intros _; reflexivity|]. split; discriminate.
      - eexists _, _. split; [eapply ap_subN; [eapply ap_addN; [exact NX|eapply ap_halfmul; [exact NW|lia]|lia|lia|lia]|eapply ap_halfmul; [exact NT|lia]|lia|lia|lia]|]. split; [lia|]. split; [discriminate|]. split; [|discriminate].
        intros _ _. unfold left, right. cbn [nadd nsub Qn]. field.
      - eexists _, _. split; [exact NX|]. split; [lia|]. split; [discriminate|]. split; [discriminate|]. intros _ _. reflexivity. }
    assert (EY : exists n q, ap n (calY F64 c) q /\ 0 <= n <= 16 /\ (has al oBottom = true -> q == bottom - desc)%Q /\ (has al oBottom = false -> has al oMiddle = true -> q == (top + bottom) / 2 - (asc + desc) / 2)%Q /\
      (has al oBottom = false -> has al oMiddle = false -> q == top - asc)%Q).
    { unfold calY. rewrite Q9, CE, Q9a. fold al. rewrite Q2, Q3, Q7, Q8, T2. cbv zeta. destruct (has al oBottom); [|destruct (has al oMiddle)].
      - eexists _, _. split; [eapply ap_subN; [eapply ap_subN; [eapply ap_subN; [exact NP|exact NY|lia|lia|lia]|exact NH|lia|lia|lia]|exact TD|lia|lia|lia]|]. split; [lia|].
        split; [intros _; reflexivity|]. split; discriminate.
      - eexists _, _. split; [eapply ap_subN; [eapply ap_subN; [eapply ap_subN; [exact NP|exact NY|lia|lia|lia]|eapply ap_halfmul; [exact NH|lia]|lia|lia|lia]|eapply ap_halfmul; [eapply ap_addN; [exact TD|exact TA|lia|lia|lia]|lia]|lia|lia|lia]|].
        split; [lia|]. split; [discriminate|]. split; [|discriminate]. intros _ _. unfold bottom, top. cbn [nadd nsub Qn]. field.
      - eexists _, _. split; [eapply ap_subN; [eapply ap_subN; [exact NP|exact NY|lia|lia|lia]|exact TA|lia|lia|lia]|]. split; [lia|]. split; [discriminate|]. split; [discriminate|]. intros _ _. reflexivity. }
    destruct EX as (nx & vx & AX & LX & X1 & X2 & X3). destruct EY as (ny & vy & AY & LY & Y1 & Y2 & Y3).
    pose proof (prF_val 2 _ (ap_fin _ _ _ AX)) as PX. pose proof (prF_val 2 _ (ap_fin _ _ _ AY)) as PY. change (number_val (nfmt F64 2 (calX F64 c)) = Some (prF 2 (calX F64 c))) in PX. change (number_val (nfmt F64 2 (calY F64 c)) = Some (prF 2 (calY F64 c))) in PY.
    exists g, (items F64 c), (nfmt F64 2 (calX F64 c)), (nfmt F64 2 (calY F64 c)), (prF 2 (calX F64 c)), (prF 2 (calY F64 c)).
    split; [reflexivity|]. split; [exact PX|]. split; [exact PY|].
    split; [intros B1; refine (close_ap _ _ _ _ _ AX LX _); rewrite (X1 B1); ring|].
    split; [intros B1 B2; refine (close_ap _ _ _ _ _ AX LX _); rewrite (X2 B1 B2); field|].
    split; [intros B1 B2; refine (close_ap _ _ _ _ _ AX LX _); rewrite (X3 B1 B2); ring|].
    split; [intros B1; refine (close_ap _ _ _ _ _ AY LY _); rewrite (Y1 B1); ring|].
    split; [intros B1 B2; refine (close_ap _ _ _ _ _ AY LY _); rewrite (Y2 B1 B2); field|].
    intros B1 B2; refine (close_ap _ _ _ _ _ AY LY _); rewrite (Y3 B1 B2); ring.
  Qed.
  (** C55, in float64: on a fresh page, after any orderly history, the text of every cell whose numbers are finite and
      below 2^20 points is placed in its cell as the alignment says, to within 0.005001 points. *)
  Theorem C55_float64 (s s' : ds F64) (calls : list (call F64)) (content : bytes) :
    s_caches F64 s = [] -> s_font F64 s = None -> s_mode F64 s = false -> s_color F64 s = None ->
    fonts_named F64 ft calls -> orderly F64 false calls -> Forall (fun p => plausible (p_fv F64 p)) (pieces F64 s calls) ->
    run F64 s calls = Some s' -> content_write F64 rot (s_caches F64 s') = Some content ->
    exists groups, List.concat groups = pieces F64 s calls /\ Forall2 (fun e grp => shown F64 e grp /\ placed64 e grp) (shows content) groups.
  Proof.
    intros E F M C FN OR SO R W. destruct (shown_caches F64 rot F64_prints ft s s' calls content E F M C FN OR R W) as (G & ts & CG & SH & K1 & K3).
    exists G. split; [exact CG|]. rewrite <- CG in SO. apply Forall_concat in SO. clear - SH K1 K3 SO. revert G K1 K3 SO. generalize dependent (shows content).
    intros es SH. induction SH as [|e c es ts S1 SH IH]; intros G K1 K3 SO; inversion K1; subst; [constructor|]. inversion K3; subst. inversion SO; subst.
    constructor; [split; [eapply holds_shown; eassumption|eapply holds_placed64; eassumption]|now apply IH].
  Qed.
End C55F.

(** A right- and bottom-aligned and a centred cell, in float64. *)
Definition acellF (al : Z) (txt : bytes) : call F64 :=
  CellOpt F64 (Some (Build_rect F64 (nofZ F64 100) (nofZ F64 20) (defcfg F64 0))) txt (Build_cellopt F64 al 0 oBottom (nofZ F64 0) (nofZ F64 0) (nofZ F64 0) []) None.
Definition acallsF : list (call F64) :=
  [SetFont F64 0 dfont (nofZ F64 12) 0; SetXY F64 (nofZ F64 30) (nofZ F64 40); acellF (Z.lor oRight oBottom) (bs "ab"); SetXY F64 (nofZ F64 30) (nfrac F64 803 10); acellF (Z.lor oCenter oMiddle) (bs "ab")].
Definition acontentF : bytes := Eval vm_compute in got (outcome F64 (norot F64) (dpage F64) acallsF).
Definition posF (e : event) : list tok := match e with EShow _ p _ => p | _ => [] end.
Definition rectF (p : piece F64) : bool := match p_rect F64 p with Some _ => p_cell F64 p | None => false end.
Lemma num_small z : 0 <= z <= 2 ^ 20 -> num_arg (nofZ F64 z) (inject_Z z).
Proof.
  intros B. assert (E : Q2R (inject_Z z) = IZR z) by (unfold Q2R; cbn [inject_Z Qnum Qden]; rewrite Rinv_1; ring).
  split; rewrite E; [apply ofZ_is; lia|]. rewrite Rabs_pos_eq by (apply IZR_le; lia). apply IZR_le. lia.
Qed.
Lemma acallsF_fonts : fonts_named F64 (fun _ => dfont) acallsF.
Proof. intros n f size st H. repeat (destruct H as [H|H]; [try discriminate H; now injection H as _ <- _ _|]); contradiction. Qed.
Example C55_float64_met : fonts_named F64 (fun _ => dfont) acallsF /\ orderly F64 false acallsF /\
  Forall (fun p => plausible (p_fv F64 p)) (pieces F64 (dpage F64) acallsF) /\ forallb rectF (pieces F64 (dpage F64) acallsF) = true /\
  outcome F64 (norot F64) (dpage F64) acallsF = Some acontentF /\
  map posF (shows acontentF) = [[TWord (bs "118.00"); TWord (bs "742.40")]; [TWord (bs "74.00"); TWord (bs "706.10")]] /\
  num_arg (nofZ F64 30) 30 /\ num_arg (nofZ F64 100) 100 /\ num_arg (nofZ F64 12) 12.
Proof.
  split; [exact acallsF_fonts|]. split; [cbn; repeat split; discriminate|]. split.
  { apply Forall_forall. intros p I. assert (X : forallb (fun p => (0 <? fv_upem (p_fv F64 p)) && (fv_upem (p_fv F64 p) <=? 2 ^ 16) && (Z.abs (fv_tasc (p_fv F64 p)) <=? 2 ^ 15) && (Z.abs (fv_tdesc (p_fv F64 p)) <=? 2 ^ 15)) (pieces F64 (dpage F64) acallsF) = true) by (vm_cast_no_check (eq_refl true)).
    rewrite forallb_forall in X. specialize (X p I). unfold plausible. lia. }
  split; [vm_cast_no_check (eq_refl true)|]. split; [vm_compute; reflexivity|]. split; [vm_compute; reflexivity|].
  split; [exact (num_small 30 ltac:(lia))|]. split; [exact (num_small 100 ltac:(lia))|]. exact (num_small 12 ltac:(lia)).
Qed.
Print Assumptions C55_float64.
