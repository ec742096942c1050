(** PropDecoF.v — C65 in float64: rounding does not move borders and underlines. *)
From Coq Require Import QArith ZArith Reals Qreals Qabs Lqa Lia Bool SpecFloat.
From Flocq Require Import Core.
From Verif Require Import Base StrModel NumModel NumRead PaintNum UnitModel DrawModel DrawSpec DrawLex DrawNest DrawView PropDraw PaintSpec PropPaint PropUnit FloatReal PropUnitF FloatApx PropDrawF DecoSpec PropDeco PropImagePlace PropImagePlaceF PropAlignF.
Open Scope Z_scope.

(** ** Specification *)
(** A font none of whose vertical measures exceeds eight ems. *)
Definition modest (f : fontv) : Prop :=
  0 < fv_upem f <= 2 ^ 16 /\ Forall (fun v => Z.abs v <= 8 * fv_upem f) [fv_asc f; fv_desc f; fv_upos f; fv_uthick f].
Definition coef_arg (x : f64) (q : Q) : Prop := is64 x (Q2R q) /\ (Qabs q <= 256)%Q.
(** The same cell: [f] and [o] and the box, beside the same with exact numbers. *)
Definition same_box (b : tbox F64) (b' : tbox Qn) : Prop :=
  num_arg (b_x F64 b) (b_x Qn b') /\ num_arg (b_y F64 b) (b_y Qn b') /\ num_arg (b_w F64 b) (b_w Qn b') /\ num_arg (b_h F64 b) (b_h Qn b').
Definition same_opt (o : cellopt F64) (o' : cellopt Qn) : Prop :=
  o_border F64 o = o_border Qn o' /\ coef_arg (o_clh F64 o) (o_clh Qn o') /\ coef_arg (o_cup F64 o) (o_cup Qn o') /\ coef_arg (o_cut F64 o) (o_cut Qn o').

(** ** Proof *)
Section Px.
  Local Open Scope R_scope.
  Lemma Q2Rz n : Q2R (inject_Z n) = IZR n. Proof. unfold Q2R. cbn [inject_Z Qnum Qden]. rewrite Rinv_1. ring. Qed.
  Lemma px_fine v u x (q : Q) : (0 < u <= 2 ^ 16)%Z -> (Z.abs v <= 8 * u)%Z -> is64 x (Q2R q) -> Rabs (Q2R q) <= 512 ->
    exists r, is64 (px F64 v u x) r /\ Rabs (r - IZR v / IZR u * Q2R q) <= bpow radix2 (-39) /\ Rabs (IZR v / IZR u * Q2R q) <= 4096.
  Proof.
    intros U V X S. unfold px. change (nmul F64) with (SFmul 53 1024). change (ndiv F64) with (SFdiv 53 1024).
    assert (U1 : 1 <= IZR u) by (apply (IZR_le 1); lia). set (a := IZR v / IZR u).
    assert (AB : Rabs a <= 8).
    { unfold a, Rdiv. rewrite Rabs_mult, (Rabs_pos_eq (/ IZR u)) by (apply Rlt_le, Rinv_0_lt_compat; Lra.lra). rewrite <- abs_IZR. apply Rmult_le_reg_r with (IZR u); [Lra.lra|].
      rewrite Rmult_assoc, Rinv_l, Rmult_1_r by Lra.lra. rewrite <- (mult_IZR 8). now apply IZR_le. }
    assert (E2 : Rabs (rnd a - a) <= bpow radix2 (-50)).
    { apply Rle_trans with (/ 2 * bpow radix2 (4 - 53)); [apply rnd_abs_err; [|lia]|].
      - apply Rle_lt_trans with (1 := AB). cbn. Lra.lra.
      - right. change (-50)%Z with (-1 + (4 - 53))%Z. rewrite bpow_plus. reflexivity. }
    assert (T2 : is64 (SFdiv 53 1024 (nZ F64 v) (nZ F64 u)) (rnd a)).
    { apply div_is; [apply ofZ_is; lia|apply ofZ_is; lia|Lra.lra|]. apply small_fin. apply Rle_trans with (1 := AB). apply (IZR_le 8). lia. }
    set (b := rnd a * Q2R q). set (w := a * Q2R q).
    assert (WB : Rabs w <= 4096) by (unfold w; rewrite Rabs_mult; replace 4096 with (8 * 512) by ring; apply Rmult_le_compat; try apply Rabs_pos; assumption).
    assert (P41 : bpow radix2 (-41) = / 2199023255552) by reflexivity. assert (P50 : bpow radix2 (-50) = / 1125899906842624) by reflexivity.
    assert (BW : Rabs (b - w) <= / 1125899906842624 * 512).
    { replace (b - w) with ((rnd a - a) * Q2R q) by (unfold b, w; ring). rewrite Rabs_mult. rewrite P50 in E2. apply Rmult_le_compat; try apply Rabs_pos; assumption. }
    assert (B13 : Rabs b <= 4097). { replace b with ((b - w) + w) by ring. apply Rle_trans with (1 := Rabs_triang _ _). Lra.lra. }
    assert (E3 : Rabs (rnd b - b) <= / 2199023255552).
    { apply Rle_trans with (/ 2 * bpow radix2 (13 - 53)); [apply rnd_abs_err; [|lia]|].
      - apply Rle_lt_trans with (1 := B13). replace (bpow radix2 13) with 8192 by reflexivity. Lra.lra.
      - right. rewrite <- P41. change (-41)%Z with (-1 + (13 - 53))%Z. rewrite bpow_plus. reflexivity. }
    exists (rnd b). split; [|split; [|exact WB]].
    - apply mul_is; [exact T2|exact X|]. apply small_fin. apply Rle_trans with (1 := B13). apply (IZR_le 4097). lia.
    - replace (rnd b - w) with ((rnd b - b) + (b - w)) by ring. apply Rle_trans with (1 := Rabs_triang _ _).
      replace (bpow radix2 (-39)) with (/ 549755813888) by reflexivity. Lra.lra.
  Qed.
  Lemma px_Q v u (q : Q) : (0 < u)%Z -> Q2R (px Qn v u q) = IZR v / IZR u * Q2R q.
  Proof. intros U. unfold px. cbn [nmul ndiv nofZ Qn]. rewrite Q2R_mult, Q2R_div by (unfold Qeq; cbn; lia). now rewrite !Q2Rz. Qed.
  Lemma ap_px v u x (q : Q) : (0 < u <= 2 ^ 16)%Z -> (Z.abs v <= 8 * u)%Z -> is64 x (Q2R q) -> Rabs (Q2R q) <= 512 -> ap 1 (px F64 v u x) (px Qn v u q).
  Proof.
    intros U V X S. destruct (px_fine v u x q U V X S) as (r & I & E & B). exists r. split; [exact I|]. rewrite px_Q by lia. rewrite eps_val, big_val, !Rmult_1_l.
    replace (IZR (2 ^ 20)) with 1048576 by reflexivity. replace (IZR (2 ^ 28)) with 268435456 by reflexivity. replace (bpow radix2 (-39)) with (/ 549755813888) in E by reflexivity. split; Lra.lra.
  Qed.
  Lemma coef_is x q : coef_arg x q -> exists c, is64 (coef F64 x) c /\ Q2R (coef Qn q) = c /\ Rabs c <= 256.
  Proof.
    intros (X & B). apply (Qabs_R _ 256) in B. unfold coef. change (neq F64) with SFeqb. change (neq Qn) with Qeq_bool.
    rewrite (eqb_is _ _ _ 0 X) by (apply (ofZ_is 0); lia). destruct (Qeq_bool q (nofZ Qn 0)) eqn:Z.
    - apply Qeq_bool_iff, Qeq_eqR in Z. rewrite Z. replace (Q2R (nofZ Qn 0)) with 0 by (unfold Q2R; cbn; Lra.lra). rewrite Req_bool_true by reflexivity.
      exists 1. split; [apply (ofZ_is 1); lia|]. split; [apply (Q2Rz 1)|]. rewrite Rabs_pos_eq; Lra.lra.
    - rewrite Req_bool_false. { exists (Q2R q). auto. }
      intros E. apply Qeq_bool_neq in Z. apply Z. apply eqR_Qeq. rewrite E. unfold Q2R. cbn. Lra.lra.
  Qed.
  Lemma ap_pxcoef v u x (q : Q) k (k' : Q) : (0 < u <= 2 ^ 16)%Z -> (Z.abs v <= 8 * u)%Z -> is64 x (Q2R q) -> Rabs (Q2R q) <= 512 -> coef_arg k k' ->
    ap 1 (nmul F64 (px F64 v u x) (coef F64 k)) (nmul Qn (px Qn v u q) (coef Qn k')).
  Proof.
    intros U V X S K. destruct (px_fine v u x q U V X S) as (r & I & E & B). destruct (coef_is k k' K) as (c & C1 & C2 & C3).
    set (w := IZR v / IZR u * Q2R q) in *. change (nmul F64) with (SFmul 53 1024). change (nmul Qn) with Qmult.
    assert (WC : Rabs (w * c) <= 1048576) by (rewrite Rabs_mult; replace 1048576 with (4096 * 256) by ring; apply Rmult_le_compat; try apply Rabs_pos; assumption).
    replace (bpow radix2 (-39)) with (/ 549755813888) in E by reflexivity.
    eapply (ap_round 0 1 _ (r * c) (w * c)); [lia| | | |lia|lia|].
    - intros _ F. apply mul_is; assumption.
    - rewrite Q2R_mult, px_Q by lia. rewrite C2. reflexivity.
    - replace (r * c - w * c) with ((r - w) * c) by ring. rewrite Rabs_mult. apply Rle_trans with (/ 549755813888 * 256); [apply Rmult_le_compat; try apply Rabs_pos; assumption|].
      rewrite eps_val. replace (IZR (2 ^ 28)) with 268435456 by reflexivity. Lra.lra.
    - rewrite big_val, Rmult_1_l. replace (IZR (2 ^ 20)) with 1048576 by reflexivity. exact WC.
  Qed.
  Lemma ap_coefsize k (k' : Q) x (q : Q) : coef_arg k k' -> is64 x (Q2R q) -> Rabs (Q2R q) <= 512 -> ap 1 (nmul F64 (coef F64 k) x) (nmul Qn (coef Qn k') q).
  Proof.
    intros K X S. destruct (coef_is k k' K) as (c & C1 & C2 & C3). change (nmul F64) with (SFmul 53 1024). change (nmul Qn) with Qmult.
    eapply (ap_round 0 1 _ (c * Q2R q) (c * Q2R q)); [lia| | | |lia|lia|].
    - intros _ F. apply mul_is; assumption.
    - now rewrite Q2R_mult, C2.
    - replace (c * Q2R q - c * Q2R q) with 0 by ring. rewrite Rabs_R0. pose proof eps_pos. Lra.lra.
    - rewrite Rabs_mult, big_val, Rmult_1_l. replace (IZR (2 ^ 20)) with 1048576 by reflexivity. apply Rle_trans with (256 * 512); [apply Rmult_le_compat; try apply Rabs_pos; assumption|]. Lra.lra.
  Qed.
End Px.
Lemma stroke_close a b c d (a' b' c' d' : T Qn) : tclose (TWord (nfmt F64 2 a)) (TWord (nfmt Qn 2 a')) -> tclose (TWord (nfmt F64 2 b)) (TWord (nfmt Qn 2 b')) ->
  tclose (TWord (nfmt F64 2 c)) (TWord (nfmt Qn 2 c')) -> tclose (TWord (nfmt F64 2 d)) (TWord (nfmt Qn 2 d')) -> wclose (stroke F64 a b c d) (stroke Qn a' b' c' d').
Proof.
  intros A B C D. split; [|reflexivity]. apply Forall2_cons; [|apply Forall2_cons; [|apply Forall2_nil]]; (split; [|reflexivity]); cbn [op_ fst]; (apply Forall2_cons; [assumption|apply Forall2_cons; [assumption|apply Forall2_nil]]).
Qed.
Ltac apz :=
  lazymatch goal with
  | |- ap _ (nadd F64 _ _) _ => eapply ap_addN; [apz|apz|lia|lia|lia]
  | |- ap _ (nsub F64 _ _) _ => eapply ap_subN; [apz|apz|lia|lia|lia]
  | |- ap _ (ndiv F64 _ _) _ => eapply ap_halfN; [apz|lia]
  | |- ap _ (nneg F64 _) _ => eapply ap_oppN; apz
  | A : ap _ ?x ?q |- ap _ ?x ?q => exact A
  | |- ap _ (nmul F64 _ (nfrac F64 1 2)) _ => eapply ap_halfmul; [apz|lia]
  end.
Ltac tkz := eapply tok_apN; [apz|lia].
Lemma sides_close H lw b which (H' lw' : T Qn) b' : num_arg H H' -> num_arg lw lw' -> same_box b b' ->
  Forall2 wclose (sides F64 H lw b which) (sides Qn H' lw' b' which).
Proof.
  intros NH NL (X & Y & WW & HH). apply num_ap in NH, NL, X, Y, WW, HH. unfold sides. cbv zeta.
  repeat apply Forall2_app; [destruct (has which oTop)|destruct (has which oLeft)|destruct (has which oRight)|destruct (has which oBottom)]; try apply Forall2_nil;
    (apply Forall2_cons; [|apply Forall2_nil]); apply stroke_close; tkz.
Qed.
Lemma under_close H b f size o (H' : T Qn) b' (size' : T Qn) o' : modest f -> num_arg H H' -> same_box b b' -> is64 size (Q2R size') -> (Qabs size' <= 512)%Q -> same_opt o o' ->
  wclose (under F64 H b f size o) (under Qn H' b' f size' o').
Proof.
  intros (U & M) NH (X & Y & WW & HH) S SB (_ & C1 & C2 & C3). apply num_ap in NH, X, Y, WW, HH. apply (Qabs_R _ 512) in SB.
  inversion M as [|? ? M1 MA]; subst. inversion MA as [|? ? M2 MB]; subst. inversion MB as [|? ? M3 MC]; subst. inversion MC as [|? ? M4 _]; subst. clear M MA MB MC.
  pose proof (ap_px _ _ _ _ U M1 S SB) as PA. pose proof (ap_px _ _ _ _ U M2 S SB) as PD.
  pose proof (ap_pxcoef _ _ _ _ _ _ U M3 S SB C2) as PU. pose proof (ap_pxcoef _ _ _ _ _ _ U M4 S SB C3) as PT. pose proof (ap_coefsize _ _ _ _ C1 S SB) as PC.
  unfold under, drop. cbv zeta.
  set (a := px F64 (fv_asc f) _ _) in *. set (a' := px Qn (fv_asc f) _ _) in *. set (d := px F64 (fv_desc f) _ _) in *. set (d' := px Qn (fv_desc f) _ _) in *.
  set (u := nmul F64 (px F64 (fv_upos f) _ _) _) in *. set (u' := nmul Qn (px Qn (fv_upos f) _ _) _) in *.
  set (t := nmul F64 (px F64 (fv_uthick f) _ _) _) in *. set (t' := nmul Qn (px Qn (fv_uthick f) _ _) _) in *.
  set (c := nmul F64 (coef F64 _) _) in *. set (c' := nmul Qn (coef Qn _) _) in *.
  split; [|reflexivity]. apply Forall2_cons; [|apply Forall2_nil]. split; [|reflexivity]. cbn [op_ fst].
  apply Forall2_cons; [tkz|]. apply Forall2_cons; [tkz|]. apply Forall2_cons; [tkz|]. apply Forall2_cons; [tkz|]. apply Forall2_nil.
Qed.

(** C65, in float64: the sides and the underline of a cell with a rectangle, wherever it stands among the calls, are
    those of exact arithmetic: every number is printed from one at most a millionth of a point away. *)
Theorem C65_float64 (rot : f64 -> f64 * f64) (s s1 : ds F64) (before after : list (call F64)) (r : rect F64) (txt : list Z) (o : cellopt F64) tr (content : bytes) :
  fresh_page F64 s -> Forall (sensible F64) (before ++ CellOpt F64 (Some r) txt o tr :: after) -> alone F64 false (before ++ CellOpt F64 (Some r) txt o tr :: after) ->
  outcome F64 rot s (before ++ CellOpt F64 (Some r) txt o tr :: after) = Some content ->
  run F64 s before = Some s1 ->
  exists fc f w h earlier drawn later g,
    s_font F64 s1 = Some (fc, f) /\ rectPts F64 s1 (Some r) = Some (w, h) /\ marks content = earlier ++ map (fun k => (g, k)) drawn ++ later /\
    forall pageH lw size box o', modest f -> num_arg (s_pageH F64 s1) pageH -> num_arg (s_lw F64 s1) lw -> is64 (s_size F64 s1) (Q2R size) -> (Qabs size <= 512)%Q ->
      same_box {| b_x := s_x F64 s1; b_y := s_y F64 s1; b_w := w; b_h := h |} box -> same_opt o o' ->
      Forall2 wclose drawn ((if has (s_style F64 s1) styUnderline then [under Qn pageH box f size o'] else []) ++ sides Qn pageH lw box (o_border Qn o')).
Proof.
  intros FP SE AL O R1. destruct (C65_one_cell F64 rot s s1 before after r txt o tr content F64_prints FP SE AL O R1) as (fc & f & w & h & earlier & later & g & A & B & _ & _ & M).
  exists fc, f, w, h, earlier. eexists. exists later, g. split; [exact A|]. split; [exact B|]. split; [exact M|].
  intros pageH lw size box o' MF NH NL S SB BX OO. assert (OB : o_border F64 o = o_border Qn o') by apply OO. apply Forall2_app.
  - destruct (has (s_style F64 s1) styUnderline); [|apply Forall2_nil]. apply Forall2_cons; [|apply Forall2_nil]. apply under_close; assumption.
  - rewrite OB. apply sides_close; assumption.
Qed.
Print Assumptions C65_float64.

(** The premises at the first cell of PropDeco.v's calls. *)
Definition before65 : list (call F64) := firstn 7 ucalls.
Definition at65 (N : num) (s : ds N) : T N * T N * T N * T N * T N := (s_x N s, s_y N s, s_pageH N s, s_lw N s, s_size N s).
Definition opt65 : cellopt Qn := Build_cellopt Qn 15 15 oRight (nofZ Qn 0) (nofZ Qn 0) (nofZ Qn 0) [].
Example C65_float64_met : ucalls = before65 ++ cellD 15 15 :: skipn 8 ucalls /\ outcome F64 (norot F64) (dpage F64) ucalls = Some ucontent /\
  option_map (at65 F64) (run F64 (dpage F64) before65) = Some (nofZ F64 30, nofZ F64 20, nofZ F64 800, nofZ F64 2, nofZ F64 12) /\
  fresh_page F64 (dpage F64) /\ Forall (sensible F64) ucalls /\ alone F64 false ucalls /\
  modest dfont /\ num_arg (nofZ F64 800) 800 /\ num_arg (nofZ F64 2) 2 /\ is64 (nofZ F64 12) (Q2R 12) /\
  same_box {| b_x := nofZ F64 30; b_y := nofZ F64 20; b_w := nofZ F64 100; b_h := nofZ F64 50 |} (Build_tbox Qn (nofZ Qn 30) (nofZ Qn 20) (nofZ Qn 100) (nofZ Qn 50)) /\
  same_opt (Build_cellopt F64 15 15 oRight (nofZ F64 0) (nofZ F64 0) (nofZ F64 0) []) opt65 /\
  List.length (sides Qn (nofZ Qn 800) (nofZ Qn 2) (Build_tbox Qn (nofZ Qn 30) (nofZ Qn 20) (nofZ Qn 100) (nofZ Qn 50)) 15) = 4%nat.
Proof.
  split; [reflexivity|]. split; [exact ucontent_ok|]. split; [vm_compute; reflexivity|]. destruct ucalls_met as (A & B & C). split; [exact A|]. split; [exact B|]. split; [exact C|].
  split. { split; [vm_compute; split; [reflexivity|discriminate]|]. repeat constructor; vm_compute; discriminate. }
  split; [exact (num_small 800 ltac:(lia))|]. split; [exact (num_small 2 ltac:(lia))|]. split; [exact (proj1 (num_small 12 ltac:(lia)))|].
  split; [exact (conj (num_small 30 ltac:(lia)) (conj (num_small 20 ltac:(lia)) (conj (num_small 100 ltac:(lia)) (num_small 50 ltac:(lia)))))|].
  split; [|reflexivity]. assert (Z0 : coef_arg (nofZ F64 0) 0) by (split; [exact (proj1 (num_small 0 ltac:(lia)))|discriminate]).
  split; [reflexivity|]. exact (conj Z0 (conj Z0 Z0)).
Qed.
