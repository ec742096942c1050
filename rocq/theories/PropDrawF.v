(** PropDrawF.v — C72: float64 rounding does not move what is drawn.  Every history of drawing calls, with float64
    arguments, is compared with the same history computed with the arguments' exact values. *)
From Coq Require Import QArith ZArith Reals Qreals Qabs Lia Lra Bool SpecFloat.
From Flocq Require Import Core Plus_error.
From Verif Require Import Base StrModel NumModel NumRead PaintNum UnitModel DrawModel DrawSpec DrawLex DrawNest DrawView PropDraw PaintSpec PropPaint PropUnit FloatReal PropUnitF FloatApx.
Local Open Scope R_scope.
Open Scope Z_scope.

(** ** Specification *)
(** Two tokens agree: equal, or printed with the same number of decimals from numbers at most a millionth apart. *)
Definition tclose (a b : tok) : Prop :=
  a = b \/ exists k x y r, a = TWord (nfmt F64 k x) /\ b = TWord (nfmt Qn k y) /\ is64 x r /\ (Rabs (r - Q2R y) <= / 1000000)%R.
Definition oclose (a b : op) : Prop := Forall2 tclose (fst a) (fst b) /\ snd a = snd b.
Definition cclose (a b : list gmat * gpath * bytes) : Prop :=
  Forall2 (Forall2 tclose) (fst (fst a)) (fst (fst b)) /\ Forall2 oclose (snd (fst a)) (snd (fst b)) /\ snd a = snd b.
(** The graphics state and the mark, beside what was asked for; an unspecified fill colour may be anything. *)
Definition gclose (a b : pgs) : Prop :=
  Forall2 (Forall2 tclose) (p_ctm a) (p_ctm b) /\ Forall2 cclose (p_clip a) (p_clip b) /\ Forall2 tclose (p_lw a) (p_lw b) /\ Forall2 tclose (p_dash a) (p_dash b) /\
  Forall2 oclose (p_stroke a) (p_stroke b) /\ p_ext a = p_ext b /\
  match p_fill b with Some f' => exists f, p_fill a = Some f /\ Forall2 oclose f f' | None => True end.
Definition wclose (a b : what) : Prop :=
  match a, b with Painted p h, Painted p' h' => Forall2 oclose p p' /\ h = h' | External n, External n' => n = n' | _, _ => False end.
Definition mclose (a b : mark) : Prop := gclose (fst a) (fst b) /\ wclose (snd a) (snd b).

(** The same calls: equal, number arguments exactly of the same value, and no longer than 2^20 points (about 370 m). *)
Section Same.
  Variable c : ucfg Qn.
  Definition num_arg (x : f64) (q : Q) : Prop := is64 x (Q2R q) /\ (Rabs (Q2R q) <= IZR (2 ^ 20))%R.
  Definition len_arg (x : f64) (q : Q) : Prop := is64 x (Q2R q) /\ (Rabs (Q2R (unitsToPoints Qn c q)) <= IZR (2 ^ 20))%R.
  Definition pt_arg (p : f64 * f64) (p' : Q * Q) : Prop := len_arg (fst p) (fst p') /\ len_arg (snd p) (snd p').
  (** lengths already converted to points may be off by a rounding *)
  Definition pts_arg (x : f64) (q : Q) : Prop := exists r, is64 x r /\ (Rabs (r - Q2R q) <= / IZR (2 ^ 28) /\ Rabs (Q2R q) <= IZR (2 ^ 20))%R.
  Definition byte_arg (z z' : Z) : Prop := z = z' /\ 0 <= z < 256.
  Definition img_arg (o : imgopt F64) (o' : imgopt Qn) : Prop :=
    pts_arg (io_x F64 o) (io_x Qn o') /\ pts_arg (io_y F64 o) (io_y Qn o') /\ pts_arg (io_w F64 o) (io_w Qn o') /\ pts_arg (io_h F64 o) (io_h Qn o') /\
    num_arg (io_angle F64 o) (io_angle Qn o') /\ io_v F64 o = io_v Qn o' /\ io_hf F64 o = io_hf Qn o' /\ io_gs F64 o = io_gs Qn o' /\
    match io_crop F64 o, io_crop Qn o' with
    | Some (x, y, w, h), Some (x', y', w', h') => pts_arg x x' /\ pts_arg y y' /\ pts_arg w w' /\ pts_arg h h'
    | None, None => True
    | _, _ => False
    end /\
    match io_mask F64 o, io_mask Qn o' with Some a, Some a' => num_arg a a' | None, None => True | _, _ => False end.
  Definition same_call (a : call F64) (b : call Qn) : Prop :=
    match a, b with
    | SetLineWidth _ v, SetLineWidth _ v' => len_arg v v'
    | SetLineType _ t, SetLineType _ t' => t = t'
    | SetCustomLineType _ l p, SetCustomLineType _ l' p' => Forall2 len_arg l l' /\ len_arg p p'
    | Line _ x1 y1 x2 y2, Line _ x1' y1' x2' y2' => len_arg x1 x1' /\ len_arg y1 y1' /\ len_arg x2 x2' /\ len_arg y2 y2'
    | RectLL _ x y w h, RectLL _ x' y' w' h' | RectUL _ x y w h, RectUL _ x' y' w' h' => len_arg x x' /\ len_arg y y' /\ len_arg w w' /\ len_arg h h'
    | RectLLOpt _ x y w h s t, RectLLOpt _ x' y' w' h' s' t' | RectULOpt _ x y w h s t, RectULOpt _ x' y' w' h' s' t' =>
        len_arg x x' /\ len_arg y y' /\ len_arg w w' /\ len_arg h h' /\ s = s' /\ t = t'
    | Oval _ x1 y1 x2 y2, Oval _ x1' y1' x2' y2' => len_arg x1 x1' /\ len_arg y1 y1' /\ len_arg x2 x2' /\ len_arg y2 y2'
    | Curve _ x0 y0 x1 y1 x2 y2 x3 y3 s, Curve _ x0' y0' x1' y1' x2' y2' x3' y3' s' =>
        len_arg x0 x0' /\ len_arg y0 y0' /\ len_arg x1 x1' /\ len_arg y1 y1' /\ len_arg x2 x2' /\ len_arg y2 y2' /\ len_arg x3 x3' /\ len_arg y3 y3' /\ s = s'
    | Polygon _ p s, Polygon _ p' s' => Forall2 pt_arg p p' /\ s = s'
    | ClipPolygon _ p, ClipPolygon _ p' => Forall2 pt_arg p p'
    | SaveGS _, SaveGS _ | RestoreGS _, RestoreGS _ | RotateReset _, RotateReset _ | ClearTransparency _, ClearTransparency _ => True
    | Rotate _ a x y, Rotate _ a' x' y' => num_arg a a' /\ len_arg x x' /\ len_arg y y'
    | SetGrayFill _ v, SetGrayFill _ v' | SetGrayStroke _ v, SetGrayStroke _ v' => is64 v (Q2R v')
    | SetStrokeColor _ r g b, SetStrokeColor _ r' g' b' | SetFillColor _ r g b, SetFillColor _ r' g' b' => byte_arg r r' /\ byte_arg g g' /\ byte_arg b b'
    | SetStrokeColorCMYK _ x m y k, SetStrokeColorCMYK _ x' m' y' k' | SetFillColorCMYK _ x m y k, SetFillColorCMYK _ x' m' y' k' =>
        byte_arg x x' /\ byte_arg m m' /\ byte_arg y y' /\ byte_arg k k'
    | SetTextColor _ r g b, SetTextColor _ r' g' b' => r = r' /\ g = g' /\ b = b'
    | SetTextColorCMYK _ x m y k, SetTextColorCMYK _ x' m' y' k' => x = x' /\ m = m' /\ y = y' /\ k = k'
    | SetTransparency _ t, SetTransparency _ t' => t = t'
    | Image _ i o, Image _ i' o' => i = i' /\ img_arg o o'
    | Template _ n sx sy tx ty, Template _ n' sx' sy' tx' ty' => n = n' /\ num_arg sx sx' /\ num_arg sy sy' /\ num_arg tx tx' /\ num_arg ty ty'
    | ColorSpace _ n, ColorSpace _ n' => n = n'
    (* where text goes is not looked at here: any numbers *)
    | SetX _ _, SetX _ _ | SetY _ _, SetY _ _ | SetXY _ _ _, SetXY _ _ _ | Br _ _, Br _ _ | SetFontSize _ _, SetFontSize _ _ | SetCharSpacing _ _, SetCharSpacing _ _ => True
    | SetFont _ n f _ s, SetFont _ n' f' _ s' => n = n' /\ f = f' /\ s = s'
    | Text _ t, Text _ t' | Cell _ _ t, Cell _ _ t' => t = t'
    | CellOpt _ _ t o tr, CellOpt _ _ t' o' tr' => t = t' /\ o_align F64 o = o_align Qn o' /\ o_border F64 o = o_border Qn o' /\ tr = tr'
    | PlaceHolder _ _, PlaceHolder _ _ => True
    | _, _ => False
    end.
End Same.
(** Cosine and sine: the library's, in float64, beside the exact ones, to 28 binary places. *)
Definition rots_agree (rf : f64 -> f64 * f64) (rq : Q -> Q * Q) : Prop :=
  forall x r q, is64 x r -> (Rabs (r - Q2R q) <= / IZR (2 ^ 28))%R -> (Rabs (Q2R q) <= IZR (2 ^ 21))%R ->
    pts_arg (fst (rf x)) (fst (rq q)) /\ pts_arg (snd (rf x)) (snd (rq q)).

(** ** Proof *)
Lemma tc_refl t : tclose t t. Proof. now left. Qed.
Lemma tcs_refl l : Forall2 tclose l l. Proof. induction l; constructor; [apply tc_refl|assumption]. Qed.
Lemma oc_refl o : oclose o o. Proof. split; [apply tcs_refl|reflexivity]. Qed.
Lemma ocs_refl l : Forall2 oclose l l. Proof. induction l; constructor; [apply oc_refl|assumption]. Qed.
Lemma tok_ap n k x q : 0 <= n <= 16 -> ap n x q -> tclose (d F64 k x) (d Qn k q).
Proof.
  intros L (r & A & B & _). right. exists k, x, q, r. split; [reflexivity|]. split; [reflexivity|]. split; [exact A|].
  apply Rle_trans with (1 := B). assert (N : (IZR n <= 16)%R) by (apply (IZR_le n 16); lia). assert (N0 : (0 <= IZR n)%R) by (apply (IZR_le 0 n); lia).
  assert (E : (eps * 16 <= / 1000000)%R).
  { rewrite eps_val. replace (IZR (2 ^ 28)) with 268435456%R by reflexivity. lra. }
  pose proof eps_pos. nra.
Qed.
Lemma pts_ap x q : pts_arg x q -> ap 1 x q.
Proof. intros (r & A & B & C). exists r. split; [exact A|]. rewrite eps_val, big_val, !Rmult_1_l. split; assumption. Qed.
Lemma num_ap x q : num_arg x q -> ap 1 x q.
Proof. intros (A & B). apply ap_exact; [exact A|]. rewrite big_val. exact B. Qed.
Lemma len_ap c c' x q : same_cfg c c' -> len_arg c' x q -> ap 1 (unitsToPoints F64 c x) (unitsToPoints Qn c' q).
Proof. intros S (A & B). apply ap_units; [exact S|exact A|]. rewrite big_val. exact B. Qed.
Lemma ap_addN n m x y (p q : T Qn) : ap n x p -> ap m y q -> 0 <= n -> 0 <= m -> n + m <= 15 -> ap (n + m + 1) (nadd F64 x y) (nadd Qn p q).
Proof. intros. apply ap_add; assumption. Qed.
Lemma ap_subN n m x y (p q : T Qn) : ap n x p -> ap m y q -> 0 <= n -> 0 <= m -> n + m <= 15 -> ap (n + m + 1) (nsub F64 x y) (nsub Qn p q).
Proof. intros. apply ap_sub; assumption. Qed.
Lemma ap_halfN n x (q : T Qn) : ap n x q -> 0 <= n <= 15 -> ap (n + 1) (ndiv F64 x (nofZ F64 2)) (ndiv Qn q (nofZ Qn 2)).
Proof. intros. apply ap_half; assumption. Qed.
Lemma ap_oppN n x (q : T Qn) : ap n x q -> ap n (nneg F64 x) (nneg Qn q).
Proof. apply ap_opp. Qed.
Lemma kappa_is : exists k, is64 (nfrac F64 55228 100000) k /\ (Rabs (k - Q2R (nfrac Qn 55228 100000)) <= bpow radix2 (-54))%R.
Proof.
  exists (rnd (IZR 55228 / IZR 100000)). split.
  - apply (div_is _ _ (IZR 55228) (IZR 100000)); [apply ofZ_is; lia|apply ofZ_is; lia|lra|]. apply small_fin. rewrite Rabs_pos_eq by lra. apply Rle_trans with 1%R; [lra|]. apply (IZR_le 1). lia.
  - replace (Q2R (nfrac Qn 55228 100000)) with (IZR 55228 / IZR 100000)%R by (unfold Q2R; cbn; lra).
    apply Rle_trans with (/ 2 * bpow radix2 (0 - 53))%R.
    + apply rnd_abs_err; [|lia]. rewrite Rabs_pos_eq by lra. cbn [bpow]. lra.
    + replace (bpow radix2 (-54)) with (/ 2 * bpow radix2 (-53))%R by (change (-54)%Z with (-1 + -53)%Z; rewrite bpow_plus; reflexivity). apply Rle_refl.
Qed.
Lemma ap_kappa n x (q : T Qn) : ap n x q -> 0 <= n <= 15 -> ap (n + 1) (nmul F64 x (nfrac F64 55228 100000)) (nmul Qn q (nfrac Qn 55228 100000)).
Proof.
  intros X N. destruct kappa_is as (kk & A & B). eapply ap_scale; [lia|exact A|exact B| |exact X].
  unfold Q2R. cbn. rewrite Rabs_pos_eq; lra.
Qed.
Lemma tok_apN n k x (q : T Qn) : ap n x q -> 0 <= n <= 16 -> tclose (d F64 k x) (d Qn k q).
Proof. intros A L. now apply (tok_ap n). Qed.
Ltac apx :=
  lazymatch goal with
  | |- ap _ (nadd F64 _ _) _ => eapply ap_addN; [apx|apx|lia|lia|lia]
  | |- ap _ (nsub F64 _ _) _ => eapply ap_subN; [apx|apx|lia|lia|lia]
  | |- ap _ (ndiv F64 _ _) _ => eapply ap_halfN; [apx|lia]
  | |- ap _ (nmul F64 _ _) _ => eapply ap_kappa; [apx|lia]
  | |- ap _ (nneg F64 _) _ => eapply ap_oppN; apx
  | A : ap _ ?x ?q |- ap _ ?x ?q => exact A
  end.
Ltac tk :=
  lazymatch goal with
  | |- tclose ?t ?t => apply tc_refl
  | |- tclose (d F64 _ _) _ => eapply tok_apN; [apx|lia]
  end.
Ltac tks := repeat (apply Forall2_cons; [tk|]); try apply Forall2_nil.
Ltac oks := repeat (apply Forall2_cons; [split; [cbn [op_ fst]; tks|reflexivity]|]); try apply Forall2_nil.

Section Close.
  Variable H : f64. Variable H' : T Qn. Hypothesis HH : ap 1 H H'.
  Lemma ellipse_close x1 y1 x2 y2 (x1' y1' x2' y2' : T Qn) : ap 1 x1 x1' -> ap 1 y1 y1' -> ap 1 x2 x2' -> ap 1 y2 y2' ->
    Forall2 oclose (ellipse F64 H x1 y1 x2 y2) (ellipse Qn H' x1' y1' x2' y2').
  Proof.
    intros A B C D. unfold ellipse. cbv zeta. oks.
  Qed.
  Lemma F2_app {A B} (R : A -> B -> Prop) l l' r r' : Forall2 R l l' -> Forall2 R r r' -> Forall2 R (l ++ r) (l' ++ r').
  Proof. apply Forall2_app. Qed.
  Definition apt (p : f64 * f64) (p' : Q * Q) : Prop := ap 1 (fst p) (fst p') /\ ap 1 (snd p) (snd p').
  Lemma through_close l l' : Forall2 apt l l' -> Forall2 oclose (through F64 H l) (through Qn H' l').
  Proof.
    intros F. assert (M : forall s l l', Forall2 apt l l' -> Forall2 oclose (map (fun p => op_ [d F64 2 (fst p); d F64 2 (nsub F64 H (snd p))] s) l) (map (fun p => op_ [d Qn 2 (fst p); d Qn 2 (nsub Qn H' (snd p))] s) l')).
    { intros s. induction 1 as [|p q ps qs [A B] _ IH]; [constructor|]. cbn [map]. apply Forall2_cons; [|exact IH]. split; [|reflexivity]. cbn [op_ fst]. tks. }
    destruct F as [|p q ps qs [A B] F]; [constructor|]. cbn [through]. apply Forall2_cons; [split; [|reflexivity]; cbn [op_ fst]; tks|]. now apply M.
  Qed.
  Variable rf : f64 -> f64 * f64. Variable rq : Q -> Q * Q. Hypothesis RA : rots_agree rf rq.
  Definition ang (x : f64) (q : Q) : Prop := exists r, is64 x r /\ (Rabs (r - Q2R q) <= / IZR (2 ^ 28))%R /\ (Rabs (Q2R q) <= IZR (2 ^ 21))%R.
  Lemma num_ang x q : num_arg x q -> ang x q.
  Proof.
    intros (A & B). exists (Q2R q). split; [exact A|]. split.
    - replace (Q2R q - Q2R q)%R with 0%R by ring. rewrite Rabs_R0. apply Rlt_le, Rinv_0_lt_compat. apply IZR_lt. lia.
    - apply Rle_trans with (1 := B). apply IZR_le. lia.
  Qed.
  Lemma rot_close n m x y a (x' y' a' : T Qn) : ap n x x' -> ap m y y' -> 0 <= n <= 7 -> 0 <= m <= 7 -> ang a a' ->
    Forall2 (Forall2 tclose) (rotAbout F64 rf H x y a) (rotAbout Qn rq H' x' y' a').
  Proof.
    intros A B Ln Lm (r & X & E & BB). destruct (RA a r a' X E BB) as [C S]. apply pts_ap in C, S. unfold rotAbout. change (T Qn) with Q in *.
    destruct (rf a) as [c s]. destruct (rq a') as [c' s']. cbn [fst snd] in *. change Q with (T Qn) in *.
    apply Forall2_cons; [|apply Forall2_cons; [|apply Forall2_nil]]; tks.
  Qed.
  Lemma mask_ang a b (a' b' : T Qn) : num_arg a a' -> num_arg b b' -> ang (nadd F64 a b) (nadd Qn a' b') /\ neq F64 (nadd F64 a b) (nofZ F64 0) = neq Qn (nadd Qn a' b') (nofZ Qn 0).
  Proof.
    intros (A & BA) (B & BB). change (nadd F64 a b) with (SFadd 53 1024 a b). change (nadd Qn a' b') with (a' + b')%Q.
    assert (S : (Rabs (Q2R a' + Q2R b') <= IZR (2 ^ 21))%R).
    { apply Rle_trans with (1 := Rabs_triang _ _). replace (IZR (2 ^ 21)) with (IZR (2 ^ 20) + IZR (2 ^ 20))%R by (rewrite <- plus_IZR; reflexivity). lra. }
    assert (I : is64 (SFadd 53 1024 a b) (rnd (Q2R a' + Q2R b'))).
    { apply add_is; [exact A|exact B|]. apply small_fin. apply Rle_trans with (1 := S). apply IZR_le. lia. }
    split.
    - exists (rnd (Q2R a' + Q2R b')). split; [exact I|]. rewrite Q2R_plus. split; [|exact S].
      apply Rle_trans with (/ 2 * bpow radix2 (22 - 53))%R.
      + apply rnd_abs_err; [|lia]. apply Rle_lt_trans with (1 := S). change (bpow radix2 22) with (IZR (2 ^ 22)). apply IZR_lt. lia.
      + change (/ IZR (2 ^ 28))%R with (bpow radix2 (-28)). replace (/ 2 * bpow radix2 (22 - 53))%R with (bpow radix2 (-32)) by (change (-32)%Z with (-1 + (22 - 53))%Z; rewrite bpow_plus; reflexivity). apply bpow_le. lia.
    - change (neq F64) with SFeqb. change (neq Qn) with Qeq_bool. change (nofZ F64 0) with (f64_ofZ 0). change (nofZ Qn 0) with 0%Q.
      rewrite (eqb_is _ _ _ 0 I) by (apply (ofZ_is 0); lia). destruct (Qeq_bool (a' + b') 0) eqn:Z.
      + apply Qeq_bool_iff, Qeq_eqR in Z. rewrite Q2R_plus in Z. rewrite Z. apply Req_bool_true. replace (Q2R 0) with (IZR 0) by (unfold Q2R; cbn; lra). apply (rnd_Z 0). lia.
      + apply Req_bool_false. unfold rnd. apply round_plus_neq_0.
        * apply FLT_exp_valid. exact Hp.
        * apply monotone_exp_not_FTZ; [apply FLT_exp_valid; exact Hp|apply FLT_exp_monotone].
        * apply valid_rnd_N.
        * exact (is64_fmt _ _ A).
        * exact (is64_fmt _ _ B).
        * intros X. apply Qeq_bool_neq in Z. apply Z. apply eqR_Qeq. rewrite Q2R_plus, X. unfold Q2R. cbn. lra.
  Qed.
  Lemma ccl_refl_ctm (l : list gmat) : Forall2 (Forall2 tclose) l l. Proof. induction l; constructor; [apply tcs_refl|assumption]. Qed.
  Lemma image_close g g' i (o : imgopt F64) (o' : imgopt Qn) : gclose g g' -> img_arg o o' -> mclose (imageMark F64 rf H g i o) (imageMark Qn rq H' g' i o').
  Proof.
    intros (G1 & G2 & G3 & G4 & G5 & G6 & G7) (A1 & A2 & A3 & A4 & A5 & A6 & A7 & A8 & A9 & A10).
    destruct o as [x y w h an v hf crop mask gs], o' as [x' y' w' h' an' v' hf' crop' mask' gs']. unfold imageMark, io_x, io_y, io_w, io_h, io_angle, io_v, io_hf, io_crop, io_mask, io_gs in *.
    subst v' hf' gs'. apply pts_ap in A1, A2, A3, A4. cbv zeta.
    assert (EX : p_ext g ++ map (fun i => TName (bs "GS" ++ fmt_d i)) gs = p_ext g' ++ map (fun i => TName (bs "GS" ++ fmt_d i)) gs) by now rewrite G6.
    assert (FL : forall b : bool, Forall2 (Forall2 tclose) (if b then [[wd (if hf then "-1" else "1"); wd "0"; wd "0"; wd (if v then "-1" else "1"); wd "0"; wd "0"]] else []) (if b then [[wd (if hf then "-1" else "1"); wd "0"; wd "0"; wd (if v then "-1" else "1"); wd "0"; wd "0"]] else [])).
    { intros b. apply ccl_refl_ctm. }
    destruct mask as [ma|], mask' as [ma'|]; try contradiction.
    - destruct (mask_ang ma an ma' an' A10 A5) as [MA ME]. change (nadd Qn ma' an') with (nadd Qn ma' an') in *. 
      assert (MT : Forall2 (Forall2 tclose) (if neq F64 (nadd F64 ma an) (nofZ F64 0) then [] else rotAbout F64 rf H (nadd F64 x (ndiv F64 w (nofZ F64 2))) (nadd F64 y (ndiv F64 h (nofZ F64 2))) (nadd F64 ma an))
                  (if neq Qn (nadd Qn ma' an') (nofZ Qn 0) then [] else rotAbout Qn rq H' (nadd Qn x' (ndiv Qn w' (nofZ Qn 2))) (nadd Qn y' (ndiv Qn h' (nofZ Qn 2))) (nadd Qn ma' an'))).
      { rewrite ME. destruct (neq Qn (nadd Qn ma' an') (nofZ Qn 0)); [constructor|]. eapply rot_close; [apx|apx|lia|lia|exact MA]. }
      assert (OUT : Forall2 (Forall2 tclose) (p_ctm g ++ [] ++ (if hf || v then [[wd (if hf then "-1" else "1"); wd "0"; wd "0"; wd (if v then "-1" else "1"); wd "0"; wd "0"]] else []))
                 (p_ctm g' ++ [] ++ (if hf || v then [[wd (if hf then "-1" else "1"); wd "0"; wd "0"; wd (if v then "-1" else "1"); wd "0"; wd "0"]] else []))).
      { apply F2_app; [exact G1|]. cbn [app]. apply FL. }
      destruct crop as [[[[cx cy] cw] ch]|], crop' as [[[[cx' cy'] cw'] ch']|]; try contradiction.
      + destruct A9 as (C1 & C2 & C3 & C4). apply pts_ap in C1, C2, C3, C4. split; [|reflexivity]. cbn [fst snd].
        split; [|split; [|split; [|split; [|split; [|split]]]]]; cbn [p_ctm p_clip p_lw p_dash p_stroke p_ext p_fill set_ctm set_clip set_ext]; try assumption.
        * apply F2_app; [exact OUT|]. apply F2_app; [exact MT|]. apply Forall2_cons; [|constructor]. destruct hf, v; tks.
        * apply F2_app; [exact G2|]. apply Forall2_cons; [|constructor]. split; [exact OUT|]. split; [|reflexivity]. cbn [fst snd]. destruct hf, v; oks.
      + split; [|reflexivity]. cbn [fst snd].
        split; [|split; [|split; [|split; [|split; [|split]]]]]; cbn [p_ctm p_clip p_lw p_dash p_stroke p_ext p_fill set_ctm set_clip set_ext]; try assumption.
        * apply F2_app; [exact OUT|]. apply F2_app; [exact MT|]. apply Forall2_cons; [|constructor]. destruct hf, v; tks.
        * apply F2_app; [exact G2|constructor].
    - apply num_ang in A5.
      destruct crop as [[[[cx cy] cw] ch]|], crop' as [[[[cx' cy'] cw'] ch']|]; try contradiction.
      + destruct A9 as (C1 & C2 & C3 & C4). apply pts_ap in C1, C2, C3, C4. split; [|reflexivity]. cbn [fst snd].
        assert (OUT : Forall2 (Forall2 tclose) (p_ctm g ++ rotAbout F64 rf H (nadd F64 x (ndiv F64 cw (nofZ F64 2))) (nadd F64 y (ndiv F64 ch (nofZ F64 2))) an ++ (if hf || v then [[wd (if hf then "-1" else "1"); wd "0"; wd "0"; wd (if v then "-1" else "1"); wd "0"; wd "0"]] else []))
                 (p_ctm g' ++ rotAbout Qn rq H' (nadd Qn x' (ndiv Qn cw' (nofZ Qn 2))) (nadd Qn y' (ndiv Qn ch' (nofZ Qn 2))) an' ++ (if hf || v then [[wd (if hf then "-1" else "1"); wd "0"; wd "0"; wd (if v then "-1" else "1"); wd "0"; wd "0"]] else []))).
        { apply F2_app; [exact G1|]. apply F2_app; [|apply FL]. eapply rot_close; [apx|apx|lia|lia|exact A5]. }
        split; [|split; [|split; [|split; [|split; [|split]]]]]; cbn [p_ctm p_clip p_lw p_dash p_stroke p_ext p_fill set_ctm set_clip set_ext]; try assumption.
        * apply F2_app; [exact OUT|]. apply F2_app; [constructor|]. apply Forall2_cons; [|constructor]. destruct hf, v; tks.
        * apply F2_app; [exact G2|]. apply Forall2_cons; [|constructor]. split; [exact OUT|]. split; [|reflexivity]. cbn [fst snd]. destruct hf, v; oks.
      + split; [|reflexivity]. cbn [fst snd].
        split; [|split; [|split; [|split; [|split; [|split]]]]]; cbn [p_ctm p_clip p_lw p_dash p_stroke p_ext p_fill set_ctm set_clip set_ext]; try assumption.
        * apply F2_app; [apply F2_app; [exact G1|apply F2_app; [|apply FL]; eapply rot_close; [apx|apx|lia|lia|exact A5]]|]. apply F2_app; [constructor|]. apply Forall2_cons; [|constructor]. destruct hf, v; tks.
        * apply F2_app; [exact G2|constructor].
  Qed.
End Close.
Lemma Q2R_Z z : Q2R (inject_Z z) = IZR z. Proof. unfold Q2R, inject_Z. cbn [Qnum Qden]. rewrite Rinv_1. apply Rmult_1_r. Qed.
Lemma qlt_is (a b : Q) : nlt Qn a b = Rlt_bool (Q2R a) (Q2R b).
Proof.
  cbn [nlt Qn]. destruct (Qle_bool b a) eqn:E; cbn [negb]; symmetry.
  - apply Rlt_bool_false. apply Qle_Rle. now apply Qle_bool_iff.
  - apply Rlt_bool_true. apply Qlt_Rlt. apply Qnot_le_lt. intros X. apply Qle_bool_iff in X. congruence.
Qed.
Lemma clamp_close v (v' : T Qn) : is64 v (Q2R v') -> ap 1 (clamp01 F64 v) (clamp01 Qn v').
Proof.
  intros I. unfold clamp01. change (nlt F64) with SFltb. change (nofZ F64) with f64_ofZ. change (nofZ Qn) with inject_Z.
  rewrite (ltb_is _ _ _ _ I (ofZ_is 0 ltac:(lia))), (ltb_is _ _ _ _ (ofZ_is 1 ltac:(lia)) I), !qlt_is, !Q2R_Z.
  destruct (Rlt_bool_spec (Q2R v') 0) as [L|L]; [apply (ap_Z 0); lia|]. destruct (Rlt_bool_spec 1 (Q2R v')) as [M|M]; [apply (ap_Z 1); lia|].
  apply ap_exact; [exact I|]. rewrite Rabs_pos_eq by exact L. apply Rle_trans with (1 := M). rewrite big_val. apply (IZR_le 1). lia.
Qed.
Lemma part_close k v v' b : byte_arg v v' -> (0 < b < 2 ^ 20)%Z -> tclose (d F64 k (ndiv F64 (nofZ F64 v) (nofZ F64 b))) (d Qn k (ndiv Qn (nofZ Qn v') (nofZ Qn b))).
Proof. intros (<- & L) B. apply (tok_ap 1); [lia|]. apply (ap_quot v b); [lia|exact B]. Qed.
Lemma rgb_close r g b r' g' b' : byte_arg r r' -> byte_arg g g' -> byte_arg b b' -> Forall2 tclose (rgbOf F64 r g b) (rgbOf Qn r' g' b').
Proof. intros A B C. unfold rgbOf. cbn [map]. repeat (apply Forall2_cons; [apply part_close; [assumption|lia]|]). constructor. Qed.
Lemma cmyk_close c m y k c' m' y' k' : byte_arg c c' -> byte_arg m m' -> byte_arg y y' -> byte_arg k k' -> Forall2 tclose (cmykOf F64 c m y k) (cmykOf Qn c' m' y' k').
Proof. intros A B C D. unfold cmykOf. cbn [map]. repeat (apply Forall2_cons; [apply part_close; [assumption|lia]|]). constructor. Qed.

Definition aclose (a : asked F64) (b : asked Qn) : Prop :=
  same_cfg (a_cfg F64 a) (a_cfg Qn b) /\ ap 1 (a_H F64 a) (a_H Qn b) /\ a_tr F64 a = a_tr Qn b /\ a_coltext F64 a = a_coltext Qn b /\
  gclose (a_g F64 a) (a_g Qn b) /\ Forall2 gclose (a_stack F64 a) (a_stack Qn b) /\ Forall2 mclose (a_out F64 a) (a_out Qn b).
Section Step.
  Variable rf : f64 -> f64 * f64. Variable rq : Q -> Q * Q. Hypothesis RA : rots_agree rf rq.
  Lemma ag_close a b g g' st st' : aclose a b -> gclose g g' -> Forall2 gclose st st' -> aclose (ag F64 a g st) (ag Qn b g' st').
  Proof. intros (A & B & C & D & E & F & G) X Y. exact (conj A (conj B (conj C (conj D (conj X (conj Y G)))))). Qed.
  Lemma atr_close a b t c : aclose a b -> aclose (atr F64 a t c) (atr Qn b t c).
  Proof. intros (A & B & C & D & E & F & G). exact (conj A (conj B (conj eq_refl (conj eq_refl (conj E (conj F G)))))). Qed.
  Lemma amark_close a b k k' : aclose a b -> mclose k k' -> aclose (amark F64 a k) (amark Qn b k').
  Proof. intros (A & B & C & D & E & F & G) X. refine (conj A (conj B (conj C (conj D (conj E (conj F _)))))). apply F2_app; [exact G|]. constructor; [exact X|constructor]. Qed.
  Lemma shape_close a b t p p' how : aclose a b -> Forall2 oclose p p' -> aclose (shape F64 a t p how) (shape Qn b t p' how).
  Proof.
    intros AC P. apply amark_close; [exact AC|]. destruct AC as (_ & _ & _ & _ & (G1 & G2 & G3 & G4 & G5 & G6 & G7) & _).
    split; [|split; [exact P|reflexivity]]. cbn [fst]. refine (conj G1 (conj G2 (conj G3 (conj G4 (conj G5 (conj _ G7)))))). cbn [p_ext set_ext]. now rewrite G6.
  Qed.
  Lemma ask_close i a b c c' : aclose a b -> same_call (a_cfg Qn b) c c' -> aclose (ask F64 rf i a c) (ask Qn rq i b c').
  Proof using RA.
    intros AC SC. pose proof AC as (CF & HH & TR & CT & (G1 & G2 & G3 & G4 & G5 & G6 & G7) & ST & OUT).
    pose proof (conj G1 (conj G2 (conj G3 (conj G4 (conj G5 (conj G6 G7)))))) as GC. change (gclose (a_g F64 a) (a_g Qn b)) in GC.
    assert (LEN : forall x q, len_arg (a_cfg Qn b) x q -> ap 1 (unitsToPoints F64 (a_cfg F64 a) x) (unitsToPoints Qn (a_cfg Qn b) q)) by (intros; now apply len_ap).
    assert (PTS : forall l l', Forall2 (pt_arg (a_cfg Qn b)) l l' ->
        Forall2 apt (map (fun p => (unitsToPoints F64 (a_cfg F64 a) (fst p), unitsToPoints F64 (a_cfg F64 a) (snd p))) l) (map (fun p => (unitsToPoints Qn (a_cfg Qn b) (fst p), unitsToPoints Qn (a_cfg Qn b) (snd p))) l')).
    { induction 1 as [|p q ps qs [A B] _ IH]; [constructor|]. cbn [map]. constructor; [|exact IH]. split; cbn [fst snd]; now apply LEN. }
    destruct c, c'; cbn [same_call] in SC; try contradiction; cbn [ask]; cbv zeta;
      repeat match goal with X : _ /\ _ |- _ => destruct X end;
      repeat match goal with X : len_arg _ _ _ |- _ => apply LEN in X end; subst; try rewrite <- TR.
    - apply ag_close; [exact AC| |exact ST]. refine (conj G1 (conj G2 (conj _ (conj G4 (conj G5 (conj G6 G7)))))). cbn [p_lw set_lw]. tks.
    - apply ag_close; [exact AC| |exact ST]. refine (conj G1 (conj G2 (conj G3 (conj _ (conj G5 (conj G6 G7)))))). cbn [p_dash set_dash]. apply tcs_refl.
    - apply ag_close; [exact AC| |exact ST]. refine (conj G1 (conj G2 (conj G3 (conj _ (conj G5 (conj G6 G7)))))). cbn [p_dash set_dash].
      apply Forall2_cons; [apply tc_refl|]. apply F2_app; [|tks].
      match goal with X : Forall2 (len_arg _) _ _ |- _ => rename X into XX end. clear -XX LEN. induction XX as [|x q xs qs X _ IH]; [constructor|]. cbn [map]. apply Forall2_cons; [apply LEN in X; tk|exact IH].
    - apply shape_close; [exact AC|]. oks.
    - apply shape_close; [exact AC|]. oks.
    - apply shape_close; [exact AC|]. oks.
    - apply shape_close; [exact AC|]. oks.
    - apply shape_close; [exact AC|]. oks.
    - apply shape_close; [exact AC|]. apply ellipse_close; assumption.
    - apply shape_close; [exact AC|]. oks.
    - apply shape_close; [exact AC|]. apply through_close; [exact HH|now apply PTS].
    - apply ag_close; [exact AC| |exact ST]. refine (conj G1 (conj _ (conj G3 (conj G4 (conj G5 (conj G6 G7)))))). cbn [p_clip set_clip].
      apply F2_app; [exact G2|]. constructor; [|constructor]. split; [exact G1|]. split; [|reflexivity]. cbn [fst snd]. apply F2_app; [apply through_close; [exact HH|now apply PTS]|apply ocs_refl].
    - apply ag_close; [exact AC|exact GC|]. now constructor.
    - destruct ST as [|g g' st st' X ST]; [exact AC|]. now apply ag_close.
    - apply ag_close; [exact AC| |now constructor]. refine (conj _ (conj G2 (conj G3 (conj G4 (conj G5 (conj G6 G7)))))). cbn [p_ctm set_ctm].
      apply F2_app; [exact G1|]. eapply rot_close; [exact HH|exact RA|eassumption|eassumption|lia|lia|now apply num_ang].
    - destruct ST as [|g g' st st' X ST]; [exact AC|]. now apply ag_close.
    - apply atr_close. apply ag_close; [exact AC| |exact ST]. refine (conj G1 (conj G2 (conj G3 (conj G4 (conj G5 (conj G6 _)))))). cbn [p_fill set_fill].
      eexists. split; [reflexivity|]. apply clamp_close in SC. oks.
    - apply ag_close; [exact AC| |exact ST]. refine (conj G1 (conj G2 (conj G3 (conj G4 (conj _ (conj G6 G7)))))). cbn [p_stroke set_stroke]. apply clamp_close in SC. oks.
    - apply ag_close; [exact AC| |exact ST]. refine (conj G1 (conj G2 (conj G3 (conj G4 (conj _ (conj G6 G7)))))). cbn [p_stroke set_stroke].
      apply Forall2_cons; [|constructor]. split; [now apply rgb_close|reflexivity].
    - apply ag_close; [exact AC| |exact ST]. refine (conj G1 (conj G2 (conj G3 (conj G4 (conj G5 (conj G6 _)))))). cbn [p_fill set_fill].
      eexists. split; [reflexivity|]. apply Forall2_cons; [|constructor]. split; [now apply rgb_close|reflexivity].
    - apply ag_close; [exact AC| |exact ST]. refine (conj G1 (conj G2 (conj G3 (conj G4 (conj _ (conj G6 G7)))))). cbn [p_stroke set_stroke].
      apply Forall2_cons; [|constructor]. split; [now apply cmyk_close|reflexivity].
    - apply ag_close; [exact AC| |exact ST]. refine (conj G1 (conj G2 (conj G3 (conj G4 (conj G5 (conj G6 _)))))). cbn [p_fill set_fill].
      eexists. split; [reflexivity|]. apply Forall2_cons; [|constructor]. split; [now apply cmyk_close|reflexivity].
    - apply atr_close. exact AC.
    - apply atr_close. exact AC.
    - exact AC.
    - exact AC.
    - exact AC.
    - exact AC.
    - exact AC.
    - exact AC.
    - exact AC.
    - rewrite <- CT. apply atr_close. exact AC.
    - rewrite <- CT. apply atr_close. exact AC.
    - rewrite <- CT. destruct (a_coltext F64 a); [|exact AC]. apply ag_close; [exact AC| |exact ST]. exact (conj G1 (conj G2 (conj G3 (conj G4 (conj G5 (conj G6 I)))))).
    - rewrite <- CT. destruct (a_coltext F64 a); [|exact AC]. apply ag_close; [exact AC| |exact ST]. exact (conj G1 (conj G2 (conj G3 (conj G4 (conj G5 (conj G6 I)))))).
    - rewrite <- CT. destruct (a_coltext F64 a); [|exact AC]. apply ag_close; [exact AC| |exact ST]. exact (conj G1 (conj G2 (conj G3 (conj G4 (conj G5 (conj G6 I)))))).
    - apply amark_close; [exact AC|]. apply image_close; assumption.
    - apply amark_close; [exact AC|]. repeat match goal with X : num_arg _ _ |- _ => apply num_ap in X end.
      split; [|reflexivity]. cbn [fst]. refine (conj _ (conj G2 (conj _ (conj G4 (conj _ (conj G6 _)))))); cbn [p_ctm p_lw p_stroke p_fill set_ctm set_lw set_stroke set_fill].
      + apply F2_app; [exact G1|]. apply Forall2_cons; [|constructor]. tks.
      + apply tcs_refl.
      + apply ocs_refl.
      + eexists. split; [reflexivity|]. apply ocs_refl.
    - apply ag_close; [exact AC| |exact ST]. refine (conj G1 (conj G2 (conj G3 (conj G4 (conj _ (conj G6 G7)))))). cbn [p_stroke set_stroke]. apply ocs_refl.
    - rewrite <- CT. destruct (a_coltext F64 a); [|exact AC]. apply ag_close; [exact AC| |exact ST]. exact (conj G1 (conj G2 (conj G3 (conj G4 (conj G5 (conj G6 I)))))).
  Qed.
  Lemma ask_cfg N rot i (a : asked N) c : a_cfg N (ask N rot i a c) = a_cfg N a.
  Proof. destruct c; cbn [ask]; try reflexivity; try (destruct (a_stack N a); reflexivity); destruct (a_coltext N a); reflexivity. Qed.
  Lemma asks_close i l l' : forall a b, Forall2 (same_call (a_cfg Qn b)) l l' -> aclose a b -> aclose (asks F64 rf i a l) (asks Qn rq i b l').
  Proof using RA.
    intros a b F. revert a. remember (a_cfg Qn b) as cf eqn:CF. revert b CF. induction F as [|c c' l l' X F IH]; intros b CF a A; [exact A|]. cbn [asks fold_left]. subst cf.
    apply IH; [symmetry; apply ask_cfg|]. now apply ask_close.
  Qed.
End Step.
Lemma mlike_close m a b : mlike m a -> mclose a b -> mclose m b.
Proof.
  destruct m as [g w], a as [ga wa], b as [gb wb]. intros [(A1 & A2 & A3 & A4 & A5 & A6 & A7) W] [(B1 & B2 & B3 & B4 & B5 & B6 & B7) W']. cbn [fst snd] in *. subst wa. split; [|exact W']. cbn [fst].
  unfold gclose. rewrite A1, A2, A3, A4, A5, A6. refine (conj B1 (conj B2 (conj B3 (conj B4 (conj B5 (conj B6 _)))))).
  destruct (p_fill gb) as [f'|]; [|exact I]. destruct B7 as (f & E & F). destruct A7 as [A7|A7]; [congruence|]. exists f. split; [congruence|exact F].
Qed.
(** The page of the asking side: the same unit, page height and graphics state, in exact numbers. *)
Definition page_exact (s : ds F64) (c : ucfg Qn) (H : Q) : asked Qn :=
  {| a_cfg := c; a_H := H; a_tr := s_tr F64 s; a_coltext := s_mode F64 s; a_g := pgs0; a_stack := []; a_out := [] |}.

(** ** C72 *)
Section C72.
  Variable rf : f64 -> f64 * f64. Variable rq : Q -> Q * Q. Hypothesis RA : rots_agree rf rq.
  Lemma blank_close s c H : same_cfg (s_cfg F64 s) c -> num_arg (s_pageH F64 s) H -> aclose (blank F64 s) (page_exact s c H).
  Proof.
    intros CF HH. refine (conj CF (conj (num_ap _ _ HH) (conj eq_refl (conj eq_refl (conj _ (conj _ _)))))); [|constructor|constructor].
    refine (conj _ (conj _ (conj (tcs_refl _) (conj (tcs_refl _) (conj (ocs_refl _) (conj eq_refl _)))))); [constructor|constructor|]. eexists. split; [reflexivity|apply ocs_refl].
  Qed.
  (** Any history of drawing calls with float64 arguments: what a viewer paints is what the same calls ask for in
      exact arithmetic: the same marks, in the same order, painted the same way, in the same state; and every number
      in them is printed from a float64 at most a millionth of a point from the exact one. *)
  Theorem C72_painted_as_asked_exactly (s : ds F64) (c : ucfg Qn) (H : Q) (calls : list (call F64)) (exact : list (call Qn)) (content : bytes) :
    fresh_page F64 s -> has (s_style F64 s) styUnderline = false -> same_cfg (s_cfg F64 s) c -> num_arg (s_pageH F64 s) H ->
    Forall2 (same_call c) calls exact -> Forall (sensible F64) calls -> Forall (undecorated F64) calls ->
    outcome F64 rf s calls = Some content ->
    Forall2 mclose (marks content) (a_out Qn (asks Qn rq false (page_exact s c H) exact)).
  Proof using RA.
    intros F U CF HH SC SE UD O. pose proof (C58_painted_as_asked F64 rf F64_prints s calls content F U SE UD O) as R.
    pose proof (asks_close rf rq RA false calls exact (blank F64 s) (page_exact s c H) SC (blank_close s c H CF HH)) as (_ & _ & _ & _ & _ & _ & B).
    revert B. generalize (a_out Qn (asks Qn rq false (page_exact s c H) exact)). induction R as [|m a ms as_ L R IH]; intros l B; inversion B; subst; [constructor|].
    constructor; [now apply mlike_close with a|]. now apply IH.
  Qed.
  (** Text in gray only and no current transparency while a simple shape is drawn: also the fill colours, and the
      transparency of every shape. *)
  Theorem C72_exactly_as_asked (s : ds F64) (c : ucfg Qn) (H : Q) (calls : list (call F64)) (exact : list (call Qn)) (content : bytes) :
    fresh_page F64 s -> has (s_style F64 s) styUnderline = false -> same_cfg (s_cfg F64 s) c -> num_arg (s_pageH F64 s) H ->
    Forall2 (same_call c) calls exact -> Forall (sensible F64) calls -> Forall (undecorated F64) calls ->
    s_mode F64 s = false -> Forall (no_text_colour F64) calls -> simple_opaque F64 (s_tr F64 s) calls ->
    outcome F64 rf s calls = Some content ->
    Forall2 mclose (marks content) (a_out Qn (asks Qn rq true (page_exact s c H) exact)) /\
    Forall (fun m : mark => p_fill (fst m) <> None) (a_out Qn (asks Qn rq true (page_exact s c H) exact)).
  Proof using RA.
    intros F U CF HH SC SE UD MO NT SO O. pose proof (C72_painted_as_asked_exactly s c H calls exact content F U CF HH SC SE UD O) as R.
    assert (SO' : simple_opaque Qn (a_tr Qn (page_exact s c H)) exact).
    { cbn [a_tr page_exact]. revert SO. generalize (s_tr F64 s). clear -SC. induction SC as [|a b l l' X _ IH]; intros t SO; [exact I|].
      destruct a, b; cbn [same_call] in X; try contradiction; cbn [simple_opaque] in *; try (destruct SO; split; [assumption|now apply IH]); try (apply IH; assumption); try (subst; apply IH; assumption). }
    rewrite <- (ideal_run Qn rq exact (page_exact s c H) SO'). split; [exact R|].
    assert (NT' : Forall (no_text_colour Qn) exact).
    { clear -SC NT. induction SC as [|a b l l' X _ IH]; [constructor|]. inversion NT; subst. constructor; [|now apply IH]. destruct a, b; cbn [same_call no_text_colour] in *; try contradiction; exact I. }
    assert (KN : known Qn (page_exact s c H)) by (split; [discriminate|split; [constructor|split; [constructor|exact MO]]]).
    exact (proj1 (proj2 (proj2 (known_run Qn rq false exact NT' (page_exact s c H) KN)))).
  Qed.
End C72.
(** What the agreement means to a reader of the file: the number printed is the exact one, to half a unit of its last
    decimal and a millionth. *)
Theorem C72_numbers_read (a b : tok) : tclose a b ->
  a = b \/ exists k y t q, b = TWord (nfmt Qn k y) /\ a = TWord t /\ number_val t = Some q /\ (Qabs (q - y) <= Qmake 1 (Z.to_pos (2 * 10 ^ Z.of_nat k)) + (1 # 1000000))%Q.
Proof.
  intros [E|(k & x & y & r & -> & -> & I & B)]; [now left|]. right. destruct (f64_val_is x r I) as (v & V & VR). destruct (F64_near k x v V) as (q & Q1 & Q2).
  exists k, y, (nfmt F64 k x), q. split; [reflexivity|]. split; [reflexivity|]. split; [exact Q1|]. unfold near in Q2.
  assert (D : (Qabs (v - y) <= 1 # 1000000)%Q).
  { subst r. assert (M : Q2R (1 # 1000000) = (/ 1000000)%R) by (unfold Q2R; cbn; lra). rewrite <- M in B. apply Rabs_le_inv in B as [B1 B2].
    apply Qabs_Qle_condition. split; apply Rle_Qle; rewrite ?Q2R_opp, Q2R_minus; assumption. }
  assert (E : (q - y == (q - v) + (v - y))%Q) by ring. rewrite E. eapply Qle_trans; [apply Qabs_triangle|]. now apply Qplus_le_compat.
Qed.

(** ** Concrete cases *)
(** The calls of PropPaint.v, which paint every kind of mark in millimetres, and the same in exact numbers. *)
Definition zq (v : Z) : Q := inject_Z v.
Definition qimg : imgopt Qn := Build_imgopt Qn (zq 100) (zq 50) (zq 40) (zq 30) (zq 0) false true (Some (zq 5, zq 6, zq 20, zq 10)) None [4].
Definition qcfg : ucfg Qn := Build_ucfg Qn 2 (zq 0).
Definition qcalls : list (call Qn) :=
  [SetFont Qn 0 dfont (zq 12) 0; SetLineWidth Qn (zq 2); SetLineType Qn (bs "dashed"); SetStrokeColor Qn 255 0 51; SetFillColorCMYK Qn 10 20 30 40;
   Line Qn (zq 1) (zq 2) (zq 3) (zq 4); SaveGS Qn; ClipPolygon Qn [(zq 0, zq 0); (zq 100, zq 0); (zq 50, zq 90)]; Rotate Qn (zq 30) (zq 5) (zq 5); SetTransparency Qn (Some 3);
   RectLLOpt Qn (zq 1) (zq 2) (zq 3) (zq 4) PSdrawfill None; Polygon Qn [(zq 1, zq 2); (zq 3, zq 4); (zq 5, zq 6)] (bs "F"); ClearTransparency Qn; RotateReset Qn; RestoreGS Qn;
   Text Qn (bs "hello"); Cell Qn None (bs "there"); RectUL Qn (zq 1) (zq 2) (zq 3) (zq 4); Oval Qn (zq 10) (zq 10) (zq 30) (zq 20);
   Curve Qn (zq 1) (zq 1) (zq 2) (zq 2) (zq 3) (zq 2) (zq 4) (zq 1) (bs "FD"); SetCustomLineType Qn [zq 1; zq 2] (zq 0); Image Qn 7 qimg; Template Qn (bs "/TPL0") (zq 1) (zq 1) (zq 0) (zq 0);
   ColorSpace Qn 0; Line Qn (zq 1) (zq 2) (zq 3) (zq 4)].
Lemma z_is v : (Z.abs v <= 1000) -> is64 (z v) (Q2R (zq v)). Proof. intros L. unfold zq. rewrite Q2R_Z. apply ofZ_is. lia. Qed.
Lemma z_num v : Z.abs v <= 1000 -> num_arg (z v) (zq v).
Proof. intros L. split; [now apply z_is|]. unfold zq. rewrite Q2R_Z, <- abs_IZR. apply IZR_le. lia. Qed.
Lemma z_pts v : Z.abs v <= 1000 -> pts_arg (z v) (zq v).
Proof.
  intros L. destruct (z_num v L) as [A B]. exists (Q2R (zq v)). split; [exact A|]. split; [|exact B]. replace (Q2R (zq v) - Q2R (zq v))%R with 0%R by ring. rewrite Rabs_R0.
  apply Rlt_le, Rinv_0_lt_compat. apply IZR_lt. lia.
Qed.
Lemma z_len v : Z.abs v <= 1000 -> len_arg qcfg (z v) (zq v).
Proof.
  intros L. split; [now apply z_is|]. replace (unitsToPoints Qn qcfg (zq v)) with (zq v * (inject_Z 360 / inject_Z 127))%Q by reflexivity.
  rewrite Q2R_mult. unfold zq. rewrite Q2R_Z, Rabs_mult, <- abs_IZR. replace (Q2R (inject_Z 360 / inject_Z 127)) with (360 / 127)%R by (unfold Q2R; cbn; lra).
  rewrite (Rabs_pos_eq (360 / 127)) by lra. apply IZR_le in L. replace (IZR (2 ^ 20)) with 1048576%R by reflexivity. lra.
Qed.
Lemma norot_agree : rots_agree (norot F64) (norot Qn).
Proof. intros x r q _ _ _. split; cbn [norot fst snd]; [exact (z_pts 1 ltac:(lia))|exact (z_pts 0 ltac:(lia))]. Qed.
Ltac same := first [reflexivity | exact I | assumption | apply z_len; vm_compute; congruence | apply z_num; vm_compute; congruence | apply z_pts; vm_compute; congruence
  | (split; [reflexivity|lia])].
Lemma qcalls_same : Forall2 (same_call qcfg) pcalls qcalls.
Proof.
  unfold pcalls, qcalls. repeat (apply Forall2_cons); try apply Forall2_nil; cbn [same_call];
    repeat match goal with |- _ /\ _ => split end; try same;
    try (repeat (apply Forall2_cons; [first [same | split; cbn [fst snd]; same]|]); apply Forall2_nil).
  all: try (split; cbn [fst snd]; same).
  unfold img_arg, pimg, qimg. cbn [io_x io_y io_w io_h io_angle io_v io_hf io_crop io_mask io_gs]. repeat match goal with |- _ /\ _ => split end; same.
Qed.
Lemma qcfg_same : same_cfg (s_cfg F64 ppage) qcfg.
Proof. split; [reflexivity|]. split; [apply (z_is 0); lia|]. left. reflexivity. Qed.
(** All hypotheses are met, and the ninth mark is the last line, under no transformation, to a millionth of a point. *)
Example C72_met : Forall2 mclose (marks pcontent) (a_out Qn (asks Qn (norot Qn) true (page_exact ppage qcfg (zq 800)) qcalls)) /\
  Forall (fun m : mark => p_fill (fst m) <> None) (a_out Qn (asks Qn (norot Qn) true (page_exact ppage qcfg (zq 800)) qcalls)).
Proof.
  destruct pcalls_met as (A & B & C & D & E & F & G).
  exact (C72_exactly_as_asked (norot F64) (norot Qn) norot_agree ppage qcfg (zq 800) pcalls qcalls pcontent A B qcfg_same (z_num 800 ltac:(lia)) qcalls_same C D E F G pcontent_ok).
Qed.
Print Assumptions C72_painted_as_asked_exactly.
Print Assumptions C72_exactly_as_asked.
Print Assumptions C72_numbers_read.
