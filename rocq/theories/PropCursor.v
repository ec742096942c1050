(** PropCursor.v — C73: the position (GetX, GetY) moves by what was drawn, and by nothing else. *)
From Coq Require Import QArith Lqa.
From Verif Require Import Base StrModel NumModel UnitModel DrawModel DrawSpec DrawLex DrawNest DrawView PropDraw PropText CursorModel.
Local Open Scope Q_scope.

(** ** Specification *)
(** A length of a rectangle, in the document's unit: the rectangle may carry its own unit (Rect.UnitOverride). *)
Definition rect_len (c : ucfg Qn) (r : rect Qn) (v : Q) : Q :=
  if (u_unit (r_over Qn r) =? 0)%Z then v else pointsToUnits Qn c (unitsToPoints Qn (r_over Qn r) v).
(** Where a cell leaves the position (CellOption.Float): to its right (Right, or nothing given), below it
    (Bottom), both, or where it was. *)
Definition to_right (fl : Z) : bool := (fl =? 0)%Z || has fl oRight.
Definition below (fl : Z) : bool := has fl oBottom.
Definition moved (s s' : ds Qn) (dx dy : Q) : Prop := posX Qn s' == posX Qn s + dx /\ posY Qn s' == posY Qn s + dy.
(** What each call does to the position, in the document's unit. *)
Definition moves (s : ds Qn) (c : call Qn) (s' : ds Qn) : Prop :=
  match c with
  | SetX _ x => posX Qn s' == x /\ posY Qn s' == posY Qn s
  | SetY _ y => posX Qn s' == posX Qn s /\ posY Qn s' == y
  | SetXY _ x y => posX Qn s' == x /\ posY Qn s' == y
  | Br _ h => posX Qn s' == leftMargin Qn s /\ posY Qn s' == posY Qn s + h
  | Text _ t => exists w, measureTextWidth Qn s t = Some w /\ moved s s' w 0
  | Cell _ None t => exists w, measureTextWidth Qn s t = Some w /\ moved s s' w 0
  | Cell _ (Some r) t => moved s s' (rect_len (s_cfg Qn s) r (r_w Qn r)) 0
  | CellOpt _ None t o _ => exists w h, measureTextWidth Qn s t = Some w /\ measureCellHeight Qn s t = Some h /\
      moved s s' (if to_right (o_float Qn o) then w else 0) (if below (o_float Qn o) then h else 0)
  | CellOpt _ (Some r) t o _ =>
      moved s s' (if to_right (o_float Qn o) then rect_len (s_cfg Qn s) r (r_w Qn r) else 0)
                 (if below (o_float Qn o) then rect_len (s_cfg Qn s) r (r_h Qn r) else 0)
  | PlaceHolder _ w => moved s s' w 0
  | _ => moved s s' 0 0
  end.

(** Histories: the next text may be joined to the last one ([glued]) when nothing was drawn and no SetX or SetXY
    was called in between. *)
Definition glue (g : bool) (c : call Qn) : bool :=
  match c with
  | Text _ _ | Cell _ None _ | CellOpt _ None _ _ _ => true
  | Cell _ _ _ | CellOpt _ _ _ _ _ | SetX _ _ | SetXY _ _ _ | PlaceHolder _ _ => false
  | SetLineWidth _ _ | SetLineType _ _ | SetCustomLineType _ _ _ | SetGrayFill _ _ | SetGrayStroke _ _ | SetStrokeColor _ _ _ _ | SetFillColor _ _ _ _
  | SetStrokeColorCMYK _ _ _ _ _ | SetFillColorCMYK _ _ _ _ _ | Template _ _ _ _ _ _ | ColorSpace _ _ => false
  | _ => if draws Qn c then false else g
  end.
(** Br, and a cell without rectangle after which the position is not at its right end, are followed by SetX or
    SetXY; a cell with a rectangle does not directly continue a text. *)
Fixpoint tidy (g : bool) (l : list (call Qn)) : Prop :=
  match l with
  | [] => True
  | c :: r =>
      match c with
      | Br _ _ => r = [] \/ setsX Qn r
      | Cell _ (Some _) _ | CellOpt _ (Some _) _ _ _ => g = false
      | CellOpt _ None _ o _ => if to_right (o_float Qn o) && negb (below (o_float Qn o)) then True else g = false /\ (r = [] \/ setsX Qn r)
      | _ => True
      end /\ tidy (glue g c) r
  end.
(** Fonts added without kerning. *)
Definition unkerned (l : list (call Qn)) : Prop := forall n f size st, In (SetFont Qn n f size st) l -> fv_useKern f = false.

(** ** Arithmetic *)
Definition conv (c : ucfg Qn) : Q := if Qeq_bool (u_conv c) 0 then match factor Qn (u_unit c) with Some k => k | None => 1 end else u_conv c.
Lemma conv_nz c : ~ conv c == 0.
Proof.
  unfold conv. destruct (Qeq_bool (u_conv c) 0) eqn:E; [|intros H; apply Qeq_bool_iff in H; congruence].
  unfold factor. repeat (match goal with |- context [if ?b then _ else _] => destruct b end; [discriminate|]). discriminate.
Qed.
Lemma p2u_conv c (x : Q) : pointsToUnits Qn c x == x / conv c.
Proof.
  unfold pointsToUnits, conv. cbn [neq Qn nofZ nZ]. unfold nZ. cbn [nofZ Qn]. change (inject_Z 0) with 0. destruct (Qeq_bool (u_conv c) 0); cbn [negb ndiv Qn]; [|reflexivity].
  destruct (factor Qn (u_unit c)); [reflexivity|]. field.
Qed.
Lemma u2p_conv c (x : Q) : unitsToPoints Qn c x == x * conv c.
Proof.
  unfold unitsToPoints, conv. unfold nZ. cbn [neq Qn nofZ]. change (inject_Z 0) with 0. destruct (Qeq_bool (u_conv c) 0); cbn [negb nmul Qn]; [|reflexivity].
  destruct (factor Qn (u_unit c)); [reflexivity|]. ring.
Qed.
Lemma p2u_add c (x y : Q) : pointsToUnits Qn c (x + y) == pointsToUnits Qn c x + pointsToUnits Qn c y.
Proof. rewrite !p2u_conv. unfold Qdiv. ring. Qed.
Lemma p2u_ext c (x y : Q) : x == y -> pointsToUnits Qn c x == pointsToUnits Qn c y.
Proof. intros E. rewrite !p2u_conv, E. reflexivity. Qed.
Lemma p2u_u2p c (x : Q) : pointsToUnits Qn c (unitsToPoints Qn c x) == x.
Proof. rewrite p2u_conv, u2p_conv. field. apply conv_nz. Qed.

(** ** Widths *)
Lemma trunc_ext x y : x == y -> ntrunc Qn x = ntrunc Qn y.
Proof.
  destruct x as [a b], y as [c d]. unfold Qeq. cbn [Qnum Qden ntrunc Qn]. intros E.
  rewrite <- (Z.quot_mul_cancel_r a (Zpos b) (Zpos d)) by lia. rewrite <- (Z.quot_mul_cancel_r c (Zpos d) (Zpos b)) by lia.
  rewrite E. f_equal. lia.
Qed.
Lemma sumWidth_ext f size cs size' cs' : size == size' -> cs == cs' -> forall txt first lr lg, sumWidth Qn f size cs first lr lg txt = sumWidth Qn f size' cs' first lr lg txt.
Proof.
  intros S C. assert (E : ntrunc Qn (nmul Qn (ndiv Qn (nofZ Qn (fv_upem f)) size) cs) = ntrunc Qn (nmul Qn (ndiv Qn (nofZ Qn (fv_upem f)) size') cs')).
  { apply trunc_ext. cbn [nmul ndiv nofZ Qn]. rewrite S, C. reflexivity. }
  induction txt as [|r t IH]; intros; [reflexivity|]. cbn [sumWidth]. destruct (fv_ci f r); [|apply IH]. cbv zeta. rewrite E. rewrite IH. reflexivity.
Qed.
Lemma sumWidth_unkerned f size cs : fv_useKern f = false -> forall txt first lr lg first' lr' lg', sumWidth Qn f size cs first lr lg txt = sumWidth Qn f size cs first' lr' lg' txt.
Proof.
  intros U. induction txt as [|r t IH]; intros; [reflexivity|]. cbn [sumWidth]. destruct (fv_ci f r); [|apply IH]. cbv zeta. rewrite U, !andb_false_r. reflexivity.
Qed.
Lemma sumWidth_app f size cs : fv_useKern f = false -> forall a b first lr lg z, sumWidth Qn f size cs first lr lg (a ++ b) = Some z ->
  exists x y, sumWidth Qn f size cs first lr lg a = Some x /\ sumWidth Qn f size cs true 0 0 b = Some y /\ (z = x + y)%Z.
Proof.
  intros U. induction a as [|r t IH]; intros b first lr lg z H; cbn [app] in H.
  - exists 0%Z, z. split; [reflexivity|]. split; [|lia]. rewrite <- H. now apply sumWidth_unkerned.
  - cbn [sumWidth] in *. destruct (fv_ci f r); [|now apply IH]. cbv zeta in *. destruct (fv_cw f r); [|discriminate].
    destruct (sumWidth Qn f size cs false r z0 (t ++ b)) as [z2|] eqn:E; [|discriminate]. apply IH in E as (x & y & -> & -> & ->). injection H as <-.
    eexists. eexists. split; [reflexivity|]. split; [reflexivity|]. rewrite Z.add_assoc. reflexivity.
Qed.
Lemma content_app f size cs a b cw ch tw cwa cha twa size' cs' : fv_useKern f = false -> size == size' -> cs == cs' ->
  createContent Qn f (a ++ b) size cs None = Some (cw, ch, tw) -> createContent Qn f a size cs None = Some (cwa, cha, twa) ->
  exists cwb chb, createContent Qn f b size' cs' None = Some (cwb, chb, cwb) /\ cw == cwa + cwb.
Proof.
  intros U S C. unfold createContent. destruct (fv_upem f =? 0)%Z; [discriminate|].
  destruct (sumWidth Qn f size cs true 0 0 (a ++ b)) as [z|] eqn:E; [|discriminate]. apply sumWidth_app in E as (x & y & E1 & E2 & ->); [|exact U].
  rewrite E1. rewrite (sumWidth_ext f size cs size' cs' S C) in E2. rewrite E2. intros [= <- _ _] [= <- _ _]. eexists. eexists. split; [reflexivity|].
  cbn [nmul ndiv nofZ Qn]. rewrite <- S. rewrite inject_Z_plus. unfold Qdiv. ring.
Qed.
Lemma content_nil f size cs txt cw ch tw : createContent Qn f txt size cs None = Some (cw, ch, tw) -> tw = cw.
Proof. unfold createContent. destruct (_ =? _)%Z; [discriminate|]. destruct (sumWidth _ _ _ _ _ _ _ _); [|discriminate]. now intros [= <- _ <-]. Qed.
Lemma content_rect f size cs txt rw rh cw ch tw : createContent Qn f txt size cs (Some (rw, rh)) = Some (cw, ch, tw) -> cw = rw /\ ch = rh.
Proof. unfold createContent. destruct (_ =? _)%Z; [discriminate|]. destruct (sumWidth _ _ _ _ _ _ _ _); [|discriminate]. now intros [= <- <- _]. Qed.

(** ** The invariant *)
Definition plain_fl (fl : Z) : bool := to_right fl && negb (below fl).
Section Inv.
  Variable ft : Z -> fontv.
  Definition open (s : ds Qn) (c : ctext Qn) : Prop := (exists pre, s_caches Qn s = pre ++ [CText Qn c]) /\ c_rect Qn c = None /\ c_ph Qn c = false.
  Definition wk (s : ds Qn) : Prop :=
    (forall n f, s_font Qn s = Some (n, f) -> f = ft n) /\
    forall c, open s c -> (c_setx Qn c <= s_setx Qn s)%Z /\ c_font Qn c = ft (c_fci Qn c - 1)%Z /\
      exists tw, createContent Qn (c_font Qn c) (c_text Qn c) (c_size Qn c) (c_cs Qn c) None = Some (c_cw Qn c, c_ch Qn c, tw).
  Definition good (g : bool) (s : ds Qn) : Prop :=
    forall c, open s c -> c_setx Qn c = s_setx Qn s -> g = true /\ plain_fl (o_float Qn (c_opt Qn c)) = true /\ s_x Qn s == c_x Qn c + c_cw Qn c.

  (** What a text call does: joined to the last text, or on its own. *)
  Lemma text_cases g s rp cell o txt s' : (cell = false -> o_float Qn o = 0%Z) -> wk s -> good g s -> drawText Qn s rp cell o txt = Some s' ->
    exists n f, s_font Qn s = Some (n, f) /\ s_cfg Qn s' = s_cfg Qn s /\ s_font Qn s' = s_font Qn s /\ s_setx Qn s' = s_setx Qn s /\
    ((exists c' cw ch tw, s_caches Qn s' = s_caches Qn s ++ [CText Qn c'] /\ createContent Qn f (fv_add f txt) (s_size Qn s) (s_cs Qn s) rp = Some (cw, ch, tw) /\
       c' = setText Qn (mkText Qn s n f rp cell false o) (fv_add f txt) (cw, ch, tw) /\
       s_x Qn s' = (if to_right (o_float Qn o) then nadd Qn (s_x Qn s) cw else s_x Qn s) /\ s_y Qn s' = (if below (o_float Qn o) then nadd Qn (s_y Qn s) ch else s_y Qn s)) \/
     (g = true /\ exists pre c cw ch tw, s_caches Qn s = pre ++ [CText Qn c] /\ open s c /\ c_setx Qn c = s_setx Qn s /\ c_font Qn c = f /\
       s_caches Qn s' = pre ++ [CText Qn (setText Qn c (c_text Qn c ++ fv_add f txt) (cw, ch, tw))] /\ c_size Qn c == s_size Qn s /\ c_cs Qn c == s_cs Qn s /\
       createContent Qn f (c_text Qn c ++ fv_add f txt) (c_size Qn c) (c_cs Qn c) None = Some (cw, ch, tw) /\
       s_x Qn s' = nadd Qn (c_x Qn c) cw /\ s_y Qn s' = s_y Qn s)).
  Proof.
    intros FL (FN & WK) GD H. unfold drawText in H. destruct (s_font Qn s) as [[n f]|] eqn:FT; [|discriminate]. exists n, f.
    destruct (appendContentText Qn (s_caches Qn s) (mkText Qn s n f rp cell false o) (fv_add f txt)) as [[[l x] y]|] eqn:A; [|discriminate]. injection H as <-.
    split; [reflexivity|]. split; [reflexivity|]. split; [exact FT|]. split; [reflexivity|]. cbn [s_caches s_x s_y withxy withc].
    unfold appendContentText in A. set (nt := mkText Qn s n f rp cell false o) in *.
    assert (D : (exists pre c, s_caches Qn s = pre ++ [CText Qn c] /\ isSame Qn c nt = true /\
                   match splitLast Qn (s_caches Qn s) with (pre, Some (CText _ c)) => if isSame Qn c nt then (pre, c) else (s_caches Qn s, nt) | _ => (s_caches Qn s, nt) end = (pre, c)) \/
                match splitLast Qn (s_caches Qn s) with (pre, Some (CText _ c)) => if isSame Qn c nt then (pre, c) else (s_caches Qn s, nt) | _ => (s_caches Qn s, nt) end = (s_caches Qn s, nt)).
    { destruct (splitLast Qn (s_caches Qn s)) as [pre [c|]] eqn:SL; [|now right]. apply (splitLast_app Qn) in SL. destruct c; try (now right).
      destruct (isSame Qn c nt) eqn:IS; [|now right]. left. exists pre, c. auto. }
    destruct D as [(pre & c & SC & IS & E)|E]; rewrite E in A; clear E.
    - unfold isSame in IS. destruct (c_rect Qn c) as [|] eqn:CR; [discriminate|]. apply andb_true_iff in IS as [IS I9]. apply andb_true_iff in IS as [IS I8].
      apply andb_true_iff in IS as [IS I7]. apply andb_true_iff in IS as [IS I6]. apply andb_true_iff in IS as [IS I5]. apply andb_true_iff in IS as [IS I4]. apply andb_true_iff in IS as [IS I3].
      cbn [nt mkText c_setx c_fci c_ph c_size c_cs] in *. apply Z.eqb_eq in I3, I7. apply Qeq_bool_eq in I4, I6. apply eqb_prop in I9.
      assert (O : open s c) by (split; [now exists pre|]; split; assumption). destruct (WK c O) as (_ & FC & _). rewrite I3 in FC. replace (n + 1 - 1)%Z with n in FC by lia.
      rewrite <- (FN n f eq_refl) in FC. destruct (GD c O I7) as (-> & PL & SX). right. split; [reflexivity|]. rewrite ?CR, FC in A.
      destruct (createContent Qn f (c_text Qn c ++ fv_add f txt) (c_size Qn c) (c_cs Qn c) None) as [[[cw ch] tw]|] eqn:CC; [|discriminate]. injection A as <- <- <-.
      exists pre, c, cw, ch, tw. cbn [setText c_opt c_x c_cw c_y c_ch c_cell]. unfold plain_fl, to_right, below in PL. apply andb_true_iff in PL as [PL1 PL2]. rewrite PL1. apply negb_true_iff in PL2. rewrite PL2.
      repeat (split; [first [reflexivity|assumption]|]). reflexivity.
    - left. cbn [nt mkText c_text c_font c_size c_cs c_rect app] in A.
      destruct (createContent Qn f (fv_add f txt) (s_size Qn s) (s_cs Qn s) rp) as [[[cw ch] tw]|] eqn:CC; [|discriminate]. injection A as <- <- <-.
      eexists. exists cw, ch, tw. split; [reflexivity|]. split; [reflexivity|]. split; [reflexivity|]. cbn [setText c_opt c_x c_cw c_y c_ch c_cell]. split; [|reflexivity].
      unfold to_right. destruct cell; cbn [negb]; [now rewrite orb_false_r|]. rewrite (FL eq_refl). reflexivity.
  Qed.
  Lemma snoc_text (l : list (cache Qn)) c pre c1 : l ++ [CText Qn c] = pre ++ [CText Qn c1] -> c1 = c.
  Proof. intros E. apply app_inj_tail in E as [_ E]. now injection E. Qed.
  Lemma text_inv g s rp cell o txt s' : (cell = false -> o_float Qn o = 0%Z) -> wk s -> good g s -> drawText Qn s rp cell o txt = Some s' ->
    wk s' /\ (rp <> None -> good false s' \/ g = true) /\ (rp = None -> plain_fl (o_float Qn o) = true -> good true s').
  Proof.
    intros FL WK GD H. destruct (text_cases g s rp cell o txt s' FL WK GD H) as (n & f & FT & CF & FS & SX & D). destruct WK as [FN WK]. destruct D as [(c' & cw & ch & tw & SC & CC & -> & X & Y)|(-> & pre & c & cw & ch & tw & SC & O & XC & FC & SC' & S1 & S2 & CC & X & Y)].
    - assert (W : wk s').
      { split; [rewrite FS; exact FN|]. intros c1 ((pre & P) & R & _). rewrite SC in P. apply snoc_text in P. subst c1. cbn [setText mkText c_rect c_setx c_font c_fci c_text c_size c_cs c_cw c_ch] in *.
        split; [lia|]. split; [replace (n + 1 - 1)%Z with n by lia; now apply FN|]. subst rp. exists tw. exact CC. }
      split; [exact W|]. split.
      + intros RP. left. intros c1 ((pre & P) & R & _). rewrite SC in P. apply snoc_text in P. subst c1. cbn [setText mkText c_rect] in R. contradiction.
      + intros -> PL c1 ((pre & P) & R & _) _. rewrite SC in P. apply snoc_text in P. subst c1. cbn [setText mkText c_opt c_x c_cw]. split; [reflexivity|]. split; [exact PL|].
        rewrite X. unfold plain_fl in PL. apply andb_true_iff in PL as [-> _]. reflexivity.
    - assert (W : wk s').
      { split; [rewrite FS; exact FN|]. intros c1 ((p1 & P) & _). rewrite SC' in P. apply snoc_text in P. subst c1. cbn [setText c_rect c_setx c_font c_fci c_text c_size c_cs c_cw c_ch].
        destruct (WK c O) as (_ & B & _). split; [lia|]. split; [exact B|]. exists tw. rewrite FC. exact CC. }
      split; [exact W|]. split; [now right|]. intros _ _ c1 ((p1 & P) & _) _. rewrite SC' in P. apply snoc_text in P. subst c1. cbn [setText c_opt c_x c_cw].
      destruct (GD c O XC) as (_ & PL & _). split; [reflexivity|]. split; [exact PL|]. rewrite X. reflexivity.
  Qed.
  Lemma wk_same s s' : wk s -> s_caches Qn s' = s_caches Qn s -> (s_setx Qn s <= s_setx Qn s')%Z -> (forall n f, s_font Qn s' = Some (n, f) -> f = ft n) -> wk s'.
  Proof. intros [A B] E X F. split; [exact F|]. intros c ((pre & P) & R). rewrite E in P. destruct (B c) as (C1 & C2); [split; [now exists pre|exact R]|]. split; [lia|exact C2]. Qed.
  Lemma good_same g s s' : good g s -> s_caches Qn s' = s_caches Qn s -> s_setx Qn s' = s_setx Qn s -> s_x Qn s' = s_x Qn s -> good g s'.
  Proof. intros G E X P c ((pre & O1) & O2) SX. rewrite E in O1. rewrite P. apply G; [split; [now exists pre|exact O2]|congruence]. Qed.
  Lemma good_moved g s s' : wk s -> s_caches Qn s' = s_caches Qn s -> (s_setx Qn s < s_setx Qn s')%Z -> good g s'.
  Proof. intros [_ W] E X c ((pre & O1) & O2) SX. rewrite E in O1. destruct (W c) as (B & _); [split; [now exists pre|exact O2]|]. lia. Qed.
  Lemma shape_inv g s s' cc : wk s -> s_caches Qn s' = s_caches Qn s ++ [cc] -> (forall t, cc = CText Qn t -> c_ph Qn t = true) -> s_font Qn s' = s_font Qn s -> wk s' /\ good g s'.
  Proof.
    intros [A B] E NT F. assert (V : forall c, ~ open s' c).
    { intros c ((pre & P) & _ & PH). rewrite E in P. apply app_inj_tail in P as [_ P]. rewrite (NT c P) in PH. discriminate. }
    split; [split; [rewrite F; exact A|]|]; intros c O; now contradiction (V c).
  Qed.

  Definition ends (l : list (call Qn)) : Prop := l = [] \/ setsX Qn l.
  Lemma setsX_not c l : setsX Qn (c :: l) -> match c with SetX _ _ | SetXY _ _ _ => True | _ => False end.
  Proof. destruct c; cbn; auto. Qed.
  Definition joint (l : list (call Qn)) : bool := fold_left glue l false.

  Lemma histories l : forall g s s' rest, fonts_named Qn ft (l ++ rest) -> tidy g (l ++ rest) -> wk s -> (good g s \/ ends (l ++ rest)) -> run Qn s l = Some s' ->
    wk s' /\ tidy (fold_left glue l g) rest /\ (good (fold_left glue l g) s' \/ ends rest).
  Proof.
    induction l as [|c l IH]; intros g s s' rest FN TD WK GD R; [cbn in *; injection R as <-; auto|].
    cbn [run] in R. destruct (step Qn s c) as [s1|] eqn:ST; [|discriminate]. cbn [app tidy] in TD. destruct TD as [T1 TD]. cbn [fold_left].
    assert (FN' : fonts_named Qn ft (l ++ rest)) by (intros n f size st H; apply (FN n f size st); now right).
    apply (IH _ s1 s' rest FN' TD); [| |exact R]; clear IH R TD FN'.
    - pose proof WK as [F0 _].
      destruct c; cbn [step] in ST; try (injection ST as <-; first
        [ eapply (shape_inv g s _ _ WK); [reflexivity|discriminate|reflexivity]
        | eapply wk_same; [exact WK|reflexivity|cbn; lia|first [exact F0|cbn; intros ? ? [= <- <-]; eapply FN; left; reflexivity]] ]).
      + destruct GD as [GD|[GD|GD]]; [|discriminate|destruct GD]. eapply text_inv; [|exact WK|exact GD|exact ST]. reflexivity.
      + destruct GD as [GD|[GD|GD]]; [|discriminate|destruct GD]. eapply text_inv; [|exact WK|exact GD|exact ST]. discriminate.
      + destruct GD as [GD|[GD|GD]]; [|discriminate|destruct GD]. eapply text_inv; [|exact WK|exact GD|exact ST]. discriminate.
      + destruct (s_font Qn s) as [[fc f]|] eqn:FT; [|discriminate]. injection ST as <-. eapply (shape_inv g s _ _ WK); [reflexivity|intros t [= <-]; reflexivity|reflexivity].
    - destruct c; cbn [step] in ST; try (injection ST as <-; left; first
        [ eapply (shape_inv _ s _ _ WK); [reflexivity|discriminate|reflexivity]
        | (destruct GD as [GD|[GD|GD]]; [|discriminate|destruct GD]; eapply good_same; [exact GD|reflexivity|reflexivity|reflexivity])
        | (eapply good_moved; [exact WK|reflexivity|cbn; lia]) ]).
      + (* Br *) right. exact T1.
      + (* Text *) left. destruct GD as [GD|[GD|GD]]; [|discriminate|destruct GD]. eapply text_inv; [|exact WK|exact GD|exact ST|reflexivity|reflexivity]. reflexivity.
      + (* Cell *) left. destruct GD as [GD|[GD|GD]]; [|discriminate|destruct GD]. destruct r as [r|].
        * subst g. destruct (text_inv false s _ true _ txt s1 ltac:(discriminate) WK GD ST) as (_ & A & _). destruct (A ltac:(discriminate)) as [B|B]; [exact B|discriminate].
        * eapply text_inv; [|exact WK|exact GD|exact ST|reflexivity|reflexivity]. discriminate.
      + (* CellOpt *) destruct GD as [GD|[GD|GD]]; [|discriminate|destruct GD]. destruct r as [r|].
        * left. subst g. destruct (text_inv false s _ true _ txt s1 ltac:(discriminate) WK GD ST) as (_ & A & _). destruct (A ltac:(discriminate)) as [B|B]; [exact B|discriminate].
        * destruct (to_right (o_float Qn o) && negb (below (o_float Qn o))) eqn:PL; [|right; apply T1]. left. eapply text_inv; [|exact WK|exact GD|exact ST|reflexivity|exact PL]. discriminate.
      + (* PlaceHolder *) destruct (s_font Qn s) as [[fc f]|] eqn:FT; [|discriminate]. injection ST as <-. left. eapply (shape_inv _ s _ _ WK); [reflexivity|intros t [= <-]; reflexivity|reflexivity].
  Qed.
End Inv.

(** ** C73 *)
(** After any tidy history on a page, every call that succeeds moves the position exactly as [moves] says: text and
    cells by the width MeasureTextWidth reports (or the cell's rectangle), Br to the left margin and down, SetX, SetY
    and SetXY to the place given, everything else not at all.  Three restrictions, each shown necessary below: a
    text that is joined to the one before it moves by its own width only in fonts without kerning; rectangles follow
    the document's unit only without Config.ConversionForUnit (C19); a placeholder moves by its width only when the
    unit is the point. *)
Theorem C73_position_moves_by_what_is_drawn_partial :
  forall (ft : Z -> fontv) (s0 s s' : ds Qn) (calls : list (call Qn)) (c : call Qn),
    s_caches Qn s0 = [] -> (forall n f, s_font Qn s0 = Some (n, f) -> f = ft n) ->
    fonts_named Qn ft (calls ++ [c]) -> tidy false (calls ++ [c]) ->
    run Qn s0 calls = Some s -> step Qn s c = Some s' ->
    match c with
    | Text _ _ | Cell _ None _ | CellOpt _ None _ _ _ => joint calls = false \/ forall n, fv_useKern (ft n) = false
    | Cell _ (Some r) _ | CellOpt _ (Some r) _ _ _ => u_unit (r_over Qn r) <> 0%Z \/ u_conv (s_cfg Qn s0) == 0
    | PlaceHolder _ _ => pointsToUnits Qn (s_cfg Qn s0) 1 == 1
    | _ => True
    end ->
    moves s c s'.
Proof.
  intros ft s0 s s' calls c E0 F0 FN TD R ST CND.
  assert (CF : s_cfg Qn s = s_cfg Qn s0).
  { clear - R. revert s0 R. induction calls as [|c l IH]; intros s0 R; cbn [run] in R; [now injection R as <-|]. destruct (step Qn s0 c) as [s1|] eqn:ST; [|discriminate].
    rewrite (IH s1 R). clear - ST. assert (D : forall rp cell o txt, drawText Qn s0 rp cell o txt = Some s1 -> s_cfg Qn s1 = s_cfg Qn s0).
    { intros *. unfold drawText. destruct (s_font Qn s0) as [[n f]|]; [|discriminate]. destruct (appendContentText _ _ _ _) as [[[? ?] ?]|]; [|discriminate]. now intros [= <-]. }
    destruct c; cbn [step] in ST; try (injection ST as <-; reflexivity); try (eapply D; exact ST).
    destruct (s_font Qn s0) as [[n f]|]; [|discriminate]. now injection ST as <-. }
  assert (W0 : wk ft s0) by (split; [exact F0|]; intros c0 ((pre & P) & _); rewrite E0 in P; destruct pre; discriminate).
  assert (G0 : good false s0) by (intros c0 ((pre & P) & _); rewrite E0 in P; destruct pre; discriminate).
  destruct (histories ft calls false s0 s [c] FN TD W0 (or_introl G0) R) as (WK & TD' & GD). fold (joint calls) in *.
  assert (Z0 : forall x : Q, x == x + 0) by (intros; ring).
  assert (STAY : forall s1, s_cfg Qn s1 = s_cfg Qn s -> s_x Qn s1 = s_x Qn s -> s_y Qn s1 = s_y Qn s -> moved s s1 0 0).
  { intros s1 A B C. unfold moved, posX, posY. rewrite A, B, C. split; apply Z0. }
  assert (TEXT : forall rp cell o txt, (cell = false -> o_float Qn o = 0%Z) -> good (joint calls) s -> drawText Qn s rp cell o txt = Some s' ->
     (rp = None -> plain_fl (o_float Qn o) = true \/ joint calls = false) -> (rp <> None -> joint calls = false) -> (rp = None -> joint calls = false \/ forall n, fv_useKern (ft n) = false) ->
     exists n f cw ch tw, s_font Qn s = Some (n, f) /\ createContent Qn f (fv_add f txt) (s_size Qn s) (s_cs Qn s) rp = Some (cw, ch, tw) /\
       moved s s' (if to_right (o_float Qn o) then pointsToUnits Qn (s_cfg Qn s) cw else 0) (if below (o_float Qn o) then pointsToUnits Qn (s_cfg Qn s) ch else 0)).
  { intros rp cell o txt FL GJ DT PL NG KN. destruct (text_cases ft (joint calls) s rp cell o txt s' FL WK GJ DT) as (n & f & FT & CF' & _ & _ & D).
    destruct D as [(c' & cw & ch & tw & SC & CC & _ & X & Y)|(G & pre & c1 & cw & ch & tw & SC & O & XC & FC & SC' & S1 & S2 & CC & X & Y)].
    - exists n, f, cw, ch, tw. split; [exact FT|]. split; [exact CC|]. unfold moved, posX, posY. rewrite CF', X, Y. split.
      + destruct (to_right (o_float Qn o)); [apply p2u_add|apply Z0].
      + destruct (below (o_float Qn o)); [apply p2u_add|apply Z0].
    - destruct rp as [|]; [rewrite NG in G by discriminate; discriminate|]. destruct (PL eq_refl) as [P|P]; [|congruence]. destruct (KN eq_refl) as [K|K]; [congruence|].
      destruct WK as [FN' WK]. destruct (WK c1 O) as (_ & _ & tw1 & C1). rewrite FC in C1.
      destruct (content_app f _ _ (c_text Qn c1) (fv_add f txt) cw ch tw _ _ _ (s_size Qn s) (s_cs Qn s) ltac:(rewrite (FN' n f FT); apply K) S1 S2 CC C1) as (cwb & chb & CB & EQ).
      exists n, f, cwb, chb, cwb. split; [exact FT|]. split; [exact CB|]. unfold plain_fl in P. apply andb_true_iff in P as [-> P2]. apply negb_true_iff in P2. rewrite P2.
      destruct (GJ c1 O XC) as (_ & _ & SX). unfold moved, posX, posY. rewrite CF', X, Y. split; [|apply Z0].
      rewrite <- p2u_add. apply p2u_ext. change (nadd Qn (c_x Qn c1) cw) with (c_x Qn c1 + cw). rewrite EQ, SX. ring. }
  cbn [tidy] in TD'. destruct TD' as [T1 _].
  assert (GC : match c with SetX _ _ | SetXY _ _ _ => True | _ => good (joint calls) s end).
  { destruct GD as [GD|[GD|GD]]; [destruct c; auto|discriminate|]. destruct c; cbn in GD; try contradiction; exact I. }
  assert (MW : forall txt n f cw ch tw, s_font Qn s = Some (n, f) -> createContent Qn f (fv_add f txt) (s_size Qn s) (s_cs Qn s) None = Some (cw, ch, tw) ->
     measureTextWidth Qn s txt = Some (pointsToUnits Qn (s_cfg Qn s) cw) /\ measureCellHeight Qn s txt = Some (pointsToUnits Qn (s_cfg Qn s) ch)).
  { intros txt n f cw ch tw FT CC. unfold measureTextWidth, measureCellHeight. rewrite FT, CC. rewrite (content_nil _ _ _ _ _ _ _ CC). auto. }
  assert (RECT : forall r n f txt cw ch tw, (u_unit (r_over Qn r) <> 0%Z \/ u_conv (s_cfg Qn s0) == 0) -> s_font Qn s = Some (n, f) -> createContent Qn f (fv_add f txt) (s_size Qn s) (s_cs Qn s) (rectPts Qn s (Some r)) = Some (cw, ch, tw) ->
     pointsToUnits Qn (s_cfg Qn s) cw == rect_len (s_cfg Qn s) r (r_w Qn r) /\ pointsToUnits Qn (s_cfg Qn s) ch == rect_len (s_cfg Qn s) r (r_h Qn r)).
  { intros r n f txt cw ch tw CN FT CC. unfold rectPts in CC. cbv zeta in CC. apply content_rect in CC as [-> ->]. unfold rectU2P, rectU2P_cfg, rectCfg, rect_len. cbn [r_w r_h].
    destruct (Z.eqb_spec (u_unit (r_over Qn r)) 0) as [Z|Z]; [|split; reflexivity]. destruct CN as [CN|CN]; [contradiction|].
    assert (CE : forall v : Q, pointsToUnits Qn (s_cfg Qn s) (unitsToPoints Qn (defcfg Qn (u_unit (s_cfg Qn s))) v) == v).
    { intros v. rewrite p2u_conv, u2p_conv. assert (X : conv (defcfg Qn (u_unit (s_cfg Qn s))) = conv (s_cfg Qn s)); [|rewrite X; field; apply conv_nz].
      rewrite CF. unfold conv. apply Qeq_bool_iff in CN. rewrite CN. reflexivity. }
    split; apply CE. }
  assert (MX : forall a b a' b', a == a' -> b == b' -> moved s s' a b -> moved s s' a' b').
  { intros a b a' b' A B [M1 M2]. split; [now rewrite <- A|now rewrite <- B]. }
  destruct c; cbn [step] in ST; cbn [moves];
    try (injection ST as <-; apply STAY; reflexivity).
  - injection ST as <-. unfold posX, posY. cbn [s_x s_y s_cfg withxy]. split; [apply p2u_u2p|reflexivity].
  - injection ST as <-. unfold posX, posY. cbn [s_x s_y s_cfg withxy]. split; [reflexivity|apply p2u_u2p].
  - injection ST as <-. unfold posX, posY. cbn [s_x s_y s_cfg withxy]. split; apply p2u_u2p.
  - injection ST as <-. unfold posX, posY, leftMargin. cbn [s_x s_y s_cfg withxy]. split; [reflexivity|]. change (nadd Qn (s_y Qn s) (u2p Qn s h)) with (s_y Qn s + u2p Qn s h). rewrite p2u_add. unfold u2p. rewrite p2u_u2p. reflexivity.
  - destruct (TEXT None false (opt0 Qn) txt ltac:(reflexivity) GC ST ltac:(left; reflexivity) ltac:(congruence) ltac:(intros _; exact CND)) as (n & f & cw & ch & tw & FT & CC & M).
    destruct (MW txt n f cw ch tw FT CC) as [M1 _]. eexists. split; [exact M1|exact M].
  - destruct r as [r|].
    + destruct (TEXT _ true _ txt ltac:(discriminate) GC ST ltac:(discriminate) ltac:(intros _; exact T1) ltac:(discriminate)) as (n & f & cw & ch & tw & FT & CC & M).
      destruct (RECT r n f txt cw ch tw CND FT CC) as [R1 R2]. cbn [o_float] in M. change (to_right oRight) with true in M. change (below oRight) with false in M. cbn [to_right] in M. eapply MX; [exact R1|reflexivity|exact M].
    + destruct (TEXT _ true _ txt ltac:(discriminate) GC ST ltac:(left; reflexivity) ltac:(unfold rectPts; congruence) ltac:(intros _; exact CND)) as (n & f & cw & ch & tw & FT & CC & M).
      destruct (MW txt n f cw ch tw FT CC) as [M1 _]. eexists. split; [exact M1|exact M].
  - destruct r as [r|].
    + destruct (TEXT _ true _ txt ltac:(discriminate) GC ST ltac:(discriminate) ltac:(intros _; exact T1) ltac:(discriminate)) as (n & f & cw & ch & tw & FT & CC & M).
      destruct (RECT r n f txt cw ch tw CND FT CC) as [R1 R2]. cbn [o_float] in M. eapply MX; [| |exact M].
      * destruct (to_right (o_float Qn o)); [exact R1|reflexivity].
      * destruct (below (o_float Qn o)); [exact R2|reflexivity].
    + destruct (TEXT _ true _ txt ltac:(discriminate) GC ST ltac:(intros _; cbn [o_float]; unfold plain_fl; destruct (to_right (o_float Qn o) && negb (below (o_float Qn o))); [left; reflexivity|right; apply T1]) ltac:(unfold rectPts; congruence) ltac:(intros _; exact CND)) as (n & f & cw & ch & tw & FT & CC & M).
      destruct (MW txt n f cw ch tw FT CC) as [M1 M2]. eexists. eexists. split; [exact M1|]. split; [exact M2|exact M].
  - destruct (s_font Qn s) as [[fc f]|] eqn:FT; [|discriminate]. injection ST as <-. unfold moved, posX, posY. cbn [s_x s_y s_cfg withxy add]. split; [|apply Z0].
    change (nadd Qn (s_x Qn s) (pointsToUnits Qn (s_cfg Qn s) width)) with (s_x Qn s + pointsToUnits Qn (s_cfg Qn s) width). rewrite p2u_add.
    assert (C1 : conv (s_cfg Qn s) == 1). { rewrite CF. rewrite p2u_conv in CND. pose proof (conv_nz (s_cfg Qn s0)) as NZ. setoid_replace (conv (s_cfg Qn s0)) with (1 / (1 / conv (s_cfg Qn s0))) by (field; exact NZ). rewrite CND. reflexivity. }
    assert (P1 : forall v : Q, pointsToUnits Qn (s_cfg Qn s) v == v) by (intros v; rewrite p2u_conv, C1; field).
    apply Qplus_comp; [reflexivity|]. etransitivity; [apply p2u_ext, P1|apply P1].
Qed.

(** ** A concrete history, in centimetres with an unkerned font: joined texts, a cell, a cell without rectangle, a line. *)
Definition ufont : fontv := {| fv_ci := fv_ci dfont; fv_cw := fv_cw dfont; fv_useKern := false; fv_pair := fv_pair dfont; fv_add := fv_add dfont; fv_upem := 1000; fv_tasc := 800; fv_tdesc := -200;
  fv_asc := 900; fv_desc := -210; fv_upos := -100; fv_uthick := 50 |}.
Definition cm_page : ds Qn := Build_ds Qn (Build_ucfg Qn 3 (nofZ Qn 0)) (nofZ Qn 72) (nofZ Qn 800) (nofZ Qn 72) (nofZ Qn 36) 0 None (nofZ Qn 0) 0 (nofZ Qn 0) false None (nofZ Qn 0) (nofZ Qn 1) None [].
Definition crect (w h : Z) : option (rect Qn) := Some (Build_rect Qn (nofZ Qn w) (nofZ Qn h) (defcfg Qn 0)).
Definition fl_opt (fl : Z) : cellopt Qn := Build_cellopt Qn 0 0 fl 0 0 0 [].
Definition ccalls : list (call Qn) :=
  [SetFont Qn 0 ufont (nofZ Qn 12) 0; SetXY Qn (nofZ Qn 3) (nofZ Qn 4); Text Qn (bs "AV"); Text Qn (bs " b"); Cell Qn None (bs "c"); SetX Qn (nofZ Qn 5); Cell Qn (crect 4 1) (bs "cell");
   CellOpt Qn (crect 4 1) (bs "below") (fl_opt oBottom) None; CellOpt Qn None (bs "down") (fl_opt oBottom) None; SetX Qn (nofZ Qn 1); Line Qn 0 0 9 9; SetGrayFill Qn (1 # 2); Text Qn (bs "x"); Br Qn (nofZ Qn 2)].
Definition track (s : ds Qn) (l : list (call Qn)) : option (Q * Q) := option_map (fun s => (Qred (posX Qn s), Qred (posY Qn s))) (run Qn s l).
(** The texts "AV", " b", "c" are 12, 9 and 6 points wide: the position moves by these, in centimetres (127/3600 of a
    point); the cell without rectangle is 12 points high.  All conditions of the theorem hold at every call. *)
Example C73_met : fonts_named Qn (fun _ => ufont) ccalls /\ tidy false ccalls /\ (forall n : Z, fv_useKern ((fun _ => ufont) n) = false) /\ joint (firstn 3 ccalls) = true /\
  map (fun k => track cm_page (firstn k ccalls)) [2; 3; 4; 5; 7; 8; 9; 13; 14]%nat =
  [Some (3, 4); Some (1027 # 300, 4); Some (4489 # 1200, 4); Some (1581 # 400, 4); Some (9, 4); Some (9, 5); Some (9, 1627 # 300); Some (727 # 600, 1627 # 300); Some (127 # 50, 2227 # 300)].
Proof.
  split; [intros n f size st H; repeat (destruct H as [H|H]; [try discriminate H; now injection H as _ <-|]); contradiction|].
  split; [cbn; repeat split; auto|]. split; [reflexivity|]. split; [reflexivity|]. vm_compute. reflexivity.
Qed.

(** ** The restrictions are needed *)
Definition at_end (p : ds Qn) (l : list (call Qn)) : ds Qn := match run Qn p l with Some s => s | None => p end.
Definition moves_wrongly (p : ds Qn) (l : list (call Qn)) (c : call Qn) : Prop :=
  exists s s', run Qn p l = Some s /\ step Qn s c = Some s' /\ ~ moves s c s'.
Lemma run_snoc l c : forall p, run Qn p (l ++ [c]) = match run Qn p l with Some s => step Qn s c | None => None end.
Proof. induction l as [|d l IH]; intros p; cbn [app run]; [destruct (step Qn p c); reflexivity|]. destruct (step Qn p d); [apply IH|reflexivity]. Qed.
Lemma wrongly p l c (w : Q) : match run Qn p (l ++ [c]) with Some _ => true | None => false end = true ->
  Qeq_bool (posX Qn (at_end p (l ++ [c]))) (posX Qn (at_end p l) + w) = false ->
  (moves (at_end p l) c (at_end p (l ++ [c])) -> posX Qn (at_end p (l ++ [c])) == posX Qn (at_end p l) + w) -> moves_wrongly p l c.
Proof.
  intros A C D. pose proof (run_snoc l c p) as R. unfold moves_wrongly, at_end in *. rewrite R in *. destruct (run Qn p l) as [s|]; [|discriminate]. destruct (step Qn s c) as [s'|] eqn:S; [|discriminate].
  exists s, s'. split; [reflexivity|]. split; [exact S|]. intros M. apply D in M. apply Qeq_bool_iff in M. congruence.
Qed.
Ltac bad w := apply (wrongly _ _ _ w); [vm_compute; reflexivity|vm_compute; reflexivity|].
(** A kerned font: after "A", drawing "V" moves by less than the measured width of "V". *)
Theorem C73_kerned_join_refuted : moves_wrongly (dpage Qn) [SetFont Qn 0 dfont (nofZ Qn 12) 0; Text Qn (bs "A")] (Text Qn (bs "V")).
Proof.
  bad (6 : Q). intros (w & M & X & _). rewrite X. assert (E : option_map Qred (measureTextWidth Qn (at_end (dpage Qn) [SetFont Qn 0 dfont (nofZ Qn 12) 0; Text Qn (bs "A")]) (bs "V")) = Some 6) by (vm_compute; reflexivity).
  rewrite M in E. injection E as E. assert (W : w == 6) by (rewrite <- (Qred_correct w), E; reflexivity). rewrite W. reflexivity.
Qed.
(** A cell directly after a text: its rectangle is ignored (C40), and so the position moves by its text, not by its width. *)
Theorem C73_cell_after_text_refuted : moves_wrongly (dpage Qn) [SetFont Qn 0 ufont (nofZ Qn 12) 0; Text Qn (bs "A")] (Cell Qn (crect 100 20) (bs "b")).
Proof. bad (100 : Q). intros (X & _). exact X. Qed.
(** After Br(0) the next text is drawn, and the position moves, as if Br had not been called. *)
Theorem C73_text_after_br_refuted : moves_wrongly (dpage Qn) [SetFont Qn 0 ufont (nofZ Qn 12) 0; SetX Qn (nofZ Qn 100); Text Qn (bs "A"); Br Qn 0] (Text Qn (bs "b")).
Proof.
  bad (6 : Q). intros (w & M & X & _). rewrite X. assert (E : option_map Qred (measureTextWidth Qn (at_end (dpage Qn) [SetFont Qn 0 ufont (nofZ Qn 12) 0; SetX Qn (nofZ Qn 100); Text Qn (bs "A"); Br Qn 0]) (bs "b")) = Some 6) by (vm_compute; reflexivity).
  rewrite M in E. injection E as E. assert (W : w == 6) by (rewrite <- (Qred_correct w), E; reflexivity). rewrite W. reflexivity.
Qed.
(** In centimetres a placeholder 2 wide moves the position by about 0.0025 (the width is converted the wrong way, and
    then taken for points). *)
Theorem C73_placeholder_unit_refuted : moves_wrongly cm_page [SetFont Qn 0 ufont (nofZ Qn 12) 0] (PlaceHolder Qn (nofZ Qn 2)).
Proof. bad (2 : Q). intros (X & _). exact X. Qed.
(** A cell without rectangle that moves the position down, then SetY back: the next text is joined to it and moves the
    position down again, and not to the right. *)
Theorem C73_text_after_floating_cell_refuted :
  moves_wrongly (dpage Qn) [SetFont Qn 0 ufont (nofZ Qn 12) 0; CellOpt Qn None (bs "a") (fl_opt oBottom) None; SetY Qn (nofZ Qn 20)] (Text Qn (bs "b")).
Proof.
  bad (6 : Q). intros (w & M & X & _). rewrite X. assert (E : option_map Qred (measureTextWidth Qn (at_end (dpage Qn) [SetFont Qn 0 ufont (nofZ Qn 12) 0; CellOpt Qn None (bs "a") (fl_opt oBottom) None; SetY Qn (nofZ Qn 20)]) (bs "b")) = Some 6) by (vm_compute; reflexivity).
  rewrite M in E. injection E as E. assert (W : w == 6) by (rewrite <- (Qred_correct w), E; reflexivity). rewrite W. reflexivity.
Qed.
Print Assumptions C73_position_moves_by_what_is_drawn_partial.
