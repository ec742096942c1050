(** PropDeco.v — C65: borders and underlines. *)
From Coq Require Import QArith.
From Verif Require Import Base StrModel NumModel UnitModel DrawModel DrawSpec DrawLex DrawNest DrawView PropDraw PropAlign PaintSpec PropPaint DecoSpec.
Local Open Scope Z_scope.

Section Deco.
  Variable N : num.
  Variable rot : T N -> T N * T N.
  Notation T := (T N).
  Infix "-." := (nsub N) (at level 50, left associativity).

  (** ** A text cache, whatever its decorations *)
  Definition cbox (c : ctext N) : tbox N := {| b_x := c_x N c; b_y := c_y N c; b_w := c_cw N c; b_h := c_ch N c |}.
  Definition cmarks (c : ctext N) : list what :=
    (if has (c_style N c) styUnderline then [under N (c_pageH N c) (cbox c) (c_font N c) (c_size N c) (c_opt N c)] else [])
    ++ sides N (c_pageH N c) (c_lw N c) (cbox c) (o_border N (c_opt N c)).
  Definition cfill (c : ctext N) (g : pgs) : pgs :=
    if c_mode N c then match c_color N c with Some t => set_fill g (Some (otcol N t)) | None => g end else g.

  Lemma pv_border c g st out : pview_from (idle_pv g st out) (oborder N c) = idle_pv g st (out ++ map (fun k => (g, k)) (sides N (c_pageH N c) (c_lw N c) (cbox c) (o_border N (c_opt N c)))).
  Proof.
    unfold oborder, sides. cbv zeta. set (b := o_border N (c_opt N c)). cbn [cbox b_x b_y b_w b_h].
    assert (SG : forall x1 y1 x2 y2 g st out l, pview_from (idle_pv g st out) (oseg N x1 y1 x2 y2 "s" ++ l) = pview_from (idle_pv g st (out ++ [(g, stroke N x1 y1 x2 y2)])) l) by reflexivity.
    assert (S0 : forall x1 y1 x2 y2 g st out, pview_from (idle_pv g st out) (oseg N x1 y1 x2 y2 "s") = idle_pv g st (out ++ [(g, stroke N x1 y1 x2 y2)])) by reflexivity.
    assert (NI : forall g st out, pview_from (idle_pv g st out) [] = idle_pv g st out) by reflexivity.
    destruct (has b oTop), (has b oLeft), (has b oRight), (has b oBottom); rewrite ?app_nil_l, ?SG, ?app_nil_l, ?SG, ?app_nil_l, ?SG, ?app_nil_l, ?S0, ?NI;
      rewrite <- ?app_assoc, ?app_nil_l, ?app_nil_r; reflexivity.
  Qed.
  Lemma pv_underline c g st out : pview_from (idle_pv g st out) (ounderline N c) = idle_pv g st (out ++ [(g, under N (c_pageH N c) (cbox c) (c_font N c) (c_size N c) (c_opt N c))]).
  Proof. reflexivity. Qed.
  Lemma pv_textobj c g st out : pview_from (idle_pv g st out) (otextobj N c) = idle_pv (cfill c g) st out.
  Proof. unfold otextobj, cfill. set (TJ := TOpen :: _). clearbody TJ. destruct (c_mode N c); [destruct (c_color N c) as [[r gg b|cc m y k]|]|]; reflexivity. Qed.
  Lemma pv_deco c g st out : pview_from (idle_pv g st out) (otext N c)
    = idle_pv (match o_gs N (c_opt N c) with [] => cfill c g | _ => g end) st
        (out ++ map (fun k => (cfill c (set_ext g (p_ext g ++ gsn (o_gs N (c_opt N c)))), k)) (cmarks c)).
  Proof.
    unfold otext. cbv zeta.
    assert (UB : forall g st out l, pview_from (idle_pv g st out) ((if has (c_style N c) styUnderline then ounderline N c else []) ++ oborder N c ++ l)
       = pview_from (idle_pv g st (out ++ map (fun k => (g, k)) (cmarks c))) l).
    { intros g0 st0 out0 l. rewrite !pview_app. unfold cmarks. destruct (has (c_style N c) styUnderline).
      - rewrite pv_underline, pv_border, <- app_assoc. reflexivity.
      - change (pview_from (idle_pv g0 st0 out0) []) with (idle_pv g0 st0 out0). rewrite pv_border. reflexivity. }
    destruct (o_gs N (c_opt N c)) as [|i l] eqn:G.
    - cbn [app gs_ops map]. rewrite pview_app, pv_textobj, UB. cbn [gsn map]. rewrite app_nil_r.
      assert (EG : set_ext g (p_ext g) = g) by now destruct g. rewrite EG. reflexivity.
    - cbn [app]. change (pview_from (idle_pv g st out) (o [] "q" :: ?l)) with (pview_from (idle_pv g (g :: st) out) l).
      rewrite pview_app, pv_gs, pview_app, pv_textobj, UB. reflexivity.
  Qed.

  (** ** A text that stands alone *)
  Definition counted (s : ds N) : Prop := forall t, In (CText N t) (s_caches N s) -> c_setx N t <= s_setx N s.
  Definition settled (s : ds N) : Prop :=
    forall pre c, splitLast N (s_caches N s) = (pre, Some (CText N c)) -> c_rect N c = None -> c_ph N c = false -> c_setx N c <> s_setx N s.
  Lemma alone_text s r cell o txt s' : settled s -> drawText N s r cell o txt = Some s' ->
    exists fc f cwht, s_font N s = Some (fc, f) /\ createContent N f (fv_add f txt) (s_size N s) (s_cs N s) r = Some cwht /\
      s_caches N s' = s_caches N s ++ [CText N (setText N (mkText N s fc f r cell false o) (fv_add f txt) cwht)] /\ s_setx N s' = s_setx N s /\
      s_cfg N s' = s_cfg N s /\ s_pageH N s' = s_pageH N s /\ s_tr N s' = s_tr N s.
  Proof.
    intros SE. unfold drawText. destruct (s_font N s) as [[fc f]|]; [|discriminate]. unfold appendContentText. set (n := mkText N s fc f r cell false o).
    assert (B : match splitLast N (s_caches N s) with (pre, Some (CText _ c)) => if isSame N c n then (pre, c) else (s_caches N s, n) | _ => (s_caches N s, n) end = (s_caches N s, n)).
    { destruct (splitLast N (s_caches N s)) as [pre [c|]] eqn:SL; [|reflexivity]. destruct c; try reflexivity.
      assert (IS : isSame N c n = false); [|now rewrite IS]. unfold isSame. destruct (c_rect N c) as [|] eqn:CR; [reflexivity|].
      destruct (c_ph N c) eqn:PH; [apply andb_false_intro2; reflexivity|].
      specialize (SE pre c SL CR PH). cbn [n mkText c_setx]. apply Z.eqb_neq in SE. rewrite SE. rewrite !andb_false_r. reflexivity. }
    rewrite B. cbn [n mkText c_text c_font c_size c_cs c_rect app]. destruct (createContent N f (fv_add f txt) (s_size N s) (s_cs N s) r) as [cwht|] eqn:CR; [|discriminate].
    intros E. injection E as <-. exists fc, f, cwht. rewrite CR. repeat split.
  Qed.

  (** ** Simulation *)
  Definition dsim (glued : bool) (s : ds N) (a : asked N) : Prop :=
    seen N rot (s_caches N s) = idle_pv (a_g N a) (a_stack N a) (a_out N a) /\ s_cfg N s = a_cfg N a /\ s_pageH N s = a_H N a /\ s_tr N s = a_tr N a /\
    Forall (cache_ok N) (s_caches N s) /\ counted s /\ (glued = false -> settled s).

  Lemma counted_add s s' k : counted s -> s_caches N s' = s_caches N s ++ [k] -> s_setx N s' = s_setx N s -> (forall t, k = CText N t -> c_setx N t <= s_setx N s) -> counted s'.
  Proof. intros K E X H t I. rewrite E in I. rewrite X. apply in_app_iff in I as [I|[I|[]]]; [now apply K|now apply H]. Qed.
  Lemma splitLast_snoc (l : list (cache N)) c : splitLast N (l ++ [c]) = (l, Some c).
  Proof. unfold splitLast. rewrite rev_app_distr. cbn. now rewrite rev_involutive. Qed.
  Lemma settled_add s s' k : s_caches N s' = s_caches N s ++ [k] -> (forall t, k = CText N t -> c_rect N t <> None \/ c_ph N t = true) -> settled s'.
  Proof. intros E H pre c SL R P. rewrite E, splitLast_snoc in SL. assert (EK : k = CText N c) by congruence. destruct (H c EK) as [X|X]; [contradiction|congruence]. Qed.
  Lemma counted_set s s' : counted s -> s_caches N s' = s_caches N s -> s_setx N s <= s_setx N s' -> counted s'.
  Proof. intros K E X t I. rewrite E in I. specialize (K t I). lia. Qed.
  Lemma settled_set s s' : counted s -> s_caches N s' = s_caches N s -> s_setx N s < s_setx N s' -> settled s'.
  Proof.
    intros K E X pre c SL _ _. rewrite E in SL. apply splitLast_app in SL.
    assert (I : In (CText N c) (s_caches N s)) by (rewrite SL; apply in_app_iff; right; now left). specialize (K c I). lia.
  Qed.
  Lemma settled_same s s' : settled s -> s_caches N s' = s_caches N s -> s_setx N s' = s_setx N s -> settled s'.
  Proof. unfold settled. intros H E X. rewrite E, X. exact H. Qed.

  (** one more cache *)
  Lemma dsim_cache glued gl' s a k s' a' : dsim glued s a -> s_caches N s' = s_caches N s ++ [k] -> (forall t, k <> CText N t) -> cache_ok N k ->
    s_setx N s' = s_setx N s -> s_cfg N s' = a_cfg N a' -> s_pageH N s' = a_H N a' -> s_tr N s' = a_tr N a' ->
    (exists ms, ceff N rot k (a_g N a) (a_stack N a) = (a_g N a', a_stack N a', ms) /\ a_out N a' = a_out N a ++ ms) -> dsim gl' s' a'.
  Proof.
    intros (R & C1 & C2 & C3 & K & CT & ST) E NT OK X A1 A2 A3 (ms & CE & AO).
    assert (PC : pc N k) by (destruct k; try exact I; exfalso; exact (NT _ eq_refl)).
    split; [rewrite E, seen_snoc, R, cache_eff by exact PC; rewrite CE, AO; reflexivity|]. repeat (split; [assumption|]).
    split; [rewrite E; apply Forall_app; split; [exact K|constructor; [exact OK|constructor]]|].
    split; [eapply counted_add; [exact CT|exact E|exact X|]; intros t ET; exfalso; exact (NT t ET)|].
    intros _. eapply settled_add; [exact E|]. intros t ET; exfalso; exact (NT t ET).
  Qed.
  Lemma dsim_same glued gl' s a s' a' : dsim glued s a -> s_caches N s' = s_caches N s -> s_setx N s' = s_setx N s -> (gl' = false -> glued = false) ->
    s_cfg N s' = a_cfg N a' -> s_pageH N s' = a_H N a' -> s_tr N s' = a_tr N a' -> a_g N a' = a_g N a -> a_stack N a' = a_stack N a -> a_out N a' = a_out N a -> dsim gl' s' a'.
  Proof.
    intros (R & C1 & C2 & C3 & K & CT & ST) E X G A1 A2 A3 A4 A5 A6.
    split; [rewrite E, R, A4, A5, A6; reflexivity|]. repeat (split; [assumption|]). split; [rewrite E; exact K|].
    split; [eapply counted_set; [exact CT|exact E|rewrite X; apply Z.le_refl]|]. intros GF. eapply settled_same; [exact (ST (G GF))|exact E|exact X].
  Qed.
  Lemma cfill_text s c g : c_mode N c = s_mode N s -> c_color N c = s_color N s -> cfill c g = textFill N s g.
  Proof. intros E1 E2. unfold cfill, textFill. rewrite E1, E2. destruct (s_mode N s); [|reflexivity]. destruct (s_color N s) as [[r g' b|cc m y k]|]; reflexivity. Qed.
  (** one more text cache *)
  Lemma dsim_text glued gl' s a c s' f o gs : dsim glued s a -> s_caches N s' = s_caches N s ++ [CText N c] -> s_setx N s' = s_setx N s -> s_cfg N s' = s_cfg N s -> s_pageH N s' = s_pageH N s -> s_tr N s' = s_tr N s ->
    c_mode N c = s_mode N s -> c_color N c = s_color N s -> c_style N c = s_style N s -> c_size N c = s_size N s -> c_font N c = f -> c_pageH N c = s_pageH N s -> c_lw N c = s_lw N s -> c_setx N c = s_setx N s ->
    o_border N (c_opt N c) = o_border N o -> o_cup N (c_opt N c) = o_cup N o -> o_clh N (c_opt N c) = o_clh N o -> o_cut N (c_opt N c) = o_cut N o -> o_gs N (c_opt N c) = gs ->
    (gl' = false -> c_rect N c <> None \/ c_ph N c = true) ->
    dsim gl' s' (decorated N a s f (cbox c) o gs).
  Proof.
    intros (R & C1 & C2 & C3 & K & CT & ST) E X E1 E2 E3 M CO SY SZ F H LW SX B1 B2 B3 B4 G GL.
    assert (CM : cmarks c = (if has (s_style N s) styUnderline then [under N (a_H N a) (cbox c) f (s_size N s) o] else []) ++ sides N (a_H N a) (s_lw N s) (cbox c) (o_border N o)).
    { unfold cmarks, under, drop. rewrite SY, F, SZ, B1, B2, B3, B4, LW, H, C2. reflexivity. }
    split.
    { rewrite E, seen_snoc, R. cbn [cache_ops]. rewrite pv_deco, G, CM. unfold decorated, gsn. cbn [a_g a_stack a_out].
      rewrite !(cfill_text s c) by assumption. reflexivity. }
    cbn [decorated a_cfg a_H a_tr]. split; [congruence|]. split; [congruence|]. split; [congruence|].
    split; [rewrite E; apply Forall_app; split; [exact K|constructor; [exact I|constructor]]|].
    split; [eapply counted_add; [exact CT|exact E|exact X|]; intros t ET; assert (t = c) by congruence; subst t; rewrite SX; apply Z.le_refl|].
    intros GF. eapply settled_add; [exact E|]. intros t ET. assert (t = c) by congruence. subst t. exact (GL GF).
  Qed.
  Lemma dsim_draw glued gl' s a r cell o o' txt s' fc f : dsim glued s a -> glued = false -> s_font N s = Some (fc, f) -> drawText N s r cell o' txt = Some s' ->
    o_border N o' = o_border N o -> o_cup N o' = o_cup N o -> o_clh N o' = o_clh N o -> o_cut N o' = o_cut N o -> (gl' = false -> r <> None) ->
    dsim gl' s' (decorated N a s f (boxOf N s f r txt) o (o_gs N o')).
  Proof.
    intros S G F D B1 B2 B3 B4 GL. pose proof S as (R & C1 & C2 & C3 & K & CT & ST).
    destruct (alone_text s r cell o' txt s' (ST G) D) as (fc' & f' & [[cw ch] tw] & F' & CR & E & X & Y1 & Y2 & Y3).
    assert (f' = f) by congruence. subst f'.
    assert (BX : boxOf N s f r txt = cbox (setText N (mkText N s fc' f r cell false o') (fv_add f txt) (cw, ch, tw))) by (unfold boxOf; rewrite CR; reflexivity).
    rewrite BX. eapply dsim_text; try eassumption; try reflexivity. intros GF. left. exact (GL GF).
  Qed.

  Lemma dsim_step glued s a c s' : dsim glued s a -> sensible N c -> (is_text N c = true -> glued = false) -> step N s c = Some s' -> dsim (glues N glued c) s' (askD N rot a s c).
  Proof.
    intros S SN AL H. pose proof S as (R & C1 & C2 & C3 & K & CT & ST).
    assert (AO : (match c with Text _ _ | Cell _ _ _ | CellOpt _ _ _ _ _ | PlaceHolder _ _ => false | _ => true end) = true -> askD N rot a s c = ask N rot false a c).
    { intros NT. unfold askD. destruct (s_font N s) as [[fc f]|]; [|reflexivity]. destruct c; try reflexivity; discriminate NT. }
    assert (GS : forall tr, gsn (trOf N s tr) = extOf (match tr with None => a_tr N a | Some t => t end)).
    { intros tr. unfold trOf. rewrite C3. destruct tr as [[i|]|]; try reflexivity. destruct (a_tr N a); reflexivity. }
    assert (UU : u2p N s = unitsToPoints N (a_cfg N a)) by (rewrite <- C1; reflexivity).
    assert (PP : ptU2P N s = (fun p => (unitsToPoints N (a_cfg N a) (fst p), unitsToPoints N (a_cfg N a) (snd p)))) by (rewrite <- C1; reflexivity).
    assert (E0 : set_ext (a_g N a) (p_ext (a_g N a) ++ []) = a_g N a) by (rewrite app_nil_r; now destruct (a_g N a)).
    assert (N0 : a_out N a = a_out N a ++ []) by now rewrite app_nil_r.
    assert (POP : forall k, k = CRestore N \/ k = CRotateReset N -> dsim false (add N s k) (match a_stack N a with [] => a | g' :: st' => ag N a g' st' end)).
    { intros k HK. destruct (a_stack N a) as [|g0 st0] eqn:AS; (eapply dsim_cache; [exact S|reflexivity|intros t; destruct HK as [->| ->]; discriminate|destruct HK as [->| ->]; exact I|reflexivity|exact C1|exact C2|exact C3|]);
        exists []; rewrite AS; (split; [destruct HK as [->| ->]; cbn [ceff]; first [rewrite AS; reflexivity|reflexivity]|exact N0]). }
    destruct c; cbn [step] in H; try (injection H as <-); rewrite ?UU, ?PP; try (rewrite AO by reflexivity); cbn [ask glues].
    all: try (apply POP; [now left] || apply POP; now right).
    all: try (eapply dsim_same; [exact S|reflexivity|reflexivity|intros X; exact X|exact C1|exact C2|exact C3 || reflexivity|reflexivity|reflexivity|reflexivity]).
    all: try (eapply dsim_cache; [exact S|reflexivity|discriminate|exact I|reflexivity|exact C1|exact C2|exact C3|]; cbn [ceff]; rewrite ?C2;
              eexists; (split; [reflexivity|]); cbn [shape amark a_out ag atr]; unfold shapeAt; rewrite ?GS; cbn [gsn map extOf]; rewrite ?E0, ?map_map; first [reflexivity|exact N0]).
    - eapply dsim_cache; [exact S|reflexivity|discriminate|exact I|reflexivity|exact C1|exact C2|exact C3|]. cbn [ceff]. exists []. split; [|exact N0]. rewrite map_map. reflexivity.
    - split; [exact R|]. split; [exact C1|]. split; [exact C2|]. split; [exact C3|]. split; [exact K|].
      split; [eapply counted_set; [exact CT|reflexivity|cbn; lia]|]. intros _. eapply settled_set; [exact CT|reflexivity|cbn; lia].
    - split; [exact R|]. split; [exact C1|]. split; [exact C2|]. split; [exact C3|]. split; [exact K|].
      split; [eapply counted_set; [exact CT|reflexivity|cbn; lia]|]. intros _. eapply settled_set; [exact CT|reflexivity|cbn; lia].
    - unfold askD. destruct (s_font N s) as [[fc f]|] eqn:F; [|unfold drawText in H; rewrite F in H; discriminate].
      eapply (dsim_draw glued true s a None false (opt0 N) (opt0 N)); [exact S|now apply AL|exact F|exact H|reflexivity|reflexivity|reflexivity|reflexivity|discriminate].
    - unfold askD. destruct (s_font N s) as [[fc f]|] eqn:F; [|unfold drawText in H; rewrite F in H; discriminate].
      match type of H with drawText N s _ _ ?o' _ = _ => eapply (dsim_draw glued _ s a _ true (opt0 N) o') end; [exact S|now apply AL|exact F|exact H|reflexivity|reflexivity|reflexivity|reflexivity|].
      destruct r; [intros _|]; discriminate.
    - unfold askD. destruct (s_font N s) as [[fc f]|] eqn:F; [|unfold drawText in H; rewrite F in H; discriminate].
      match type of H with drawText N s _ _ ?o' _ = _ => eapply (dsim_draw glued _ s a _ true o o') end; [exact S|now apply AL|exact F|exact H|reflexivity|reflexivity|reflexivity|reflexivity|].
      destruct r; [intros _|]; discriminate.
    - eapply dsim_cache; [exact S|reflexivity|discriminate|exact I|reflexivity|exact C1|exact C2|exact C3|]. cbn [ceff]. eexists. split; [reflexivity|]. cbn [amark a_out].
      cbn [im_pageH im_index im_x im_y im_w im_h im_angle im_vflip im_hflip im_crop im_mask im_maskAngle im_gs]. rewrite C2. f_equal. f_equal.
      destruct o; cbn. destruct io_mask; reflexivity.
    - destruct SN as (w0 & -> & RG). eapply dsim_cache; [exact S|reflexivity|discriminate|exists w0; auto|reflexivity|exact C1|exact C2|exact C3|]. cbn [ceff]. eexists. split; [reflexivity|]. cbn [amark a_out]. rewrite C2. reflexivity.
    - unfold askD. destruct (s_font N s) as [[fc f]|] eqn:F; [|discriminate]. injection H as <-.
      eapply (dsim_text glued false s a (mkText N s fc f None false true (opt0 N))); try reflexivity; [exact S|]. intros _. right. reflexivity.
  Qed.
  Lemma dsim_run l : Forall (sensible N) l -> forall glued s a s', dsim glued s a -> alone N glued l -> run N s l = Some s' ->
    dsim (fold_left (glues N) l glued) s' (asksD N rot a s l).
  Proof.
    induction 1 as [|c l S1 _ IH]; intros glued s a s' S A R; cbn [run asksD alone fold_left] in *; [injection R as <-; exact S|].
    destruct (step N s c) as [s1|] eqn:E; [|discriminate]. destruct A as [A1 A2]. eapply IH; [|exact A2|exact R]. now apply dsim_step.
  Qed.
End Deco.

(** ** C65 *)
(** Any history of calls on a fresh page in which no text directly continues another: the marks a viewer paints, in
    order and with their graphics states, are the shapes asked for (PaintSpec.v) and, for every text call, the underline
    its style asks for and the sides its option asks for, along the edges of the box at the cursor. *)
Theorem C65_decorations_as_asked (N : num) (rot : T N -> T N * T N) (s : ds N) (calls : list (call N)) (content : bytes) :
  num_prints N -> fresh_page N s -> Forall (sensible N) calls -> alone N false calls ->
  outcome N rot s calls = Some content ->
  marks content = a_out N (asksD N rot (blank N s) s calls).
Proof.
  intros NP (E & _) SE AL O. apply outcome_run in O as (s' & R & W).
  assert (S0 : dsim N rot false s (blank N s)).
  { split; [rewrite E; reflexivity|]. repeat (split; [reflexivity|]). split; [rewrite E; constructor|]. split; [intros t I; rewrite E in I; destruct I|].
    intros _ pre c SL. rewrite E in SL. discriminate SL. }
  destruct (dsim_run N rot calls SE false s (blank N s) s' S0 AL R) as (SN & _ & _ & _ & K & _).
  unfold marks. rewrite (content_ops_write N rot NP (s_caches N s') content K W). unfold seen in SN. rewrite SN. reflexivity.
Qed.

(** The sides and the underline of one cell with a rectangle, wherever it stands among the calls. *)
Lemma asksD_app N rot a b : forall k s s1, run N s a = Some s1 -> asksD N rot k s (a ++ b) = asksD N rot (asksD N rot k s a) s1 b.
Proof.
  induction a as [|c a IH]; intros k s s1; cbn [run app asksD]; [intros E; injection E as <-; reflexivity|]. destruct (step N s c) as [s2|]; [|discriminate]. apply IH.
Qed.
Lemma run_app N a b : forall s, run N s (a ++ b) = match run N s a with Some s' => run N s' b | None => None end.
Proof. induction a as [|c a IH]; intros s; cbn [run app]; [reflexivity|]. destruct (step N s c); [apply IH|reflexivity]. Qed.
Lemma ask_out N rot i a c : exists ms, a_out N (ask N rot i a c) = a_out N a ++ ms.
Proof.
  assert (Z0 : exists ms, a_out N a = a_out N a ++ ms) by (exists []; now rewrite app_nil_r).
  destruct c; cbn [ask]; try exact Z0; try (eexists; reflexivity); try (destruct (a_stack N a); exact Z0); destruct (a_coltext N a); exact Z0.
Qed.
Lemma askD_out N rot a s c : exists ms, a_out N (askD N rot a s c) = a_out N a ++ ms.
Proof. unfold askD. destruct (s_font N s) as [[fc f]|]; [|apply ask_out]. destruct c; try apply ask_out; eexists; reflexivity. Qed.
Lemma asksD_out N rot l : forall a s, exists ms, a_out N (asksD N rot a s l) = a_out N a ++ ms.
Proof.
  induction l as [|c l IH]; intros a s; cbn [asksD]; [exists []; now rewrite app_nil_r|]. destruct (step N s c) as [s1|]; [|exists []; now rewrite app_nil_r].
  destruct (askD_out N rot a s c) as (m1 & E1). destruct (IH (askD N rot a s c) s1) as (m2 & E2). exists (m1 ++ m2). rewrite E2, E1, app_assoc. reflexivity.
Qed.
Theorem C65_one_cell (N : num) (rot : T N -> T N * T N) (s s1 : ds N) (before after : list (call N)) (r : rect N) (txt : list Z) (o : cellopt N) tr (content : bytes) :
  num_prints N -> fresh_page N s -> Forall (sensible N) (before ++ CellOpt N (Some r) txt o tr :: after) -> alone N false (before ++ CellOpt N (Some r) txt o tr :: after) ->
  outcome N rot s (before ++ CellOpt N (Some r) txt o tr :: after) = Some content ->
  run N s before = Some s1 ->
  exists fc f w h earlier later g,
    s_font N s1 = Some (fc, f) /\ rectPts N s1 (Some r) = Some (w, h) /\
    earlier = a_out N (asksD N rot (blank N s) s before) /\
    g = textFill N s1 (let now := a_g N (asksD N rot (blank N s) s before) in set_ext now (p_ext now ++ map (fun i => TName (bs "GS" ++ fmt_d i)) (o_gs N o ++ trOf N s1 tr))) /\
    let box := {| b_x := s_x N s1; b_y := s_y N s1; b_w := w; b_h := h |} in
    marks content = earlier
      ++ map (fun k => (g, k)) ((if has (s_style N s1) styUnderline then [under N (s_pageH N s1) box f (s_size N s1) o] else [])
                                ++ sides N (s_pageH N s1) (s_lw N s1) box (o_border N o))
      ++ later.
Proof.
  intros NP FP SE AL O R1. pose proof (C65_decorations_as_asked N rot s _ content NP FP SE AL O) as M. rewrite (asksD_app N rot before _ (blank N s) s s1 R1) in M.
  apply outcome_run in O as (s' & R & _). rewrite run_app, R1 in R. cbn [run] in R. destruct (step N s1 (CellOpt N (Some r) txt o tr)) as [s2|] eqn:ST; [|discriminate].
  set (a1 := asksD N rot (blank N s) s before) in *.
  assert (D : settled N s1 /\ a_H N a1 = s_pageH N s1).
  { apply Forall_app in SE as [SB _]. assert (AB : forall g, alone N g (before ++ CellOpt N (Some r) txt o tr :: after) -> alone N g before /\ fold_left (glues N) before g = false).
    { clear. induction before as [|c l IH]; intros g; cbn [app alone fold_left]; [intros [A _]; split; [exact I|now apply A]|]. intros [A B]. apply IH in B as [B1 B2]. auto. }
    destruct (AB false AL) as [A1 A2].
    destruct FP as [E _]. assert (S0 : dsim N rot false s (blank N s)).
    { split; [rewrite E; reflexivity|]. repeat (split; [reflexivity|]). split; [rewrite E; constructor|]. split; [intros t I; rewrite E in I; destruct I|].
      intros _ pre c SL. rewrite E in SL. discriminate SL. }
    destruct (dsim_run N rot before SB false s (blank N s) s1 S0 A1 R1) as (_ & _ & X & _ & _ & _ & ST1). split; [exact (ST1 A2)|]. symmetry. exact X. }
  destruct D as [ST1 X].
  assert (M2 : marks content = a_out N (asksD N rot (askD N rot a1 s1 (CellOpt N (Some r) txt o tr)) s2 after)) by (rewrite M; cbn [asksD]; rewrite ST; reflexivity).
  clear M. rename M2 into M. cbn [step] in ST. destruct (alone_text N s1 _ _ _ _ _ ST1 ST) as (fc & f & [[cw ch] tw] & F & CC & _).
  destruct (asksD_out N rot after (askD N rot a1 s1 (CellOpt N (Some r) txt o tr)) s2) as (later & EL). rewrite EL in M. clear EL. unfold askD in M. rewrite F in M.
  destruct (rectPts N s1 (Some r)) as [[rw rh]|] eqn:RP; [|discriminate RP].
  assert (BX : boxOf N s1 f (Some (rw, rh)) txt = {| b_x := s_x N s1; b_y := s_y N s1; b_w := rw; b_h := rh |})
    by (unfold boxOf; rewrite CC; unfold createContent in CC; destruct (fv_upem f =? 0); [discriminate|]; destruct (sumWidth _ _ _ _ _ _ _ _); [|discriminate]; injection CC as -> -> _; reflexivity).
  exists fc, f, rw, rh, (a_out N a1), later; eexists; split; [exact F|]; split; [reflexivity|]; split; [reflexivity|]; split; [reflexivity|]; cbv zeta.
  rewrite BX in M; unfold decorated in M; cbn [a_out] in M; rewrite X, <- app_assoc in M; exact M.
Qed.

(** Where the underline is, exact arithmetic: the line it is measured from is the baseline of a text set at the top of
    its box (C55), moved down by half of what the font's ascender and descender exceed the size. *)
Section Baseline.
  Local Open Scope Q_scope.
  Theorem C65_underline_baseline (f : fontv) (size : Q) : (0 < fv_upem f)%Z ->
    let px v := inject_Z v * size / inject_Z (fv_upem f) in
    drop Qn f size (nofZ Qn 0) == px (fv_tasc f) + (px (fv_asc f) - px (fv_tasc f)) + (px (fv_asc f) - px (fv_desc f) - size) / 2.
  Proof.
    intros U. cbv zeta. assert (NU : ~ inject_Z (fv_upem f) == 0) by (unfold Qeq, inject_Z; cbn; lia).
    unfold drop, DrawModel.px, coef. cbn [nmul ndiv nofZ nadd nsub nneg neq Qn].
    change (Qeq_bool (inject_Z 0) (inject_Z 0)) with true. cbv iota. change (inject_Z 2) with 2. change (inject_Z 1) with 1.
    assert (G : inject_Z (fv_asc f) / inject_Z (fv_upem f) * size + (inject_Z (fv_asc f) / inject_Z (fv_upem f) * size + - (inject_Z (fv_desc f) / inject_Z (fv_upem f) * size) - 1 * size) / 2
      == inject_Z (fv_tasc f) * size / inject_Z (fv_upem f) + (inject_Z (fv_asc f) * size / inject_Z (fv_upem f) - inject_Z (fv_tasc f) * size / inject_Z (fv_upem f)) +
         (inject_Z (fv_asc f) * size / inject_Z (fv_upem f) - inject_Z (fv_desc f) * size / inject_Z (fv_upem f) - size) / 2) by (field; exact NU).
    exact G.
  Qed.
End Baseline.

(** ** Concrete cases *)
Definition cellD (align border : Z) : call F64 :=
  CellOpt F64 (Some (Build_rect F64 (z 100) (z 50) (defcfg F64 0))) (bs "ab") (Build_cellopt F64 align border oRight (z 0) (z 0) (z 0) []) None.
Definition ucalls : list (call F64) :=
  [SetFont F64 0 dfont (z 12) styUnderline; SetLineWidth F64 (z 2); SetTextColor F64 255 0 0; Line F64 (z 1) (z 2) (z 3) (z 4); Text F64 (bs "hello"); SetX F64 (z 30); SetTransparency F64 (Some 3);
   cellD 15 15; SetStrokeColor F64 0 0 255; cellD 8 3; PlaceHolder F64 (z 50); RectUL F64 (z 1) (z 2) (z 3) (z 4)].
Definition ucontent : bytes := Eval vm_compute in got (outcome F64 (norot F64) (dpage F64) ucalls).
Lemma ucontent_ok : outcome F64 (norot F64) (dpage F64) ucalls = Some ucontent. Proof. vm_compute. reflexivity. Qed.
Lemma ucalls_met : fresh_page F64 (dpage F64) /\ Forall (sensible F64) ucalls /\ alone F64 false ucalls.
Proof. split; [split; [reflexivity|discriminate]|]. split; [repeat constructor|]. cbn. repeat split; auto; discriminate. Qed.
(** 12 marks: line, underline, underline and four sides, underline and two sides, placeholder, rectangle; the
    fourth is the top side of the first cell, under the transparency and in the line width asked for. *)
Example C65_met : List.length (marks ucontent) = 12%nat /\
  match nth_error (marks ucontent) 3 with
  | Some (g, Painted p how) => p = [([wd "29.00"; wd "780.00"], bs "m"); ([wd "131.00"; wd "780.00"], bs "l")] /\ how = bs "s" /\ p_lw g = [wd "2.00"] /\ p_ext g = [TName (bs "GS3")]
  | _ => False
  end.
Proof. split; [vm_compute; reflexivity|]. vm_compute. repeat split. Qed.
Example C65_applied : marks ucontent = a_out F64 (asksD F64 (norot F64) (blank F64 (dpage F64)) (dpage F64) ucalls).
Proof. destruct ucalls_met as (A & B & C). exact (C65_decorations_as_asked F64 (norot F64) (dpage F64) ucalls ucontent F64_prints A B C ucontent_ok). Qed.

(** ** What goes wrong *)
Definition textsAt (content : bytes) : list (list tok) := flat_map (fun e => match e with EShow _ p _ => [p] | _ => [] end) (shows content).
Definition paths (content : bytes) : list gpath := flat_map (fun m : mark => match snd m with Painted p _ => [p] | _ => [] end) (marks content).
(** The underline ignores the alignment: of a text at the right of its cell it starts at the left and is as wide as the
    cell; of a text at the bottom it is drawn near the top, above the text. *)
Theorem C65_underline_alignment_refuted :
  (exists content, outcome F64 (norot F64) (dpage F64) [SetFont F64 0 dfont (z 12) styUnderline; cellD oRight 0] = Some content /\
     textsAt content = [[wd "98.00"; wd "770.40"]] /\ paths content = [[([wd "10.00"; wd "767.34"; wd "100.00"; wd "0.60"], bs "re")]]) /\
  (exists content, outcome F64 (norot F64) (dpage F64) [SetFont F64 0 dfont (z 12) styUnderline; cellD oBottom 0] = Some content /\
     textsAt content = [[wd "10.00"; wd "732.40"]] /\ paths content = [[([wd "10.00"; wd "767.34"; wd "100.00"; wd "0.60"], bs "re")]]).
Proof. split; eexists; (split; [vm_compute; reflexivity|]); split; vm_compute; reflexivity. Qed.
(** The underline of Text, whose position is its baseline, is more than the font size below the baseline. *)
Theorem C65_underline_of_text_refuted :
  exists content, outcome F64 (norot F64) (dpage F64) [SetFont F64 0 dfont (z 12) styUnderline; Text F64 (bs "ab")] = Some content /\
     textsAt content = [[wd "10.00"; wd "780.00"]] /\ paths content = [[([wd "10.00"; wd "767.34"; wd "12.00"; wd "0.60"], bs "re")]].
Proof. eexists; (split; [vm_compute; reflexivity|]); split; vm_compute; reflexivity. Qed.
(** A cell without rectangle that directly follows a Text has no border: it becomes part of the text. *)
Theorem C65_merged_border_refuted :
  exists content, outcome F64 (norot F64) (dpage F64)
     [SetFont F64 0 dfont (z 12) 0; Text F64 (bs "a"); CellOpt F64 None (bs "b") (Build_cellopt F64 9 15 oRight (z 0) (z 0) (z 0) []) None] = Some content /\ marks content = [].
Proof. eexists; (split; [vm_compute; reflexivity|]); vm_compute; reflexivity. Qed.
Print Assumptions C65_decorations_as_asked.
Print Assumptions C65_one_cell.
Print Assumptions C65_merged_border_refuted.
Print Assumptions C65_underline_alignment_refuted.
Print Assumptions C65_underline_baseline.
Print Assumptions C65_underline_of_text_refuted.
