(** PropLinks.v — C41 for every history: the links of each page, SetPage, masked images, callbacks and repeated pages included. *)
From Verif Require RefModel PropRef2.
From Verif Require Import Base DocModel DocSpec DocProofs DocInv PropDoc PropMarks.
Open Scope Z_scope.

(** The part of an object that only AddPage and AddLink create or change. *)
Inductive lpart := LP (links : list Z) | LA (k : link) | LN.
Definition ln (o : obj) : lpart := match o with OPage p => LP (pg_links p) | OAnnot k => LA k | _ => LN end.
Definition Lv (l l' : list obj) : Prop := exists k, map ln l' = map ln l ++ repeat LN k.
Lemma Lv_refl l : Lv l l.
Proof. exists O. now rewrite app_nil_r. Qed.
Lemma Lv_trans a b c : Lv a b -> Lv b c -> Lv a c.
Proof. intros (k & H) (m & G). exists (k + m)%nat. now rewrite G, H, repeat_app, app_assoc. Qed.
Lemma Lv_snoc l o : ln o = LN -> Lv l (l ++ [o]).
Proof. intros H. exists 1%nat. rewrite map_app. cbn. now rewrite H. Qed.
Lemma Lv_upd l i f : (forall o, ln (f o) = ln o) -> Lv l (upd l i f).
Proof.
  intros H. exists O. rewrite app_nil_r. revert i; induction l as [|o l IH]; intros [|i]; cbn; try reflexivity; [now rewrite H|now rewrite IH].
Qed.

Definition Lf (s s' : gp) : Prop := keep s s' /\ Lv (g_objs s) (g_objs s').
Lemma Lf_refl s : Lf s s.
Proof. split; [repeat split|apply Lv_refl]. Qed.
Lemma Lf_trans a b c : Lf a b -> Lf b c -> Lf a c.
Proof.
  intros [K1 E1] [K2 E2]. split; [|eapply Lv_trans; eauto].
  unfold keep in *. intuition congruence.
Qed.
Lemma Lf_addObj s o : ln o = LN -> Lf s (snd (addObj o s)).
Proof. intros H. split; [repeat split|]. now apply Lv_snoc. Qed.
Ltac lf_same := split; [repeat split|apply Lv_refl].

Lemma Lf_getContent s : Lf s (snd (getContent s)).
Proof.
  unfold getContent. destruct (g_content s); [apply Lf_refl|]. cbn. split; [repeat split|]. cbn. now apply Lv_snoc.
Qed.
Lemma Lf_append s i it : Lf s (append_item i it s).
Proof. split; [repeat split|]. cbn. apply Lv_upd. now intros []. Qed.
Lemma Lf_draw s np it : Lf s (fst (draw np it s)).
Proof.
  unfold draw. pose proof (Lf_getContent s) as H. destruct (getContent s) as [i s1]. cbn [snd] in H.
  destruct (g_pagesize s1); cbn [fst]; [eapply Lf_trans; [exact H|apply Lf_append]|].
  destruct np; cbn [fst]; [exact H|eapply Lf_trans; [exact H|apply Lf_append]].
Qed.
Lemma Lf_addFont s fam st : Lf s (fst (addFont fam st s)).
Proof.
  unfold addFont. cbn [addObj].
  match goal with |- context [if ?c then _ else _] => destruct c end;
    (split; [repeat split|]; cbn; rewrite <- !app_assoc; exists 5%nat; rewrite map_app; reflexivity).
Qed.
Lemma Lf_setFont s fam st sz : Lf s (fst (setFont fam st sz s)).
Proof. unfold setFont. destruct (find_font _ _ _ _) as [[i f]|]; lf_same. Qed.
Lemma Lf_setPage s n : Lf s (fst (setPage n s)).
Proof. unfold setPage. destruct (find_content _ _ _ _); lf_same. Qed.
Lemma Lf_getCached e s : Lf s (snd (getCachedExtGState e s)).
Proof.
  unfold getCachedExtGState. destruct (lookup _ _); [apply Lf_refl|]. cbn. split; [repeat split|]. cbn. now apply Lv_snoc.
Qed.
Lemma Lf_saveTr a b s : Lf s (snd (saveTransparency a b s)).
Proof.
  unfold saveTransparency. destruct (lookup _ _); [apply Lf_refl|]. destruct (Qeq_bool a 1); [apply Lf_refl|].
  match goal with |- context [getCachedExtGState ?e s] => pose proof (Lf_getCached e s) as H; destruct (getCachedExtGState e s) as [i s1] end.
  cbn [snd] in *. eapply Lf_trans; [exact H|lf_same].
Qed.
Lemma Lf_image b id im gs s : Lf s (fst (imageByHolder b id im gs s)).
Proof.
  unfold imageByHolder. destruct (lookup _ _); [apply Lf_draw|]. destruct (im_ok im); [|apply Lf_refl].
  cbn [addObj]. set (s1 := set_objs _ s).
  assert (H : Lf s s1) by (now apply (Lf_addObj s (OImage im (if b then Split else Plain)))). clearbody s1.
  match goal with |- context [draw true ?it s1] => pose proof (Lf_draw s1 true it) as H1; destruct (draw true it s1) as [s2 r2] end.
  cbn [fst] in H1. assert (H2 : Lf s s2) by (eapply Lf_trans; eauto).
  destruct r2; cbn [fst]; try exact H2.
  match goal with |- Lf s (if im_indexed im then ?a else ?b) => assert (H3 : Lf s b) end.
  { destruct (im_alpha im); cbn; (eapply Lf_trans; [exact H2|]); [|lf_same]. split; [repeat split|]. cbn. now apply Lv_snoc. }
  destruct (im_indexed im); [|exact H3]. eapply Lf_trans; [exact H3|]. now apply Lf_addObj.
Qed.
Lemma Lf_mask id im s : Lf s (fst (fst (maskHolder id im s))).
Proof.
  unfold maskHolder.
  assert (H : Lf s (fst (fst (maskImage id im s)))).
  { unfold maskImage. destruct (lookup _ _).
    - pose proof (Lf_getContent s). destruct (getContent s). exact H.
    - destruct (im_ok im); [|apply Lf_refl]. cbn [addObj]. set (s1 := set_objs _ s).
      assert (H : Lf s s1) by (now apply (Lf_addObj s (OImage im AsMask))). clearbody s1.
      pose proof (Lf_getContent s1) as H1. destruct (getContent s1) as [i s2]. cbn [snd] in H1.
      assert (H2 : Lf s s2) by (eapply Lf_trans; eauto).
      destruct (g_pagesize s2); cbn [fst]; [|exact H2]. eapply Lf_trans; [exact H2|lf_same]. }
  destruct (maskImage id im s) as [[s1 r1] ix]. cbn [fst] in H. destruct r1; try exact H.
  destruct (g_pagesize s1); [|exact H].
  assert (H1 : Lf s (snd (addObj (OXGroup ix) s1))) by (eapply Lf_trans; [exact H|now apply Lf_addObj]).
  destruct (addObj (OXGroup ix) s1) as [grp s1']. cbn [snd] in H1.
  assert (H2 : Lf s (snd (addObj (OMask grp) s1'))) by (eapply Lf_trans; [exact H1|now apply Lf_addObj]).
  destruct (addObj (OMask grp) s1') as [mi s2]. cbn [snd] in H2.
  match goal with |- context [getCachedExtGState ?e s2] => pose proof (Lf_getCached e s2) as H3; destruct (getCachedExtGState e s2) as [i s3] end.
  cbn [fst snd] in *. eapply Lf_trans; eauto.
Qed.
Lemma Lf_import objs start : forall ks s,
  Lf s (fold_left (fun s k => match zlookup (start + Z.of_nat k) objs with
                        | Some (b :: d) => snd (addObj (OImported (b :: d)) s)
                        | _ => s end) ks s).
Proof.
  induction ks as [|k ks IH]; intros s; [apply Lf_refl|]. cbn [fold_left].
  eapply Lf_trans; [|apply IH]. destruct (zlookup _ objs) as [[|b dt]|]; try apply Lf_refl. now apply Lf_addObj.
Qed.
Lemma Lf_addCs n s : Lf s (fst (addColorSpace n s)).
Proof.
  unfold addColorSpace. cbn [addObj]. destruct (existsb _ _); (split; [repeat split|]; cbn; now apply Lv_snoc).
Qed.

Lemma Lf_sop s o : is_addoutline o = false -> (forall k, o <> AddLink k) -> Lf s (fst (sstep s o)).
Proof.
  intros N NL. destruct o; try discriminate; cbn [sstep]; try lf_same; try (destruct (NL l); reflexivity).
  - apply Lf_draw.
  - apply Lf_draw.
  - unfold text. destruct (g_font s); [apply Lf_draw|apply Lf_refl].
  - apply Lf_setPage.
  - apply Lf_addFont.
  - apply Lf_setFont.
  - apply Lf_image.
  - pose proof (Lf_mask mid mim s) as H. destruct (maskHolder mid mim s) as [[s1 r1] e]. cbn [fst] in H.
    destruct r1; try exact H. eapply Lf_trans; [exact H|apply Lf_image].
  - apply Lf_import.
  - apply Lf_addCs.
  - unfold setColorSpace. destruct (find_cs _ _); [apply Lf_draw|apply Lf_refl].
  - pose proof (Lf_saveTr alpha bm s) as H. destruct (saveTransparency alpha bm s) as [t s1]. cbn [fst snd] in *.
    eapply Lf_trans; [exact H|lf_same].
  - unfold setCompressLevel. destruct (l <? -2); [lf_same|]. destruct (9 <? l); lf_same.
Qed.
Lemma Lf_outline t w s : Lv (g_objs s) (g_objs (fst (addOutline t w s))).
Proof.
  destruct (addOutline_eq t w s) as (E & _). cbv zeta in E. rewrite E. destruct (g_outl_lastobj s); [|now apply Lv_snoc].
  eapply Lv_trans; [|apply Lv_upd; now intros []]. now apply Lv_snoc.
Qed.
Lemma output_ln s : Lv (g_objs s) (g_objs (output s)).
Proof.
  unfold output. cbn [g_objs set_objs]. destruct (prepare_eq s) as (P & _). rewrite P. exists (if cf_protect (g_cfg s) then 1%nat else O).
  assert (E : forall l, map ln (map written_obj l) = map ln l) by (intros l; rewrite map_map; apply map_ext; now intros []).
  assert (Q : forall l i, map ln (prep_objs l i) = map ln l).
  { induction l as [|o l IH]; intros i; [reflexivity|]. cbn [prep_objs map]. rewrite IH. f_equal. now destruct o. }
  rewrite E, Q, map_app. now destruct (cf_protect (g_cfg s)).
Qed.

(** ** Specification: the links the calls ask for, each with the number (from 1) of the last page added *)
Record linked_doc := { ld_pages : nat; ld_height : Q; ld_links : list (nat * shown_link); ld_header : option (list sop); ld_footer : option (list sop) }.
Definition l_sop (m : linked_doc) (o : sop) : linked_doc :=
  match o with
  | AddLink k => {| ld_pages := ld_pages m; ld_height := ld_height m;
      ld_links := ld_links m ++ [(ld_pages m, {| sl_x := lk_x k; sl_y := (ld_height m - lk_y k)%Q; sl_w := lk_w k; sl_h := lk_h k; sl_url := lk_url k; sl_anchor := lk_anchor k |})];
      ld_header := ld_header m; ld_footer := ld_footer m |}
  | _ => m
  end.
Definition l_sops (m : linked_doc) (f : option (list sop)) : linked_doc := match f with None => m | Some l => fold_left l_sop l m end.
Definition l_op (m : linked_doc) (o : op) : linked_doc :=
  match o with
  | Do o => l_sop m o
  | AddPage _ =>
      let m := {| ld_pages := S (ld_pages m); ld_height := ld_height m; ld_links := ld_links m; ld_header := ld_header m; ld_footer := ld_footer m |} in
      l_sops (l_sops m (ld_header m)) (ld_footer m)
  | Start c => {| ld_pages := 0; ld_height := r_h (cf_page c); ld_links := []; ld_header := ld_header m; ld_footer := ld_footer m |}
  | AddHeader f => {| ld_pages := ld_pages m; ld_height := ld_height m; ld_links := ld_links m; ld_header := f; ld_footer := ld_footer m |}
  | AddFooter f => {| ld_pages := ld_pages m; ld_height := ld_height m; ld_links := ld_links m; ld_header := ld_header m; ld_footer := f |}
  | Output => m
  end.
Definition links_asked (c : config) (l : list op) : linked_doc :=
  fold_left l_op l {| ld_pages := 0; ld_height := r_h (cf_page c); ld_links := []; ld_header := None; ld_footer := None |}.
Definition links_on (k : nat) (m : linked_doc) : list shown_link := map snd (filter (fun x => Nat.eqb (fst x) k) (ld_links m)).

(** ** The invariant *)
Definition page_links (s : gp) (ks : list shown_link) (p : nat) : Prop := exists pg, nth_error (g_objs s) p = Some (OPage pg) /\ map (link_no s) (pg_links pg) = map Some ks.
Record L (s : gp) (m : linked_doc) : Prop := {
  l_count : List.length (pages_at s) = ld_pages m;
  l_page : g_page s = pageof (pages_at s) (ld_pages m);
  l_height : r_h (cf_page (g_cfg s)) = ld_height m;
  l_links : forall j p, nth_error (pages_at s) j = Some p -> page_links s (links_on (S j) m) p;
  l_bound : Forall (fun x => (fst x <= ld_pages m)%nat) (ld_links m);
  l_h : g_header s = ld_header m; l_f : g_footer s = ld_footer m }.

Lemma Lv_nth l l' i o : Lv l l' -> nth_error l i = Some o -> exists o', nth_error l' i = Some o' /\ ln o' = ln o.
Proof.
  intros (k & E) N. assert (X : nth_error (map ln l') i = Some (ln o)) by (rewrite E, nth_error_app1 by (rewrite map_length; apply nth_error_Some; congruence); now rewrite nth_error_map, N).
  rewrite nth_error_map in X. destruct (nth_error l' i) as [o'|]; [|discriminate]. exists o'. split; [reflexivity|]. now injection X.
Qed.
Lemma link_no_kept s s' n x : Lv (g_objs s) (g_objs s') -> link_no s n = Some x -> link_no s' n = Some x.
Proof.
  intros E. unfold link_no, obj_no. destruct (n <=? 0); [discriminate|]. destruct (nth_error (g_objs s) _) as [o|] eqn:N; [|discriminate]. destruct (Lv_nth _ _ _ _ E N) as (o' & N' & Q). rewrite N'.
  destruct o; try discriminate. destruct o'; try discriminate. cbn in Q. now injection Q as ->.
Qed.
Lemma links_kept s s' ks : Lv (g_objs s) (g_objs s') -> forall ns, map (link_no s) ns = map Some ks -> map (link_no s') ns = map Some ks.
Proof.
  intros E. induction ks as [|k ks IH]; intros [|n ns] H; try discriminate; [reflexivity|]. cbn [map] in *. injection H as H1 H2. rewrite (link_no_kept s s' n k E H1). f_equal. now apply IH.
Qed.
Lemma page_links_kept s s' ks p : Lv (g_objs s) (g_objs s') -> page_links s ks p -> page_links s' ks p.
Proof.
  intros E (pg & N & H). destruct (Lv_nth _ _ _ _ E N) as (o' & N' & Q). destruct o'; try discriminate. cbn in Q. injection Q as Q. exists p0. split; [exact N'|]. rewrite Q. now apply (links_kept s).
Qed.
Lemma L_frame s s' m : L s m -> Lv (g_objs s) (g_objs s') -> pages_at s' = pages_at s -> g_page s' = g_page s -> g_cfg s' = g_cfg s -> g_header s' = g_header s -> g_footer s' = g_footer s -> L s' m.
Proof.
  intros [A B C D E H1 H2] LV P GP GC GH GF. constructor; try rewrite P; try congruence; try assumption. intros j p N. apply (page_links_kept s); [exact LV|]. now apply D.
Qed.
Lemma Ev_pages s s' : Ev (g_objs s) (g_objs s') -> pages_at s' = pages_at s.
Proof. intros (k & E). unfold pages_at. now rewrite E, kpos_app, kpos_none, app_nil_r. Qed.
Lemma pages_at_page s j p : nth_error (pages_at s) j = Some p -> exists pg, nth_error (g_objs s) p = Some (OPage pg).
Proof.
  unfold pages_at. assert (G : forall l i j p, nth_error (kpos (map sk l) i) j = Some p -> (i <= p)%nat /\ exists pg, nth_error l (p - i) = Some (OPage pg)).
  { induction l as [|o l IH]; intros i j0 p0 H; [destruct j0; discriminate|]. cbn [map kpos] in H.
    assert (D : (exists pg, o = OPage pg) \/ match sk o with Some (KPage _) => [i] | _ => [] end = []) by (destruct o; cbn; eauto).
    destruct D as [(pg & ->)|D].
    - cbn in H. destruct j0 as [|j0]; [injection H as <-; rewrite Nat.sub_diag; split; [lia|now exists pg]|]. cbn in H. destruct (IH _ _ _ H) as (A & pg' & B). split; [lia|]. exists pg'. replace (p0 - i)%nat with (S (p0 - S i)) by lia. exact B.
    - rewrite D in H. cbn [app] in H. destruct (IH _ _ _ H) as (A & pg' & B). split; [lia|]. exists pg'. replace (p0 - i)%nat with (S (p0 - S i)) by lia. exact B. }
  intros H. destruct (G _ _ _ _ H) as (_ & pg & B). rewrite Nat.sub_0_r in B. eauto.
Qed.
Lemma pages_at_nodup s j j' p : nth_error (pages_at s) j = Some p -> nth_error (pages_at s) j' = Some p -> j = j'.
Proof.
  assert (ND : NoDup (pages_at s)).
  { unfold pages_at. pose proof (prep_kids_nodup (g_objs s) 0) as H. rewrite kpos_prep in H. now apply NoDup_map_inv in H. }
  intros A B. apply (NoDup_nth_error (pages_at s)); [exact ND| |congruence]. apply nth_error_Some. congruence.
Qed.
Lemma links_on_snoc k m x h f n hh : links_on k {| ld_pages := n; ld_height := hh; ld_links := ld_links m ++ [x]; ld_header := h; ld_footer := f |} = links_on k m ++ (if Nat.eqb (fst x) k then [snd x] else []).
Proof. unfold links_on. cbn [ld_links]. rewrite filter_app, map_app. cbn [filter]. destruct (Nat.eqb (fst x) k); reflexivity. Qed.
Lemma L_addlink s m k : L s m -> snd (addLink k s) <> Panic -> L (fst (addLink k s)) (l_sop m (AddLink k)).
Proof.
  intros I NP. unfold addLink in *. destruct (g_page s) as [p|] eqn:GP; [|destruct NP; reflexivity]. cbn [addObj fst] in *. clear NP. destruct I as [A B C D E H1 H2].
  set (k' := Build_link _ _ _ _ _ _). set (s' := set_objs _ _). rewrite GP in B. cbn [l_sop]. set (sl := Build_shown_link _ _ _ _ _ _).
  assert (PA : pages_at s' = pages_at s) by (apply Ev_pages; pose proof (F_link k s) as [_ X]; unfold addLink in X; rewrite GP in X; exact X).
  destruct (ld_pages m) as [|j0] eqn:LDP; [discriminate B|]. cbn [pageof] in B. symmetry in B. destruct (pages_at_page _ _ _ B) as (pg & NP).
  assert (LT : (p < List.length (g_objs s))%nat) by (apply nth_error_Some; congruence).
  set (addl := fun o => match o with OPage pg => OPage {| pg_size := pg_size pg; pg_contents := pg_contents pg; pg_links := pg_links pg ++ [Z.of_nat (List.length (g_objs s)) + 1] |} | _ => o end).
  assert (NTH : forall i o, nth_error (g_objs s) i = Some o -> nth_error (g_objs s') i = Some (if Nat.eqb p i then addl o else o)).
  { intros i o N. change (g_objs s') with (upd (g_objs s ++ [OAnnot k']) p addl). rewrite nth_upd, nth_error_app1 by (apply nth_error_Some; congruence). rewrite N. destruct (Nat.eqb p i); reflexivity. }
  assert (KEPT : forall n x, link_no s n = Some x -> link_no s' n = Some x).
  { intros n x. unfold link_no, obj_no. destruct (n <=? 0); [discriminate|]. destruct (nth_error (g_objs s) (Z.to_nat (n - 1))) as [o|] eqn:N; [|discriminate]. rewrite (NTH _ _ N). destruct o; try discriminate. destruct (Nat.eqb p _); exact (fun H => H). }
  assert (KEPTS : forall ks ns, map (link_no s) ns = map Some ks -> map (link_no s') ns = map Some ks).
  { induction ks as [|x ks IH]; intros [|n ns] H; try discriminate; [reflexivity|]. cbn [map] in *. injection H as Hx Hr. now rewrite (KEPT _ _ Hx), (IH _ Hr). }
  assert (NEW : link_no s' (Z.of_nat (List.length (g_objs s)) + 1) = Some sl).
  { unfold link_no, obj_no. replace (Z.of_nat (List.length (g_objs s)) + 1 <=? 0) with false by lia. replace (Z.to_nat (Z.of_nat (List.length (g_objs s)) + 1 - 1)) with (List.length (g_objs s)) by lia.
    change (g_objs s') with (upd (g_objs s ++ [OAnnot k']) p addl). rewrite nth_upd. replace (Nat.eqb p (List.length (g_objs s))) with false by (symmetry; apply Nat.eqb_neq; lia). rewrite nth_error_app2, Nat.sub_diag by lia. cbn.
    unfold sl. now rewrite <- C. }
  constructor; cbn [ld_pages ld_height ld_links ld_header ld_footer]; try rewrite PA; try assumption.
  - cbn [pageof]. rewrite B. exact GP.
  - intros j q N. rewrite links_on_snoc. cbn [fst snd]. destruct (D j q N) as (pg' & N' & LNK). unfold page_links. rewrite (NTH _ _ N').
    destruct (Nat.eqb_spec p q) as [<-|NE].
    + rewrite (pages_at_nodup _ _ _ _ N B). rewrite Nat.eqb_refl. eexists. split; [reflexivity|]. cbn [pg_links]. rewrite !map_app. rewrite (pages_at_nodup _ _ _ _ N B) in LNK. rewrite (KEPTS _ _ LNK). cbn [map]. now rewrite NEW.
    + destruct (Nat.eqb_spec (S j0) (S j)) as [EJ|_]; [destruct NE; congruence|]. rewrite app_nil_r. exists pg'. split; [reflexivity|]. now apply KEPTS.
  - apply Forall_app. split; [exact E|]. constructor; [cbn; lia|constructor].
Qed.
Lemma L_sop s m o : L s m -> snd (sstep s o) <> Panic -> L (fst (sstep s o)) (l_sop m o).
Proof.
  intros I NP. destruct (is_addoutline o) eqn:N.
  - assert (X : exists t w, (o = if w : bool then AddOutlinePos t else AddOutline t)) by (destruct o; try discriminate; [exists title, false|exists title, true]; reflexivity). destruct X as (t & w & ->).
    assert (E : fst (sstep s (if w then AddOutlinePos t else AddOutline t)) = fst (addOutline t w s)) by (destruct w; reflexivity). rewrite E. replace (l_sop m _) with m by (destruct w; reflexivity).
    destruct (addOutline_eq t w s) as (E1 & _ & _ & _ & _ & _ & _ & _ & E9 & E10 & E11 & E12). cbv zeta in *. apply (L_frame s); try assumption; [apply Lf_outline|].
    unfold pages_at. rewrite E1. destruct (g_outl_lastobj s) as [j|]; [rewrite kpos_next|]; rewrite map_app, kpos_app; cbn; apply app_nil_r.
  - assert (H : (exists k, o = AddLink k) \/ (forall k, o <> AddLink k)) by (destruct o; try (right; intros ?; discriminate); left; eexists; reflexivity).
    destruct H as [(k & ->)|H]; [exact (L_addlink s m k I NP)|]. replace (l_sop m o) with m by (destruct o; try reflexivity; destruct (H l); reflexivity).
    destruct (Lf_sop s o N H) as [K LV]. destruct (F_sop s o N) as [_ EV]. unfold keep in K. apply (L_frame s); try assumption; try apply K. now apply Ev_pages.
Qed.
Lemma L_sops l : forall s m, L s m -> snd (run_sops s l) <> Panic -> L (fst (run_sops s l)) (fold_left l_sop l m).
Proof.
  induction l as [|o l IH]; intros s m I NP; [exact I|]. cbn [run_sops fold_left] in *. pose proof (L_sop s m o I) as I'. destruct (sstep s o) as [s1 r]. cbn [fst snd] in I'.
  destruct r; try (apply (IH _ _ (I' ltac:(discriminate)) NP)). destruct NP; reflexivity.
Qed.
Lemma L_reset s m : L s m -> L (resetXY s) m.
Proof. intros [A B C D E H1 H2]. constructor; assumption. Qed.
Lemma L_callback f s m : L s m -> let r := match f with None => (s, Ok) | Some f => match run_sops s f with (s, Panic) => (s, Panic) | (s, _) => (resetXY s, Ok) end end in
  snd r <> Panic -> L (fst r) (l_sops m f).
Proof.
  cbv zeta. intros I. destruct f as [f|]; cbn [l_sops]; [|intros _; exact I]. pose proof (L_sops f s m I) as H. destruct (run_sops s f) as [s1 r1]. cbn [fst snd] in H.
  destruct r1; cbn [fst snd]; intros NP; try (apply L_reset, H; discriminate). destruct NP; reflexivity.
Qed.
Lemma l_sops_cb f m : ld_header (l_sops m f) = ld_header m /\ ld_footer (l_sops m f) = ld_footer m.
Proof.
  destruct f as [l|]; [|split; reflexivity]. cbn [l_sops]. revert m. induction l as [|o l IH]; intros m; [split; reflexivity|]. cbn [fold_left]. destruct (IH (l_sop m o)) as (A & B). rewrite A, B. destruct o; split; reflexivity.
Qed.
Lemma L_addpage s m sz : L s m -> snd (addPage sz s) <> Panic -> L (fst (addPage sz s)) (l_op m (AddPage sz)).
Proof.
  intros I. unfold addPage. cbn [addObj]. set (s1 := resetXY _). cbn [l_op]. set (m1 := Build_linked_doc (S (ld_pages m)) (ld_height m) (ld_links m) (ld_header m) (ld_footer m)).
  assert (I1 : L s1 m1).
  { destruct I as [A B C D E H1 H2].
    set (pg0 := {| pg_size := sz; pg_contents := []; pg_links := [] |}).
    assert (OB : g_objs s1 = g_objs s ++ [OPage pg0]) by reflexivity.
    assert (P : pages_at s1 = pages_at s ++ [List.length (g_objs s)]) by (unfold pages_at; rewrite OB, map_app, kpos_app, map_length; reflexivity).
    assert (KEPT : forall n x, link_no s n = Some x -> link_no s1 n = Some x).
    { intros n x. unfold link_no, obj_no. destruct (n <=? 0); [discriminate|]. rewrite OB. destruct (nth_error (g_objs s) (Z.to_nat (n - 1))) as [o|] eqn:N; [|discriminate]. now rewrite nth_error_app1, N by (apply nth_error_Some; congruence). }
    assert (KEPTS : forall ks ns, map (link_no s) ns = map Some ks -> map (link_no s1) ns = map Some ks).
    { induction ks as [|x ks IH]; intros [|n ns] H; try discriminate; [reflexivity|]. cbn [map] in *. injection H as Hx Hr. now rewrite (KEPT _ _ Hx), (IH _ Hr). }
    constructor; cbn [m1 ld_pages ld_height ld_links ld_header ld_footer]; try assumption.
    - rewrite P, app_length, A. cbn. lia.
    - unfold s1. cbn [g_page set_content set_npages set_page resetXY set_x set_y set_objs]. fold s1. rewrite P. cbn [pageof]. rewrite nth_error_app2 by lia. replace (ld_pages m - List.length (pages_at s))%nat with O by lia. reflexivity.
    - intros j p N. change (links_on (S j) m1) with (links_on (S j) m). rewrite P in N. destruct (Nat.lt_ge_cases j (List.length (pages_at s))) as [LT|GE].
      + rewrite nth_error_app1 in N by exact LT. destruct (D j p N) as (pg & N' & LNK). exists pg. split; [rewrite OB, nth_error_app1 by (apply nth_error_Some; congruence); exact N'|]. now apply KEPTS.
      + rewrite nth_error_app2 in N by exact GE. destruct (j - List.length (pages_at s))%nat as [|z] eqn:EJ; [|destruct z; discriminate N]. injection N as <-. exists pg0. split; [rewrite OB, nth_error_app2, Nat.sub_diag by lia; reflexivity|].
        unfold links_on. replace (filter _ (ld_links m)) with (@nil (nat * shown_link)); [reflexivity|]. symmetry. clear - E GE A. induction E as [|x xs H E IH]; [reflexivity|]. cbn [filter]. replace (Nat.eqb (fst x) (S j)) with false by (symmetry; apply Nat.eqb_neq; lia). exact IH.
    - eapply Forall_impl; [|exact E]. cbv beta. lia. }
  clearbody s1. clear I. pose proof (l_h _ _ I1) as GH. pose proof (L_callback (g_header s1) s1 m1 I1) as CB. cbv zeta in CB.
  destruct (match g_header s1 with None => (s1, Ok) | Some f => _ end) as [s2 r2] eqn:R2. cbn [fst snd] in CB. intros NP.
  assert (N2 : r2 <> Panic) by (intros ->; apply NP; reflexivity). pose proof (CB N2) as I2. rewrite GH in I2. pose proof (l_f _ _ I2) as GF.
  assert (EF : ld_footer (l_sops m1 (ld_header m1)) = ld_footer m1) by apply l_sops_cb. rewrite EF in GF.
  pose proof (L_callback (g_footer s2) s2 _ I2) as CB2. cbv zeta in CB2. replace (l_sops (l_sops m1 (ld_header m1)) (g_footer s2)) with (l_sops (l_sops m1 (ld_header m1)) (ld_footer m1)) in CB2 by now rewrite GF. change (ld_header m1) with (ld_header m) in *. change (ld_footer m1) with (ld_footer m) in *.
  destruct r2; try (apply CB2; exact NP). destruct N2; reflexivity.
Qed.
Lemma L_output s m : L s m -> L (output s) m.
Proof.
  intros I. destruct (output_keep s) as (_ & _ & _ & _ & K5 & K6 & K7). apply (L_frame s); try assumption; [apply output_ln|apply Ev_pages, output_sk|].
  unfold output, prepare. cbn [set_objs g_cfg set_kids set_pagecount set_encid]. destruct (cf_protect (g_cfg s)); cbn [addObj snd set_objs g_outl_count]; destruct (0 <? g_outl_count s); reflexivity.
Qed.
Lemma L_start c s m : L s m -> L (start c s) (l_op m (Start c)).
Proof. intros [_ _ _ _ _ H1 H2]. cbn [l_op]. constructor; [reflexivity|reflexivity|reflexivity|intros [|j] p N; discriminate N|constructor|exact H1|exact H2]. Qed.
Lemma L_op s m o : L s m -> snd (step s o) <> Panic -> L (fst (step s o)) (l_op m o).
Proof.
  intros I. destruct o as [o|c|size|f|f|].
  - exact (L_sop s m o I).
  - intros _. exact (L_start c s m I).
  - exact (L_addpage s m size I).
  - intros _. destruct I as [A B C D E H1 H2]. constructor; [assumption..|reflexivity|assumption].
  - intros _. destruct I as [A B C D E H1 H2]. constructor; [assumption..|reflexivity].
  - intros _. exact (L_output s m I).
Qed.
Lemma L_exec l : forall s m, L s m -> RefModel.finishes s l -> L (exec s l) (fold_left l_op l m).
Proof. induction l as [|o l IH]; intros s m I F; [exact I|]. destruct F as [NP F]. exact (IH _ _ (L_op s m o I NP) F). Qed.
Lemma L_doc c l : RefModel.finishes (start c zero_gp) l -> L (output (doc c l)) (links_asked c l).
Proof.
  intros F. apply L_output. unfold doc, links_asked. apply L_exec; [|exact F]. constructor; [reflexivity|reflexivity|reflexivity|intros [|j] p N; discriminate N|constructor|reflexivity|reflexivity].
Qed.

(** ** C41 for every history *)
(** The page list of the document has one entry per page, and the links read from the [j]-th page are those the calls asked for while
    it was the last page added, in order, at the rectangles asked for (measured from the bottom of the document's page size). *)
Theorem C41_links_of_every_page :
  forall (c : config) (l : list op), no_output l = true -> RefModel.finishes (start c zero_gp) l ->
    let t := output (doc c l) in let m := links_asked c l in
    map (option_map sh_links) (read_pages t) = map (fun j => Some (map Some (links_on (S j) m))) (seq 0 (ld_pages m)).
Proof.
  intros c l N F. cbv zeta. pose proof (L_doc c l F) as I. pose proof (kids_pages c l N) as K. cbv zeta in K. set (t := output (doc c l)) in *. set (m := links_asked c l) in *. clearbody t m.
  unfold read_pages. rewrite K, !map_map. rewrite <- (l_count _ _ I). pose proof (l_links _ _ I) as D. clear - D. revert D. generalize (pages_at t). intros ps D.
  assert (G : forall ps b, (forall j p, nth_error ps j = Some p -> page_links t (links_on (S (b + j)) m) p) ->
    map (fun x => option_map sh_links (read_page t (Z.of_nat x + 1))) ps = map (fun j => Some (map Some (links_on (S j) m))) (seq b (List.length ps))); [|now apply G].
  clear D ps. induction ps as [|p ps IH]; intros b D; [reflexivity|]. cbn [map List.length seq]. f_equal.
  - destruct (D O p eq_refl) as (pg & NP & LNK). rewrite Nat.add_0_r in LNK. unfold read_page. rewrite obj_no_of_nat, NP. cbn [option_map sh_links]. now rewrite LNK.
  - apply IH. intros j q H. replace (S b + j)%nat with (b + S j)%nat by lia. now apply D.
Qed.
Print Assumptions C41_links_of_every_page.
Definition k1 (u a : string) : link := {| lk_x := 1; lk_y := 2; lk_w := 3; lk_h := 4; lk_url := bs u; lk_anchor := bs a |}.
Definition linktour : list op :=
  [ AddFooter (Some [AddLink (k1 "http://foot" "")]); AddPage None; Do (Draw false (bs "a")); Do (AddLink (k1 "http://one" "")); AddFooter None; AddPage (Some small); Do (Draw false (bs "b"));
    Do (SetAnchor (bs "here")); Do (SetPage 1); Do (AddLink (k1 "" "here")); Do (Image (bs "a.png") pic); AddPage None ].
Example C41_all_met : no_output linktour = true /\ RefModel.finishes (start a4 zero_gp) linktour /\
  map (fun j => map (fun k => (sl_url k, sl_anchor k)) (links_on (S j) (links_asked a4 linktour))) (seq 0 3) = [[(bs "http://foot", []); (bs "http://one", [])]; [([], bs "here")]; []].
Proof. split; [reflexivity|]. split; [apply PropRef2.finishesb_ok; vm_compute; reflexivity|]. vm_compute. reflexivity. Qed.
