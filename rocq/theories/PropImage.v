(** PropImage.v — C36: images are embedded once and referenced correctly, for all histories (masks, SetPage,
    callbacks, repeated output included). *)
From Verif Require Import Base DocModel DocSpec DocProofs DocInv PropDoc.

(** ** Specification *)
(** Where each image source (its identifier) has one content [src], and is used in one way [role]: drawn plainly, drawn
    under a mask, or used as a mask. *)
Section Sources.
Variable src : bytes -> imgdesc.
Variable role : bytes -> imguse.
Definition source_sop (o : sop) : Prop :=
  match o with
  | Image id im => src id = im /\ role id = Plain
  | ImageMasked id im mid mim => src id = im /\ role id = Split /\ src mid = mim /\ role mid = AsMask
  | _ => True
  end.
Definition source_op (o : op) : Prop :=
  match o with
  | Do o => source_sop o
  | AddHeader (Some l) | AddFooter (Some l) => Forall source_sop l
  | _ => True
  end.
End Sources.
(** Image objects in the document. *)
Definition is_image (o : obj) : bool := match o with OImage _ _ => true | _ => false end.
Definition image_objects (s : gp) : nat := List.length (filter is_image (g_objs s)).
Definition current_content (s : gp) : list item :=
  match g_content s with
  | Some i => match nth_error (g_objs s) i with Some (OContent l) => l | _ => [] end
  | None => []
  end.

(** ** What later calls cannot undo *)
Record omono (a b : list obj) : Prop := {
  om_img : forall i o, static o = true -> nth_error a i = Some o -> nth_error b i = Some o;
  om_it : forall ci l, nth_error a ci = Some (OContent l) -> exists l', nth_error b ci = Some (OContent l') /\
            forall n i gs, nth_error l n = Some (IImage i gs) -> nth_error l' n = Some (IImage i gs) }.
Lemma om_refl a : omono a a.
Proof. constructor; eauto. Qed.
Lemma om_trans a b c : omono a b -> omono b c -> omono a c.
Proof.
  intros [A1 A2] [B1 B2]. constructor; [eauto|]. intros ci l H. destruct (A2 ci l H) as (l1 & H1 & K1). destruct (B2 ci l1 H1) as (l2 & H2 & K2).
  exists l2. split; [exact H2|]. intros n i gs H3. apply K2, (K1 n i gs), H3.
Qed.
Lemma om_app a k : omono a (a ++ k).
Proof.
  assert (N : forall i (o : obj), nth_error a i = Some o -> nth_error (a ++ k) i = Some o) by (intros i o H; rewrite nth_error_app1; [exact H|apply nth_error_Some; congruence]).
  constructor; [eauto|]. intros ci l H. exists l. split; [now apply N|auto].
Qed.
Definition gentle (f : obj -> obj) : Prop :=
  (forall o, static o = true -> f o = o) /\
  (forall l, exists l', f (OContent l) = OContent l' /\ forall n i gs, nth_error l n = Some (IImage i gs) -> nth_error l' n = Some (IImage i gs)).
Lemma om_upd a i f : gentle f -> omono a (upd a i f).
Proof.
  intros [F1 F2]. constructor.
  - intros j o St H. rewrite nth_upd, H. destruct (Nat.eqb i j); [cbn; now rewrite F1|reflexivity].
  - intros j l H. rewrite nth_upd, H. destruct (Nat.eqb i j); [|exists l; auto]. cbn [option_map]. destruct (F2 l) as (l' & E & K). exists l'. rewrite E. auto.
Qed.
Lemma gentle_append it : gentle (fun o => match o with OContent l => OContent (l ++ [it]) | _ => o end).
Proof.
  split; [now intros []|]. intros l. exists (l ++ [it]). split; [reflexivity|]. intros n i gs H. rewrite nth_error_app1; [exact H|apply nth_error_Some; congruence].
Qed.
Lemma om_written a : omono a (map written_obj a).
Proof.
  constructor.
  - intros i o St H. rewrite nth_error_map, H. now destruct o.
  - intros ci l H. exists (map written_item l). rewrite nth_error_map, H. split; [reflexivity|]. intros n i gs H1. rewrite nth_error_map, H1. reflexivity.
Qed.
Lemma om_prep ks : forall st, omono (ps_objs st) (ps_objs (fold_left prep_step ks st)).
Proof.
  induction ks as [|k ks IH]; intros st; [apply om_refl|]. cbn [fold_left]. eapply om_trans; [|apply IH]. clear IH. unfold prep_step.
  destruct (nth_error (ps_objs st) k) as [[]|]; try apply om_refl. destruct (ps_cur st); [|apply om_refl]. cbn [ps_objs]. apply om_upd.
  split; [now intros []|]. intros l'. exists l'. auto.
Qed.
Lemma om_output s : omono (g_objs s) (g_objs (output s)).
Proof.
  unfold output. cbn [g_objs set_objs]. eapply om_trans; [|apply om_written]. unfold prepare. cbv zeta. cbn [g_objs set_objs].
  match goal with |- omono _ (ps_objs (fold_left prep_step ?k ?st)) => apply (om_trans _ (ps_objs st)); [|apply om_prep] end. cbn [ps_objs].
  destruct (cf_protect _), (0 <? _); cbn [g_objs set_objs addObj snd set_cat_outl]; try apply om_refl; apply om_app.
Qed.

Section Hist.
Variable src : bytes -> imgdesc.
Variable role : bytes -> imguse.
Definition known (s : gp) (id : bytes) (i : nat) : Prop := In i (g_xobjs s) /\ nth_error (g_objs s) i = Some (OImage (src id) (role id)).
(** One step: nothing undone, new sources registered correctly, the current content still a content object. *)
Definition content_ok (s : gp) : Prop := forall i, g_content s = Some i -> exists l, nth_error (g_objs s) i = Some (OContent l).
(** Graphics states made by the API: transparency, or a soft mask. *)
Definition api_gs (e : extgs) : Prop := (exists a b, e = {| eg_alpha := Some a; eg_bm := Some b; eg_smask := None |}) \/ exists m, e = {| eg_alpha := None; eg_bm := None; eg_smask := Some m |}.
Definition ext_ok (s : gp) : Prop := forall id i, lookup id (g_extmap s) = Some i -> exists e, api_gs e /\ extgs_id e = id /\ nth_error (g_objs s) i = Some (OExtGState e).
Record fwd (s s' : gp) : Prop := {
  fw_e : ext_ok s -> ext_ok s';
  fw_c : content_ok s -> content_ok s';
  fw_o : omono (g_objs s) (g_objs s');
  fw_x : incl (g_xobjs s) (g_xobjs s');
  fw_i : forall id i, lookup id (g_imgs s) = Some i -> lookup id (g_imgs s') = Some i;
  fw_n : forall id i, lookup id (g_imgs s') = Some i -> lookup id (g_imgs s) = Some i \/ known s' id i }.
Lemma known_fwd s s' id i : fwd s s' -> known s id i -> known s' id i.
Proof. intros F [K1 K2]. split; [now apply (fw_x s s' F)|apply (om_img _ _ (fw_o s s' F)); [reflexivity|exact K2]]. Qed.
Lemma fwd_refl s : fwd s s.
Proof. constructor; auto using om_refl, incl_refl. Qed.
Lemma fwd_trans a b c : fwd a b -> fwd b c -> fwd a c.
Proof.
  intros F G. destruct F as [Fe F0 F1 F2 F3 F4]. constructor.
  - intros H. apply (fw_e b c G), Fe, H.
  - intros H. apply (fw_c b c G), F0, H.
  - eapply om_trans; [exact F1|apply G].
  - eapply incl_tran; [exact F2|apply G].
  - intros id i H. apply (fw_i b c G), F3, H.
  - intros id i H. destruct (fw_n b c G id i H) as [H1|H1]; [|now right]. destruct (F4 id i H1) as [H2|H2]; [now left|right; eapply known_fwd; eauto].
Qed.
Lemma content_mono s s' : omono (g_objs s) (g_objs s') -> g_content s' = g_content s -> content_ok s -> content_ok s'.
Proof. intros O E C i H. rewrite E in H. destruct (C i H) as (l & Hl). destruct (om_it _ _ O i l Hl) as (l' & Hl' & _). now exists l'. Qed.
Lemma ext_mono s s' : omono (g_objs s) (g_objs s') -> g_extmap s' = g_extmap s -> ext_ok s -> ext_ok s'.
Proof. intros O E H id i L. rewrite E in L. destruct (H id i L) as (e & A & B & N). exists e. split; [exact A|]. split; [exact B|]. apply (om_img _ _ O); [reflexivity|exact N]. Qed.
Lemma fwd_general s s' : (content_ok s -> content_ok s') -> omono (g_objs s) (g_objs s') -> g_extmap s' = g_extmap s -> g_xobjs s' = g_xobjs s -> g_imgs s' = g_imgs s -> fwd s s'.
Proof. intros C O E X I. constructor; [now apply ext_mono|exact C|exact O|rewrite X; apply incl_refl|now rewrite I|rewrite I; auto]. Qed.
Lemma fwd_simple s s' : omono (g_objs s) (g_objs s') -> g_content s' = g_content s -> g_extmap s' = g_extmap s -> g_xobjs s' = g_xobjs s -> g_imgs s' = g_imgs s -> fwd s s'.
Proof. intros O C E X I. apply fwd_general; auto. now apply content_mono. Qed.
Lemma fwd_addObj o s : fwd s (snd (addObj o s)).
Proof. apply fwd_simple; try reflexivity. apply om_app. Qed.
Lemma fwd_getContent s : fwd s (snd (getContent s)).
Proof. 
  unfold getContent. destruct (g_content s) eqn:E; [apply fwd_refl|]. apply fwd_general; try reflexivity; [|apply om_app].
  intros _ i H. cbn in H. injection H as <-. exists []. cbn. apply nth_snoc_new.
Qed.
Lemma fwd_append i it s : fwd s (append_item i it s).
Proof. apply fwd_simple; try reflexivity. apply om_upd, gentle_append. Qed.
Lemma fwd_draw np it s : fwd s (fst (draw np it s)).
Proof.
  unfold draw. pose proof (fwd_getContent s) as H. destruct (getContent s) as [i s1]. cbn [snd] in H.
  destruct (g_pagesize s1); [|destruct np]; cbn [fst]; try exact H; (eapply fwd_trans; [exact H|apply fwd_append]).
Qed.
Lemma fwd_cached e s : api_gs e -> fwd s (snd (getCachedExtGState e s)).
Proof.
  intros A. unfold getCachedExtGState. destruct (lookup _ _) eqn:L; [apply fwd_refl|]. cbn [addObj snd]. constructor.
  - intros H id i E. cbn [g_extmap set_extmap lookup] in E. destruct (list_eqb id (extgs_id e)) eqn:Q.
    + apply list_eqb_eq in Q. injection E as <-. exists e. split; [exact A|]. split; [now symmetry|]. cbn. apply nth_snoc_new.
    + destruct (H id i E) as (e' & A' & B & N). exists e'. split; [exact A'|]. split; [exact B|]. cbn. rewrite nth_error_app1; [exact N|apply nth_error_Some; congruence].
  - apply content_mono; [apply om_app|reflexivity].
  - apply om_app.
  - apply incl_refl.
  - auto.
  - auto.
Qed.
Definition keeps (s s' : gp) : Prop := g_header s' = g_header s /\ g_footer s' = g_footer s.
(** An image newly registered. *)
Lemma fwd_register s s' id i : fwd s s' -> lookup id (g_imgs s') = None -> nth_error (g_objs s') i = Some (OImage (src id) (role id)) ->
  fwd s (set_imgs ((id, i) :: g_imgs s') (set_xobjs (g_xobjs s' ++ [i]) s')).
Proof.
  intros F N O. eapply fwd_trans; [exact F|]. constructor.
  - intros C. exact C.
  - intros C. exact C.
  - apply om_refl.
  - cbn. apply incl_appl, incl_refl.
  - intros id' i' H. cbn [g_imgs set_imgs lookup]. destruct (list_eqb id' id) eqn:E; [|exact H]. apply list_eqb_eq in E. subst. congruence.
  - intros id' i'. cbn [g_imgs set_imgs lookup]. destruct (list_eqb id' id) eqn:E; [|now left]. apply list_eqb_eq in E. subst. intros H. injection H as <-. right.
    split; [|exact O]. cbn. apply in_or_app. right. now left.
Qed.
Lemma imgs_draw np it s : g_imgs (fst (draw np it s)) = g_imgs s.
Proof. unfold draw, getContent. destruct (g_content s); cbn [addObj]; cbn; (destruct (g_pagesize s); [|destruct np]); reflexivity. Qed.
Lemma fwd_image (b : bool) id im gs s : src id = im -> role id = (if b then Split else Plain) -> fwd s (fst (imageByHolder b id im gs s)).
Proof.
  intros Es Er. unfold imageByHolder. destruct (lookup id (g_imgs s)) as [i|] eqn:L; [apply fwd_draw|]. destruct (im_ok im); [|apply fwd_refl].
  cbn [addObj]. set (idx := List.length (g_objs s)). set (s1 := set_objs _ s). assert (F1 : fwd s s1) by (apply fwd_simple; try reflexivity; apply om_app).
  assert (N1 : nth_error (g_objs s1) idx = Some (OImage im (if b then Split else Plain))) by apply nth_snoc_new. assert (L1 : lookup id (g_imgs s1) = None) by exact L. clearbody s1.
  match goal with |- context [draw true ?it s1] => pose proof (fwd_draw true it s1) as F2; pose proof (imgs_draw true it s1) as L2; destruct (draw true it s1) as [s2 r] end.
  cbn [fst] in F2, L2. destruct r; cbn [fst]; try exact (fwd_trans _ _ _ F1 F2).
  assert (F3 : fwd s (set_imgs ((id, idx) :: g_imgs (set_xobjs (g_xobjs s2 ++ [idx]) s2)) (set_xobjs (g_xobjs s2 ++ [idx]) s2))).
  { apply (fwd_register s s2 id idx); [eapply fwd_trans; eauto|rewrite L2; exact L1|]. rewrite Es, Er. apply (om_img _ _ (fw_o _ _ F2)); [reflexivity|exact N1]. }
  set (s3 := set_imgs _ _) in *. clearbody s3.
  cbn [addObj]. set (s4 := if im_alpha im then set_smasks _ _ else s3).
  assert (F4 : fwd s s4).
  { unfold s4. destruct (im_alpha im); [|exact F3]. eapply fwd_trans; [exact F3|]. eapply fwd_trans; [apply (fwd_addObj OSMaskImg s3)|]. apply fwd_simple; try reflexivity. apply om_refl. }
  clearbody s4. destruct (im_indexed im); [|exact F4].
  eapply fwd_trans; [exact F4|]. eapply fwd_trans; [apply (fwd_addObj ODeviceRGB s4)|]. apply fwd_simple; try reflexivity. apply om_refl.
Qed.
Lemma imgs_getContent s : g_imgs (snd (getContent s)) = g_imgs s.
Proof. unfold getContent. now destruct (g_content s). Qed.
Lemma fwd_maskImage id im s : src id = im -> role id = AsMask -> fwd s (fst (fst (maskImage id im s))).
Proof.
  intros Es Er. unfold maskImage. destruct (lookup id (g_imgs s)) as [i|] eqn:L.
  - pose proof (fwd_getContent s). now destruct (getContent s).
  - destruct (im_ok im); [|apply fwd_refl]. cbn [addObj]. set (idx := List.length (g_objs s)). set (s1 := set_objs _ s).
    assert (F1 : fwd s s1) by (apply fwd_simple; try reflexivity; apply om_app).
    assert (N1 : nth_error (g_objs s1) idx = Some (OImage im AsMask)) by apply nth_snoc_new. assert (L1 : lookup id (g_imgs s1) = None) by exact L. clearbody s1.
    pose proof (fwd_getContent s1) as F2. pose proof (imgs_getContent s1) as L2. destruct (getContent s1) as [ci s2]. cbn [snd] in F2, L2.
    destruct (g_pagesize s2); cbn [fst]; [|eapply fwd_trans; eauto]. apply fwd_register; [eapply fwd_trans; eauto|rewrite L2; exact L1|].
    rewrite Es, Er. apply (om_img _ _ (fw_o _ _ F2)); [reflexivity|exact N1].
Qed.
Lemma fwd_mask id im s : src id = im -> role id = AsMask -> fwd s (fst (fst (maskHolder id im s))).
Proof.
  intros Es Er. unfold maskHolder. pose proof (fwd_maskImage id im s Es Er) as F. destruct (maskImage id im s) as [[s1 r] ix]. cbn [fst] in F.
  destruct r; try exact F. destruct (g_pagesize s1); [|exact F]. cbn [addObj].
  match goal with |- context [getCachedExtGState ?e ?s2] => pose proof (fwd_cached e s2 ltac:(right; eexists; reflexivity)) as G; set (s3 := s2) in *; destruct (getCachedExtGState e s3) as [ei s4] end.
  cbn [fst snd] in *. eapply fwd_trans; [exact F|]. eapply fwd_trans; [|exact G]. unfold s3. eapply fwd_trans; [apply (fwd_addObj (OXGroup ix) s1)|]. apply (fwd_addObj (OMask _)).
Qed.
Lemma fwd_outline t w s : fwd s (fst (addOutline t w s)).
Proof.
  destruct (addOutline_eq t w s) as (E & _). apply fwd_simple.
  - rewrite E. destruct (g_outl_lastobj s); [|apply om_app]. eapply om_trans; [apply om_app|]. apply om_upd. split; [now intros []|]. intros l. exists l. auto.
  - unfold addOutline. cbn [addObj]. cbv zeta. cbn [g_outl_first set_outl_last set_objs]. destruct (_ <=? 0); cbn [g_outl_lastobj set_outl_first set_outl_last set_objs]; destruct (g_outl_lastobj s); reflexivity.
  - unfold addOutline. cbn [addObj]. cbv zeta. cbn [g_outl_first set_outl_last set_objs]. destruct (_ <=? 0); cbn [g_outl_lastobj set_outl_first set_outl_last set_objs]; destruct (g_outl_lastobj s); reflexivity.
  - unfold addOutline. cbn [addObj]. cbv zeta. cbn [g_outl_first set_outl_last set_objs]. destruct (_ <=? 0); cbn [g_outl_lastobj set_outl_first set_outl_last set_objs]; destruct (g_outl_lastobj s); reflexivity.
  - unfold addOutline. cbn [addObj]. cbv zeta. cbn [g_outl_first set_outl_last set_objs]. destruct (_ <=? 0); cbn [g_outl_lastobj set_outl_first set_outl_last set_objs]; destruct (g_outl_lastobj s); reflexivity.
Qed.
Ltac same := apply fwd_simple; [apply om_refl|reflexivity|reflexivity|reflexivity|reflexivity].
Lemma fwd_sop s o : source_sop src role o -> fwd s (fst (sstep s o)).
Proof.
  intros C. destruct o; cbn [sstep source_sop] in *; try (apply fwd_draw); try same.
  - unfold text. destruct (g_font s); [apply fwd_draw|apply fwd_refl].
  - unfold setPage. destruct (find_content (g_objs s) 0 0 n) as [i|] eqn:E; [|same]. apply fwd_general; try reflexivity; [|apply om_refl].
    intros _ j H. cbn in H. injection H as <-. cbn [fst g_objs set_content].
    assert (G : forall l k seen, find_content l k seen n = Some i -> exists x, (k <= i)%nat /\ nth_error l (i - k) = Some (OContent x)).
    { clear. induction l as [|o l IH]; intros k seen E; [discriminate|].
      assert (R : forall seen, find_content l (S k) seen n = Some i -> exists x, (k <= i)%nat /\ nth_error (o :: l) (i - k) = Some (OContent x)).
      { intros seen' H. destruct (IH _ _ H) as (x & L & N). exists x. split; [lia|]. replace (i - k)%nat with (S (i - S k)) by lia. exact N. }
      cbn [find_content] in E. destruct o; try (apply (R _ E)). destruct (seen + 1 =? n); [|apply (R _ E)]. injection E as <-. eexists. split; [lia|]. rewrite Nat.sub_diag. reflexivity. }
    destruct (G _ _ _ E) as (x & _ & N). rewrite Nat.sub_0_r in N. now exists x.
  - unfold addFont. cbn [addObj]. match goal with |- context [if ?c then _ else _] => destruct c end; apply fwd_simple; try reflexivity; cbn; rewrite <- !app_assoc; apply om_app.
  - unfold setFont. destruct (find_font _ _ _ _) as [[]|]; same.
  - destruct C. now apply fwd_image.
  - destruct C as (C1 & C2 & C3 & C4). pose proof (fwd_mask mid mim s C3 C4) as F. destruct (maskHolder mid mim s) as [[s1 r] e]. cbn [fst] in F.
    destruct r; try exact F. eapply fwd_trans; [exact F|]. now apply fwd_image.
  - unfold addLink. destruct (g_page s); [|apply fwd_refl]. cbn [addObj fst]. apply fwd_simple; try reflexivity. cbn. eapply om_trans; [apply om_app|]. apply om_upd.
    split; [now intros []|]. intros l'. exists l'. auto.
  - apply fwd_outline.
  - apply fwd_outline.
  - unfold importObjects. match goal with |- fwd s (fst (fold_left ?f ?ks s, Ok)) => cbn [fst]; generalize ks; intros ks' end.
    revert s. induction ks' as [|k ks' IH]; intros s; [apply fwd_refl|]. cbn [fold_left]. eapply fwd_trans; [|apply IH]. destruct (zlookup _ objs) as [[|x d]|]; try apply fwd_refl. apply fwd_addObj.
  - unfold addColorSpace. cbn [addObj]. destruct (existsb _ _); cbn [fst]; (apply fwd_simple; [apply om_app|reflexivity|reflexivity|reflexivity|reflexivity]).
  - unfold setColorSpace. destruct (find_cs _ _); [apply fwd_draw|apply fwd_refl].
  - unfold saveTransparency. destruct (lookup _ _); [same|]. destruct (Qeq_bool alpha 1); [same|].
    match goal with |- context [getCachedExtGState ?e s] => pose proof (fwd_cached e s ltac:(left; eexists; eexists; reflexivity)) as G; destruct (getCachedExtGState e s) as [i s1] end. cbn [fst snd] in *. eapply fwd_trans; [exact G|same].
  - unfold setCompressLevel. destruct (l <? -2); [same|]. destruct (9 <? l); same.
Qed.
Definition cb_sources (s : gp) : Prop :=
  match g_header s with Some l => Forall (source_sop src role) l | None => True end /\ match g_footer s with Some l => Forall (source_sop src role) l | None => True end.
Lemma hdr_sop s o : g_header (fst (sstep s o)) = g_header s /\ g_footer (fst (sstep s o)) = g_footer s.
Proof.
  destruct (is_addoutline o) eqn:E.
  - destruct o; try discriminate; cbn [sstep]; match goal with |- context [addOutline ?t ?w s] => pose proof (addOutline_eq t w s) as H end; cbv zeta in H; tauto.
  - destruct (F_sop s o E) as [K _]. unfold keep in K. tauto.
Qed.
Lemma fwd_sops l : forall s, Forall (source_sop src role) l -> fwd s (fst (run_sops s l)) /\ g_header (fst (run_sops s l)) = g_header s /\ g_footer (fst (run_sops s l)) = g_footer s.
Proof.
  induction l as [|o l IH]; intros s H; [split; [apply fwd_refl|now split]|]. inversion H; subst. cbn [run_sops].
  pose proof (fwd_sop s o H2) as F. pose proof (hdr_sop s o) as (K1 & K2). destruct (sstep s o) as [s1 r]. cbn [fst] in F, K1, K2.
  destruct r; try (split; [exact F|now split]); destruct (IH s1 H3) as (F' & K3 & K4); (split; [eapply fwd_trans; eauto|split; congruence]).
Qed.
Lemma fwd_reset s : fwd s (resetXY s).
Proof. same. Qed.
Lemma fwd_addPage sz s : cb_sources s -> fwd s (fst (addPage sz s)) /\ g_header (fst (addPage sz s)) = g_header s /\ g_footer (fst (addPage sz s)) = g_footer s.
Proof.
  intros [C1 C2]. unfold addPage. cbn [addObj]. set (s1 := resetXY _).
  assert (F1 : fwd s s1) by (apply fwd_general; [intros _ i H; discriminate H|apply om_app|reflexivity|reflexivity|reflexivity]). assert (E1 : g_header s1 = g_header s) by reflexivity. assert (E2 : g_footer s1 = g_footer s) by reflexivity. clearbody s1.
  set (hd := match g_header s1 with None => _ | Some f => _ end).
  assert (F2 : fwd s (fst hd) /\ g_header (fst hd) = g_header s /\ g_footer (fst hd) = g_footer s).
  { unfold hd. rewrite E1. destruct (g_header s) as [l|] eqn:EH; [|cbn [fst]; split; [exact F1|split; congruence]].
    destruct (fwd_sops l s1 C1) as (F & K1 & K2). destruct (run_sops s1 l) as [s2 r]. cbn [fst] in *.
    assert (F3 : fwd s s2) by (eapply fwd_trans; eauto).
    destruct r; cbn [fst]; (split; [|split; [cbn; congruence|cbn; congruence]]); try exact F3; (eapply fwd_trans; [exact F3|apply fwd_reset]). }
  destruct hd as [s2 r]. cbn [fst] in F2. destruct F2 as (F2 & K1 & K2).
  assert (D : fwd s (fst match g_footer s2 with None => (s2, Ok) | Some f => match run_sops s2 f with (s', Panic) => (s', Panic) | (s', _) => (resetXY s', Ok) end end) /\
     g_header (fst match g_footer s2 with None => (s2, Ok) | Some f => match run_sops s2 f with (s', Panic) => (s', Panic) | (s', _) => (resetXY s', Ok) end end) = g_header s /\
     g_footer (fst match g_footer s2 with None => (s2, Ok) | Some f => match run_sops s2 f with (s', Panic) => (s', Panic) | (s', _) => (resetXY s', Ok) end end) = g_footer s).
  { rewrite K2. destruct (g_footer s) as [l|] eqn:EF; [|cbn [fst]; split; [exact F2|split; congruence]].
    destruct (fwd_sops l s2 C2) as (F & K3 & K4). destruct (run_sops s2 l) as [s3 r3]. cbn [fst] in *.
    assert (F3 : fwd s s3) by (eapply fwd_trans; eauto).
    destruct r3; cbn [fst]; (split; [|split; [cbn; congruence|cbn; congruence]]); try exact F3; (eapply fwd_trans; [exact F3|apply fwd_reset]). }
  destruct r; [exact D|exact D|]. cbn [fst]. split; [exact F2|split; congruence].
Qed.
(** Every call except Start moves forward. *)
Lemma fwd_step s o : cb_sources s -> source_op src role o -> no_start o = true -> fwd s (fst (step s o)) /\ cb_sources (fst (step s o)).
Proof.
  intros C H N. destruct o as [o|c|sz|f|f|]; try discriminate; cbn [step source_op] in *.
  - split; [now apply fwd_sop|]. unfold cb_sources. destruct (hdr_sop s o) as [-> ->]. exact C.
  - destruct (fwd_addPage sz s C) as (F & K1 & K2). split; [exact F|]. unfold cb_sources. now rewrite K1, K2.
  - split; [same|]. destruct C as [_ C2]. split; [destruct f; [exact H|exact I]|exact C2].
  - split; [same|]. destruct C as [C1 _]. split; [exact C1|destruct f; [exact H|exact I]].
  - cbn [fst]. split.
    + apply fwd_simple; [apply om_output| | | |]; unfold output, prepare; cbv zeta; destruct (cf_protect _), (0 <? _); reflexivity.
    + unfold cb_sources in *. destruct (output_keep s) as (_ & _ & _ & _ & K). 
      assert (E : g_header (output s) = g_header s /\ g_footer (output s) = g_footer s) by (unfold output, prepare; cbv zeta; destruct (cf_protect _), (0 <? _); split; reflexivity).
      destruct E as [-> ->]. exact C.
Qed.
Lemma fwd_exec l : forall s, cb_sources s -> Forall (source_op src role) l -> forallb no_start l = true -> fwd s (exec s l) /\ cb_sources (exec s l).
Proof.
  induction l as [|o l IH]; intros s C H N; [split; [apply fwd_refl|exact C]|]. cbn [forallb] in N. apply andb_true_iff in N as [N1 N2]. inversion H; subst.
  destruct (fwd_step s o C H2 N1) as [F C1]. destruct (IH _ C1 H3 N2) as [F2 C2]. split; [eapply fwd_trans; eauto|exact C2].
Qed.
(** At any time every registered source is known. *)
Definition registered (s : gp) : Prop := (content_ok s /\ ext_ok s) /\ forall id i, lookup id (g_imgs s) = Some i -> known s id i.
Lemma registered_fwd s s' : fwd s s' -> registered s -> registered s'.
Proof. intros F [[C X] R]. split; [split; [now apply (fw_c s s' F)|now apply (fw_e s s' F)]|]. intros id i H. destruct (fw_n s s' F id i H) as [H1|H1]; [|exact H1]. eapply known_fwd; eauto. Qed.
Lemma registered_exec l : forall s, cb_sources s -> registered s -> Forall (source_op src role) l -> registered (exec s l) /\ cb_sources (exec s l).
Proof.
  induction l as [|o l IH]; intros s C R H; [now split|]. inversion H; subst. cbn [exec fold_left]. apply IH; [..|exact H3].
  - destruct (no_start o) eqn:E; [now apply fwd_step|]. destruct o; try discriminate. cbn [step fst]. exact C.
  - destruct (no_start o) eqn:E; [eapply registered_fwd; [now apply fwd_step|exact R]|]. destruct o; try discriminate E. split; [split; [intros i Hl; discriminate Hl|intros id i Hl; discriminate Hl]|intros id i Hl; discriminate Hl].
Qed.
End Hist.

(** ** C36 *)
Lemma doc_registered src role c l : Forall (source_op src role) l -> registered src role (doc c l) /\ cb_sources src role (doc c l).
Proof. intros H. apply registered_exec; [split; exact I|split; [split; [intros i E; discriminate E|intros id i E; discriminate E]|intros id i E; discriminate E]|exact H]. Qed.

(** The item a successful drawing adds to the current content. *)
Lemma draw_adds np it s s' : draw np it s = (s', Ok) -> content_ok s ->
  exists r ci l, g_content s' = Some ci /\ nth_error (g_objs s') ci = Some (OContent (l ++ [it r])) /\ l = current_content s.
Proof.
  intros D C. unfold draw, getContent in D. unfold current_content.
  destruct (g_content s) as [i|] eqn:E.
  - destruct (C i E) as (l & El). rewrite El. exists (match g_pagesize s with Some r => r | None => {| r_w := 0; r_h := 0 |} end), i, l.
    destruct (g_pagesize s) as [r|] eqn:P; [|destruct np; [discriminate|]]; injection D as <-; (split; [exact E|split; [|reflexivity]]); cbn; rewrite nth_upd, Nat.eqb_refl, El; reflexivity.
  - cbn [addObj] in D. exists (match g_pagesize s with Some r => r | None => {| r_w := 0; r_h := 0 |} end), (List.length (g_objs s)), [].
    cbn [g_pagesize set_content set_objs] in D.
    destruct (g_pagesize s) as [r|] eqn:P; [|destruct np; [discriminate|]]; injection D as <-; (split; [reflexivity|split; [|reflexivity]]); cbn; rewrite nth_upd, Nat.eqb_refl, nth_snoc_new; reflexivity.
Qed.
Lemma content_snoc s o : content_ok s -> current_content (snd (addObj o s)) = current_content s.
Proof.
  intros C. unfold current_content. cbn [addObj snd g_content set_objs g_objs]. destruct (g_content s) as [i|] eqn:E; [|reflexivity].
  destruct (C i E) as (l & El). rewrite nth_error_app1 by (apply nth_error_Some; congruence). reflexivity.
Qed.
Section Adds.
Variable src : bytes -> imgdesc.
Variable role : bytes -> imguse.
Lemma image_adds (b : bool) id im gs s s' : registered src role s -> src id = im -> role id = (if b then Split else Plain) ->
  imageByHolder b id im gs s = (s', Ok) ->
  exists i ci, g_content s' = Some ci /\ nth_error (g_objs s') ci = Some (OContent (current_content s ++ [IImage i gs])) /\ known src role s' id i.
Proof.
  intros [[C X] R] Es Er D. pose proof (fwd_image src role b id im gs s Es Er) as F. rewrite D in F. cbn [fst] in F. unfold imageByHolder in D.
  destruct (lookup id (g_imgs s)) as [i|] eqn:L.
  - destruct (draw_adds _ _ _ _ D C) as (r & ci & l & E1 & E2 & ->). exists i, ci. split; [exact E1|]. split; [exact E2|].
    apply (known_fwd src role s s' id i F). now apply R.
  - destruct (im_ok im); [|discriminate]. pose proof (content_snoc s (OImage im (if b then Split else Plain)) C) as CC.
    assert (C1 : content_ok (snd (addObj (OImage im (if b then Split else Plain)) s))) by (apply (content_mono s); [apply om_app|reflexivity|exact C]).
    cbn [addObj snd] in CC, C1, D. set (s1 := set_objs _ s) in *. clearbody s1.
    destruct (draw true (fun _ => IImage (List.length (g_objs s)) gs) s1) as [s2 r] eqn:D2. destruct r; try discriminate.
    destruct (draw_adds _ _ _ _ D2 C1) as (q & ci & l & E1 & E2 & ->). rewrite CC in E2.
    exists (List.length (g_objs s)), ci. injection D as D.
    set (s3 := set_imgs _ _) in D.
    assert (G : g_content s' = Some ci /\ lookup id (g_imgs s') = Some (List.length (g_objs s)) /\ exists k, g_objs s' = g_objs s2 ++ k).
    { rewrite <- D. assert (I3 : lookup id (g_imgs s3) = Some (List.length (g_objs s))).
      { unfold s3. cbn [g_imgs set_imgs lookup]. assert (Q : list_eqb id id = true) by (now apply list_eqb_eq). now rewrite Q. }
      assert (O3 : g_objs s3 = g_objs s2) by reflexivity. assert (C3 : g_content s3 = Some ci) by exact E1. clearbody s3.
      destruct (im_alpha im), (im_indexed im); cbn [addObj snd g_content set_objs set_smasks set_rgbs g_imgs g_objs]; rewrite ?O3; repeat (split; [assumption|]).
      - rewrite <- app_assoc. eexists; reflexivity.
      - eexists; reflexivity.
      - eexists; reflexivity.
      - exists []. now rewrite app_nil_r. }
    destruct G as (G1 & G2 & (k & G3)). split; [exact G1|]. split; [rewrite G3, nth_error_app1; [exact E2|apply nth_error_Some; congruence]|].
    destruct (fw_n src role s s' F id _ G2) as [H|H]; [congruence|exact H].
Qed.
End Adds.
Lemma fmt_d_inj a b : fmt_d (Z.of_nat a) = fmt_d (Z.of_nat b) -> a = b.
Proof.
  unfold fmt_d. replace (Z.of_nat a <? 0) with false by lia. replace (Z.of_nat b <? 0) with false by lia. intros H.
  assert (E : digits_val (dec (Z.of_nat a)) = digits_val (dec (Z.of_nat b))) by now rewrite H. rewrite !dec_val in E by lia. lia.
Qed.
Lemma smask_key e m : api_gs e -> extgs_id e = extgs_id {| eg_alpha := None; eg_bm := None; eg_smask := Some m |} -> e = {| eg_alpha := None; eg_bm := None; eg_smask := Some m |}.
Proof.
  intros [(a & b & ->)|(m' & ->)]; unfold extgs_id; cbn [eg_alpha eg_bm eg_smask app bs].
  - intros H. discriminate H.
  - intros H. injection H as H. apply app_inv_tail in H. now rewrite (fmt_d_inj _ _ H).
Qed.

(** The reader's view: the mask of a drawing, through graphics state, mask and group to the image. *)
Definition mask_image (s : gp) (g : Z) : option obj :=
  match obj_no s g with
  | Some (OExtGState e) =>
      match eg_smask e with
      | Some m => match nth_error (g_objs s) m with
                  | Some (OMask grp) => match nth_error (g_objs s) grp with
                                        | Some (OXGroup i) => xobj_res s i
                                        | _ => None end
                  | _ => None end
      | None => None end
  | _ => None
  end.
Lemma known_res src role s id i : known src role s id i -> xobj_res s i = Some (OImage (src id) (role id)).
Proof.
  intros [H1 H2]. unfold xobj_res. replace (existsb (Nat.eqb i) (g_xobjs s)) with true; [exact H2|].
  symmetry. apply existsb_exists. exists i. split; [exact H1|apply Nat.eqb_refl].
Qed.
Lemma mask_persists src role s s' g o : fwd src role s s' -> mask_image s g = Some o -> static o = true -> mask_image s' g = Some o.
Proof.
  intros F M St. pose proof (om_img _ _ (fw_o _ _ _ _ F)) as N. unfold mask_image, obj_no in *. destruct (g <=? 0); [discriminate|].
  destruct (nth_error (g_objs s) (Z.to_nat (g - 1))) as [x|] eqn:E1; [|discriminate]. destruct x; try discriminate. rewrite (N _ (OExtGState e) eq_refl E1).
  destruct (eg_smask e) as [m|]; [|discriminate].
  destruct (nth_error (g_objs s) m) as [x|] eqn:E2; [|discriminate]. destruct x; try discriminate. rewrite (N _ (OMask group) eq_refl E2).
  destruct (nth_error (g_objs s) group) as [x|] eqn:E3; [|discriminate]. destruct x; try discriminate. rewrite (N _ (OXGroup img) eq_refl E3).
  unfold xobj_res in *. destruct (existsb (Nat.eqb img) (g_xobjs s)) eqn:E4; [|discriminate].
  replace (existsb (Nat.eqb img) (g_xobjs s')) with true; [now apply N|]. symmetry. apply existsb_exists in E4 as (y & Y1 & Y2). apply existsb_exists. exists y. split; [|exact Y2]. now apply (fw_x _ _ _ _ F).
Qed.

(** For every history in which each image source keeps its content and its role: a successful drawing adds to the
    current page content one drawing, and at the end — whatever else was called — it still refers to an image object with
    that source's data, written the way asked (with its alpha, without it under a mask, …); under a mask, its last graphics
    state leads to the mask's data. *)
Definition refers (t : gp) (ci n : nat) (gs : bytes) (o : obj) : Prop :=
  exists items i, nth_error (g_objs t) ci = Some (OContent items) /\ nth_error items n = Some (IImage i gs) /\ xobj_res t i = Some o.
Lemma drawn_stays src role s t l id i gs ci : fwd src role s t -> nth_error (g_objs s) ci = Some (OContent (l ++ [IImage i gs])) -> known src role s id i ->
  refers t ci (List.length l) gs (OImage (src id) (role id)).
Proof.
  intros F O K. destruct (om_it _ _ (fw_o _ _ _ _ F) _ _ O) as (l' & O' & P). exists l', i. split; [exact O'|].
  split; [apply P; rewrite nth_error_app2, Nat.sub_diag by lia; reflexivity|]. eapply known_res, known_fwd; eauto.
Qed.
Theorem C36_image_refers_to_its_data_partial :
  forall src role c l id l', Forall (source_op src role) l -> Forall (source_op src role) l' -> forallb no_start l' = true -> role id = Plain ->
    let s := doc c l in let call := Do (Image id (src id)) in
    snd (step s call) = Ok ->
    exists ci gs, g_content (fst (step s call)) = Some ci /\
      refers (exec s (call :: l')) ci (List.length (current_content s)) gs (OImage (src id) Plain).
Proof.
  intros src role c l id l' H H' N Er s call D. destruct (doc_registered src role c l H) as [R C]. fold s in R, C.
  assert (S : source_op src role call) by (split; [reflexivity|exact Er]).
  destruct (fwd_step src role s call C S eq_refl) as [F1 C1]. destruct (fwd_exec src role l' _ C1 H' N) as [F2 _].
  cbn [exec fold_left]. change (fold_left (fun s o => fst (step s o)) l' (fst (step s call))) with (exec (fst (step s call)) l').
  cbn [step sstep call] in *. destruct (imageByHolder _ _ _ _ s) as [s1 r] eqn:E. cbn [fst snd] in *. subst r.
  destruct (image_adds src role false id (src id) _ s s1 R eq_refl Er E) as (i & ci & G1 & G2 & G3). exists ci. eexists. split; [exact G1|].
  rewrite <- Er. eapply drawn_stays; eauto.
Qed.
Print Assumptions C36_image_refers_to_its_data_partial.
Lemma cc_getContent s : current_content (snd (getContent s)) = current_content s.
Proof.
  unfold getContent. destruct (g_content s) as [i|] eqn:E; [reflexivity|]. cbn [addObj snd]. unfold current_content. rewrite E. cbn [g_content set_content g_objs set_objs].
  now rewrite nth_snoc_new.
Qed.
Lemma cc_same s s' : g_content s' = g_content s -> g_objs s' = g_objs s -> current_content s' = current_content s.
Proof. unfold current_content. now intros -> ->. Qed.
Section Masks.
Variable src : bytes -> imgdesc.
Variable role : bytes -> imguse.
Lemma maskImage_known id im s s' i : registered src role s -> src id = im -> role id = AsMask -> maskImage id im s = (s', Ok, i) ->
  known src role s' id i /\ current_content s' = current_content s.
Proof.
  intros [[C X] R] Es Er D. pose proof (fwd_maskImage src role id im s Es Er) as F. rewrite D in F. cbn [fst] in F. unfold maskImage in D.
  destruct (lookup id (g_imgs s)) as [j|] eqn:L.
  - pose proof (cc_getContent s) as CC. destruct (getContent s) as [ci s1]. cbn [snd] in CC. injection D as <- <-. split; [|exact CC].
    apply (known_fwd src role s _ id j F). now apply R.
  - destruct (im_ok im); [|discriminate]. pose proof (content_snoc s (OImage im AsMask) C) as CC. cbn [addObj snd] in CC, D. set (s1 := set_objs _ s) in *. clearbody s1.
    pose proof (cc_getContent s1) as CC2. destruct (getContent s1) as [ci s2]. cbn [snd] in CC2. destruct (g_pagesize s2); [|discriminate]. injection D as D1 D2. split.
    + assert (G : lookup id (g_imgs s') = Some i).
      { rewrite <- D1, D2. cbn [g_imgs set_imgs lookup]. assert (Q : list_eqb id id = true) by (now apply list_eqb_eq). now rewrite Q. }
      destruct (fw_n src role s s' F id _ G) as [H|H]; [congruence|exact H].
    + rewrite <- D1. transitivity (current_content s2); [now apply cc_same|congruence].
Qed.
Lemma mask_adds id im s s' e : registered src role s -> src id = im -> role id = AsMask -> maskHolder id im s = (s', Ok, e) ->
  mask_image s' e = Some (OImage (src id) AsMask) /\ current_content s' = current_content s.
Proof.
  intros R Es Er D. unfold maskHolder in D. destruct (maskImage id im s) as [[s1 r] ix] eqn:M. destruct r; try discriminate.
  destruct (maskImage_known id im s s1 ix R Es Er M) as [K CC].
  assert (R1 : registered src role s1) by (eapply registered_fwd; [|exact R]; pose proof (fwd_maskImage src role id im s Es Er) as F; rewrite M in F; exact F).
  destruct (g_pagesize s1); [|discriminate]. cbn [addObj] in D.
  set (s2 := set_objs (g_objs s1 ++ [OXGroup ix]) s1) in *. set (s3 := set_objs (g_objs s2 ++ [OMask (List.length (g_objs s1))]) s2) in *.
  assert (F3 : fwd src role s1 s3) by (eapply fwd_trans; [apply (fwd_addObj src role (OXGroup ix) s1)|apply (fwd_addObj src role (OMask _))]).
  assert (C3 : current_content s3 = current_content s).
  { rewrite <- CC. assert (C1 : content_ok s1) by apply R1. pose proof (content_snoc s1 (OXGroup ix) C1) as A.
    assert (C2 : content_ok s2) by (apply (content_mono s1); [apply om_app|reflexivity|exact C1]). pose proof (content_snoc s2 (OMask (List.length (g_objs s1))) C2) as B. cbn [addObj snd] in A, B. unfold s3, s2 in *. rewrite B. exact A. }
  assert (R3 : registered src role s3) by (eapply registered_fwd; eauto).
  set (mi := List.length (g_objs s2)) in *. set (ge := {| eg_alpha := None; eg_bm := None; eg_smask := Some mi |}) in *.
  pose proof (fwd_cached src role ge s3 ltac:(right; eexists; reflexivity)) as F4.
  assert (GC : nth_error (g_objs (snd (getCachedExtGState ge s3))) (fst (getCachedExtGState ge s3)) = Some (OExtGState ge) /\
               current_content (snd (getCachedExtGState ge s3)) = current_content s3).
  { unfold getCachedExtGState. destruct (lookup (extgs_id ge) (g_extmap s3)) as [j|] eqn:L; cbn [fst snd addObj].
    - split; [|reflexivity]. destruct R3 as [[_ X] _]. destruct (X _ _ L) as (e' & A & B & N). rewrite (smask_key e' mi A B) in N. exact N.
    - split; [cbn; apply nth_snoc_new|]. assert (C1 : content_ok s3) by apply R3. pose proof (content_snoc s3 (OExtGState ge) C1) as A. cbn [addObj snd] in A. rewrite <- A. now apply cc_same. }
  destruct (getCachedExtGState ge s3) as [ei s4]. cbn [fst snd] in *. injection D as <- <-. destruct GC as [GC1 GC2]. split; [|congruence].
  unfold mask_image, obj_no. replace (Z.of_nat ei + 1 <=? 0) with false by lia. replace (Z.to_nat (Z.of_nat ei + 1 - 1)) with ei by lia. rewrite GC1. cbn [ge eg_smask].
  assert (N1 : nth_error (g_objs s4) mi = Some (OMask (List.length (g_objs s1)))).
  { apply (om_img _ _ (fw_o _ _ _ _ F4)); [reflexivity|]. unfold s3, mi. cbn [g_objs set_objs]. apply nth_snoc_new. }
  rewrite N1.
  assert (N2 : nth_error (g_objs s4) (List.length (g_objs s1)) = Some (OXGroup ix)).
  { apply (om_img _ _ (fw_o _ _ _ _ F4)); [reflexivity|]. unfold s3, s2. cbn [g_objs set_objs]. rewrite nth_error_app1 by (rewrite app_length; cbn; lia). apply nth_snoc_new. }
  rewrite N2. rewrite (known_res src role s4 id ix); [now rewrite Er|]. eapply known_fwd; [exact F4|]. eapply known_fwd; eauto.
Qed.
End Masks.
Theorem C36_masked_image_refers_to_both_partial :
  forall src role c l id mid l', Forall (source_op src role) l -> Forall (source_op src role) l' -> forallb no_start l' = true -> role id = Split -> role mid = AsMask ->
    let s := doc c l in let call := Do (ImageMasked id (src id) mid (src mid)) in
    snd (step s call) = Ok ->
    exists ci gs e, g_content (fst (step s call)) = Some ci /\
      refers (exec s (call :: l')) ci (List.length (current_content s)) (gs ++ [e]) (OImage (src id) Split) /\
      mask_image (exec s (call :: l')) e = Some (OImage (src mid) AsMask).
Proof.
  intros src role c l id mid l' H H' N Er Em s call D. destruct (doc_registered src role c l H) as [R C]. fold s in R, C.
  assert (S : source_op src role call) by (repeat split; assumption).
  destruct (fwd_step src role s call C S eq_refl) as [F1 C1]. destruct (fwd_exec src role l' _ C1 H' N) as [F2 _].
  cbn [exec fold_left]. change (fold_left (fun s o => fst (step s o)) l' (fst (step s call))) with (exec (fst (step s call)) l').
  cbn [step sstep call] in *. pose proof (fwd_mask src role mid (src mid) s eq_refl Em) as FM.
  destruct (maskHolder mid (src mid) s) as [[s0 r0] e] eqn:M. cbn [fst] in FM. destruct r0; try discriminate.
  destruct (mask_adds src role mid (src mid) s s0 e R eq_refl Em M) as [MK CC].
  assert (R0 : registered src role s0) by (eapply registered_fwd; eauto).
  match goal with |- context [imageByHolder true id (src id) ?g s0] => pose proof (fwd_image src role true id (src id) g s0 eq_refl Er) as FI; destruct (imageByHolder true id (src id) g s0) as [s1 r] eqn:E end.
  cbn [fst snd] in *. subst r.
  destruct (image_adds src role true id (src id) _ s0 s1 R0 eq_refl Er E) as (i & ci & G1 & G2 & G3). exists ci. eexists. exists e. split; [exact G1|]. split.
  - rewrite <- Er. rewrite <- CC. eapply drawn_stays; eauto.
  - eapply mask_persists; [exact F2| |reflexivity]. eapply mask_persists; [exact FI|exact MK|reflexivity].
Qed.
Print Assumptions C36_masked_image_refers_to_both_partial.

(** Drawing the same source again — plainly or under the same mask — adds no image object, whatever happened between. *)
Lemma count_draw np it s : image_objects (fst (draw np it s)) = image_objects s.
Proof.
  assert (A : forall l, List.length (filter is_image (l ++ [OContent []])) = List.length (filter is_image l)) by (intros l; rewrite filter_app, app_length; cbn; lia).
  assert (U : forall l i x, List.length (filter is_image (upd l i (fun o => match o with OContent k => OContent (k ++ [x]) | _ => o end))) = List.length (filter is_image l)).
  { induction l as [|o l IH]; intros [|i] x; cbn; try reflexivity; [destruct o; reflexivity|destruct (is_image o); cbn; now rewrite IH]. }
  unfold draw, getContent, image_objects. destruct (g_content s); cbn [addObj]; cbn; (destruct (g_pagesize s); [|destruct np]); cbn; rewrite ?U, ?A; reflexivity.
Qed.
Lemma draws_register (b : bool) id im gs s s' : imageByHolder b id im gs s = (s', Ok) -> exists i, lookup id (g_imgs s') = Some i.
Proof.
  unfold imageByHolder. destruct (lookup id (g_imgs s)) as [i|] eqn:L; intros H.
  - pose proof (imgs_draw true (fun _ => IImage i gs) s) as D. rewrite H in D. cbn [fst] in D. rewrite D. eauto.
  - destruct (im_ok im); [|discriminate]. cbn [addObj] in H. destruct (draw _ _ _) as [s2 r]. destruct r; try discriminate. injection H as <-.
    exists (List.length (g_objs s)). assert (Q : list_eqb id id = true) by (now apply list_eqb_eq).
    destruct (im_alpha im), (im_indexed im); cbn [addObj snd g_imgs set_objs set_smasks set_rgbs set_imgs lookup]; now rewrite Q.
Qed.
Theorem C36_embedded_once_partial :
  forall src role c l id l', Forall (source_op src role) l -> Forall (source_op src role) l' -> forallb no_start l' = true -> role id = Plain ->
    let s := doc c l in let call := Do (Image id (src id)) in
    snd (step s call) = Ok ->
    let t := exec s (call :: l') in
    image_objects (fst (step t call)) = image_objects t.
Proof.
  intros src role c l id l' H H' N Er s call D. destruct (doc_registered src role c l H) as [R C]. fold s in R, C.
  assert (S : source_op src role call) by (split; [reflexivity|exact Er]).
  destruct (fwd_step src role s call C S eq_refl) as [F1 C1]. destruct (fwd_exec src role l' _ C1 H' N) as [F2 _].
  cbn [exec fold_left]. change (fold_left (fun s o => fst (step s o)) l' (fst (step s call))) with (exec (fst (step s call)) l').
  cbn [step sstep call] in *. destruct (imageByHolder _ _ _ _ s) as [s1 r] eqn:E. cbn [fst snd] in *. subst r.
  destruct (draws_register _ _ _ _ _ _ E) as (i & L). pose proof (fw_i _ _ _ _ F2 id i L) as L2. set (t := exec s1 l') in *. clearbody t.
  unfold imageByHolder at 1. rewrite L2. apply count_draw.
Qed.
Print Assumptions C36_embedded_once_partial.

(** ** A history meeting the hypotheses: a picture drawn twice with a page break, another drawn under a mask. *)
Definition pic_id : bytes := bs "pic". Definition pic2_id : bytes := bs "pic2". Definition mask_id : bytes := bs "mask".
Definition demo_im (a : bool) : imgdesc := {| im_data := bs "JFIF"; im_alpha := a; im_indexed := false; im_ok := true |}.
Definition demo_src (id : bytes) : imgdesc := demo_im (list_eqb id pic_id).
Definition demo_role (id : bytes) : imguse := if list_eqb id pic2_id then Split else if list_eqb id mask_id then AsMask else Plain.
Definition demo_hist : list op :=
  [AddPage None; Do (Image pic_id (demo_im true)); AddPage None; Do (ImageMasked pic2_id (demo_im false) mask_id (demo_im false))].
Example C36_met :
  let c := {| cf_page := {| r_w := 595; r_h := 842 |}; cf_protect := false |} in
  let l' := [AddPage None; Output] in
  Forall (source_op demo_src demo_role) demo_hist /\ Forall (source_op demo_src demo_role) l' /\ forallb no_start l' = true /\
  snd (step (doc c demo_hist) (Do (Image pic_id (demo_src pic_id)))) = Ok /\ demo_role pic_id = Plain /\
  snd (step (doc c demo_hist) (Do (ImageMasked pic2_id (demo_src pic2_id) mask_id (demo_src mask_id)))) = Ok /\
  demo_role pic2_id = Split /\ demo_role mask_id = AsMask /\ image_objects (doc c demo_hist) = 3%nat.
Proof. cbv zeta. split; [repeat constructor|]. split; [repeat constructor|]. vm_compute. repeat split; reflexivity. Qed.

(** ** Refutations: one source used in two ways *)
(** Used as a mask first, the picture drawn later is the mask's rendering (its alpha channel, as a grey image). *)
Theorem C36_mask_source_drawn_refuted :
  exists c l id im, let s := doc c l in
    snd (step s (Do (Image id im))) = Ok /\
    exists ci, g_content (fst (step s (Do (Image id im)))) = Some ci /\
      refers (fst (step s (Do (Image id im)))) ci (List.length (current_content s)) [] (OImage im AsMask) /\
      ~ refers (fst (step s (Do (Image id im)))) ci (List.length (current_content s)) [] (OImage im Plain).
Proof.
  exists {| cf_page := {| r_w := 595; r_h := 842 |}; cf_protect := false |},
    [AddPage None; Do (ImageMasked pic2_id (demo_im false) mask_id (demo_im true))], mask_id, (demo_im true). cbv zeta.
  split; [vm_compute; reflexivity|]. 
  match goal with |- context [fst (step ?s ?o)] => remember (fst (step s o)) as t eqn:T; remember s as s0 eqn:S end. vm_compute in S. subst s0. vm_compute in T. subst t.
  eexists. split; [reflexivity|]. split.
  - do 2 eexists. split; [reflexivity|]. split; reflexivity.
  - intros (items & i & A & B & D). cbn in A. injection A as <-. cbn in B. injection B as <-. vm_compute in D. discriminate.
Qed.
Print Assumptions C36_mask_source_drawn_refuted.
(** Drawn under a mask first, the picture drawn later on its own has lost its alpha channel. *)
Theorem C36_alpha_lost_refuted :
  exists c l id im, im_alpha im = true /\ let s := doc c l in
    snd (step s (Do (Image id im))) = Ok /\
    exists ci, g_content (fst (step s (Do (Image id im)))) = Some ci /\
      refers (fst (step s (Do (Image id im)))) ci (List.length (current_content s)) [] (OImage im Split).
Proof.
  exists {| cf_page := {| r_w := 595; r_h := 842 |}; cf_protect := false |},
    [AddPage None; Do (ImageMasked pic_id (demo_im true) mask_id (demo_im false))], pic_id, (demo_im true). cbv zeta.
  split; [reflexivity|]. split; [vm_compute; reflexivity|]. 
  match goal with |- context [fst (step ?s ?o)] => remember (fst (step s o)) as t eqn:T; remember s as s0 eqn:S end. vm_compute in S. subst s0. vm_compute in T. subst t.
  eexists. split; [reflexivity|]. do 2 eexists. split; [reflexivity|]. split; reflexivity.
Qed.
Print Assumptions C36_alpha_lost_refuted.
