(** PropRef2.v — C61, the theorems. *)
From Coq Require Import QArith.
From Verif Require Import Base NumModel StrModel StrSpec DocModel DocSpec DocProofs DocInv SecModel FileModel StreamModel PdfSyntax PdfRead ObjModel PropObj PropObj2 RefModel PropRef PropDoc.
Open Scope Z_scope.

(** ** Exceptions *)
(** Not promised: the parent of a bookmark (it names the page tree, see C17); the colour space of a palette picture used as a
    mask (see C60_indexed_mask_refuted). *)
Definition excused (o : obj) (key : bytes) : Prop :=
  match o with
  | OOutline _ => key = bs "Parent"
  | OImage _ AsMask => key = bs "ColorSpace"
  | _ => False
  end.
(** The destination of a bookmark or anchor set before the first page: object 0, which does not exist. *)
Definition nowhere (o : obj) (key : bytes) (r : Z * Z) : Prop :=
  match o with OOutline _ | OAnnot _ => key = bs "Dest" /\ r = (0, 0) | _ => False end.

Lemma rr_obj st t i o x : nth_error (g_objs t) i = Some o -> In x (orefs st o) -> In x (rr st t).
Proof. intros N I. apply in_or_app. left. apply in_flat_map. exists o. split; [eapply nth_error_In; eauto|exact I]. Qed.
Lemma lookup_In {B} k (l : list (bytes * B)) v : lookup k l = Some v -> exists k', In (k', v) l.
Proof. induction l as [|[k' v'] l IH]; [discriminate|]. cbn. destruct (list_eqb k k'); [intros E; injection E as <-; exists k'; now left|intros E; destruct (IH E) as (k2 & I); exists k2; now right]. Qed.
Lemma nlookup_In {B} k (l : list (nat * B)) v : nlookup k l = Some v -> In (k, v) l.
Proof. induction l as [|[k' v'] l IH]; [discriminate|]. cbn. destruct (Nat.eqb_spec k k'); [intros E; injection E as <-; subst; now left|intros E; right; auto]. Qed.
Ltac insr := unfold srefs; rewrite ?in_app_iff; cbn [In]; auto 30.

Lemma er_cons key r k x l : In (key, r) (entry_refs ((k, x) :: l)) -> (key = k /\ In r (refs_in x)) \/ In (key, r) (entry_refs l).
Proof. unfold entry_refs. cbn [flat_map fst snd]. rewrite in_app_iff. intros [I|I]; [left|now right]. apply in_map_iff in I as (r' & E & I). split; congruence. Qed.
Lemma er_ref r n : In r (refs_in (ref n)) -> r = (n, 0).
Proof. intros [E|[]]. auto. Qed.
Lemma er_list r l : In r (refs_in (OArr (map ref l))) -> exists n, In n l /\ r = (n, 0).
Proof. rewrite refs_arr. intros I. apply in_map_iff in I as (n & E & I). eauto. Qed.
Lemma er_dict {A} r (f : A -> bytes * pobj) (g : A -> Z) l : (forall x, snd (f x) = ref (g x)) -> In r (refs_in (ODict (map f l))) -> exists x, In x l /\ r = (g x, 0).
Proof. intros H. rewrite (refs_dict f g l H). intros I. apply in_map_iff in I as (x & E & I). eauto. Qed.
Ltac norefs I := solve [destruct I | repeat (destruct I as [I|I]; [discriminate I|]); destruct I].
Ltac next I := apply er_cons in I as [[-> I]|I]; [try (solve [exfalso; exact I])|].
Ltac leads := right; right; eapply res_ok; [wanted|now left|].
Lemma refs_flat {A} (f : A -> list pobj) l : (forall x, flat_map refs_in (f x) = []) -> refs_in (OArr (flat_map f l)) = [].
Proof.
  intros H. assert (E : forall m, refs_in (OArr m) = flat_map refs_in m) by (intros m; induction m as [|y m IH]; [reflexivity|]; cbn in *; now rewrite <- IH).
  rewrite E. clear E. induction l as [|x l IH]; [reflexivity|]. cbn [flat_map]. now rewrite flat_map_app, H.
Qed.
Lemma text_refs st zl pr t i o txt v rest key r : Good st t -> nth_error (g_objs t) i = Some o -> writes zl pr t i o txt -> read_object txt = Some (v, rest) ->
  In (key, r) (references v) -> excused o key \/ (st = false /\ nowhere o key r) \/ resolves t (kind_of o) key r.
Proof.
  intros G N Wr RO I.
  assert (GS : forall x, In x (srefs st t) -> R t x) by (intros x J; apply (gd_ref st t G), in_or_app; now right).
  assert (GO : forall x, In x (orefs st o) -> R t x) by (intros x J; apply (gd_ref st t G); eapply rr_obj; eauto).
  destruct Wr.
  - (* catalog *) pose proof (reads_value _ _ _ _ (C60_catalog _) RO) as ->. change (In (key, r) (entry_refs ([(bs "Type", N_ "Catalog"); (bs "Pages", ref 2)] ++ (if 0 <=? g_cat_outl t then [(bs "PageMode", N_ "UseOutlines"); (bs "Outlines", ref (g_cat_outl t))] else [])))) in I.
    cbn [app] in I. next I. next I.
    + apply er_ref in I as ->. leads. apply GS. insr.
    + destruct (Z.leb_spec 0 (g_cat_outl t)); [|destruct I]. next I. next I; [|destruct I]. apply er_ref in I as ->. leads. apply GS. unfold srefs.
      rewrite !in_app_iff. right; right; right; left. apply un_in. apply Z.eqb_neq. lia.
  - (* pages *) pose proof (reads_value _ _ _ _ (C60_pages w h _ _ H H0) RO) as ->. change (references (ODict ?l)) with (entry_refs l) in I.
    next I. next I. next I. next I; [|destruct I]. apply er_list in I as (n & J & ->). leads. apply GS. unfold srefs. rewrite !in_app_iff. left. now apply in_map.
  - (* outlines *) pose proof (reads_value _ _ _ _ (C60_outlines _ _ _) RO) as ->. change (references (ODict ?l)) with (entry_refs l) in I. cbn [app] in I. next I. next I.
    rewrite entry_app in I. apply in_app_iff in I as [I|I]; unfold ifd in I; match type of I with context[if 0 <=? ?e then _ else _] => destruct (Z.leb_spec 0 e) end; try (destruct I; fail); (next I; [|destruct I]); apply er_ref in I as ->;
      leads; apply GS; unfold srefs; rewrite !in_app_iff.
    + right; left. apply un_in, Z.eqb_neq. lia.
    + right; right; left. apply un_in, Z.eqb_neq. lia.
  - (* resources *) assert (HT : Forall (fun e => exists n, fst e = 47 :: n /\ n <> [] /\ plain_name n = true) tpls) by (eapply Forall_impl; [|exact H]; now intros e [X _]).
    pose proof (reads_value _ _ _ _ (C60_resources _ _ _ _ _ HT) RO) as ->. change (references (ODict ?l)) with (entry_refs l) in I. next I. next I; [|next I; [|next I; [|next I; [|destruct I]]]].
    + apply (er_dict r _ (fun e => snd e + 1)) in I as (e & J & ->); [|reflexivity]. apply in_map_iff in J as (f & <- & J). leads. apply GS. unfold srefs. rewrite !in_app_iff.
      do 5 right. left. apply in_map_iff. now exists f.
    + apply (er_dict r _ (fun e => snd e + 1)) in I as (e & J & ->); [|reflexivity]. apply in_map_iff in J as (f & <- & J). leads. apply GS. unfold srefs. rewrite !in_app_iff.
      do 6 right. left. apply in_map_iff. now exists f.
    + rewrite refs_dict_app in I. apply in_app_iff in I as [I|I].
      * apply (er_dict r _ (fun e => e + 1)) in I as (e & J & ->); [|reflexivity]. apply in_map_iff in J as (f & <- & J). leads. apply GS. unfold srefs. rewrite !in_app_iff.
        do 7 right. left. apply in_map_iff. now exists f.
      * apply (er_dict r _ (fun e => snd e)) in I as (e & J & ->); [|reflexivity]. rewrite Forall_forall in H. destruct (H e J) as (_ & d & E). right. right. split; [reflexivity|].
        exists (OImported d). split; [exact E|]. exists "XObject"%string. eexists. split; [reflexivity|]. split; [wanted|]. cbn. auto.
    + apply (er_dict r _ (fun e => e + 1)) in I as (e & J & ->); [|reflexivity]. apply in_map_iff in J as (f & <- & J). leads. apply GS. unfold srefs. rewrite !in_app_iff.
      do 8 right. left. apply in_map_iff. now exists f.
  - (* page *) destruct (pg_contents p) as [|c1 [|c2 cs]] eqn:PC; [| |now rewrite page_multi in RO by assumption].
    + pose proof (reads_value _ _ _ _ (C60_page_partial 4 (pg_links p) None size trim H H0) RO) as ->. unfold page_dict in I. change (references (ODict ?l)) with (entry_refs l) in I.
      cbn [app] in I. next I. next I; [apply er_ref in I as ->; leads; apply GS; insr|]. next I; [apply er_ref in I as ->; leads; apply GS; insr|].
      rewrite !entry_app, !in_app_iff in I. destruct I as [I|[I|I]].
      * assert (J : In (key, r) (entry_refs [(bs "Annots", OArr (map ref (pg_links p)))])) by (destruct (pg_links p); [destruct I|exact I]). clear I. next J; [|destruct J].
        apply er_list in J as (n & J & ->). leads. apply GO. cbn [orefs]. apply in_or_app. left. now apply in_map.
      * destruct size as [[w h]|]; [next I; destruct I|destruct I].
      * destruct (trimSet trim) as [b|]; [next I; destruct I|destruct I].
    + pose proof (reads_value _ _ _ _ (C60_page_partial 4 (pg_links p) (Some c1) size trim H H0) RO) as ->. unfold page_dict in I. change (references (ODict ?l)) with (entry_refs l) in I.
      cbn [app] in I. next I. next I; [apply er_ref in I as ->; leads; apply GS; insr|]. next I; [apply er_ref in I as ->; leads; apply GS; insr|].
      rewrite entry_app, in_app_iff in I. destruct I as [I|I].
      * assert (J : In (key, r) (entry_refs [(bs "Annots", OArr (map ref (pg_links p)))])) by (destruct (pg_links p); [destruct I|exact I]). clear I. next J; [|destruct J].
        apply er_list in J as (n & J & ->). leads. apply GO. cbn [orefs]. apply in_or_app. left. now apply in_map.
      * next I; [apply er_ref in I as ->; leads; apply GO; cbn [orefs]; apply in_or_app; right; rewrite PC; now left|]. rewrite !entry_app, !in_app_iff in I. destruct I as [I|I].
        { destruct size as [[w h]|]; [next I; destruct I|destruct I]. }
        { destruct (trimSet trim) as [b|]; [next I; destruct I|destruct I]. }
  - (* content *) pose proof (reads_value_s _ _ _ _ _ (C60_content _ _ _ _ _) RO) as ->. change (references (ODict ?l)) with (entry_refs l) in I. rewrite entry_app in I. destruct c; cbn in I; norefs I.
  - (* external *) pose proof (reads_value _ _ _ _ (C60_external_link _ _ _ _ _ _ _ _ H0 H1 H2 H3) RO) as ->. cbn in I. destruct I.
  - (* internal *) destruct (lookup (lk_anchor l) (g_anchors t)) as [[pg y0]|] eqn:L; cbn [option_map fst] in RO; [|rewrite C60_unknown_anchor_refuted in RO; discriminate].
    pose proof (reads_value _ _ _ _ (C60_internal_link _ _ _ _ _ _ H0 H1 H2 H3 H4) RO) as ->. change (references (ODict ?l)) with (entry_refs l) in I.
    do 4 next I. next I; [|destruct I]. destruct I as [<-|I]; [|norefs I]. assert (GA : forall z, In z (match pg with Some n => [at_ KPage n] | None => if st then [(KPage, 0)] else [] end) -> R t z).
    { intros z J. apply GS. apply lookup_In in L as (k' & L). unfold srefs. rewrite !in_app_iff. do 10 right. left. apply in_flat_map. exists (k', (pg, y0)). split; [exact L|exact J]. }
    destruct pg as [n|]; cbn [idx].
    + leads. apply GA. now left.
    + right; left. destruct st; [destruct (GA _ (or_introl eq_refl)) as [B _]; cbn in B; lia|]. now split.
  - (* outline *) match type of RO with read_object (outline_body ?q) = _ => destruct (C60_outline q H H0) as (title & _ & RA) end. pose proof (reads_value _ _ _ _ RA RO) as ->.
    cbn [oo_prev oo_next oo_first oo_last oo_dest oo_parent oo_height] in I. change (references (ODict ?l)) with (entry_refs l) in I. rewrite !entry_app, !in_app_iff in I.
    destruct I as [I|[I|[I|[I|[I|I]]]]].
    + next I; [|destruct I]. now left.
    + unfold ifd in I. destruct (Z.leb_spec 0 (ol_prev q)); [|destruct I]. next I; [|destruct I]. apply er_ref in I as ->. leads. apply GO. cbn [orefs]. rewrite !in_app_iff. left. apply un_in, Z.eqb_neq. lia.
    + unfold ifd in I. destruct (Z.leb_spec 0 (ol_next q)); [|destruct I]. next I; [|destruct I]. apply er_ref in I as ->. leads. apply GO. cbn [orefs]. rewrite !in_app_iff. right. left. apply un_in, Z.eqb_neq. lia.
    + unfold ifd in I. destruct (Z.ltb_spec 0 (ol_first q)); [|destruct I]. next I; [|destruct I]. apply er_ref in I as ->. leads. apply GO. cbn [orefs]. rewrite !in_app_iff. do 2 right. left. apply un_in, Z.eqb_neq. lia.
    + unfold ifd in I. destruct (Z.ltb_spec 0 (ol_last q)); [|destruct I]. next I; [|destruct I]. apply er_ref in I as ->. leads. apply GO. cbn [orefs]. rewrite !in_app_iff. do 3 right. left. apply un_in, Z.eqb_neq. lia.
    + next I; [|next I; destruct I]. destruct I as [<-|I]; [|norefs I]. assert (GD : negb st && (ol_dest q =? 0) = false -> R t (KPage, ol_dest q)) by (intros E; apply GO; cbn [orefs]; rewrite !in_app_iff; do 4 right; now apply un_in).
      destruct (Z.eqb_spec (ol_dest q) 0) as [E|E]; [|leads; apply GD; now rewrite andb_false_r].
      right; left. rewrite E in *. destruct st; [destruct (GD eq_refl) as [B _]; cbn in B; lia|]. now split.
  - pose proof (reads_value_s _ _ _ _ _ (C60_tounicode _ _ _ _) RO) as ->. destruct I.
  - pose proof (reads_value_s _ _ _ _ _ (C60_fontfile _ _ _ _) RO) as ->. destruct I.
  - (* descriptor *) pose proof (reads_value _ _ _ _ (C60_descriptor _ _ _ H) RO) as ->. change (references (ODict ?l)) with (entry_refs l) in I. do 6 next I. next I; [|do 4 next I; destruct I].
    apply er_ref in I as ->. leads. apply GO. now left.
  - (* cid font *) pose proof (reads_value _ _ _ _ (C60_cidfont _ _ _ H) RO) as ->. change (references (ODict ?l)) with (entry_refs l) in I. do 2 next I. next I.
    + apply er_ref in I as ->. leads. apply GO. now left.
    + do 2 next I. next I; [|destruct I]. rewrite refs_flat in I by reflexivity. destruct I.
  - (* font *) pose proof (reads_value _ _ _ _ (C60_font _ _ _ H) RO) as ->. change (references (ODict ?l)) with (entry_refs l) in I. next I. next I.
    + destruct I as [<-|[]]. leads. apply GO. now left.
    + do 2 next I. next I; [|next I; destruct I]. apply er_ref in I as ->. leads. apply GO. right. now left.
  - (* image *)
    assert (SP : forall cs, In r (refs_in (space_of p cs)) -> im_cs p = Indexed /\ r = (im_rgbObj p + 1, 0)).
    { intros cs J. unfold space_of in J. destruct (im_cs p); try (destruct cs; destruct J; fail). split; [reflexivity|]. cbn in J. now destruct J as [<-|[]]. }
    assert (PI : forall cs, In (key, r) (entry_refs (picture p cs)) -> key = bs "ColorSpace" /\ im_cs p = Indexed /\ r = (im_rgbObj p + 1, 0)).
    { intros cs J. unfold picture in J. cbn [app] in J. do 4 next J. next J; [split; [reflexivity|now apply (SP cs)]|]. exfalso. rewrite !entry_app, !in_app_iff in J.
      destruct J as [J|J]; [unfold cmyk_decode in J; destruct (im_cs p); try (destruct J; fail); next J; destruct J|]. next J. unfold filter_of in J. destruct (im_filter p); try (destruct J; fail); next J; destruct J. }
    assert (PR : forall a b c, ~ In (key, r) (entry_refs (predictor a b c))) by (intros a b c J; unfold predictor in J; next J; destruct J).
    assert (UM : use = AsMask \/ use <> AsMask) by (destruct use; auto; right; discriminate). destruct UM as [->|UM].
    + pose proof (reads_value_s _ _ _ _ _ (C60_mask_image _ _ _ _ _) RO) as ->. change (references (ODict ?l)) with (entry_refs l) in I. rewrite !entry_app, !in_app_iff in I.
      destruct I as [I|[I|I]]; [left; now apply PI in I|now apply PR in I|next I; destruct I].
    + assert (EM : (match use with AsMask => true | _ => false end) = false) by (now destruct use). rewrite EM in RO. clear EM.
      pose proof (reads_value_s _ _ _ _ _ (C60_image _ _ _ _ _) RO) as ->. change (references (ODict ?l)) with (entry_refs l) in I. rewrite !entry_app, !in_app_iff in I.
      destruct (gd_img st t G i im use N UM) as [GA GI]. destruct H as [PA PX].
      destruct I as [I|[I|[I|I]]].
      * apply PI in I as (-> & E & ->). apply PX, GI in E. rewrite H1. unfold objid. destruct (nlookup i (g_rgbs t)) as [n|] eqn:L; [|now destruct E]. apply nlookup_In in L.
        leads. apply GS. unfold srefs. rewrite !in_app_iff. do 12 right. left. apply in_map_iff. now exists (i, n).
      * exfalso. unfold parms in I. destruct (im_colors p); [now apply PR in I|destruct I].
      * assert (J : In (key, r) (entry_refs (colour_mask (im_trns p) ++ soft_mask p))) by (destruct use; [exact I|destruct I|congruence]). clear I.
        rewrite entry_app, in_app_iff in J. destruct J as [J|J].
        { exfalso. unfold colour_mask in J. destruct (im_trns p) as [|x tr]; [destruct J|]. next J; [|destruct J]. rewrite refs_flat in J by reflexivity. destruct J. }
        unfold soft_mask in J. destruct (im_smask p) as [|x sm] eqn:SM; [destruct J|]. next J; [|destruct J]. apply er_ref in J as ->.
        assert (E : im_alpha im = true) by (cbn in PA; destruct (im_alpha im); [reflexivity|discriminate]). apply GA in E.
        rewrite H0. unfold objid. destruct (nlookup i (g_smasks t)) as [n|] eqn:L; [|now destruct E]. apply nlookup_In in L.
        leads. apply GS. unfold srefs. rewrite !in_app_iff. do 11 right. left. apply in_map_iff. now exists (i, n).
      * next I. destruct I.
  - pose proof (reads_value_s _ _ _ _ _ (C60_smask _ _ _ _ _ _ _) RO) as ->. unfold gray in I. change (references (ODict ?l)) with (entry_refs l) in I. cbn [app] in I. do 6 next I. rewrite !entry_app, !in_app_iff in I.
    destruct I as [I|[I|I]]; [unfold filter_of in I; destruct f; try (destruct I; fail); next I; destruct I|unfold predictor in I; next I; destruct I|next I; destruct I].
  - pose proof (reads_value_s _ _ _ _ _ (C60_palette _ _ _ _) RO) as ->. destruct I.
  - pose proof (reads_value_s _ _ _ _ _ (C60_group _ _ _ _ _ _ _ _ H H0 H1 H2) RO) as ->. cbn in I. destruct I.
  - pose proof (reads_value _ _ _ _ (C60_softmask _) RO) as ->. change (references (ODict ?l)) with (entry_refs l) in I. next I. next I. next I; [|destruct I]. apply er_ref in I as ->. leads. apply GO. now left.
  - (* graphics state *) pose proof (reads_value _ _ _ _ (C60_gstate _ _ _ _ H H0) RO) as ->. change (references (ODict ?l)) with (entry_refs l) in I. cbn [app] in I. next I. rewrite !entry_app, !in_app_iff in I.
    destruct I as [I|[I|[I|I]]].
    + destruct ca; [next I; destruct I|destruct I].
    + destruct CA; [next I; destruct I|destruct I].
    + destruct bm; [next I; destruct I|destruct I].
    + destruct (eg_smask e) as [m|] eqn:EM; [|destruct I]. cbn [option_map odict] in I. next I; [|destruct I]. apply er_ref in I as ->. leads. apply GO. cbn [orefs]. rewrite EM. now left.
  - pose proof (reads_value _ _ _ _ (C60_rgb_space _ _ _ _ H H0 H1 H2) RO) as ->. cbn in I. destruct I.
  - pose proof (reads_value _ _ _ _ (C60_cmyk_space _ _ _ _ _ H H0 H1 H2 H3) RO) as ->. cbn in I. destruct I.
  - pose proof (reads_value _ _ _ _ (C60_encryption _) RO) as ->. cbn in I. destruct I.
Qed.

(** ** Theorems *)
(** After any history of calls that do not panic, the document is written; a reader takes the text of any of its objects apart;
    then every reference in it has generation 0 and names an object of the document, of a kind its place asks for. *)
Theorem C61_references_resolve : forall zl pr c l, finishes (start c zero_gp) l -> let t := output (exec (start c zero_gp) l) in
  forall i o txt v rest key r, nth_error (g_objs t) i = Some o -> writes zl pr t i o txt -> read_object txt = Some (v, rest) ->
  In (key, r) (references v) -> excused o key \/ nowhere o key r \/ resolves t (kind_of o) key r.
Proof.
  intros zl pr c l F t i o txt v rest key r N Wr RO I. assert (G : Good false t).
  { apply (Step_good false (exec (start c zero_gp) l)); [apply S_output|]. apply (Good_exec false l false); [discriminate|discriminate|exact F|apply Good_start]. }
  destruct (text_refs false zl pr t i o txt v rest key r G N Wr RO I) as [H|[[_ H]|H]]; auto.
Qed.
Print Assumptions C61_references_resolve.
(** If bookmarks and anchors are set only while there is a page, no destination is lost. *)
Theorem C61_destinations : forall zl pr c l, finishes (start c zero_gp) l -> marks_on_pages false l = true -> let t := output (exec (start c zero_gp) l) in
  forall i o txt v rest key r, nth_error (g_objs t) i = Some o -> writes zl pr t i o txt -> read_object txt = Some (v, rest) ->
  In (key, r) (references v) -> excused o key \/ resolves t (kind_of o) key r.
Proof.
  intros zl pr c l F M t i o txt v rest key r N Wr RO I. assert (G : Good true t).
  { apply (Step_good true (exec (start c zero_gp) l)); [apply S_output|]. apply (Good_exec true l false); [auto|discriminate|exact F|apply Good_start]. }
  destruct (text_refs true zl pr t i o txt v rest key r G N Wr RO I) as [H|[[H _]|H]]; [auto|discriminate|auto].
Qed.
Print Assumptions C61_destinations.
(** The trailer names the catalog as object 1 and the encryption dictionary of a protected document by its number (C60_trailer). *)
Lemma prep_enc ks : forall st, ps_enc (fold_left prep_step ks st) <> 0 \/
  (ps_enc (fold_left prep_step ks st) = ps_enc st /\ forall i, In i ks -> nth_error (map kind_of (ps_objs st)) i <> Some KEncryption).
Proof.
  assert (ST : forall st i, map kind_of (ps_objs (prep_step st i)) = map kind_of (ps_objs st) /\
    (ps_enc (prep_step st i) <> 0 \/ (ps_enc (prep_step st i) = ps_enc st /\ nth_error (map kind_of (ps_objs st)) i <> Some KEncryption))).
  { intros st i. unfold prep_step. destruct (nth_error (ps_objs st) i) as [o|] eqn:N.
    - assert (NK : nth_error (map kind_of (ps_objs st)) i = Some (kind_of o)) by now rewrite nth_error_map, N. rewrite NK.
      destruct o; try (split; [reflexivity|right; split; [reflexivity|discriminate]]).
      + destruct (ps_cur st) as [p|]; cbn [ps_objs ps_enc]; [|split; [reflexivity|right; split; [reflexivity|discriminate]]]. split; [|right; split; [reflexivity|discriminate]].
        generalize p. clear. induction (ps_objs st) as [|o l IH]; intros [|p]; cbn; rewrite ?IH; try reflexivity. f_equal. now destruct o.
      + split; [reflexivity|]. left. cbn [ps_enc]. lia.
    - split; [reflexivity|]. right. split; [reflexivity|]. now rewrite nth_error_map, N. }
  induction ks as [|i ks IH]; intros st; [right; split; [reflexivity|intros i []]|]. cbn [fold_left]. destruct (ST st i) as [K E]. destruct (IH (prep_step st i)) as [H|[H1 H2]]; [now left|].
  destruct E as [E|[E1 E2]]; [left; congruence|]. right. split; [congruence|]. intros j [<-|J]; [exact E2|]. rewrite <- K. now apply H2.
Qed.
Lemma output_enc s : cf_protect (g_cfg s) = true -> g_encid (output s) <> 0.
Proof.
  intros P. unfold output, prepare. rewrite P. set (s1 := if _ <? _ then _ else _).
  assert (O : g_objs s1 = g_objs s ++ [OEncryption]) by (unfold s1; destruct (_ <? _); reflexivity). clearbody s1.
  match goal with |- context [fold_left prep_step ?ks ?st] => destruct (prep_enc ks st) as [H|[_ H]]; [exact H|exfalso] end.
  apply (H (List.length (g_objs s))).
  - apply in_seq. rewrite O, app_length. cbn. lia.
  - cbn [ps_objs]. rewrite O, kinds_app. rewrite <- (map_length kind_of (g_objs s)). apply nth_app_len.
Qed.
Theorem C61_roots : forall c l, finishes (start c zero_gp) l -> let s := exec (start c zero_gp) l in let t := output s in
  obj_no t 1 = Some OCatalog /\ (cf_protect (g_cfg s) = true -> obj_no t (g_encid t) = Some OEncryption).
Proof.
  intros c l F s t. assert (G : Good false t).
  { apply (Step_good false (exec (start c zero_gp) l)); [apply S_output|]. apply (Good_exec false l false); [discriminate|discriminate|exact F|apply Good_start]. }
  assert (GS : forall x, In x (srefs false t) -> R t x) by (intros x J; apply (gd_ref false t G), in_or_app; now right). split.
  - destruct (R_obj t KCatalog 1) as (o & O & K); [apply GS; insr|]. rewrite O. now destruct o.
  - intros P. apply output_enc in P. destruct (R_obj t KEncryption (g_encid t)) as (o & O & K).
    + apply GS. unfold srefs. rewrite !in_app_iff. do 4 right. left. apply un_in. now apply Z.eqb_neq.
    + rewrite O. now destruct o.
Qed.
Print Assumptions C61_roots.

(** Met: a document with fonts, a picture with transparency, links, bookmarks, a header and protection. *)
Fixpoint finishesb (s : gp) (l : list op) : bool :=
  match l with [] => true | o :: r => match snd (step s o) with Panic => false | _ => finishesb (fst (step s o)) r end end.
Lemma finishesb_ok l : forall s, finishesb s l = true -> finishes s l.
Proof. induction l as [|o l IH]; intros s; cbn [finishesb finishes]; [trivial|]. intros H. destruct (snd (step s o)); [..|discriminate]; (split; [discriminate|now apply IH]). Qed.
Example C61_met : let t := output (exec (start a4 zero_gp) demo) in
  finishes (start a4 zero_gp) demo /\ marks_on_pages false demo = true /\ cf_protect (g_cfg (exec (start a4 zero_gp) demo)) = true /\
  exists o txt v rest, nth_error (g_objs t) 17 = Some o /\ writes (fun d => d) None t 17 o txt /\ read_object txt = Some (v, rest) /\
    In (bs "Annots", (23, 0)) (references v) /\ In (bs "Contents", (19, 0)) (references v) /\ option_map kind_of (obj_no t 23) = Some KAnnot.
Proof.
  cbv zeta. split; [apply finishesb_ok; vm_compute; reflexivity|]. split; [reflexivity|]. split; [vm_compute; reflexivity|].
  assert (N : nth_error (g_objs (output (exec (start a4 zero_gp) demo))) 17 = Some (OPage {| pg_size := Some small; pg_contents := [19]; pg_links := [23] |})) by (vm_compute; reflexivity).
  assert (K : option_map kind_of (obj_no (output (exec (start a4 zero_gp) demo)) 23) = Some KAnnot) by (vm_compute; reflexivity).
  generalize dependent (output (exec (start a4 zero_gp) demo)). intros t N K.
  assert (RD : exists rest, read_object (page_body 4 [23] [19] None None) = Some (page_dict 4 [23] (Some 19) None (trimSet None), rest)).
  { destruct (C60_page_partial 4 [23] (Some 19) None None) as (rest & E & _); [discriminate..|]. exists rest. exact E. }
  destruct RD as (rest & RD). eexists. exists (page_body 4 [23] [19] None None). eexists. exists rest. split; [exact N|]. split.
  - apply (W_page (fun d => d) None t 17 {| pg_size := Some small; pg_contents := [19]; pg_links := [23] |} None None); discriminate.
  - split; [exact RD|]. cbn. auto 10.
Qed.
(** Met, for what C61_destinations rules out: a bookmark set before the first page points nowhere. *)
Example C61_early_bookmark : let l := [Do (AddOutline (bs "x")); AddPage None] in finishes (start a4 zero_gp) l /\ marks_on_pages false l = false /\
  exists q, nth_error (g_objs (output (exec (start a4 zero_gp) l))) 4 = Some (OOutline q) /\ ol_dest q = 0.
Proof. cbv zeta. split; [apply finishesb_ok; vm_compute; reflexivity|]. split; [reflexivity|]. eexists. split; vm_compute; reflexivity. Qed.
