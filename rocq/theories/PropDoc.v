(** PropDoc.v — properties of the document as a whole: C04, C05, C06, C09, C16, C17, C36, C41, C42,
    C43, C45, C46, C52. Vocabulary: DocSpec.v (reading the object graph; the abstract document). *)
From Verif Require Import Base DocModel DocSpec DocProofs DocInv.

(** The value after Start and a sequence of calls. *)
Definition doc (c : config) (l : list op) : gp := exec (start c zero_gp) l.
Definition adoc_of (c : config) (l : list op) : adoc := a_exec (a_empty c) l.
(** GetNumberOfPages, gopdf.go:1683-1686; GetNextObjectID, gopdf.go:1678-1681. *)
Definition getNumberOfPages (s : gp) : Z := g_npages s.
Definition getNextObjectID (s : gp) : Z := zlen (g_objs s) + 1.

Lemma doc_Inv c l : forallb plain_op l = true -> exists pages, Inv (doc c l) (adoc_of c l) pages.
Proof. apply Inv_exec with (pages := []). apply Inv_first. Qed.

(** ** C04 *)
(** For every history without an earlier output (drawings, SetPage, masks, callbacks, restarts
    included): the tree lists one reference per AddPage since Start, in order, to page objects with
    the requested sizes, and Count agrees. *)
Theorem C04_page_tree_lists_every_page_once :
  forall (c : config) (l : list op), no_output l = true ->
    let t := output (doc c l) in
    map (option_map sh_size) (read_pages t) = map Some (sizes_from [] l) /\
    g_pagecount t = zlen (sizes_from [] l) /\ zlen (g_kids t) = zlen (sizes_from [] l) /\ NoDup (g_kids t).
Proof.
  intros c l N. destruct (exec_pages l (start c zero_gp) [] N) as (A & B & C & _); try reflexivity.
  fold (doc c l) in *. rewrite <- A. now apply output_tree.
Qed.
Print Assumptions C04_page_tree_lists_every_page_once.
Theorem C04_number_of_pages :
  forall (c : config) (l : list op), no_output l = true ->
    getNumberOfPages (doc c l) = adds l /\ getNumberOfPages (output (doc c l)) = adds l.
Proof.
  intros c l N. destruct (exec_pages l (start c zero_gp) [] N) as (_ & _ & _ & D); try reflexivity.
  unfold getNumberOfPages. rewrite (proj2 (proj2 (proj2 (output_fields (doc c l))))). unfold doc. rewrite D. cbn. lia.
Qed.
Print Assumptions C04_number_of_pages.

Definition a4 : config := {| cf_page := {| r_w := 595; r_h := 842 |}; cf_protect := true |}.
Definition small : rectq := {| r_w := 100; r_h := 50 |}.
Definition pic : imgdesc := {| im_data := bs "PIC"; im_ok := true; im_alpha := true; im_indexed := false |}.
Definition demo : list op :=
  [ Do (AddFont (bs "serif") 0); Do (AddFont (bs "sans") 0); AddHeader (Some [Draw true (bs "rule")]);
    AddPage None; Do (SetFont (bs "sans") 4 12); Do (Text (bs "Hello")); Do (AddOutline (bs "One"));
    AddPage (Some small); Do (Image (bs "a.png") pic); Do (AddOutlinePos (bs "Two")); Do (Image (bs "a.png") pic);
    Do (AddLink {| lk_x := 1; lk_y := 2; lk_w := 3; lk_h := 4; lk_url := bs "http://x"; lk_anchor := [] |});
    AddHeader None; AddPage None; Do (AddColorSpace (bs "spot")); Do (SetColorSpace (bs "spot")); Do (Draw false (bs "x")) ].
Example C04_example : no_output demo = true /\ sizes_from [] demo = [None; Some small; None] /\ adds demo = 3.
Proof. repeat split. Qed.

(** ** C05 (refuted): in every document with a page, the second output has twice the pages. *)
Lemma output_pagecount s : g_pagecount (output s) = g_pagecount s + zlen (psizes (g_objs s)).
Proof.
  unfold output. cbn [g_pagecount set_objs]. destruct (prepare_eq s) as (_ & _ & P3 & _). rewrite P3. f_equal. rewrite prep_kids_len.
  assert (V : forall x, zlen (vr x) = zlen (psizes x)) by (intros x; rewrite <- vr_psizes; unfold zlen; now rewrite map_length).
  rewrite V, psizes_app. replace (psizes (if cf_protect (g_cfg s) then [OEncryption] else [])) with (@nil (option rectq)) by (now destruct (cf_protect _)).
  now rewrite app_nil_r.
Qed.
Lemma output_psizes s : psizes (g_objs (output s)) = psizes (g_objs s).
Proof. apply psizes_Ev, output_sk. Qed.
Theorem C05_repeat_output_refuted :
  forall (c : config) (l : list op), no_output l = true -> sizes_from [] l <> [] ->
    let first := output (doc c l) in let second := output first in
    g_pagecount second = 2 * g_pagecount first /\ g_pagecount second <> g_pagecount first.
Proof.
  intros c l N H. destruct (exec_pages l (start c zero_gp) [] N) as (A & B & C & _); try reflexivity.
  assert (E1 : g_pagecount (output (doc c l)) = zlen (sizes_from [] l)).
  { rewrite output_pagecount. unfold doc. rewrite A, C. lia. }
  assert (E2 : g_pagecount (output (output (doc c l))) = 2 * zlen (sizes_from [] l)).
  { rewrite output_pagecount, output_psizes, E1. unfold doc. rewrite A. lia. }
  cbv zeta. rewrite E1, E2. split; [reflexivity|]. intros Hz.
  destruct (sizes_from [] l) as [|x r]; [congruence|]. rewrite zlen_cons in Hz. pose proof (zlen_nonneg r). lia.
Qed.
Print Assumptions C05_repeat_output_refuted.
Example C05_example : g_pagecount (output (doc a4 demo)) = 3 /\ g_pagecount (output (output (doc a4 demo))) = 6.
Proof. vm_compute. split; reflexivity. Qed.

(** ** C06 *)
(** The document read back from the output is the abstract document: each page shows exactly what
    was drawn while it was current, in order, with the fonts, images and colour spaces meant. *)
Theorem C06_pages_show_what_was_drawn :
  forall (c : config) (l : list op), forallb plain_op l = true ->
    read_pages (output (doc c l)) = map as_shown (a_pages (adoc_of c l)).
Proof. intros c l H. destruct (doc_Inv c l H) as (pages & I). eapply Inv_read; eauto. Qed.
Print Assumptions C06_pages_show_what_was_drawn.

(** A drawing call changes the last page only, by one drawing at its end. *)
Definition add_shown (x : shown) (p : option shown_page) : option shown_page :=
  option_map (fun p => {| sh_size := sh_size p; sh_items := sh_items p ++ [Some x]; sh_links := sh_links p |}) p.
Theorem C06_draw_changes_only_the_current_page :
  forall (c : config) (l : list op) (needs : bool) (b : bytes), forallb plain_op l = true ->
    read_pages (output (doc c (l ++ [Do (Draw needs b)])))
    = upd_last (add_shown (ShBytes b)) (read_pages (output (doc c l))).
Proof.
  intros c l np b H. rewrite !C06_pages_show_what_was_drawn; [|assumption|rewrite forallb_app, H; reflexivity].
  unfold adoc_of, a_exec. rewrite fold_left_app. cbn [fold_left a_op a_sop]. set (d := fold_left a_op l (a_empty c)).
  unfold no_pages. destruct (a_pages d) as [|p0 ps0] eqn:E; [cbn; now rewrite E|]. cbn [fst put with_pages a_pages]. rewrite E.
  assert (G : forall ps, map as_shown (upd_last (fun p => {| ap_size := ap_size p; ap_items := ap_items p ++ [ShBytes b]; ap_links := ap_links p |}) ps)
     = upd_last (add_shown (ShBytes b)) (map as_shown ps)).
  { induction ps as [|p ps IH] using rev_ind; [reflexivity|]. rewrite upd_last_snoc, !map_app. cbn [map]. rewrite upd_last_snoc.
    unfold as_shown at 2 4. cbn. now rewrite map_app. }
  apply G.
Qed.
Print Assumptions C06_draw_changes_only_the_current_page.
Example C06_example : forallb plain_op demo = true /\
  map (option_map sh_items) (read_pages (output (doc a4 demo)))
  = [ Some [Some (ShBytes (bs "rule")); Some (ShText (bs "sans") 0 (bs "Hello"))];
      Some [Some (ShBytes (bs "rule")); Some (ShImage (bs "PIC")); Some (ShImage (bs "PIC"))];
      Some [Some (ShColorSpace (bs "spot")); Some (ShBytes (bs "x"))] ].
Proof. vm_compute. split; reflexivity. Qed.

(** ** C09 *)
(** Start resets everything except the page counter and the header/footer callbacks. *)
Theorem C09_start_fresh_partial :
  forall (c : config) (s : gp),
    start c s = set_npages (g_npages s) (set_header (g_header s) (set_footer (g_footer s) (start c zero_gp))).
Proof. reflexivity. Qed.
Print Assumptions C09_start_fresh_partial.
Theorem C09_start_fresh_refuted :
  forall (c : config) (l : list op), no_output l = true ->
    getNumberOfPages (exec zero_gp (Start c :: l ++ [Start c])) = adds l.
Proof.
  intros c l N. unfold exec. rewrite app_comm_cons, fold_left_app. cbn [fold_left step fst start getNumberOfPages g_npages].
  exact (proj1 (C04_number_of_pages c l N)).
Qed.
Print Assumptions C09_start_fresh_refuted.
Example C09_example : getNumberOfPages (exec zero_gp (Start a4 :: demo ++ [Start a4])) = 3 /\
  g_objs (exec zero_gp (Start a4 :: demo ++ [Start a4])) = [OCatalog; OPages; OOutlines; OProcSet].
Proof. vm_compute. split; reflexivity. Qed.

(** ** C16 *)
Lemma doc_outlines c l : forallb quiet_callbacks l = true ->
  exists nums, Outl (output (doc c l)) (titles_from [] l) nums /\ Base4 (output (doc c l)).
Proof.
  intros Q. destruct (exec_outlines l (start c zero_gp) [] []) as (nums & O & B); auto.
  - split; reflexivity.
  - constructor; cbn; try reflexivity; try constructor; try reflexivity. intros [|k] n t H; discriminate.
  - exists []. now rewrite app_nil_r.
  - fold (doc c l) in *. exists nums. destruct (output_keep (doc c l)) as (K1 & K2 & K3 & K4 & _). pose proof (output_sk (doc c l)) as E.
    split; [eapply Outl_weak; eauto|]. destruct E as (k & E). eapply Base4_app; eauto.
Qed.
Theorem C16_outline_list :
  forall (c : config) (l : list op) (fuel : nat), forallb quiet_callbacks l = true ->
    (List.length (titles_from [] l) <= fuel)%nat ->
    let t := output (doc c l) in
    g_outl_count t = zlen (titles_from [] l) /\
    walk t ol_next fuel (g_outl_first t) = titles_from [] l /\
    walk t ol_prev fuel (g_outl_last t) = rev (titles_from [] l).
Proof.
  intros c l fuel Q Hf t. destruct (doc_outlines c l Q) as (nums & O & _). fold t in O.
  split; [apply O|]. rewrite (ou_first _ _ _ O), (ou_last _ _ _ O). split.
  - eapply walk_next; eauto. apply O.
  - eapply walk_prev; eauto. apply O.
Qed.
Print Assumptions C16_outline_list.
Example C16_example : forallb quiet_callbacks demo = true /\ titles_from [] demo = [bs "One"; bs "Two"].
Proof. vm_compute. split; reflexivity. Qed.

(** ** C17 (refuted): every entry's Parent is the page tree, never the outline dictionary (object 3). *)
Theorem C17_parent_refuted :
  forall (c : config) (l : list op), forallb quiet_callbacks l = true -> titles_from [] l <> [] ->
    let t := output (doc c l) in
    exists o, outline_no t (g_outl_first t) = Some o /\ obj_no t (ol_parent o) = Some OPages /\
              obj_no t 3 = Some OOutlines.
Proof.
  intros c l Q H t. destruct (doc_outlines c l Q) as (nums & O & B). fold t in O, B.
  destruct (ou_link _ _ _ O) as (L1 & L2). destruct nums as [|n nums]; [destruct (titles_from [] l); [congruence|discriminate]|].
  destruct (titles_from [] l) as [|ti tis]; [congruence|]. destruct (L2 0%nat n ti eq_refl eq_refl) as (o & O1 & (_ & O2) & _).
  exists o. rewrite (ou_first _ _ _ O). cbn [hd_or]. rewrite outline_no_get, O2. split; [exact O1|].
  destruct B as (r & B). unfold obj_no. cbn [Z.leb Z.sub Z.compare Z.to_nat Pos.to_nat].
  assert (G : forall i x, nth_error (map sk (g_objs t)) i = Some (Some (KFixed x)) -> nth_error (g_objs t) i = Some x).
  { intros i x Hx. rewrite nth_error_map in Hx. destruct (nth_error (g_objs t) i) as [y|]; [|discriminate]. cbn in Hx. injection Hx.
    destruct y; cbn; congruence. }
  split; apply G; rewrite B; reflexivity.
Qed.
Print Assumptions C17_parent_refuted.
Example C17_example : titles_from [] demo <> [].
Proof. discriminate. Qed.

(** ** C41 *)
(** A link becomes one annotation on the current page and nowhere else, with the caller's rectangle
    flipped by the document's default page height … *)
Definition shown_at (c : config) (l : link) : shown_link :=
  {| sl_x := lk_x l; sl_y := (r_h (cf_page c) - lk_y l)%Q; sl_w := lk_w l; sl_h := lk_h l; sl_url := lk_url l; sl_anchor := lk_anchor l |}.
Definition add_link_shown (x : shown_link) (p : option shown_page) : option shown_page :=
  option_map (fun p => {| sh_size := sh_size p; sh_items := sh_items p; sh_links := sh_links p ++ [Some x] |}) p.
Lemma a_cfg_sop d o : a_cfg (fst (a_sop d o)) = a_cfg d.
Proof.
  destruct o; cbn [a_sop fst]; try reflexivity; repeat match goal with |- context [match ?x with _ => _ end] => destruct x end; reflexivity.
Qed.
Lemma a_cfg_sops l : forall d, a_cfg (fst (a_sops d l)) = a_cfg d.
Proof.
  induction l as [|o l IH]; intros d; [reflexivity|]. cbn [a_sops]. pose proof (a_cfg_sop d o) as H.
  destruct (a_sop d o) as [d1 b]. cbn [fst] in H. destruct b; [exact H|now rewrite IH].
Qed.
Definition no_start (o : op) : bool := match o with Start _ => false | _ => true end.
Lemma a_cfg_exec l : forall d, forallb no_start l = true -> a_cfg (a_exec d l) = a_cfg d.
Proof.
  induction l as [|o l IH]; intros d H; [reflexivity|]. cbn [forallb] in H. apply andb_true_iff in H as [H1 H2].
  cbn [a_exec fold_left]. unfold a_exec in IH. rewrite IH by assumption. destruct o; try reflexivity; try discriminate; cbn [a_op].
  - apply a_cfg_sop.
  - match goal with |- context [a_callback ?x _] => set (d1 := x) end.
    assert (E1 : a_cfg d1 = a_cfg d) by reflexivity. clearbody d1.
    assert (Cb : forall x f, a_cfg (fst (a_callback x f)) = a_cfg x) by (intros x [f|]; [apply a_cfg_sops|reflexivity]).
    pose proof (Cb d1 (a_header d1)) as H3. destruct (a_callback d1 (a_header d1)) as [d2 b]. cbn [fst] in H3.
    destruct b; [congruence|]. rewrite Cb. congruence.
Qed.
Theorem C41_link_on_current_page_partial :
  forall (c : config) (l : list op) (k : link), forallb plain_op l = true -> forallb no_start l = true ->
    read_pages (output (doc c (l ++ [Do (AddLink k)])))
    = upd_last (add_link_shown (shown_at c k)) (read_pages (output (doc c l))).
Proof.
  intros c l k H Hs. rewrite !C06_pages_show_what_was_drawn; [|assumption|rewrite forallb_app, H; reflexivity].
  unfold adoc_of, a_exec. rewrite fold_left_app. cbn [fold_left a_op a_sop].
  pose proof (a_cfg_exec l (a_empty c) Hs) as Hc. unfold a_exec in Hc. set (d := fold_left a_op l (a_empty c)) in *.
  unfold no_pages. destruct (a_pages d) as [|p0 ps0] eqn:E; [cbn; now rewrite E|]. cbn [fst put_link with_pages a_pages]. rewrite E, Hc.
  cbn [a_cfg a_empty]. fold (shown_at c k).
  assert (G : forall ps, map as_shown (upd_last (fun p => {| ap_size := ap_size p; ap_items := ap_items p; ap_links := ap_links p ++ [shown_at c k] |}) ps)
     = upd_last (add_link_shown (shown_at c k)) (map as_shown ps)).
  { induction ps as [|p ps IH] using rev_ind; [reflexivity|]. rewrite upd_last_snoc, !map_app. cbn [map]. rewrite upd_last_snoc.
    unfold as_shown at 2 4. cbn. now rewrite map_app. }
  apply G.
Qed.
Print Assumptions C41_link_on_current_page_partial.
(** … which, on a page with its own size, is not the rectangle asked for (refuted): on a 50pt high
    page of an A4 document a link asked for at y=2 is placed at 840, not 48. *)
Theorem C41_own_page_size_refuted :
  exists (c : config) (l : list op) (k : link) (pg : shown_page) (h : rectq),
    forallb plain_op l = true /\ forallb no_start l = true /\
    read_pages (output (doc c (l ++ [Do (AddLink k)]))) = [Some pg] /\ sh_size pg = Some h /\
    exists sl, sh_links pg = [Some sl] /\ ~ (sl_y sl == r_h h - lk_y k)%Q.
Proof.
  exists a4, [AddPage (Some small)], {| lk_x := 1; lk_y := 2; lk_w := 3; lk_h := 4; lk_url := bs "http://x"; lk_anchor := [] |}.
  eexists. exists small. split; [reflexivity|]. split; [reflexivity|]. split; [vm_compute; reflexivity|]. split; [reflexivity|].
  eexists. split; [reflexivity|]. vm_compute. discriminate.
Qed.
Print Assumptions C41_own_page_size_refuted.
Example C41_example : forallb plain_op demo = true /\ forallb no_start demo = true /\
  map (option_map (fun p => List.length (sh_links p))) (read_pages (output (doc a4 demo))) = [Some 0; Some 1; Some 0]%nat.
Proof. vm_compute. repeat split; reflexivity. Qed.

(** ** C42 *)
(** SetFont succeeds exactly for fonts added since Start (style without the underline bit) … *)
Theorem C42_setfont_succeeds_iff_added :
  forall (c : config) (l : list op) (fam : bytes) (st : Z) (sz : Q), forallb plain_op l = true ->
    (snd (step (doc c l) (Do (SetFont fam st sz))) = Ok <-> In (fam, strip_underline st) (a_fonts (adoc_of c l))).
Proof.
  intros c l fam st sz H. destruct (doc_Inv c l H) as (pages & I). cbn [step sstep]. unfold setFont.
  pose proof (fk_some _ _ _ _ (iv_fonts _ _ _ I) fam st) as S. pose proof (fk_has _ _ _ _ (iv_fonts _ _ _ I) fam st) as Hs.
  rewrite Hs in S. transitivity (existsb (fun fs => list_eqb (fst fs) fam && (snd fs =? strip_underline st)) (a_fonts (adoc_of c l)) = true).
  - rewrite S. destruct (find_font _ _ _ _) as [[i f]|]; cbn; split; congruence || discriminate.
  - rewrite existsb_exists. split.
    + intros ((a & b) & In1 & E). apply andb_true_iff in E as [E1 E2]. apply list_eqb_eq in E1. apply Z.eqb_eq in E2. cbn in *. now subst.
    + intros In1. eexists. split; [exact In1|]. cbn. rewrite Z.eqb_refl, andb_true_r. now apply list_eqb_eq.
Qed.
Print Assumptions C42_setfont_succeeds_iff_added.
(** … a failing SetFont changes nothing (in any state) … *)
Theorem C42_failed_setfont_changes_nothing :
  forall (s : gp) fam st sz, snd (step s (Do (SetFont fam st sz))) <> Ok -> fst (step s (Do (SetFont fam st sz))) = s.
Proof.
  intros s fam st sz. cbn [step sstep]. unfold setFont. destruct (find_font _ _ _ _) as [[i f]|]; cbn; congruence.
Qed.
Print Assumptions C42_failed_setfont_changes_nothing.
(** … and text drawn after a successful SetFont is shown in that font. *)
Theorem C42_text_uses_selected_font :
  forall (c : config) (l : list op) (fam : bytes) (st : Z) (sz : Q) (t : bytes), forallb plain_op l = true ->
    snd (step (doc c l) (Do (SetFont fam st sz))) = Ok ->
    read_pages (output (doc c (l ++ [Do (SetFont fam st sz); Do (Text t)])))
    = upd_last (add_shown (ShText fam (strip_underline st) t)) (read_pages (output (doc c l))).
Proof.
  intros c l fam st sz t H Hok. apply C42_setfont_succeeds_iff_added in Hok; [|assumption].
  rewrite !C06_pages_show_what_was_drawn; [|assumption|rewrite forallb_app, H; reflexivity].
  unfold adoc_of, a_exec in *. rewrite fold_left_app. cbn [fold_left a_op a_sop]. set (d := fold_left a_op l (a_empty c)) in *.
  assert (Hf : has_font fam (strip_underline st) d = true).
  { unfold has_font. apply existsb_exists. eexists. split; [exact Hok|]. cbn. rewrite Z.eqb_refl, andb_true_r. now apply list_eqb_eq. }
  rewrite Hf. cbn [fst a_sel no_pages a_pages]. unfold no_pages. cbn [a_pages].
  destruct (a_pages d) as [|p0 ps0] eqn:E; [reflexivity|]. cbn [fst put with_pages a_pages].
  assert (G : forall ps, map as_shown (upd_last (fun p => {| ap_size := ap_size p; ap_items := ap_items p ++ [ShText fam (strip_underline st) t]; ap_links := ap_links p |}) ps)
     = upd_last (add_shown (ShText fam (strip_underline st) t)) (map as_shown ps)).
  { induction ps as [|p ps IH] using rev_ind; [reflexivity|]. rewrite upd_last_snoc, !map_app. cbn [map]. rewrite upd_last_snoc.
    unfold as_shown at 2 4. cbn. now rewrite map_app. }
  apply G.
Qed.
Print Assumptions C42_text_uses_selected_font.
Example C42_example : snd (step (doc a4 demo) (Do (SetFont (bs "serif") 4 10))) = Ok /\ snd (step (doc a4 demo) (Do (SetFont (bs "serif") 1 10))) = Err.
Proof. vm_compute. split; reflexivity. Qed.
(** Refuted when a font was registered with the Underline bit: text selected as font "b" is shown in font "a". *)
Theorem C42_underline_registration_refuted :
  exists (c : config) (l : list op) (t : bytes) (fam : bytes),
    snd (step (doc c l) (Do (SetFont (bs "b") 0 10))) = Ok /\
    option_map sh_items (hd None (read_pages (output (doc c (l ++ [Do (SetFont (bs "b") 0 10); Do (Text t)])))))
    = Some [Some (ShText fam 0 t)] /\ fam <> bs "b".
Proof.
  exists a4, [Do (AddFont (bs "a") 0); Do (AddFont (bs "b") 4); Do (AddFont (bs "b") 0); AddPage None], (bs "hi"), (bs "a").
  vm_compute. repeat split; try reflexivity. discriminate.
Qed.
Print Assumptions C42_underline_registration_refuted.

(** ** C43 *)
Theorem C43_compress_level_partial :
  forall (s : gp) (l : Z),
    (-2 <= l <= 9 -> g_compress (fst (step s (Do (SetCompressLevel l)))) = l) /\
    (l < -2 -> g_compress (fst (step s (Do (SetCompressLevel l)))) = -1).
Proof.
  intros s l. cbn [step sstep fst]. unfold setCompressLevel. split; intros H.
  - destruct (Z.ltb_spec l (-2)); [lia|]. destruct (Z.ltb_spec 9 l); [lia|reflexivity].
  - destruct (Z.ltb_spec l (-2)); [reflexivity|lia].
Qed.
Print Assumptions C43_compress_level_partial.
(** Above the range the level is left alone instead of becoming 9 (BestCompression). *)
Theorem C43_compress_level_above_refuted :
  forall (s : gp) (l : Z), 9 < l -> g_compress (fst (step s (Do (SetCompressLevel l)))) = g_compress s.
Proof.
  intros s l H. cbn [step sstep fst]. unfold setCompressLevel. destruct (Z.ltb_spec l (-2)); [lia|]. destruct (Z.ltb_spec 9 l); [reflexivity|lia].
Qed.
Print Assumptions C43_compress_level_above_refuted.
Example C43_example : g_compress (doc a4 [Do (SetCompressLevel 12)]) = -1 /\ g_compress (doc a4 [Do (SetCompressLevel 7)]) = 7.
Proof. split; reflexivity. Qed.

(** ** C45 *)
Lemma import_loop objs st : forall n k s,
  (forall j, (k <= j < k + n)%nat -> exists b d, zlookup (st + Z.of_nat j) objs = Some (b :: d)) ->
  g_objs (fold_left (fun s k => match zlookup (st + Z.of_nat k) objs with
                        | Some (b :: d) => snd (addObj (OImported (b :: d)) s)
                        | _ => s end) (seq k n) s)
  = g_objs s ++ map (fun j => match zlookup (st + Z.of_nat j) objs with Some d => OImported d | None => OCatalog end) (seq k n).
Proof.
  induction n as [|n IH]; intros k s H; [cbn; now rewrite app_nil_r|].
  cbn [seq fold_left map]. rewrite IH by (intros j Hj; apply H; lia).
  destruct (H k) as (b & d & E); [lia|]. rewrite E. cbn. now rewrite <- app_assoc.
Qed.
(** Objects whose ids are GetNextObjectID, +1, +2, … (as an importer numbers them, in any map order)
    become objects with exactly those numbers in the file, and no existing object moves. *)
Theorem C45_imported_objects_keep_their_numbers :
  forall (s : gp) (objs : list (Z * bytes)),
    (forall k, 0 <= k < zlen objs -> exists b d, zlookup (getNextObjectID s + k) objs = Some (b :: d)) ->
    let s1 := fst (step s (Do (ImportObjects objs (getNextObjectID s)))) in
    (forall k, 0 <= k < zlen objs ->
       obj_no (output s1) (getNextObjectID s + k)
       = option_map OImported (zlookup (getNextObjectID s + k) objs)) /\
    (forall n o, obj_no s n = Some o -> obj_no s1 n = Some o).
Proof.
  intros s objs H s1.
  assert (E : g_objs s1 = g_objs s ++ map (fun j => match zlookup (getNextObjectID s + Z.of_nat j) objs with Some d => OImported d | None => OCatalog end) (seq 0 (List.length objs))).
  { unfold s1. cbn [step sstep fst]. unfold importObjects. apply import_loop. intros j Hj. apply H. unfold zlen. lia. }
  split.
  - intros k Hk. destruct (H k Hk) as (b & d & Ek).
    assert (N : nth_error (g_objs s1) (List.length (g_objs s) + Z.to_nat k) = Some (OImported (b :: d))).
    { rewrite E, nth_error_app2, Nat.add_comm, Nat.add_sub by lia. rewrite nth_error_map.
      assert (Hs : nth_error (seq 0 (List.length objs)) (Z.to_nat k) = Some (Z.to_nat k)).
      { unfold zlen in Hk. rewrite (nth_error_nth' _ O) by (rewrite seq_length; lia). rewrite seq_nth by lia. reflexivity. }
      rewrite Hs. cbn [option_map]. rewrite Z2Nat.id by lia. now rewrite Ek. }
    rewrite Ek. cbn [option_map]. unfold obj_no, getNextObjectID. pose proof (zlen_nonneg (g_objs s)).
    destruct (Z.leb_spec (zlen (g_objs s) + 1 + k) 0); [lia|].
    replace (Z.to_nat (zlen (g_objs s) + 1 + k - 1)) with (List.length (g_objs s) + Z.to_nat k)%nat by (unfold zlen in *; lia).
    unfold output. cbn [g_objs set_objs]. destruct (prepare_eq s1) as (P1 & _).
    rewrite P1, nth_error_map, nth_prep, nth_error_app1 by (apply nth_error_Some; congruence). rewrite N. reflexivity.
  - intros n o. unfold obj_no. destruct (n <=? 0); [discriminate|]. rewrite E. intros Hn. rewrite nth_error_app1; [exact Hn|].
    apply nth_error_Some. congruence.
Qed.
Print Assumptions C45_imported_objects_keep_their_numbers.
Example C45_example :
  let s := doc a4 demo in let n := getNextObjectID s in
  (forall k, 0 <= k < 2 -> exists b d, zlookup (n + k) [(n + 1, bs "<<B>>"); (n, bs "<<A>>")] = Some (b :: d)) /\
  obj_no (output (fst (step s (Do (ImportObjects [(n + 1, bs "<<B>>"); (n, bs "<<A>>")] n))))) n = Some (OImported (bs "<<A>>")).
Proof.
  cbn zeta. split.
  - intros k Hk. assert (k = 0 \/ k = 1) as [->| ->] by lia; vm_compute; eauto.
  - vm_compute. reflexivity.
Qed.

(** ** C46 *)
Theorem C46_setcolorspace_succeeds_iff_added :
  forall (c : config) (l : list op) (n : bytes), forallb plain_op l = true ->
    (snd (step (doc c l) (Do (SetColorSpace n))) = Ok <-> In n (a_cs (adoc_of c l))).
Proof.
  intros c l n H. destruct (doc_Inv c l H) as (pages & I). cbn [step sstep]. unfold setColorSpace.
  pose proof (ck_some _ _ _ _ (iv_cs _ _ _ I) n) as S.
  transitivity (existsb (fun m => list_eqb m n) (a_cs (adoc_of c l)) = true).
  - rewrite S. destruct (find_cs _ _) as [k|]; [|split; discriminate].
    split; [reflexivity|]. intros _. unfold draw. destruct (getContent (doc c l)) as [i s']. destruct (g_pagesize s'); reflexivity.
  - rewrite existsb_exists. split.
    + intros (a & In1 & E). apply list_eqb_eq in E. now subst.
    + intros In1. eexists. split; [exact In1|]. now apply list_eqb_eq.
Qed.
Print Assumptions C46_setcolorspace_succeeds_iff_added.
(** Adding a name twice reports an error … *)
Theorem C46_duplicate_name_is_an_error :
  forall (c : config) (l : list op) (n : bytes), forallb plain_op l = true ->
    (snd (step (doc c l) (Do (AddColorSpace n))) = Err <-> In n (a_cs (adoc_of c l))).
Proof.
  intros c l n H. destruct (doc_Inv c l H) as (pages & I). cbn [step sstep]. unfold addColorSpace. cbn [addObj].
  assert (Edup : existsb (fun r => list_eqb (rc_name r) n) (g_cs (doc c l)) = existsb (fun m => list_eqb m n) (a_cs (adoc_of c l))).
  { rewrite (ck_names _ _ _ _ (iv_cs _ _ _ I)). clear. induction (g_cs (doc c l)) as [|x y IH]; cbn; [reflexivity|now rewrite IH]. }
  rewrite Edup. transitivity (existsb (fun m => list_eqb m n) (a_cs (adoc_of c l)) = true).
  - destruct (existsb _ (a_cs (adoc_of c l))); cbn; split; congruence || discriminate.
  - rewrite existsb_exists. split.
    + intros (a & In1 & E). apply list_eqb_eq in E. now subst.
    + intros In1. eexists. split; [exact In1|]. now apply list_eqb_eq.
Qed.
Print Assumptions C46_duplicate_name_is_an_error.
(** … but the rejected colour space stays in the document (refuted: "leaves it unchanged"). *)
Theorem C46_unchanged_on_error_refuted :
  forall (s : gp) (n : bytes), snd (step s (Do (AddColorSpace n))) = Err ->
    g_objs (fst (step s (Do (AddColorSpace n)))) = g_objs s ++ [OColorSpace n 0].
Proof. intros s n. cbn [step sstep]. unfold addColorSpace. cbn [addObj]. destruct (existsb _ _); [reflexivity|discriminate]. Qed.
Print Assumptions C46_unchanged_on_error_refuted.
Example C46_example : snd (step (doc a4 demo) (Do (AddColorSpace (bs "spot")))) = Err /\ a_cs (adoc_of a4 demo) = [bs "spot"].
Proof. vm_compute. split; reflexivity. Qed.

(** ** C52 *)
(** Header then footer run once each, on the new page and on no other: their drawings are its first content. *)
Definition draws_of (f : option (list bytes)) : list shown := match f with Some l => map ShBytes l | None => [] end.
Definition cb_of (f : option (list bytes)) : option (list sop) := option_map (map (Draw true)) f.
Lemma a_draws l : forall d ps p, a_pages d = ps ++ [p] ->
  a_sops d (map (Draw true) l) = (with_pages (ps ++ [{| ap_size := ap_size p; ap_items := ap_items p ++ map ShBytes l; ap_links := ap_links p |}]) d, false).
Proof.
  induction l as [|b l IH]; intros d ps p E.
  - cbn. rewrite app_nil_r. destruct d, p; cbn in *. now rewrite E.
  - cbn [map a_sops a_sop]. replace (no_pages d) with false by (unfold no_pages; rewrite E; now destruct ps).
    erewrite IH.
    2:{ unfold put. cbn [with_pages a_pages]. rewrite E, upd_last_snoc. reflexivity. }
    cbn. rewrite <- app_assoc. reflexivity.
Qed.
Theorem C52_header_footer_run_once_per_page :
  forall (c : config) (l : list op) (h f : option (list bytes)) (sz : option rectq), forallb plain_op l = true ->
    read_pages (output (doc c (l ++ [AddHeader (cb_of h); AddFooter (cb_of f); AddPage sz])))
    = read_pages (output (doc c l)) ++
      [Some {| sh_size := sz; sh_items := map Some (draws_of h ++ draws_of f); sh_links := [] |}].
Proof.
  intros c l h f sz H.
  assert (Hcb : forall g, match cb_of g with Some x => forallb plain_sop x = true | None => True end).
  { intros [g|]; cbn; [|exact I]. induction g; cbn; auto. }
  rewrite !C06_pages_show_what_was_drawn; [|assumption|].
  2:{ rewrite forallb_app, H. cbn. pose proof (Hcb h). pose proof (Hcb f). destruct (cb_of h), (cb_of f); cbn; rewrite ?H0, ?H1; reflexivity. }
  unfold adoc_of, a_exec. rewrite fold_left_app. set (d := fold_left a_op l (a_empty c)). cbn [fold_left a_op a_header a_footer a_pages].
  set (d1 := {| a_cfg := _; a_pages := _ ++ [_] |}).
  assert (E1 : a_pages d1 = a_pages d ++ [{| ap_size := sz; ap_items := []; ap_links := [] |}]) by reflexivity.
  assert (Ef : a_footer d1 = cb_of f) by reflexivity. clearbody d1.
  assert (S1 : exists d2, a_callback d1 (cb_of h) = (d2, false) /\ a_footer d2 = cb_of f /\
      a_pages d2 = a_pages d ++ [{| ap_size := sz; ap_items := draws_of h; ap_links := [] |}]).
  { destruct h as [h|]; cbn [cb_of option_map a_callback draws_of].
    - erewrite a_draws by exact E1. eexists. split; [reflexivity|]. split; [exact Ef|reflexivity].
    - exists d1. auto. }
  destruct S1 as (d2 & -> & F2 & P2). rewrite F2.
  assert (S2 : a_pages (fst (a_callback d2 (cb_of f))) = a_pages d ++ [{| ap_size := sz; ap_items := draws_of h ++ draws_of f; ap_links := [] |}]).
  { destruct f as [f|]; cbn [cb_of option_map a_callback draws_of].
    - erewrite a_draws by exact P2. reflexivity.
    - cbn [fst]. now rewrite app_nil_r. }
  rewrite S2, map_app. reflexivity.
Qed.
Print Assumptions C52_header_footer_run_once_per_page.
(** After AddPage the cursor is at the margins, whatever the callbacks did (any state, any callbacks). *)
Definition margins_of (s : gp) : Q * Q := (g_mleft s, g_mtop s).
Theorem C52_cursor_restored :
  forall (s : gp) (sz : option rectq), snd (step s (AddPage sz)) <> Panic ->
    let t := fst (step s (AddPage sz)) in (g_x t, g_y t) = margins_of t.
Proof.
  intros s sz. cbn [step]. unfold addPage. cbn [addObj]. set (s1 := resetXY _).
  assert (E1 : (g_x s1, g_y s1) = margins_of s1) by reflexivity. clearbody s1.
  assert (Cb : forall f s, (g_x s, g_y s) = margins_of s ->
     let r := match f with None => (s, Ok) | Some f => match run_sops s f with (s, Panic) => (s, Panic) | (s, _) => (resetXY s, Ok) end end in
     snd r <> Panic -> (g_x (fst r), g_y (fst r)) = margins_of (fst r)).
  { intros [f|] u E; cbn zeta; [|intros _; exact E]. destruct (run_sops u f) as [u1 r]. destruct r; cbn [fst snd]; intros Hn; try (exfalso; apply Hn; reflexivity); reflexivity. }
  pose proof (Cb (g_header s1) s1 E1) as H1. cbn zeta in H1.
  destruct (match g_header s1 with None => (s1, Ok) | Some f => _ end) as [s2 r2]. cbn [fst snd] in H1.
  destruct r2; try (cbn; congruence); intros H; (apply Cb; [apply H1; discriminate|exact H]).
Qed.
Print Assumptions C52_cursor_restored.
Example C52_example :
  snd (step (doc a4 [AddHeader (Some [SetXY 100 100; Draw true (bs "h")])]) (AddPage None)) = Ok.
Proof. vm_compute. reflexivity. Qed.
