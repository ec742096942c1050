(** DocInv.v — invariants of every history (including SetPage, masks, repeated output): pages and
    outline entries in the object table. Used for C04, C16, C17, C45. *)
From Verif Require Import Base DocModel DocSpec DocProofs.

(** The part of an object that only AddPage and AddOutline create or change. *)
Inductive skel := KPage (size : option rectq) | KOutl (o : outline) | KFixed (o : obj).
Definition sk (o : obj) : option skel :=
  match o with
  | OPage p => Some (KPage (pg_size p)) | OOutline q => Some (KOutl q)
  | OCatalog | OPages | OOutlines | OProcSet => Some (KFixed o)
  | _ => None end.
Definition Ev (l l' : list obj) : Prop := exists k, map sk l' = map sk l ++ repeat None k.

Lemma Ev_refl l : Ev l l.
Proof. exists O. now rewrite app_nil_r. Qed.
Lemma Ev_trans a b c : Ev a b -> Ev b c -> Ev a c.
Proof. intros (k & H) (m & G). exists (k + m)%nat. now rewrite G, H, repeat_app, app_assoc. Qed.
Lemma Ev_snoc l o : sk o = None -> Ev l (l ++ [o]).
Proof. intros H. exists 1%nat. rewrite map_app. cbn. now rewrite H. Qed.
Lemma Ev_upd l i f : (forall o, sk (f o) = sk o) -> Ev l (upd l i f).
Proof.
  intros H. exists O. rewrite app_nil_r. revert i; induction l as [|o l IH]; intros [|i]; cbn; try reflexivity; [now rewrite H|now rewrite IH].
Qed.

(** Fields no call except AddOutline / AddPage / Start / output touches. *)
Definition keep (s s' : gp) : Prop :=
  g_kids s' = g_kids s /\ g_pagecount s' = g_pagecount s /\ g_npages s' = g_npages s /\ g_page s' = g_page s /\
  g_outl_first s' = g_outl_first s /\ g_outl_last s' = g_outl_last s /\ g_outl_count s' = g_outl_count s /\
  g_outl_lastobj s' = g_outl_lastobj s /\ g_cfg s' = g_cfg s /\ g_header s' = g_header s /\ g_footer s' = g_footer s.
Definition F (s s' : gp) : Prop := keep s s' /\ Ev (g_objs s) (g_objs s').
Lemma F_refl s : F s s.
Proof. split; [repeat split|apply Ev_refl]. Qed.
Lemma F_trans a b c : F a b -> F b c -> F a c.
Proof.
  intros [K1 E1] [K2 E2]. split; [|eapply Ev_trans; eauto].
  unfold keep in *. intuition congruence.
Qed.
Lemma F_addObj s o : sk o = None -> F s (snd (addObj o s)).
Proof. intros H. split; [repeat split|]. now apply Ev_snoc. Qed.
Ltac f_same := split; [repeat split|apply Ev_refl].

Lemma F_getContent s : F s (snd (getContent s)).
Proof.
  unfold getContent. destruct (g_content s); [apply F_refl|]. cbn. split; [repeat split|]. cbn. now apply Ev_snoc.
Qed.
Lemma F_append s i it : F s (append_item i it s).
Proof. split; [repeat split|]. cbn. apply Ev_upd. now intros []. Qed.
Lemma F_draw s np it : F s (fst (draw np it s)).
Proof.
  unfold draw. pose proof (F_getContent s) as H. destruct (getContent s) as [i s1]. cbn [snd] in H.
  destruct (g_pagesize s1); cbn [fst]; [eapply F_trans; [exact H|apply F_append]|].
  destruct np; cbn [fst]; [exact H|eapply F_trans; [exact H|apply F_append]].
Qed.
Lemma F_addFont s fam st : F s (fst (addFont fam st s)).
Proof.
  unfold addFont. cbn [addObj].
  match goal with |- context [if ?c then _ else _] => destruct c end;
    (split; [repeat split|]; cbn; rewrite <- !app_assoc; exists 5%nat; rewrite map_app; reflexivity).
Qed.
Lemma F_setFont s fam st sz : F s (fst (setFont fam st sz s)).
Proof. unfold setFont. destruct (find_font _ _ _ _) as [[i f]|]; f_same. Qed.
Lemma F_setPage s n : F s (fst (setPage n s)).
Proof. unfold setPage. destruct (find_content _ _ _ _); f_same. Qed.
Lemma F_getCached e s : F s (snd (getCachedExtGState e s)).
Proof.
  unfold getCachedExtGState. destruct (lookup _ _); [apply F_refl|]. cbn. split; [repeat split|]. cbn. now apply Ev_snoc.
Qed.
Lemma F_saveTr a b s : F s (snd (saveTransparency a b s)).
Proof.
  unfold saveTransparency. destruct (lookup _ _); [apply F_refl|]. destruct (Qeq_bool a 1); [apply F_refl|].
  match goal with |- context [getCachedExtGState ?e s] => pose proof (F_getCached e s) as H; destruct (getCachedExtGState e s) as [i s1] end.
  cbn [snd] in *. eapply F_trans; [exact H|f_same].
Qed.
Lemma F_image b id im gs s : F s (fst (imageByHolder b id im gs s)).
Proof.
  unfold imageByHolder. destruct (lookup _ _); [apply F_draw|]. destruct (im_ok im); [|apply F_refl].
  cbn [addObj]. set (s1 := set_objs _ s).
  assert (H : F s s1) by (now apply (F_addObj s (OImage im (if b then Split else Plain)))). clearbody s1.
  match goal with |- context [draw true ?it s1] => pose proof (F_draw s1 true it) as H1; destruct (draw true it s1) as [s2 r2] end.
  cbn [fst] in H1. assert (H2 : F s s2) by (eapply F_trans; eauto).
  destruct r2; cbn [fst]; try exact H2.
  match goal with |- F s (if im_indexed im then ?a else ?b) => assert (H3 : F s b) end.
  { destruct (im_alpha im); cbn; (eapply F_trans; [exact H2|]); [|f_same]. split; [repeat split|]. cbn. now apply Ev_snoc. }
  destruct (im_indexed im); [|exact H3]. eapply F_trans; [exact H3|]. now apply F_addObj.
Qed.
Lemma F_mask id im s : F s (fst (fst (maskHolder id im s))).
Proof.
  unfold maskHolder.
  assert (H : F s (fst (fst (maskImage id im s)))).
  { unfold maskImage. destruct (lookup _ _).
    - pose proof (F_getContent s). destruct (getContent s). exact H.
    - destruct (im_ok im); [|apply F_refl]. cbn [addObj]. set (s1 := set_objs _ s).
      assert (H : F s s1) by (now apply (F_addObj s (OImage im AsMask))). clearbody s1.
      pose proof (F_getContent s1) as H1. destruct (getContent s1) as [i s2]. cbn [snd] in H1.
      assert (H2 : F s s2) by (eapply F_trans; eauto).
      destruct (g_pagesize s2); cbn [fst]; [|exact H2]. eapply F_trans; [exact H2|f_same]. }
  destruct (maskImage id im s) as [[s1 r1] ix]. cbn [fst] in H. destruct r1; try exact H.
  destruct (g_pagesize s1); [|exact H].
  assert (H1 : F s (snd (addObj (OXGroup ix) s1))) by (eapply F_trans; [exact H|now apply F_addObj]).
  destruct (addObj (OXGroup ix) s1) as [grp s1']. cbn [snd] in H1.
  assert (H2 : F s (snd (addObj (OMask grp) s1'))) by (eapply F_trans; [exact H1|now apply F_addObj]).
  destruct (addObj (OMask grp) s1') as [mi s2]. cbn [snd] in H2.
  match goal with |- context [getCachedExtGState ?e s2] => pose proof (F_getCached e s2) as H3; destruct (getCachedExtGState e s2) as [i s3] end.
  cbn [fst snd] in *. eapply F_trans; eauto.
Qed.
Lemma F_link l s : F s (fst (addLink l s)).
Proof.
  unfold addLink. destruct (g_page s) eqn:E; [|apply F_refl]. cbn [addObj fst].
  set (s' := set_objs _ _). assert (F s s'); [|assumption].
  unfold s'. split; [repeat split; cbn; congruence|]. cbn.
  match goal with |- Ev ?a (upd (?a ++ [?o]) _ _) => apply (Ev_trans a (a ++ [o])) end; [now apply Ev_snoc|apply Ev_upd; now intros []].
Qed.
Lemma F_import objs start : forall ks s,
  F s (fold_left (fun s k => match zlookup (start + Z.of_nat k) objs with
                        | Some (b :: d) => snd (addObj (OImported (b :: d)) s)
                        | _ => s end) ks s).
Proof.
  induction ks as [|k ks IH]; intros s; [apply F_refl|]. cbn [fold_left].
  eapply F_trans; [|apply IH]. destruct (zlookup _ objs) as [[|b dt]|]; try apply F_refl. now apply F_addObj.
Qed.
Lemma F_addCs n s : F s (fst (addColorSpace n s)).
Proof.
  unfold addColorSpace. cbn [addObj]. destruct (existsb _ _); (split; [repeat split|]; cbn; now apply Ev_snoc).
Qed.

Definition is_addoutline (o : sop) : bool := match o with AddOutline _ | AddOutlinePos _ => true | _ => false end.
Lemma F_sop s o : is_addoutline o = false -> F s (fst (sstep s o)).
Proof.
  intros N. destruct o; try discriminate; cbn [sstep]; try f_same.
  - apply F_draw.
  - apply F_draw.
  - unfold text. destruct (g_font s); [apply F_draw|apply F_refl].
  - apply F_setPage.
  - apply F_addFont.
  - apply F_setFont.
  - apply F_image.
  - pose proof (F_mask mid mim s) as H. destruct (maskHolder mid mim s) as [[s1 r1] e]. cbn [fst] in H.
    destruct r1; try exact H. eapply F_trans; [exact H|apply F_image].
  - apply F_link.
  - apply F_import.
  - apply F_addCs.
  - unfold setColorSpace. destruct (find_cs _ _); [apply F_draw|apply F_refl].
  - pose proof (F_saveTr alpha bm s) as H. destruct (saveTransparency alpha bm s) as [t s1]. cbn [fst snd] in *.
    eapply F_trans; [exact H|f_same].
  - unfold setCompressLevel. destruct (l <? -2); [f_same|]. destruct (9 <? l); f_same.
Qed.

(** AddOutline, spelled out. *)
Definition set_next (num : Z) (ob : obj) : obj :=
  match ob with
  | OOutline q => OOutline {| ol_title := ol_title q; ol_index := ol_index q; ol_dest := ol_dest q;
                   ol_parent := ol_parent q; ol_prev := ol_prev q; ol_next := num;
                   ol_first := ol_first q; ol_last := ol_last q; ol_height := ol_height q |}
  | _ => ob end.
Definition new_outline (title : bytes) (withpos : bool) (s : gp) : outline :=
  {| ol_title := title; ol_index := if withpos then zlen (g_objs s) + 1 else 0;
     ol_dest := match g_page s with Some p => Z.of_nat p + 1 | None => 0 end; ol_parent := 2;
     ol_prev := g_outl_last s; ol_next := -1; ol_first := 0; ol_last := 0;
     ol_height := if withpos then (r_h (cf_page (g_cfg s)) - g_y s + 20)%Q else 0%Q |}.
Lemma addOutline_eq title w s :
  let t := fst (addOutline title w s) in
  let num := zlen (g_objs s) + 1 in
  g_objs t = match g_outl_lastobj s with
             | Some j => upd (g_objs s ++ [OOutline (new_outline title w s)]) j (set_next num)
             | None => g_objs s ++ [OOutline (new_outline title w s)] end /\
  g_outl_first t = (if g_outl_first s <=? 0 then num else g_outl_first s) /\
  g_outl_last t = num /\ g_outl_count t = g_outl_count s + 1 /\
  g_outl_lastobj t = Some (List.length (g_objs s)) /\
  g_kids t = g_kids s /\ g_pagecount t = g_pagecount s /\ g_npages t = g_npages s /\ g_page t = g_page s /\
  g_cfg t = g_cfg s /\ g_header t = g_header s /\ g_footer t = g_footer s.
Proof.
  unfold addOutline, new_outline, zlen. cbn [addObj]. cbv zeta. cbn [g_outl_first set_outl_last set_objs].
  destruct (g_outl_first s <=? 0); cbn [g_outl_lastobj set_outl_first set_outl_last set_objs];
    destruct (g_outl_lastobj s); cbn; repeat split.
Qed.

(** ** Pages of the table, for every history *)
Definition psizes (l : list obj) : list (option rectq) :=
  flat_map (fun x => match x with Some (KPage z) => [z] | _ => [] end) (map sk l).
Lemma psizes_Ev l l' : Ev l l' -> psizes l' = psizes l.
Proof.
  intros (k & H). unfold psizes. rewrite H, flat_map_app.
  assert (E : forall k, flat_map (fun x : option skel => match x with Some (KPage z) => [z] | _ => [] end) (repeat None k) = [])
    by (intros m; induction m; cbn; auto).
  now rewrite E, app_nil_r.
Qed.
Lemma psizes_app a b : psizes (a ++ b) = psizes a ++ psizes b.
Proof. unfold psizes. now rewrite map_app, flat_map_app. Qed.
Lemma psizes_upd l i f : (forall o, match sk (f o), sk o with
    | Some (KPage a), Some (KPage b) => a = b | Some (KOutl _), Some (KOutl _) => True | Some (KFixed _), Some (KFixed _) => True | None, None => True | _, _ => False end) ->
  psizes (upd l i f) = psizes l.
Proof.
  intros H. unfold psizes. revert i; induction l as [|o l IH]; intros [|i]; cbn; try reflexivity.
  - f_equal. specialize (H o). destruct (sk (f o)) as [[a|a|a]|], (sk o) as [[b|b|b]|]; try contradiction; congruence.
  - f_equal. apply IH.
Qed.

(** What every call keeps, for the page tree. *)
Definition G (s s' : gp) : Prop :=
  psizes (g_objs s') = psizes (g_objs s) /\ g_kids s' = g_kids s /\ g_pagecount s' = g_pagecount s /\
  g_npages s' = g_npages s /\ g_header s' = g_header s /\ g_footer s' = g_footer s.
Lemma G_trans a b c : G a b -> G b c -> G a c.
Proof. unfold G. intuition congruence. Qed.
Lemma F_G s s' : F s s' -> G s s'.
Proof. intros [K E]. unfold keep in K. unfold G. rewrite (psizes_Ev _ _ E). intuition. Qed.
Lemma G_sop s o : G s (fst (sstep s o)).
Proof.
  destruct (is_addoutline o) eqn:N; [|now apply F_G, F_sop].
  assert (H : forall t w, G s (fst (addOutline t w s))).
  { intros t w. destruct (addOutline_eq t w s) as (A & _ & _ & _ & _ & B1 & B2 & B3 & B4 & B5 & B6 & B7).
    unfold G. split; [|intuition]. rewrite A. destruct (g_outl_lastobj s).
    - rewrite psizes_upd; [|now intros []]. rewrite psizes_app. cbn. now rewrite app_nil_r.
    - rewrite psizes_app. cbn. now rewrite app_nil_r. }
  destruct o; try discriminate; apply H.
Qed.
Lemma G_sops l : forall s, G s (fst (run_sops s l)).
Proof.
  induction l as [|o l IH]; intros s; [repeat split|]. cbn [run_sops].
  pose proof (G_sop s o) as H. destruct (sstep s o) as [s1 r]. cbn [fst] in H.
  destruct r; try (eapply G_trans; [exact H|apply IH]). exact H.
Qed.
Lemma G_reset s : G s (resetXY s).
Proof. repeat split. Qed.

Lemma addPage_pages sz s :
  let t := fst (addPage sz s) in
  psizes (g_objs t) = psizes (g_objs s) ++ [sz] /\ g_kids t = g_kids s /\ g_pagecount t = g_pagecount s /\
  g_npages t = g_npages s + 1 /\ g_header t = g_header s /\ g_footer t = g_footer s.
Proof.
  unfold addPage. cbn [addObj]. set (s1 := resetXY _).
  assert (H : psizes (g_objs s1) = psizes (g_objs s) ++ [sz] /\ g_kids s1 = g_kids s /\ g_pagecount s1 = g_pagecount s /\
     g_npages s1 = g_npages s + 1 /\ g_header s1 = g_header s /\ g_footer s1 = g_footer s).
  { unfold s1. split; [exact (psizes_app (g_objs s) [OPage (new_page sz)])|repeat split]. }
  clearbody s1.
  assert (Cb : forall f s, G s (fst (match f with None => (s, Ok) | Some f =>
           match run_sops s f with (s, Panic) => (s, Panic) | (s, _) => (resetXY s, Ok) end end))).
  { intros [f|] u; [|repeat split]. pose proof (G_sops f u) as K. destruct (run_sops u f) as [u1 r]. cbn [fst] in K.
    destruct r; cbn [fst]; try exact K; (eapply G_trans; [exact K|apply G_reset]). }
  match goal with |- context [match g_header s1 with None => (s1, Ok) | Some f => @?h f end] => pose proof (Cb (g_header s1) s1) as H1 end.
  destruct (match g_header s1 with None => (s1, Ok) | Some f => _ end) as [s2 r2]. cbn [fst] in H1.
  assert (H2 : G s1 (fst (match r2 with Panic => (s2, Panic) | _ =>
     match g_footer s2 with None => (s2, Ok) | Some f =>
        match run_sops s2 f with (s, Panic) => (s, Panic) | (s, _) => (resetXY s, Ok) end end end))).
  { destruct r2; try exact H1; (eapply G_trans; [exact H1|apply Cb]). }
  destruct r2; cbn zeta in *; unfold G in H2; intuition congruence.
Qed.

(** Sizes of the pages added since the last Start. *)
Fixpoint sizes_from (acc : list (option rectq)) (l : list op) : list (option rectq) :=
  match l with
  | [] => acc
  | Start _ :: r => sizes_from [] r
  | AddPage sz :: r => sizes_from (acc ++ [sz]) r
  | _ :: r => sizes_from acc r
  end.
(** Number of AddPage calls. *)
Fixpoint adds (l : list op) : Z :=
  match l with [] => 0 | AddPage _ :: r => 1 + adds r | _ :: r => adds r end.
Fixpoint no_output (l : list op) : bool :=
  match l with [] => true | Output :: _ => false | _ :: r => no_output r end.

Lemma exec_pages l : forall s acc, no_output l = true ->
  psizes (g_objs s) = acc -> g_kids s = [] -> g_pagecount s = 0 ->
  let t := exec s l in
  psizes (g_objs t) = sizes_from acc l /\ g_kids t = [] /\ g_pagecount t = 0 /\ g_npages t = g_npages s + adds l.
Proof.
  induction l as [|o l IH]; intros s acc N P K C; cbn zeta; [cbn; repeat split; auto; lia|].
  cbn [exec fold_left]. fold (exec (fst (step s o)) l).
  destruct o; cbn [no_output] in N; try discriminate; cbn [step sizes_from adds].
  - destruct (G_sop s o) as (A1 & A2 & A3 & A4 & _).
    destruct (IH (fst (sstep s o)) acc N) as (B1 & B2 & B3 & B4); try congruence. repeat split; auto. lia.
  - destruct (IH (start c s) [] N) as (B1 & B2 & B3 & B4); try reflexivity. repeat split; auto.
  - destruct (addPage_pages size s) as (A1 & A2 & A3 & A4 & _).
    destruct (IH (fst (addPage size s)) (acc ++ [size]) N) as (B1 & B2 & B3 & B4); try congruence. repeat split; auto. lia.
  - destruct (IH (set_header f s) acc N) as (B1 & B2 & B3 & B4); auto.
  - destruct (IH (set_footer f s) acc N) as (B1 & B2 & B3 & B4); auto.
Qed.

Lemma vr_psizes l : map (fun x => pg_size (fst x)) (vr l) = psizes l.
Proof.
  unfold psizes. induction l as [|o l IH]; [reflexivity|]. destruct o; cbn [map flat_map sk vr app]; rewrite ?IH; reflexivity.
Qed.
Lemma prep_kids_bound l : forall i k, In k (prep_kids l i) -> Z.of_nat i < k.
Proof.
  induction l as [|o l IH]; intros i k H; [contradiction|]. cbn [prep_kids] in H. apply in_app_or in H as [H|H].
  - destruct (is_page o); [destruct H as [<-|[]]; lia|contradiction].
  - apply IH in H. lia.
Qed.
Lemma prep_kids_nodup l : forall i, NoDup (prep_kids l i).
Proof.
  induction l as [|o l IH]; intros i; [constructor|]. cbn [prep_kids]. destruct (is_page o); [|apply IH].
  constructor; [|apply IH]. intros H. apply prep_kids_bound in H. lia.
Qed.

Lemma output_tree s : g_kids s = [] -> g_pagecount s = 0 ->
  let t := output s in
  map (option_map sh_size) (read_pages t) = map Some (psizes (g_objs s)) /\
  g_pagecount t = zlen (psizes (g_objs s)) /\ zlen (g_kids t) = zlen (psizes (g_objs s)) /\ NoDup (g_kids t).
Proof.
  intros K C t.
  assert (R : map (option_map sh_size) (read_pages t) = map Some (psizes (g_objs s))).
  { unfold t. rewrite (output_pages s K), vw_vr, <- vr_psizes, !map_map. apply map_ext. now intros [p its]. }
  assert (Z2 : zlen (g_kids t) = zlen (psizes (g_objs s))).
  { apply (f_equal zlen) in R. unfold read_pages, zlen in *. rewrite !map_length in R. exact R. }
  destruct (prepare_eq s) as (_ & P2 & P3 & _).
  split; [exact R|]. split; [|split; [exact Z2|]].
  - rewrite <- Z2. unfold t, output. cbn [g_pagecount g_kids set_objs]. rewrite P2, P3, K, C. cbn [app]. lia.
  - unfold t, output. cbn [g_kids set_objs]. rewrite P2, K. apply prep_kids_nodup.
Qed.

(** ** Outline entries *)
(** [chain l nums titles]: objects numbered [nums] of table [l] are outline entries with [titles],
    linked by prev/next in that order, with a top-level parent. *)
Definition linked (get : Z -> option outline) (nums : list Z) (titles : list bytes) : Prop :=
  List.length nums = List.length titles /\
  forall k n t, nth_error nums k = Some n -> nth_error titles k = Some t ->
    exists o, get n = Some o /\ (ol_title o = t /\ ol_parent o = 2) /\
      ol_next o = match nth_error nums (S k) with Some m => m | None => -1 end /\
      ol_prev o = match k with O => -1 | S j => match nth_error nums j with Some m => m | None => -1 end end.
Definition get_outline (l : list (option skel)) (n : Z) : option outline :=
  if n <=? 0 then None else match nth_error l (Z.to_nat (n - 1)) with Some (Some (KOutl o)) => Some o | _ => None end.

Definition hd_or (d : Z) (l : list Z) : Z := match l with [] => d | x :: _ => x end.
Record Outl (s : gp) (titles : list bytes) (nums : list Z) : Prop := {
  ou_link : linked (get_outline (map sk (g_objs s))) nums titles;
  ou_first : g_outl_first s = hd_or (-1) nums;
  ou_last : g_outl_last s = last nums (-1);
  ou_count : g_outl_count s = zlen titles;
  ou_lastobj : g_outl_lastobj s = match nums with [] => None | _ => Some (Z.to_nat (last nums (-1) - 1)) end;
  ou_bound : Forall (fun n => 0 < n <= zlen (g_objs s)) nums;
  ou_nodup : NoDup nums }.

Lemma get_outline_app l l' n o : get_outline l n = Some o -> get_outline (l ++ l') n = Some o.
Proof.
  unfold get_outline. destruct (n <=? 0); [discriminate|].
  destruct (nth_error l (Z.to_nat (n - 1))) as [x|] eqn:E; [|discriminate].
  rewrite nth_error_app1; [now rewrite E|]. apply nth_error_Some. congruence.
Qed.
Lemma Ev_len l l' : Ev l l' -> zlen l <= zlen l'.
Proof. intros (k & H). apply (f_equal (@List.length _)) in H. rewrite app_length, !map_length in H. unfold zlen. lia. Qed.
Lemma Outl_F s s' titles nums : F s s' -> Outl s titles nums -> Outl s' titles nums.
Proof.
  intros [K E] [L A B C D G0 H]. unfold keep in K. destruct K as (K1 & K2 & K3 & K4 & K5 & K6 & K7 & K8 & K9).
  pose proof (Ev_len _ _ E) as Le. destruct E as (k & E).
  constructor; try congruence.
  - destruct L as (L1 & L2). split; [assumption|]. intros j n t Hn Ht. destruct (L2 j n t Hn Ht) as (o & O1 & O2).
    exists o. split; [|assumption]. rewrite E. now apply get_outline_app.
  - eapply Forall_impl; [|exact G0]. cbn. intros; lia.
Qed.

Lemma map_upd {A B} (g : A -> B) f (h : B -> B) l : forall i, (forall x, g (f x) = h (g x)) -> map g (upd l i f) = upd (map g l) i h.
Proof. induction l as [|x l IH]; intros [|i] H; cbn; try reflexivity; [now rewrite H|now rewrite IH]. Qed.

Lemma last_snoc (l : list Z) x d : last (l ++ [x]) d = x.
Proof. apply last_last. Qed.
Lemma last_in (l : list Z) d : l <> [] -> In (last l d) l.
Proof.
  intros H. destruct (exists_last H) as (l' & x & ->). rewrite last_last. apply in_or_app. right. now left.
Qed.

Lemma NoDup_app_snoc {A} (l : list A) x : NoDup l -> ~ In x l -> NoDup (l ++ [x]).
Proof.
  intros N H. apply NoDup_rev in N. rewrite <- (rev_involutive (l ++ [x])), rev_app_distr. apply NoDup_rev.
  cbn. constructor; [|exact N]. now rewrite <- in_rev.
Qed.
Lemma Outl_add s titles nums title w : Outl s titles nums ->
  Outl (fst (addOutline title w s)) (titles ++ [title]) (nums ++ [zlen (g_objs s) + 1]).
Proof.
  intros [L A B C D Bd Nd].
  destruct (addOutline_eq title w s) as (E1 & E2 & E3 & E4 & E5 & _).
  set (num := zlen (g_objs s) + 1) in *. set (o := new_outline title w s) in *.
  assert (Fresh : ~ In num nums). { intros Hi. rewrite Forall_forall in Bd. apply Bd in Hi. unfold num in Hi. lia. }
  constructor.
  - destruct L as (L1 & L2). split; [rewrite !app_length, L1; reflexivity|].
    set (nx := fun x : option skel => match x with Some (KOutl q) => Some (KOutl {| ol_title := ol_title q; ol_index := ol_index q; ol_dest := ol_dest q;
                   ol_parent := ol_parent q; ol_prev := ol_prev q; ol_next := num;
                   ol_first := ol_first q; ol_last := ol_last q; ol_height := ol_height q |}) | y => y end).
    assert (M : map sk (g_objs (fst (addOutline title w s))) = match nums with [] => map sk (g_objs s) ++ [Some (KOutl o)]
       | _ => upd (map sk (g_objs s) ++ [Some (KOutl o)]) (Z.to_nat (last nums (-1) - 1)) nx end).
    { rewrite E1, D. destruct nums as [|n0 nums0]; [now rewrite map_app|].
      rewrite (map_upd sk (set_next num) nx) by (now intros []). now rewrite map_app. }
    rewrite M. clear M E1.
    assert (Gnew : get_outline (map sk (g_objs s) ++ [Some (KOutl o)]) num = Some o).
    { unfold get_outline, num. destruct (Z.leb_spec (zlen (g_objs s) + 1) 0); [pose proof (zlen_nonneg (g_objs s)); lia|].
      replace (Z.to_nat (zlen (g_objs s) + 1 - 1)) with (List.length (map sk (g_objs s))) by (rewrite map_length; unfold zlen; lia).
      now rewrite nth_snoc_new. }
    assert (Gold : forall n q, get_outline (map sk (g_objs s)) n = Some q -> get_outline (map sk (g_objs s) ++ [Some (KOutl o)]) n = Some q)
      by (intros; now apply get_outline_app).
    assert (Gupd : forall l n i q, get_outline l n = Some q -> 0 < i ->
       get_outline (upd l (Z.to_nat (i - 1)) nx) n = Some (if i =? n then {| ol_title := ol_title q; ol_index := ol_index q; ol_dest := ol_dest q;
                   ol_parent := ol_parent q; ol_prev := ol_prev q; ol_next := num;
                   ol_first := ol_first q; ol_last := ol_last q; ol_height := ol_height q |} else q)).
    { intros l n i q Hg Hi. unfold get_outline in *. destruct (Z.leb_spec n 0); [discriminate|].
      rewrite nth_upd. destruct (nth_error l (Z.to_nat (n - 1))) as [[[?|q'|?]|]|]; try discriminate. injection Hg as ->.
      destruct (Z.eqb_spec i n) as [->|Hne].
      - now rewrite Nat.eqb_refl.
      - destruct (Nat.eqb_spec (Z.to_nat (i - 1)) (Z.to_nat (n - 1))); [lia|reflexivity]. }
    intros k n t Hn Ht.
    destruct (Nat.lt_ge_cases k (List.length nums)) as [Lk|Lk].
    + (* an existing entry *)
      assert (Hn' : nth_error nums k = Some n) by (rewrite nth_error_app1 in Hn by assumption; assumption).
      assert (Ht' : nth_error titles k = Some t) by (rewrite nth_error_app1 in Ht by lia; assumption).
      destruct (L2 k n t Hn' Ht') as (q & Q1 & Q2 & Q3 & Q4).
      assert (Hne : nums <> []) by (destruct nums; [destruct k; discriminate|discriminate]).
      assert (Hl : 0 < last nums (-1)). { rewrite Forall_forall in Bd. specialize (Bd _ (last_in nums (-1) Hne)). lia. }
      destruct nums as [|n0 nums0] eqn:En; [congruence|]. rewrite <- En in *.
      eexists. split; [apply Gupd; [apply Gold; exact Q1|exact Hl]|].
      assert (Hprev : match k with O => -1 | S j => match nth_error (nums ++ [num]) j with Some m => m | None => -1 end end = ol_prev q).
      { rewrite Q4. destruct k as [|j]; [reflexivity|]. rewrite nth_error_app1 by lia. reflexivity. }
      rewrite Hprev.
      assert (Hlast : (last nums (-1) =? n) = (S k =? List.length nums)%nat).
      { destruct (exists_last Hne) as (l' & x & El). rewrite El, last_last, app_length. cbn [List.length].
        assert (Nx : nth_error nums (List.length l') = Some x) by (rewrite El; apply nth_snoc_new).
        destruct (Z.eqb_spec x n) as [e|e], (Nat.eqb_spec (S k) (List.length l' + 1)) as [e2|e2]; try reflexivity.
        - exfalso. assert (k = List.length l'); [|lia].
          apply (proj1 (NoDup_nth_error nums) Nd); [assumption|]. now rewrite Hn', Nx, e.
        - exfalso. replace k with (List.length l') in Hn' by lia. congruence. }
      rewrite Hlast. destruct (Nat.eqb_spec (S k) (List.length nums)) as [e|e].
      * cbn [ol_title ol_next ol_prev]. split; [assumption|]. split; [|reflexivity]. rewrite e, nth_snoc_new. reflexivity.
      * split; [assumption|]. split; [|reflexivity]. rewrite Q3. rewrite nth_error_app1 by lia. reflexivity.
    + (* the new entry *)
      assert (k = List.length nums).
      { assert (nth_error (nums ++ [num]) k <> None) by congruence. apply nth_error_Some in H. rewrite app_length in H. cbn in H. lia. }
      subst k. rewrite nth_snoc_new in Hn. injection Hn as <-. rewrite L1, nth_snoc_new in Ht. injection Ht as <-.
      exists o. split.
      * destruct nums as [|n0 nums0] eqn:En; [exact Gnew|]. rewrite <- En in *.
        assert (Hne : nums <> []) by congruence.
        assert (Hl : 0 < last nums (-1) <= zlen (g_objs s)). { rewrite Forall_forall in Bd. apply (Bd _ (last_in nums (-1) Hne)). }
        rewrite (Gupd _ _ _ _ Gnew) by lia. destruct (Z.eqb_spec (last nums (-1)) num); [unfold num in *; lia|reflexivity].
      * split; [split; reflexivity|]. split.
        -- replace (nth_error (nums ++ [num]) (S (List.length nums))) with (@None Z); [reflexivity|].
           symmetry. apply nth_error_None. rewrite app_length. cbn. lia.
        -- cbn [ol_prev o new_outline]. rewrite B. destruct (List.length nums) as [|j] eqn:El.
           ++ destruct nums; [reflexivity|discriminate].
           ++ assert (Hne : nums <> []) by (destruct nums; [discriminate|discriminate]).
              destruct (exists_last Hne) as (l' & x & Ex). rewrite Ex, last_last, <- app_assoc.
              rewrite Ex, app_length in El. cbn in El. replace j with (List.length l') by lia.
              cbn [app]. rewrite nth_app_len. reflexivity.
  - rewrite E2, A. destruct nums as [|n0 nums0]; cbn [hd_or app]; [reflexivity|].
    inversion Bd; subst. destruct (Z.leb_spec n0 0); [lia|reflexivity].
  - rewrite E3, last_snoc. reflexivity.
  - rewrite E4, C, zlen_app, zlen_cons, zlen_nil. lia.
  - rewrite E5, last_snoc. replace (match nums ++ [num] with [] => None | _ :: _ => Some (Z.to_nat (num - 1)) end) with (Some (Z.to_nat (num - 1))) by (destruct nums; reflexivity).
    unfold num, zlen. f_equal. lia.
  - assert (Ln : zlen (g_objs (fst (addOutline title w s))) = num).
    { rewrite E1. unfold num, zlen. destruct (g_outl_lastobj s); rewrite ?upd_length, app_length; cbn [List.length]; lia. }
    rewrite Ln. apply Forall_app. split; [|constructor; [|constructor]].
    + eapply Forall_impl; [|exact Bd]. cbn. unfold num. intros; lia.
    + unfold num. pose proof (zlen_nonneg (g_objs s)). lia.
  - apply NoDup_app_snoc; assumption.
Qed.

Lemma Outl_weak s s' titles nums :
  g_outl_first s' = g_outl_first s -> g_outl_last s' = g_outl_last s -> g_outl_count s' = g_outl_count s ->
  g_outl_lastobj s' = g_outl_lastobj s -> Ev (g_objs s) (g_objs s') -> Outl s titles nums -> Outl s' titles nums.
Proof.
  intros K5 K6 K7 K8 E [L A B C D G0 H].
  pose proof (Ev_len _ _ E) as Le. destruct E as (k & E).
  constructor; try congruence.
  - destruct L as (L1 & L2). split; [assumption|]. intros j n t Hn Ht. destruct (L2 j n t Hn Ht) as (o & O1 & O2).
    exists o. split; [|assumption]. rewrite E. now apply get_outline_app.
  - eapply Forall_impl; [|exact G0]. cbn. intros; lia.
Qed.

Lemma F_sops l : forall s, forallb (fun o => negb (is_addoutline o)) l = true -> F s (fst (run_sops s l)).
Proof.
  induction l as [|o l IH]; intros s H; [apply F_refl|]. cbn [forallb] in H. apply andb_true_iff in H as [H1 H2].
  apply negb_true_iff in H1. pose proof (F_sop s o H1) as K. cbn [run_sops].
  destruct (sstep s o) as [s1 r]. cbn [fst] in K. destruct r; try exact K; (eapply F_trans; [exact K|now apply IH]).
Qed.
Lemma F_reset s : F s (resetXY s).
Proof. f_same. Qed.

Definition cb_ok (s : gp) : Prop := no_outline_cb (g_header s) = true /\ no_outline_cb (g_footer s) = true.
Lemma no_outline_cb_eq l : no_outline_cb (Some l) = forallb (fun o => negb (is_addoutline o)) l.
Proof. induction l as [|o l IH]; [reflexivity|]. cbn in *. rewrite IH. now destruct o. Qed.

(** AddPage: everything but the new page, the page count and the current page is untouched. *)
Lemma addPage_frame sz s : cb_ok s ->
  let t := fst (addPage sz s) in
  (exists k, map sk (g_objs t) = map sk (g_objs s) ++ Some (KPage sz) :: repeat None k) /\
  g_outl_first t = g_outl_first s /\ g_outl_last t = g_outl_last s /\ g_outl_count t = g_outl_count s /\
  g_outl_lastobj t = g_outl_lastobj s /\ g_cfg t = g_cfg s /\ cb_ok t /\ g_page t = Some (List.length (g_objs s)).
Proof.
  intros [Hh Hf]. unfold addPage. cbn [addObj]. set (s1 := resetXY _).
  assert (E1 : map sk (g_objs s1) = map sk (g_objs s) ++ [Some (KPage sz)]) by (unfold s1; cbn; now rewrite map_app).
  assert (K1 : g_outl_first s1 = g_outl_first s /\ g_outl_last s1 = g_outl_last s /\ g_outl_count s1 = g_outl_count s /\
     g_outl_lastobj s1 = g_outl_lastobj s /\ g_cfg s1 = g_cfg s /\ g_header s1 = g_header s /\ g_footer s1 = g_footer s /\
     g_page s1 = Some (List.length (g_objs s))) by (repeat split).
  clearbody s1.
  assert (Cb : forall f s, no_outline_cb f = true -> F s (fst (match f with None => (s, Ok) | Some f =>
           match run_sops s f with (s, Panic) => (s, Panic) | (s, _) => (resetXY s, Ok) end end))).
  { intros [f|] u Hn; [|apply F_refl]. rewrite no_outline_cb_eq in Hn. pose proof (F_sops f u Hn) as K. destruct (run_sops u f) as [u1 r]. cbn [fst] in K.
    destruct r; cbn [fst]; try exact K; (eapply F_trans; [exact K|apply F_reset]). }
  assert (Hh1 : no_outline_cb (g_header s1) = true) by (destruct K1 as (_ & _ & _ & _ & _ & -> & _); exact Hh).
  pose proof (Cb (g_header s1) s1 Hh1) as H1.
  destruct (match g_header s1 with None => (s1, Ok) | Some f => _ end) as [s2 r2]. cbn [fst] in H1.
  assert (H2 : F s1 (fst (match r2 with Panic => (s2, Panic) | _ =>
     match g_footer s2 with None => (s2, Ok) | Some f =>
        match run_sops s2 f with (s, Panic) => (s, Panic) | (s, _) => (resetXY s, Ok) end end end))).
  { assert (Hf2 : no_outline_cb (g_footer s2) = true).
    { destruct H1 as [K _]. unfold keep in K. destruct K as (_ & _ & _ & _ & _ & _ & _ & _ & _ & _ & ->).
      destruct K1 as (_ & _ & _ & _ & _ & _ & -> & _). exact Hf. }
    destruct r2; try exact H1; (eapply F_trans; [exact H1|now apply Cb]). }
  assert (R : forall t, F s1 t -> (exists k, map sk (g_objs t) = map sk (g_objs s) ++ Some (KPage sz) :: repeat None k) /\
    g_outl_first t = g_outl_first s /\ g_outl_last t = g_outl_last s /\ g_outl_count t = g_outl_count s /\
    g_outl_lastobj t = g_outl_lastobj s /\ g_cfg t = g_cfg s /\ cb_ok t /\ g_page t = Some (List.length (g_objs s))).
  { intros t [K (k & E)]. unfold keep in K. destruct K1 as (C1 & C2 & C3 & C4 & C5 & C6 & C7 & C8).
    destruct K as (D1 & D2 & D3 & D4 & D5 & D6 & D7 & D8 & D9 & D10 & D11).
    split; [exists k; rewrite E, E1, <- app_assoc; reflexivity|]. unfold cb_ok. rewrite D10, D11, C6, C7. repeat split; congruence || assumption. }
  destruct r2; exact (R _ H2).
Qed.

Lemma Outl_page s s' titles nums sz k :
  g_outl_first s' = g_outl_first s -> g_outl_last s' = g_outl_last s -> g_outl_count s' = g_outl_count s ->
  g_outl_lastobj s' = g_outl_lastobj s ->
  map sk (g_objs s') = map sk (g_objs s) ++ Some (KPage sz) :: repeat None k -> Outl s titles nums -> Outl s' titles nums.
Proof.
  intros K5 K6 K7 K8 E [L A B C D G0 H].
  constructor; try congruence.
  - destruct L as (L1 & L2). split; [assumption|]. intros j n t Hn Ht. destruct (L2 j n t Hn Ht) as (o & O1 & O2).
    exists o. split; [|assumption]. rewrite E. now apply get_outline_app.
  - eapply Forall_impl; [|exact G0]. cbn. intros a Ha. apply (f_equal (@List.length _)) in E. rewrite app_length, !map_length in E. unfold zlen in *. lia.
Qed.

Lemma prep_objs_sk l : forall i, map sk (prep_objs l i) = map sk l.
Proof.
  induction l as [|o l IH]; intros i; [reflexivity|]. cbn [prep_objs map]. rewrite IH. f_equal. now destruct o.
Qed.
Lemma output_sk s : Ev (g_objs s) (g_objs (output s)).
Proof.
  unfold output. cbn [g_objs set_objs]. destruct (prepare_eq s) as (P & _). rewrite P.
  exists (if cf_protect (g_cfg s) then 1%nat else O).
  assert (E : forall l, map sk (map written_obj l) = map sk l).
  { intros l. rewrite map_map. apply map_ext. now intros []. }
  rewrite E, prep_objs_sk, map_app. now destruct (cf_protect (g_cfg s)).
Qed.
Lemma output_keep s : g_outl_first (output s) = g_outl_first s /\ g_outl_last (output s) = g_outl_last s /\
  g_outl_count (output s) = g_outl_count s /\ g_outl_lastobj (output s) = g_outl_lastobj s /\
  g_header (output s) = g_header s /\ g_footer (output s) = g_footer s /\ g_page (output s) = g_page s.
Proof.
  unfold output, prepare. cbn [set_objs g_outl_first g_outl_last g_outl_count g_outl_lastobj g_header g_footer g_page set_kids set_pagecount set_encid].
  destruct (cf_protect (g_cfg s)); cbn [addObj snd set_objs g_outl_count]; destruct (0 <? g_outl_count s); repeat split.
Qed.

Lemma fixed_app l l' i : nth_error (map sk l) i <> None -> nth_error (map sk l ++ l') i = nth_error (map sk l) i.
Proof. intros H. apply nth_error_app1. now apply nth_error_Some. Qed.
(** The four initial objects stay where Start put them. *)
Definition Base4 (s : gp) : Prop := exists r, map sk (g_objs s) = map sk [OCatalog; OPages; OOutlines; OProcSet] ++ r.
Lemma Base4_app s s' r : map sk (g_objs s') = map sk (g_objs s) ++ r -> Base4 s -> Base4 s'.
Proof. intros E (x & H). exists (x ++ r). now rewrite E, H, <- app_assoc. Qed.
Lemma Base4_outline s t w titles nums : Outl s titles nums -> Base4 s -> Base4 (fst (addOutline t w s)).
Proof.
  intros O (x & H). destruct (addOutline_eq t w s) as (E & _). unfold Base4. rewrite E.
  destruct (g_outl_lastobj s) as [j|].
  - set (num := zlen (g_objs s) + 1).
    set (nx := fun y : option skel => match y with Some (KOutl q) => Some (KOutl {| ol_title := ol_title q; ol_index := ol_index q; ol_dest := ol_dest q;
                   ol_parent := ol_parent q; ol_prev := ol_prev q; ol_next := num;
                   ol_first := ol_first q; ol_last := ol_last q; ol_height := ol_height q |}) | y => y end).
    rewrite (map_upd sk (set_next num) nx) by (now intros []).
    rewrite map_app, H, <- app_assoc. cbn [map app sk].
    destruct j as [|[|[|[|j]]]]; cbn [upd nx]; eexists; reflexivity.
  - eexists. rewrite map_app, H, <- app_assoc. reflexivity.
Qed.

Lemma exec_outlines l : forall s titles nums, forallb quiet_callbacks l = true -> cb_ok s -> Outl s titles nums -> Base4 s ->
  exists nums', Outl (exec s l) (titles_from titles l) nums' /\ Base4 (exec s l).
Proof.
  induction l as [|o l IH]; intros s titles nums Q C O B; [exists nums; auto|].
  cbn [forallb] in Q. apply andb_true_iff in Q as [Q1 Q2].
  cbn [exec fold_left]. fold (exec (fst (step s o)) l).
  destruct o; cbn [step].
  - destruct (is_addoutline o) eqn:Ho.
    + destruct o; try discriminate; cbn [sstep titles_from];
        (eapply IH; [exact Q2| |apply Outl_add; exact O|eapply Base4_outline; eauto]);
        destruct (addOutline_eq title false s) as (_ & _ & _ & _ & _ & _ & _ & _ & _ & _ & E1 & E2);
        destruct (addOutline_eq title true s) as (_ & _ & _ & _ & _ & _ & _ & _ & _ & _ & E3 & E4);
        unfold cb_ok; rewrite ?E1, ?E2, ?E3, ?E4; exact C.
    + pose proof (F_sop s o Ho) as K.
      replace (titles_from titles (Do o :: l)) with (titles_from titles l) by (destruct o; try discriminate; reflexivity).
      eapply IH; [exact Q2| |eapply Outl_F; eauto|].
      * destruct K as [K _]. unfold keep in K. unfold cb_ok. destruct K as (_ & _ & _ & _ & _ & _ & _ & _ & _ & -> & ->). exact C.
      * destruct K as [_ (k & E)]. eapply Base4_app; eauto.
  - cbn [titles_from]. eapply (IH _ [] []); [exact Q2|exact C| |exists []; now rewrite app_nil_r].
    constructor; cbn; try reflexivity; try constructor; try reflexivity. intros [|k] n t H; discriminate.
  - cbn [titles_from]. destruct (addPage_frame size s C) as ((k & E) & K1 & K2 & K3 & K4 & _ & C' & _).
    eapply IH; [exact Q2|exact C'|eapply Outl_page; eauto|eapply Base4_app; eauto].
  - cbn [titles_from]. eapply IH; [exact Q2| |eapply Outl_weak; [..|exact O]; try reflexivity; apply Ev_refl|exact B].
    split; [exact Q1|apply C].
  - cbn [titles_from]. eapply IH; [exact Q2| |eapply Outl_weak; [..|exact O]; try reflexivity; apply Ev_refl|exact B].
    split; [apply C|exact Q1].
  - cbn [titles_from]. destruct (output_keep s) as (K1 & K2 & K3 & K4 & K5 & K6 & K7). pose proof (output_sk s) as E.
    eapply IH; [exact Q2| |eapply Outl_weak; eauto|].
    + unfold cb_ok. cbn [fst]. rewrite K5, K6. exact C.
    + destruct E as (k & E). eapply Base4_app; eauto.
Qed.

Lemma outline_no_get t n : outline_no t n = get_outline (map sk (g_objs t)) n.
Proof.
  unfold outline_no, get_outline, obj_no. destruct (n <=? 0); [reflexivity|]. rewrite nth_error_map.
  destruct (nth_error (g_objs t) _) as [o|]; [|reflexivity]. destruct o; reflexivity.
Qed.
Lemma walk_none t follow fuel n : outline_no t n = None -> walk t follow fuel n = [].
Proof. intros H. destruct fuel; [reflexivity|]. cbn. now rewrite H. Qed.

Lemma walk_next t titles nums fuel : linked (get_outline (map sk (g_objs t))) nums titles ->
  (List.length titles <= fuel)%nat -> walk t ol_next fuel (hd_or (-1) nums) = titles.
Proof.
  intros (L1 & L2) Hf.
  assert (G : forall k fuel, (List.length titles - k <= fuel)%nat -> (k <= List.length titles)%nat ->
     walk t ol_next fuel (match nth_error nums k with Some n => n | None => -1 end) = skipn k titles).
  { intros k fu. revert k. induction fu as [|fu IH]; intros k H1 H2.
    - rewrite skipn_all2 by lia. reflexivity.
    - destruct (nth_error nums k) as [n|] eqn:En.
      + assert (Hk : (k < List.length titles)%nat) by (rewrite <- L1; apply nth_error_Some; congruence).
        destruct (nth_error titles k) as [ti|] eqn:Et; [|apply nth_error_None in Et; lia].
        destruct (L2 k n ti En Et) as (o & O1 & (O2 & _) & O3 & _).
        cbn [walk]. rewrite outline_no_get, O1, O3, IH by lia.
        rewrite (skipn_nth _ _ _ Et), O2. reflexivity.
      + apply nth_error_None in En. rewrite skipn_all2 by lia. now apply walk_none. }
  specialize (G O fuel). cbn [skipn] in G. rewrite <- G by lia. destruct nums; reflexivity.
Qed.
Lemma walk_prev t titles nums fuel : linked (get_outline (map sk (g_objs t))) nums titles ->
  (List.length titles <= fuel)%nat -> walk t ol_prev fuel (last nums (-1)) = rev titles.
Proof.
  intros (L1 & L2) Hf.
  assert (G : forall k fuel, (k <= fuel)%nat -> (k <= List.length titles)%nat ->
     walk t ol_prev fuel (match k with O => -1 | S j => match nth_error nums j with Some n => n | None => -1 end end) = rev (firstn k titles)).
  { intros k. induction k as [|k IH]; intros fu H1 H2.
    - now apply walk_none.
    - destruct fu as [|fu]; [lia|].
      destruct (nth_error nums k) as [n|] eqn:En; [|apply nth_error_None in En; lia].
      destruct (nth_error titles k) as [ti|] eqn:Et; [|apply nth_error_None in Et; lia].
      destruct (L2 k n ti En Et) as (o & O1 & (O2 & _) & _ & O4).
      cbn [walk]. rewrite outline_no_get, O1, O4, IH by lia.
      rewrite (firstn_snoc _ _ _ Et), rev_app_distr, O2. reflexivity. }
  specialize (G (List.length titles) fuel). rewrite firstn_all in G. rewrite <- G by lia.
  rewrite <- L1. destruct nums as [|n nums] using rev_ind; [reflexivity|].
  rewrite last_last, app_length. cbn [List.length]. rewrite Nat.add_1_r, nth_snoc_new. reflexivity.
Qed.
