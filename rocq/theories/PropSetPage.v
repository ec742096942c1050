(** PropSetPage.v — C07: SetPage selects the page asked for. *)
From Verif Require Import Base DocModel DocSpec DocProofs DocInv PropDoc.

(** ** Errors: for every state reached, a failed SetPage changes nothing; numbers below 1 and above the number of content
    objects fail. *)
Lemma find_content_low l : forall i seen n, n <= seen -> find_content l i seen n = None.
Proof.
  induction l as [|o l IH]; intros i seen n H; [reflexivity|]. cbn. destruct o; try (now apply IH). replace (seen + 1 =? n) with false by lia. apply IH. lia.
Qed.
Theorem C07_errors :
  forall s n, (snd (step s (Do (SetPage n))) = Err -> fst (step s (Do (SetPage n))) = s) /\ (n < 1 -> snd (step s (Do (SetPage n))) = Err).
Proof.
  intros s n. cbn [step sstep]. unfold setPage. split.
  - destruct (find_content _ _ _ _); [discriminate|reflexivity].
  - intros H. now rewrite find_content_low by lia.
Qed.
Print Assumptions C07_errors.

(** ** Histories in which every page is drawn on before anything else happens to it *)
(** Calls that draw nothing, and so create no content. *)
Definition sets_up (o : sop) : bool :=
  match o with
  | AddFont _ _ | SetFont _ _ _ | AddColorSpace _ | SetAnchor _ | AddOutline _ | AddOutlinePos _ | SetTransparency _ _ | ClearTransparency
  | SetXY _ _ | SetCompressLevel _ | SetNoCompression => true
  | _ => false
  end.
Inductive status := NoPage | Blank | Drawn.
(** One drawing (a line, a rectangle, …) follows every AddPage before any SetPage, image, text or further page; nothing is
    drawn before the first page; no header or footer callbacks; no Start, no intermediate output. Otherwise any calls, SetPage included. *)
Fixpoint tidy (st : status) (l : list op) : bool :=
  match l with
  | [] => match st with Blank => false | _ => true end
  | o :: r =>
      match st, o with
      | (NoPage | Drawn), AddPage _ => tidy Blank r
      | _, AddHeader None | _, AddFooter None => tidy st r
      | Blank, Do (Draw _ _) => tidy Drawn r
      | Drawn, Do _ => tidy Drawn r
      | _, Do o => sets_up o && tidy st r
      | _, _ => false
      end
  end.

(** ** Proof *)
(** Pages (not yet written) and contents, in table order. *)
Definition kd (o : obj) : list Z := match o with OPage p => [match pg_contents p with [] => 0 | _ => 2 end] | OContent _ => [1] | _ => [] end.
Definition kinds (l : list obj) : list Z := flat_map kd l.
Lemma kinds_app a b : kinds (a ++ b) = kinds a ++ kinds b. Proof. apply flat_map_app. Qed.
Lemma kinds_snoc l o : kd o = [] -> kinds (l ++ [o]) = kinds l.
Proof. intros H. rewrite kinds_app. cbn. now rewrite H, app_nil_r. Qed.
Lemma kinds_upd l : forall i f, (forall o, kd (f o) = kd o) -> kinds (upd l i f) = kinds l.
Proof. induction l as [|o l IH]; intros [|i] f H; cbn; rewrite ?H; [reflexivity..|f_equal; now apply IH]. Qed.
(** What every call keeps once a content object is current. *)
Definition R0 (s s' : gp) : Prop := kinds (g_objs s') = kinds (g_objs s) /\ g_content s' = g_content s /\ g_pagesize s' = g_pagesize s.
Definition R1 (s s' : gp) : Prop := g_content s <> None -> kinds (g_objs s') = kinds (g_objs s) /\ g_content s' <> None /\ g_pagesize s' = g_pagesize s.
Lemma R01 s s' : R0 s s' -> R1 s s'. Proof. intros (A & B & C) H. rewrite A, B, C. auto. Qed.
Lemma R1_trans a b c : R1 a b -> R1 b c -> R1 a c.
Proof. intros H K N. destruct (H N) as (A & B & C). destruct (K B) as (D & E & G). repeat split; congruence. Qed.
Lemma R0_trans a b c : R0 a b -> R0 b c -> R0 a c. Proof. unfold R0. intuition congruence. Qed.
Lemma R0_refl s : R0 s s. Proof. repeat split. Qed.
Lemma R0_add o s : kd o = [] -> R0 s (snd (addObj o s)). Proof. intros H. split; [now apply kinds_snoc|split; reflexivity]. Qed.
Lemma getContent_id s : g_content s <> None -> snd (getContent s) = s.
Proof. unfold getContent. destruct (g_content s); [reflexivity|congruence]. Qed.
Lemma R1_append i it s : R0 s (append_item i it s).
Proof. split; [apply kinds_upd; now intros []|split; reflexivity]. Qed.
Lemma R1_draw np it s : R1 s (fst (draw np it s)).
Proof.
  intros N. pose proof (getContent_id s N) as E. unfold draw. destruct (getContent s) as [i s1]. cbn [snd] in E. subst s1.
  destruct (g_pagesize s) eqn:P; [|destruct np]; cbn [fst]; [|split; [reflexivity|split; [exact N|exact P]]|];
    (pose proof (R1_append i (it match g_pagesize s with Some r => r | None => {| r_w := 0; r_h := 0 |} end) s) as H; rewrite P in H; apply R01 in H; specialize (H N); rewrite P in H; exact H).
Qed.
Lemma R0_cached e s : R0 s (snd (getCachedExtGState e s)).
Proof. unfold getCachedExtGState. destruct (lookup _ _); [apply R0_refl|]. cbn. split; [now apply kinds_snoc|split; reflexivity]. Qed.
Lemma R1_image b id im gs s : R1 s (fst (imageByHolder b id im gs s)).
Proof.
  unfold imageByHolder. destruct (lookup _ _); [apply R1_draw|]. destruct (im_ok im); [|apply R01, R0_refl].
  pose proof (R0_add (OImage im (if b then Split else Plain)) s eq_refl) as H0. destruct (addObj _ s) as [ix s0]. cbn [snd] in H0.
  match goal with |- context [draw true ?it s0] => pose proof (R1_draw true it s0) as H1; destruct (draw true it s0) as [s2 r] end. cbn [fst] in H1.
  assert (H2 : R1 s s2) by (eapply R1_trans; [apply R01, H0|exact H1]). destruct r; cbn [fst]; try exact H2. eapply R1_trans; [exact H2|]. apply R01.
  set (s3 := set_imgs _ _). assert (H3 : R0 s2 s3) by (split; [reflexivity|split; reflexivity]). clearbody s3.
  eapply R0_trans; [exact H3|]. destruct (im_alpha im), (im_indexed im); cbn [addObj snd];
    (split; [cbn [g_objs set_objs set_smasks set_rgbs]; rewrite ?kinds_app; cbn; now rewrite ?app_nil_r|split; reflexivity]).
Qed.
Lemma R1_mask id im s : R1 s (fst (fst (maskHolder id im s))).
Proof.
  unfold maskHolder. assert (H : R1 s (fst (fst (maskImage id im s)))).
  { unfold maskImage. destruct (lookup _ _).
    - intros N. pose proof (getContent_id s N) as E. destruct (getContent s). cbn [snd] in E. subst. repeat split; exact N.
    - destruct (im_ok im); [|apply R01, R0_refl]. pose proof (R0_add (OImage im AsMask) s eq_refl) as H0. destruct (addObj _ s) as [ix s0]. cbn [snd] in H0.
      eapply R1_trans; [apply R01, H0|]. intros N. pose proof (getContent_id s0 N) as E. destruct (getContent s0) as [ci s1]. cbn [snd] in E. subst s1.
      destruct (g_pagesize s0) eqn:P; cbn [fst]; repeat split; exact N || exact P. }
  destruct (maskImage id im s) as [[s1 r1] ix]. cbn [fst] in H. destruct r1; try exact H. destruct (g_pagesize s1); [|exact H].
  eapply R1_trans; [exact H|]. apply R01.
  assert (H1 : R0 s1 (snd (addObj (OXGroup ix) s1))) by (now apply R0_add). destruct (addObj (OXGroup ix) s1) as [grp s1']. cbn [snd] in H1.
  assert (H2 : R0 s1 (snd (addObj (OMask grp) s1'))) by (eapply R0_trans; [exact H1|now apply R0_add]). destruct (addObj (OMask grp) s1') as [mi s2]. cbn [snd] in H2.
  match goal with |- context [getCachedExtGState ?e s2] => pose proof (R0_cached e s2) as H3; destruct (getCachedExtGState e s2) as [i s3] end.
  cbn [fst snd] in *. eapply R0_trans; eauto.
Qed.
Lemma R0_addFont f st s : R0 s (fst (addFont f st s)).
Proof. unfold addFont. cbn [addObj]. match goal with |- context [if ?c then _ else _] => destruct c end; (split; [cbn; rewrite !kinds_app; cbn; now rewrite !app_nil_r|split; reflexivity]). Qed.
Lemma R0_outline t w s : R0 s (fst (addOutline t w s)).
Proof.
  unfold addOutline. cbn [addObj]. set (o := {| ol_title := t |}). clearbody o.
  assert (K : R0 s (set_objs (g_objs s ++ [OOutline o]) s)) by (split; [now apply kinds_snoc|split; reflexivity]). set (s1 := set_objs _ s) in *. clearbody s1.
  cbn [fst]. set (n := Z.of_nat _ + 1). clearbody n. cbn [set_outl_last g_outl_first].
  set (s2 := set_outl_last n s1). assert (K2 : R0 s1 s2) by (repeat split). clearbody s2.
  set (s3 := if g_outl_first s1 <=? 0 then set_outl_first n s2 else s2). assert (K3 : R0 s2 s3) by (unfold s3; destruct (_ <=? 0); repeat split).
  clearbody s3. eapply R0_trans; [exact K|]. eapply R0_trans; [exact K2|]. eapply R0_trans; [exact K3|].
  destruct (g_outl_lastobj s3); (split; [|split; reflexivity]); cbn [g_objs set_outl_count set_outl_lastobj set_objs]; [apply kinds_upd; now intros []|reflexivity].
Qed.
Lemma R0_setup s o : sets_up o = true -> R0 s (fst (sstep s o)).
Proof.
  intros H. destruct o; try discriminate; cbn [sstep fst]; try (repeat split; fail).
  - apply R0_addFont.
  - unfold setFont. destruct (find_font _ _ _ _) as [[? ?]|]; repeat split.
  - apply R0_outline.
  - apply R0_outline.
  - unfold addColorSpace. cbn [addObj]. destruct (existsb _ _); (split; [cbn; rewrite kinds_app; cbn; now rewrite ?app_nil_r|split; reflexivity]).
  - unfold saveTransparency. destruct (lookup _ _); [repeat split|]. destruct (Qeq_bool alpha 1); [repeat split|].
    match goal with |- context [getCachedExtGState ?e s] => pose proof (R0_cached e s) as H1; destruct (getCachedExtGState e s) as [i s1] end. cbn [fst snd] in *.
    eapply R0_trans; [exact H1|repeat split].
  - unfold setCompressLevel. destruct (l <? -2); [repeat split|]. destruct (9 <? l); repeat split.
Qed.
Lemma R1_sop s o : R1 s (fst (sstep s o)).
Proof.
  destruct (sets_up o) eqn:S; [now apply R01, R0_setup|]. destruct o; try discriminate; cbn [sstep].
  - apply R1_draw.
  - apply R1_draw.
  - unfold text. destruct (g_font s); [apply R1_draw|apply R01, R0_refl].
  - unfold setPage. destruct (find_content _ _ _ _); [|apply R01, R0_refl]. intros N. repeat split. discriminate.
  - apply R1_image.
  - pose proof (R1_mask mid mim s) as H. destruct (maskHolder mid mim s) as [[s1 r1] e]. cbn [fst] in H. destruct r1; try exact H. eapply R1_trans; [exact H|apply R1_image].
  - unfold addLink. destruct (g_page s); [|apply R01, R0_refl]. cbn [addObj fst]. apply R01. split; [|split; reflexivity].
    cbn [g_objs set_objs]. rewrite kinds_upd by (now intros []). now apply kinds_snoc.
  - unfold importObjects. generalize (seq 0 (List.length objs)). intros ks. cbn [fst]. revert s. induction ks as [|k ks IH]; intros s; [apply R01, R0_refl|]. cbn [fold_left].
    destruct (zlookup _ objs) as [[|b dt]|]; try apply IH. eapply R1_trans; [apply R01, (R0_add (OImported (b :: dt))); reflexivity|apply IH].
  - unfold setColorSpace. destruct (find_cs _ _); [apply R1_draw|apply R01, R0_refl].
Qed.
Fixpoint pcs (k : nat) : list Z := match k with O => [] | S k => 0 :: 1 :: pcs k end.
Lemma pcs_snoc k : pcs k ++ [0; 1] = pcs (S k).
Proof. induction k as [|k IH]; [reflexivity|]. cbn [pcs app] in *. now rewrite IH. Qed.
Definition Tidy (st : status) (k : nat) (s : gp) : Prop :=
  g_header s = None /\ g_footer s = None /\ g_kids s = [] /\ g_npages s = Z.of_nat k + (match st with Blank => 1 | _ => 0 end) /\
  match st with
  | NoPage => k = O /\ kinds (g_objs s) = [] /\ g_content s = None
  | Blank => kinds (g_objs s) = pcs k ++ [0] /\ g_content s = None /\ g_pagesize s <> None
  | Drawn => kinds (g_objs s) = pcs k /\ g_content s <> None /\ g_pagesize s <> None
  end.
Lemma keep_sop s o : g_header (fst (sstep s o)) = g_header s /\ g_footer (fst (sstep s o)) = g_footer s /\ g_kids (fst (sstep s o)) = g_kids s /\ g_npages (fst (sstep s o)) = g_npages s.
Proof. destruct (G_sop s o) as (_ & A & _ & B & C & D). auto. Qed.
Lemma Tidy_step st k s o : Tidy st k s ->
  match st, o with
  | (NoPage | Drawn), AddPage _ => Tidy Blank k (fst (step s o))
  | _, AddHeader None | _, AddFooter None => Tidy st k (fst (step s o))
  | Blank, Do (Draw _ _) => Tidy Drawn (S k) (fst (step s o))
  | Drawn, Do _ => Tidy Drawn k (fst (step s o))
  | _, Do o' => sets_up o' = true -> Tidy st k (fst (step s o))
  | _, _ => True
  end.
Proof.
  intros (A & B & C & D & E).
  assert (SU : forall o', sets_up o' = true -> Tidy st k (fst (step s (Do o')))).
  { intros o' S. cbn [step]. destruct (R0_setup s o' S) as (K1 & K2 & K3). destruct (keep_sop s o') as (F1 & F2 & F3 & F4). unfold Tidy. rewrite F1, F2, F3, F4, K1, K2, K3. auto. }
  assert (HF : forall o, (o = AddHeader None \/ o = AddFooter None) -> Tidy st k (fst (step s o))) by (intros o' [-> | ->]; unfold Tidy; cbn; auto 10).
  assert (AP : st <> Blank -> forall sz, Tidy Blank k (fst (step s (AddPage sz)))).
  { intros N sz. cbn [step]. unfold addPage. cbn [addObj].
    match goal with |- context [resetXY ?x] => set (s1 := resetXY x) end.
    assert (H1 : g_header s1 = None /\ g_footer s1 = None) by (unfold s1; cbn; auto). destruct H1 as [H1 H2]. rewrite H1, H2. cbn [fst].
    unfold Tidy. rewrite H1, H2. unfold s1. cbn. rewrite C, D. split; [reflexivity|]. split; [reflexivity|]. split; [reflexivity|]. split; [destruct st; lia || congruence|].
    rewrite kinds_app. cbn. destruct st; [|congruence|]; destruct E as (E1 & E2 & E3); [rewrite E1, E2|rewrite E1]; (split; [reflexivity|split; [reflexivity|destruct sz; discriminate]]). }
  destruct st, o as [o'| | |[f|]|[f|]|]; try exact I; try (apply AP; discriminate); try (apply HF; tauto); try exact (SU o').
  - destruct o'; try exact (SU _). destruct E as (E1 & E2 & E3). cbn [step]. destruct (keep_sop s (Draw needs_page b)) as (F1 & F2 & F3 & F4).
    unfold Tidy. rewrite F1, F2, F3, F4. split; [exact A|]. split; [exact B|]. split; [exact C|]. split; [lia|].
    cbn [sstep]. unfold draw, getContent. rewrite E2. cbn [addObj]. cbn [g_pagesize set_content set_objs]. destruct (g_pagesize s) eqn:P; [|congruence]. cbn [fst append_item g_objs set_objs set_content g_content g_pagesize].
    split; [|split; [discriminate|congruence]]. rewrite kinds_upd by (now intros []). rewrite kinds_app, E1. cbn [kinds flat_map kd app]. rewrite <- app_assoc. apply pcs_snoc.
  - destruct E as (E1 & E2 & E3). cbn [step]. destruct (keep_sop s o') as (F1 & F2 & F3 & F4). destruct (R1_sop s o' E2) as (K1 & K2 & K3).
    unfold Tidy. rewrite F1, F2, F3, F4, K1, K3. auto 10.
Qed.
Lemma Tidy_exec l : forall st k s, Tidy st k s -> tidy st l = true -> exists st' k', st' <> Blank /\ Tidy st' k' (exec s l).
Proof.
  induction l as [|o l IH]; intros st k s T H; [exists st, k; split; [destruct st; discriminate|exact T]|].
  pose proof (Tidy_step st k s o T) as S. change (exec s (o :: l)) with (exec (fst (step s o)) l). cbn [tidy] in H.
  destruct st, o as [o'| | |[f|]|[f|]|]; try discriminate; try (eapply IH; [exact S|exact H]);
    try (apply andb_prop in H as [H1 H2]; eapply IH; [exact (S H1)|exact H2]).
  destruct o'; try (apply andb_prop in H as [H1 H2]; eapply IH; [exact (S H1)|exact H2]). eapply IH; [exact S|exact H].
Qed.
(** In such a table the n-th content is the n-th page's. *)
Lemma find_nth l : forall i seen n k it,
  (kinds l = pcs k -> items_until l = [] /\ (seen + 1 <= n <= seen + Z.of_nat k -> exists j, find_content l i seen n = Some (i + j)%nat /\
     items_until (upd l j (add_item it)) = [] /\ vr (upd l j (add_item it)) = upd (vr l) (Z.to_nat (n - seen - 1)) (fun '(p, its) => (p, its ++ [it])))) /\
  (kinds l = 1 :: pcs k -> seen + 1 <= n <= seen + Z.of_nat k + 1 -> exists j, find_content l i seen n = Some (i + j)%nat /\
     if n =? seen + 1 then items_until (upd l j (add_item it)) = items_until l ++ [it] /\ vr (upd l j (add_item it)) = vr l
     else items_until (upd l j (add_item it)) = items_until l /\ vr (upd l j (add_item it)) = upd (vr l) (Z.to_nat (n - seen - 2)) (fun '(p, its) => (p, its ++ [it]))).
Proof.
  induction l as [|o l IH]; intros i seen n k it.
  - split; [|discriminate]. intros H. split; [reflexivity|]. destruct k; [cbn; lia|discriminate].
  - destruct (is_page o) eqn:P; [|destruct (is_content o) eqn:C].
    + destruct o; try discriminate. split; [|intros H; cbn in H; destruct (pg_contents p); discriminate].
      intros H. split; [reflexivity|]. intros Hn. destruct k; [cbn in H; destruct (pg_contents p); discriminate|]. cbn [kinds flat_map kd app pcs] in H. injection H as _ H.
      destruct (proj2 (IH (S i) seen n k it) H ltac:(lia)) as (j & F & V). exists (S j). cbn [find_content upd items_until vr]. rewrite F. split; [f_equal; lia|]. split; [reflexivity|].
      destruct (Z.eqb_spec n (seen + 1)) as [En|En]; destruct V as [V1 V2]; rewrite V1, V2.
      * replace (Z.to_nat (n - seen - 1)) with O by lia. reflexivity.
      * replace (Z.to_nat (n - seen - 1)) with (S (Z.to_nat (n - seen - 2))) by lia. reflexivity.
    + destruct o; try discriminate. split; [intros H; destruct k; discriminate|]. intros H Hn. cbn [kinds flat_map kd app] in H. injection H as H.
      destruct (proj1 (IH (S i) (seen + 1) n k it) H) as (I0 & IH1).
      destruct (Z.eqb_spec n (seen + 1)) as [En|En].
      * exists O. cbn [find_content upd items_until vr add_item]. replace (seen + 1 =? n) with true by lia. split; [f_equal; lia|]. rewrite I0, !app_nil_r. auto.
      * destruct (IH1 ltac:(lia)) as (j & F & V1 & V2). exists (S j). cbn [find_content upd items_until vr]. replace (seen + 1 =? n) with false by lia. rewrite F. split; [f_equal; lia|].
        rewrite I0, V1, V2. split; [reflexivity|]. f_equal. lia.
    + assert (K : kinds (o :: l) = kinds l) by (destruct o; try discriminate; reflexivity). rewrite K.
      assert (F0 : forall i seen n, find_content (o :: l) i seen n = find_content l (S i) seen n) by (destruct o; try discriminate; reflexivity).
      assert (I0 : forall l, items_until (o :: l) = items_until l) by (destruct o; try discriminate; reflexivity).
      assert (V0 : forall l, vr (o :: l) = vr l) by (destruct o; try discriminate; reflexivity).
      destruct (IH (S i) seen n k it) as [IA IB]. split.
      * intros H. destruct (IA H) as [J1 J2]. rewrite I0. split; [exact J1|]. intros Hn. destruct (J2 Hn) as (j & F & V1 & V2). exists (S j). rewrite F0, F. cbn [upd]. rewrite I0, !V0. split; [f_equal; lia|auto].
      * intros H Hn. destruct (IB H Hn) as (j & F & V). exists (S j). rewrite F0, F. cbn [upd]. rewrite !I0, !V0. split; [f_equal; lia|exact V].
Qed.
Lemma prep_sv l : forall i, map sv (map written_obj (prep_objs l i)) = map sv l.
Proof.
  induction l as [|o l IH]; intros i; [reflexivity|]. cbn [prep_objs map]. rewrite IH. f_equal. destruct o; reflexivity.
Qed.
Lemma output_sv s : map sv (g_objs (output s)) = map sv (g_objs s ++ (if cf_protect (g_cfg s) then [OEncryption] else [])).
Proof. unfold output. cbn [g_objs set_objs]. destruct (prepare_eq s) as (P1 & _). rewrite P1. apply prep_sv. Qed.
Lemma opt_eq {A} (a b : option A) : (forall x, a = Some x -> b = Some x) -> (forall x, b = Some x -> a = Some x) -> a = b.
Proof. intros H K. destruct a as [a|]; [symmetry; now apply H|]. destruct b as [b|]; [|reflexivity]. discriminate (K b eq_refl). Qed.
Lemma vr_unwritten l k : kinds l = pcs k -> Forall (fun x => pg_contents (fst x) = []) (vr l).
Proof.
  intros H. assert (G : Forall (fun z => z <> 2) (kinds l)) by (rewrite H; clear; induction k; cbn; repeat constructor; lia || exact IHk). clear H. induction l as [|o l IH]; [constructor|].
  cbn [kinds flat_map] in G. apply Forall_app in G as [G1 G2]. specialize (IH G2). destruct o; cbn [vr]; try exact IH. constructor; [|exact IH]. cbn [fst kd] in *. inversion G1; subst. destruct (pg_contents p); [reflexivity|congruence].
Qed.
Lemma map_upd_ext {A B} (f g : A -> B) (h : A -> A) (u : B -> B) l : forall n, (forall x, In x l -> f x = g x) -> (forall x, In x l -> f (h x) = u (g x)) -> map f (upd l n h) = upd (map g l) n u.
Proof.
  induction l as [|x l IH]; intros [|n] H K; cbn; [reflexivity..| |]; f_equal; try (apply H; now left); try (apply K; now left); [apply map_ext_in; intros y Hy; apply H; now right|].
  apply IH; intros y Hy; [apply H|apply K]; now right.
Qed.
(** ** C07 *)
Theorem C07_setpage_selects_partial :
  forall c l n np b, tidy NoPage l = true -> 1 <= n <= getNumberOfPages (doc c l) ->
    let s := doc c l in
    snd (step s (Do (SetPage n))) = Ok /\
    read_pages (output (exec s [Do (SetPage n); Do (Draw np b)])) = upd (read_pages (output s)) (Z.to_nat (n - 1)) (add_shown (ShBytes b)).
Proof.
  intros c l n np b H Hn s. assert (T0 : Tidy NoPage 0 (start c zero_gp)) by (repeat split).
  destruct (Tidy_exec l NoPage 0 _ T0 H) as (st & k & NB & T). fold (doc c l) in T. fold s in T. unfold getNumberOfPages in Hn. fold s in Hn. destruct T as (_ & _ & T3 & T4 & T5).
  assert (Ek : kinds (g_objs s) = pcs k /\ g_pagesize s <> None /\ 1 <= n <= Z.of_nat k).
  { destruct st; [|congruence|]; destruct T5 as (A & B & C); [exfalso; lia|]. repeat split; [exact A|exact C|lia|lia]. }
  destruct Ek as (E1 & E2 & E3). destruct (proj1 (find_nth (g_objs s) 0 0 n k (IBytes b)) E1) as [_ F]. destruct (F ltac:(lia)) as (j & F1 & _ & F2). clear F.
  cbn [exec fold_left step sstep]. unfold setPage. rewrite F1. cbn [fst snd]. split; [reflexivity|].
  unfold draw. cbn [getContent g_content set_content]. destruct (g_pagesize (set_content (Some (0 + j)%nat) s)) eqn:P; [|exfalso; apply E2; exact P]. cbn [fst]. cbn [Nat.add].
  set (s2 := append_item j (IBytes b) (set_content (Some j) s)).
  assert (O2 : g_objs s2 = upd (g_objs s) j (add_item (IBytes b))) by reflexivity.
  assert (Sv : map sv (g_objs (output s2)) = map sv (g_objs (output s))).
  { rewrite !output_sv. rewrite O2, !map_app. f_equal. rewrite map_upd with (h := fun x => x); [apply upd_id; reflexivity|]. intros o. apply sv_add_item. }
  assert (X : Ext (output s) (output s2) /\ Ext (output s2) (output s)).
  { destruct (output_fields s) as (G1 & G2 & G3 & _). destruct (output_fields s2) as (G4 & G5 & G6 & _).
    change (g_fonts s2) with (g_fonts s) in G4. change (g_cs s2) with (g_cs s) in G5. change (g_xobjs s2) with (g_xobjs s) in G6.
    split; constructor.
    - intros i o St N. eapply sv_nth; [symmetry; exact Sv|exact St|exact N].
    - exists []. rewrite app_nil_r. congruence.
    - exists []. rewrite app_nil_r. congruence.
    - rewrite G3, G6. apply incl_refl.
    - intros i o St N. eapply sv_nth; [exact Sv|exact St|exact N].
    - exists []. rewrite app_nil_r. congruence.
    - exists []. rewrite app_nil_r. congruence.
    - rewrite G3, G6. apply incl_refl. }
  destruct X as [X1 X2].
  assert (SH : forall it, show (output s2) it = show (output s) it) by (intros it; apply opt_eq; intros x; apply show_ext; assumption).
  assert (LK : forall m, link_no (output s2) m = link_no (output s) m) by (intros m; apply opt_eq; intros x; apply link_ext; assumption).
  pose proof (output_pages s T3) as R1. pose proof (output_pages s2 T3) as R2. cbv zeta in R1, R2. rewrite R1, R2, O2, !vw_vr, F2.
  replace (n - 0 - 1) with (n - 1) by lia. pose proof (vr_unwritten _ _ E1) as U.
  apply map_upd_ext.
  - intros [p its] Hx. eapply Forall_forall in U; [|exact Hx]. cbn [fst] in U. rewrite U. cbn [flat_map app]. do 2 f_equal; [apply map_ext; exact SH|apply map_ext; exact LK].
  - intros [p its] Hx. eapply Forall_forall in U; [|exact Hx]. cbn [fst] in U. rewrite U. cbn [flat_map app add_shown option_map sh_size sh_items sh_links]. rewrite map_app, map_app. cbn [map written_item show].
    do 2 f_equal; [f_equal; apply map_ext; exact SH|apply map_ext; exact LK].
Qed.
Print Assumptions C07_setpage_selects_partial.
(** A history meeting the hypotheses: two pages, the first taken up again, then a third. *)
Definition back_and_forth : list op :=
  [Do (AddFont (bs "serif") 0); AddPage None; Do (Draw true (bs "a")); AddPage (Some small); Do (SetXY 1 2); Do (Draw true (bs "b"));
   Do (SetPage 1); Do (Image (bs "a.png") pic); AddPage None; Do (Draw true (bs "c"))].
Example C07_met : tidy NoPage back_and_forth = true /\ getNumberOfPages (doc a4 back_and_forth) = 3 /\
  map (option_map sh_items) (read_pages (output (exec (doc a4 back_and_forth) [Do (SetPage 2); Do (Draw true (bs "x"))])))
  = [Some [Some (ShBytes (bs "a")); Some (ShImage (bs "PIC"))]; Some [Some (ShBytes (bs "b")); Some (ShBytes (bs "x"))]; Some [Some (ShBytes (bs "c"))]].
Proof. vm_compute. repeat split. Qed.
(** ** Refutations *)
(** After a blank page, SetPage 1 draws on page 2, and SetPage 2 fails though there are two pages. *)
Theorem C07_blank_page_refuted :
  exists c l b, getNumberOfPages (doc c l) = 2 /\ snd (step (doc c l) (Do (SetPage 1))) = Ok /\
    read_pages (output (exec (doc c l) [Do (SetPage 1); Do (Draw true b)])) <> upd (read_pages (output (doc c l))) 0 (add_shown (ShBytes b)) /\
    read_pages (output (exec (doc c l) [Do (SetPage 1); Do (Draw true b)])) = upd (read_pages (output (doc c l))) 1 (add_shown (ShBytes b)) /\
    snd (step (doc c l) (Do (SetPage 2))) = Err.
Proof.
  exists a4, [AddPage None; AddPage None; Do (Draw true (bs "a"))], (bs "x").
  split; [reflexivity|]. split; [reflexivity|]. split; [vm_compute; discriminate|]. split; [vm_compute; reflexivity|reflexivity].
Qed.
Print Assumptions C07_blank_page_refuted.
(** A line width (or any other setting that writes content) chosen before the first page shifts the numbering: SetPage 1
    then draws where no page shows it. *)
Theorem C07_drawing_before_pages_refuted :
  exists c l b, getNumberOfPages (doc c l) = 1 /\ snd (step (doc c l) (Do (SetPage 1))) = Ok /\
    read_pages (output (exec (doc c l) [Do (SetPage 1); Do (Draw true b)])) = read_pages (output (doc c l)).
Proof. exists a4, [Do (Draw false (bs "2 w")); AddPage None; Do (Draw true (bs "a"))], (bs "x"). split; [reflexivity|]. split; [reflexivity|]. vm_compute. reflexivity. Qed.
Print Assumptions C07_drawing_before_pages_refuted.
(** Links are not drawings: they go to the page added last, whatever SetPage selected. *)
Theorem C07_links_refuted :
  exists c l k, tidy NoPage l = true /\ getNumberOfPages (doc c l) = 2 /\ snd (step (doc c l) (Do (SetPage 1))) = Ok /\
    map (option_map (fun p => List.length (sh_links p))) (read_pages (output (exec (doc c l) [Do (SetPage 1); Do (AddLink k)]))) = [Some 0%nat; Some 1%nat].
Proof.
  exists a4, [AddPage None; Do (Draw true (bs "a")); AddPage None; Do (Draw true (bs "b"))], {| lk_x := 1; lk_y := 2; lk_w := 3; lk_h := 4; lk_url := bs "http://x"; lk_anchor := [] |}.
  split; [reflexivity|]. split; [reflexivity|]. split; [reflexivity|]. vm_compute. reflexivity.
Qed.
Print Assumptions C07_links_refuted.
(** A template used on a selected page is placed with the height of the page added last. *)
Theorem C07_page_height_refuted :
  exists c l name, tidy NoPage l = true /\ getNumberOfPages (doc c l) = 2 /\ snd (step (doc c l) (Do (SetPage 1))) = Ok /\
    sizes_from [] l = [None; Some small] /\
    exists i items, nth_error (g_objs (exec (doc c l) [Do (SetPage 1); Do (UseTemplate name 0)])) i = Some (OContent (items ++ [ITemplate name 0 (r_h small)])) /\
      vr (g_objs (exec (doc c l) [Do (SetPage 1); Do (UseTemplate name 0)])) = upd (vr (g_objs (doc c l))) 0 (fun '(p, its) => (p, its ++ [ITemplate name 0 (r_h small)])).
Proof.
  exists a4, [AddPage None; Do (Draw true (bs "a")); AddPage (Some small); Do (Draw true (bs "b"))], (bs "tpl").
  split; [reflexivity|]. split; [reflexivity|]. split; [reflexivity|]. split; [reflexivity|].
  exists 5%nat, [IBytes (bs "a")]. split; vm_compute; reflexivity.
Qed.
Print Assumptions C07_page_height_refuted.
