(** PropOnePage.v — in a document without an earlier output every page has at most one content object (used by C76). *)
From Verif Require Import Base DocModel DocSpec DocProofs DocInv PropDoc PropSetPage.

(** Contents since the last page; whether no page has more than one. *)
Definition tstep (a : bool * nat) (k : Z) : bool * nat := let '(ok, n) := a in if k =? 1 then (ok && Nat.eqb n 0, S n) else (ok, O).
Definition tally (l : list Z) : bool * nat := fold_left tstep l (true, O).
Definition Cap (s : gp) : Prop := exists n, tally (kinds (g_objs s)) = (true, n) /\ (g_content s = None -> n = O) /\ ~ In 2 (kinds (g_objs s)).
Definition Q (s s' : gp) : Prop :=
  (kinds (g_objs s') = kinds (g_objs s) /\ (g_content s' = None -> g_content s = None)) \/
  (g_content s = None /\ g_content s' <> None /\ kinds (g_objs s') = kinds (g_objs s) ++ [1]).
Lemma Q_refl s : Q s s. Proof. left. auto. Qed.
Lemma Q_trans a b c : Q a b -> Q b c -> Q a c.
Proof.
  intros [[A B]|(A & B & C)] [[D E]|(D & E & F)].
  - left. split; [congruence|auto].
  - right. split; [auto|]. split; [exact E|]. congruence.
  - right. split; [exact A|]. split; [intros X; auto|]. congruence.
  - contradiction.
Qed.
Lemma Q_Cap s s' : Q s s' -> Cap s -> Cap s'.
Proof.
  intros [[A B]|(A & B & C)] (n & T & N & I2).
  - exists n. rewrite A. auto.
  - exists 1%nat. rewrite C. unfold tally in *. rewrite fold_left_app, T, (N A). split; [reflexivity|]. split; [intros X; contradiction|]. rewrite in_app_iff. intros [X|[X|[]]]; [contradiction|discriminate].
Qed.
Lemma Q_R0 s s' : R0 s s' -> Q s s'.
Proof. intros (A & B & _). left. split; [exact A|congruence]. Qed.
Lemma Q_R1 s s' : g_content s <> None -> R1 s s' -> Q s s'.
Proof. intros N H. destruct (H N) as (A & B & _). left. split; [exact A|]. intros X. contradiction. Qed.
Lemma Q_getContent s : Q s (snd (getContent s)) /\ g_content (snd (getContent s)) <> None.
Proof.
  unfold getContent. destruct (g_content s) eqn:E; cbn [snd].
  - split; [apply Q_refl|congruence].
  - cbn [addObj snd fst]. split; [|discriminate]. right. split; [exact E|]. split; [discriminate|]. cbn [g_objs set_objs set_content]. now rewrite kinds_app.
Qed.
Lemma Q_draw np it s : Q s (fst (draw np it s)).
Proof.
  destruct (Q_getContent s) as [A _]. unfold draw. destruct (getContent s) as [i s1]. cbn [snd] in A.
  destruct (g_pagesize s1); [|destruct np]; cbn [fst]; try exact A; (eapply Q_trans; [exact A|apply Q_R0, R1_append]).
Qed.
Lemma Q_image b id im gs s : Q s (fst (imageByHolder b id im gs s)).
Proof.
  unfold imageByHolder. destruct (lookup _ _); [apply Q_draw|]. destruct (im_ok im); [|apply Q_refl].
  pose proof (R0_add (OImage im (if b then Split else Plain)) s eq_refl) as H0. destruct (addObj _ s) as [ix s0]. cbn [snd] in H0.
  match goal with |- context [draw true ?it s0] => pose proof (Q_draw true it s0) as H1; destruct (draw true it s0) as [s2 r] end. cbn [fst] in H1.
  assert (H2 : Q s s2) by (eapply Q_trans; [apply Q_R0, H0|exact H1]). destruct r; cbn [fst]; try exact H2. eapply Q_trans; [exact H2|]. apply Q_R0.
  set (s3 := set_imgs _ _). assert (H3 : R0 s2 s3) by (split; [reflexivity|split; reflexivity]). clearbody s3.
  eapply R0_trans; [exact H3|]. destruct (im_alpha im), (im_indexed im); cbn [addObj snd];
    (split; [cbn [g_objs set_objs set_smasks set_rgbs]; rewrite ?kinds_app; cbn; now rewrite ?app_nil_r|split; reflexivity]).
Qed.
Lemma Q_mask id im s : Q s (fst (fst (maskHolder id im s))).
Proof.
  unfold maskHolder. assert (H : Q s (fst (fst (maskImage id im s)))).
  { unfold maskImage. destruct (lookup _ _).
    - destruct (Q_getContent s) as [A _]. destruct (getContent s). exact A.
    - destruct (im_ok im); [|apply Q_refl]. pose proof (R0_add (OImage im AsMask) s eq_refl) as H0. destruct (addObj _ s) as [ix s0]. cbn [snd] in H0.
      eapply Q_trans; [apply Q_R0, H0|]. destruct (Q_getContent s0) as [A _]. destruct (getContent s0) as [ci s1]. cbn [snd] in A. destruct (g_pagesize s1); exact A. }
  destruct (maskImage id im s) as [[s1 r1] ix]. cbn [fst] in H. destruct r1; try exact H. destruct (g_pagesize s1); [|exact H].
  eapply Q_trans; [exact H|]. apply Q_R0.
  assert (H1 : R0 s1 (snd (addObj (OXGroup ix) s1))) by (now apply R0_add). destruct (addObj (OXGroup ix) s1) as [grp s1']. cbn [snd] in H1.
  assert (H2 : R0 s1 (snd (addObj (OMask grp) s1'))) by (eapply R0_trans; [exact H1|now apply R0_add]). destruct (addObj (OMask grp) s1') as [mi s2]. cbn [snd] in H2.
  match goal with |- context [getCachedExtGState ?e s2] => pose proof (R0_cached e s2) as H3; destruct (getCachedExtGState e s2) as [i s3] end.
  cbn [fst snd] in *. eapply R0_trans; eauto.
Qed.
Lemma Q_sop s o : Q s (fst (sstep s o)).
Proof.
  destruct (sets_up o) eqn:S; [now apply Q_R0, R0_setup|]. destruct o; try discriminate; cbn [sstep].
  - apply Q_draw.
  - apply Q_draw.
  - unfold text. destruct (g_font s); [apply Q_draw|apply Q_refl].
  - unfold setPage. destruct (find_content _ _ _ _); [|apply Q_refl]. left. split; [reflexivity|discriminate].
  - apply Q_image.
  - pose proof (Q_mask mid mim s) as H. destruct (maskHolder mid mim s) as [[s1 r1] e]. cbn [fst] in H. destruct r1; try exact H. eapply Q_trans; [exact H|apply Q_image].
  - unfold addLink. destruct (g_page s); [|apply Q_refl]. cbn [addObj fst]. apply Q_R0. split; [|split; reflexivity].
    cbn [g_objs set_objs]. rewrite kinds_upd by (now intros []). now apply kinds_snoc.
  - unfold importObjects. generalize (seq 0 (List.length objs)). intros ks. cbn [fst]. revert s. induction ks as [|k ks IH]; intros s; [apply Q_refl|]. cbn [fold_left].
    destruct (zlookup _ objs) as [[|b dt]|]; try apply IH. eapply Q_trans; [apply Q_R0, (R0_add (OImported (b :: dt))); reflexivity|apply IH].
  - unfold setColorSpace. destruct (find_cs _ _); [apply Q_draw|apply Q_refl].
Qed.
Lemma Q_run l : forall s, Q s (fst (run_sops s l)).
Proof.
  induction l as [|o l IH]; intros s; [apply Q_refl|]. cbn [run_sops]. pose proof (Q_sop s o) as A. destruct (sstep s o) as [s1 r]. cbn [fst] in *. pose proof (IH s1) as C.
  destruct r; cbn [fst]; try exact A; eapply Q_trans; eauto.
Qed.
Lemma Cap_op s o : o <> Output -> Cap s -> Cap (fst (step s o)).
Proof.
  intros P C. destruct o as [o|c|sz|f|f|]; cbn [step].
  - eapply Q_Cap; [now apply Q_sop|exact C].
  - cbn [fst]. exists O. split; [reflexivity|]. split; [reflexivity|]. intros [].
  - unfold addPage. cbn [addObj]. match goal with |- context [resetXY ?x] => set (s1 := resetXY x) end.
    assert (C1 : Cap s1).
    { destruct C as (n & T & _ & I2). exists O. unfold s1. cbn [resetXY g_objs set_x set_y set_content set_npages set_page set_objs set_pagesize].
      rewrite kinds_app. unfold tally in *. rewrite fold_left_app, T. split; [reflexivity|]. split; [reflexivity|]. rewrite in_app_iff. intros [X|[X|[]]]; [contradiction|discriminate]. }
    clearbody s1. clear C P s.
    assert (K : forall s f, Cap s -> Cap (fst (match f with None => (s, Ok) | Some f => match run_sops s f with (s, Panic) => (s, Panic) | (s, _) => (resetXY s, Ok) end end))).
    { intros s [f|] A; [|exact A]. pose proof (Q_Cap _ _ (Q_run f s) A) as X. destruct (run_sops s f) as [s' r]. cbn [fst] in *. destruct r; exact X. }
    pose proof (K s1 (g_header s1) C1) as X. destruct (match g_header s1 with None => (s1, Ok) | Some f => _ end) as [s2 r]. cbn [fst] in X. destruct r; try exact X; apply K; exact X.
  - exact C.
  - exact C.
  - destruct P; reflexivity.
Qed.
Lemma Cap_exec l : forall s, no_output l = true -> Cap s -> Cap (exec s l).
Proof.
  induction l as [|o l IH]; intros s P C; [exact C|]. assert (PO : o <> Output) by (intros ->; discriminate P). apply (IH (fst (step s o))); [now destruct o|]. now apply Cap_op.
Qed.
Lemma Cap_doc c l : no_output l = true -> Cap (doc c l).
Proof. intros P. apply Cap_exec; [exact P|]. exists O. split; [reflexivity|]. split; [reflexivity|]. intros []. Qed.

Lemma tally_false l : forall n, fst (fold_left tstep l (false, n)) = false.
Proof. induction l as [|k l IH]; intros n; [reflexivity|]. cbn [fold_left tstep]. destruct (k =? 1); apply IH. Qed.
Lemma tally_ok a n l : fst (fold_left tstep l (a, n)) = true -> a = true.
Proof. destruct a; [reflexivity|]. rewrite tally_false. discriminate. Qed.
Lemma seg_two l : forall n m, fst (fold_left tstep (kinds l) (true, S n)) = true -> contents_until_page l m = [] /\ items_until l = [].
Proof.
  induction l as [|o l IH]; intros n m H; [auto|]. cbn [contents_until_page].
  destruct (is_page o) eqn:P; [destruct o; try discriminate; auto|]. destruct (is_content o) eqn:C.
  - destruct o; try discriminate. cbn [kinds flat_map kd app fold_left tstep Z.eqb] in H. cbn in H. rewrite tally_false in H. discriminate.
  - assert (K : kinds (o :: l) = kinds l) by (destruct o; try discriminate; reflexivity). rewrite K in H.
    assert (E : items_until (o :: l) = items_until l) by (destruct o; try discriminate; reflexivity). rewrite E. cbn [app]. now apply (IH n).
Qed.
Lemma seg_one l : forall m, fst (fold_left tstep (kinds l) (true, O)) = true ->
  (contents_until_page l m = [] /\ items_until l = []) \/
  (exists j, contents_until_page l m = [Z.of_nat (m + j) + 1] /\ nth_error l j = Some (OContent (items_until l))).
Proof.
  induction l as [|o l IH]; intros m H; [now left|]. cbn [contents_until_page].
  destruct (is_page o) eqn:P; [destruct o; try discriminate; now left|]. destruct (is_content o) eqn:C.
  - destruct o; try discriminate. cbn [kinds flat_map kd app fold_left] in H. change (tstep (true, 0%nat) 1) with (true, 1%nat) in H.
    destruct (seg_two l 0 (S m) H) as [A B]. right. exists O. cbn [items_until nth_error]. rewrite A, B, !app_nil_r. split; [|reflexivity]. do 2 f_equal. lia.
  - assert (K : kinds (o :: l) = kinds l) by (destruct o; try discriminate; reflexivity). rewrite K in H.
    assert (E : items_until (o :: l) = items_until l) by (destruct o; try discriminate; reflexivity). rewrite E. cbn [app].
    destruct (IH (S m) H) as [A|(j & A & B)]; [now left|]. right. exists (S j). cbn [nth_error]. rewrite A, B. split; [|reflexivity]. do 2 f_equal. lia.
Qed.

Lemma in_vr l : forall p, In (OPage p) l -> exists its, In (p, its) (vr l).
Proof.
  induction l as [|o l IH]; intros p H; [destruct H|]. destruct H as [->|H]; [eexists; now left|]. destruct (IH p H) as (its & I). exists its. destruct o; cbn [vr]; auto. now right.
Qed.
(** In the written table a page has no content object or one. *)
Lemma output_contents c l : no_output l = true -> let t := output (doc c l) in
  forall k p, obj_no t k = Some (OPage p) -> pg_contents p = [] \/ exists n its, pg_contents p = [n] /\ obj_no t n = Some (OContent its).
Proof.
  intros P t k p O. destruct (Cap_doc c l P) as (n & T & _ & I2).
  assert (U : forall q, In (OPage q) (g_objs (doc c l)) -> pg_contents q = []).
  { intros q Hq. destruct (pg_contents q) as [|z zs] eqn:E; [reflexivity|]. destruct I2. unfold kinds. apply in_flat_map. exists (OPage q). split; [exact Hq|]. cbn [kd]. rewrite E. now left. }
  clear I2. set (s := doc c l) in *. set (ex := if cf_protect (g_cfg s) then [OEncryption] else []).
  assert (G : g_objs t = map written_obj (prep_objs (g_objs s ++ ex) 0)) by (unfold t, output; cbn [g_objs set_objs]; now rewrite (proj1 (prepare_eq s))).
  assert (T' : fst (tally (kinds (g_objs s ++ ex))) = true) by (rewrite kinds_app; replace (kinds ex) with (@nil Z) by (unfold ex; now destruct (cf_protect _)); now rewrite app_nil_r, T).
  assert (U' : forall q, In (OPage q) (g_objs s ++ ex) -> pg_contents q = []).
  { intros q Hq. apply in_app_iff in Hq as [Hq|Hq]; [auto|]. unfold ex in Hq. destruct (cf_protect _); [destruct Hq as [Hq|[]]; discriminate|destruct Hq]. }
  clear T U. generalize dependent (g_objs s ++ ex). intros L G T U.
  assert (GN : forall j, obj_no t (Z.of_nat j + 1) = option_map written_obj (option_map (more_contents (contents_until_page (skipn (S j) L) (S j))) (nth_error L j))).
  { intros j. rewrite obj_no_of_nat, G, nth_error_map, nth_prep. reflexivity. }
  assert (Kk : 1 <= k) by (unfold obj_no in O; destruct (Z.leb_spec k 0); [discriminate|lia]).
  replace k with (Z.of_nat (Z.to_nat (k - 1)) + 1) in O by lia. set (i := Z.to_nat (k - 1)) in *. rewrite GN in O.
  destruct (nth_error L i) as [o|] eqn:N; [|discriminate]. cbn [option_map] in O. injection O as O.
  destruct o as [| | | |q| | | | | | | | | | | | | | | | |]; try discriminate O. cbn [more_contents written_obj] in O. injection O as <-. cbn [pg_contents].
  rewrite (U q) by (eapply nth_error_In; eauto). cbn [app].
  apply nth_error_split in N as (l1 & l2 & E & Len).
  assert (SK : skipn (S i) L = l2) by (rewrite E, skipn_app, skipn_all2 by lia; replace (S i - List.length l1)%nat with 1%nat by lia; reflexivity).
  change (contents_until_page (match L with [] => [] | _ :: l => skipn i l end) (S i)) with (contents_until_page (skipn (S i) L) (S i)). rewrite SK.
  rewrite E, kinds_app in T. unfold tally in T. rewrite fold_left_app in T. change (kinds (OPage q :: l2)) with (kd (OPage q) ++ kinds l2) in T.
  destruct (fold_left tstep (kinds l1) (true, 0%nat)) as [a m]. rewrite fold_left_app in T.
  assert (T2 : fst (fold_left tstep (kinds l2) (true, 0%nat)) = true).
  { assert (X : fold_left tstep (kd (OPage q)) (a, m) = (a, 0%nat)) by (cbn [kd]; destruct (pg_contents q); reflexivity). rewrite X in T. now rewrite (tally_ok _ _ _ T) in T. }
  destruct (seg_one l2 (S i) T2) as [[A _]|(j & A & B)]; [left; exact A|]. right. exists (Z.of_nat (S i + j) + 1). eexists. split; [exact A|].
  rewrite GN. assert (NN : nth_error L (S i + j) = Some (OContent (items_until l2))).
  { rewrite E, nth_error_app2 by lia. replace (S i + j - List.length l1)%nat with (S j) by lia. exact B. }
  rewrite NN. reflexivity.
Qed.
Lemma plain_no_output l : forallb plain_op l = true -> no_output l = true.
Proof. induction l as [|o l IH]; [reflexivity|]. cbn [forallb]. intros H. apply andb_true_iff in H as [A B]. destruct o; try discriminate A; cbn; auto. Qed.
(** The pages of the written table in the order of the tree, with the drawings of their content. *)
Lemma output_page_table c l : forallb plain_op l = true -> let t := output (doc c l) in
  Forall2 (fun k ap => exists p, obj_no t k = Some (OPage p) /\ pg_size p = ap_size ap /\
     ((pg_contents p = [] /\ ap_items ap = []) \/ exists n its, pg_contents p = [n] /\ obj_no t n = Some (OContent its) /\ map (show t) its = map Some (ap_items ap)))
   (g_kids t) (a_pages (adoc_of c l)).
Proof.
  intros P t. pose proof (C06_pages_show_what_was_drawn c l P) as R. fold t in R. pose proof (output_contents c l (plain_no_output l P)) as OC. cbv zeta in OC. fold t in OC. clearbody t. unfold read_pages in R.
  generalize dependent (a_pages (adoc_of c l)). generalize dependent (g_kids t). induction l0 as [|k ks IH]; intros [|ap aps] R; cbn [map] in R; try discriminate; constructor.
  - injection R as R _. unfold read_page, as_shown in R. destruct (obj_no t k) as [o|] eqn:O; [|discriminate]. destruct o; try discriminate. injection R as R1 R2 R3.
    exists p. split; [reflexivity|]. split; [exact R1|]. destruct (OC _ _ O) as [E|(n & its & E & N)].
    + left. split; [exact E|]. rewrite E in R2. cbn in R2. destruct (ap_items ap); [reflexivity|discriminate].
    + right. exists n, its. split; [exact E|]. split; [exact N|]. rewrite E in R2. cbn [flat_map] in R2. unfold content_no in R2. rewrite N, app_nil_r in R2. exact R2.
  - injection R as _ R. now apply IH.
Qed.
