(** PropHolder.v — C66: a picture drawn from bytes, a reader or a file shows those bytes, over programs with several
    documents, holders used many times, and files. *)
From Verif Require Import Base Crypto DocModel DocSpec DocProofs DocInv PropDoc PropImage HolderModel.

(** ** Specification *)
(** What a caller hands over: bytes (a slice, or all a reader gives), or the file found at a path at that moment. *)
Inductive source := Bytes (b : bytes) | File (p b : bytes).
Definition content (x : source) : bytes := match x with Bytes b => b | File _ b => b end.
Definition source_of (files : bytes -> option bytes) (o : wop) : option source :=
  match o with
  | HolderByBytes b => Some (Bytes b)
  | HolderByReader c true | ImageFrom _ c true => Some (Bytes (List.concat c))
  | HolderByPath p | ImageFile _ p => match files p with Some b => Some (File p b) | None => None end
  | _ => None
  end.
Definition files_then (files : bytes -> option bytes) (o : wop) : bytes -> option bytes :=
  match o with SetFile p b => fun q => if list_eqb q p then b else files q | _ => files end.
Definition files_after files prog := fold_left files_then prog files.
Definition opt_list {A} (x : option A) : list A := match x with Some a => [a] | None => [] end.
(** All the sources handed over by a program, in order; those of holders only. *)
Fixpoint given (files : bytes -> option bytes) (prog : list wop) : list source :=
  match prog with [] => [] | o :: r => opt_list (source_of files o) ++ given (files_then files o) r end.
Definition makes_holder (o : wop) : bool := match o with HolderByBytes _ | HolderByReader _ _ | HolderByPath _ => true | _ => false end.
Fixpoint holders_given (files : bytes -> option bytes) (prog : list wop) : list source :=
  match prog with [] => [] | o :: r => (if makes_holder o then opt_list (source_of files o) else []) ++ holders_given (files_then files o) r end.
(** The document a call draws in, and the source it draws. *)
Definition target (o : wop) : option nat := match o with ImageByHolder d _ | ImageFile d _ | ImageFrom d _ _ => Some d | _ => None end.
Definition draws (files : bytes -> option bytes) (prog : list wop) (o : wop) : option source :=
  match o with
  | ImageByHolder _ h => nth_error (holders_given files prog) h
  | ImageFile _ _ | ImageFrom _ _ _ => source_of (files_after files prog) o
  | _ => None
  end.
(** Nothing is confused with something else: no MD5 collision among the bytes handed over, every path names one content
    throughout, no path is spelt like the digest of other bytes. *)
Record no_clash (l : list source) : Prop := {
  nc_md5 : forall b b', In (Bytes b) l -> In (Bytes b') l -> md5 b = md5 b' -> b = b';
  nc_file : forall p b b', In (File p b) l -> In (File p b') l -> b = b';
  nc_name : forall p b b', In (File p b) l -> In (Bytes b') l -> p <> hex_low (md5 b') }.
(** The other calls on documents: none that draws an image or restarts a document (images come through [wop]). *)
Definition imageless (o : sop) : bool := match o with Image _ _ | ImageMasked _ _ _ _ => false | _ => true end.
Definition other_call (o : wop) : bool :=
  match o with
  | InDoc _ (Do o) => imageless o
  | InDoc _ (Start _) => false
  | InDoc _ (AddHeader (Some l)) | InDoc _ (AddFooter (Some l)) => forallb imageless l
  | _ => true
  end.

(** ** Identifiers *)
Definition id_of (x : source) : bytes := match x with Bytes b => hex_low (md5 b) | File p _ => p end.
Lemma md5_range b : Forall (fun x => 0 <= x < 256) (md5 b).
Proof.
  unfold md5. destruct (md5_blocks _ _ _) as [[[a b'] c] d].
  assert (L : forall n v, Forall (fun x => 0 <= x < 256) (le_bytes n v)).
  { intros n v. unfold le_bytes. apply Forall_forall. intros x H. apply in_map_iff in H as (k & <- & _). apply Z.mod_pos_bound. lia. }
  repeat (apply Forall_app; split); apply L.
Qed.
Lemma lowdigit_inj a b : 0 <= a < 16 -> 0 <= b < 16 -> lowdigit a = lowdigit b -> a = b.
Proof. unfold lowdigit. intros A B. destruct (a <? 10) eqn:E1, (b <? 10) eqn:E2; lia. Qed.
Lemma hex_low_inj a : forall b, Forall (fun x => 0 <= x < 256) a -> Forall (fun x => 0 <= x < 256) b -> hex_low a = hex_low b -> a = b.
Proof.
  induction a as [|x a IH]; intros [|y b] A B E; try reflexivity; try discriminate. inversion A; subst. inversion B; subst.
  unfold hex_low in E. cbn [flat_map app] in E. change (flat_map (fun x => [lowdigit (x / 16); lowdigit (x mod 16)]) a) with (hex_low a) in E.
  change (flat_map (fun x => [lowdigit (x / 16); lowdigit (x mod 16)]) b) with (hex_low b) in E.
  assert (E1 : lowdigit (x / 16) = lowdigit (y / 16)) by congruence. assert (E2 : lowdigit (x mod 16) = lowdigit (y mod 16)) by congruence. assert (E3 : hex_low a = hex_low b) by congruence.
  apply lowdigit_inj in E1; [|split; [apply Z.div_pos; lia|apply Z.div_lt_upper_bound; lia]..].
  apply lowdigit_inj in E2; [|apply Z.mod_pos_bound; lia..].
  f_equal; [|now apply IH]. rewrite (Z.div_mod x 16), (Z.div_mod y 16) by lia. congruence.
Qed.
Lemma id_faithful l x y : no_clash l -> In x l -> In y l -> id_of x = id_of y -> content x = content y.
Proof.
  intros [C1 C2 C3] Hx Hy E. destruct x as [b|p b], y as [b'|p' b']; cbn [id_of content] in *.
  - apply C1; try assumption. apply hex_low_inj; [apply md5_range..|exact E].
  - exfalso. now apply (C3 p' b' b Hy Hx).
  - exfalso. now apply (C3 p b b' Hx Hy).
  - subst. now apply (C2 p').
Qed.

(** ** The documents of a world are histories of DocModel *)
Section Run.
Variable decode : bytes -> imgdesc.
Variable all : list source.
Hypothesis empty_bad : im_ok (decode []) = false.
Hypothesis clear : no_clash all.
Definition src (id : bytes) : imgdesc := match find (fun x => list_eqb (id_of x) id) all with Some x => decode (content x) | None => decode [] end.
Definition role (id : bytes) : imguse := Plain.
Lemma src_of x : In x all -> src (id_of x) = decode (content x).
Proof using clear.
  intros H. unfold src. destruct (find _ all) as [y|] eqn:E.
  - apply find_some in E as [E1 E2]. apply list_eqb_eq in E2. f_equal. now apply (id_faithful all).
  - pose proof (find_none _ _ E x H) as N. cbn in N. assert (Q : list_eqb (id_of x) (id_of x) = true) by (now apply list_eqb_eq). congruence.
Qed.
Definition good (l : list op) : Prop := Forall (source_op src role) l /\ forallb no_start l = true.
Lemma good_nil : good []. Proof. split; [constructor|reflexivity]. Qed.
Lemma good_one o : source_op src role o -> no_start o = true -> good [o].
Proof. intros A B. split; [constructor; [exact A|constructor]|cbn; now rewrite B]. Qed.
Lemma good_app a b : good a -> good b -> good (a ++ b).
Proof. intros [A1 A2] [B1 B2]. split; [now apply Forall_app|rewrite forallb_app; now rewrite A2, B2]. Qed.
Lemma exec_app s a b : exec s (a ++ b) = exec (exec s a) b.
Proof. unfold exec. apply fold_left_app. Qed.

Definition held (x : source) (h : holder) : Prop := In x all /\ h_id h = id_of x /\ (h_rest h = content x \/ h_rest h = []).
Definition call (x : source) : op := Do (Image (id_of x) (src (id_of x))).
Lemma call_good x : good [call x].
Proof. apply good_one; [split; reflexivity|reflexivity]. Qed.
Lemma drawHolder_as x h s s' h' r : held x h -> drawHolder decode h s = (s', h', r) ->
  (exists l, good l /\ s' = exec s l) /\ (r = Ok -> step s (call x) = (s', Ok)) /\ held x h'.
Proof using clear empty_bad.
  intros (Hx & Hid & Hr) D. unfold drawHolder in D. rewrite Hid in D. destruct (lookup (id_of x) (g_imgs s)) as [i|] eqn:L.
  - assert (E : step s (Do (Image (id_of x) (decode []))) = step s (call x)) by (cbn [step sstep call]; unfold imageByHolder; rewrite L; reflexivity).
    rewrite E in D. destruct (step s (call x)) as [s1 r1] eqn:S. assert (Q : s1 = s' /\ h = h' /\ r1 = r) by (split; [|split]; congruence). destruct Q as (<- & <- & <-).
    split; [exists [call x]; split; [apply call_good|cbn [exec fold_left]; now rewrite S]|]. split; [intros ->; reflexivity|]. split; [exact Hx|split; assumption].
  - assert (Hh : held x h').
    { destruct (step s _) as [s1 r1]. assert (Q : {| h_id := id_of x; h_rest := [] |} = h') by congruence. rewrite <- Q. split; [exact Hx|]. split; [reflexivity|now right]. }
    destruct Hr as [Hr|Hr].
    + rewrite Hr, <- (src_of x Hx) in D. change (Do (Image (id_of x) (src (id_of x)))) with (call x) in D. destruct (step s (call x)) as [s1 r1] eqn:S.
      assert (Q : s1 = s' /\ r1 = r) by (split; congruence). destruct Q as (<- & <-).
      split; [exists [call x]; split; [apply call_good|cbn [exec fold_left]; now rewrite S]|]. split; [intros ->; reflexivity|exact Hh].
    + rewrite Hr in D. assert (E : step s (Do (Image (id_of x) (decode []))) = (s, Err)) by (cbn [step sstep]; unfold imageByHolder; rewrite L, empty_bad; reflexivity).
      rewrite E in D. assert (Q : s = s' /\ Err = r) by (split; congruence). destruct Q as (<- & <-).
      split; [exists []; split; [apply good_nil|reflexivity]|]. split; [discriminate|exact Hh].
Qed.

(** Invariant of a run. *)
Record inv (files : bytes -> option bytes) (prog : list wop) (w : world) : Prop := {
  iv_files : w_files w = files_after files prog;
  iv_holders : Forall2 held (holders_given files prog) (w_holders w);
  iv_docs : forall d s, nth_error (w_docs w) d = Some s -> exists c l, good l /\ s = doc c l }.
(** What one call does to a document. *)
Definition grows (w w' : world) : Prop := forall d s, nth_error (w_docs w) d = Some s -> exists l, good l /\ nth_error (w_docs w') d = Some (exec s l).
Lemma grows_refl w : grows w w.
Proof. intros d s H. exists []. split; [apply good_nil|exact H]. Qed.
Lemma grows_same w w' : w_docs w' = w_docs w -> grows w w'.
Proof. intros E d s H. exists []. rewrite E. split; [apply good_nil|exact H]. Qed.
Lemma grows_set w f hs d s' : (forall s, nth_error (w_docs w) d = Some s -> exists l, good l /\ s' = exec s l) ->
  grows w {| w_files := f; w_holders := hs; w_docs := set_nth (w_docs w) d s' |}.
Proof.
  intros H d' s N. cbn [w_docs]. unfold set_nth. rewrite nth_upd. destruct (Nat.eqb d d') eqn:E.
  - apply Nat.eqb_eq in E. subst d'. destruct (H s N) as (l & G & ->). exists l. split; [exact G|]. now rewrite N.
  - exists []. split; [apply good_nil|exact N].
Qed.
Lemma files_after_snoc files prog o : files_after files (prog ++ [o]) = files_then (files_after files prog) o.
Proof. unfold files_after. now rewrite fold_left_app. Qed.
Lemma holders_snoc prog : forall files o, holders_given files (prog ++ [o]) = holders_given files prog ++ (if makes_holder o then opt_list (source_of (files_after files prog) o) else []).
Proof. induction prog as [|a prog IH]; intros files o; cbn [app holders_given]; [now rewrite app_nil_r|]. rewrite IH, <- app_assoc. reflexivity. Qed.
Lemma given_snoc prog : forall files o, given files (prog ++ [o]) = given files prog ++ opt_list (source_of (files_after files prog) o).
Proof. induction prog as [|a prog IH]; intros files o; cbn [app given]; [now rewrite app_nil_r|]. rewrite IH, <- app_assoc. reflexivity. Qed.
Lemma given_app a : forall files b, given files (a ++ b) = given files a ++ given (files_after files a) b.
Proof. induction a as [|o a IH]; intros files b; [reflexivity|]. cbn [app given]. rewrite IH, <- app_assoc. reflexivity. Qed.
Lemma imageless_source o : imageless o = true -> source_sop src role o.
Proof. destruct o; cbn; try easy. Qed.
Lemma imageless_sources l : forallb imageless l = true -> Forall (source_sop src role) l.
Proof. intros H. apply Forall_forall. intros o I. apply imageless_source. now apply (proj1 (forallb_forall imageless l) H). Qed.
Lemma indoc_good d o : other_call (InDoc d o) = true -> good [o].
Proof.
  intros H. destruct o as [o|c|z|f|f|]; cbn [other_call] in H; try discriminate; apply good_one; try reflexivity; cbn [source_op]; try exact I.
  - now apply imageless_source.
  - destruct f; [now apply imageless_sources|exact I].
  - destruct f; [now apply imageless_sources|exact I].
Qed.
(** A source handed over in this call gives this holder. *)
Lemma made files o x : In x all -> source_of files o = Some x ->
  match o with
  | HolderByBytes b => held x (newImageBuff b)
  | HolderByReader c e | ImageFrom _ c e => exists h, newImageBuffByReader c e = Some h /\ held x h
  | HolderByPath p | ImageFile _ p => exists h, newImageBuffByPath files p = Some h /\ held x h
  | _ => False
  end.
Proof.
  intros Hx S. destruct o; cbn [source_of] in S; try discriminate.
  - injection S as <-. split; [exact Hx|]. split; [reflexivity|now left].
  - destruct eof; [|discriminate]. injection S as <-. eexists. split; [reflexivity|]. split; [exact Hx|]. split; [reflexivity|now left].
  - unfold newImageBuffByPath. destruct (files p); [|discriminate]. injection S as <-. eexists. split; [reflexivity|]. split; [exact Hx|]. split; [reflexivity|now left].
  - unfold newImageBuffByPath. destruct (files p); [|discriminate]. injection S as <-. eexists. split; [reflexivity|]. split; [exact Hx|]. split; [reflexivity|now left].
  - destruct eof; [|discriminate]. injection S as <-. eexists. split; [reflexivity|]. split; [exact Hx|]. split; [reflexivity|now left].
Qed.
Lemma Forall2_nth {A B} (R : A -> B -> Prop) a : forall b i x, Forall2 R a b -> nth_error a i = Some x -> exists y, nth_error b i = Some y /\ R x y.
Proof. induction a as [|u a IH]; intros b i x F N; [now destruct i|]. inversion F; subst. destruct i as [|i]; cbn in *; [injection N as <-; eauto|eauto]. Qed.
Lemma Forall2_nth' {A B} (R : A -> B -> Prop) a : forall b i y, Forall2 R a b -> nth_error b i = Some y -> exists x, nth_error a i = Some x /\ R x y.
Proof. induction a as [|u a IH]; intros b i x F N; inversion F; subst; [now destruct i|]. destruct i as [|i]; cbn in *; [injection N as <-; eauto|eauto]. Qed.
Lemma Forall2_upd {A B} (R : A -> B -> Prop) a : forall b i y, Forall2 R a b -> (forall x, nth_error a i = Some x -> R x y) -> Forall2 R a (set_nth b i y).
Proof.
  induction a as [|u a IH]; intros b i y F H; inversion F; subst; [destruct i; constructor|]. destruct i as [|i]; unfold set_nth; cbn [upd].
  - constructor; [now apply H|assumption].
  - constructor; [assumption|]. now apply IH.
Qed.
Lemma docs_grow w w' : grows w w' -> List.length (w_docs w') = List.length (w_docs w) ->
  (forall d s, nth_error (w_docs w) d = Some s -> exists c l, good l /\ s = doc c l) ->
  forall d s, nth_error (w_docs w') d = Some s -> exists c l, good l /\ s = doc c l.
Proof.
  intros G L H d s N. destruct (nth_error (w_docs w) d) as [s0|] eqn:E.
  - destruct (H d s0 E) as (c & l & Gl & ->). destruct (G d _ E) as (l' & Gl' & N'). exists c, (l ++ l'). split; [now apply good_app|]. unfold doc in *. rewrite exec_app. congruence.
  - apply nth_error_None in E. rewrite <- L in E. apply nth_error_None in E. congruence.
Qed.
Lemma upd_length {A} (l : list A) : forall i f, List.length (DocModel.upd l i f) = List.length l.
Proof. induction l as [|x l IH]; intros [|i] f; cbn; auto. Qed.
Lemma wstep_inv files prog w o : inv files prog w -> incl (opt_list (source_of (files_after files prog) o)) all -> other_call o = true ->
  inv files (prog ++ [o]) (fst (wstep decode w o)) /\ grows w (fst (wstep decode w o)) /\
  (snd (wstep decode w o) = Ok -> forall d x, target o = Some d -> draws files prog o = Some x ->
     exists s, nth_error (w_docs w) d = Some s /\ snd (step s (call x)) = Ok /\ nth_error (w_docs (fst (wstep decode w o))) d = Some (fst (step s (call x)))).
Proof using clear empty_bad.
  intros [IF IH ID] HI OC.
  assert (FD : forall d ho x, source_of (files_after files prog) o = Some x -> (exists h, ho = Some h /\ held x h) ->
    let w' := fst (draw_fresh decode w d ho) in w_files w' = w_files w /\ w_holders w' = w_holders w /\ List.length (w_docs w') = List.length (w_docs w) /\ grows w w' /\
    (snd (draw_fresh decode w d ho) = Ok -> exists s, nth_error (w_docs w) d = Some s /\ snd (step s (call x)) = Ok /\ nth_error (w_docs w') d = Some (fst (step s (call x))))).
  { intros d ho x S (h & -> & Hh). unfold draw_fresh. cbv zeta. destruct (nth_error (w_docs w) d) as [s|] eqn:N;
      [|cbn [fst snd]; split; [reflexivity|]; split; [reflexivity|]; split; [reflexivity|]; split; [apply grows_refl|discriminate]].
    destruct (drawHolder decode h s) as [[s' h'] r] eqn:D. destruct (drawHolder_as x h s s' h' r Hh D) as (A & B & C). cbn [fst snd w_files w_holders w_docs].
    split; [reflexivity|]. split; [reflexivity|]. split; [apply upd_length|]. split.
    - apply grows_set. intros s0 N0. rewrite N in N0. injection N0 as <-. exact A.
    - intros ->. exists s. split; [reflexivity|]. specialize (B eq_refl). rewrite B. cbn [fst snd]. split; [reflexivity|]. unfold set_nth. rewrite nth_upd, Nat.eqb_refl, N. reflexivity. }
  assert (NF : forall d, draw_fresh decode w d None = (w, Err)) by reflexivity.
  assert (Sx : forall x, source_of (files_after files prog) o = Some x -> In x all) by (intros x S; apply HI; rewrite S; now left).
  assert (Same : w_files w = files_after files prog -> forall w', w_files w' = w_files w -> w_holders w' = w_holders w -> makes_holder o = false -> files_then (files_after files prog) o = files_after files prog ->
     List.length (w_docs w') = List.length (w_docs w) -> grows w w' -> inv files (prog ++ [o]) w').
  { intros _ w' E1 E2 M Fo Ln G. constructor; [rewrite files_after_snoc, Fo; congruence|rewrite holders_snoc, M, app_nil_r, E2; exact IH|now apply (docs_grow w)]. }
  destruct o as [p b|b|ch e|p|c|d h|d p|d ch e|d o].
  - cbn [wstep fst snd]. split; [|split; [now apply grows_same|discriminate]]. constructor; cbn [w_files w_holders w_docs].
    + rewrite files_after_snoc, IF. reflexivity.
    + rewrite holders_snoc. cbn [makes_holder]. rewrite app_nil_r. exact IH.
    + exact ID.
  - cbn [wstep add_holder fst snd]. split; [|split; [now apply grows_same|discriminate]]. constructor; cbn [w_files w_holders w_docs].
    + rewrite files_after_snoc, IF. reflexivity.
    + rewrite holders_snoc. cbn [makes_holder]. apply Forall2_app; [exact IH|]. cbn [source_of opt_list]. constructor; [|constructor]. pose proof (made _ _ _ (Sx _ eq_refl) (eq_refl : source_of (files_after files prog) (HolderByBytes b) = _)) as M. exact M.
    + exact ID.
  - cbn [wstep]. destruct (source_of (files_after files prog) (HolderByReader ch e)) as [x|] eqn:S.
    + destruct (made _ _ _ (Sx _ eq_refl) S) as (h & E & Hh). rewrite E. cbn [add_holder fst snd]. split; [|split; [now apply grows_same|discriminate]]. constructor; cbn [w_files w_holders w_docs].
      * rewrite files_after_snoc, IF. reflexivity.
      * rewrite holders_snoc. cbn [makes_holder]. apply Forall2_app; [exact IH|]. rewrite S. constructor; [exact Hh|constructor].
      * exact ID.
    + destruct e; [discriminate|]. cbn [newImageBuffByReader readAll add_holder fst snd]. split; [|split; [apply grows_refl|discriminate]]. constructor; [rewrite files_after_snoc, IF; reflexivity| |exact ID].
      rewrite holders_snoc. cbn [makes_holder source_of opt_list]. rewrite app_nil_r. exact IH.
  - cbn [wstep]. rewrite IF. destruct (source_of (files_after files prog) (HolderByPath p)) as [x|] eqn:S.
    + destruct (made _ _ _ (Sx _ eq_refl) S) as (h & E & Hh). rewrite E. cbn [add_holder fst snd]. split; [|split; [now apply grows_same|discriminate]]. constructor; cbn [w_files w_holders w_docs].
      * rewrite files_after_snoc, IF. reflexivity.
      * rewrite holders_snoc. cbn [makes_holder]. apply Forall2_app; [exact IH|]. rewrite S. constructor; [exact Hh|constructor].
      * exact ID.
    + cbn [source_of] in S. unfold newImageBuffByPath. destruct (files_after files prog p) eqn:Ef; [discriminate|]. cbn [add_holder fst snd]. split; [|split; [apply grows_refl|discriminate]]. constructor; [rewrite files_after_snoc, IF; reflexivity| |exact ID].
      rewrite holders_snoc. cbn [makes_holder source_of]. rewrite Ef. cbn [opt_list]. rewrite app_nil_r. exact IH.
  - cbn [wstep fst snd]. assert (G : grows w {| w_files := w_files w; w_holders := w_holders w; w_docs := w_docs w ++ [start c zero_gp] |}).
    { intros d s N. exists []. split; [apply good_nil|]. cbn [w_docs exec fold_left]. rewrite nth_error_app1; [exact N|apply nth_error_Some; congruence]. }
    split; [|split; [exact G|discriminate]]. constructor; cbn [w_files w_holders w_docs].
    + rewrite files_after_snoc, IF. reflexivity.
    + rewrite holders_snoc. cbn [makes_holder]. rewrite app_nil_r. exact IH.
    + intros d s N. destruct (Nat.lt_ge_cases d (List.length (w_docs w))) as [Lt|Ge]; [rewrite nth_error_app1 in N by exact Lt; now apply (ID d)|].
      rewrite nth_error_app2 in N by exact Ge. destruct (d - List.length (w_docs w))%nat as [|k]; [|now destruct k]. cbn in N. injection N as <-. exists c, []. split; [apply good_nil|reflexivity].
  - cbn [wstep]. destruct (nth_error (w_docs w) d) as [s|] eqn:N; [|cbn [fst snd]; split; [apply Same; auto using grows_refl|split; [apply grows_refl|discriminate]]].
    destruct (nth_error (w_holders w) h) as [hd|] eqn:Nh; [|cbn [fst snd]; split; [apply Same; auto using grows_refl|split; [apply grows_refl|discriminate]]].
    destruct (Forall2_nth' _ _ _ _ _ IH Nh) as (x & Nx & Hx). destruct (drawHolder decode hd s) as [[s' hd'] r] eqn:D. destruct (drawHolder_as x hd s s' hd' r Hx D) as (A & B & C). cbn [fst snd].
    assert (G : grows w {| w_files := w_files w; w_holders := set_nth (w_holders w) h hd'; w_docs := set_nth (w_docs w) d s' |}) by (apply grows_set; intros s0 N0; rewrite N in N0; injection N0 as <-; exact A).
    split; [|split; [exact G|]].
    + constructor; cbn [w_files w_holders].
      * rewrite files_after_snoc, IF. reflexivity.
      * rewrite holders_snoc. cbn [makes_holder]. rewrite app_nil_r. apply Forall2_upd; [exact IH|]. intros x' Nx'. rewrite Nx in Nx'. injection Nx' as <-. exact C.
      * eapply docs_grow; [exact G|apply upd_length|exact ID].
    + intros -> d' x' T Dr. cbn [target draws] in T, Dr. injection T as <-. rewrite Nx in Dr. injection Dr as <-. exists s. split; [exact N|]. specialize (B eq_refl). rewrite B. cbn [fst snd].
      split; [reflexivity|]. cbn [w_docs]. unfold set_nth. rewrite nth_upd, Nat.eqb_refl, N. reflexivity.
  - cbn [wstep]. rewrite IF. destruct (source_of (files_after files prog) (ImageFile d p)) as [x|] eqn:S.
    + destruct (FD d (newImageBuffByPath (files_after files prog) p) x eq_refl (made _ _ _ (Sx _ eq_refl) S)) as (E1 & E2 & E3 & E4 & E5). split; [now apply Same|]. split; [exact E4|].
      intros R d' x' T Dr. cbn [target] in T. injection T as <-. unfold draws in Dr. rewrite S in Dr. injection Dr as <-. now apply E5.
    + cbn [source_of] in S. unfold newImageBuffByPath. destruct (files_after files prog p) eqn:Ef; [discriminate|]. rewrite NF. cbn [fst snd]. split; [apply Same; auto using grows_refl|split; [apply grows_refl|discriminate]].
  - cbn [wstep]. destruct (source_of (files_after files prog) (ImageFrom d ch e)) as [x|] eqn:S.
    + destruct (FD d (newImageBuffByReader ch e) x eq_refl (made _ _ _ (Sx _ eq_refl) S)) as (E1 & E2 & E3 & E4 & E5). split; [now apply Same|]. split; [exact E4|].
      intros R d' x' T Dr. cbn [target] in T. injection T as <-. unfold draws in Dr. rewrite S in Dr. injection Dr as <-. now apply E5.
    + destruct e; [discriminate|]. cbn [newImageBuffByReader readAll]. rewrite NF. cbn [fst snd]. split; [apply Same; auto using grows_refl|split; [apply grows_refl|discriminate]].
  - cbn [wstep]. destruct (nth_error (w_docs w) d) as [s|] eqn:N; [|cbn [fst snd]; split; [apply Same; auto using grows_refl|split; [apply grows_refl|discriminate]]].
    pose proof (indoc_good d o OC) as Go. assert (X : fst (step s o) = exec s [o]) by reflexivity. destruct (step s o) as [s' r]. cbn [fst snd] in *.
    assert (G : grows w {| w_files := w_files w; w_holders := w_holders w; w_docs := set_nth (w_docs w) d s' |}) by (apply grows_set; intros s0 N0; rewrite N in N0; injection N0 as <-; now exists [o]).
    split; [|split; [exact G|discriminate]]. apply Same; try reflexivity; [exact IF|apply upd_length|exact G].
Qed.
Lemma wrun_snoc w l o : wrun decode w (l ++ [o]) = fst (wstep decode (wrun decode w l) o).
Proof. unfold wrun. now rewrite fold_left_app. Qed.
Lemma wrun_inv files prog : incl (given files prog) all -> forallb other_call prog = true -> inv files prog (wrun decode (wstart files) prog).
Proof using clear empty_bad.
  induction prog as [|o prog IH] using rev_ind; intros HI OC.
  - constructor; [reflexivity|constructor|intros [|d] s N; discriminate N].
  - rewrite forallb_app in OC. apply andb_true_iff in OC as [O1 O2]. cbn [forallb] in O2. rewrite andb_true_r in O2. rewrite given_snoc in HI. rewrite wrun_snoc.
    apply wstep_inv; [apply IH; [eapply incl_tran; [apply incl_appl, incl_refl|exact HI]|exact O1]|eapply incl_tran; [apply incl_appr, incl_refl|exact HI]|exact O2].
Qed.
Lemma grows_trans a b c : grows a b -> grows b c -> grows a c.
Proof. intros G H d s N. destruct (G d s N) as (l & Gl & N1). destruct (H d _ N1) as (l' & Gl' & N2). exists (l ++ l'). split; [now apply good_app|]. now rewrite exec_app. Qed.
Lemma wrun_grows files prog post : incl (given files (prog ++ post)) all -> forallb other_call (prog ++ post) = true ->
  grows (wrun decode (wstart files) prog) (wrun decode (wstart files) (prog ++ post)).
Proof using clear empty_bad.
  induction post as [|o post IH] using rev_ind; intros HI OC; [rewrite app_nil_r; apply grows_refl|].
  rewrite app_assoc in *. rewrite forallb_app in OC. apply andb_true_iff in OC as [O1 O2]. cbn [forallb] in O2. rewrite andb_true_r in O2. rewrite given_snoc in HI. rewrite wrun_snoc.
  assert (H1 : incl (given files (prog ++ post)) all) by (eapply incl_tran; [apply incl_appl, incl_refl|exact HI]).
  eapply grows_trans; [apply IH; assumption|]. apply (wstep_inv files (prog ++ post)); [now apply wrun_inv|eapply incl_tran; [apply incl_appr, incl_refl|exact HI]|exact O2].
Qed.
End Run.

(** ** C66 *)
(** Every successful call that draws a source — through a holder, a path or an image value — adds to the current content of
    that document one drawing, and at the end of the program, whatever else was called on this and other documents, that
    drawing refers to an image object with exactly the bytes handed over. *)
Theorem C66_image_shows_its_bytes :
  forall decode files prog o post d x,
    im_ok (decode []) = false -> forallb other_call (prog ++ o :: post) = true -> no_clash (given files (prog ++ o :: post)) ->
    target o = Some d -> draws files prog o = Some x ->
    let w := wrun decode (wstart files) prog in
    snd (wstep decode w o) = Ok ->
    exists s ci t gs,
      nth_error (w_docs w) d = Some s /\
      option_map g_content (nth_error (w_docs (fst (wstep decode w o))) d) = Some (Some ci) /\
      nth_error (w_docs (wrun decode (wstart files) (prog ++ o :: post))) d = Some t /\
      refers t ci (List.length (current_content s)) gs (OImage (decode (content x)) Plain).
Proof.
  intros decode files prog o post d x EB OC NC T Dr w R. set (all := given files (prog ++ o :: post)) in *.
  pose proof OC as OC0. rewrite forallb_app in OC0. apply andb_true_iff in OC0 as [O1 O2]. cbn [forallb] in O2. apply andb_true_iff in O2 as [O2 O3].
  assert (Hg : all = given files prog ++ opt_list (source_of (files_after files prog) o) ++ given (files_then (files_after files prog) o) post) by (unfold all; rewrite given_app; reflexivity).
  assert (I1 : incl (given files prog) all) by (rewrite Hg; apply incl_appl, incl_refl).
  assert (I2 : incl (opt_list (source_of (files_after files prog) o)) all) by (rewrite Hg; apply incl_appr, incl_appl, incl_refl).
  pose proof (wrun_inv decode all EB NC files prog I1 O1) as IV. destruct (wstep_inv decode all EB NC files prog w o IV I2 O2) as (_ & _ & K).
  destruct (K R d x T Dr) as (s & N & S & N').
  assert (Gw : grows decode all (fst (wstep decode w o)) (wrun decode (wstart files) (prog ++ o :: post))).
  { replace (prog ++ o :: post) with ((prog ++ [o]) ++ post) by (rewrite <- app_assoc; reflexivity).
    replace (fst (wstep decode w o)) with (wrun decode (wstart files) (prog ++ [o])) by (apply wrun_snoc).
    apply wrun_grows; [exact EB|exact NC| |]; rewrite <- app_assoc; [apply incl_refl|exact OC]. }
  destruct (Gw d _ N') as (l' & [G1 G2] & N2). destruct (iv_docs _ _ _ _ _ IV d s N) as (c & l & [L1 L2] & ->).
  assert (Hx : In x all).
  { destruct o as [| | | | |d0 h|d0 p|d0 ch e|]; cbn [target] in T; try discriminate; unfold draws in Dr.
    - destruct (Forall2_nth _ _ _ _ _ (iv_holders _ _ _ _ _ IV) Dr) as (y & _ & (Hx & _)). exact Hx.
    - apply I2. rewrite Dr. now left.
    - apply I2. rewrite Dr. now left. }
  destruct (C36_image_refers_to_its_data_partial (src decode all) role c l (id_of x) l' L1 G1 G2 eq_refl S) as (ci & gs & E1 & E2).
  exists (doc c l), ci, (exec (doc c l) (call decode all x :: l')), gs. split; [exact N|]. split; [rewrite N'; cbn [option_map]; unfold call; now rewrite E1|]. split; [exact N2|].
  rewrite <- (src_of decode all NC x Hx). exact E2.
Qed.
Print Assumptions C66_image_shows_its_bytes.

(** Same picture: the same path, or the same bytes (whether from a slice, a reader or an encoded image value). *)
Definition same_source (x y : source) : Prop :=
  match x, y with Bytes b, Bytes b' => b = b' | File p _, File p' _ => p = p' | _, _ => False end.
Lemma same_id x y : same_source x y -> id_of x = id_of y.
Proof. destruct x, y; cbn; try easy; intros ->; reflexivity. Qed.
(** Once drawn in a document, drawing the same picture there again — through any holder, even one already read elsewhere —
    is no error, adds no image object, and reads nothing: it works on a holder whose buffer is empty, and leaves a full one full. *)
Theorem C66_same_picture_once :
  forall decode files prog o mid o' d x y,
    im_ok (decode []) = false -> forallb other_call (prog ++ o :: mid) = true -> no_clash (given files (prog ++ o :: mid ++ [o'])) ->
    target o = Some d -> draws files prog o = Some x ->
    target o' = Some d -> draws files (prog ++ o :: mid) o' = Some y -> same_source x y ->
    snd (wstep decode (wrun decode (wstart files) prog) o) = Ok ->
    let w := wrun decode (wstart files) (prog ++ o :: mid) in
    exists s s', nth_error (w_docs w) d = Some s /\ nth_error (w_docs (fst (wstep decode w o'))) d = Some s' /\
      snd (wstep decode w o') <> Err /\ image_objects s' = image_objects s /\ w_holders (fst (wstep decode w o')) = w_holders w.
Proof.
  intros decode files prog o mid o' d x y EB OC NC T Dr T' Dr' SS R w. set (all := given files (prog ++ o :: mid ++ [o'])) in *.
  pose proof OC as OC0. rewrite forallb_app in OC0. apply andb_true_iff in OC0 as [O1 O2]. cbn [forallb] in O2. apply andb_true_iff in O2 as [O2 O3].
  assert (Hl : prog ++ o :: mid ++ [o'] = (prog ++ o :: mid) ++ [o']) by (rewrite <- app_assoc; reflexivity).
  assert (Hg : all = given files (prog ++ o :: mid) ++ opt_list (source_of (files_after files (prog ++ o :: mid)) o')) by (unfold all; rewrite Hl; apply given_snoc).
  assert (I3 : incl (given files (prog ++ o :: mid)) all) by (rewrite Hg; apply incl_appl, incl_refl).
  assert (I4 : incl (opt_list (source_of (files_after files (prog ++ o :: mid)) o')) all) by (rewrite Hg; apply incl_appr, incl_refl).
  assert (Hg0 : given files (prog ++ o :: mid) = given files prog ++ opt_list (source_of (files_after files prog) o) ++ given (files_then (files_after files prog) o) mid) by (rewrite given_app; reflexivity).
  assert (I1 : incl (given files prog) all) by (eapply incl_tran; [|exact I3]; rewrite Hg0; apply incl_appl, incl_refl).
  assert (I2 : incl (opt_list (source_of (files_after files prog) o)) all) by (eapply incl_tran; [|exact I3]; rewrite Hg0; apply incl_appr, incl_appl, incl_refl).
  pose proof (wrun_inv decode all EB NC files prog I1 O1) as IV. destruct (wstep_inv decode all EB NC files prog _ o IV I2 O2) as (_ & _ & K).
  destruct (K R d x T Dr) as (s0 & N & S & N'). destruct (iv_docs _ _ _ _ _ IV d s0 N) as (c & l & [L1 L2] & ->).
  assert (Gw : grows decode all (fst (wstep decode (wrun decode (wstart files) prog) o)) w).
  { unfold w. replace (prog ++ o :: mid) with ((prog ++ [o]) ++ mid) by (rewrite <- app_assoc; reflexivity).
    rewrite <- wrun_snoc. apply wrun_grows; [exact EB|exact NC| |]; rewrite <- app_assoc; [exact I3|exact OC]. }
  destruct (Gw d _ N') as (l' & [G1 G2] & N2). set (s := exec (fst (step (doc c l) (call decode all x))) l') in *.
  pose proof (wrun_inv decode all EB NC files _ I3 OC) as IV2. change (inv decode all files (prog ++ o :: mid) w) in IV2.
  destruct (doc_registered (src decode all) role c l L1) as [Rg Cb].
  destruct (fwd_step (src decode all) role (doc c l) (call decode all x) Cb (conj eq_refl eq_refl) eq_refl) as [F1 C1].
  destruct (fwd_exec (src decode all) role l' _ C1 G1 G2) as [F2 _]. fold s in F2.
  assert (L : exists i, lookup (id_of x) (g_imgs s) = Some i).
  { cbn [step sstep call] in S, F2. destruct (imageByHolder _ _ _ _ (doc c l)) as [s1 r] eqn:E in S, F2. cbn [fst snd] in S, F2. subst r.
    destruct (draws_register _ _ _ _ _ _ E) as (i & Li). exists i. exact (fw_i _ _ _ _ F2 (id_of x) i Li). }
  destruct L as (i & L). rewrite (same_id x y SS) in L.
  assert (DH : forall h, h_id h = id_of y -> exists s' r, drawHolder decode h s = (s', h, r) /\ r <> Err /\ image_objects s' = image_objects s).
  { intros h Hid. unfold drawHolder. rewrite Hid, L. cbn [step sstep]. unfold imageByHolder. rewrite L.
    match goal with |- context [draw true ?it s] => pose proof (count_draw true it s) as CD; assert (NE : snd (draw true it s) <> Err) by (unfold draw; destruct (getContent s) as [k s2]; destruct (g_pagesize s2); discriminate); destruct (draw true it s) as [s' r] end.
    cbn [fst snd] in *. exists s', r. split; [reflexivity|]. split; [exact NE|exact CD]. }
  exists s. destruct o' as [| | | | |d0 h|d0 p|d0 ch e|]; cbn [target] in T'; try discriminate; injection T' as ->; unfold draws in Dr'.
  - destruct (Forall2_nth _ _ _ _ _ (iv_holders _ _ _ _ _ IV2) Dr') as (hd & Nh & (_ & Hid & _)). destruct (DH hd Hid) as (s' & r & E & E1 & E2).
    exists s'. cbn [wstep]. rewrite N2, Nh, E. cbn [fst snd w_docs w_holders]. split; [reflexivity|]. unfold set_nth. rewrite nth_upd, Nat.eqb_refl, N2. split; [reflexivity|]. split; [exact E1|]. split; [exact E2|].
    clear - Nh. revert h Nh. induction (w_holders w) as [|a q IH]; intros [|h] Nh; cbn in *; try reflexivity; [congruence|]. now rewrite IH.
  - pose proof (made all _ (ImageFile d p) y (I4 y ltac:(rewrite Dr'; now left)) Dr') as (hd & Eh & (_ & Hid & _)). destruct (DH hd Hid) as (s' & r & E & E1 & E2).
    exists s'. cbn [wstep]. rewrite (iv_files _ _ _ _ _ IV2), Eh. unfold draw_fresh. rewrite N2, E. cbn [fst snd w_docs w_holders]. split; [reflexivity|]. unfold set_nth. rewrite nth_upd, Nat.eqb_refl, N2. split; [reflexivity|]. split; [exact E1|]. split; [exact E2|reflexivity].
  - pose proof (made all _ (ImageFrom d ch e) y (I4 y ltac:(rewrite Dr'; now left)) Dr') as (hd & Eh & (_ & Hid & _)). destruct (DH hd Hid) as (s' & r & E & E1 & E2).
    exists s'. cbn [wstep]. rewrite Eh. unfold draw_fresh. rewrite N2, E. cbn [fst snd w_docs w_holders]. split; [reflexivity|]. unfold set_nth. rewrite nth_upd, Nat.eqb_refl, N2. split; [reflexivity|]. split; [exact E1|]. split; [exact E2|reflexivity].
Qed.
Print Assumptions C66_same_picture_once.

(** A holder never drawn before, of a decodable image, draws (a page is needed: without one the call panics). *)
Lemma rest_kept decode files prog : forall h x, nth_error (holders_given files prog) h = Some x ->
  (forall d, ~ In (ImageByHolder d h) prog) -> exists hd, nth_error (w_holders (wrun decode (wstart files) prog)) h = Some hd /\ h_id hd = id_of x /\ h_rest hd = content x.
Proof.
  intros h x.
  assert (L : forall prog, List.length (w_holders (wrun decode (wstart files) prog)) = List.length (holders_given files prog) /\ w_files (wrun decode (wstart files) prog) = files_after files prog).
  { clear. intros prog. induction prog as [|o prog [IH IF]] using rev_ind; [split; reflexivity|]. rewrite wrun_snoc, holders_snoc, app_length, files_after_snoc, <- IH, <- IF.
    destruct o as [p b|b|ch e|p|c|d h|d p|d ch e|d o]; cbn [wstep makes_holder source_of files_then].
    - split; [cbn; lia|reflexivity].
    - cbn. rewrite app_length. split; [cbn; lia|reflexivity].
    - unfold newImageBuffByReader, readAll. destruct e; cbn [add_holder fst w_holders w_files opt_list]; rewrite ?app_length; split; cbn; try lia; reflexivity.
    - unfold newImageBuffByPath. destruct (w_files _ p) eqn:Q; cbn [add_holder fst w_holders w_files]; rewrite ?app_length; split; cbn; try lia; reflexivity.
    - split; [cbn; lia|reflexivity].
    - destruct (nth_error _ d); [|split; [cbn; lia|reflexivity]]. destruct (nth_error _ h); [|split; [cbn; lia|reflexivity]]. destruct (drawHolder _ _ _) as [[? ?] ?]. cbn. unfold set_nth. rewrite upd_length. split; [lia|reflexivity].
    - unfold draw_fresh. destruct (newImageBuffByPath _ _); [|split; [cbn; lia|reflexivity]]. destruct (nth_error _ d); [|split; [cbn; lia|reflexivity]]. destruct (drawHolder _ _ _) as [[? ?] ?]. split; [cbn; lia|reflexivity].
    - unfold draw_fresh. destruct (newImageBuffByReader _ _); [|split; [cbn; lia|reflexivity]]. destruct (nth_error _ d); [|split; [cbn; lia|reflexivity]]. destruct (drawHolder _ _ _) as [[? ?] ?]. split; [cbn; lia|reflexivity].
    - destruct (nth_error _ d); [|split; [cbn; lia|reflexivity]]. destruct (step _ _). split; [cbn; lia|reflexivity]. }
  induction prog as [|o prog IH] using rev_ind; intros N D; [now destruct h|]. rewrite holders_snoc in N. rewrite wrun_snoc.
  assert (D' : forall d, ~ In (ImageByHolder d h) prog) by (intros d H; apply (D d), in_or_app; now left).
  assert (Do' : forall d, o <> ImageByHolder d h) by (intros d ->; apply (D d), in_or_app; right; now left).
  destruct (L prog) as [L1 L2]. set (w := wrun decode (wstart files) prog) in *.
  destruct (Nat.lt_ge_cases h (List.length (holders_given files prog))) as [Lt|Ge].
  - rewrite nth_error_app1 in N by exact Lt. destruct (IH N D') as (hd & Nh & E1 & E2). exists hd. split; [|split; assumption].
    assert (Ap : forall k, nth_error (w_holders w ++ k) h = Some hd) by (intros k; rewrite nth_error_app1; [exact Nh|now rewrite L1]).
    destruct o as [p b|b|ch e|p|c|d h0|d p|d ch e|d o]; cbn [wstep].
    + exact Nh.
    + apply Ap.
    + destruct (newImageBuffByReader ch e); [apply Ap|exact Nh].
    + destruct (newImageBuffByPath _ p); [apply Ap|exact Nh].
    + exact Nh.
    + destruct (nth_error (w_docs w) d); [|exact Nh]. destruct (nth_error (w_holders w) h0) eqn:Q; [|exact Nh]. destruct (drawHolder _ _ _) as [[? ?] ?]. cbn [fst w_holders]. unfold set_nth. rewrite nth_upd.
      destruct (Nat.eqb h0 h) eqn:E; [apply Nat.eqb_eq in E; subst; exfalso; now apply (Do' d)|exact Nh].
    + unfold draw_fresh. destruct (newImageBuffByPath _ _); [|exact Nh]. destruct (nth_error _ d); [|exact Nh]. destruct (drawHolder _ _ _) as [[? ?] ?]. exact Nh.
    + unfold draw_fresh. destruct (newImageBuffByReader _ _); [|exact Nh]. destruct (nth_error _ d); [|exact Nh]. destruct (drawHolder _ _ _) as [[? ?] ?]. exact Nh.
    + destruct (nth_error _ d); [|exact Nh]. destruct (step _ _). exact Nh.
  - rewrite nth_error_app2 in N by exact Ge. destruct (makes_holder o) eqn:M; [|destruct (h - _)%nat; discriminate N]. destruct (source_of (files_after files prog) o) as [y|] eqn:S; [|destruct (h - _)%nat; discriminate N].
    cbn [opt_list] in N. destruct (h - List.length (holders_given files prog))%nat as [|k] eqn:Ek; [|destruct k; discriminate N]. cbn in N. injection N as ->. rewrite <- L1 in *.
    assert (Ap : forall a, nth_error (w_holders w ++ [a]) h = Some a) by (intros a; rewrite nth_error_app2 by exact Ge; rewrite Ek; reflexivity).
    destruct o as [p b|b|ch e|p|c|d h0|d p|d ch e|d o]; cbn [makes_holder] in M; try discriminate; cbn [wstep source_of] in *.
    + injection S as <-. eexists. split; [apply Ap|split; reflexivity].
    + destruct e; [|discriminate]. injection S as <-. eexists. split; [apply Ap|split; reflexivity].
    + rewrite L2. unfold newImageBuffByPath. destruct (files_after files prog p); [|discriminate]. injection S as <-. eexists. split; [apply Ap|split; reflexivity].
Qed.
Theorem C66_fresh_holder_draws :
  forall decode files prog d h x,
    im_ok (decode (content x)) = true -> nth_error (holders_given files prog) h = Some x -> (forall d, ~ In (ImageByHolder d h) prog) ->
    let w := wrun decode (wstart files) prog in
    (exists s, nth_error (w_docs w) d = Some s /\ g_pagesize s <> None) -> snd (wstep decode w (ImageByHolder d h)) = Ok.
Proof.
  intros decode files prog d h x Ok_ N D w (s & Ns & P). destruct (rest_kept decode files prog h x N D) as (hd & Nh & E1 & E2). fold w in Nh.
  cbn [wstep]. rewrite Ns, Nh. unfold drawHolder.
  assert (Dr : forall np it s, g_pagesize s <> None -> snd (draw np it s) = Ok).
  { clear. intros np it s P. unfold draw, getContent. destruct (g_content s); cbn [addObj]; cbn; destruct (g_pagesize s); try reflexivity; congruence. }
  destruct (lookup (h_id hd) (g_imgs s)) as [i|] eqn:L; cbn [step sstep]; unfold imageByHolder; rewrite L.
  - match goal with |- context [draw true ?it s] => pose proof (Dr true it s P) as Q; destruct (draw true it s) end. exact Q.
  - rewrite E2, Ok_. cbn [addObj]. match goal with |- context [draw true ?it ?s1] => pose proof (Dr true it s1 P) as Q; destruct (draw true it s1) as [s2 r] end. cbn [snd] in Q. subst r. reflexivity.
Qed.
Print Assumptions C66_fresh_holder_draws.

(** ** Refutations of the claim without its conditions *)
Definition demo_decode (b : bytes) : imgdesc := {| im_data := b; im_ok := negb (match b with [] => true | _ => false end); im_alpha := false; im_indexed := false |}.
Definition nofiles : bytes -> option bytes := fun _ => None.
Definition demo_cfg : config := {| cf_page := {| r_w := 595; r_h := 842 |}; cf_protect := false |}.
Definition two_docs : list wop := [NewDoc demo_cfg; NewDoc demo_cfg; InDoc 0 (AddPage None); InDoc 1 (AddPage None)].
(** One holder, two documents: drawing it in the second is an error, although its bytes are a good picture: the buffer was read
    to its end for the first (gopdf.go:674, image_obj.go:138). *)
Theorem C66_second_document_refuted :
  exists prog b, im_ok (demo_decode b) = true /\ forallb other_call prog = true /\ no_clash (given nofiles prog) /\ nth_error (holders_given nofiles prog) 0 = Some (Bytes b) /\
    In (ImageByHolder 0 0) prog /\ snd (wstep demo_decode (wrun demo_decode (wstart nofiles) prog) (ImageByHolder 1 0)) = Err.
Proof.
  exists (two_docs ++ [HolderByBytes (bs "GIF"); ImageByHolder 0 0]), (bs "GIF"). split; [reflexivity|]. split; [reflexivity|].
  split; [constructor; cbn; intuition congruence|]. split; [reflexivity|]. split; [cbn; tauto|vm_compute; reflexivity].
Qed.
(** A file drawn, rewritten and drawn again in the same document: the second drawing shows the old picture. *)
Theorem C66_rewritten_file_refuted :
  exists prog p old new, old <> new /\ draws nofiles prog (ImageFile 0 p) = Some (File p new) /\
    let w := wrun demo_decode (wstart nofiles) prog in
    snd (wstep demo_decode w (ImageFile 0 p)) = Ok /\
    exists s t ci, nth_error (w_docs w) 0 = Some s /\ nth_error (w_docs (fst (wstep demo_decode w (ImageFile 0 p)))) 0 = Some t /\ g_content t = Some ci /\
      refers t ci (List.length (current_content s)) [] (OImage (demo_decode old) Plain).
Proof.
  exists (two_docs ++ [SetFile (bs "a.png") (Some (bs "old")); ImageFile 0 (bs "a.png"); SetFile (bs "a.png") (Some (bs "new"))]), (bs "a.png"), (bs "old"), (bs "new").
  split; [discriminate|]. split; [reflexivity|]. cbv zeta. split; [vm_compute; reflexivity|].
  eexists. eexists. eexists. split; [vm_compute; reflexivity|]. split; [vm_compute; reflexivity|]. split; [vm_compute; reflexivity|]. eexists. eexists. split; [vm_compute; reflexivity|]. split; vm_compute; reflexivity.
Qed.
(** A file whose name is the digest of other bytes drawn before: it shows those. *)
Theorem C66_digest_name_refuted :
  exists prog p b other, b <> other /\ draws nofiles prog (ImageFile 0 p) = Some (File p b) /\
    let w := wrun demo_decode (wstart nofiles) prog in
    snd (wstep demo_decode w (ImageFile 0 p)) = Ok /\
    exists s t ci, nth_error (w_docs w) 0 = Some s /\ nth_error (w_docs (fst (wstep demo_decode w (ImageFile 0 p)))) 0 = Some t /\ g_content t = Some ci /\
      refers t ci (List.length (current_content s)) [] (OImage (demo_decode other) Plain).
Proof.
  exists (two_docs ++ [HolderByBytes (bs "message digest"); ImageByHolder 0 0; SetFile (bs "f96b697d7cb7938d525a2f31aaf161d0") (Some (bs "cat"))]), (bs "f96b697d7cb7938d525a2f31aaf161d0"), (bs "cat"), (bs "message digest").
  split; [discriminate|]. split; [reflexivity|]. cbv zeta. split; [vm_compute; reflexivity|].
  eexists. eexists. eexists. split; [vm_compute; reflexivity|]. split; [vm_compute; reflexivity|]. split; [vm_compute; reflexivity|]. eexists. eexists. split; [vm_compute; reflexivity|]. split; vm_compute; reflexivity.
Qed.
Print Assumptions C66_digest_name_refuted.

(** ** A program meeting the hypotheses: two documents, a holder from bytes and one from a reader of the same bytes in two
    chunks, a file drawn in both documents, one holder drawn twice. *)
Definition demo_prog : list wop :=
  two_docs ++ [SetFile (bs "a.png") (Some (bs "cat")); HolderByBytes (bs "message digest"); HolderByReader [bs "message"; bs " digest"] true;
    ImageFile 0 (bs "a.png"); ImageFile 1 (bs "a.png"); InDoc 0 (Do (AddOutline (bs "T"))); ImageByHolder 0 0].
Example C66_met :
  im_ok (demo_decode []) = false /\ forallb other_call (demo_prog ++ [ImageByHolder 0 1]) = true /\ no_clash (given nofiles (demo_prog ++ [ImageByHolder 0 1])) /\
  target (ImageByHolder 0 1) = Some 0%nat /\ draws nofiles demo_prog (ImageByHolder 0 1) = Some (Bytes (bs "message digest")) /\
  same_source (Bytes (bs "message digest")) (Bytes (bs "message digest")) /\
  snd (wstep demo_decode (wrun demo_decode (wstart nofiles) demo_prog) (ImageByHolder 0 1)) = Ok /\
  (exists s, nth_error (w_docs (wrun demo_decode (wstart nofiles) demo_prog)) 0 = Some s /\ image_objects s = 2%nat) /\
  option_map h_rest (nth_error (w_holders (wrun demo_decode (wstart nofiles) demo_prog)) 0) = Some [] /\
  (forall d, ~ In (ImageByHolder d 1) demo_prog).
Proof.
  split; [reflexivity|]. split; [reflexivity|]. split.
  { constructor.
    - intros b b' H H' _. cbn in H, H'. intuition congruence.
    - intros p b b' H H'. cbn in H, H'. intuition congruence.
    - intros p b b' H H'. cbn in H, H'. destruct H as [H|[H|[H|[H|[]]]]]; try discriminate; injection H as <- <-; destruct H' as [H'|[H'|[H'|[H'|[]]]]]; try discriminate; injection H' as <-; vm_compute; discriminate. }
  split; [reflexivity|]. split; [reflexivity|]. split; [reflexivity|]. split; [vm_compute; reflexivity|].
  split; [eexists; split; vm_compute; reflexivity|]. split; [vm_compute; reflexivity|].
  intros d H. cbn in H. intuition congruence.
Qed.
Print Assumptions C66_rewritten_file_refuted.
Print Assumptions C66_second_document_refuted.
