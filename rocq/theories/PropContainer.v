(** PropContainer.v — C53: documents that share fonts through a container do not disturb each other. *)
From Verif Require Import Base TtfModel SubsetModel ContainerModel.
Open Scope Z_scope.

(** ** Specification *)
(** The document an operation works on; none for the container. *)
Definition doc_of (o : cop) : option Z :=
  match o with ContainerAdd _ _ _ => None | AddFromContainer d _ | AddFont d _ _ _ | Chars d _ _ | Kern d _ _ => Some d end.
(** The operations that document [d] can depend on: its own and those of the container. *)
Definition concerns (d : Z) (o : cop) : bool := match doc_of o with None => true | Some x => x =? d end.
(** What a font contributes to the file of its document: the name, the font program, the characters registered in order with their
    glyphs, and the kerning override. *)
Record embedded := { e_family : bytes; e_ttf : ttf; e_chars : charmap; e_kern : option (Z -> Z -> Z -> Z -> Z -> Z) }.
Definition file_fonts (w : world) (d : Z) : list embedded :=
  map (fun e => {| e_family := fst e; e_ttf := o_ttf (snd e); e_chars := match o_map (snd e) with Some p => w_heap w p | None => [] end; e_kern := o_kern (snd e) |}) (w_docs w d).
(** The results of the operations that concern [d]. *)
Definition results_for (d : Z) (l : list cop) (xs : list cres) : list cres := map snd (filter (fun p => concerns d (fst p)) (combine l xs)).

(** ** Proofs *)
Definition ptrs (l : list (bytes * fobj)) : list Z := flat_map (fun e => match o_map (snd e) with Some p => [p] | None => [] end) l.
(** pointers are allocated, those of a document are distinct and not those of another; the container has none *)
Record ok (w : world) : Prop := {
  ok_lt : forall d p, In p (ptrs (w_docs w d)) -> p < w_next w;
  ok_nd : forall d, NoDup (ptrs (w_docs w d));
  ok_dj : forall d d' p, In p (ptrs (w_docs w d)) -> In p (ptrs (w_docs w d')) -> d = d' }.
Lemma ptrs_app a b : ptrs (a ++ b) = ptrs a ++ ptrs b.
Proof. apply flat_map_app. Qed.
Lemma ptrs_kern fam fn l : forall l', set_kern fam fn l = Some l' -> ptrs l' = ptrs l.
Proof.
  induction l as [|[n o] l IH]; intros l' H; cbn [set_kern] in H; [discriminate|]. destruct (list_eqb n fam).
  - injection H as <-. reflexivity.
  - destruct (set_kern fam fn l) as [r|]; [|discriminate]. cbn in H. injection H as <-. unfold ptrs in *. cbn [flat_map]. f_equal. apply IH. reflexivity.
Qed.
Lemma ok_docs w w' : ok w -> (forall x, ptrs (w_docs w' x) = ptrs (w_docs w x)) -> w_next w' = w_next w -> ok w'.
Proof. intros [A B C] E En. constructor; intros; rewrite ?E, ?En in *; eauto. Qed.
Lemma ok_init w d fam o : ok w -> ok (init_add w d fam o).
Proof.
  intros [A B C]. assert (G : forall x p, In p (ptrs (w_docs (init_add w d fam o) x)) -> (In p (ptrs (w_docs w x))) \/ (x = d /\ p = w_next w)).
  { intros x p. unfold init_add, set_docs. cbn [w_docs]. destruct (x =? d) eqn:E; [|auto]. apply Z.eqb_eq in E. subst x. rewrite ptrs_app. intros H. apply in_app_or in H as [H|[<-|[]]]; auto. }
  constructor.
  - intros x p H. cbn [init_add set_docs w_next]. destruct (G _ _ H) as [H1|[_ ->]]; [specialize (A _ _ H1)|]; lia.
  - intros x. unfold init_add, set_docs. cbn [w_docs]. destruct (x =? d) eqn:E; [|apply B]. rewrite ptrs_app.
    assert (N : ~ In (w_next w) (ptrs (w_docs w d))) by (intros H; specialize (A _ _ H); lia). clear -B N.
    cbn. specialize (B d). induction (ptrs (w_docs w d)) as [|a l IH]; cbn; [repeat constructor; intros []|]. apply NoDup_cons_iff in B as [B1 B2]. constructor.
    + intros H. apply in_app_or in H as [H|[H|[]]]; [now apply B1|]. apply N. left. auto.
    + apply IH; [exact B2|]. intros H. apply N. right. exact H.
  - intros x y p Hx Hy. destruct (G _ _ Hx) as [H1|[-> ->]], (G _ _ Hy) as [H2|[E2 P2]].
    + eauto.
    + subst. specialize (A _ _ H1). lia.
    + specialize (A _ _ H2). lia.
    + auto.
Qed.
Lemma ok_step w o : ok w -> ok (fst (cstep w o)).
Proof.
  intros O. destruct o as [fam [f|] sb|d fam|d fam [f|] sb|d k txt|d fam fn]; cbn [cstep fst]; try exact O.
  - destruct O as [A B C]. constructor; cbn [w_docs w_next]; auto.
  - destruct (load fam (w_cont w)); cbn [fst]; [now apply ok_init|exact O].
  - now apply ok_init.
  - destruct (nth_error (w_docs w d) k) as [[n o]|]; [|exact O]. destruct (o_map o) as [p|]; [|exact O]. destruct (addChars _ _ _ _) as [[t m]|]; [|exact O].
    destruct O as [A B C]. constructor; cbn [fst w_docs w_next]; auto.
  - destruct (set_kern fam fn (w_docs w d)) as [l|] eqn:E; [|exact O]. cbn [fst]. eapply (ok_docs w _ O); [|reflexivity].
    intros x. cbn [set_docs w_docs]. destruct (x =? d) eqn:X; [|reflexivity]. apply Z.eqb_eq in X. subst x. eapply ptrs_kern. exact E.
Qed.

(** Two fonts alike but for where their map is; two worlds alike for document [d]. *)
Definition alike (w w' : world) (e e' : bytes * fobj) : Prop :=
  fst e = fst e' /\ o_ttf (snd e) = o_ttf (snd e') /\ o_subst (snd e) = o_subst (snd e') /\ o_kern (snd e) = o_kern (snd e') /\
  match o_map (snd e), o_map (snd e') with Some p, Some p' => w_heap w p = w_heap w' p' | None, None => True | _, _ => False end.
Definition sim (d : Z) (w w' : world) : Prop := w_cont w = w_cont w' /\ Forall2 (alike w w') (w_docs w d) (w_docs w' d).
Lemma sim_fonts d w w' : sim d w w' -> file_fonts w d = file_fonts w' d.
Proof.
  intros [_ F]. unfold file_fonts. induction F as [|e e' l l' (A1 & A2 & A3 & A4 & A5) F IH]; [reflexivity|]. cbn [map]. rewrite IH, A1, A2, A4. f_equal. f_equal.
  destruct (o_map (snd e)), (o_map (snd e')); try contradiction; auto.
Qed.
Lemma alike_heap w w' v v' e e' : (forall p, In p (ptrs [e]) -> w_heap v p = w_heap w p) -> (forall p, In p (ptrs [e']) -> w_heap v' p = w_heap w' p) -> alike w w' e e' -> alike v v' e e'.
Proof.
  intros H H' (A1 & A2 & A3 & A4 & A5). repeat (split; [assumption|]). destruct (o_map (snd e)) as [p|] eqn:E, (o_map (snd e')) as [p'|] eqn:E'; auto.
  rewrite H, H'; [exact A5| |]; unfold ptrs; cbn; rewrite ?E, ?E'; left; reflexivity.
Qed.
Lemma alike_heaps w w' v v' l l' : (forall p, In p (ptrs l) -> w_heap v p = w_heap w p) -> (forall p, In p (ptrs l') -> w_heap v' p = w_heap w' p) -> Forall2 (alike w w') l l' -> Forall2 (alike v v') l l'.
Proof.
  intros H H' F. induction F as [|e e' l l' A F IH]; [constructor|]. change (e :: l) with ([e] ++ l) in H. change (e' :: l') with ([e'] ++ l') in H'. rewrite ptrs_app in H, H'.
  constructor; [eapply alike_heap; [| |exact A]; intros; [apply H|apply H']; apply in_or_app; auto|]. apply IH; intros; [apply H|apply H']; apply in_or_app; auto.
Qed.
(** a step of another document changes nothing that [d] sees *)
Lemma other_step d w w' o x : ok w -> doc_of o = Some x -> x <> d -> sim d w w' -> sim d (fst (cstep w o)) w'.
Proof.
  intros O Hd Hx [SC SF].
  assert (HI : forall fam ob, sim d (init_add w x fam ob) w').
  { intros fam ob. split; [exact SC|]. unfold init_add, set_docs. cbn [w_docs]. destruct (d =? x) eqn:E; [apply Z.eqb_eq in E; congruence|].
    eapply alike_heaps; [| |exact SF]; [|auto]. intros p Hp. cbn [w_heap]. destruct (p =? w_next w) eqn:P; [|reflexivity]. apply Z.eqb_eq in P. assert (A := ok_lt w O _ _ Hp). lia. }
  destruct o as [fam [f|] sb|y fam|y fam [f|] sb|y k txt|y fam fn]; cbn in Hd; try discriminate; injection Hd as ->; cbn [cstep fst]; try (split; assumption).
  - destruct (load fam (w_cont w)); cbn [fst]; [apply HI|split; assumption].
  - apply HI.
  - destruct (nth_error (w_docs w x) k) as [[n o]|] eqn:Nt; [|split; assumption]. destruct (o_map o) as [p|] eqn:M; [|split; assumption]. destruct (addChars _ _ _ _) as [[t m]|]; [|split; assumption].
    cbn [fst]. split; [exact SC|]. eapply alike_heaps; [| |exact SF]; [|auto]. intros q Hq. cbn [w_heap w_docs] in *. destruct (q =? p) eqn:P; [|reflexivity]. apply Z.eqb_eq in P. subst q.
    exfalso. apply Hx. apply (ok_dj w O x d p); [|exact Hq]. apply nth_error_In in Nt. unfold ptrs. apply in_flat_map. exists (n, o). split; [exact Nt|]. cbn [snd]. rewrite M. left. reflexivity.
  - destruct (set_kern fam fn (w_docs w x)) as [l|]; [|split; assumption]. cbn [fst]. split; [exact SC|]. assert (D : w_docs (set_docs w x l) d = w_docs w d) by (cbn [set_docs w_docs]; destruct (d =? x) eqn:E; [apply Z.eqb_eq in E; congruence|reflexivity]).
    rewrite D. eapply alike_heaps; [| |exact SF]; auto.
Qed.
Lemma F2_nth {A B} (R : A -> B -> Prop) l l' k : Forall2 R l l' -> match nth_error l k, nth_error l' k with Some a, Some b => R a b | None, None => True | _, _ => False end.
Proof. intros F. revert k. induction F; intros [|k]; cbn; auto. apply IHF. Qed.
Lemma kern_sim w w' fam fn l l' : Forall2 (alike w w') l l' -> match set_kern fam fn l, set_kern fam fn l' with Some a, Some b => Forall2 (alike w w') a b | None, None => True | _, _ => False end.
Proof.
  intros F. induction F as [|[n o] [n' o'] l l' (A1 & A2 & A3 & A4 & A5) F IH]; cbn [set_kern]; [exact I|]. cbn [fst snd] in *. subst n'. destruct (list_eqb n fam).
  - constructor; [|exact F]. split; [reflexivity|]. cbn [snd o_ttf o_subst o_kern o_map]. auto.
  - destruct (set_kern fam fn l), (set_kern fam fn l'); cbn [option_map]; try contradiction; auto. constructor; [|exact IH]. split; [reflexivity|]. cbn [snd]. auto.
Qed.
Lemma alike_update w w' l l' k e e' p p' m : Forall2 (alike w w') l l' -> NoDup (ptrs l) -> NoDup (ptrs l') -> nth_error l k = Some e -> nth_error l' k = Some e' -> o_map (snd e) = Some p -> o_map (snd e') = Some p' ->
  Forall2 (alike {| w_heap := fun x => if x =? p then m else w_heap w x; w_next := w_next w; w_cont := w_cont w; w_docs := w_docs w |}
                 {| w_heap := fun x => if x =? p' then m else w_heap w' x; w_next := w_next w'; w_cont := w_cont w'; w_docs := w_docs w' |}) l l'.
Proof.
  intros F. revert k. induction F as [|a a' l l' A F IH]; intros k N N' E E' P P'; [destruct k; discriminate|].
  change (a :: l) with ([a] ++ l) in N. change (a' :: l') with ([a'] ++ l') in N'. rewrite ptrs_app in N, N'.
  destruct k as [|k]; cbn [nth_error] in E, E'.
  - injection E as ->. injection E' as ->. unfold ptrs in N, N'. cbn [flat_map] in N, N'. rewrite P in N. rewrite P' in N'. fold (ptrs l) in N. fold (ptrs l') in N'. cbn [app] in N, N'. apply NoDup_cons_iff in N as [N1 _], N' as [N1' _]. constructor.
    + destruct A as (A1 & A2 & A3 & A4 & A5). repeat (split; [assumption|]). rewrite P, P'. cbn [w_heap]. now rewrite !Z.eqb_refl.
    + eapply alike_heaps; [| |exact F]; intros q Hq; cbn [w_heap]; [destruct (q =? p) eqn:Q|destruct (q =? p') eqn:Q]; try reflexivity; apply Z.eqb_eq in Q; subst q; contradiction.
  - assert (Nl : NoDup (ptrs l)) by (clear - N; destruct (o_map (snd a)) eqn:X; unfold ptrs in *; cbn in N; rewrite X in N; cbn in N; [apply NoDup_cons_iff in N; tauto|exact N]).
    assert (Nl' : NoDup (ptrs l')) by (clear - N'; destruct (o_map (snd a')) eqn:X; unfold ptrs in *; cbn in N'; rewrite X in N'; cbn in N'; [apply NoDup_cons_iff in N'; tauto|exact N']).
    constructor; [|now apply (IH k)]. eapply alike_heap; [| |exact A]; intros q Hq; cbn [w_heap].
    + destruct (q =? p) eqn:Q; [|reflexivity]. apply Z.eqb_eq in Q. subst q. exfalso.
      assert (Hp : In p (ptrs l)) by (apply nth_error_In in E; apply in_flat_map; exists e; rewrite P; split; [exact E|left; reflexivity]).
      unfold ptrs in Hq, N. cbn [flat_map] in Hq, N. rewrite app_nil_r in Hq, N. fold (ptrs l) in N. destruct (o_map (snd a)) as [r|]; [|destruct Hq]. cbn in N. apply NoDup_cons_iff in N as [N1 _]. destruct Hq as [->|[]]. contradiction.
    + destruct (q =? p') eqn:Q; [|reflexivity]. apply Z.eqb_eq in Q. subst q. exfalso.
      assert (Hp : In p' (ptrs l')) by (apply nth_error_In in E'; apply in_flat_map; exists e'; rewrite P'; split; [exact E'|left; reflexivity]).
      unfold ptrs in Hq, N'. cbn [flat_map] in Hq, N'. rewrite app_nil_r in Hq, N'. fold (ptrs l') in N'. destruct (o_map (snd a')) as [r|]; [|destruct Hq]. cbn in N'. apply NoDup_cons_iff in N' as [N1 _]. destruct Hq as [->|[]]. contradiction.
Qed.
(** a step of [d] or of the container does the same in both worlds *)
Lemma own_step d w w' o : ok w -> ok w' -> concerns d o = true -> sim d w w' -> sim d (fst (cstep w o)) (fst (cstep w' o)) /\ snd (cstep w o) = snd (cstep w' o).
Proof.
  intros O O' Hc [SC SF].
  assert (HI : forall fam ob, sim d (init_add w d fam ob) (init_add w' d fam ob)).
  { intros fam ob. split; [exact SC|]. unfold init_add, set_docs. cbn [w_docs]. rewrite Z.eqb_refl. apply Forall2_app.
    - eapply alike_heaps; [| |exact SF]; intros p Hp; cbn [w_heap].
      + destruct (p =? w_next w) eqn:P; [|reflexivity]. apply Z.eqb_eq in P. assert (A := ok_lt w O _ _ Hp). lia.
      + destruct (p =? w_next w') eqn:P; [|reflexivity]. apply Z.eqb_eq in P. assert (A := ok_lt w' O' _ _ Hp). lia.
    - constructor; [|constructor]. repeat (split; [reflexivity|]). cbn [snd o_map w_heap]. now rewrite !Z.eqb_refl. }
  assert (E : forall x, doc_of o = Some x -> x = d) by (intros x Hx; unfold concerns in Hc; rewrite Hx in Hc; now apply Z.eqb_eq).
  destruct o as [fam [f|] sb|y fam|y fam [f|] sb|y k txt|y fam fn]; cbn [doc_of] in E; try (specialize (E _ eq_refl); subst y); cbn [cstep].
  - cbn [fst snd]. split; [|reflexivity]. split; [cbn [w_cont]; now rewrite SC|]. eapply alike_heaps; [| |exact SF]; auto.
  - split; [split; assumption|reflexivity].
  - rewrite <- SC. destruct (load fam (w_cont w)); cbn [fst snd]; split; try reflexivity; [apply HI|split; assumption].
  - split; [apply HI|reflexivity].
  - split; [split; assumption|reflexivity].
  - assert (Nt := F2_nth _ _ _ k SF). destruct (nth_error (w_docs w d) k) as [e|] eqn:E1, (nth_error (w_docs w' d) k) as [e'|] eqn:E2; try contradiction; [|split; [split; assumption|reflexivity]].
    destruct e as [n o], e' as [n' o']. destruct Nt as (A1 & A2 & A3 & A4 & A5). cbn [fst snd] in *. destruct (o_map o) as [p|] eqn:P, (o_map o') as [p'|] eqn:P'; try contradiction; [|split; [split; assumption|reflexivity]].
    rewrite <- A2, <- A3, <- A5. destruct (addChars (charToGlyph (o_ttf o)) (o_subst o) (w_heap w p) txt) as [[t m]|]; cbn [fst snd]; [|split; [split; assumption|reflexivity]].
    split; [|reflexivity]. split; [exact SC|]. cbn [w_docs]. eapply alike_update; try eassumption; [apply (ok_nd w O)|apply (ok_nd w' O')].
  - assert (K := kern_sim w w' fam fn _ _ SF). destruct (set_kern fam fn (w_docs w d)) as [a|], (set_kern fam fn (w_docs w' d)) as [b|]; try contradiction; cbn [fst snd]; [|split; [split; assumption|reflexivity]].
    split; [|reflexivity]. split; [exact SC|]. cbn [set_docs w_docs]. rewrite Z.eqb_refl. eapply alike_heaps; [| |exact K]; auto.
Qed.
Lemma crun_sim d l : forall w w', ok w -> ok w' -> sim d w w' ->
  sim d (fst (crun w l)) (fst (crun w' (filter (concerns d) l))) /\ results_for d l (snd (crun w l)) = snd (crun w' (filter (concerns d) l)).
Proof.
  induction l as [|o l IH]; intros w w' O O' S; cbn [crun filter]; [split; [exact S|reflexivity]|].
  destruct (concerns d o) eqn:C.
  - destruct (own_step d w w' o O O' C S) as [S1 R1]. assert (O1 := ok_step w o O). assert (O1' := ok_step w' o O'). cbn [crun].
    destruct (cstep w o) as [w1 x], (cstep w' o) as [w1' x']. cbn [fst snd] in *. subst x'. destruct (IH w1 w1' O1 O1' S1) as [S2 R2].
    destruct (crun w1 l) as [w2 xs], (crun w1' (filter (concerns d) l)) as [w2' xs']. cbn [fst snd] in *. split; [exact S2|]. unfold results_for in *. cbn [combine filter]. cbn [fst]. rewrite C. cbn [map snd]. f_equal. exact R2.
  - assert (Hx : exists x, doc_of o = Some x /\ x <> d). { unfold concerns in C. destruct (doc_of o) as [x|]; [|discriminate]. exists x. split; [reflexivity|]. now apply Z.eqb_neq. }
    destruct Hx as (x & Hd & Hx). assert (S1 := other_step d w w' o x O Hd Hx S). assert (O1 := ok_step w o O).
    destruct (cstep w o) as [w1 r]. cbn [fst] in *. destruct (IH w1 w' O1 O' S1) as [S2 R2]. destruct (crun w1 l) as [w2 xs]. cbn [fst snd] in *. split; [exact S2|].
    unfold results_for in *. cbn [combine filter]. cbn [fst]. rewrite C. exact R2.
Qed.
Lemma ok_empty : ok empty_world.
Proof. constructor; cbn; intros; try contradiction. constructor. Qed.

(** ** C53 *)
(** For every interleaving of the operations of any number of documents and of the container, the fonts of a document, the characters
    embedded with them and every result its operations returned are those of the run in which the other documents do nothing. *)
Theorem C53_documents_isolated :
  forall ops d,
    file_fonts (fst (crun empty_world ops)) d = file_fonts (fst (crun empty_world (filter (concerns d) ops))) d /\
    results_for d ops (snd (crun empty_world ops)) = snd (crun empty_world (filter (concerns d) ops)).
Proof.
  intros ops d. destruct (crun_sim d ops empty_world empty_world ok_empty ok_empty) as [S R]; [split; constructor|]. split; [now apply sim_fonts|exact R].
Qed.
Print Assumptions C53_documents_isolated.
(** A font taken from the container is the font given to the container under that name last, with no characters, as if it had been
    added to the document itself; an unknown name is an error. *)
Fixpoint last_added (family : bytes) (ops : list cop) : option (ttf * (Z -> Z)) :=
  match ops with
  | [] => None
  | o :: r => match last_added family r with
              | Some x => Some x
              | None => match o with ContainerAdd fam (Some f) sb => if list_eqb fam family then Some (f, sb) else None | _ => None end
              end
  end.
Lemma load_store fam fam' o l : load fam (store fam' o l) = if list_eqb fam' fam then Some o else load fam l.
Proof.
  unfold load, store. cbn [find fst]. destruct (list_eqb fam' fam) eqn:E; [reflexivity|]. induction l as [|[n x] l IH]; [reflexivity|]. cbn [filter fst]. destruct (list_eqb n fam') eqn:E1; cbn [negb].
  - cbn [find fst]. destruct (list_eqb n fam) eqn:E2; [|exact IH]. apply list_eqb_eq in E1, E2. exfalso. assert (X : fam' = fam) by congruence. apply list_eqb_eq in X. congruence.
  - cbn [find fst]. destruct (list_eqb n fam); [reflexivity|exact IH].
Qed.
Lemma cont_run ops : forall w fam, match last_added fam ops with
  | Some (f, sb) => exists k, load fam (w_cont (fst (crun w ops))) = Some {| o_ttf := f; o_subst := sb; o_kern := None; o_map := k |} /\ k = None
  | None => load fam (w_cont (fst (crun w ops))) = load fam (w_cont w) end.
Proof.
  induction ops as [|o ops IH]; intros w fam; cbn [last_added crun]; [reflexivity|]. destruct (cstep w o) as [w1 x] eqn:S. specialize (IH w1 fam). destruct (crun w1 ops) as [w2 xs]. cbn [fst] in *.
  destruct (last_added fam ops) as [[f sb]|]; [exact IH|].
  assert (K : forall d fm ob, w_cont (init_add w d fm ob) = w_cont w) by reflexivity.
  destruct o as [fm [f|] sb|y fm|y fm [f|] sb|y k txt|y fm fn]; cbn [cstep] in S.
  - apply (f_equal fst) in S. cbn [fst] in S. subst w1. cbn [w_cont] in IH. rewrite load_store in IH. destruct (list_eqb fm fam); [exists None; auto|exact IH].
  - apply (f_equal fst) in S. cbn [fst] in S. now subst w1.
  - destruct (load fm (w_cont w)); apply (f_equal fst) in S; cbn [fst] in S; subst w1; exact IH.
  - apply (f_equal fst) in S. cbn [fst] in S. subst w1. exact IH.
  - apply (f_equal fst) in S. cbn [fst] in S. now subst w1.
  - destruct (nth_error (w_docs w y) k) as [[n o]|]; [destruct (o_map o) as [p|]; [destruct (addChars _ _ _ _) as [[t m]|]|]|]; apply (f_equal fst) in S; cbn [fst] in S; subst w1; exact IH.
  - destruct (set_kern fm fn (w_docs w y)); apply (f_equal fst) in S; cbn [fst] in S; subst w1; exact IH.
Qed.
Theorem C53_font_from_container :
  forall ops d family, let w := fst (crun empty_world ops) in
    match last_added family ops with
    | Some (f, sb) => cstep w (AddFromContainer d family) = cstep w (AddFont d family (Some f) sb) /\ snd (cstep w (AddFromContainer d family)) = COk /\
        file_fonts (fst (cstep w (AddFromContainer d family))) d = file_fonts w d ++ [{| e_family := family; e_ttf := f; e_chars := []; e_kern := None |}]
    | None => cstep w (AddFromContainer d family) = (w, CErrFontNotFound)
    end.
Proof.
  intros ops d family w. assert (L := cont_run ops empty_world family). assert (O : ok w).
  { unfold w. assert (G : forall l w0, ok w0 -> ok (fst (crun w0 l))). { clear. induction l as [|o l IH]; intros w0 O; [exact O|]. cbn [crun]. assert (O1 := ok_step w0 o O). destruct (cstep w0 o) as [w1 x]. specialize (IH w1 O1). destruct (crun w1 l). exact IH. } apply G, ok_empty. }
  fold w in L. destruct (last_added family ops) as [[f sb]|]; cbn [cstep].
  - destruct L as (k & -> & ->). split; [reflexivity|]. split; [reflexivity|]. cbn [fst]. unfold file_fonts at 1, init_add, set_docs. cbn [w_docs]. rewrite Z.eqb_refl, map_app. cbn [map fst snd o_ttf o_kern o_map w_heap]. rewrite Z.eqb_refl. f_equal.
    unfold file_fonts. apply map_ext_in. intros e He. f_equal. destruct (o_map (snd e)) as [p|] eqn:M; [|reflexivity]. destruct (p =? w_next w) eqn:P; [|reflexivity]. apply Z.eqb_eq in P. exfalso.
    assert (In p (ptrs (w_docs w d))) as Hp by (apply in_flat_map; exists e; rewrite M; split; [exact He|left; reflexivity]). assert (A := ok_lt w O _ _ Hp). lia.
  - rewrite L. reflexivity.
Qed.
Print Assumptions C53_font_from_container.

(** Two documents that share a font, drawing in turn: each embeds the characters of its own texts only. *)
Definition tiny (o2 : os2) : ttf :=
  {| t_tables := []; t_upem := 1000; t_bbox := (0, 0, 0, 0); t_locFormat := 0; t_asc := 800; t_desc := -200; t_nHM := 1; t_nGlyphs := 100; t_widths := [500];
     t_cmap := {| c_seg := 2; c_end := [126; 65535]; c_start := [32; 65535]; c_delta := [65505; 1]; c_ro := [0; 0]; c_gids := [] |}; t_chars := []; t_groups := [];
     t_psname := []; t_os2 := o2; t_post := (0, 0, 0, false); t_loca := []; t_kern := None |}.
Definition shared (o2 : os2) : list cop :=
  [ContainerAdd (bs "F") (Some (tiny o2)) (fun _ => 32); AddFromContainer 1 (bs "F"); Chars 1 0 (bs "ab"); AddFromContainer 2 (bs "F"); Chars 2 0 (bs "xy"); Chars 1 0 (bs "c"); Kern 2 (bs "F") (fun _ _ _ _ v => v)].
Example C53_met : forall o2,
  map e_chars (file_fonts (fst (crun empty_world (shared o2))) 1) = [[(97, 66); (98, 67); (99, 68)]] /\
  map e_chars (file_fonts (fst (crun empty_world (shared o2))) 2) = [[(120, 89); (121, 90)]] /\
  snd (crun empty_world (shared o2)) = [COk; COk; CText (bs "ab"); COk; CText (bs "xy"); CText (bs "c"); COk].
Proof. intros o2. split; [|split]; vm_compute; reflexivity. Qed.
(** … and texts drawn with it register the characters of that font, a character it lacks being replaced as the options given to the
    container say. *)
Theorem C53_characters_from_container :
  forall ops d family f sb txt, let w := fst (crun empty_world ops) in
    last_added family ops = Some (f, sb) ->
    let w' := fst (cstep w (AddFromContainer d family)) in let k := List.length (file_fonts w d) in
    match addChars (charToGlyph f) sb [] txt with
    | Some (shown, chars) => snd (cstep w' (Chars d k txt)) = CText shown /\
        nth_error (file_fonts (fst (cstep w' (Chars d k txt))) d) k = Some {| e_family := family; e_ttf := f; e_chars := chars; e_kern := None |}
    | None => snd (cstep w' (Chars d k txt)) = CPanic
    end.
Proof.
  intros ops d family f sb txt w L w' k. assert (C := cont_run ops empty_world family). rewrite L in C. destruct C as (m & C & ->). fold w in C.
  unfold w', k. clear w' k. set (k := List.length (file_fonts w d)). assert (K : k = List.length (w_docs w d)) by (unfold k, file_fonts; now rewrite map_length). clearbody k. subst k.
  replace (fst (cstep w (AddFromContainer d family))) with (init_add w d family {| o_ttf := f; o_subst := sb; o_kern := None; o_map := None |}) by (cbn [cstep]; now rewrite C).
  assert (D : w_docs (init_add w d family {| o_ttf := f; o_subst := sb; o_kern := None; o_map := None |}) d
            = w_docs w d ++ [(family, {| o_ttf := f; o_subst := sb; o_kern := None; o_map := Some (w_next w) |})]).
  { unfold init_add, set_docs. cbn [w_docs o_ttf o_subst]. now rewrite Z.eqb_refl. }
  assert (Nth : nth_error (w_docs (init_add w d family {| o_ttf := f; o_subst := sb; o_kern := None; o_map := None |}) d) (List.length (w_docs w d))
            = Some (family, {| o_ttf := f; o_subst := sb; o_kern := None; o_map := Some (w_next w) |})).
  { rewrite D, nth_error_app2, Nat.sub_diag by lia. reflexivity. }
  assert (Hp : w_heap (init_add w d family {| o_ttf := f; o_subst := sb; o_kern := None; o_map := None |}) (w_next w) = []) by (cbn; now rewrite Z.eqb_refl).
  cbn [cstep]. rewrite Nth. cbn [o_map o_ttf o_subst]. rewrite Hp. destruct (addChars (charToGlyph f) sb [] txt) as [[t c]|]; [|reflexivity].
  cbn [fst snd]. split; [reflexivity|]. unfold file_fonts. cbn [w_docs w_heap]. rewrite nth_error_map, Nth. cbn [option_map fst snd o_ttf o_map o_kern]. now rewrite Z.eqb_refl.
Qed.
Print Assumptions C53_characters_from_container.
