(** DocProofs.v — the document model refines the abstract document (C04, C06, C36, C41, C42, C46, C52). *)
From Verif Require Import Base DocModel DocSpec.

(** ** Lists *)
Lemma upd_app {A} (a : list A) x b f : upd (a ++ x :: b) (List.length a) f = a ++ f x :: b.
Proof. induction a as [|y a IH]; cbn; [reflexivity|now rewrite IH]. Qed.
Lemma upd_length {A} (l : list A) : forall i f, List.length (upd l i f) = List.length l.
Proof. induction l as [|x l IH]; intros [|i] f; cbn; auto. Qed.
Lemma nth_upd {A} (l : list A) : forall i j f,
  nth_error (upd l i f) j = if Nat.eqb i j then option_map f (nth_error l j) else nth_error l j.
Proof.
  induction l as [|x l IH]; intros [|i] [|j] f; cbn; try reflexivity.
  - destruct (Nat.eqb i j); reflexivity.
  - apply IH.
Qed.
Lemma upd_last_snoc {A} (f : A -> A) l x : upd_last f (l ++ [x]) = l ++ [f x].
Proof.
  induction l as [|y l IH]; [reflexivity|].
  cbn [app upd_last]. rewrite IH. destruct l; reflexivity.
Qed.
Lemma nth_snoc_old {A} (l : list A) x i y : nth_error l i = Some y -> nth_error (l ++ [x]) i = Some y.
Proof. intros H. rewrite nth_error_app1; [exact H|]. apply nth_error_Some. congruence. Qed.
Lemma nth_snoc_new {A} (l : list A) x : nth_error (l ++ [x]) (List.length l) = Some x.
Proof. rewrite nth_error_app2, Nat.sub_diag by lia. reflexivity. Qed.
Lemma nth_app_len {A} (a : list A) x b : nth_error (a ++ x :: b) (List.length a) = Some x.
Proof. rewrite nth_error_app2, Nat.sub_diag by lia. reflexivity. Qed.

Lemma Forall2_impl {A B} (P Q : A -> B -> Prop) (H : forall a b, P a b -> Q a b) l l' : Forall2 P l l' -> Forall2 Q l l'.
Proof. induction 1; constructor; auto. Qed.

(** ** Layout of the object table *)
Definition is_page (o : obj) : bool := match o with OPage _ => true | _ => false end.
Definition is_content (o : obj) : bool := match o with OContent _ => true | _ => false end.
Definition neutral (o : obj) : bool := negb (is_page o) && negb (is_content o).
Definition none_of (f : obj -> bool) (l : list obj) : Prop := forallb (fun o => negb (f o)) l = true.

Lemma none_of_app f a b : none_of f (a ++ b) <-> none_of f a /\ none_of f b.
Proof. unfold none_of. rewrite forallb_app, andb_true_iff. tauto. Qed.
Lemma none_of_one f o : none_of f [o] <-> f o = false.
Proof. unfold none_of. cbn. rewrite andb_true_r, negb_true_iff. tauto. Qed.
Lemma none_of_cons f o l : none_of f (o :: l) <-> f o = false /\ none_of f l.
Proof. unfold none_of. cbn. rewrite andb_true_iff, negb_true_iff. tauto. Qed.
Lemma none_of_nil f : none_of f [].
Proof. reflexivity. Qed.

(** Pages of a table with the drawings attached to each. *)
Definition vstep (acc : list (page * list item)) (o : obj) : list (page * list item) :=
  match o with
  | OPage p => acc ++ [(p, [])]
  | OContent l => upd_last (fun '(p, its) => (p, its ++ l)) acc
  | _ => acc
  end.
Definition vw (l : list obj) : list (page * list item) := fold_left vstep l [].

(** The current content inside the part of the table after the last page. *)
Definition tailrel (tail : list obj) (gc : option nat) (off : nat) (its : list item) : Prop :=
  match gc with
  | None => none_of is_content tail /\ its = []
  | Some i => exists t1 t2, tail = t1 ++ OContent its :: t2 /\ i = (off + List.length t1)%nat /\
                            none_of is_content t1 /\ none_of is_content t2
  end.

Inductive Lay : list obj -> option nat -> option nat -> list (page * list item) -> Prop :=
| Lay0 objs gc its : none_of is_page objs -> tailrel objs gc 0 its -> Lay objs None gc []
| Lay1 pre p tail gc its : none_of is_page tail -> tailrel tail gc (List.length pre + 1) its ->
    Lay (pre ++ OPage p :: tail) (Some (List.length pre)) gc (vw pre ++ [(p, its)]).

Lemma vfold_neutral l acc : none_of is_page l -> none_of is_content l -> fold_left vstep l acc = acc.
Proof.
  revert acc; induction l as [|o l IH]; intros acc Hp Hc; [reflexivity|].
  apply none_of_cons in Hp as [Hp1 Hp2]. apply none_of_cons in Hc as [Hc1 Hc2].
  cbn [fold_left]. replace (vstep acc o) with acc by (destruct o; try discriminate; reflexivity). auto.
Qed.

Lemma vw_no_page l : none_of is_page l -> vw l = [].
Proof.
  unfold vw. intros H. assert (G : forall l, none_of is_page l -> fold_left vstep l [] = []).
  { induction l0 as [|o l0 IH]; intros Hl; [reflexivity|]. apply none_of_cons in Hl as [H1 H2].
    cbn [fold_left]. replace (vstep [] o) with (@nil (page * list item)) by (destruct o; try discriminate; reflexivity). auto. }
  auto.
Qed.

Lemma Lay_vw objs pg gc pages : Lay objs pg gc pages -> vw objs = pages.
Proof.
  intros H. inversion H; subst; clear H.
  - now apply vw_no_page.
  - unfold vw. rewrite fold_left_app. cbn [fold_left vstep]. fold (vw pre).
    unfold tailrel in *. destruct gc as [i|].
    + match goal with H : exists _ _, _ |- _ => destruct H as (t1 & t2 & -> & _ & C1 & C2) end.
      match goal with H : none_of is_page (_ ++ _) |- _ => apply none_of_app in H as [P1 P2]; apply none_of_cons in P2 as [_ P2] end.
      rewrite fold_left_app, (vfold_neutral t1) by assumption. cbn [fold_left vstep].
      rewrite upd_last_snoc. cbn [app]. now rewrite vfold_neutral.
    + match goal with H : _ /\ _ |- _ => destruct H as [C ->] end. now rewrite vfold_neutral.
Qed.

Lemma neutral_spec o : neutral o = true <-> is_page o = false /\ is_content o = false.
Proof. unfold neutral. rewrite andb_true_iff, !negb_true_iff. tauto. Qed.

Lemma tailrel_snoc tail gc off its o : is_content o = false ->
  tailrel tail gc off its -> tailrel (tail ++ [o]) gc off its.
Proof.
  intros Ho. unfold tailrel. destruct gc as [i|].
  - intros (t1 & t2 & -> & E & C1 & C2). exists t1, (t2 ++ [o]). rewrite <- app_assoc. cbn [app].
    repeat split; auto. apply none_of_app. split; [assumption|]. now apply none_of_one.
  - intros [C ->]. split; [|reflexivity]. apply none_of_app. split; [assumption|]. now apply none_of_one.
Qed.

Lemma Lay_neutral objs pg gc pages o : neutral o = true ->
  Lay objs pg gc pages -> Lay (objs ++ [o]) pg gc pages.
Proof.
  intros Hn H. apply neutral_spec in Hn as [N1 N2]. inversion H; subst; clear H.
  - econstructor.
    + apply none_of_app. split; [assumption|]. now apply none_of_one.
    + eapply tailrel_snoc; eauto.
  - rewrite <- app_assoc. cbn [app]. constructor.
    + apply none_of_app. split; [assumption|]. now apply none_of_one.
    + now apply tailrel_snoc.
Qed.

Lemma Lay_newpage objs pg gc pages p :
  Lay objs pg gc pages -> Lay (objs ++ [OPage p]) (Some (List.length objs)) None (pages ++ [(p, [])]).
Proof.
  intros H. rewrite <- (Lay_vw _ _ _ _ H). apply Lay1; [apply none_of_nil|]. split; [apply none_of_nil|reflexivity].
Qed.

Lemma Lay_newcontent objs pg pages :
  Lay objs pg None pages -> Lay (objs ++ [OContent []]) pg (Some (List.length objs)) pages.
Proof.
  intros H. inversion H; subst; clear H.
  - eapply Lay0 with (its := []).
    + apply none_of_app. split; [assumption|]. now apply none_of_one.
    + match goal with H : tailrel _ _ _ _ |- _ => destruct H as [C ->] end.
      exists objs, []. rewrite Nat.add_0_l. repeat split; auto.
  - rewrite <- app_assoc. cbn [app].
    match goal with H : tailrel _ _ _ _ |- _ => destruct H as [C ->] end.
    constructor.
    + apply none_of_app. split; [assumption|]. now apply none_of_one.
    + exists tail, []. repeat split; auto. rewrite app_length. cbn. lia.
Qed.

Definition add_item (it : item) (o : obj) : obj := match o with OContent l => OContent (l ++ [it]) | _ => o end.

Lemma Lay_append objs pg i pages it :
  Lay objs pg (Some i) pages ->
  Lay (upd objs i (add_item it)) pg (Some i) (upd_last (fun '(p, its) => (p, its ++ [it])) pages).
Proof.
  intros H. inversion H; subst; clear H.
  - match goal with H : tailrel _ _ _ _ |- _ => destruct H as (t1 & t2 & -> & E & C1 & C2) end.
    cbn in E. subst i. rewrite upd_app. cbn [upd_last add_item].
    match goal with H : none_of is_page (_ ++ _) |- _ => apply none_of_app in H as [P1 P2]; apply none_of_cons in P2 as [_ P2] end.
    eapply Lay0 with (its := its ++ [it]).
    + apply none_of_app; split; [assumption|]. apply none_of_cons. auto.
    + exists t1, t2. repeat split; auto.
  - match goal with H : tailrel _ _ _ _ |- _ => destruct H as (t1 & t2 & -> & E & C1 & C2) end.
    subst i. rewrite upd_last_snoc. cbn [app].
    match goal with H : none_of is_page (_ ++ _) |- _ => apply none_of_app in H as [P1 P2]; apply none_of_cons in P2 as [_ P2] end.
    replace (upd (pre ++ OPage p :: t1 ++ OContent its :: t2) (List.length pre + 1 + List.length t1) (add_item it))
      with (pre ++ OPage p :: t1 ++ OContent (its ++ [it]) :: t2).
    2:{ change (pre ++ OPage p :: t1 ++ OContent its :: t2) with (pre ++ (OPage p :: t1) ++ OContent its :: t2).
        rewrite (app_assoc pre). replace (List.length pre + 1 + List.length t1)%nat with (List.length (pre ++ OPage p :: t1)).
        - rewrite upd_app, <- app_assoc. reflexivity.
        - rewrite app_length. cbn. lia. }
    constructor.
    + apply none_of_app; split; [assumption|]. apply none_of_cons. auto.
    + exists t1, t2. repeat split; auto.
Qed.

(** In-place change of the last page (links) or of a neutral object. *)
Lemma Lay_updpage objs i gc pages f :
  (forall p, f (OPage p) = OPage match f (OPage p) with OPage q => q | _ => p end) ->
  Lay objs (Some i) gc pages ->
  Lay (upd objs i f) (Some i) gc (upd_last (fun '(p, its) => (match f (OPage p) with OPage q => q | _ => p end, its)) pages).
Proof.
  intros Hf H. inversion H; subst; clear H.
  rewrite upd_app, upd_last_snoc, (Hf p) at 1. constructor; assumption.
Qed.

Definition keeps_kind (f : obj -> obj) : Prop := forall o, (neutral o = true -> neutral (f o) = true) /\ (neutral o = false -> f o = o).

Lemma keeps_page f o : keeps_kind f -> is_page (f o) = is_page o.
Proof.
  intros K. destruct (K o) as [K1 K2]. destruct (neutral o) eqn:N.
  - specialize (K1 eq_refl). apply neutral_spec in K1, N. destruct K1, N. congruence.
  - now rewrite K2.
Qed.
Lemma keeps_content f o : keeps_kind f -> is_content (f o) = is_content o.
Proof.
  intros K. destruct (K o) as [K1 K2]. destruct (neutral o) eqn:N.
  - specialize (K1 eq_refl). apply neutral_spec in K1, N. destruct K1, N. congruence.
  - now rewrite K2.
Qed.
Lemma none_of_upd (g : obj -> bool) f l : forall i, (forall o, g (f o) = g o) -> none_of g l -> none_of g (upd l i f).
Proof.
  induction l as [|o l IH]; intros i Hg H; [destruct i; exact H|].
  apply none_of_cons in H as [H1 H2]. destruct i; cbn [upd]; apply none_of_cons; split; auto. now rewrite Hg.
Qed.
Lemma upd_app_l {A} (a b : list A) i f : (i < List.length a)%nat -> upd (a ++ b) i f = upd a i f ++ b.
Proof. revert i; induction a as [|x a IH]; intros [|i] H; cbn in *; try lia; [reflexivity|]. rewrite IH by lia. reflexivity. Qed.
Lemma upd_app_r {A} (a b : list A) i f : (List.length a <= i)%nat -> upd (a ++ b) i f = a ++ upd b (i - List.length a) f.
Proof. revert i; induction a as [|x a IH]; intros [|i] H; cbn in *; try lia; try reflexivity. rewrite IH by lia. reflexivity. Qed.

Lemma vw_keeps f l : forall i acc, keeps_kind f -> fold_left vstep (upd l i f) acc = fold_left vstep l acc.
Proof.
  induction l as [|o l IH]; intros i acc K; [destruct i; reflexivity|].
  destruct i; cbn [upd fold_left]; [|now apply IH].
  f_equal. destruct (K o) as [K1 K2]. destruct (neutral o) eqn:N; [|now rewrite K2].
  specialize (K1 eq_refl). destruct (f o), o; try discriminate; reflexivity.
Qed.

Lemma tailrel_keeps f tail gc off its i : keeps_kind f -> tailrel tail gc off its -> tailrel (upd tail i f) gc off its.
Proof.
  intros K. unfold tailrel. destruct gc as [j|].
  - intros (t1 & t2 & -> & E & C1 & C2).
    destruct (Nat.lt_ge_cases i (List.length t1)) as [L|L].
    + rewrite upd_app_l by assumption. exists (upd t1 i f), t2. rewrite upd_length. repeat split; auto.
      apply none_of_upd; auto using keeps_content.
    + rewrite upd_app_r by assumption. destruct (i - List.length t1)%nat as [|m]; cbn [upd].
      * rewrite (proj2 (K (OContent its)) eq_refl). exists t1, t2. auto.
      * exists t1, (upd t2 m f). repeat split; auto. apply none_of_upd; auto using keeps_content.
  - intros [C ->]. split; [|reflexivity]. apply none_of_upd; auto using keeps_content.
Qed.

Lemma Lay_keeps f objs pg gc pages i : keeps_kind f -> Lay objs pg gc pages -> Lay (upd objs i f) pg gc pages.
Proof.
  intros K H. inversion H; subst; clear H.
  - econstructor; [apply none_of_upd; auto using keeps_page|]. eapply tailrel_keeps; eauto.
  - destruct (Nat.lt_ge_cases i (List.length pre)) as [L|L].
    + rewrite upd_app_l by assumption.
      replace (vw pre) with (vw (upd pre i f)) by (apply vw_keeps; assumption).
      replace (Some (List.length pre)) with (Some (List.length (upd pre i f))) by (now rewrite upd_length).
      constructor; [assumption|]. now rewrite upd_length.
    + rewrite upd_app_r by assumption. destruct (i - List.length pre)%nat as [|m]; cbn [upd].
      * rewrite (proj2 (K (OPage p)) eq_refl). constructor; assumption.
      * constructor; [apply none_of_upd; auto using keeps_page|]. now apply tailrel_keeps.
Qed.

(** ** prepare in closed form *)
Fixpoint prep_kids (l : list obj) (i : nat) : list Z :=
  match l with
  | [] => []
  | o :: r => (if is_page o then [Z.of_nat i + 1] else []) ++ prep_kids r (S i)
  end.
(** Content object numbers up to the next page. *)
Fixpoint contents_until_page (l : list obj) (i : nat) : list Z :=
  match l with
  | [] => []
  | o :: r => if is_page o then []
              else (if is_content o then [Z.of_nat i + 1] else []) ++ contents_until_page r (S i)
  end.
Definition more_contents (c : list Z) (o : obj) : obj :=
  match o with
  | OPage p => OPage {| pg_size := pg_size p; pg_contents := pg_contents p ++ c; pg_links := pg_links p |}
  | _ => o end.
Fixpoint prep_objs (l : list obj) (i : nat) : list obj :=
  match l with
  | [] => []
  | o :: r => more_contents (contents_until_page r (S i)) o :: prep_objs r (S i)
  end.

Lemma more_contents_nil o : more_contents [] o = o.
Proof. destruct o as [| | | |p| | | | | | | | | | | | | | | | |]; try reflexivity. destruct p; cbn. now rewrite app_nil_r. Qed.
Lemma more_contents_app a b o : more_contents b (more_contents a o) = more_contents (a ++ b) o.
Proof. destruct o; try reflexivity. cbn. now rewrite app_assoc. Qed.
Lemma upd_upd {A} (l : list A) i f g : upd (upd l i f) i g = upd l i (fun x => g (f x)).
Proof. revert i; induction l as [|x l IH]; intros [|i]; cbn; [reflexivity..|]. now rewrite IH. Qed.
Lemma upd_ext {A} (l : list A) i f g : (forall x, f x = g x) -> upd l i f = upd l i g.
Proof. intros E. revert i; induction l as [|x l IH]; intros [|i]; cbn; try reflexivity; [now rewrite E|now rewrite IH]. Qed.
Lemma upd_id {A} (l : list A) i f : (forall x, f x = x) -> upd l i f = l.
Proof. intros E. revert i; induction l as [|x l IH]; intros [|i]; cbn; try reflexivity; [now rewrite E|now rewrite IH]. Qed.

Lemma prep_loop rest : forall don kids cnt cur enc,
  (forall p, cur = Some p -> (p < List.length don)%nat) ->
  let st := fold_left prep_step (seq (List.length don) (List.length rest))
     {| ps_objs := don ++ rest; ps_kids := kids; ps_count := cnt; ps_cur := cur; ps_enc := enc |} in
  ps_objs st = (match cur with
                | Some p => upd don p (more_contents (contents_until_page rest (List.length don)))
                | None => don end) ++ prep_objs rest (List.length don)
  /\ ps_kids st = kids ++ prep_kids rest (List.length don)
  /\ ps_count st = cnt + zlen (prep_kids rest (List.length don)).
Proof.
  induction rest as [|o rest IH]; intros don kids cnt cur enc Hcur; cbn zeta in *.
  - cbn [List.length seq fold_left ps_objs ps_kids ps_count prep_objs prep_kids contents_until_page].
    rewrite !app_nil_r, zlen_nil. split; [|split; [reflexivity|lia]].
    destruct cur as [p|]; [|reflexivity]. symmetry. apply upd_id, more_contents_nil.
  - cbn [List.length seq fold_left].
    assert (E1 : forall d, List.length d = List.length don -> S (List.length don) = List.length (d ++ [o]))
      by (intros d Hd; rewrite app_length, Hd; cbn; lia).
    match goal with |- context [prep_step ?a ?b] => remember (prep_step a b) as st1 eqn:Est1 end.
    unfold prep_step in Est1. cbn [ps_objs ps_kids ps_count ps_cur ps_enc] in Est1. rewrite nth_app_len in Est1.
    destruct (is_page o) eqn:Hp; [|destruct (is_content o) eqn:Hc].
    + destruct o; try discriminate. subst st1.
      rewrite (E1 don eq_refl).
      replace (don ++ OPage p :: rest) with ((don ++ [OPage p]) ++ rest) by (rewrite <- app_assoc; reflexivity).
      edestruct (IH (don ++ [OPage p]) (kids ++ [Z.of_nat (List.length don) + 1]) (cnt + 1) (Some (List.length don)) enc)
        as (I1 & I2 & I3).
      { intros q [= <-]. rewrite app_length; cbn; lia. }
      rewrite I1, I2, I3. rewrite upd_app.
      rewrite <- (E1 don eq_refl).
      cbn [prep_objs contents_until_page prep_kids is_page].
      split; [|split].
      * rewrite <- app_assoc. cbn [app]. destruct cur as [q|]; [|reflexivity].
        rewrite upd_id by apply more_contents_nil. reflexivity.
      * rewrite <- app_assoc. reflexivity.
      * cbn [app]. rewrite zlen_cons. lia.
    + destruct o; try discriminate.
      destruct cur as [q|]; subst st1.
      * specialize (Hcur q eq_refl). rewrite upd_app_l by assumption.
        set (d' := upd don q (add_content (Z.of_nat (List.length don) + 1))).
        assert (Ld : List.length d' = List.length don) by apply upd_length.
        rewrite (E1 d' Ld).
        replace (d' ++ OContent l :: rest) with ((d' ++ [OContent l]) ++ rest) by (rewrite <- app_assoc; reflexivity).
        edestruct (IH (d' ++ [OContent l]) kids cnt (Some q) enc) as (I1 & I2 & I3).
        { intros r [= <-]. rewrite app_length, Ld; cbn; lia. }
        rewrite I1, I2, I3. rewrite <- (E1 d' Ld). rewrite upd_app_l by (rewrite Ld; assumption).
        cbn [prep_objs contents_until_page prep_kids is_page is_content app more_contents].
        split; [|split; [reflexivity|reflexivity]].
        rewrite <- app_assoc. cbn [app]. f_equal. unfold d'. rewrite upd_upd. apply upd_ext.
        intros x. destruct x; try reflexivity. cbn. rewrite <- app_assoc. reflexivity.
      * rewrite (E1 don eq_refl).
        replace (don ++ OContent l :: rest) with ((don ++ [OContent l]) ++ rest) by (rewrite <- app_assoc; reflexivity).
        edestruct (IH (don ++ [OContent l]) kids cnt None enc) as (I1 & I2 & I3); [discriminate|].
        rewrite I1, I2, I3. rewrite <- (E1 don eq_refl).
        cbn [prep_objs contents_until_page prep_kids is_page is_content app more_contents].
        rewrite <- app_assoc. cbn [app]. auto.
    + assert (Est : forall st', st' = {| ps_objs := don ++ o :: rest; ps_kids := kids; ps_count := cnt; ps_cur := cur; ps_enc := enc |}
          \/ st' = {| ps_objs := don ++ o :: rest; ps_kids := kids; ps_count := cnt; ps_cur := cur; ps_enc := Z.of_nat (List.length don) + 1 |} ->
          ps_objs (fold_left prep_step (seq (S (List.length don)) (List.length rest)) st') = (match cur with
                | Some p => upd don p (more_contents (contents_until_page (o :: rest) (List.length don)))
                | None => don end) ++ prep_objs (o :: rest) (List.length don)
          /\ ps_kids (fold_left prep_step (seq (S (List.length don)) (List.length rest)) st') = kids ++ prep_kids (o :: rest) (List.length don)
          /\ ps_count (fold_left prep_step (seq (S (List.length don)) (List.length rest)) st') = cnt + zlen (prep_kids (o :: rest) (List.length don))).
      { intros st' Hst.
        assert (G : exists enc', st' = {| ps_objs := (don ++ [o]) ++ rest; ps_kids := kids; ps_count := cnt; ps_cur := cur; ps_enc := enc' |}).
        { rewrite <- app_assoc. cbn [app]. destruct Hst as [->| ->]; eexists; reflexivity. }
        destruct G as [enc' ->]. rewrite (E1 don eq_refl).
        edestruct (IH (don ++ [o]) kids cnt cur enc') as (I1 & I2 & I3).
        { intros r Hr. specialize (Hcur r Hr). rewrite app_length; cbn; lia. }
        rewrite I1, I2, I3. rewrite <- (E1 don eq_refl).
        cbn [prep_objs contents_until_page prep_kids]. rewrite Hp, Hc. cbn [app].
        split; [|split; reflexivity].
        replace (more_contents (contents_until_page rest (S (List.length don))) o) with o by (destruct o; try discriminate; reflexivity).
        destruct cur as [q|]; [rewrite upd_app_l by (apply Hcur; reflexivity)|]; rewrite <- app_assoc; reflexivity. }
      apply Est. subst st1. destruct o; try discriminate; auto.
Qed.

Lemma prepare_eq s :
  let objs := g_objs s ++ (if cf_protect (g_cfg s) then [OEncryption] else []) in
  g_objs (prepare s) = prep_objs objs 0 /\
  g_kids (prepare s) = g_kids s ++ prep_kids objs 0 /\
  g_pagecount (prepare s) = g_pagecount s + zlen (prep_kids objs 0) /\
  g_fonts (prepare s) = g_fonts s /\ g_cs (prepare s) = g_cs s /\ g_xobjs (prepare s) = g_xobjs s /\
  g_npages (prepare s) = g_npages s.
Proof.
  cbn zeta. unfold prepare.
  set (s1 := if cf_protect (g_cfg s) then snd (addObj OEncryption s) else s).
  assert (E1 : g_objs s1 = g_objs s ++ (if cf_protect (g_cfg s) then [OEncryption] else []))
    by (unfold s1; destruct (cf_protect (g_cfg s)); [reflexivity|now rewrite app_nil_r]).
  assert (E2 : g_kids s1 = g_kids s /\ g_pagecount s1 = g_pagecount s /\ g_fonts s1 = g_fonts s /\ g_cs s1 = g_cs s
     /\ g_xobjs s1 = g_xobjs s /\ g_npages s1 = g_npages s)
    by (unfold s1; destruct (cf_protect (g_cfg s)); repeat split).
  clearbody s1. set (s2 := if 0 <? g_outl_count s1 then set_cat_outl 3 s1 else s1).
  assert (E3 : g_objs s2 = g_objs s1 /\ g_kids s2 = g_kids s1 /\ g_pagecount s2 = g_pagecount s1 /\ g_fonts s2 = g_fonts s1
     /\ g_cs s2 = g_cs s1 /\ g_xobjs s2 = g_xobjs s1 /\ g_npages s2 = g_npages s1)
    by (unfold s2; destruct (0 <? g_outl_count s1); repeat split).
  clearbody s2. destruct E2 as (A1 & A2 & A3 & A4 & A5 & A6). destruct E3 as (B1 & B2 & B3 & B4 & B5 & B6 & B7).
  destruct (prep_loop (g_objs s2) [] (g_kids s2) (g_pagecount s2) None (g_encid s2)) as (P1 & P2 & P3); [discriminate|].
  cbn [List.length app] in P1, P2, P3.
  cbn [set_objs set_kids set_pagecount set_encid g_objs g_kids g_pagecount g_fonts g_cs g_xobjs g_npages].
  rewrite P1, P2, P3, B1, B2, B3, B4, B5, B6, B7, E1, A1, A2, A3, A4, A5, A6. repeat split.
Qed.

(** ** Reading the output back *)
Fixpoint items_until (l : list obj) : list item :=
  match l with
  | [] => []
  | OPage _ :: _ => []
  | OContent c :: r => c ++ items_until r
  | _ :: r => items_until r
  end.
Fixpoint vr (l : list obj) : list (page * list item) :=
  match l with
  | [] => []
  | OPage p :: r => (p, items_until r) :: vr r
  | _ :: r => vr r
  end.
Lemma upd_last_id {A} (f : A -> A) l : (forall x, f x = x) -> upd_last f l = l.
Proof. intros E. induction l as [|x l IH]; [reflexivity|]. cbn. destruct l; [now rewrite E|]. now rewrite IH. Qed.
Lemma upd_last_upd_last {A} (f g : A -> A) l : upd_last g (upd_last f l) = upd_last (fun x => g (f x)) l.
Proof.
  induction l as [|x l IH] using rev_ind; [reflexivity|]. now rewrite !upd_last_snoc.
Qed.
Lemma upd_last_ext {A} (f g : A -> A) l : (forall x, f x = g x) -> upd_last f l = upd_last g l.
Proof. intros E. induction l as [|x l IH]; [reflexivity|]. cbn. destruct l; [now rewrite E|]. now rewrite IH. Qed.

Lemma vfold_vr l : forall acc,
  fold_left vstep l acc = upd_last (fun '(p, its) => (p, its ++ items_until l)) acc ++ vr l.
Proof.
  induction l as [|o l IH]; intros acc; cbn [fold_left].
  - cbn. rewrite app_nil_r. symmetry. apply upd_last_id. intros [p its]. now rewrite app_nil_r.
  - destruct o; cbn [vstep items_until vr]; try apply IH.
    + rewrite IH, upd_last_snoc. cbn [app]. rewrite <- app_assoc. cbn [app]. f_equal.
      symmetry. apply upd_last_id. intros [q its]. now rewrite app_nil_r.
    + rewrite IH, upd_last_upd_last. f_equal. apply upd_last_ext. intros [q its]. now rewrite app_assoc.
Qed.
Lemma vw_vr l : vw l = vr l.
Proof. unfold vw. now rewrite vfold_vr. Qed.

Lemma nth_prep l : forall i k, nth_error (prep_objs l i) k
  = option_map (more_contents (contents_until_page (skipn (S k) l) (i + S k))) (nth_error l k).
Proof.
  induction l as [|o l IH]; intros i [|k]; cbn [prep_objs nth_error option_map]; try reflexivity.
  - cbn [skipn]. now rewrite Nat.add_1_r.
  - rewrite IH. cbn [skipn]. replace (S i + S k)%nat with (i + S (S k))%nat by lia. reflexivity.
Qed.

Lemma obj_no_of_nat t k : obj_no t (Z.of_nat k + 1) = nth_error (g_objs t) k.
Proof. unfold obj_no. destruct (Z.leb_spec (Z.of_nat k + 1) 0); [lia|]. f_equal. lia. Qed.

Lemma contents_items t l : forall pre, g_objs t = map written_obj (prep_objs (pre ++ l) 0) ->
  flat_map (content_no t) (contents_until_page l (List.length pre)) = map written_item (items_until l).
Proof.
  induction l as [|o l IH]; intros pre Ht; [reflexivity|].
  specialize (IH (pre ++ [o])). rewrite <- app_assoc in IH. specialize (IH Ht).
  rewrite app_length in IH. cbn [List.length] in IH. rewrite Nat.add_1_r in IH.
  cbn [contents_until_page]. destruct (is_page o) eqn:Hp; [destruct o; try discriminate; reflexivity|].
  destruct (is_content o) eqn:Hc; cbn [app flat_map].
  - destruct o; try discriminate. cbn [items_until]. rewrite map_app. rewrite <- IH. f_equal.
    unfold content_no. rewrite obj_no_of_nat, Ht, nth_error_map, nth_prep, nth_app_len. reflexivity.
  - rewrite IH. destruct o; try discriminate; reflexivity.
Qed.

Lemma read_pages_suffix t l : forall pre,
  g_objs t = map written_obj (prep_objs (pre ++ l) 0) ->
  map (read_page t) (prep_kids l (List.length pre))
  = map (fun '(p, its) => Some {| sh_size := pg_size p;
         sh_items := map (show t) (flat_map (content_no t) (pg_contents p) ++ map written_item its);
         sh_links := map (link_no t) (pg_links p) |}) (vr l).
Proof.
  induction l as [|o l IH]; intros pre Ht; [reflexivity|].
  pose proof (contents_items t l (pre ++ [o])) as C.
  specialize (IH (pre ++ [o])). rewrite <- app_assoc in IH, C. specialize (IH Ht). specialize (C Ht).
  rewrite app_length in IH, C. cbn [List.length] in IH, C. rewrite Nat.add_1_r in IH, C.
  cbn [prep_kids]. destruct (is_page o) eqn:Hp.
  - destruct o; try discriminate. cbn [app map vr]. rewrite IH. f_equal.
    unfold read_page. rewrite obj_no_of_nat, Ht, nth_error_map, nth_prep, nth_app_len.
    cbn [option_map more_contents written_obj pg_size pg_contents pg_links].
    rewrite flat_map_app. replace (skipn (S (List.length pre)) (pre ++ OPage p :: l)) with l.
    2:{ rewrite skipn_app, skipn_all2 by lia. cbn [app]. replace (S (List.length pre) - List.length pre)%nat with 1%nat by lia. reflexivity. }
    rewrite Nat.add_0_l. rewrite C. reflexivity.
  - cbn [app]. rewrite IH. destruct o; try discriminate; reflexivity.
Qed.

Lemma vr_app_neutral l o : neutral o = true -> vr (l ++ [o]) = vr l.
Proof.
  intros N. rewrite <- !vw_vr. unfold vw. rewrite fold_left_app. cbn [fold_left].
  destruct o; try discriminate; reflexivity.
Qed.

Lemma output_pages s :
  g_kids s = [] ->
  let t := output s in
  read_pages t
  = map (fun '(p, its) => Some {| sh_size := pg_size p;
         sh_items := map (show t) (flat_map (content_no t) (pg_contents p) ++ map written_item its);
         sh_links := map (link_no t) (pg_links p) |}) (vw (g_objs s)).
Proof.
  intros Hk t. unfold read_pages.
  destruct (prepare_eq s) as (P1 & P2 & _).
  set (objs := g_objs s ++ (if cf_protect (g_cfg s) then [OEncryption] else [])) in *.
  assert (K : g_kids t = prep_kids objs 0) by (unfold t, output; cbn [g_kids set_objs]; rewrite P2, Hk; reflexivity).
  rewrite K. change 0%nat with (List.length (@nil obj)). rewrite (read_pages_suffix t objs []).
  - rewrite vw_vr. f_equal. unfold objs. destruct (cf_protect (g_cfg s)); [now apply vr_app_neutral|now rewrite app_nil_r].
  - unfold t, output. cbn [g_objs set_objs]. rewrite P1. reflexivity.
Qed.

Lemma prep_kids_len l : forall i, zlen (prep_kids l i) = zlen (vr l).
Proof.
  induction l as [|o l IH]; intros i; [reflexivity|]. cbn [prep_kids].
  rewrite zlen_app, IH. destruct o; cbn [is_page vr zlen List.length]; rewrite ?zlen_cons; unfold zlen; cbn [List.length]; lia.
Qed.

(** The table after output: same length (plus Encryption), static objects unchanged. *)
Definition static (o : obj) : bool :=
  match o with OImage _ _ | OSubsetFont _ | OColorSpace _ _ | OAnnot _ | OExtGState _ | OMask _ | OXGroup _ | OImported _ => true | _ => false end.
Lemma output_static s i o : static o = true -> nth_error (g_objs s) i = Some o -> nth_error (g_objs (output s)) i = Some o.
Proof.
  intros So H. destruct (prepare_eq s) as (P1 & _).
  unfold output. cbn [g_objs set_objs]. rewrite P1, nth_error_map, nth_prep, nth_error_app1 by (apply nth_error_Some; congruence).
  rewrite H. destruct o; try discriminate; reflexivity.
Qed.

(** ** Resource lookups *)
Definition sv (o : obj) : option obj := if static o then Some o else None.

Lemma sv_nth l l' i o : map sv l = map sv l' -> static o = true -> nth_error l i = Some o -> nth_error l' i = Some o.
Proof.
  intros E S H. assert (G : nth_error (map sv l) i = Some (Some o)).
  { rewrite nth_error_map, H. cbn. unfold sv. now rewrite S. }
  rewrite E, nth_error_map in G. destruct (nth_error l' i) as [o'|]; [|discriminate]. cbn in G. injection G.
  unfold sv. destruct (static o'); congruence.
Qed.
Lemma find_font_sv l : forall l' i fam st, map sv l = map sv l' -> find_font l i fam st = find_font l' i fam st.
Proof.
  induction l as [|o l IH]; intros [|o' l'] i fam st E; try discriminate; [reflexivity|].
  cbn [map] in E. injection E as E1 E2. specialize (IH l' (S i) fam st E2).
  destruct o, o'; cbn in *; try discriminate; try exact IH.
  injection E1 as ->. rewrite IH. reflexivity.
Qed.
Lemma find_cs_sv l : forall l' n, map sv l = map sv l' -> find_cs l n = find_cs l' n.
Proof.
  induction l as [|o l IH]; intros [|o' l'] n E; try discriminate; [reflexivity|].
  cbn [map] in E. injection E as E1 E2. specialize (IH l' n E2).
  destruct o, o'; cbn in *; try discriminate; try exact IH.
  injection E1 as -> ->. rewrite IH. reflexivity.
Qed.
Lemma find_font_app a : forall b i fam st, find_font (a ++ b) i fam st
  = match find_font a i fam st with Some r => Some r | None => find_font b (i + List.length a) fam st end.
Proof.
  induction a as [|o a IH]; intros b i fam st; cbn [app List.length].
  - now rewrite Nat.add_0_r.
  - replace (i + S (List.length a))%nat with (S i + List.length a)%nat by lia.
    destruct o; cbn [find_font]; try apply IH. destruct (_ && _); [reflexivity|apply IH].
Qed.
Lemma find_cs_app a : forall b n, find_cs (a ++ b) n = match find_cs a n with Some r => Some r | None => find_cs b n end.
Proof.
  induction a as [|o a IH]; intros b n; cbn [app]; [reflexivity|].
  destruct o; cbn [find_cs]; try apply IH. destruct (list_eqb _ _); [reflexivity|apply IH].
Qed.
Definition is_font (o : obj) : bool := match o with OSubsetFont _ => true | _ => false end.
Definition is_cs (o : obj) : bool := match o with OColorSpace _ _ => true | _ => false end.
Lemma find_font_none l : forall i fam st, none_of is_font l -> find_font l i fam st = None.
Proof.
  induction l as [|o l IH]; intros i fam st H; [reflexivity|]. apply none_of_cons in H as [H1 H2].
  destruct o; try discriminate; cbn; auto.
Qed.
Lemma find_cs_none l : forall n, none_of is_cs l -> find_cs l n = None.
Proof.
  induction l as [|o l IH]; intros n H; [reflexivity|]. apply none_of_cons in H as [H1 H2].
  destruct o; try discriminate; cbn; auto.
Qed.

Definition key_eq (fam : bytes) (st : Z) (r : relfont) : bool := list_eqb (rf_family r) fam && (rf_style r =? st).
Record FontsOK (objs : list obj) (fonts : list relfont) (cnt : Z) (afonts : list (bytes * Z)) : Prop := {
  fk_cnt : cnt = zlen fonts;
  fk_nth : forall k r, nth_error fonts k = Some r ->
     rf_count r = Z.of_nat k /\ exists f, nth_error objs (rf_index r) = Some (OSubsetFont f) /\
     fo_family f = rf_family r /\ fo_style f = rf_style r;
  fk_find : forall fam st i f, find_font objs 0 fam st = Some (i, f) ->
     exists r, In r fonts /\ rf_count r = fo_count f /\ rf_family r = fam /\ rf_style r = strip_underline st;
  fk_has : forall fam st, existsb (key_eq fam (strip_underline st)) fonts
     = existsb (fun fs => list_eqb (fst fs) fam && (snd fs =? strip_underline st)) afonts;
  fk_some : forall fam st, existsb (key_eq fam (strip_underline st)) fonts
     = match find_font objs 0 fam st with Some _ => true | None => false end }.
Record CsOK (objs : list obj) (cs : list relcs) (cnt : Z) (acs : list bytes) : Prop := {
  ck_cnt : cnt = zlen cs;
  ck_names : acs = map rc_name cs;
  ck_nth : forall k r, nth_error cs k = Some r ->
     rc_count r = Z.of_nat k /\ exists c, nth_error objs (rc_index r) = Some (OColorSpace (rc_name r) c);
  ck_find : forall n c, find_cs objs n = Some c -> exists r, In r cs /\ rc_count r = c /\ rc_name r = n;
  ck_some : forall n, existsb (fun m => list_eqb m n) acs = match find_cs objs n with Some _ => true | None => false end }.
Definition ImgsOK (objs : list obj) (xobjs : list nat) (imgs : list (bytes * nat)) (aimgs : list (bytes * bytes)) : Prop :=
  Forall2 (fun a b => fst a = fst b /\ In (snd a) xobjs /\
             exists im, nth_error objs (snd a) = Some (OImage im Plain) /\ im_data im = snd b) imgs aimgs.
Definition SelOK (font : option nat) (fc : Z) (fonts : list relfont) (sel : option (bytes * Z)) : Prop :=
  match sel with
  | None => font = None
  | Some (fam, st) => font <> None /\ exists r, In r fonts /\ rf_count r = fc /\ rf_family r = fam /\ rf_style r = st
  end.

Definition Quiet (objs objs' : list obj) : Prop :=
  exists new, map sv objs' = map sv (objs ++ new) /\ none_of is_font new /\ none_of is_cs new.
Lemma Quiet_refl l : Quiet l l.
Proof. exists []. now rewrite app_nil_r. Qed.
Lemma Quiet_trans a b c : Quiet a b -> Quiet b c -> Quiet a c.
Proof.
  intros (n1 & E1 & F1 & C1) (n2 & E2 & F2 & C2). exists (n1 ++ n2). split; [|split; apply none_of_app; auto].
  rewrite E2, !map_app, E1, map_app. now rewrite app_assoc.
Qed.
Lemma Quiet_snoc l o : is_font o = false -> is_cs o = false -> Quiet l (l ++ [o]).
Proof. intros H1 H2. exists [o]. split; [reflexivity|]. split; now apply none_of_one. Qed.
Lemma Quiet_upd l i f : (forall o, sv (f o) = sv o) -> Quiet l (upd l i f).
Proof.
  intros H. exists []. rewrite app_nil_r. split; [|split; reflexivity].
  revert i; induction l as [|o l IH]; intros [|i]; cbn; try reflexivity; [now rewrite H|now rewrite IH].
Qed.
Lemma Quiet_nth l l' i o : Quiet l l' -> static o = true -> nth_error l i = Some o -> nth_error l' i = Some o.
Proof.
  intros (n & E & _) S H. apply (sv_nth (l ++ n)); [now symmetry|assumption|].
  rewrite nth_error_app1; [assumption|]. apply nth_error_Some. congruence.
Qed.
Lemma Quiet_font l l' fam st : Quiet l l' -> find_font l' 0 fam st = find_font l 0 fam st.
Proof.
  intros (n & E & F & _). rewrite (find_font_sv _ _ _ _ _ E), find_font_app, (find_font_none n) by assumption.
  now destruct (find_font l 0 fam st).
Qed.
Lemma Quiet_cs l l' m : Quiet l l' -> find_cs l' m = find_cs l m.
Proof.
  intros (n & E & _ & F). rewrite (find_cs_sv _ _ _ E), find_cs_app, (find_cs_none n) by assumption.
  now destruct (find_cs l m).
Qed.
Lemma FontsOK_quiet l l' f c a : Quiet l l' -> FontsOK l f c a -> FontsOK l' f c a.
Proof.
  intros Q [A B C D E]. constructor; auto.
  - intros k r H. destruct (B k r H) as (B1 & g & B2 & B3). split; [assumption|]. exists g. split; [|assumption].
    eapply Quiet_nth; eauto.
  - intros fam st i g. rewrite (Quiet_font _ _ _ _ Q). apply C.
  - intros. now rewrite (Quiet_font _ _ _ _ Q).
Qed.
Lemma CsOK_quiet l l' f c a : Quiet l l' -> CsOK l f c a -> CsOK l' f c a.
Proof.
  intros Q [A B C D E]. constructor; auto.
  - intros k r H. destruct (C k r H) as (B1 & g & B2). split; [assumption|]. exists g. eapply Quiet_nth; eauto.
  - intros n g. rewrite (Quiet_cs _ _ _ Q). apply D.
  - intros. now rewrite (Quiet_cs _ _ _ Q).
Qed.
Lemma ImgsOK_mono l l' x x' i a : (forall k im, nth_error l k = Some (OImage im Plain) -> nth_error l' k = Some (OImage im Plain)) ->
  incl x x' -> ImgsOK l x i a -> ImgsOK l' x' i a.
Proof.
  intros Q I H. eapply Forall2_impl; [|exact H]. cbn. intros [p q] [r s] (A & B & im & C & D).
  split; [assumption|]. split; [now apply I|]. exists im. auto.
Qed.

(** ** Monotone growth *)
Record Ext (s s' : gp) : Prop := {
  ex_obj : forall i o, static o = true -> nth_error (g_objs s) i = Some o -> nth_error (g_objs s') i = Some o;
  ex_font : exists l, g_fonts s' = g_fonts s ++ l;
  ex_cs : exists l, g_cs s' = g_cs s ++ l;
  ex_x : incl (g_xobjs s) (g_xobjs s') }.
Lemma Ext_quiet s s' : Quiet (g_objs s) (g_objs s') -> g_fonts s' = g_fonts s -> g_cs s' = g_cs s ->
  incl (g_xobjs s) (g_xobjs s') -> Ext s s'.
Proof.
  intros Q F C X. constructor; auto.
  - intros i o S H. eapply Quiet_nth; eauto.
  - exists []. now rewrite app_nil_r.
  - exists []. now rewrite app_nil_r.
Qed.
Lemma Ext_trans a b c : Ext a b -> Ext b c -> Ext a c.
Proof.
  intros [A1 [f1 F1] [c1 C1] X1] [A2 [f2 F2] [c2 C2] X2]. constructor; auto.
  - exists (f1 ++ f2). rewrite F2, F1. now rewrite app_assoc.
  - exists (c1 ++ c2). rewrite C2, C1. now rewrite app_assoc.
  - eapply incl_tran; eauto.
Qed.
Lemma find_app_some {A} (f : A -> bool) a b x : find f a = Some x -> find f (a ++ b) = Some x.
Proof. induction a as [|y a IH]; cbn; [discriminate|]. destruct (f y); auto. Qed.
Lemma show_ext s s' it x : Ext s s' -> show s it = Some x -> show s' it = Some x.
Proof.
  intros [O0 [lf F] [lc C] X]. assert (O := fun i o N S => O0 i o S N). destruct it as [b|n ty ph|i gs|n|n t g]; cbn [show]; auto.
  - unfold xobj_res. destruct (existsb (Nat.eqb i) (g_xobjs s)) eqn:E; [|discriminate].
    assert (E' : existsb (Nat.eqb i) (g_xobjs s') = true).
    { apply existsb_exists in E as (k & K1 & K2). apply existsb_exists. exists k. auto. }
    rewrite E'. destruct (nth_error (g_objs s) i) as [o|] eqn:N; [|discriminate].
    destruct o; try discriminate. rewrite (O i _ N eq_refl). auto.
  - unfold cs_res. rewrite C. destruct (find _ (g_cs s)) as [r|] eqn:E; [|discriminate].
    rewrite (find_app_some _ _ _ _ E). destruct (nth_error (g_objs s) (rc_index r)) as [o|] eqn:N; [|discriminate].
    destruct o; try discriminate. rewrite (O _ _ N eq_refl). auto.
  - unfold font_res. rewrite F. destruct (find _ (g_fonts s)) as [r|] eqn:E; [|discriminate].
    rewrite (find_app_some _ _ _ _ E). destruct (nth_error (g_objs s) (rf_index r)) as [o|] eqn:N; [|discriminate].
    destruct o; try discriminate. rewrite (O _ _ N eq_refl). auto.
Qed.
Lemma link_ext s s' n x : Ext s s' -> link_no s n = Some x -> link_no s' n = Some x.
Proof.
  intros E. unfold link_no, obj_no. destruct (n <=? 0); [auto|].
  destruct (nth_error (g_objs s) _) as [o|] eqn:N; [|discriminate]. destruct o; try discriminate.
  assert (O := fun i o N S => ex_obj _ _ E i o S N). rewrite (O _ _ N eq_refl). auto.
Qed.

Definition PgRel (s : gp) (pp : page * list item) (ap : apage) : Prop :=
  pg_size (fst pp) = ap_size ap /\ pg_contents (fst pp) = [] /\
  Forall2 (fun it x => show s it = Some x) (snd pp) (ap_items ap) /\
  Forall2 (fun n x => link_no s n = Some x) (pg_links (fst pp)) (ap_links ap).
Lemma PgRel_ext s s' pages aps : Ext s s' -> Forall2 (PgRel s) pages aps -> Forall2 (PgRel s') pages aps.
Proof.
  intros E H. eapply Forall2_impl; [|exact H]. intros pp ap (A & B & C & D). repeat split; auto.
  - eapply Forall2_impl; [|exact C]. intros; eapply show_ext; eauto.
  - eapply Forall2_impl; [|exact D]. intros; eapply link_ext; eauto.
Qed.

Record Inv (s : gp) (d : adoc) (pages : list (page * list item)) : Prop := {
  iv_lay : Lay (g_objs s) (g_page s) (g_content s) pages;
  iv_pages : Forall2 (PgRel s) pages (a_pages d);
  iv_cfg : g_cfg s = a_cfg d;
  iv_size : g_pagesize s = None <-> a_pages d = [];
  iv_fonts : FontsOK (g_objs s) (g_fonts s) (g_countfont s) (a_fonts d);
  iv_sel : SelOK (g_font s) (g_fontcount s) (g_fonts s) (a_sel d);
  iv_imgs : ImgsOK (g_objs s) (g_xobjs s) (g_imgs s) (a_imgs d);
  iv_cs : CsOK (g_objs s) (g_cs s) (g_countcs s) (a_cs d);
  iv_hdr : g_header s = a_header d /\ match a_header d with Some l => forallb plain_sop l = true | None => True end;
  iv_ftr : g_footer s = a_footer d /\ match a_footer d with Some l => forallb plain_sop l = true | None => True end;
  iv_kids : g_kids s = [] /\ g_pagecount s = 0;
  iv_n : g_npages s = a_total d }.

(** Fields an operation may not touch. *)
Definition same_rest (s s' : gp) : Prop :=
  g_cfg s' = g_cfg s /\ g_pagesize s' = g_pagesize s /\ g_countfont s' = g_countfont s /\
  g_fonts s' = g_fonts s /\ g_font s' = g_font s /\ g_fontcount s' = g_fontcount s /\
  g_imgs s' = g_imgs s /\ g_cs s' = g_cs s /\ g_countcs s' = g_countcs s /\
  g_header s' = g_header s /\ g_footer s' = g_footer s /\ g_kids s' = g_kids s /\ g_pagecount s' = g_pagecount s /\
  g_npages s' = g_npages s.

Lemma Inv_quiet s s' d pages pages' aps :
  Inv s d pages -> same_rest s s' -> Quiet (g_objs s) (g_objs s') -> incl (g_xobjs s) (g_xobjs s') ->
  Lay (g_objs s') (g_page s') (g_content s') pages' ->
  (aps = [] <-> a_pages d = []) ->
  (Forall2 (PgRel s') pages (a_pages d) -> Forall2 (PgRel s') pages' aps) ->
  Inv s' (with_pages aps d) pages'.
Proof.
  intros I R Q X L N P. destruct I. destruct R as (R1 & R2 & R3 & R4 & R5 & R6 & R7 & R8 & R9 & R10 & R11 & R12 & R13 & R14).
  constructor; cbn; rewrite ?R1, ?R2, ?R3, ?R4, ?R5, ?R6, ?R7, ?R8, ?R9, ?R10, ?R11, ?R12, ?R13, ?R14; auto.
  - apply P. eapply PgRel_ext; [|eassumption]. now apply Ext_quiet.
  - now rewrite N.
  - eapply FontsOK_quiet; eauto.
  - eapply ImgsOK_mono; [|eassumption|eassumption]. intros k im. now apply Quiet_nth.
  - eapply CsOK_quiet; eauto.
Qed.
Lemma with_pages_id d : with_pages (a_pages d) d = d.
Proof. now destruct d. Qed.
Lemma Inv_quiet0 s s' d pages :
  Inv s d pages -> same_rest s s' -> Quiet (g_objs s) (g_objs s') -> incl (g_xobjs s) (g_xobjs s') ->
  Lay (g_objs s') (g_page s') (g_content s') pages -> Inv s' d pages.
Proof.
  intros I R Q X L. rewrite <- (with_pages_id d). eapply Inv_quiet; eauto. tauto.
Qed.

Lemma Inv_getContent s d pages : Inv s d pages ->
  exists i, fst (getContent s) = i /\ g_content (snd (getContent s)) = Some i /\
            Inv (snd (getContent s)) d pages /\ same_rest s (snd (getContent s)) /\ Quiet (g_objs s) (g_objs (snd (getContent s)))
            /\ g_xobjs (snd (getContent s)) = g_xobjs s /\ g_page (snd (getContent s)) = g_page s
            /\ g_tr (snd (getContent s)) = g_tr s.
Proof.
  intros I. unfold getContent. destruct (g_content s) as [i|] eqn:G.
  - exists i. cbn. split; [reflexivity|]. split; [assumption|]. split; [exact I|]. split; [repeat split|]. split; [apply Quiet_refl|]. auto.
  - cbn [addObj]. eexists. cbn [fst snd]. split; [reflexivity|]. split; [reflexivity|].
    assert (Q : Quiet (g_objs s) (g_objs s ++ [OContent []])) by (now apply Quiet_snoc).
    assert (R : same_rest s (set_content (Some (List.length (g_objs s))) (set_objs (g_objs s ++ [OContent []]) s)))
      by (repeat split).
    split; [|split; [exact R|split; [exact Q|auto]]].
    eapply Inv_quiet0; eauto; [apply incl_refl|].
    cbn. apply Lay_newcontent. rewrite <- G. apply I.
Qed.

Lemma sv_add_item it o : sv (add_item it o) = sv o.
Proof. now destruct o. Qed.

Lemma Forall2_upd_last {A B} (R : A -> B -> Prop) f g l l' :
  (forall a b, R a b -> R (f a) (g b)) -> Forall2 R l l' -> Forall2 R (upd_last f l) (upd_last g l').
Proof.
  intros H F. induction F as [|a b l l' Rab F IH]; [constructor|].
  cbn. destruct F; [constructor; auto|]. constructor; auto.
Qed.
Lemma upd_last_nil {A} (f : A -> A) l : upd_last f l = [] <-> l = [].
Proof. destruct l; cbn; [tauto|]. destruct l; split; discriminate. Qed.

Lemma Inv_append s d pages i it x :
  Inv s d pages -> g_content s = Some i -> (forall t, Ext s t -> show t it = Some x) ->
  Inv (append_item i it s) (put x d) (upd_last (fun '(p, its) => (p, its ++ [it])) pages).
Proof.
  intros I G S.
  assert (Q : Quiet (g_objs s) (g_objs (append_item i it s))).
  { cbn. apply Quiet_upd. apply (sv_add_item it). }
  unfold put. eapply Inv_quiet; eauto.
  - repeat split.
  - apply incl_refl.
  - cbn. rewrite G. apply (Lay_append _ _ _ _ it). rewrite <- G. apply I.
  - apply upd_last_nil.
  - apply Forall2_upd_last. intros [p its] ap (A & B & C & D). repeat split; auto.
    apply Forall2_app; [exact C|]. constructor; [|constructor].
    apply S. apply Ext_quiet; auto using incl_refl.
Qed.

(** Drawing calls. *)
Lemma Inv_draw s d pages np it x :
  Inv s d pages -> (forall r t, Ext s t -> show t (it r) = Some x) ->
  let r := draw np it s in
  exists pages', Inv (fst r) (if no_pages d then d else put x d) pages' /\
                 (snd r = Panic <-> no_pages d = true /\ np = true) /\ snd r <> Err /\
                 (snd r = Ok -> Quiet (g_objs s) (g_objs (fst r)) /\ g_xobjs (fst r) = g_xobjs s /\ same_rest s (fst r) /\
                   g_page (fst r) = g_page s).
Proof.
  intros I S r. unfold r, draw. clear r.
  destruct (Inv_getContent s d pages I) as (i & G1 & G2 & I' & R & Q & X & P & _).
  destruct (getContent s) as [i' s']. cbn [fst snd] in *. subst i'.
  assert (R2 : g_pagesize s' = g_pagesize s) by apply R. rewrite R2.
  assert (E : Ext s s').
  { apply Ext_quiet; auto; try apply R. rewrite X. apply incl_refl. }
  assert (S' : forall r t, Ext s' t -> show t (it r) = Some x).
  { intros r t Et. apply S. eapply Ext_trans; eauto. }
  assert (Qa : forall rr, Quiet (g_objs s) (g_objs (append_item i (it rr) s'))).
  { intros rr. eapply Quiet_trans; [exact Q|]. cbn. apply Quiet_upd, (sv_add_item (it rr)). }
  destruct (g_pagesize s) as [r|] eqn:Ps.
  - assert (N : no_pages d = false).
    { unfold no_pages. destruct (a_pages d) eqn:Ea; [|reflexivity]. apply (iv_size _ _ _ I) in Ea. congruence. }
    rewrite N. eexists. split; [apply Inv_append; [exact I'|exact G2|exact (S' _)]|]. cbn [fst snd].
    split; [split; [discriminate|intros [? ?]; discriminate]|]. split; [discriminate|]. intros _.
    split; [apply Qa|]. split; [exact X|]. split; [exact R|exact P].
  - assert (N : no_pages d = true).
    { unfold no_pages. apply (iv_size _ _ _ I) in Ps. now rewrite Ps. }
    rewrite N. destruct np.
    + eexists. split; [exact I'|]. cbn [fst snd]. split; [tauto|]. split; [discriminate|]. discriminate.
    + pose proof (Inv_append s' d pages i (it {| r_w := 0; r_h := 0 |}) x I' G2 (S' _)) as I2.
      assert (En : a_pages d = []) by (now apply (iv_size _ _ _ I)).
      eexists. split.
      * replace d with (put x d) at 1; [exact I2|]. unfold put. rewrite En. cbn. rewrite <- En. apply with_pages_id.
      * cbn [fst snd]. split; [split; [discriminate|intros [? ?]; discriminate]|]. split; [discriminate|]. intros _.
        split; [apply Qa|]. split; [exact X|]. split; [exact R|exact P].
Qed.

(** ** Single steps *)
Lemma existsb_snoc {A} (f : A -> bool) l x : existsb f (l ++ [x]) = existsb f l || f x.
Proof. rewrite existsb_app. cbn. now rewrite orb_false_r. Qed.

Lemma Inv_addFont s d pages fam st :
  Inv s d pages -> (st =? strip_underline st) = true ->
  Inv (fst (addFont fam st s)) (fst (a_sop d (AddFont fam st))) pages /\ snd (addFont fam st s) = Ok.
Proof.
  intros I Hst. apply Z.eqb_eq in Hst.
  unfold addFont. cbn [addObj]. cbn [g_objs set_objs g_fonts g_countfont].
  set (base := (((g_objs s ++ [OUnicodeMap]) ++ [OPdfDict]) ++ [OSubDesc _]) ++ [OCIDFont _]).
  assert (Qb : Quiet (g_objs s) base).
  { unfold base. eapply Quiet_trans; [|apply Quiet_snoc; reflexivity]. eapply Quiet_trans; [|apply Quiet_snoc; reflexivity].
    eapply Quiet_trans; [|apply Quiet_snoc; reflexivity]. apply Quiet_snoc; reflexivity. }
  assert (Lb : Lay base (g_page s) (g_content s) pages).
  { unfold base. repeat apply Lay_neutral; try reflexivity. apply I. }
  assert (Fb : FontsOK base (g_fonts s) (g_countfont s) (a_fonts d)) by (eapply FontsOK_quiet; [exact Qb|apply I]).
  assert (Hnf : forall f, Lay (base ++ [OSubsetFont f]) (g_page s) (g_content s) pages) by (intros; now apply Lay_neutral).
  assert (Hst' : forall f i o, static o = true -> nth_error (g_objs s) i = Some o -> nth_error (base ++ [OSubsetFont f]) i = Some o).
  { intros f i o So H. apply nth_snoc_old. eapply Quiet_nth; eauto. }
  assert (Hcs : forall f, CsOK (base ++ [OSubsetFont f]) (g_cs s) (g_countcs s) (a_cs d)).
  { intros f. assert (Cb : CsOK base (g_cs s) (g_countcs s) (a_cs d)) by (eapply CsOK_quiet; [exact Qb|apply I]).
    destruct Cb as [A B C D E]. constructor; auto.
    - intros k r H. destruct (C k r H) as (B1 & g & B2). split; [assumption|]. exists g. now apply nth_snoc_old.
    - intros n g. rewrite find_cs_app. cbn. specialize (D n g). destruct (find_cs base n); [exact D|discriminate].
    - intros n. rewrite find_cs_app. cbn. rewrite E. now destruct (find_cs base n). }
  clearbody base.
  set (dup := existsb _ (g_fonts s)).
  assert (Hdup : dup = existsb (key_eq fam (strip_underline st)) (g_fonts s)) by reflexivity.
  clearbody dup.
  assert (Hff : forall f fm s0, find_font (base ++ [OSubsetFont f]) 0 fm s0
     = match find_font base 0 fm s0 with Some r => Some r | None =>
         if list_eqb (fo_family f) fm && (fo_style f =? strip_underline s0) then Some (List.length base, f) else None end).
  { intros f fm s0. rewrite find_font_app. destruct (find_font base 0 fm s0); [reflexivity|]. cbn [find_font]. reflexivity. }
  destruct dup eqn:Ed.
  - split; [|reflexivity]. cbn [fst snd a_sop].
    set (f := {| fo_family := fam; fo_style := st; fo_count := 0; fo_cid := _; fo_umap := _ |}).
    destruct I, Fb as [A B C D E].
    assert (Kf : exists z, find_font base 0 fam st = Some z).
    { specialize (E fam st). rewrite <- Hdup in E. destruct (find_font base 0 fam st) as [z|]; [eauto|discriminate]. }
    constructor; cbn; auto.
    + eapply PgRel_ext; [|eassumption]. constructor; cbn; auto using incl_refl; exists []; now rewrite app_nil_r.
    + constructor; auto.
      * intros k r H. destruct (B k r H) as (B1 & g & B2 & B3). split; [assumption|]. exists g. split; [|assumption]. now apply nth_snoc_old.
      * intros fm s0 i g. rewrite Hff. intros Hx. destruct (find_font base 0 fm s0) as [p|] eqn:Ef; [apply (C _ _ _ _ (eq_trans Ef Hx))|].
        cbn [fo_family fo_style f] in Hx. destruct (list_eqb fam fm && (st =? strip_underline s0)) eqn:Ek; [|discriminate].
        apply andb_true_iff in Ek as [E1 E2]. apply list_eqb_eq in E1. apply Z.eqb_eq in E2. subst fm.
        exfalso. destruct Kf as [z Kf]. specialize (E fam s0). rewrite Ef in E. rewrite Hst, E2 in Hdup.
        replace (strip_underline (strip_underline s0)) with (strip_underline s0) in Hdup by (unfold strip_underline; now rewrite Z.ldiff_ldiff_l). congruence.
      * intros fm s0. rewrite existsb_snoc. cbn [fst snd]. rewrite <- D.
        destruct (list_eqb fam fm && (st =? strip_underline s0)) eqn:Ek; [|now rewrite orb_false_r].
        apply andb_true_iff in Ek as [E1 E2]. apply list_eqb_eq in E1. apply Z.eqb_eq in E2. subst fm.
        rewrite Hst in E2. rewrite <- E2, <- Hdup. reflexivity.
      * intros fm s0. rewrite Hff, E. destruct (find_font base 0 fm s0) eqn:Ef; [reflexivity|].
        cbn [fo_family fo_style f]. destruct (list_eqb fam fm && (st =? strip_underline s0)) eqn:Ek; [|reflexivity].
        apply andb_true_iff in Ek as [E1 E2]. apply list_eqb_eq in E1. apply Z.eqb_eq in E2. subst fm.
        exfalso. rewrite Hst in E2. specialize (E fam s0). rewrite Ef, <- E2, <- Hdup in E. discriminate.
    + eapply ImgsOK_mono; [|apply incl_refl|eassumption]. intros k im. now apply Hst'.
  - split; [|reflexivity]. cbn [fst snd a_sop].
    set (f := {| fo_family := fam; fo_style := st; fo_count := _; fo_cid := _; fo_umap := _ |}).
    set (r := {| rf_family := fam; rf_style := strip_underline st; rf_count := _; rf_index := _ |}).
    destruct I, Fb as [A B C D E].
    assert (Ekey : forall fm s0, key_eq fm (strip_underline s0) r = list_eqb fam fm && (st =? strip_underline s0)).
    { intros. unfold key_eq, r. cbn. now rewrite Hst at 2. }
    constructor; cbn; auto.
    + eapply PgRel_ext; [|eassumption]. constructor; cbn; auto using incl_refl; [exists [r]; reflexivity|exists []; now rewrite app_nil_r].
    + constructor; auto.
      * rewrite zlen_app, zlen_cons, zlen_nil. lia.
      * intros k q H. destruct (Nat.lt_ge_cases k (List.length (g_fonts s))) as [Lk|Lk].
        -- rewrite nth_error_app1 in H by assumption. destruct (B k q H) as (B1 & g & B2 & B3).
           split; [assumption|]. exists g. split; [|assumption]. now apply nth_snoc_old.
        -- assert (k = List.length (g_fonts s)).
           { assert (nth_error (g_fonts s ++ [r]) k <> None) by congruence. apply nth_error_Some in H0. rewrite app_length in H0. cbn in H0. lia. }
           subst k. rewrite nth_snoc_new in H. injection H as <-. cbn [rf_count rf_index rf_family rf_style r].
           split; [rewrite A; reflexivity|]. exists f. rewrite nth_snoc_new. auto.
      * intros fm s0 i g. rewrite Hff. intros Hx. destruct (find_font base 0 fm s0) as [p|] eqn:Ef.
        -- destruct (C _ _ _ _ (eq_trans Ef Hx)) as (q & Q1 & Q2). exists q. split; [apply in_or_app; auto|assumption].
        -- cbn [fo_family fo_style f] in Hx. destruct (list_eqb fam fm && (st =? strip_underline s0)) eqn:Ek; [|discriminate].
           apply andb_true_iff in Ek as [E1 E2]. apply list_eqb_eq in E1. apply Z.eqb_eq in E2. injection Hx as <- <-.
           exists r. cbn. split; [apply in_or_app; right; now left|]. repeat split; auto. congruence.
      * intros fm s0. rewrite !existsb_snoc. cbn [fst snd]. rewrite <- D, Ekey. reflexivity.
      * intros fm s0. rewrite existsb_snoc, Ekey, E, Hff. cbn [fo_family fo_style f].
        destruct (find_font base 0 fm s0); [reflexivity|]. cbn. now destruct (list_eqb fam fm && _).
    + unfold SelOK in *. destruct (a_sel d) as [[fm s0]|]; [|assumption]. destruct iv_sel0 as (N & q & Q1 & Q2).
      split; [assumption|]. exists q. split; [apply in_or_app; auto|assumption].
    + eapply ImgsOK_mono; [|apply incl_refl|eassumption]. intros k im. now apply Hst'.
Qed.

Lemma strip_idem st : strip_underline (strip_underline st) = strip_underline st.
Proof. unfold strip_underline. now rewrite Z.ldiff_ldiff_l. Qed.

Lemma Inv_setFont s d pages fam st sz :
  Inv s d pages ->
  Inv (fst (setFont fam st sz s)) (fst (a_sop d (SetFont fam st sz))) pages /\ snd (setFont fam st sz s) <> Panic.
Proof.
  intros I. unfold setFont. cbn [a_sop fst]. unfold has_font.
  rewrite <- (fk_has _ _ _ _ (iv_fonts _ _ _ I) fam st), (fk_some _ _ _ _ (iv_fonts _ _ _ I)).
  destruct (find_font (g_objs s) 0 fam st) as [[i f]|] eqn:E; cbn [fst snd].
  - split; [|discriminate]. destruct I. constructor; cbn; auto.
    split; [discriminate|]. destruct (fk_find _ _ _ _ iv_fonts0 _ _ _ _ E) as (r & R1 & R2 & R3 & R4). exists r. auto.
  - split; [assumption|discriminate].
Qed.

Lemma nth_find {A} (l : list A) (f : A -> bool) (g : A -> Z) : forall k r c,
  (forall j q, nth_error l j = Some q -> g q = Z.of_nat (k + j)) -> In r l -> g r = c ->
  find (fun x => g x + 1 =? c + 1) l = Some r.
Proof.
  induction l as [|x l IH]; intros k r c H In1 Hc; [contradiction|].
  cbn [find]. destruct In1 as [->|In1].
  - rewrite Hc, Z.eqb_refl. reflexivity.
  - destruct (Z.eqb_spec (g x + 1) (c + 1)) as [e|ne].
    + exfalso. apply In_nth_error in In1 as (j & Hj). pose proof (H (S j) r Hj). pose proof (H O x eq_refl). lia.
    + apply (IH (S k)); auto. intros j q Hq. rewrite (H (S j) q Hq). f_equal. lia.
Qed.

Lemma show_text s d pages fam st t g :
  Inv s d pages -> a_sel d = Some (fam, st) ->
  show s (IText (g_fontcount s + 1) t g) = Some (ShText fam st t).
Proof.
  intros I Hs. pose proof (iv_sel _ _ _ I) as S. rewrite Hs in S. destruct S as (_ & r & R1 & R2 & R3 & R4).
  cbn [show]. unfold font_res.
  rewrite (nth_find (g_fonts s) (fun _ => true) rf_count 0 r (g_fontcount s)); auto.
  2:{ intros j q Hq. apply (fk_nth _ _ _ _ (iv_fonts _ _ _ I)) in Hq as (H & _). exact H. }
  apply In_nth_error in R1 as (k & Hk).
  destruct (fk_nth _ _ _ _ (iv_fonts _ _ _ I) k r Hk) as (_ & f & F1 & F2 & F3). rewrite F1, F2, F3, R3, R4. reflexivity.
Qed.

Lemma show_cs s d pages n c :
  Inv s d pages -> find_cs (g_objs s) n = Some c -> show s (IColorSpace c) = Some (ShColorSpace n).
Proof.
  intros I Hf. destruct (ck_find _ _ _ _ (iv_cs _ _ _ I) n c Hf) as (r & R1 & R2 & R3).
  cbn [show]. unfold cs_res.
  rewrite (nth_find (g_cs s) (fun _ => true) rc_count 0 r c); auto.
  2:{ intros j q Hq. apply (ck_nth _ _ _ _ (iv_cs _ _ _ I)) in Hq as (H & _). exact H. }
  apply In_nth_error in R1 as (k & Hk).
  destruct (ck_nth _ _ _ _ (iv_cs _ _ _ I) k r Hk) as (_ & f & F1). rewrite F1, R3. reflexivity.
Qed.

(** Neutral objects appended to the table. *)
Lemma Inv_snoc s d pages o : neutral o = true -> is_font o = false -> is_cs o = false ->
  Inv s d pages -> Inv (snd (addObj o s)) d pages.
Proof.
  intros N F C I. cbn. eapply Inv_quiet0; eauto.
  - repeat split.
  - now apply Quiet_snoc.
  - apply incl_refl.
  - cbn. apply Lay_neutral; [assumption|apply I].
Qed.
(** Changes outside the fields of the invariant. *)
Lemma Inv_same s s' d pages : Inv s d pages -> same_rest s s' -> g_objs s' = g_objs s -> g_xobjs s' = g_xobjs s ->
  g_page s' = g_page s -> g_content s' = g_content s -> Inv s' d pages.
Proof.
  intros I R O X P C. eapply Inv_quiet0; eauto.
  - rewrite O. apply Quiet_refl.
  - rewrite X. apply incl_refl.
  - rewrite O, P, C. apply I.
Qed.

Lemma Inv_getCached s d pages e : Inv s d pages -> Inv (snd (getCachedExtGState e s)) d pages.
Proof.
  intros I. unfold getCachedExtGState. destruct (lookup (extgs_id e) (g_extmap s)); [exact I|].
  destruct (addObj (OExtGState e) s) as [i s1] eqn:E. cbn [snd].
  assert (I1 : Inv s1 d pages).
  { change s1 with (snd (i, s1)). rewrite <- E. now apply Inv_snoc. }
  eapply Inv_same; [exact I1|..]; reflexivity || (repeat split).
Qed.
Lemma Inv_saveTr s d pages a b : Inv s d pages -> Inv (snd (saveTransparency a b s)) d pages.
Proof.
  intros I. unfold saveTransparency. destruct (lookup (tr_id a b) (g_trmap s)); [exact I|].
  destruct (Qeq_bool a 1); [exact I|].
  match goal with |- context [getCachedExtGState ?e s] => pose proof (Inv_getCached s d pages e I) as I1; destruct (getCachedExtGState e s) as [i s1] end.
  cbn [snd] in *. eapply Inv_same; [exact I1|..]; reflexivity || (repeat split).
Qed.

Lemma Inv_link s d pages l :
  Inv s d pages ->
  let r := addLink l s in
  exists pages', Inv (fst r) (fst (a_sop d (AddLink l))) pages' /\ (snd r = Panic <-> snd (a_sop d (AddLink l)) = true).
Proof.
  intros I r. unfold r. clear r. unfold addLink. cbn [a_sop].
  pose proof (iv_lay _ _ _ I) as L. pose proof (iv_pages _ _ _ I) as P.
  destruct (g_page s) as [p|] eqn:Gp.
  - assert (N : no_pages d = false).
    { unfold no_pages. inversion L; subst. destruct (a_pages d); [|reflexivity]. inversion P as [Hx|].
      symmetry in Hx. apply app_eq_nil in Hx as [_ Hx]. discriminate. }
    rewrite N. cbn [fst snd]. cbn [addObj].
    set (l' := {| lk_x := _ |}). set (num := Z.of_nat (List.length (g_objs s)) + 1).
    set (f := fun o : obj => match o with OPage pg => OPage _ | _ => o end).
    exists (upd_last (fun '(pg, its) => ({| pg_size := pg_size pg; pg_contents := pg_contents pg; pg_links := pg_links pg ++ [num] |}, its)) pages).
    split; [|split; discriminate].
    assert (Q : Quiet (g_objs s) (upd (g_objs s ++ [OAnnot l']) p f)).
    { eapply Quiet_trans; [apply (Quiet_snoc _ (OAnnot l')); reflexivity|]. apply Quiet_upd. intros o. now destruct o. }
    unfold put_link. eapply Inv_quiet; eauto.
    + repeat split.
    + apply incl_refl.
    + cbn [fst snd g_objs g_page g_content set_objs]. rewrite Gp.
      apply (Lay_updpage _ p _ pages f); [reflexivity|]. apply Lay_neutral; [reflexivity|]. exact L.
    + apply upd_last_nil.
    + apply Forall2_upd_last. intros [pg its] ap (A & B & C & D). repeat split; auto.
      cbn [fst snd pg_links]. apply Forall2_app; [exact D|]. constructor; [|constructor].
      unfold link_no, num. rewrite obj_no_of_nat. cbn [g_objs set_objs].
      assert (Nn : nth_error (upd (g_objs s ++ [OAnnot l']) p f) (List.length (g_objs s)) = Some (OAnnot l')).
      { rewrite nth_upd, nth_snoc_new. now destruct (p =? List.length (g_objs s))%nat. }
      rewrite Nn. unfold l'. cbn. rewrite (iv_cfg _ _ _ I). reflexivity.
  - assert (N : no_pages d = true).
    { unfold no_pages. inversion L; subst. inversion P as [Hx|]. reflexivity. }
    rewrite N. exists pages. cbn. split; [exact I|tauto].
Qed.

Lemma Inv_outline s d pages t w : Inv s d pages -> Inv (fst (addOutline t w s)) d pages.
Proof.
  intros I. unfold addOutline. cbv zeta.
  match goal with |- context [addObj ?o s] => pose proof (Inv_snoc s d pages o eq_refl eq_refl eq_refl I) as I1; destruct (addObj o s) as [i s1] end.
  cbn [snd fst] in *.
  set (s2 := set_outl_last _ s1).
  assert (I2 : Inv s2 d pages) by (eapply Inv_same; [exact I1|..]; reflexivity || (repeat split)).
  clearbody s2. set (s3 := if g_outl_first s2 <=? 0 then _ else s2).
  assert (I3 : Inv s3 d pages).
  { unfold s3. destruct (g_outl_first s2 <=? 0); [|exact I2]. eapply Inv_same; [exact I2|..]; reflexivity || (repeat split). }
  clearbody s3.
  match goal with |- context [match g_outl_lastobj s3 with _ => _ end] =>
    set (s4 := match g_outl_lastobj s3 with Some j => _ | None => s3 end) end.
  assert (I4 : Inv s4 d pages).
  { unfold s4. destruct (g_outl_lastobj s3) as [j|]; [|exact I3]. eapply Inv_quiet0; [exact I3|..].
    - repeat split.
    - cbn. apply Quiet_upd. intros o. now destruct o.
    - apply incl_refl.
    - cbn. apply Lay_keeps; [|apply I3]. intros o. destruct o; cbn; split; auto; discriminate. }
  clearbody s4. eapply Inv_same; [exact I4|..]; reflexivity || (repeat split).
Qed.

Lemma Inv_import objs start : forall ks s d pages, Inv s d pages ->
  Inv (fold_left (fun s k => match zlookup (start + Z.of_nat k) objs with
                        | Some (b :: d) => snd (addObj (OImported (b :: d)) s)
                        | _ => s end) ks s) d pages.
Proof.
  induction ks as [|k ks IH]; intros s d pages I; [exact I|]. cbn [fold_left]. apply IH.
  destruct (zlookup _ objs) as [[|b dt]|]; [exact I| |exact I]. now apply Inv_snoc.
Qed.

Lemma Inv_addCs s d pages n : Inv s d pages -> Inv (fst (addColorSpace n s)) (fst (a_sop d (AddColorSpace n))) pages
  /\ snd (addColorSpace n s) <> Panic.
Proof.
  intros I. unfold addColorSpace. cbn [a_sop fst addObj].
  assert (Edup : existsb (fun r => list_eqb (rc_name r) n) (g_cs s) = existsb (fun m => list_eqb m n) (a_cs d)).
  { rewrite (ck_names _ _ _ _ (iv_cs _ _ _ I)). clear. induction (g_cs s) as [|x l IH]; cbn; [reflexivity|now rewrite IH]. }
  rewrite Edup.
  assert (Hst' : forall f i o, nth_error (g_objs s) i = Some o -> nth_error (g_objs s ++ [OColorSpace n f]) i = Some o).
  { intros f i o H. now apply nth_snoc_old. }
  assert (Fk : forall c, FontsOK (g_objs s ++ [OColorSpace n c]) (g_fonts s) (g_countfont s) (a_fonts d)).
  { intros c. destruct (iv_fonts _ _ _ I) as [A B C D E].
    assert (F : forall fm st, find_font (g_objs s ++ [OColorSpace n c]) 0 fm st = find_font (g_objs s) 0 fm st).
    { intros. rewrite find_font_app. cbn. now destruct (find_font (g_objs s) 0 fm st). }
    constructor; auto; intros; rewrite ?F in *; eauto.
    destruct (B k r H) as (B1 & g & B2 & B3). split; [assumption|]. exists g. auto. }
  destruct (existsb (fun m => list_eqb m n) (a_cs d)) eqn:Ed; cbn [fst snd]; (split; [|discriminate]).
  - destruct I. constructor; cbn; auto.
    + now apply Lay_neutral.
    + eapply PgRel_ext; [|eassumption]. constructor; cbn; auto using incl_refl; exists []; now rewrite app_nil_r.
    + eapply ImgsOK_mono; [|apply incl_refl|eassumption]. auto.
    + destruct iv_cs0 as [A B C D E].
      assert (F : forall m, find_cs (g_objs s ++ [OColorSpace n 0]) m = find_cs (g_objs s) m).
      { intros m. rewrite find_cs_app. destruct (find_cs (g_objs s) m) eqn:Em; [reflexivity|]. cbn.
        destruct (list_eqb n m) eqn:Enm; [|reflexivity]. apply list_eqb_eq in Enm. subst m.
        specialize (E n). rewrite Ed, Em in E. discriminate. }
      constructor; auto; intros; rewrite ?F in *; eauto.
      destruct (C k r H) as (B1 & g & B2). split; [assumption|]. exists g. auto.
  - destruct I. constructor; cbn; auto.
    + now apply Lay_neutral.
    + eapply PgRel_ext; [|eassumption]. constructor; cbn; auto using incl_refl; [exists []; now rewrite app_nil_r|eexists; reflexivity].
    + eapply ImgsOK_mono; [|apply incl_refl|eassumption]. auto.
    + destruct iv_cs0 as [A B C D E].
      assert (F : forall m, find_cs (g_objs s ++ [OColorSpace n (g_countcs s)]) m
         = match find_cs (g_objs s) m with Some r => Some r | None => if list_eqb n m then Some (g_countcs s) else None end).
      { intros m. rewrite find_cs_app. reflexivity. }
      constructor; auto.
      * rewrite zlen_app, zlen_cons, zlen_nil. lia.
      * rewrite map_app, B. reflexivity.
      * intros k q H. destruct (Nat.lt_ge_cases k (List.length (g_cs s))) as [Lk|Lk].
        -- rewrite nth_error_app1 in H by assumption. destruct (C k q H) as (B1 & g & B2).
           split; [assumption|]. exists g. now apply nth_snoc_old.
        -- assert (k = List.length (g_cs s)).
           { match type of H with nth_error ?l k = _ => assert (Hn : nth_error l k <> None) by congruence end. apply nth_error_Some in Hn. rewrite app_length in Hn. cbn in Hn. lia. }
           subst k. rewrite nth_snoc_new in H. injection H as <-. cbn.
           split; [rewrite A; reflexivity|]. exists (g_countcs s). now rewrite nth_snoc_new.
      * intros m c. rewrite F. destruct (find_cs (g_objs s) m) as [c'|] eqn:Em.
        -- intros [= ->]. destruct (D m c Em) as (r & R1 & R2). exists r. split; [apply in_or_app; auto|assumption].
        -- destruct (list_eqb n m) eqn:Enm; [|discriminate]. apply list_eqb_eq in Enm. intros [= <-].
           eexists. split; [apply in_or_app; right; left; reflexivity|]. cbn. auto.
      * intros m. rewrite existsb_snoc, E, F. destruct (find_cs (g_objs s) m); [reflexivity|]. cbn. now destruct (list_eqb n m).
Qed.

Lemma lookup_rel {A B} (R : A -> B -> Prop) l l' id :
  Forall2 (fun a b => fst a = fst b /\ R (snd a) (snd b)) l l' ->
  match lookup id l, lookup id l' with
  | Some a, Some b => R a b | None, None => True | _, _ => False end.
Proof.
  induction 1 as [|[k v] [k' v'] l l' [E H] F IH]; cbn [lookup]; [exact I|]. cbn in E, H. subst k'.
  destruct (list_eqb id k); assumption.
Qed.

Lemma Inv_image s d pages id im gs :
  Inv s d pages ->
  let r := imageByHolder false id im gs s in
  exists pages', Inv (fst r) (fst (a_sop d (Image id im))) pages' /\ (snd r = Panic <-> snd (a_sop d (Image id im)) = true).
Proof.
  intros I r. unfold r, imageByHolder. clear r. cbn [a_sop].
  pose proof (lookup_rel (fun i b => In i (g_xobjs s) /\ exists im, nth_error (g_objs s) i = Some (OImage im Plain) /\ im_data im = b) _ _ id (iv_imgs _ _ _ I)) as L.
  destruct (lookup id (g_imgs s)) as [i|], (lookup id (a_imgs d)) as [data|] eqn:El; try contradiction.
  - destruct L as (L1 & im' & L2 & L3).
    destruct (Inv_draw s d pages true (fun _ => IImage i gs) (ShImage data) I) as (pages' & A & B & C & _).
    { intros r t E. apply (show_ext s); [assumption|]. cbn. unfold xobj_res.
      replace (existsb (Nat.eqb i) (g_xobjs s)) with true by (symmetry; apply existsb_exists; exists i; split; [assumption|apply Nat.eqb_refl]).
      rewrite L2, L3. reflexivity. }
    exists pages'. destruct (no_pages d); (split; [exact A|]); cbn; rewrite B; intuition congruence.
  - destruct (im_ok im) eqn:Eok; [|exists pages; cbn; split; [assumption|split; discriminate]].
    cbn [addObj]. cbv beta iota zeta. set (idx := List.length (g_objs s)). set (s1 := set_objs _ s).
    assert (I1 : Inv s1 d pages) by (apply (Inv_snoc s d pages (OImage im Plain)); auto).
    assert (N1 : nth_error (g_objs s1) idx = Some (OImage im Plain)) by (apply nth_snoc_new).
    clearbody s1.
    (* the XObject is registered after the drawing is appended: work with the registered state *)
    unfold draw. destruct (Inv_getContent s1 d pages I1) as (ci & G1 & G2 & I2 & R & Q & X & P & Tr).
    destruct (getContent s1) as [ci' s2]. cbn [fst snd] in *. subst ci'.
    destruct (g_pagesize s2) as [r|] eqn:Ps.
    + assert (N : no_pages d = false).
      { unfold no_pages. destruct (a_pages d) eqn:Ea; [|reflexivity]. apply (iv_size _ _ _ I2) in Ea. congruence. }
      rewrite N. cbn [fst snd].
      set (s3 := set_imgs _ (set_xobjs _ _)).
      assert (Hn : forall i o, static o = true -> nth_error (g_objs s2) i = Some o -> nth_error (g_objs s3) i = Some o).
      { intros i o So Ho. unfold s3. cbn. rewrite nth_upd, Ho. destruct (Nat.eqb ci i); cbn; [|reflexivity]. destruct o; try discriminate; reflexivity. }
      assert (Hx : g_xobjs s3 = g_xobjs s2 ++ [idx]) by reflexivity.
      assert (N3 : nth_error (g_objs s3) idx = Some (OImage im Plain)) by (apply Hn; [reflexivity|]; eapply Quiet_nth; eauto).
      assert (Q3 : Quiet (g_objs s2) (g_objs s3)) by (unfold s3; cbn; apply Quiet_upd, (sv_add_item (IImage idx gs))).
      assert (I3 : Inv s3 (fst (a_sop d (Image id im))) (upd_last (fun '(p, its) => (p, its ++ [IImage idx gs])) pages)).
      { cbn [a_sop].
        assert (E3 : Inv (set_imgs (g_imgs s2) s3) (put (ShImage (im_data im)) d) (upd_last (fun '(p, its) => (p, its ++ [IImage idx gs])) pages)).
        { unfold put. eapply Inv_quiet; [exact I2|..].
          - repeat split.
          - exact Q3.
          - cbn. apply incl_appl, incl_refl.
          - cbn. rewrite G2. apply (Lay_append _ _ _ _ (IImage idx gs)). rewrite <- G2. apply I2.
          - apply upd_last_nil.
          - apply Forall2_upd_last. intros [p its] ap (A & B & C & D). repeat split; auto.
            apply Forall2_app; [exact C|]. constructor; [|constructor]. cbn [show]. unfold xobj_res.
            replace (existsb (Nat.eqb idx) (g_xobjs (set_imgs (g_imgs s2) s3))) with true.
            2:{ symmetry. apply existsb_exists. exists idx. split; [|apply Nat.eqb_refl]. cbn. apply in_or_app. right. now left. }
            change (g_objs (set_imgs (g_imgs s2) s3)) with (g_objs s3). rewrite N3. reflexivity. }
        rewrite El, N, Eok. cbn [fst].
        destruct E3. constructor; auto.
        cbn [g_imgs set_imgs] in *. cbn [a_imgs]. constructor.
        - split; [reflexivity|]. split; [rewrite Hx; apply in_or_app; right; now left|]. exists im. split; [exact N3|reflexivity].
        - exact iv_imgs0. }
      cbn [a_sop] in I3. rewrite El, N, Eok in I3. cbn [fst] in I3.
      eexists. split; [|split; discriminate].
      assert (SR1 : forall a v, same_rest a (set_smasks v a)) by (intros; unfold same_rest; cbn; repeat split).
      assert (SR2 : forall a v, same_rest a (set_rgbs v a)) by (intros; unfold same_rest; cbn; repeat split).
      cbn [addObj snd].
      set (s4 := if im_alpha im then set_smasks _ _ else s3).
      match type of I3 with Inv _ ?dd ?pp => assert (I4 : Inv s4 dd pp) end.
      { unfold s4. destruct (im_alpha im); [|exact I3]. eapply Inv_same; [apply (Inv_snoc s3 _ _ OSMaskImg); auto; exact I3|apply SR1|reflexivity..]. }
      clearbody s4. destruct (im_indexed im); [|exact I4].
      eapply Inv_same; [apply (Inv_snoc s4 _ _ ODeviceRGB); auto; exact I4|apply SR2|reflexivity..].
    + assert (N : no_pages d = true).
      { unfold no_pages. apply (iv_size _ _ _ I2) in Ps. now rewrite Ps. }
      rewrite N. cbn [fst snd]. exists pages. split; [exact I2|tauto].
Qed.

Lemma Inv_sop s d pages o :
  Inv s d pages -> plain_sop o = true ->
  exists pages', Inv (fst (sstep s o)) (fst (a_sop d o)) pages' /\ (snd (sstep s o) = Panic <-> snd (a_sop d o) = true).
Proof.
  intros I Hp.
  assert (Triv : forall s' r, r <> Panic -> Inv s' d pages -> exists pages', Inv (fst (s', r)) d pages' /\ (r = Panic <-> false = true)).
  { intros s' r Hr I'. exists pages. split; [exact I'|]. split; [contradiction|discriminate]. }
  destruct o; cbn [plain_sop] in Hp; try discriminate; cbn [sstep].
  - destruct (Inv_draw s d pages needs_page (fun _ => IBytes b) (ShBytes b) I) as (pages' & A & B & _); [reflexivity|].
    exists pages'. cbn [a_sop]. destruct (no_pages d); (split; [exact A|]); cbn; rewrite B; intuition congruence.
  - destruct (Inv_draw s d pages true (fun r => ITemplate name ty (r_h r)) (ShTemplate name) I) as (pages' & A & B & _); [reflexivity|].
    exists pages'. cbn [a_sop]. destruct (no_pages d); (split; [exact A|]); cbn; rewrite B; intuition congruence.
  - unfold text. cbn [a_sop]. pose proof (iv_sel _ _ _ I) as S. destruct (a_sel d) as [[fam st]|] eqn:Es; cbn [SelOK] in S.
    + destruct S as (S1 & _). destruct (g_font s) as [fi|]; [|congruence].
      destruct (Inv_draw s d pages true (fun _ => IText (g_fontcount s + 1) t (g_tr s)) (ShText fam st t) I) as (pages' & A & B & _).
      { intros _ t' E. apply (show_ext s); [assumption|]. eapply show_text; eauto. }
      exists pages'. destruct (no_pages d); (split; [exact A|]); cbn; rewrite B; intuition congruence.
    + rewrite S. exists pages. cbn. split; [exact I|tauto].
  - destruct (Inv_addFont s d pages family style I Hp) as (A & B). exists pages. split; [exact A|]. rewrite B. cbn. split; discriminate.
  - destruct (Inv_setFont s d pages family style size I) as (A & B). exists pages. split; [exact A|]. cbn. split; [contradiction|discriminate].
  - exact (Inv_image s d pages id im _ I).
  - exact (Inv_link s d pages l I).
  - apply Triv; [discriminate|]. eapply Inv_same; [exact I|..]; reflexivity || (repeat split).
  - exists pages. split; [now apply Inv_outline|]. cbn. split; discriminate.
  - exists pages. split; [now apply Inv_outline|]. cbn. split; discriminate.
  - apply Triv; [discriminate|]. now apply Inv_import.
  - destruct (Inv_addCs s d pages name I) as (A & B). exists pages. split; [exact A|]. cbn. split; [contradiction|discriminate].
  - unfold setColorSpace. cbn [a_sop]. rewrite (ck_some _ _ _ _ (iv_cs _ _ _ I) name).
    destruct (find_cs (g_objs s) name) as [c|] eqn:Ec; [|now apply Triv].
    destruct (Inv_draw s d pages false (fun _ => IColorSpace c) (ShColorSpace name) I) as (pages' & A & B & _).
    { intros _ t' E. apply (show_ext s); [assumption|]. eapply show_cs; eauto. }
    exists pages'. split; [exact A|]. cbn. rewrite B. intuition congruence.
  - pose proof (Inv_saveTr s d pages alpha bm I) as I1. destruct (saveTransparency alpha bm s) as [t s1]. cbn [snd] in I1.
    apply Triv; [discriminate|]. eapply Inv_same; [exact I1|..]; reflexivity || (repeat split).
  - apply Triv; [discriminate|]. eapply Inv_same; [exact I|..]; reflexivity || (repeat split).
  - apply Triv; [discriminate|]. eapply Inv_same; [exact I|..]; reflexivity || (repeat split).
  - apply Triv; [discriminate|]. unfold setCompressLevel.
    destruct (l <? -2); [|destruct (9 <? l); [exact I|]]; (eapply Inv_same; [exact I|..]; reflexivity || (repeat split)).
  - apply Triv; [discriminate|]. eapply Inv_same; [exact I|..]; reflexivity || (repeat split).
Qed.

Lemma Inv_sops l : forall s d pages, Inv s d pages -> forallb plain_sop l = true ->
  exists pages', Inv (fst (run_sops s l)) (fst (a_sops d l)) pages' /\ (snd (run_sops s l) = Panic <-> snd (a_sops d l) = true)
    /\ snd (run_sops s l) <> Err.
Proof.
  induction l as [|o l IH]; intros s d pages I Hp.
  - exists pages. cbn. split; [exact I|]. split; [split|]; discriminate.
  - cbn [forallb] in Hp. apply andb_true_iff in Hp as [P1 P2].
    destruct (Inv_sop s d pages o I P1) as (pages1 & I1 & E1).
    cbn [run_sops a_sops]. destruct (sstep s o) as [s1 r1], (a_sop d o) as [d1 b1]. cbn [fst snd] in *.
    destruct r1, b1; try (exfalso; intuition congruence); try (now apply (IH s1 d1 pages1)).
    exists pages1. cbn. split; [exact I1|]. split; [tauto|discriminate].
Qed.

Lemma Inv_resetXY s d pages : Inv s d pages -> Inv (resetXY s) d pages.
Proof. intros I. eapply Inv_same; [exact I|..]; reflexivity || (repeat split). Qed.

Lemma Inv_addPage s d pages sz : Inv s d pages -> exists pages', Inv (fst (addPage sz s)) (a_op d (AddPage sz)) pages'.
Proof.
  intros I. unfold addPage. cbn [a_op].
  set (d1 := {| a_cfg := a_cfg d; a_pages := _ |}).
  cbn [addObj].
  set (s1 := resetXY _).
  assert (I1 : Inv s1 d1 (pages ++ [(new_page sz, [])])).
  { pose proof (iv_pages _ _ _ I) as HP.
    destruct I. constructor; cbn; auto.
    - apply (Lay_newpage _ _ _ _ (new_page sz) iv_lay0).
    - apply Forall2_app.
      + eapply PgRel_ext; [|eassumption]. apply Ext_quiet; try reflexivity; [|apply incl_refl]. cbn. now apply Quiet_snoc.
      + constructor; [|constructor]. repeat split; constructor.
    - split; [destruct sz; discriminate|]. intros Hx. apply app_eq_nil in Hx as [_ Hx]. discriminate.
    - eapply FontsOK_quiet; [|eassumption]. now apply Quiet_snoc.
    - eapply ImgsOK_mono; [|apply incl_refl|eassumption]. intros; now apply nth_snoc_old.
    - eapply CsOK_quiet; [|eassumption]. now apply Quiet_snoc.
    - now rewrite iv_n0. }
  clearbody s1. assert (Ha : a_header d1 = a_header d) by reflexivity. clearbody d1.
  destruct (iv_hdr _ _ _ I1) as (Hh & Ph). rewrite Hh.
  assert (H2 : exists pages', Inv (fst (match a_header d1 with None => (s1, Ok) | Some f =>
           match run_sops s1 f with (s, Panic) => (s, Panic) | (s, _) => (resetXY s, Ok) end end))
           (fst (a_callback d1 (a_header d1))) pages' /\
        (snd (match a_header d1 with None => (s1, Ok) | Some f =>
           match run_sops s1 f with (s, Panic) => (s, Panic) | (s, _) => (resetXY s, Ok) end end) = Panic <-> snd (a_callback d1 (a_header d1)) = true)).
  { destruct (a_header d1) as [f|]; cbn [a_callback].
    - destruct (Inv_sops f s1 d1 _ I1 Ph) as (pages' & A & B & C). exists pages'.
      destruct (run_sops s1 f) as [s2 r2]. cbn [fst snd] in *. destruct r2; cbn [fst snd].
      + split; [now apply Inv_resetXY|]. rewrite <- B. split; discriminate.
      + congruence.
      + split; [exact A|exact B].
    - exists (pages ++ [(new_page sz, [])]). cbn. split; [exact I1|split; discriminate]. }
  destruct H2 as (pages2 & I2 & E2).
  match goal with |- context [fst (match ?m with _ => _ end)] => destruct m as [s2 r2] end.
  destruct (a_callback d1 (a_header d1)) as [d2 b2]. cbn [fst snd] in *.
  assert (G : r2 <> Panic -> exists pages', Inv (fst (match g_footer s2 with None => (s2, Ok) | Some f =>
           match run_sops s2 f with (s, Panic) => (s, Panic) | (s, _) => (resetXY s, Ok) end end))
           (fst (a_callback d2 (a_footer d2))) pages').
  { intros _. destruct (iv_ftr _ _ _ I2) as (Hf & Pf). rewrite Hf. destruct (a_footer d2) as [f|]; cbn [a_callback].
    - destruct (Inv_sops f s2 d2 _ I2 Pf) as (pages' & A & B & C). exists pages'.
      destruct (run_sops s2 f) as [s3 r3]. cbn [fst snd] in *. destruct r3; cbn [fst snd]; [now apply Inv_resetXY|congruence|exact A].
    - exists pages2. exact I2. }
  destruct r2, b2; try (exfalso; intuition congruence); try (apply G; discriminate).
  exists pages2. exact I2.
Qed.

Lemma empty_fonts objs : none_of is_font objs -> FontsOK objs [] 0 [].
Proof.
  intros N. constructor; cbn; try reflexivity.
  - intros [|k] r; discriminate.
  - intros fam st i f. rewrite find_font_none by assumption. discriminate.
  - intros fam st. now rewrite find_font_none.
Qed.
Lemma empty_cs objs : none_of is_cs objs -> CsOK objs [] 0 [].
Proof.
  intros N. constructor; cbn; try reflexivity.
  - intros [|k] r; discriminate.
  - intros n c. rewrite find_cs_none by assumption. discriminate.
  - intros n. now rewrite find_cs_none.
Qed.
Lemma Inv_start c s d pages : Inv s d pages -> Inv (start c s) (a_op d (Start c)) [].
Proof.
  intros I. destruct I. constructor; cbn [start a_op g_objs g_page g_content g_cfg g_pagesize g_fonts g_countfont g_font g_fontcount
    g_xobjs g_imgs g_cs g_countcs g_header g_footer g_kids g_pagecount g_npages
    a_pages a_cfg a_fonts a_sel a_imgs a_cs a_header a_footer a_total]; auto.
  - eapply Lay0 with (its := []); [reflexivity|split; reflexivity].
  - tauto.
  - now apply empty_fonts.
  - reflexivity.
  - constructor.
  - now apply empty_cs.
Qed.

Lemma Inv_op s d pages o : Inv s d pages -> plain_op o = true -> exists pages', Inv (fst (step s o)) (a_op d o) pages'.
Proof.
  intros I Hp. destruct o; cbn [plain_op] in Hp; cbn [step a_op]; try discriminate.
  - destruct (Inv_sop s d pages o I Hp) as (pages' & A & _). exists pages'. exact A.
  - eexists. cbn [fst]. now apply (Inv_start c s d pages).
  - now apply (Inv_addPage s d pages).
  - exists pages. destruct I. constructor; cbn; auto. split; [reflexivity|]. destruct f; [exact Hp|exact Logic.I].
  - exists pages. destruct I. constructor; cbn; auto. split; [reflexivity|]. destruct f; [exact Hp|exact Logic.I].
Qed.

Lemma Inv_exec l : forall s d pages, Inv s d pages -> forallb plain_op l = true ->
  exists pages', Inv (exec s l) (a_exec d l) pages'.
Proof.
  induction l as [|o l IH]; intros s d pages I Hp; [exists pages; exact I|].
  cbn [forallb] in Hp. apply andb_true_iff in Hp as [P1 P2].
  destruct (Inv_op s d pages o I P1) as (pages1 & I1). cbn [exec fold_left a_exec]. now apply (IH _ _ pages1).
Qed.

Lemma Inv_first c : Inv (start c zero_gp) (a_empty c) [].
Proof.
  constructor; cbn [start zero_gp a_empty g_objs g_page g_content g_cfg g_pagesize g_fonts g_countfont g_font g_fontcount
    g_xobjs g_imgs g_cs g_countcs g_header g_footer g_kids g_pagecount g_npages
    a_pages a_cfg a_fonts a_sel a_imgs a_cs a_header a_footer a_total]; auto.
  - eapply Lay0 with (its := []); [reflexivity|split; reflexivity].
  - tauto.
  - now apply empty_fonts.
  - reflexivity.
  - constructor.
  - now apply empty_cs.
Qed.

(** Output keeps resources, so everything shown before is shown in the file. *)
Lemma output_fields s : g_fonts (output s) = g_fonts s /\ g_cs (output s) = g_cs s /\ g_xobjs (output s) = g_xobjs s
  /\ g_npages (output s) = g_npages s.
Proof. unfold output. cbn [g_fonts g_cs g_xobjs g_npages set_objs]. destruct (prepare_eq s) as (_ & _ & _ & A & B & C & D). auto. Qed.
Lemma Ext_output s : Ext s (output s).
Proof.
  destruct (output_fields s) as (F & C & X & _). constructor.
  - intros i o So. now apply output_static.
  - exists []. now rewrite app_nil_r.
  - exists []. now rewrite app_nil_r.
  - rewrite X. apply incl_refl.
Qed.
Lemma show_written t it x : show t it = Some x -> show t (written_item it) = Some x.
Proof. destruct it; auto. Qed.

Lemma Forall2_map_some {A B} (f : A -> option B) l l' : Forall2 (fun a b => f a = Some b) l l' -> map f l = map Some l'.
Proof. induction 1 as [|a b l l' E F IH]; cbn; [reflexivity|]. now rewrite E, IH. Qed.

Lemma Inv_read s d pages : Inv s d pages -> read_pages (output s) = map as_shown (a_pages d).
Proof.
  intros I. rewrite (output_pages s) by apply I. rewrite (Lay_vw _ _ _ _ (iv_lay _ _ _ I)).
  pose proof (PgRel_ext _ _ _ _ (Ext_output s) (iv_pages _ _ _ I)) as H. clear I.
  induction H as [|[p its] ap pages0 aps (A & B & C & D) H IH]; [reflexivity|].
  cbn [map fst snd] in *. rewrite IH. unfold as_shown at 2. rewrite A, B. cbn [flat_map app].
  rewrite (Forall2_map_some _ _ _ D).
  assert (E : map (show (output s)) (map written_item its) = map Some (ap_items ap)).
  { rewrite map_map. apply Forall2_map_some. eapply Forall2_impl; [|exact C]. intros; now apply show_written. }
  rewrite E. reflexivity.
Qed.
Lemma Inv_count s d pages : Inv s d pages -> g_pagecount (output s) = zlen (a_pages d) /\ zlen (g_kids (output s)) = zlen (a_pages d).
Proof.
  intros I. pose proof (Inv_read s d pages I) as R.
  assert (Z2 : zlen (g_kids (output s)) = zlen (a_pages d)).
  { unfold read_pages in R. apply (f_equal zlen) in R. unfold zlen in *. rewrite !map_length in R. exact R. }
  split; [|exact Z2]. rewrite <- Z2. unfold output. cbn [g_pagecount g_kids set_objs].
  destruct (prepare_eq s) as (_ & K & P & _). rewrite K, P. destruct (iv_kids _ _ _ I) as (-> & ->). cbn [app]. lia.
Qed.
