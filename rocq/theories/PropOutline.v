(** PropOutline.v — C18: nested outlines link consistently, for all forests of any depth and width. *)
From Verif Require Import Base OutlineModel.

(** ** Specification *)
(** A document in which outlines with the object numbers [nums] were added (in that order; other objects may lie between);
    [number nums o]: the object number of the o-th outline added. *)
Definition created (index : Z) (nums : list Z) : outlines := fold_left (fun s n => addWithPosition n s) nums (init_outlines index).
Definition number (nums : list Z) (n : node) : Z := nth (nobj n) nums 0.
Fixpoint pointers (n : node) : list nat := match n with Node o ch => o :: flat_map pointers ch end.
(** The sibling lists of a forest, with the parent of each. *)
Inductive level (p0 : option node) (f : list node) : option node -> list node -> Prop :=
| at_top : level p0 f p0 f
| below p l n : level p0 f p l -> In n l -> level p0 f (Some n) (nkids n).
Definition last_error {A} (l : list A) : option A := hd_error (rev l).

(** ** Proof *)
Lemma set_same h o v : set h o v o = v. Proof. unfold set. now rewrite Nat.eqb_refl. Qed.
Lemma set_other h o v x : x <> o -> set h o v x = h x. Proof. unfold set. intros H. now apply Nat.eqb_neq in H as ->. Qed.
Lemma node_rec' (P : node -> Prop) : (forall o ch, Forall P ch -> P (Node o ch)) -> forall n, P n.
Proof. intros H. fix IH 1. intros [o ch]. apply H. induction ch as [|c r IHr]; constructor; [apply IH|exact IHr]. Qed.
Ltac heap := unfold child_step, top_step, setFirst, setLast, setPrev, setNext, setParent, getIndex in *.
Lemma child_frame po prev c r h x : x <> po -> x <> nobj c -> child_step po prev c r h x = h x.
Proof. intros A B. heap. destruct prev, r; rewrite ?set_other by assumption; reflexivity. Qed.
Lemma set_idx h o v x : ol_index v = ol_index (h o) -> ol_index (set h o v x) = ol_index (h x).
Proof. unfold set. destruct (Nat.eqb x o) eqn:E; [apply Nat.eqb_eq in E as ->; auto|reflexivity]. Qed.
Lemma child_idx po prev c r h x : ol_index (child_step po prev c r h x) = ol_index (h x).
Proof. heap. destruct prev, r; repeat (rewrite set_idx by reflexivity); reflexivity. Qed.
Lemma top_frame prev c r h x : x <> nobj c -> top_step prev c r h x = h x.
Proof. intros B. heap. destruct prev, r; rewrite ?set_other by assumption; reflexivity. Qed.
Lemma top_idx prev c r h x : ol_index (top_step prev c r h x) = ol_index (h x).
Proof. heap. destruct prev, r; repeat (rewrite set_idx by reflexivity); reflexivity. Qed.
Lemma kids_frame_gen ch po x : Forall (fun c => forall h, ~ In x (pointers c) -> node_parse c h x = h x) ch -> x <> po -> ~ In x (flat_map pointers ch) ->
  forall prev h, kids node_parse po prev ch h x = h x.
Proof.
  induction 1 as [|c r Hc Hr IH]; intros A B prev h; [reflexivity|]. cbn [flat_map] in B. rewrite in_app_iff in B.
  assert (B1 : ~ In x (pointers c)) by tauto. assert (B2 : ~ In x (flat_map pointers r)) by tauto.
  change (kids node_parse po prev (c :: r) h) with (kids node_parse po (Some c) r (node_parse c (child_step po prev c r h))).
  rewrite IH by assumption. rewrite Hc by assumption. apply child_frame; [exact A|]. intros ->. apply B1. destruct c; now left.
Qed.
Lemma node_frame n : forall h x, ~ In x (pointers n) -> node_parse n h x = h x.
Proof.
  induction n as [o ch IH] using node_rec'. intros h x H. cbn [pointers In] in H. cbn [node_parse]. apply kids_frame_gen; [|intros ->; tauto|tauto].
  eapply Forall_impl; [|exact IH]. intros c Hc h' N. now apply Hc.
Qed.
Lemma kids_idx_gen ch po : Forall (fun c => forall h x, ol_index (node_parse c h x) = ol_index (h x)) ch -> forall prev h x, ol_index (kids node_parse po prev ch h x) = ol_index (h x).
Proof.
  induction 1 as [|c r Hc Hr IH]; intros prev h x; [reflexivity|].
  change (kids node_parse po prev (c :: r) h) with (kids node_parse po (Some c) r (node_parse c (child_step po prev c r h))). now rewrite IH, Hc, child_idx.
Qed.
Lemma node_idx n : forall h x, ol_index (node_parse n h x) = ol_index (h x).
Proof. induction n as [o ch IH] using node_rec'. intros h x. cbn [node_parse]. now apply kids_idx_gen. Qed.
Lemma kids_frame ch po prev h x : x <> po -> ~ In x (flat_map pointers ch) -> kids node_parse po prev ch h x = h x.
Proof. intros A B. apply kids_frame_gen; auto. apply Forall_forall. intros. now apply node_frame. Qed.
Lemma kids_idx ch po prev h x : ol_index (kids node_parse po prev ch h x) = ol_index (h x).
Proof. apply kids_idx_gen, Forall_forall. intros. apply node_idx. Qed.

(** The links of one node [n] among [l] at [k], after parsing; [h0] the heap before (indices, stale First/Last of leaves). *)
Definition link (v : option Z) : Z := match v with Some z => z | None => -1 end.
Definition ix (h : heap) (n : node) : Z := ol_index (h (nobj n)).
Definition own (h0 h : heap) (n : node) : Prop :=
  match nkids n with
  | [] => ol_first (h (nobj n)) = ol_first (h0 (nobj n)) /\ ol_last (h (nobj n)) = ol_last (h0 (nobj n))
  | _ => Some (ol_first (h (nobj n))) = option_map (ix h0) (hd_error (nkids n)) /\ Some (ol_last (h (nobj n))) = option_map (ix h0) (last_error (nkids n))
  end.
Definition before (prev : option node) (l : list node) (k : nat) : option node := match k with O => prev | S j => nth_error l j end.
Definition sib (h0 h : heap) (po : node) (prev : option node) (l : list node) : Prop :=
  forall k n, nth_error l k = Some n ->
    ol_parent (h (nobj n)) = ix h0 po /\ ol_prev (h (nobj n)) = link (option_map (ix h0) (before prev l k)) /\
    ol_next (h (nobj n)) = link (option_map (ix h0) (nth_error l (S k))) /\ own h0 h n.
Definition deep (h0 h : heap) (po : node) (l : list node) : Prop :=
  forall q k, level (Some po) l (Some q) k -> sib h0 h q None k.
Lemma level_inv p0 f p l : level p0 f p l -> (p = p0 /\ l = f) \/ exists n, In n f /\ level (Some n) (nkids n) p l.
Proof.
  induction 1 as [|p l n L IH I]; [now left|right]. destruct IH as [[-> ->]|(m & I' & L')].
  - exists n. split; [exact I|constructor].
  - exists m. split; [exact I'|eapply below; eauto].
Qed.
Lemma last_error_cons {A} (a : A) l : last_error (a :: l) = match l with [] => Some a | _ => last_error l end.
Proof. unfold last_error. cbn [rev]. destruct l as [|b l]; [reflexivity|]. cbn [rev]. destruct (rev l) as [|c k]; reflexivity. Qed.
Lemma in_self n : In (nobj n) (pointers n). Proof. destruct n; now left. Qed.
Lemma level_in p0 f p l : level p0 f p l -> forall n, In n l -> incl (pointers n) (flat_map pointers f).
Proof.
  induction 1 as [|p l m L IH I]; intros n H x Hx.
  - apply in_flat_map. eauto.
  - apply (IH m I). destruct m as [o ch]. right. apply in_flat_map. eauto.
Qed.
(** The links of a sibling list only depend on the fields of its nodes. *)
Lemma sib_ext h0 h0' h h' po prev l : (forall x, ol_index (h0' x) = ol_index (h0 x)) -> (forall n, In n l -> h' (nobj n) = h (nobj n)) ->
  (forall n, In n l -> h0' (nobj n) = h0 (nobj n)) -> sib h0 h po prev l -> sib h0' h' po prev l.
Proof.
  intros I E E0 S k n H. destruct (S k n H) as (A & B & C & D). assert (Hn : In n l) by (eapply nth_error_In; eauto). unfold ix in *. rewrite (E n Hn), I. split; [exact A|].
  assert (IX : forall m : option node, option_map (fun n => ol_index (h0' (nobj n))) m = option_map (fun n => ol_index (h0 (nobj n))) m) by (intros [m|]; cbn; now rewrite ?I).
  unfold ix in *. change (fun n => ol_index (h0' (nobj n))) with (fun n => ix h0' n) in IX. rewrite !IX. split; [exact B|]. split; [exact C|].
  unfold own in *. rewrite (E n Hn), (E0 n Hn). destruct (nkids n); [exact D|]. unfold ix. now rewrite !IX.
Qed.
Definition spec (n : node) : Prop := forall h, NoDup (pointers n) -> let h' := node_parse n h in
  ol_parent (h' (nobj n)) = ol_parent (h (nobj n)) /\ ol_prev (h' (nobj n)) = ol_prev (h (nobj n)) /\ ol_next (h' (nobj n)) = ol_next (h (nobj n)) /\
  own h h' n /\ forall q k, level (Some n) (nkids n) (Some q) k -> sib h h' q None k.
Lemma child_c pn prev c r h : nobj c <> nobj pn -> let h1 := child_step (nobj pn) prev c r h in
  ol_parent (h1 (nobj c)) = ix h pn /\ ol_prev (h1 (nobj c)) = link (option_map (ix h) prev) /\ ol_next (h1 (nobj c)) = link (option_map (ix h) (hd_error r)) /\
  ol_first (h1 (nobj c)) = ol_first (h (nobj c)) /\ ol_last (h1 (nobj c)) = ol_last (h (nobj c)).
Proof.
  intros N h1. subst h1. unfold ix. unfold child_step. set (oc := nobj c) in *. set (op := nobj pn) in *.
  unfold setParent. rewrite set_same. cbn [ol_parent ol_prev ol_next ol_first ol_last].
  assert (N' : op <> oc) by congruence.
  destruct prev as [p|], r as [|n r]; cbn [hd_error option_map link]; unfold setFirst, setLast, setPrev, setNext, getIndex;
    repeat first [rewrite set_same | rewrite (set_other _ op _ oc) by exact N | rewrite (set_other _ oc _ op) by exact N' | progress cbn [ol_parent ol_prev ol_next ol_first ol_last ol_index]
                 | rewrite set_idx by (cbn [ol_index]; rewrite ?set_same, ?(set_other _ op _ oc) by exact N; reflexivity)];
    repeat split; reflexivity.
Qed.
Lemma child_p pn prev c r h : nobj c <> nobj pn -> let h1 := child_step (nobj pn) prev c r h in
  ol_parent (h1 (nobj pn)) = ol_parent (h (nobj pn)) /\ ol_prev (h1 (nobj pn)) = ol_prev (h (nobj pn)) /\ ol_next (h1 (nobj pn)) = ol_next (h (nobj pn)) /\
  ol_first (h1 (nobj pn)) = match prev with None => ix h c | Some _ => ol_first (h (nobj pn)) end /\
  ol_last (h1 (nobj pn)) = match r with [] => ix h c | _ => ol_last (h (nobj pn)) end.
Proof.
  intros N h1. subst h1. unfold ix. unfold child_step. set (oc := nobj c) in *. set (op := nobj pn) in *.
  assert (N' : op <> oc) by congruence.
  unfold setParent. rewrite (set_other _ oc _ op) by exact N'.
  destruct prev as [p|], r as [|n r]; unfold setFirst, setLast, setPrev, setNext, getIndex;
    repeat first [rewrite set_same | rewrite (set_other _ op _ oc) by exact N | rewrite (set_other _ oc _ op) by exact N' | progress cbn [ol_parent ol_prev ol_next ol_first ol_last ol_index]
                 | rewrite set_idx by (cbn [ol_index]; rewrite ?set_same, ?(set_other _ op _ oc) by exact N; reflexivity)];
    repeat split; reflexivity.
Qed.
Lemma own_ext h0 h0' h h' n : (forall x, ol_index (h0' x) = ol_index (h0 x)) -> ol_first (h' (nobj n)) = ol_first (h (nobj n)) -> ol_last (h' (nobj n)) = ol_last (h (nobj n)) ->
  ol_first (h0' (nobj n)) = ol_first (h0 (nobj n)) -> ol_last (h0' (nobj n)) = ol_last (h0 (nobj n)) -> own h0 h n -> own h0' h' n.
Proof.
  intros I A B C D. unfold own, ix. rewrite A, B, C, D. destruct (nkids n) as [|m r]; [auto|]. cbn [hd_error option_map].
  rewrite I. destruct (last_error (m :: r)) as [z|]; cbn [option_map]; rewrite ?I; auto.
Qed.
Lemma NoDup_app_inv {A} (a b : list A) : NoDup (a ++ b) -> NoDup a /\ NoDup b /\ forall x, In x a -> ~ In x b.
Proof.
  induction a as [|y a IH]; cbn; intros H; [repeat split; [constructor|exact H|auto]|]. inversion H as [|? ? N1 N2]; subst. destruct (IH N2) as (H1 & H2 & H3).
  rewrite in_app_iff in N1. repeat split; [constructor; tauto|exact H2|]. intros x [->|Hx]; [tauto|now apply H3].
Qed.
Lemma kids_spec pn l : Forall spec l -> forall prev h, NoDup (nobj pn :: flat_map pointers l) -> let h' := kids node_parse (nobj pn) prev l h in
  sib h h' pn prev l /\ (forall n, In n l -> forall q k, level (Some n) (nkids n) (Some q) k -> sib h h' q None k) /\
  ol_parent (h' (nobj pn)) = ol_parent (h (nobj pn)) /\ ol_prev (h' (nobj pn)) = ol_prev (h (nobj pn)) /\ ol_next (h' (nobj pn)) = ol_next (h (nobj pn)) /\
  ol_first (h' (nobj pn)) = match prev, l with None, c :: _ => ix h c | _, _ => ol_first (h (nobj pn)) end /\
  ol_last (h' (nobj pn)) = match last_error l with Some c => ix h c | None => ol_last (h (nobj pn)) end.
Proof.
  induction 1 as [|c r Sc Sr IH]; intros prev h ND; cbv zeta.
  - split; [intros [|k] n H; discriminate|]. split; [intros n []|]. cbn. destruct prev; auto.
  - inversion ND as [|? ? Np ND']; subst. cbn [flat_map] in Np, ND'. rewrite in_app_iff in Np. destruct (NoDup_app_inv _ _ ND') as (NDc & NDr & Dj).
    set (h1 := child_step (nobj pn) prev c r h). set (h2 := node_parse c h1).
    change (kids node_parse (nobj pn) prev (c :: r) h) with (kids node_parse (nobj pn) (Some c) r h2). set (h' := kids node_parse (nobj pn) (Some c) r h2).
    assert (Ncp : nobj c <> nobj pn) by (intros E; apply Np; left; rewrite <- E; apply in_self).
    destruct (IH (Some c) h2) as (I1 & I2 & I3 & I4 & I5 & I6 & I7); [constructor; tauto|]. fold h' in I1, I2, I3, I4, I5, I6, I7.
    destruct (Sc h1 NDc) as (C1 & C2 & C3 & C4 & C5). fold h2 in C1, C2, C3, C4, C5.
    destruct (child_c pn prev c r h Ncp) as (A1 & A2 & A3 & A4 & A5). fold h1 in A1, A2, A3, A4, A5.
    destruct (child_p pn prev c r h Ncp) as (P1 & P2 & P3 & P4 & P5). fold h1 in P1, P2, P3, P4, P5.
    assert (X1 : forall x, ol_index (h1 x) = ol_index (h x)) by (intros; apply child_idx).
    assert (X2 : forall x, ol_index (h2 x) = ol_index (h x)) by (intros; unfold h2; rewrite node_idx; apply X1).
    assert (Fp : h2 (nobj pn) = h1 (nobj pn)) by (apply node_frame; tauto).
    assert (Fc : forall x, In x (pointers c) -> h' x = h2 x) by (intros x Hx; apply kids_frame; [intros ->; tauto|now apply Dj]).
    assert (Fr : forall x, In x (flat_map pointers r) -> h2 x = h x).
    { intros x Hx. unfold h2. rewrite node_frame by (intros Hc; exact (Dj x Hc Hx)). apply child_frame; [intros ->; tauto|]. intros ->. exact (Dj _ (in_self c) Hx). }
    assert (IXo : forall o, option_map (ix h2) o = option_map (ix h) o) by (intros [o|]; cbn; unfold ix; now rewrite ?X2).
    assert (S1 : sib h h' pn (Some c) r).
    { eapply (sib_ext h2 h h' h'); [intros; symmetry; apply X2|reflexivity| |exact I1]. intros n Hn. symmetry. apply Fr, in_flat_map. exists n. split; [exact Hn|apply in_self]. }
    split; [|split; [|split; [congruence|split; [congruence|split; [congruence|split]]]]].
    + intros [|k] n H; cbn [nth_error] in H.
      * injection H as <-. cbn [before nth_error]. rewrite (Fc _ (in_self c)), C1, C2, C3, A1, A2, A3. split; [reflexivity|]. split; [reflexivity|].
        split; [destruct r; reflexivity|]. eapply (own_ext h1 h h2 h'); [intros; symmetry; apply X1|now rewrite (Fc _ (in_self c))|now rewrite (Fc _ (in_self c))|now symmetry|now symmetry|exact C4].
      * destruct (S1 k n H) as (B1 & B2 & B3 & B4). split; [exact B1|]. split; [destruct k; exact B2|]. split; [exact B3|exact B4].
    + intros n [->|Hn] q k L.
      * apply (sib_ext h1 h h2 h'); [intros; symmetry; apply X1| | |now apply C5].
        -- intros m Hm. apply Fc. pose proof (level_in _ _ _ _ L m Hm (nobj m) (in_self m)) as G. destruct n; right; exact G.
        -- intros m Hm. symmetry. pose proof (level_in _ _ _ _ L m Hm (nobj m) (in_self m)) as G. apply child_frame.
           ++ intros E. apply Np. left. rewrite <- E. destruct n; right; exact G.
           ++ intros E. destruct n as [o ch]. cbn [pointers nobj nkids] in *. inversion NDc; subst. congruence.
      * apply (sib_ext h2 h h' h'); [intros; symmetry; apply X2|reflexivity| |now apply (I2 n Hn q k L)].
        intros m Hm. symmetry. apply Fr. pose proof (level_in _ _ _ _ L m Hm (nobj m) (in_self m)) as G. apply in_flat_map. exists n. split; [exact Hn|]. destruct n; right; exact G.
    + rewrite I6, Fp, P4. destruct prev; reflexivity.
    + rewrite I7, last_error_cons. destruct r as [|d r]; [cbn; rewrite Fp; exact P5|].
      destruct (last_error (d :: r)) eqn:E; [unfold ix; now rewrite X2|]. exfalso. revert E. unfold last_error. cbn [rev]. destruct (rev r); discriminate.
Qed.
Lemma all_spec n : spec n.
Proof.
  induction n as [o ch IH] using node_rec'. intros h ND. cbn [pointers] in ND. destruct (kids_spec (Node o ch) ch IH None h ND) as (K1 & K2 & K3 & K4 & K5 & K6 & K7).
  cbn [nobj nkids node_parse] in *. split; [exact K3|]. split; [exact K4|]. split; [exact K5|]. split.
  - unfold own. cbn [nkids nobj]. destruct ch as [|c r]; [split; [exact K6|exact K7]|]. cbn [hd_error option_map]. rewrite K6, K7. split; [reflexivity|].
    destruct (last_error (c :: r)) eqn:E; [reflexivity|]. exfalso. revert E. unfold last_error. cbn [rev]. destruct (rev r); discriminate.
  - intros q k L. destruct (level_inv _ _ _ _ L) as [[E ->]|(n & Hn & L')]; [injection E as ->; exact K1|]. exact (K2 n Hn q k L').
Qed.
Lemma tops_frame l : forall prev h x, ~ In x (flat_map pointers l) -> tops prev l h x = h x.
Proof.
  induction l as [|c r IH]; intros prev h x H; [reflexivity|]. cbn [tops flat_map] in *. rewrite in_app_iff in H. rewrite IH by tauto. rewrite node_frame by tauto.
  apply top_frame. intros ->. apply H. left. apply in_self.
Qed.
Lemma top_c prev c r h : let h1 := top_step prev c r h in
  ol_parent (h1 (nobj c)) = ol_parent (h (nobj c)) /\ ol_prev (h1 (nobj c)) = (match prev with None => -1 | Some _ => ol_prev (h (nobj c)) end) /\
  ol_next (h1 (nobj c)) = link (option_map (ix h) (hd_error r)) /\ ol_first (h1 (nobj c)) = ol_first (h (nobj c)) /\ ol_last (h1 (nobj c)) = ol_last (h (nobj c)).
Proof.
  intros h1. subst h1. unfold ix, top_step. set (oc := nobj c).
  destruct prev as [p|], r as [|n r]; cbn [hd_error option_map link]; unfold setPrev, setNext, getIndex;
    repeat first [rewrite set_same | progress cbn [ol_parent ol_prev ol_next ol_first ol_last ol_index] | rewrite set_idx by reflexivity]; repeat split; reflexivity.
Qed.
Definition topsib (h0 h : heap) (prev : option node) (l : list node) : Prop :=
  forall k n, nth_error l k = Some n ->
    ol_parent (h (nobj n)) = ol_parent (h0 (nobj n)) /\
    ol_prev (h (nobj n)) = (match before prev l k with None => -1 | Some _ => ol_prev (h0 (nobj n)) end) /\
    ol_next (h (nobj n)) = link (option_map (ix h0) (nth_error l (S k))) /\ own h0 h n.
Lemma tops_spec l : forall prev h, NoDup (flat_map pointers l) -> let h' := tops prev l h in
  topsib h h' prev l /\ (forall n, In n l -> forall q k, level (Some n) (nkids n) (Some q) k -> sib h h' q None k).
Proof.
  induction l as [|c r IH]; intros prev h ND; cbv zeta.
  - split; [intros [|k] n H; discriminate|intros n []].
  - cbn [flat_map] in ND. destruct (NoDup_app_inv _ _ ND) as (NDc & NDr & Dj). cbn [tops].
    set (h1 := top_step prev c r h). set (h2 := node_parse c h1). set (h' := tops (Some c) r h2).
    destruct (IH (Some c) h2 NDr) as (I1 & I2). fold h' in I1, I2.
    destruct (all_spec c h1 NDc) as (C1 & C2 & C3 & C4 & C5). fold h2 in C1, C2, C3, C4, C5.
    destruct (top_c prev c r h) as (A1 & A2 & A3 & A4 & A5). fold h1 in A1, A2, A3, A4, A5.
    assert (X1 : forall x, ol_index (h1 x) = ol_index (h x)) by (intros; apply top_idx).
    assert (X2 : forall x, ol_index (h2 x) = ol_index (h x)) by (intros; unfold h2; rewrite node_idx; apply X1).
    assert (Fc : forall x, In x (pointers c) -> h' x = h2 x) by (intros x Hx; apply tops_frame; now apply Dj).
    assert (Fr : forall x, In x (flat_map pointers r) -> h2 x = h x).
    { intros x Hx. unfold h2. rewrite node_frame by (intros Hc; exact (Dj x Hc Hx)). apply top_frame. intros ->. exact (Dj _ (in_self c) Hx). }
    split.
    + intros [|k] n H; cbn [nth_error] in H.
      * injection H as <-. cbn [before nth_error]. rewrite (Fc _ (in_self c)), C1, C2, C3, A1, A2, A3. split; [reflexivity|]. split; [reflexivity|].
        split; [destruct r; reflexivity|]. eapply (own_ext h1 h h2 h'); [intros; symmetry; apply X1|now rewrite (Fc _ (in_self c))|now rewrite (Fc _ (in_self c))|now symmetry|now symmetry|exact C4].
      * destruct (I1 k n H) as (B1 & B2 & B3 & B4). assert (Hn : In (nobj n) (flat_map pointers r)) by (apply in_flat_map; exists n; split; [eapply nth_error_In; eauto|apply in_self]).
        rewrite (Fr _ Hn) in B1, B2. split; [exact B1|]. split; [cbn [before]; destruct k; [exact B2|]; cbn [nth_error before] in *; exact B2|].
        split.
        -- rewrite B3. cbn [nth_error]. destruct r as [|d r']; [reflexivity|]. destruct (nth_error r' k); cbn; unfold ix; now rewrite ?X2.
        -- eapply (own_ext h2 h h' h'); [intros; symmetry; apply X2|reflexivity|reflexivity|now rewrite (Fr _ Hn)|now rewrite (Fr _ Hn)|exact B4].
    + intros n [->|Hn] q k L.
      * apply (sib_ext h1 h h2 h'); [intros; symmetry; apply X1| | |now apply C5].
        -- intros m Hm. apply Fc. pose proof (level_in _ _ _ _ L m Hm (nobj m) (in_self m)) as G. destruct n; right; exact G.
        -- intros m Hm. symmetry. pose proof (level_in _ _ _ _ L m Hm (nobj m) (in_self m)) as G. apply top_frame.
           intros E. destruct n as [o ch]. cbn [pointers nobj nkids] in *. inversion NDc; subst. congruence.
      * apply (sib_ext h2 h h' h'); [intros; symmetry; apply X2|reflexivity| |now apply (I2 n Hn q k L)].
        intros m Hm. symmetry. apply Fr. pose proof (level_in _ _ _ _ L m Hm (nobj m) (in_self m)) as G. apply in_flat_map. exists n. split; [exact Hn|]. destruct n; right; exact G.
Qed.

(** The outlines added, before Parse. *)
Lemma created_snoc i nums n : created i (nums ++ [n]) = addWithPosition n (created i nums).
Proof. unfold created. now rewrite fold_left_app. Qed.
Lemma created_ok i nums : Forall (fun n => 0 < n) nums ->
  let s := created i nums in os_new s = List.length nums /\ os_lastobj s = (match nums with [] => None | _ => Some (List.length nums - 1)%nat end) /\
  os_index s = i /\ os_last s = last nums (-1) /\ os_first s = hd (-1) nums /\
  forall o z, nth_error nums o = Some z -> let v := os_heap s o in
    ol_index v = z /\ ol_parent v = i /\ ol_first v = 0 /\ ol_last v = 0 /\
    ol_prev v = link (match o with O => None | S j => nth_error nums j end) /\ ol_next v = link (nth_error nums (S o)).
Proof.
  cbv zeta. induction nums as [|n nums IH] using rev_ind; intros P.
  - repeat split; try reflexivity; destruct o; discriminate.
  - apply Forall_app in P as [P Pn]. inversion Pn as [|? ? P0 _]; subst. destruct (IH P) as (A1 & A2 & A3 & A4 & A5 & H). rewrite created_snoc. set (s := created i nums) in *. clearbody s.
    unfold addWithPosition. cbn [os_new os_lastobj os_index os_last os_first os_heap]. rewrite app_length. cbn [List.length].
    split; [rewrite A1; lia|]. split; [rewrite A1; destruct nums; cbn; f_equal; lia|]. split; [exact A3|]. split; [now rewrite last_last|]. split.
    { rewrite A5. destruct nums as [|m r]; cbn; [reflexivity|]. inversion P; subst. now replace (m <=? 0) with false by lia. }
    intros o z Hz.
    assert (Lo : (o < List.length nums \/ o = List.length nums)%nat) by (assert (o < List.length (nums ++ [n]))%nat by (apply nth_error_Some; congruence); rewrite app_length in *; cbn in *; lia).
    destruct Lo as [Lo | ->].
    + rewrite nth_error_app1 in Hz by exact Lo. destruct (H o z Hz) as (B1 & B2 & B3 & B4 & B5 & B6).
      assert (E1 : set (os_heap s) (os_new s) {| ol_index := n; ol_parent := os_index s; ol_prev := os_last s; ol_next := -1; ol_first := 0; ol_last := 0 |} o = os_heap s o) by (apply set_other; lia).
      assert (Pv : match o with O => None | S j => nth_error (nums ++ [n]) j end = match o with O => None | S j => nth_error nums j end) by (destruct o; [reflexivity|rewrite nth_error_app1 by lia; reflexivity]).
      rewrite Pv. rewrite A2. destruct nums as [|m r]; [cbn in Lo; lia|]. cbv iota. unfold setNext.
      destruct (Nat.eq_dec o (List.length (m :: r) - 1)) as [-> | Ne].
      * rewrite set_same. cbn [ol_index ol_parent ol_prev ol_first ol_last ol_next]. rewrite E1. repeat (split; [assumption|]).
        replace (S (List.length (m :: r) - 1)) with (List.length (m :: r)) by (cbn; lia). rewrite nth_error_app2, Nat.sub_diag by lia. reflexivity.
      * rewrite set_other by exact Ne. rewrite E1. repeat (split; [assumption|]). rewrite nth_error_app1 by lia. exact B6.
    + rewrite nth_error_app2, Nat.sub_diag in Hz by lia. injection Hz as <-.
      assert (V : forall h, (match os_lastobj s with Some p => setNext p n h | None => h end) (List.length nums) = h (List.length nums)).
      { intros h. rewrite A2. destruct nums; [reflexivity|]. unfold setNext. apply set_other. cbn; lia. }
      rewrite V, A1, set_same. cbn [ol_index ol_parent ol_prev ol_first ol_last ol_next]. repeat (split; [reflexivity || assumption|]). split.
      * rewrite A4. destruct nums as [|m r] using rev_ind; [reflexivity|]. rewrite last_last, app_length. cbn [List.length]. rewrite Nat.add_comm. cbn [Nat.add].
        rewrite nth_error_app1 by (rewrite app_length; cbn; lia). rewrite nth_error_app2, Nat.sub_diag by lia. reflexivity.
      * replace (nth_error (nums ++ [n]) (S (List.length nums))) with (@None Z); [reflexivity|]. symmetry. apply nth_error_None. rewrite app_length. cbn. lia.
Qed.

(** ** C18 *)
(** For every forest over the outlines added, after Parse, at every level: Next, First and Last are right; Parent and
    Prev are right below the top level; at the top level the first has no Prev. Missing for the full property: Prev (and
    Parent) at the top level — see the refutation. *)
Lemma opt_of_link v : (forall z, v = Some z -> 0 < z) -> (if 0 <=? link v then Some (link v) else None) = v.
Proof. intros H. destruct v as [z|]; cbn; [|reflexivity]. specialize (H z eq_refl). now replace (0 <=? z) with true by lia. Qed.
Theorem C18_nested_links_partial :
  forall index nums f, Forall (fun n => 0 < n) nums -> NoDup (flat_map pointers f) -> (forall o, In o (flat_map pointers f) -> (o < List.length nums)%nat) ->
    let h := forest_parse f (os_heap (created index nums)) in
    forall p l, level None f p l -> forall k n, nth_error l k = Some n ->
      let e := written (h (nobj n)) in
      e_next e = option_map (number nums) (nth_error l (S k)) /\
      e_first e = option_map (number nums) (hd_error (nkids n)) /\
      e_last e = option_map (number nums) (last_error (nkids n)) /\
      (k = O -> e_prev e = None) /\
      forall q, p = Some q -> e_parent e = number nums q /\ e_prev e = option_map (number nums) (match k with O => None | S j => nth_error l j end).
Proof.
  intros index nums f P ND In_ h p l L k n Hk e. destruct (created_ok index nums P) as (_ & _ & _ & _ & _ & H0). set (h0 := os_heap (created index nums)) in *.
  destruct (tops_spec f None h0 ND) as (T1 & T2). fold (forest_parse f h0) in T1, T2. fold h in T1, T2.
  assert (NZ : forall m, In (nobj m) (flat_map pointers f) -> exists z, nth_error nums (nobj m) = Some z /\ 0 < z /\ ix h0 m = z /\ number nums m = z /\ ol_first (h0 (nobj m)) = 0 /\ ol_last (h0 (nobj m)) = 0).
  { intros m Hm. destruct (nth_error nums (nobj m)) as [z|] eqn:E; [|apply nth_error_None in E; specialize (In_ _ Hm); lia]. exists z. destruct (H0 _ _ E) as (B1 & _ & B3 & B4 & _).
    split; [reflexivity|]. split; [eapply Forall_forall in P; [exact P|eapply nth_error_In; eauto]|]. split; [exact B1|]. split; [unfold number; now apply nth_error_nth|auto]. }
  assert (Num : forall m, In (nobj m) (flat_map pointers f) -> ix h0 m = number nums m) by (intros m Hm; destruct (NZ m Hm) as (z & _ & _ & -> & -> & _); reflexivity).
  assert (Numo : forall (mo : option node), (forall m, mo = Some m -> In (nobj m) (flat_map pointers f)) -> option_map (ix h0) mo = option_map (number nums) mo /\ forall z, option_map (ix h0) mo = Some z -> 0 < z).
  { intros [m|] Hm; cbn; [|split; [reflexivity|discriminate]]. specialize (Hm m eq_refl). rewrite (Num m Hm). split; [reflexivity|]. intros z E. injection E as <-. destruct (NZ m Hm) as (z & _ & Z & _ & -> & _). exact Z. }
  assert (InL : forall m, In m l -> In (nobj m) (flat_map pointers f)) by (intros m Hm; exact (level_in _ _ _ _ L m Hm _ (in_self m))).
  assert (InN : forall j m, nth_error l j = Some m -> In (nobj m) (flat_map pointers f)) by (intros j m Hj; apply InL; eapply nth_error_In; eauto).
  assert (InK : forall m, In m (nkids n) -> In (nobj m) (flat_map pointers f)).
  { intros m Hm. assert (L2 : level None f (Some n) (nkids n)) by (eapply below; [exact L|eapply nth_error_In; eauto]). exact (level_in _ _ _ _ L2 m Hm _ (in_self m)). }
  assert (OWN : own h0 h n -> e_first e = option_map (number nums) (hd_error (nkids n)) /\ e_last e = option_map (number nums) (last_error (nkids n))).
  { unfold own. subst e. cbn [written e_first e_last]. destruct (NZ n (InN k n Hk)) as (zn & _ & _ & _ & _ & Z1 & Z2). destruct (nkids n) as [|c r] eqn:K; intros [O1 O2].
    - rewrite O1, O2, Z1, Z2. split; reflexivity.
    - destruct (Numo (hd_error (c :: r))) as [Q1 Q2]; [intros m E; apply InK; cbn in E; injection E as <-; now left|].
      destruct (Numo (last_error (c :: r))) as [Q3 Q4]; [intros m E; apply InK; apply (proj2 (in_rev (c :: r) m)); unfold last_error in E; destruct (rev (c :: r)); [discriminate|]; injection E as ->; now left|].
      rewrite <- Q1, <- Q3, <- O1, <- O2. split; [rewrite (proj2 (Z.ltb_lt _ _)); [reflexivity|apply Q2; now symmetry]|rewrite (proj2 (Z.ltb_lt _ _)); [reflexivity|apply Q4; now symmetry]]. }
  assert (NEXT : forall v, ol_next (h (nobj n)) = link (option_map (ix h0) v) -> (forall m, v = Some m -> In (nobj m) (flat_map pointers f)) -> e_next e = option_map (number nums) v).
  { intros v E Hv. destruct (Numo v Hv) as [Q1 Q2]. subst e. cbn [written e_next]. rewrite E, opt_of_link by exact Q2. exact Q1. }
  assert (PREV : forall v, ol_prev (h (nobj n)) = link (option_map (ix h0) v) -> (forall m, v = Some m -> In (nobj m) (flat_map pointers f)) -> e_prev e = option_map (number nums) v).
  { intros v E Hv. destruct (Numo v Hv) as [Q1 Q2]. subst e. cbn [written e_prev]. rewrite E, opt_of_link by exact Q2. exact Q1. }
  destruct p as [q|].
  - assert (S : sib h0 h q None l /\ In (nobj q) (flat_map pointers f)).
    { split.
      - destruct (level_inv _ _ _ _ L) as [[E _]|(m & Hm & L')]; [discriminate|exact (T2 m Hm q l L')].
      - inversion L as [E|p' l' n' L' I' E1 E2]; subst. exact (level_in _ _ _ _ L' q I' _ (in_self q)). }
    destruct S as [S Iq]. destruct (S k n Hk) as (B1 & B2 & B3 & B4). destruct (OWN B4) as [O1 O2].
    assert (PV : e_prev e = option_map (number nums) (match k with O => None | S j => nth_error l j end)).
    { apply PREV; [exact B2|]. intros m E. destruct k; [discriminate|]. exact (InN _ _ E). }
    split; [apply NEXT; [exact B3|apply InN]|]. split; [exact O1|]. split; [exact O2|]. split; [intros ->; exact PV|].
    intros q' E. injection E as <-. split; [|exact PV]. subst e. cbn [written e_parent]. rewrite B1. now apply Num.
  - assert (L0 : l = f) by (inversion L; reflexivity). subst l. destruct (T1 k n Hk) as (B1 & B2 & B3 & B4). destruct (OWN B4) as [O1 O2].
    split; [apply NEXT; [exact B3|apply InN]|]. split; [exact O1|]. split; [exact O2|]. split; [|discriminate].
    intros ->. subst e. cbn [written e_prev]. rewrite B2. reflexivity.
Qed.
Print Assumptions C18_nested_links_partial.
(** The top level's Prev is right when its outlines were added one directly after the other (any forests below them
    aside): what Parse leaves is the order of creation. *)
Theorem C18_top_prev_partial :
  forall index nums f, Forall (fun n => 0 < n) nums -> NoDup (flat_map pointers f) -> (forall o, In o (flat_map pointers f) -> (o < List.length nums)%nat) ->
    let h := forest_parse f (os_heap (created index nums)) in
    forall j a b, nth_error f j = Some a -> nth_error f (S j) = Some b ->
      (e_prev (written (h (nobj b))) = Some (number nums a) <->
       match nobj b with O => False | S o => nth_error nums o = Some (number nums a) end).
Proof.
  intros index nums f P ND In_ h j a b Ha Hb. destruct (created_ok index nums P) as (_ & _ & _ & _ & _ & H0). set (h0 := os_heap (created index nums)) in *.
  destruct (tops_spec f None h0 ND) as (T1 & _). fold (forest_parse f h0) in T1. fold h in T1. destruct (T1 _ _ Hb) as (_ & B2 & _). cbn [before] in B2. rewrite Ha in B2.
  assert (Ib : In (nobj b) (flat_map pointers f)) by (apply in_flat_map; exists b; split; [eapply nth_error_In; eauto|apply in_self]).
  destruct (nth_error nums (nobj b)) as [z|] eqn:E; [|apply nth_error_None in E; specialize (In_ _ Ib); lia].
  destruct (H0 _ _ E) as (_ & _ & _ & _ & B5 & _). cbn [written e_prev]. rewrite B2, B5. rewrite opt_of_link; [destruct (nobj b); [split; [discriminate|contradiction]|reflexivity]|].
  intros y Hy. destruct (nobj b); [discriminate|]. eapply Forall_forall in P; [exact P|eapply nth_error_In; eauto].
Qed.
Print Assumptions C18_top_prev_partial.

(** A forest: chapter (section, section (subsection)), chapter — added in reading order at object numbers 5, 6, 8, 9, 12. *)
Definition chapters : list node := [Node 0 [Node 1 []; Node 2 [Node 3 []]]; Node 4 []].
Definition chapter_nums : list Z := [5; 6; 8; 9; 12].
Example C18_met : Forall (fun n => 0 < n) chapter_nums /\ NoDup (flat_map pointers chapters) /\
  (forall o, In o (flat_map pointers chapters) -> (o < List.length chapter_nums)%nat) /\ level None chapters (Some (Node 2 [Node 3 []])) [Node 3 []].
Proof.
  split; [repeat constructor|]. split; [repeat (constructor; [cbn; intuition lia|]); constructor|]. split; [cbn; intuition lia|].
  eapply (below _ _ (Some (Node 0 [Node 1 []; Node 2 [Node 3 []]])) [Node 1 []; Node 2 [Node 3 []]] (Node 2 [Node 3 []])); [|now right; left].
  eapply (below _ _ None chapters (Node 0 [Node 1 []; Node 2 [Node 3 []]])); [constructor|now left].
Qed.
(** … whose second chapter's Prev is the subsection, not the first chapter; and the outline dictionary's First and Last
    are right only by accident: Last is the last outline added at any level. *)
Theorem C18_top_level_prev_refuted :
  exists index nums f, Forall (fun n => 0 < n) nums /\ NoDup (flat_map pointers f) /\ (forall o, In o (flat_map pointers f) -> (o < List.length nums)%nat) /\
    exists a b, nth_error f 0 = Some a /\ nth_error f 1 = Some b /\
      e_next (written (forest_parse f (os_heap (created index nums)) (nobj a))) = Some (number nums b) /\
      e_prev (written (forest_parse f (os_heap (created index nums)) (nobj b))) <> Some (number nums a).
Proof.
  exists 2, chapter_nums, chapters. destruct C18_met as (A & B & C & _). split; [exact A|]. split; [exact B|]. split; [exact C|].
  do 2 eexists. split; [reflexivity|]. split; [reflexivity|]. split; [reflexivity|]. vm_compute. discriminate.
Qed.
Print Assumptions C18_top_level_prev_refuted.
Theorem C18_root_last_refuted :
  exists index nums f a, Forall (fun n => 0 < n) nums /\ NoDup (flat_map pointers f) /\ (forall o, In o (flat_map pointers f) -> (o < List.length nums)%nat) /\
    last_error f = Some a /\ snd (written_root (created index nums)) <> Some (number nums a).
Proof.
  exists 2, [5; 6; 8], [Node 0 []; Node 1 [Node 2 []]], (Node 1 [Node 2 []]). split; [repeat constructor|].
  split; [repeat (constructor; [cbn; intuition lia|]); constructor|]. split; [cbn; intuition lia|]. split; [reflexivity|]. vm_compute. discriminate.
Qed.
Print Assumptions C18_root_last_refuted.
(** The outline dictionary itself: First and Last are the first and the last item added, whatever forest is made of them;
    so they are right when the items are added in document order and the last top-level item has no children. *)
Theorem C18_root_ends_partial :
  forall index nums, Forall (fun n => 0 < n) nums -> written_root (created index nums) = (hd_error nums, last_error nums).
Proof.
  intros index nums P. destruct (created_ok index nums P) as (_ & _ & _ & L & F & _). unfold written_root. rewrite L, F. unfold last_error. f_equal.
  - destruct nums as [|n r]; [reflexivity|]. cbn. inversion P; subst. now replace (0 <=? n) with true by lia.
  - destruct nums as [|n r] using rev_ind; [reflexivity|]. rewrite last_last, rev_unit. cbn. apply Forall_app in P as [_ P]. inversion P; subst. now replace (0 <=? n) with true by lia.
Qed.
Theorem C18_root_flat :
  forall index nums f, Forall (fun n => 0 < n) nums -> map nobj f = seq 0 (List.length nums) ->
    written_root (created index nums) = (option_map (number nums) (hd_error f), option_map (number nums) (last_error f)).
Proof.
  intros index nums f P M. rewrite C18_root_ends_partial by exact P.
  assert (E : map (number nums) f = nums).
  { change (number nums) with (fun n => (fun o => nth o nums 0) (nobj n)). rewrite <- (map_map nobj (fun o => nth o nums 0)), M. clear. induction nums as [|a l IH]; [reflexivity|]. cbn [List.length seq map nth]. f_equal. rewrite <- seq_shift, map_map. exact IH. }
  unfold last_error. rewrite <- E at 1 2. rewrite <- map_rev. destruct f; [reflexivity|]. destruct (rev (n :: f)); reflexivity.
Qed.
Example C18_root_met : Forall (fun n => 0 < n) [5; 6; 8] /\ map nobj [Node 0 []; Node 1 []; Node 2 []] = seq 0 3 /\ written_root (created 2 [5; 6; 8]) = (Some 5, Some 8).
Proof. split; [repeat constructor|]. split; reflexivity. Qed.
Print Assumptions C18_root_flat.
