(** PropPlace.v — C51: placeholders. *)
From Coq Require Import QArith Lqa Permutation.
From Coq Require Import Floats.SpecFloat.
From Verif Require Import Base StrModel NumModel UnitModel DrawModel PlaceModel.
Open Scope Z_scope.

Lemma NoDup_app_remove_l {A} (l l' : list A) : NoDup (l ++ l') -> NoDup l'.
Proof. induction l as [|a l IH]; [auto|]. cbn. intros H. apply NoDup_cons_iff in H as [_ H]. auto. Qed.
Lemma NoDup_app_remove_r {A} (l l' : list A) : NoDup (l ++ l') -> NoDup l.
Proof. induction l as [|a l IH]; [constructor|]. cbn. intros H. apply NoDup_cons_iff in H as [H1 H]. constructor; [|auto]. intros X. apply H1, in_or_app. auto. Qed.
Section Keep.
  Variable N : num.
  Notation T := (T N).
  Definition is_ph (c : cache N) : Prop := match c with CText _ t => c_ph N t = true | _ => False end.
  Lemma splitLast_eq (l : list (cache N)) pre c : splitLast N l = (pre, Some c) -> l = pre ++ [c].
  Proof. unfold splitLast. destruct (rev l) as [|a r] eqn:E; [discriminate|]. intros H. assert (pre = rev r /\ c = a) as [-> ->] by (split; congruence). rewrite <- (rev_involutive l), E. reflexivity. Qed.
  Lemma append_keeps l n txt l' x y : c_ph N n = false -> appendContentText N l n txt = Some (l', x, y) ->
    (List.length l <= List.length l')%nat /\ forall k c, nth_error l k = Some c -> is_ph c -> nth_error l' k = Some c.
  Proof.
    intros Hn. unfold appendContentText. destruct (splitLast N l) as [pre o] eqn:Sp.
    assert (G : forall pre base, (pre = l /\ True) \/ (exists t, l = pre ++ [CText N t] /\ c_ph N t = false) ->
      match createContent N (c_font N base) (c_text N base ++ txt) (c_size N base) (c_cs N base) (c_rect N base) with
      | None => None
      | Some cwht => let c := setText N base (c_text N base ++ txt) cwht in let fl := o_float N (c_opt N c) in
          Some (pre ++ [CText N c], (if (fl =? 0) || has fl oRight || negb (c_cell N c) then nadd N (c_x N c) (c_cw N c) else c_x N n),
              (if has fl oBottom then nadd N (c_y N c) (c_ch N c) else c_y N n))
      end = Some (l', x, y) -> (List.length l <= List.length l')%nat /\ forall k c, nth_error l k = Some c -> is_ph c -> nth_error l' k = Some c).
    { clear o pre Sp. intros pre base P H. destruct (createContent _ _ _ _ _ _) as [cw|]; [|discriminate]. cbn zeta in H.
      assert (E : l' = pre ++ [CText N (setText N base (c_text N base ++ txt) cw)]) by congruence. subst l'. clear H.
      destruct P as [[-> _]|(t & -> & Ht)].
      - split; [rewrite app_length; lia|]. intros k c Hk _. rewrite nth_error_app1; [exact Hk|]. apply nth_error_Some. congruence.
      - split; [rewrite !app_length; cbn; lia|]. intros k c Hk Pc. destruct (lt_dec k (List.length pre)) as [L|L].
        + rewrite nth_error_app1 in * by exact L. exact Hk.
        + exfalso. rewrite nth_error_app2 in Hk by lia. destruct (k - List.length pre)%nat as [|j]; cbn in Hk; [|destruct j; discriminate].
          injection Hk as <-. cbn in Pc. congruence. }
    destruct o as [[]|]; try (apply (G l n); left; auto).
    destruct (isSame N c n) eqn:Is; [|apply (G l n); left; auto]. apply (G pre c). right. exists c. split; [now apply splitLast_eq|].
    unfold isSame in Is. destruct (c_rect N c); [discriminate|]. rewrite !andb_true_iff in Is. destruct Is as [_ Is]. apply Bool.eqb_prop in Is. congruence.
  Qed.
  Definition keeps (l l' : list (cache N)) : Prop := (List.length l <= List.length l')%nat /\ forall k c, nth_error l k = Some c -> is_ph c -> nth_error l' k = Some c.
  Lemma keeps_refl l : keeps l l.
  Proof. split; auto. Qed.
  Lemma keeps_app l c : keeps l (l ++ [c]).
  Proof. split; [rewrite app_length; lia|]. intros k x H _. rewrite nth_error_app1; [exact H|]. apply nth_error_Some. congruence. Qed.
  Lemma step_keeps s c s' : step N s c = Some s' -> keeps (s_caches N s) (s_caches N s') /\ s_cfg N s' = s_cfg N s.
  Proof.
    assert (D : forall r cell o txt, drawText N s r cell o txt = Some s' -> keeps (s_caches N s) (s_caches N s') /\ s_cfg N s' = s_cfg N s).
    { intros r cell o txt. unfold drawText. destruct (s_font N s) as [[fc f]|]; [|discriminate].
      destruct (appendContentText N (s_caches N s) (mkText N s fc f r cell false o) (fv_add f txt)) as [[[l x] y]|] eqn:A; [|discriminate].
      intros H. assert (E : s' = withxy N (withc N s l) x y (s_setx N s)) by congruence. subst s'. split; [|reflexivity]. eapply append_keeps; [|exact A]. reflexivity. }
    destruct c; cbn [step]; try (apply D); try (intros H; injection H as <-; split; [(apply keeps_app || apply keeps_refl)|reflexivity]).
    destruct (s_font N s) as [[fc f]|]; [|discriminate]. intros H; injection H as <-. split; [apply keeps_app|reflexivity].
  Qed.

  (** the reservations *)
  Definition pos (i : info N) : Z * nat := (i_page N i, i_index N i).
  Definition allinfos (l : list (bytes * list (info N))) : list (info N) := flat_map snd l.
  Definition valid (st : pst N) (i : info N) : Prop := exists t, nth_error (p_pages N st (i_page N i)) (i_index N i) = Some (CText N t) /\ c_ph N t = true.
  Record Inv (st : pst N) : Prop := { inv_v : Forall (valid st) (allinfos (p_infos N st)); inv_d : NoDup (map pos (allinfos (p_infos N st)));
                                     inv_n : NoDup (map fst (p_infos N st)) }.
  Lemma append_in name i l : Permutation (allinfos (append_info N name i l)) (i :: allinfos l).
  Proof.
    induction l as [|[n is] l IH]; cbn [append_info allinfos flat_map snd]; [reflexivity|].
    destruct (list_eqb n name); cbn [allinfos flat_map snd].
    - rewrite <- app_assoc. cbn [app]. apply Permutation_sym, Permutation_middle.
    - fold (allinfos (append_info N name i l)) (allinfos l). rewrite IH. apply Permutation_sym, Permutation_middle.
  Qed.
  Lemma append_names name i l : map fst (append_info N name i l) = map fst l \/ (~ In name (map fst l) /\ map fst (append_info N name i l) = map fst l ++ [name]).
  Proof.
    induction l as [|[n is] l IH]; cbn [append_info map fst]; [right; split; [intros []|reflexivity]|].
    destruct (list_eqb n name) eqn:E; cbn [map fst]; [left; reflexivity|]. destruct IH as [->|[H1 ->]]; [left; reflexivity|right]. split; [|reflexivity].
    intros [A|A]; [|now apply H1]. subst n. apply (proj2 (list_eqb_eq name name)) in E || (assert (list_eqb name name = true) by (now apply list_eqb_eq); congruence).
  Qed.
  Lemma lookup_append name i l : exists is, lookup N name (append_info N name i l) = Some (is ++ [i]) /\ (lookup N name l = Some is \/ (lookup N name l = None /\ is = [])).
  Proof.
    induction l as [|[n is] l IH]; cbn [append_info].
    - exists []. unfold lookup. cbn. assert (list_eqb name name = true) as -> by (now apply list_eqb_eq). auto.
    - unfold lookup in *. destruct (list_eqb n name) eqn:E; cbn [find fst]; rewrite E; cbn [option_map snd]; [exists is; auto|exact IH].
  Qed.
  Lemma lookup_append_other name name' i l : name <> name' -> lookup N name (append_info N name' i l) = lookup N name l.
  Proof.
    intros Hne. induction l as [|[n is] l IH]; cbn [append_info].
    - unfold lookup. cbn. destruct (list_eqb name' name) eqn:E; [apply list_eqb_eq in E; congruence|reflexivity].
    - unfold lookup in *. destruct (list_eqb n name') eqn:E; cbn [find fst]; [apply list_eqb_eq in E; subst n|].
      + destruct (list_eqb name' name) eqn:E2; [apply list_eqb_eq in E2; congruence|reflexivity].
      + destruct (list_eqb n name); [reflexivity|exact IH].
  Qed.
  Lemma lookup_all name l is : lookup N name l = Some is -> exists a b, allinfos l = a ++ is ++ b.
  Proof.
    unfold lookup. induction l as [|[n js] l IH]; cbn [find fst]; [discriminate|]. destruct (list_eqb n name).
    - cbn. intros H. injection H as ->. exists [], (allinfos l). reflexivity.
    - intros H. destruct (IH H) as (a & b & E). exists (js ++ a), b. cbn [allinfos flat_map snd]. fold (allinfos l). rewrite E. now rewrite app_assoc.
  Qed.
  Lemma set_nth_same l k c x : nth_error l k = Some x -> nth_error (set_nth N l k c) k = Some c.
  Proof.
    intros H. assert (L : (k < List.length l)%nat) by (apply nth_error_Some; congruence). unfold set_nth.
    rewrite nth_error_app2; rewrite firstn_length_le; try lia. now rewrite Nat.sub_diag.
  Qed.
  Lemma set_nth_other l k c j : (k < List.length l)%nat -> j <> k -> nth_error (set_nth N l k c) j = nth_error l j.
  Proof.
    revert k j. induction l as [|a l IH]; intros k j L Hj; [cbn in L; lia|]. unfold set_nth in *. destruct k as [|k]; destruct j as [|j]; cbn; try lia; try reflexivity.
    apply IH; cbn in L; lia.
  Qed.
  (** what a filling does to one reservation, and to everything else *)
  Definition newx (s : ds N) (f : fontv) (x width size cs : T) (txt : list Z) (al : Z) : option T :=
    match createContent N f txt size cs None with
    | None => None
    | Some (_, _, tw) => let diff := nsub N width (pointsToUnits N (s_cfg N s) tw) in
        Some (if al =? oRight then nadd N x diff else if al =? oCenter then nadd N x (ndiv N diff (nofZ N 2)) else x)
    end.
  Lemma fill1_spec st i txt al st' r : fill1 N st i txt al = (st', r) -> valid st i -> r <> PPanic ->
    p_s N st' = p_s N st /\ p_page N st' = p_page N st /\ p_infos N st' = p_infos N st /\
    exists t x, nth_error (p_pages N st (i_page N i)) (i_index N i) = Some (CText N t) /\
      (forall q k, (q, k) <> pos i -> nth_error (p_pages N st' q) k = nth_error (p_pages N st q) k) /\
      nth_error (p_pages N st' (i_page N i)) (i_index N i) = Some (CText N (setXText N t txt x)) /\
      (r = POk -> exists fc f, s_font N (p_s N st) = Some (fc, f) /\ newx (p_s N st) f (c_x N t) (i_width N i) (i_size N i) (i_cs N i) txt al = Some x).
  Proof.
    intros H (t & Ht & Pt) R. unfold fill1 in H. rewrite Ht in H.
    assert (U : forall x, forall q k, (q, k) <> pos i -> nth_error (upd N (p_pages N st) (i_page N i) (set_nth N (p_pages N st (i_page N i)) (i_index N i) (CText N (setXText N t txt x))) q) k = nth_error (p_pages N st q) k).
    { intros x q k Hq. unfold upd. destruct (q =? i_page N i) eqn:E; [|reflexivity]. apply Z.eqb_eq in E. subst q. apply set_nth_other; [apply nth_error_Some; congruence|]. intros ->. now apply Hq. }
    assert (V : forall x, nth_error (upd N (p_pages N st) (i_page N i) (set_nth N (p_pages N st (i_page N i)) (i_index N i) (CText N (setXText N t txt x))) (i_page N i)) (i_index N i) = Some (CText N (setXText N t txt x))).
    { intros x. unfold upd. rewrite Z.eqb_refl. eapply set_nth_same. exact Ht. }
    destruct (s_font N (p_s N st)) as [[fc f]|] eqn:Fn.
    2:{ exfalso. apply R. congruence. }
    unfold newx. destruct (createContent N f txt (i_size N i) (i_cs N i) None) as [[[cw ch] tw]|] eqn:CC.
    - assert (r = POk) by congruence. match type of H with (?a, _) = _ => assert (E : st' = a) by congruence end. subst st' r. cbn [p_s p_page p_infos p_pages].
      split; [reflexivity|]. split; [reflexivity|]. split; [reflexivity|]. do 2 eexists. split; [exact Ht|]. split; [apply U|]. split; [apply V|]. intros _. exists fc, f. split; [reflexivity|]. rewrite CC. reflexivity.
    - assert (r = PErr) by congruence. match type of H with (?a, _) = _ => assert (E : st' = a) by congruence end. subst st' r. cbn [p_s p_page p_infos p_pages].
      split; [reflexivity|]. split; [reflexivity|]. split; [reflexivity|]. do 2 eexists. split; [exact Ht|]. split; [apply U|]. split; [apply V|]. discriminate.
  Qed.
  Lemma fill1_valid st i txt al st' r j : fill1 N st i txt al = (st', r) -> valid st i -> r <> PPanic -> valid st j -> valid st' j.
  Proof.
    intros H Vi R (t & Ht & Pt). destruct (fill1_spec _ _ _ _ _ _ H Vi R) as (_ & _ & _ & t0 & x & H0 & Ho & Hs & _).
    destruct (Z.eq_dec (i_page N j) (i_page N i)) as [E1|E1], (Nat.eq_dec (i_index N j) (i_index N i)) as [E2|E2].
    - exists (setXText N t0 txt x). rewrite E1, E2 in *. split; [exact Hs|]. cbn. congruence.
    - exists t. rewrite Ho by (unfold pos; congruence). auto.
    - exists t. rewrite Ho by (unfold pos; congruence). auto.
    - exists t. rewrite Ho by (unfold pos; congruence). auto.
  Qed.
  Lemma fills_frame : forall is st txt al st' r, fills N st is txt al = (st', r) -> r <> PPanic -> Forall (valid st) is ->
    p_s N st' = p_s N st /\ p_page N st' = p_page N st /\ p_infos N st' = p_infos N st /\ (forall j, valid st j -> valid st' j) /\
    forall q k, ~ In (q, k) (map pos is) -> nth_error (p_pages N st' q) k = nth_error (p_pages N st q) k.
  Proof.
    induction is as [|i is IH]; intros st txt al st' r H R V; cbn [fills] in H.
    - assert (st' = st) by congruence. subst. repeat split; auto.
    - apply Forall_cons_iff in V as [Vi V]. destruct (fill1 N st i txt al) as [s1 r1] eqn:F.
      assert (R1 : r1 <> PPanic) by (destruct r1; congruence).
      destruct (fill1_spec _ _ _ _ _ _ F Vi R1) as (A1 & A2 & A3 & t0 & x & H0 & Ho & Hs & _).
      assert (V1 : forall j, valid st j -> valid s1 j) by (intros j; eapply fill1_valid; eassumption).
      destruct r1; try (assert (st' = s1) by congruence; subst st'; split; [exact A1|]; split; [exact A2|]; split; [exact A3|]; split; [exact V1|]; intros q k Hq; apply Ho; intros E; apply Hq; left; auto).
      destruct (IH _ _ _ _ _ H R) as (B1 & B2 & B3 & B4 & B5); [eapply Forall_impl; [|exact V]; exact V1|].
      split; [congruence|]. split; [congruence|]. split; [congruence|]. split; [auto|]. intros q k Hq. cbn [map In] in Hq. rewrite B5 by tauto. apply Ho. intros E. apply Hq. left; auto.
  Qed.
  Lemma fills_ok : forall is st txt al st' i t, fills N st is txt al = (st', POk) -> Forall (valid st) is -> NoDup (map pos is) -> In i is ->
    nth_error (p_pages N st (i_page N i)) (i_index N i) = Some (CText N t) ->
    exists fc f x, s_font N (p_s N st) = Some (fc, f) /\ newx (p_s N st) f (c_x N t) (i_width N i) (i_size N i) (i_cs N i) txt al = Some x /\
      nth_error (p_pages N st' (i_page N i)) (i_index N i) = Some (CText N (setXText N t txt x)).
  Proof.
    induction is as [|j is IH]; intros st txt al st' i t H V ND Hi Ht; [destruct Hi|]. cbn [fills] in H. apply Forall_cons_iff in V as [Vj V].
    cbn [map] in ND. apply NoDup_cons_iff in ND as [NI ND].
    destruct (fill1 N st j txt al) as [s1 r1] eqn:F. destruct r1; try discriminate.
    destruct (fill1_spec _ _ _ _ _ _ F Vj ltac:(discriminate)) as (A1 & A2 & A3 & t0 & x & H0 & Ho & Hs & Hx).
    assert (V1 : Forall (valid s1) is). { eapply Forall_impl; [|exact V]. intros a. eapply fill1_valid; try eassumption; discriminate. }
    destruct Hi as [->|Hi].
    - destruct (Hx eq_refl) as (fc & f & Fn & Nx). assert (t0 = t) by congruence. subst t0. exists fc, f, x. split; [exact Fn|]. split; [exact Nx|].
      destruct (fills_frame _ _ _ _ _ _ H ltac:(discriminate) V1) as (_ & _ & _ & _ & Fr). rewrite Fr; [exact Hs|exact NI].
    - assert (Ht1 : nth_error (p_pages N s1 (i_page N i)) (i_index N i) = Some (CText N t)).
      { rewrite Ho; [exact Ht|]. intros E. apply NI. rewrite <- E. apply in_map with (f := pos) in Hi. exact Hi. }
      destruct (IH _ _ _ _ _ _ H V1 ND Hi Ht1) as (fc & f & x' & Fn & Nx & R). exists fc, f, x'. rewrite <- A1. auto.
  Qed.

  Lemma pages_draw (st : pst N) s' q : p_pages N (with_draw N st s') q = if q =? p_page N st then s_caches N s' else p_pages N st q.
  Proof. reflexivity. Qed.
  (** an operation that is not a filling of [name] *)
  Definition not_filling (name : bytes) (o : pop N) : Prop := match o with FillIn _ n _ _ => n <> name | _ => True end.
  Lemma keeps_pages (st : pst N) s' : keeps (p_pages N st (p_page N st)) (s_caches N s') ->
    forall q k c, nth_error (p_pages N st q) k = Some c -> is_ph c -> nth_error (p_pages N (with_draw N st s') q) k = Some c.
  Proof. intros [_ K] q k c H P. rewrite pages_draw. destruct (q =? p_page N st) eqn:E; [apply Z.eqb_eq in E; subst q; now apply K|exact H]. Qed.
  Lemma pstep_inv st o st' r : pstep N st o = (st', r) -> r <> PPanic -> Inv st -> Inv st' /\ s_cfg N (p_s N st') = s_cfg N (p_s N st).
  Proof.
    intros H R [V D Nm]. destruct o as [c|p h x y sx|name v|name txt al]; cbn [pstep] in H.
    - destruct (step N (cur N st) c) as [s'|] eqn:S; [|congruence]. assert (st' = with_draw N st s') by congruence. subst st'. apply step_keeps in S as [K C].
      split; [|exact C]. constructor; try assumption. eapply Forall_impl; [|exact V]. intros i (t & Ht & Pt). exists t. split; [|exact Pt]. now apply keeps_pages.
    - assert (E := f_equal fst H). cbn [fst] in E. subst st'. split; [constructor; assumption|reflexivity].
    - destruct (step N (cur N st) (PlaceHolder N v)) as [s'|] eqn:S; [|congruence]. destruct (s_font N (p_s N st)) as [[fc f]|] eqn:Fn; [|congruence].
      match type of H with (?a, _) = _ => assert (E : st' = a) by congruence end. clear H.
      destruct (step_keeps _ _ _ S) as [K C]. cbn [step cur withc s_font] in S. rewrite Fn in S.
      assert (L : s_caches N s' = p_pages N st (p_page N st) ++ [CText N (mkText N (cur N st) fc f None false true (opt0 N))]) by (apply (f_equal (fun o => match o with Some a => s_caches N a | None => [] end)) in S; symmetry; exact S).
      set (i := {| i_page := p_page N st; i_index := List.length (s_caches N s') - 1; i_font := f; i_width := pointsToUnits N (s_cfg N (p_s N st)) v; i_size := s_size N (p_s N st); i_cs := s_cs N (p_s N st) |}) in E.
      assert (Ii : i_index N i = List.length (p_pages N st (p_page N st))). { subst i. cbn [i_index]. rewrite L, app_length. cbn. lia. }
      assert (Vi : valid (with_draw N st s') i). { exists (mkText N (cur N st) fc f None false true (opt0 N)). split; [|reflexivity]. rewrite pages_draw. change (i_page N i) with (p_page N st). rewrite Z.eqb_refl, L, Ii, nth_error_app2, Nat.sub_diag by lia. reflexivity. }
      subst st'. split; [|exact C]. constructor; cbn [p_infos with_draw].
      + eapply Permutation_Forall; [apply Permutation_sym, append_in|]. constructor; [exact Vi|]. eapply Forall_impl; [|exact V]. intros j (t & Ht & Pt). exists t. split; [|exact Pt]. now apply keeps_pages.
      + eapply Permutation_NoDup; [apply Permutation_map, Permutation_sym, append_in|]. cbn [map]. constructor; [|exact D]. intros In0. apply in_map_iff in In0 as (j & Pj & Hj).
        rewrite Forall_forall in V. destruct (V j Hj) as (t & Ht & _). assert (Q1 : i_page N j = p_page N st) by (apply (f_equal fst) in Pj; exact Pj). assert (Q2 : i_index N j = i_index N i) by (apply (f_equal snd) in Pj; exact Pj).
        rewrite Q1, Q2, Ii in Ht. assert (A := proj1 (nth_error_Some _ _) (ltac:(congruence) : nth_error (p_pages N st (p_page N st)) (List.length (p_pages N st (p_page N st))) <> None)). lia.
      + destruct (append_names name i (p_infos N st)) as [->|[NI ->]]; [exact Nm|]. eapply Permutation_NoDup; [apply Permutation_cons_append|]. now constructor.
    - destruct (lookup N name (p_infos N st)) as [is|] eqn:Lk; [|assert (st' = st) by congruence; subst st'; split; [constructor; assumption|reflexivity]].
      destruct (lookup_all _ _ _ Lk) as (a & b & E). assert (Vis : Forall (valid st) is) by (rewrite E in V; apply Forall_app in V as [_ V]; apply Forall_app in V as [V _]; exact V).
      destruct (fills_frame _ _ _ _ _ _ H R Vis) as (A1 & A2 & A3 & A4 & _). split; [|now rewrite A1]. constructor; rewrite A3; try assumption. eapply Forall_impl; [|exact V]. exact A4.
  Qed.
  (** a reservation of [name], kept through operations that do not fill it *)
  Definition held (st : pst N) (name : bytes) (i : info N) (t : ctext N) : Prop :=
    (exists is, lookup N name (p_infos N st) = Some is /\ In i is) /\ nth_error (p_pages N st (i_page N i)) (i_index N i) = Some (CText N t) /\ c_ph N t = true.
  Lemma nodup_split (a is b : list (info N)) : NoDup (map pos (a ++ is ++ b)) -> NoDup (map pos is).
  Proof. rewrite !map_app. intros H. apply NoDup_app_remove_l in H. now apply NoDup_app_remove_r in H. Qed.
  Lemma lookup_disjoint l n1 n2 is1 is2 i : NoDup (map pos (allinfos l)) -> lookup N n1 l = Some is1 -> lookup N n2 l = Some is2 -> n1 <> n2 -> In i is1 -> ~ In (pos i) (map pos is2).
  Proof.
    unfold lookup. induction l as [|[n js] l IH]; cbn [find fst allinfos flat_map snd]; [discriminate|]. fold (allinfos l). rewrite map_app. intros D H1 H2 Hne Hi HI.
    assert (Dj : forall p, In p (map pos js) -> ~ In p (map pos (allinfos l))).
    { clear - D. induction (map pos js) as [|q m IHm]; intros p Hp; [destruct Hp|]. cbn [app] in D. apply NoDup_cons_iff in D as [D1 D2]. destruct Hp as [->|Hp]; [intros A; apply D1, in_or_app; auto|now apply IHm]. }
    assert (Sub : forall name is p, option_map snd (find (fun e => list_eqb (fst e) name) l) = Some is -> In p (map pos is) -> In p (map pos (allinfos l))).
    { intros nm is p Hf Hp. destruct (lookup_all nm l is Hf) as (a & b & ->). rewrite !map_app. apply in_or_app. right. apply in_or_app. auto. }
    destruct (list_eqb n n1) eqn:E1, (list_eqb n n2) eqn:E2.
    - apply list_eqb_eq in E1, E2. congruence.
    - cbn in H1. injection H1 as ->. apply (Dj (pos i)); [now apply in_map|]. eapply Sub; eassumption.
    - cbn in H2. injection H2 as ->. apply (Dj (pos i)); [exact HI|]. eapply Sub; [exact H1|now apply in_map].
    - eapply IH; try eassumption. now apply NoDup_app_remove_l in D.
  Qed.
  Lemma pstep_held st o st' r name i t : pstep N st o = (st', r) -> r <> PPanic -> Inv st -> not_filling name o -> held st name i t -> held st' name i t.
  Proof.
    intros H R [V D Nm] NF ((is & Lk & Hi) & Ht & Pt). destruct o as [c|p h x y sx|nm v|nm txt al]; cbn [pstep] in H.
    - destruct (step N (cur N st) c) as [s'|] eqn:S; [|congruence]. assert (st' = with_draw N st s') by congruence. subst st'. apply step_keeps in S as [K C].
      split; [exists is; auto|]. split; [|exact Pt]. now apply keeps_pages.
    - assert (E := f_equal fst H). cbn [fst] in E. subst st'. split; [exists is; auto|auto].
    - destruct (step N (cur N st) (PlaceHolder N v)) as [s'|] eqn:S; [|congruence]. destruct (s_font N (p_s N st)) as [[fc f]|] eqn:Fn; [|congruence].
      match type of H with (?a, _) = _ => assert (E : st' = a) by congruence end. clear H. destruct (step_keeps _ _ _ S) as [K C]. subst st'.
      split; [|split; [|exact Pt]].
      + cbn [p_infos with_draw]. destruct (list_eq_dec Z.eq_dec name nm) as [->|Hne].
        * match goal with |- context[append_info N nm ?j _] => destruct (lookup_append nm j (p_infos N st)) as (js & -> & [L2|[L2 _]]) end; rewrite Lk in L2; [|discriminate]. assert (js = is) by congruence. subst js. eexists. split; [reflexivity|]. apply in_or_app. auto.
        * rewrite lookup_append_other by exact Hne. exists is. auto.
      + apply (keeps_pages st s' K _ _ _ Ht). exact Pt.
    - cbn [not_filling] in NF. destruct (lookup N nm (p_infos N st)) as [js|] eqn:Lk2; [|assert (st' = st) by congruence; subst st'; split; [exists is; auto|auto]].
      destruct (lookup_all _ _ _ Lk2) as (a & b & E). assert (Vis : Forall (valid st) js) by (rewrite E in V; apply Forall_app in V as [_ V]; apply Forall_app in V as [V _]; exact V).
      destruct (fills_frame _ _ _ _ _ _ H R Vis) as (A1 & A2 & A3 & A4 & A5). split; [rewrite A3; exists is; auto|]. split; [|exact Pt].
      rewrite A5; [exact Ht|]. change (i_page N i, i_index N i) with (pos i). eapply lookup_disjoint; [exact D|exact Lk|exact Lk2|congruence|exact Hi].
  Qed.
  Lemma prun_inv l : forall st st', prun N st l = Some st' -> Inv st -> Inv st' /\ s_cfg N (p_s N st') = s_cfg N (p_s N st).
  Proof.
    induction l as [|o l IH]; intros st st' H I; cbn [prun] in H; [injection H as <-; auto|]. destruct (pstep N st o) as [s1 r] eqn:S.
    assert (R : r <> PPanic) by (destruct r; congruence). destruct (pstep_inv _ _ _ _ S R I) as [I1 C1].
    assert (H' : prun N s1 l = Some st') by (destruct r; congruence). destruct (IH _ _ H' I1) as [I2 C2]. split; [exact I2|congruence].
  Qed.
  Lemma prun_held name i t l : forall st st', prun N st l = Some st' -> Inv st -> Forall (not_filling name) l -> held st name i t -> held st' name i t.
  Proof.
    induction l as [|o l IH]; intros st st' H I NF Hd; cbn [prun] in H; [injection H as <-; exact Hd|]. destruct (pstep N st o) as [s1 r] eqn:S. apply Forall_cons_iff in NF as [NF1 NF].
    assert (R : r <> PPanic) by (destruct r; congruence). destruct (pstep_inv _ _ _ _ S R I) as [I1 C1].
    assert (H' : prun N s1 l = Some st') by (destruct r; congruence). eapply IH; try eassumption. eapply pstep_held; eassumption.
  Qed.
End Keep.

(** ** Specification *)
(** A document with no placeholder yet. *)
Definition fresh {N} (st : pst N) : Prop := p_infos N st = [].
(** Where a text of the width [tw] starts in a place that starts at [x] and is [wd] wide. *)
Definition startx {N} (al : Z) (x wd tw : T N) : T N :=
  if al =? oRight then nadd N x (nsub N wd tw) else if al =? oCenter then nadd N x (ndiv N (nsub N wd tw) (nofZ N 2)) else x.

(** ** C51 *)
(** Filling a placeholder draws what Text would have drawn when the place was reserved, in the font, size, colour and at the height
    current then, on that page, starting at the place aligned within the reserved width (as converted by the library, see below) by
    the measured width of the text: for every history before, between and after. The font current at the time of filling must be the
    one current at the reservation, and it must not be underlined. *)
Theorem C51_filled_as_text_partial :
  forall N (st0 st1 st2 st3 st4 st5 : pst N) l1 l2 l3 name v txt al fc fc' f cw ch tw s',
    fresh st0 -> prun N st0 l1 = Some st1 ->
    pstep N st1 (PlaceHolderText N name v) = (st2, POk) ->
    prun N st2 l2 = Some st3 -> Forall (not_filling N name) l2 ->
    pstep N st3 (FillIn N name txt al) = (st4, POk) ->
    prun N st4 l3 = Some st5 -> Forall (not_filling N name) l3 ->
    s_font N (p_s N st1) = Some (fc, f) -> s_font N (p_s N st3) = Some (fc', f) ->
    fv_add f txt = txt -> has (s_style N (p_s N st1)) styUnderline = false ->
    createContent N f txt (s_size N (p_s N st1)) (s_cs N (p_s N st1)) None = Some (cw, ch, tw) ->
    let cfg := s_cfg N (p_s N st1) in
    let x' := startx al (s_x N (p_s N st1)) (pointsToUnits N cfg v) (pointsToUnits N cfg tw) in
    step N (withxy N (withc N (p_s N st1) []) x' (s_y N (p_s N st1)) (s_setx N (p_s N st1))) (Text N txt) = Some s' ->
    exists c c', nth_error (p_pages N st5 (p_page N st1)) (List.length (p_pages N st1 (p_page N st1))) = Some c /\
      s_caches N s' = [c'] /\ forall rot, cache_write N rot c = cache_write N rot c'.
Proof.
  intros N st0 st1 st2 st3 st4 st5 l1 l2 l3 name v txt al fc fc' f cw ch tw s' F0 R1 PH R2 NF2 FI R3 NF3 Fn1 Fn3 Add Ul CC cfg x' Tx.
  assert (I0 : Inv N st0) by (constructor; rewrite F0; constructor).
  destruct (prun_inv N _ _ _ R1 I0) as [I1 _]. destruct (pstep_inv N _ _ _ _ PH ltac:(discriminate) I1) as [I2 C2].
  destruct (prun_inv N _ _ _ R2 I2) as [I3 C3]. destruct (pstep_inv N _ _ _ _ FI ltac:(discriminate) I3) as [I4 C4].
  cbn [pstep] in PH. destruct (step N (cur N st1) (PlaceHolder N v)) as [sp|] eqn:S; [|discriminate]. rewrite Fn1 in PH.
  set (t := mkText N (cur N st1) fc f None false true (opt0 N)).
  assert (L : s_caches N sp = p_pages N st1 (p_page N st1) ++ [CText N t]).
  { cbn [step cur withc s_font] in S. rewrite Fn1 in S. apply (f_equal (fun o => match o with Some a => s_caches N a | None => [] end)) in S. symmetry. exact S. }
  match type of PH with (?a, _) = _ => assert (E2 : st2 = a) by congruence end. clear PH.
  set (i := {| i_page := p_page N st1; i_index := List.length (s_caches N sp) - 1; i_font := f; i_width := pointsToUnits N (s_cfg N (p_s N st1)) v; i_size := s_size N (p_s N st1); i_cs := s_cs N (p_s N st1) |}) in E2.
  assert (Ii : i_index N i = List.length (p_pages N st1 (p_page N st1))). { subst i. cbn [i_index]. rewrite L, app_length. cbn. lia. }
  assert (H2 : held N st2 name i t).
  { subst st2. split; [|split; [|reflexivity]].
    - cbn [p_infos with_draw]. destruct (lookup_append N name i (p_infos N st1)) as (js & -> & _). eexists. split; [reflexivity|]. apply in_or_app. right. left. reflexivity.
    - cbn [p_pages]. rewrite pages_draw. change (i_page N i) with (p_page N st1). rewrite Z.eqb_refl, L, Ii, nth_error_app2, Nat.sub_diag by lia. reflexivity. }
  assert (H3 := prun_held N _ _ _ _ _ _ R2 I2 NF2 H2). destruct H3 as ((is & Lk & Hi) & Ht & Pt).
  cbn [pstep] in FI. rewrite Lk in FI. destruct (lookup_all N _ _ _ Lk) as (a & b & Eab).
  assert (Vis : Forall (valid N st3) is). { assert (V := inv_v N _ I3). rewrite Eab in V. apply Forall_app in V as [_ V]. apply Forall_app in V as [V _]. exact V. }
  assert (Dis : NoDup (map (pos N) is)). { assert (D := inv_d N _ I3). rewrite Eab in D. eapply nodup_split. exact D. }
  destruct (fills_ok N _ _ _ _ _ _ _ FI Vis Dis Hi Ht) as (fc2 & f2 & x & Fn & Nx & R).
  assert (f2 = f) by congruence. subst f2. unfold newx in Nx. change (i_size N i) with (s_size N (p_s N st1)) in Nx. change (i_cs N i) with (s_cs N (p_s N st1)) in Nx. rewrite CC in Nx.
  assert (Cf : s_cfg N (p_s N st3) = s_cfg N (p_s N st1)) by congruence. rewrite Cf in Nx.
  assert (Ex : x = x'). { assert (Z0 := f_equal (fun o => match o with Some z => z | None => x end) Nx). cbv beta iota in Z0. symmetry. exact Z0. }
  destruct (fills_frame N _ _ _ _ _ _ FI ltac:(discriminate) Vis) as (A1 & A2 & A3 & A4 & A5).
  assert (H4 : held N st4 name i (setXText N t txt x)). { split; [rewrite A3; exists is; auto|]. split; [exact R|reflexivity]. }
  assert (H5 := prun_held N _ _ _ _ _ _ R3 I4 NF3 H4). destruct H5 as (_ & Ht5 & _).
  exists (CText N (setXText N t txt x)). rewrite Ii in Ht5.
  cbn [step] in Tx. unfold drawText in Tx. cbn [withxy withc s_font s_caches] in Tx. rewrite Fn1, Add in Tx. unfold appendContentText in Tx. cbn [splitLast rev mkText c_text c_font c_size c_cs c_rect app] in Tx.
  cbn [withxy withc s_size s_cs] in Tx. rewrite CC in Tx. cbn zeta in Tx.
  match type of Tx with Some ?a = _ => assert (Es : s' = a) by congruence end. subst s'.
  eexists. split; [exact Ht5|]. split; [reflexivity|]. intros rot. cbn [cache_write]. rewrite Ex.
  unfold text_write, setXText, setText, t, mkText, cur, withc, withxy. cbn [c_mode c_color c_opt c_fci c_size c_cs c_font c_text c_style s_mode s_color s_size s_cs s_style s_x s_y s_pageH s_gray s_setx s_lw]. rewrite Ul.
  unfold calX, calY, justOf, drawBorder. cbn [c_cell c_rect c_opt c_x c_y c_pageH c_lw opt0 o_border o_align]. reflexivity.
Qed.
Print Assumptions C51_filled_as_text_partial.
(** With points as the unit (or no unit) and exact arithmetic, the text lies in the reserved place when it is not wider, and ends at
    its end for Right, is centred for Center, starts at its start for Left; the next text starts at the end of the place. *)
Definition in_points (c : ucfg Qn) : Prop := u_conv c = (0%Q : T Qn) /\ (u_unit c = 1 \/ u_unit c = 0).
Lemma p2u_points c v : in_points c -> (pointsToUnits Qn c v == v)%Q.
Proof.
  intros [C U]. unfold pointsToUnits. rewrite C. change (neq Qn 0%Q (nZ Qn 0)) with true. cbn [negb]. destruct U as [-> | ->].
  - cbn [factor Z.eqb Pos.eqb]. change (nZ Qn 1) with 1%Q. cbn [ndiv Qn]. apply Qdiv_1_r || (unfold Qdiv; change (/ 1)%Q with 1%Q; apply Qmult_1_r).
  - reflexivity.
Qed.
Theorem C51_aligned_in_points :
  forall (c : ucfg Qn) (x v tw : Q) al, in_points c -> (tw <= v)%Q ->
    let x' := startx (N := Qn) al x (pointsToUnits Qn c v) (pointsToUnits Qn c tw) : Q in
    (x <= x')%Q /\ (x' + tw <= x + v)%Q /\
    (al = oRight -> x' + tw == x + v)%Q /\ (al = oCenter -> x' - x == (x + v) - (x' + tw))%Q /\ (al = oLeft -> x' == x)%Q.
Proof.
  intros c x v tw al P L x'. assert (Ev := p2u_points c v P). assert (Et := p2u_points c tw P). unfold x', startx.
  set (a := pointsToUnits Qn c v : Q) in *. set (b := pointsToUnits Qn c tw : Q) in *. clearbody a b. clear x'. cbn [nadd nsub ndiv nofZ Qn]. change (inject_Z 2) with 2%Q.
  assert (Hf : ((a - b) / 2 == (a - b) * (1#2))%Q) by field.
  destruct (al =? oRight) eqn:E1; [apply Z.eqb_eq in E1; subst al|destruct (al =? oCenter) eqn:E2; [apply Z.eqb_eq in E2; subst al|]]; change (T Qn) with Q in *.
  - repeat split; try lra; intros; try discriminate; lra.
  - repeat split; try lra; intros; try discriminate; lra.
  - repeat split; try lra; intros ->; discriminate.
Qed.
Print Assumptions C51_aligned_in_points.
Theorem C51_cursor_after :
  forall (st st' : pst Qn) name (v : Q), in_points (s_cfg Qn (p_s Qn st)) -> pstep Qn st (PlaceHolderText Qn name v) = (st', POk) ->
    (s_x Qn (p_s Qn st') == s_x Qn (p_s Qn st) + v)%Q /\ s_y Qn (p_s Qn st') = s_y Qn (p_s Qn st).
Proof.
  intros st st' name v P H. cbn [pstep] in H. destruct (step Qn (cur Qn st) (PlaceHolder Qn v)) as [s'|] eqn:S; [|discriminate]. destruct (s_font Qn (p_s Qn st)) as [[fc f]|] eqn:Fn; [|discriminate].
  match type of H with (?a, _) = _ => assert (E : st' = a) by congruence end. subst st'. cbn [p_s with_draw]. cbn [step cur withc s_font] in S. rewrite Fn in S.
  match type of S with Some ?a = _ => assert (E : s' = a) by congruence end. subst s'. cbn [withxy s_x s_y withc cur]. split; [|reflexivity].
  unfold cur, withc. cbn [s_x s_cfg]. assert (E := p2u_points (s_cfg Qn (p_s Qn st)) v P). cbn [nadd Qn]. rewrite E. reflexivity.
Qed.
Print Assumptions C51_cursor_after.
(** An unknown name is an error and changes nothing. *)
Theorem C51_unknown_name :
  forall N (st : pst N) name txt al, ~ In name (map fst (p_infos N st)) -> pstep N st (FillIn N name txt al) = (st, PErrNotFound).
Proof.
  intros N st name txt al H. cbn [pstep]. unfold lookup. destruct (find _ _) as [[n is]|] eqn:F; [|reflexivity]. exfalso. apply find_some in F as [F1 F2]. cbn [fst] in F2.
  apply list_eqb_eq in F2. subst n. apply H. apply in_map_iff. exists (name, is). auto.
Qed.
Print Assumptions C51_unknown_name.
(** The names known are those of the placeholders made: nothing else is known. *)
Theorem C51_names :
  forall N (st st' : pst N) l, fresh st -> prun N st l = Some st' ->
    forall name, In name (map fst (p_infos N st')) -> exists v, In (PlaceHolderText N name v) l.
Proof.
  intros N st st' l F. assert (G : forall l st st', Inv N st -> prun N st l = Some st' -> forall name, In name (map fst (p_infos N st')) -> In name (map fst (p_infos N st)) \/ exists v, In (PlaceHolderText N name v) l).
  { clear. induction l as [|o l IH]; intros st st' I H name Hn; cbn [prun] in H; [injection H as <-; auto|]. destruct (pstep N st o) as [s1 r] eqn:S.
    assert (R : r <> PPanic) by (destruct r; congruence). destruct (pstep_inv N _ _ _ _ S R I) as [I1 _].
    assert (H' : prun N s1 l = Some st') by (destruct r; congruence). destruct (IH _ _ I1 H' name Hn) as [A|[v A]]; [|right; exists v; right; exact A]. clear H H' IH.
    destruct o as [c|p h x y sx|nm v|nm txt al]; cbn [pstep] in S.
    - left. destruct (step N (cur N st) c); [|congruence]. assert (E : s1 = with_draw N st d) by congruence. subst s1. exact A.
    - left. apply (f_equal fst) in S. cbn [fst] in S. subst s1. exact A.
    - destruct (step N (cur N st) (PlaceHolder N v)) as [s'|]; [|congruence]. destruct (s_font N (p_s N st)) as [[fc f]|]; [|congruence]. apply (f_equal fst) in S. cbn [fst] in S. subst s1. cbn [p_infos with_draw] in A.
      match type of A with context[append_info N nm ?i _] => destruct (append_names N nm i (p_infos N st)) as [E|[_ E]] end; rewrite E in A; [left; exact A|]. apply in_app_or in A as [A|[<-|[]]]; [left; exact A|right; exists v; left; reflexivity].
    - left. destruct (lookup N nm (p_infos N st)) as [is|] eqn:Lk; [|assert (s1 = st) by congruence; subst s1; exact A].
      destruct (lookup_all N _ _ _ Lk) as (a & b & E). assert (V := inv_v N _ I). rewrite E in V. apply Forall_app in V as [_ V]. apply Forall_app in V as [V _].
      destruct (fills_frame N _ _ _ _ _ _ S R V) as (_ & _ & A3 & _). rewrite <- A3. exact A. }
  intros H name Hn. destruct (G l st st' ltac:(constructor; rewrite F; constructor) H name Hn) as [A|A]; [rewrite F in A; destruct A|exact A].
Qed.
Print Assumptions C51_names.
(** Filling changes nothing but placeholders of that name: every other mark of every page stays as it is. *)
Theorem C51_fills_only_places :
  forall N (st0 st st' : pst N) l name txt al r, fresh st0 -> prun N st0 l = Some st -> pstep N st (FillIn N name txt al) = (st', r) -> r <> PPanic ->
    p_s N st' = p_s N st /\ p_page N st' = p_page N st /\
    forall p k c, nth_error (p_pages N st p) k = Some c -> ~ is_ph N c -> nth_error (p_pages N st' p) k = Some c.
Proof.
  intros N st0 st st' l name txt al r F R0 H R. destruct (prun_inv N _ _ _ R0 ltac:(constructor; rewrite F; constructor)) as [I _].
  cbn [pstep] in H. destruct (lookup N name (p_infos N st)) as [is|] eqn:Lk; [|assert (st' = st) by congruence; subst st'; auto].
  destruct (lookup_all N _ _ _ Lk) as (a & b & E). assert (V := inv_v N _ I). rewrite E in V. apply Forall_app in V as [_ V]. apply Forall_app in V as [V _].
  destruct (fills_frame N _ _ _ _ _ _ H R V) as (A1 & A2 & _ & _ & A5). split; [exact A1|]. split; [exact A2|]. intros p k c Hc Nc. rewrite A5; [exact Hc|].
  intros Hin. apply in_map_iff in Hin as (i & Pi & Hi). rewrite Forall_forall in V. destruct (V i Hi) as (t & Ht & Pt). apply Nc.
  assert (Q1 : i_page N i = p) by (apply (f_equal fst) in Pi; exact Pi). assert (Q2 : i_index N i = k) by (apply (f_equal snd) in Pi; exact Pi). rewrite Q1, Q2 in Ht. assert (c = CText N t) by congruence. subst c. exact Pt.
Qed.
Print Assumptions C51_fills_only_places.

(** ** Concrete cases *)
Definition mono (w : Z) : fontv :=
  {| fv_ci := fun r => if (32 <=? r) && (r <? 127) then Some (r - 31) else None; fv_cw := fun r => if (32 <=? r) && (r <? 127) then Some w else None;
     fv_useKern := false; fv_pair := fun _ _ _ _ => 0; fv_add := fun t => map (fun r => if (32 <=? r) && (r <? 127) then r else 63) t;
     fv_upem := 1000; fv_tasc := 800; fv_tdesc := -200; fv_asc := 800; fv_desc := -200; fv_upos := -100; fv_uthick := 50 |}.
Definition ds0 (unit : Z) : ds Qn := Build_ds Qn (Build_ucfg Qn unit 0%Q) 10%Q 800%Q 100%Q 50%Q 0 (Some (0, mono 500)) 10%Q 0 0%Q false None 0%Q 1%Q None [].
Definition ps0 (unit : Z) : pst Qn := {| p_s := ds0 unit; p_page := 1; p_pages := fun _ => []; p_infos := [] |}.
(** the x of the texts of a page *)
Definition xs (st : option (pst Qn)) (p : Z) : list Q := match st with Some st => flat_map (fun c => match c with CText _ t => [Qred (c_x Qn t)] | _ => [] end) (p_pages Qn st p) | None => [] end.
Definition ph := PlaceHolderText Qn (bs "n") 60%Q.
Example C51_met :
  xs (prun Qn (ps0 1) [Draw Qn (Text Qn (bs "ab")); ph; Draw Qn (Text Qn (bs "c")); FillIn Qn (bs "n") (bs "xyz") oRight]) 1 = [100%Q; 155%Q; 170%Q] /\
  fresh (ps0 1) /\ in_points (s_cfg Qn (p_s Qn (ps0 1))) /\ fv_add (mono 500) (bs "xyz") = bs "xyz".
Proof. split; [vm_compute; reflexivity|]. split; [reflexivity|]. split; [split; [reflexivity|auto]|reflexivity]. Qed.

(** ** Where it fails *)
(** A second filling moves the text again: the place is not the reserved one any more (100..160, the text is 15 wide). *)
Theorem C51_second_filling_refuted :
  xs (prun Qn (ps0 1) [ph; FillIn Qn (bs "n") (bs "xyz") oRight; FillIn Qn (bs "n") (bs "xyz") oRight]) 1 = [190%Q].
Proof. vm_compute. reflexivity. Qed.
Print Assumptions C51_second_filling_refuted.
(** In another unit the width is converted the wrong way: 2 inches reserve 1/36 point instead of 144, and the next text overlaps. *)
Theorem C51_units_refuted :
  exists st, prun Qn (ps0 4) [PlaceHolderText Qn (bs "n") 2%Q] = Some st /\ (s_x Qn (p_s Qn st) == 100 + (1#36))%Q.
Proof. exists (fst (pstep Qn (ps0 4) (PlaceHolderText Qn (bs "n") 2%Q))). split; [reflexivity|vm_compute; reflexivity]. Qed.
Print Assumptions C51_units_refuted.
(** The text is measured in the font current at the filling, not in the one it is drawn in: reserved with a font of 500 per character,
    filled while a font of 1000 per character is current, the text (15 wide) ends at 145, not 160. *)
Theorem C51_other_font_refuted :
  xs (prun Qn (ps0 1) [ph; Draw Qn (SetFont Qn 1 (mono 1000) 10%Q 0); FillIn Qn (bs "n") (bs "xyz") oRight]) 1 = [130%Q].
Proof. vm_compute. reflexivity. Qed.
Print Assumptions C51_other_font_refuted.
(** A character the font lacks is replaced by Text (fv_add) but not by a filling: it disappears. *)
Theorem C51_substitute_refuted :
  exists st st', prun Qn (ps0 1) [ph; FillIn Qn (bs "n") [233] oLeft] = Some st /\ step Qn (ds0 1) (Text Qn [233]) = Some st' /\
    content_write Qn (fun _ => (1%Q, 0%Q)) (p_pages Qn st 1) <> content_write Qn (fun _ => (1%Q, 0%Q)) (s_caches Qn st').
Proof.
  eexists. eexists. split; [reflexivity|]. split; [reflexivity|]. vm_compute. discriminate.
Qed.
Print Assumptions C51_substitute_refuted.
(** An underlined placeholder is underlined with width 0. *)
Theorem C51_underline_refuted :
  exists st t, prun Qn (ps0 1) [Draw Qn (SetFont Qn 0 (mono 500) 10%Q styUnderline); ph; FillIn Qn (bs "n") (bs "xyz") oLeft] = Some st /\
    p_pages Qn st 1 = [CText Qn t] /\ c_text Qn t = bs "xyz" /\ underline Qn t = bs "100.00 741.00 0.00 0.50 re f" ++ [10].
Proof. eexists. eexists. split; [reflexivity|]. split; [reflexivity|]. split; [reflexivity|]. vm_compute. reflexivity. Qed.
Print Assumptions C51_underline_refuted.
