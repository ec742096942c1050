(** PropSplit.v — C21 (splitting loses nothing, respects the width), C22 (termination),
    C23 (MultiCell and IsFitMultiCell). *)
From Verif Require Import Base SplitModel.

(** ** Specification *)
(** [broken o lines text]: the lines, in order, are the text cut into pieces.  Between two pieces
    nothing is lost except a newline, or, in indicator-sensitive mode, the break indicator at which
    the cut was made; a piece may carry the configured separator as a suffix. *)
Inductive broken (o : breakopt) : list (list Z) -> list Z -> Prop :=
| br_nil : broken o [] []
| br_cut ls t l : broken o ls t -> broken o (ls ++ [l]) (t ++ l)
| br_sep ls t l : b_sep o <> [] -> broken o ls t -> broken o (ls ++ [l ++ b_sep o]) (t ++ l)
| br_newline ls t l : broken o ls t -> broken o (ls ++ [l]) (t ++ l ++ [10])
| br_indicator ls t l : b_mode o = Sensitive -> broken o ls t -> broken o (ls ++ [l]) (t ++ l ++ [b_ind o]).

(** In strict mode without separator that means: the concatenation is the text without newlines. *)
Lemma broken_strict o ls t : b_mode o = Strict -> b_sep o = [] -> broken o ls t ->
  filter (fun r => negb (r =? 10)) (List.concat ls) = filter (fun r => negb (r =? 10)) t.
Proof.
  intros Hm Hs. induction 1 as [|ls t l _ IH|ls t l Hn|ls t l _ IH|ls t l Hn]; try congruence; [reflexivity| |].
  - rewrite concat_app, !filter_app. cbn [List.concat]. now rewrite app_nil_r, IH.
  - rewrite concat_app, !filter_app. cbn [List.concat filter]. now rewrite !app_nil_r, IH.
Qed.

  Lemma lastIndex_some text bi : forall k j, lastIndex text bi k = Some j -> (1 <= j <= k)%nat /\ nth j text 0 = bi.
  Proof.
    induction k as [|k IH]; intros j H; [discriminate|]. cbn [lastIndex] in H.
    destruct (Z.eqb_spec (nth (S k) text 0) bi); [injection H as <-; split; [lia|assumption]|].
    destruct (IH j H). split; [lia|assumption].
  Qed.
  Lemma breakIndicator_some line bi j : breakIndicatorIndex line bi = Some j ->
    (1 <= j < List.length line)%nat /\ nth j line 0 = bi.
  Proof. intros H. apply lastIndex_some in H. destruct H. split; [lia|assumption]. Qed.


Lemma nth_error_nth_ (l : list Z) k : (k < List.length l)%nat -> nth_error l k = Some (nth k l 0).
Proof. revert k. induction l as [|x l IH]; intros [|k] H; cbn in *; try lia; [reflexivity|]. apply IH. lia. Qed.
Section P.
  Context {T : Type} (add : T -> T -> T) (gt le : T -> T -> bool).
  Variable measure : list Z -> option T.
  Notation step := (step add gt le measure).
  Notation run := (run add gt le measure).
  Notation splitText := (splitText add gt le measure).

  (** Position invariant: the lines so far and the current line make up the text read so far. *)
  Definition Pos (o : breakopt) (text : list Z) (s : sst) : Prop :=
    ((s_i s < List.length text)%nat /\ exists t, broken o (s_lines s) t /\ t ++ s_line s = firstn (s_i s) text) \/
    ((s_i s = List.length text)%nat /\ broken o (s_lines s) text).

  Lemma strict_pos o text s s' : Pos o text s -> (s_i s < List.length text)%nat ->
    strictBreak o s = Running s' -> Pos o text s'.
  Proof.
    intros [[Hi (t & Hb & Ht)]|[Hi _]] Hlt E; [|lia]. unfold strictBreak in E.
    destruct (hasSeparator o) eqn:Hs.
    - destruct ((_ <? _)%nat || _) eqn:G; [discriminate|]. apply orb_false_iff in G as [G1 G2].
      apply Nat.ltb_ge in G1, G2. injection E as <-.
      assert (LT : (List.length t + List.length (s_line s) = s_i s)%nat).
      { rewrite <- app_length, Ht, firstn_length. lia. }
      left. cbn [s_i s_line s_lines]. split; [lia|].
      exists (t ++ firstn (List.length (s_line s) - (s_i s - s_sepi s)) (s_line s)). split.
      + apply br_sep; [unfold hasSeparator in Hs; destruct (b_sep o); [discriminate|discriminate]|assumption].
      + rewrite app_nil_r.
        transitivity (firstn (s_sepi s) (t ++ s_line s)).
        * rewrite firstn_app. rewrite (firstn_all2 t) by lia. f_equal. f_equal. lia.
        * rewrite Ht, firstn_firstn. f_equal. lia.
    - injection E as <-. left. cbn [s_i s_line s_lines]. split; [assumption|].
      exists (t ++ s_line s). split; [now apply br_cut|]. rewrite app_nil_r. assumption.
  Qed.
  Lemma sensitive_pos o text s s' : b_mode o = Sensitive -> Pos o text s -> (s_i s < List.length text)%nat ->
    sensitiveBreak o s = Some (Running s') -> Pos o text s'.
  Proof.
    intros Hm [[Hi (t & Hb & Ht)]|[Hi _]] Hlt E; [|lia]. unfold sensitiveBreak in E.
    destruct (breakIndicatorIndex (s_line s) (b_ind o)) as [j|] eqn:B; [|discriminate].
    apply breakIndicator_some in B as [Hj Hn]. injection E as <-.
    assert (LT : (List.length t + List.length (s_line s) = s_i s)%nat).
    { rewrite <- app_length, Ht, firstn_length. lia. }
    left. cbn [s_i s_line s_lines]. split; [lia|].
    exists (t ++ firstn j (s_line s) ++ [b_ind o]). split; [now apply br_indicator|].
    rewrite app_nil_r.
    transitivity (firstn (s_i s - (List.length (s_line s) - j) + 1) (t ++ s_line s)).
    - rewrite firstn_app, (firstn_all2 t) by lia. f_equal.
      replace (s_i s - (List.length (s_line s) - j) + 1 - List.length t)%nat with (S j) by lia.
      rewrite <- Hn. symmetry. apply firstn_snoc. apply nth_error_nth_. lia.
    - rewrite Ht, firstn_firstn. f_equal. lia.
  Qed.
  Lemma step_pos o text width sepw s s' : Pos o text s -> step o text width sepw s = Running s' -> Pos o text s'.
  Proof.
    intros P E. unfold SplitModel.step in E.
    destruct (nth_error text (s_i s)) as [r|] eqn:N; [|discriminate].
    assert (Hlt : (s_i s < List.length text)%nat) by (apply nth_error_Some; congruence).
    destruct (measure (s_line s)) as [lw|]; [|discriminate]. destruct (measure [r]) as [rw|]; [|discriminate].
    destruct (gt (add lw rw) width && negb (r =? 10)) eqn:G.
    - destruct (b_mode o) eqn:M; [eapply strict_pos; eassumption|].
      destruct (sensitiveBreak o s) as [x|] eqn:B; [subst x; eapply sensitive_pos; eassumption|].
      eapply strict_pos; eassumption.
    - destruct P as [[Hi (t & Hb & Ht)]|[Hi _]]; [|lia].
      pose proof (firstn_snoc text _ _ N) as FS.
      destruct (Z.eqb_spec r 10) as [->|R].
      + injection E as <-. unfold Pos. cbn [s_i s_line s_lines].
        assert (B : broken o (s_lines s ++ [s_line s]) (firstn (S (s_i s)) text)).
        { rewrite FS, <- Ht, <- app_assoc. now apply br_newline. }
        destruct (Nat.eq_dec (S (s_i s)) (List.length text)) as [L|L].
        * right. split; [exact L|]. rewrite L, firstn_all in B. exact B.
        * left. split; [lia|]. eexists. split; [exact B|apply app_nil_r].
      + cbv zeta in E. injection E as <-. unfold Pos. cbn [s_i s_line s_lines].
        destruct (Nat.eqb_spec (s_i s) (List.length text - 1)) as [L|L].
        * right. split; [lia|]. replace text with (firstn (S (s_i s)) text) at 1 by (rewrite L; apply firstn_all2; lia).
          rewrite FS, <- Ht, <- app_assoc. now apply br_cut.
        * left. split; [lia|]. exists t. split; [exact Hb|]. rewrite FS, <- Ht, app_assoc. reflexivity.
  Qed.
  Lemma strict_not_done o s l : strictBreak o s <> Done l.
  Proof. unfold strictBreak. destruct (hasSeparator o); [destruct (_ || _)|]; discriminate. Qed.
  Lemma step_done o text width sepw s l : step o text width sepw s = Done l ->
    nth_error text (s_i s) = None /\ l = s_lines s.
  Proof.
    unfold SplitModel.step. destruct (nth_error text (s_i s)) as [r|]; [|intros E; injection E as <-; split; reflexivity].
    intros E. exfalso. destruct (measure (s_line s)); [|discriminate]. destruct (measure [r]); [|discriminate].
    destruct (gt _ width && negb (r =? 10)); [|destruct (r =? 10); discriminate].
    destruct (b_mode o); [now apply strict_not_done in E|].
    unfold sensitiveBreak in E. destruct (breakIndicatorIndex _ _); [discriminate|now apply strict_not_done in E].
  Qed.
  Lemma run_pos o text width sepw : forall fuel s lines, Pos o text s ->
    run fuel o text width sepw s = Done lines -> broken o lines text.
  Proof.
    induction fuel as [|f IH]; intros s lines P E; [discriminate|]. cbn [SplitModel.run] in E.
    destruct (step o text width sepw s) as [s'|l| |] eqn:S; try discriminate.
    - apply (IH s'); [eapply step_pos; eassumption|exact E].
    - injection E as <-. apply step_done in S as [N ->]. apply nth_error_None in N.
      destruct P as [[Hi _]|[_ P]]; [lia|exact P].
  Qed.

  (** C21: whatever the text, the width, the break option and the fonts' widths (any measure, with any
      rounding): the lines returned are the text, cut. *)
  Theorem lines_reassemble :
    forall fuel o text width lines, splitText fuel o text width = Done lines -> broken o lines text.
  Proof.
    intros fuel o text width lines E. unfold SplitModel.splitText in E.
    destruct text as [|r text]; [discriminate|]. destruct (measure (b_sep o)) as [sepw|]; [|discriminate].
    eapply run_pos; [|exact E]. left. cbn [s_i s_line s_lines List.length]. split; [lia|].
    exists []. split; [constructor|reflexivity].
  Qed.

  (** ** Widths *)
  Variable width : T.
  Hypothesis empty_fits : forall m, measure [] = Some m -> gt m width = false.
  Hypothesis subadd : forall l r a b c, measure l = Some a -> measure [r] = Some b -> measure (l ++ [r]) = Some c ->
    gt c width = true -> gt (add a b) width = true.
  Definition fits (l : list Z) : Prop := forall m, measure l = Some m -> gt m width = false.
  Definition Wid (s : sst) : Prop := Forall fits (s_lines s) /\
    ((forall k, fits (firstn k (s_line s))) \/ True).
  Definition Wid' (text : list Z) (s : sst) : Prop := Forall fits (s_lines s) /\
    ((s_i s < List.length text)%nat -> forall k, fits (firstn k (s_line s))).

  Lemma fits_nil : fits []. Proof. exact empty_fits. Qed.
  Lemma step_wid o text sepw s s' : b_sep o = [] -> Wid' text s -> step o text width sepw s = Running s' -> Wid' text s'.
  Proof.
    intros Hs [W1 W2] E. unfold SplitModel.step in E.
    destruct (nth_error text (s_i s)) as [r|] eqn:N; [|discriminate].
    assert (Hlt : (s_i s < List.length text)%nat) by (apply nth_error_Some; congruence).
    specialize (W2 Hlt).
    assert (FL : fits (s_line s)).
    { specialize (W2 (List.length (s_line s))). now rewrite firstn_all in W2. }
    assert (HN : forall (l : list Z), l = [] -> forall k, fits (firstn k l)).
    { intros l -> k. rewrite firstn_nil. apply fits_nil. }
    destruct (measure (s_line s)) as [lw|] eqn:ML; [|discriminate]. destruct (measure [r]) as [rw|] eqn:MR; [|discriminate].
    assert (SB : strictBreak o s = Running {| s_i := s_i s; s_line := []; s_lines := s_lines s ++ [s_line s]; s_sepi := s_sepi s |}).
    { unfold strictBreak, hasSeparator. now rewrite Hs. }
    destruct (gt (add lw rw) width && negb (r =? 10)) eqn:G.
    - assert (SB' : strictBreak o s = Running s' -> Wid' text s').
      { rewrite SB. intros X. injection X as <-. split; cbn [s_lines s_line s_i].
        - apply Forall_app. split; [exact W1|]. constructor; [exact FL|constructor].
        - intros _. now apply HN. }
      destruct (b_mode o); [now apply SB'|].
      unfold sensitiveBreak in E. destruct (breakIndicatorIndex (s_line s) (b_ind o)) as [j|]; [|now apply SB'].
      injection E as <-. split; cbn [s_lines s_line s_i].
      + apply Forall_app. split; [exact W1|]. constructor; [apply W2|constructor].
      + intros _. now apply HN.
    - destruct (Z.eqb_spec r 10) as [->|R].
      + injection E as <-. split; cbn [s_lines s_line s_i].
        * apply Forall_app. split; [exact W1|]. constructor; [exact FL|constructor].
        * intros _. now apply HN.
      + replace (negb (r =? 10)) with true in G by (destruct (Z.eqb_spec r 10); [congruence|reflexivity]).
        rewrite andb_true_r in G.
        assert (FR : fits (s_line s ++ [r])).
        { intros m Hm. destruct (gt m width) eqn:X; [|reflexivity].
          rewrite (subadd _ _ _ _ _ ML MR Hm X) in G. discriminate. }
        cbv zeta in E. injection E as <-. split; cbn [s_lines s_line s_i].
        * destruct (Nat.eqb _ _); [|exact W1]. apply Forall_app. split; [exact W1|]. constructor; [exact FR|constructor].
        * intros Hlt2 k. destruct (Nat.eqb_spec (s_i s) (List.length text - 1)); [lia|].
          destruct (le_lt_dec k (List.length (s_line s))).
          -- rewrite firstn_app. replace (k - List.length (s_line s))%nat with 0%nat by lia. rewrite app_nil_r. apply W2.
          -- rewrite firstn_all2 by (rewrite app_length; cbn; lia). exact FR.
  Qed.
  Lemma run_wid o text sepw : b_sep o = [] -> forall fuel s lines, Wid' text s ->
    run fuel o text width sepw s = Done lines -> Forall fits lines.
  Proof.
    intros Hs. induction fuel as [|f IH]; intros s lines W E; [discriminate|]. cbn [SplitModel.run] in E.
    destruct (step o text width sepw s) as [s'|l| |] eqn:S; try discriminate.
    - apply (IH s'); [eapply step_wid; eassumption|exact E].
    - injection E as <-. apply step_done in S as [N ->]. apply W.
  Qed.
  Lemma lines_fit fuel o text lines : b_sep o = [] -> splitText fuel o text width = Done lines -> Forall fits lines.
  Proof.
    intros Hs E. unfold SplitModel.splitText in E. destruct text as [|r text]; [discriminate|].
    destruct (measure (b_sep o)) as [sepw|]; [|discriminate]. eapply run_wid; [exact Hs| |exact E].
    split; [constructor|]. intros _ k. rewrite firstn_nil. apply fits_nil.
  Qed.
End P.

(** The call has returned: with lines, or with an error value. *)
Definition returned (x : outcome) : Prop := match x with Done _ => True | Fail => True | _ => False end.
Section Term.
  Context {T : Type} (add : T -> T -> T) (gt le : T -> T -> bool).
  Variable measure : list Z -> option T.
  Notation step := (step add gt le measure).
  Notation run := (run add gt le measure).
  Notation splitText := (splitText add gt le measure).
  Variable width : T.

  (** ** Termination *)
  Section Fit.
    Variable text : list Z.
    Hypothesis alone : forall r a b, In r text -> r <> 10 -> measure [] = Some a -> measure [r] = Some b ->
      gt (add a b) width = false.
    Let n := List.length text.
    Definition mu (s : sst) : nat :=
      (if Nat.eqb (s_i s) n then 0 else 1 + (n - (s_i s - List.length (s_line s))) * (n + 1) + (n - s_i s))%nat.

    Lemma mu_le s st : (s_i s <= n)%nat -> (st <= s_i s - List.length (s_line s))%nat ->
      (mu s <= 1 + (n - st) * (n + 1) + (n - s_i s))%nat.
    Proof.
      intros H1 H2. unfold mu. destruct (Nat.eqb_spec (s_i s) n); [apply Nat.le_0_l|].
      assert (K : ((n - (s_i s - List.length (s_line s))) * (n + 1) <= (n - st) * (n + 1))%nat)
        by (apply Nat.mul_le_mono_r; lia).
      apply Nat.add_le_mono_r. apply le_n_S. exact K.
    Qed.

    Lemma step_decreases o sepw s : b_sep o = [] -> (s_i s <= n)%nat -> (s_i s = n \/ List.length (s_line s) <= s_i s)%nat ->
      match step o text width sepw s with
      | Running s' => (s_i s' <= n)%nat /\ (s_i s' = n \/ List.length (s_line s') <= s_i s')%nat /\ (mu s' < mu s)%nat
      | Done _ => True
      | Fail => True
      | Crash => False
      end.
    Proof.
      intros Hs Hi Hl. unfold SplitModel.step. destruct (nth_error text (s_i s)) as [r|] eqn:N; [|exact I].
      assert (Hlt : (s_i s < n)%nat) by (apply nth_error_Some; congruence).
      destruct Hl as [Hl|Hl]; [lia|].
      assert (Hin : In r text) by (eapply nth_error_In; exact N).
      assert (M0 : mu s = (1 + (n - (s_i s - List.length (s_line s))) * (n + 1) + (n - s_i s))%nat).
      { unfold mu. destruct (Nat.eqb_spec (s_i s) n); [lia|reflexivity]. }
      destruct (measure (s_line s)) as [lw|] eqn:ML; [|exact I].
      destruct (measure [r]) as [rw|] eqn:MR; [|exact I].
      destruct (gt (add lw rw) width && negb (r =? 10)) eqn:G.
      - apply andb_prop in G as [G R].
        assert (NE : s_line s <> []).
        { intros X. rewrite X in ML. rewrite (alone r lw rw Hin) in G; try assumption; [discriminate|].
          intros ->. discriminate R. }
        assert (LP : (1 <= List.length (s_line s))%nat) by (destruct (s_line s); [congruence|cbn; lia]).
        assert (D : forall s', (s_i s < s_i s' + List.length (s_line s))%nat -> (s_i s' <= n)%nat -> s_line s' = [] ->
            (s_i s' <= n)%nat /\ (s_i s' = n \/ List.length (s_line s') <= s_i s')%nat /\ (mu s' < mu s)%nat).
        { intros s' H1 H2 H3. split; [lia|]. split; [rewrite H3; cbn; lia|]. rewrite M0.
          eapply Nat.le_lt_trans; [apply (mu_le s' (s_i s')); [lia|rewrite H3; cbn; lia]|].
          assert (K : ((n - s_i s' + 1) * (n + 1) <= (n - (s_i s - List.length (s_line s))) * (n + 1))%nat)
            by (apply Nat.mul_le_mono_r; lia).
          rewrite Nat.mul_add_distr_r, Nat.mul_1_l in K. revert K H1 H2 LP Hlt Hl.
          generalize ((n - s_i s') * (n + 1))%nat ((n - (s_i s - List.length (s_line s))) * (n + 1))%nat. lia. }
        assert (SB : strictBreak o s = Running {| s_i := s_i s; s_line := []; s_lines := s_lines s ++ [s_line s]; s_sepi := s_sepi s |}).
        { unfold strictBreak, hasSeparator. now rewrite Hs. }
        destruct (b_mode o).
        + rewrite SB. apply D; cbn [s_i s_line]; [lia|lia|reflexivity].
        + unfold sensitiveBreak. destruct (breakIndicatorIndex (s_line s) (b_ind o)) as [j|] eqn:B.
          * apply breakIndicator_some in B as [Hj _]. apply D; cbn [s_i s_line]; [lia|lia|reflexivity].
          * rewrite SB. apply D; cbn [s_i s_line]; [lia|lia|reflexivity].
      - destruct (Z.eqb_spec r 10) as [->|R].
        + split; [cbn [s_i]; lia|]. split; [cbn [s_i s_line List.length]; lia|]. rewrite M0.
          eapply Nat.le_lt_trans; [apply (mu_le _ (s_i s - List.length (s_line s))); cbn [s_i s_line List.length]; lia|].
          cbn [s_i]. lia.
        + cbv zeta. cbn [s_i s_line]. split; [lia|].
          destruct (Nat.eqb_spec (s_i s) (List.length text - 1)) as [L|L].
          * split; [left; unfold n in *; lia|]. rewrite M0. unfold mu. cbn [s_i].
            destruct (Nat.eqb_spec (S (s_i s)) n); [lia|unfold n in *; lia].
          * split; [right; rewrite app_length; cbn; lia|]. rewrite M0.
            eapply Nat.le_lt_trans; [apply (mu_le _ (s_i s - List.length (s_line s))); cbn [s_i s_line]; rewrite ?app_length; cbn [List.length]; lia|].
            cbn [s_i]. lia.
    Qed.
    Lemma run_terminates o sepw : b_sep o = [] -> forall m s, (mu s <= m)%nat -> (s_i s <= n)%nat ->
      (s_i s = n \/ List.length (s_line s) <= s_i s)%nat -> returned (run (S m) o text width sepw s).
    Proof.
      intros Hs. induction m as [|m IH]; intros s Hm Hi Hl; pose proof (step_decreases o sepw s Hs Hi Hl) as D;
      cbn [SplitModel.run]; destruct (step o text width sepw s) as [s'|l| |]; try contradiction; try exact I.
      - lia.
      - apply IH; [lia|apply D|apply D].
    Qed.
    Lemma split_returns o : b_sep o = [] -> exists fuel, returned (splitText fuel o text width).
    Proof.
      intros Hs.
      assert (Q : (exists f, splitText f o text width = Fail) \/
        exists sepw, forall f, splitText f o text width = run f o text width sepw {| s_i := 0; s_line := []; s_lines := []; s_sepi := 0 |}).
      { unfold SplitModel.splitText. destruct text; [left; now exists 0%nat|].
        destruct (measure (b_sep o)) as [sepw|]; [right; now exists sepw|left; now exists 0%nat]. }
      destruct Q as [[f Q]|[sepw Q]]; [exists f; rewrite Q; exact I|].
      exists (S (mu {| s_i := 0; s_line := []; s_lines := []; s_sepi := 0 |})).
      rewrite Q. apply run_terminates; [exact Hs|lia|cbn; lia|cbn; lia].
    Qed.
  End Fit.

  (** ** Non-termination *)
  Section Stuck.
    Variable text : list Z.
    Variables (k : nat) (r : Z).
    Hypothesis total : forall l, measure l <> None.
    Hypothesis at_k : nth_error text k = Some r.
    Hypothesis wide : r <> 10 /\ forall l a b, measure l = Some a -> measure [r] = Some b -> gt (add a b) width = true.
    Lemma step_stuck o sepw s : b_sep o = [] -> (s_i s <= k)%nat -> (List.length (s_line s) <= s_i s)%nat ->
      match step o text width sepw s with
      | Running s' => (s_i s' <= k)%nat /\ (List.length (s_line s') <= s_i s')%nat
      | _ => False
      end.
    Proof.
      intros Hs Hi Hl. assert (KT : (k < List.length text)%nat) by (apply nth_error_Some; congruence).
      unfold SplitModel.step. destruct (nth_error text (s_i s)) as [c|] eqn:N; [|apply nth_error_None in N; lia].
      destruct (measure (s_line s)) as [lw|] eqn:ML; [|now apply total in ML].
      destruct (measure [c]) as [rw|] eqn:MR; [|now apply total in MR].
      assert (SB : strictBreak o s = Running {| s_i := s_i s; s_line := []; s_lines := s_lines s ++ [s_line s]; s_sepi := s_sepi s |}).
      { unfold strictBreak, hasSeparator. now rewrite Hs. }
      destruct (gt (add lw rw) width && negb (c =? 10)) eqn:G.
      - destruct (b_mode o); [rewrite SB; cbn [s_i s_line List.length]; lia|].
        unfold sensitiveBreak. destruct (breakIndicatorIndex (s_line s) (b_ind o)) as [j|] eqn:B; [|rewrite SB; cbn [s_i s_line List.length]; lia].
        apply breakIndicator_some in B as [Hj _]. cbn [s_i s_line List.length]. lia.
      - assert (NK : s_i s <> k).
        { intros X. rewrite X, at_k in N. injection N as <-. rewrite (proj2 wide _ _ _ ML MR) in G.
          destruct (Z.eqb_spec r 10); [now apply (proj1 wide)|discriminate]. }
        destruct (c =? 10); [cbn [s_i s_line List.length]; lia|]. cbv zeta. cbn [s_i s_line].
        destruct (Nat.eqb_spec (s_i s) (List.length text - 1)); [lia|]. rewrite app_length. cbn [List.length]. lia.
    Qed.
    Lemma split_stuck o : b_sep o = [] -> forall fuel, ~ returned (splitText fuel o text width).
    Proof.
      intros Hs fuel.
      assert (Q : exists sepw, splitText fuel o text width = run fuel o text width sepw {| s_i := 0; s_line := []; s_lines := []; s_sepi := 0 |}).
      { unfold SplitModel.splitText. destruct text; [destruct k; discriminate|].
        destruct (measure (b_sep o)) as [sepw|] eqn:M; [now exists sepw|now apply total in M]. }
      destruct Q as [sepw Q]. rewrite Q.
      assert (G : forall f s, (s_i s <= k)%nat -> (List.length (s_line s) <= s_i s)%nat ->
                ~ returned (run f o text width sepw s)).
      { induction f as [|f IH]; intros s H1 H2 R; [exact R|]. cbn [SplitModel.run] in R.
        pose proof (step_stuck o sepw s Hs H1 H2) as D.
        destruct (step o text width sepw s); try contradiction. apply (IH s0); [apply D|apply D|exact R]. }
      apply G; cbn; lia.
    Qed.
  End Stuck.
End Term.

(** ** C21 *)
(** Whatever the text, the width, the break option and the fonts' widths (any measure, any rounding):
    the lines returned are the text, cut, with nothing lost but newlines and break indicators. *)
Theorem C21_lines_reassemble :
  forall (T : Type) (add : T -> T -> T) (gt le : T -> T -> bool) (measure : list Z -> option T) fuel o text width lines,
    splitText add gt le measure fuel o text width = Done lines -> broken o lines text.
Proof. intros. eapply lines_reassemble. eassumption. Qed.

(** The plain SplitText (strict mode, no separator): concatenating the lines gives the text without
    its newlines. *)
Theorem C21_strict_concat :
  forall (T : Type) (add : T -> T -> T) (gt le : T -> T -> bool) (measure : list Z -> option T) fuel o text width lines,
    b_mode o = Strict -> b_sep o = [] ->
    splitText add gt le measure fuel o text width = Done lines ->
    filter (fun r => negb (r =? 10)) (List.concat lines) = filter (fun r => negb (r =? 10)) text.
Proof. intros. eapply broken_strict; try eassumption. eapply lines_reassemble. eassumption. Qed.

(** No line is wider than asked for, when the font's widths are subadditive (no positive kerning) and
    no separator is configured.  Missing: separators (a separator wider than the line is emitted anyway)
    and positive kerning (refuted below). *)
Theorem C21_lines_fit_partial :
  forall (T : Type) (add : T -> T -> T) (gt le : T -> T -> bool) (measure : list Z -> option T) width,
    (forall m, measure [] = Some m -> gt m width = false) ->
    (forall l r a b c, measure l = Some a -> measure [r] = Some b -> measure (l ++ [r]) = Some c ->
       gt c width = true -> gt (add a b) width = true) ->
    forall fuel o text lines, b_sep o = [] -> splitText add gt le measure fuel o text width = Done lines ->
    Forall (fun l => forall m, measure l = Some m -> gt m width = false) lines.
Proof. intros. eapply lines_fit; eassumption. Qed.

(** ** C22 *)
(** Without separator, SplitText and SplitTextWordWrap return whenever every character other than a
    newline fits on a line of its own. *)
Theorem C22_returns_when_characters_fit_partial :
  forall (T : Type) (add : T -> T -> T) (gt le : T -> T -> bool) (measure : list Z -> option T) width text o,
    (forall r a b, In r text -> r <> 10 -> measure [] = Some a -> measure [r] = Some b -> gt (add a b) width = false) ->
    b_sep o = [] -> exists fuel, returned (splitText add gt le measure fuel o text width).
Proof. intros. now apply split_returns. Qed.

(** Integer widths: the measure is the sum of per-character widths. *)
Definition zwidth (cw : Z -> Z) (l : list Z) : option Z := Some (fold_right (fun c a => cw c + a) 0 l).

(** With the integer-width model the previous hypothesis is exactly what decides termination: the
    call returns if and only if no character is wider than the line. *)
Theorem C22_returns_iff :
  forall (cw : Z -> Z) width text o, (forall c, 0 <= cw c) -> b_sep o = [] ->
    (exists fuel, returned (splitText Z.add Z.gtb Z.leb (zwidth cw) fuel o text width)) <->
    (forall r, In r text -> r <> 10 -> cw r <= width).
Proof.
  intros cw width text o Hc Hs. split.
  - intros [fuel R] r Hin Hr. destruct (Z_le_gt_dec (cw r) width) as [L|L]; [exact L|exfalso].
    apply In_nth_error in Hin as [k Hk]. revert R.
    apply (split_stuck Z.add Z.gtb Z.leb (zwidth cw) width text k r); try assumption; [discriminate|].
    split; [exact Hr|]. intros l a b Ha Hb. injection Ha as <-. injection Hb as <-.
    assert (P : 0 <= fold_right (fun c a => cw c + a) 0 l).
    { clear -Hc. induction l as [|c l IH]; cbn; [lia|]. specialize (Hc c). lia. }
    cbn [fold_right]. apply Zgt_is_gt_bool. lia.
  - intros H. apply split_returns; [|exact Hs]. intros r a b Hin Hr Ha Hb.
    injection Ha as <-. injection Hb as <-. cbn [fold_right]. specialize (H r Hin Hr). lia.
Qed.

(** So the property fails: one character wider than the line and the call never returns. *)
Theorem C22_wide_character_refuted :
  exists (cw : Z -> Z) width text o, b_sep o = [] /\ b_mode o = Strict /\
    forall fuel, ~ returned (splitText Z.add Z.gtb Z.leb (zwidth cw) fuel o text width).
Proof.
  exists (fun _ => 5), 4, (bs "ab"), {| b_mode := Strict; b_ind := 0; b_sep := [] |}.
  split; [reflexivity|]. split; [reflexivity|]. intros fuel R.
  assert (C : forall r, In r (bs "ab") -> r <> 10 -> 5 <= 4).
  { apply (C22_returns_iff (fun _ => 5) 4 (bs "ab") {| b_mode := Strict; b_ind := 0; b_sep := [] |}); [lia|reflexivity|].
    exists fuel. exact R. }
  specialize (C 97 (or_introl eq_refl)). lia.
Qed.

(** With a separator it also fails for characters that fit, even together with the separator: every
    character is 1 wide, the separator "-" is 1 wide, the line is 2 wide — and the loop keeps emitting
    lines that hold only the separator, for ever. *)
Definition hyphen : breakopt := {| b_mode := Strict; b_ind := 0; b_sep := bs "-" |}.
Theorem C22_separator_livelock_refuted :
  forall fuel, ~ returned (splitText Z.add Z.gtb Z.leb (zwidth (fun _ => 1)) fuel hyphen (bs "abc") 2).
Proof.
  intros fuel R.
  assert (G : forall ls f, ~ returned (run Z.add Z.gtb Z.leb (zwidth (fun _ => 1)) f hyphen (bs "abc") 2 1
            {| s_i := 0; s_line := []; s_lines := ls; s_sepi := 0 |})).
  { intros ls f. revert ls. induction f as [f IH] using (well_founded_induction lt_wf). intros ls.
    destruct f as [|[|[|f]]]; try (intros X; exact X).
    change (~ returned (run Z.add Z.gtb Z.leb (zwidth (fun _ => 1)) f hyphen (bs "abc") 2 1
            {| s_i := 0; s_line := []; s_lines := ls ++ [bs "-"]; s_sepi := 0 |})).
    apply IH. lia. }
  exact (G [] fuel R).
Qed.

(** And it can crash: "a", newline, then a character as wide as the line and one more. *)
Theorem C22_separator_panic_refuted :
  splitText Z.add Z.gtb Z.leb (zwidth (fun c => if c =? 87 then 3 else 1)) 10 hyphen
    (bs "a" ++ [10] ++ bs "Wb") 3 = Crash.
Proof. vm_compute. reflexivity. Qed.

(** Positive kerning makes lines wider than asked for: the pair "ab" measures 3 although "a" and "b"
    measure 1 each; at width 2 the only line is "ab". *)
Definition kerned (l : list Z) : option Z :=
  match l with [] => Some 0 | [97; 98] => Some 3 | _ => Some (zlen l) end.
Theorem C21_positive_kerning_refuted :
  exists lines, splitText Z.add Z.gtb Z.leb kerned 10 {| b_mode := Strict; b_ind := 0; b_sep := [] |} (bs "ab") 2 = Done lines /\
    lines = [bs "ab"] /\ kerned (bs "ab") = Some 3.
Proof. eexists. split; [vm_compute; reflexivity|]. split; reflexivity. Qed.

(** The positive theorems are not vacuous: a concrete text with a newline and three cuts. *)
Example C21_instance :
  splitText Z.add Z.gtb Z.leb (zwidth (fun _ => 1)) 30 {| b_mode := Sensitive; b_ind := 32; b_sep := [] |}
    (bs "one two" ++ [10] ++ bs "three") 4 = Done [bs "one"; bs "two"; bs "thre"; bs "e"].
Proof. vm_compute. reflexivity. Qed.
Example C21_separator_instance :
  splitText Z.add Z.gtb Z.leb (zwidth (fun _ => 1)) 30 hyphen (bs "abcde") 3 = Done [bs "a-"; bs "b-"; bs "cde"].
Proof. vm_compute. reflexivity. Qed.

(** ** C23 *)
Section MC.
  Context {T : Type} (add : T -> T -> T) (gt : T -> T -> bool) (w : list Z -> T).
  (** The height of n lines, accumulated the way the code does. *)
  Fixpoint stack (total lineH : T) (n : nat) : T :=
    match n with O => total | S n' => stack (add total lineH) lineH n' end.

  Lemma multiCell_prefix : forall text line total lineH W H,
    text <> [] -> exists rest, List.concat (multiCell add gt w text line total lineH W H) ++ rest = line ++ text.
  Proof.
    induction text as [|v rest IH]; intros line total lineH W H NE; [congruence|]. cbn [multiCell].
    destruct (gt (add total lineH) H); [eexists; reflexivity|]. cbv zeta.
    destruct (gt (add (w line) (w [v])) W).
    - destruct rest as [|v2 rest].
      + exists []. cbn [List.concat app]. now rewrite !app_nil_r.
      + destruct (IH [v] (add total lineH) lineH W H ltac:(discriminate)) as [r E]. exists r.
        rewrite concat_app. cbn [List.concat]. rewrite app_nil_r, <- app_assoc. f_equal. exact E.
    - destruct rest as [|v2 rest].
      + exists []. cbn [List.concat app]. now rewrite !app_nil_r.
      + destruct (IH (line ++ [v]) total lineH W H ltac:(discriminate)) as [r E]. exists r.
        cbn [app]. rewrite E, <- app_assoc. reflexivity.
  Qed.
  Lemma isFit_multiCell : forall text line total lineH W H t,
    text <> [] -> isFit add gt w text line total lineH W H = (true, t) ->
    List.concat (multiCell add gt w text line total lineH W H) = line ++ text /\
    t = stack total lineH (List.length (multiCell add gt w text line total lineH W H)) /\ gt t H = false.
  Proof.
    induction text as [|v rest IH]; intros line total lineH W H t NE E; [congruence|]. cbn [multiCell isFit] in *.
    destruct (gt (add total lineH) H); [discriminate|]. cbv zeta in *.
    destruct (gt (add (w line) (w [v])) W).
    - destruct rest as [|v2 rest].
      + injection E as E1 E2. cbn [List.concat app List.length stack]. rewrite ?app_nil_r.
        split; [reflexivity|]. split; [congruence|]. rewrite <- E2. now apply negb_true_iff.
      + destruct (IH _ _ _ _ _ _ ltac:(discriminate) E) as (I1 & I2 & I3). split; [|split; [|exact I3]].
        * rewrite concat_app. cbn [List.concat]. rewrite app_nil_r, I1. reflexivity.
        * exact I2.
    - destruct rest as [|v2 rest].
      + injection E as E1 E2. cbn [List.concat app List.length stack]. rewrite !app_nil_r.
        split; [reflexivity|]. split; [congruence|]. rewrite <- E2. now apply negb_true_iff.
      + destruct (IH _ _ _ _ _ _ ltac:(discriminate) E) as (I1 & I2 & I3). split; [|split; [exact I2|exact I3]].
        cbn [app]. rewrite I1, <- app_assoc. reflexivity.
  Qed.
End MC.

(** If IsFitMultiCell says the text fits and reports height t, then MultiCell draws every character, in
    order, on lines whose heights add up to t, and t is not above the rectangle's height. *)
Theorem C23_fit_draws_everything :
  forall (T : Type) (add : T -> T -> T) (gt : T -> T -> bool) (w : list Z -> T) text zero lineH W H t,
    text <> [] -> isFit add gt w text [] zero lineH W H = (true, t) ->
    List.concat (multiCell add gt w text [] zero lineH W H) = text /\
    t = stack add zero lineH (List.length (multiCell add gt w text [] zero lineH W H)) /\ gt t H = false.
Proof. intros. now apply (isFit_multiCell add gt w text [] zero lineH W H t). Qed.

(** In every case MultiCell draws a prefix of the text: nothing is reordered, repeated or skipped. *)
Theorem C23_multicell_draws_prefix :
  forall (T : Type) (add : T -> T -> T) (gt : T -> T -> bool) (w : list Z -> T) text zero lineH W H,
    text <> [] -> exists rest, List.concat (multiCell add gt w text [] zero lineH W H) ++ rest = text.
Proof. intros. now apply (multiCell_prefix add gt w text [] zero lineH W H). Qed.

Example C23_instance :
  let w := fun l => zlen l * 2 in
  isFit Z.add Z.gtb w (bs "hello world") [] 0 3 8 9 = (true, 9) /\
  multiCell Z.add Z.gtb w (bs "hello world") [] 0 3 8 9 = [bs "hell"; bs "o wo"; bs "rld"] /\
  isFit Z.add Z.gtb w (bs "hello world") [] 0 3 8 8 = (false, 6).
Proof. vm_compute. repeat split. Qed.

Print Assumptions C21_lines_reassemble.
Print Assumptions C21_strict_concat.
Print Assumptions C21_lines_fit_partial.
Print Assumptions C21_positive_kerning_refuted.
Print Assumptions C22_returns_when_characters_fit_partial.
Print Assumptions C22_returns_iff.
Print Assumptions C22_wide_character_refuted.
Print Assumptions C22_separator_livelock_refuted.
Print Assumptions C22_separator_panic_refuted.
Print Assumptions C23_fit_draws_everything.
Print Assumptions C23_multicell_draws_prefix.

(** ** C21, separators: in strict mode, when the separator alone fits and widths only grow by appending, every line fits, the
    separator included. *)
Section SepFit.
  Context {T : Type} (add : T -> T -> T) (gt le : T -> T -> bool) (measure : list Z -> option T) (width : T) (o : breakopt).
  Let fits (l : list Z) := forall m, measure l = Some m -> gt m width = false.
  Hypothesis empty_fits : fits [].
  Hypothesis sep_fits : fits (b_sep o).
  Hypothesis subadd : forall l r a b c, measure l = Some a -> measure [r] = Some b -> measure (l ++ [r]) = Some c ->
    gt c width = true -> gt (add a b) width = true.
  Hypothesis sepadd : forall l r a b c m, measure l = Some a -> measure [r] = Some b -> measure (b_sep o) = Some c -> measure (l ++ b_sep o) = Some m ->
    gt m width = true -> le (add (add a b) c) width = false.
  Hypothesis strict : b_mode o = Strict.
  Hypothesis has : b_sep o <> [].
  Let Inv (text : list Z) (s : sst) : Prop := Forall fits (s_lines s) /\
    ((s_i s < List.length text)%nat -> fits (s_line s) /\ (List.length (s_line s) <= s_i s)%nat /\ (s_sepi s <= s_i s)%nat /\
       ((s_i s - List.length (s_line s) < s_sepi s)%nat -> fits (firstn (List.length (s_line s) - (s_i s - s_sepi s)) (s_line s) ++ b_sep o))).
  Lemma step_sepfit text sepw s s' : measure (b_sep o) = Some sepw -> Inv text s -> step add gt le measure o text width sepw s = Running s' -> Inv text s'.
  Proof using empty_fits sep_fits subadd sepadd strict has.
    intros MS [W1 W2] E. unfold step in E. destruct (nth_error text (s_i s)) as [r|] eqn:N; [|discriminate].
    assert (L : (s_i s < List.length text)%nat) by (apply nth_error_Some; congruence). destruct (W2 L) as (F & LL & SI & P).
    destruct (measure (s_line s)) as [lw|] eqn:ML; [|discriminate]. destruct (measure [r]) as [rw|] eqn:MR; [|discriminate].
    destruct (gt (add lw rw) width && negb (r =? 10)) eqn:G.
    - rewrite strict in E. unfold strictBreak in E. assert (HS : hasSeparator o = true) by (unfold hasSeparator; destruct (b_sep o); [contradiction|reflexivity]). rewrite HS in E.
      destruct (Nat.ltb (s_i s) (s_sepi s) || _) eqn:C; [discriminate|]. apply orb_false_elim in C as [C1 C2]. apply Nat.ltb_ge in C1, C2. injection E as <-.
      split; cbn [s_lines s_line s_i s_sepi].
      + apply Forall_app. split; [exact W1|]. constructor; [|constructor]. destruct (le_lt_dec (s_sepi s) (s_i s - List.length (s_line s))) as [Q|Q]; [|now apply P].
        replace (List.length (s_line s) - (s_i s - s_sepi s))%nat with 0%nat by lia. exact sep_fits.
      + intros _. cbn [List.length]. split; [exact empty_fits|]. split; [lia|]. split; [lia|]. lia.
    - destruct (Z.eqb_spec r 10) as [->|R].
      + injection E as <-. split; cbn [s_lines s_line s_i s_sepi].
        * apply Forall_app. split; [exact W1|]. constructor; [exact F|constructor].
        * intros _. cbn [List.length]. split; [exact empty_fits|]. split; [lia|]. split; lia.
      + cbn [negb] in G. rewrite andb_true_r in G.
        assert (FR : fits (s_line s ++ [r])).
        { intros m Hm. destruct (gt m width) eqn:X; [|reflexivity]. rewrite (subadd _ _ _ _ _ ML MR Hm X) in G. discriminate. }
        cbv zeta in E. injection E as <-. split; cbn [s_lines s_line s_i s_sepi].
        * destruct (Nat.eqb _ _); [|exact W1]. apply Forall_app. split; [exact W1|]. constructor; [exact FR|constructor].
        * intros Hlt2. destruct (Nat.eqb_spec (s_i s) (List.length text - 1)); [lia|]. split; [exact FR|]. rewrite app_length. cbn [List.length].
          split; [lia|]. destruct (hasSeparator o && le (add (add lw rw) sepw) width) eqn:K.
          -- split; [lia|]. intros _. apply andb_true_iff in K as [_ K].
             replace (List.length (s_line s) + 1 - (S (s_i s) - s_i s))%nat with (List.length (s_line s)) by lia. rewrite firstn_app, firstn_all, Nat.sub_diag. cbn [firstn]. rewrite app_nil_r.
             intros m Hm. destruct (gt m width) eqn:X; [|reflexivity]. now rewrite (sepadd _ _ _ _ _ _ ML MR MS Hm X) in K.
          -- split; [lia|]. intros Q. replace (List.length (s_line s) + 1 - (S (s_i s) - s_sepi s))%nat with (List.length (s_line s) - (s_i s - s_sepi s))%nat by lia.
             rewrite firstn_app. replace (List.length (s_line s) - (s_i s - s_sepi s) - List.length (s_line s))%nat with 0%nat by lia. cbn [firstn]. rewrite app_nil_r. apply P. lia.
  Qed.
  Lemma run_sepfit text sepw : measure (b_sep o) = Some sepw -> forall fuel s lines, Inv text s -> run add gt le measure fuel o text width sepw s = Done lines -> Forall fits lines.
  Proof using empty_fits sep_fits subadd sepadd strict has.
    intros MS. induction fuel as [|f IH]; intros s lines W E; [discriminate|]. cbn [SplitModel.run] in E.
    destruct (step add gt le measure o text width sepw s) as [s'|l| |] eqn:S; try discriminate.
    - apply (IH s'); [eapply step_sepfit; eassumption|exact E].
    - injection E as <-. apply step_done in S as [N ->]. apply W.
  Qed.
End SepFit.
Theorem C21_separated_lines_fit_partial :
  forall (T : Type) (add : T -> T -> T) (gt le : T -> T -> bool) (measure : list Z -> option T) width o,
    let fits l := forall m, measure l = Some m -> gt m width = false in
    b_mode o = Strict -> b_sep o <> [] -> fits [] -> fits (b_sep o) ->
    (forall l r a b c, measure l = Some a -> measure [r] = Some b -> measure (l ++ [r]) = Some c -> gt c width = true -> gt (add a b) width = true) ->
    (forall l r a b c m, measure l = Some a -> measure [r] = Some b -> measure (b_sep o) = Some c -> measure (l ++ b_sep o) = Some m ->
       gt m width = true -> le (add (add a b) c) width = false) ->
    forall fuel text lines, splitText add gt le measure fuel o text width = Done lines -> Forall fits lines.
Proof.
  intros T add gt le measure width o fits Hm Hs He Hf Sub Sep fuel text lines H. unfold splitText in H. destruct text as [|c text]; [discriminate|].
  destruct (measure (b_sep o)) as [sepw|] eqn:M; [|discriminate]. refine (run_sepfit add gt le measure width o He _ Sub _ Hm Hs (c :: text) sepw M fuel _ lines _ H).
  - intros m Hm'. apply Hf. congruence.
  - intros l r a b c0 m A B C. apply (Sep l r a b c0 m A B). congruence.
  - split; cbn [s_lines s_line s_i s_sepi]; [constructor|]. intros _. split; [exact He|]. cbn [List.length]. split; [lia|]. split; lia.
Qed.
Print Assumptions C21_separated_lines_fit_partial.
(** Met by widths that add up, of which none is negative. *)
Lemma zsum_app (cw : Z -> Z) (a b : list Z) : fold_right (fun c x => cw c + x) 0 (a ++ b) = fold_right (fun c x => cw c + x) 0 a + fold_right (fun c x => cw c + x) 0 b.
Proof. induction a; cbn; lia. Qed.
Theorem C21_separated_lines_fit_widths :
  forall (cw : Z -> Z) o width fuel text lines, (forall c, 0 <= cw c) -> 0 <= width -> b_mode o = Strict -> b_sep o <> [] -> fold_right (fun c x => cw c + x) 0 (b_sep o) <= width ->
    splitText Z.add Z.gtb Z.leb (zwidth cw) fuel o text width = Done lines -> Forall (fun l => fold_right (fun c x => cw c + x) 0 l <= width) lines.
Proof.
  intros cw o width fuel text lines Hc Hw Hm Hs Hp H.
  assert (G := C21_separated_lines_fit_partial Z Z.add Z.gtb Z.leb (zwidth cw) width o Hm Hs).
  assert (X : forall l, (forall m, zwidth cw l = Some m -> Z.gtb m width = false) <-> fold_right (fun c x => cw c + x) 0 l <= width).
  { intros l. unfold zwidth. split; [intros A; specialize (A _ eq_refl); rewrite Z.gtb_ltb in A; lia|]. intros A m E. injection E as <-. rewrite Z.gtb_ltb. lia. }
  eapply Forall_impl; [intros l; apply X|]. refine (G _ _ _ _ fuel text lines H).
  - apply X. cbn. lia.
  - apply X. exact Hp.
  - intros l r a b c A B C. unfold zwidth in *. injection A as <-. injection B as <-. injection C as <-. rewrite zsum_app. cbn [fold_right]. rewrite !Z.gtb_ltb. lia.
  - intros l r a b c m A B C D. unfold zwidth in *. injection A as <-. injection B as <-. injection C as <-. injection D as <-. rewrite zsum_app. cbn [fold_right]. rewrite !Z.gtb_ltb. specialize (Hc r). lia.
Qed.
Print Assumptions C21_separated_lines_fit_widths.

(** ** C21, separators in both modes.  After a break at an indicator the remembered place for the separator may lie in the line
    broken off; so one more assumption: a text does not get wider by leaving out its beginning. *)
  Definition slice (t : list Z) (a b : nat) : list Z := firstn (b - a) (skipn a t).
  Lemma slice_nil t a : slice t a a = [].
  Proof. unfold slice. now rewrite Nat.sub_diag. Qed.
  Lemma slice_past t a b : (b <= a)%nat -> slice t a b = [].
  Proof. intros H. unfold slice. now replace (b - a)%nat with 0%nat by lia. Qed.
  Lemma slice_snoc t a b r : (a <= b)%nat -> nth_error t b = Some r -> slice t a (S b) = slice t a b ++ [r].
  Proof.
    intros H E. unfold slice. replace (S b - a)%nat with (S (b - a)) by lia. apply firstn_snoc. clear -E H. revert a b E H. induction t as [|x t IH]; intros a b E H; [destruct b; discriminate|].
    destruct a as [|a]; [now rewrite Nat.sub_0_r|]. destruct b as [|b]; [lia|]. cbn [skipn]. cbn [Nat.sub]. apply IH; [exact E|lia].
  Qed.
  Lemma slice_firstn t a b c : (b <= c)%nat -> firstn (b - a) (slice t a c) = slice t a b.
  Proof. intros H. unfold slice. rewrite firstn_firstn. f_equal. lia. Qed.
  Lemma slice_tail t a a' b : (a <= a')%nat -> (a' <= b)%nat -> exists p, slice t a b = p ++ slice t a' b.
  Proof.
    intros H K. exists (firstn (a' - a) (slice t a b)). unfold slice at 3.
    replace (firstn (b - a') (skipn a' t)) with (skipn (a' - a) (slice t a b)); [symmetry; apply firstn_skipn|].
    unfold slice. rewrite skipn_firstn_comm. f_equal; [lia|]. clear -H. revert a a' H. induction t as [|x t IH]; intros a a' H; [now rewrite !skipn_nil|].
    destruct a as [|a]; [now rewrite Nat.sub_0_r|]. destruct a' as [|a']; [lia|]. cbn [skipn Nat.sub]. apply IH. lia.
  Qed.
Section SepFit2.
  Context {T : Type} (add : T -> T -> T) (gt le : T -> T -> bool) (measure : list Z -> option T) (width : T) (o : breakopt).
  Let fits (l : list Z) := forall m, measure l = Some m -> gt m width = false.
  Hypothesis empty_fits : fits [].
  Hypothesis sep_fits : fits (b_sep o).
  Hypothesis subadd : forall l r a b c, measure l = Some a -> measure [r] = Some b -> measure (l ++ [r]) = Some c ->
    gt c width = true -> gt (add a b) width = true.
  Hypothesis sepadd : forall p l r a b c m, measure (p ++ l) = Some a -> measure [r] = Some b -> measure (b_sep o) = Some c -> measure (l ++ b_sep o) = Some m ->
    gt m width = true -> le (add (add a b) c) width = false.
  Let Inv (text : list Z) (s : sst) : Prop := Forall fits (s_lines s) /\
    ((s_i s < List.length text)%nat -> (forall k, fits (firstn k (s_line s))) /\
       exists st, (st + List.length (s_line s) = s_i s)%nat /\ s_line s = slice text st (s_i s) /\
       (forall st', (st <= st')%nat -> fits (slice text st' (s_sepi s) ++ b_sep o))).
  Lemma step_sepfit2 text sepw s s' : measure (b_sep o) = Some sepw -> Inv text s -> step add gt le measure o text width sepw s = Running s' -> Inv text s'.
  Proof using empty_fits sep_fits subadd sepadd.
    intros MS [W1 W2] E. unfold step in E. destruct (nth_error text (s_i s)) as [r|] eqn:N; [|discriminate].
    assert (L : (s_i s < List.length text)%nat) by (apply nth_error_Some; congruence). destruct (W2 L) as (F & st & LL & SL & P).
    assert (FL : fits (s_line s)) by (specialize (F (List.length (s_line s))); now rewrite firstn_all in F).
    assert (E0 : forall k, fits (firstn k [])) by (intros k; rewrite firstn_nil; exact empty_fits).
    destruct (measure (s_line s)) as [lw|] eqn:ML; [|discriminate]. destruct (measure [r]) as [rw|] eqn:MR; [|discriminate].
    destruct (gt (add lw rw) width && negb (r =? 10)) eqn:G.
    - assert (SB : strictBreak o s = Running s' -> Inv text s').
      { unfold strictBreak. destruct (hasSeparator o).
        - destruct (Nat.ltb (s_i s) (s_sepi s) || _) eqn:C; [discriminate|]. apply orb_false_elim in C as [C1 C2]. apply Nat.ltb_ge in C1, C2. intros X. injection X as <-.
          split; cbn [s_lines s_line s_i s_sepi].
          + apply Forall_app. split; [exact W1|]. constructor; [|constructor]. replace (List.length (s_line s) - (s_i s - s_sepi s))%nat with (s_sepi s - st)%nat by lia.
            rewrite SL, slice_firstn by lia. apply P. lia.
          + intros _. split; [exact E0|]. exists (s_sepi s). cbn [List.length]. split; [lia|]. split; [now rewrite slice_nil|]. intros st' H. rewrite slice_past by lia. exact sep_fits.
        - intros X. injection X as <-. split; cbn [s_lines s_line s_i s_sepi].
          + apply Forall_app. split; [exact W1|]. constructor; [exact FL|constructor].
          + intros _. split; [exact E0|]. exists (s_i s). cbn [List.length]. split; [lia|]. split; [now rewrite slice_nil|]. intros st' H. apply P. lia. }
      destruct (b_mode o); [now apply SB|]. unfold sensitiveBreak in E. destruct (breakIndicatorIndex (s_line s) (b_ind o)) as [j|] eqn:B; [|now apply SB].
      apply breakIndicator_some in B as [Hj _]. injection E as <-. split; cbn [s_lines s_line s_i s_sepi].
      + apply Forall_app. split; [exact W1|]. constructor; [apply F|constructor].
      + intros _. split; [exact E0|]. eexists. cbn [List.length]. rewrite Nat.add_0_r. split; [reflexivity|]. split; [now rewrite slice_nil|]. intros st' H. apply P. lia.
    - destruct (Z.eqb_spec r 10) as [->|R].
      + injection E as <-. split; cbn [s_lines s_line s_i s_sepi].
        * apply Forall_app. split; [exact W1|]. constructor; [exact FL|constructor].
        * intros _. split; [exact E0|]. exists (S (s_i s)). cbn [List.length]. split; [lia|]. split; [now rewrite slice_nil|]. intros st' H. apply P. lia.
      + cbn [negb] in G. rewrite andb_true_r in G.
        assert (FR : fits (s_line s ++ [r])).
        { intros m Hm. destruct (gt m width) eqn:X; [|reflexivity]. rewrite (subadd _ _ _ _ _ ML MR Hm X) in G. discriminate. }
        cbv zeta in E. injection E as <-. split; cbn [s_lines s_line s_i s_sepi].
        * destruct (Nat.eqb _ _); [|exact W1]. apply Forall_app. split; [exact W1|]. constructor; [exact FR|constructor].
        * intros Hlt2. destruct (Nat.eqb_spec (s_i s) (List.length text - 1)); [lia|]. split.
          { intros k. destruct (le_lt_dec k (List.length (s_line s))).
            - rewrite firstn_app. replace (k - List.length (s_line s))%nat with 0%nat by lia. rewrite app_nil_r. apply F.
            - rewrite firstn_all2 by (rewrite app_length; cbn; lia). exact FR. }
          exists st. rewrite app_length. cbn [List.length]. split; [lia|]. split; [rewrite (slice_snoc text st (s_i s) r ltac:(lia) N); now rewrite <- SL|].
          destruct (hasSeparator o && le (add (add lw rw) sepw) width) eqn:K; [|exact P].
          apply andb_true_iff in K as [_ K]. intros st' H. destruct (le_lt_dec st' (s_i s)) as [Q|Q]; [|rewrite slice_past by lia; exact sep_fits].
          destruct (slice_tail text st st' (s_i s) H Q) as (p & EP). intros m Hm. destruct (gt m width) eqn:X; [|reflexivity].
          assert (ML' : measure (p ++ slice text st' (s_i s)) = Some lw) by (rewrite <- EP, <- SL; exact ML).
          now rewrite (sepadd _ _ _ _ _ _ _ ML' MR MS Hm X) in K.
  Qed.
  Lemma run_sepfit2 text sepw : measure (b_sep o) = Some sepw -> forall fuel s lines, Inv text s -> run add gt le measure fuel o text width sepw s = Done lines -> Forall fits lines.
  Proof using empty_fits sep_fits subadd sepadd.
    intros MS. induction fuel as [|f IH]; intros s lines W E; [discriminate|]. cbn [SplitModel.run] in E.
    destruct (step add gt le measure o text width sepw s) as [s'|l| |] eqn:S; try discriminate.
    - apply (IH s'); [eapply step_sepfit2; eassumption|exact E].
    - injection E as <-. apply step_done in S as [N ->]. apply W.
  Qed.
End SepFit2.
Theorem C21_all_modes_fit_partial :
  forall (T : Type) (add : T -> T -> T) (gt le : T -> T -> bool) (measure : list Z -> option T) width o,
    let fits l := forall m, measure l = Some m -> gt m width = false in
    fits [] -> fits (b_sep o) ->
    (forall l r a b c, measure l = Some a -> measure [r] = Some b -> measure (l ++ [r]) = Some c -> gt c width = true -> gt (add a b) width = true) ->
    (forall p l r a b c m, measure (p ++ l) = Some a -> measure [r] = Some b -> measure (b_sep o) = Some c -> measure (l ++ b_sep o) = Some m ->
       gt m width = true -> le (add (add a b) c) width = false) ->
    forall fuel text lines, splitText add gt le measure fuel o text width = Done lines -> Forall fits lines.
Proof.
  intros T add gt le measure width o fits He Hf Sub Sep fuel text lines H. unfold splitText in H. destruct text as [|c text]; [discriminate|].
  destruct (measure (b_sep o)) as [sepw|] eqn:M; [|discriminate]. refine (run_sepfit2 add gt le measure width o He _ Sub _ (c :: text) sepw M fuel _ lines _ H).
  - intros m Hm'. apply Hf. congruence.
  - intros p l r a b c0 m A B C. apply (Sep p l r a b c0 m A B). congruence.
  - split; cbn [s_lines s_line s_i s_sepi]; [constructor|]. intros _. split; [intros k; rewrite firstn_nil; exact He|]. exists 0%nat. split; [reflexivity|]. split; [reflexivity|].
    intros st' _. rewrite slice_past by lia. intros m Hm'. apply Hf. cbn [app] in Hm'. congruence.
Qed.
Print Assumptions C21_all_modes_fit_partial.
(** For widths that add up, of which none is negative: in every mode, with every separator that fits, no line is too wide. *)
Theorem C21_all_modes_fit_widths :
  forall (cw : Z -> Z) o width fuel text lines, (forall c, 0 <= cw c) -> fold_right (fun c x => cw c + x) 0 (b_sep o) <= width ->
    splitText Z.add Z.gtb Z.leb (zwidth cw) fuel o text width = Done lines -> Forall (fun l => fold_right (fun c x => cw c + x) 0 l <= width) lines.
Proof.
  intros cw o width fuel text lines Hc Hp H.
  assert (NN : forall l, 0 <= fold_right (fun c x => cw c + x) 0 l) by (induction l as [|a l IH]; cbn; [lia|specialize (Hc a); lia]).
  assert (G := C21_all_modes_fit_partial Z Z.add Z.gtb Z.leb (zwidth cw) width o).
  assert (X : forall l, (forall m, zwidth cw l = Some m -> Z.gtb m width = false) <-> fold_right (fun c x => cw c + x) 0 l <= width).
  { intros l. unfold zwidth. split; [intros A; specialize (A _ eq_refl); rewrite Z.gtb_ltb in A; lia|]. intros A m E. injection E as <-. rewrite Z.gtb_ltb. lia. }
  eapply Forall_impl; [intros l; apply X|]. refine (G _ _ _ _ fuel text lines H).
  - apply X. cbn. pose proof (NN (b_sep o)). lia.
  - apply X. exact Hp.
  - intros l r a b c A B C. unfold zwidth in *. injection A as <-. injection B as <-. injection C as <-. rewrite zsum_app. cbn [fold_right]. rewrite !Z.gtb_ltb. lia.
  - intros p l r a b c m A B C D. unfold zwidth in *. injection A as <-. injection B as <-. injection C as <-. injection D as <-. rewrite !zsum_app. cbn [fold_right]. rewrite !Z.gtb_ltb. specialize (Hc r). pose proof (NN p). lia.
Qed.
Print Assumptions C21_all_modes_fit_widths.
(** The word-wrapping mode with a hyphen: breaks at spaces, and inside a word too long for the line. *)
Example C21_sensitive_example :
  splitText Z.add Z.gtb Z.leb (zwidth (fun _ => 1)) 40 {| b_mode := Sensitive; b_ind := 32; b_sep := bs "-" |} (bs "ab cdefgh ij") 5 = Done [bs "ab"; bs "cde-"; bs "fgh"; bs "ij"].
Proof. vm_compute. reflexivity. Qed.
