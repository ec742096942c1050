(** TtfProofs.v — what a successful parse says about the file, stability under extension, panics. *)
From Verif Require Import Base TtfModel TtfSpec.

(** ** Inversion of parser runs *)
Lemma pbind_ok {A B} (p : parser A) (k : A -> parser B) d pos b q :
  pbind p k d pos = POk b q -> exists a r, p d pos = POk a r /\ k a d r = POk b q.
Proof. unfold pbind. destruct (p d pos) as [a r| |]; try discriminate. eauto. Qed.
Lemma pret_ok {A} (a b : A) d pos q : pret a d pos = POk b q -> b = a /\ q = pos.
Proof. intros H. injection H as -> ->. split; reflexivity. Qed.
Lemma pseek_ok p d pos u q : pseek p d pos = POk u q -> 0 <= p /\ q = p.
Proof. unfold pseek. destruct (Z.ltb_spec p 0); [discriminate|]. intros E. injection E as _ <-. split; [assumption|reflexivity]. Qed.
Lemma pskip_ok n d pos u q : pskip n d pos = POk u q -> 0 <= pos + n /\ q = pos + n.
Proof. unfold pskip. destruct (Z.ltb_spec (pos + n) 0); [discriminate|]. intros E. injection E as _ <-. split; [assumption|reflexivity]. Qed.
Lemma ptell_ok d pos x q : ptell d pos = POk x q -> x = pos /\ q = pos.
Proof. intros E. injection E as <- <-. split; reflexivity. Qed.
Lemma perr_ok {A} d pos (x : A) q : perr d pos = POk x q -> False.
Proof. discriminate. Qed.
Lemma ppanic_ok {A} d pos (x : A) q : ppanic d pos = POk x q -> False.
Proof. discriminate. Qed.

Lemma skipn_nth_error {A} (l : list A) a i : nth_error (skipn a l) i = nth_error l (a + i).
Proof. revert a i. induction l as [|x l IH]; intros [|a] i; cbn; try reflexivity; [now destruct i|apply IH]. Qed.
Lemma slice_nth d pos n i : 0 <= i < n -> 0 <= pos -> nth_error (slice d pos n) (Z.to_nat i) = u8at d (pos + i).
Proof.
  intros Hi Hp. unfold slice, u8at. destruct (Z.ltb_spec (pos + i) 0); [lia|].
  rewrite <- (firstn_skipn (Z.to_nat n) (skipn (Z.to_nat pos) d)) at 1.
  assert (E : forall (l : bytes) k m, (k < m)%nat -> nth_error (firstn m l) k = nth_error l k).
  { clear. induction l as [|x l IH]; intros [|k] [|m] H; cbn; try lia; try reflexivity. apply IH. lia. }
  rewrite firstn_skipn. rewrite E by lia. rewrite skipn_nth_error. f_equal. lia.
Qed.
Lemma pread_ok n d pos s q : 0 <= n -> 0 <= pos -> pread n d pos = POk s q ->
  q = pos + n /\ zlen s = n /\ (forall i, 0 <= i < n -> nth_error s (Z.to_nat i) = u8at d (pos + i)) /\ pos + n <= zlen d.
Proof.
  intros Hn Hp. unfold pread. destruct (Z.leb_spec (zlen d) pos); [discriminate|].
  destruct (Z.eqb_spec (zlen (slice d pos n)) n) as [L|L]; [|discriminate]. intros E. injection E as <- <-.
  split; [reflexivity|]. split; [exact L|]. split; [intros i Hi; now apply slice_nth|].
  unfold slice, zlen in *. rewrite firstn_length, skipn_length in L. lia.
Qed.
(** The converse: what is in the file is read. *)
Lemma pread_total n d pos : 0 <= n -> 0 <= pos -> pos < zlen d -> pos + n <= zlen d ->
  exists s, pread n d pos = POk s (pos + n).
Proof.
  intros Hn Hp H1 H2. unfold pread. destruct (Z.leb_spec (zlen d) pos); [lia|].
  replace (zlen (slice d pos n) =? n) with true; [eauto|].
  symmetry. apply Z.eqb_eq. unfold slice, zlen in *. rewrite firstn_length, skipn_length. lia.
Qed.

Lemma be2 a b : be [a; b] = 256 * a + b. Proof. unfold be. cbn [fold_left]. lia. Qed.
Lemma be4 a b c e : be [a; b; c; e] = 65536 * (256 * a + b) + (256 * c + e).
Proof. unfold be. cbn [fold_left]. lia. Qed.

Lemma readUShort_ok d pos v q : 0 <= pos -> readUShort d pos = POk v q -> u16at d pos = Some v /\ q = pos + 2.
Proof.
  intros Hp H. apply pbind_ok in H as (s & r & H1 & H2). apply pret_ok in H2 as [-> ->].
  apply pread_ok in H1 as (-> & L & N & _); [|lia|exact Hp]. split; [|reflexivity].
  destruct s as [|a [|b [|? ?]]]; cbn in L; try (rewrite ?zlen_cons, ?zlen_nil in L; pose proof (zlen_nonneg s); lia).
  all: try discriminate L.
  2:{ exfalso. unfold zlen in L. cbn in L. lia. }
  pose proof (N 0 ltac:(lia)) as N0. pose proof (N 1 ltac:(lia)) as N1. cbn in N0, N1.
  rewrite Z.add_0_r in N0. unfold u16at. rewrite <- N0, <- N1. now rewrite be2.
Qed.
Lemma readULong_ok d pos v q : 0 <= pos -> readULong d pos = POk v q -> u32at d pos = Some v /\ q = pos + 4.
Proof.
  intros Hp H. apply pbind_ok in H as (s & r & H1 & H2). apply pret_ok in H2 as [-> ->].
  apply pread_ok in H1 as (-> & L & N & _); [|lia|exact Hp]. split; [|reflexivity].
  assert (L' : List.length s = 4%nat) by (unfold zlen in L; lia).
  destruct s as [|a [|b [|c [|e [|? ?]]]]]; try discriminate L'.
  pose proof (N 0 ltac:(lia)) as N0. pose proof (N 1 ltac:(lia)) as N1.
  pose proof (N 2 ltac:(lia)) as N2. pose proof (N 3 ltac:(lia)) as N3. cbn in N0, N1, N2, N3.
  rewrite Z.add_0_r in N0. unfold u32at, u16at. rewrite <- N0, <- N1.
  replace (pos + 2 + 1) with (pos + 3) by lia. rewrite <- N2, <- N3. now rewrite be4.
Qed.
Lemma readShort_ok d pos v q : 0 <= pos -> readShort d pos = POk v q ->
  exists u, u16at d pos = Some u /\ v = s16 u /\ q = pos + 2.
Proof.
  intros Hp H. apply pbind_ok in H as (u & r & H1 & H2). apply readUShort_ok in H1 as [H1 ->]; [|exact Hp].
  apply pret_ok in H2 as [-> ->]. exists u. split; [exact H1|]. split; [|reflexivity].
  unfold s16. destruct (Z.leb_spec 32768 u), (Z.ltb_spec u 32768); lia.
Qed.

Lemma times_len {A} (p : parser A) : forall n d pos l q, times n p d pos = POk l q -> List.length l = n.
Proof.
  induction n as [|n IH]; intros d pos l q H; cbn [times] in H; [apply pret_ok in H as [-> _]; reflexivity|].
  apply pbind_ok in H as (a & r & H1 & H2). apply pbind_ok in H2 as (m & r2 & H2 & H3). apply pret_ok in H3 as [-> ->].
  cbn. f_equal. eapply IH. exact H2.
Qed.
(** Fixed-size items. *)
Lemma times_ok {A} (p : parser A) (sz : Z) (R : bytes -> Z -> A -> Prop) :
  0 <= sz -> (forall d pos a q, 0 <= pos -> p d pos = POk a q -> R d pos a /\ q = pos + sz) ->
  forall n d pos l q, 0 <= pos -> times n p d pos = POk l q ->
  q = pos + sz * Z.of_nat n /\ forall i a, nth_error l i = Some a -> R d (pos + sz * Z.of_nat i) a.
Proof.
  intros Hsz Hp. induction n as [|n IH]; intros d pos l q H0 H; cbn [times] in H.
  - apply pret_ok in H as [-> ->]. split; [lia|]. intros [|i] a E; discriminate E.
  - apply pbind_ok in H as (a & r & H1 & H2). apply pbind_ok in H2 as (m & r2 & H2 & H3). apply pret_ok in H3 as [-> ->].
    apply Hp in H1 as [H1 ->]; [|exact H0]. apply IH in H2 as [-> H2]; [|lia]. split; [lia|].
    intros [|i] b E; cbn in E; [injection E as <-; replace (pos + sz * Z.of_nat 0) with pos by lia; exact H1|].
    specialize (H2 i b E). replace (pos + sz * Z.of_nat (S i)) with (pos + sz + sz * Z.of_nat i) by lia. exact H2.
Qed.
Lemma times_u16 n d pos l q : 0 <= pos -> times n readUShort d pos = POk l q ->
  q = pos + 2 * Z.of_nat n /\ List.length l = n /\ forall i, 0 <= i < Z.of_nat n -> u16at d (pos + 2 * i) = Some (nth (Z.to_nat i) l 0).
Proof.
  intros H0 H. pose proof (times_len _ _ _ _ _ _ H) as L.
  apply (times_ok readUShort 2 (fun d p v => u16at d p = Some v)) in H as [-> H]; [|lia| |exact H0].
  - split; [lia|]. split; [exact L|]. intros i Hi.
    specialize (H (Z.to_nat i) (nth (Z.to_nat i) l 0)). rewrite Z2Nat.id in H by lia. apply H.
    apply nth_error_nth'. lia.
  - intros. now apply readUShort_ok.
Qed.

(** ** Stability: a successful (or panicking) run only depends on the bytes it read *)
Definition stable {A} (p : parser A) : Prop := forall d e pos,
  match p d pos with POk a q => p (d ++ e) pos = POk a q | PErr => True | PPanic => p (d ++ e) pos = PPanic end.
Lemma stable_ret {A} (a : A) : stable (pret a). Proof. intros d e pos. reflexivity. Qed.
Lemma stable_err {A} : stable (@perr A). Proof. intros d e pos. exact I. Qed.
Lemma stable_panic {A} : stable (@ppanic A). Proof. intros d e pos. reflexivity. Qed.
Lemma stable_bind {A B} (p : parser A) (k : A -> parser B) : stable p -> (forall a, stable (k a)) -> stable (pbind p k).
Proof.
  intros Hp Hk d e pos. unfold pbind. specialize (Hp d e pos). destruct (p d pos) as [a q| |]; [|exact I|now rewrite Hp].
  rewrite Hp. apply Hk.
Qed.
Lemma stable_seek p : stable (pseek p). Proof. intros d e pos. unfold pseek. destruct (p <? 0); [exact I|reflexivity]. Qed.
Lemma stable_skip p : stable (pskip p). Proof. intros d e pos. unfold pskip. destruct (pos + p <? 0); [exact I|reflexivity]. Qed.
Lemma stable_tell : stable ptell. Proof. intros d e pos. reflexivity. Qed.
Lemma stable_read n : stable (pread n).
Proof.
  intros d e pos. unfold pread. destruct (Z.leb_spec (zlen d) pos) as [H|H]; [exact I|].
  destruct (Z.eqb_spec (zlen (slice d pos n)) n) as [L|L]; [|exact I].
  rewrite zlen_app. pose proof (zlen_nonneg e). destruct (Z.leb_spec (zlen d + zlen e) pos); [lia|].
  assert (E : slice (d ++ e) pos n = slice d pos n).
  { unfold slice, zlen in *. rewrite firstn_length, skipn_length in L.
    rewrite skipn_app. rewrite firstn_app. rewrite skipn_length.
    replace (Z.to_nat n - (List.length d - Z.to_nat pos))%nat with 0%nat by lia. cbn [firstn]. apply app_nil_r. }
  rewrite E. destruct (Z.eqb_spec (zlen (slice d pos n)) n); [reflexivity|congruence].
Qed.
Lemma stable_times {A} (p : parser A) n : stable p -> stable (times n p).
Proof. intros Hp. induction n; cbn [times]; [apply stable_ret|]. apply stable_bind; [exact Hp|]. intros a. apply stable_bind; [exact IHn|]. intros. apply stable_ret. Qed.

Ltac st := repeat first
  [ apply stable_ret | apply stable_err | apply stable_panic | apply stable_seek | apply stable_skip
  | apply stable_tell | apply stable_read
  | apply stable_times | (apply stable_bind; [|intros ?]) | assumption
  | match goal with |- stable (match ?x with _ => _ end) => destruct x end
  | progress unfold readUShort, readULong, readShort, readEntry, encEntry, readGroup, kernPair, seekTag ].
Lemma stable_charsRead k : forall c d0, stable (charsRead k c d0).
Proof. induction k; intros c d0; cbn [charsRead]; st. apply IHk. Qed.
Lemma stable_parseChars starts : forall i off ends deltas ros, stable (parseChars i off starts ends deltas ros).
Proof.
  induction starts as [|c1 s IH]; intros i off ends deltas ros; cbn [parseChars]; [st|].
  destruct ends, deltas, ros; st; try apply stable_charsRead; apply IH.
Qed.
Lemma stable_nameLoop k : forall a b, stable (nameLoop k a b).
Proof. induction k; intros a b; cbn [nameLoop]; st. apply IHk. Qed.
Lemma stable_kernSubs n : forall m, stable (kernSubs n m).
Proof. induction n; intros m; cbn [kernSubs]; unfold kernSub; st. apply IHn. Qed.
Lemma stable_parse uk : stable (parseFontData uk).
Proof.
  unfold parseFontData, parseDirectory, parseHead, parseHhea, parseMaxp, parseHmtx, parseCmap4, parseCmap12, parseName,
    parseOS2, parsePost, parseLoca, parseKern.
  st; try apply stable_parseChars; try apply stable_nameLoop; try apply stable_kernSubs.
Qed.

(** ** Panics *)
Definition safe {A} (p : parser A) : Prop := forall d pos, p d pos <> PPanic.
Lemma safe_ret {A} (a : A) : safe (pret a). Proof. intros d pos. discriminate. Qed.
Lemma safe_err {A} : safe (@perr A). Proof. intros d pos. discriminate. Qed.
Lemma safe_bind {A B} (p : parser A) (k : A -> parser B) : safe p -> (forall a, safe (k a)) -> safe (pbind p k).
Proof. intros Hp Hk d pos. unfold pbind. specialize (Hp d pos). destruct (p d pos); [apply Hk|discriminate|congruence]. Qed.
Lemma safe_seek p : safe (pseek p). Proof. intros d pos. unfold pseek. destruct (p <? 0); discriminate. Qed.
Lemma safe_skip p : safe (pskip p). Proof. intros d pos. unfold pskip. destruct (pos + p <? 0); discriminate. Qed.
Lemma safe_tell : safe ptell. Proof. intros d pos. discriminate. Qed.
Lemma safe_read n : safe (pread n).
Proof. intros d pos. unfold pread. destruct (_ <=? _); [discriminate|]. destruct (_ =? _); discriminate. Qed.
Lemma safe_times {A} (p : parser A) n : safe p -> safe (times n p).
Proof. intros Hp. induction n; cbn [times]; [apply safe_ret|]. apply safe_bind; [exact Hp|]. intros a. apply safe_bind; [exact IHn|]. intros. apply safe_ret. Qed.
Ltac sf := repeat first
  [ apply safe_ret | apply safe_err | apply safe_seek | apply safe_skip
  | apply safe_tell | apply safe_read
  | apply safe_times | (apply safe_bind; [|intros ?]) | assumption
  | match goal with |- safe (match ?x with _ => _ end) => destruct x end
  | progress unfold readUShort, readULong, readShort, readEntry, encEntry, readGroup, kernPair, seekTag ].
Lemma safe_charsRead k : forall c d0, safe (charsRead k c d0).
Proof. induction k; intros c d0; cbn [charsRead]; sf. apply IHk. Qed.
Lemma safe_parseChars starts : forall i off ends deltas ros, safe (parseChars i off starts ends deltas ros).
Proof.
  induction starts as [|c1 s IH]; intros i off ends deltas ros; cbn [parseChars]; [sf|].
  destruct ends, deltas, ros; sf; try apply safe_charsRead; apply IH.
Qed.
Lemma safe_nameLoop k : forall a b, safe (nameLoop k a b).
Proof. induction k; intros a b; cbn [nameLoop]; sf. apply IHk. Qed.
Lemma safe_kernSubs n : forall m, safe (kernSubs n m).
Proof. induction n; intros m; cbn [kernSubs]; unfold kernSub; sf. apply IHn. Qed.
Lemma hmtx_panic t nhm ng d pos : 0 <= nhm -> parseHmtx t nhm ng d pos = PPanic -> nhm = 0 /\ 0 < ng.
Proof.
  intros H0 H. unfold parseHmtx in H. unfold pbind at 1 in H.
  assert (S1 : safe (seekTag t tag_hmtx)) by sf. specialize (S1 d pos).
  destruct (seekTag t tag_hmtx d pos) as [u q| |]; [|discriminate|congruence].
  set (p := times (Z.to_nat nhm) _) in H. unfold pbind at 1 in H.
  assert (S2 : safe p) by (unfold p; sf). specialize (S2 d q).
  destruct (p d q) as [ws r| |] eqn:E; [|discriminate|congruence]. apply times_len in E.
  destruct (Z.ltb_spec nhm ng) as [L|L]; [|discriminate H].
  destruct (nth_error ws (Z.to_nat (nhm - 1))) eqn:N; [discriminate H|]. apply nth_error_None in N. lia.
Qed.

(** ** What a successful parse says about the file *)
Ltac pstep := match goal with
  | H : pbind _ _ _ _ = POk _ _ |- _ => apply pbind_ok in H; destruct H as (? & ? & ? & ?)
  | H : pret _ _ _ = POk _ _ |- _ => apply pret_ok in H; destruct H; subst
  | H : perr _ _ = POk _ _ |- _ => exfalso; exact (perr_ok _ _ _ _ H)
  | H : ppanic _ _ = POk _ _ |- _ => exfalso; exact (ppanic_ok _ _ _ _ H)
  | H : pskip _ _ _ = POk _ _ |- _ => apply pskip_ok in H; destruct H; subst
  | H : pseek _ _ _ = POk _ _ |- _ => apply pseek_ok in H; destruct H; subst
  | H : ptell _ _ = POk _ _ |- _ => apply ptell_ok in H; destruct H; subst
  | H : readUShort _ ?p = POk _ _ |- _ => apply readUShort_ok in H; [destruct H; subst|lia]
  | H : readULong _ ?p = POk _ _ |- _ => apply readULong_ok in H; [destruct H; subst|lia]
  | H : readShort _ ?p = POk _ _ |- _ => apply readShort_ok in H; [destruct H as (? & ? & ? & ?); subst|lia]
  | H : (if ?b then _ else _) _ _ = POk _ _ |- _ => destruct b eqn:?
  | H : (match ?b with _ => _ end) _ _ = POk _ _ |- _ => destruct b eqn:?
  end.

Lemma bytes_eqb_eq a : forall b, bytes_eqb a b = true <-> a = b.
Proof.
  induction a as [|x a IH]; intros [|y b]; cbn; try (split; [discriminate|discriminate]); [split; reflexivity|].
  rewrite andb_true_iff, Z.eqb_eq, IH. split; [intros [-> ->]; reflexivity|intros E; injection E as -> ->; split; reflexivity].
Qed.
Lemma tfind_app t1 t2 tag : tfind (t1 ++ t2) tag = match tfind t1 tag with Some e => Some e | None => tfind t2 tag end.
Proof. induction t1 as [|[k e] t1 IH]; [reflexivity|]. cbn. destruct (bytes_eqb k tag); [reflexivity|exact IH]. Qed.
Lemma tfind_rev l tag e : tfind (rev l) tag = Some e ->
  exists i, nth_error l i = Some (tag, e) /\ forall j k e', (i < j)%nat -> nth_error l j = Some (k, e') -> k <> tag.
Proof.
  induction l as [|[k x] l IH]; [discriminate|]. cbn [rev]. rewrite tfind_app.
  destruct (tfind (rev l) tag) as [e0|] eqn:F.
  - intros E. injection E as ->. destruct (IH eq_refl) as (i & H1 & H2). exists (S i). split; [exact H1|].
    intros [|j] k' e' Hj Hk; [lia|]. apply (H2 j k' e'); [lia|exact Hk].
  - cbn. destruct (bytes_eqb k tag) eqn:B; [|discriminate]. apply bytes_eqb_eq in B as ->. intros E. injection E as ->.
    exists 0%nat. split; [reflexivity|]. intros [|j] k' e' Hj Hk ->; [lia|]. cbn in Hk.
    assert (X : forall l, tfind (rev l) tag = None -> forall j e, nth_error l j = Some (tag, e) -> False).
    { clear. induction l as [|[k x] l IH]; intros F [|j] e H; try discriminate.
      - cbn in H. injection H as -> ->. cbn [rev] in F. rewrite tfind_app in F. destruct (tfind (rev l) tag); [discriminate|].
        cbn in F. assert (R : bytes_eqb tag tag = true) by now apply bytes_eqb_eq. rewrite R in F. discriminate.
      - cbn [rev] in F. rewrite tfind_app in F. destruct (tfind (rev l) tag) eqn:G; [discriminate|]. eapply IH; [reflexivity|exact H]. }
    eapply X; eassumption.
Qed.
Definition entry_at (d : bytes) (p : Z) (x : bytes * tentry) : Prop :=
  zlen (fst x) = 4 /\ (forall i, 0 <= i < 4 -> nth_error (fst x) (Z.to_nat i) = u8at d (p + i)) /\
  u32at d (p + 8) = Some (e_offset (snd x)) /\ u32at d (p + 12) = Some (e_length (snd x)).
Lemma readEntry_ok d pos x q : 0 <= pos -> readEntry d pos = POk x q -> entry_at d pos x /\ q = pos + 16.
Proof.
  intros Hp H. unfold readEntry in H. apply pbind_ok in H as (tag & r & H1 & H2).
  apply pread_ok in H1 as (-> & L & N & _); [|lia|exact Hp]. repeat pstep.
  split; [|lia]. split; [exact L|]. split; [exact N|]. cbn [snd e_offset e_length]. split.
  - replace (pos + 8) with (pos + 4 + 4) by lia. assumption.
  - replace (pos + 12) with (pos + 4 + 4 + 4) by lia. assumption.
Qed.
Lemma list4_eq (a b : bytes) : zlen a = 4 -> zlen b = 4 ->
  (forall i, 0 <= i < 4 -> nth_error a (Z.to_nat i) = nth_error b (Z.to_nat i)) -> a = b.
Proof.
  intros La Lb H. unfold zlen in *.
  destruct a as [|a0 [|a1 [|a2 [|a3 [|? ?]]]]]; cbn in La; try lia.
  destruct b as [|b0 [|b1 [|b2 [|b3 [|? ?]]]]]; cbn in Lb; try lia.
  pose proof (H 0 ltac:(lia)) as H0. pose proof (H 1 ltac:(lia)) as H1.
  pose proof (H 2 ltac:(lia)) as H2. pose proof (H 3 ltac:(lia)) as H3. cbn in H0, H1, H2, H3. injection H0 as ->. injection H1 as ->. injection H2 as ->. injection H3 as ->. reflexivity.
Qed.
Lemma dir_ok d t q tag e : zlen tag = 4 -> parseDirectory d 0 = POk t q -> tfind t tag = Some e ->
  table_at d tag (e_offset e) (e_length e).
Proof.
  intros Ht H F. unfold parseDirectory in H. apply pbind_ok in H as (v & r & H1 & H2).
  apply pread_ok in H1 as (-> & _ & _ & _); [|lia|lia].
  destruct (negb (bytes_eqb v _)); [now apply perr_ok in H2|].
  apply pbind_ok in H2 as (n & r & H2 & H3). apply readUShort_ok in H2 as [Hn ->]; [|lia].
  apply pbind_ok in H3 as (u & r & H3 & H4). apply pskip_ok in H3 as [_ ->].
  apply pbind_ok in H4 as (l & r & H4 & H5). apply pret_ok in H5 as [-> ->].
  pose proof (times_len _ _ _ _ _ _ H4) as L.
  apply (times_ok readEntry 16 entry_at) in H4 as [-> H4]; [|lia|apply readEntry_ok|lia].
  change (0 + 4 + 2 + 6) with 12 in H4. change (0 + 4) with 4 in Hn.
  apply tfind_rev in F as (i & Hi & Hl).
  assert (Hlen : (i < List.length l)%nat) by (apply nth_error_Some; congruence).
  exists n, (Z.of_nat i). pose proof (H4 i _ Hi) as (E1 & E2 & E3 & E4). cbn [fst snd] in *.
  split; [exact Hn|]. split; [lia|]. split; [intros k Hk; rewrite <- E2 by exact Hk; reflexivity|]. split; [exact E3|]. split; [exact E4|].
  intros j Hj Hj'. assert (NJ : exists x, nth_error l (Z.to_nat j) = Some x).
  { destruct (nth_error l (Z.to_nat j)) eqn:E; [eauto|]. apply nth_error_None in E. lia. }
  destruct NJ as [[k e'] NJ]. apply (Hl (Z.to_nat j) k e'); [lia|exact NJ|].
  pose proof (H4 _ _ NJ) as (F1 & F2 & _). cbn [fst] in *. apply list4_eq; [exact F1|exact Ht|].
  intros i0 Hi0. rewrite F2 by exact Hi0. specialize (Hj' i0 Hi0). rewrite Z2Nat.id by lia. exact Hj'.
Qed.

Lemma seekTag_ok t tag d pos u q : seekTag t tag d pos = POk u q -> exists e, tfind t tag = Some e /\ q = e_offset e /\ 0 <= e_offset e.
Proof. unfold seekTag. destruct (tfind t tag) as [e|]; [|discriminate]. intros H. apply pseek_ok in H as [H ->]. eauto. Qed.

(** The parse, taken apart. *)
Lemma parse_inv uk d f : parseFont uk d = Some (Some f) ->
  exists q0, parseDirectory d 0 = POk (t_tables f) q0 /\
  (exists q q', parseHead (t_tables f) d q = POk (t_upem f, t_bbox f, t_locFormat f) q') /\
  (exists q q', parseHhea (t_tables f) d q = POk (t_asc f, t_desc f, t_nHM f) q') /\
  (exists q q', parseMaxp (t_tables f) d q = POk (t_nGlyphs f) q') /\
  (exists q q', parseHmtx (t_tables f) (t_nHM f) (t_nGlyphs f) d q = POk (t_widths f) q') /\
  (exists q q', parseCmap4 (t_tables f) d q = POk (t_cmap f, t_chars f) q') /\
  (exists q q', parseCmap12 (t_tables f) d q = POk (t_groups f) q') /\
  (exists q q', parseName (t_tables f) d q = POk (t_psname f) q') /\
  (exists q q', parseOS2 (t_tables f) (t_asc f) d q = POk (t_os2 f) q') /\
  (exists q q', parsePost (t_tables f) d q = POk (t_post f) q') /\
  (exists q q', parseLoca (t_tables f) (t_locFormat f =? 0) d q = POk (t_loca f) q') /\
  (exists q q', (if uk then parseKern (t_tables f) else pret None) d q = POk (t_kern f) q').
Proof.
  unfold parseFont. destruct (parseFontData uk d 0) as [f' q| |] eqn:H; try discriminate. intros E. injection E as ->.
  unfold parseFontData in H.
  apply pbind_ok in H as (t & q0 & H0 & H). apply pbind_ok in H as ([[upem bbox] lf] & q1 & H1 & H).
  apply pbind_ok in H as ([[a de] nhm] & q2 & H2 & H). apply pbind_ok in H as (ng & q3 & H3 & H).
  apply pbind_ok in H as (ws & q4 & H4 & H). apply pbind_ok in H as ([c4 ch] & q5 & H5 & H).
  apply pbind_ok in H as (c12 & q6 & H6 & H). apply pbind_ok in H as (nm & q7 & H7 & H).
  apply pbind_ok in H as (o2 & q8 & H8 & H). apply pbind_ok in H as (ps & q9 & H9 & H).
  apply pbind_ok in H as (lo & q10 & H10 & H). apply pbind_ok in H as (k & q11 & H11 & H).
  apply pret_ok in H as [-> ->]. cbn [t_tables t_upem t_bbox t_locFormat t_asc t_desc t_nHM t_nGlyphs t_widths t_cmap t_chars t_groups t_psname t_os2 t_post t_loca t_kern].
  exists q0. repeat split; eauto.
Qed.

Lemma head_ok t d q x q' : parseHead t d q = POk x q' ->
  exists e, tfind t tag_head = Some e /\ u16at d (e_offset e + 18) = Some (fst (fst x)).
Proof.
  intros H. unfold parseHead in H. apply pbind_ok in H as (u & r & H1 & H). apply seekTag_ok in H1 as (e & F & -> & P).
  exists e. split; [exact F|]. repeat pstep. cbn [fst].
  replace (e_offset e + 18) with (e_offset e + 12 + 4 + 2) by lia. assumption.
Qed.
Lemma hhea_ok t d q x q' : parseHhea t d q = POk x q' ->
  exists e, tfind t tag_hhea = Some e /\ u16at d (e_offset e + 34) = Some (snd x).
Proof.
  intros H. unfold parseHhea in H. apply pbind_ok in H as (u & r & H1 & H). apply seekTag_ok in H1 as (e & F & -> & P).
  exists e. split; [exact F|]. repeat pstep. cbn [snd].
  replace (e_offset e + 34) with (e_offset e + 4 + 2 + 2 + 26) by lia. assumption.
Qed.
Lemma maxp_ok t d q x q' : parseMaxp t d q = POk x q' ->
  exists e, tfind t tag_maxp = Some e /\ u16at d (e_offset e + 4) = Some x.
Proof.
  intros H. unfold parseMaxp in H. apply pbind_ok in H as (u & r & H1 & H). apply seekTag_ok in H1 as (e & F & -> & P).
  exists e. split; [exact F|]. repeat pstep. assumption.
Qed.

(** Sizes of values read from a file of bytes. *)
Definition isbytes (d : bytes) : Prop := forall b, In b d -> 0 <= b < 256.
Lemma u8_range d p v : isbytes d -> u8at d p = Some v -> 0 <= v < 256.
Proof. intros B. unfold u8at. destruct (p <? 0); [discriminate|]. intros H. apply B. eapply nth_error_In. exact H. Qed.
Lemma u16_range d p v : isbytes d -> u16at d p = Some v -> 0 <= v < 65536.
Proof.
  intros B. unfold u16at. destruct (u8at d p) as [a|] eqn:A; [|discriminate]. destruct (u8at d (p + 1)) as [b|] eqn:C; [|discriminate].
  intros E. assert (E2 : v = 256 * a + b) by congruence. apply (u8_range _ _ _ B) in A. apply (u8_range _ _ _ B) in C. lia.
Qed.
Lemma u32_range d p v : isbytes d -> u32at d p = Some v -> 0 <= v < 2 ^ 32.
Proof.
  intros B. unfold u32at. destruct (u16at d p) as [a|] eqn:A; [|discriminate]. destruct (u16at d (p + 2)) as [b|] eqn:C; [|discriminate].
  intros E. assert (E2 : v = 65536 * a + b) by congruence. apply (u16_range _ _ _ B) in A. apply (u16_range _ _ _ B) in C. lia.
Qed.

Lemma zlen_len {A} (l : list A) n : List.length l = n -> zlen l = Z.of_nat n.
Proof. intros <-. reflexivity. Qed.

(** hmtx *)
Lemma padTo_nth n v : forall l i, (i < n)%nat -> nth_error (padTo n v l) i = Some (nth i l v).
Proof.
  induction n as [|n IH]; intros l i Hi; [lia|]. cbn [padTo]. destruct l as [|x l]; destruct i as [|i]; cbn; try reflexivity.
  - rewrite IH by lia. now destruct i.
  - apply IH. lia.
Qed.
Lemma padTo_len n v : forall l, List.length (padTo n v l) = n.
Proof. induction n as [|n IH]; intros l; [reflexivity|]. cbn. destruct l; cbn; now rewrite IH. Qed.
Lemma hmtx_ok t nhm ng d q ws q' : 0 <= nhm -> parseHmtx t nhm ng d q = POk ws q' ->
  exists e, tfind t tag_hmtx = Some e /\ zlen ws = Z.max nhm ng /\
    forall i, 0 <= i < Z.max nhm ng -> u16at d (e_offset e + 4 * Z.min i (nhm - 1)) = Some (nth (Z.to_nat i) ws 0).
Proof.
  intros H0 H. unfold parseHmtx in H. apply pbind_ok in H as (u & r & H1 & H). apply seekTag_ok in H1 as (e & F & -> & P).
  exists e. split; [exact F|]. apply pbind_ok in H as (l & r & H1 & H).
  pose proof (times_len _ _ _ _ _ _ H1) as L.
  apply (times_ok _ 4 (fun d p v => u16at d p = Some v)) in H1 as [-> H1]; [|lia| |exact P].
  2:{ clear; intros; repeat pstep. split; [assumption|lia]. }
  assert (N : forall i, 0 <= i < nhm -> u16at d (e_offset e + 4 * i) = Some (nth (Z.to_nat i) l 0)).
  { intros i Hi. specialize (H1 (Z.to_nat i) (nth (Z.to_nat i) l 0)). rewrite Z2Nat.id in H1 by lia. apply H1.
    apply nth_error_nth'. lia. }
  destruct (Z.ltb_spec nhm ng) as [G|G].
  - destruct (nth_error l (Z.to_nat (nhm - 1))) as [lw|] eqn:E; [|discriminate H].
    assert (NP : 0 < nhm). { assert (Z.to_nat (nhm - 1) < List.length l)%nat by (apply nth_error_Some; congruence). lia. }
    apply pret_ok in H as [-> ->]. split; [rewrite (zlen_len _ _ (padTo_len _ _ _)); lia|].
    intros i Hi. rewrite (nth_error_nth _ _ 0 (padTo_nth (Z.to_nat ng) lw l (Z.to_nat i) ltac:(lia))).
    destruct (Z_lt_ge_dec i nhm) as [X|X].
    + replace (Z.min i (nhm - 1)) with i by lia. rewrite N by lia. f_equal. apply nth_indep. lia.
    + replace (Z.min i (nhm - 1)) with (nhm - 1) by lia. rewrite N by lia. f_equal.
      rewrite (nth_overflow l lw) by lia. apply nth_error_nth. exact E.
  - apply pret_ok in H as [-> ->]. split; [rewrite (zlen_len _ _ L); lia|].
    intros i Hi. replace (Z.min i (nhm - 1)) with i by lia. apply N. lia.
Qed.

(** cmap *)
Lemma encEntry_ok d pos x q : 0 <= pos -> encEntry d pos = POk x q ->
  (u16at d pos = Some (fst (fst x)) /\ u16at d (pos + 2) = Some (snd (fst x)) /\ u32at d (pos + 4) = Some (snd x)) /\ q = pos + 8.
Proof.
  intros Hp H. unfold encEntry in H. repeat pstep. cbn [fst snd]. split; [|lia]. split; [assumption|]. split; [assumption|].
  replace (pos + 4) with (pos + 2 + 2) by lia. assumption.
Qed.
Lemma readGroup_ok d pos x q : 0 <= pos -> readGroup d pos = POk x q ->
  (u32at d pos = Some (fst (fst x)) /\ u32at d (pos + 4) = Some (snd (fst x)) /\ u32at d (pos + 8) = Some (snd x)) /\ q = pos + 12.
Proof.
  intros Hp H. unfold readGroup in H. repeat pstep. cbn [fst snd]. split; [|lia]. split; [assumption|]. split; [assumption|].
  replace (pos + 8) with (pos + 4 + 4) by lia. assumption.
Qed.
Definition encs_at d cmap (l : list (Z * Z * Z)) : Prop :=
  forall i x, nth_error l i = Some x -> enc_record d cmap (Z.of_nat i) (fst (fst x)) (snd (fst x)) (snd x).
Lemma encs_ok n d cmap l q : 0 <= cmap -> times n encEntry d (cmap + 2 + 2) = POk l q -> encs_at d cmap l.
Proof.
  intros H0 H. apply (times_ok encEntry 8 (fun d p x => u16at d p = Some (fst (fst x)) /\ u16at d (p + 2) = Some (snd (fst x)) /\ u32at d (p + 4) = Some (snd x))) in H as [-> H];
    [|lia|apply encEntry_ok|lia].
  intros i x Hx. specialize (H i x Hx). unfold enc_record. replace (cmap + 4 + 8 * Z.of_nat i) with (cmap + 2 + 2 + 8 * Z.of_nat i) by lia. exact H.
Qed.
Lemma offset31_spec (l : list (Z * Z * Z)) : forall acc : Z, let r : Z := fold_left (fun (acc : Z) (x : Z * Z * Z) => let '(p, e, o) := x in if (p =? 3) && (e =? 1) then o else acc) l acc in
  (r = acc /\ forall i o, nth_error l i <> Some (3, 1, o)) \/
  (exists i, nth_error l i = Some (3, 1, r) /\ forall j o, (i < j)%nat -> nth_error l j <> Some (3, 1, o)).
Proof.
  induction l as [|[[p e] o] l IH]; intros acc r; subst r; cbn [fold_left].
  - left. split; [reflexivity|]. intros [|i] o; discriminate.
  - specialize (IH (if (p =? 3) && (e =? 1) then o else acc)). cbv zeta in IH. destruct IH as [[E H]|(i & E & H)].
    + rewrite E. destruct ((p =? 3) && (e =? 1)) eqn:B.
      * apply andb_prop in B as [B1 B2]. apply Z.eqb_eq in B1, B2. subst. right. exists 0%nat. split; [reflexivity|].
        intros [|j] o' Hj; [lia|]. cbn. apply H.
      * left. split; [reflexivity|]. intros [|i] o'; [|cbn; apply H]. cbn. intros X. injection X as -> -> ->. discriminate B.
    + right. exists (S i). split; [exact E|]. intros [|j] o' Hj; [lia|]. cbn. apply H. lia.
Qed.
Lemma cmap4_ok t d q c ch q' : isbytes d -> zlen tag_cmap = 4 -> (forall tag e, zlen tag = 4 -> tfind t tag = Some e -> table_at d tag (e_offset e) (e_length e)) ->
  parseCmap4 t d q = POk (c, ch) q' ->
  exists base, subtable31 d base /\ segments d base (c_seg c) /\ 0 <= c_seg c < 32768 /\ 0 <= base /\
    u16at d base = Some 4 /\
    zlen (c_end c) = c_seg c /\ zlen (c_start c) = c_seg c /\ zlen (c_delta c) = c_seg c /\ zlen (c_ro c) = c_seg c /\
    (forall i, 0 <= i < c_seg c -> f4_end d base i = Some (nth (Z.to_nat i) (c_end c) 0)) /\
    (forall i, 0 <= i < c_seg c -> f4_start d base (c_seg c) i = Some (nth (Z.to_nat i) (c_start c) 0)) /\
    (forall i, 0 <= i < c_seg c -> f4_delta d base (c_seg c) i = Some (nth (Z.to_nat i) (c_delta c) 0)) /\
    (forall i, 0 <= i < c_seg c -> f4_ro d base (c_seg c) i = Some (nth (Z.to_nat i) (c_ro c) 0)) /\
    (forall i, 0 <= i < zlen (c_gids c) -> u16at d (base + 16 + 8 * c_seg c + 2 * i) = Some (nth (Z.to_nat i) (c_gids c) 0)) /\
    (exists len, u16at d (base + 2) = Some len /\ zlen (c_gids c) = u64 (len - (16 + 8 * c_seg c)) / 2).
Proof.
  intros B T4 D H. unfold parseCmap4 in H. apply pbind_ok in H as (u & r & H1 & H). apply seekTag_ok in H1 as (e & F & -> & P).
  apply pbind_ok in H as (u2 & r & H1 & H). apply pskip_ok in H1 as [_ ->].
  apply pbind_ok in H as (n & r & H1 & H). apply readUShort_ok in H1 as [Hn ->]; [|lia].
  apply pbind_ok in H as (encs & r & He & H). pose proof (times_len _ _ _ _ _ _ He) as Le. apply encs_ok in He; [|exact P].
  cbv zeta in H. destruct (Z.eqb_spec (offset31 encs) 0) as [Z0|Z0]; [now apply perr_ok in H|].
  rewrite F in H.
  apply pbind_ok in H as (u3 & r2 & H1 & H). apply pseek_ok in H1 as [Pb ->].
  set (base := e_offset e + offset31 encs) in *.
  apply pbind_ok in H as (f & r2 & H1 & H). apply readUShort_ok in H1 as [Hf ->]; [|lia].
  destruct (Z.eqb_spec f 4) as [->|]; cbn [negb] in H; [|now apply perr_ok in H].
  apply pbind_ok in H as (len & r2 & H1 & H). apply readUShort_ok in H1 as [Hlen ->]; [|lia].
  apply pbind_ok in H as (u4 & r2 & H1 & H). apply pskip_ok in H1 as [_ ->].
  apply pbind_ok in H as (sc2 & r2 & H1 & H). apply readUShort_ok in H1 as [Hsc ->]; [|lia].
  cbv zeta in H. set (sc := sc2 / 2) in *.
  assert (R : 0 <= sc2 < 65536) by (eapply u16_range; eassumption).
  apply pbind_ok in H as (u5 & r2 & H1 & H). apply pskip_ok in H1 as [_ ->].
  apply pbind_ok in H as (ends & r2 & H1 & H). apply times_u16 in H1 as (-> & L1 & N1); [|lia].
  apply pbind_ok in H as (u6 & r2 & H1 & H). apply pskip_ok in H1 as [_ ->].
  apply pbind_ok in H as (starts & r2 & H1 & H). apply times_u16 in H1 as (-> & L2 & N2); [|lia].
  apply pbind_ok in H as (deltas & r2 & H1 & H). apply times_u16 in H1 as (-> & L3 & N3); [|lia].
  apply pbind_ok in H as (off2 & r2 & H1 & H). apply ptell_ok in H1 as [-> ->].
  apply pbind_ok in H as (ros & r2 & H1 & H). apply times_u16 in H1 as (-> & L4 & N4); [|lia].
  apply pbind_ok in H as (gids & r2 & H1 & H). apply times_u16 in H1 as (-> & L5 & N5); [|lia].
  apply pbind_ok in H as (chars & r2 & H1 & H). apply pret_ok in H as [E ->]. injection E as -> ->.
  cbn [c_seg c_end c_start c_delta c_ro c_gids].
  assert (G0 : 0 <= u64 (len - (16 + 8 * sc))) by (unfold u64; apply Z.mod_pos_bound; lia).
  rewrite Z2Nat.id in * by lia.
  exists base. split.
  { pose proof (offset31_spec encs 0) as O. cbv zeta in O. fold (offset31 encs) in O. destruct O as [[O _]|(i & Oi & Oj)]; [congruence|].
    assert (Hi : (i < List.length encs)%nat) by (apply nth_error_Some; congruence).
    assert (Rn : 0 <= n < 65536) by (eapply u16_range; eassumption).
    exists (e_offset e), (e_length e), n, (Z.of_nat i), (offset31 encs). split; [now apply D|]. split; [exact Hn|]. split; [lia|].
    split; [exact (He i _ Oi)|]. split; [reflexivity|]. intros j o Hj Rj.
    destruct (nth_error encs (Z.to_nat j)) as [[[p2 e2] o2]|] eqn:Ej; [|apply nth_error_None in Ej; lia].
    pose proof (He _ _ Ej) as (R1 & R2 & R3). cbn [fst snd] in *. rewrite Z2Nat.id in R1, R2, R3 by lia.
    destruct Rj as (S1 & S2 & S3). rewrite R1 in S1. rewrite R2 in S2. injection S1 as ->. injection S2 as ->.
    apply (Oj (Z.to_nat j) o2); [lia|exact Ej]. }
  split; [exists sc2; split; [replace (base + 6) with (base + 2 + 2 + 2) by lia; exact Hsc|reflexivity]|].
  split; [lia|]. split; [exact Pb|]. split; [exact Hf|].
  unfold zlen. rewrite L1, L2, L3, L4, L5. rewrite !Z2Nat.id by lia.
  do 4 (split; [reflexivity|]).
  split; [intros i Hi; rewrite <- N1 by lia; unfold f4_end; f_equal; lia|].
  split; [intros i Hi; rewrite <- N2 by lia; unfold f4_start; f_equal; lia|].
  split; [intros i Hi; rewrite <- N3 by lia; unfold f4_delta; f_equal; lia|].
  split; [intros i Hi; rewrite <- N4 by lia; unfold f4_ro, f4_ro_pos; f_equal; lia|].
  split; [intros i Hi; rewrite <- N5 by lia; f_equal; lia|].
  exists len. split; [exact Hlen|]. reflexivity.
Qed.
Lemma cmap12_ok t d q gs q' : isbytes d -> (forall tag e, zlen tag = 4 -> tfind t tag = Some e -> table_at d tag (e_offset e) (e_length e)) ->
  parseCmap12 t d q = POk gs q' ->
  (exists e n, tfind t tag_cmap = Some e /\ u16at d (e_offset e + 2) = Some n /\ gs = [] /\
      forall i off, 0 <= i < n -> ~ enc_record d (e_offset e) i 3 10 off) \/
  (exists base n, subtable310 d base /\ u32at d (base + 12) = Some n /\ u16at d base = Some 12 /\ zlen gs = n /\
      forall i, 0 <= i < n -> let x := nth (Z.to_nat i) gs (0, 0, 0) in f12_group d base i (fst (fst x)) (snd (fst x)) (snd x)).
Proof.
  intros B D H. unfold parseCmap12 in H. apply pbind_ok in H as (u & r & H1 & H). apply seekTag_ok in H1 as (e & F & -> & P).
  apply pbind_ok in H as (u2 & r & H1 & H). apply pskip_ok in H1 as [_ ->].
  apply pbind_ok in H as (n & r & H1 & H). apply readUShort_ok in H1 as [Hn ->]; [|lia].
  apply pbind_ok in H as (encs & r & He & H). pose proof (times_len _ _ _ _ _ _ He) as Le. apply encs_ok in He; [|exact P].
  assert (Rn : 0 <= n < 65536) by (eapply u16_range; eassumption).
  rewrite F in H. unfold find310 in H.
  assert (FS : match find (fun x : Z * Z * Z => let '(p, e0, _) := x in (p =? 3) && (e0 =? 10)) encs with
     | Some (p, e0, o) => exists i, nth_error encs i = Some (3, 10, o) /\ p = 3 /\ e0 = 10 /\ forall j o', (j < i)%nat -> nth_error encs j <> Some (3, 10, o')
     | None => forall j o', nth_error encs j <> Some (3, 10, o') end).
  { clear. induction encs as [|[[p e] o] l IH]; cbn [find]; [intros [|j] o'; discriminate|].
    destruct ((p =? 3) && (e =? 10)) eqn:B.
    - apply andb_prop in B as [B1 B2]. apply Z.eqb_eq in B1, B2. subst. exists 0%nat. repeat split. intros j o' Hj. lia.
    - destruct (find _ l) as [[[p2 e2] o2]|].
      + destruct IH as (i & I1 & I2 & I3 & I4). exists (S i). repeat split; try assumption. intros [|j] o' Hj; cbn; [intros X; injection X as -> -> ->; discriminate B|apply I4; lia].
      + intros [|j] o'; cbn; [intros X; injection X as -> -> ->; discriminate B|apply IH]. }
  destruct (find _ encs) as [[[p e0] o]|].
  - right. destruct FS as (i & Fi & -> & -> & Fj).
    apply pbind_ok in H as (u3 & r2 & H1 & H). apply pseek_ok in H1 as [Pb ->]. set (base := e_offset e + o) in *.
    apply pbind_ok in H as (f & r2 & H1 & H). apply readUShort_ok in H1 as [Hf ->]; [|lia].
    destruct (Z.eqb_spec f 12) as [->|]; cbn [negb] in H; [|now apply perr_ok in H].
    apply pbind_ok in H as (rs & r2 & H1 & H). apply readUShort_ok in H1 as [_ ->]; [|lia].
    destruct (rs =? 0); cbn [negb] in H; [|now apply perr_ok in H].
    apply pbind_ok in H as (u4 & r2 & H1 & H). apply pskip_ok in H1 as [_ ->].
    apply pbind_ok in H as (u5 & r2 & H1 & H). apply pskip_ok in H1 as [_ ->].
    apply pbind_ok in H as (ng & r2 & H1 & H). apply readULong_ok in H1 as [Hg ->]; [|lia].
    pose proof (times_len _ _ _ _ _ _ H) as Lg.
    assert (Rg : 0 <= ng < 2 ^ 32) by (eapply u32_range; eassumption).
    apply (times_ok readGroup 12 (fun d p x => u32at d p = Some (fst (fst x)) /\ u32at d (p + 4) = Some (snd (fst x)) /\ u32at d (p + 8) = Some (snd x))) in H as [-> H];
      [|lia|apply readGroup_ok|lia].
    exists base, ng. split.
    { assert (Hi : (i < List.length encs)%nat) by (apply nth_error_Some; congruence).
      exists (e_offset e), (e_length e), n, (Z.of_nat i), o. split; [apply D; [reflexivity|exact F]|]. split; [exact Hn|]. split; [lia|].
      split; [exact (He i _ Fi)|]. split; [reflexivity|]. intros j o' Hj Rj.
      destruct (nth_error encs (Z.to_nat j)) as [[[p2 e2] o2]|] eqn:Ej; [|apply nth_error_None in Ej; lia].
      pose proof (He _ _ Ej) as (R1 & R2 & R3). cbn [fst snd] in *. rewrite Z2Nat.id in R1, R2, R3 by lia.
      destruct Rj as (S1 & S2 & S3). rewrite R1 in S1. rewrite R2 in S2. injection S1 as ->. injection S2 as ->.
      apply (Fj (Z.to_nat j) o2); [lia|exact Ej]. }
    split; [replace (base + 12) with (base + 2 + 2 + 4 + 4) by lia; exact Hg|]. split; [exact Hf|]. split; [unfold zlen; lia|].
    intros j Hj. cbv zeta. specialize (H (Z.to_nat j) (nth (Z.to_nat j) gs (0, 0, 0))). rewrite Z2Nat.id in H by lia.
    unfold f12_group. replace (base + 16 + 12 * j) with (base + 2 + 2 + 4 + 4 + 4 + 12 * j) by lia. apply H. apply nth_error_nth'. lia.
  - left. apply pret_ok in H as [-> ->]. exists e, n. split; [exact F|]. split; [exact Hn|]. split; [reflexivity|].
    intros i o Hi Ri. destruct (nth_error encs (Z.to_nat i)) as [[[p2 e2] o2]|] eqn:Ej; [|apply nth_error_None in Ej; lia].
    pose proof (He _ _ Ej) as (R1 & R2 & R3). cbn [fst snd] in *. rewrite Z2Nat.id in R1, R2, R3 by lia.
    destruct Ri as (S1 & S2 & S3). rewrite R1 in S1. rewrite R2 in S2. injection S1 as ->. injection S2 as ->.
    apply (FS (Z.to_nat i) o2). exact Ej.
Qed.
