(** FontOutProofs.v — lemmas about the buffer, the glyph closure and the glyf/loca subsetting. *)
From Verif Require Import Base TtfModel TtfSpec TtfProofs SubsetModel PropTtf FontOutModel FontOutSpec.

(** ** Byte positions *)
Lemma u8at_app_l a b i : i < zlen a -> u8at (a ++ b) i = u8at a i.
Proof. intros H. unfold u8at. destruct (i <? 0) eqn:E; [reflexivity|]. apply nth_error_app1. unfold zlen in H. lia. Qed.
Lemma u8at_app_r a b i : 0 <= i -> u8at (a ++ b) (zlen a + i) = u8at b i.
Proof.
  intros H. unfold u8at. pose proof (zlen_nonneg a). destruct (zlen a + i <? 0) eqn:E; [lia|]. destruct (i <? 0) eqn:E2; [lia|].
  rewrite nth_error_app2 by (unfold zlen in *; lia). f_equal. unfold zlen in *. lia.
Qed.
Lemma u8at_app a b i : u8at (a ++ b) i = if i <? zlen a then u8at a i else u8at b (i - zlen a).
Proof.
  destruct (i <? zlen a) eqn:E; [apply u8at_app_l; lia|]. replace i with (zlen a + (i - zlen a)) at 1 by lia. apply u8at_app_r. lia.
Qed.
Lemma u8at_some d i v : u8at d i = Some v -> 0 <= i < zlen d.
Proof.
  unfold u8at. destruct (i <? 0) eqn:E; [discriminate|]. intros H. assert (Z.to_nat i < List.length d)%nat by (apply nth_error_Some; congruence).
  unfold zlen. lia.
Qed.
Lemma u8at_in d i : 0 <= i < zlen d -> exists v, u8at d i = Some v.
Proof.
  intros H. unfold u8at. destruct (i <? 0) eqn:E; [lia|]. destruct (nth_error d (Z.to_nat i)) eqn:N; [eauto|].
  apply nth_error_None in N. unfold zlen in H. lia.
Qed.
Lemma u8at_out d i : zlen d <= i -> u8at d i = None.
Proof. intros H. destruct (u8at d i) eqn:E; [|reflexivity]. apply u8at_some in E. lia. Qed.
Lemma u8at_neg d i : i < 0 -> u8at d i = None.
Proof. intros H. destruct (u8at d i) eqn:E; [|reflexivity]. apply u8at_some in E. lia. Qed.
Lemma u8at_ext a b : (forall i, u8at a i = u8at b i) -> a = b.
Proof.
  revert b. induction a as [|x a IH]; intros [|y b] H.
  - reflexivity.
  - specialize (H 0). discriminate.
  - specialize (H 0). discriminate.
  - assert (x = y) by (specialize (H 0); cbn in H; congruence). subst y. f_equal. apply IH. intros i.
    destruct (Z.ltb_spec i 0); [now rewrite !u8at_neg by lia|].
    specialize (H (1 + i)). change (x :: a) with ([x] ++ a) in H. change (x :: b) with ([x] ++ b) in H.
    change 1 with (zlen [x]) in H. now rewrite !u8at_app_r in H by lia.
Qed.
Lemma zlen_firstn {A} (l : list A) n : 0 <= n <= zlen l -> zlen (firstn (Z.to_nat n) l) = n.
Proof. intros H. unfold zlen in *. rewrite firstn_length. lia. Qed.
Lemma zlen_skipn {A} (l : list A) n : 0 <= n <= zlen l -> zlen (skipn (Z.to_nat n) l) = zlen l - n.
Proof. intros H. unfold zlen in *. rewrite skipn_length. lia. Qed.
Lemma zlen_repeat {A} (x : A) n : zlen (repeat x n) = Z.of_nat n.
Proof. unfold zlen. now rewrite repeat_length. Qed.
Lemma nth_error_firstn {A} (l : list A) : forall n i, nth_error (firstn n l) i = if (i <? n)%nat then nth_error l i else None.
Proof.
  induction l as [|x l IH]; intros [|n] [|i]; cbn [firstn nth_error]; try reflexivity.
  - destruct (S i <? S n)%nat; reflexivity.
  - rewrite IH. reflexivity.
Qed.
Lemma u8at_firstn l n i : 0 <= n -> u8at (firstn (Z.to_nat n) l) i = if i <? n then u8at l i else None.
Proof.
  intros H. unfold u8at. destruct (i <? 0) eqn:E; [destruct (i <? n); reflexivity|].
  destruct (i <? n) eqn:F.
  - rewrite nth_error_firstn. destruct (Nat.ltb_spec (Z.to_nat i) (Z.to_nat n)); [reflexivity|lia].
  - rewrite nth_error_firstn. destruct (Nat.ltb_spec (Z.to_nat i) (Z.to_nat n)); [lia|reflexivity].
Qed.
Lemma u8at_skipn l n i : 0 <= n -> 0 <= i -> u8at (skipn (Z.to_nat n) l) i = u8at l (n + i).
Proof.
  intros H1 H2. unfold u8at. destruct (i <? 0) eqn:E; [lia|]. destruct (n + i <? 0) eqn:F; [lia|].
  rewrite skipn_nth_error. f_equal. lia.
Qed.
Lemma u8at_repeat x n i : u8at (repeat x n) i = if (0 <=? i) && (i <? Z.of_nat n) then Some x else None.
Proof.
  destruct ((0 <=? i) && (i <? Z.of_nat n)) eqn:E.
  - unfold u8at. destruct (i <? 0) eqn:F; [lia|]. apply nth_error_repeat. lia.
  - destruct (u8at (repeat x n) i) eqn:F; [|reflexivity]. apply u8at_some in F. rewrite zlen_repeat in F. lia.
Qed.

(** ** Buffer *)
Lemma grow_eq k : forall l, grow k l = l ++ repeat 0 k.
Proof. induction k as [|k IH]; intros l; cbn; [now rewrite app_nil_r|]. rewrite IH, <- app_assoc. reflexivity. Qed.
Lemma setz_ok l i v l' : setz l i v = Some l' -> 0 <= i < zlen l /\ l' = firstn (Z.to_nat i) l ++ v :: skipn (Z.to_nat (i + 1)) l.
Proof.
  unfold setz. destruct ((0 <=? i) && (i <? zlen l)) eqn:E; [|discriminate]. intros H. split; [lia|].
  replace (Z.to_nat (i + 1)) with (S (Z.to_nat i)) by lia. congruence.
Qed.
Lemma setz_in l i v : 0 <= i < zlen l -> setz l i v = Some (firstn (Z.to_nat i) l ++ v :: skipn (Z.to_nat (i + 1)) l).
Proof.
  intros H. unfold setz. destruct ((0 <=? i) && (i <? zlen l)) eqn:E; [|lia]. replace (Z.to_nat (i + 1)) with (S (Z.to_nat i)) by lia. reflexivity.
Qed.
Lemma putLoop_ok p : forall l pos l', putLoop l pos p = Some l' -> p <> [] -> 0 <= pos /\ pos + zlen p <= zlen l.
Proof.
  induction p as [|x p IH]; intros l pos l' H NE; [congruence|]. cbn [putLoop] in H.
  destruct (setz l pos x) as [l1|] eqn:S; [|discriminate]. apply setz_ok in S as [B ->].
  rewrite zlen_cons. destruct p as [|y p]; [cbn; unfold zlen in *; cbn; lia|].
  destruct (IH _ _ _ H) as [_ Q]; [discriminate|]. rewrite zlen_app, !zlen_cons, zlen_firstn, zlen_skipn in Q by lia. rewrite !zlen_cons. lia.
Qed.
Lemma putLoop_in p : forall l pos, 0 <= pos -> pos + zlen p <= zlen l ->
  putLoop l pos p = Some (firstn (Z.to_nat pos) l ++ p ++ skipn (Z.to_nat (pos + zlen p)) l).
Proof.
  induction p as [|x p IH]; intros l pos H1 H2.
  - cbn [putLoop]. rewrite zlen_nil in *. rewrite Z.add_0_r. cbn [app]. now rewrite firstn_skipn.
  - cbn [putLoop]. rewrite zlen_cons in *. pose proof (zlen_nonneg p).
    rewrite setz_in by lia. set (l1 := firstn (Z.to_nat pos) l ++ x :: skipn (Z.to_nat (pos + 1)) l).
    assert (L : zlen l1 = zlen l) by (unfold l1; rewrite zlen_app, zlen_cons, zlen_firstn, zlen_skipn by lia; lia).
    rewrite IH by lia. f_equal. apply u8at_ext. intros i.
    assert (U : forall j, j <> pos -> u8at l1 j = u8at l j).
    { intros j Hj. unfold l1. rewrite u8at_app, zlen_firstn by lia. destruct (j <? pos) eqn:E; [rewrite u8at_firstn by lia; now rewrite E|].
      change (x :: skipn (Z.to_nat (pos + 1)) l) with ([x] ++ skipn (Z.to_nat (pos + 1)) l). rewrite u8at_app.
      change (zlen [x]) with 1. destruct (j - pos <? 1) eqn:F; [lia|]. rewrite u8at_skipn by lia. f_equal. lia. }
    assert (U2 : u8at l1 pos = Some x).
    { unfold l1. rewrite u8at_app, zlen_firstn by lia. destruct (pos <? pos) eqn:E; [lia|]. now replace (pos - pos) with 0 by lia. }
    rewrite !u8at_app, !zlen_firstn by lia.
    change (x :: p) with ([x] ++ p). rewrite !zlen_app. change (zlen [x]) with 1.
    destruct (i <? pos) eqn:E1.
    + destruct (i <? pos + 1) eqn:E; [|lia]. rewrite !u8at_firstn by lia. rewrite E, E1. apply U. lia.
    + destruct (i <? pos + 1) eqn:E2.
      * assert (i = pos) by lia. subst i. replace (pos - pos) with 0 by lia. destruct (0 <? 1 + zlen p) eqn:E3; [|lia].
        rewrite u8at_firstn by lia. rewrite E2. exact U2.
      * rewrite u8at_app. change (zlen [x]) with 1.
        destruct (i - (pos + 1) <? zlen p) eqn:E3.
        -- destruct (i - pos <? 1 + zlen p) eqn:E4; [|lia]. destruct (i - pos <? 1) eqn:E5; [lia|]. f_equal. lia.
        -- destruct (i - pos <? 1 + zlen p) eqn:E4; [lia|]. rewrite !u8at_skipn by lia. rewrite U by lia. f_equal. lia.
Qed.
Definition padto (n : Z) (l : bytes) : bytes := l ++ repeat 0 (Z.to_nat (n - zlen l)).
Lemma zlen_padto n l : zlen (padto n l) = Z.max (zlen l) n.
Proof. unfold padto. rewrite zlen_app, zlen_repeat. lia. Qed.
Lemma bwrite_eq b p : 0 <= b_pos b ->
  bwrite b p = Some {| b_pos := b_pos b + zlen p;
    b_data := firstn (Z.to_nat (b_pos b)) (padto (b_pos b + zlen p) (b_data b)) ++ p ++
              skipn (Z.to_nat (b_pos b + zlen p)) (padto (b_pos b + zlen p) (b_data b)) |}.
Proof.
  intros H. pose proof (zlen_nonneg p). unfold bwrite. rewrite grow_eq. fold (padto (b_pos b + zlen p) (b_data b)).
  rewrite putLoop_in; [reflexivity|exact H|]. rewrite zlen_padto. lia.
Qed.

(** ** Reading words *)
Lemma slice_full_u16 full off s : goslice full off 2 = Some s -> exists v, u16at full off = Some v /\ be s = v.
Proof.
  unfold goslice. destruct ((0 <=? off) && (0 <=? 2) && (off + 2 <=? zlen full)) eqn:E; [|discriminate]. intros H. injection H as <-.
  assert (L : zlen (slice full off 2) = 2) by (unfold slice, zlen in *; rewrite firstn_length, skipn_length; lia).
  pose proof (slice_nth full off 2 0 ltac:(lia) ltac:(lia)) as A. pose proof (slice_nth full off 2 1 ltac:(lia) ltac:(lia)) as B.
  destruct (slice full off 2) as [|a [|b [|c r]]] eqn:S; try (unfold zlen in L; cbn in L; lia).
  cbn in A, B. rewrite Z.add_0_r in A. exists (256 * a + b). split; [|apply be2]. unfold u16at. now rewrite <- A, <- B.
Qed.
Lemma rdU16_ok full off v : rdU16 full off = Some v <-> u16at full off = Some v.
Proof.
  unfold rdU16. split.
  - destruct (goslice full off 2) as [s|] eqn:E; [|discriminate]. apply slice_full_u16 in E as (w & H & B). congruence.
  - intros H. assert (R : 0 <= off /\ off + 2 <= zlen full).
    { unfold u16at in H. destruct (u8at full off) eqn:A; [|discriminate]. destruct (u8at full (off + 1)) eqn:B; [|discriminate].
      apply u8at_some in A. apply u8at_some in B. lia. }
    assert (G : goslice full off 2 = Some (slice full off 2)) by (unfold goslice; destruct ((0 <=? off) && (0 <=? 2) && (off + 2 <=? zlen full)) eqn:E; [reflexivity|lia]).
    rewrite G. apply slice_full_u16 in G as (w & W & B). congruence.
Qed.
Lemma u16at_some d p v : u16at d p = Some v -> 0 <= p /\ p + 2 <= zlen d.
Proof.
  unfold u16at. destruct (u8at d p) eqn:A; [|discriminate]. destruct (u8at d (p + 1)) eqn:B; [|discriminate].
  apply u8at_some in A. apply u8at_some in B. lia.
Qed.
Lemma u16at_app_l a b i v : u16at a i = Some v -> u16at (a ++ b) i = Some v.
Proof. intros H. pose proof (u16at_some _ _ _ H). unfold u16at in *. now rewrite !u8at_app_l by lia. Qed.
(** Words inside a piece of a file. *)
Lemma bytes_at_u8 d p s i v : bytes_at d p s -> u8at s i = Some v -> u8at d (p + i) = Some v.
Proof.
  intros [P H] U. pose proof (u8at_some _ _ _ U). rewrite H by lia. unfold u8at in U. destruct (i <? 0) eqn:E; [lia|exact U].
Qed.
Lemma bytes_at_u16 d p s i v : bytes_at d p s -> u16at s i = Some v -> u16at d (p + i) = Some v.
Proof.
  intros B U. unfold u16at in *. destruct (u8at s i) eqn:U1; [|discriminate]. destruct (u8at s (i + 1)) eqn:U2; [|discriminate].
  rewrite (bytes_at_u8 _ _ _ _ _ B U1). replace (p + i + 1) with (p + (i + 1)) by lia. now rewrite (bytes_at_u8 _ _ _ _ _ B U2).
Qed.

(** ** The glyph closure *)
Lemma land_bit x n : 0 <= n -> (Z.land x (2 ^ n) =? 0) = negb (Z.testbit x n).
Proof.
  intros H. rewrite <- Z.eqb_sym. destruct (Z.testbit x n) eqn:E; cbn [negb].
  - apply Z.eqb_neq. intros K. assert (T : Z.testbit (Z.land x (2 ^ n)) n = true).
    { rewrite Z.land_spec, E, Z.pow2_bits_true by exact H. reflexivity. }
    rewrite <- K, Z.bits_0 in T. discriminate.
  - apply Z.eqb_eq. symmetry. apply Z.bits_inj'. intros k Hk. rewrite Z.land_spec, Z.bits_0.
    destruct (Z.eq_dec k n) as [->|N]; [rewrite E; reflexivity|]. rewrite Z.pow2_bits_false by lia. now rewrite andb_false_r.
Qed.
Lemma argBytes_spec fl : one_scale fl -> argBytes fl = arg_size fl.
Proof.
  unfold one_scale, argBytes, arg_size. intros H.
  change 1 with (2 ^ 0). change 8 with (2 ^ 3) at 1. change 64 with (2 ^ 6). change 128 with (2 ^ 7).
  rewrite !land_bit by lia. destruct (Z.testbit fl 7), (Z.testbit fl 3), (Z.testbit fl 6), (Z.testbit fl 0); cbn [negb]; try reflexivity;
    exfalso; apply H; auto.
Qed.
Lemma arg_size_pos fl : 2 <= arg_size fl.
Proof. unfold arg_size. destruct (Z.testbit fl 0), (Z.testbit fl 3), (Z.testbit fl 6), (Z.testbit fl 7); lia. Qed.

Lemma addOnce_in arr c x : In x (addOnce arr c) <-> In x arr \/ x = c.
Proof.
  unfold addOnce. destruct (existsb (Z.eqb c) arr) eqn:E.
  - apply existsb_exists in E as (y & I & Q). apply Z.eqb_eq in Q. subst y. split; [tauto|intros [?| ->]; assumption].
  - rewrite in_app_iff. cbn. intuition.
Qed.
Section Closure.
  Variables (d spare : bytes) (f : ttf).
  Let full := d ++ spare.
  (** The loop follows the component records exactly. *)
  Lemma compLoop_comps base data : bytes_at d base data -> forall p cs, components data p cs -> forall fuel arr, 0 <= p -> zlen full - (base + p) < Z.of_nat fuel ->
    exists arr', compLoop d spare fuel (base + p) arr = Some arr' /\ forall x, In x arr' <-> In x arr \/ In x cs.
  Proof.
    intros BA p cs H. induction H as [p fl c U1 U2 O5 T|p fl c l U1 U2 O5 T H IH]; intros fuel arr P F.
    - destruct fuel as [|k]; [pose proof (u16at_some _ _ _ (bytes_at_u16 _ _ _ _ _ BA U1)); unfold full in F; rewrite zlen_app in F; pose proof (zlen_nonneg spare); lia|].
      cbn [compLoop]. pose proof (bytes_at_u16 _ _ _ _ _ BA U1) as V1. pose proof (bytes_at_u16 _ _ _ _ _ BA U2) as V2.
      rewrite Z.add_assoc in V2. apply (u16at_app_l _ spare) in V1. apply (u16at_app_l _ spare) in V2.
      apply rdU16_ok in V1. apply rdU16_ok in V2. rewrite V1, V2. cbv zeta. change 32 with (2 ^ 5). rewrite land_bit by lia. rewrite T.
      eexists. split; [reflexivity|]. intros x. rewrite addOnce_in. cbn. intuition.
    - destruct fuel as [|k]; [pose proof (u16at_some _ _ _ (bytes_at_u16 _ _ _ _ _ BA U1)); unfold full in F; rewrite zlen_app in F; pose proof (zlen_nonneg spare); lia|].
      cbn [compLoop]. pose proof (bytes_at_u16 _ _ _ _ _ BA U1) as V1. pose proof (bytes_at_u16 _ _ _ _ _ BA U2) as V2.
      rewrite Z.add_assoc in V2. apply (u16at_app_l _ spare) in V1. apply (u16at_app_l _ spare) in V2.
      apply rdU16_ok in V1. apply rdU16_ok in V2. rewrite V1, V2. cbv zeta. change 32 with (2 ^ 5). rewrite land_bit by lia. rewrite T.
      cbn [negb]. rewrite argBytes_spec by exact O5. pose proof (arg_size_pos fl).
      destruct (IH k (addOnce arr c)) as (arr' & E & I); [lia|lia|].
      replace (base + p + 4 + arg_size fl) with (base + (p + 4 + arg_size fl)) by lia. exists arr'. split; [exact E|].
      intros x. rewrite I, addOnce_in. cbn. intuition.
  Qed.
  Lemma closure_mono g arr arr' : addComposite d spare f arr g = Some arr' -> forall x, In x arr -> In x arr'.
  Proof.
    unfold addComposite. destruct (getOffset f g); [|discriminate]. destruct (getOffset f (g + 1)); [|discriminate].
    destruct (z =? z0); [intros H; injection H as <-; auto|]. destruct (rdS16 (d ++ spare) z); [|discriminate].
    destruct (0 <=? z1); [intros H; injection H as <-; auto|]. generalize (S (List.length (d ++ spare))), (z + 10).
    intros n. revert arr. induction n as [|n IH]; intros arr o H x I; [discriminate|]. cbn [compLoop] in H.
    destruct (rdU16 (d ++ spare) o); [|discriminate]. destruct (rdU16 (d ++ spare) (o + 2)); [|discriminate]. cbv zeta in H.
    destruct (Z.land z2 32 =? 0); [injection H as <-; apply addOnce_in; now left|]. eapply IH; [exact H|]. apply addOnce_in. now left.
  Qed.
End Closure.

(** ** Sorting *)
Lemma insertZ_in x l y : In y (insertZ x l) <-> y = x \/ In y l.
Proof.
  induction l as [|z l IH]; cbn; [intuition|]. destruct (x <=? z); cbn; [intuition|]. rewrite IH. intuition.
Qed.
Lemma sortZ_in l y : In y (sortZ l) <-> In y l.
Proof. unfold sortZ. induction l as [|x l IH]; cbn; [tauto|]. rewrite insertZ_in, IH. intuition. Qed.
Inductive sorted : list Z -> Prop :=
| so_nil : sorted [] | so_cons x l : (forall y, In y l -> x <= y) -> sorted l -> sorted (x :: l).
Lemma insertZ_sorted x l : sorted l -> sorted (insertZ x l).
Proof.
  induction 1 as [|y l H S IH]; cbn; [constructor; [intros ? []|constructor]|]. destruct (Z.leb_spec x y).
  - constructor; [|now constructor]. intros z [<-|I]; [lia|]. specialize (H z I). lia.
  - constructor; [|exact IH]. intros z I. apply insertZ_in in I as [->|I]; [lia|now apply H].
Qed.
Lemma sortZ_sorted l : sorted (sortZ l).
Proof. unfold sortZ. induction l; cbn; [constructor|now apply insertZ_sorted]. Qed.
(** Strictly increasing. *)
Inductive sincr : list Z -> Prop :=
| si_nil : sincr [] | si_cons x l : (forall y, In y l -> x < y) -> sincr l -> sincr (x :: l).
Lemma distinct_spec l : forall prev, sorted l -> (forall y, In y l -> prev <= y) ->
  sincr (distinct prev l) /\ (forall y, In y (distinct prev l) <-> In y l /\ y <> prev) .
Proof.
  induction l as [|g l IH]; intros prev S B; cbn [distinct].
  - split; [constructor|]. intros y. cbn. tauto.
  - inversion S as [|? ? L S']; subst. destruct (Z.eqb_spec g prev) as [->|N].
    + destruct (IH prev S') as [A I]; [intros y Hy; apply B; now right|]. split; [exact A|]. intros y. rewrite I. cbn. intuition congruence.
    + destruct (IH g S' L) as [A I]. specialize (B g (or_introl eq_refl)) as Bg. split.
      * constructor; [|exact A]. intros y Hy. apply I in Hy as [H1 H2]. specialize (L y H1). lia.
      * intros y. cbn. rewrite I. split.
        -- intros [<-|[H1 H2]]; [split; [now left|lia]|]. split; [now right|]. specialize (L y H1). lia.
        -- intros [[H1|H1] H2]; [now left|]. destruct (Z.eq_dec y g) as [->|N2]; [now left|]. right. split; assumption.
Qed.

(** ** glyf and loca *)
Fixpoint offs (off : Z) (ds : list bytes) : list Z :=
  match ds with [] => [off] | dt :: r => off :: offs (off + zlen dt) r end.
Lemma offs_len ds : forall off, List.length (offs off ds) = S (List.length ds).
Proof. induction ds as [|x ds IH]; intros off; cbn; [reflexivity|]. now rewrite IH. Qed.
Lemma offs_nth ds : forall off i, (i <= List.length ds)%nat -> nth_error (offs off ds) i = Some (off + zlen (List.concat (firstn i ds))).
Proof.
  induction ds as [|x ds IH]; intros off i H.
  - assert (i = 0)%nat by (cbn in H; lia). subst i. cbn. f_equal. unfold zlen. cbn. lia.
  - destruct i as [|i]; cbn [offs nth_error firstn List.concat]; [rewrite zlen_nil; f_equal; lia|].
    rewrite IH by (cbn in H; lia). f_equal. rewrite zlen_app. lia.
Qed.
Lemma glyfLoop_spec d f k : forall idx gs old off tab t l, sincr gs -> (forall y, In y gs -> idx <= y) -> (forall y, In y gs -> old < y) ->
  0 <= off <= zlen tab -> glyfLoop d f k idx gs old off tab = Some (t, l) ->
  exists ds, List.length ds = k /\
    (forall i dt, nth_error ds i = Some dt ->
       (In (idx + Z.of_nat i) gs -> glyphBytes d f (idx + Z.of_nat i) = Some dt) /\ (~ In (idx + Z.of_nat i) gs -> dt = [])) /\
    l = offs off ds /\ off + zlen (List.concat ds) <= zlen tab /\
    t = firstn (Z.to_nat off) tab ++ List.concat ds ++ skipn (Z.to_nat (off + zlen (List.concat ds))) tab.
Proof.
  induction k as [|k IH]; intros idx gs old off tab t l SI GE OL OB H.
  - cbn [glyfLoop] in H. injection H as <- <-. exists []. split; [reflexivity|]. split; [intros [|i] dt Hn; discriminate|].
    split; [reflexivity|]. cbn [List.concat]. rewrite zlen_nil, Z.add_0_r. split; [lia|]. cbn [app]. symmetry. apply firstn_skipn.
  - cbn [glyfLoop] in H. cbv zeta in H.
    assert (SKIP : ~ In idx gs ->
       match glyfLoop d f k (idx + 1) gs old off tab with Some (t0, l0) => Some (t0, off :: l0) | None => None end = Some (t, l) ->
       exists ds, List.length ds = S k /\
    (forall i dt, nth_error ds i = Some dt ->
       (In (idx + Z.of_nat i) gs -> glyphBytes d f (idx + Z.of_nat i) = Some dt) /\ (~ In (idx + Z.of_nat i) gs -> dt = [])) /\
    l = offs off ds /\ off + zlen (List.concat ds) <= zlen tab /\
    t = firstn (Z.to_nat off) tab ++ List.concat ds ++ skipn (Z.to_nat (off + zlen (List.concat ds))) tab).
    { intros NI HC. destruct (glyfLoop d f k (idx + 1) gs old off tab) as [[t0 l0]|] eqn:G; [|discriminate]. injection HC as <- <-.
      apply IH in G as (ds & L & D & E1 & E2 & E3); [|exact SI| |exact OL|exact OB].
      - exists ([] :: ds). split; [cbn; congruence|]. split.
        + intros [|i] dt Hn; cbn in Hn.
          * injection Hn as <-. cbn [Z.of_nat]. rewrite Z.add_0_r. split; [contradiction|reflexivity].
          * replace (idx + Z.of_nat (S i)) with (idx + 1 + Z.of_nat i) by lia. now apply D.
        + cbn [offs List.concat app]. rewrite zlen_nil, Z.add_0_r. split; [now rewrite E1|]. split; assumption.
      - intros y Hy. specialize (GE y Hy). assert (y <> idx) by congruence. lia. }
    destruct gs as [|g gs]; [apply SKIP; [intros []|exact H]|].
    destruct (Z.eqb_spec g idx) as [->|NG].
    + destruct (glyphBytes d f idx) as [dt|] eqn:GB; [|discriminate]. destruct (putLoop tab off dt) as [tab'|] eqn:PL; [|discriminate].
      destruct (glyfLoop d f k (idx + 1) gs idx (off + zlen dt) tab') as [[t0 l0]|] eqn:G; [|discriminate]. injection H as <- <-.
      assert (BD : off + zlen dt <= zlen tab).
      { destruct dt as [|x dt]; [rewrite zlen_nil; lia|]. apply putLoop_ok in PL; [lia|discriminate]. }
      pose proof (zlen_nonneg dt) as NN. rewrite putLoop_in in PL by lia. injection PL as <-.
      inversion SI as [|? ? LT SI']; subst.
      assert (ZT : zlen (firstn (Z.to_nat off) tab ++ dt ++ skipn (Z.to_nat (off + zlen dt)) tab) = zlen tab).
      { rewrite !zlen_app, zlen_firstn, zlen_skipn by lia. lia. }
      apply IH in G as (ds & L & D & E1 & E2 & E3); [|exact SI'| | |rewrite ZT; lia].
      * exists (dt :: ds). split; [cbn; congruence|]. split.
        -- intros [|i] x Hn; cbn in Hn.
           ++ injection Hn as <-. cbn [Z.of_nat]. rewrite Z.add_0_r. split; [intros _; exact GB|]. intros NI. exfalso. apply NI. now left.
           ++ replace (idx + Z.of_nat (S i)) with (idx + 1 + Z.of_nat i) by lia. destruct (D _ _ Hn) as [D1 D2]. split.
              ** intros [Q|Q]; [lia|now apply D1].
              ** intros NI. apply D2. intros Q. apply NI. now right.
        -- cbn [offs List.concat]. rewrite zlen_app. rewrite ZT in E2. split; [now rewrite E1|]. split; [lia|].
           rewrite E3. set (X := List.concat ds) in *. pose proof (zlen_nonneg X) as NX.
           set (tab' := firstn (Z.to_nat off) tab ++ dt ++ skipn (Z.to_nat (off + zlen dt)) tab) in *.
           assert (F1 : firstn (Z.to_nat (off + zlen dt)) tab' = firstn (Z.to_nat off) tab ++ dt).
           { unfold tab'. rewrite app_assoc. rewrite firstn_app.
             assert (LL : List.length (firstn (Z.to_nat off) tab ++ dt) = Z.to_nat (off + zlen dt)).
             { pose proof (zlen_firstn tab off OB) as Q. pose proof (zlen_app (firstn (Z.to_nat off) tab) dt) as Q2. rewrite Q in Q2. unfold zlen in Q2 at 1. lia. }
             rewrite LL, Nat.sub_diag. cbn [firstn]. rewrite app_nil_r. rewrite <- LL. apply firstn_all. }
           assert (F2 : skipn (Z.to_nat (off + zlen dt + zlen X)) tab' = skipn (Z.to_nat (off + (zlen dt + zlen X))) tab).
           { apply u8at_ext. intros i. destruct (Z.ltb_spec i 0); [now rewrite !u8at_neg by lia|]. rewrite !u8at_skipn by lia.
             unfold tab'. rewrite !u8at_app. rewrite zlen_firstn by lia. destruct (off + zlen dt + zlen X + i <? off) eqn:C1; [lia|].
             destruct (off + zlen dt + zlen X + i - off <? zlen dt) eqn:C2; [lia|]. rewrite u8at_skipn by lia. f_equal. lia. }
           rewrite F1, F2, <- !app_assoc. reflexivity.
      * intros y Hy. specialize (LT y Hy). lia.
      * exact LT.
    + destruct (Z.eqb_spec old g) as [->|NO]; [exfalso; specialize (OL g (or_introl eq_refl)); lia|].
      apply SKIP; [|exact H]. intros [Q|Q]; [congruence|]. inversion SI as [|? ? LT _]; subst. specialize (LT idx Q). specialize (GE g (or_introl eq_refl)). lia.
Qed.

(** ** The table directory *)
Lemma bwrite_at A old B p : zlen old = zlen p ->
  bwrite {| b_pos := zlen A; b_data := A ++ old ++ B |} p = Some {| b_pos := zlen A + zlen p; b_data := A ++ p ++ B |}.
Proof.
  intros L. pose proof (zlen_nonneg A). pose proof (zlen_nonneg B). pose proof (zlen_nonneg p). rewrite bwrite_eq by (cbn; lia). cbn [b_pos b_data]. f_equal. f_equal.
  assert (PD : padto (zlen A + zlen p) (A ++ old ++ B) = A ++ old ++ B).
  { unfold padto. rewrite !zlen_app. replace (Z.to_nat _) with 0%nat by lia. cbn [repeat]. now rewrite app_nil_r. }
  rewrite PD. f_equal; [|f_equal].
  - unfold zlen. rewrite Nat2Z.id, firstn_app, Nat.sub_diag. cbn [firstn]. rewrite app_nil_r. apply firstn_all.
  - rewrite app_assoc, <- L, <- zlen_app. unfold zlen. rewrite Nat2Z.id, skipn_app, Nat.sub_diag. cbn [skipn]. now rewrite skipn_all.
Qed.
Lemma bwrite_end b p n : 0 <= n -> zlen (padto n (b_data b)) = b_pos b -> 
  bwrite b p = Some {| b_pos := b_pos b + zlen p; b_data := padto n (b_data b) ++ p |}.
Proof.
  intros N L. pose proof (zlen_nonneg p). pose proof L as L'. rewrite zlen_padto in L'. rewrite bwrite_eq by lia. f_equal. f_equal.
  assert (PD : padto (b_pos b + zlen p) (b_data b) = padto n (b_data b) ++ repeat 0 (Z.to_nat (zlen p))).
  { unfold padto. rewrite <- app_assoc, <- repeat_app. f_equal. f_equal. lia. }
  rewrite PD. rewrite <- L. f_equal.
  - unfold zlen at 1. rewrite Nat2Z.id, firstn_app, Nat.sub_diag. cbn [firstn]. rewrite app_nil_r. apply firstn_all.
  - assert (S : skipn (Z.to_nat (zlen (padto n (b_data b)) + zlen p)) (padto n (b_data b) ++ repeat 0 (Z.to_nat (zlen p))) = []).
    { apply skipn_all2. rewrite app_length, repeat_length. unfold zlen. lia. }
    rewrite S. apply app_nil_r.
Qed.
Notation outrow := (Z * Z * bytes)%type.
Definition entry16 (tag : bytes) (c off len : Z) : bytes := tag ++ u32bytes c ++ u32bytes off ++ u32bytes len.
Fixpoint dirEntries (tp : Z) (tags : list bytes) (outs : list outrow) : bytes :=
  match tags, outs with
  | tag :: r, (c, len, s) :: o => entry16 tag c tp len ++ dirEntries (tp + zlen s) r o
  | _, _ => []
  end.
Lemma fontLoop_spec d spare f gt loca H : zlen H = 12 -> forall tags idx b b' E T,
  (forall tag, In tag tags -> zlen tag = 4) ->
  0 <= idx -> idx + zlen tags <= 9 -> zlen E = 16 * idx ->
  padto 156 (b_data b) = H ++ E ++ repeat 0 (Z.to_nat (144 - 16 * idx)) ++ T ->
  fontLoop d spare f gt loca tags idx (156 + zlen T) b = Some b' ->
  exists outs, Forall2 (fun tag o => tableOut d spare f gt loca tag = Some o) tags outs /\
    padto 156 (b_data b') = H ++ E ++ dirEntries (156 + zlen T) tags outs ++ repeat 0 (Z.to_nat (144 - 16 * (idx + zlen tags))) ++ T ++ List.concat (map snd outs) /\
    (tags <> [] -> padto 156 (b_data b') = b_data b').
Proof.
  intros LH tags. induction tags as [|tag tags IH]; intros idx b b' E T T4 I0 I9 LE PD F.
  - cbn [fontLoop] in F. injection F as <-. exists []. split; [constructor|]. cbn [dirEntries map List.concat app]. change (zlen (@nil bytes)) with 0. rewrite Z.add_0_r, app_nil_r.
    split; [exact PD|congruence].
  - cbn [fontLoop] in F. destruct (tableOut d spare f gt loca tag) as [[[c len] s]|] eqn:TO; [|discriminate].
    rewrite zlen_cons in I9. pose proof (zlen_nonneg tags) as NT.
    assert (LP : zlen (padto 156 (b_data b)) = 156 + zlen T).
    { rewrite PD, !zlen_app, zlen_repeat. lia. }
    rewrite (bwrite_end _ s 156) in F by (try exact LP; lia). cbn [bseek b_pos b_data] in F. rewrite PD in F.
    assert (T4t : zlen tag = 4) by (apply T4; now left).
    assert (ZS : repeat 0 (Z.to_nat (144 - 16 * idx)) = repeat 0 4 ++ repeat 0 4 ++ repeat 0 4 ++ repeat 0 4 ++ repeat 0 (Z.to_nat (144 - 16 * (idx + 1)))).
    { rewrite <- !repeat_app. f_equal. lia. }
    rewrite ZS in F. set (Zs := repeat 0 (Z.to_nat (144 - 16 * (idx + 1)))) in *.
    set (z4 := repeat 0 4) in *. assert (Lz : zlen z4 = 4) by reflexivity.
    assert (Q1 : bwrite {| b_pos := idx * 16 + 12; b_data := (H ++ E ++ (z4 ++ z4 ++ z4 ++ z4 ++ Zs) ++ T) ++ s |} tag =
       Some {| b_pos := zlen (H ++ E) + 4; b_data := (H ++ E) ++ tag ++ (z4 ++ z4 ++ z4 ++ Zs ++ T ++ s) |}).
    { rewrite <- T4t. rewrite <- (bwrite_at (H ++ E) z4 (z4 ++ z4 ++ z4 ++ Zs ++ T ++ s) tag) by (rewrite T4t; exact Lz).
      f_equal. f_equal; [rewrite zlen_app; lia|]. rewrite <- !app_assoc. reflexivity. }
    unfold bseek in F; cbn [b_pos b_data] in F; rewrite Q1 in F. unfold writeUInt32 in F.
    assert (W : forall A B v, bwrite {| b_pos := zlen A; b_data := A ++ z4 ++ B |} (u32bytes v) = Some {| b_pos := zlen A + 4; b_data := A ++ u32bytes v ++ B |}).
    { intros A B v. rewrite bwrite_at by reflexivity. reflexivity. }
    replace (zlen (H ++ E) + 4) with (zlen ((H ++ E) ++ tag)) in F by (rewrite (zlen_app (H ++ E)); lia).
    rewrite (app_assoc (H ++ E) tag) in F. rewrite W in F.
    replace (zlen ((H ++ E) ++ tag) + 4) with (zlen (((H ++ E) ++ tag) ++ u32bytes c)) in F by (rewrite (zlen_app ((H ++ E) ++ tag)); reflexivity).
    rewrite (app_assoc ((H ++ E) ++ tag)) in F. rewrite W in F.
    replace (zlen (((H ++ E) ++ tag) ++ u32bytes c) + 4) with (zlen ((((H ++ E) ++ tag) ++ u32bytes c) ++ u32bytes (156 + zlen T))) in F
      by (rewrite (zlen_app (((H ++ E) ++ tag) ++ u32bytes c)); reflexivity).
    rewrite (app_assoc (((H ++ E) ++ tag) ++ u32bytes c)) in F. rewrite W in F.
    set (D5 := ((((H ++ E) ++ tag) ++ u32bytes c) ++ u32bytes (156 + zlen T)) ++ u32bytes len ++ Zs ++ T ++ s) in F.
    assert (ED : D5 = H ++ (E ++ entry16 tag c (156 + zlen T) len) ++ Zs ++ T ++ s) by (unfold D5, entry16; rewrite <- !app_assoc; reflexivity).
    assert (LD : zlen D5 = 156 + zlen T + zlen s).
    { rewrite ED. unfold entry16, Zs. rewrite !zlen_app, zlen_repeat. change (zlen (u32bytes c)) with 4. change (zlen (u32bytes (156 + zlen T))) with 4. change (zlen (u32bytes len)) with 4. lia. }
    assert (PD5 : padto 156 D5 = D5).
    { unfold padto. pose proof (zlen_nonneg T). pose proof (zlen_nonneg s). replace (Z.to_nat (156 - zlen D5)) with 0%nat by lia. apply app_nil_r. }
    replace (156 + zlen T + zlen s) with (156 + zlen (T ++ s)) in F by (rewrite zlen_app; lia).
    pose proof F as F0. apply (IH (idx + 1) _ _ (E ++ entry16 tag c (156 + zlen T) len) (T ++ s)) in F.
    + destruct F as (outs & F2 & P2 & P3). exists ((c, len, s) :: outs). split; [constructor; assumption|]. split.
      * rewrite P2. cbn [dirEntries map List.concat snd]. rewrite zlen_app. replace (156 + (zlen T + zlen s)) with (156 + zlen T + zlen s) by lia.
        rewrite zlen_cons. replace (idx + 1 + zlen tags) with (idx + (1 + zlen tags)) by lia. rewrite <- !app_assoc. reflexivity.
      * intros _. destruct tags as [|t2 tags]; [|apply P3; discriminate]. cbn [fontLoop] in F0. injection F0 as <-. cbn [b_data]. exact PD5.
    + intros t Ht. apply T4. now right.
    + lia.
    + lia.
    + rewrite zlen_app. unfold entry16. rewrite !zlen_app. change (zlen (u32bytes c)) with 4. change (zlen (u32bytes (156 + zlen T))) with 4. change (zlen (u32bytes len)) with 4. lia.
    + cbn [b_data]. rewrite PD5. exact ED.
Qed.
