(** PropChars.v — C25, the character list a parsed font exports (TTFParser.Chars): exactly the characters the segments of
    its (3,1) subtable map to a glyph other than 0. *)
From Verif Require Import Base SubsetModel TtfSpec TtfModel TtfProofs PropTtf.
Open Scope Z_scope.

(** ** Specification *)
(** Segment [seg] of the subtable maps character [c] to glyph [g] (OpenType cmap, format 4). *)
Definition seg_maps (d : bytes) (base n seg c g : Z) : Prop :=
  exists s e dl ro, f4_start d base n seg = Some s /\ f4_end d base seg = Some e /\ s <= c <= e /\
    f4_delta d base n seg = Some dl /\ f4_ro d base n seg = Some ro /\
    ((ro = 0 /\ g = (c + dl) mod 65536) \/
     (ro <> 0 /\ exists v, u16at d (f4_ro_pos base n seg + ro + 2 * (c - s)) = Some v /\ v <> 0 /\ g = (v + dl) mod 65536)).

(** ** Proof *)
Lemma fix_mod x : 0 <= x < 131072 -> fixGid x = x mod 65536.
Proof.
  intros R. unfold fixGid. destruct (Z.leb_spec 65536 x) as [L|L]; [|now rewrite Z.mod_small by lia].
  replace x with (x - 65536 + 1 * 65536) at 2 by ring. rewrite Z_mod_plus_full, Z.mod_small by lia. reflexivity.
Qed.
Lemma in_one (b : bool) (x c g h : Z) : In (x, g) (if b then [(c, h)] else []) <-> b = true /\ x = c /\ g = h.
Proof. destruct b; cbn; (split; [intros H; try contradiction; destruct H as [[= <- <-]|[]]; auto|intros (A & -> & ->); try discriminate A; now left]). Qed.
Lemma charsRange_in x g d k : forall c, In (x, g) (charsRange k c d) <-> c <= x < c + Z.of_nat k /\ g = fixGid (x + d) /\ 0 < g.
Proof.
  induction k as [|k IH]; intros c; cbn [charsRange]; [split; [contradiction|lia]|]. cbv zeta. rewrite in_app_iff, in_one, IH, Z.ltb_lt. split.
  - intros [(A & -> & ->)|(A & -> & B)]; (split; [lia|auto]).
  - intros (A & -> & B). destruct (Z.eq_dec x c) as [->|]; [left; auto|right; split; [lia|auto]].
Qed.
Lemma charsRead_in x g D d k : forall c pos l q, 0 <= pos -> charsRead k c d D pos = POk l q ->
  (In (x, g) l <-> c <= x < c + Z.of_nat k /\ exists v, u16at D (pos + 2 * (x - c)) = Some v /\ g = fixGid (if 0 <? v then v + d else v) /\ 0 < g).
Proof.
  induction k as [|k IH]; intros c pos l q P H; cbn [charsRead] in H; [apply pret_ok in H as [-> ->]; split; [contradiction|lia]|].
  apply pbind_ok in H as (g0 & r & H1 & H). apply readUShort_ok in H1 as [V ->]; [|exact P]. cbv zeta in H. apply pbind_ok in H as (m & r2 & H1 & H). apply pret_ok in H as [-> ->].
  rewrite in_app_iff, in_one, (IH (c + 1) (pos + 2) m r2 ltac:(lia) H1), Z.ltb_lt. split.
  - intros [(A & -> & ->)|(A & v & U & B)].
    + split; [lia|]. exists g0. replace (pos + 2 * (c - c)) with pos by lia. auto.
    + split; [lia|]. exists v. replace (pos + 2 * (x - c)) with (pos + 2 + 2 * (x - (c + 1))) by lia. auto.
  - intros (A & v & U & G & B). destruct (Z.eq_dec x c) as [->|].
    + left. replace (pos + 2 * (c - c)) with pos in U by lia. rewrite V in U. injection U as <-. rewrite <- G. auto.
    + right. split; [lia|]. exists v. replace (pos + 2 + 2 * (x - (c + 1))) with (pos + 2 * (x - c)) by lia. auto.
Qed.
Definition gives (D : bytes) (off i s e dl ro x g : Z) : Prop :=
  s <= x <= Z.min e 65534 /\ 0 < g /\
  ((ro <= 0 /\ g = fixGid (x + dl)) \/ (0 < ro /\ exists v, u16at D (off + 2 * i + ro + 2 * (x - s)) = Some v /\ g = fixGid (if 0 <? v then v + dl else v))).
Lemma parseChars_in x g D off starts : forall i ends deltas ros pos l q, parseChars i off starts ends deltas ros D pos = POk l q ->
  List.length ends = List.length starts -> List.length deltas = List.length starts -> List.length ros = List.length starts ->
  (In (x, g) l <-> exists j s e dl ro, nth_error starts j = Some s /\ nth_error ends j = Some e /\ nth_error deltas j = Some dl /\ nth_error ros j = Some ro /\
     gives D off (i + Z.of_nat j) s e dl ro x g).
Proof.
  induction starts as [|c1 starts IH]; intros i ends deltas ros pos l q H L1 L2 L3; cbn [parseChars] in H.
  { apply pret_ok in H as [-> ->]. split; [contradiction|]. intros ([|j] & s & e & dl & ro & A & _); discriminate A. }
  destruct ends as [|c2 ends]; [discriminate L1|]. destruct deltas as [|d deltas]; [discriminate L2|]. destruct ros as [|ro ros]; [discriminate L3|].
  injection L1 as L1. injection L2 as L2. injection L3 as L3.
  apply pbind_ok in H as (l1 & r & H1 & H). apply pbind_ok in H as (l2 & r2 & H2 & H). apply pret_ok in H as [-> ->].
  assert (X : In (x, g) l1 <-> gives D off (i + Z.of_nat 0) c1 c2 d ro x g).
  { unfold gives. replace (i + Z.of_nat 0) with i by lia. destruct (Z.ltb_spec 0 ro) as [R|R].
    - apply pbind_ok in H1 as (u & r0 & P1 & H1). apply pseek_ok in P1 as [P1 ->]. rewrite (charsRead_in x g D d _ _ _ _ _ P1 H1). unfold segChars. split.
      + intros (A & v & U & G & B). split; [lia|]. split; [exact B|]. right. split; [exact R|]. exists v. auto.
      + intros (A & B & [(C & _)|(_ & v & U & G)]); [lia|]. split; [lia|]. exists v. auto.
    - apply pret_ok in H1 as [-> ->]. rewrite charsRange_in. unfold segChars. split.
      + intros (A & G & B). split; [lia|]. split; [exact B|]. left. auto.
      + intros (A & B & [(_ & G)|(C & _)]); [|lia]. split; [lia|]. auto. }
  rewrite in_app_iff, X, (IH _ _ _ _ _ _ _ H2 L1 L2 L3). split.
  - intros [A|(j & s & e & dl & r1 & A1 & A2 & A3 & A4 & A)]; [exists 0%nat, c1, c2, d, ro; auto|]. exists (S j), s, e, dl, r1. cbn [nth_error]. replace (i + Z.of_nat (S j)) with (i + 1 + Z.of_nat j) by lia. auto.
  - intros ([|j] & s & e & dl & r1 & A1 & A2 & A3 & A4 & A); cbn [nth_error] in *; [left; injection A1 as ->; injection A2 as ->; injection A3 as ->; injection A4 as ->; exact A|].
    right. exists j, s, e, dl, r1. replace (i + 1 + Z.of_nat j) with (i + Z.of_nat (S j)) by lia. auto.
Qed.
(** Where the arrays end and the characters are read. *)
Lemma cmap4_chars t d q c ch q' : isbytes d -> zlen tag_cmap = 4 -> (forall tag e, zlen tag = 4 -> tfind t tag = Some e -> table_at d tag (e_offset e) (e_length e)) ->
  parseCmap4 t d q = POk (c, ch) q' ->
  exists base, subtable31 d base /\ exists pos, parseChars 0 (base + 16 + 6 * c_seg c) (c_start c) (c_end c) (c_delta c) (c_ro c) d pos = POk ch q'.
Proof.
  intros B T4 D H. unfold parseCmap4 in H. apply pbind_ok in H as (u & r & H1 & H). apply seekTag_ok in H1 as (e & F & -> & P).
  apply pbind_ok in H as (u2 & r & H1 & H). apply pskip_ok in H1 as [_ ->].
  apply pbind_ok in H as (n & r & H1 & H). apply readUShort_ok in H1 as [Hn ->]; [|lia].
  apply pbind_ok in H as (encs & r & He & H). pose proof (times_len _ _ _ _ _ _ He) as Le. apply encs_ok in He; [|exact P].
  cbv zeta in H. destruct (Z.eqb_spec (offset31 encs) 0) as [Z0|Z0]; [now apply perr_ok in H|].
  rewrite F in H.
  apply pbind_ok in H as (u3 & r2 & H1 & H). apply pseek_ok in H1 as [Pb ->].
  set (base := e_offset e + offset31 encs) in *.
  apply pbind_ok in H as (f & r2 & H1 & H). apply readUShort_ok in H1 as [Hf ->]; [|lia].
  destruct (Z.eqb_spec f 4) as [->|]; cbn [negb] in H; [|now apply perr_ok in H].
  apply pbind_ok in H as (len & r2 & H1 & H). apply readUShort_ok in H1 as [Hlen ->]; [|lia].
  apply pbind_ok in H as (u4 & r2 & H1 & H). apply pskip_ok in H1 as [_ ->].
  apply pbind_ok in H as (sc2 & r2 & H1 & H). apply readUShort_ok in H1 as [Hsc ->]; [|lia].
  cbv zeta in H. set (sc := sc2 / 2) in *.
  assert (R : 0 <= sc2 < 65536) by (eapply u16_range; eassumption).
  apply pbind_ok in H as (u5 & r2 & H1 & H). apply pskip_ok in H1 as [_ ->].
  apply pbind_ok in H as (ends & r2 & H1 & H). apply times_u16 in H1 as (-> & L1 & N1); [|lia].
  apply pbind_ok in H as (u6 & r2 & H1 & H). apply pskip_ok in H1 as [_ ->].
  apply pbind_ok in H as (starts & r2 & H1 & H). apply times_u16 in H1 as (-> & L2 & N2); [|lia].
  apply pbind_ok in H as (deltas & r2 & H1 & H). apply times_u16 in H1 as (-> & L3 & N3); [|lia].
  apply pbind_ok in H as (off2 & r2 & H1 & H). apply ptell_ok in H1 as [-> ->].
  apply pbind_ok in H as (ros & r2 & H1 & H). apply times_u16 in H1 as (-> & L4 & N4); [|lia].
  apply pbind_ok in H as (gids & r2 & H1 & H). apply times_u16 in H1 as (-> & L5 & N5); [|lia].
  apply pbind_ok in H as (chars & r2 & HC & H). apply pret_ok in H as [E ->]. injection E as -> ->.
  cbn [c_seg c_end c_start c_delta c_ro c_gids].
  assert (G0 : 0 <= u64 (len - (16 + 8 * sc))) by (unfold u64; apply Z.mod_pos_bound; lia).
  rewrite Z2Nat.id in * by lia.
  exists base. split.
  { pose proof (offset31_spec encs 0) as O. cbv zeta in O. fold (offset31 encs) in O. destruct O as [[O _]|(i & Oi & Oj)]; [congruence|].
    assert (Hi : (i < List.length encs)%nat) by (apply nth_error_Some; congruence).
    assert (Rn : 0 <= n < 65536) by (eapply u16_range; eassumption).
    exists (e_offset e), (e_length e), n, (Z.of_nat i), (offset31 encs). split; [now apply D|]. split; [exact Hn|]. split; [lia|].
    split; [exact (He i _ Oi)|]. split; [reflexivity|]. intros j o Hj Rj.
    destruct (nth_error encs (Z.to_nat j)) as [[[p2 e2] o2]|] eqn:Ej; [|apply nth_error_None in Ej; lia].
    pose proof (He _ _ Ej) as (R1 & R2 & R3). cbn [fst snd] in *. rewrite Z2Nat.id in R1, R2, R3 by lia.
    destruct Rj as (S1 & S2 & S3). rewrite R1 in S1. rewrite R2 in S2. injection S1 as ->. injection S2 as ->.
    apply (Oj (Z.to_nat j) o2); [lia|exact Ej]. }
  eexists. match goal with |- parseChars _ ?o _ _ _ _ _ _ = _ => match type of HC with parseChars _ ?o' _ _ _ _ _ ?p = _ => replace o with o' by (rewrite ?L1, ?L2, ?L3, ?Z2Nat.id by lia; lia) end end. exact HC.
Qed.

(** C25: the characters exported are exactly those the segments map to a glyph other than 0, with that glyph. (The list may
    name a character twice only if two segments cover it; U+FFFF is left out.) *)
Theorem C25_chars_of_segments :
  forall uk d f base n, isbytes d -> parseFont uk d = Some (Some f) -> subtable31 d base -> segments d base n ->
    forall c g, In (c, g) (t_chars f) <-> c < 65535 /\ 0 < g /\ exists seg, 0 <= seg < n /\ seg_maps d base n seg c g.
Proof.
  intros uk d f base n B H S1 S2 c g. destruct (cmap4_facts uk d f base n B H S1 S2) as (E & Rn & Z1 & Z2 & Z3 & Z4 & F1 & F2 & F3 & F4 & _).
  destruct (parsed_cmap4 uk d f B H) as (q & q' & Hc). apply cmap4_chars in Hc as (b & X1 & pos & PC); [|exact B|reflexivity|intros; eapply parsed_tables; eassumption].
  rewrite (subtable31_fun _ _ _ X1 S1) in PC. rewrite E in PC. unfold zlen in *.
  rewrite (parseChars_in c g d _ _ _ _ _ _ _ _ _ PC) by lia. cbn [Z.add].
  assert (NT : forall l j v, nth_error l j = Some v -> List.length l = Z.to_nat n -> (j < Z.to_nat n)%nat /\ nth (Z.to_nat (Z.of_nat j)) l 0 = v).
  { intros l j v N L. rewrite Nat2Z.id. split; [rewrite <- L; apply nth_error_Some; congruence|]. now apply nth_error_nth. }
  assert (TN : forall l k, List.length l = Z.to_nat n -> 0 <= k < n -> nth_error l (Z.to_nat k) = Some (nth (Z.to_nat k) l 0)).
  { intros l k L R. apply nth_error_nth'. lia. }
  split.
  - intros (j & s & e & dl & ro & A1 & A2 & A3 & A4 & R & G0 & A).
    destruct (NT _ _ _ A1 ltac:(lia)) as [J V1]. destruct (NT _ _ _ A2 ltac:(lia)) as [_ V2]. destruct (NT _ _ _ A3 ltac:(lia)) as [_ V3]. destruct (NT _ _ _ A4 ltac:(lia)) as [_ V4].
    pose proof (F1 (Z.of_nat j) ltac:(lia)) as U1. pose proof (F2 (Z.of_nat j) ltac:(lia)) as U2. pose proof (F3 (Z.of_nat j) ltac:(lia)) as U3. pose proof (F4 (Z.of_nat j) ltac:(lia)) as U4.
    rewrite V2 in U1. rewrite V1 in U2. rewrite V3 in U3. rewrite V4 in U4.
    pose proof (u16_range _ _ _ B U2) as R2. pose proof (u16_range _ _ _ B U3) as R3. pose proof (u16_range _ _ _ B U4) as R4.
    split; [lia|]. split; [exact G0|]. exists (Z.of_nat j). split; [lia|]. exists s, e, dl, ro. split; [exact U2|]. split; [exact U1|]. split; [lia|]. split; [exact U3|]. split; [exact U4|].
    destruct A as [(Z0 & ->)|(P0 & v & V & ->)]; [left; split; [lia|apply fix_mod; lia]|right]. split; [lia|]. exists v. pose proof (u16_range _ _ _ B V) as RV.
    split; [unfold f4_ro_pos; exact V|]. destruct (Z.ltb_spec 0 v) as [P|P]; [split; [lia|apply fix_mod; lia]|]. exfalso. replace v with 0 in G0 by lia. discriminate G0.
  - intros (C & G0 & seg & SG & s & e & dl & ro & U2 & U1 & R & U3 & U4 & A).
    rewrite (F1 _ SG) in U1. rewrite (F2 _ SG) in U2. rewrite (F3 _ SG) in U3. rewrite (F4 _ SG) in U4.
    pose proof (F2 _ SG) as W2. pose proof (F3 _ SG) as W3. pose proof (F4 _ SG) as W4. injection U1 as U1. injection U2 as U2. injection U3 as U3. injection U4 as U4. rewrite U2 in W2. rewrite U3 in W3. rewrite U4 in W4.
    pose proof (u16_range _ _ _ B W2) as R2. pose proof (u16_range _ _ _ B W3) as R3. pose proof (u16_range _ _ _ B W4) as R4.
    exists (Z.to_nat seg), s, e, dl, ro. rewrite !TN by lia. split; [now rewrite U2|]. split; [now rewrite U1|]. split; [now rewrite U3|]. split; [now rewrite U4|].
    rewrite Z2Nat.id by lia. split; [lia|]. split; [exact G0|]. destruct A as [(Z0 & ->)|(P0 & v & V & NV & ->)]; [left; split; [lia|symmetry; apply fix_mod; lia]|right]. split; [lia|].
    exists v. pose proof (u16_range _ _ _ B V) as RV. split; [exact V|]. destruct (Z.ltb_spec 0 v) as [P|P]; [symmetry; apply fix_mod; lia|lia].
Qed.
Print Assumptions C25_chars_of_segments.
(** The characters exported by the example font, and so what its segments map. *)
Example C25_chars_met : match parseFont true good_font with
  | Some (Some f) => In (66, 2) (t_chars f) /\ isbytes good_font /\ subtable31 good_font (12 + 16 * 11 + 56 + 36 + 8 + 8 + 12) /\ segments good_font (12 + 16 * 11 + 56 + 36 + 8 + 8 + 12) 2
  | _ => False end.
Proof.
  pose proof good_subtable31 as [S1 S2]. pose proof good_font_bytes as B.
  assert (G : match parseFont true good_font with Some (Some f) => In (66, 2) (t_chars f) | _ => False end) by (vm_compute; auto 10).
  destruct (parseFont true good_font) as [[f|]|]; try contradiction. auto.
Qed.
(** In a font whose segments do not overlap, the list and the lookup agree: a listed character is looked up to the listed
    glyph (or the lookup panics, see C26), and a character below U+FFFF looked up to a glyph other than 0 is listed with it. *)
Theorem C25_chars_agree_with_lookup :
  forall uk d f base n, isbytes d -> parseFont uk d = Some (Some f) -> subtable31 d base -> segments d base n ->
    (forall seg ro, 0 <= seg < n -> f4_ro d base n seg = Some ro -> ro mod 2 = 0) ->
    (forall i j e s, 0 <= i < j -> j < n -> f4_end d base i = Some e -> f4_start d base n j = Some s -> e < s) ->
    forall c g, 0 <= c < 65535 -> 0 < g -> charToGlyph f c <> LCrash -> (In (c, g) (t_chars f) <-> charToGlyph f c = Found g).
Proof.
  intros uk d f base n B H S1 S2 Ev Dis c g C G NC. rewrite (C25_chars_of_segments uk d f base n B H S1 S2).
  pose proof (C25_bmp_lookup_follows_cmap uk d f base n c B H S1 S2 Ev ltac:(lia)) as L. split.
  - intros (_ & _ & seg & SG & s & e & dl & ro & U2 & U1 & R & U3 & U4 & A).
    assert (SEG : f4_segment d base n c seg).
    { split; [exact SG|]. split; [exists e; split; [exact U1|lia]|]. intros j e' J E'. pose proof (Dis j seg e' s ltac:(lia) ltac:(lia) E' U2). lia. }
    destruct (charToGlyph f c) as [g'| |]; [|exfalso; apply L; exists seg, s; split; [exact SEG|]; split; [exact U2|lia]|contradiction].
    destruct L as (seg' & s' & dl' & ro' & SEG' & W2 & _ & W3 & W4 & A').
    assert (E : seg' = seg).
    { destruct SEG as (X1 & (ex & X2 & X3) & X4), SEG' as (Y1 & (ey & Y2 & Y3) & Y4). destruct (Z.lt_total seg seg') as [Q|[Q|Q]]; [|now symmetry|].
      - specialize (Y4 seg ex ltac:(lia) X2). lia.
      - specialize (X4 seg' ey ltac:(lia) Y2). lia. }
    subst seg'. assert (s' = s) by congruence. assert (dl' = dl) by congruence. assert (ro' = ro) by congruence. subst s' dl' ro'. f_equal.
    destruct A as [(Z0 & ->)|(Z0 & v & V & NV & ->)], A' as [(Z1 & ->)|(Z1 & v' & V' & A')]; try contradiction; try reflexivity.
    assert (v' = v) by congruence. subst v'. destruct A' as [(Z2 & _)|(_ & ->)]; [contradiction|reflexivity].
  - intros E. rewrite E in L. destruct L as (seg & s & dl & ro & (SG & (e & U1 & E1) & _) & U2 & LE & U3 & U4 & A). split; [lia|]. split; [exact G|].
    exists seg. split; [exact SG|]. exists s, e, dl, ro. split; [exact U2|]. split; [exact U1|]. split; [lia|]. split; [exact U3|]. split; [exact U4|].
    destruct A as [A|(Z1 & v & V & A)]; [now left|right]. split; [exact Z1|]. exists v. split; [exact V|]. destruct A as [(_ & ->)|A]; [lia|exact A].
Qed.
Print Assumptions C25_chars_agree_with_lookup.
Example C25_agree_met : match parseFont true good_font with
  | Some (Some f) => charToGlyph f 66 <> LCrash /\ In (66, 2) (t_chars f) /\
     forall i j e s, 0 <= i < j -> j < 2 -> f4_end good_font (12 + 16 * 11 + 56 + 36 + 8 + 8 + 12) i = Some e -> f4_start good_font (12 + 16 * 11 + 56 + 36 + 8 + 8 + 12) 2 j = Some s -> e < s
  | _ => False end.
Proof.
  assert (G : match parseFont true good_font with Some (Some f) => charToGlyph f 66 = Found 2 /\ In (66, 2) (t_chars f) | _ => False end) by (vm_compute; auto 10).
  destruct (parseFont true good_font) as [[f|]|]; try contradiction. destruct G as [G1 G2]. split; [rewrite G1; discriminate|]. split; [exact G2|].
  intros i j e s I J. assert (i = 0) by lia. assert (j = 1) by lia. subst i j. vm_compute. intros [= <-] [= <-]. reflexivity.
Qed.
