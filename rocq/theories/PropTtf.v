(** PropTtf.v — C25 (lookup follows the cmap), C26 (lookup never crashes), C27 (widths come from hmtx),
    C49 (kerning), C50 (bounds-safe reading). *)
From Verif Require Import Base TtfModel TtfSpec TtfProofs SubsetModel.

(** ** The specification determines its objects *)
Lemma table_at_fun d tag o l o' l' : table_at d tag o l -> table_at d tag o' l' -> o = o' /\ l = l'.
Proof.
  intros (n & i & N & I & T & A & B & L) (n' & i' & N' & I' & T' & A' & B' & L').
  assert (n = n') by congruence. subst n'.
  assert (i = i') by (destruct (Z.lt_total i i') as [X|[X|X]]; [exfalso; apply (L i'); [lia|exact T']|exact X|exfalso; apply (L' i); [lia|exact T]]).
  subst i'. rewrite A in A'. rewrite B in B'. injection A' as ->. injection B' as ->. split; reflexivity.
Qed.
Lemma subtable31_fun d b b' : subtable31 d b -> subtable31 d b' -> b = b'.
Proof.
  intros (c & l & n & i & o & T & N & I & E & -> & L) (c' & l' & n' & i' & o' & T' & N' & I' & E' & -> & L').
  destruct (table_at_fun _ _ _ _ _ _ T T') as [-> ->]. assert (n = n') by congruence. subst n'.
  assert (i = i') by (destruct (Z.lt_total i i') as [X|[X|X]]; [exfalso; apply (L i' o'); [lia|exact E']|exact X|exfalso; apply (L' i o); [lia|exact E]]).
  subst i'. destruct E as (_ & _ & E), E' as (_ & _ & E'). congruence.
Qed.
Lemma subtable310_fun d b b' : subtable310 d b -> subtable310 d b' -> b = b'.
Proof.
  intros (c & l & n & i & o & T & N & I & E & -> & L) (c' & l' & n' & i' & o' & T' & N' & I' & E' & -> & L').
  destruct (table_at_fun _ _ _ _ _ _ T T') as [-> ->]. assert (n = n') by congruence. subst n'.
  assert (i = i') by (destruct (Z.lt_total i i') as [X|[X|X]]; [exfalso; apply (L' i o); [lia|exact E]|exact X|exfalso; apply (L i' o'); [lia|exact E']]).
  subst i'. destruct E as (_ & _ & E), E' as (_ & _ & E'). congruence.
Qed.
Lemma segments_fun d b n n' : segments d b n -> segments d b n' -> n = n'.
Proof. intros (x & A & ->) (y & B & ->). congruence. Qed.

Lemma findSeg_spec ends v : let seg := findSeg ends v in
  0 <= seg <= zlen ends /\ (seg < zlen ends -> v <= nth (Z.to_nat seg) ends 0) /\
  forall j, 0 <= j < seg -> nth (Z.to_nat j) ends 0 < v.
Proof.
  induction ends as [|e r IH]; intros seg; subst seg; cbn [findSeg]; [change (zlen (@nil Z)) with 0; split; [lia|]; split; intros; lia|].
  rewrite zlen_cons. pose proof (zlen_nonneg r). destruct (Z.leb_spec v e) as [L|L].
  - split; [lia|]. split; [intros _; exact L|intros; lia].
  - cbv zeta in IH. destruct IH as (I1 & I2 & I3). split; [lia|]. split.
    + intros X. replace (Z.to_nat (1 + findSeg r v)) with (S (Z.to_nat (findSeg r v))) by lia. cbn. apply I2. lia.
    + intros j Hj. destruct (Z.eq_dec j 0) as [->|NZ]; [cbn; lia|].
      replace (Z.to_nat j) with (S (Z.to_nat (j - 1))) by lia. cbn. apply I3. lia.
Qed.
Lemma zth_some {A} (l : list A) i x dflt : zth l i = Some x -> 0 <= i < zlen l /\ x = nth (Z.to_nat i) l dflt.
Proof.
  unfold zth. destruct (Z.leb_spec 0 i); [|discriminate]. destruct (Z.ltb_spec i (zlen l)); [|discriminate]. cbn.
  intros E. split; [lia|]. symmetry. now apply nth_error_nth.
Qed.
Lemma zth_in {A} (l : list A) i dflt : 0 <= i < zlen l -> zth l i = Some (nth (Z.to_nat i) l dflt).
Proof.
  intros H. unfold zth. destruct (Z.leb_spec 0 i); [|lia]. destruct (Z.ltb_spec i (zlen l)); [|lia]. cbn.
  apply nth_error_nth'. unfold zlen in *. lia.
Qed.
Lemma zth_none {A} (l : list A) i : zth l i = None -> ~ (0 <= i < zlen l).
Proof. intros E H. destruct l as [|x l]; [unfold zlen in H; cbn in H; lia|]. rewrite (zth_in _ _ x H) in E. discriminate. Qed.

(** The tables of an accepted font are those of the file. *)
Lemma parsed_tables uk d f tag e : parseFont uk d = Some (Some f) -> zlen tag = 4 -> tfind (t_tables f) tag = Some e ->
  table_at d tag (e_offset e) (e_length e).
Proof. intros H T F. apply parse_inv in H as (q0 & H0 & _). eapply dir_ok; eassumption. Qed.
Lemma parsed_cmap4 uk d f : isbytes d -> parseFont uk d = Some (Some f) -> exists q q', parseCmap4 (t_tables f) d q = POk (t_cmap f, t_chars f) q'.
Proof. intros B H. apply parse_inv in H. destruct H as (q0 & _ & _ & _ & _ & _ & X & _). exact X. Qed.
Lemma parsed_cmap12 uk d f : parseFont uk d = Some (Some f) -> exists q q', parseCmap12 (t_tables f) d q = POk (t_groups f) q'.
Proof. intros H. apply parse_inv in H. destruct H as (q0 & _ & _ & _ & _ & _ & _ & X & _). exact X. Qed.

(** Everything the format-4 arrays say about the file, for the file's own subtable. *)
Lemma cmap4_facts uk d f base n : isbytes d -> parseFont uk d = Some (Some f) -> subtable31 d base -> segments d base n ->
    c_seg (t_cmap f) = n /\ 0 <= n < 32768 /\
    zlen (c_end (t_cmap f)) = n /\ zlen (c_start (t_cmap f)) = n /\ zlen (c_delta (t_cmap f)) = n /\ zlen (c_ro (t_cmap f)) = n /\
    (forall i, 0 <= i < n -> f4_end d base i = Some (nth (Z.to_nat i) (c_end (t_cmap f)) 0)) /\
    (forall i, 0 <= i < n -> f4_start d base n i = Some (nth (Z.to_nat i) (c_start (t_cmap f)) 0)) /\
    (forall i, 0 <= i < n -> f4_delta d base n i = Some (nth (Z.to_nat i) (c_delta (t_cmap f)) 0)) /\
    (forall i, 0 <= i < n -> f4_ro d base n i = Some (nth (Z.to_nat i) (c_ro (t_cmap f)) 0)) /\
    (forall i, 0 <= i < zlen (c_gids (t_cmap f)) -> u16at d (base + 16 + 8 * n + 2 * i) = Some (nth (Z.to_nat i) (c_gids (t_cmap f)) 0)) /\
    (exists len, u16at d (base + 2) = Some len /\ zlen (c_gids (t_cmap f)) = u64 (len - (16 + 8 * n)) / 2).
Proof.
  intros B H S1 S2. destruct (parsed_cmap4 uk d f B H) as (q & q' & Hc).
  apply cmap4_ok in Hc as (b & X1 & X2 & X3 & X4 & X5 & X6); [|exact B|reflexivity|intros; eapply parsed_tables; eassumption].
  rewrite (subtable31_fun _ _ _ X1 S1) in *. assert (E : c_seg (t_cmap f) = n) by (eapply segments_fun; eassumption).
  rewrite E in *. split; [reflexivity|]. split; [exact X3|]. exact X6.
Qed.

Lemma land_mod x : Z.land x 65535 = x mod 65536.
Proof. change 65535 with (Z.ones 16). rewrite Z.land_ones by lia. reflexivity. Qed.

(** ** C25 *)
(** For an accepted font file [d] and a character of the basic plane: the glyph found is the one its
    (3,1) format 4 subtable assigns (reading the file's bytes by the OpenType rules), and "not found" is
    answered only for characters no segment covers.  The range offsets must be even, as the format
    demands. *)
Theorem C25_bmp_lookup_follows_cmap :
  forall uk d f base n r, isbytes d -> parseFont uk d = Some (Some f) -> subtable31 d base -> segments d base n ->
    (forall seg ro, 0 <= seg < n -> f4_ro d base n seg = Some ro -> ro mod 2 = 0) -> 0 <= r <= 65535 ->
    match charToGlyph f r with
    | Found g => f4_glyph d base n r g
    | NotFound => ~ f4_covered d base n r
    | LCrash => True
    end.
Proof.
  intros uk d f base n r B H S1 S2 Ev Hr.
  destruct (cmap4_facts uk d f base n B H S1 S2) as (E & Rn & Z1 & Z2 & Z3 & Z4 & F1 & F2 & F3 & F4 & F5 & (len & Hl & F6)).
  unfold charToGlyph. destruct (Z.leb_spec r 65535); [|lia]. unfold format4. cbv zeta.
  pose proof (findSeg_spec (c_end (t_cmap f)) r) as FS. cbv zeta in FS. set (seg := findSeg (c_end (t_cmap f)) r) in *.
  destruct FS as (G1 & G2 & G3). rewrite Z1 in *.
  destruct (zth (c_start (t_cmap f)) seg) as [s|] eqn:ES; [|exact I].
  apply (zth_some _ _ _ 0) in ES as [ES ->]. rewrite Z2 in ES.
  assert (SEG : f4_segment d base n r seg).
  { split; [lia|]. split; [exists (nth (Z.to_nat seg) (c_end (t_cmap f)) 0); split; [apply F1; lia|apply G2; lia]|].
    intros j e Hj He. rewrite F1 in He by lia. injection He as <-. apply G3. lia. }
  destruct (Z.ltb_spec r (nth (Z.to_nat seg) (c_start (t_cmap f)) 0)) as [L|L].
  - intros (seg' & s & (A1 & (e & A2 & A3) & A4) & A5 & A6).
    assert (seg' = seg).
    { destruct SEG as (C1 & (e2 & C2 & C3) & C4). destruct (Z.lt_total seg seg') as [X|[X|X]]; [|symmetry; exact X|].
      - specialize (A4 seg e2 ltac:(lia) C2). lia.
      - specialize (C4 seg' e ltac:(lia) A2). lia. }
    subst seg'. rewrite F2 in A5 by lia. injection A5 as <-. lia.
  - rewrite (zth_in (c_ro (t_cmap f)) seg 0) by lia. rewrite (zth_in (c_delta (t_cmap f)) seg 0) by lia.
    set (ro := nth (Z.to_nat seg) (c_ro (t_cmap f)) 0) in *. set (dl := nth (Z.to_nat seg) (c_delta (t_cmap f)) 0) in *.
    set (s := nth (Z.to_nat seg) (c_start (t_cmap f)) 0) in *.
    destruct (Z.eqb_spec ro 0) as [R0|R0].
    + exists seg, s, dl, ro. split; [exact SEG|]. split; [apply F2; lia|]. split; [exact L|]. split; [apply F3; lia|]. split; [apply F4; lia|].
      left. split; [exact R0|reflexivity].
    + destruct (zth (c_gids (t_cmap f)) _) as [g|] eqn:EG; [|exact I].
      apply (zth_some _ _ _ 0) in EG as [EG ->]. rewrite E in *.
      assert (Rlen : 0 <= len < 65536) by (eapply u16_range; eassumption).
      assert (Rs : 0 <= s < 65536) by (eapply u16_range; [exact B|apply (F2 seg); lia]).
      assert (Rro : 0 <= ro < 65536) by (eapply u16_range; [exact B|apply (F4 seg); lia]).
      set (idx := ro / 2 + (r - s) - (n - seg)) in *.
      assert (PI : 0 <= idx).
      { destruct (Z_lt_ge_dec idx 0) as [X|X]; [exfalso|lia].
        assert (Y : u64 idx = idx + 2 ^ 64) by (unfold u64; symmetry; apply Z.mod_unique_pos with (q := -1); lia).
        rewrite Y, F6 in EG. unfold u64 in EG. pose proof (Z.mod_pos_bound (len - (16 + 8 * n)) (2 ^ 64) ltac:(lia)). lia. }
      assert (EI : u64 idx = idx) by (unfold u64; apply Z.mod_small; lia). rewrite EI in *.
      pose proof (F5 idx EG) as FG. set (g := nth (Z.to_nat idx) (c_gids (t_cmap f)) 0) in *.
      assert (EV : ro mod 2 = 0) by (apply (Ev seg); [lia|apply F4; lia]).
      assert (PP : f4_ro_pos base n seg + ro + 2 * (r - s) = base + 16 + 8 * n + 2 * idx) by (unfold f4_ro_pos, idx; lia).
      destruct (Z.eqb_spec g 0) as [G0|G0].
      * exists seg, s, dl, ro. split; [exact SEG|]. split; [apply F2; lia|]. split; [exact L|]. split; [apply F3; lia|]. split; [apply F4; lia|].
        right. split; [exact R0|]. exists g. rewrite PP. split; [exact FG|]. left. split; [exact G0|reflexivity].
      * exists seg, s, dl, ro. split; [exact SEG|]. split; [apply F2; lia|]. split; [exact L|]. split; [apply F3; lia|]. split; [apply F4; lia|].
        right. split; [exact R0|]. exists g. rewrite PP. split; [exact FG|]. right. split; [exact G0|reflexivity].
Qed.

Lemma format12_spec gs r : match format12 gs r with
  | Found g => exists i, 0 <= i < zlen gs /\ let '(s, e, g0) := nth (Z.to_nat i) gs (0, 0, 0) in s <= r <= e /\ g = g0 + (r - s) /\
       forall j, 0 <= j < i -> let '(s', e', _) := nth (Z.to_nat j) gs (0, 0, 0) in ~ (s' <= r <= e')
  | NotFound => forall j, 0 <= j < zlen gs -> let '(s', e', _) := nth (Z.to_nat j) gs (0, 0, 0) in ~ (s' <= r <= e')
  | LCrash => False
  end.
Proof.
  induction gs as [|[[s e] g] gs IH]; cbn [format12]; [intros j Hj; unfold zlen in Hj; cbn in Hj; lia|].
  rewrite zlen_cons. pose proof (zlen_nonneg gs).
  destruct (Z.leb_spec s r) as [A|A]; [destruct (Z.leb_spec r e) as [C|C]|]; cbn [andb].
  1:{ exists 0. split; [lia|]. cbn. split; [lia|]. split; [lia|]. intros j Hj. lia. }
  all: destruct (format12 gs r) as [g'| |]; [| |exact IH].
  1,3: destruct IH as (i & I1 & I2); exists (i + 1); split; [lia|];
       replace (Z.to_nat (i + 1)) with (S (Z.to_nat i)) by lia; cbn [nth];
       destruct (nth (Z.to_nat i) gs (0, 0, 0)) as [[s' e'] g0]; destruct I2 as (I2 & I3 & I4); split; [lia|]; split; [lia|];
       intros j Hj; destruct (Z.eq_dec j 0) as [->|NZ]; [cbn; lia|];
       replace (Z.to_nat j) with (S (Z.to_nat (j - 1))) by lia; cbn [nth]; apply I4; lia.
  all: intros j Hj; destruct (Z.eq_dec j 0) as [->|NZ]; [cbn; lia|];
       replace (Z.to_nat j) with (S (Z.to_nat (j - 1))) by lia; cbn [nth]; apply IH; lia.
Qed.

(** Characters above U+FFFF: the (3,10) format 12 subtable decides. *)
Theorem C25_supplementary_lookup_follows_cmap :
  forall uk d f base r, isbytes d -> parseFont uk d = Some (Some f) -> subtable310 d base -> 65535 < r ->
    match charToGlyph f r with
    | Found g => f12_glyph d base r g
    | NotFound => ~ f12_covered d base r
    | LCrash => False
    end.
Proof.
  intros uk d f base r B H S1 Hr. destruct (parsed_cmap12 uk d f H) as (q & q' & Hc).
  apply cmap12_ok in Hc; [|exact B|intros; eapply parsed_tables; eassumption].
  unfold charToGlyph. destruct (Z.leb_spec r 65535); [lia|].
  destruct Hc as [(e & n & F & N & G & X)|(b & n & S2 & N & _ & L & X)].
  { exfalso. destruct S1 as (c & l & n' & i & o & T & N' & I & E & _).
    assert (T2 : table_at d (bs "cmap") (e_offset e) (e_length e)) by (eapply parsed_tables; [exact H|reflexivity|exact F]).
    destruct (table_at_fun _ _ _ _ _ _ T T2) as [-> _]. assert (n = n') by congruence. subst n'. exact (X i o I E). }
  rewrite (subtable310_fun _ _ _ S2 S1) in *. pose proof (format12_spec (t_groups f) r) as FS. rewrite L in FS.
  destruct (format12 (t_groups f) r) as [g| |]; [| |exact FS].
  - destruct FS as (i & I1 & I2). pose proof (X i I1) as Xi. cbv zeta in Xi. destruct (nth (Z.to_nat i) (t_groups f) (0, 0, 0)) as [[s e] g0].
    destruct I2 as (I2 & I3 & I4). cbn [fst snd] in Xi. exists n, i, s, e, g0. split; [exact N|]. split; [exact I1|]. split; [exact Xi|].
    split; [exact I2|]. split; [exact I3|]. intros j s' e' g' Hj Gj. specialize (I4 j Hj). pose proof (X j ltac:(lia)) as Xj. cbv zeta in Xj.
    destruct (nth (Z.to_nat j) (t_groups f) (0, 0, 0)) as [[s2 e2] g2]. cbn [fst snd] in Xj.
    destruct Gj as (K1 & K2 & _), Xj as (M1 & M2 & _). assert (s' = s2) by congruence. assert (e' = e2) by congruence. subst. exact I4.
  - intros (n' & i & s & e & g0 & N' & I & G & C). assert (n' = n) by congruence. subst n'. specialize (FS i I). pose proof (X i I) as Xi. cbv zeta in Xi.
    destruct (nth (Z.to_nat i) (t_groups f) (0, 0, 0)) as [[s2 e2] g2]. cbn [fst snd] in Xi.
    destruct G as (K1 & K2 & _), Xi as (M1 & M2 & _). assert (s = s2) by congruence. assert (e = e2) by congruence. subst. exact (FS C).
Qed.
(** Without a (3,10) subtable every such character is "not found". *)
Theorem C25_no_supplementary_subtable :
  forall uk d f r, isbytes d -> parseFont uk d = Some (Some f) -> (forall base, ~ subtable310 d base) -> 65535 < r ->
    charToGlyph f r = NotFound.
Proof.
  intros uk d f r B H S1 Hr. destruct (parsed_cmap12 uk d f H) as (q & q' & Hc).
  apply cmap12_ok in Hc; [|exact B|intros; eapply parsed_tables; eassumption].
  unfold charToGlyph. destruct (Z.leb_spec r 65535); [lia|].
  destruct Hc as [(e & n & F & N & G & X)|(b & n & S2 & _)]; [now rewrite G|exfalso; exact (S1 b S2)].
Qed.

(** ** C26 *)
(** Lookup does not crash for a font whose last segment ends at 0xFFFF and whose range offsets point into
    the glyph array of the subtable (0 <= index < (length - 16 - 8 segCount)/2). *)
Theorem C26_lookup_safe_partial :
  forall uk d f base n len r, isbytes d -> parseFont uk d = Some (Some f) -> subtable31 d base -> segments d base n ->
    u16at d (base + 2) = Some len -> 16 + 8 * n <= len ->
    0 < n -> f4_end d base (n - 1) = Some 65535 ->
    (forall seg s e ro, 0 <= seg < n -> f4_start d base n seg = Some s -> f4_end d base seg = Some e -> f4_ro d base n seg = Some ro ->
       ro <> 0 -> s <= e -> n - seg <= ro / 2 /\ ro / 2 + (e - s) - (n - seg) < (len - (16 + 8 * n)) / 2) ->
    charToGlyph f r <> LCrash.
Proof.
  intros uk d f base n len r B H S1 S2 HL LL Hn He Hro.
  destruct (cmap4_facts uk d f base n B H S1 S2) as (E & Rn & Z1 & Z2 & Z3 & Z4 & F1 & F2 & F3 & F4 & F5 & (len' & Hl & F6)).
  assert (len' = len) by congruence. subst len'.
  assert (Rlen : 0 <= len < 65536) by (eapply u16_range; eassumption).
  unfold charToGlyph. destruct (Z.leb_spec r 65535); [|pose proof (format12_spec (t_groups f) r) as FS; intros X; rewrite X in FS; exact FS].
  unfold format4. cbv zeta.
  pose proof (findSeg_spec (c_end (t_cmap f)) r) as FS. cbv zeta in FS. set (seg := findSeg (c_end (t_cmap f)) r) in *.
  destruct FS as (G1 & G2 & G3). rewrite Z1 in *.
  assert (SN : seg < n).
  { destruct (Z_lt_ge_dec seg n) as [X|X]; [exact X|exfalso]. rewrite F1 in He by lia. injection He as He.
    specialize (G3 (n - 1) ltac:(lia)). lia. }
  rewrite (zth_in _ seg 0) by lia. set (s := nth (Z.to_nat seg) (c_start (t_cmap f)) 0).
  destruct (Z.ltb_spec r s) as [L|L]; [discriminate|].
  rewrite (zth_in (c_ro (t_cmap f)) seg 0) by lia. rewrite (zth_in (c_delta (t_cmap f)) seg 0) by lia.
  set (ro := nth (Z.to_nat seg) (c_ro (t_cmap f)) 0) in *.
  destruct (Z.eqb_spec ro 0) as [R0|R0]; [discriminate|].
  assert (Re : r <= nth (Z.to_nat seg) (c_end (t_cmap f)) 0) by (apply G2; lia).
  set (e := nth (Z.to_nat seg) (c_end (t_cmap f)) 0) in *.
  destruct (Hro seg s e ro ltac:(lia) (F2 seg ltac:(lia)) (F1 seg ltac:(lia)) (F4 seg ltac:(lia)) R0 ltac:(lia)) as [K1 K2].
  rewrite E. set (idx := ro / 2 + (r - s) - (n - seg)).
  assert (RI : 0 <= idx < zlen (c_gids (t_cmap f))).
  { rewrite F6. unfold u64. rewrite (Z.mod_small (len - _)) by lia. unfold idx. lia. }
  assert (UI : u64 idx = idx). { unfold u64. apply Z.mod_small. rewrite F6 in RI. unfold u64 in RI.
    pose proof (Z.mod_pos_bound (len - (16 + 8 * n)) (2 ^ 64) ltac:(lia)). lia. }
  rewrite UI, (zth_in _ idx 0) by exact RI. destruct (_ =? 0); discriminate.
Qed.

(** ** C27 *)
(** The width used for a glyph is its hmtx advance scaled to 1000 units per em, rounded down; the glyphs
    beyond numberOfHMetrics get the last advance. *)
Theorem C27_width_from_hmtx :
  forall uk d f g w u, isbytes d -> parseFont uk d = Some (Some f) -> 0 <= g -> units_per_em d u ->
    glyphWidth f g = Some w -> exists a, hmtx_advance d g a /\ w = a * 1000 / u.
Proof.
  intros uk d f g w u B H Hg HU HW. pose proof (parse_inv _ _ _ H) as (q0 & _ & (qa & qa' & Hh) & (qb & qb' & Hhh) & _ & (qc & qc' & Hm) & _).
  apply head_ok in Hh as (eh & Fh & Uh). cbn [fst] in Uh. apply hhea_ok in Hhh as (ehh & Fhh & Uhh). cbn [snd] in Uhh.
  assert (RN : 0 <= t_nHM f < 65536) by (eapply u16_range; eassumption).
  apply hmtx_ok in Hm as (em & Fm & Lm & Nm); [|lia].
  destruct HU as (head & l & T & U).
  destruct (table_at_fun _ _ _ _ _ _ T (parsed_tables _ _ _ _ _ H (eq_refl : zlen tag_head = 4) Fh)) as [-> _].
  assert (u = t_upem f) by congruence. subst u.
  unfold glyphWidth in HW.
  destruct (zth (t_widths f) (if t_nHM f <=? g then u64 (t_nHM f - 1) else g)) as [a|] eqn:EW; [|discriminate].
  apply (zth_some _ _ _ 0) in EW as [EW ->]. rewrite Lm in EW.
  exists (nth (Z.to_nat (if t_nHM f <=? g then u64 (t_nHM f - 1) else g)) (t_widths f) 0). split.
  - exists (e_offset ehh), (e_length ehh), (e_offset em), (e_length em), (t_nHM f).
    split; [exact (parsed_tables _ _ _ _ _ H (eq_refl : zlen tag_hhea = 4) Fhh)|].
    split; [exact (parsed_tables _ _ _ _ _ H (eq_refl : zlen tag_hmtx = 4) Fm)|]. split; [exact Uhh|].
    destruct (Z.leb_spec (t_nHM f) g) as [L|L].
    + destruct (Z.eq_dec (t_nHM f) 0) as [Z0|NZ].
      { exfalso. rewrite Z0 in EW. change (u64 (0 - 1)) with (2 ^ 64 - 1) in EW.
        assert (RG : 0 <= t_nGlyphs f < 65536).
        { pose proof (parse_inv _ _ _ H) as (_ & _ & _ & _ & (qx & qy & Hmx) & _). apply maxp_ok in Hmx as (ex & _ & Ux). eapply u16_range; eassumption. }
        lia. }
      assert (U64 : u64 (t_nHM f - 1) = t_nHM f - 1) by (unfold u64; apply Z.mod_small; lia). rewrite U64 in *.
      replace (Z.min g (t_nHM f - 1)) with (Z.min (t_nHM f - 1) (t_nHM f - 1)) by lia. apply Nm. lia.
    + apply Nm. lia.
  - destruct (Z.eqb_spec (t_upem f) 1000) as [E|E].
    + injection HW as <-. rewrite E. rewrite Z.div_mul by lia. reflexivity.
    + destruct (t_upem f =? 0); [discriminate|]. now injection HW as <-.
Qed.
(** It is computed for every glyph number whenever the file has at least one metric and a non-zero
    unitsPerEm. *)
Theorem C27_width_total :
  forall uk d f g u, isbytes d -> parseFont uk d = Some (Some f) -> 0 <= g -> units_per_em d u -> u <> 0 -> 0 < t_nHM f ->
    exists w, glyphWidth f g = Some w.
Proof.
  intros uk d f g u B H Hg HU U0 N0. pose proof (parse_inv _ _ _ H) as (q0 & _ & (qa & qa' & Hh) & (qb & qb' & Hhh) & _ & (qc & qc' & Hm) & _).
  apply head_ok in Hh as (eh & Fh & Uh). cbn [fst] in Uh. apply hhea_ok in Hhh as (ehh & Fhh & Uhh). cbn [snd] in Uhh.
  assert (RN : 0 <= t_nHM f < 65536) by (eapply u16_range; eassumption).
  apply hmtx_ok in Hm as (em & Fm & Lm & Nm); [|lia]. destruct HU as (head & l & T & U).
  destruct (table_at_fun _ _ _ _ _ _ T (parsed_tables _ _ _ _ _ H (eq_refl : zlen tag_head = 4) Fh)) as [-> _].
  assert (u = t_upem f) by congruence. subst u. unfold glyphWidth.
  assert (X : 0 <= (if t_nHM f <=? g then u64 (t_nHM f - 1) else g) < zlen (t_widths f)).
  { rewrite Lm. destruct (Z.leb_spec (t_nHM f) g); [|lia]. unfold u64. rewrite Z.mod_small by lia. lia. }
  rewrite (zth_in _ _ 0 X). destruct (t_upem f =? 1000); [eauto|]. destruct (Z.eqb_spec (t_upem f) 0); [congruence|eauto].
Qed.

(** ** C50 *)
(** Multi-byte values are decoded big-endian from the bytes at the current position, and only if all of
    them are in the file; otherwise the read is an error. *)
Theorem C50_reads_are_in_the_file :
  forall d pos, 0 <= pos ->
    (readUShort d pos = match u16at d pos with Some v => POk v (pos + 2) | None => PErr end) /\
    (readShort d pos = match u16at d pos with Some v => POk (s16 v) (pos + 2) | None => PErr end) /\
    (readULong d pos = match u32at d pos with Some v => POk v (pos + 4) | None => PErr end).
Proof.
  intros d pos Hp.
  assert (RU : readUShort d pos = match u16at d pos with Some v => POk v (pos + 2) | None => PErr end).
  { destruct (readUShort d pos) as [v q| |] eqn:E.
    - apply readUShort_ok in E as [-> ->]; [reflexivity|exact Hp].
    - destruct (u16at d pos) as [v|] eqn:U; [|reflexivity]. exfalso.
      unfold u16at in U. destruct (u8at d pos); [|discriminate]. destruct (u8at d (pos + 1)) eqn:U1; [|discriminate].
      unfold u8at in U1. destruct (Z.ltb_spec (pos + 1) 0); [discriminate|].
      assert (Z.to_nat (pos + 1) < List.length d)%nat by (apply nth_error_Some; congruence).
      destruct (pread_total 2 d pos ltac:(lia) Hp) as [s Es]; [unfold zlen; lia|unfold zlen; lia|].
      unfold readUShort, pbind in E. rewrite Es in E. discriminate.
    - exfalso. assert (S : safe readUShort) by sf. exact (S _ _ E). }
  split; [exact RU|]. split.
  - unfold readShort, pbind. rewrite RU. destruct (u16at d pos) as [v|]; [|reflexivity]. unfold pret, s16. f_equal.
    destruct (Z.leb_spec 32768 v), (Z.ltb_spec v 32768); lia.
  - destruct (readULong d pos) as [v q| |] eqn:E.
    + apply readULong_ok in E as [-> ->]; [reflexivity|exact Hp].
    + destruct (u32at d pos) as [v|] eqn:U; [|reflexivity]. exfalso.
      unfold u32at in U. destruct (u16at d pos); [|discriminate]. destruct (u16at d (pos + 2)) eqn:U1; [|discriminate].
      unfold u16at in U1. destruct (u8at d (pos + 2)); [|discriminate]. destruct (u8at d (pos + 2 + 1)) eqn:U2; [|discriminate].
      unfold u8at in U2. destruct (Z.ltb_spec (pos + 2 + 1) 0); [discriminate|].
      assert (Z.to_nat (pos + 2 + 1) < List.length d)%nat by (apply nth_error_Some; congruence).
      destruct (pread_total 4 d pos ltac:(lia) Hp) as [s Es]; [unfold zlen; lia|unfold zlen; lia|].
      unfold readULong, pbind in E. rewrite Es in E. discriminate.
    + exfalso. assert (S : safe readULong) by sf. exact (S _ _ E).
Qed.

(** A truncated font file is either rejected with an error or understood exactly like the whole file:
    every value the parser returns is in the part of the file it was given.  (A panic on the truncated
    file can only be one the whole file provokes too.) *)
Theorem C50_truncation_is_an_error_or_harmless :
  forall uk d k, match parseFont uk (firstn k d) with
    | Some None => True
    | x => parseFont uk d = x
    end.
Proof.
  intros uk d k. unfold parseFont. pose proof (stable_parse uk (firstn k d) (skipn k d) 0) as S. rewrite firstn_skipn in S.
  destruct (parseFontData uk (firstn k d) 0); [now rewrite S|exact I|now rewrite S].
Qed.

(** Reading a font file panics only if the hhea table announces zero horizontal metrics. *)
Theorem C50_no_panic_partial :
  forall uk d, isbytes d -> parseFont uk d = None ->
    exists hhea l, table_at d (bs "hhea") hhea l /\ u16at d (hhea + 34) = Some 0.
Proof.
  intros uk d B H. unfold parseFont in H. destruct (parseFontData uk d 0) as [| |] eqn:E; try discriminate. clear H.
  unfold parseFontData in E.
  unfold pbind at 1 in E. destruct (parseDirectory d 0) as [t q0| |] eqn:H0; [|discriminate|].
  2:{ exfalso. assert (S : safe parseDirectory) by (unfold parseDirectory; sf). exact (S _ _ H0). }
  unfold pbind at 1 in E. destruct (parseHead t d q0) as [[[up bb] lf] q1| |] eqn:H1; [|discriminate|].
  2:{ exfalso. assert (S : safe (parseHead t)) by (unfold parseHead; sf). exact (S _ _ H1). }
  unfold pbind at 1 in E. destruct (parseHhea t d q1) as [[[as_ de] nhm] q2| |] eqn:H2; [|discriminate|].
  2:{ exfalso. assert (S : safe (parseHhea t)) by (unfold parseHhea; sf). exact (S _ _ H2). }
  unfold pbind at 1 in E. destruct (parseMaxp t d q2) as [ng q3| |] eqn:H3; [|discriminate|].
  2:{ exfalso. assert (S : safe (parseMaxp t)) by (unfold parseMaxp; sf). exact (S _ _ H3). }
  apply hhea_ok in H2 as (e & F & U). cbn [snd] in U.
  assert (RN : 0 <= nhm < 65536) by (eapply u16_range; eassumption).
  unfold pbind at 1 in E. destruct (parseHmtx t nhm ng d q3) as [ws q4| |] eqn:H4; [exfalso|discriminate|].
  2:{ apply hmtx_panic in H4 as [-> _]; [|lia]. exists (e_offset e), (e_length e). split; [eapply dir_ok; [reflexivity|exact H0|exact F]|exact U]. }
  revert E. match goal with |- ?p d q4 = PPanic -> False => assert (S : safe p) end.
  { unfold parseCmap4, parseCmap12, parseName, parseOS2, parsePost, parseLoca, parseKern.
    sf; try apply safe_parseChars; try apply safe_nameLoop; try apply safe_kernSubs. }
  apply S.
Qed.

(** ** C49 *)
Lemma kernPair_ok d pos x q : 0 <= pos -> kernPair d pos = POk x q ->
  (exists u, u16at d pos = Some (fst (fst x)) /\ u16at d (pos + 2) = Some (snd (fst x)) /\ u16at d (pos + 4) = Some u /\ snd x = s16 u) /\ q = pos + 6.
Proof.
  intros Hp H. unfold kernPair in H. repeat pstep. cbn [fst snd]. split; [|lia]. eexists. split; [eassumption|]. split; [eassumption|].
  replace (pos + 4) with (pos + 2 + 2) by lia. split; [eassumption|reflexivity].
Qed.
Lemma find_rev {A} (P : A -> bool) l : match find P (rev l) with
  | Some x => exists i, nth_error l i = Some x /\ P x = true /\ forall j y, (i < j)%nat -> nth_error l j = Some y -> P y = false
  | None => forall j y, nth_error l j = Some y -> P y = false
  end.
Proof.
  induction l as [|a l IH]; [intros [|j] y; discriminate|]. cbn [rev].
  assert (FA : forall l1 l2 : list A, find P (l1 ++ l2) = match find P l1 with Some x => Some x | None => find P l2 end).
  { clear. induction l1 as [|b l1 IH]; intros l2; [reflexivity|]. cbn. destruct (P b); [reflexivity|apply IH]. }
  rewrite FA. destruct (find P (rev l)) as [x|].
  - destruct IH as (i & I1 & I2 & I3). exists (S i). split; [exact I1|]. split; [exact I2|]. intros [|j] y Hj Hy; [lia|]. apply (I3 j y); [lia|exact Hy].
  - cbn. destruct (P a) eqn:E.
    + exists 0%nat. split; [reflexivity|]. split; [exact E|]. intros [|j] y Hj Hy; [lia|]. exact (IH j y Hy).
    + intros [|j] y Hy; cbn in Hy; [injection Hy as <-; exact E|exact (IH j y Hy)].
Qed.
(** With a single horizontal format-0 subtable, the kerning of a glyph pair is the value of its (last)
    entry in the table, and a pair without entry has none.  Missing: fonts with several subtables, see
    the refutation below. *)
Theorem C49_single_subtable_partial :
  forall d f kern n l r, isbytes d -> parseFont true d = Some (Some f) -> single_kern d kern n ->
    match kernValue true f l r with
    | Some v => exists i, 0 <= i < n /\ kern_pair d kern i l r v /\ forall j v', i < j < n -> ~ kern_pair d kern j l r v'
    | None => forall i v, 0 <= i < n -> ~ kern_pair d kern i l r v
    end.
Proof.
  intros d f kern n l r B H ((len & T) & S1 & S2 & S3).
  pose proof (parse_inv _ _ _ H) as P.
  destruct P as (q0 & HD & _ & _ & _ & _ & _ & _ & _ & _ & _ & _ & (q & q' & HK)).
  unfold parseKern in HK.
  destruct (tfind (t_tables f) tag_kern) as [e|] eqn:F.
  2:{ exfalso. unfold parseDirectory in HD. clear -HD F T.
      destruct T as (m & i & Hm & Hi & Ht & _). apply pbind_ok in HD as (v & w1 & H1 & H2).
      apply pread_ok in H1 as (-> & _ & _ & _); [|lia|lia]. destruct (negb (bytes_eqb v _)); [now apply perr_ok in H2|].
      apply pbind_ok in H2 as (m' & w2 & H2 & H3). apply readUShort_ok in H2 as [Hn ->]; [|lia].
      apply pbind_ok in H3 as (u & w3 & H3 & H4). apply pskip_ok in H3 as [_ ->].
      apply pbind_ok in H4 as (l & w4 & H4 & H5). apply pret_ok in H5 as [E ->].
      pose proof (times_len _ _ _ _ _ _ H4) as L.
      apply (times_ok readEntry 16 entry_at) in H4 as [-> H4]; [|lia|apply readEntry_ok|lia].
      change (0 + 4 + 2 + 6) with 12 in H4. change (0 + 4) with 4 in Hn. assert (m' = m) by congruence. subst m'.
      destruct (nth_error l (Z.to_nat i)) as [[k e']|] eqn:N; [|apply nth_error_None in N; lia].
      pose proof (H4 _ _ N) as (F1 & F2 & _). cbn [fst] in *. rewrite Z2Nat.id in F2 by lia.
      assert (k = tag_kern) by (apply list4_eq; [exact F1|reflexivity|intros i0 Hi0; rewrite F2 by exact Hi0; exact (Ht i0 Hi0)]). subst k.
      rewrite E in F. clear -N F. revert N F. generalize (Z.to_nat i). induction l as [|[k x] l IH]; intros [|n] N F; try discriminate.
      - cbn in N. injection N as -> ->. cbn [rev] in F. rewrite tfind_app in F. destruct (tfind (rev l) tag_kern); discriminate.
      - cbn [rev] in F. rewrite tfind_app in F. destruct (tfind (rev l) tag_kern) eqn:G; [discriminate|]. eapply IH; [exact N|reflexivity]. }
  destruct (table_at_fun _ _ _ _ _ _ T (parsed_tables _ _ _ _ _ H (eq_refl : zlen tag_kern = 4) F)) as [-> _].
  apply pbind_ok in HK as (u & w5 & H1 & HK). apply pseek_ok in H1 as [Pk ->].
  apply pbind_ok in HK as (ver & w6 & H1 & HK). apply readUShort_ok in H1 as [_ ->]; [|lia].
  apply pbind_ok in HK as (nt & w7 & H1 & HK). apply readUShort_ok in H1 as [Hnt ->]; [|lia].
  assert (nt = 1) by congruence. subst nt. apply pbind_ok in HK as (m & w8 & H1 & HK). apply pret_ok in HK as [Em ->].
  change (Z.to_nat 1) with 1%nat in H1. cbn [kernSubs] in H1. apply pbind_ok in H1 as (m' & w9 & H1 & H2). apply pret_ok in H2 as [-> ->].
  unfold kernSub in H1. apply pbind_ok in H1 as (u1 & w10 & K1 & H1). apply pskip_ok in K1 as [_ ->].
  apply pbind_ok in H1 as (cov & w11 & K1 & H1). apply readUShort_ok in K1 as [Hc ->]; [|lia].
  assert (cov = 1) by (replace (e_offset e + 2 + 2 + 4) with (e_offset e + 8) in Hc by lia; congruence). subst cov.
  change (negb (Z.land 1 240 =? 0)) with false in H1. cbv iota in H1.
  apply pbind_ok in H1 as (np & w12 & K1 & H1). apply readUShort_ok in K1 as [Hp ->]; [|lia].
  assert (np = n) by (replace (e_offset e + 2 + 2 + 4 + 2) with (e_offset e + 10) in Hp by lia; congruence). subst np.
  apply pbind_ok in H1 as (u2 & w13 & K1 & H1). apply pskip_ok in K1 as [_ ->].
  apply pbind_ok in H1 as (ps & w14 & K1 & H1). apply pret_ok in H1 as [-> ->].
  assert (Rn : 0 <= n < 65536) by (eapply u16_range; eassumption).
  pose proof (times_len _ _ _ _ _ _ K1) as L.
  apply (times_ok kernPair 6 (fun d p x => exists u, u16at d p = Some (fst (fst x)) /\ u16at d (p + 2) = Some (snd (fst x)) /\ u16at d (p + 4) = Some u /\ snd x = s16 u)) in K1 as [-> K1];
    [|lia|apply kernPair_ok|lia].
  assert (KP : forall i x, nth_error ps i = Some x -> kern_pair d (e_offset e) (Z.of_nat i) (fst (fst x)) (snd (fst x)) (snd x)).
  { intros i x Hx. destruct (K1 i x Hx) as (u3 & Q1 & Q2 & Q3 & Q4). exists u3.
    replace (e_offset e + 18 + 6 * Z.of_nat i) with (e_offset e + 2 + 2 + 4 + 2 + 2 + 6 + 6 * Z.of_nat i) by lia.
    repeat split; assumption. }
  unfold kernValue. rewrite Em.
  pose proof (find_rev (fun x : Z * Z * Z => (fst (fst x) =? l) && (snd (fst x) =? r)) ps) as FR.
  assert (NB : forall i v x, 0 <= i < n -> kern_pair d (e_offset e) i l r v -> nth_error ps (Z.to_nat i) = Some x ->
     (fst (fst x) =? l) && (snd (fst x) =? r) = true).
  { intros i v x Hi (u3 & Q1 & Q2 & _) Hx. destruct (KP _ _ Hx) as (u4 & W1 & W2 & _). rewrite Z2Nat.id in W1, W2 by lia.
    rewrite W1 in Q1. rewrite W2 in Q2. injection Q1 as ->. injection Q2 as ->. now rewrite !Z.eqb_refl. }
  destruct (find _ (rev ps)) as [[[a b] v]|].
  - destruct FR as (i & I1 & I2 & I3). cbn [fst snd] in I2. apply andb_prop in I2 as [A1 A2]. apply Z.eqb_eq in A1, A2. subst a b.
    assert (Hi : (i < List.length ps)%nat) by (apply nth_error_Some; congruence).
    exists (Z.of_nat i). split; [lia|]. split; [exact (KP _ _ I1)|]. intros j v' Hj KJ.
    destruct (nth_error ps (Z.to_nat j)) as [y|] eqn:Ny; [|apply nth_error_None in Ny; lia].
    specialize (I3 (Z.to_nat j) y ltac:(lia) Ny). rewrite (NB j v' y ltac:(lia) KJ Ny) in I3. discriminate.
  - intros i v Hi KI. destruct (nth_error ps (Z.to_nat i)) as [y|] eqn:Ny; [|apply nth_error_None in Ny; lia].
    specialize (FR _ _ Ny). rewrite (NB i v y Hi KI Ny) in FR. discriminate.
Qed.

(** ** Concrete fonts *)
Definition b16 (v : Z) : bytes := [v / 256 mod 256; v mod 256].
Definition b32 (v : Z) : bytes := [v / 16777216 mod 256; v / 65536 mod 256; v / 256 mod 256; v mod 256].
Definition zeros (n : nat) : bytes := repeat 0 n.
Fixpoint fdir (off : Z) (ts : list (bytes * bytes)) : bytes :=
  match ts with
  | [] => []
  | (tag, dt) :: r => tag ++ b32 0 ++ b32 off ++ b32 (zlen dt) ++ fdir (off + zlen dt) r
  end.
Definition mkfont (ts : list (bytes * bytes)) : bytes :=
  [0; 1; 0; 0] ++ b16 (zlen ts) ++ zeros 6 ++ fdir (12 + 16 * zlen ts) ts ++ List.concat (map snd ts).
(** Every table is given a multiple of four bytes. *)
Definition mk_head (upem : Z) := zeros 12 ++ b32 0x5F0F3CF5 ++ zeros 2 ++ b16 upem ++ zeros 16 ++ zeros 8 ++ zeros 6 ++ b16 1 ++ zeros 4.
Definition mk_hhea (n : Z) := zeros 4 ++ b16 800 ++ b16 (65536 - 200) ++ zeros 26 ++ b16 n.
Definition mk_maxp (n : Z) := zeros 4 ++ b16 n ++ zeros 2.
Definition mk_hmtx (ws : list Z) := flat_map (fun w => b16 w ++ zeros 2) ws.
Definition mk_name := b16 0 ++ b16 1 ++ b16 18 ++ zeros 6 ++ b16 6 ++ b16 1 ++ b16 0 ++ bs "F" ++ zeros 1.
Definition mk_os2 := zeros 80.
Definition mk_post := zeros 16.
Definition mk_cmap4 (len : Z) (ends starts deltas ros gids : list Z) : bytes :=
  b16 0 ++ b16 1 ++ b16 3 ++ b16 1 ++ b32 12 ++
  b16 4 ++ b16 len ++ zeros 2 ++ b16 (2 * zlen ends) ++ zeros 6 ++ flat_map b16 ends ++ zeros 2 ++ flat_map b16 starts ++
  flat_map b16 deltas ++ flat_map b16 ros ++ flat_map b16 gids.
(** A font with [nhm] metrics, the given cmap, and four glyphs: 0 and 1 simple, 2 composite of 1, 3
    composite of 2 (10-byte glyphs padded to 12; composites 10 + 6 padded to 16). *)
Definition gl_simple : bytes := b16 0 ++ zeros 10.
Definition gl_comp (g : Z) : bytes := b16 65535 ++ zeros 8 ++ b16 0 ++ b16 g ++ zeros 2.
Definition mk_glyf : bytes := gl_simple ++ gl_simple ++ gl_comp 1 ++ gl_comp 2.
Definition mk_loca : bytes := flat_map b32 [0; 12; 24; 40; 56].
Definition font_with (nhm : Z) (cmap : bytes) (extra : list (bytes * bytes)) : bytes :=
  mkfont ([(bs "head", mk_head 2000); (bs "hhea", mk_hhea nhm); (bs "maxp", mk_maxp 4); (bs "hmtx", mk_hmtx (map (fun k => 500 + 100 * Z.of_nat k) (seq 0 (Z.to_nat nhm))));
           (bs "cmap", cmap); (bs "name", mk_name); (bs "OS/2", mk_os2); (bs "post", mk_post);
           (bs "loca", mk_loca); (bs "glyf", mk_glyf)] ++ extra).
Definition good_cmap : bytes := mk_cmap4 (16 + 16 + 6) [67; 65535] [65; 65535] [0; 1] [4; 0] [1; 2; 3].
Definition good_font : bytes := font_with 2 good_cmap [(bs "kern", b16 0 ++ b16 1 ++ b16 0 ++ b16 26 ++ b16 1 ++ b16 2 ++ zeros 6 ++ b16 1 ++ b16 2 ++ b16 (65536 - 40) ++ b16 2 ++ b16 3 ++ b16 30)].
Example good_font_parses : match parseFont true good_font with
  | Some (Some f) => (t_upem f, t_nHM f, t_nGlyphs f, t_widths f, t_loca f) = (2000, 2, 4, [500; 600; 600; 600], [0; 12; 24; 40; 56]) /\
      map (charToGlyph f) [64; 65; 66; 67; 68; 65535; 70000] = [NotFound; Found 1; Found 2; Found 3; NotFound; Found 0; NotFound] /\
      map (glyphWidth f) [0; 1; 2; 3; 99] = [Some 250; Some 300; Some 300; Some 300; Some 300] /\
      kernValue true f 1 2 = Some (-40) /\ kernValue true f 2 3 = Some 30 /\ kernValue true f 1 3 = None
  | _ => False end.
Proof. vm_compute. repeat split. Qed.
Example good_font_bytes : isbytes good_font.
Proof.
  intros b. assert (F : forallb (fun x => (0 <=? x) && (x <? 256)) good_font = true) by (vm_compute; reflexivity).
  rewrite forallb_forall in F. intros H. specialize (F b H). lia.
Qed.

(** C26: fonts that are accepted but make the lookup panic.  (1) the last segment does not end at 0xFFFF:
    any character above it. *)
Theorem C26_no_final_segment_refuted :
  match parseFont false (font_with 2 (mk_cmap4 24 [67] [65] [0] [0] []) []) with
  | Some (Some f) => charToGlyph f 66 = Found 66 /\ charToGlyph f 200 = LCrash
  | _ => False end.
Proof. vm_compute. split; reflexivity. Qed.
(** (2) a range offset that points behind the subtable's declared length. *)
Theorem C26_range_offset_refuted :
  match parseFont false (font_with 2 (mk_cmap4 32 [67; 65535] [65; 65535] [0; 1] [4; 0] [1; 2; 3]) []) with
  | Some (Some f) => charToGlyph f 66 = LCrash
  | _ => False end.
Proof. vm_compute. reflexivity. Qed.

(** C27: unitsPerEm = 0 is accepted and makes the width computation divide by zero. *)
Theorem C27_zero_em_refuted :
  let d := mkfont [(bs "head", mk_head 0); (bs "hhea", mk_hhea 1); (bs "maxp", mk_maxp 4); (bs "hmtx", mk_hmtx [500]);
           (bs "cmap", good_cmap); (bs "name", mk_name); (bs "OS/2", mk_os2); (bs "post", mk_post); (bs "loca", mk_loca)] in
  match parseFont false d with Some (Some f) => glyphWidth f 0 = None | _ => False end.
Proof. vm_compute. reflexivity. Qed.

(** C50: zero horizontal metrics make the parser panic instead of returning an error. *)
Theorem C50_zero_hmetrics_panic_refuted : parseFont false (font_with 0 good_cmap []) = None.
Proof. vm_compute. reflexivity. Qed.

(** C49: with two subtables only the pairs of the second one are known. *)
Definition two_kerns : bytes :=
  b16 0 ++ b16 2 ++ (b16 0 ++ b16 20 ++ b16 1 ++ b16 1 ++ zeros 6 ++ b16 1 ++ b16 2 ++ b16 (65536 - 40))
         ++ (b16 0 ++ b16 20 ++ b16 1 ++ b16 1 ++ zeros 6 ++ b16 2 ++ b16 3 ++ b16 30).
Theorem C49_two_subtables_refuted :
  match parseFont true (font_with 2 good_cmap [(bs "kern", two_kerns)]) with
  | Some (Some f) => kernValue true f 1 2 = None /\ kernValue true f 2 3 = Some 30
  | _ => False end.
Proof. vm_compute. split; reflexivity. Qed.
(** C49: the format is in the high byte of the coverage word, but the code looks at bits 4-7; a format 2
    (class-based) subtable is read as if it were a list of pairs.  Here its row width (6), class-table
    and array offsets become "pairs". *)
Definition kern_format2 : bytes :=
  b16 0 ++ b16 1 ++ (b16 0 ++ b16 26 ++ b16 513 ++ b16 2 ++ b16 8 ++ b16 14 ++ b16 20 ++ b16 1 ++ b16 1 ++ b16 20 ++ b16 2 ++ b16 1 ++ b16 0 ++ zeros 2).
Theorem C49_format2_misread_refuted :
  match parseFont true (font_with 2 good_cmap [(bs "kern", kern_format2)]) with
  | Some (Some f) => kernValue true f 1 1 = Some 20
  | _ => False end.
Proof. vm_compute. reflexivity. Qed.

(** Concrete instances of the hypotheses of the positive theorems. *)
Lemma good_subtable31 : subtable31 good_font (12 + 16 * 11 + 56 + 36 + 8 + 8 + 12) /\ segments good_font (12 + 16 * 11 + 56 + 36 + 8 + 8 + 12) 2.
Proof.
  split; [|exists 4; split; vm_compute; reflexivity].
  exists (12 + 16 * 11 + 56 + 36 + 8 + 8), 50, 1, 0, 12. split; [|split; [vm_compute; reflexivity|split; [lia|split; [repeat split; vm_compute; reflexivity|split; [reflexivity|intros; lia]]]]].
  exists 11, 4. split; [vm_compute; reflexivity|]. split; [lia|]. split.
  - intros i Hi. assert (C : i = 0 \/ i = 1 \/ i = 2 \/ i = 3) by lia. destruct C as [->|[->|[->| ->]]]; vm_compute; reflexivity.
  - split; [vm_compute; reflexivity|]. split; [vm_compute; reflexivity|].
    intros j Hj X. specialize (X 0 ltac:(lia)).
    assert (C : j = 5 \/ j = 6 \/ j = 7 \/ j = 8 \/ j = 9 \/ j = 10) by lia.
    destruct C as [->|[->|[->|[->|[->| ->]]]]]; vm_compute in X; discriminate X.
Qed.
(** C25 applied to the concrete font: the lookup of 'B' (66) is, by the OpenType rules, glyph 2. *)
Example C25_instance : f4_glyph good_font (12 + 16 * 11 + 56 + 36 + 8 + 8 + 12) 2 66 2.
Proof.
  pose proof good_font_parses as G. destruct (parseFont true good_font) as [[f|]|] eqn:P; try contradiction.
  destruct G as (_ & G & _). destruct good_subtable31 as [S1 S2].
  pose proof (C25_bmp_lookup_follows_cmap true good_font f _ 2 66 good_font_bytes P S1 S2) as T.
  cbn [map] in G. injection G as _ _ G66 _ _ _ _. rewrite G66 in T. apply T; [|lia].
  intros seg ro Hs. assert (C : seg = 0 \/ seg = 1) by lia. destruct C as [->| ->]; vm_compute; intros E; injection E as <-; reflexivity.
Qed.

Print Assumptions C25_bmp_lookup_follows_cmap.
Print Assumptions C25_supplementary_lookup_follows_cmap.
Print Assumptions C25_no_supplementary_subtable.
Print Assumptions C26_lookup_safe_partial.
Print Assumptions C26_no_final_segment_refuted.
Print Assumptions C26_range_offset_refuted.
Print Assumptions C27_width_from_hmtx.
Print Assumptions C27_width_total.
Print Assumptions C27_zero_em_refuted.
Print Assumptions C49_single_subtable_partial.
Print Assumptions C49_two_subtables_refuted.
Print Assumptions C49_format2_misread_refuted.
Print Assumptions C50_reads_are_in_the_file.
Print Assumptions C50_truncation_is_an_error_or_harmless.
Print Assumptions C50_no_panic_partial.
Print Assumptions C50_zero_hmetrics_panic_refuted.
