(** FontOutFile.v — reading back the file makeFont builds, and the parsed font as a view of the file. *)
From Verif Require Import Base TtfModel TtfSpec TtfProofs SubsetModel PropTtf FontOutModel FontOutSpec FontOutProofs.

(** ** The parsed font says what the file says *)
Definition row_at (d : bytes) (p : Z) (x : bytes * tentry) : Prop := entry_at d p x /\ u32at d (p + 4) = Some (e_check (snd x)).
Lemma readEntry_row d pos x q : 0 <= pos -> readEntry d pos = POk x q -> row_at d pos x /\ q = pos + 16.
Proof.
  intros Hp H. pose proof (readEntry_ok _ _ _ _ Hp H) as [A B]. split; [|exact B]. split; [exact A|]. unfold readEntry in H.
  apply pbind_ok in H as (tag & r & H1 & H2). apply pread_ok in H1 as (-> & L & N & _); [|lia|exact Hp]. repeat pstep. cbn [snd e_check]. assumption.
Qed.
Lemma table_row_at d tag c o l : table_row d tag c o l -> table_at d tag o l.
Proof. intros (n & i & A & B & C & _ & D & E & F). exists n, i. auto 10. Qed.
Lemma table_at_row d tag o l : table_at d tag o l -> exists c, table_row d tag c o l.
Proof.
  intros (n & i & A & B & C & D & E & F).
  assert (X : exists c, u32at d (12 + 16 * i + 4) = Some c).
  { assert (R8 : 12 + 16 * i + 8 < zlen d).
    { unfold u32at in D. destruct (u16at d (12 + 16 * i + 8)) eqn:U; [|discriminate]. apply u16at_some in U. lia. }
    unfold u32at, u16at. 
    destruct (u8at_in d (12 + 16 * i + 4)) as [? ->]; [lia|]. destruct (u8at_in d (12 + 16 * i + 4 + 1)) as [? ->]; [lia|].
    destruct (u8at_in d (12 + 16 * i + 4 + 2)) as [? ->]; [lia|]. destruct (u8at_in d (12 + 16 * i + 4 + 2 + 1)) as [? ->]; [lia|]. eauto. }
  destruct X as [c X]. exists c, n, i. auto 10.
Qed.
Lemma table_row_fun d tag c o l c' o' l' : table_row d tag c o l -> table_row d tag c' o' l' -> c = c' /\ o = o' /\ l = l'.
Proof.
  intros (n & i & N & I & T & K & A & B & L) (n' & i' & N' & I' & T' & K' & A' & B' & L').
  assert (n = n') by congruence. subst n'.
  assert (i = i') by (destruct (Z.lt_total i i') as [X|[X|X]]; [exfalso; apply (L i'); [lia|exact T']|exact X|exfalso; apply (L' i); [lia|exact T]]).
  subst i'. rewrite A in A'. rewrite B in B'. rewrite K in K'. injection A' as ->. injection B' as ->. injection K' as ->. auto.
Qed.
(** tfind agrees with the directory, both ways. *)
Lemma tfind_row uk d f tag : parseFont uk d = Some (Some f) -> zlen tag = 4 ->
  match tfind (t_tables f) tag with
  | Some e => table_row d tag (e_check e) (e_offset e) (e_length e)
  | None => forall o l, ~ table_at d tag o l
  end.
Proof.
  intros H T4. apply parse_inv in H as (q0 & H & _). unfold parseDirectory in H. apply pbind_ok in H as (v & r & H1 & H2).
  apply pread_ok in H1 as (-> & _ & _ & _); [|lia|lia].
  destruct (negb (bytes_eqb v _)); [now apply perr_ok in H2|].
  apply pbind_ok in H2 as (n & r & H2 & H3). apply readUShort_ok in H2 as [Hn ->]; [|lia].
  apply pbind_ok in H3 as (u & r & H3 & H4). apply pskip_ok in H3 as [_ ->].
  apply pbind_ok in H4 as (l & r & H4 & H5). apply pret_ok in H5 as [-> ->].
  pose proof (times_len _ _ _ _ _ _ H4) as L.
  apply (times_ok readEntry 16 row_at) in H4 as [-> H4]; [|lia|apply readEntry_row|lia].
  change (0 + 4 + 2 + 6) with 12 in H4. change (0 + 4) with 4 in Hn.
  destruct (tfind (rev l) tag) as [e|] eqn:F.
  - apply tfind_rev in F as (i & Hi & Hl).
    assert (Hlen : (i < List.length l)%nat) by (apply nth_error_Some; congruence).
    exists n, (Z.of_nat i). pose proof (H4 i _ Hi) as ((E1 & E2 & E3 & E4) & E5). cbn [fst snd] in *.
    split; [exact Hn|]. split; [lia|]. split; [intros k Hk; rewrite <- E2 by exact Hk; reflexivity|]. split; [exact E5|]. split; [exact E3|]. split; [exact E4|].
    intros j Hj Hj'. destruct (nth_error l (Z.to_nat j)) as [[k e']|] eqn:NJ; [|apply nth_error_None in NJ; lia].
    apply (Hl (Z.to_nat j) k e'); [lia|exact NJ|].
    pose proof (H4 _ _ NJ) as ((F1 & F2 & _) & _). cbn [fst] in *. apply list4_eq; [exact F1|exact T4|].
    intros i0 Hi0. rewrite F2 by exact Hi0. specialize (Hj' i0 Hi0). rewrite Z2Nat.id by lia. exact Hj'.
  - intros o l0 (m & i & Hm & Hi & Ht & _). assert (m = n) by congruence. subst m.
    destruct (nth_error l (Z.to_nat i)) as [[k e']|] eqn:N; [|apply nth_error_None in N; lia].
    pose proof (H4 _ _ N) as ((F1 & F2 & _) & _). cbn [fst] in *. rewrite Z2Nat.id in F2 by lia.
    assert (k = tag) by (apply list4_eq; [exact F1|exact T4|intros i0 Hi0; rewrite F2 by exact Hi0; exact (Ht i0 Hi0)]). subst k.
    clear -N F. revert N F. generalize (Z.to_nat i). induction l as [|[k x] l IH]; intros [|n] N F; try discriminate.
    + cbn in N. injection N as -> ->. cbn [rev] in F. rewrite tfind_app in F. destruct (tfind (rev l) tag); [discriminate|].
      cbn in F. assert (R : bytes_eqb tag tag = true) by now apply bytes_eqb_eq. rewrite R in F. discriminate.
    + cbn [rev] in F. rewrite tfind_app in F. destruct (tfind (rev l) tag) eqn:G; [discriminate|]. eapply IH; [exact N|reflexivity].
Qed.

Lemma head_fmt t d q x q' : parseHead t d q = POk x q' ->
  exists e v, tfind t tag_head = Some e /\ u16at d (e_offset e + 50) = Some v /\ snd x = s16 v.
Proof.
  intros H. unfold parseHead in H. apply pbind_ok in H as (u & r & H1 & H). apply seekTag_ok in H1 as (e & F & -> & P).
  apply pbind_ok in H as (u1 & r & H1 & H). apply pskip_ok in H1 as [_ ->].
  apply pbind_ok in H as (m & r & H1 & H). apply readULong_ok in H1 as [_ ->]; [|lia].
  destruct (negb (m =? 0x5F0F3CF5)); [now apply perr_ok in H|].
  apply pbind_ok in H as (u2 & r & H1 & H). apply pskip_ok in H1 as [_ ->].
  apply pbind_ok in H as (up & r & H1 & H). apply readUShort_ok in H1 as [_ ->]; [|lia].
  apply pbind_ok in H as (u3 & r & H1 & H). apply pskip_ok in H1 as [_ ->].
  apply pbind_ok in H as (x0 & r & H1 & H). apply readShort_ok in H1 as (wq & _ & _ & ->); [clear wq|lia].
  apply pbind_ok in H as (y0 & r & H1 & H). apply readShort_ok in H1 as (wq & _ & _ & ->); [clear wq|lia].
  apply pbind_ok in H as (x1 & r & H1 & H). apply readShort_ok in H1 as (wq & _ & _ & ->); [clear wq|lia].
  apply pbind_ok in H as (y1 & r & H1 & H). apply readShort_ok in H1 as (wq & _ & _ & ->); [clear wq|lia].
  apply pbind_ok in H as (u4 & r & H1 & H). apply pskip_ok in H1 as [_ ->].
  apply pbind_ok in H as (fm & r & H1 & H). apply readShort_ok in H1 as (v & V & -> & ->); [|lia].
  apply pret_ok in H as [-> ->]. exists e, v. split; [exact F|]. split; [|reflexivity].
  replace (e_offset e + 50) with (e_offset e + 12 + 4 + 2 + 2 + 16 + 2 + 2 + 2 + 2 + 6) by lia. exact V.
Qed.
Lemma u16at_fun d p v w : u16at d p = Some v -> u16at d p = Some w -> v = w. Proof. congruence. Qed.
Lemma loca_format_parsed uk d f fmt : isbytes d -> parseFont uk d = Some (Some f) -> loca_format d fmt -> t_locFormat f = s16 fmt.
Proof.
  intros B H (head & l & T & _ & U). pose proof (parse_inv _ _ _ H) as (q0 & _ & (qa & qb & HH) & _).
  apply head_fmt in HH as (e & v & F & V & E). pose proof (tfind_row _ _ _ _ H (eq_refl : zlen tag_head = 4)) as R. rewrite F in R.
  apply table_row_at in R. destruct (table_at_fun _ _ _ _ _ _ T R) as [-> _]. cbn [snd] in E. rewrite E. f_equal. congruence.
Qed.
Lemma loca_parsed uk d f : parseFont uk d = Some (Some f) -> exists e, tfind (t_tables f) tag_loca = Some e /\
  if t_locFormat f =? 0
  then zlen (t_loca f) = Z.max 0 (e_length e / 2) /\ forall i, 0 <= i < zlen (t_loca f) -> exists h, u16at d (e_offset e + 2 * i) = Some h /\ zth (t_loca f) i = Some (2 * h)
  else zlen (t_loca f) = Z.max 0 (e_length e / 4) /\ forall i, 0 <= i < zlen (t_loca f) -> exists h, u32at d (e_offset e + 4 * i) = Some h /\ zth (t_loca f) i = Some h.
Proof.
  intros H. pose proof (parse_inv _ _ _ H) as (q0 & _ & _ & _ & _ & _ & _ & _ & _ & _ & _ & (qa & qb & HL) & _).
  unfold parseLoca in HL. destruct (tfind (t_tables f) tag_loca) as [e|]; [|now apply perr_ok in HL].
  apply pbind_ok in HL as (u & r & H1 & HL). apply pseek_ok in H1 as [P ->]. exists e. split; [reflexivity|].
  destruct (t_locFormat f =? 0).
  - apply pbind_ok in HL as (l & r & H1 & HL). apply pret_ok in HL as [-> ->].
    apply times_u16 in H1 as (-> & L & N); [|exact P]. assert (LL : zlen (map (fun v => v * 2) l) = Z.max 0 (e_length e / 2)).
    { unfold zlen. rewrite map_length, L. lia. }
    split; [exact LL|]. intros i Hi. exists (nth (Z.to_nat i) l 0). split; [apply N; lia|].
    rewrite (zth_in _ _ 0 Hi). f_equal. rewrite (nth_indep _ 0 (0 * 2)) by (unfold zlen in Hi; lia). rewrite (map_nth (fun v => v * 2)). lia.
  - pose proof (times_len _ _ _ _ _ _ HL) as L. apply (times_ok _ 4 (fun d p v => u32at d p = Some v)) in HL as [-> HL]; [|lia| |exact P].
    2:{ intros d0 p0 a q Hp0 HR. now apply readULong_ok. }
    split; [unfold zlen; rewrite L; lia|]. intros i Hi. exists (nth (Z.to_nat i) (t_loca f) 0).
    assert (NE : nth_error (t_loca f) (Z.to_nat i) = Some (nth (Z.to_nat i) (t_loca f) 0)) by (apply nth_error_nth'; unfold zlen in Hi; lia).
    split; [|now apply zth_in]. specialize (HL _ _ NE). rewrite Z2Nat.id in HL by lia. exact HL.
Qed.
Lemma loca_zth uk d f g a : isbytes d -> parseFont uk d = Some (Some f) -> loca_entry d g a ->
  zth (t_loca f) g = Some a /\ 0 <= a /\ (if t_locFormat f =? 0 then a mod 2 = 0 /\ a < 131072 else a < 2 ^ 32).
Proof.
  intros B H (fmt & loca & l & F & T & G0 & C). pose proof (loca_format_parsed _ _ _ _ B H F) as EF.
  destruct (loca_parsed _ _ _ H) as (e & FE & P). pose proof (tfind_row _ _ _ _ H (eq_refl : zlen tag_loca = 4)) as R. rewrite FE in R.
  apply table_row_at in R. destruct (table_at_fun _ _ _ _ _ _ T R) as [-> ->].
  destruct C as [(-> & L & h & U & ->)|(-> & L & U)].
  - change (s16 0) with 0 in EF. rewrite EF in *. cbn [Z.eqb] in *. destruct P as [PL PN]. destruct (PN g) as (h' & U' & Z'); [rewrite PL; lia|].
    assert (h' = h) by congruence. subst h'. pose proof (u16_range _ _ _ B U). split; [exact Z'|]. split; [lia|]. split; lia.
  - change (s16 1) with 1 in EF. rewrite EF in *. cbn [Z.eqb] in *. destruct P as [PL PN]. destruct (PN g) as (h' & U' & Z'); [rewrite PL; lia|].
    assert (h' = a) by congruence. subst h'. pose proof (u32_range _ _ _ B U). split; [exact Z'|]. lia.
Qed.
Lemma bytes_at_slice d p n : 0 <= p -> 0 <= n -> p + n <= zlen d -> bytes_at d p (slice d p n) /\ zlen (slice d p n) = n.
Proof.
  intros P N L. assert (Z : zlen (slice d p n) = n) by (unfold slice, zlen in *; rewrite firstn_length, skipn_length; lia).
  split; [|exact Z]. split; [exact P|]. intros i Hi. rewrite Z in Hi. symmetry. now apply slice_nth.
Qed.
Lemma bytes_at_inj d p s s' : bytes_at d p s -> bytes_at d p s' -> zlen s = zlen s' -> s = s'.
Proof.
  intros [_ A] [_ B] L. apply u8at_ext. intros i. destruct (Z.ltb_spec i 0); [now rewrite !u8at_neg by lia|].
  destruct (Z.ltb_spec i (zlen s)); [|now rewrite !u8at_out by lia].
  specialize (A i ltac:(lia)). specialize (B i ltac:(lia)). unfold u8at. destruct (i <? 0) eqn:E; [lia|]. congruence.
Qed.
Lemma bytes_at_len d p s : bytes_at d p s -> s <> [] -> p + zlen s <= zlen d.
Proof.
  intros [P A] NE. assert (1 <= zlen s) by (destruct s; [congruence|rewrite zlen_cons; pose proof (zlen_nonneg s); lia]).
  specialize (A (zlen s - 1) ltac:(lia)). destruct (nth_error s (Z.to_nat (zlen s - 1))) eqn:N.
  - apply u8at_some in A. lia.
  - apply nth_error_None in N. unfold zlen in *. lia.
Qed.
Lemma glyf_off uk d f o l : parseFont uk d = Some (Some f) -> table_at d (bs "glyf") o l -> glyfOff f = o.
Proof.
  intros H T. unfold glyfOff, entryOf. pose proof (tfind_row _ _ _ _ H (eq_refl : zlen tag_glyf = 4)) as R.
  destruct (tfind (t_tables f) tag_glyf) as [e|]; [|exfalso; exact (R _ _ T)].
  apply table_row_at in R. exact (proj1 (table_at_fun _ _ _ _ _ _ R T)).
Qed.
(** A readable outline is exactly what getGlyphData returns. *)
Lemma glyph_data_bytes uk d f g data : isbytes d -> parseFont uk d = Some (Some f) -> glyph_data d g data ->
  exists a b, zth (t_loca f) g = Some a /\ zth (t_loca f) (g + 1) = Some b /\ a <= b /\ zlen data = b - a /\
    bytes_at d (glyfOff f + a) data /\ glyphBytes d f g = Some data /\ glyphSize f g = Some (zlen data) /\
    0 <= a /\ (if t_locFormat f =? 0 then a mod 2 = 0 /\ b mod 2 = 0 /\ b < 131072 else b < 2 ^ 32).
Proof.
  intros B H (a & b & glyf & l & LA & LB & TG & AB & BL & ZD & BA). rewrite <- (glyf_off _ _ _ _ _ H TG) in BA.
  apply (loca_zth _ _ _ _ _ B H) in LA as (ZA & A0 & RA). apply (loca_zth _ _ _ _ _ B H) in LB as (ZB & _ & RB).
  exists a, b. split; [exact ZA|]. split; [exact ZB|]. split; [exact AB|]. split; [exact ZD|]. split; [exact BA|].
  unfold glyphBytes, glyphSize. rewrite ZA, ZB. split; [|split; [f_equal; lia|]].
  - destruct (b - a <=? 0) eqn:E.
    + assert (zlen data = 0) by lia. destruct data; [reflexivity|rewrite zlen_cons in H0; pose proof (zlen_nonneg data); lia].
    + assert (NE : data <> []) by (intros ->; rewrite zlen_nil in ZD; lia). pose proof (bytes_at_len _ _ _ BA NE) as BL2.
      destruct (glyfOff f + b <=? zlen d) eqn:E2; [|lia]. f_equal.
      destruct BA as [P0 BA0]. destruct (bytes_at_slice d (glyfOff f + a) (b - a)) as [S1 S2]; [exact P0|lia|lia|].
      eapply bytes_at_inj; [exact S1|split; [exact P0|exact BA0]|lia].
  - split; [exact A0|]. destruct (t_locFormat f =? 0); [lia|exact RB].
Qed.
Lemma num_glyphs_parsed uk d f n : parseFont uk d = Some (Some f) -> num_glyphs d n -> t_nGlyphs f = n.
Proof.
  intros H (m & l & T & U). pose proof (parse_inv _ _ _ H) as (q0 & _ & _ & _ & (qa & qb & HM) & _). apply maxp_ok in HM as (e & F & V).
  pose proof (tfind_row _ _ _ _ H (eq_refl : zlen tag_maxp = 4)) as R. rewrite F in R. apply table_row_at in R.
  destruct (table_at_fun _ _ _ _ _ _ T R) as [-> _]. congruence.
Qed.
Lemma parsed_num_glyphs uk d f : parseFont uk d = Some (Some f) -> num_glyphs d (t_nGlyphs f).
Proof.
  intros H. pose proof (parse_inv _ _ _ H) as (q0 & _ & _ & _ & (qa & qb & HM) & _). apply maxp_ok in HM as (e & F & V).
  pose proof (tfind_row _ _ _ _ H (eq_refl : zlen tag_maxp = 4)) as R. rewrite F in R. apply table_row_at in R.
  exists (e_offset e), (e_length e). split; assumption.
Qed.

(** ** The file makeFont builds *)
Lemma bytes_at_u32 d p s i v : bytes_at d p s -> u32at s i = Some v -> u32at d (p + i) = Some v.
Proof.
  intros B U. unfold u32at in *. destruct (u16at s i) eqn:U1; [|discriminate]. destruct (u16at s (i + 2)) eqn:U2; [|discriminate].
  rewrite (bytes_at_u16 _ _ _ _ _ B U1). replace (p + i + 2) with (p + (i + 2)) by lia. now rewrite (bytes_at_u16 _ _ _ _ _ B U2).
Qed.
Lemma bytes_at_app A s B : bytes_at (A ++ s ++ B) (zlen A) s.
Proof.
  split; [apply zlen_nonneg|]. intros i Hi. rewrite u8at_app_r by lia. rewrite u8at_app_l by lia. unfold u8at. destruct (i <? 0) eqn:E; [lia|reflexivity].
Qed.
Lemma u32bytes_val v : 0 <= v < 2 ^ 32 -> u32at (u32bytes v) 0 = Some v.
Proof.
  intros H. change (2 ^ 32) with 4294967296 in H. unfold u32bytes, byte. rewrite !Z.shiftr_div_pow2 by lia.
  change (2 ^ 24) with 16777216. change (2 ^ 16) with 65536. change (2 ^ 8) with 256.
  assert (E : forall a b c e : Z, u32at [a; b; c; e] 0 = Some (65536 * (256 * a + b) + (256 * c + e))) by reflexivity. rewrite E. f_equal. lia.
Qed.
Lemma u16bytes_val v : 0 <= v < 65536 -> u16at (u16bytes v) 0 = Some v.
Proof.
  intros H. unfold u16bytes, byte. rewrite !Z.shiftr_div_pow2 by lia. change (2 ^ 8) with 256.
  assert (E : forall a b : Z, u16at [a; b] 0 = Some (256 * a + b)) by reflexivity. rewrite E. f_equal. lia.
Qed.
Lemma u32at_app_r A b i : 0 <= i -> u32at (A ++ b) (zlen A + i) = u32at b i.
Proof.
  intros H. unfold u32at, u16at. rewrite <- !Z.add_assoc. rewrite !u8at_app_r by lia. reflexivity.
Qed.
Lemma u32at_app_l b c i v : u32at b i = Some v -> u32at (b ++ c) i = Some v.
Proof.
  unfold u32at. destruct (u16at b i) eqn:A; [|discriminate]. destruct (u16at b (i + 2)) eqn:B; [|discriminate].
  now rewrite (u16at_app_l _ _ _ _ A), (u16at_app_l _ _ _ _ B).
Qed.
Lemma entry16_read tag c o l : zlen tag = 4 -> 0 <= c < 2 ^ 32 -> 0 <= o < 2 ^ 32 -> 0 <= l < 2 ^ 32 ->
  zlen (entry16 tag c o l) = 16 /\ u32at (entry16 tag c o l) 4 = Some c /\ u32at (entry16 tag c o l) 8 = Some o /\ u32at (entry16 tag c o l) 12 = Some l.
Proof.
  intros T C O L. unfold entry16. split; [rewrite !zlen_app, T; reflexivity|]. split; [|split].
  - replace 4 with (zlen tag + 0) by lia. rewrite u32at_app_r by lia. apply u32at_app_l. now apply u32bytes_val.
  - rewrite app_assoc. replace 8 with (zlen (tag ++ u32bytes c) + 0) by (rewrite zlen_app, T; reflexivity). rewrite u32at_app_r by lia. apply u32at_app_l. now apply u32bytes_val.
  - rewrite 2!app_assoc. replace 12 with (zlen ((tag ++ u32bytes c) ++ u32bytes o) + 0) by (rewrite !zlen_app, T; reflexivity). rewrite u32at_app_r by lia. now apply u32bytes_val.
Qed.
Lemma dir_split tags : forall outs tp j tag c len s, (forall t, In t tags -> zlen t = 4) ->
  nth_error tags j = Some tag -> nth_error outs j = Some (c, len, s) ->
  exists pre post, dirEntries tp tags outs = pre ++ entry16 tag c (tp + zlen (List.concat (firstn j (map snd outs)))) len ++ post /\ zlen pre = 16 * Z.of_nat j.
Proof.
  induction tags as [|t tags IH]; intros outs tp [|j] tag c len s T4 N1 N2; try discriminate; destruct outs as [|[[c0 l0] s0] outs]; try discriminate.
  - cbn in N1, N2. injection N1 as ->. injection N2 as -> -> ->. cbn [dirEntries firstn List.concat]. exists [], (dirEntries (tp + zlen s) tags outs).
    change (zlen (@nil Z)) with 0. rewrite Z.add_0_r. split; reflexivity.
  - cbn in N1, N2. destruct (IH outs (tp + zlen s0) j tag c len s) as (pre & post & E & L); [intros x Hx; apply T4; now right|exact N1|exact N2|].
    cbn [dirEntries]. exists (entry16 t c0 tp l0 ++ pre), post. split.
    + rewrite E. cbn [map snd firstn List.concat]. rewrite zlen_app, Z.add_assoc, <- app_assoc. reflexivity.
    + rewrite zlen_app, L. unfold entry16. rewrite !zlen_app, (T4 t (or_introl eq_refl)). change (zlen (u32bytes c0)) with 4. change (zlen (u32bytes tp)) with 4. change (zlen (u32bytes l0)) with 4. lia.
Qed.
Lemma dir_len tags : forall outs tp, (forall t, In t tags -> zlen t = 4) -> List.length outs = List.length tags -> zlen (dirEntries tp tags outs) = 16 * zlen tags.
Proof.
  induction tags as [|t tags IH]; intros [|[[c l] s] outs] tp T4 L; try discriminate; [reflexivity|].
  cbn [dirEntries]. rewrite zlen_app, IH, zlen_cons; [|intros x Hx; apply T4; now right|cbn in L; lia].
  unfold entry16. rewrite !zlen_app, (T4 t (or_introl eq_refl)). change (zlen (u32bytes c)) with 4. change (zlen (u32bytes tp)) with 4. change (zlen (u32bytes l)) with 4. lia.
Qed.
Definition fontHeader : bytes := [0; 1; 0; 0; 0; 9; 0; 128; 0; 3; 0; 16].
Lemma fontTags4 t : In t fontTags -> zlen t = 4.
Proof. cbn. intros H. repeat (destruct H as [<-|H]; [reflexivity|]). contradiction. Qed.
Lemma fontTags_nodup : NoDup fontTags.
Proof. unfold fontTags. repeat (constructor; [cbn; intuition discriminate|]). constructor. Qed.
Lemma makeFont_inv d spare f used out : makeFont d spare f used = Some out ->
  exists gt loca outs, makeGlyfLoca d spare f used = Some (gt, loca) /\
    Forall2 (fun tag o => tableOut d spare f gt loca tag = Some o) fontTags outs /\
    out = fontHeader ++ dirEntries 156 fontTags outs ++ List.concat (map snd outs).
Proof.
  unfold makeFont. destruct (makeGlyfLoca d spare f used) as [[gt loca]|]; [|discriminate].
  assert (HD : header bempty (zlen fontTags) = Some {| b_pos := 12; b_data := fontHeader |}) by (vm_compute; reflexivity).
  rewrite HD. destruct (fontLoop d spare f gt loca fontTags 0 (12 + 16 * zlen fontTags) {| b_pos := 12; b_data := fontHeader |}) as [b'|] eqn:FL; [|discriminate].
  intros E. assert (EO : out = b_data b') by congruence. clear E. change (12 + 16 * zlen fontTags) with (156 + zlen (@nil Z)) in FL.
  apply (fontLoop_spec d spare f gt loca fontHeader eq_refl fontTags 0 _ _ [] []) in FL; [|exact fontTags4|lia|vm_compute; discriminate|reflexivity|vm_compute; reflexivity].
  destruct FL as (outs & F2 & P1 & P2). exists gt, loca, outs. split; [reflexivity|]. split; [exact F2|].
  rewrite EO, <- (P2 ltac:(discriminate)), P1. reflexivity.
Qed.
(** Every table of the output: its directory row and its bytes. *)
Definition outOff (outs : list outrow) (j : nat) : Z := 156 + zlen (List.concat (firstn j (map snd outs))).
Lemma concat_split {A} (ls : list (list A)) j x : nth_error ls j = Some x -> List.concat ls = List.concat (firstn j ls) ++ x ++ List.concat (skipn (S j) ls).
Proof.
  revert j. induction ls as [|l ls IH]; intros [|j] H; try discriminate; cbn in *.
  - now injection H as ->.
  - rewrite (IH _ H) at 1. now rewrite <- app_assoc.
Qed.
Lemma tagat_inj d p t t' : zlen t = 4 -> zlen t' = 4 -> tagat d p t -> tagat d p t' -> t = t'.
Proof. intros L L' A B. apply list4_eq; [exact L|exact L'|]. intros i Hi. now rewrite <- (A i Hi), <- (B i Hi). Qed.
Section Out.
  Variables (outs : list outrow) (out : bytes).
  Hypothesis LO : List.length outs = 9%nat.
  Hypothesis EO : out = fontHeader ++ dirEntries 156 fontTags outs ++ List.concat (map snd outs).
  Hypothesis RG : forall j c len s, nth_error outs j = Some (c, len, s) -> 0 <= c < 2 ^ 32 /\ 0 <= len < 2 ^ 32.
  Hypothesis SZ : zlen out < 2 ^ 32.
  Lemma out_len : zlen out = outOff outs 9.
  Proof using LO EO.
    clear RG SZ.
    rewrite EO. rewrite !zlen_app, dir_len; [|exact fontTags4|exact LO]. unfold outOff. rewrite firstn_all2 by (rewrite map_length; lia). change (zlen fontHeader) with 12. change (zlen fontTags) with 9. lia.
  Qed.
  Lemma outOff_step j c len s : nth_error outs j = Some (c, len, s) -> outOff outs (S j) = outOff outs j + zlen s.
  Proof using Type.
    intros H. clear LO RG EO SZ. unfold outOff. assert (N : nth_error (map snd outs) j = Some s) by (rewrite nth_error_map, H; reflexivity).
    assert (F : firstn (S j) (map snd outs) = firstn j (map snd outs) ++ [s]).
    { clear -N. revert j N. generalize (map snd outs). intros l. induction l as [|x l IH]; intros [|j] N; try discriminate; cbn in *; [congruence|]. f_equal. now apply IH. }
    rewrite F, concat_app, zlen_app. cbn [List.concat]. rewrite app_nil_r. lia.
  Qed.
  Lemma outOff_bound j : (j <= 9)%nat -> 156 <= outOff outs j <= zlen out.
  Proof using LO EO.
    clear RG SZ.
    intros H. split; [unfold outOff; pose proof (zlen_nonneg (List.concat (firstn j (map snd outs)))); lia|]. rewrite out_len. unfold outOff.
    rewrite <- (firstn_skipn j (firstn 9 (map snd outs))). rewrite firstn_firstn. replace (Nat.min j 9) with j by lia. rewrite concat_app, zlen_app.
    pose proof (zlen_nonneg (List.concat (skipn j (firstn 9 (map snd outs))))). lia.
  Qed.
  Lemma out_entry j tag c len s : nth_error fontTags j = Some tag -> nth_error outs j = Some (c, len, s) ->
    bytes_at out (12 + 16 * Z.of_nat j) (entry16 tag c (outOff outs j) len).
  Proof using LO EO.
    clear RG SZ.
    intros N1 N2. destruct (dir_split fontTags outs 156 j tag c len s fontTags4 N1 N2) as (pre & post & E & L).
    rewrite EO, E. rewrite <- L. change 12 with (zlen fontHeader). rewrite <- zlen_app. 
    replace (fontHeader ++ (pre ++ entry16 tag c (156 + zlen (List.concat (firstn j (map snd outs)))) len ++ post) ++ List.concat (map snd outs))
      with ((fontHeader ++ pre) ++ entry16 tag c (outOff outs j) len ++ (post ++ List.concat (map snd outs))) by (unfold outOff; rewrite <- !app_assoc; reflexivity).
    apply bytes_at_app.
  Qed.
  Lemma out_tag j tag : nth_error fontTags j = Some tag -> tagat out (12 + 16 * Z.of_nat j) tag.
  Proof using LO EO.
    clear RG SZ.
    intros N1. assert (LJ : (j < 9)%nat) by (apply (nth_error_Some fontTags j); congruence).
    destruct (nth_error outs j) as [[[c len] s]|] eqn:N2; [|apply nth_error_None in N2; lia].
    pose proof (out_entry _ _ _ _ _ N1 N2) as [P H]. pose proof (fontTags4 _ (nth_error_In _ _ N1)) as T4.
    intros i Hi. rewrite H. 2:{ unfold entry16. rewrite !zlen_app, T4. change (zlen (u32bytes c)) with 4. change (zlen (u32bytes (outOff outs j))) with 4. change (zlen (u32bytes len)) with 4. lia. }
    unfold entry16. apply nth_error_app1. unfold zlen in T4. lia.
  Qed.
  Lemma out_count : u32at out 0 = Some 65536 /\ u16at out 4 = Some 9.
  Proof using LO EO.
    clear RG SZ. rewrite EO. split; reflexivity. Qed.
  Lemma out_row j tag c len s : nth_error fontTags j = Some tag -> nth_error outs j = Some (c, len, s) ->
    table_row out tag c (outOff outs j) len /\ bytes_at out (outOff outs j) s.
  Proof using LO EO RG SZ.
    intros N1 N2. assert (LJ : (j < 9)%nat) by (apply (nth_error_Some fontTags j); congruence).
    pose proof (fontTags4 _ (nth_error_In _ _ N1)) as T4. destruct (RG _ _ _ _ N2) as [RC RL]. pose proof (outOff_bound j ltac:(lia)) as RO.
    pose proof (out_entry _ _ _ _ _ N1 N2) as BA. destruct (entry16_read tag c (outOff outs j) len T4 RC ltac:(lia) RL) as (L16 & R1 & R2 & R3). split.
    - exists 9, (Z.of_nat j). split; [apply out_count|]. split; [lia|]. split; [now apply out_tag|].
      split; [now apply (bytes_at_u32 _ _ _ _ _ BA)|]. split; [now apply (bytes_at_u32 _ _ _ _ _ BA)|]. split; [now apply (bytes_at_u32 _ _ _ _ _ BA)|].
      intros k Hk T. destruct (nth_error fontTags (Z.to_nat k)) as [t2|] eqn:N3; [|apply nth_error_None in N3; cbn in N3; lia].
      pose proof (out_tag _ _ N3) as T2. rewrite Z2Nat.id in T2 by lia. assert (t2 = tag) by (eapply tagat_inj; [apply fontTags4; eapply nth_error_In; exact N3|exact T4|exact T2|exact T]).
      subst t2. pose proof fontTags_nodup as ND. rewrite NoDup_nth_error in ND. assert (j = Z.to_nat k) by (apply ND; [exact LJ|congruence]). lia.
    - assert (N : nth_error (map snd outs) j = Some s) by (rewrite nth_error_map, N2; reflexivity).
      rewrite EO, (concat_split _ _ _ N). 
      replace (outOff outs j) with (zlen (fontHeader ++ dirEntries 156 fontTags outs ++ List.concat (firstn j (map snd outs)))).
      2:{ rewrite !zlen_app, dir_len; [|exact fontTags4|exact LO]. unfold outOff. change (zlen fontHeader) with 12. change (zlen fontTags) with 9. lia. }
      replace (fontHeader ++ dirEntries 156 fontTags outs ++ List.concat (firstn j (map snd outs)) ++ s ++ List.concat (skipn (S j) (map snd outs)))
        with ((fontHeader ++ dirEntries 156 fontTags outs ++ List.concat (firstn j (map snd outs))) ++ s ++ List.concat (skipn (S j) (map snd outs))) by (rewrite <- !app_assoc; reflexivity).
      apply bytes_at_app.
  Qed.
End Out.
