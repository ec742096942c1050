(** PropFont.v — C28 (component closure), C29 (glyph data intact), C30 (table directory), C31 (binary
    buffer). *)
From Verif Require Import Base TtfModel TtfSpec TtfProofs SubsetModel PropTtf FontOutModel FontOutSpec FontOutProofs FontOutFile.

(** ** C31 *)
(** Write puts the bytes at the current position, growing the buffer with zero bytes if needed, changes
    nothing else, and moves the position behind them. *)
Theorem C31_write_exact :
  forall b p, 0 <= b_pos b -> exists b', bwrite b p = Some b' /\
    b_pos b' = b_pos b + zlen p /\
    zlen (b_data b') = Z.max (zlen (b_data b)) (b_pos b + zlen p) /\
    forall j, u8at (b_data b') j =
      if (b_pos b <=? j) && (j <? b_pos b + zlen p) then u8at p (j - b_pos b)
      else if j <? zlen (b_data b) then u8at (b_data b) j
      else if j <? b_pos b + zlen p then Some 0 else None.
Proof.
  intros b p H. pose proof (zlen_nonneg p) as NP. pose proof (zlen_nonneg (b_data b)) as ND. eexists. split; [now apply bwrite_eq|]. cbn [b_pos b_data]. split; [reflexivity|].
  set (D := padto (b_pos b + zlen p) (b_data b)). assert (LD : zlen D = Z.max (zlen (b_data b)) (b_pos b + zlen p)) by apply zlen_padto.
  split; [rewrite !zlen_app, zlen_firstn, zlen_skipn by lia; lia|].
  assert (UD : forall j, u8at D j = if j <? zlen (b_data b) then u8at (b_data b) j else if j <? b_pos b + zlen p then Some 0 else None).
  { intros j. unfold D, padto. rewrite u8at_app. destruct (j <? zlen (b_data b)) eqn:E; [reflexivity|]. rewrite u8at_repeat.
    destruct (j <? b_pos b + zlen p) eqn:E2.
    - destruct ((0 <=? j - zlen (b_data b)) && (j - zlen (b_data b) <? Z.of_nat (Z.to_nat (b_pos b + zlen p - zlen (b_data b))))) eqn:E3; [reflexivity|lia].
    - destruct ((0 <=? j - zlen (b_data b)) && (j - zlen (b_data b) <? Z.of_nat (Z.to_nat (b_pos b + zlen p - zlen (b_data b))))) eqn:E3; [lia|reflexivity]. }
  intros j. rewrite !u8at_app, zlen_firstn by lia. destruct (j <? b_pos b) eqn:E1.
  - destruct (b_pos b <=? j) eqn:E2; [lia|]. cbn [andb]. rewrite u8at_firstn by lia. rewrite E1. apply UD.
  - destruct (b_pos b <=? j) eqn:E2; [|lia]. destruct (j - b_pos b <? zlen p) eqn:E3.
    + destruct (j <? b_pos b + zlen p) eqn:E4; [reflexivity|lia].
    + destruct (j <? b_pos b + zlen p) eqn:E4; [lia|]. cbn [andb]. rewrite u8at_skipn by lia. rewrite UD.
      replace (b_pos b + zlen p + (j - b_pos b - zlen p)) with j by lia. now rewrite E4.
Qed.
(** A 32- or 16-bit value is read back, big endian, from where it was written (larger values are
    truncated to their low bits). *)
Theorem C31_values_read_back :
  forall b v, 0 <= b_pos b -> 0 <= v ->
    (exists b', writeUInt32 b v = Some b' /\ b_pos b' = b_pos b + 4 /\ u32at (b_data b') (b_pos b) = Some (v mod 2 ^ 32)) /\
    (exists b', writeUInt16 b v = Some b' /\ b_pos b' = b_pos b + 2 /\ u16at (b_data b') (b_pos b) = Some (v mod 2 ^ 16)).
Proof.
  intros b v HB HV. split.
  - unfold writeUInt32. assert (E : u32bytes v = u32bytes (v mod 2 ^ 32)).
    { unfold u32bytes, byte. rewrite !Z.shiftr_div_pow2 by lia. change (2 ^ 24) with 16777216. change (2 ^ 16) with 65536. change (2 ^ 8) with 256. change (2 ^ 32) with 4294967296.
      f_equal; [lia|]. f_equal; [lia|]. f_equal; [lia|]. f_equal. lia. }
    rewrite E. destruct (C31_write_exact b (u32bytes (v mod 2 ^ 32)) HB) as (b' & W & P & _ & U). exists b'. split; [exact W|]. split; [exact P|].
    change (zlen (u32bytes (v mod 2 ^ 32))) with 4 in U. assert (BA : bytes_at (b_data b') (b_pos b) (u32bytes (v mod 2 ^ 32))).
    { split; [exact HB|]. intros i Hi. change (zlen (u32bytes (v mod 2 ^ 32))) with 4 in Hi. rewrite U.
      destruct ((b_pos b <=? b_pos b + i) && (b_pos b + i <? b_pos b + 4)) eqn:C; [|lia]. replace (b_pos b + i - b_pos b) with i by lia. unfold u8at. destruct (i <? 0) eqn:D; [lia|reflexivity]. }
    rewrite <- (Z.add_0_r (b_pos b)). apply (bytes_at_u32 _ _ _ _ _ BA). apply u32bytes_val. apply Z.mod_pos_bound. lia.
  - unfold writeUInt16. assert (E : u16bytes v = u16bytes (v mod 2 ^ 16)).
    { unfold u16bytes, byte. rewrite !Z.shiftr_div_pow2 by lia. change (2 ^ 8) with 256. change (2 ^ 16) with 65536. f_equal; [lia|]. f_equal. lia. }
    rewrite E. destruct (C31_write_exact b (u16bytes (v mod 2 ^ 16)) HB) as (b' & W & P & _ & U). exists b'. split; [exact W|]. split; [exact P|].
    change (zlen (u16bytes (v mod 2 ^ 16))) with 2 in U. assert (BA : bytes_at (b_data b') (b_pos b) (u16bytes (v mod 2 ^ 16))).
    { split; [exact HB|]. intros i Hi. change (zlen (u16bytes (v mod 2 ^ 16))) with 2 in Hi. rewrite U.
      destruct ((b_pos b <=? b_pos b + i) && (b_pos b + i <? b_pos b + 2)) eqn:C; [|lia]. replace (b_pos b + i - b_pos b) with i by lia. unfold u8at. destruct (i <? 0) eqn:D; [lia|reflexivity]. }
    rewrite <- (Z.add_0_r (b_pos b)). apply (bytes_at_u16 _ _ _ _ _ BA). apply u16bytes_val. change 65536 with (2 ^ 16). apply Z.mod_pos_bound. lia.
Qed.
(** Consecutive writes to a fresh buffer concatenate. *)
Fixpoint bwrites (b : buff) (ps : list bytes) : option buff :=
  match ps with [] => Some b | p :: r => match bwrite b p with Some b' => bwrites b' r | None => None end end.
Theorem C31_sequential : forall ps, exists b, bwrites bempty ps = Some b /\ b_data b = List.concat ps /\ b_pos b = zlen (List.concat ps).
Proof.
  assert (G : forall ps b, b_pos b = zlen (b_data b) -> exists b', bwrites b ps = Some b' /\ b_data b' = b_data b ++ List.concat ps /\ b_pos b' = zlen (b_data b')).
  { induction ps as [|p ps IH]; intros b L; [exists b; cbn; rewrite app_nil_r; auto|]. cbn [bwrites].
    rewrite (bwrite_end b p 0) by (try lia; rewrite zlen_padto; pose proof (zlen_nonneg (b_data b)); lia).
    assert (P0 : padto 0 (b_data b) = b_data b) by (unfold padto; pose proof (zlen_nonneg (b_data b)); replace (Z.to_nat _) with 0%nat by lia; apply app_nil_r).
    rewrite P0. destruct (IH {| b_pos := b_pos b + zlen p; b_data := b_data b ++ p |}) as (b' & E1 & E2 & E3); [cbn; rewrite zlen_app; lia|].
    exists b'. split; [exact E1|]. split; [|exact E3]. rewrite E2. cbn. now rewrite <- app_assoc. }
  intros ps. destruct (G ps bempty eq_refl) as (b & A & B & C). exists b. cbn in B. split; [exact A|]. split; [exact B|]. now rewrite C, B.
Qed.
Example C31_instance : match bwrite {| b_pos := 2; b_data := [7; 7; 7; 7] |} (u32bytes 0x01020304) with
  | Some b => b_data b = [7; 7; 1; 2; 3; 4] /\ b_pos b = 6 | None => False end.
Proof. vm_compute. auto. Qed.

(** ** Checksums *)
Lemma sums_spec l : forall s3 s2 s1 s0 t3 t2 t1 t0, sums l (s3, s2, s1, s0) = Some (t3, t2, t1, t0) ->
  t3 * 16777216 + t2 * 65536 + t1 * 256 + t0 = s3 * 16777216 + s2 * 65536 + s1 * 256 + s0 + word_sum l.
Proof.
  assert (G : forall n l, (List.length l <= n)%nat -> forall s3 s2 s1 s0 t3 t2 t1 t0, sums l (s3, s2, s1, s0) = Some (t3, t2, t1, t0) ->
  t3 * 16777216 + t2 * 65536 + t1 * 256 + t0 = s3 * 16777216 + s2 * 65536 + s1 * 256 + s0 + word_sum l).
  { induction n as [|n IH]; intros [|a [|b [|c [|e r]]]] L; intros * H; cbn [sums] in H; try discriminate; try (cbn in L; lia).
    - injection H as -> -> -> ->. cbn. lia.
    - injection H as -> -> -> ->. cbn. lia.
    - apply IH in H; [|cbn in L; lia]. cbn [word_sum]. lia. }
  intros *. eapply G. reflexivity.
Qed.
Lemma checkSum_spec l c : checkSum l = Some c -> c = word_sum l mod 2 ^ 32.
Proof.
  unfold checkSum. destruct (sums l (0, 0, 0, 0)) as [[[[s3 s2] s1] s0]|] eqn:S; [|discriminate]. intros H.
  assert (c = (((s3 * 2 ^ 24) mod 2 ^ 32 + (s2 * 2 ^ 16) mod 2 ^ 32 + (s1 * 2 ^ 8) mod 2 ^ 32 + s0 mod 2 ^ 32) mod 2 ^ 32)) by congruence. subst c.
  apply sums_spec in S. change (2 ^ 24) with 16777216. change (2 ^ 16) with 65536. change (2 ^ 8) with 256. replace (word_sum l) with (s3 * 16777216 + s2 * 65536 + s1 * 256 + s0) by lia.
  rewrite <- (Z.add_mod_idemp_l _ (s0 mod _)), Z.add_mod_idemp_r by lia. rewrite Z.add_mod_idemp_l by lia.
  change (2 ^ 32) with 4294967296. lia.
Qed.
Lemma sums_total l s : (exists k, zlen l = 4 * k) -> exists c, sums l s = Some c.
Proof.
  assert (G : forall n l s, (List.length l <= n)%nat -> (exists k, zlen l = 4 * k) -> exists c, sums l s = Some c).
  { induction n as [|n IH]; intros [|a [|b [|c [|e r]]]] [[[s3 s2] s1] s0] L [k K]; unfold zlen in K; cbn [List.length] in K; cbn [sums]; eauto; try lia; try (cbn in L; lia).
    apply IH; [cbn in L; lia|]. exists (k - 1). unfold zlen. lia. }
  intros H. eapply G; [reflexivity|exact H].
Qed.

(** ** The tables of the output *)
Lemma padded_ge l : l <= paddedLength l < l + 4 /\ paddedLength l mod 4 = 0.
Proof. unfold paddedLength. lia. Qed.
Lemma glyfLoca_shape d spare f used gt loca : makeGlyfLoca d spare f used = Some (gt, loca) ->
  exists arr ds, closure d spare f used = Some arr /\ List.length ds = Z.to_nat (t_nGlyphs f) /\
    (forall i dt, nth_error ds i = Some dt ->
       (In (Z.of_nat i) arr -> glyphBytes d f (Z.of_nat i) = Some dt) /\ (~ In (Z.of_nat i) arr -> dt = [])) /\
    loca = offs 0 ds /\ zlen (List.concat ds) <= zlen gt /\ (exists pad, gt = List.concat ds ++ pad) /\ zlen gt mod 4 = 0.
Proof.
  unfold makeGlyfLoca. destruct (closure d spare f used) as [arr|] eqn:C; [|discriminate]. cbv zeta.
  set (gs := distinct (-1) (sortZ arr)). destruct (sumSizes f gs) as [size|] eqn:SS; [|discriminate].
  destruct (Z.ltb_spec (paddedLength size) 0) as [|P]; [discriminate|]. intros G. exists arr.
  assert (NB : forall g, In g gs -> 0 <= g).
  { intros g Hg. clear -SS Hg. revert size SS. induction gs as [|x gs IH]; intros size SS; [contradiction|]. cbn [sumSizes] in SS.
    destruct (glyphSize f x) as [a|] eqn:GS; [|discriminate]. destruct (sumSizes f gs) as [b|]; [|discriminate]. destruct Hg as [->|Hg]; [|eapply IH; [exact Hg|reflexivity]].
    unfold glyphSize in GS. destruct (zth (t_loca f) g) eqn:Zg; [|discriminate]. now apply (zth_some _ _ _ 0) in Zg. }
  assert (SP : sincr gs /\ forall y, In y gs <-> In y arr /\ y <> -1).
  { (* everything in arr is at least -1: elements of gs are, and the only element dropped is -1 *)
    assert (NM : forall y, In y (sortZ arr) -> -1 <= y).
    { intros y Hy. destruct (Z_lt_ge_dec y 0) as [LT|]; [|lia].
      assert (D : forall l prev, sorted l -> (forall g, In g (distinct prev l) -> 0 <= g) -> forall y, In y l -> 0 <= y \/ y = prev).
      { clear. induction l as [|x l IH]; intros prev S A y Hy; [contradiction|]. inversion S as [|? ? L0 S']; subst. cbn [distinct] in A. destruct (Z.eqb_spec x prev) as [->|N].
        - destruct Hy as [->|Hy]; [now right|]. apply IH; assumption.
        - assert (X0 : 0 <= x) by (apply A; now left). destruct Hy as [->|Hy]; [now left|]. specialize (L0 y Hy). lia. }
      destruct (D _ (-1) (sortZ_sorted arr) NB y Hy); lia. }
    destruct (distinct_spec (sortZ arr) (-1) (sortZ_sorted arr) NM) as [A B]. split; [exact A|]. intros y. unfold gs. rewrite B, sortZ_in. tauto. }
  destruct SP as [SI IN].
  apply glyfLoop_spec in G as (ds & L & D & E1 & E2 & E3); [|exact SI|exact NB|intros y Hy; specialize (NB y Hy); lia|split; [lia|apply zlen_nonneg]].
  rewrite zlen_repeat in E2. cbn [Z.to_nat firstn app] in E3.
  exists ds. split; [reflexivity|]. split; [exact L|]. split.
  - intros i dt Hn. destruct (D i dt Hn) as [D1 D2]. cbn [Z.add] in D1, D2. split.
    + intros I. apply D1. apply IN. split; [exact I|lia].
    + intros NI. apply D2. rewrite IN. tauto.
  - split; [exact E1|]. set (X := List.concat ds) in *. pose proof (zlen_nonneg X) as NX.
    assert (LG : zlen gt = paddedLength size). { rewrite E3, zlen_app, zlen_skipn by (rewrite zlen_repeat; lia). rewrite zlen_repeat. lia. }
    split; [lia|]. split; [eexists; exact E3|]. rewrite LG. apply padded_ge.
Qed.
Lemma goslice_ok full o n s : goslice full o n = Some s -> s = slice full o n /\ 0 <= o /\ 0 <= n /\ o + n <= zlen full /\ zlen s = n /\ bytes_at full o s.
Proof.
  unfold goslice. destruct ((0 <=? o) && (0 <=? n) && (o + n <=? zlen full)) eqn:E; [|discriminate]. intros H. injection H as <-.
  destruct (bytes_at_slice full o n) as [A B]; [lia|lia|lia|]. repeat split; try lia; apply A.
Qed.
Lemma locaData_len f loca : zlen (locaData f loca) = paddedLength (zlen (locaBytes f loca)).
Proof. unfold locaData. rewrite zlen_app, zlen_repeat. pose proof (padded_ge (zlen (locaBytes f loca))). lia. Qed.
Lemma tableOut_ok uk d spare f gt loca tag c len s : isbytes d -> parseFont uk d = Some (Some f) -> In tag fontTags -> zlen gt mod 4 = 0 ->
  tableOut d spare f gt loca tag = Some (c, len, s) -> 0 <= c < 2 ^ 32 /\ 0 <= len /\ zlen s = paddedLength len /\
  (tag = tag_glyf -> c = word_sum s mod 2 ^ 32 /\ len = zlen gt /\ s = gt) /\
  (tag = tag_loca -> c = word_sum s mod 2 ^ 32 /\ len = zlen (locaBytes f loca) /\ s = locaData f loca) /\
  (tag <> tag_glyf -> tag <> tag_loca ->
     match tfind (t_tables f) tag with
     | Some e => c = e_check e /\ len = e_length e /\ bytes_at (d ++ spare) (e_offset e) s
     | None => c = 0 /\ len = 0 /\ s = []
     end).
Proof.
  intros B H IT GM TO. unfold tableOut in TO. destruct (bytes_eqb tag tag_glyf) eqn:E1.
  - apply bytes_eqb_eq in E1. subst tag. destruct (checkSum gt) as [c0|] eqn:CS; [|discriminate]. destruct (goslice gt 0 (paddedLength (zlen gt))) as [s0|] eqn:GS; [|discriminate].
    assert (X : c0 = c /\ zlen gt = len /\ s0 = s) by (injection TO as -> -> ->; auto). destruct X as (-> & <- & ->). clear TO.
    apply goslice_ok in GS as (ES & _ & _ & _ & LS & _). assert (PG : paddedLength (zlen gt) = zlen gt) by (unfold paddedLength; lia).
    assert (SG : s = gt). { rewrite ES, PG. unfold slice. cbn [Z.to_nat skipn]. unfold zlen. rewrite Nat2Z.id. apply firstn_all. }
    apply checkSum_spec in CS. split; [rewrite CS; apply Z.mod_pos_bound; lia|]. split; [apply zlen_nonneg|]. split; [exact LS|].
    clear ES. rewrite SG. split; [auto|]. split; [discriminate|congruence].
  - destruct (bytes_eqb tag tag_loca) eqn:E2.
    + apply bytes_eqb_eq in E2. subst tag. destruct (checkSum (locaData f loca)) as [c0|] eqn:CS; [|discriminate].
      assert (X : c0 = c /\ zlen (locaBytes f loca) = len /\ locaData f loca = s) by (injection TO as -> -> ->; auto). destruct X as (-> & <- & <-). clear TO.
      apply checkSum_spec in CS. split; [rewrite CS; apply Z.mod_pos_bound; lia|]. split; [apply zlen_nonneg|]. split; [apply locaData_len|].
      split; [discriminate|]. split; [auto|congruence].
    + assert (N1 : tag <> tag_glyf) by (intros ->; discriminate). assert (N2 : tag <> tag_loca) by (intros ->; discriminate).
      destruct (goslice (d ++ spare) (e_offset (entryOf f tag)) (paddedLength (e_length (entryOf f tag)))) as [s0|] eqn:GS; [|discriminate].
      assert (X : e_check (entryOf f tag) = c /\ e_length (entryOf f tag) = len /\ s0 = s) by (injection TO as -> -> ->; auto). destruct X as (EC & EL & ->). clear TO.
      apply goslice_ok in GS as (ES & O0 & P0 & OL & LS & BA). unfold entryOf in *. pose proof (tfind_row _ _ _ _ H (fontTags4 _ IT)) as R.
      destruct (tfind (t_tables f) tag) as [e|].
      * destruct R as (n & i & _ & _ & _ & R1 & R2 & R3 & _). pose proof (u32_range _ _ _ B R1). pose proof (u32_range _ _ _ B R3).
        split; [rewrite <- EC; lia|]. split; [lia|]. split; [rewrite <- EL; exact LS|]. split; [congruence|]. split; [congruence|]. intros _ _. auto.
      * cbn in *. subst c len. split; [lia|]. split; [lia|]. split; [exact LS|]. split; [congruence|]. split; [congruence|]. intros _ _. split; [reflexivity|]. split; [reflexivity|].
        destruct s; [reflexivity|]. rewrite zlen_cons in LS. pose proof (zlen_nonneg s). change (paddedLength 0) with 0 in LS. lia.
Qed.
Lemma F2_length {A B} (R : A -> B -> Prop) l l' : Forall2 R l l' -> List.length l = List.length l'.
Proof. induction 1; cbn; congruence. Qed.
Lemma out_structure uk d spare f used out : isbytes d -> parseFont uk d = Some (Some f) -> makeFont d spare f used = Some out -> zlen out < 2 ^ 32 ->
  exists gt loca outs, makeGlyfLoca d spare f used = Some (gt, loca) /\ zlen gt mod 4 = 0 /\
    List.length outs = 9%nat /\ out = fontHeader ++ dirEntries 156 fontTags outs ++ List.concat (map snd outs) /\
    (forall j c len s, nth_error outs j = Some (c, len, s) -> 0 <= c < 2 ^ 32 /\ 0 <= len < 2 ^ 32) /\
    (forall j tag, nth_error fontTags j = Some tag -> exists c len s, nth_error outs j = Some (c, len, s) /\
       tableOut d spare f gt loca tag = Some (c, len, s) /\ zlen s = paddedLength len /\
       table_row out tag c (outOff outs j) len /\ bytes_at out (outOff outs j) s).
Proof.
  intros B H M SZ. destruct (makeFont_inv _ _ _ _ _ M) as (gt & loca & outs & G & F2 & EO). exists gt, loca, outs. split; [exact G|].
  destruct (glyfLoca_shape _ _ _ _ _ _ G) as (arr & ds & _ & _ & _ & _ & _ & _ & GM). split; [exact GM|].
  assert (LO : List.length outs = 9%nat) by (apply F2_length in F2; rewrite <- F2; reflexivity). split; [exact LO|]. split; [exact EO|].
  assert (TO : forall j tag, nth_error fontTags j = Some tag -> exists o, nth_error outs j = Some o /\ tableOut d spare f gt loca tag = Some o).
  { intros j tag N. clear -F2 N. revert j N. induction F2 as [|t o tl ol A F2 IH]; intros [|j] N; try discriminate; cbn in *; [injection N as ->; eauto|]. now apply IH. }
  assert (RG : forall j c len s, nth_error outs j = Some (c, len, s) -> 0 <= c < 2 ^ 32 /\ 0 <= len < 2 ^ 32).
  { intros j c len s N. assert (LJ : (j < 9)%nat) by (rewrite <- LO; apply nth_error_Some; congruence).
    destruct (nth_error fontTags j) as [tag|] eqn:NT; [|apply nth_error_None in NT; cbn in NT; lia].
    destruct (TO _ _ NT) as (o & No & TOo). rewrite N in No. injection No as <-.
    destruct (tableOut_ok _ _ _ _ _ _ _ _ _ _ B H (nth_error_In _ _ NT) GM TOo) as (RC & R0 & RS & _). split; [exact RC|]. split; [exact R0|].
    pose proof (outOff_step outs j c len s N) as ST. pose proof (outOff_bound outs out LO EO j ltac:(lia)). pose proof (outOff_bound outs out LO EO (S j) ltac:(lia)).
    pose proof (padded_ge len). lia. }
  split; [exact RG|]. intros j tag N. destruct (TO _ _ N) as ([[c len] s] & No & TOo). exists c, len, s. split; [exact No|]. split; [exact TOo|].
  destruct (tableOut_ok _ _ _ _ _ _ _ _ _ _ B H (nth_error_In _ _ N) GM TOo) as (_ & _ & RS & _). split; [exact RS|].
  exact (out_row outs out LO EO RG SZ j tag c len s N No).
Qed.

(** ** C30 *)
(** The embedded font has the header of an OpenType file with nine tables; each table is 4-byte aligned,
    lies (with its padding) inside the file, and different tables do not overlap. *)
Theorem C30_directory :
  forall uk d spare f used out, isbytes d -> parseFont uk d = Some (Some f) -> makeFont d spare f used = Some out -> zlen out < 2 ^ 32 ->
    u32at out 0 = Some 65536 /\ u16at out 4 = Some 9 /\ u16at out 6 = Some 128 /\ u16at out 8 = Some 3 /\ u16at out 10 = Some 16 /\
    (forall tag, In tag (map bs ["cvt "; "fpgm"; "glyf"; "head"; "hhea"; "hmtx"; "loca"; "maxp"; "prep"]%string) ->
       exists o l, table_at out tag o l /\ o mod 4 = 0 /\ 156 <= o /\ 0 <= l /\ o + paddedLength l <= zlen out) /\
    (forall t1 o1 l1 t2 o2 l2, zlen t1 = 4 -> zlen t2 = 4 -> table_at out t1 o1 l1 -> table_at out t2 o2 l2 -> t1 <> t2 ->
       o1 + paddedLength l1 <= o2 \/ o2 + paddedLength l2 <= o1).
Proof.
  intros uk d spare f used out B H M SZ. destruct (out_structure _ _ _ _ _ _ B H M SZ) as (gt & loca & outs & G & GM & LO & EO & RG & RW).
  split; [rewrite EO; reflexivity|]. split; [rewrite EO; reflexivity|]. split; [rewrite EO; reflexivity|]. split; [rewrite EO; reflexivity|]. split; [rewrite EO; reflexivity|].
  assert (AL : forall j, (j <= 9)%nat -> outOff outs j mod 4 = 0).
  { induction j as [|j IH]; intros L; [reflexivity|]. specialize (IH ltac:(lia)).
    destruct (nth_error fontTags j) as [tag|] eqn:NT; [|apply nth_error_None in NT; cbn in NT; lia].
    destruct (RW _ _ NT) as (c & len & s & No & _ & LS & _). rewrite (outOff_step _ _ _ _ _ No), LS. pose proof (padded_ge len). lia. }
  split.
  - intros tag IT. fold fontTags in IT. apply In_nth_error in IT as [j N]. destruct (RW _ _ N) as (c & len & s & No & _ & LS & R & _).
    assert (LJ : (j < 9)%nat) by (rewrite <- LO; apply nth_error_Some; congruence). destruct (RG _ _ _ _ No) as [_ RL].
    exists (outOff outs j), len. split; [eapply table_row_at; exact R|]. split; [apply AL; lia|].
    pose proof (outOff_bound outs out LO EO j ltac:(lia)). pose proof (outOff_bound outs out LO EO (S j) ltac:(lia)). rewrite (outOff_step _ _ _ _ _ No) in H1. lia.
  - intros t1 o1 l1 t2 o2 l2 Z1 Z2 T1 T2 NE.
    assert (K : forall t o l, zlen t = 4 -> table_at out t o l -> exists j, (j < 9)%nat /\ nth_error fontTags j = Some t /\ o = outOff outs j /\ outOff outs (S j) = o + paddedLength l).
    { intros t o l Zt T. pose proof T as (n & i & Hn & Hi & Ht & _). assert (n = 9) by (rewrite EO in Hn; injection Hn as <-; reflexivity). subst n.
      destruct (nth_error fontTags (Z.to_nat i)) as [t'|] eqn:NT; [|apply nth_error_None in NT; cbn in NT; lia].
      pose proof (out_tag outs out LO EO _ _ NT) as OT. rewrite Z2Nat.id in OT by lia.
      assert (t' = t) by (eapply tagat_inj; [apply fontTags4; eapply nth_error_In; exact NT|exact Zt|exact OT|exact Ht]). subst t'.
      destruct (RW _ _ NT) as (c & len & s & No & _ & LS & R & _). apply table_row_at in R. destruct (table_at_fun _ _ _ _ _ _ T R) as [-> ->].
      exists (Z.to_nat i). split; [lia|]. split; [exact NT|]. split; [reflexivity|]. rewrite (outOff_step _ _ _ _ _ No), LS. reflexivity. }
    destruct (K _ _ _ Z1 T1) as (j1 & J1 & N1 & -> & E1). destruct (K _ _ _ Z2 T2) as (j2 & J2 & N2 & -> & E2).
    assert (MO : forall a b, (a <= b)%nat -> (b <= 9)%nat -> outOff outs a <= outOff outs b).
    { intros a b AB. induction AB as [|b AB IH]; intros L; [lia|]. specialize (IH ltac:(lia)).
      destruct (nth_error outs b) as [[[c len] s]|] eqn:Nb; [|apply nth_error_None in Nb; lia]. rewrite (outOff_step _ _ _ _ _ Nb). pose proof (zlen_nonneg s). lia. }
    destruct (Nat.lt_total j1 j2) as [L|[->|L]]; [|congruence|].
    + left. rewrite <- E1. apply MO; lia.
    + right. rewrite <- E2. apply MO; lia.
Qed.
(** The tables other than glyf and loca are copied: same directory checksum, same length, same bytes;
    tables the original lacks are empty. *)
Theorem C30_copied_tables :
  forall uk d spare f used out tag, isbytes d -> parseFont uk d = Some (Some f) -> makeFont d spare f used = Some out -> zlen out < 2 ^ 32 ->
    In tag (map bs ["cvt "; "fpgm"; "head"; "hhea"; "hmtx"; "maxp"; "prep"]%string) ->
    (forall c o l, table_row d tag c o l -> exists o', table_row out tag c o' l /\
        forall i, 0 <= i < l -> o + i < zlen d -> u8at out (o' + i) = u8at d (o + i)) /\
    ((forall o l, ~ table_at d tag o l) -> exists o', table_row out tag 0 o' 0).
Proof.
  intros uk d spare f used out tag B H M SZ IT. destruct (out_structure _ _ _ _ _ _ B H M SZ) as (gt & loca & outs & G & GM & LO & EO & RG & RW).
  assert (IT2 : In tag fontTags /\ tag <> tag_glyf /\ tag <> tag_loca).
  { cbn in IT. repeat (destruct IT as [<-|IT]; [split; [cbn; tauto|split; discriminate]|]). contradiction. }
  destruct IT2 as (IF & NG & NL2). apply In_nth_error in IF as [j N]. destruct (RW _ _ N) as (c & len & s & No & TO & LS & R & BA).
  destruct (tableOut_ok _ _ _ _ _ _ _ _ _ _ B H (nth_error_In _ _ N) GM TO) as (_ & _ & _ & _ & _ & CP). specialize (CP NG NL2).
  pose proof (tfind_row _ _ _ _ H (fontTags4 _ (nth_error_In _ _ N))) as TR. destruct (tfind (t_tables f) tag) as [e|].
  - destruct CP as (-> & -> & BS). split.
    + intros c o l RD. destruct (table_row_fun _ _ _ _ _ _ _ _ RD TR) as (-> & -> & ->). exists (outOff outs j). split; [exact R|].
      intros i Hi Hd. destruct BA as [_ BA]. destruct BS as [_ BS]. pose proof (padded_ge (e_length e)). rewrite BA by lia. rewrite <- BS by lia. apply u8at_app_l. exact Hd.
    + intros NO. exfalso. apply table_row_at in TR. exact (NO _ _ TR).
  - destruct CP as (-> & -> & ->). split.
    + intros c o l RD. exfalso. apply table_row_at in RD. exact (TR _ _ RD).
    + intros _. exists (outOff outs j). exact R.
Qed.
(** The checksums of the rebuilt tables are the big-endian word sums of their padded bytes. *)
Theorem C30_checksums :
  forall uk d spare f used out tag c o l, isbytes d -> parseFont uk d = Some (Some f) -> makeFont d spare f used = Some out -> zlen out < 2 ^ 32 ->
    tag = bs "glyf" \/ tag = bs "loca" -> table_row out tag c o l ->
    exists s, bytes_at out o s /\ zlen s = paddedLength l /\ c = word_sum s mod 2 ^ 32.
Proof.
  intros uk d spare f used out tag c o l B H M SZ IT R. destruct (out_structure _ _ _ _ _ _ B H M SZ) as (gt & loca & outs & G & GM & LO & EO & RG & RW).
  destruct IT as [->| ->].
  - destruct (RW 2%nat (bs "glyf") eq_refl) as (c' & len & s & No & TO & LS & R' & BA). destruct (table_row_fun _ _ _ _ _ _ _ _ R R') as (-> & -> & ->).
    destruct (tableOut_ok uk _ _ _ _ _ tag_glyf _ _ _ B H ltac:(cbn; tauto) GM TO) as (_ & _ & _ & CG & _). destruct (CG eq_refl) as (-> & -> & ->). exists gt. auto.
  - destruct (RW 6%nat (bs "loca") eq_refl) as (c' & len & s & No & TO & LS & R' & BA). destruct (table_row_fun _ _ _ _ _ _ _ _ R R') as (-> & -> & ->).
    destruct (tableOut_ok uk _ _ _ _ _ tag_loca _ _ _ B H ltac:(cbn; tauto) GM TO) as (_ & _ & _ & _ & CG & _). destruct (CG eq_refl) as (-> & -> & ->). eauto.
Qed.

(** ** C28, C29 *)
Lemma rdS16_val full p v : u16at full p = Some v -> rdS16 full p = Some (s16 v).
Proof. intros H. apply rdU16_ok in H. unfold rdS16. rewrite H. f_equal. unfold s16. destruct (32768 <=? v) eqn:A, (v <? 32768) eqn:C; lia. Qed.
Lemma addComposite_spec uk d spare f g data cs arr : isbytes d -> parseFont uk d = Some (Some f) -> glyph_data d g data -> refers_to data cs ->
  exists arr', addComposite d spare f arr g = Some arr' /\ forall x, In x arr' <-> In x arr \/ In x cs.
Proof.
  intros B H G R. destruct (glyph_data_bytes _ _ _ _ _ B H G) as (a & b & ZA & ZB & AB & LD & BA & _). unfold addComposite, getOffset. rewrite ZA, ZB.
  destruct (Z.eqb_spec (glyfOff f + a) (glyfOff f + b)) as [E|E].
  - assert (data = []) by (destruct data; [reflexivity|rewrite zlen_cons in LD; pose proof (zlen_nonneg data); lia]). subst data.
    exists arr. split; [reflexivity|]. destruct R as [[_ ->]|[(n & U & _)|(n & U & _)]]; try discriminate U. intros x. cbn. tauto.
  - destruct R as [[-> ->]|[(n & U & S & ->)|(n & U & S & C)]].
    + exfalso. rewrite zlen_nil in LD. lia.
    + pose proof (bytes_at_u16 _ _ _ _ _ BA U) as U2. rewrite Z.add_0_r in U2. apply (u16at_app_l _ spare) in U2. rewrite (rdS16_val _ _ _ U2).
      destruct (Z.leb_spec 0 (s16 n)); [|lia]. exists arr. split; [reflexivity|]. intros x. cbn. tauto.
    + pose proof (bytes_at_u16 _ _ _ _ _ BA U) as U2. rewrite Z.add_0_r in U2. apply (u16at_app_l _ spare) in U2. rewrite (rdS16_val _ _ _ U2).
      destruct (Z.leb_spec 0 (s16 n)); [lia|].
      apply (compLoop_comps d spare (glyfOff f + a) data BA 10 cs C); [lia|]. pose proof (proj1 BA). unfold zlen. lia.
Qed.
Lemma closure_spec uk d spare f used : isbytes d -> parseFont uk d = Some (Some f) ->
  (forall g, In g used -> exists data cs, glyph_data d g data /\ refers_to data cs) ->
  exists arr, closure d spare f used = Some arr /\ forall x, In x arr <-> In x used \/ x = 0 \/ exists g, In g used /\ component_of d g x.
Proof.
  intros B H W. unfold closure. set (arr0 := used ++ (if existsb (Z.eqb 0) used then [] else [0])).
  assert (A0 : forall x, In x arr0 <-> In x used \/ x = 0).
  { intros x. unfold arr0. rewrite in_app_iff. destruct (existsb (Z.eqb 0) used) eqn:E.
    - apply existsb_exists in E as (y & I & Q). apply Z.eqb_eq in Q. subst y. cbn. intuition congruence.
    - cbn. intuition. }
  assert (K : forall l arr1, (forall g, In g l -> In g used) -> exists arr,
     fold_left (fun acc g => match acc with Some arr => addComposite d spare f arr g | None => None end) l (Some arr1) = Some arr /\
     forall x, In x arr <-> In x arr1 \/ exists g, In g l /\ component_of d g x).
  { induction l as [|g l IH]; intros arr1 S; [exists arr1; split; [reflexivity|]; intros x; split; [tauto|intros [|(g & [] & _)]; assumption]|].
    cbn [fold_left]. destruct (W g (S g (or_introl eq_refl))) as (data & cs & G & R).
    destruct (addComposite_spec uk d spare f g data cs arr1 B H G R) as (arr2 & E & I2). rewrite E.
    destruct (IH arr2) as (arr & E3 & I3); [intros x Hx; apply S; now right|]. exists arr. split; [exact E3|]. intros x. rewrite I3, I2. split.
    - intros [[X|X]|(u & U & C)]; [now left| |right; exists u; split; [now right|exact C]]. right. exists g. split; [now left|]. exists data, cs. auto.
    - intros [X|(u & [<-|U] & C)]; [auto| |right; exists u; auto]. left. right.
      destruct C as (data' & cs' & G' & R' & I'). destruct (addComposite_spec uk d spare f g data' cs' arr1 B H G' R') as (arr2' & E' & I2').
      assert (arr2' = arr2) by congruence. subst arr2'. specialize (proj2 (I2' x) (or_intror I')) as Q. apply I2 in Q.
      destruct Q as [Q|Q]; [|exact Q]. (* x was in arr1 already: find it in cs through another array *)
      destruct (addComposite_spec uk d spare f g data' cs' [] B H G' R') as (q & E4 & I4).
      destruct (addComposite_spec uk d spare f g data cs [] B H G R) as (q' & E5 & I5). assert (q' = q) by congruence. subst q'.
      specialize (proj2 (I4 x) (or_intror I')) as Q2. apply I5 in Q2 as [[]|Q2]. exact Q2. }
  destruct (K used arr0 (fun g Hg => Hg)) as (arr & E & I). exists arr. split; [exact E|]. intros x. rewrite I, A0. tauto.
Qed.

Lemma flat_map_u {A} (enc : A -> bytes) k (l : list A) : (forall x, zlen (enc x) = k) -> forall i x, nth_error l i = Some x ->
  exists pre post, flat_map enc l = pre ++ enc x ++ post /\ zlen pre = k * Z.of_nat i.
Proof.
  intros K. induction l as [|y l IH]; intros [|i] x N; try discriminate; cbn in N.
  - injection N as ->. exists [], (flat_map enc l). split; [reflexivity|]. change (zlen (@nil Z)) with 0. lia.
  - destruct (IH _ _ N) as (pre & post & E & L). exists (enc y ++ pre), post. cbn [flat_map]. rewrite E, <- app_assoc. split; [reflexivity|].
    rewrite zlen_app, K. lia.
Qed.
Lemma flat_map_len {A} (enc : A -> bytes) k (l : list A) : (forall x, zlen (enc x) = k) -> zlen (flat_map enc l) = k * zlen l.
Proof. intros K. induction l as [|y l IH]; [change (zlen (@nil A)) with 0; cbn; change (zlen (@nil Z)) with 0; lia|]. cbn [flat_map]. rewrite zlen_app, K, IH, zlen_cons. lia. Qed.
Lemma bytes_at_sub d p A s B : bytes_at d p (A ++ s ++ B) -> bytes_at d (p + zlen A) s.
Proof.
  intros [P H]. split; [pose proof (zlen_nonneg A); lia|]. intros i Hi. pose proof (zlen_nonneg A). pose proof (zlen_nonneg B). rewrite <- Z.add_assoc, H by (rewrite !zlen_app; lia).
  rewrite nth_error_app2 by (unfold zlen; lia). rewrite nth_error_app1 by (unfold zlen in *; lia). f_equal. unfold zlen. lia.
Qed.
Section Glyphs.
  Variables (uk : bool) (d spare : bytes) (f : ttf) (used : list Z) (out : bytes) (n : Z).
  Hypothesis B : isbytes d.
  Hypothesis H : parseFont uk d = Some (Some f).
  Hypothesis M : makeFont d spare f used = Some out.
  Hypothesis SZ : zlen out < 2 ^ 32.
  Hypothesis NG : num_glyphs d n.
  Hypothesis OK : outlines_ok d.
  (** All glyphs of the output at once. *)
  Lemma glyphs_out : 0 < n -> exists arr, closure d spare f used = Some arr /\
    forall g, 0 <= g < n -> (forall data, In g arr -> glyph_data d g data -> glyph_data out g data) /\ (~ In g arr -> glyph_data out g []).
  Proof.
    intros N0. pose proof (num_glyphs_parsed _ _ _ _ H NG) as EN.
    destruct (out_structure _ _ _ _ _ _ B H M SZ) as (gt & loca & outs & G & GM & LO & EO & RG & RW).
    destruct (glyfLoca_shape _ _ _ _ _ _ G) as (arr & ds & CL & LDs & DS & EL & BD & (pad & EG) & _). exists arr. split; [exact CL|].
    rewrite EN in LDs.
    (* the format *)
    destruct (OK n 0 NG ltac:(lia)) as (data0 & _ & G0 & _). pose proof G0 as (a0 & b0 & _ & _ & (fmt & loc0 & ll0 & LF & _ & _ & FC) & _).
    assert (FM : (fmt = 0 \/ fmt = 1) /\ t_locFormat f = fmt).
    { pose proof (loca_format_parsed _ _ _ _ B H LF) as Q. destruct FC as [(-> & _)|(-> & _)]; split; auto. }
    clear FC. destruct FM as [FM FQ].
    (* offsets are bounded by the original ones *)
    assert (OB : forall i, (i <= Z.to_nat n)%nat -> exists a, zth (t_loca f) (Z.of_nat i) = Some a /\ 0 <= zlen (List.concat (firstn i ds)) <= a /\
       (if fmt =? 0 then zlen (List.concat (firstn i ds)) mod 2 = 0 /\ a < 131072 else a < 2 ^ 32)).
    { induction i as [|i IH]; intros L.
      - destruct (glyph_data_bytes _ _ _ _ _ B H G0) as (a & b & ZA & ZB & AB & _ & _ & _ & _ & A0 & RR). exists a. split; [exact ZA|]. cbn [firstn List.concat]. change (zlen (@nil Z)) with 0.
        split; [lia|]. rewrite FQ in RR. destruct (fmt =? 0); [split; [reflexivity|lia]|lia].
      - destruct (IH ltac:(lia)) as (a & ZA & LA & RA). destruct (OK n (Z.of_nat i) NG ltac:(lia)) as (data & _ & GI & _).
        destruct (glyph_data_bytes _ _ _ _ _ B H GI) as (a' & b & ZA' & ZB & AB & LD & _ & GB & _ & _ & RR). assert (a' = a) by congruence. subst a'.
        exists b. split; [replace (Z.of_nat (S i)) with (Z.of_nat i + 1) by lia; exact ZB|].
        destruct (nth_error ds i) as [dt|] eqn:ND; [|apply nth_error_None in ND; lia].
        assert (F : firstn (S i) ds = firstn i ds ++ [dt]).
        { clear -ND. revert i ND. induction ds as [|x l IHl]; intros [|i] ND; try discriminate; cbn in *; [congruence|]. f_equal. now apply IHl. }
        assert (DT : dt = data \/ dt = []).
        { destruct (DS i dt ND) as [D1 D2]. destruct (in_dec Z.eq_dec (Z.of_nat i) arr) as [I|NI]; [left; specialize (D1 I); congruence|right; now apply D2]. }
        rewrite F, concat_app, zlen_app. cbn [List.concat]. rewrite app_nil_r. rewrite FQ in RR.
        assert (LDT : 0 <= zlen dt <= b - a /\ (fmt = 0 -> zlen dt mod 2 = 0)).
        { destruct DT as [-> | ->]; [split; [lia|]|change (zlen (@nil Z)) with 0; split; [lia|reflexivity]]. intros ->. cbn [Z.eqb] in RR. lia. }
        split; [lia|]. destruct (Z.eqb_spec fmt 0) as [Z0|Z0]; [|lia]. split; [|lia]. destruct RA as [RA _]. destruct LDT as [_ LDT]. specialize (LDT Z0). lia. }
    (* the three tables *)
    destruct (RW 2%nat (bs "glyf") eq_refl) as (cg & lg & sg & Ng & TOg & LSg & Rg & BAg).
    destruct (tableOut_ok uk _ _ _ _ _ tag_glyf _ _ _ B H ltac:(cbn; tauto) GM TOg) as (_ & _ & _ & CG & _). destruct (CG eq_refl) as (_ & ELg & ESg). clear CG.
    destruct (RW 6%nat (bs "loca") eq_refl) as (cl & ll & sl & Nl & TOl & LSl & Rl & BAl).
    destruct (tableOut_ok uk _ _ _ _ _ tag_loca _ _ _ B H ltac:(cbn; tauto) GM TOl) as (_ & _ & _ & _ & CGl & _). destruct (CGl eq_refl) as (_ & ELl & ESl). clear CGl.
    assert (LFO : loca_format out fmt).
    { destruct LF as (hd & hl & TH & H52 & UH). apply table_at_row in TH as [ch TH].
      destruct (C30_copied_tables uk d spare f used out (bs "head") B H M SZ ltac:(cbn; tauto)) as [CP _]. destruct (CP _ _ _ TH) as (o' & R' & CB).
      exists o', hl. split; [eapply table_row_at; exact R'|]. split; [exact H52|].
      pose proof (u16at_some _ _ _ UH). unfold u16at in *. rewrite <- (CB 50) in UH by lia. replace (hd + 50 + 1) with (hd + 51) in UH by lia. rewrite <- (CB 51) in UH by lia. replace (o' + 50 + 1) with (o' + 51) by lia. exact UH. }
    assert (LE : forall i, (i <= Z.to_nat n)%nat -> loca_entry out (Z.of_nat i) (zlen (List.concat (firstn i ds)))).
    { intros i L. destruct (OB i L) as (a & _ & LA & RA). exists fmt, (outOff outs 6), ll. split; [exact LFO|]. split; [eapply table_row_at; exact Rl|]. split; [lia|].
      assert (NI : nth_error loca i = Some (zlen (List.concat (firstn i ds)))) by (rewrite EL; rewrite offs_nth by lia; reflexivity).
      assert (LL : zlen loca = n + 1) by (rewrite EL; unfold zlen; rewrite offs_len, LDs; lia).
      set (v := zlen (List.concat (firstn i ds))) in *. rewrite ESl in BAl. unfold locaData, locaBytes in *. rewrite FQ in *.
      destruct FM as [FM|FM]; rewrite FM in *; cbn [Z.eqb] in *.
      - left. split; [reflexivity|]. rewrite ELl, (flat_map_len _ 2) by reflexivity. split; [lia|]. exists (v / 2). split; [|destruct RA; lia].
        destruct (flat_map_u (fun v => u16bytes (v / 2)) 2 loca ltac:(reflexivity) i v NI) as (pre & post & E & LP). rewrite E in BAl. rewrite <- !app_assoc in BAl.
        apply bytes_at_sub in BAl. rewrite LP in BAl. rewrite <- (Z.add_0_r (outOff outs 6 + 2 * Z.of_nat i)). apply (bytes_at_u16 _ _ _ _ _ BAl). apply u16bytes_val. lia.
      - right. split; [reflexivity|]. rewrite ELl, (flat_map_len _ 4) by reflexivity. split; [lia|].
        destruct (flat_map_u u32bytes 4 loca ltac:(reflexivity) i v NI) as (pre & post & E & LP). rewrite E in BAl. rewrite <- !app_assoc in BAl.
        apply bytes_at_sub in BAl. rewrite LP in BAl. rewrite <- (Z.add_0_r (outOff outs 6 + 4 * Z.of_nat i)). apply (bytes_at_u32 _ _ _ _ _ BAl). apply u32bytes_val. lia. }
    assert (GD : forall i dt, nth_error ds i = Some dt -> glyph_data out (Z.of_nat i) dt).
    { intros i dt N. assert (LI : (i < Z.to_nat n)%nat) by (rewrite <- LDs; apply nth_error_Some; congruence).
      assert (F : firstn (S i) ds = firstn i ds ++ [dt]).
      { clear -N. revert i N. induction ds as [|x l IHl]; intros [|i] ND; try discriminate; cbn in *; [congruence|]. f_equal. now apply IHl. }
      assert (LL : zlen (List.concat (firstn (S i) ds)) = zlen (List.concat (firstn i ds)) + zlen dt) by (rewrite F, concat_app, zlen_app; cbn [List.concat]; rewrite app_nil_r; lia).
      exists (zlen (List.concat (firstn i ds))), (zlen (List.concat (firstn (S i) ds))), (outOff outs 2), lg.
      split; [apply LE; lia|]. split; [replace (Z.of_nat i + 1) with (Z.of_nat (S i)) by lia; apply LE; lia|]. split; [eapply table_row_at; exact Rg|].
      pose proof (zlen_nonneg dt). split; [lia|].
      assert (BB : zlen (List.concat (firstn (S i) ds)) <= zlen (List.concat ds)).
      { rewrite <- (firstn_skipn (S i) ds) at 2. rewrite concat_app, zlen_app. pose proof (zlen_nonneg (List.concat (skipn (S i) ds))). lia. }
      split; [lia|]. split; [lia|]. rewrite ESg, EG, (concat_split _ _ _ N) in BAg. rewrite <- !app_assoc in BAg. now apply bytes_at_sub in BAg. }
    intros g Hg. destruct (nth_error ds (Z.to_nat g)) as [dt|] eqn:ND; [|apply nth_error_None in ND; lia].
    pose proof (GD _ _ ND) as Q. destruct (DS _ _ ND) as [D1 D2]. rewrite Z2Nat.id in * by lia. split.
    - intros data I GDD. specialize (D1 I). destruct (glyph_data_bytes _ _ _ _ _ B H GDD) as (a & b & _ & _ & _ & _ & _ & GB & _). assert (dt = data) by congruence. now subst dt.
    - intros NI. now rewrite (D2 NI) in Q.
  Qed.
End Glyphs.

(** Every used glyph, the missing-glyph glyph 0, and every direct component of a used glyph keeps its
    outline, byte for byte, in the embedded font. *)
Theorem C29_embedded_outlines_intact :
  forall uk d spare f used out n g data, isbytes d -> parseFont uk d = Some (Some f) -> makeFont d spare f used = Some out -> zlen out < 2 ^ 32 ->
    num_glyphs d n -> outlines_ok d -> (forall u, In u used -> 0 <= u < n) ->
    (In g used \/ g = 0 \/ exists u, In u used /\ component_of d u g) -> 0 <= g < n ->
    glyph_data d g data -> glyph_data out g data.
Proof.
  intros uk d spare f used out n g data B H M SZ NG OK US C Hg GD. destruct (glyphs_out uk d spare f used out n B H M SZ NG OK ltac:(lia)) as (arr & CL & K).
  destruct (closure_spec uk d spare f used B H) as (arr' & CL' & I); [intros u Hu; destruct (OK n u NG (US u Hu)) as (dt & cs & A1 & A2 & _); eauto|].
  assert (arr' = arr) by congruence. subst arr'. apply (K g Hg); [|exact GD]. now apply I.
Qed.
(** Every other glyph has an empty outline in the embedded font. *)
Theorem C29_other_outlines_empty :
  forall uk d spare f used out n g, isbytes d -> parseFont uk d = Some (Some f) -> makeFont d spare f used = Some out -> zlen out < 2 ^ 32 ->
    num_glyphs d n -> outlines_ok d -> (forall u, In u used -> 0 <= u < n) -> 0 <= g < n ->
    ~ In g used -> g <> 0 -> (forall u, In u used -> ~ component_of d u g) -> glyph_data out g [].
Proof.
  intros uk d spare f used out n g B H M SZ NG OK US Hg N1 N2 N3. destruct (glyphs_out uk d spare f used out n B H M SZ NG OK ltac:(lia)) as (arr & CL & K).
  destruct (closure_spec uk d spare f used B H) as (arr' & CL' & I); [intros u Hu; destruct (OK n u NG (US u Hu)) as (dt & cs & A1 & A2 & _); eauto|].
  assert (arr' = arr) by congruence. subst arr'. apply (K g Hg). intros Q. apply I in Q as [Q|[Q|(u & Q1 & Q2)]]; [auto|auto|exact (N3 u Q1 Q2)].
Qed.
(** The outlines of the output are well delimited: the offset table increases and stays inside glyf (it is
    what glyph_data says for every glyph). *)
Theorem C29_every_glyph_readable :
  forall uk d spare f used out n g, isbytes d -> parseFont uk d = Some (Some f) -> makeFont d spare f used = Some out -> zlen out < 2 ^ 32 ->
    num_glyphs d n -> outlines_ok d -> (forall u, In u used -> 0 <= u < n) -> 0 <= g < n ->
    exists data, glyph_data out g data /\ (glyph_data d g data \/ data = []).
Proof.
  intros uk d spare f used out n g B H M SZ NG OK US Hg. destruct (glyphs_out uk d spare f used out n B H M SZ NG OK ltac:(lia)) as (arr & CL & K).
  destruct (K g Hg) as [K1 K2]. destruct (in_dec Z.eq_dec g arr) as [I|NI].
  - destruct (OK n g NG Hg) as (data & cs & GD & _). exists data. split; [now apply K1|now left].
  - exists []. split; [now apply K2|now right].
Qed.

(** C28: when composite glyphs are not nested (no component of a used glyph is itself composite), every
    glyph reachable from a used glyph through components is embedded with its outline.  Missing: nested
    composites, which are refuted below. *)
Theorem C28_closed_without_nesting_partial :
  forall uk d spare f used out n u g data, isbytes d -> parseFont uk d = Some (Some f) -> makeFont d spare f used = Some out -> zlen out < 2 ^ 32 ->
    num_glyphs d n -> outlines_ok d -> (forall u, In u used -> 0 <= u < n) ->
    (forall u c c', In u used -> component_of d u c -> ~ component_of d c c') ->
    In u used -> reachable d u g -> 0 <= g < n -> glyph_data d g data -> glyph_data out g data.
Proof.
  intros uk d spare f used out n u g data B H M SZ NG OK US NN IU R Hg GD.
  eapply C29_embedded_outlines_intact; try eassumption. destruct R as [|g0 c h C R]; [now left|].
  right. right. exists g0. split; [exact IU|]. destruct R as [|c0 c' h' C' R]; [exact C|]. exfalso. exact (NN _ _ _ IU C C').
Qed.

(** ** Concrete fonts: executable readers for the specification, with their soundness. *)
Definition tag_here (d : bytes) (p : Z) (tag : bytes) : bool := bytes_eqb (slice d p 4) tag.
Lemma tag_here_ok d p tag : 0 <= p -> p + 4 <= zlen d -> zlen tag = 4 -> (tag_here d p tag = true <-> tagat d p tag).
Proof.
  intros P L T. unfold tag_here. rewrite bytes_eqb_eq. destruct (bytes_at_slice d p 4 P ltac:(lia) L) as [[_ BA] ZS]. split.
  - intros E i Hi. rewrite BA by lia. now rewrite E.
  - intros TA. apply list4_eq; [exact ZS|exact T|]. intros i Hi. rewrite <- BA by lia. apply TA. exact Hi.
Qed.
Fixpoint findrow (d : bytes) (tag : bytes) (k : nat) : option (Z * Z) :=
  match k with
  | O => None
  | S k' => if tag_here d (12 + 16 * Z.of_nat k') tag then
              match u32at d (12 + 16 * Z.of_nat k' + 8), u32at d (12 + 16 * Z.of_nat k' + 12) with Some o, Some l => Some (o, l) | _, _ => None end
            else findrow d tag k'
  end.
Definition find_table (d : bytes) (tag : bytes) : option (Z * Z) :=
  match u16at d 4 with
  | Some n => if (0 <=? n) && (12 + 16 * n <=? zlen d) && (zlen tag =? 4) then findrow d tag (Z.to_nat n) else None
  | None => None end.
Lemma find_table_ok d tag o l : find_table d tag = Some (o, l) -> table_at d tag o l.
Proof.
  unfold find_table. destruct (u16at d 4) as [n|] eqn:N; [|discriminate]. destruct ((0 <=? n) && (12 + 16 * n <=? zlen d) && (zlen tag =? 4)) eqn:C; [|discriminate].
  intros F. assert (K : forall k, (k <= Z.to_nat n)%nat -> findrow d tag k = Some (o, l) ->
    exists i, 0 <= i < Z.of_nat k /\ tagat d (12 + 16 * i) tag /\ u32at d (12 + 16 * i + 8) = Some o /\ u32at d (12 + 16 * i + 12) = Some l /\ forall j, i < j < Z.of_nat k -> ~ tagat d (12 + 16 * j) tag).
  { induction k as [|k IH]; intros L R; [discriminate|]. cbn [findrow] in R. destruct (tag_here d (12 + 16 * Z.of_nat k) tag) eqn:TH.
    - exists (Z.of_nat k). split; [lia|]. apply tag_here_ok in TH; [|lia|lia|lia]. split; [exact TH|].
      destruct (u32at d (12 + 16 * Z.of_nat k + 8)) as [o1|]; [|discriminate]. destruct (u32at d (12 + 16 * Z.of_nat k + 12)) as [l1|]; [|discriminate]. injection R as -> ->.
      split; [reflexivity|]. split; [reflexivity|]. intros; lia.
    - destruct (IH ltac:(lia) R) as (i & Hi & T & U1 & U2 & LJ). exists i. split; [lia|]. split; [exact T|]. split; [exact U1|]. split; [exact U2|].
      intros j Hj TJ. destruct (Z.eq_dec j (Z.of_nat k)) as [->|NE]; [|apply (LJ j); [lia|exact TJ]].
      apply tag_here_ok in TJ; [congruence|lia|lia|lia]. }
  destruct (K _ (Nat.le_refl _) F) as (i & Hi & T & U1 & U2 & LJ). exists n, i. rewrite Z2Nat.id in * by lia. auto 10.
Qed.
Definition read_loca (d : bytes) (g : Z) : option Z :=
  match find_table d (bs "head"), find_table d (bs "loca") with
  | Some (h, hl), Some (o, l) =>
      match u16at d (h + 50) with
      | Some fmt => if (52 <=? hl) && (0 <=? g) then
           if fmt =? 0 then (if 2 * g + 2 <=? l then match u16at d (o + 2 * g) with Some x => Some (2 * x) | None => None end else None)
           else if fmt =? 1 then (if 4 * g + 4 <=? l then u32at d (o + 4 * g) else None) else None
         else None
      | None => None end
  | _, _ => None end.
Lemma read_loca_ok d g a : read_loca d g = Some a -> loca_entry d g a.
Proof.
  unfold read_loca. destruct (find_table d (bs "head")) as [[h hl]|] eqn:H; [|discriminate]. destruct (find_table d (bs "loca")) as [[o l]|] eqn:L; [|discriminate].
  apply find_table_ok in H. apply find_table_ok in L. destruct (u16at d (h + 50)) as [fmt|] eqn:U; [|discriminate].
  destruct ((52 <=? hl) && (0 <=? g)) eqn:C; [|discriminate]. intros R. exists fmt, o, l.
  split; [exists h, hl; split; [exact H|]; split; [lia|exact U]|]. split; [exact L|]. split; [lia|].
  destruct (Z.eqb_spec fmt 0) as [->|]; [|destruct (Z.eqb_spec fmt 1) as [->|]; [|discriminate]].
  - left. destruct (Z.leb_spec (2 * g + 2) l); [|discriminate]. destruct (u16at d (o + 2 * g)) as [x|]; [|discriminate].
    split; [reflexivity|]. split; [assumption|]. exists x. split; [reflexivity|]. congruence.
  - right. destruct (Z.leb_spec (4 * g + 4) l); [|discriminate]. auto.
Qed.
Definition read_glyph (d : bytes) (g : Z) : option bytes :=
  match read_loca d g, read_loca d (g + 1), find_table d (bs "glyf") with
  | Some a, Some b, Some (o, l) => if (0 <=? o + a) && (a <=? b) && (b <=? l) && (o + b <=? zlen d) then Some (slice d (o + a) (b - a)) else None
  | _, _, _ => None end.
Lemma read_glyph_ok d g s : read_glyph d g = Some s -> glyph_data d g s.
Proof.
  unfold read_glyph. destruct (read_loca d g) as [a|] eqn:A; [|discriminate]. destruct (read_loca d (g + 1)) as [b|] eqn:Bq; [|discriminate].
  destruct (find_table d (bs "glyf")) as [[o l]|] eqn:T; [|discriminate]. destruct ((0 <=? o + a) && (a <=? b) && (b <=? l) && (o + b <=? zlen d)) eqn:C; [|discriminate].
  intros E. injection E as <-. apply read_loca_ok in A. apply read_loca_ok in Bq. apply find_table_ok in T. exists a, b, o, l.
  destruct (bytes_at_slice d (o + a) (b - a)) as [S1 S2]; [lia|lia|lia|]. split; [exact A|]. split; [exact Bq|]. split; [exact T|]. split; [lia|]. split; [lia|]. split; [lia|exact S1].
Qed.

(** The font of PropTtf: glyphs 0 and 1 simple, 2 composite of 1, 3 composite of 2. *)
Lemma good_comp2 : component_of good_font 2 1.
Proof.
  exists (gl_comp 1), [1]. split; [apply read_glyph_ok; vm_compute; reflexivity|]. split; [|now left]. right. right. exists 65535.
  split; [reflexivity|]. split; [reflexivity|]. apply comp_last with 0; [reflexivity|reflexivity|intros [X _]; discriminate|reflexivity].
Qed.
Lemma good_comp3 : component_of good_font 3 2.
Proof.
  exists (gl_comp 2), [2]. split; [apply read_glyph_ok; vm_compute; reflexivity|]. split; [|now left]. right. right. exists 65535.
  split; [reflexivity|]. split; [reflexivity|]. apply comp_last with 0; [reflexivity|reflexivity|intros [X _]; discriminate|reflexivity].
Qed.
Lemma good_num : num_glyphs good_font 4.
Proof. exists 280, 8. split; [apply find_table_ok; vm_compute; reflexivity|vm_compute; reflexivity]. Qed.
Lemma num_glyphs_fun d n m : num_glyphs d n -> num_glyphs d m -> n = m.
Proof. intros (a & l & T & U) (a' & l' & T' & U'). destruct (table_at_fun _ _ _ _ _ _ T T') as [-> _]. congruence. Qed.
Example good_outlines : outlines_ok good_font.
Proof.
  intros n g N Hg. rewrite (num_glyphs_fun _ _ _ N good_num) in *. assert (C : g = 0 \/ g = 1 \/ g = 2 \/ g = 3) by lia.
  destruct C as [->|[->|[->| ->]]].
  - exists gl_simple, []. split; [apply read_glyph_ok; vm_compute; reflexivity|]. split; [right; left; exists 0; repeat split; vm_compute; discriminate|intros c []].
  - exists gl_simple, []. split; [apply read_glyph_ok; vm_compute; reflexivity|]. split; [right; left; exists 0; repeat split; vm_compute; discriminate|intros c []].
  - destruct good_comp2 as (data & cs & G & R & I). exists (gl_comp 1), [1]. split; [apply read_glyph_ok; vm_compute; reflexivity|]. split.
    + right. right. exists 65535. split; [reflexivity|]. split; [reflexivity|]. apply comp_last with 0; [reflexivity|reflexivity|intros [X _]; discriminate|reflexivity].
    + intros c [<-|[]]. lia.
  - exists (gl_comp 2), [2]. split; [apply read_glyph_ok; vm_compute; reflexivity|]. split.
    + right. right. exists 65535. split; [reflexivity|]. split; [reflexivity|]. apply comp_last with 0; [reflexivity|reflexivity|intros [X _]; discriminate|reflexivity].
    + intros c [<-|[]]. lia.
Qed.
Definition good_used (used : list Z) : option bytes :=
  match parseFont true good_font with Some (Some f) => makeFont good_font [] f used | _ => None end.
(** C28 is false of the code for nested composites: drawing the character of glyph 3 embeds glyph 2 (its
    component) but not glyph 1, of which glyph 2 is made; its outline is empty in the output. *)
Theorem C28_nested_components_refuted :
  exists out, good_used [3] = Some out /\ reachable good_font 3 1 /\ glyph_data good_font 1 gl_simple /\ gl_simple <> [] /\
    glyph_data out 2 (gl_comp 1) /\ glyph_data out 1 [].
Proof.
  destruct (good_used [3]) as [out|] eqn:E; [|vm_compute in E; discriminate]. exists out. split; [reflexivity|].
  split; [eapply reach_step; [exact good_comp3|]; eapply reach_step; [exact good_comp2|apply reach_self]|].
  split; [apply read_glyph_ok; vm_compute; reflexivity|]. split; [discriminate|].
  assert (X : match good_used [3] with Some o => read_glyph o 2 = Some (gl_comp 1) /\ read_glyph o 1 = Some [] | None => False end) by (vm_compute; split; reflexivity).
  rewrite E in X. destruct X as [X1 X2]. split; apply read_glyph_ok; assumption.
Qed.
(** Instances of the hypotheses of C28 to C30: the same font, drawing the character of glyph 2. *)
Example C29_instance :
  exists f out, parseFont true good_font = Some (Some f) /\ makeFont good_font [] f [2] = Some out /\ zlen out < 2 ^ 32 /\
    glyph_data out 1 gl_simple /\ glyph_data out 2 (gl_comp 1) /\ glyph_data out 3 [].
Proof.
  pose proof good_font_parses as G. destruct (parseFont true good_font) as [[f|]|] eqn:P; try contradiction. clear G.
  assert (X : match good_used [2] with Some o => zlen o < 2 ^ 32 | None => False end) by (vm_compute; reflexivity).
  unfold good_used in X. rewrite P in X. destruct (makeFont good_font [] f [2]) as [out|] eqn:M; [|contradiction]. exists f, out.
  assert (US : forall u, In u [2] -> 0 <= u < 4) by (intros u [<-|[]]; lia).
  split; [reflexivity|]. split; [exact M|]. split; [exact X|]. split; [|split].
  - eapply (C29_embedded_outlines_intact true good_font [] f [2] out 4 1); try eassumption; try exact good_font_bytes; try exact good_num; try exact good_outlines; try lia.
    + right. right. exists 2. split; [now left|exact good_comp2].
    + apply read_glyph_ok; vm_compute; reflexivity.
  - eapply (C29_embedded_outlines_intact true good_font [] f [2] out 4 2); try eassumption; try exact good_font_bytes; try exact good_num; try exact good_outlines; try lia.
    + left. now left.
    + apply read_glyph_ok; vm_compute; reflexivity.
  - assert (X2 : match good_used [2] with Some o => read_glyph o 3 = Some [] | None => False end) by (vm_compute; reflexivity).
    unfold good_used in X2. rewrite P, M in X2. now apply read_glyph_ok.
Qed.

(** ** The output never panics on well-formed fonts *)
Lemma sumSizes_pos f gs : (forall g, In g gs -> exists z, glyphSize f g = Some z /\ 0 <= z) -> exists z, sumSizes f gs = Some z /\ 0 <= z.
Proof.
  induction gs as [|g gs IH]; intros A; [exists 0; split; [reflexivity|lia]|]. cbn [sumSizes]. destruct (A g (or_introl eq_refl)) as (z & -> & Z0).
  destruct IH as (y & -> & Y0); [intros x Hx; apply A; now right|]. exists (z + y). split; [reflexivity|lia].
Qed.
Lemma glyfLoop_total d f k : forall idx gs old off tab z, sincr gs -> (forall y, In y gs -> idx <= y) -> (forall y, In y gs -> old < y) ->
  (forall g, In g gs -> exists dt, glyphBytes d f g = Some dt /\ glyphSize f g = Some (zlen dt)) -> sumSizes f gs = Some z -> 0 <= off -> off + z <= zlen tab ->
  exists r, glyfLoop d f k idx gs old off tab = Some r.
Proof.
  induction k as [|k IH]; intros idx gs old off tab z SI GE OL GB SS O0 OZ; cbn [glyfLoop]; [eauto|]. cbv zeta.
  destruct gs as [|g gs].
  - destruct (IH (idx + 1) [] old off tab z) as [[t l] ->]; eauto; intros ? [].
  - inversion SI as [|? ? LT SI']; subst. destruct (Z.eqb_spec g idx) as [->|NG].
    + destruct (GB idx (or_introl eq_refl)) as (dt & GB1 & GS1). rewrite GB1. cbn [sumSizes] in SS. rewrite GS1 in SS.
      destruct (sumSizes f gs) as [y|] eqn:SY; [|discriminate]. injection SS as SS. pose proof (zlen_nonneg dt).
      assert (Y0 : 0 <= y).
      { destruct (sumSizes_pos f gs) as (y' & E & P); [|rewrite SY in E; injection E as <-; exact P]. intros x Hx. destruct (GB x (or_intror Hx)) as (dx & _ & ->). exists (zlen dx). split; [reflexivity|apply zlen_nonneg]. }
      rewrite putLoop_in by lia.
      assert (ZT : zlen (firstn (Z.to_nat off) tab ++ dt ++ skipn (Z.to_nat (off + zlen dt)) tab) = zlen tab) by (rewrite !zlen_app, zlen_firstn, zlen_skipn by lia; lia).
      destruct (IH (idx + 1) gs idx (off + zlen dt) (firstn (Z.to_nat off) tab ++ dt ++ skipn (Z.to_nat (off + zlen dt)) tab) y) as [[t l] ->]; eauto; try lia.
      intros x Hx. apply GB. now right.
    + destruct (Z.eqb_spec old g) as [->|NO]; [exfalso; specialize (OL g (or_introl eq_refl)); lia|].
      destruct (IH (idx + 1) (g :: gs) old off tab z) as [[t l] ->]; eauto. intros w [<-|Hw]; [specialize (GE g (or_introl eq_refl)); lia|].
      specialize (LT w Hw). specialize (GE g (or_introl eq_refl)). lia.
Qed.
Lemma fontLoop_total d spare f gt loca tags : forall idx tp b, 0 <= idx -> 0 <= tp -> (forall tag, In tag tags -> exists o, tableOut d spare f gt loca tag = Some o) ->
  exists b', fontLoop d spare f gt loca tags idx tp b = Some b'.
Proof.
  induction tags as [|tag tags IH]; intros idx tp b I0 T0 TO; cbn [fontLoop]; [eauto|]. destruct (TO tag (or_introl eq_refl)) as ([[c len] s] & ->).
  pose proof (zlen_nonneg s). pose proof (zlen_nonneg tag).
  rewrite bwrite_eq by (cbn; lia). cbn [b_pos bseek]. rewrite bwrite_eq by (cbn; lia). unfold writeUInt32.
  rewrite bwrite_eq by (cbn [b_pos bseek]; lia). rewrite bwrite_eq by (cbn [b_pos bseek]; change (zlen (u32bytes c)) with 4; lia).
  rewrite bwrite_eq by (cbn [b_pos bseek]; change (zlen (u32bytes c)) with 4; change (zlen (u32bytes tp)) with 4; lia).
  apply IH; [lia|lia|]. intros t Ht. apply TO. now right.
Qed.
(** Output succeeds for every accepted font whose outlines are readable and whose copied tables lie, with
    their padding, inside the file, as long as all used glyphs exist. *)
Theorem C29_output_succeeds :
  forall uk d spare f used n, isbytes d -> parseFont uk d = Some (Some f) -> num_glyphs d n -> outlines_ok d -> 0 < n -> (forall u, In u used -> 0 <= u < n) ->
    (forall tag o l, In tag (map bs ["cvt "; "fpgm"; "head"; "hhea"; "hmtx"; "maxp"; "prep"]%string) -> table_at d tag o l -> o + paddedLength l <= zlen d) ->
    exists out, makeFont d spare f used = Some out.
Proof.
  intros uk d spare f used n B H NG OK N0 US TB. 
  destruct (closure_spec uk d spare f used B H) as (arr & CL & I); [intros u Hu; destruct (OK n u NG (US u Hu)) as (dt & cs & A1 & A2 & _); eauto|].
  assert (AR : forall g, In g arr -> 0 <= g < n).
  { intros g Hg. apply I in Hg as [Hg|[->|(u & Hu & C)]]; [now apply US|lia|].
    assert (C2 := C). destruct C as (data & cs & G1 & R1 & I1). destruct (OK n u NG (US u Hu)) as (data2 & cs2 & G2 & R2 & L2).
    destruct (addComposite_spec uk d spare f u data cs [] B H G1 R1) as (q & E1 & J1). destruct (addComposite_spec uk d spare f u data2 cs2 [] B H G2 R2) as (q2 & E2 & J2).
    assert (q2 = q) by congruence. subst q2. specialize (proj2 (J1 g) (or_intror I1)) as Q. pose proof Q as Q'. apply J2 in Q as [[]|Q]. specialize (L2 g Q). split; [|exact L2].
    destruct R1 as [[_ ->]|[(m & _ & _ & ->)|(m & _ & _ & CC)]]; try contradiction.
    assert (P : forall p l, components data p l -> forall x, In x l -> 0 <= x).
    { assert (BD : isbytes data).
      { intros b Ib. apply In_nth_error in Ib as [i Ni]. destruct G1 as (a & bb & gl & ll & _ & _ & _ & _ & _ & LD & BA).
        assert (Hi : (i < List.length data)%nat) by (apply nth_error_Some; congruence).
        destruct BA as [_ BA]. specialize (BA (Z.of_nat i) ltac:(unfold zlen; lia)). rewrite Nat2Z.id, Ni in BA. eapply u8_range; eassumption. }
      intros p l CP. induction CP as [p fl c U1 U2 O1 T1|p fl c l U1 U2 O1 T1 CP IHc]; intros x [<-|Hx]; try contradiction; try (eapply u16_range in U2; [lia|exact BD]); try (now apply IHc). }
    exact (P _ _ CC g I1). }
  assert (GBS : forall g, 0 <= g < n -> exists dt, glyphBytes d f g = Some dt /\ glyphSize f g = Some (zlen dt)).
  { intros g Hg. destruct (OK n g NG Hg) as (data & cs & G & _). destruct (glyph_data_bytes _ _ _ _ _ B H G) as (a & b & _ & _ & _ & _ & _ & G1 & G2 & _). eauto. }
  assert (MG : exists gl, makeGlyfLoca d spare f used = Some gl).
  { unfold makeGlyfLoca. rewrite CL. cbv zeta. set (gs := distinct (-1) (sortZ arr)).
    assert (NM : forall y, In y (sortZ arr) -> -1 <= y) by (intros y Hy; apply (proj1 (sortZ_in _ _)) in Hy; specialize (AR y Hy); lia).
    destruct (distinct_spec (sortZ arr) (-1) (sortZ_sorted arr) NM) as [SI IN]. fold gs in SI, IN.
    assert (GR : forall g, In g gs -> 0 <= g < n) by (intros g Hg; apply IN in Hg as [Hg _]; apply (proj1 (sortZ_in _ _)) in Hg; now apply AR).
    destruct (sumSizes_pos f gs) as (z & SS & Z0). { intros g Hg. destruct (GBS g (GR g Hg)) as (dt & _ & ->). exists (zlen dt). split; [reflexivity|apply zlen_nonneg]. }
    rewrite SS. pose proof (padded_ge z). destruct (Z.ltb_spec (paddedLength z) 0); [lia|].
    eapply glyfLoop_total; try exact SS; try exact SI; try lia.
    - intros y Hy. specialize (GR y Hy). lia.
    - intros y Hy. specialize (GR y Hy). lia.
    - intros g Hg. apply GBS. now apply GR.
    - rewrite zlen_repeat. lia. }
  destruct MG as [[gt loca] MG]. unfold makeFont. rewrite MG.
  assert (HD : header bempty (zlen fontTags) = Some {| b_pos := 12; b_data := fontHeader |}) by (vm_compute; reflexivity). rewrite HD.
  destruct (glyfLoca_shape _ _ _ _ _ _ MG) as (_ & _ & _ & _ & _ & _ & _ & _ & GM).
  destruct (fontLoop_total d spare f gt loca fontTags 0 (12 + 16 * zlen fontTags) {| b_pos := 12; b_data := fontHeader |}) as [b' ->]; [lia|vm_compute; discriminate| |eauto].
  intros tag IT. unfold tableOut.
  assert (CSG : forall l, zlen l mod 4 = 0 -> exists c, checkSum l = Some c).
  { intros l L4. unfold checkSum. destruct (sums_total l (0, 0, 0, 0)) as [[[[s3 s2] s1] s0] ->]; [exists (zlen l / 4); lia|]. eauto. }
  destruct (bytes_eqb tag tag_glyf) eqn:E1.
  - destruct (CSG gt GM) as [c ->]. unfold goslice. assert (PG : paddedLength (zlen gt) = zlen gt) by (unfold paddedLength; lia). rewrite PG. pose proof (zlen_nonneg gt).
    destruct ((0 <=? 0) && (0 <=? zlen gt) && (0 + zlen gt <=? zlen gt)) eqn:E; [eauto|lia].
  - destruct (bytes_eqb tag tag_loca) eqn:E2.
    + destruct (CSG (locaData f loca)) as [c ->]; [rewrite locaData_len; apply padded_ge|]. eauto.
    + assert (IT2 : In tag (map bs ["cvt "; "fpgm"; "head"; "hhea"; "hmtx"; "maxp"; "prep"]%string)).
      { cbn in IT |- *. repeat (destruct IT as [<-|IT]; [solve [tauto|discriminate]|]). contradiction. }
      unfold entryOf. pose proof (tfind_row _ _ _ _ H (fontTags4 _ IT)) as R. unfold goslice. rewrite zlen_app. pose proof (zlen_nonneg spare). pose proof (zlen_nonneg d).
      destruct (tfind (t_tables f) tag) as [e|].
      * pose proof (TB _ _ _ IT2 (table_row_at _ _ _ _ _ R)) as L. destruct R as (m & i & _ & _ & _ & _ & R2 & R3 & _). apply (u32_range _ _ _ B) in R2. apply (u32_range _ _ _ B) in R3.
        pose proof (padded_ge (e_length e)). destruct ((0 <=? e_offset e) && (0 <=? paddedLength (e_length e)) && (e_offset e + paddedLength (e_length e) <=? zlen d + zlen spare)) eqn:E; [eauto|lia].
      * cbn [e_offset e_length]. change (paddedLength 0) with 0. destruct ((0 <=? 0) && (0 <=? 0) && (0 + 0 <=? zlen d + zlen spare)) eqn:E; [eauto|lia].
Qed.
(** Without these conditions it can panic: a font file cut off inside the glyf table is accepted by the
    parser (which does not read outlines), and producing the document then panics. *)
Definition cut_font : bytes := firstn (List.length (font_with 2 good_cmap []) - 10) (font_with 2 good_cmap []).
Theorem C50_truncated_outlines_refuted :
  match parseFont false cut_font with Some (Some f) => makeFont cut_font [] f [3] = None | _ => False end.
Proof. vm_compute. reflexivity. Qed.

Print Assumptions C28_closed_without_nesting_partial.
Print Assumptions C28_nested_components_refuted.
Print Assumptions C29_embedded_outlines_intact.
Print Assumptions C29_other_outlines_empty.
Print Assumptions C29_every_glyph_readable.
Print Assumptions C29_output_succeeds.
Print Assumptions C30_directory.
Print Assumptions C30_copied_tables.
Print Assumptions C30_checksums.
Print Assumptions C31_write_exact.
Print Assumptions C31_values_read_back.
Print Assumptions C31_sequential.
Print Assumptions C50_truncated_outlines_refuted.
