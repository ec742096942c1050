(** PropAsk.v — C74: IsCurrFontContainGlyph answers what drawing does; C75: the arguments of SetFont. *)
From Coq Require Import QArith Qabs ZArith Reals Qreals Lia Lra Bool SpecFloat.
From Flocq Require Import Core BinarySingleNaN.
From Verif Require Import Base NumModel FloatReal TtfModel TtfSpec TtfProofs SubsetModel PropTtf PropSubset DocModel DocSpec DocInv DocProofs PropDoc AskModel.
Open Scope Z_scope.

(** ** C74 *)
(** The answer is whether drawing the character shows it with a glyph of its own: after any texts drawn with the font
    ([before], with any substitution policy), drawing r shows r itself with a glyph other than .notdef (glyph 0) exactly
    if the answer for r is true. *)
Theorem C74_answer_is_what_is_drawn :
  forall f subst before drawn m r out m', 0 <= r ->
    addTexts (charToGlyph f) subst [] before = Some (drawn, m) ->
    addChars (charToGlyph f) subst m [r] = Some (out, m') ->
    exists b, isCurrFontContainGlyph (Some f) r = Some b /\
      (b = true <-> out = [r] /\ exists g, val m' r = Some g /\ g <> 0).
Proof.
  intros f subst before drawn m r out m' R H1 H2. destruct (C24_add_chars _ _ _ _ _ _ _ _ H1 H2) as (L & V & D & _).
  destruct (D 0%nat r eq_refl) as (c & N & X). destruct out as [|c' [|]]; try discriminate. cbn in N. injection N as ->.
  unfold isCurrFontContainGlyph, runeToGlyph. destruct (Z.ltb_spec r 0); [lia|]. destruct (charToGlyph f r) as [g| |] eqn:E; [| |contradiction].
  - destruct X as [-> VG]. destruct (Z.eqb_spec g 0) as [->|G]; eexists; (split; [reflexivity|]).
    + split; [discriminate|]. intros (_ & g & G & NZ). rewrite VG in G. congruence.
    + split; [|auto]. intros _. split; [reflexivity|]. exists g. auto.
  - exists false. split; [reflexivity|]. split; [discriminate|]. intros (Q & g & G & NZ). injection Q as ->.
    destruct (V r (or_introl eq_refl)) as (g' & G' & [A|[A ->]]); [congruence|]. rewrite G' in G. congruence.
Qed.
(** Read from the font file: for a character of the basic plane the answer is true exactly if the file's (3,1) subtable
    assigns it a glyph other than 0 … *)
Lemma segment_fun d base n c a b : (forall j, 0 <= j < n -> exists e, f4_end d base j = Some e) -> f4_segment d base n c a -> f4_segment d base n c b -> a = b.
Proof.
  intros T (A1 & (e & A2 & A3) & A4) (B1 & (e' & B2 & B3) & B4). destruct (Z.lt_total a b) as [L|[L|L]]; [|exact L|]; exfalso.
  - specialize (B4 a e ltac:(lia) A2). lia.
  - specialize (A4 b e' ltac:(lia) B2). lia.
Qed.
Lemma f4_fun d base n c g h : f4_glyph d base n c g -> f4_glyph d base n c h -> g = h.
Proof.
  intros (a & s & dl & ro & (A1 & (e & A2 & A3) & A4) & S1 & S2 & D1 & R1 & K1) (b & s' & dl' & ro' & (B1 & (e' & B2 & B3) & B4) & S1' & S2' & D1' & R1' & K1').
  assert (a = b). { destruct (Z.lt_total a b) as [L|[L|L]]; [|exact L|]; exfalso; [specialize (B4 a e ltac:(lia) A2); lia|specialize (A4 b e' ltac:(lia) B2); lia]. }
  subst b. assert (s = s') by congruence. assert (dl = dl') by congruence. assert (ro = ro') by congruence. subst.
  destruct K1 as [[Z1 G1]|(Z1 & v & V & G1)], K1' as [[Z2 G2]|(Z2 & v' & V' & G2)]; try lia. assert (v = v') by congruence. subst. lia.
Qed.
Lemma f4_cov d base n c g : f4_glyph d base n c g -> f4_covered d base n c.
Proof. intros (a & s & dl & ro & A & S1 & S2 & _). exists a, s. auto. Qed.
Theorem C74_answer_from_the_file_bmp :
  forall uk d f base n r b, isbytes d -> parseFont uk d = Some (Some f) -> subtable31 d base -> segments d base n ->
    (forall seg ro, 0 <= seg < n -> f4_ro d base n seg = Some ro -> ro mod 2 = 0) -> 0 <= r <= 65535 ->
    isCurrFontContainGlyph (Some f) r = Some b ->
    (b = true <-> exists g, f4_glyph d base n r g /\ g <> 0).
Proof.
  intros uk d f base n r b B H S1 S2 EV R A. pose proof (C25_bmp_lookup_follows_cmap uk d f base n r B H S1 S2 EV R) as L.
  unfold isCurrFontContainGlyph, runeToGlyph in A. destruct (Z.ltb_spec r 0); [lia|]. destruct (charToGlyph f r) as [g| |]; [| |discriminate].
  - destruct (Z.eqb_spec g 0) as [G0|G]; [subst g|]; injection A as <-.
    + split; [discriminate|]. intros (g & G & NZ). contradiction NZ. eapply f4_fun; eassumption.
    + split; [|reflexivity]. intros _. exists g. auto.
  - injection A as <-. split; [discriminate|]. intros (g & G & _). contradiction L. eapply f4_cov. exact G.
Qed.
(** … above the basic plane, if its (3,10) subtable does; and never without such a subtable. *)
Theorem C74_answer_from_the_file_supplementary :
  forall uk d f r b, isbytes d -> parseFont uk d = Some (Some f) -> 65535 < r -> isCurrFontContainGlyph (Some f) r = Some b ->
    (forall base, subtable310 d base -> (b = true <-> exists g, f12_glyph d base r g /\ g <> 0)) /\
    ((forall base, ~ subtable310 d base) -> b = false).
Proof.
  intros uk d f r b B H R A. split.
  - intros base S1. pose proof (C25_supplementary_lookup_follows_cmap uk d f base r B H S1 R) as L.
    unfold isCurrFontContainGlyph, runeToGlyph in A. destruct (Z.ltb_spec r 0); [lia|]. destruct (charToGlyph f r) as [g| |]; [| |discriminate].
    + assert (U : forall h, f12_glyph d base r h -> h = g).
      { intros h (n & i & s & e & g0 & N & I & G & C & -> & F). destruct L as (n' & i' & s' & e' & g0' & N' & I' & G' & C' & -> & F').
        assert (i = i'). { destruct (Z.lt_total i i') as [X|[X|X]]; [|exact X|]; exfalso; [exact (F' i s e g0 ltac:(lia) G C)|exact (F i' s' e' g0' ltac:(lia) G' C')]. }
        subst i'. destruct G as (K1 & K2 & K3), G' as (K1' & K2' & K3'). assert (s = s') by congruence. assert (g0 = g0') by congruence. subst. reflexivity. }
      destruct (Z.eqb_spec g 0) as [G0|G]; [subst g|]; injection A as <-.
      * split; [discriminate|]. intros (g & G & NZ). contradiction NZ. now apply U.
      * split; [|reflexivity]. intros _. exists g. auto.
    + injection A as <-. split; [discriminate|]. intros (g & (n & i & s & e & g0 & N & I & G & C & _) & _). contradiction L. exists n, i, s, e, g0. auto.
  - intros S1. pose proof (C25_no_supplementary_subtable uk d f r B H S1 R) as L. unfold isCurrFontContainGlyph, runeToGlyph in A. destruct (Z.ltb_spec r 0); [lia|]. rewrite L in A. now injection A.
Qed.
(** Without a font selected, and for a negative rune, the answer is false. *)
Theorem C74_nothing_to_find :
  (forall r, isCurrFontContainGlyph None r = Some false) /\
  (forall uk d f r, isbytes d -> parseFont uk d = Some (Some f) -> - 2 ^ 31 <= r < 0 -> isCurrFontContainGlyph (Some f) r = Some false).
Proof.
  split; [reflexivity|]. intros uk d f r B H R. unfold isCurrFontContainGlyph, runeToGlyph. destruct (Z.ltb_spec r 0); [|lia].
  destruct (parsed_cmap12 uk d f H) as (q & q' & Hc). apply cmap12_ok in Hc; [|exact B|intros; eapply parsed_tables; eassumption].
  assert (U : u64 r = 2 ^ 64 + r) by (unfold u64; rewrite <- (Z_mod_plus_full r 1 (2 ^ 64)), Z.mod_small; lia).
  enough (E : format12 (t_groups f) (u64 r) = NotFound) by now rewrite E.
  destruct Hc as [(e & n & F & N & G & X)|(b & n & S2 & N & _ & L & X)]; [now rewrite G|].
  pose proof (format12_spec (t_groups f) (u64 r)) as FS. destruct (format12 (t_groups f) (u64 r)) as [g| |]; [|reflexivity|contradiction].
  exfalso. destruct FS as (i & I1 & I2). rewrite L in I1. pose proof (X i I1) as Xi. cbv zeta in Xi. destruct (nth (Z.to_nat i) (t_groups f) (0, 0, 0)) as [[s e] g0]. cbn [fst snd] in Xi.
  destruct Xi as (_ & E2 & _). assert (0 <= e < 2 ^ 32) by (eapply u32_range; eassumption). lia.
Qed.
(** A glyph the font file does not have: the answer is taken from the character map alone, so it can be true although
    the font has no such glyph (here glyph 65 of 4). *)
Theorem C74_missing_outline_refuted :
  match parseFont false (font_with 2 (mk_cmap4 (16 + 16) [67; 65535] [65; 65535] [0; 1] [0; 0] []) []) with
  | Some (Some f) => isCurrFontContainGlyph (Some f) 65 = Some true /\ charToGlyph f 65 = Found 65 /\ t_nGlyphs f = 4
  | _ => False end.
Proof. vm_compute. repeat split; reflexivity. Qed.
Example C74_met :
  match parseFont true good_font with
  | Some (Some f) => addTexts (charToGlyph f) (fun _ => 32) [] [[65; 90]] = Some ([[65; 32]], [(65, 1); (32, 0)]) /\
      map (isCurrFontContainGlyph (Some f)) [65; 66; 90; 32; 65535; 70000; -5] = [Some true; Some true; Some false; Some false; Some false; Some false; Some false]
  | _ => False end.
Proof. vm_compute. split; reflexivity. Qed.
Print Assumptions C74_answer_is_what_is_drawn.
Print Assumptions C74_answer_from_the_file_bmp.
Print Assumptions C74_answer_from_the_file_supplementary.
Print Assumptions C74_nothing_to_find.

(** ** C75 *)
(** The number a Go value stands for. *)
Definition number_of (v : goval) : option R :=
  match v with
  | VInt _ _ z => Some (IZR z)
  | VFloat64 x | VFloat32 x => Some (SF2R radix2 x)
  | VOther => None
  end.
Definition finite_value (v : goval) : Prop :=
  match v with VInt sg bits z => int_type sg bits z | VFloat64 x | VFloat32 x => is64 x (SF2R radix2 x) | VOther => True end.
(** Which letters a style string has: B, I, U in either case, anywhere; others are ignored. *)
Definition letter (up : Z) (style : bytes) : Prop := In up style \/ In (up + 32) style.
Definition ascii (s : bytes) : Prop := forall b, In b s -> 0 <= b < 128.
(** The font a call asks for: bold and italic as the style says (Bold = 2, Italic = 1), underlined or not. *)
Definition asks (style : bytes) (bold italic underline : bool) : Prop :=
  (bold = true <-> letter 66 style) /\ (italic = true <-> letter 73 style) /\ (underline = true <-> letter 85 style).
Definition bi (bold italic : bool) : Z := (if bold then 2 else 0) + (if italic then 1 else 0).

Lemma hasByte_in b s : hasByte b s = true <-> In b s.
Proof. unfold hasByte. rewrite existsb_exists. split; [intros (x & I & E); apply Z.eqb_eq in E; now subst|]. intros I. exists b. split; [exact I|]. apply Z.eqb_refl. Qed.
Lemma hasPair_ascii s : ascii s -> hasPair 196 177 s = false.
Proof.
  induction s as [|x [|y r] IH]; intros A; [reflexivity|reflexivity|]. change (hasPair 196 177 (x :: y :: r)) with (((x =? 196) && (y =? 177)) || hasPair 196 177 (y :: r)).
  rewrite IH by (intros b I; apply A; now right). pose proof (A x (or_introl eq_refl)). replace (x =? 196) with false by lia. reflexivity.
Qed.
Lemma upper_letter up s : ascii s -> (upperContains up s = true <-> letter up s).
Proof.
  intros A. unfold upperContains, letter. rewrite hasPair_ascii by exact A. rewrite andb_false_r, orb_false_r, orb_true_iff, !hasByte_in. reflexivity.
Qed.
Lemma converted s bold italic underline : ascii s -> asks s bold italic underline ->
  strip_underline (getConvertedStyle s) = bi bold italic /\ (Z.testbit (getConvertedStyle s) 2 = underline).
Proof.
  intros A (B & I & U). assert (E : forall up b, (b = true <-> letter up s) -> upperContains up s = b).
  { intros up b H. pose proof (upper_letter up s A) as L. apply Bool.eq_iff_eq_true. rewrite L. symmetry. exact H. }
  unfold getConvertedStyle. rewrite (E 66 bold B), (E 73 italic I), (E 85 underline U). destruct bold, italic, underline; split; reflexivity.
Qed.
Lemma q_of_f64 x : Q2R (f64_q x) = SF2R radix2 x.
Proof.
  destruct x as [s|s| |s m e]; try (cbn [f64_q SF2R]; unfold Q2R; cbn [Qnum Qden]; lra).
  assert (P : Q2R (inject_Z (Zpos m) * (if 0 <=? e then inject_Z (2 ^ e) else / inject_Z (2 ^ (- e)))) = (IZR (Zpos m) * bpow radix2 e)%R).
  { rewrite Q2R_mult. assert (J : forall z, Q2R (inject_Z z) = IZR z) by (intros; unfold Q2R, inject_Z; cbn [Qnum Qden]; lra). rewrite J. f_equal.
    destruct (Z.leb_spec 0 e).
    - rewrite J. rewrite <- IZR_Zpower by lia. reflexivity.
    - rewrite Q2R_inv, J. 2: { intros Q0. unfold Qeq, inject_Z in Q0. cbn [Qnum Qden] in Q0. assert (0 < 2 ^ (- e)) by (apply Z.pow_pos_nonneg; lia). lia. }
      rewrite <- (Z.opp_involutive e) at 2. rewrite bpow_opp. f_equal. rewrite <- IZR_Zpower by lia. reflexivity. }
  unfold f64_q, SF2R. cbv zeta. destruct s.
  - rewrite Q2R_opp, P. unfold F2R. cbn [Fnum Fexp cond_Zopp]. change (IZR (Z.neg m)) with (IZR (- Z.pos m)). rewrite opp_IZR. ring.
  - rewrite P. unfold F2R. cbn [Fnum Fexp cond_Zopp]. ring.
Qed.
Lemma int_rounded z : Z.abs z <= 2 ^ 64 -> is64 (f64_ofZ z) (rnd (IZR z)).
Proof.
  intros H. unfold f64_ofZ. change prec64 with 53%Z. change emax64 with 1024%Z.
  assert (E : F2R (Float radix2 z 0) = IZR z) by (unfold F2R; simpl; ring).
  generalize (norm_is z 0 false). cbv zeta. rewrite E. intros G. apply G.
  apply Rle_lt_trans with (bpow radix2 64); [|apply bpow_lt; lia]. apply rnd_abs_le; [apply bpow_fmt; lia|]. rewrite <- abs_IZR. change (bpow radix2 64) with (IZR (2 ^ 64)). now apply IZR_le.
Qed.

(** SetFont(family, style, size) succeeds exactly if size is a number of a built-in type and a font of that family was
    added as bold and italic as the letters of style say (fonts registered without the Underline bit, C42) … *)
Theorem C75_succeeds_iff :
  forall (c : config) (l : list op) fam style bold italic underline size, forallb plain_op l = true -> ascii style -> asks style bold italic underline ->
    (snd (setFontStr fam style size (doc c l)) = Ok <->
     (exists r, number_of size = Some r) /\ In (fam, bi bold italic) (a_fonts (adoc_of c l))).
Proof.
  intros c l fam style bold italic underline size P A S. destruct (converted style bold italic underline A S) as [E _].
  unfold setFontStr, setFontWithStyle. destruct (convertNumeric size) as [x|] eqn:CN.
  - rewrite <- E, <- (C42_setfont_succeeds_iff_added c l fam (getConvertedStyle style) (f64_q x) P). cbn [step sstep].
    split; [|tauto]. intros H. split; [|exact H]. destruct size; try discriminate; eexists; reflexivity.
  - split; [discriminate|]. intros ((r & N) & _). destruct size; discriminate.
Qed.
(** … and then text is shown in that font, in the size given: exactly the number, when it is a float or an integer up to
    2^53, otherwise the nearest float64, at most one part in 2^53 off. *)
Theorem C75_size_as_given :
  forall (s : gp) fam style size r, snd (setFontStr fam style size s) = Ok -> finite_value size -> number_of size = Some r ->
    let q := Q2R (g_fontsize (fst (setFontStr fam style size s))) in
    (match size with VInt _ _ z => Z.abs z <= 2 ^ 53 | _ => True end -> q = r) /\ (Rabs (q - r) <= bpow radix2 (-53) * Rabs r)%R.
Proof.
  intros s fam style size r H V NO q.
  assert (X : exists x, convertNumeric size = Some x /\ q = SF2R radix2 x).
  { subst q. unfold setFontStr, setFontWithStyle in *. destruct (convertNumeric size) as [x|]; [|discriminate]. exists x. split; [reflexivity|]. unfold setFont in *.
    destruct (find_font _ _ _ _) as [[i f]|]; [|discriminate]. cbn [fst]. rewrite <- q_of_f64. reflexivity. }
  destruct X as (x & CN & Q). rewrite Q. clear Q q.
  assert (Z0 : (0 < bpow radix2 (-53))%R) by apply bpow_gt_0.
  assert (EX : SF2R radix2 x = r -> (Rabs (SF2R radix2 x - r) <= bpow radix2 (-53) * Rabs r)%R).
  { intros ->. replace (r - r)%R with 0%R by ring. rewrite Rabs_R0. apply Rmult_le_pos; [lra|apply Rabs_pos]. }
  destruct size as [sg bits z|y|y|]; try discriminate; cbn in CN, NO; injection CN as <-; injection NO as <-; [|split; [reflexivity|now apply EX]|split; [reflexivity|now apply EX]].
  assert (AZ : Z.abs z <= 2 ^ 64).
  { destruct V as (B & V). destruct B as [-> |[-> |[-> | -> ]]], sg; cbn in V |- *; lia. }
  destruct (int_rounded z AZ) as (_ & _ & R). rewrite R in *. split; [apply rnd_Z|].
  destruct (Z.eq_dec z 0) as [->|NZ]; [rewrite (rnd_Z 0) by (cbn; lia); replace (0 - 0)%R with 0%R by ring; rewrite !Rabs_R0; lra|].
  apply Rle_trans with (/ 2 * bpow radix2 (-52) * Rabs (IZR z))%R.
  - apply rnd_err. rewrite <- abs_IZR. apply Rle_trans with 1%R; [change 1%R with (bpow radix2 0); apply bpow_le; lia|]. apply IZR_le. lia.
  - apply Rmult_le_compat_r; [apply Rabs_pos|]. change (bpow radix2 (-52)) with (bpow radix2 (1 + -53)). rewrite bpow_plus. change (bpow radix2 1) with 2%R. lra.
Qed.
(** … the text is shown in that font (C42), … *)
Theorem C75_text_in_the_font_asked_for :
  forall (c : config) (l : list op) fam style bold italic underline size (t : bytes), forallb plain_op l = true -> ascii style -> asks style bold italic underline ->
    snd (setFontStr fam style size (doc c l)) = Ok ->
    read_pages (output (fst (step (fst (setFontStr fam style size (doc c l))) (Do (Text t)))))
    = upd_last (add_shown (ShText fam (bi bold italic) t)) (read_pages (output (doc c l))).
Proof.
  intros c l fam style bold italic underline size t P A S H. destruct (converted style bold italic underline A S) as [E _].
  unfold setFontStr, setFontWithStyle in *. destruct (convertNumeric size) as [x|]; [|discriminate].
  pose proof (C42_text_uses_selected_font c l fam (getConvertedStyle style) (f64_q x) t P H) as C. rewrite E in C. rewrite <- C. f_equal. f_equal.
  unfold doc. unfold exec. rewrite fold_left_app. reflexivity.
Qed.
(** … and a call that fails changes nothing, whatever the reason. *)
Theorem C75_failure_changes_nothing :
  forall (s : gp) fam style size, snd (setFontStr fam style size s) <> Ok -> fst (setFontStr fam style size s) = s.
Proof.
  intros s fam style size. unfold setFontStr, setFontWithStyle. destruct (convertNumeric size) as [x|]; [|reflexivity].
  exact (C42_failed_setfont_changes_nothing s fam (getConvertedStyle style) (f64_q x)).
Qed.

(** The style kept for the texts that follow has the Underline bit, which C65's bars depend on, exactly if the style has a
    U. *)
Theorem C75_underlined_iff_asked :
  forall style bold italic underline, ascii style -> asks style bold italic underline ->
    Z.testbit (getConvertedStyle style) 2 = underline /\ Z.land (getConvertedStyle style) 4 = (if underline then 4 else 0).
Proof.
  intros style bold italic underline A S. destruct (converted style bold italic underline A S) as [E U]. split; [exact U|].
  revert U. unfold getConvertedStyle. destruct (upperContains 66 style), (upperContains 73 style), (upperContains 85 style); intros U; cbn in U; subst underline; reflexivity.
Qed.
(** The hypotheses are met: SetFont("serif", "xu", 12) asks for the regular font, underlined, … *)
Example C75_met :
  forallb plain_op demo = true /\ ascii (bs "xu") /\ asks (bs "xu") false false true /\
  finite_value (VInt true 64 12) /\ number_of (VInt true 64 12) = Some 12%R /\
  snd (setFontStr (bs "serif") (bs "xu") (VInt true 64 12) (doc a4 demo)) = Ok /\
  snd (setFontStr (bs "serif") (bs "xu") VOther (doc a4 demo)) = Err /\
  snd (setFontStr (bs "serif") (bs "bI") (VInt true 64 12) (doc a4 demo)) = Err.
Proof.
  split; [vm_compute; reflexivity|]. split; [intros b H; vm_compute in H; intuition lia|].
  split; [unfold asks, letter; vm_compute; intuition (discriminate || reflexivity || auto)|].
  split; [cbn; unfold int_type; lia|]. split; [reflexivity|]. vm_compute. repeat split; reflexivity.
Qed.
(** Without [ascii] the letters are not all: a style "ı" (U+0131, bytes C4 B1) is taken for italic, as its capital is I. *)
Theorem C75_dotless_i_refuted :
  exists style, ~ letter 66 style /\ ~ letter 73 style /\ ~ letter 85 style /\ strip_underline (getConvertedStyle style) = bi false true.
Proof. exists [196; 177]. unfold letter. cbn. repeat split; try (intuition lia). Qed.
(** A size that is not a float64 for lack of precision: 2^53 + 1 as an int becomes 2^53. *)
Theorem C75_large_int_rounded_refuted :
  exists z, int_type true 64 z /\ exists x, convertNumeric (VInt true 64 z) = Some x /\ f64_q x <> inject_Z z /\ (f64_q x == inject_Z (z - 1))%Q.
Proof.
  exists (2 ^ 53 + 1). split; [unfold int_type; cbn; lia|]. eexists. split; [reflexivity|]. split; [vm_compute; discriminate|vm_compute; reflexivity].
Qed.
Print Assumptions C75_succeeds_iff.
Print Assumptions C75_size_as_given.
Print Assumptions C75_text_in_the_font_asked_for.
Print Assumptions C75_failure_changes_nothing.
Print Assumptions C75_underlined_iff_asked.
