(** PropCopy.v — C81: the text of every page can be copied out of the written file's bytes. *)
From Coq Require Import QArith.
From Verif Require Import Base Crypto FileModel FileSpec FileProofs PropFile SecSpec SecModel PropSec DrawSpec NumModel StrModel StrSpec PropStr DocModel DocSpec DocProofs DocInv PropDoc
  StreamModel PropStream PdfSyntax PdfRead ObjModel PropObj PropObj2 PropObj3 RefModel PropRef PropRef2 OpenSpec PropOnePage PropOpen.
From Verif Require Import DrawModel DrawLex DrawView PropText PropWidth CopySpec.
From Verif Require PropName PropName2.
Open Scope Z_scope.

(** ** Streams through the table *)
Lemma stream_of_ok inflate file es pr n o d rest x : object_of file es n = Some (o, rest ++ x) -> 0 < n < 2 ^ 24 -> value_of "Length" o = Some (OInt (zlen d)) ->
  (exists pre post, rest = pre ++ bs "stream" ++ [10] ++ StreamModel.enc pr n d ++ post ++ bs "endstream" ++ [10] /\ forallb is_white pre = true /\ forallb is_white post = true) ->
  stream_of inflate file es (option_map p_key pr) n =
    (if has_key "Filter" o then match value_of "Filter" o with Some (OName f) => if list_eqb f (bs "FlateDecode") then inflate d else None | _ => None end else Some d).
Proof.
  intros O N V (pre & post & -> & A & B). unfold stream_of. rewrite O. rewrite (stream_data_ok _ (zlen d)); [|exact V|now rewrite enc_len|exact A|exact B]. cbv zeta.
  assert (DE : (match option_map p_key pr with Some k => decrypt k n (StreamModel.enc pr n d) | None => StreamModel.enc pr n d end) = d).
  { rewrite enc_eq. destruct pr as [q|]; [|reflexivity]. cbn [option_map]. unfold decrypt. rewrite <- C13_key_material_is_standard by lia. apply rc4_invol. }
  rewrite DE. reflexivity.
Qed.

(** ** The objects of fonts *)
(** As their write methods produce them: [um] is the character map of the font whose ToUnicode object has that index,
    [prog] the font program and [wd] the widths of the CIDFont written at that index (C24-C29 say what these are). *)
Definition font_written (zl : bytes -> bytes) (pr : option protection) (um : nat -> cgmap) (prog : nat -> bytes) (wd : nat -> list (Z * Z)) (i : nat) (o : obj) (txt : bytes) : Prop :=
  match o with
  | OUnicodeMap => txt = sbody zl pr (Z.of_nat i + 1) (SUnicode (um i))
  | OPdfDict => txt = sbody zl pr (Z.of_nat i + 1) (SFontFile (prog i))
  | OSubDesc d => exists fam m, nice_family fam /\ txt = descriptor_body fam m (Z.of_nat d)
  | OCIDFont d => exists fam, nice_family fam /\ txt = cid_font_body fam (Z.of_nat d) (wd i)
  | _ => True
  end.
(** The objects a font leads to. *)
Definition program_index (t : gp) (f : font) : option nat :=
  match nth_error (g_objs t) (fo_cid f) with
  | Some (OCIDFont d) => match nth_error (g_objs t) d with Some (OSubDesc p) => Some p | _ => None end
  | _ => None
  end.
Section Fonts.
  Variables (c : config) (l : list op) (zl : bytes -> bytes) (inflate : bytes -> option bytes) (box : rectq -> f64 * f64) (ren : list item -> bytes).
  Variables (pr : option protection) (pw : password) (info : option pdfinfo) (objs : list (Z -> wprog)) (um : nat -> cgmap) (prog : nat -> bytes) (wd : nat -> list (Z * Z)).
  Hypothesis F : finishes (start c zero_gp) l.
  Hypothesis HZ : forall d, inflate (zl d) = Some d.
  Let s := doc c l. Let t := output s.
  Let P i o txt := written_as zl pr box ren t i o txt /\ font_written zl pr um prog wd i o txt.
  Let file := compile_bytes objs {| tr_encrypt := if cf_protect (g_cfg s) then Some (g_encid t) else None; tr_info := option_map (fun i => [writeInfo i]) info |}.
  Variables (es : list xentry) (tr : pobj).
  Hypothesis OP : opened c l pr pw info objs P es tr.
  Lemma OP' : open_xref file = Some (es, tr) /\ file_key_of file es tr pw = Some (option_map p_key pr) /\
    forall n o, obj_no t n = Some o -> exists i txt post, n = Z.of_nat i + 1 /\ n < 2 ^ 24 /\ P i o txt /\
     forall v rest, read_object txt = Some (v, rest) -> object_of file es n = Some (v, rest ++ post).
  Proof using OP. destruct OP as (A & B & _ & D). split; [exact A|]. split; [exact B|exact D]. Qed.
  Lemma font_dict page n f : ref_of "Resources" page = Some 4 -> font_res t n = Some (OSubsetFont f) ->
    In (OSubsetFont f) (g_objs t) /\ exists num rest, named_object file page "Font" (bs "F" ++ fmt_d n) = Some (num,
      (ODict [(bs "BaseFont", OName (fontName (fo_family f))); (bs "DescendantFonts", OArr [ref (Z.of_nat (fo_cid f) + 1)]); (bs "Encoding", N_ "Identity-H");
            (bs "Subtype", N_ "Type0"); (bs "ToUnicode", ref (Z.of_nat (fo_umap f) + 1)); (bs "Type", N_ "Font")], rest)).
  Proof using F OP.
    destruct OP' as (OX & KEY & OBJ). intros RF SH.
    assert (R4 : obj_no t 4 = Some OProcSet).
    { pose proof (PropName2.RGood_doc c l F) as G. fold s in G. destruct (R_obj t KResources 4) as (o & O & K); [apply (gd_ref false t G), in_or_app; right; insr|]. change (obj_no t 4 = Some o) in O. rewrite O. now destruct o. }
    destruct (OBJ _ _ R4) as (i4 & txt4 & post4 & _ & _ & ((tpls & HT & ->) & _) & RO4).
    match type of RO4 with context [procset_body ?a ?b ?c ?d ?e] => destruct (C60_resources a b c d e) as (rest4 & RE4 & _) end; [eapply Forall_impl; [|exact HT]; intros e (nm & A & B & C & _); eauto|].
    specialize (RO4 _ _ RE4). clear RE4.
    pose proof (PropName2.Good_doc c l F) as G. fold s in G. fold t in G. destruct (PropName.gd_tidy t G) as [[T1 _] [T2 _] [T3 _] [T4 _]]. clear G.
    unfold font_res in SH. destruct (find _ (g_fonts t)) as [r|] eqn:FD; [|discriminate]. destruct (nth_error (g_objs t) (rf_index r)) as [o|] eqn:NO; [|discriminate].
    injection SH as ->. split; [eapply nth_error_In, NO|]. rewrite <- obj_no_of_nat in NO. apply find_some in FD as [FI FE]. apply Z.eqb_eq in FE.
    destruct (OBJ _ _ NO) as (i5 & txt5 & post5 & E5 & L5 & ((NF & ->) & _) & RO5).
    destruct (C60_font (fo_family f) (Z.of_nat (fo_cid f)) (Z.of_nat (fo_umap f)) NF) as (rest & RE & _). specialize (RO5 _ _ RE).
    unfold named_object. rewrite OX, RF, RO4.
    match goal with |- context [value_of "Font" ?d] => set (dd := d); assert (VD : value_of "Font" dd = Some (ODict (map (fun e => resource "F" (fst e + 1) (snd e + 1)) (map (fun r => (rf_count r, Z.of_nat (rf_index r))) (g_fonts t))))) by reflexivity end.
    rewrite VD. rewrite map_map. cbn [fst snd].
    assert (DG : value_at (bs "F" ++ fmt_d n) (ODict (map (fun r => resource "F" (rf_count r + 1) (Z.of_nat (rf_index r) + 1)) (g_fonts t))) = Some (ref (Z.of_nat (rf_index r) + 1))).
    { pose proof (PropName2.dict_map (fun r => resource "F" (rf_count r + 1) (Z.of_nat (rf_index r) + 1)) (g_fonts t) r []) as D. rewrite app_nil_r in D. cbn [resource fst snd] in D. rewrite FE in D.
      apply D; [|exact FI|intros e []]. now apply (PropName2.counts_ok "F"). }
    rewrite DG. cbn [ref]. cbn [Z.eqb]. rewrite RO5. cbn [option_map]. do 2 eexists. reflexivity.
  Qed.
  (** The kinds of the objects a font names. *)
  Lemma font_kinds f : In (OSubsetFont f) (g_objs t) -> obj_no t (Z.of_nat (fo_umap f) + 1) = Some OUnicodeMap /\
    exists d p, obj_no t (Z.of_nat (fo_cid f) + 1) = Some (OCIDFont d) /\ obj_no t (Z.of_nat d + 1) = Some (OSubDesc p) /\ obj_no t (Z.of_nat p + 1) = Some OPdfDict.
  Proof using F.
    intros I. pose proof (PropName2.RGood_doc c l F) as G. fold s in G. fold t in G.
    assert (RO : forall o x, In o (g_objs t) -> In x (orefs false o) -> R t x) by (intros o x IO IX; apply (gd_ref false t G), in_or_app; left; apply in_flat_map; eauto).
    split.
    - destruct (R_obj t KToUnicode (Z.of_nat (fo_umap f) + 1)) as (o & O & K); [apply (RO _ _ I); cbn; auto|]. rewrite O. now destruct o.
    - destruct (R_obj t KCIDFont (Z.of_nat (fo_cid f) + 1)) as (o & O & K); [apply (RO _ _ I); cbn; auto|]. destruct o; try discriminate K. exists desc.
      assert (I1 : In (OCIDFont desc) (g_objs t)) by (rewrite obj_no_of_nat in O; eapply nth_error_In, O).
      destruct (R_obj t KDescriptor (Z.of_nat desc + 1)) as (o2 & O2 & K2); [apply (RO _ _ I1); cbn; auto|]. destruct o2; try discriminate K2. exists dict.
      assert (I2 : In (OSubDesc dict) (g_objs t)) by (rewrite obj_no_of_nat in O2; eapply nth_error_In, O2).
      destruct (R_obj t KFontFile (Z.of_nat dict + 1)) as (o3 & O3 & K3); [apply (RO _ _ I2); cbn; auto|]. destruct o3; try discriminate K3. auto.
  Qed.
  Lemma tounicode_read page n f : ref_of "Resources" page = Some 4 -> font_res t n = Some (OSubsetFont f) ->
    named_tounicode inflate file pw page (bs "F" ++ fmt_d n) = read_cmap (cmap_text (um (fo_umap f))).
  Proof using F OP HZ.
    intros RF SH. destruct (font_dict page n f RF SH) as (I & num & rest & ND). destruct (font_kinds f I) as [KU _].
    destruct OP' as (OX & KEY & OBJ). unfold named_tounicode. rewrite ND. rewrite OX, KEY.
    match goal with |- context [ref_of "ToUnicode" ?d] => replace (ref_of "ToUnicode" d) with (Some (Z.of_nat (fo_umap f) + 1)) by reflexivity end.
    destruct (OBJ _ _ KU) as (i & txt & post & E & L & (_ & TX) & RO). cbn [font_written] in TX. subst txt. assert (E' : i = fo_umap f) by lia. subst i.
    destruct (C60_tounicode zl pr (Z.of_nat (fo_umap f) + 1) (um (fo_umap f))) as (pre & po & re & RE & -> & WA & WB).
    pose proof (stream_of_ok inflate file es pr _ _ (cmap_text (um (fo_umap f))) _ post (RO _ _ RE)) as SO.
    rewrite SO; [reflexivity|clear - L; lia|reflexivity|exists pre, po; auto].
  Qed.
  Lemma program_read page n f : ref_of "Resources" page = Some 4 -> font_res t n = Some (OSubsetFont f) ->
    exists p, program_index t f = Some p /\ named_program inflate file pw page (bs "F" ++ fmt_d n) = Some (prog p).
  Proof using F OP HZ.
    intros RF SH. destruct (font_dict page n f RF SH) as (I & num & rest & ND). destruct (font_kinds f I) as [_ (d & p & K1 & K2 & K3)].
    exists p. split; [unfold program_index; rewrite obj_no_of_nat in K1, K2; now rewrite K1, K2|].
    destruct OP' as (OX & KEY & OBJ). unfold named_program, named_cidfont. rewrite ND. rewrite OX, KEY.
    match goal with |- context [value_of "DescendantFonts" ?d] => replace (value_of "DescendantFonts" d) with (Some (OArr [ref (Z.of_nat (fo_cid f) + 1)])) by reflexivity end. cbn [ref Z.eqb].
    destruct (OBJ _ _ K1) as (i1 & txt1 & post1 & _ & _ & (_ & fam1 & NF1 & ->) & RO1). destruct (C60_cidfont fam1 (Z.of_nat d) (wd i1) NF1) as (r1 & RE1 & _). rewrite (RO1 _ _ RE1). cbn [option_map fst].
    match goal with |- context [ref_of "FontDescriptor" ?x] => replace (ref_of "FontDescriptor" x) with (Some (Z.of_nat d + 1)) by reflexivity end.
    destruct (OBJ _ _ K2) as (i2 & txt2 & post2 & _ & _ & (_ & fam2 & m & NF2 & ->) & RO2). destruct (C60_descriptor fam2 m (Z.of_nat p) NF2) as (r2 & RE2 & _). rewrite (RO2 _ _ RE2).
    match goal with |- context [ref_of "FontFile2" ?x] => replace (ref_of "FontFile2" x) with (Some (Z.of_nat p + 1)) by reflexivity end.
    destruct (OBJ _ _ K3) as (i & txt & post & E & L & (_ & TX) & RO). cbn [font_written] in TX. subst txt. assert (E' : i = p) by lia. subst i.
    destruct (C60_fontfile zl pr (Z.of_nat p + 1) (prog p)) as (pre & po & re & RE & -> & WA & WB).
    pose proof (stream_of_ok inflate file es pr _ _ (zl (prog p)) _ post (RO _ _ RE)) as SO.
    rewrite SO; [apply HZ|clear - L; lia|reflexivity|exists pre, po; auto].
  Qed.
  Lemma width_read page n f g : ref_of "Resources" page = Some 4 -> font_res t n = Some (OSubsetFont f) ->
    named_width file page (bs "F" ++ fmt_d n) g = FaceSpec.widths_of (flat_map (fun e => [OInt (fst e); OArr [OInt (snd e)]]) (wd (fo_cid f))) g.
  Proof using F OP HZ.
    intros RF SH. destruct (font_dict page n f RF SH) as (I & num & rest & ND). destruct (font_kinds f I) as [_ (d & p & K1 & K2 & K3)].
    destruct OP' as (OX & KEY & OBJ). unfold named_width, named_cidfont. rewrite ND. rewrite OX.
    match goal with |- context [value_of "DescendantFonts" ?d] => replace (value_of "DescendantFonts" d) with (Some (OArr [ref (Z.of_nat (fo_cid f) + 1)])) by reflexivity end. cbn [ref Z.eqb].
    destruct (OBJ _ _ K1) as (i1 & txt1 & post1 & E & _ & (_ & fam1 & NF1 & TX) & RO1). assert (E' : i1 = fo_cid f) by (clear - E; lia). subst i1 txt1.
    destruct (C60_cidfont fam1 (Z.of_nat d) (wd (fo_cid f)) NF1) as (r1 & RE1 & _). rewrite (RO1 _ _ RE1). cbn [option_map fst].
    match goal with |- context [value_of "W" ?x] => replace (value_of "W" x) with (Some (OArr (flat_map (fun e => [OInt (fst e); OArr [OInt (snd e)]]) (wd (fo_cid f))))) by reflexivity end. reflexivity.
  Qed.
End Fonts.

(** ** The text of a page *)
(** What the drawing layer (DrawModel.v) made of the drawings of one content object: caches whose texts, taken together, are the
    characters of the texts drawn, each with the font it was drawn with (successive texts may be joined in one cache); every
    character has a glyph, which the character map of its font lists. *)
Definition char_of (it : item) : list (Z * Z) := match it with IText n txt _ => map (pair n) (runes txt) | _ => [] end.
Definition drawn (N : NumModel.num) (rot : T N -> T N * T N) (t : gp) (um : nat -> cgmap) (ren : list item -> bytes) (its : list item) : Prop :=
  exists cs, Forall (cache_ok N) cs /\ content_write N rot cs = Some (ren its) /\
    flat_map (fun tc => map (pair (c_fci N tc)) (c_text N tc)) (texts N cs) = flat_map char_of its /\
    Forall (fun tc => exists f, font_res t (c_fci N tc) = Some (OSubsetFont f) /\
       forall r, In r (c_text N tc) -> exists g, fv_ci (c_font N tc) r = Some g /\ In (r, g) (um (fo_umap f))) (texts N cs).
(** ** What the drawing calls make of it *)
(** Any orderly sequence of calls on a page that starts with nothing drawn leaves caches whose texts are exactly the texts of the
    calls ([pieces], PropText.v), in order, each with the font that was current when it was drawn. *)
Definition chars_of (N : NumModel.num) (p : piece N) : list (Z * Z) := map (pair (p_font N p + 1)) (p_text N p).
Lemma calls_texts N rot ft (s s' : ds N) calls b :
  s_caches N s = [] -> (s_mode N s = true <-> s_color N s <> None) -> (forall n f, s_font N s = Some (n, f) -> f = ft n) ->
  fonts_named N ft calls -> orderly N false calls -> run N s calls = Some s' -> content_write N rot (s_caches N s') = Some b ->
  exists cs, Forall (cache_ok N) cs /\ content_write N rot cs = Some b /\
    flat_map (fun tc => map (pair (c_fci N tc)) (c_text N tc)) (texts N cs) = flat_map (chars_of N) (pieces N s calls) /\
    Forall (fun tc => exists p ps, incl (p :: ps) (pieces N s calls) /\ Forall (fun q => p_font N q + 1 = c_fci N tc /\ p_fv N q = c_font N tc) (p :: ps) /\ c_text N tc = flat_map (p_text N) (p :: ps)) (texts N cs).
Proof.
  intros E M F FN OR R W.
  assert (K : core N ft s []) by (split; rewrite ?E; try constructor; try apply M; exact F).
  assert (CL : closed N s) by (intros c ((pre & P) & _); rewrite E in P; destruct pre; discriminate P).
  destruct (history N rot ft calls false s [] s' FN OR K) as (G & [K1 _ _ _ K5] & CG); [left; split; [now apply closed_atEnd|auto]|exact R|].
  exists (s_caches N s'). split; [exact K5|]. split; [exact W|]. cbn [List.concat app] in CG. rewrite <- CG. clear - K1.
  assert (H1 : forall tc g, holds N ft tc g -> exists p ps, g = p :: ps /\ Forall (fun q => p_font N q + 1 = c_fci N tc /\ p_fv N q = c_font N tc) (p :: ps) /\ c_text N tc = flat_map (p_text N) (p :: ps)).
  { intros tc [|p ps] H; [contradiction|]. destruct H as (A1 & A2 & _ & _ & _ & _ & _ & _ & _ & _ & _ & _ & _ & A3 & A4 & _). exists p, ps. split; [reflexivity|]. split; [|exact A3].
    constructor; [split; congruence|]. eapply Forall_impl; [|exact A4]. intros q (B1 & B2 & _). split; congruence. }
  induction K1 as [|tc g tcs gs HD K1 [IH1 IH2]]; [split; [reflexivity|constructor]|]. destruct (H1 _ _ HD) as (p & ps & -> & FA & TX). split.
  - cbn [flat_map List.concat]. rewrite flat_map_app, IH1. f_equal. rewrite TX. clear HD TX. revert FA. generalize (p :: ps). intros l FA. clear - FA. induction FA as [|q l (B1 & _) FA IH]; [reflexivity|]. cbn [flat_map]. rewrite map_app, IH. unfold chars_of. now rewrite B1.
  - constructor; [exists p, ps; split; [intros q Q; cbn [List.concat]; apply in_or_app; now left|split; assumption]|].
    eapply Forall_impl; [|exact IH2]. intros tc0 (p0 & ps0 & I0 & X). exists p0, ps0. split; [intros q Q; cbn [List.concat]; apply in_or_app; right; now apply I0|exact X].
Qed.
Lemma drawn_by_calls N rot ft t um ren its (s s' : ds N) calls :
  s_caches N s = [] -> (s_mode N s = true <-> s_color N s <> None) -> (forall n f, s_font N s = Some (n, f) -> f = ft n) ->
  fonts_named N ft calls -> orderly N false calls -> run N s calls = Some s' -> content_write N rot (s_caches N s') = Some (ren its) ->
  flat_map (chars_of N) (pieces N s calls) = flat_map char_of its ->
  Forall (fun p => exists f, font_res t (p_font N p + 1) = Some (OSubsetFont f) /\ forall r, In r (p_text N p) -> exists g, fv_ci (p_fv N p) r = Some g /\ In (r, g) (um (fo_umap f))) (pieces N s calls) ->
  drawn N rot t um ren its.
Proof.
  intros E M F FN OR R W CH G. destruct (calls_texts N rot ft s s' calls _ E M F FN OR R W) as (cs & A & B & C & D). exists cs. split; [exact A|]. split; [exact B|]. split; [congruence|].
  eapply Forall_impl; [|exact D]. intros tc (p & ps & IN & FA & TX). rewrite Forall_forall in G. inversion FA as [|? ? [P1 P2] FA']; subst. destruct (G p (IN p (or_introl eq_refl))) as (f & FR & _). exists f. rewrite <- P1. split; [exact FR|].
  intros r IR. rewrite TX in IR. apply in_flat_map in IR as (q & Q & IR). rewrite Forall_forall in FA. destruct (FA q Q) as [Q1 Q2]. destruct (G q (IN q Q)) as (f' & FR' & H). rewrite Q1 in FR'. rewrite P1 in FR. rewrite FR in FR'. injection FR' as <-. rewrite <- Q2. now apply H.
Qed.
(** Characters of the basic plane, each with its own glyph (C12 refutes the others). *)
Definition plain_map (m : cgmap) : Prop :=
  Forall (fun e => bmp (fst e) /\ 0 <= snd e < 65536) m /\ forall r1 r2 g, In (r1, g) m -> In (r2, g) m -> r1 = r2.
Definition characters (x : DocSpec.shown) : list Z := match x with ShText _ _ txt => runes txt | _ => [] end.

Lemma all_some_app {A} (l r : list (option A)) a b : all_some l = Some a -> all_some r = Some b -> all_some (l ++ r) = Some (a ++ b).
Proof.
  revert a. induction l as [|x l IH]; intros a E1 E2; cbn [all_some app] in *; [now injection E1 as <-|]. destruct x as [x|]; [|discriminate]. destruct (all_some l) as [a'|]; [|discriminate].
  injection E1 as <-. now rewrite (IH a' eq_refl E2).
Qed.
(** Only showings of text matter. *)
Lemma only_shows {A} (f : event -> option (list A)) evs : (forall e, isShow e = false -> f e = Some []) -> forall y,
  option_map (@List.concat A) (all_some (map f (filter isShow evs))) = Some y -> option_map (@List.concat A) (all_some (map f evs)) = Some y.
Proof.
  intros H. induction evs as [|e evs IH]; intros y E; [exact E|]. cbn [filter] in E. destruct (isShow e) eqn:S.
  - cbn [map all_some] in *. destruct (f e) as [a|]; [|discriminate E]. destruct (all_some (map f (filter isShow evs))) as [r|]; [|discriminate E]. cbn [option_map List.concat] in E.
    specialize (IH _ eq_refl). destruct (all_some (map f evs)) as [r'|]; [|discriminate IH]. cbn [option_map List.concat] in *. injection IH as ->. exact E.
  - specialize (IH _ E). cbn [map all_some]. rewrite (H e S). destruct (all_some (map f evs)) as [r|]; [|discriminate IH]. exact IH.
Qed.
Lemma glyphs_marks f just txt gs : Forall2 (fun r g => fv_ci f r = Some g) txt gs -> forall i lr lg, glyphs (marks f just i lr lg txt) = gs.
Proof.
  induction 1 as [|r g txt gs H F2 IH]; intros i lr lg; [reflexivity|]. cbn [marks]. rewrite H. cbv zeta. unfold glyphs in *. rewrite !flat_map_app, IH.
  assert (A : forall (b : bool) q, flat_map (fun x => match x with Glyph g0 => [g0] | Move _ => [] end) (if b then [] else [Move q]) = []) by (intros [] q; reflexivity). rewrite A.
  assert (B : flat_map (fun x => match x with Glyph g0 => [g0] | Move _ => [] end) match just with Some (adj, fi, la) => if (r =? 32) && (fi <? i) && (i <? la) then [Move (inject_Z adj)] else [] | None => [] end = [])
    by (destruct just as [[[a fi] la]|]; [destruct (_ && _ && _)%bool|]; reflexivity). rewrite B. reflexivity.
Qed.
Lemma codes_back es rs gs : Forall2 (fun r g => cmap_all es g <> [] /\ Forall (eq [r]) (cmap_all es g)) rs gs -> option_map (@List.concat Z) (all_some (map (code_text es) gs)) = Some rs.
Proof.
  induction 1 as [|r g rs gs [N A] F2 IH]; [reflexivity|]. cbn [map all_some].
  assert (E : code_text es g = Some [r]).
  { unfold code_text. destruct (cmap_all es g) as [|x q]; [contradiction|]. inversion A as [|? ? X Y]; subst. replace (forallb (list_eqb [r]) q) with true; [reflexivity|]. symmetry. apply forallb_forall. intros y I. rewrite Forall_forall in Y. rewrite <- (Y y I). apply list_eqb_eq. reflexivity. }
  rewrite E. destruct (all_some (map (code_text es) gs)) as [q|]; [|discriminate IH]. cbn [option_map List.concat] in *. injection IH as ->. reflexivity.
Qed.
Lemma with_glyphs {A B} (Rel : A -> B -> Prop) l : (forall x, In x l -> exists y, Rel x y) -> exists ys, Forall2 Rel l ys.
Proof. induction l as [|x l IH]; intros H; [exists []; constructor|]. destruct (H x (or_introl eq_refl)) as (y & Y). destruct IH as (ys & YS); [intros z Z; apply H; now right|]. exists (y :: ys). now constructor. Qed.
Lemma items_reading N tc gs : Forall2 (fun r g => fv_ci (c_font N tc) r = Some g) (c_text N tc) gs -> Forall (fun g => 0 <= g < 65536) gs ->
  exists ms, reading (DrawView.items N tc) = Some ms /\ glyphs ms = gs.
Proof.
  intros F2 G. unfold DrawView.items. cbn [reading]. exists (marks (c_font N tc) (justOf N tc) 0 0 0 (c_text N tc)). split; [|now apply glyphs_marks].
  refine (reading_marks (c_font N tc) (justOf N tc) (c_text N tc) _ 0 0 0 [] (Forall_nil _)).
  intros r g I E. clear - F2 G I E. induction F2 as [|r' g' rs gs' H F2 IH]; [contradiction|]. inversion G; subst. destruct I as [->|I]; [rewrite H in E; now injection E as <-|now apply IH].
Qed.
Lemma shown_runes t its its' : map (DocSpec.show t) its = map Some its' -> map snd (flat_map char_of its) = flat_map characters its'.
Proof.
  revert its'. induction its as [|it its IH]; intros [|x xs] E; cbn [map] in E; try discriminate E; [reflexivity|]. injection E as E1 E2. cbn [flat_map]. rewrite map_app, (IH xs E2). f_equal.
  destruct it; cbn [DocSpec.show] in E1; try (injection E1 as <-; reflexivity).
  - destruct (xobj_res t index) as [[]|]; try discriminate E1. destruct use; try discriminate E1. injection E1 as <-. reflexivity.
  - match type of E1 with context [cs_res t ?n] => destruct (cs_res t n) as [o|]; [|discriminate E1]; destruct o; try discriminate E1 end. apply (f_equal (fun o => match o with Some y => y | None => x end)) in E1. subst x. reflexivity.
  - destruct (font_res t fontcount) as [[]|]; try discriminate E1. injection E1 as <-. cbn [char_of characters]. rewrite map_map. apply map_id.
Qed.

Lemma event_copied N t um inflate file pw page tc e :
  (forall n f, font_res t n = Some (OSubsetFont f) -> named_tounicode inflate file pw page (bs "F" ++ fmt_d n) = read_cmap (cmap_text (um (fo_umap f)))) ->
  (forall i, plain_map (um i)) -> showsText N e tc ->
  (exists f, font_res t (c_fci N tc) = Some (OSubsetFont f) /\ forall r, In r (c_text N tc) -> exists g, fv_ci (c_font N tc) r = Some g /\ In (r, g) (um (fo_umap f))) ->
  copied_event (named_tounicode inflate file pw page) e = Some (c_text N tc).
Proof.
  intros TU PM (g & -> & GF & _) (f & FR & CH). cbn [copied_event]. rewrite GF, (TU _ _ FR). destruct (PM (fo_umap f)) as [RNG INJ].
  destruct (C12_text_copies_back_distinct_glyphs_partial _ RNG INJ) as (es & RC & CA). rewrite RC.
  destruct (with_glyphs (fun r g => fv_ci (c_font N tc) r = Some g /\ In (r, g) (um (fo_umap f))) _ CH) as (gs & F2).
  destruct (items_reading N tc gs) as (ms & RD & GL).
  - eapply Forall2_impl; [|exact F2]. intros r0 g0 [A _]. exact A.
  - clear - F2 RNG. induction F2 as [|r0 g0 rs gs [_ I] F2 IH]; constructor; [|exact IH]. rewrite Forall_forall in RNG. exact (proj2 (RNG _ I)).
  - rewrite RD, GL. apply codes_back. eapply Forall2_impl; [|exact F2]. intros r0 g0 [_ I]. exact (CA _ _ I).
Qed.

(** For the pages of any table. *)
Lemma text_copied_of : forall (N : NumModel.num) rot c l zl inflate box ren pr pw info objs um prog wd aps,
  num_prints N -> page_table (output (doc c l)) aps -> g_pagecount (output (doc c l)) = zlen (g_kids (output (doc c l))) -> finishes (start c zero_gp) l ->
  (forall d, inflate (zl d) = Some d) -> (forall r, finite (fst (box r)) /\ finite (snd (box r))) -> (forall i, info = Some i -> bytes_info i) ->
  let s := doc c l in let t := output s in
  locked (cf_protect (g_cfg s)) pr pw -> List.length objs = List.length (g_objs t) ->
  (forall i o f, nth_error (g_objs t) i = Some o -> nth_error objs i = Some f ->
     written_as zl pr box ren t i o (prog_bytes (f (Z.of_nat i + 1))) /\ font_written zl pr um prog wd i o (prog_bytes (f (Z.of_nat i + 1)))) ->
  ren [] = [] -> (forall its, In (OContent its) (g_objs t) -> drawn N rot t um ren its) -> (forall i, plain_map (um i)) ->
  let file := compile_bytes objs {| tr_encrypt := if cf_protect (g_cfg s) then Some (g_encid t) else None; tr_info := option_map (fun i => [writeInfo i]) info |} in
  zlen file < 10 ^ 10 -> zlen objs < 2 ^ 24 ->
  exists ps, open_pages inflate file pw = Some ps /\
    Forall2 (fun pc ap => copied inflate file pw pc = Some (flat_map characters (ap_items ap))) ps aps.
Proof.
  intros N rot c l zl inflate box ren pr pw info objs um prog wd aps NP PT CNT F HZ HB HI s t LK LEN WR RN DR PM file LF LO.
  assert (PW : forall i o txt, (written_as zl pr box ren t i o txt /\ font_written zl pr um prog wd i o txt) -> written_doc zl pr box ren t i o txt) by (intros i o txt [A _]; exact (written_doc_of _ _ _ _ _ _ _ _ A)).
  destruct (file_opened c l zl box ren pr pw info objs _ F HI LK LEN WR PW LF LO) as (es & tr & OP).
  destruct (pages_opened c l zl inflate box ren pr pw info objs _ F HZ HB HI LK LEN WR PW LF LO _ PT CNT RN) as (ps & E & FA). exists ps. split; [exact E|].
  eapply Forall2_impl; [|exact FA]. intros [page content] ap (_ & RF & its & B & SH & IN). cbn [fst snd] in *. subst content. rewrite <- (shown_runes t its _ SH).
  assert (TU : forall n f, font_res t n = Some (OSubsetFont f) -> named_tounicode inflate file pw page (bs "F" ++ fmt_d n) = read_cmap (cmap_text (um (fo_umap f))))
    by (intros n f FR; exact (tounicode_read c l zl inflate box ren pr pw info objs um prog wd F HZ es tr OP page n f RF FR)).
  destruct IN as [-> | IN]; [unfold copied; cbn [snd]; rewrite RN; reflexivity|]. clear - NP TU PM DR IN.
  destruct (DR _ IN) as (cs & CO & CW & CH & FT). unfold copied. cbn [fst snd]. apply only_shows; [intros [] H; [discriminate H|reflexivity|reflexivity]|].
  pose proof (content_shows N rot NP cs _ CO CW) as SV. fold (shows (ren its)).
  rewrite <- CH. clear CH. revert FT. induction SV as [|e tc evs tcs S SV IH]; intros FT; [reflexivity|]. inversion FT as [|? ? H1 H2]; subst. cbn [map all_some].
  rewrite (event_copied N t um inflate file pw page tc e TU PM S H1). specialize (IH H2). destruct (all_some _) as [r|]; [|discriminate IH]. cbn [option_map List.concat flat_map] in *. injection IH as ->.
  rewrite map_app. do 2 f_equal. rewrite map_map. symmetry. apply map_id.
Qed.
Theorem C81_text_copied : forall (N : NumModel.num) rot c l zl inflate box ren pr pw info objs um prog wd,
  num_prints N -> forallb plain_op l = true -> finishes (start c zero_gp) l ->
  (forall d, inflate (zl d) = Some d) -> (forall r, finite (fst (box r)) /\ finite (snd (box r))) -> (forall i, info = Some i -> bytes_info i) ->
  let s := doc c l in let t := output s in
  locked (cf_protect (g_cfg s)) pr pw -> List.length objs = List.length (g_objs t) ->
  (forall i o f, nth_error (g_objs t) i = Some o -> nth_error objs i = Some f ->
     written_as zl pr box ren t i o (prog_bytes (f (Z.of_nat i + 1))) /\ font_written zl pr um prog wd i o (prog_bytes (f (Z.of_nat i + 1)))) ->
  ren [] = [] -> (forall its, In (OContent its) (g_objs t) -> drawn N rot t um ren its) -> (forall i, plain_map (um i)) ->
  let file := compile_bytes objs {| tr_encrypt := if cf_protect (g_cfg s) then Some (g_encid t) else None; tr_info := option_map (fun i => [writeInfo i]) info |} in
  zlen file < 10 ^ 10 -> zlen objs < 2 ^ 24 ->
  exists ps, open_pages inflate file pw = Some ps /\
    Forall2 (fun pc ap => copied inflate file pw pc = Some (flat_map characters (ap_items ap))) ps (a_pages (adoc_of c l)).
Proof.
  intros N rot c l zl inflate box ren pr pw info objs um prog wd NP P F HZ HB HI s t LK LEN WR RN DR PM file LF LO. destruct (plain_table c l P) as [PT CNT].
  exact (text_copied_of N rot c l zl inflate box ren pr pw info objs um prog wd _ NP PT CNT F HZ HB HI LK LEN WR RN DR PM LF LO).
Qed.
Print Assumptions C81_text_copied.
