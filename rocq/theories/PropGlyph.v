(** PropGlyph.v — C82: from the bytes of the written file alone, every character is shown with the outline and the width its font
    file gives it. *)
From Coq Require Import QArith.
From Verif Require Import Base Crypto FileModel FileSpec SecSpec SecModel DrawSpec NumModel StrModel StrSpec DocModel DocSpec DocProofs DocInv PropDoc
  StreamModel PdfSyntax PdfRead ObjModel PropObj PropObj2 PropObj3 RefModel OpenSpec PropOnePage PropOpen.
From Verif Require Import TtfModel TtfSpec TtfProofs PropTtf SubsetModel PropSubset FontOutModel FontOutSpec PropFont FaceModel FaceSpec PropFace.
From Verif Require Import DrawModel DrawLex DrawView PropWidth CopySpec PropText PropCopy FileProofs PropFile PropOpen2.
From Verif Require PropRef2.
Open Scope Z_scope.

(** The font program [p] is the one written for the font file [x] with the characters registered (C28-C31). *)
Definition embedded_as (x : fontfile) (p : bytes) : Prop :=
  exists spare n, makeFont (ff_bytes x) spare (ff_ttf x) (map snd (ff_map x)) = Some p /\ zlen p < 2 ^ 32 /\ num_glyphs (ff_bytes x) n /\ outlines_ok (ff_bytes x) /\
    forall g, In g (map snd (ff_map x)) -> 0 <= g < n.
(** The fonts of the document come from the files [src family style]. *)
Definition fonts_from (src : bytes -> Z -> fontfile) (t : gp) (prog : nat -> bytes) (wd : nat -> list (Z * Z)) : Prop :=
  forall n f p, font_res t n = Some (OSubsetFont f) -> program_index t f = Some p ->
    let x := src (fo_family f) (fo_style f) in fontfile_ok x /\ wd (fo_cid f) = ff_ws x /\ embedded_as x (prog p).
(** The drawing layer shows the characters of the texts with the faces of these files, and the files have them. *)
Definition drawn_from (N : NumModel.num) (rot : T N -> T N * T N) (src : bytes -> Z -> fontfile) (t : gp) (ren : list item -> bytes) (its : list item) : Prop :=
  exists cs, Forall (cache_ok N) cs /\ content_write N rot cs = Some (ren its) /\
    flat_map (fun tc => map (pair (c_fci N tc)) (c_text N tc)) (texts N cs) = flat_map char_of its /\
    Forall (fun tc => exists f, font_res t (c_fci N tc) = Some (OSubsetFont f) /\ c_font N tc = face_of (src (fo_family f) (fo_style f)) /\
       forall r, In r (c_text N tc) -> exists txt, known (src (fo_family f) (fo_style f)) txt /\ In r txt) (texts N cs).
(** What was asked for: the characters with the family and style they were drawn in. *)
Definition letters (x : DocSpec.shown) : list (bytes * Z * Z) := match x with ShText fam st txt => map (pair (fam, st)) (runes txt) | _ => [] end.
(** What the page shows is the character [r] of the font file [x]: the glyph its cmap gives, the width its hmtx gives, the outline its glyf
    gives, with its components. *)
Definition as_in_file (x : fontfile) (r : Z) (e : bytes * Z * option Z) : Prop :=
  let '(p, g, w) := e in
  glyph_in x r g /\ (exists a, hmtx_advance (ff_bytes x) g a /\ w = Some (a * 1000 / ff_em x)) /\
  forall n h data, num_glyphs (ff_bytes x) n -> 0 <= h < n -> (h = g \/ component_of (ff_bytes x) g h) -> glyph_data (ff_bytes x) h data -> glyph_data p h data.

Definition face_name (t : gp) (n : Z) : bytes * Z := match font_res t n with Some (OSubsetFont f) => (fo_family f, fo_style f) | _ => ([], 0) end.
Lemma shown_letters t its its' : map (DocSpec.show t) its = map Some its' -> map (fun nr => (face_name t (fst nr), snd nr)) (flat_map char_of its) = flat_map letters its'.
Proof.
  revert its'. induction its as [|it its IH]; intros [|x xs] E; cbn [map] in E; try discriminate E; [reflexivity|]. injection E as E1 E2. cbn [flat_map]. rewrite map_app, (IH xs E2). f_equal.
  destruct it; cbn [DocSpec.show] in E1; try (injection E1 as <-; reflexivity).
  - destruct (xobj_res t index) as [[]|]; try discriminate E1. destruct use; try discriminate E1. injection E1 as <-. reflexivity.
  - match type of E1 with context [cs_res t ?n] => destruct (cs_res t n) as [o|]; [|discriminate E1]; destruct o; try discriminate E1 end. apply (f_equal (fun o => match o with Some y => y | None => x end)) in E1. subst x. reflexivity.
  - cbn [char_of]. rewrite map_map. cbn [fst snd]. unfold face_name. destruct (font_res t fontcount) as [[]|]; try discriminate E1. injection E1 as <-. reflexivity.
Qed.
Lemma char_in_file x txt r p w : fontfile_ok x -> known x txt -> In r txt -> embedded_as x p ->
  (forall g, w g = widths_of (flat_map (fun e => [OInt (fst e); OArr [OInt (snd e)]]) (ff_ws x)) g) ->
  exists g, fv_ci (face_of x) r = Some g /\ 0 <= g < 65536 /\ as_in_file x r (p, g, w g).
Proof.
  intros OK K IR (spare & n & MK & SZ & NG & OL & US) W. pose proof K as [_ K2]. rewrite Forall_forall in K2. destruct (K2 r IR) as (g & G).
  assert (GR := glyph_range _ _ _ _ _ G). destruct (has_advance x g OK (proj1 GR)) as (a & A). destruct (viewer_reads x txt r g a OK K IR G A) as (_ & CI & _).
  exists g. split; [exact CI|]. split; [exact GR|]. cbn [as_in_file]. split; [exact G|]. split.
  - exists a. split; [exact A|]. rewrite W, <- (W_is x OK). exact (C80_widths_in_the_file x txt r g a OK K IR G A).
  - intros n' h data NG' Hh C GD. rewrite (num_glyphs_fun _ _ _ NG' NG) in Hh. destruct OK as (B & H & _).
    assert (IU : In g (map snd (ff_map x))).
    { unfold face_of in CI. rewrite face_ci in CI. unfold val in CI. destruct (find _ _) as [[r' g']|] eqn:E; [|discriminate CI]. injection CI as ->. apply find_some in E as [E _]. apply in_rev in E.
      apply in_map_iff. exists (r', g). split; [reflexivity|exact E]. }
    refine (C29_embedded_outlines_intact _ _ spare _ _ p n h data B H MK SZ NG OL US _ Hh GD). destruct C as [->|C]; [now left|]. right. right. exists g. split; [exact IU|exact C].
Qed.

(** For the pages of any table. *)
Lemma glyphs_shown_of : forall (N : NumModel.num) rot src c l zl inflate box ren pr pw info objs um prog wd aps,
  num_prints N -> page_table (output (doc c l)) aps -> g_pagecount (output (doc c l)) = zlen (g_kids (output (doc c l))) -> finishes (start c zero_gp) l ->
  (forall d, inflate (zl d) = Some d) -> (forall r, finite (fst (box r)) /\ finite (snd (box r))) -> (forall i, info = Some i -> bytes_info i) ->
  let s := doc c l in let t := output s in
  locked (cf_protect (g_cfg s)) pr pw -> List.length objs = List.length (g_objs t) ->
  (forall i o f, nth_error (g_objs t) i = Some o -> nth_error objs i = Some f ->
     written_as zl pr box ren t i o (prog_bytes (f (Z.of_nat i + 1))) /\ font_written zl pr um prog wd i o (prog_bytes (f (Z.of_nat i + 1)))) ->
  ren [] = [] -> fonts_from src t prog wd -> (forall its, In (OContent its) (g_objs t) -> drawn_from N rot src t ren its) ->
  let file := compile_bytes objs {| tr_encrypt := if cf_protect (g_cfg s) then Some (g_encid t) else None; tr_info := option_map (fun i => [writeInfo i]) info |} in
  zlen file < 10 ^ 10 -> zlen objs < 2 ^ 24 ->
  exists ps, open_pages inflate file pw = Some ps /\
    Forall2 (fun pc ap => exists seen, outlined inflate file pw pc = Some seen /\
               Forall2 (fun c e => as_in_file (src (fst (fst c)) (snd (fst c))) (snd c) e) (flat_map letters (ap_items ap)) seen) ps aps.
Proof.
  intros N rot src c l zl inflate box ren pr pw info objs um prog wd aps NP PT CNT F HZ HB HI s t LK LEN WR RN FF DR file LF LO.
  assert (PW : forall i o txt, (written_as zl pr box ren t i o txt /\ font_written zl pr um prog wd i o txt) -> written_doc zl pr box ren t i o txt) by (intros i o txt [A _]; exact (written_doc_of _ _ _ _ _ _ _ _ A)).
  destruct (file_opened c l zl box ren pr pw info objs _ F HI LK LEN WR PW LF LO) as (es & tr & OP).
  destruct (pages_opened c l zl inflate box ren pr pw info objs _ F HZ HB HI LK LEN WR PW LF LO _ PT CNT RN) as (ps & E & FA). exists ps. split; [exact E|].
  eapply Forall2_impl; [|exact FA]. intros [page content] ap (_ & RF & its & B & SH & IN). cbn [fst snd] in *. subst content. rewrite <- (shown_letters t its _ SH).
  assert (PR : forall n f, font_res t n = Some (OSubsetFont f) -> exists p, program_index t f = Some p /\ named_program inflate file pw page (bs "F" ++ fmt_d n) = Some (prog p))
    by (intros n f FR; exact (program_read c l zl inflate box ren pr pw info objs um prog wd F HZ es tr OP page n f RF FR)).
  assert (WD : forall n f g, font_res t n = Some (OSubsetFont f) -> named_width file page (bs "F" ++ fmt_d n) g = widths_of (flat_map (fun e => [OInt (fst e); OArr [OInt (snd e)]]) (wd (fo_cid f))) g)
    by (intros n f g FR; exact (width_read c l zl inflate box ren pr pw info objs um prog wd F HZ es tr OP page n f g RF FR)).
  destruct IN as [-> | IN]; [exists []; unfold outlined; cbn [snd]; rewrite RN; split; [reflexivity|constructor]|]. clear - NP PR WD FF DR IN.
  destruct (DR _ IN) as (cs & CO & CW & CH & FT). rewrite <- CH. clear CH.
  pose proof (content_shows N rot NP cs _ CO CW) as SV. unfold outlined. cbn [fst snd].
  set (ev := outlined_event (named_program inflate file pw page) (named_width file page)).
  cut (exists seen, option_map (@List.concat (bytes * Z * option Z)) (all_some (map ev (shows (ren its)))) = Some seen /\
    Forall2 (fun c0 e => as_in_file (src (fst (fst c0)) (snd (fst c0))) (snd c0) e) (map (fun nr => (face_name t (fst nr), snd nr)) (flat_map (fun tc => map (pair (c_fci N tc)) (c_text N tc)) (texts N cs))) seen).
  { intros (seen & A & B). exists seen. split; [|exact B]. apply only_shows; [intros [] H; [discriminate H|reflexivity|reflexivity]|exact A]. }
  revert FT. generalize dependent (texts N cs). generalize (shows (ren its)). intros evs tcs SV. induction SV as [|e tc evs tcs S SV IH]; intros FT; [exists []; split; [reflexivity|constructor]|].
  inversion FT as [|? ? (f & FR & CF & KN) H2]; subst. destruct (IH H2) as (seen & A & B). destruct (PR _ _ FR) as (p & PI & PN). destruct (FF _ _ _ FR PI) as (OK & WE & EM). set (x := src (fo_family f) (fo_style f)) in *.
  destruct S as (g & -> & GF & _).
  destruct (with_glyphs (fun r g => fv_ci (c_font N tc) r = Some g /\ 0 <= g < 65536 /\ as_in_file x r (prog p, g, named_width file page (bs "F" ++ fmt_d (c_fci N tc)) g)) (c_text N tc)) as (gs & F2).
  { intros r IR. destruct (KN r IR) as (txt & K & IT). rewrite CF. refine (char_in_file x txt r (prog p) (named_width file page (bs "F" ++ fmt_d (c_fci N tc))) OK K IT EM _). intros g0. rewrite (WD _ _ g0 FR), WE. reflexivity. }
  destruct (items_reading N tc gs) as (ms & RD & GL).
  - eapply Forall2_impl; [|exact F2]. intros r0 g0 (A0 & _). exact A0.
  - clear - F2. induction F2 as [|r0 g0 rs gs (_ & I & _) F2 IH]; constructor; [exact I|exact IH].
  - cbn [map all_some]. unfold ev at 1. cbn [outlined_event]. rewrite GF, PN, RD, GL. destruct (all_some (map ev evs)) as [r|]; [|discriminate A]. cbn [option_map List.concat] in *. injection A as A.
    eexists. split; [reflexivity|]. cbn [flat_map]. rewrite map_app. rewrite A. apply Forall2_app; [|exact B]. rewrite map_map. cbn [fst snd].
    assert (FN : face_name t (c_fci N tc) = (fo_family f, fo_style f)) by (unfold face_name; now rewrite FR). rewrite FN.
    clear - F2. subst x. induction F2 as [|r0 g0 rs gs (_ & _ & I) F2 IH]; cbn [map]; constructor; [exact I|exact IH].
Qed.
Theorem C82_glyphs_shown : forall (N : NumModel.num) rot src c l zl inflate box ren pr pw info objs um prog wd,
  num_prints N -> forallb plain_op l = true -> finishes (start c zero_gp) l ->
  (forall d, inflate (zl d) = Some d) -> (forall r, finite (fst (box r)) /\ finite (snd (box r))) -> (forall i, info = Some i -> bytes_info i) ->
  let s := doc c l in let t := output s in
  locked (cf_protect (g_cfg s)) pr pw -> List.length objs = List.length (g_objs t) ->
  (forall i o f, nth_error (g_objs t) i = Some o -> nth_error objs i = Some f ->
     written_as zl pr box ren t i o (prog_bytes (f (Z.of_nat i + 1))) /\ font_written zl pr um prog wd i o (prog_bytes (f (Z.of_nat i + 1)))) ->
  ren [] = [] -> fonts_from src t prog wd -> (forall its, In (OContent its) (g_objs t) -> drawn_from N rot src t ren its) ->
  let file := compile_bytes objs {| tr_encrypt := if cf_protect (g_cfg s) then Some (g_encid t) else None; tr_info := option_map (fun i => [writeInfo i]) info |} in
  zlen file < 10 ^ 10 -> zlen objs < 2 ^ 24 ->
  exists ps, open_pages inflate file pw = Some ps /\
    Forall2 (fun pc ap => exists seen, outlined inflate file pw pc = Some seen /\
               Forall2 (fun c e => as_in_file (src (fst (fst c)) (snd (fst c))) (snd c) e) (flat_map letters (ap_items ap)) seen) ps (a_pages (adoc_of c l)).
Proof.
  intros N rot src c l zl inflate box ren pr pw info objs um prog wd NP P F HZ HB HI s t LK LEN WR RN FF DR file LF LO. destruct (plain_table c l P) as [PT CNT].
  exact (glyphs_shown_of N rot src c l zl inflate box ren pr pw info objs um prog wd _ NP PT CNT F HZ HB HI LK LEN WR RN FF DR LF LO).
Qed.
Print Assumptions C82_glyphs_shown.

(** The calls of a page do what [drawn_from] asks. *)
Lemma drawn_from_by_calls N rot ft src t ren its (s s' : ds N) calls :
  s_caches N s = [] -> (s_mode N s = true <-> s_color N s <> None) -> (forall n f, s_font N s = Some (n, f) -> f = ft n) ->
  fonts_named N ft calls -> orderly N false calls -> run N s calls = Some s' -> content_write N rot (s_caches N s') = Some (ren its) ->
  flat_map (chars_of N) (pieces N s calls) = flat_map char_of its ->
  Forall (fun p => exists f, font_res t (p_font N p + 1) = Some (OSubsetFont f) /\ p_fv N p = face_of (src (fo_family f) (fo_style f)) /\ known (src (fo_family f) (fo_style f)) (p_text N p)) (pieces N s calls) ->
  drawn_from N rot src t ren its.
Proof.
  intros E M F FN OR R W CH G. destruct (calls_texts N rot ft s s' calls _ E M F FN OR R W) as (cs & A & B & C & D). exists cs. split; [exact A|]. split; [exact B|]. split; [congruence|].
  eapply Forall_impl; [|exact D]. intros tc (p & ps & IN & FA & TX). rewrite Forall_forall in G. inversion FA as [|? ? [P1 P2] FA']; subst. destruct (G p (IN p (or_introl eq_refl))) as (f & FR & FV & _). exists f. rewrite <- P1. split; [exact FR|]. split; [congruence|].
  intros r IR. rewrite TX in IR. apply in_flat_map in IR as (q & Q & IR). rewrite Forall_forall in FA. destruct (FA q Q) as [Q1 Q2]. destruct (G q (IN q Q)) as (f' & FR' & _ & H). rewrite Q1 in FR'. rewrite P1 in FR. rewrite FR in FR'. injection FR' as <-. exists (p_text N q). now split.
Qed.

(** ** A document of two pages with a font of the model's smallest real font file *)
Definition hist82 : list op := [Do (AddFont (bs "Fam") 0); AddPage None; Do (DocModel.SetFont (bs "Fam") 0 12%Q); Do (DocModel.Text (bs "AB")); AddPage None; Do (DocModel.Text (bs "BC"))].
Definition state82 : gp := output (doc a4open hist82).
Definition calls82 (txt : list Z) : list (call Qn) := [SetFont Qn 0 (face_of font80) (nofZ Qn 12) 0; SetXY Qn (nofZ Qn 30) (nofZ Qn 40); Text Qn txt].
Definition ren82 (its : list item) : bytes :=
  match flat_map char_of its with [] => [] | cs => PropDraw.got (PropDraw.outcome Qn (PropDraw.norot Qn) (PropDraw.dpage Qn) (calls82 (map snd cs))) end.
Definition prog82 : bytes := Eval vm_compute in match makeFont good_font [] ttf80 [1; 2; 3] with Some p => p | None => [] end.
Definition text82 (t : gp) (i : nat) (o : obj) : bytes :=
  match o with
  | OContent l => sbody (fun d => 7 :: d) None (Z.of_nat i + 1) (SContent (negb (g_compress t =? 0)) (ren82 l))
  | OUnicodeMap => sbody (fun d => 7 :: d) None (Z.of_nat i + 1) (SUnicode map80)
  | OPdfDict => sbody (fun d => 7 :: d) None (Z.of_nat i + 1) (SFontFile prog82)
  | OSubDesc d => descriptor_body (bs "Fam") (metrics_of ttf80) (Z.of_nat d)
  | OCIDFont d => cid_font_body (bs "Fam") (Z.of_nat d) ws80
  | _ => demo_text None t i o
  end.
Definition objs_of82 (t : gp) : list (Z -> wprog) := map (fun '(i, o) => fun _ : Z => chunks [text82 t i o]) (combine (seq 0 (List.length (g_objs t))) (g_objs t)).
Definition objs82 : list (Z -> wprog) := objs_of82 state82.
Definition file82 : bytes := compile_bytes objs82 {| tr_encrypt := if cf_protect (g_cfg (doc a4open hist82)) then Some (g_encid state82) else None; tr_info := option_map (fun i => [writeInfo i]) None |}.

Lemma made82 : makeFont good_font [] ttf80 [1; 2; 3] = Some prog82.
Proof. vm_compute. reflexivity. Qed.
Lemma writes_of82 t : ~ In OEncryption (g_objs t) -> forallb nice_obj (g_objs t) = true -> forall i o f, nth_error (g_objs t) i = Some o -> nth_error (objs_of82 t) i = Some f ->
  written_as (fun d => 7 :: d) None demo_box ren82 t i o (prog_bytes (f (Z.of_nat i + 1))) /\
  font_written (fun d => 7 :: d) None (fun _ => map80) (fun _ => prog82) (fun _ => ws80) i o (prog_bytes (f (Z.of_nat i + 1))).
Proof.
  intros HE HN i o f N NF. unfold objs_of82 in NF. rewrite nth_error_map, nth_combine, N in NF. cbn [option_map] in NF. injection NF as <-.
  match goal with |- written_as ?a ?b ?c ?d ?e ?f ?g _ /\ font_written ?a' ?b' ?c' ?d' ?e' ?f' ?g' _ =>
    change (written_as a b c d e f g (prog_bytes (chunks [text82 t i o])) /\ font_written a' b' c' d' e' f' g' (prog_bytes (chunks [text82 t i o]))) end.
  rewrite prog_bytes_chunks. cbn [List.concat]. rewrite app_nil_r.
  rewrite forallb_forall in HN. specialize (HN o (nth_error_In _ _ N)).
  destruct o; cbn [written_as written_doc font_written text82 demo_text]; (split; [|try exact I; try reflexivity; try (eexists; split; [exact nice_fam|reflexivity]); try (do 2 eexists; split; [exact nice_fam|reflexivity])]); try exact I.
  - reflexivity.
  - exists one64, one64. split; [exact one64_finite|]. split; [exact one64_finite|reflexivity].
  - exists []. split; [constructor|reflexivity].
  - exists None. split; [intros b X; discriminate X|reflexivity].
  - reflexivity.
  - split; [|reflexivity]. cbn [nice_obj] in HN. apply Forall_forall. intros b Hb. rewrite forallb_forall in HN. specialize (HN b Hb). apply orb_true_iff in HN as [HN|HN]; [apply orb_true_iff in HN as [HN|HN]; [left; lia|right; left; lia]|].
    apply andb_true_iff in HN as [H1 H2]. right. right. split; [exact H1|]. apply negb_true_iff in H2. lia.
  - destruct use; try exact I. exists (demo_picture im). split; reflexivity.
  - cbn [nice_obj] in HN. split; [exact HN|]. do 3 eexists. apply C60_rgb_space; [exact HN|lia..].
  - destruct (HE (nth_error_In _ _ N)).
Qed.
Lemma writes82 : forall i o f, nth_error (g_objs state82) i = Some o -> nth_error objs82 i = Some f ->
  written_as (fun d => 7 :: d) None demo_box ren82 state82 i o (prog_bytes (f (Z.of_nat i + 1))) /\
  font_written (fun d => 7 :: d) None (fun _ => map80) (fun _ => prog82) (fun _ => ws80) i o (prog_bytes (f (Z.of_nat i + 1))).
Proof.
  refine (writes_of82 state82 _ _); [|vm_compute; reflexivity].
  assert (X : forallb (fun o => match o with OEncryption => false | _ => true end) (g_objs state82) = true) by (vm_compute; reflexivity). rewrite forallb_forall in X. intros I. discriminate (X _ I).
Qed.
Definition drawn_chars (o : obj) : list (list (Z * Z)) := match o with OContent l => [flat_map char_of l] | _ => [] end.
Lemma content_in os its : In (OContent its) os -> In (flat_map char_of its) (flat_map drawn_chars os).
Proof. intros I. apply in_flat_map. exists (OContent its). split; [exact I|now left]. Qed.
Lemma contents82 its : In (OContent its) (g_objs state82) -> exists txt, In txt [[65; 66]; [66; 67]] /\ flat_map char_of its = map (pair 1) txt.
Proof.
  intros I. assert (X : flat_map drawn_chars (g_objs state82) = [map (pair 1) [65; 66]; map (pair 1) [66; 67]]) by (vm_compute; reflexivity).
  pose proof (content_in (g_objs state82) its I) as J. rewrite X in J. clear - J. destruct J as [J|[J|[]]]; [exists [65; 66]|exists [66; 67]]; (split; [cbn; tauto|symmetry; exact J]).
Qed.
Lemma font_res82 : exists f, font_res state82 1 = Some (OSubsetFont f).
Proof. assert (X : match font_res state82 1 with Some (OSubsetFont _) => true | _ => false end = true) by (vm_compute; reflexivity). destruct (font_res state82 1) as [o|]; [|discriminate X]. destruct o; try discriminate X. exists f. reflexivity. Qed.
Lemma calls82_ok txt : fonts_named Qn (fun _ => face_of font80) (calls82 txt) /\ orderly Qn false (calls82 txt).
Proof. split; [|cbn; auto]. intros n f size st H. repeat (destruct H as [H|H]; [try discriminate H; now injection H as _ <-|]). contradiction. Qed.
Lemma pieces82 txt its : In txt [[65; 66]; [66; 67]] -> flat_map char_of its = map (pair 1) txt ->
  exists s', run Qn (PropDraw.dpage Qn) (calls82 txt) = Some s' /\ content_write Qn (PropDraw.norot Qn) (s_caches Qn s') = Some (ren82 its) /\
    map (fun p => (p_font Qn p, p_text Qn p)) (pieces Qn (PropDraw.dpage Qn) (calls82 txt)) = [(0, txt)] /\
    Forall (fun p => p_fv Qn p = face_of font80) (pieces Qn (PropDraw.dpage Qn) (calls82 txt)).
Proof.
  intros I E. assert (RE : ren82 its = PropDraw.got (PropDraw.outcome Qn (PropDraw.norot Qn) (PropDraw.dpage Qn) (calls82 txt))).
  { unfold ren82. rewrite E. destruct I as [<-|[<-|[]]]; reflexivity. }
  rewrite RE. clear RE.
  assert (X : match PropDraw.outcome Qn (PropDraw.norot Qn) (PropDraw.dpage Qn) (calls82 txt) with Some _ => true | None => false end = true) by (destruct I as [<-|[<-|[]]]; vm_compute; reflexivity).
  unfold PropDraw.outcome in *. destruct (run Qn (PropDraw.dpage Qn) (calls82 txt)) as [s'|] eqn:R; [|discriminate X]. exists s'. split; [reflexivity|].
  destruct (content_write Qn (PropDraw.norot Qn) (s_caches Qn s')) as [b|]; [|discriminate X]. split; [reflexivity|]. clear X R.
  split; [destruct I as [<-|[<-|[]]]; vm_compute; reflexivity|].
  destruct I as [<-|[<-|[]]]; (constructor; [reflexivity|constructor]).
Qed.
Definition src82 (fam : bytes) (st : Z) : fontfile := font80.
Lemma piece82 txt p : In txt [[65; 66]; [66; 67]] -> map (fun p => (p_font Qn p, p_text Qn p)) (pieces Qn (PropDraw.dpage Qn) (calls82 txt)) = [(0, txt)] -> In p (pieces Qn (PropDraw.dpage Qn) (calls82 txt)) -> p_font Qn p = 0 /\ p_text Qn p = txt.
Proof. intros _ E I. apply (in_map (fun p => (p_font Qn p, p_text Qn p))) in I. rewrite E in I. destruct I as [I|[]]. injection I as <- <-. auto. Qed.
Lemma chars82 txt : map (fun p => (p_font Qn p, p_text Qn p)) (pieces Qn (PropDraw.dpage Qn) (calls82 txt)) = [(0, txt)] -> flat_map (chars_of Qn) (pieces Qn (PropDraw.dpage Qn) (calls82 txt)) = map (pair 1) txt.
Proof. destruct (pieces _ _ _) as [|p [|]]; try discriminate. intros E. injection E as E1 E2. cbn [flat_map]. rewrite app_nil_r. unfold chars_of. rewrite E1, E2. reflexivity. Qed.

Lemma glyph82 txt r : In txt [[65; 66]; [66; 67]] -> In r txt -> exists g, fv_ci (face_of font80) r = Some g /\ In (r, g) map80.
Proof.
  intros IT IR. assert (X : In r [65; 66; 67]) by (destruct IT as [<-|[<-|[]]]; cbn in *; tauto). clear IT IR. destruct X as [<-|[<-|[<-|[]]]]; [exists 1|exists 2|exists 3]; (split; [vm_compute; reflexivity|cbn; tauto]).
Qed.
Lemma known82 txt : In txt [[65; 66]; [66; 67]] -> known font80 txt.
Proof. exact (known80 txt). Qed.
Lemma map82 : plain_map map80.
Proof.
  split; [repeat constructor; cbn; unfold bmp; lia|]. intros r1 r2 g H1 H2. repeat (destruct H1 as [H1|H1]; [injection H1 as <- <-|]); try contradiction; repeat (destruct H2 as [H2|H2]; [try discriminate H2; injection H2 as <-; reflexivity|]); contradiction.
Qed.

(** The hypotheses of C81 and C82 hold of this document ... *)
Example C81_met : forallb plain_op hist82 = true /\ finishes (start a4open zero_gp) hist82 /\ locked (cf_protect (g_cfg (doc a4open hist82))) None (User []) /\
  List.length objs82 = List.length (g_objs state82) /\ ren82 [] = [] /\
  (forall its, In (OContent its) (g_objs state82) -> drawn Qn (PropDraw.norot Qn) state82 (fun _ => map80) ren82 its) /\ plain_map map80 /\ zlen file82 < 10 ^ 10 /\ zlen objs82 < 2 ^ 24.
Proof.
  split; [vm_compute; reflexivity|]. split; [apply PropRef2.finishesb_ok; vm_compute; reflexivity|]. split; [vm_compute; reflexivity|]. split; [vm_compute; reflexivity|]. split; [reflexivity|].
  split; [|split; [|split; vm_compute; reflexivity]].
  - intros its I. destruct (contents82 its I) as (txt & IT & E). clear I. destruct (pieces82 txt its IT E) as (s' & R & W & P & FV). destruct (calls82_ok txt) as [FN OR].
    refine (drawn_by_calls Qn _ (fun _ => face_of font80) _ _ _ _ (PropDraw.dpage Qn) s' (calls82 txt) eq_refl _ _ FN OR R W _ _).
    + split; [intros X; discriminate X|intros X; contradiction X; reflexivity].
    + intros n f X; discriminate X.
    + rewrite E. now apply chars82.
    + apply Forall_forall. intros p Ip. destruct (piece82 txt p IT P Ip) as [P1 P2]. rewrite Forall_forall in FV. rewrite P1, P2, (FV p Ip). destruct font_res82 as (f & FR). exists f. split; [exact FR|].
      intros r IR. exact (glyph82 txt r IT IR).
  - exact map82.
Qed.
Example C82_met : fonts_from src82 state82 (fun _ => prog82) (fun _ => ws80) /\ (forall its, In (OContent its) (g_objs state82) -> drawn_from Qn (PropDraw.norot Qn) src82 state82 ren82 its).
Proof.
  split.
  - intros n f p _ _. cbv zeta. split; [exact font80_ok|]. split; [reflexivity|]. exists [], 4. split; [exact made82|]. split; [vm_compute; reflexivity|]. split; [exact good_num|]. split; [exact good_outlines|].
    intros g I. cbn in I. lia.
  - intros its I. destruct (contents82 its I) as (txt & IT & E). clear I. destruct (pieces82 txt its IT E) as (s' & R & W & P & FV). destruct (calls82_ok txt) as [FN OR].
    refine (drawn_from_by_calls Qn _ (fun _ => face_of font80) _ _ _ _ (PropDraw.dpage Qn) s' (calls82 txt) eq_refl _ _ FN OR R W _ _).
    + split; [intros X; discriminate X|intros X; contradiction X; reflexivity].
    + intros n f X; discriminate X.
    + rewrite E. now apply chars82.
    + apply Forall_forall. intros p Ip. destruct (piece82 txt p IT P Ip) as [P1 P2]. rewrite Forall_forall in FV. rewrite P1, P2, (FV p Ip). destruct font_res82 as (f & FR). exists f. split; [exact FR|]. split; [reflexivity|]. exact (known82 txt IT).
Qed.
(** ... and a reader of its bytes copies the texts of the pages, and sees the glyphs of the font file with their widths. *)
Definition seen82 : option (list (option (list Z) * option (list (Z * option Z)))) :=
  let inflate := fun d => Some (tl d) in
  option_map (map (fun pc => (copied inflate file82 (User []) pc, option_map (map (fun e => (snd (fst e), snd e))) (outlined inflate file82 (User []) pc)))) (open_pages inflate file82 (User [])).
Example C82_seen : seen82 = Some [(Some [65; 66], Some [(1, Some 300); (2, Some 300)]); (Some [66; 67], Some [(2, Some 300); (3, Some 300)])].
Proof. vm_compute. reflexivity. Qed.
