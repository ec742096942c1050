(** PropPic2.v — C84: pictures made from JPEG and GIF files, from the bytes of the written file. *)
From Coq Require Import QArith.
From Verif Require Import Base Crypto FileModel FileSpec FileProofs PropFile SecSpec SecModel PropSec DrawSpec NumModel StrModel StrSpec PropStr DocModel DocSpec DocProofs DocInv PropDoc
  StreamModel PropStream PdfSyntax PdfRead ObjModel PropObj PropObj2 PropObj3 RefModel PropRef PropRef2 OpenSpec PropOnePage PropOpen PropCopy PngModel PicSpec PropPic ImgParseModel JpegSpec.
From Verif Require PropName PropName2 PropPng PropSetPage PropPages PropPages2.
Open Scope Z_scope.

(** What is assumed of Go's image.DecodeConfig (image/png, image/jpeg reader.go): it knows the two formats, and answers the size and the
    number of components of a JPEG file; three components may be said to be RGB instead of the usual YCbCr. *)
Definition knows (conf : bytes -> option ImgParseModel.config) : Prop :=
  (forall x crc1 ll crc2 k pal, good_png x crc1 ll crc2 k pal -> exists c, conf (PropPng.png_file x crc1 ll crc2) = Some c /\ cf_format c = Png) /\
  (forall j, good_jpeg j -> exists m, conf (jpeg_file j) = Some {| cf_format := Jpeg; cf_w := f_w (j_frame j); cf_h := f_h (j_frame j); cf_model := m |} /\
     match f_comps (j_frame j) with 1 => m = GrayModel | 4 => m = CMYKModel | _ => m = YCbCrModel \/ m = RGBAModel end).
Definition says_rgb (conf : bytes -> option ImgParseModel.config) (data : bytes) : Prop := exists c, conf data = Some c /\ cf_model c = RGBAModel.
Definition is_gif (conf : bytes -> option ImgParseModel.config) (data : bytes) : Prop := exists c, conf data = Some c /\ cf_format c = Gif.

Lemma coded_of_ok file es pr n o d rest x : object_of file es n = Some (o, rest ++ x) -> 0 < n < 2 ^ 24 -> value_of "Length" o = Some (OInt (zlen d)) ->
  (exists pre post, rest = pre ++ bs "stream" ++ [10] ++ StreamModel.enc pr n d ++ post ++ bs "endstream" ++ [10] /\ forallb is_white pre = true /\ forallb is_white post = true) ->
  coded_of file es (option_map p_key pr) n = Some d.
Proof.
  intros O N V (pre & post & -> & A & B). unfold coded_of. rewrite O. rewrite (stream_data_ok _ (zlen d)); [|exact V|now rewrite enc_len|exact A|exact B]. cbn [option_map]. f_equal.
  rewrite enc_eq. destruct pr as [q|]; [|reflexivity]. cbn [option_map]. unfold decrypt. rewrite <- C13_key_material_is_standard by lia. apply rc4_invol.
Qed.
Definition jpeg_info (w h : Z) (cs : colspace) (data : bytes) (a b : Z) : imginfo :=
  {| im_w := w; im_h := h; im_cs := cs; im_bpc := 8; im_filter := FDCT; im_colors := None; im_trns := []; im_smask := []; im_smaskObj := a; im_pal := []; im_rgbObj := b; StreamModel.im_data := data |}.
Lemma jview_ok file es key n w h cs data a b d : cs <> Indexed -> coded_of file es key n = Some d ->
  jview_of file es key n (image_dict (jpeg_info w h cs data a b)) =
    Some {| v_width := w; v_height := h; v_bits := 8; v_colours := match cs with DevGray => JGray | DevRGB => JRGB | _ => JCMYK end; v_inverted := match cs with DevCMYK => true | _ => false end; v_file := d |}.
Proof.
  intros NI CO. unfold jview_of. set (p := jpeg_info w h cs data a b). unfold int_of.
  assert (V : value_of "Subtype" (image_dict p) = Some (N_ "Image") /\ value_of "Width" (image_dict p) = Some (OInt w) /\ value_of "Height" (image_dict p) = Some (OInt h) /\ value_of "BitsPerComponent" (image_dict p) = Some (OInt 8) /\
              value_of "ColorSpace" (image_dict p) = Some (space_of p cs) /\ value_of "Filter" (image_dict p) = Some (N_ "DCTDecode") /\ no_key "DecodeParms" (image_dict p) = true /\ no_key "Mask" (image_dict p) = true /\ no_key "SMask" (image_dict p) = true /\
              forall sp, decode_at sp (image_dict p) = match cs with DevCMYK => decode_at sp (ODict (cmyk_decode p)) | _ => Some false end).
  { unfold image_dict, picture, parms, filter_of, predictor, colour_mask, soft_mask, cmyk_decode, p, jpeg_info. cbn [im_w im_h im_cs im_bpc im_filter im_colors im_trns im_smask].
    match goal with |- context[space_of ?q cs] => generalize (space_of q cs) end. intros q. destruct cs; repeat (split; [reflexivity|]); reflexivity. }
  destruct V as (-> & -> & -> & -> & -> & V6 & V7 & V8 & V9 & V). unfold N_ at 1.
  assert (JS : jspace_at (space_of p cs) = Some (match cs with DevGray => JGray | DevRGB => JRGB | _ => JCMYK end)) by (unfold p; clear - NI; destruct cs; try congruence; reflexivity).
  assert (DE : decode_at (match cs with DevGray => JGray | DevRGB => JRGB | _ => JCMYK end) (image_dict p) = Some (match cs with DevCMYK => true | _ => false end)).
  { rewrite V. unfold p. clear. destruct cs; reflexivity. }
  rewrite JS, V6, CO. unfold N_. rewrite DE, V7, V8, V9. reflexivity.
Qed.

Section Jpegs.
  Variables (c : DocModel.config) (l : list op) (zl : bytes -> bytes) (parse : bytes -> pngres imginfo) (box : rectq -> f64 * f64) (ren : list item -> bytes).
  Variables (pr : option protection) (pw : password) (info : option pdfinfo) (objs : list (Z -> wprog)).
  Hypothesis F : finishes (start c zero_gp) l.
  Let s := doc c l. Let t := output s.
  Let P i o txt := written_doc zl pr box ren t i o txt /\ pic_written parse zl pr t i o txt.
  Hypothesis LK : locked (cf_protect (g_cfg s)) pr pw.
  Hypothesis LEN : List.length objs = List.length (g_objs t).
  Hypothesis WR : forall i o f, nth_error (g_objs t) i = Some o -> nth_error objs i = Some f -> P i o (prog_bytes (f (Z.of_nat i + 1))).
  Let file := compile_bytes objs {| tr_encrypt := if cf_protect (g_cfg s) then Some (g_encid t) else None; tr_info := option_map (fun i => [writeInfo i]) info |}.
  Variables (es : list xentry) (tr : pobj).
  Hypothesis OP : opened c l pr pw info objs P es tr.
  Let key := option_map p_key pr.
  Lemma jpeg_seen page ix gs data w h cs : ref_of "Resources" page = Some 4 -> show t (IImage ix gs) = Some (ShImage data) -> cs <> Indexed ->
    parse data = Res (jpeg_info w h cs data 0 0) ->
    see_jpeg file pw page (bs "I" ++ fmt_d (Z.of_nat ix + 1)) =
      Some {| v_width := w; v_height := h; v_bits := 8; v_colours := match cs with DevGray => JGray | DevRGB => JRGB | _ => JCMYK end; v_inverted := match cs with DevCMYK => true | _ => false end; v_file := data |}.
  Proof using F OP LEN LK WR.
    intros RF SH NI PA. cbn [show] in SH. unfold xobj_res in SH. destruct (existsb (Nat.eqb ix) (g_xobjs t)) eqn:EX; [|discriminate]. destruct (nth_error (g_objs t) ix) as [o|] eqn:NO; [|discriminate].
    destruct o; try discriminate. destruct use; try discriminate. injection SH as <-.
    apply existsb_exists in EX as (ix' & IX & EE). apply Nat.eqb_eq in EE. subst ix'.
    pose proof (named_image c l zl box ren pr pw info objs P F LK LEN WR (fun i o txt H => proj1 H) es tr OP page ix RF IX) as NI'.
    pose proof OP as (OX & KEY & _ & OBJ). unfold see_jpeg. fold s in NI', OX, KEY, OBJ. fold t in NI', OX, KEY, OBJ. fold file in NI', OX, KEY, OBJ. rewrite OX, KEY, NI'.
    rewrite <- obj_no_of_nat in NO. destruct (OBJ _ _ NO) as (i & txt & post & E & L & (_ & TX) & RO). assert (E' : i = ix) by (clear - E; lia). subst i.
    destruct (TX _ PA) as [_ ->]. change (attached _ _ _) with (jpeg_info w h cs (DocModel.im_data im) (objid ix (g_smasks t)) (objid ix (g_rgbs t))) in RO. set (q := jpeg_info w h cs (DocModel.im_data im) (objid ix (g_smasks t)) (objid ix (g_rgbs t))) in *.
    destruct (C60_image zl pr (Z.of_nat ix + 1) q false) as (pre & po & re & RE & -> & WA & WB). specialize (RO _ _ RE). fold (image_dict q) in RO. rewrite RO. cbn [option_map].
    refine (jview_ok file es (option_map p_key pr) (Z.of_nat ix + 1) w h cs _ _ _ (DocModel.im_data im) NI _).
    refine (coded_of_ok file es pr _ _ _ _ post RO _ (image_length q) _); [clear - L; lia|exists pre, po; auto].
  Qed.
End Jpegs.

(** What the parser makes of the three kinds of files. *)
Section Kinds.
  Variables (conf : bytes -> option ImgParseModel.config) (as_png : bytes -> option bytes) (png : bytes -> pngres imginfo).
  Hypothesis K : knows conf.
  Lemma parse_png x crc1 ll crc2 k pal : good_png x crc1 ll crc2 k pal -> parseImg conf as_png png (PropPng.png_file x crc1 ll crc2) = png (PropPng.png_file x crc1 ll crc2).
  Proof using K. intros G. destruct (proj1 K _ _ _ _ _ _ G) as (cf & E & FP). unfold parseImg, parseDirect. rewrite E, FP. reflexivity. Qed.
  Lemma parse_gif data x crc1 ll crc2 k pal : is_gif conf data -> as_png data = Some (PropPng.png_file x crc1 ll crc2) -> good_png x crc1 ll crc2 k pal ->
    parseImg conf as_png png data = png (PropPng.png_file x crc1 ll crc2).
  Proof using K. intros (cf & E & FG) A G. destruct (proj1 K _ _ _ _ _ _ G) as (cf2 & E2 & FP). unfold parseImg. rewrite E, FG, A. unfold parseDirect. rewrite E2, FP. reflexivity. Qed.
  Lemma parse_jpeg j : good_jpeg j -> ~ says_rgb conf (jpeg_file j) ->
    parseImg conf as_png png (jpeg_file j) = Res (jpeg_info (f_w (j_frame j)) (f_h (j_frame j)) (match f_comps (j_frame j) with 1 => DevGray | 3 => DevRGB | _ => DevCMYK end) (jpeg_file j) 0 0).
  Proof using K.
    intros G NR. destruct (proj2 K j G) as (m & E & M). unfold parseImg, parseDirect. rewrite E. cbn [cf_format]. unfold parseImgJpg. cbn [cf_model cf_w cf_h].
    destruct G as (_ & _ & _ & _ & I & _). cbn in I. destruct I as [I|[I|[I|[]]]]; rewrite <- I in *.
    - rewrite M. reflexivity.
    - destruct M as [->| ->]; [reflexivity|]. destruct NR. eexists. split; [exact E|reflexivity].
    - rewrite M. reflexivity.
  Qed.
End Kinds.

(** What a drawing in the content shows a reader: a picture is the picture of its file, whether PNG (as in C83), JPEG, or GIF (converted). *)
Definition pictured_any (conf : bytes -> option ImgParseModel.config) (as_png : bytes -> option bytes) (inflate : bytes -> option bytes) (file : bytes) (pw : password) (page : pobj) (it : item) (x : shown) : Prop :=
  match it, x with
  | IImage i _, ShImage data =>
      let name := bs "I" ++ fmt_d (Z.of_nat i + 1) in
      (forall x crc1 ll crc2 k pal rows, data = PropPng.png_file x crc1 ll crc2 \/ is_gif conf data /\ as_png data = Some (PropPng.png_file x crc1 ll crc2) ->
         good_png x crc1 ll crc2 k pal -> png_rows inflate x ll = Some rows -> exists v, see inflate file pw page name = Some v /\ shows_png x k pal rows v) /\
      (forall j, data = jpeg_file j -> good_jpeg j -> ~ says_rgb conf data -> (f_comps (j_frame j) = 4 -> inverted j = true) -> exists v, see_jpeg file pw page name = Some v /\ shows_jpeg j v)
  | IImage _ _, _ | _, ShImage _ => False
  | _, _ => True
  end.
Definition any_parser (conf : bytes -> option ImgParseModel.config) (as_png : bytes -> option bytes) (inflate : bytes -> option bytes) (deflate slack : bytes -> bytes) : bytes -> pngres imginfo :=
  parseImg conf as_png (fun d => parsePng inflate deflate (slack d) d).
Lemma any_of : forall aps c l zl conf as_png inflate deflate slack box ren pr pw info objs,
  finishes (start c zero_gp) l -> ren [] = [] -> knows conf ->
  (forall d, inflate (zl d) = Some d) -> (forall d, inflate (deflate d) = Some d) -> inflate [] = None ->
  (forall r, finite (fst (box r)) /\ finite (snd (box r))) -> (forall i, info = Some i -> bytes_info i) ->
  let s := doc c l in let t := output s in
  page_table t aps -> g_pagecount t = zlen (g_kids t) ->
  locked (cf_protect (g_cfg s)) pr pw -> List.length objs = List.length (g_objs t) ->
  (forall i o f, nth_error (g_objs t) i = Some o -> nth_error objs i = Some f ->
     written_doc zl pr box ren t i o (prog_bytes (f (Z.of_nat i + 1))) /\ pic_written (any_parser conf as_png inflate deflate slack) zl pr t i o (prog_bytes (f (Z.of_nat i + 1)))) ->
  let file := compile_bytes objs {| tr_encrypt := if cf_protect (g_cfg s) then Some (g_encid t) else None; tr_info := option_map (fun i => [writeInfo i]) info |} in
  zlen file < 10 ^ 10 -> zlen objs < 2 ^ 24 ->
  exists ps, open_pages inflate file pw = Some ps /\
    Forall2 (fun pc ap => exists its, snd pc = ren its /\ Forall2 (pictured_any conf as_png inflate file pw (fst pc)) its (ap_items ap)) ps aps.
Proof.
  intros aps c l zl conf as_png inflate deflate slack box ren pr pw info objs F RN K HZ HD HN HB HI s t PT CNT LK LEN WR file LF LO. set (parse := any_parser conf as_png inflate deflate slack) in *.
  assert (PW : forall i o txt, (written_doc zl pr box ren t i o txt /\ pic_written parse zl pr t i o txt) -> written_doc zl pr box ren t i o txt) by (intros i o txt [A _]; exact A).
  destruct (file_opened c l zl box ren pr pw info objs _ F HI LK LEN WR PW LF LO) as (es & tr & OP).
  destruct (pages_opened c l zl inflate box ren pr pw info objs _ F HZ HB HI LK LEN WR PW LF LO _ PT CNT RN) as (ps & E & FA). exists ps. split; [exact E|].
  eapply Forall2_impl; [|exact FA]. intros pc ap (_ & RF & its & B & SH & _). exists its. split; [exact B|].
  pose proof (fun ix gs data => picture_seen c l zl inflate deflate parse box ren pr pw info objs F HD HN LK LEN WR es tr OP (fst pc) ix gs data) as RES.
  pose proof (fun ix gs data => jpeg_seen c l zl parse box ren pr pw info objs F LK LEN WR es tr OP (fst pc) ix gs data) as REJ.
  assert (ALL : forall it x, show t it = Some x -> pictured_any conf as_png inflate file pw (fst pc) it x).
  { intros it x SX. destruct it as [b|nm ty ph|ix gs|cn|fc tx gs]; cbn [show] in SX.
    - injection SX as <-. exact I.
    - injection SX as <-. exact I.
    - assert (EX : exists data, x = ShImage data) by (destruct (xobj_res t ix) as [[]|]; try discriminate SX; destruct use; try discriminate SX; injection SX as <-; eauto).
      destruct EX as (data & ->). cbn [pictured_any]. split.
      + intros hx crc1 ll crc2 k pal rows [->|[IG AP]] GP PR.
        * exact (RES ix gs _ _ hx crc1 ll crc2 k pal rows RF SX (parse_png conf as_png _ K _ _ _ _ _ _ GP) GP PR).
        * exact (RES ix gs _ _ hx crc1 ll crc2 k pal rows RF SX (parse_gif conf as_png _ K _ _ _ _ _ _ _ IG AP GP) GP PR).
      + intros j -> GJ NR CM. assert (NX : match f_comps (j_frame j) with 1 => DevGray | 3 => DevRGB | _ => DevCMYK end <> Indexed) by (destruct GJ as (_ & _ & _ & _ & I & _); clear - I; cbn in I; destruct I as [I|[I|[I|[]]]]; rewrite <- I; discriminate).
        pose proof (REJ ix gs _ _ _ _ RF SX NX (parse_jpeg conf as_png _ K j GJ NR)) as SJ.
        eexists. split; [exact SJ|]. unfold shows_jpeg. cbn [v_file v_width v_height v_bits v_colours v_inverted]. repeat (split; [reflexivity|]).
        destruct GJ as (_ & _ & _ & _ & I & _). clear - I CM. unfold inverted in *. cbn in I. destruct I as [I|[I|[I|[]]]]; rewrite <- I in *; (split; [reflexivity|]); [reflexivity|reflexivity|symmetry; now apply CM].
    - destruct (cs_res t (cn + 1)) as [[]|]; try discriminate SX. injection SX as <-. exact I.
    - destruct (font_res t fc) as [[]|]; try discriminate SX. injection SX as <-. exact I. }
  clear - ALL SH. revert SH. generalize (ap_items ap).
  induction its as [|it its IH]; intros [|x xs] SH; cbn [map] in SH; try discriminate SH; constructor; injection SH as S1 S2; [now apply ALL|now apply IH].
Qed.
(** C84: for every plain history; protected or not. *)
Theorem C84_pictures : forall c l zl conf as_png inflate deflate slack box ren pr pw info objs,
  forallb plain_op l = true -> finishes (start c zero_gp) l -> ren [] = [] -> knows conf ->
  (forall d, inflate (zl d) = Some d) -> (forall d, inflate (deflate d) = Some d) -> inflate [] = None ->
  (forall r, finite (fst (box r)) /\ finite (snd (box r))) -> (forall i, info = Some i -> bytes_info i) ->
  let s := doc c l in let t := output s in
  locked (cf_protect (g_cfg s)) pr pw -> List.length objs = List.length (g_objs t) ->
  (forall i o f, nth_error (g_objs t) i = Some o -> nth_error objs i = Some f ->
     written_doc zl pr box ren t i o (prog_bytes (f (Z.of_nat i + 1))) /\ pic_written (any_parser conf as_png inflate deflate slack) zl pr t i o (prog_bytes (f (Z.of_nat i + 1)))) ->
  let file := compile_bytes objs {| tr_encrypt := if cf_protect (g_cfg s) then Some (g_encid t) else None; tr_info := option_map (fun i => [writeInfo i]) info |} in
  zlen file < 10 ^ 10 -> zlen objs < 2 ^ 24 ->
  exists ps, open_pages inflate file pw = Some ps /\
    Forall2 (fun pc ap => exists its, snd pc = ren its /\ Forall2 (pictured_any conf as_png inflate file pw (fst pc)) its (ap_items ap)) ps (a_pages (adoc_of c l)).
Proof.
  intros c l zl conf as_png inflate deflate slack box ren pr pw info objs P F RN K HZ HD HN HB HI s t LK LEN WR file LF LO. destruct (plain_table c l P) as [PT CNT].
  exact (any_of _ c l zl conf as_png inflate deflate slack box ren pr pw info objs F RN K HZ HD HN HB HI PT CNT LK LEN WR LF LO).
Qed.
Print Assumptions C84_pictures.
(** The same for histories with SetPage, under the conditions of C07. *)
Theorem C84_with_setpage : forall c l zl conf as_png inflate deflate slack box ren pr pw info objs,
  PropPages.paged PropSetPage.NoPage false l = true -> finishes (start c zero_gp) l -> ren [] = [] -> knows conf ->
  (forall d, inflate (zl d) = Some d) -> (forall d, inflate (deflate d) = Some d) -> inflate [] = None ->
  (forall r, finite (fst (box r)) /\ finite (snd (box r))) -> (forall i, info = Some i -> bytes_info i) ->
  let s := doc c l in let t := output s in
  locked (cf_protect (g_cfg s)) pr pw -> List.length objs = List.length (g_objs t) ->
  (forall i o f, nth_error (g_objs t) i = Some o -> nth_error objs i = Some f ->
     written_doc zl pr box ren t i o (prog_bytes (f (Z.of_nat i + 1))) /\ pic_written (any_parser conf as_png inflate deflate slack) zl pr t i o (prog_bytes (f (Z.of_nat i + 1)))) ->
  let file := compile_bytes objs {| tr_encrypt := if cf_protect (g_cfg s) then Some (g_encid t) else None; tr_info := option_map (fun i => [writeInfo i]) info |} in
  zlen file < 10 ^ 10 -> zlen objs < 2 ^ 24 ->
  exists ps, open_pages inflate file pw = Some ps /\
    Forall2 (fun pc ap => exists its, snd pc = ren its /\ Forall2 (pictured_any conf as_png inflate file pw (fst pc)) its (ap_items ap)) ps (a_pages (fst (PropPages.p_doc c l))).
Proof.
  intros c l zl conf as_png inflate deflate slack box ren pr pw info objs P F RN K HZ HD HN HB HI s t LK LEN WR file LF LO. destruct (PropPages2.paged_table c l P) as [PT CNT].
  exact (any_of _ c l zl conf as_png inflate deflate slack box ren pr pw info objs F RN K HZ HD HN HB HI PT CNT LK LEN WR LF LO).
Qed.
Print Assumptions C84_with_setpage.
(** A JPEG file that stores red, green and blue themselves is refused; so is every file of another format. *)
Theorem C84_refused : forall conf as_png png data, says_rgb conf data /\ (exists c, conf data = Some c /\ cf_format c = Jpeg) \/ (exists c, conf data = Some c /\ cf_format c = OtherFormat) ->
  parseImg conf as_png png data = Fail.
Proof.
  intros conf as_png png data [[(c & E & M) (c' & E' & FJ)]|(c & E & FO)]; unfold parseImg, parseDirect; rewrite E.
  - rewrite E in E'. injection E' as <-. rewrite FJ. unfold parseImgJpg. rewrite M. reflexivity.
  - rewrite FO. reflexivity.
Qed.
Print Assumptions C84_refused.

(** ** A decoder that does what is assumed: the header of a JPEG file, marker by marker. *)
Definition frame_markerb (m : Z) : bool := (192 <=? m) && (m <=? 207) && negb (m =? 196) && negb (m =? 200) && negb (m =? 204).
Fixpoint scan (fuel : nat) (d : bytes) : option (Z * Z * Z) :=
  match fuel, d with
  | S k, 255 :: m :: a :: b :: r =>
      if frame_markerb m then match r with 8 :: h1 :: h2 :: w1 :: w2 :: n :: _ => Some (w1 * 256 + w2, h1 * 256 + h2, n) | _ => None end
      else scan k (skipn (Z.to_nat (a * 256 + b - 2)) r)
  | _, _ => None
  end.
Definition conf84 (d : bytes) : option ImgParseModel.config :=
  match d with
  | 255 :: 216 :: r => match scan (List.length r) r with
                       | Some (w, h, n) => Some {| cf_format := Jpeg; cf_w := w; cf_h := h; cf_model := match n with 1 => GrayModel | 4 => CMYKModel | _ => YCbCrModel end |}
                       | None => None
                       end
  | 137 :: _ => Some {| cf_format := Png; cf_w := 0; cf_h := 0; cf_model := OtherModel |}
  | 71 :: 73 :: 70 :: _ => Some {| cf_format := Gif; cf_w := 0; cf_h := 0; cf_model := OtherModel |}
  | _ => None
  end.
Lemma be16_sum n : 0 <= n -> n / 256 * 256 + n mod 256 = n.
Proof. intros. pose proof (Z.div_mod n 256). lia. Qed.
Lemma skipn_zlen (b r : bytes) : skipn (Z.to_nat (zlen b)) (b ++ r) = r.
Proof. unfold zlen. rewrite Nat2Z.id. induction b; [reflexivity|exact IHb]. Qed.
Lemma scan_ok j k : good_jpeg j -> (List.length (j_before j) < k)%nat ->
  scan k (flat_map segment (j_before j) ++ segment (j_sof j, frame_header (j_frame j)) ++ j_after j) = Some (f_w (j_frame j), f_h (j_frame j), f_comps (j_frame j)).
Proof.
  destruct j as [segs sof f after]. cbn [j_before j_sof j_frame j_after]. intros (FA & S & H & W_ & _ & _). cbn [j_before j_sof j_frame j_after] in *. revert k.
  induction FA as [|[m b] segs (M & NF & L) FA IH]; intros [|k] LK; try (cbn in LK; lia).
  - cbn [flat_map app]. unfold segment, frame_header, be16. cbn [fst snd app scan].
    replace (frame_markerb sof) with true. 2:{ symmetry. unfold frame_markerb. rewrite !andb_true_iff, !negb_true_iff, !Z.leb_le, !Z.eqb_neq. lia. }
    rewrite !be16_sum by lia. reflexivity.
  - cbn [fst snd] in *. cbn [flat_map]. unfold segment at 1, be16. cbn [fst snd app scan]. replace (frame_markerb m) with false.
    2:{ symmetry. apply not_true_is_false. intros X. apply NF. unfold frame_markerb in X. rewrite !andb_true_iff, !negb_true_iff, !Z.leb_le, !Z.eqb_neq in X. unfold frame_marker. lia. }
    assert (0 <= zlen b) by (unfold zlen; lia). rewrite be16_sum by lia. replace (zlen b + 2 - 2) with (zlen b) by lia. rewrite <- app_assoc, skipn_zlen. apply IH. cbn in LK. lia.
Qed.
Lemma segs_length l (r : bytes) : (List.length l < List.length (flat_map segment l ++ [0%Z] ++ r))%nat.
Proof. induction l as [|[m b] l IH]; [cbn; lia|]. cbn [flat_map List.length]. unfold segment at 1, be16. cbn [app List.length]. rewrite !app_length in *. cbn [List.length] in *. lia. Qed.
Lemma conf84_knows : knows conf84.
Proof.
  split.
  - intros x crc1 ll crc2 k pal _. eexists. split; reflexivity.
  - intros j G. exists (match f_comps (j_frame j) with 1 => GrayModel | 4 => CMYKModel | _ => YCbCrModel end). split.
    + unfold jpeg_file. cbn [app conf84]. rewrite (scan_ok j); [reflexivity|exact G|]. clear.
      assert (L : forall q : bytes, (List.length (j_before j) < List.length (flat_map segment (j_before j) ++ segment (j_sof j, frame_header (j_frame j)) ++ q))%nat).
      { intros q. pose proof (segs_length (j_before j) q) as L. rewrite !app_length in *. cbn [List.length] in L. assert (0 < List.length (segment (j_sof j, frame_header (j_frame j))))%nat by (cbn; lia). lia. }
      apply L.
    + destruct G as (_ & _ & _ & _ & I & _). cbn in I. destruct I as [I|[I|[I|[]]]]; rewrite <- I; auto.
Qed.

(** ** A protected document with a colour JPEG, a JPEG of four inks, and a GIF. *)
Definition jpeg3 : jpeg := {| j_before := [(224, bs "JFIF" ++ [0; 1; 2; 0; 0; 1; 0; 1; 0; 0]); (219, 0 :: repeat 1 64)]; j_sof := 192;
  j_frame := {| f_h := 2; f_w := 300; f_comps := 3; f_params := [1; 17; 0; 2; 17; 0; 3; 17; 0] |}; j_after := [255; 218; 1; 2; 255; 217] |}.
Definition jpeg4 (app14 : list (Z * bytes)) : jpeg := {| j_before := app14; j_sof := 194;
  j_frame := {| f_h := 3; f_w := 5; f_comps := 4; f_params := [1; 17; 0; 2; 17; 0; 3; 17; 0; 4; 17; 0] |}; j_after := [255; 218; 9; 255; 217] |}.
Definition adobe_segment : Z * bytes := (238, bs "Adobe" ++ [0; 100; 0; 0; 0; 0; 2]).
Definition gif84 : bytes := bs "GIF89a" ++ [2; 0; 2; 0; 59].
Definition as_png84 (d : bytes) : option bytes := if list_eqb d gif84 then Some file22 else None.
Definition three_pictures (ink : jpeg) : list op :=
  [AddPage None; Do (Image (bs "a") (Build_imgdesc (jpeg_file jpeg3) true false false)); Do (Image (bs "g") (Build_imgdesc gif84 true true false));
   AddPage (Some small); Do (Image (bs "b") (Build_imgdesc (jpeg_file ink) true false false)); Do (Image (bs "a") (Build_imgdesc (jpeg_file jpeg3) true false false))].
Definition parse84 : bytes -> pngres imginfo := any_parser conf84 as_png84 PropPng.unstore PropPng.store (fun _ => []).
Definition info84 (d : bytes) : option imginfo := match parse84 d with Res p => Some p | _ => None end.
Definition source84 (t : gp) (o : option nat) : option imginfo :=
  match o with Some ix => match nth_error (g_objs t) ix with Some (OImage im _) => info84 (DocModel.im_data im) | _ => None end | None => None end.
Definition text84 (pr : option protection) (t : gp) (i : nat) (o : obj) : bytes :=
  match o with
  | OContent l => sbody PropPng.store pr (Z.of_nat i + 1) (SContent (negb (g_compress t =? 0)) (flat_map demo_ren l))
  | OImage im Plain => match info84 (DocModel.im_data im) with Some p => sbody PropPng.store pr (Z.of_nat i + 1) (SImage (attached p (objid i (g_smasks t)) (objid i (g_rgbs t))) false false) | None => [] end
  | OSMaskImg => match source84 t (owner (g_smasks t) i) with Some p => sbody PropPng.store pr (Z.of_nat i + 1) (SSMask (im_w p) (im_h p) (im_filter p) (im_smask p)) | None => [] end
  | ODeviceRGB => match source84 t (owner (g_rgbs t) i) with Some p => sbody PropPng.store pr (Z.of_nat i + 1) (SDeviceRGB (im_pal p)) | None => [] end
  | _ => demo_text pr t i o
  end.
Definition objs84 (pr : option protection) (t : gp) : list (Z -> wprog) := map (fun '(i, o) => fun _ : Z => FileModel.chunks [text84 pr t i o]) (combine (seq 0 (List.length (g_objs t))) (g_objs t)).
Definition all_pictures84 (t : gp) : bool :=
  forallb (fun o => match o with OImage im _ => match info84 (DocModel.im_data im) with Some p => picture_of_b im p | None => true end | _ => true end) (g_objs t).
Lemma text84_ok pr t : (pr = None -> ~ In OEncryption (g_objs t)) -> forallb nice_obj (g_objs t) = true -> all_pictures84 t = true -> NoDup (map snd (g_smasks t)) -> NoDup (map snd (g_rgbs t)) ->
  forall i o f, nth_error (g_objs t) i = Some o -> nth_error (objs84 pr t) i = Some f ->
  written_doc PropPng.store pr demo_box (flat_map demo_ren) t i o (prog_bytes (f (Z.of_nat i + 1))) /\
  pic_written parse84 PropPng.store pr t i o (prog_bytes (f (Z.of_nat i + 1))).
Proof.
  intros HE HN HP N1 N2 i o f N NF. unfold objs84 in NF. rewrite nth_error_map, nth_combine, N in NF. cbn [option_map] in NF. injection NF as <-.
  match goal with |- written_doc ?a ?b ?c ?d ?e ?f ?g _ /\ pic_written ?a' ?b' ?c' ?d' ?e' ?f' _ =>
    change (written_doc a b c d e f g (prog_bytes (FileModel.chunks [text84 pr t i o])) /\ pic_written a' b' c' d' e' f' (prog_bytes (FileModel.chunks [text84 pr t i o]))) end.
  rewrite prog_bytes_chunks. cbn [List.concat]. rewrite app_nil_r.
  pose proof (demo_writes pr t HE HN i o (fun _ => FileModel.chunks [demo_text pr t i o]) N) as DW.
  assert (ND : nth_error (demo_objs pr t) i = Some (fun _ => FileModel.chunks [demo_text pr t i o])) by (unfold demo_objs; rewrite nth_error_map, nth_combine, N; reflexivity).
  specialize (DW ND). cbv beta in DW. rewrite prog_bytes_chunks in DW. cbn [List.concat] in DW. rewrite app_nil_r in DW. clear ND.
  unfold all_pictures84 in HP. rewrite forallb_forall in HP.
  assert (PG : forall im p, parse84 (DocModel.im_data im) = Res p -> info84 (DocModel.im_data im) = Some p) by (intros im p E; unfold info84; rewrite E; reflexivity).
  split.
  - destruct o; try exact (written_doc_of _ _ _ _ _ _ _ _ DW); try exact I. reflexivity.
  - destruct o; try exact I.
    + destruct use; try exact I. cbn [pic_written text84]. intros p E. rewrite (PG im p E). split; [|reflexivity]. apply picture_of_ok. specialize (HP _ (nth_error_In _ _ N)). cbn beta iota in HP. rewrite (PG im p E) in HP. exact HP.
    + cbn [pic_written text84]. intros ix im use p L NI E. rewrite (owner_ok _ ix i N1 L). unfold source84. rewrite NI, (PG im p E). reflexivity.
    + cbn [pic_written text84]. intros ix im use p L NI E. rewrite (owner_ok _ ix i N2 L). unfold source84. rewrite NI, (PG im p E). reflexivity.
Qed.
Definition state84 (ink : jpeg) : gp := output (doc a4 (three_pictures ink)).
Definition file84 (ink : jpeg) : bytes := compile_bytes (objs84 open_key (state84 ink)) {| tr_encrypt := Some (g_encid (state84 ink)); tr_info := option_map (fun i => [writeInfo i]) None |}.
Notation ink4 := (jpeg4 [adobe_segment]).
Example C84_met : exists pr, open_key = Some pr /\ forallb plain_op (three_pictures ink4) = true /\ finishes (start a4 zero_gp) (three_pictures ink4) /\ knows conf84 /\
  locked (cf_protect (g_cfg (doc a4 (three_pictures ink4)))) (Some pr) (User (bs "secret")) /\ List.length (objs84 (Some pr) (state84 ink4)) = List.length (g_objs (state84 ink4)) /\
  (forall i o f, nth_error (g_objs (state84 ink4)) i = Some o -> nth_error (objs84 (Some pr) (state84 ink4)) i = Some f ->
     written_doc PropPng.store (Some pr) demo_box (flat_map demo_ren) (state84 ink4) i o (prog_bytes (f (Z.of_nat i + 1))) /\
     pic_written parse84 PropPng.store (Some pr) (state84 ink4) i o (prog_bytes (f (Z.of_nat i + 1)))) /\
  zlen (file84 ink4) < 10 ^ 10.
Proof.
  assert (X : match open_key with Some _ => true | None => false end = true) by (vm_cast_no_check (eq_refl true)).
  destruct open_key as [pr|] eqn:E; [clear X|discriminate X]. exists pr. split; [reflexivity|]. split; [vm_compute; reflexivity|].
  assert (FI : finishes (start a4 zero_gp) (three_pictures ink4)) by (apply finishesb_ok; vm_compute; reflexivity). split; [exact FI|]. split; [exact conf84_knows|].
  split; [unfold locked; replace (cf_protect (g_cfg (doc a4 (three_pictures ink4)))) with true by (vm_compute; reflexivity); split; [reflexivity|]; exists (bs "0123456789abcdefghijklmnopqrstuv"), 4, (bs "secret"), []; split; [lia|]; split; [exact E|left; reflexivity]|].
  split; [unfold objs84; rewrite map_length, combine_length, seq_length; apply Nat.min_id|]. split; [|vm_compute; reflexivity].
  clear E. pose proof (gd_own false _ (PropName2.RGood_doc a4 (three_pictures ink4) FI)) as [[N1 N2] _].
  refine (text84_ok (Some pr) (state84 ink4) _ _ _ N1 N2); [intros X; discriminate X|vm_compute; reflexivity|vm_compute; reflexivity].
Qed.
Lemma frame_markerb_ok m : frame_markerb m = false -> ~ frame_marker m.
Proof. intros H (A & B & C & D). unfold frame_markerb in H. rewrite (proj2 (Z.leb_le 192 m)), (proj2 (Z.leb_le m 207)), (proj2 (Z.eqb_neq m 196)), (proj2 (Z.eqb_neq m 200)), (proj2 (Z.eqb_neq m 204)) in H by lia. discriminate H. Qed.
Example C84_files_good : good_jpeg jpeg3 /\ good_jpeg ink4 /\ inverted ink4 = true /\ ~ says_rgb conf84 (jpeg_file jpeg3) /\ is_gif conf84 gif84 /\ as_png84 gif84 = Some file22.
Proof.
  split; [|split; [|split; [reflexivity|split; [|split; [|reflexivity]]]]].
  - split; [repeat constructor; cbn; try lia; apply frame_markerb_ok; reflexivity|]. cbn. repeat split; try lia; auto.
  - split; [repeat constructor; cbn; try lia; apply frame_markerb_ok; reflexivity|]. cbn. repeat split; try lia; auto.
  - intros (c & E & M). vm_compute in E. injection E as <-. discriminate M.
  - eexists. split; reflexivity.
Qed.
(** What the reader sees, from the bytes. *)
Example C84_seen : let f := file84 ink4 in
  option_map (map (fun pc => (snd pc, see_jpeg f (User (bs "secret")) (fst pc) (bs "I6"), see PropPng.unstore f (User (bs "secret")) (fst pc) (bs "I8"))))
    (open_pages PropPng.unstore f (User (bs "secret"))) =
  let colour := {| v_width := 300; v_height := 2; v_bits := 8; v_colours := JRGB; v_inverted := false; v_file := jpeg_file jpeg3 |} in
  let gif := {| v_w := 2; v_h := 2; v_bpc := 8; v_space := RGB; v_rows := [[10; 20; 30; 11; 22; 33]; [4; 25; 35; 13; 33; 42]]; v_key := []; v_alpha := Some [[255; 199]; [0; 100]] |} in
  Some [(bs "/I6 Do /I8 Do ", Some colour, Some gif); (bs "/I11 Do /I6 Do ", Some colour, Some gif)].
Proof. vm_compute. reflexivity. Qed.
(** The colours of a four-ink JPEG file without the Adobe segment come out inverted: the Decode array is always written. *)
Theorem C84_plain_inks_refuted : let j := jpeg4 [] in good_jpeg j /\ ~ says_rgb conf84 (jpeg_file j) /\
  exists ps p v, open_pages PropPng.unstore (file84 j) (User (bs "secret")) = Some ps /\ nth_error ps 1 = Some p /\
  see_jpeg (file84 j) (User (bs "secret")) (fst p) (bs "I11") = Some v /\ v_file v = jpeg_file j /\ inverted j = false /\ v_inverted v = true.
Proof.
  split; [split; [constructor|]; cbn; repeat split; try lia; auto|]. split; [intros (c & E & M); vm_compute in E; injection E as <-; discriminate M|].
  assert (X : match open_pages PropPng.unstore (file84 (jpeg4 [])) (User (bs "secret")) with
              | Some ps => match nth_error ps 1 with
                           | Some p => match see_jpeg (file84 (jpeg4 [])) (User (bs "secret")) (fst p) (bs "I11") with Some v => list_eqb (v_file v) (jpeg_file (jpeg4 [])) && v_inverted v | None => false end
                           | None => false end
              | None => false end = true) by (vm_cast_no_check (eq_refl true)).
  destruct (open_pages PropPng.unstore (file84 (jpeg4 [])) (User (bs "secret"))) as [ps|]; [|discriminate X]. exists ps. destruct (nth_error ps 1) as [p|] eqn:E1; [|discriminate X]. exists p.
  destruct (see_jpeg (file84 (jpeg4 [])) (User (bs "secret")) (fst p) (bs "I11")) as [v|]; [|discriminate X]. exists v. apply andb_true_iff in X as [X1 X2]. apply list_eqb_eq in X1.
  repeat (split; [first [reflexivity|assumption]|]). exact X2.
Qed.
Print Assumptions C84_plain_inks_refuted.
