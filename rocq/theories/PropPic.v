(** PropPic.v — C83: the pixels of every PNG picture drawn, from the bytes of the written file. *)
From Coq Require Import QArith.
From Verif Require Import Base Crypto FileModel FileSpec FileProofs PropFile SecSpec SecModel PropSec DrawSpec NumModel StrModel StrSpec PropStr DocModel DocSpec DocProofs DocInv PropDoc
  StreamModel PropStream PdfSyntax PdfRead ObjModel PropObj PropObj2 PropObj3 RefModel PropRef PropRef2 OpenSpec PropOnePage PropOpen PropCopy PngModel PicSpec.
From Verif Require PropName PropName2 PropPng PropSetPage PropPages PropPages2.
Open Scope Z_scope.

(** ** The objects of pictures *)
(** As their write methods produce them (image_obj.go:41-107, smask_obj.go:82-98, device_rgb_obj.go:27-46): what the parser made of
    the image file, which is [im_data]; the soft mask and the palette an image points to are made from the same file.
    gopdf.go:685-722: smaskObj and deviceRGBObj are created from the image object they are attached to. *)
Definition attached (p : imginfo) (smask rgb : Z) : imginfo :=
  {| im_w := im_w p; im_h := im_h p; im_cs := im_cs p; im_bpc := im_bpc p; im_filter := im_filter p; im_colors := im_colors p;
     im_trns := im_trns p; im_smask := im_smask p; im_smaskObj := smask; im_pal := im_pal p; im_rgbObj := rgb; StreamModel.im_data := StreamModel.im_data p |}.
Definition pic_written (parse : bytes -> pngres imginfo) (zl : bytes -> bytes) (pr : option protection) (t : gp) (i : nat) (o : obj) (txt : bytes) : Prop :=
  match o with
  | OImage im Plain => forall p, parse (DocModel.im_data im) = Res p ->
      picture_of im p /\ txt = sbody zl pr (Z.of_nat i + 1) (SImage (attached p (objid i (g_smasks t)) (objid i (g_rgbs t))) false false)
  | OSMaskImg => forall ix im use p, nlookup ix (g_smasks t) = Some i -> nth_error (g_objs t) ix = Some (OImage im use) ->
      parse (DocModel.im_data im) = Res p -> txt = sbody zl pr (Z.of_nat i + 1) (SSMask (im_w p) (im_h p) (im_filter p) (im_smask p))
  | ODeviceRGB => forall ix im use p, nlookup ix (g_rgbs t) = Some i -> nth_error (g_objs t) ix = Some (OImage im use) ->
      parse (DocModel.im_data im) = Res p -> txt = sbody zl pr (Z.of_nat i + 1) (SDeviceRGB (im_pal p))
  | _ => True
  end.

(** ** Dictionaries *)
Definition image_dict (p : imginfo) : pobj :=
  ODict (picture p (im_cs p) ++ parms p ++ (colour_mask (im_trns p) ++ soft_mask p) ++ [(bs "Length", OInt (zlen (StreamModel.im_data p)))]).
Lemma ints_of_key t : ints_of (flat_map (fun x => [OInt x; OInt x]) t) = Some (flat_map (fun x => [x; x]) t).
Proof. unfold ints_of. induction t as [|a t IH]; [reflexivity|]. cbn [flat_map map app all_some]. rewrite IH. reflexivity. Qed.
Section Views.
  Variables (inflate : bytes -> option bytes) (file : bytes) (es : list xentry) (key : option bytes).
  Lemma view_opaque n w h b cs c trns smo pal rgbo data raw rows sp :
    let p := {| im_w := w; im_h := h; im_cs := cs; im_bpc := b; im_filter := FFlate; im_colors := Some c; im_trns := trns; im_smask := []; im_smaskObj := smo; im_pal := pal; im_rgbObj := rgbo; StreamModel.im_data := data |} in
    cs <> DevCMYK -> space_at inflate file es key (space_of p cs) = Some sp -> per_pixel sp = c -> stream_of inflate file es key n = Some raw ->
    PropPng.picture (Z.to_nat ((c * b + 7) / 8)) (Z.to_nat ((c * b * w + 7) / 8)) (Z.to_nat h) raw [] = Some rows ->
    view_of inflate file es key n (image_dict p) = Some {| v_w := w; v_h := h; v_bpc := b; v_space := sp; v_rows := rows; v_key := flat_map (fun a => [a; a]) trns; v_alpha := None |}.
  Proof.
    intros p NC SP PP ST PIC. unfold view_of.
    assert (V : value_of "Subtype" (image_dict p) = Some (N_ "Image") /\ int_of "Width" (image_dict p) = Some w /\ int_of "Height" (image_dict p) = Some h /\ int_of "BitsPerComponent" (image_dict p) = Some b /\
                value_of "ColorSpace" (image_dict p) = Some (space_of p cs) /\ value_of "DecodeParms" (image_dict p) = Some (ODict [(bs "Predictor", OInt 15); (bs "Colors", OInt c); (bs "BitsPerComponent", OInt b); (bs "Columns", OInt w)]) /\
                has_key "SMask" (image_dict p) = false /\ colour_key (image_dict p) = Some (flat_map (fun a => [a; a]) trns)).
    { unfold image_dict, picture, parms, cmyk_decode, filter_of, predictor, colour_mask, soft_mask, int_of, colour_key, p. cbn [im_w im_h im_cs im_bpc im_filter im_colors im_trns im_smask].
      fold p. generalize (space_of p cs). intros q. pose proof (ints_of_key trns) as IK. 
      destruct cs; try congruence; destruct trns as [|a tr]; repeat (split; [reflexivity|]); first [reflexivity|exact IK]. }
    destruct V as (V1 & V2 & V3 & V4 & V5 & V6 & V7 & V8). rewrite V1, V2, V3, V4, V5, SP, V8. unfold N_ at 1. unfold samples. rewrite V6, ST.
    change (int_of "Predictor" _) with (Some 15). change (int_of "Colors" _) with (Some c). change (int_of "BitsPerComponent" (ODict [(bs "Predictor", OInt 15); (bs "Colors", OInt c); (bs "BitsPerComponent", OInt b); (bs "Columns", OInt w)])) with (Some b). change (int_of "Columns" _) with (Some w).
    rewrite PP, !Z.eqb_refl. cbn [Z.leb Z.compare Pos.compare Pos.compare_cont andb]. rewrite PIC. unfold opacity. rewrite V7. reflexivity.
  Qed.
  Lemma view_alpha n w h cs c a sm smo pal rgbo data raw rows sp m rest alpha arows :
    let p := {| im_w := w; im_h := h; im_cs := cs; im_bpc := 8; im_filter := FFlate; im_colors := Some c; im_trns := []; im_smask := a :: sm; im_smaskObj := smo; im_pal := pal; im_rgbObj := rgbo; StreamModel.im_data := data |} in
    cs <> DevCMYK -> space_at inflate file es key (space_of p cs) = Some sp -> per_pixel sp = c -> stream_of inflate file es key n = Some raw ->
    PropPng.picture (Z.to_nat ((c * 8 + 7) / 8)) (Z.to_nat ((c * 8 * w + 7) / 8)) (Z.to_nat h) raw [] = Some rows ->
    m = smo + 1 -> object_of file es m = Some (gray w h FFlate (zlen (a :: sm)), rest) -> stream_of inflate file es key m = Some alpha ->
    PropPng.picture 1 (Z.to_nat ((1 * 8 * w + 7) / 8)) (Z.to_nat h) alpha [] = Some arows ->
    view_of inflate file es key n (image_dict p) = Some {| v_w := w; v_h := h; v_bpc := 8; v_space := sp; v_rows := rows; v_key := []; v_alpha := Some arows |}.
  Proof.
    intros p NC SP PP ST PIC EM OM STM PICM. unfold view_of.
    assert (V : value_of "Subtype" (image_dict p) = Some (N_ "Image") /\ int_of "Width" (image_dict p) = Some w /\ int_of "Height" (image_dict p) = Some h /\ int_of "BitsPerComponent" (image_dict p) = Some 8 /\
                value_of "ColorSpace" (image_dict p) = Some (space_of p cs) /\ value_of "DecodeParms" (image_dict p) = Some (ODict [(bs "Predictor", OInt 15); (bs "Colors", OInt c); (bs "BitsPerComponent", OInt 8); (bs "Columns", OInt w)]) /\
                has_key "SMask" (image_dict p) = true /\ ref_of "SMask" (image_dict p) = Some (smo + 1) /\ colour_key (image_dict p) = Some []).
    { unfold image_dict, picture, parms, cmyk_decode, filter_of, predictor, colour_mask, soft_mask, int_of, colour_key, p. cbn [im_w im_h im_cs im_bpc im_filter im_colors im_trns im_smask im_smaskObj].
      fold p. generalize (space_of p cs). intros q. destruct cs; try congruence; repeat (split; [reflexivity|]); reflexivity. }
    destruct V as (V1 & V2 & V3 & V4 & V5 & V6 & V7 & V8 & V9). rewrite V1, V2, V3, V4, V5, SP, V9. unfold N_ at 1. unfold samples at 1. rewrite V6, ST.
    change (int_of "Predictor" _) with (Some 15). change (int_of "Colors" _) with (Some c). change (int_of "BitsPerComponent" (ODict [(bs "Predictor", OInt 15); (bs "Colors", OInt c); (bs "BitsPerComponent", OInt 8); (bs "Columns", OInt w)])) with (Some 8). change (int_of "Columns" _) with (Some w).
    rewrite PP, !Z.eqb_refl. cbn [Z.leb Z.compare Pos.compare Pos.compare_cont andb]. rewrite PIC. unfold opacity. rewrite V7, V8, <- EM, OM.
    unfold gray. change (int_of "Width" _) with (Some w). change (int_of "Height" _) with (Some h). change (int_of "BitsPerComponent" _) with (Some 8). change (value_of "ColorSpace" _) with (Some (N_ "DeviceGray")).
    unfold N_ at 1. rewrite !Z.eqb_refl. cbn [andb]. change (list_eqb (bs "DeviceGray") (bs "DeviceGray")) with true.
    unfold samples. change (value_of "DecodeParms" _) with (Some (ODict [(bs "Predictor", OInt 15); (bs "Colors", OInt 1); (bs "BitsPerComponent", OInt 8); (bs "Columns", OInt w)])). rewrite STM.
    change (int_of "Predictor" _) with (Some 15). change (int_of "Colors" _) with (Some 1). change (int_of "BitsPerComponent" _) with (Some 8). change (int_of "Columns" _) with (Some w).
    cbv beta iota. rewrite !Z.eqb_refl. cbn [Z.leb Z.eqb Z.compare Pos.compare Pos.compare_cont Pos.eqb andb]. change (Z.to_nat ((1 * 8 + 7) / 8)) with 1%nat. rewrite PICM. reflexivity.
  Qed.
End Views.

(** A well-formed PNG file, as C37 asks: header, chunks with data, at most one palette and colour key. *)
Definition good_png (x : PropPng.header) (crc1 : bytes) (ll : list PropPng.chunk) (crc2 t pal : bytes) : Prop :=
  PropPng.header_ok x /\ List.length crc1 = 4%nat /\ List.length crc2 = 4%nat /\ Forall PropPng.chunk_ok ll /\ Forall (fun ch => PropPng.c_body ch <> []) ll /\
  PropPng.trns_ok x ll t /\ PropPng.palette_ok x ll pal.

(** ** The reader meets the pictures *)
Section Pics.
  Variables (c : config) (l : list op) (zl : bytes -> bytes) (inflate : bytes -> option bytes) (deflate : bytes -> bytes) (parse : bytes -> pngres imginfo) (box : rectq -> f64 * f64) (ren : list item -> bytes).
  Variables (pr : option protection) (pw : password) (info : option pdfinfo) (objs : list (Z -> wprog)).
  Hypothesis F : finishes (start c zero_gp) l.
  Hypothesis HD : forall d, inflate (deflate d) = Some d.
  Hypothesis HN : inflate [] = None.
  Let s := doc c l. Let t := output s.
  Let P i o txt := written_doc zl pr box ren t i o txt /\ pic_written parse zl pr t i o txt.
  Hypothesis LK : locked (cf_protect (g_cfg s)) pr pw.
  Hypothesis LEN : List.length objs = List.length (g_objs t).
  Hypothesis WR : forall i o f, nth_error (g_objs t) i = Some o -> nth_error objs i = Some f -> P i o (prog_bytes (f (Z.of_nat i + 1))).
  Let file := compile_bytes objs {| tr_encrypt := if cf_protect (g_cfg s) then Some (g_encid t) else None; tr_info := option_map (fun i => [writeInfo i]) info |}.
  Variables (es : list xentry) (tr : pobj).
  Hypothesis OP : opened c l pr pw info objs P es tr.
  Let key := option_map p_key pr.
  Lemma OPP : open_xref file = Some (es, tr) /\ file_key_of file es tr pw = Some key /\
    forall n o, obj_no t n = Some o -> exists i txt post, n = Z.of_nat i + 1 /\ n < 2 ^ 24 /\ P i o txt /\
     forall v rest, read_object txt = Some (v, rest) -> object_of file es n = Some (v, rest ++ post).
  Proof using OP. destruct OP as (A & B & _ & C). auto. Qed.
  (** The soft mask and the palette of a picture. *)
  Lemma mask_found ix m : In (ix, m) (g_smasks t) -> obj_no t (Z.of_nat m + 1) = Some OSMaskImg.
  Proof using F.
    intros I. pose proof (PropName2.RGood_doc c l F) as G. fold s in G. fold t in G.
    destruct (R_obj t KSoftMaskImage (Z.of_nat m + 1)) as (o & O & K); [|rewrite O; now destruct o].
    apply (gd_ref false t G), in_or_app. right. unfold srefs. rewrite !in_app_iff. do 11 right. left. apply in_map_iff. now exists (ix, m).
  Qed.
  Lemma palette_found ix m : In (ix, m) (g_rgbs t) -> obj_no t (Z.of_nat m + 1) = Some ODeviceRGB.
  Proof using F.
    intros I. pose proof (PropName2.RGood_doc c l F) as G. fold s in G. fold t in G.
    destruct (R_obj t KPalette (Z.of_nat m + 1)) as (o & O & K); [|rewrite O; now destruct o].
    apply (gd_ref false t G), in_or_app. right. unfold srefs. rewrite !in_app_iff. do 12 right. left. apply in_map_iff. now exists (ix, m).
  Qed.
  Lemma whole ix im : nth_error (g_objs t) ix = Some (OImage im Plain) -> whole_img t ix im.
  Proof using F. intros N. pose proof (PropName2.RGood_doc c l F) as G. fold s in G. fold t in G. apply (gd_img false t G ix im Plain N). discriminate. Qed.
  Lemma image_read ix im p : nth_error (g_objs t) ix = Some (OImage im Plain) -> parse (DocModel.im_data im) = Res p ->
    im_filter p = FFlate -> (Z.of_nat ix + 1 < 2 ^ 24) /\ picture_of im p /\ exists rest, object_of file es (Z.of_nat ix + 1) = Some (image_dict (attached p (objid ix (g_smasks t)) (objid ix (g_rgbs t))), rest) /\
    stream_of inflate file es key (Z.of_nat ix + 1) = inflate (StreamModel.im_data p).
  Proof using OP.
    intros N PA FF. rewrite <- obj_no_of_nat in N. destruct OPP as (_ & _ & OBJ). destruct (OBJ _ _ N) as (i & txt & post & E & L & (_ & TX) & RO). assert (E' : i = ix) by (clear - E; lia). subst i.
    destruct (TX p PA) as [PO ->]. split; [exact L|]. split; [exact PO|]. set (q := attached _ _ _) in *.
    destruct (C60_image zl pr (Z.of_nat ix + 1) q false) as (pre & po & re & RE & -> & WA & WB). specialize (RO _ _ RE). fold (image_dict q) in RO. eexists. split; [exact RO|].
    pose proof (stream_of_ok inflate file es pr _ _ (StreamModel.im_data q) _ post RO) as SO. unfold key. rewrite SO; [|clear - L; lia|apply image_length|exists pre, po; auto].
    assert (HF : im_filter q = FFlate) by exact FF.
    assert (V : has_key "Filter" (image_dict q) = true /\ value_of "Filter" (image_dict q) = Some (N_ "FlateDecode")).
    { clear - HF. unfold image_dict, picture, parms, cmyk_decode, predictor, colour_mask, soft_mask, filter_of. rewrite HF. generalize (space_of q (im_cs q)). intros sp.
      destruct (im_cs q), (im_colors q), (im_trns q), (im_smask q); split; reflexivity. }
    destruct V as [-> ->]. reflexivity.
  Qed.
  Lemma mask_read ix m im use p : nlookup ix (g_smasks t) = Some m -> nth_error (g_objs t) ix = Some (OImage im use) ->
    parse (DocModel.im_data im) = Res p -> im_filter p = FFlate ->
    exists rest, object_of file es (Z.of_nat m + 1) = Some (gray (im_w p) (im_h p) FFlate (zlen (im_smask p)), rest) /\ stream_of inflate file es key (Z.of_nat m + 1) = inflate (im_smask p).
  Proof using F OP.
    intros LU N PA FF. pose proof (mask_found ix m (nlookup_In _ _ _ LU)) as NM. destruct OPP as (_ & _ & OBJ). destruct (OBJ _ _ NM) as (i & txt & post & E & L & (_ & TX) & RO). assert (E' : i = m) by (clear - E; lia). subst i.
    pose proof (TX ix im use p LU N PA) as ET. subst txt. rewrite FF in RO.
    destruct (C60_smask zl pr (Z.of_nat m + 1) (im_w p) (im_h p) FFlate (im_smask p)) as (pre & po & re & RE & -> & WA & WB). specialize (RO _ _ RE). eexists. split; [exact RO|].
    pose proof (stream_of_ok inflate file es pr _ _ (im_smask p) _ post RO) as SO. unfold key. rewrite SO; [reflexivity|clear - L; lia|reflexivity|exists pre, po; auto].
  Qed.
  Lemma palette_read ix m im use p : nlookup ix (g_rgbs t) = Some m -> nth_error (g_objs t) ix = Some (OImage im use) ->
    parse (DocModel.im_data im) = Res p -> stream_of inflate file es key (Z.of_nat m + 1) = Some (im_pal p).
  Proof using F OP.
    intros LU N PA. pose proof (palette_found ix m (nlookup_In _ _ _ LU)) as NM. destruct OPP as (_ & _ & OBJ). destruct (OBJ _ _ NM) as (i & txt & post & E & L & (_ & TX) & RO). assert (E' : i = m) by (clear - E; lia). subst i.
    pose proof (TX ix im use p LU N PA) as ET. subst txt.
    destruct (C60_palette zl pr (Z.of_nat m + 1) (im_pal p)) as (pre & po & re & RE & -> & WA & WB). specialize (RO _ _ RE).
    pose proof (stream_of_ok inflate file es pr _ _ (im_pal p) _ post RO) as SO. unfold key. rewrite SO; [reflexivity|clear - L; lia|reflexivity|exists pre, po; auto].
  Qed.

  Lemma see_image page ix gs data : ref_of "Resources" page = Some 4 -> show t (IImage ix gs) = Some (ShImage data) ->
    exists im, nth_error (g_objs t) ix = Some (OImage im Plain) /\ DocModel.im_data im = data /\
    see inflate file pw page (bs "I" ++ fmt_d (Z.of_nat ix + 1)) = match object_of file es (Z.of_nat ix + 1) with Some (o, _) => view_of inflate file es key (Z.of_nat ix + 1) o | None => None end.
  Proof using F OP LEN LK WR.
    intros RF SH. cbn [show] in SH. unfold xobj_res in SH. destruct (existsb (Nat.eqb ix) (g_xobjs t)) eqn:EX; [|discriminate]. destruct (nth_error (g_objs t) ix) as [o|] eqn:NO; [|discriminate].
    destruct o; try discriminate. destruct use; try discriminate. injection SH as <-. exists im. split; [reflexivity|]. split; [reflexivity|].
    apply existsb_exists in EX as (ix' & IX & EE). apply Nat.eqb_eq in EE. subst ix'.
    pose proof (named_image c l zl box ren pr pw info objs P F LK LEN WR (fun i o txt H => proj1 H) es tr OP page ix RF IX) as NI.
    destruct OPP as (OX & KEY & _). unfold see. rewrite OX, KEY. fold s in NI. fold t in NI. fold file in NI. rewrite NI.
    destruct (object_of file es (Z.of_nat ix + 1)) as [[o r]|]; reflexivity.
  Qed.
  Lemma picture_seen page ix gs data sl x crc1 ll crc2 k pal rows : ref_of "Resources" page = Some 4 -> show t (IImage ix gs) = Some (ShImage data) ->
    parse data = parsePng inflate deflate sl (PropPng.png_file x crc1 ll crc2) ->
    good_png x crc1 ll crc2 k pal -> png_rows inflate x ll = Some rows ->
    exists v, see inflate file pw page (bs "I" ++ fmt_d (Z.of_nat ix + 1)) = Some v /\ shows_png x k pal rows v.
  Proof using F OP LEN LK WR HD HN.
    intros RF SH HPX GP PR. destruct GP as (HO & C1 & C2 & FC & FB & TR & PL). destruct (see_image page ix gs _ RF SH) as (im & N & ED & ->).
    pose proof HO as (HW & HH & Q).
    destruct (Z.leb_spec 4 (PropPng.h_ct x)) as [AL|OQ].
    - (* alpha *)
      assert (CT : PropPng.h_ct x = 4 \/ PropPng.h_ct x = 6). { destruct Q as [[? _]|[[? _]|[I _]]]; [lia|lia|]. cbn in I. lia. }
      assert (BP : PropPng.h_bpc x = 8). { destruct Q as [[? _]|[[? _]|[_ ?]]]; [lia|lia|assumption]. }
      assert (T0 : k = []). { destruct TR as [[_ ->]|(b & _ & X)]; [reflexivity|]. destruct CT as [E|E]; rewrite E in X; contradiction. } subst k.
      unfold png_rows in PR. destruct (inflate (PropPng.image_data ll)) as [raw|] eqn:IE; [|discriminate].
      set (w := Z.to_nat (PropPng.h_w x)) in *. set (h := Z.to_nat (PropPng.h_h x)) in *. set (nc := PropPng.colours (PropPng.h_ct x)) in *.
      assert (NE : Z.of_nat (nc + 1) = png_samples (PropPng.h_ct x)) by (unfold nc, PropPng.colours; destruct CT as [E|E]; rewrite E; reflexivity).
      assert (PE : PropPng.picture (nc + 1) ((nc + 1) * w) h raw [] = Some rows).
      { rewrite <- PR. cbv zeta. rewrite BP, <- NE. replace ((Z.of_nat (nc + 1) * 8 + 7) / 8) with (Z.of_nat (nc + 1)) by (rewrite Z.div_add_l by lia; lia).
        replace ((Z.of_nat (nc + 1) * 8 * PropPng.h_w x + 7) / 8) with (Z.of_nat ((nc + 1) * w)).
        2:{ replace (Z.of_nat (nc + 1) * 8 * PropPng.h_w x + 7) with ((Z.of_nat (nc + 1) * PropPng.h_w x) * 8 + 7) by ring. rewrite Z.div_add_l by lia. unfold w. rewrite Nat2Z.inj_mul, Z2Nat.id by lia. change (7 / 8) with 0. ring. }
        rewrite !Nat2Z.id. reflexivity. }
      destruct (PropPng.C37_alpha_recombines_partial inflate deflate sl x crc1 ll crc2 pal raw rows HO CT C1 C2 FC FB TR PL HD IE PE)
        as (p & color & alpha & crows & arows & PA & PW_ & PH & PC & PB & PF & PCO & PT & ID & PID & IA & PIA & L1 & L2 & L3 & RC).
      rewrite <- HPX, <- ED in PA.
      assert (NS : exists a sm, im_smask p = a :: sm) by (destruct (im_smask p) as [|a sm]; [congruence|eauto]). destruct NS as (a & sm & NS).
      destruct (image_read ix im p N PA PF) as (LX & [PO1 PO2] & rest & OI & SI).
      assert (IA' : im_alpha im = true) by (rewrite NS in PO1; destruct (im_alpha im); [reflexivity|discriminate PO1]).
      destruct (whole ix im N) as [WM _]. specialize (WM IA'). destruct (nlookup ix (g_smasks t)) as [m|] eqn:LU; [|congruence].
      destruct (mask_read ix m im Plain p LU N PA PF) as (rest2 & OM & SM). rewrite OI.
      assert (EQ : attached p (objid ix (g_smasks t)) (objid ix (g_rgbs t)) =
        {| im_w := PropPng.h_w x; im_h := PropPng.h_h x; im_cs := im_cs p; im_bpc := 8; im_filter := FFlate; im_colors := Some (Z.of_nat nc); im_trns := []; im_smask := a :: sm; im_smaskObj := Z.of_nat m;
           im_pal := im_pal p; im_rgbObj := objid ix (g_rgbs t); StreamModel.im_data := StreamModel.im_data p |}).
      { unfold attached. rewrite PW_, PH, PB, PF, PCO, PT, NS. unfold objid at 1. rewrite LU. reflexivity. }
      rewrite EQ. rewrite PW_, PH, NS in OM. rewrite ID in SI. rewrite NS in SM, IA. rewrite IA in SM.
      set (sp := if PropPng.h_ct x =? 4 then Gray else RGB).
      assert (NC : im_cs p <> DevCMYK) by (rewrite PC; destruct (PropPng.h_ct x =? 4); discriminate).
      assert (D8 : forall z, (z * 8 + 7) / 8 = z) by (intros z; rewrite Z.div_add_l by (clear; lia); change (7 / 8) with 0; clear; lia).
      assert (WW : Z.of_nat w = PropPng.h_w x) by (unfold w; apply Z2Nat.id; clear - HW; lia).
      eexists. split.
      + refine (view_alpha inflate file es key (Z.of_nat ix + 1) (PropPng.h_w x) (PropPng.h_h x) (im_cs p) (Z.of_nat nc) a sm (Z.of_nat m) (im_pal p) (objid ix (g_rgbs t)) (StreamModel.im_data p) color crows sp (Z.of_nat m + 1) rest2 alpha arows
                  NC _ _ SI _ eq_refl OM SM _).
        * unfold sp. rewrite PC. destruct (PropPng.h_ct x =? 4); reflexivity.
        * unfold sp, nc, PropPng.colours. destruct (PropPng.h_ct x =? 4); reflexivity.
        * rewrite D8. replace (Z.of_nat nc * 8 * PropPng.h_w x) with (Z.of_nat (nc * w) * 8) by (rewrite Nat2Z.inj_mul, WW; ring). rewrite D8, !Nat2Z.id. exact PID.
        * replace (1 * 8 * PropPng.h_w x) with (Z.of_nat w * 8) by (rewrite WW; ring). rewrite D8, Nat2Z.id. exact PIA.
      + unfold shows_png. cbn [v_w v_h v_bpc v_space v_rows v_key v_alpha]. split; [reflexivity|]. split; [reflexivity|]. split; [symmetry; exact BP|]. split.
        { unfold sp. destruct CT as [E|E]; rewrite E; reflexivity. }
        replace (4 <=? PropPng.h_ct x) with true by (destruct CT as [E|E]; rewrite E; reflexivity). split; [reflexivity|]. exists arows. split; [reflexivity|].
        fold w h. split; [exact L2|]. split; [exact L3|]. split; [exact L1|]. exact RC.
    - (* no alpha *)
      assert (CT : In (PropPng.h_ct x) [0; 2; 3]).
      { destruct Q as [[E _]|[[E _]|[I _]]]; [rewrite E; left; reflexivity|rewrite E; right; right; left; reflexivity|]. cbn in I. cbn. clear - I OQ. lia. }
      destruct (PropPng.C37_opaque_png_partial inflate deflate sl x crc1 ll crc2 k pal HO CT C1 C2 FC FB TR PL)
        as (p & PA & PW_ & PH & PB & PF & PC & PCO & PD & PS & PT & PP). rewrite <- HPX, <- ED in PA.
      destruct (image_read ix im p N PA PF) as (LX & [PO1 PO2] & rest & OI & SI). rewrite OI.
      unfold png_rows in PR. rewrite PD in SI. destruct (inflate (PropPng.image_data ll)) as [raw|] eqn:IE; [|discriminate]. cbv zeta in PR.
      assert (EQ : attached p (objid ix (g_smasks t)) (objid ix (g_rgbs t)) =
        {| im_w := PropPng.h_w x; im_h := PropPng.h_h x; im_cs := im_cs p; im_bpc := PropPng.h_bpc x; im_filter := FFlate; im_colors := Some (png_samples (PropPng.h_ct x)); im_trns := k; im_smask := []; im_smaskObj := objid ix (g_smasks t);
           im_pal := pal; im_rgbObj := objid ix (g_rgbs t); StreamModel.im_data := StreamModel.im_data p |}).
      { unfold attached. rewrite PW_, PH, PB, PF, PCO, PT, PS, PP. f_equal. cbn in CT. destruct CT as [E|[E|[E|[]]]]; rewrite <- E; reflexivity. }
      rewrite EQ. set (sp := match PropPng.h_ct x with 0 => Gray | 3 => Palette (zlen pal / 3 - 1) pal | _ => RGB end).
      assert (NC : im_cs p <> DevCMYK) by (rewrite PC; clear - CT; cbn in CT; destruct CT as [E|[E|[E|[]]]]; rewrite <- E; discriminate).
      eexists. split.
      + refine (view_opaque inflate file es key (Z.of_nat ix + 1) (PropPng.h_w x) (PropPng.h_h x) (PropPng.h_bpc x) (im_cs p) (png_samples (PropPng.h_ct x)) k (objid ix (g_smasks t)) pal (objid ix (g_rgbs t)) (StreamModel.im_data p) raw rows sp
                  NC _ _ SI PR).
        * unfold sp. rewrite PC. cbn in CT. destruct CT as [E|[E|[E|[]]]]; rewrite <- E in *; [reflexivity|reflexivity|].
          assert (II : im_indexed im = true) by (apply PO2; exact PC). destruct (whole ix im N) as [_ WM]. specialize (WM II). destruct (nlookup ix (g_rgbs t)) as [m|] eqn:LU; [|congruence].
          pose proof (palette_read ix m im Plain p LU N PA) as SPAL. rewrite PP in SPAL. unfold space_of, objid. cbn [im_cs im_pal im_rgbObj]. rewrite LU. unfold N_, ref. unfold space_at.
          change (list_eqb (bs "Indexed") (bs "Indexed") && list_eqb (bs "DeviceRGB") (bs "DeviceRGB") && (0 =? 0)) with true. cbv iota. rewrite SPAL. reflexivity.
        * unfold sp. cbn in CT. destruct CT as [E|[E|[E|[]]]]; rewrite <- E; reflexivity.
      + unfold shows_png. cbn [v_w v_h v_bpc v_space v_rows v_key v_alpha]. split; [reflexivity|]. split; [reflexivity|]. split; [reflexivity|]. split.
        { unfold sp. cbn in CT. destruct CT as [E|[E|[E|[]]]]; rewrite <- E; reflexivity. }
        replace (4 <=? PropPng.h_ct x) with false by (clear - OQ; lia). split; [reflexivity|]. split; reflexivity.
  Qed.
End Pics.

(** Every soft mask and every palette belongs to one picture, so that [pic_written] asks one thing of it. *)
Lemma same_owner (l : list (nat * nat)) : NoDup (map snd l) -> forall a b m, nlookup a l = Some m -> nlookup b l = Some m -> a = b.
Proof.
  intros N a b m A B. apply nlookup_In in A, B. clear - N A B. induction l as [|[k v] l IH]; [destruct A|]. cbn [map snd] in N. apply NoDup_cons_iff in N as [N0 N].
  destruct A as [A|A], B as [B|B]; [congruence| | |now apply IH].
  - injection A as -> ->. destruct N0. apply in_map_iff. now exists (b, m).
  - injection B as -> ->. destruct N0. apply in_map_iff. now exists (a, m).
Qed.
Theorem C83_owners : forall c l, finishes (start c zero_gp) l -> let t := output (doc c l) in
  (forall a b m, nlookup a (g_smasks t) = Some m -> nlookup b (g_smasks t) = Some m -> a = b) /\
  (forall a b m, nlookup a (g_rgbs t) = Some m -> nlookup b (g_rgbs t) = Some m -> a = b).
Proof.
  intros c l F t. pose proof (PropName2.RGood_doc c l F) as G. change (output (exec (start c zero_gp) l)) with t in G. destruct (gd_own false t G) as [[N1 N2] _].
  split; now apply same_owner.
Qed.
Print Assumptions C83_owners.

(** What a drawing in the content shows a reader: every picture made from a PNG file is the picture of that file. *)
Definition pictured (inflate : bytes -> option bytes) (file : bytes) (pw : password) (page : pobj) (it : item) (x : shown) : Prop :=
  match it, x with
  | IImage i _, ShImage data => forall x crc1 ll crc2 k pal rows, data = PropPng.png_file x crc1 ll crc2 -> good_png x crc1 ll crc2 k pal -> png_rows inflate x ll = Some rows ->
      exists v, see inflate file pw page (bs "I" ++ fmt_d (Z.of_nat i + 1)) = Some v /\ shows_png x k pal rows v
  | IImage _ _, _ | _, ShImage _ => False
  | _, _ => True
  end.
Lemma pictures_of : forall aps c l zl inflate deflate slack parse box ren pr pw info objs,
  finishes (start c zero_gp) l -> ren [] = [] ->
  (forall d, inflate (zl d) = Some d) -> (forall d, inflate (deflate d) = Some d) -> inflate [] = None ->
  (forall x crc1 ll crc2 k pal, good_png x crc1 ll crc2 k pal -> let f := PropPng.png_file x crc1 ll crc2 in parse f = parsePng inflate deflate (slack f) f) ->
  (forall r, finite (fst (box r)) /\ finite (snd (box r))) -> (forall i, info = Some i -> bytes_info i) ->
  let s := doc c l in let t := output s in
  page_table t aps -> g_pagecount t = zlen (g_kids t) ->
  locked (cf_protect (g_cfg s)) pr pw -> List.length objs = List.length (g_objs t) ->
  (forall i o f, nth_error (g_objs t) i = Some o -> nth_error objs i = Some f ->
     written_doc zl pr box ren t i o (prog_bytes (f (Z.of_nat i + 1))) /\ pic_written parse zl pr t i o (prog_bytes (f (Z.of_nat i + 1)))) ->
  let file := compile_bytes objs {| tr_encrypt := if cf_protect (g_cfg s) then Some (g_encid t) else None; tr_info := option_map (fun i => [writeInfo i]) info |} in
  zlen file < 10 ^ 10 -> zlen objs < 2 ^ 24 ->
  exists ps, open_pages inflate file pw = Some ps /\
    Forall2 (fun pc ap => exists its, snd pc = ren its /\ Forall2 (pictured inflate file pw (fst pc)) its (ap_items ap)) ps aps.
Proof.
  intros aps c l zl inflate deflate slack parse box ren pr pw info objs F RN HZ HD HN HP HB HI s t PT CNT LK LEN WR file LF LO.
  assert (PW : forall i o txt, (written_doc zl pr box ren t i o txt /\ pic_written parse zl pr t i o txt) -> written_doc zl pr box ren t i o txt) by (intros i o txt [A _]; exact A).
  destruct (file_opened c l zl box ren pr pw info objs _ F HI LK LEN WR PW LF LO) as (es & tr & OP).
  destruct (pages_opened c l zl inflate box ren pr pw info objs _ F HZ HB HI LK LEN WR PW LF LO _ PT CNT RN) as (ps & E & FA). exists ps. split; [exact E|].
  eapply Forall2_impl; [|exact FA]. intros pc ap (_ & RF & its & B & SH & _). exists its. split; [exact B|].
  pose proof (fun ix gs => picture_seen c l zl inflate deflate parse box ren pr pw info objs F HD HN LK LEN WR es tr OP (fst pc) ix gs) as RES.
  assert (ALL : forall it x, show t it = Some x -> pictured inflate file pw (fst pc) it x).
  { intros it x SX. destruct it as [b|nm ty ph|ix gs|cn|fc tx gs]; cbn [show] in SX.
    - injection SX as <-. exact I.
    - injection SX as <-. exact I.
    - assert (EX : exists data, x = ShImage data) by (destruct (xobj_res t ix) as [[]|]; try discriminate SX; destruct use; try discriminate SX; injection SX as <-; eauto).
      destruct EX as (data & ->). cbn [pictured]. intros hx crc1 ll crc2 k pal rows -> GP PR. exact (RES ix gs _ _ hx crc1 ll crc2 k pal rows RF SX (HP _ _ _ _ _ _ GP) GP PR).
    - destruct (cs_res t (cn + 1)) as [[]|]; try discriminate SX. injection SX as <-. exact I.
    - destruct (font_res t fc) as [[]|]; try discriminate SX. injection SX as <-. exact I. }
  clear - ALL SH. revert SH. generalize (ap_items ap).
  induction its as [|it its IH]; intros [|x xs] SH; cbn [map] in SH; try discriminate SH; constructor; injection SH as S1 S2; [now apply ALL|now apply IH].
Qed.
(** C83: for every plain history, PNG files of every kind C37 covers, protected or not. *)
Theorem C83_pictures : forall c l zl inflate deflate slack box ren pr pw info objs,
  forallb plain_op l = true -> finishes (start c zero_gp) l -> ren [] = [] ->
  (forall d, inflate (zl d) = Some d) -> (forall d, inflate (deflate d) = Some d) -> inflate [] = None ->
  (forall r, finite (fst (box r)) /\ finite (snd (box r))) -> (forall i, info = Some i -> bytes_info i) ->
  let s := doc c l in let t := output s in
  locked (cf_protect (g_cfg s)) pr pw -> List.length objs = List.length (g_objs t) ->
  (forall i o f, nth_error (g_objs t) i = Some o -> nth_error objs i = Some f ->
     written_doc zl pr box ren t i o (prog_bytes (f (Z.of_nat i + 1))) /\ pic_written (fun d => parsePng inflate deflate (slack d) d) zl pr t i o (prog_bytes (f (Z.of_nat i + 1)))) ->
  let file := compile_bytes objs {| tr_encrypt := if cf_protect (g_cfg s) then Some (g_encid t) else None; tr_info := option_map (fun i => [writeInfo i]) info |} in
  zlen file < 10 ^ 10 -> zlen objs < 2 ^ 24 ->
  exists ps, open_pages inflate file pw = Some ps /\
    Forall2 (fun pc ap => exists its, snd pc = ren its /\ Forall2 (pictured inflate file pw (fst pc)) its (ap_items ap)) ps (a_pages (adoc_of c l)).
Proof.
  intros c l zl inflate deflate slack box ren pr pw info objs P F RN HZ HD HN HB HI s t LK LEN WR file LF LO. destruct (plain_table c l P) as [PT CNT].
  exact (pictures_of _ c l zl inflate deflate slack _ box ren pr pw info objs F RN HZ HD HN (fun _ _ _ _ _ _ _ => eq_refl) HB HI PT CNT LK LEN WR LF LO).
Qed.
Print Assumptions C83_pictures.
Theorem C83_with_setpage : forall c l zl inflate deflate slack box ren pr pw info objs,
  PropPages.paged PropSetPage.NoPage false l = true -> finishes (start c zero_gp) l -> ren [] = [] ->
  (forall d, inflate (zl d) = Some d) -> (forall d, inflate (deflate d) = Some d) -> inflate [] = None ->
  (forall r, finite (fst (box r)) /\ finite (snd (box r))) -> (forall i, info = Some i -> bytes_info i) ->
  let s := doc c l in let t := output s in
  locked (cf_protect (g_cfg s)) pr pw -> List.length objs = List.length (g_objs t) ->
  (forall i o f, nth_error (g_objs t) i = Some o -> nth_error objs i = Some f ->
     written_doc zl pr box ren t i o (prog_bytes (f (Z.of_nat i + 1))) /\ pic_written (fun d => parsePng inflate deflate (slack d) d) zl pr t i o (prog_bytes (f (Z.of_nat i + 1)))) ->
  let file := compile_bytes objs {| tr_encrypt := if cf_protect (g_cfg s) then Some (g_encid t) else None; tr_info := option_map (fun i => [writeInfo i]) info |} in
  zlen file < 10 ^ 10 -> zlen objs < 2 ^ 24 ->
  exists ps, open_pages inflate file pw = Some ps /\
    Forall2 (fun pc ap => exists its, snd pc = ren its /\ Forall2 (pictured inflate file pw (fst pc)) its (ap_items ap)) ps (a_pages (fst (PropPages.p_doc c l))).
Proof.
  intros c l zl inflate deflate slack box ren pr pw info objs P F RN HZ HD HN HB HI s t LK LEN WR file LF LO. destruct (PropPages2.paged_table c l P) as [PT CNT].
  exact (pictures_of _ c l zl inflate deflate slack _ box ren pr pw info objs F RN HZ HD HN (fun _ _ _ _ _ _ _ => eq_refl) HB HI PT CNT LK LEN WR LF LO).
Qed.
Print Assumptions C83_with_setpage.

(** ** A protected document with two pictures: one with an alpha channel, one with a palette and a transparent colour. *)
Definition hdrP : PropPng.header := {| PropPng.h_w := 3; PropPng.h_h := 2; PropPng.h_bpc := 4; PropPng.h_ct := 3 |}.
Definition palP : bytes := [255; 0; 0; 0; 255; 0; 0; 0; 255].
Definition chunksP : list PropPng.chunk := [PropPng.chunkS "PLTE" palP; PropPng.chunkS "tRNS" [255; 0; 128]; PropPng.chunkS "IDAT" (PropPng.store [0; 1; 32; 2; 16; 0])].
Definition crc0 : bytes := [0; 0; 0; 0].
Definition file22 : bytes := PropPng.png_file PropPng.hdr22 crc0 PropPng.chunks22 crc0.
Definition fileP : bytes := PropPng.png_file hdrP crc0 chunksP crc0.
Definition two_pictures : list op :=
  [AddPage None; Do (Draw true (bs "q Q ")); Do (Image (bs "a") (Build_imgdesc file22 true true false)); AddPage (Some small); Do (Image (bs "b") (Build_imgdesc fileP true false true)); Do (Image (bs "a") (Build_imgdesc file22 true true false))].
Definition state83 : gp := output (doc a4 two_pictures).
Definition owner (l : list (nat * nat)) (i : nat) : option nat := option_map fst (find (fun e => Nat.eqb (snd e) i) l).
Definition png83 (d : bytes) : option imginfo := match parsePng PropPng.unstore PropPng.store [] d with Res p => Some p | _ => None end.
Definition source83 (t : gp) (o : option nat) : option imginfo :=
  match o with Some ix => match nth_error (g_objs t) ix with Some (OImage im _) => png83 (DocModel.im_data im) | _ => None end | None => None end.
Definition text83 (pr : option protection) (t : gp) (i : nat) (o : obj) : bytes :=
  match o with
  | OContent l => sbody PropPng.store pr (Z.of_nat i + 1) (SContent (negb (g_compress t =? 0)) (flat_map demo_ren l))
  | OImage im Plain => match png83 (DocModel.im_data im) with Some p => sbody PropPng.store pr (Z.of_nat i + 1) (SImage (attached p (objid i (g_smasks t)) (objid i (g_rgbs t))) false false) | None => [] end
  | OSMaskImg => match source83 t (owner (g_smasks t) i) with Some p => sbody PropPng.store pr (Z.of_nat i + 1) (SSMask (im_w p) (im_h p) (im_filter p) (im_smask p)) | None => [] end
  | ODeviceRGB => match source83 t (owner (g_rgbs t) i) with Some p => sbody PropPng.store pr (Z.of_nat i + 1) (SDeviceRGB (im_pal p)) | None => [] end
  | _ => demo_text pr t i o
  end.
Definition objs83 (pr : option protection) (t : gp) : list (Z -> wprog) := map (fun '(i, o) => fun _ : Z => FileModel.chunks [text83 pr t i o]) (combine (seq 0 (List.length (g_objs t))) (g_objs t)).
Lemma owner_ok l ix m : NoDup (map snd l) -> nlookup ix l = Some m -> owner l m = Some ix.
Proof.
  intros N H. apply nlookup_In in H. unfold owner. induction l as [|[k v] l IH]; [destruct H|]. cbn [map snd] in N. apply NoDup_cons_iff in N as [N0 N]. cbn [find snd].
  destruct (Nat.eqb_spec v m) as [->|NE].
  - destruct H as [H|H]; [injection H as ->; reflexivity|]. destruct N0. apply in_map_iff. now exists (ix, m).
  - destruct H as [H|H]; [congruence|]. now apply IH.
Qed.
Definition picture_of_b (im : imgdesc) (p : imginfo) : bool :=
  Bool.eqb (is_empty (im_smask p)) (negb (im_alpha im)) && Bool.eqb (match im_cs p with Indexed => true | _ => false end) (im_indexed im).
Lemma picture_of_ok im p : picture_of_b im p = true -> picture_of im p.
Proof.
  intros H. apply andb_true_iff in H as [A B]. apply Bool.eqb_prop in A, B. split; [exact A|]. rewrite <- B. destruct (im_cs p); split; (discriminate || reflexivity).
Qed.
Definition all_pictures (t : gp) : bool :=
  forallb (fun o => match o with OImage im _ => match png83 (DocModel.im_data im) with Some p => picture_of_b im p | None => true end | _ => true end) (g_objs t).
Lemma text83_ok pr t : (pr = None -> ~ In OEncryption (g_objs t)) -> forallb nice_obj (g_objs t) = true -> all_pictures t = true -> NoDup (map snd (g_smasks t)) -> NoDup (map snd (g_rgbs t)) ->
  forall i o f, nth_error (g_objs t) i = Some o -> nth_error (objs83 pr t) i = Some f ->
  written_doc PropPng.store pr demo_box (flat_map demo_ren) t i o (prog_bytes (f (Z.of_nat i + 1))) /\
  pic_written (parsePng PropPng.unstore PropPng.store []) PropPng.store pr t i o (prog_bytes (f (Z.of_nat i + 1))).
Proof.
  intros HE HN HP N1 N2 i o f N NF. unfold objs83 in NF. rewrite nth_error_map, nth_combine, N in NF. cbn [option_map] in NF. injection NF as <-.
  match goal with |- written_doc ?a ?b ?c ?d ?e ?f ?g _ /\ pic_written ?a' ?b' ?c' ?d' ?e' ?f' _ =>
    change (written_doc a b c d e f g (prog_bytes (FileModel.chunks [text83 pr t i o])) /\ pic_written a' b' c' d' e' f' (prog_bytes (FileModel.chunks [text83 pr t i o]))) end.
  rewrite prog_bytes_chunks. cbn [List.concat]. rewrite app_nil_r.
  pose proof (demo_writes pr t HE HN i o (fun _ => FileModel.chunks [demo_text pr t i o]) N) as DW.
  assert (ND : nth_error (demo_objs pr t) i = Some (fun _ => FileModel.chunks [demo_text pr t i o])) by (unfold demo_objs; rewrite nth_error_map, nth_combine, N; reflexivity).
  specialize (DW ND). cbv beta in DW. rewrite prog_bytes_chunks in DW. cbn [List.concat] in DW. rewrite app_nil_r in DW. clear ND.
  unfold all_pictures in HP. rewrite forallb_forall in HP.
  assert (PG : forall im p, parsePng PropPng.unstore PropPng.store [] (DocModel.im_data im) = Res p -> png83 (DocModel.im_data im) = Some p) by (intros im p E; unfold png83; rewrite E; reflexivity).
  split.
  - destruct o; try exact (written_doc_of _ _ _ _ _ _ _ _ DW); try exact I. reflexivity.
  - destruct o; try exact I.
    + destruct use; try exact I. cbn [pic_written text83]. intros p E. rewrite (PG im p E). split; [|reflexivity]. apply picture_of_ok. specialize (HP _ (nth_error_In _ _ N)). cbn beta iota in HP. rewrite (PG im p E) in HP. exact HP.
    + cbn [pic_written text83]. intros ix im use p L NI E. rewrite (owner_ok _ ix i N1 L). unfold source83. rewrite NI, (PG im p E). reflexivity.
    + cbn [pic_written text83]. intros ix im use p L NI E. rewrite (owner_ok _ ix i N2 L). unfold source83. rewrite NI, (PG im p E). reflexivity.
Qed.
Definition file83 : bytes := compile_bytes (objs83 open_key state83) {| tr_encrypt := Some (g_encid state83); tr_info := option_map (fun i => [writeInfo i]) None |}.
Example C83_met : exists pr, open_key = Some pr /\ forallb plain_op two_pictures = true /\ finishes (start a4 zero_gp) two_pictures /\
  locked (cf_protect (g_cfg (doc a4 two_pictures))) (Some pr) (User (bs "secret")) /\ List.length (objs83 (Some pr) state83) = List.length (g_objs state83) /\
  (forall i o f, nth_error (g_objs state83) i = Some o -> nth_error (objs83 (Some pr) state83) i = Some f ->
     written_doc PropPng.store (Some pr) demo_box (flat_map demo_ren) state83 i o (prog_bytes (f (Z.of_nat i + 1))) /\
     pic_written (parsePng PropPng.unstore PropPng.store []) PropPng.store (Some pr) state83 i o (prog_bytes (f (Z.of_nat i + 1)))) /\
  zlen file83 < 10 ^ 10.
Proof.
  assert (X : match open_key with Some _ => true | None => false end = true) by (vm_cast_no_check (eq_refl true)).
  destruct open_key as [pr|] eqn:E; [clear X|discriminate X]. exists pr. split; [reflexivity|]. split; [vm_compute; reflexivity|].
  assert (FI : finishes (start a4 zero_gp) two_pictures) by (apply finishesb_ok; vm_compute; reflexivity). split; [exact FI|].
  split; [unfold locked; replace (cf_protect (g_cfg (doc a4 two_pictures))) with true by (vm_compute; reflexivity); split; [reflexivity|]; exists (bs "0123456789abcdefghijklmnopqrstuv"), 4, (bs "secret"), []; split; [lia|]; split; [exact E|left; reflexivity]|].
  split; [unfold objs83; rewrite map_length, combine_length, seq_length; apply Nat.min_id|]. split; [|vm_compute; reflexivity].
  clear E. pose proof (gd_own false _ (PropName2.RGood_doc a4 two_pictures FI)) as [[N1 N2] _].
  refine (text83_ok (Some pr) state83 _ _ _ N1 N2); [intros X; discriminate X|vm_compute; reflexivity|vm_compute; reflexivity].
Qed.
Example C83_files_good : good_png PropPng.hdr22 crc0 PropPng.chunks22 crc0 [] [] /\ good_png hdrP crc0 chunksP crc0 [1] palP /\
  png_rows PropPng.unstore PropPng.hdr22 PropPng.chunks22 = Some [[10; 20; 30; 255; 11; 22; 33; 199]; [4; 25; 35; 0; 13; 33; 42; 100]] /\ png_rows PropPng.unstore hdrP chunksP = Some [[1; 32]; [17; 32]].
Proof.
  destruct PropPng.C37_hypotheses as (A & B & C & D & E & _).
  split; [repeat (split; [first [assumption|reflexivity]|]); assumption|]. split; [|split; vm_compute; reflexivity].
  split. { split; [cbn; lia|split; [cbn; lia|]]. right; left. cbn. auto 6. }
  split; [reflexivity|]. split; [reflexivity|]. split. { repeat constructor; cbn; try lia; discriminate. }
  split. { repeat constructor; discriminate. }
  split. { right. exists [255; 0; 128]. split; [reflexivity|]. exists 1%nat. split; [lia|]. split; [reflexivity|]. left. split; reflexivity. }
  split; [right; reflexivity|]. intros _. vm_compute. reflexivity.
Qed.
(** What the reader sees, from the bytes: both pictures as they are. *)
Example C83_seen :
  option_map (map (fun pc => (snd pc, see PropPng.unstore file83 (User (bs "secret")) (fst pc) (bs "I7"), see PropPng.unstore file83 (User (bs "secret")) (fst pc) (bs "I10"))))
    (open_pages PropPng.unstore file83 (User (bs "secret"))) =
  let alpha := {| v_w := 2; v_h := 2; v_bpc := 8; v_space := RGB; v_rows := [[10; 20; 30; 11; 22; 33]; [4; 25; 35; 13; 33; 42]]; v_key := []; v_alpha := Some [[255; 199]; [0; 100]] |} in
  let palette := {| v_w := 3; v_h := 2; v_bpc := 4; v_space := Palette 2 palP; v_rows := [[1; 32]; [17; 32]]; v_key := [1; 1]; v_alpha := None |} in
  Some [(bs "q Q /I7 Do ", Some alpha, Some palette); (bs "/I10 Do /I7 Do ", Some alpha, Some palette)].
Proof. vm_compute. reflexivity. Qed.
