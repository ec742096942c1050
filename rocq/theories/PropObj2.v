(** PropObj2.v — C60 continued: links, colour spaces, the encryption dictionary, the trailer, and every stream. *)
From Coq Require Import QArith.
From Verif Require Import Base StrSpec StrModel NumModel NumRead DrawSpec DrawLex PropStr PaintNum SecModel FileModel StreamModel PropStream PdfSyntax PdfRead ObjModel PropObj.
Open Scope Z_scope.

(** ** Links *)
Theorem C60_internal_link : forall x y w h page ay, finite x -> finite y -> finite (add64 x w) -> finite (sub64 y h) -> finite ay ->
  reads_as (internal_body x y w h (Some (page, ay)))
    (ODict [(bs "Type", N_ "Annot"); (bs "Subtype", N_ "Link"); (bs "Rect", OArr [r2 x; r2 y; r2 (add64 x w); r2 (sub64 y h)]);
            (bs "Border", OArr [OInt 0; OInt 0; OInt 0]); (bs "Dest", OArr [ref (page + 1); N_ "XYZ"; OInt 0; r2 ay; OKey (bs "null")])]).
Proof.
  intros x y w h page ay F1 F2 F3 F4 F5. unfold internal_body, rect_text. hidereal. hide. whole.
Qed.
Print Assumptions C60_internal_link.
(** A link to a name no anchor was set for is written as an object without contents. *)
Theorem C60_unknown_anchor_refuted : forall x y w h, read_object (internal_body x y w h None) = None.
Proof. reflexivity. Qed.
(** A link to a web address; the address is encrypted in a protected file. *)
Theorem C60_external_link : forall zl pr n x y w h url, finite x -> finite y -> finite (add64 x w) -> finite (sub64 y h) ->
  reads_as (sbody zl pr n (SAnnotURL (rect_text x y w h) url))
    (ODict [(bs "Type", N_ "Annot"); (bs "Subtype", N_ "Link"); (bs "Rect", OArr [r2 x; r2 y; r2 (add64 x w); r2 (sub64 y h)]);
            (bs "Border", OArr [OInt 0; OInt 0; OInt 0]); (bs "A", ODict [(bs "S", N_ "URI"); (bs "URI", OStr (enc pr n url))])]).
Proof.
  intros zl pr n x y w h url F1 F2 F3 F4. unfold sbody, rect_text. cbn [plain]. hidereal. generalize (enc pr n url). intros u.
  whole.
Qed.
Print Assumptions C60_external_link.

(** ** Colour spaces *)
Definition cspace (name : bytes) (space : string) (zeros comps : list pobj) : pobj :=
  OArr [N_ "Separation"; OName name; N_ space;
        ODict [(bs "FunctionType", OInt 2); (bs "Domain", OArr [OInt 0; OInt 1]); (bs "C0", OArr zeros); (bs "C1", OArr comps); (bs "N", OInt 1)]].
Definition zero_real : pobj := OReal (bs "0.0").
Ltac arr := apply (reads_app _ _ [10]); [flat; repeat piece; reflexivity|reflexivity].
Definition byte_check (d : Z) : bool := forallb (fun r => match f64_val (div64 r d) with Some _ => true | None => false end) (map Z.of_nat (seq 0 256)).
Lemma bytes_finite d : byte_check d = true -> forall r, 0 <= r <= 255 -> finite (div64 r d).
Proof.
  intros H r R. unfold byte_check in H. rewrite forallb_forall in H. specialize (H r). unfold finite. intros E. rewrite E in H. assert (X : false = true); [apply H|discriminate].
  apply in_map_iff. exists (Z.to_nat r). split; [lia|]. apply in_seq. lia.
Qed.
Theorem C60_rgb_space : forall name r g b, plain_name name = true -> 0 <= r <= 255 -> 0 <= g <= 255 -> 0 <= b <= 255 ->
  reads_as (colorspace_rgb name r g b) (cspace name "DeviceRGB" [zero_real; zero_real; zero_real] [r3 (div64 r 255); r3 (div64 g 255); r3 (div64 b 255)]).
Proof.
  intros name r g b P H1 H2 H3. assert (B : byte_check 255 = true) by (vm_compute; reflexivity).
  assert (F1 := bytes_finite 255 B r H1). assert (F2 := bytes_finite 255 B g H2). assert (F3 := bytes_finite 255 B b H3). clear B H1 H2 H3.
  unfold colorspace_rgb, colorspace_body. cbn [map join]. hidereal. arr.
Qed.
Print Assumptions C60_rgb_space.
Theorem C60_cmyk_space : forall name c m y k, plain_name name = true -> 0 <= c <= 255 -> 0 <= m <= 255 -> 0 <= y <= 255 -> 0 <= k <= 255 ->
  reads_as (colorspace_cmyk name c m y k)
    (cspace name "DeviceCMYK" [zero_real; zero_real; zero_real; zero_real] [r3 (div64 c 100); r3 (div64 m 100); r3 (div64 y 100); r3 (div64 k 100)]).
Proof.
  intros name c m y k P H1 H2 H3 H4. assert (B : byte_check 100 = true) by (vm_compute; reflexivity).
  assert (F1 := bytes_finite 100 B c H1). assert (F2 := bytes_finite 100 B m H2). assert (F3 := bytes_finite 100 B y H3). assert (F4 := bytes_finite 100 B k H4). clear B H1 H2 H3 H4.
  unfold colorspace_cmyk, colorspace_body. cbn [map join]. hidereal. arr.
Qed.
Print Assumptions C60_cmyk_space.
(** Missing: the name of a colour space is written as it was given.  With a space in it the object cannot be read. *)
Theorem C60_space_name_refuted : exists name r g b, 0 <= r <= 255 /\ 0 <= g <= 255 /\ 0 <= b <= 255 /\ read_object (colorspace_rgb name r g b) = None.
Proof. exists (bs "deep blue"), 0, 0, 255. repeat (split; [lia|]). vm_compute. reflexivity. Qed.
Print Assumptions C60_space_name_refuted.

(** ** The encryption dictionary *)
Theorem C60_encryption : forall p, reads_as (encryption_body p)
  (ODict [(bs "Filter", N_ "Standard"); (bs "V", OInt 1); (bs "R", OInt 2); (bs "O", OStr (p_o p)); (bs "U", OStr (p_u p)); (bs "P", OInt (p_p p))]).
Proof. intros p. unfold encryption_body. whole. Qed.
Print Assumptions C60_encryption.

(** ** Streams *)
Lemma reads_stream l es rest pre post data : pread (RI []) l = PDone (ODict es) rest -> rest = pre ++ bs "stream" ++ [10] ++ data ++ post ++ bs "endstream" ++ [10] ->
  forallb is_white pre = true -> forallb is_white post = true -> reads_as_stream l (ODict es) data.
Proof. intros E R A B. exists pre, post, rest. unfold read_object. rewrite E. auto. Qed.
Lemma stream_dict l es pre post data : pread (RI []) l = PDone (ODict es) (pre ++ bs "stream" ++ [10] ++ data ++ post ++ bs "endstream" ++ [10]) ->
  forallb is_white pre = true -> forallb is_white post = true -> reads_as_stream l (ODict es) data.
Proof. intros E A B. exact (reads_stream l es _ pre post data E eq_refl A B). Qed.
Definition flate (c : bool) : list (bytes * pobj) := if c then [(bs "Filter", N_ "FlateDecode")] else [].
(** close the dictionary with the rest of the stream after it *)
Ltac wholes p := apply (stream_dict _ _ [10] p); [flat; repeat piece; apply read_finish; samestack|reflexivity|reflexivity].
Theorem C60_content : forall zl pr n (c : bool) d, let data := if c then zl d else d in
  reads_as_stream (sbody zl pr n (SContent c d)) (ODict (flate c ++ [(bs "Length", OInt (zlen data))])) (enc pr n data).
Proof.
  intros zl pr n c d data. unfold sbody. cbn [plain]. fold data. generalize (enc pr n data). intros e. generalize (zlen data). intros z. clear data.
  destruct c, pr; cbn [flate app].
  - wholes [10].
  - wholes [10].
  - wholes [10].
  - wholes (@nil Z).
Qed.
Print Assumptions C60_content.

(** Palettes, fonts and maps. *)
Theorem C60_palette : forall zl pr n d, reads_as_stream (sbody zl pr n (SDeviceRGB d)) (ODict [(bs "Length", OInt (zlen d))]) (enc pr n d).
Proof. intros zl pr n d. unfold sbody. cbn [plain]. generalize (enc pr n d). intros e. generalize (zlen d). intros z. destruct pr; cbn [enl]; [wholes [10]|wholes (@nil Z)]. Qed.
Print Assumptions C60_palette.
Theorem C60_fontfile : forall zl pr n f,
  reads_as_stream (sbody zl pr n (SFontFile f)) (ODict [(bs "Length", OInt (zlen (zl f))); (bs "Filter", N_ "FlateDecode"); (bs "Length1", OInt (zlen f))]) (enc pr n (zl f)).
Proof. intros zl pr n f. unfold sbody. cbn [plain]. generalize (enc pr n (zl f)). intros e. generalize (zlen (zl f)) (zlen f). intros z z'. wholes [10]. Qed.
Print Assumptions C60_fontfile.
Theorem C60_embedfont : forall zl pr n d size,
  reads_as_stream (sbody zl pr n (SEmbedFont d size)) (ODict [(bs "Length", OInt (zlen d)); (bs "Filter", N_ "FlateDecode"); (bs "Length1", OInt size)]) (enc pr n d).
Proof. intros zl pr n d size. unfold sbody. cbn [plain]. generalize (enc pr n d). intros e. generalize (zlen d). intros z. destruct pr; cbn [enl]; [wholes [10; 10]|wholes [10]]. Qed.
Print Assumptions C60_embedfont.
Theorem C60_tounicode : forall zl pr n m,
  reads_as_stream (sbody zl pr n (SUnicode m)) (ODict [(bs "Length", OInt (zlen (cmap_text m)))]) (enc pr n (cmap_text m)).
Proof. intros zl pr n m. unfold sbody. cbn [plain]. generalize (enc pr n (cmap_text m)). intros e. generalize (zlen (cmap_text m)). intros z. wholes (@nil Z). Qed.
Print Assumptions C60_tounicode.

(** Pictures.  What an image dictionary has to say about the picture the parser delivered. *)
Definition space_of (i : imginfo) (cs : colspace) : pobj :=
  match im_cs i with
  | Indexed => OArr [N_ "Indexed"; N_ "DeviceRGB"; OInt (zlen (im_pal i) / 3 - 1); ref (im_rgbObj i + 1)]
  | _ => match cs with DevRGB => N_ "DeviceRGB" | DevGray => N_ "DeviceGray" | DevCMYK => N_ "DeviceCMYK" | Indexed => N_ "Indexed" end
  end.
Definition cmyk_decode (i : imginfo) : list (bytes * pobj) :=
  match im_cs i with DevCMYK => [(bs "Decode", OArr [OInt 1; OInt 0; OInt 1; OInt 0; OInt 1; OInt 0; OInt 1; OInt 0])] | _ => [] end.
Definition filter_of (f : filt) : list (bytes * pobj) :=
  match f with FNone => [] | FFlate => [(bs "Filter", N_ "FlateDecode")] | FDCT => [(bs "Filter", N_ "DCTDecode")] end.
Definition predictor (colours bpc columns : Z) : list (bytes * pobj) :=
  [(bs "DecodeParms", ODict [(bs "Predictor", OInt 15); (bs "Colors", OInt colours); (bs "BitsPerComponent", OInt bpc); (bs "Columns", OInt columns)])].
Definition picture (i : imginfo) (cs : colspace) : list (bytes * pobj) :=
  [(bs "Type", N_ "XObject"); (bs "Subtype", N_ "Image"); (bs "Width", OInt (im_w i)); (bs "Height", OInt (im_h i)); (bs "ColorSpace", space_of i cs)]
  ++ cmyk_decode i ++ [(bs "BitsPerComponent", OInt (im_bpc i))] ++ filter_of (im_filter i).
Ltac flats := flat; repeat (progress (rewrite <- ?app_assoc, ?cons_app; cbn [app])).
Ltac steps := flats; repeat piece.
Lemma base_block i cs : exists t, baseImgProps i cs = bs "<<" ++ t /\ block t (picture i cs).
Proof.
  unfold baseImgProps. eexists. split; [reflexivity|]. unfold picture.
  match goal with |- block (_ ++ _ ++ _ ++ _ ++ _ ++ _ ++ _ ++ _ ++ _ ++ _ ++ _ ++ ?a ++ _ ++ _ ++ _ ++ ?b) _ =>
    assert (BA : block a ([(bs "ColorSpace", space_of i cs)] ++ cmyk_decode i)); [|assert (BB : block b (filter_of (im_filter i)))] end.
  - unfold space_of, cmyk_decode. destruct (im_cs i); try (destruct cs); cbn [cs_text app]; hide; intros stk r; steps; samestack.
  - unfold filter_of. destruct (im_filter i); intros stk r; steps; samestack.
  - match goal with |- block (_ ++ _ ++ _ ++ _ ++ _ ++ _ ++ _ ++ _ ++ _ ++ _ ++ _ ++ ?a ++ _ ++ _ ++ _ ++ ?b) _ => generalize dependent a; generalize dependent b end.
    intros t2 B2 t1 B1. generalize dependent (filter_of (im_filter i)). generalize dependent (cmyk_decode i). generalize dependent (space_of i cs). intros sp d B1 f B2. hide.
    intros stk r. steps. samestack.
Qed.
Lemma trns_elems t : elems (trns_text t) (flat_map (fun x => [OInt x; OInt x]) t).
Proof.
  induction t as [|x t IH]; intros stk r; [reflexivity|]. unfold trns_text in *. cbn [flat_map]. steps. rewrite IH. cbn [app]. rewrite !pusha_cons. reflexivity.
Qed.
Definition colour_mask (t : list Z) : list (bytes * pobj) := match t with [] => [] | _ => [(bs "Mask", OArr (flat_map (fun x => [OInt x; OInt x]) t))] end.
Definition soft_mask (i : imginfo) : list (bytes * pobj) := match im_smask i with [] => [] | _ => [(bs "SMask", ref (im_smaskObj i + 1))] end.
Definition parms (i : imginfo) : list (bytes * pobj) := match im_colors i with Some c => predictor c (im_bpc i) (im_w i) | None => [] end.
Lemma imgprops_block i sp : exists t, imgProps i sp = bs "<<" ++ t /\
  block t (picture i (im_cs i) ++ parms i ++ (if sp then [] else colour_mask (im_trns i) ++ soft_mask i)).
Proof.
  unfold imgProps. destruct (base_block i (im_cs i)) as (t0 & -> & B0).
  match goal with |- context[(bs "<<" ++ t0) ++ ?a ++ ?b] =>
    assert (BA : block a (parms i)); [unfold parms, predictor; destruct (im_colors i); [hide; intros stk r; steps; samestack|apply block_nil]|];
    assert (BB : block b (if sp then [] else colour_mask (im_trns i) ++ soft_mask i)); [|exists (t0 ++ a ++ b); split; [now rewrite <- app_assoc|]]
  end.
  - destruct sp; [apply block_nil|].
    match goal with |- block (?a ++ ?b) _ =>
      assert (B1 : block a (colour_mask (im_trns i))); [|assert (B2 : block b (soft_mask i))] end.
    + unfold colour_mask. destruct (im_trns i) as [|x t]; [apply block_nil|]. pose proof (trns_elems (x :: t)) as HK. generalize dependent (flat_map (fun x => [OInt x; OInt x]) (x :: t)).
      generalize (trns_text (x :: t)). intros tt m HK stk r. steps. samestack.
    + unfold soft_mask. destruct (im_smask i) as [|x t]; cbn [is_empty]; [apply block_nil|]. hide. intros stk r. steps. samestack.
    + intros stk r. rewrite <- app_assoc, B1, B2. now rewrite pushes_app.
  - intros stk r. rewrite <- !app_assoc, B0, BA, BB. now rewrite !pushes_app, <- ?app_assoc.
Qed.
Theorem C60_image : forall zl pr n i split,
  reads_as_stream (sbody zl pr n (SImage i false split))
    (ODict (picture i (im_cs i) ++ parms i ++ (if split then [] else colour_mask (im_trns i) ++ soft_mask i) ++ [(bs "Length", OInt (zlen (im_data i)))]))
    (enc pr n (im_data i)).
Proof.
  intros zl pr n i sp. unfold sbody. cbn [plain]. destruct (imgprops_block i sp) as (t & -> & B).
  replace (picture i (im_cs i) ++ parms i ++ (if sp then [] else colour_mask (im_trns i) ++ soft_mask i) ++ [(bs "Length", OInt (zlen (im_data i)))])
    with ((picture i (im_cs i) ++ parms i ++ (if sp then [] else colour_mask (im_trns i) ++ soft_mask i)) ++ [(bs "Length", OInt (zlen (im_data i)))]) by now rewrite <- !app_assoc.
  generalize dependent (picture i (im_cs i) ++ parms i ++ (if sp then [] else colour_mask (im_trns i) ++ soft_mask i)). intros es B.
  generalize (enc pr n (im_data i)). intros e. generalize (zlen (im_data i)). intros z. destruct pr; cbn [enl]; [wholes [10; 10]|wholes [10]].
Qed.
Print Assumptions C60_image.
(** A picture used as a mask: its transparency data, as a gray picture of the same size. *)
Theorem C60_mask_image : forall zl pr n i split,
  reads_as_stream (sbody zl pr n (SImage i true split)) (ODict (picture i DevGray ++ predictor 1 8 (im_w i) ++ [(bs "Length", OInt (zlen (im_smask i)))])) (enc pr n (im_smask i)).
Proof.
  intros zl pr n i sp. unfold sbody, maskImgProps. cbn [plain]. destruct (base_block i DevGray) as (t & -> & B). unfold predictor.
  generalize dependent (picture i DevGray). intros es B. hide.
  generalize (enc pr n (im_smask i)). intros e. destruct pr; cbn [enl]; [wholes [10; 10]|wholes [10]].
Qed.
Print Assumptions C60_mask_image.
(** … which is a gray picture with eight bits per pixel if the picture it comes from is neither indexed nor CMYK and has eight bits. *)
Definition gray (w h : Z) (f : filt) (len : Z) : pobj :=
  ODict ([(bs "Type", N_ "XObject"); (bs "Subtype", N_ "Image"); (bs "Width", OInt w); (bs "Height", OInt h); (bs "ColorSpace", N_ "DeviceGray");
          (bs "BitsPerComponent", OInt 8)] ++ filter_of f ++ predictor 1 8 w ++ [(bs "Length", OInt len)]).
Theorem C60_mask_image_gray_partial : forall zl pr n i split, im_cs i = DevRGB \/ im_cs i = DevGray -> im_bpc i = 8 ->
  reads_as_stream (sbody zl pr n (SImage i true split)) (gray (im_w i) (im_h i) (im_filter i) (zlen (im_smask i))) (enc pr n (im_smask i)).
Proof.
  intros zl pr n i sp C B. pose proof (C60_mask_image zl pr n i sp) as H. unfold picture, space_of, cmyk_decode in H. rewrite B in H. unfold gray.
  destruct C as [C|C]; rewrite C in H; cbn [app] in H; rewrite <- ?app_assoc in H; exact H.
Qed.
Print Assumptions C60_mask_image_gray_partial.
(** Missing: a mask made from an indexed picture is written with the picture's palette as its colour space; a soft mask must be gray. *)
Theorem C60_indexed_mask_refuted : forall zl pr n i split, im_cs i = Indexed -> exists d data, reads_as_stream (sbody zl pr n (SImage i true split)) (ODict d) data /\
  entry "ColorSpace" d = [OArr [N_ "Indexed"; N_ "DeviceRGB"; OInt (zlen (im_pal i) / 3 - 1); ref (im_rgbObj i + 1)]].
Proof.
  intros zl pr n i sp C. do 2 eexists. split; [apply C60_mask_image|]. unfold picture, space_of, cmyk_decode. rewrite C. destruct (im_filter i); reflexivity.
Qed.
Print Assumptions C60_indexed_mask_refuted.
(** The soft mask that goes with a picture: gray, eight bits, the size and filter of the picture. *)
Theorem C60_smask : forall zl pr n w h f d, reads_as_stream (sbody zl pr n (SSMask w h f d)) (gray w h f (zlen d)) (enc pr n d).
Proof.
  intros zl pr n w h f d. unfold sbody, smaskProps. cbn [plain]. match goal with |- context[baseImgProps ?i ?c] => destruct (base_block i c) as (t & -> & B) end.
  unfold picture, space_of, cmyk_decode in B. cbn [im_w im_h im_cs im_bpc im_filter app] in B. unfold gray, predictor.
  replace ([(bs "Type", N_ "XObject"); (bs "Subtype", N_ "Image"); (bs "Width", OInt w); (bs "Height", OInt h); (bs "ColorSpace", N_ "DeviceGray"); (bs "BitsPerComponent", OInt 8)] ++ filter_of f ++
     [(bs "DecodeParms", ODict [(bs "Predictor", OInt 15); (bs "Colors", OInt 1); (bs "BitsPerComponent", OInt 8); (bs "Columns", OInt w)])] ++ [(bs "Length", OInt (zlen d))])
   with (((bs "Type", N_ "XObject") :: (bs "Subtype", N_ "Image") :: (bs "Width", OInt w) :: (bs "Height", OInt h) :: (bs "ColorSpace", N_ "DeviceGray") :: (bs "BitsPerComponent", OInt 8) :: filter_of f) ++
     [(bs "DecodeParms", ODict [(bs "Predictor", OInt 15); (bs "Colors", OInt 1); (bs "BitsPerComponent", OInt 8); (bs "Columns", OInt w)]); (bs "Length", OInt (zlen d))]) by reflexivity.
  match type of B with block t ?es => generalize dependent es end. intros es B. hide. generalize (enc pr n d). intros e. destruct pr; cbn [enl]; [wholes [10; 10]|wholes [10]].
Qed.
Print Assumptions C60_smask.
(** A transparency group: a form drawn in gray, its box as given. *)
Theorem C60_group : forall zl pr n x0 y0 x1 y1 d, finite x0 -> finite y0 -> finite x1 -> finite y1 ->
  reads_as_stream (sbody zl pr n (SGroup (f3 x0, f3 y0, f3 x1, f3 y1) d))
    (ODict [(bs "FormType", OInt 1); (bs "Subtype", N_ "Form"); (bs "Type", N_ "XObject"); (bs "Matrix", OArr [OInt 1; OInt 0; OInt 0; OInt 1; OInt 0; OInt 0]);
            (bs "BBox", OArr [r3 x0; r3 y0; r3 x1; r3 y1]); (bs "Group", ODict [(bs "CS", N_ "DeviceGray"); (bs "S", N_ "Transparency")]); (bs "Length", OInt (zlen d))]) d.
Proof.
  intros zl pr n x0 y0 x1 y1 d F1 F2 F3 F4. unfold sbody. cbn [plain]. hidereal. generalize (zlen d). intros z. wholes (@nil Z).
Qed.
Print Assumptions C60_group.
Print Assumptions C60_unknown_anchor_refuted.
