(** RefModel.v — C61: the objects of a document (DocModel.v) as the bytes their write methods produce (ObjModel.v,
    StreamModel.v), with the numbers the document holds; and what kind of object each reference has to lead to. *)
From Coq Require Import QArith.
From Verif Require Import Base NumModel StrModel StrSpec DocModel DocSpec SecModel FileModel StreamModel PdfSyntax PdfRead ObjModel PropObj PropObj2.
Open Scope Z_scope.

(** ** Specification *)
Inductive kind := KCatalog | KPages | KOutlines | KResources | KPage | KContent | KImported | KAnnot | KOutline | KToUnicode | KFontFile
| KDescriptor | KCIDFont | KFont | KImage | KSoftMaskImage | KPalette | KGroup | KMask | KGState | KColorSpace | KEncryption.
Definition kind_of (o : obj) : kind :=
  match o with
  | OCatalog => KCatalog | OPages => KPages | OOutlines => KOutlines | OProcSet => KResources | OPage _ => KPage | OContent _ => KContent
  | OImported _ => KImported | OAnnot _ => KAnnot | OOutline _ => KOutline | OUnicodeMap => KToUnicode | OPdfDict => KFontFile
  | OSubDesc _ => KDescriptor | OCIDFont _ => KCIDFont | OSubsetFont _ => KFont | OImage _ _ => KImage | OSMaskImg => KSoftMaskImage
  | ODeviceRGB => KPalette | OXGroup _ => KGroup | OMask _ => KMask | OExtGState _ => KGState | OColorSpace _ _ => KColorSpace | OEncryption => KEncryption
  end.
(** Which kind of object a reference under a key has to name (ISO 32000-1: 7.7.2 catalog, 7.7.3 page tree, 7.8.3 resources,
    8.4.5 graphics states, 8.9.5 images, 8.6.6.3 indexed colour, 9.6-9.8 fonts, 11.5.2 soft masks, 12.3.3 outlines, 12.5 annotations). *)
Definition wants : list (kind * string * list kind) := [
  (KCatalog, "Pages", [KPages]); (KCatalog, "Outlines", [KOutlines]);
  (KPages, "Kids", [KPage]);
  (KPage, "Parent", [KPages]); (KPage, "Resources", [KResources]); (KPage, "Annots", [KAnnot]); (KPage, "Contents", [KContent]);
  (KResources, "Font", [KFont]); (KResources, "ColorSpace", [KColorSpace]); (KResources, "XObject", [KImage; KImported]); (KResources, "ExtGState", [KGState]);
  (KFont, "DescendantFonts", [KCIDFont]); (KFont, "ToUnicode", [KToUnicode]); (KCIDFont, "FontDescriptor", [KDescriptor]); (KDescriptor, "FontFile2", [KFontFile]);
  (KImage, "SMask", [KSoftMaskImage]); (KImage, "ColorSpace", [KPalette]);
  (KGState, "SMask", [KMask]); (KMask, "G", [KGroup]);
  (KOutlines, "First", [KOutline]); (KOutlines, "Last", [KOutline]);
  (KOutline, "Prev", [KOutline]); (KOutline, "Next", [KOutline]);
  (KOutline, "First", [KOutline]); (KOutline, "Last", [KOutline]); (KOutline, "Dest", [KPage]); (KAnnot, "Dest", [KPage])]%string.
(** All references in a value, with the key of the outermost dictionary under which they stand. *)
Fixpoint refs_in (o : pobj) : list (Z * Z) :=
  match o with
  | ORef n g => [(n, g)]
  | OArr l => (fix go (l : list pobj) := match l with [] => [] | x :: r => refs_in x ++ go r end) l
  | ODict l => (fix go (l : list (bytes * pobj)) := match l with [] => [] | (_, x) :: r => refs_in x ++ go r end) l
  | _ => []
  end.
Definition references (o : pobj) : list (bytes * (Z * Z)) :=
  match o with
  | ODict l => flat_map (fun e => map (pair (fst e)) (refs_in (snd e))) l
  | _ => map (pair []) (refs_in o)
  end.
(** The reference [n g] under [key] of an object of kind [k] leads to an object of the document, of a kind the key asks for. *)
Definition resolves (t : gp) (k : kind) (key : bytes) (r : Z * Z) : Prop :=
  snd r = 0 /\ exists o, obj_no t (fst r) = Some o /\ exists s ks, key = bs s /\ In (k, s, ks) wants /\ In (kind_of o) ks.

(** ** What is written for each object *)
Fixpoint nlookup {B} (k : nat) (l : list (nat * B)) : option B :=
  match l with [] => None | (k', v) :: r => if Nat.eqb k k' then Some v else nlookup k r end.
Definition objid (i : nat) (l : list (nat * nat)) : Z := match nlookup i l with Some n => Z.of_nat n | None => 0 end.   (* int fields, 0 until assigned *)
Definition idx (o : option nat) : Z := match o with Some n => Z.of_nat n | None => -1 end.                                (* IndexOfPageObj *)
(** The parsed picture [p] is what the decoder made of the image file [im]: image_obj_parse.go haveSMask, isColspaceIndexed. *)
Definition picture_of (im : imgdesc) (p : imginfo) : Prop :=
  is_empty (im_smask p) = negb (im_alpha im) /\ (im_cs p = Indexed <-> im_indexed im = true).

(** Texts, with every coordinate, metric and stream left open (they contain no references); [zl]: the compressor, [pr]: the protection.
    Only texts a reader can take apart are listed: finite numbers, names of regular characters (C60 says which others occur). *)
Inductive writes (zl : bytes -> bytes) (pr : option protection) (t : gp) (i : nat) : obj -> bytes -> Prop :=
| W_catalog : writes zl pr t i OCatalog (catalog_body (g_cat_outl t))
| W_pages w h : finite w -> finite h -> writes zl pr t i OPages (pages_body w h (g_pagecount t) (g_kids t))
| W_outlines : writes zl pr t i OOutlines (outlines_body (g_outl_count t) (g_outl_first t) (g_outl_last t))
| W_resources tpls : Forall (fun e => (exists n, fst e = 47 :: n /\ n <> [] /\ plain_name n = true) /\ exists d, obj_no t (snd e) = Some (OImported d)) tpls ->
    writes zl pr t i OProcSet (procset_body (map (fun r => (rf_count r, Z.of_nat (rf_index r))) (g_fonts t)) (map (fun r => (rc_count r, Z.of_nat (rc_index r))) (g_cs t))
                                            (map Z.of_nat (g_xobjs t)) tpls (map Z.of_nat (g_extgs t)))
| W_page p size trim : (forall w h, size = Some (w, h) -> finite w /\ finite h) -> (forall b, trim = Some b -> finite_box b) ->
    writes zl pr t i (OPage p) (page_body 4 (pg_links p) (pg_contents p) size trim)
| W_content l c d : writes zl pr t i (OContent l) (sbody zl pr (Z.of_nat i + 1) (SContent c d))
| W_external l x y w h : lk_url l <> [] -> finite x -> finite y -> finite (add64 x w) -> finite (sub64 y h) ->
    writes zl pr t i (OAnnot l) (sbody zl pr (Z.of_nat i + 1) (SAnnotURL (rect_text x y w h) (lk_url l)))
| W_internal l x y w h ay : lk_url l = [] -> finite x -> finite y -> finite (add64 x w) -> finite (sub64 y h) -> finite ay ->
    writes zl pr t i (OAnnot l) (internal_body x y w h (option_map (fun a => (idx (fst a), ay)) (lookup (lk_anchor l) (g_anchors t))))
| W_outline q h : finite h -> Forall (fun b => 0 <= b) (ol_title q) ->
    writes zl pr t i (OOutline q) (outline_body {| oo_title := ol_title q; oo_dest := ol_dest q; oo_parent := ol_parent q; oo_prev := ol_prev q;
                                                   oo_next := ol_next q; oo_first := ol_first q; oo_last := ol_last q; oo_height := h |})
| W_unicode m : writes zl pr t i OUnicodeMap (sbody zl pr (Z.of_nat i + 1) (SUnicode m))
| W_fontfile f : writes zl pr t i OPdfDict (sbody zl pr (Z.of_nat i + 1) (SFontFile f))
| W_descriptor d fam m : nice_family fam -> writes zl pr t i (OSubDesc d) (descriptor_body fam m (Z.of_nat d))
| W_cidfont d fam ws : nice_family fam -> writes zl pr t i (OCIDFont d) (cid_font_body fam (Z.of_nat d) ws)
| W_font f : nice_family (fo_family f) -> writes zl pr t i (OSubsetFont f) (subset_font_body (fo_family f) (Z.of_nat (fo_cid f)) (Z.of_nat (fo_umap f)))
| W_image im use p : picture_of im p -> im_smaskObj p = objid i (g_smasks t) -> im_rgbObj p = objid i (g_rgbs t) ->
    writes zl pr t i (OImage im use) (sbody zl pr (Z.of_nat i + 1) (SImage p (match use with AsMask => true | _ => false end) (match use with Split => true | _ => false end)))
| W_smask w h f d : writes zl pr t i OSMaskImg (sbody zl pr (Z.of_nat i + 1) (SSMask w h f d))
| W_palette d : writes zl pr t i ODeviceRGB (sbody zl pr (Z.of_nat i + 1) (SDeviceRGB d))
| W_group g x0 y0 x1 y1 d : finite x0 -> finite y0 -> finite x1 -> finite y1 -> writes zl pr t i (OXGroup g) (sbody zl pr (Z.of_nat i + 1) (SGroup (f3 x0, f3 y0, f3 x1, f3 y1) d))
| W_mask g : writes zl pr t i (OMask g) (mask_body (bs "/Luminosity") (Z.of_nat g))
| W_gstate e ca CA bm : (forall a, ca = Some a \/ CA = Some a -> finite a) -> (forall m, bm = Some m -> plain_name m = true) ->
    writes zl pr t i (OExtGState e) (extgstate_body ca CA (option_map (fun m => 47 :: m) bm) (option_map Z.of_nat (eg_smask e)))
| W_rgb nm c r g b : plain_name nm = true -> 0 <= r <= 255 -> 0 <= g <= 255 -> 0 <= b <= 255 -> writes zl pr t i (OColorSpace nm c) (colorspace_rgb nm r g b)
| W_cmyk nm n c m y k : plain_name nm = true -> 0 <= c <= 255 -> 0 <= m <= 255 -> 0 <= y <= 255 -> 0 <= k <= 255 -> writes zl pr t i (OColorSpace nm n) (colorspace_cmyk nm c m y k)
| W_encryption p : writes zl pr t i OEncryption (encryption_body p).

(** No call of the history panics (a callback's panic is its AddPage's). *)
Fixpoint finishes (s : gp) (l : list op) : Prop :=
  match l with [] => True | o :: r => snd (step s o) <> Panic /\ finishes (fst (step s o)) r end.
(** Bookmarks and anchors are set only while the document has a page. *)
Definition marks (o : sop) : bool := match o with AddOutline _ | AddOutlinePos _ | SetAnchor _ => true | _ => false end.
Fixpoint marks_on_pages (have : bool) (l : list op) : bool :=
  match l with
  | [] => true
  | Start _ :: r => marks_on_pages false r
  | AddPage _ :: r => marks_on_pages true r
  | Do o :: r => (have || negb (marks o)) && marks_on_pages have r
  | _ :: r => marks_on_pages have r
  end.
