(** ObjModel.v — the bytes of every object without stream that gopdf writes: the write methods of catalog_obj.go,
    pages_obj.go, page_obj.go, procset_obj.go, subset_font_obj.go, cid_font_obj.go, subfont_descriptor_obj.go,
    ext_g_state_obj.go, smask_obj.go (with a group), outlines_obj.go, annot_obj.go, color_space_obj.go, and the trailer
    dictionary of gopdf.go.  (Streams: StreamModel.v; encryption_obj.go: SecModel.v.)  Numbers are float64 where the Go
    code has float64; object indices are passed as the numbers the Go code stores.  Not modelled: the legacy objects of
    AddFont (font_obj.go, encoding_obj.go, fontdescriptor_obj.go) and imported objects. *)
From Verif Require Import Base NumModel StrModel FileModel.

Definition f2 (x : f64) : bytes := f64_fmt 2 x.       (* "%.2f", "%0.2f" *)
Definition f3 (x : f64) : bytes := f64_fmt 3 x.       (* "%.3f", "%.3F" *)
Definition f6 (x : f64) : bytes := f64_fmt 6 x.       (* "%f" *)

(** catalog_obj.go:22-32; [outl] is outlinesObjID (-1: none, line 14). *)
Definition catalog_body (outl : Z) : bytes :=
  bs "<<" ++ [NL] ++ bs "  /Type /Catalog" ++ [NL] ++ bs "  /Pages 2 0 R" ++ [NL]
  ++ (if 0 <=? outl then bs "  /PageMode /UseOutlines" ++ [NL] ++ bs "  /Outlines " ++ fmt_d outl ++ bs " 0 R" ++ [NL] else [])
  ++ bs ">>" ++ [NL].
(** gopdf.go:2255, 2260: the strings " %d 0 R " appended one after the other. *)
Definition refs_text (l : list Z) : bytes := flat_map (fun n => bs " " ++ fmt_d n ++ bs " 0 R ") l.
(** pages_obj.go:20-32; Kids as prepare builds it (gopdf.go:2255). *)
Definition pages_body (w h : f64) (count : Z) (kids : list Z) : bytes :=
  bs "<<" ++ [NL] ++ bs "  /Type /Pages" ++ [NL]
  ++ bs "  /MediaBox [ 0 0 " ++ f2 w ++ bs " " ++ f2 h ++ bs " ]" ++ [NL]
  ++ bs "  /Count " ++ fmt_d count ++ [NL]
  ++ bs "  /Kids [ " ++ refs_text kids ++ bs " ]" ++ [NL] ++ bs ">>" ++ [NL].
(** page_option.go:9-22 isEmpty, isTrimBoxSet; box.go:3 (Left, Top, Right, Bottom). *)
Record boxq := { bx_l : f64; bx_t : f64; bx_r : f64; bx_b : f64 }.
Definition trimSet (t : option boxq) : option boxq :=
  match t with
  | Some b => let z x := SpecFloat.SFeqb x (f64_ofZ 0) in if z (bx_t b) && z (bx_l b) && z (bx_b b) && z (bx_r b) then None else Some b
  | None => None
  end.
(** page_obj.go:29-69; ResourcesRelate is "%d 0 R" (gopdf.go:823), Contents as prepare builds it (gopdf.go:2260). *)
Definition page_body (res : Z) (links contents : list Z) (size : option (f64 * f64)) (trim : option boxq) : bytes :=
  bs "<<" ++ [NL] ++ bs "  /Type /Page" ++ [NL] ++ bs "  /Parent 2 0 R" ++ [NL]
  ++ bs "  /Resources " ++ fmt_d res ++ bs " 0 R" ++ [NL]
  ++ (match links with [] => [] | _ => bs "  /Annots [" ++ flat_map (fun n => fmt_d n ++ bs " 0 R ") links ++ bs "]" ++ [NL] end)
  ++ (match contents with [] => [] | _ => bs "  /Contents " ++ refs_text contents ++ [NL] end)
  ++ (match size with Some (w, h) => bs " /MediaBox [ 0 0 " ++ f2 w ++ bs " " ++ f2 h ++ bs " ]" ++ [NL] | None => [] end)
  ++ (match trimSet trim with
      | Some b => bs " /TrimBox [ " ++ f2 (bx_l b) ++ bs " " ++ f2 (bx_t b) ++ bs " " ++ f2 (bx_r b) ++ bs " " ++ f2 (bx_b b) ++ bs " ]" ++ [NL]
      | None => []
      end)
  ++ bs ">>" ++ [NL].
(** procset_obj.go:25-70.  Fonts and colour spaces: (count, index); images and graphics states: index; templates: (name,
    object number), in the order Go's map iteration happens to take. *)
Definition procset_body (fonts cs : list (Z * Z)) (xobjs : list Z) (tpls : list (bytes * Z)) (exts : list Z) : bytes :=
  bs "<<" ++ [NL] ++ bs "	/ProcSet [/PDF /Text /ImageB /ImageC /ImageI]" ++ [NL]
  ++ bs "	/Font <<" ++ [NL] ++ flat_map (fun e => bs "		/F" ++ fmt_d (fst e + 1) ++ bs " " ++ fmt_d (snd e + 1) ++ bs " 0 R" ++ [NL]) fonts ++ bs "	>>" ++ [NL]
  ++ bs "	/ColorSpace <<" ++ [NL] ++ flat_map (fun e => bs "		/CS" ++ fmt_d (fst e + 1) ++ bs " " ++ fmt_d (snd e + 1) ++ bs " 0 R" ++ [NL]) cs ++ bs "	>>" ++ [NL]
  ++ bs "	/XObject <<" ++ [NL] ++ flat_map (fun i => bs "		/I" ++ fmt_d (i + 1) ++ bs " " ++ fmt_d (i + 1) ++ bs " 0 R" ++ [NL]) xobjs
     ++ flat_map (fun e => bs "		" ++ fst e ++ bs " " ++ fmt_d (snd e) ++ bs " 0 R" ++ [NL]) tpls ++ bs "	>>" ++ [NL]
  ++ bs "	/ExtGState <<" ++ [NL] ++ flat_map (fun i => bs "		/GS" ++ fmt_d (i + 1) ++ bs " " ++ fmt_d (i + 1) ++ bs " 0 R" ++ [NL]) exts ++ bs "	>>" ++ [NL]
  ++ bs ">>" ++ [NL].
(** strhelper.go:28-32 CreateEmbeddedFontSubsetName *)
Definition fontName (family : bytes) : bytes := replace 47 (bs "+") (replace 32 (bs "+") family).
(** subset_font_obj.go:38-49; indices of the CIDFont and of the ToUnicode map. *)
Definition subset_font_body (family : bytes) (cid um : Z) : bytes :=
  bs "<<" ++ [NL] ++ bs "/BaseFont /" ++ fontName family ++ [NL] ++ bs "/DescendantFonts [" ++ fmt_d (cid + 1) ++ bs " 0 R]" ++ [NL]
  ++ bs "/Encoding /Identity-H" ++ [NL] ++ bs "/Subtype /Type0" ++ [NL] ++ bs "/ToUnicode " ++ fmt_d (um + 1) ++ bs " 0 R" ++ [NL]
  ++ bs "/Type /Font" ++ [NL] ++ bs ">>" ++ [NL].
(** cid_font_obj.go:27-51; [ws]: glyph index and GlyphIndexToPdfWidth of every used glyph. *)
Definition cid_font_body (family : bytes) (desc : Z) (ws : list (Z * Z)) : bytes :=
  bs "<<" ++ [NL] ++ bs "/BaseFont /" ++ fontName family ++ [NL] ++ bs "/CIDSystemInfo" ++ [NL] ++ bs "<<" ++ [NL]
  ++ bs "  /Ordering (Identity)" ++ [NL] ++ bs "  /Registry (Adobe)" ++ [NL] ++ bs "  /Supplement 0" ++ [NL] ++ bs ">>" ++ [NL]
  ++ bs "/FontDescriptor " ++ fmt_d (desc + 1) ++ bs " 0 R" ++ [NL] ++ bs "/Subtype /CIDFontType2" ++ [NL] ++ bs "/Type /Font" ++ [NL]
  ++ bs "/W [" ++ flat_map (fun e => fmt_d (fst e) ++ bs "[" ++ fmt_d (snd e) ++ bs "]") ws ++ bs "]" ++ [NL] ++ bs ">>" ++ [NL].
(** core/math.go:3-10 Round and subfont_descriptor_obj.go:65-67 DesignUnitsToPdf *)
Definition coreRound (v : f64) : Z :=
  let half := SpecFloat.SFdiv prec64 emax64 (f64_ofZ 1) (f64_ofZ 2) in
  f64_trunc (if SpecFloat.SFltb v (f64_ofZ 0) then SpecFloat.SFsub prec64 emax64 v half else SpecFloat.SFadd prec64 emax64 v half).
Definition designUnitsToPdf (val upem : Z) : Z :=
  coreRound (SpecFloat.SFdiv prec64 emax64 (SpecFloat.SFmul prec64 emax64 (f64_ofZ val) (f64_ofZ 1000)) (f64_ofZ upem)).
(** subfont_descriptor_obj.go:23-49: what the TTF parser's accessors return. *)
Record metrics := { mt_asc : Z; mt_cap : Z; mt_desc : Z; mt_flag : Z; mt_xmin : Z; mt_ymin : Z; mt_xmax : Z; mt_ymax : Z;
                    mt_angle : Z; mt_xheight : Z; mt_upem : Z }.
Definition descriptor_body (family : bytes) (m : metrics) (file : Z) : bytes :=
  let u v := designUnitsToPdf v (mt_upem m) in
  bs "<<" ++ [NL] ++ bs "/Type /FontDescriptor" ++ [NL] ++ bs "/Ascent " ++ fmt_d (u (mt_asc m)) ++ [NL]
  ++ bs "/CapHeight " ++ fmt_d (u (mt_cap m)) ++ [NL] ++ bs "/Descent " ++ fmt_d (u (mt_desc m)) ++ [NL]
  ++ bs "/Flags " ++ fmt_d (mt_flag m) ++ [NL]
  ++ bs "/FontBBox [" ++ fmt_d (u (mt_xmin m)) ++ bs " " ++ fmt_d (u (mt_ymin m)) ++ bs " " ++ fmt_d (u (mt_xmax m)) ++ bs " " ++ fmt_d (u (mt_ymax m)) ++ bs "]" ++ [NL]
  ++ bs "/FontFile2 " ++ fmt_d (file + 1) ++ bs " 0 R" ++ [NL] ++ bs "/FontName /" ++ fontName family ++ [NL]
  ++ bs "/ItalicAngle " ++ fmt_d (mt_angle m) ++ [NL] ++ bs "/StemV 0" ++ [NL]
  ++ bs "/XHeight " ++ fmt_d (u (mt_xheight m)) ++ [NL] ++ bs ">>" ++ [NL].
(** ext_g_state_obj.go:82-109 *)
Definition opt {A} (f : A -> bytes) (o : option A) : bytes := match o with Some a => f a | None => [] end.
Definition extgstate_body (ca CA : option f64) (bm : option bytes) (smask : option Z) : bytes :=
  bs "<<" ++ [NL] ++ bs "	/Type /ExtGState" ++ [NL]
  ++ opt (fun a => bs "	/ca " ++ f3 a ++ [NL]) ca ++ opt (fun a => bs "	/CA " ++ f3 a ++ [NL]) CA
  ++ opt (fun m => bs "	/BM " ++ m ++ [NL]) bm ++ opt (fun i => bs "	/SMask " ++ fmt_d (i + 1) ++ bs " 0 R" ++ [NL]) smask
  ++ bs ">>" ++ [NL].
(** smask_obj.go:67-76; [s] is "/Luminosity" in the only caller (gopdf.go:632-636). *)
Definition mask_body (s : bytes) (group : Z) : bytes :=
  bs "<<" ++ [NL] ++ bs "	/Type /Mask" ++ [NL] ++ bs "	/S " ++ s ++ [NL] ++ bs "	/G " ++ fmt_d (group + 1) ++ bs " 0 R" ++ [NL] ++ bs ">>" ++ [NL].
(** outlines_obj.go:31-50 *)
Definition outlines_body (count first last : Z) : bytes :=
  bs "<<" ++ [NL] ++ bs "	/Type /Outlines" ++ [NL] ++ bs "	/Count " ++ fmt_d count ++ [NL]
  ++ (if 0 <=? first then bs "	/First " ++ fmt_d first ++ bs " 0 R" ++ [NL] else [])
  ++ (if 0 <=? last then bs "	/Last " ++ fmt_d last ++ bs " 0 R" ++ [NL] else []) ++ bs ">>" ++ [NL].
(** outlines_obj.go:146-167 *)
Record outl_rec := { oo_title : bytes; oo_dest : Z; oo_parent : Z; oo_prev : Z; oo_next : Z; oo_first : Z; oo_last : Z; oo_height : f64 }.
Definition outline_body (o : outl_rec) : bytes :=
  bs "<<" ++ [NL] ++ bs "  /Parent " ++ fmt_d (oo_parent o) ++ bs " 0 R" ++ [NL]
  ++ (if 0 <=? oo_prev o then bs "  /Prev " ++ fmt_d (oo_prev o) ++ bs " 0 R" ++ [NL] else [])
  ++ (if 0 <=? oo_next o then bs "  /Next " ++ fmt_d (oo_next o) ++ bs " 0 R" ++ [NL] else [])
  ++ (if 0 <? oo_first o then bs "  /First " ++ fmt_d (oo_first o) ++ bs " 0 R" ++ [NL] else [])
  ++ (if 0 <? oo_last o then bs "  /Last " ++ fmt_d (oo_last o) ++ bs " 0 R" ++ [NL] else [])
  ++ bs "  /Dest [ " ++ fmt_d (oo_dest o) ++ bs " 0 R /XYZ 90 " ++ f6 (oo_height o) ++ bs " 0 ]" ++ [NL]
  ++ bs "  /Title <FEFF" ++ encodeUtf8 (oo_title o) ++ bs ">" ++ [NL] ++ bs ">>" ++ [NL].
(** annot_obj.go:28-55 and gopdf.go:1706-1727 (x, y, w, h in points; y is the upper edge measured from the bottom).
    [anchor] is what the anchor table holds for the link's name: page index and height.  External links: the URL after
    encryption (StreamModel.SAnnotURL with the same rectangle). *)
Definition sub64 := SpecFloat.SFsub prec64 emax64.
Definition add64 := SpecFloat.SFadd prec64 emax64.
Definition rect_text (x y w h : f64) : bytes :=
  f2 x ++ bs " " ++ f2 y ++ bs " " ++ f2 (add64 x w) ++ bs " " ++ f2 (sub64 y h).
Definition internal_body (x y w h : f64) (anchor : option (Z * f64)) : bytes :=
  match anchor with
  | None => []
  | Some (page, ay) =>
      bs "<</Type /Annot /Subtype /Link /Rect [" ++ rect_text x y w h ++ bs "] /Border [0 0 0] /Dest ["
      ++ fmt_d (page + 1) ++ bs " 0 R /XYZ 0 " ++ f2 ay ++ bs " null]>>" ++ [NL]
  end.
(** color_space_obj.go:21-49; components already divided by 255 or 100 (SetColorRBG, SetColorCMYK). *)
Definition div64 (a b : Z) : f64 := SpecFloat.SFdiv prec64 emax64 (f64_ofZ a) (f64_ofZ b).
Fixpoint join (sep : bytes) (l : list bytes) : bytes :=
  match l with [] => [] | [a] => a | a :: r => a ++ sep ++ join sep r end.
Definition colorspace_body (name space c0 : bytes) (comps : list f64) : bytes :=
  bs "[ /Separation /" ++ name ++ bs " " ++ space ++ [NL] ++ bs "		<< " ++ [NL] ++ bs "			/FunctionType 2" ++ [NL]
  ++ bs "			/Domain [0 1]" ++ [NL] ++ bs "			/C0 [" ++ c0 ++ bs "]" ++ [NL] ++ bs "			/C1 [" ++ join (bs " ") (map f3 comps) ++ bs "]" ++ [NL]
  ++ bs "			/N 1" ++ [NL] ++ bs "		>>" ++ [NL] ++ bs "]" ++ [NL].
Definition colorspace_rgb (name : bytes) (r g b : Z) : bytes :=
  colorspace_body name (bs "/DeviceRGB") (bs "0.0 0.0 0.0") [div64 r 255; div64 g 255; div64 b 255].
Definition colorspace_cmyk (name : bytes) (c m y k : Z) : bytes :=
  colorspace_body name (bs "/DeviceCMYK") (bs "0.0 0.0 0.0 0.0") [div64 c 100; div64 m 100; div64 y 100; div64 k 100].
