(** DocModel.v — the document: object table, pages, contents, fonts, images, links, outlines,
    imported objects, colour spaces, transparency, and what output does to them.

    Models gopdf.go (the GoPdf value and its API), current.go, procset_obj.go, pages_obj.go,
    page_obj.go, outlines_obj.go, ext_g_state_obj.go, smask_obj.go, transparency.go.

    Conventions and simplifications:
    - Coordinates are exact rationals ([Q]), in points (unit conversion is in UnitModel.v).
    - Objects are referred to by 0-based table index ([nat]), as in the code; object *numbers* in the
      file are index+1, computed exactly where the code computes them.
    - Singletons reached through pointers (catalog, pages, outlines, procset) keep their fields in
      the state record; the table holds a marker for them.
    - Go panics are results ([Panic]) and leave the state as it was at the panicking statement.
    - Font files, image files and imported PDF objects are data chosen by the caller. *)
From Verif Require Import Base.
From Coq Require Export QArith.
Open Scope Z_scope.

(** ** Data *)
Record rectq := { r_w : Q; r_h : Q }.                                  (* rect.go:4-8 *)
Record config := { cf_page : rectq; cf_protect : bool }.               (* config.go: PageSize, Protection.UseProtection *)

Record link := { lk_x : Q; lk_y : Q; lk_w : Q; lk_h : Q; lk_url : bytes; lk_anchor : bytes }. (* link_option.go:8-12 *)

Record page := {                                                        (* page_obj.go:9-17 *)
  pg_size : option rectq;            (* pageOption.PageSize *)
  pg_contents : list Z;              (* Contents: " %d 0 R " appended per content object *)
  pg_links : list Z }.               (* LinkObjIds *)

Record outline := {                                                     (* outlines_obj.go:88-98 *)
  ol_title : bytes; ol_index : Z; ol_dest : Z; ol_parent : Z;
  ol_prev : Z; ol_next : Z; ol_first : Z; ol_last : Z; ol_height : Q }.

Record font := { fo_family : bytes; fo_style : Z; fo_count : Z;         (* subset_font_obj.go:22-36 *)
                 fo_cid : nat; fo_umap : nat }.

(** An image file as the decoder sees it: its identity, whether decoding works, whether it has
    separate alpha (haveSMask) and whether it is palette based (isColspaceIndexed). *)
Record imgdesc := { im_data : bytes; im_ok : bool; im_alpha : bool; im_indexed : bool }.

Record extgs := { eg_alpha : option Q; eg_bm : option bytes; eg_smask : option nat }.  (* ext_g_state_obj.go:13-19 *)

(** A drawing kept in a content object (ICacheContent). Only what the properties below look at is
    kept apart; every other cache is the bytes it writes. *)
Inductive item :=
| IBytes (b : bytes)
| ITemplate (name : bytes) (ty : Q) (pageh : Q)    (* cache_content_imported_object.go:8-15 *)
| IImage (index : nat) (gs : list Z)               (* cache_content_image.go; index of the XObject *)
| IColorSpace (count : Z)                          (* cache_color_space.go *)
| IText (fontcount : Z) (text : bytes) (gs : option Z)   (* cache_content_text.go: fontCountIndex *).

(** image_obj.go:21-22 IsMask, SplittedMask: how the object is written (image_obj.go:41-53): with its alpha channel
    (Plain), without it (Split), or only it (AsMask). *)
Inductive imguse := Plain | Split | AsMask.

Inductive obj :=
| OCatalog | OPages | OOutlines | OProcSet
| OPage (p : page)
| OContent (l : list item)
| OImported (data : bytes)
| OAnnot (l : link)
| OOutline (o : outline)
| OUnicodeMap | OPdfDict | OSubDesc (dict : nat) | OCIDFont (desc : nat)
| OSubsetFont (f : font)
| OImage (im : imgdesc) (use : imguse)
| OSMaskImg | ODeviceRGB
| OXGroup (img : nat) | OMask (group : nat)
| OExtGState (e : extgs)
| OColorSpace (name : bytes) (count : Z)
| OEncryption.

(** ** Operations that may also occur inside header/footer callbacks. *)
Inductive sop :=
| Draw (needs_page : bool) (b : bytes)           (* any drawing/colour/line call; needs_page: it reads curr.pageSize.H *)
| UseTemplate (name : bytes) (ty : Q)            (* UseImportedTemplate *)
| Text (t : bytes)                               (* Text/Cell with the current font *)
| SetPage (n : Z)
| AddFont (family : bytes) (style : Z)           (* AddTTFFont* with a readable font *)
| SetFont (family : bytes) (style : Z) (size : Q)
| Image (id : bytes) (im : imgdesc)              (* Image*, no mask, no own transparency *)
| ImageMasked (id : bytes) (im : imgdesc) (mid : bytes) (mim : imgdesc)
| AddLink (l : link)                             (* lk_y is the caller's y, before flipping *)
| SetAnchor (name : bytes)
| AddOutline (title : bytes)
| AddOutlinePos (title : bytes)
| ImportObjects (objs : list (Z * bytes)) (start : Z)
| AddColorSpace (name : bytes)
| SetColorSpace (name : bytes)
| SetTransparency (alpha : Q) (bm : bytes)
| ClearTransparency
| SetXY (x y : Q)
| SetCompressLevel (l : Z)
| SetNoCompression.

(** ** State (gopdf.go:46-101 GoPdf, current.go:4-60 Current) *)
Record relfont := { rf_family : bytes; rf_style : Z; rf_count : Z; rf_index : nat }.  (* procset_obj.go:102-109 *)
Record relcs := { rc_name : bytes; rc_count : Z; rc_index : nat }.                    (* procset_obj.go:113-119 *)

Record gp := {
  g_cfg : config;
  g_objs : list obj;                     (* pdfObjs *)
  g_kids : list Z; g_pagecount : Z;      (* PagesObj.Kids, PageCount *)
  g_npages : Z;                          (* numOfPagesObj *)
  g_content : option nat;                (* indexOfContent, None = -1 *)
  g_page : option nat;                   (* curr.IndexOfPageObj, None = -1 *)
  g_pagesize : option rectq;             (* curr.pageSize, None = nil *)
  g_x : Q; g_y : Q;                      (* curr.X, curr.Y *)
  g_mleft : Q; g_mtop : Q;               (* margins.Left, margins.Top *)
  g_fontsize : Q; g_font : option nat; g_fontcount : Z;  (* curr.FontSize, FontISubset (table index), FontFontCount *)
  g_countfont : Z; g_countcs : Z;        (* curr.CountOfFont, CountOfColorSpace *)
  g_outl_first : Z; g_outl_last : Z; g_outl_count : Z; g_outl_lastobj : option nat; (* OutlinesObj *)
  g_cat_outl : Z;                        (* CatalogObj.outlinesObjID *)
  g_fonts : list relfont;                (* ProcSetObj.Relates *)
  g_cs : list relcs;                     (* ProcSetObj.RelateColorSpaces *)
  g_xobjs : list nat;                    (* ProcSetObj.RelateXobjs *)
  g_extgs : list nat;                    (* ProcSetObj.ExtGStates *)
  g_imgs : list (bytes * nat);           (* curr.ImgCaches: Path, Index *)
  g_extmap : list (bytes * nat);         (* curr.extGStatesMap *)
  g_trmap : list (bytes * Z);            (* curr.transparencyMap: id -> extGStateIndex *)
  g_tr : option Z;                       (* curr.transparency: its extGStateIndex *)
  g_anchors : list (bytes * (option nat * Q)); (* anchors *)
  g_header : option (list sop); g_footer : option (list sop);
  g_encid : Z;                           (* encryptionObjID *)
  g_compress : Z;                        (* compressLevel *)
  g_smasks : list (nat * nat);           (* image object -> its imginfo.smarkObjID, where assigned (0 otherwise) *)
  g_rgbs : list (nat * nat)              (* image object -> its imginfo.deviceRGBObjID, where assigned (0 otherwise) *)
}.

Inductive op :=
| Do (o : sop)
| Start (c : config)
| AddPage (size : option rectq)
| AddHeader (f : option (list sop))
| AddFooter (f : option (list sop))
| Output.                                        (* compilePdf: WritePdf, WriteTo, GetBytesPdf, Read *)

Inductive result := Ok | Err | Panic.

(** ** Field updates *)
Definition set_cfg v s := {| g_cfg := v; g_objs := g_objs s; g_kids := g_kids s; g_pagecount := g_pagecount s; g_npages := g_npages s; g_content := g_content s; g_page := g_page s; g_pagesize := g_pagesize s; g_x := g_x s; g_y := g_y s; g_mleft := g_mleft s; g_mtop := g_mtop s; g_fontsize := g_fontsize s; g_font := g_font s; g_fontcount := g_fontcount s; g_countfont := g_countfont s; g_countcs := g_countcs s; g_outl_first := g_outl_first s; g_outl_last := g_outl_last s; g_outl_count := g_outl_count s; g_outl_lastobj := g_outl_lastobj s; g_cat_outl := g_cat_outl s; g_fonts := g_fonts s; g_cs := g_cs s; g_xobjs := g_xobjs s; g_extgs := g_extgs s; g_imgs := g_imgs s; g_extmap := g_extmap s; g_trmap := g_trmap s; g_tr := g_tr s; g_anchors := g_anchors s; g_header := g_header s; g_footer := g_footer s; g_encid := g_encid s; g_compress := g_compress s; g_smasks := g_smasks s; g_rgbs := g_rgbs s |}.
Definition set_objs v s := {| g_cfg := g_cfg s; g_objs := v; g_kids := g_kids s; g_pagecount := g_pagecount s; g_npages := g_npages s; g_content := g_content s; g_page := g_page s; g_pagesize := g_pagesize s; g_x := g_x s; g_y := g_y s; g_mleft := g_mleft s; g_mtop := g_mtop s; g_fontsize := g_fontsize s; g_font := g_font s; g_fontcount := g_fontcount s; g_countfont := g_countfont s; g_countcs := g_countcs s; g_outl_first := g_outl_first s; g_outl_last := g_outl_last s; g_outl_count := g_outl_count s; g_outl_lastobj := g_outl_lastobj s; g_cat_outl := g_cat_outl s; g_fonts := g_fonts s; g_cs := g_cs s; g_xobjs := g_xobjs s; g_extgs := g_extgs s; g_imgs := g_imgs s; g_extmap := g_extmap s; g_trmap := g_trmap s; g_tr := g_tr s; g_anchors := g_anchors s; g_header := g_header s; g_footer := g_footer s; g_encid := g_encid s; g_compress := g_compress s; g_smasks := g_smasks s; g_rgbs := g_rgbs s |}.
Definition set_kids v s := {| g_cfg := g_cfg s; g_objs := g_objs s; g_kids := v; g_pagecount := g_pagecount s; g_npages := g_npages s; g_content := g_content s; g_page := g_page s; g_pagesize := g_pagesize s; g_x := g_x s; g_y := g_y s; g_mleft := g_mleft s; g_mtop := g_mtop s; g_fontsize := g_fontsize s; g_font := g_font s; g_fontcount := g_fontcount s; g_countfont := g_countfont s; g_countcs := g_countcs s; g_outl_first := g_outl_first s; g_outl_last := g_outl_last s; g_outl_count := g_outl_count s; g_outl_lastobj := g_outl_lastobj s; g_cat_outl := g_cat_outl s; g_fonts := g_fonts s; g_cs := g_cs s; g_xobjs := g_xobjs s; g_extgs := g_extgs s; g_imgs := g_imgs s; g_extmap := g_extmap s; g_trmap := g_trmap s; g_tr := g_tr s; g_anchors := g_anchors s; g_header := g_header s; g_footer := g_footer s; g_encid := g_encid s; g_compress := g_compress s; g_smasks := g_smasks s; g_rgbs := g_rgbs s |}.
Definition set_pagecount v s := {| g_cfg := g_cfg s; g_objs := g_objs s; g_kids := g_kids s; g_pagecount := v; g_npages := g_npages s; g_content := g_content s; g_page := g_page s; g_pagesize := g_pagesize s; g_x := g_x s; g_y := g_y s; g_mleft := g_mleft s; g_mtop := g_mtop s; g_fontsize := g_fontsize s; g_font := g_font s; g_fontcount := g_fontcount s; g_countfont := g_countfont s; g_countcs := g_countcs s; g_outl_first := g_outl_first s; g_outl_last := g_outl_last s; g_outl_count := g_outl_count s; g_outl_lastobj := g_outl_lastobj s; g_cat_outl := g_cat_outl s; g_fonts := g_fonts s; g_cs := g_cs s; g_xobjs := g_xobjs s; g_extgs := g_extgs s; g_imgs := g_imgs s; g_extmap := g_extmap s; g_trmap := g_trmap s; g_tr := g_tr s; g_anchors := g_anchors s; g_header := g_header s; g_footer := g_footer s; g_encid := g_encid s; g_compress := g_compress s; g_smasks := g_smasks s; g_rgbs := g_rgbs s |}.
Definition set_npages v s := {| g_cfg := g_cfg s; g_objs := g_objs s; g_kids := g_kids s; g_pagecount := g_pagecount s; g_npages := v; g_content := g_content s; g_page := g_page s; g_pagesize := g_pagesize s; g_x := g_x s; g_y := g_y s; g_mleft := g_mleft s; g_mtop := g_mtop s; g_fontsize := g_fontsize s; g_font := g_font s; g_fontcount := g_fontcount s; g_countfont := g_countfont s; g_countcs := g_countcs s; g_outl_first := g_outl_first s; g_outl_last := g_outl_last s; g_outl_count := g_outl_count s; g_outl_lastobj := g_outl_lastobj s; g_cat_outl := g_cat_outl s; g_fonts := g_fonts s; g_cs := g_cs s; g_xobjs := g_xobjs s; g_extgs := g_extgs s; g_imgs := g_imgs s; g_extmap := g_extmap s; g_trmap := g_trmap s; g_tr := g_tr s; g_anchors := g_anchors s; g_header := g_header s; g_footer := g_footer s; g_encid := g_encid s; g_compress := g_compress s; g_smasks := g_smasks s; g_rgbs := g_rgbs s |}.
Definition set_content v s := {| g_cfg := g_cfg s; g_objs := g_objs s; g_kids := g_kids s; g_pagecount := g_pagecount s; g_npages := g_npages s; g_content := v; g_page := g_page s; g_pagesize := g_pagesize s; g_x := g_x s; g_y := g_y s; g_mleft := g_mleft s; g_mtop := g_mtop s; g_fontsize := g_fontsize s; g_font := g_font s; g_fontcount := g_fontcount s; g_countfont := g_countfont s; g_countcs := g_countcs s; g_outl_first := g_outl_first s; g_outl_last := g_outl_last s; g_outl_count := g_outl_count s; g_outl_lastobj := g_outl_lastobj s; g_cat_outl := g_cat_outl s; g_fonts := g_fonts s; g_cs := g_cs s; g_xobjs := g_xobjs s; g_extgs := g_extgs s; g_imgs := g_imgs s; g_extmap := g_extmap s; g_trmap := g_trmap s; g_tr := g_tr s; g_anchors := g_anchors s; g_header := g_header s; g_footer := g_footer s; g_encid := g_encid s; g_compress := g_compress s; g_smasks := g_smasks s; g_rgbs := g_rgbs s |}.
Definition set_page v s := {| g_cfg := g_cfg s; g_objs := g_objs s; g_kids := g_kids s; g_pagecount := g_pagecount s; g_npages := g_npages s; g_content := g_content s; g_page := v; g_pagesize := g_pagesize s; g_x := g_x s; g_y := g_y s; g_mleft := g_mleft s; g_mtop := g_mtop s; g_fontsize := g_fontsize s; g_font := g_font s; g_fontcount := g_fontcount s; g_countfont := g_countfont s; g_countcs := g_countcs s; g_outl_first := g_outl_first s; g_outl_last := g_outl_last s; g_outl_count := g_outl_count s; g_outl_lastobj := g_outl_lastobj s; g_cat_outl := g_cat_outl s; g_fonts := g_fonts s; g_cs := g_cs s; g_xobjs := g_xobjs s; g_extgs := g_extgs s; g_imgs := g_imgs s; g_extmap := g_extmap s; g_trmap := g_trmap s; g_tr := g_tr s; g_anchors := g_anchors s; g_header := g_header s; g_footer := g_footer s; g_encid := g_encid s; g_compress := g_compress s; g_smasks := g_smasks s; g_rgbs := g_rgbs s |}.
Definition set_pagesize v s := {| g_cfg := g_cfg s; g_objs := g_objs s; g_kids := g_kids s; g_pagecount := g_pagecount s; g_npages := g_npages s; g_content := g_content s; g_page := g_page s; g_pagesize := v; g_x := g_x s; g_y := g_y s; g_mleft := g_mleft s; g_mtop := g_mtop s; g_fontsize := g_fontsize s; g_font := g_font s; g_fontcount := g_fontcount s; g_countfont := g_countfont s; g_countcs := g_countcs s; g_outl_first := g_outl_first s; g_outl_last := g_outl_last s; g_outl_count := g_outl_count s; g_outl_lastobj := g_outl_lastobj s; g_cat_outl := g_cat_outl s; g_fonts := g_fonts s; g_cs := g_cs s; g_xobjs := g_xobjs s; g_extgs := g_extgs s; g_imgs := g_imgs s; g_extmap := g_extmap s; g_trmap := g_trmap s; g_tr := g_tr s; g_anchors := g_anchors s; g_header := g_header s; g_footer := g_footer s; g_encid := g_encid s; g_compress := g_compress s; g_smasks := g_smasks s; g_rgbs := g_rgbs s |}.
Definition set_x v s := {| g_cfg := g_cfg s; g_objs := g_objs s; g_kids := g_kids s; g_pagecount := g_pagecount s; g_npages := g_npages s; g_content := g_content s; g_page := g_page s; g_pagesize := g_pagesize s; g_x := v; g_y := g_y s; g_mleft := g_mleft s; g_mtop := g_mtop s; g_fontsize := g_fontsize s; g_font := g_font s; g_fontcount := g_fontcount s; g_countfont := g_countfont s; g_countcs := g_countcs s; g_outl_first := g_outl_first s; g_outl_last := g_outl_last s; g_outl_count := g_outl_count s; g_outl_lastobj := g_outl_lastobj s; g_cat_outl := g_cat_outl s; g_fonts := g_fonts s; g_cs := g_cs s; g_xobjs := g_xobjs s; g_extgs := g_extgs s; g_imgs := g_imgs s; g_extmap := g_extmap s; g_trmap := g_trmap s; g_tr := g_tr s; g_anchors := g_anchors s; g_header := g_header s; g_footer := g_footer s; g_encid := g_encid s; g_compress := g_compress s; g_smasks := g_smasks s; g_rgbs := g_rgbs s |}.
Definition set_y v s := {| g_cfg := g_cfg s; g_objs := g_objs s; g_kids := g_kids s; g_pagecount := g_pagecount s; g_npages := g_npages s; g_content := g_content s; g_page := g_page s; g_pagesize := g_pagesize s; g_x := g_x s; g_y := v; g_mleft := g_mleft s; g_mtop := g_mtop s; g_fontsize := g_fontsize s; g_font := g_font s; g_fontcount := g_fontcount s; g_countfont := g_countfont s; g_countcs := g_countcs s; g_outl_first := g_outl_first s; g_outl_last := g_outl_last s; g_outl_count := g_outl_count s; g_outl_lastobj := g_outl_lastobj s; g_cat_outl := g_cat_outl s; g_fonts := g_fonts s; g_cs := g_cs s; g_xobjs := g_xobjs s; g_extgs := g_extgs s; g_imgs := g_imgs s; g_extmap := g_extmap s; g_trmap := g_trmap s; g_tr := g_tr s; g_anchors := g_anchors s; g_header := g_header s; g_footer := g_footer s; g_encid := g_encid s; g_compress := g_compress s; g_smasks := g_smasks s; g_rgbs := g_rgbs s |}.
Definition set_mleft v s := {| g_cfg := g_cfg s; g_objs := g_objs s; g_kids := g_kids s; g_pagecount := g_pagecount s; g_npages := g_npages s; g_content := g_content s; g_page := g_page s; g_pagesize := g_pagesize s; g_x := g_x s; g_y := g_y s; g_mleft := v; g_mtop := g_mtop s; g_fontsize := g_fontsize s; g_font := g_font s; g_fontcount := g_fontcount s; g_countfont := g_countfont s; g_countcs := g_countcs s; g_outl_first := g_outl_first s; g_outl_last := g_outl_last s; g_outl_count := g_outl_count s; g_outl_lastobj := g_outl_lastobj s; g_cat_outl := g_cat_outl s; g_fonts := g_fonts s; g_cs := g_cs s; g_xobjs := g_xobjs s; g_extgs := g_extgs s; g_imgs := g_imgs s; g_extmap := g_extmap s; g_trmap := g_trmap s; g_tr := g_tr s; g_anchors := g_anchors s; g_header := g_header s; g_footer := g_footer s; g_encid := g_encid s; g_compress := g_compress s; g_smasks := g_smasks s; g_rgbs := g_rgbs s |}.
Definition set_mtop v s := {| g_cfg := g_cfg s; g_objs := g_objs s; g_kids := g_kids s; g_pagecount := g_pagecount s; g_npages := g_npages s; g_content := g_content s; g_page := g_page s; g_pagesize := g_pagesize s; g_x := g_x s; g_y := g_y s; g_mleft := g_mleft s; g_mtop := v; g_fontsize := g_fontsize s; g_font := g_font s; g_fontcount := g_fontcount s; g_countfont := g_countfont s; g_countcs := g_countcs s; g_outl_first := g_outl_first s; g_outl_last := g_outl_last s; g_outl_count := g_outl_count s; g_outl_lastobj := g_outl_lastobj s; g_cat_outl := g_cat_outl s; g_fonts := g_fonts s; g_cs := g_cs s; g_xobjs := g_xobjs s; g_extgs := g_extgs s; g_imgs := g_imgs s; g_extmap := g_extmap s; g_trmap := g_trmap s; g_tr := g_tr s; g_anchors := g_anchors s; g_header := g_header s; g_footer := g_footer s; g_encid := g_encid s; g_compress := g_compress s; g_smasks := g_smasks s; g_rgbs := g_rgbs s |}.
Definition set_fontsize v s := {| g_cfg := g_cfg s; g_objs := g_objs s; g_kids := g_kids s; g_pagecount := g_pagecount s; g_npages := g_npages s; g_content := g_content s; g_page := g_page s; g_pagesize := g_pagesize s; g_x := g_x s; g_y := g_y s; g_mleft := g_mleft s; g_mtop := g_mtop s; g_fontsize := v; g_font := g_font s; g_fontcount := g_fontcount s; g_countfont := g_countfont s; g_countcs := g_countcs s; g_outl_first := g_outl_first s; g_outl_last := g_outl_last s; g_outl_count := g_outl_count s; g_outl_lastobj := g_outl_lastobj s; g_cat_outl := g_cat_outl s; g_fonts := g_fonts s; g_cs := g_cs s; g_xobjs := g_xobjs s; g_extgs := g_extgs s; g_imgs := g_imgs s; g_extmap := g_extmap s; g_trmap := g_trmap s; g_tr := g_tr s; g_anchors := g_anchors s; g_header := g_header s; g_footer := g_footer s; g_encid := g_encid s; g_compress := g_compress s; g_smasks := g_smasks s; g_rgbs := g_rgbs s |}.
Definition set_font v s := {| g_cfg := g_cfg s; g_objs := g_objs s; g_kids := g_kids s; g_pagecount := g_pagecount s; g_npages := g_npages s; g_content := g_content s; g_page := g_page s; g_pagesize := g_pagesize s; g_x := g_x s; g_y := g_y s; g_mleft := g_mleft s; g_mtop := g_mtop s; g_fontsize := g_fontsize s; g_font := v; g_fontcount := g_fontcount s; g_countfont := g_countfont s; g_countcs := g_countcs s; g_outl_first := g_outl_first s; g_outl_last := g_outl_last s; g_outl_count := g_outl_count s; g_outl_lastobj := g_outl_lastobj s; g_cat_outl := g_cat_outl s; g_fonts := g_fonts s; g_cs := g_cs s; g_xobjs := g_xobjs s; g_extgs := g_extgs s; g_imgs := g_imgs s; g_extmap := g_extmap s; g_trmap := g_trmap s; g_tr := g_tr s; g_anchors := g_anchors s; g_header := g_header s; g_footer := g_footer s; g_encid := g_encid s; g_compress := g_compress s; g_smasks := g_smasks s; g_rgbs := g_rgbs s |}.
Definition set_fontcount v s := {| g_cfg := g_cfg s; g_objs := g_objs s; g_kids := g_kids s; g_pagecount := g_pagecount s; g_npages := g_npages s; g_content := g_content s; g_page := g_page s; g_pagesize := g_pagesize s; g_x := g_x s; g_y := g_y s; g_mleft := g_mleft s; g_mtop := g_mtop s; g_fontsize := g_fontsize s; g_font := g_font s; g_fontcount := v; g_countfont := g_countfont s; g_countcs := g_countcs s; g_outl_first := g_outl_first s; g_outl_last := g_outl_last s; g_outl_count := g_outl_count s; g_outl_lastobj := g_outl_lastobj s; g_cat_outl := g_cat_outl s; g_fonts := g_fonts s; g_cs := g_cs s; g_xobjs := g_xobjs s; g_extgs := g_extgs s; g_imgs := g_imgs s; g_extmap := g_extmap s; g_trmap := g_trmap s; g_tr := g_tr s; g_anchors := g_anchors s; g_header := g_header s; g_footer := g_footer s; g_encid := g_encid s; g_compress := g_compress s; g_smasks := g_smasks s; g_rgbs := g_rgbs s |}.
Definition set_countfont v s := {| g_cfg := g_cfg s; g_objs := g_objs s; g_kids := g_kids s; g_pagecount := g_pagecount s; g_npages := g_npages s; g_content := g_content s; g_page := g_page s; g_pagesize := g_pagesize s; g_x := g_x s; g_y := g_y s; g_mleft := g_mleft s; g_mtop := g_mtop s; g_fontsize := g_fontsize s; g_font := g_font s; g_fontcount := g_fontcount s; g_countfont := v; g_countcs := g_countcs s; g_outl_first := g_outl_first s; g_outl_last := g_outl_last s; g_outl_count := g_outl_count s; g_outl_lastobj := g_outl_lastobj s; g_cat_outl := g_cat_outl s; g_fonts := g_fonts s; g_cs := g_cs s; g_xobjs := g_xobjs s; g_extgs := g_extgs s; g_imgs := g_imgs s; g_extmap := g_extmap s; g_trmap := g_trmap s; g_tr := g_tr s; g_anchors := g_anchors s; g_header := g_header s; g_footer := g_footer s; g_encid := g_encid s; g_compress := g_compress s; g_smasks := g_smasks s; g_rgbs := g_rgbs s |}.
Definition set_countcs v s := {| g_cfg := g_cfg s; g_objs := g_objs s; g_kids := g_kids s; g_pagecount := g_pagecount s; g_npages := g_npages s; g_content := g_content s; g_page := g_page s; g_pagesize := g_pagesize s; g_x := g_x s; g_y := g_y s; g_mleft := g_mleft s; g_mtop := g_mtop s; g_fontsize := g_fontsize s; g_font := g_font s; g_fontcount := g_fontcount s; g_countfont := g_countfont s; g_countcs := v; g_outl_first := g_outl_first s; g_outl_last := g_outl_last s; g_outl_count := g_outl_count s; g_outl_lastobj := g_outl_lastobj s; g_cat_outl := g_cat_outl s; g_fonts := g_fonts s; g_cs := g_cs s; g_xobjs := g_xobjs s; g_extgs := g_extgs s; g_imgs := g_imgs s; g_extmap := g_extmap s; g_trmap := g_trmap s; g_tr := g_tr s; g_anchors := g_anchors s; g_header := g_header s; g_footer := g_footer s; g_encid := g_encid s; g_compress := g_compress s; g_smasks := g_smasks s; g_rgbs := g_rgbs s |}.
Definition set_outl_first v s := {| g_cfg := g_cfg s; g_objs := g_objs s; g_kids := g_kids s; g_pagecount := g_pagecount s; g_npages := g_npages s; g_content := g_content s; g_page := g_page s; g_pagesize := g_pagesize s; g_x := g_x s; g_y := g_y s; g_mleft := g_mleft s; g_mtop := g_mtop s; g_fontsize := g_fontsize s; g_font := g_font s; g_fontcount := g_fontcount s; g_countfont := g_countfont s; g_countcs := g_countcs s; g_outl_first := v; g_outl_last := g_outl_last s; g_outl_count := g_outl_count s; g_outl_lastobj := g_outl_lastobj s; g_cat_outl := g_cat_outl s; g_fonts := g_fonts s; g_cs := g_cs s; g_xobjs := g_xobjs s; g_extgs := g_extgs s; g_imgs := g_imgs s; g_extmap := g_extmap s; g_trmap := g_trmap s; g_tr := g_tr s; g_anchors := g_anchors s; g_header := g_header s; g_footer := g_footer s; g_encid := g_encid s; g_compress := g_compress s; g_smasks := g_smasks s; g_rgbs := g_rgbs s |}.
Definition set_outl_last v s := {| g_cfg := g_cfg s; g_objs := g_objs s; g_kids := g_kids s; g_pagecount := g_pagecount s; g_npages := g_npages s; g_content := g_content s; g_page := g_page s; g_pagesize := g_pagesize s; g_x := g_x s; g_y := g_y s; g_mleft := g_mleft s; g_mtop := g_mtop s; g_fontsize := g_fontsize s; g_font := g_font s; g_fontcount := g_fontcount s; g_countfont := g_countfont s; g_countcs := g_countcs s; g_outl_first := g_outl_first s; g_outl_last := v; g_outl_count := g_outl_count s; g_outl_lastobj := g_outl_lastobj s; g_cat_outl := g_cat_outl s; g_fonts := g_fonts s; g_cs := g_cs s; g_xobjs := g_xobjs s; g_extgs := g_extgs s; g_imgs := g_imgs s; g_extmap := g_extmap s; g_trmap := g_trmap s; g_tr := g_tr s; g_anchors := g_anchors s; g_header := g_header s; g_footer := g_footer s; g_encid := g_encid s; g_compress := g_compress s; g_smasks := g_smasks s; g_rgbs := g_rgbs s |}.
Definition set_outl_count v s := {| g_cfg := g_cfg s; g_objs := g_objs s; g_kids := g_kids s; g_pagecount := g_pagecount s; g_npages := g_npages s; g_content := g_content s; g_page := g_page s; g_pagesize := g_pagesize s; g_x := g_x s; g_y := g_y s; g_mleft := g_mleft s; g_mtop := g_mtop s; g_fontsize := g_fontsize s; g_font := g_font s; g_fontcount := g_fontcount s; g_countfont := g_countfont s; g_countcs := g_countcs s; g_outl_first := g_outl_first s; g_outl_last := g_outl_last s; g_outl_count := v; g_outl_lastobj := g_outl_lastobj s; g_cat_outl := g_cat_outl s; g_fonts := g_fonts s; g_cs := g_cs s; g_xobjs := g_xobjs s; g_extgs := g_extgs s; g_imgs := g_imgs s; g_extmap := g_extmap s; g_trmap := g_trmap s; g_tr := g_tr s; g_anchors := g_anchors s; g_header := g_header s; g_footer := g_footer s; g_encid := g_encid s; g_compress := g_compress s; g_smasks := g_smasks s; g_rgbs := g_rgbs s |}.
Definition set_outl_lastobj v s := {| g_cfg := g_cfg s; g_objs := g_objs s; g_kids := g_kids s; g_pagecount := g_pagecount s; g_npages := g_npages s; g_content := g_content s; g_page := g_page s; g_pagesize := g_pagesize s; g_x := g_x s; g_y := g_y s; g_mleft := g_mleft s; g_mtop := g_mtop s; g_fontsize := g_fontsize s; g_font := g_font s; g_fontcount := g_fontcount s; g_countfont := g_countfont s; g_countcs := g_countcs s; g_outl_first := g_outl_first s; g_outl_last := g_outl_last s; g_outl_count := g_outl_count s; g_outl_lastobj := v; g_cat_outl := g_cat_outl s; g_fonts := g_fonts s; g_cs := g_cs s; g_xobjs := g_xobjs s; g_extgs := g_extgs s; g_imgs := g_imgs s; g_extmap := g_extmap s; g_trmap := g_trmap s; g_tr := g_tr s; g_anchors := g_anchors s; g_header := g_header s; g_footer := g_footer s; g_encid := g_encid s; g_compress := g_compress s; g_smasks := g_smasks s; g_rgbs := g_rgbs s |}.
Definition set_cat_outl v s := {| g_cfg := g_cfg s; g_objs := g_objs s; g_kids := g_kids s; g_pagecount := g_pagecount s; g_npages := g_npages s; g_content := g_content s; g_page := g_page s; g_pagesize := g_pagesize s; g_x := g_x s; g_y := g_y s; g_mleft := g_mleft s; g_mtop := g_mtop s; g_fontsize := g_fontsize s; g_font := g_font s; g_fontcount := g_fontcount s; g_countfont := g_countfont s; g_countcs := g_countcs s; g_outl_first := g_outl_first s; g_outl_last := g_outl_last s; g_outl_count := g_outl_count s; g_outl_lastobj := g_outl_lastobj s; g_cat_outl := v; g_fonts := g_fonts s; g_cs := g_cs s; g_xobjs := g_xobjs s; g_extgs := g_extgs s; g_imgs := g_imgs s; g_extmap := g_extmap s; g_trmap := g_trmap s; g_tr := g_tr s; g_anchors := g_anchors s; g_header := g_header s; g_footer := g_footer s; g_encid := g_encid s; g_compress := g_compress s; g_smasks := g_smasks s; g_rgbs := g_rgbs s |}.
Definition set_fonts v s := {| g_cfg := g_cfg s; g_objs := g_objs s; g_kids := g_kids s; g_pagecount := g_pagecount s; g_npages := g_npages s; g_content := g_content s; g_page := g_page s; g_pagesize := g_pagesize s; g_x := g_x s; g_y := g_y s; g_mleft := g_mleft s; g_mtop := g_mtop s; g_fontsize := g_fontsize s; g_font := g_font s; g_fontcount := g_fontcount s; g_countfont := g_countfont s; g_countcs := g_countcs s; g_outl_first := g_outl_first s; g_outl_last := g_outl_last s; g_outl_count := g_outl_count s; g_outl_lastobj := g_outl_lastobj s; g_cat_outl := g_cat_outl s; g_fonts := v; g_cs := g_cs s; g_xobjs := g_xobjs s; g_extgs := g_extgs s; g_imgs := g_imgs s; g_extmap := g_extmap s; g_trmap := g_trmap s; g_tr := g_tr s; g_anchors := g_anchors s; g_header := g_header s; g_footer := g_footer s; g_encid := g_encid s; g_compress := g_compress s; g_smasks := g_smasks s; g_rgbs := g_rgbs s |}.
Definition set_cs v s := {| g_cfg := g_cfg s; g_objs := g_objs s; g_kids := g_kids s; g_pagecount := g_pagecount s; g_npages := g_npages s; g_content := g_content s; g_page := g_page s; g_pagesize := g_pagesize s; g_x := g_x s; g_y := g_y s; g_mleft := g_mleft s; g_mtop := g_mtop s; g_fontsize := g_fontsize s; g_font := g_font s; g_fontcount := g_fontcount s; g_countfont := g_countfont s; g_countcs := g_countcs s; g_outl_first := g_outl_first s; g_outl_last := g_outl_last s; g_outl_count := g_outl_count s; g_outl_lastobj := g_outl_lastobj s; g_cat_outl := g_cat_outl s; g_fonts := g_fonts s; g_cs := v; g_xobjs := g_xobjs s; g_extgs := g_extgs s; g_imgs := g_imgs s; g_extmap := g_extmap s; g_trmap := g_trmap s; g_tr := g_tr s; g_anchors := g_anchors s; g_header := g_header s; g_footer := g_footer s; g_encid := g_encid s; g_compress := g_compress s; g_smasks := g_smasks s; g_rgbs := g_rgbs s |}.
Definition set_xobjs v s := {| g_cfg := g_cfg s; g_objs := g_objs s; g_kids := g_kids s; g_pagecount := g_pagecount s; g_npages := g_npages s; g_content := g_content s; g_page := g_page s; g_pagesize := g_pagesize s; g_x := g_x s; g_y := g_y s; g_mleft := g_mleft s; g_mtop := g_mtop s; g_fontsize := g_fontsize s; g_font := g_font s; g_fontcount := g_fontcount s; g_countfont := g_countfont s; g_countcs := g_countcs s; g_outl_first := g_outl_first s; g_outl_last := g_outl_last s; g_outl_count := g_outl_count s; g_outl_lastobj := g_outl_lastobj s; g_cat_outl := g_cat_outl s; g_fonts := g_fonts s; g_cs := g_cs s; g_xobjs := v; g_extgs := g_extgs s; g_imgs := g_imgs s; g_extmap := g_extmap s; g_trmap := g_trmap s; g_tr := g_tr s; g_anchors := g_anchors s; g_header := g_header s; g_footer := g_footer s; g_encid := g_encid s; g_compress := g_compress s; g_smasks := g_smasks s; g_rgbs := g_rgbs s |}.
Definition set_extgs v s := {| g_cfg := g_cfg s; g_objs := g_objs s; g_kids := g_kids s; g_pagecount := g_pagecount s; g_npages := g_npages s; g_content := g_content s; g_page := g_page s; g_pagesize := g_pagesize s; g_x := g_x s; g_y := g_y s; g_mleft := g_mleft s; g_mtop := g_mtop s; g_fontsize := g_fontsize s; g_font := g_font s; g_fontcount := g_fontcount s; g_countfont := g_countfont s; g_countcs := g_countcs s; g_outl_first := g_outl_first s; g_outl_last := g_outl_last s; g_outl_count := g_outl_count s; g_outl_lastobj := g_outl_lastobj s; g_cat_outl := g_cat_outl s; g_fonts := g_fonts s; g_cs := g_cs s; g_xobjs := g_xobjs s; g_extgs := v; g_imgs := g_imgs s; g_extmap := g_extmap s; g_trmap := g_trmap s; g_tr := g_tr s; g_anchors := g_anchors s; g_header := g_header s; g_footer := g_footer s; g_encid := g_encid s; g_compress := g_compress s; g_smasks := g_smasks s; g_rgbs := g_rgbs s |}.
Definition set_imgs v s := {| g_cfg := g_cfg s; g_objs := g_objs s; g_kids := g_kids s; g_pagecount := g_pagecount s; g_npages := g_npages s; g_content := g_content s; g_page := g_page s; g_pagesize := g_pagesize s; g_x := g_x s; g_y := g_y s; g_mleft := g_mleft s; g_mtop := g_mtop s; g_fontsize := g_fontsize s; g_font := g_font s; g_fontcount := g_fontcount s; g_countfont := g_countfont s; g_countcs := g_countcs s; g_outl_first := g_outl_first s; g_outl_last := g_outl_last s; g_outl_count := g_outl_count s; g_outl_lastobj := g_outl_lastobj s; g_cat_outl := g_cat_outl s; g_fonts := g_fonts s; g_cs := g_cs s; g_xobjs := g_xobjs s; g_extgs := g_extgs s; g_imgs := v; g_extmap := g_extmap s; g_trmap := g_trmap s; g_tr := g_tr s; g_anchors := g_anchors s; g_header := g_header s; g_footer := g_footer s; g_encid := g_encid s; g_compress := g_compress s; g_smasks := g_smasks s; g_rgbs := g_rgbs s |}.
Definition set_extmap v s := {| g_cfg := g_cfg s; g_objs := g_objs s; g_kids := g_kids s; g_pagecount := g_pagecount s; g_npages := g_npages s; g_content := g_content s; g_page := g_page s; g_pagesize := g_pagesize s; g_x := g_x s; g_y := g_y s; g_mleft := g_mleft s; g_mtop := g_mtop s; g_fontsize := g_fontsize s; g_font := g_font s; g_fontcount := g_fontcount s; g_countfont := g_countfont s; g_countcs := g_countcs s; g_outl_first := g_outl_first s; g_outl_last := g_outl_last s; g_outl_count := g_outl_count s; g_outl_lastobj := g_outl_lastobj s; g_cat_outl := g_cat_outl s; g_fonts := g_fonts s; g_cs := g_cs s; g_xobjs := g_xobjs s; g_extgs := g_extgs s; g_imgs := g_imgs s; g_extmap := v; g_trmap := g_trmap s; g_tr := g_tr s; g_anchors := g_anchors s; g_header := g_header s; g_footer := g_footer s; g_encid := g_encid s; g_compress := g_compress s; g_smasks := g_smasks s; g_rgbs := g_rgbs s |}.
Definition set_trmap v s := {| g_cfg := g_cfg s; g_objs := g_objs s; g_kids := g_kids s; g_pagecount := g_pagecount s; g_npages := g_npages s; g_content := g_content s; g_page := g_page s; g_pagesize := g_pagesize s; g_x := g_x s; g_y := g_y s; g_mleft := g_mleft s; g_mtop := g_mtop s; g_fontsize := g_fontsize s; g_font := g_font s; g_fontcount := g_fontcount s; g_countfont := g_countfont s; g_countcs := g_countcs s; g_outl_first := g_outl_first s; g_outl_last := g_outl_last s; g_outl_count := g_outl_count s; g_outl_lastobj := g_outl_lastobj s; g_cat_outl := g_cat_outl s; g_fonts := g_fonts s; g_cs := g_cs s; g_xobjs := g_xobjs s; g_extgs := g_extgs s; g_imgs := g_imgs s; g_extmap := g_extmap s; g_trmap := v; g_tr := g_tr s; g_anchors := g_anchors s; g_header := g_header s; g_footer := g_footer s; g_encid := g_encid s; g_compress := g_compress s; g_smasks := g_smasks s; g_rgbs := g_rgbs s |}.
Definition set_tr v s := {| g_cfg := g_cfg s; g_objs := g_objs s; g_kids := g_kids s; g_pagecount := g_pagecount s; g_npages := g_npages s; g_content := g_content s; g_page := g_page s; g_pagesize := g_pagesize s; g_x := g_x s; g_y := g_y s; g_mleft := g_mleft s; g_mtop := g_mtop s; g_fontsize := g_fontsize s; g_font := g_font s; g_fontcount := g_fontcount s; g_countfont := g_countfont s; g_countcs := g_countcs s; g_outl_first := g_outl_first s; g_outl_last := g_outl_last s; g_outl_count := g_outl_count s; g_outl_lastobj := g_outl_lastobj s; g_cat_outl := g_cat_outl s; g_fonts := g_fonts s; g_cs := g_cs s; g_xobjs := g_xobjs s; g_extgs := g_extgs s; g_imgs := g_imgs s; g_extmap := g_extmap s; g_trmap := g_trmap s; g_tr := v; g_anchors := g_anchors s; g_header := g_header s; g_footer := g_footer s; g_encid := g_encid s; g_compress := g_compress s; g_smasks := g_smasks s; g_rgbs := g_rgbs s |}.
Definition set_anchors v s := {| g_cfg := g_cfg s; g_objs := g_objs s; g_kids := g_kids s; g_pagecount := g_pagecount s; g_npages := g_npages s; g_content := g_content s; g_page := g_page s; g_pagesize := g_pagesize s; g_x := g_x s; g_y := g_y s; g_mleft := g_mleft s; g_mtop := g_mtop s; g_fontsize := g_fontsize s; g_font := g_font s; g_fontcount := g_fontcount s; g_countfont := g_countfont s; g_countcs := g_countcs s; g_outl_first := g_outl_first s; g_outl_last := g_outl_last s; g_outl_count := g_outl_count s; g_outl_lastobj := g_outl_lastobj s; g_cat_outl := g_cat_outl s; g_fonts := g_fonts s; g_cs := g_cs s; g_xobjs := g_xobjs s; g_extgs := g_extgs s; g_imgs := g_imgs s; g_extmap := g_extmap s; g_trmap := g_trmap s; g_tr := g_tr s; g_anchors := v; g_header := g_header s; g_footer := g_footer s; g_encid := g_encid s; g_compress := g_compress s; g_smasks := g_smasks s; g_rgbs := g_rgbs s |}.
Definition set_header v s := {| g_cfg := g_cfg s; g_objs := g_objs s; g_kids := g_kids s; g_pagecount := g_pagecount s; g_npages := g_npages s; g_content := g_content s; g_page := g_page s; g_pagesize := g_pagesize s; g_x := g_x s; g_y := g_y s; g_mleft := g_mleft s; g_mtop := g_mtop s; g_fontsize := g_fontsize s; g_font := g_font s; g_fontcount := g_fontcount s; g_countfont := g_countfont s; g_countcs := g_countcs s; g_outl_first := g_outl_first s; g_outl_last := g_outl_last s; g_outl_count := g_outl_count s; g_outl_lastobj := g_outl_lastobj s; g_cat_outl := g_cat_outl s; g_fonts := g_fonts s; g_cs := g_cs s; g_xobjs := g_xobjs s; g_extgs := g_extgs s; g_imgs := g_imgs s; g_extmap := g_extmap s; g_trmap := g_trmap s; g_tr := g_tr s; g_anchors := g_anchors s; g_header := v; g_footer := g_footer s; g_encid := g_encid s; g_compress := g_compress s; g_smasks := g_smasks s; g_rgbs := g_rgbs s |}.
Definition set_footer v s := {| g_cfg := g_cfg s; g_objs := g_objs s; g_kids := g_kids s; g_pagecount := g_pagecount s; g_npages := g_npages s; g_content := g_content s; g_page := g_page s; g_pagesize := g_pagesize s; g_x := g_x s; g_y := g_y s; g_mleft := g_mleft s; g_mtop := g_mtop s; g_fontsize := g_fontsize s; g_font := g_font s; g_fontcount := g_fontcount s; g_countfont := g_countfont s; g_countcs := g_countcs s; g_outl_first := g_outl_first s; g_outl_last := g_outl_last s; g_outl_count := g_outl_count s; g_outl_lastobj := g_outl_lastobj s; g_cat_outl := g_cat_outl s; g_fonts := g_fonts s; g_cs := g_cs s; g_xobjs := g_xobjs s; g_extgs := g_extgs s; g_imgs := g_imgs s; g_extmap := g_extmap s; g_trmap := g_trmap s; g_tr := g_tr s; g_anchors := g_anchors s; g_header := g_header s; g_footer := v; g_encid := g_encid s; g_compress := g_compress s; g_smasks := g_smasks s; g_rgbs := g_rgbs s |}.
Definition set_encid v s := {| g_cfg := g_cfg s; g_objs := g_objs s; g_kids := g_kids s; g_pagecount := g_pagecount s; g_npages := g_npages s; g_content := g_content s; g_page := g_page s; g_pagesize := g_pagesize s; g_x := g_x s; g_y := g_y s; g_mleft := g_mleft s; g_mtop := g_mtop s; g_fontsize := g_fontsize s; g_font := g_font s; g_fontcount := g_fontcount s; g_countfont := g_countfont s; g_countcs := g_countcs s; g_outl_first := g_outl_first s; g_outl_last := g_outl_last s; g_outl_count := g_outl_count s; g_outl_lastobj := g_outl_lastobj s; g_cat_outl := g_cat_outl s; g_fonts := g_fonts s; g_cs := g_cs s; g_xobjs := g_xobjs s; g_extgs := g_extgs s; g_imgs := g_imgs s; g_extmap := g_extmap s; g_trmap := g_trmap s; g_tr := g_tr s; g_anchors := g_anchors s; g_header := g_header s; g_footer := g_footer s; g_encid := v; g_compress := g_compress s; g_smasks := g_smasks s; g_rgbs := g_rgbs s |}.
Definition set_compress v s := {| g_cfg := g_cfg s; g_objs := g_objs s; g_kids := g_kids s; g_pagecount := g_pagecount s; g_npages := g_npages s; g_content := g_content s; g_page := g_page s; g_pagesize := g_pagesize s; g_x := g_x s; g_y := g_y s; g_mleft := g_mleft s; g_mtop := g_mtop s; g_fontsize := g_fontsize s; g_font := g_font s; g_fontcount := g_fontcount s; g_countfont := g_countfont s; g_countcs := g_countcs s; g_outl_first := g_outl_first s; g_outl_last := g_outl_last s; g_outl_count := g_outl_count s; g_outl_lastobj := g_outl_lastobj s; g_cat_outl := g_cat_outl s; g_fonts := g_fonts s; g_cs := g_cs s; g_xobjs := g_xobjs s; g_extgs := g_extgs s; g_imgs := g_imgs s; g_extmap := g_extmap s; g_trmap := g_trmap s; g_tr := g_tr s; g_anchors := g_anchors s; g_header := g_header s; g_footer := g_footer s; g_encid := g_encid s; g_compress := v; g_smasks := g_smasks s; g_rgbs := g_rgbs s |}.
Definition set_smasks v s := {| g_cfg := g_cfg s; g_objs := g_objs s; g_kids := g_kids s; g_pagecount := g_pagecount s; g_npages := g_npages s; g_content := g_content s; g_page := g_page s; g_pagesize := g_pagesize s; g_x := g_x s; g_y := g_y s; g_mleft := g_mleft s; g_mtop := g_mtop s; g_fontsize := g_fontsize s; g_font := g_font s; g_fontcount := g_fontcount s; g_countfont := g_countfont s; g_countcs := g_countcs s; g_outl_first := g_outl_first s; g_outl_last := g_outl_last s; g_outl_count := g_outl_count s; g_outl_lastobj := g_outl_lastobj s; g_cat_outl := g_cat_outl s; g_fonts := g_fonts s; g_cs := g_cs s; g_xobjs := g_xobjs s; g_extgs := g_extgs s; g_imgs := g_imgs s; g_extmap := g_extmap s; g_trmap := g_trmap s; g_tr := g_tr s; g_anchors := g_anchors s; g_header := g_header s; g_footer := g_footer s; g_encid := g_encid s; g_compress := g_compress s; g_smasks := v; g_rgbs := g_rgbs s |}.
Definition set_rgbs v s := {| g_cfg := g_cfg s; g_objs := g_objs s; g_kids := g_kids s; g_pagecount := g_pagecount s; g_npages := g_npages s; g_content := g_content s; g_page := g_page s; g_pagesize := g_pagesize s; g_x := g_x s; g_y := g_y s; g_mleft := g_mleft s; g_mtop := g_mtop s; g_fontsize := g_fontsize s; g_font := g_font s; g_fontcount := g_fontcount s; g_countfont := g_countfont s; g_countcs := g_countcs s; g_outl_first := g_outl_first s; g_outl_last := g_outl_last s; g_outl_count := g_outl_count s; g_outl_lastobj := g_outl_lastobj s; g_cat_outl := g_cat_outl s; g_fonts := g_fonts s; g_cs := g_cs s; g_xobjs := g_xobjs s; g_extgs := g_extgs s; g_imgs := g_imgs s; g_extmap := g_extmap s; g_trmap := g_trmap s; g_tr := g_tr s; g_anchors := g_anchors s; g_header := g_header s; g_footer := g_footer s; g_encid := g_encid s; g_compress := g_compress s; g_smasks := g_smasks s; g_rgbs := v |}.

(** Replace element [i] of a list (no effect out of range). *)
Fixpoint upd {A} (l : list A) (i : nat) (f : A -> A) : list A :=
  match l, i with
  | [], _ => []
  | x :: r, O => f x :: r
  | x :: r, S j => x :: upd r j f
  end.
Fixpoint lookup {B} (k : bytes) (l : list (bytes * B)) : option B :=
  match l with [] => None | (k', v) :: r => if list_eqb k k' then Some v else lookup k r end.

(** Fixed-point printing of a rational with 3 decimals, Go's "%.3f" on an exact value: round half to
    even. Used only as a cache key here (transparency.go:59-63, ext_g_state_obj.go:28-46). *)
Definition round_half_even (n : Z) (d : positive) : Z :=   (* n/d *)
  let q := n / Zpos d in let r := n mod Zpos d in
  if 2 * r <? Zpos d then q else if Zpos d <? 2 * r then q + 1 else if Z.even q then q else q + 1.
Definition fmt_fixed (places : Z) (v : Q) : bytes :=
  let neg := Qnum v <? 0 in
  let k := round_half_even (Z.abs (Qnum v) * 10 ^ places) (Qden v) in
  (if neg then [45] else []) ++ dec (k / 10 ^ places)
  ++ (if places =? 0 then [] else bs "." ++ pad_left (Z.to_nat places) (dec (k mod 10 ^ places))).

(** ** Object table: gopdf.go:2358-2362 addObj *)
Definition addObj (o : obj) (s : gp) : nat * gp :=
  (List.length (g_objs s), set_objs (g_objs s ++ [o]) s).

(** gopdf.go:2364-2376 getContent: index of the current content object, created on demand. *)
Definition getContent (s : gp) : nat * gp :=
  match g_content s with
  | Some i => (i, s)
  | None => let '(i, s) := addObj (OContent []) s in (i, set_content (Some i) s)
  end.

(** listCache.append on the current content (list_cache_content.go:17-19). *)
Definition append_item (i : nat) (it : item) (s : gp) : gp :=
  set_objs (upd (g_objs s) i (fun o => match o with OContent l => OContent (l ++ [it]) | _ => o end)) s.

(** A drawing call: getContent().AppendStream…; those that use the page height dereference
    curr.pageSize (content_obj.go, e.g. 231, 259, 300) and panic when no page was added. *)
Definition draw (needs_page : bool) (it : rectq -> item) (s : gp) : gp * result :=
  let '(i, s) := getContent s in
  match g_pagesize s with
  | Some r => (append_item i (it r) s, Ok)
  | None => if needs_page then (s, Panic) else (append_item i (it {| r_w := 0; r_h := 0 |}) s, Ok)
  end.

(** gopdf.go:2481-2496 SetPage: the n-th *content* object. *)
Fixpoint find_content (l : list obj) (i : nat) (seen n : Z) : option nat :=
  match l with
  | [] => None
  | OContent _ :: r => if seen + 1 =? n then Some i else find_content r (S i) (seen + 1) n
  | _ :: r => find_content r (S i) seen n
  end.
Definition setPage (n : Z) (s : gp) : gp * result :=
  match find_content (g_objs s) 0 0 n with
  | Some i => (set_content (Some i) s, Ok)
  | None => (s, Err)
  end.

(** font_option.go:11: Underline = 4; style &^ Underline. *)
Definition strip_underline (style : Z) : Z := Z.ldiff style 4.

(** gopdf.go:1779-1828 setSubsetFontObject. *)
Definition addFont (family : bytes) (style : Z) (s : gp) : gp * result :=
  let '(ui, s) := addObj OUnicodeMap s in
  let '(di, s) := addObj OPdfDict s in
  let '(fi, s) := addObj (OSubDesc di) s in
  let '(ci, s) := addObj (OCIDFont fi) s in
  let dup := existsb (fun r => list_eqb (rf_family r) family && (rf_style r =? strip_underline style)) (g_fonts s) in
  let f := {| fo_family := family; fo_style := style;
              fo_count := if dup then 0 else g_countfont s; fo_cid := ci; fo_umap := ui |} in
  let '(index, s) := addObj (OSubsetFont f) s in
  if dup then (s, Ok)
  else (set_countfont (g_countfont s + 1)
         (set_fonts (g_fonts s ++ [{| rf_family := family; rf_style := strip_underline style;
                                      rf_count := g_countfont s; rf_index := index |}]) s), Ok).

(** gopdf.go:955-989 SetFontWithStyle (size already converted). *)
Fixpoint find_font (l : list obj) (i : nat) (family : bytes) (style : Z) : option (nat * font) :=
  match l with
  | [] => None
  | OSubsetFont f :: r =>
      if list_eqb (fo_family f) family && (fo_style f =? strip_underline style) then Some (i, f)
      else find_font r (S i) family style
  | _ :: r => find_font r (S i) family style
  end.
Definition setFont (family : bytes) (style : Z) (size : Q) (s : gp) : gp * result :=
  match find_font (g_objs s) 0 family style with
  | Some (i, f) => (set_fontsize size (set_fontcount (fo_count f) (set_font (Some i) s)), Ok)
  | None => (s, Err)
  end.

(** Text/Cell: AddChars on curr.FontISubset (nil pointer panics), then AppendStreamText. The text is
    assumed to have glyphs for all characters (AddChars is in FontModel.v). *)
Definition text (t : bytes) (s : gp) : gp * result :=
  match g_font s with
  | None => (s, Panic)
  | Some _ => draw true (fun _ => IText (g_fontcount s + 1) t (g_tr s)) s
  end.

(** ext_g_state_obj.go:28-74: GetId and GetCachedExtGState. *)
Definition extgs_id (e : extgs) : bytes :=
  match eg_alpha e with
  | Some a => bs "CA_" ++ fmt_fixed 3 a ++ bs ";ca_" ++ fmt_fixed 3 a ++ bs ";"
  | None => [] end
  ++ match eg_bm e with Some b => bs "BM_" ++ b ++ bs ";" | None => [] end
  ++ match eg_smask e with Some i => bs "SMask_" ++ fmt_d (Z.of_nat i) ++ bs "_0_R;" | None => [] end.
Definition getCachedExtGState (e : extgs) (s : gp) : nat * gp :=
  match lookup (extgs_id e) (g_extmap s) with
  | Some i => (i, s)
  | None => let '(i, s) := addObj (OExtGState e) s in
            (i, set_extmap ((extgs_id e, i) :: g_extmap s) (set_extgs (g_extgs s ++ [i]) s))
  end.

(** transparency.go:59-63 GetId; gopdf.go:2431-2457 saveTransparency; gopdf.go:2400-2409. *)
Definition tr_id (alpha : Q) (bm : bytes) : bytes := fmt_fixed 3 alpha ++ bs "_" ++ bm.
Definition saveTransparency (alpha : Q) (bm : bytes) (s : gp) : option Z * gp :=
  match lookup (tr_id alpha bm) (g_trmap s) with
  | Some ix => (Some ix, s)
  | None =>
      if Qeq_bool alpha 1 then (None, s)
      else let '(i, s) := getCachedExtGState {| eg_alpha := Some alpha; eg_bm := Some bm; eg_smask := None |} s in
           let ix := Z.of_nat i + 1 in
           (Some ix, set_trmap ((tr_id alpha bm, ix) :: g_trmap s) s)
  end.

(** gopdf.go:650-727 imageByHolder. [gs]: extGStateIndexes collected by the caller;
    [split]: opts.Mask != nil. *)
Definition imageByHolder (split : bool) (id : bytes) (im : imgdesc) (gs : list Z) (s : gp) : gp * result :=
  match lookup id (g_imgs s) with
  | Some i => draw true (fun _ => IImage i gs) s
  | None =>
      if im_ok im then
        let '(index, s) := addObj (OImage im (if split then Split else Plain)) s in
        match draw true (fun _ => IImage index gs) s with
        | (s, Ok) =>
            let s := set_xobjs (g_xobjs s ++ [index]) s in
            let s := set_imgs ((id, index) :: g_imgs s) s in
            let s := if im_alpha im then let '(m, s) := addObj OSMaskImg s in set_smasks ((index, m) :: g_smasks s) s else s in
            let s := if im_indexed im then let '(d, s) := addObj ODeviceRGB s in set_rgbs ((index, d) :: g_rgbs s) s else s in
            (s, Ok)
        | r => r
        end
      else (s, Err)
  end.

(** gopdf.go:540-648 maskHolder + createTransparencyXObjectGroup; returns the ExtGState object number. *)
Definition maskImage (id : bytes) (im : imgdesc) (s : gp) : gp * result * nat :=
    match lookup id (g_imgs s) with
    | Some i => let '(_, s) := getContent s in (s, Ok, i)
    | None =>
        if im_ok im then
          let '(index, s) := addObj (OImage im AsMask) s in
          let '(_, s) := getContent s in
          match g_pagesize s with
          | None => (s, Panic, index)
          | Some _ => (set_imgs ((id, index) :: g_imgs s) (set_xobjs (g_xobjs s ++ [index]) s), Ok, index)
          end
        else (s, Err, O)
    end.
Definition maskHolder (id : bytes) (im : imgdesc) (s : gp) : gp * result * Z :=
  match maskImage id im s with
  | (s, Ok, index) =>
      match g_pagesize s with
      | None => (s, Panic, 0)
      | Some _ =>
          let '(grp, s) := addObj (OXGroup index) s in
          let '(mi, s) := addObj (OMask grp) s in       (* GetCachedMask: the group is new, so is the mask *)
          let '(ei, s) := getCachedExtGState {| eg_alpha := None; eg_bm := None; eg_smask := Some mi |} s in
          (s, Ok, Z.of_nat ei + 1)
      end
  | (s, r, _) => (s, r, 0)
  end.

(** gopdf.go:1703-1728: AddExternalLink / AddInternalLink / addLink. *)
Definition addLink (l : link) (s : gp) : gp * result :=
  match g_page s with
  | None => (s, Panic)                                   (* pdfObjs[-1] *)
  | Some p =>
      let l' := {| lk_x := lk_x l; lk_y := (r_h (cf_page (g_cfg s)) - lk_y l)%Q; lk_w := lk_w l;
                   lk_h := lk_h l; lk_url := lk_url l; lk_anchor := lk_anchor l |} in
      let '(i, s) := addObj (OAnnot l') s in
      (set_objs (upd (g_objs s) p (fun o => match o with
         | OPage pg => OPage {| pg_size := pg_size pg; pg_contents := pg_contents pg;
                                pg_links := pg_links pg ++ [Z.of_nat i + 1] |}
         | _ => o end)) s, Ok)
  end.

(** outlines_obj.go:54-84 AddOutline / AddOutlinesWithPosition. The object is appended first, then
    the previous last entry's [next] is set.  [parent] is the 0-based index 2 of the outlines
    object (gopdf.go:900-901, outlines_obj.go:50-52). *)
Definition addOutline (title : bytes) (withpos : bool) (s : gp) : gp * result :=
  let dest := match g_page s with Some p => Z.of_nat p + 1 | None => 0 end in
  let num := Z.of_nat (List.length (g_objs s)) + 1 in
  let o := {| ol_title := title; ol_index := if withpos then num else 0; ol_dest := dest; ol_parent := 2;
              ol_prev := g_outl_last s; ol_next := -1; ol_first := 0; ol_last := 0;
              ol_height := if withpos then (r_h (cf_page (g_cfg s)) - g_y s + 20)%Q else 0%Q |} in
  let '(i, s) := addObj (OOutline o) s in
  let s := set_outl_last num s in
  let s := if g_outl_first s <=? 0 then set_outl_first num s else s in
  let s := match g_outl_lastobj s with
           | Some j => set_objs (upd (g_objs s) j (fun ob => match ob with
               | OOutline q => OOutline {| ol_title := ol_title q; ol_index := ol_index q; ol_dest := ol_dest q;
                   ol_parent := ol_parent q; ol_prev := ol_prev q; ol_next := num;
                   ol_first := ol_first q; ol_last := ol_last q; ol_height := ol_height q |}
               | _ => ob end)) s
           | None => s
           end in
  (set_outl_count (g_outl_count s + 1) (set_outl_lastobj (Some i) s), Ok).

(** gopdf.go:1689-1695 ImportObjects: ids start .. start+len(objs)-1, empty or missing ids skipped. *)
Fixpoint zlookup {B} (k : Z) (l : list (Z * B)) : option B :=
  match l with [] => None | (k', v) :: r => if k =? k' then Some v else zlookup k r end.
Definition importObjects (objs : list (Z * bytes)) (start : Z) (s : gp) : gp :=
  fold_left (fun s k => match zlookup (start + Z.of_nat k) objs with
                        | Some (b :: d) => snd (addObj (OImported (b :: d)) s)
                        | _ => s end)
            (seq 0 (List.length objs)) s.

(** gopdf.go:2542-2560 addColorSpace: the object is added before the duplicate check. *)
Definition addColorSpace (name : bytes) (s : gp) : gp * result :=
  let dup := existsb (fun r => list_eqb (rc_name r) name) (g_cs s) in
  let '(i, s) := addObj (OColorSpace name (if dup then 0 else g_countcs s)) s in
  if dup then (s, Err)
  else (set_countcs (g_countcs s + 1)
          (set_cs (g_cs s ++ [{| rc_name := name; rc_count := g_countcs s; rc_index := i |}]) s), Ok).

(** gopdf.go:2498-2522 SetColorSpace. *)
Fixpoint find_cs (l : list obj) (name : bytes) : option Z :=
  match l with
  | [] => None
  | OColorSpace n c :: r => if list_eqb n name then Some c else find_cs r name
  | _ :: r => find_cs r name
  end.
Definition setColorSpace (name : bytes) (s : gp) : gp * result :=
  match find_cs (g_objs s) name with
  | Some c => draw false (fun _ => IColorSpace c) s
  | None => (s, Err)
  end.

(** gopdf.go:165-179 SetCompressLevel. *)
Definition setCompressLevel (l : Z) (s : gp) : gp :=
  if l <? -2 then set_compress (-1) s
  else if 9 <? l then s                      (* the message promises BestCompression, then returns *)
  else set_compress l s.

Definition sstep (s : gp) (o : sop) : gp * result :=
  match o with
  | Draw np b => draw np (fun _ => IBytes b) s
  | UseTemplate n ty => draw true (fun r => ITemplate n ty (r_h r)) s
  | Text t => text t s
  | SetPage n => setPage n s
  | AddFont f st => addFont f st s
  | SetFont f st sz => setFont f st sz s
  | Image id im => imageByHolder false id im (match g_tr s with Some t => [t] | None => [] end) s
  | ImageMasked id im mid mim =>
      match maskHolder mid mim s with
      | (s, Ok, e) => imageByHolder true id im (match g_tr s with Some t => [t] | None => [] end ++ [e]) s
      | (s, r, _) => (s, r)
      end
  | AddLink l => addLink l s
  | SetAnchor n =>                            (* gopdf.go:1730-1733 *)
      (set_anchors ((n, (g_page s, (r_h (cf_page (g_cfg s)) - g_y s + g_fontsize s)%Q)) :: g_anchors s) s, Ok)
  | AddOutline t => addOutline t false s
  | AddOutlinePos t => addOutline t true s
  | ImportObjects m st => (importObjects m st s, Ok)
  | AddColorSpace n => addColorSpace n s
  | SetColorSpace n => setColorSpace n s
  | SetTransparency a b => let '(t, s) := saveTransparency a b s in (set_tr t s, Ok)
  | ClearTransparency => (set_tr None s, Ok)
  | SetXY x y => (set_x x (set_y y s), Ok)
  | SetCompressLevel l => (setCompressLevel l s, Ok)
  | SetNoCompression => (set_compress 0 s, Ok)
  end.

(** A callback: a sequence of calls; a panic aborts it. *)
Fixpoint run_sops (s : gp) (l : list sop) : gp * result :=
  match l with
  | [] => (s, Ok)
  | o :: r => match sstep s o with
              | (s, Panic) => (s, Panic)
              | (s, _) => run_sops s r
              end
  end.

(** gopdf.go:2194-2197 resetCurrXY. *)
Definition resetXY (s : gp) : gp := set_x (g_mleft s) (set_y (g_mtop s) s).

Definition new_page (size : option rectq) : page := {| pg_size := size; pg_contents := []; pg_links := [] |}.

(** gopdf.go:806-849 AddPageWithOption (the trim box, which no property here looks at, is left out). *)
Definition addPage (size : option rectq) (s : gp) : gp * result :=
  let s := set_pagesize (match size with Some r => Some r | None => Some (cf_page (g_cfg s)) end) s in
  let '(index, s) := addObj (OPage (new_page size)) s in
  let s := set_page (Some index) s in
  let s := set_npages (g_npages s + 1) s in
  let s := set_content None s in
  let s := resetXY s in
  match (match g_header s with None => (s, Ok) | Some f =>
           match run_sops s f with (s, Panic) => (s, Panic) | (s, _) => (resetXY s, Ok) end end) with
  | (s, Panic) => (s, Panic)
  | (s, _) =>
      match g_footer s with None => (s, Ok) | Some f =>
        match run_sops s f with (s, Panic) => (s, Panic) | (s, _) => (resetXY s, Ok) end end
  end.

(** gopdf.go:883-918 start and gopdf.go:2134-2184 init. Fields that init does not assign keep their
    value: numOfPagesObj, headerFunc, footerFunc (and the outlines pointer, replaced in start). *)
Definition start (c : config) (s : gp) : gp := {|
  g_cfg := c; g_objs := [OCatalog; OPages; OOutlines; OProcSet];
  g_kids := []; g_pagecount := 0;
  g_npages := g_npages s;
  g_content := None; g_page := None; g_pagesize := None;
  g_x := 0; g_y := 0; g_mleft := 10; g_mtop := 10;
  g_fontsize := 0; g_font := None; g_fontcount := 0; g_countfont := 0; g_countcs := 0;
  g_outl_first := -1; g_outl_last := -1; g_outl_count := 0; g_outl_lastobj := None; g_cat_outl := -1;
  g_fonts := []; g_cs := []; g_xobjs := []; g_extgs := []; g_imgs := []; g_extmap := []; g_trmap := [];
  g_tr := None; g_anchors := [];
  g_header := g_header s; g_footer := g_footer s;
  g_encid := 0; g_compress := -1; g_smasks := []; g_rgbs := [] |}.

(** The Go zero value GoPdf{}, before Start. *)
Definition zero_gp : gp := {|
  g_cfg := {| cf_page := {| r_w := 0; r_h := 0 |}; cf_protect := false |}; g_objs := [];
  g_kids := []; g_pagecount := 0; g_npages := 0; g_content := Some O; g_page := Some O; g_pagesize := None;
  g_x := 0; g_y := 0; g_mleft := 0; g_mtop := 0;
  g_fontsize := 0; g_font := None; g_fontcount := 0; g_countfont := 0; g_countcs := 0;
  g_outl_first := 0; g_outl_last := 0; g_outl_count := 0; g_outl_lastobj := None; g_cat_outl := 0;
  g_fonts := []; g_cs := []; g_xobjs := []; g_extgs := []; g_imgs := []; g_extmap := []; g_trmap := [];
  g_tr := None; g_anchors := []; g_header := None; g_footer := None; g_encid := 0; g_compress := 0; g_smasks := []; g_rgbs := [] |}.

(** ** Output *)
(** gopdf.go:2251-2281, the loop of prepare over the object table: pages are appended to Kids,
    a content object is appended to the Contents of the last page seen (indexCurrPage), the last
    Encryption object gives encryptionObjID.  "Font" objects (FontObj) are never added by the API. *)
Record prep_st := { ps_objs : list obj; ps_kids : list Z; ps_count : Z; ps_cur : option nat; ps_enc : Z }.
Definition add_content (num : Z) (o : obj) : obj :=
  match o with
  | OPage p => OPage {| pg_size := pg_size p; pg_contents := pg_contents p ++ [num]; pg_links := pg_links p |}
  | _ => o
  end.
Definition prep_step (st : prep_st) (i : nat) : prep_st :=
  match nth_error (ps_objs st) i with
  | Some (OPage _) =>
      {| ps_objs := ps_objs st; ps_kids := ps_kids st ++ [Z.of_nat i + 1]; ps_count := ps_count st + 1;
         ps_cur := Some i; ps_enc := ps_enc st |}
  | Some (OContent _) =>
      match ps_cur st with
      | Some p => {| ps_objs := upd (ps_objs st) p (add_content (Z.of_nat i + 1));
                     ps_kids := ps_kids st; ps_count := ps_count st; ps_cur := Some p; ps_enc := ps_enc st |}
      | None => st
      end
  | Some OEncryption =>
      {| ps_objs := ps_objs st; ps_kids := ps_kids st; ps_count := ps_count st; ps_cur := ps_cur st;
         ps_enc := Z.of_nat i + 1 |}
  | _ => st
  end.

(** gopdf.go:2236-2285 prepare. *)
Definition prepare (s : gp) : gp :=
  let s := if cf_protect (g_cfg s) then snd (addObj OEncryption s) else s in
  let s := if 0 <? g_outl_count s then set_cat_outl 3 s else s in
  let st := fold_left prep_step (seq 0 (List.length (g_objs s)))
              {| ps_objs := g_objs s; ps_kids := g_kids s; ps_count := g_pagecount s;
                 ps_cur := None; ps_enc := g_encid s |} in
  set_objs (ps_objs st) (set_kids (ps_kids st) (set_pagecount (ps_count st) (set_encid (ps_enc st) s))).

(** What writing a content object does to it: imported templates move (cache_content_imported_object.go:17-21). *)
Definition written_item (it : item) : item :=
  match it with ITemplate n ty ph => ITemplate n (ty + ph)%Q ph | _ => it end.
Definition written_obj (o : obj) : obj :=
  match o with OContent l => OContent (map written_item l) | _ => o end.

(** Output: prepare, then every object is written once. The state in which objects are *printed* is
    [written]: templates print their moved position. *)
Definition output (s : gp) : gp :=
  let s := prepare s in set_objs (map written_obj (g_objs s)) s.

Definition step (s : gp) (o : op) : gp * result :=
  match o with
  | Do o => sstep s o
  | Start c => (start c s, Ok)
  | AddPage sz => addPage sz s
  | AddHeader f => (set_header f s, Ok)
  | AddFooter f => (set_footer f s, Ok)
  | Output => (output s, Ok)
  end.

Definition exec (s : gp) (l : list op) : gp := fold_left (fun s o => fst (step s o)) l s.
