(** FaceModel.v — between a parsed font file (TtfModel.v) and what gopdf computes with it: the accessors of
    fontmaker/core/ttfparser.go used by subfont_descriptor_obj.go and cache_content_text.go, and the view of a
    registered font that the drawing model works with (DrawModel.fontv). *)
From Coq Require Import SpecFloat.
From Verif Require Import Base NumModel TtfModel SubsetModel ObjModel DrawModel.

(** fontmaker/core/ttfparser.go:143-148 Ascender. *)
Definition ascenderOf (f : ttf) : Z := if o_typoAsc (t_os2 f) =? 0 then t_asc f else o_winAsc (t_os2 f).
(** 150-159 Descender. *)
Definition descenderOf (f : ttf) : Z :=
  if o_typoDesc (t_os2 f) =? 0 then t_desc f
  else if t_desc f <? 0 then o_winDesc (t_os2 f) * (-1) else o_winDesc (t_os2 f).
(** 105-111 XHeight; the constant 0.66 is the float64 nearest to 66/100. *)
Definition xHeightOf (f : ttf) : Z :=
  if (2 <=? o_version (t_os2 f)) && negb (o_xheight (t_os2 f) =? 0) then o_xheight (t_os2 f)
  else f64_trunc (SFmul prec64 emax64 (SFdiv prec64 emax64 (f64_ofZ 66) (f64_ofZ 100)) (f64_ofZ (t_asc f))).
(** 133-141 Flag.  [symbol] is reset for every encoding record and set only under encodingID == 1 && encodingID == 0
    (622-627), so it is always false: Nonsymbolic, 1 << 5. *)
Definition flagOf (f : ttf) : Z := 32.
(** 113-131, 170-181: XMin, YMin, XMax, YMax, ItalicAngle, CapHeight, UnitsPerEm. *)
Definition metrics_of (f : ttf) : metrics :=
  let '(x0, y0, x1, y1) := t_bbox f in
  let '(angle, _, _, _) := t_post f in
  {| mt_asc := ascenderOf f; mt_cap := o_cap (t_os2 f); mt_desc := descenderOf f; mt_flag := flagOf f;
     mt_xmin := x0; mt_ymin := y0; mt_xmax := x1; mt_ymax := y1; mt_angle := angle; mt_xheight := xHeightOf f; mt_upem := t_upem f |}.

(** A registered font as cache_content_text.go sees it, once the characters [m] are registered: CharIndex and
    CharWidth (subset_font_obj.go:219-234), kern (cache_content_text.go:452-473, no override function set),
    AddChars (137-166), TypoAscender, TypoDescender (ttfparser.go:161-167), Ascender, Descender, UnderlinePosition and
    UnderlineThickness (subset_font_obj.go:320-353).  A text on which AddChars panics is kept as it is: drawing it
    never gets that far. *)
Definition face (f : ttf) (useKerning : bool) (subst : Z -> Z) (m : charmap) : fontv :=
  let '(_, upos, uthick, _) := t_post f in
  {| fv_ci := fun r => val m r;
     fv_cw := fun r => match val m r with Some g => glyphWidth f g | None => None end;
     fv_useKern := useKerning;
     fv_pair := fun _ _ lg rg => match kernValue useKerning f lg rg with Some v => v | None => 0 end;
     fv_add := fun txt => match addChars (charToGlyph f) subst m txt with Some (out, _) => out | None => txt end;
     fv_upem := t_upem f; fv_tasc := o_typoAsc (t_os2 f); fv_tdesc := o_typoDesc (t_os2 f);
     fv_asc := ascenderOf f; fv_desc := descenderOf f; fv_upos := upos; fv_uthick := uthick |}.
