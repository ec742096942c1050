(** DrawModel.v — drawing on one page: the content caches (cache_content_*.go, cache_color_space.go,
    cache_contact_color_rgb.go, cache_contnent_curve.go), their text in the content stream, ContentObj's
    AppendStream* (content_obj.go:100-460), list_cache_content.go, and the drawing functions of gopdf.go.

    Everything is over an arbitrary [num] (see NumModel.v) and an arbitrary function [rot] giving
    (cos a, sin a) of an angle in degrees (cache_content_rotate.go:38-41).
    Texts are lists of runes.  Go's [range] over a string gives byte indices; the code only compares them with
    each other and with 0, so the position of the rune is used instead (same order, same zero). *)
From Verif Require Import Base StrModel NumModel UnitModel.

(** What a font contributes: CharIndex and CharWidth of the characters registered in the subset
    (subset_font_obj.go:219-234; None: ErrCharNotFound), the kerning of a pair including the override
    (cache_content_text.go:452-473 [kern]), the texts AddChars returns, and the metrics used.
    Simplification: the glyph of a character is the same when the text is drawn and when it is written; C24
    proves that registered characters keep their glyph. *)
Record fontv := { fv_ci : Z -> option Z; fv_cw : Z -> option Z; fv_useKern : bool;
                  fv_pair : Z -> Z -> Z -> Z -> Z;            (* left rune, right rune, left glyph, right glyph *)
                  fv_add : list Z -> list Z; fv_upem : Z; fv_tasc : Z; fv_tdesc : Z;
                  fv_asc : Z; fv_desc : Z; fv_upos : Z; fv_uthick : Z }.

(** content_obj.go:489-506 convertTTFUnit2PDFUnit (Go's / and % truncate); upem <> 0. *)
Definition ttf2pdf (n upem : Z) : Z :=
  if n <? 0 then
    let rest1 := Z.rem n upem in
    let storrest := 1000 * rest1 in
    let ledd2 := if storrest =? 0 then 0 else Z.quot rest1 storrest in
    - (Z.quot (- 1000 * n) upem - ledd2)
  else Z.quot n upem * 1000 + Z.quot (Z.rem n upem * 1000) upem.

(** i_cache_color_text.go, cache_content_text_color_{rgb,cmyk}.go *)
Inductive tcol := RGB (r g b : Z) | CMYK (c m y k : Z).
Definition tcol_eqb (a b : tcol) : bool :=
  match a, b with
  | RGB r g b, RGB r' g' b' => (r =? r') && (g =? g') && (b =? b')
  | CMYK c m y k, CMYK c' m' y' k' => (c =? c') && (m =? m') && (y =? y') && (k =? k')
  | _, _ => false
  end.
(** cell_option.go *)
Definition oLeft := 8. Definition oTop := 4. Definition oRight := 2. Definition oBottom := 1.
Definition oCenter := 16. Definition oMiddle := 32. Definition oJustify := 64.
Definition has (v bit : Z) : bool := Z.land v bit =? bit.
Definition styUnderline := 4.          (* font_option.go: Regular 0, Italic 1, Bold 2, Underline 4 *)

(** cache_content_text.go:103-127 *)
Fixpoint nonSpaceBounds' (txt : list Z) (i first last : Z) : Z * Z :=
  match txt with
  | [] => (first, last)
  | r :: t => if r =? 32 then nonSpaceBounds' t (i + 1) first last
              else nonSpaceBounds' t (i + 1) (if first <? 0 then i else first) i
  end.
Definition nonSpaceBounds (txt : list Z) : Z * Z := nonSpaceBounds' txt 0 (-1) (-1).
Fixpoint countIn (txt : list Z) (i first last : Z) : Z :=
  match txt with
  | [] => 0
  | r :: t => (if (r =? 32) && (first <? i) && (i <? last) then 1 else 0) + countIn t (i + 1) first last
  end.
Definition interiorSpaceCount (txt : list Z) : Z :=
  let '(first, last) := nonSpaceBounds txt in if first <? 0 then 0 else countIn txt 0 first last.
(** cache_content_text.go:129-138 lineAlign *)
Definition lineAlign (align : Z) (isLast : bool) : Z :=
  if isLast && has align oJustify then Z.lor (Z.ldiff align oJustify) oLeft else align.

Section Draw.
  Variable N : num.
  Variable rot : T N -> T N * T N.
  Notation T := (T N).
  Infix "+." := (nadd N) (at level 50, left associativity).
  Infix "-." := (nsub N) (at level 50, left associativity).
  Infix "*." := (nmul N) (at level 40, left associativity).
  Infix "/." := (ndiv N) (at level 40, left associativity).
  Notation f2 := (nfmt N 2).
  Notation f3 := (nfmt N 3).
  Notation nZ := (nofZ N).
  Notation nhalf := (nfrac N 1 2).

  Definition w (s : string) : bytes := bs s.
  Definition nl : bytes := [NL].
  Definition sp : bytes := [32].

  (** ** Text *)
  (** cache_content_text.go:73-76 convertTypoUnit *)
  Definition convertTypoUnit (v : Z) (upem : Z) (size : T) : T := (nZ v *. nZ 1000) /. nZ upem *. size /. nZ 1000.
  (** 89-97 justifyAdjustment *)
  Definition justifyAdjustment (slack : T) (gaps : Z) (size : T) : Z :=
    if (gaps <=? 0) || nle N slack (nZ 0) || nle N size (nZ 0) then 0
    else nround N (nneg N ((slack /. nZ gaps) *. nZ 1000 /. size)).

  Record cellopt := { o_align : Z; o_border : Z; o_float : Z; o_cup : T; o_clh : T; o_cut : T; o_gs : list Z }.
  Definition opt0 : cellopt := {| o_align := 0; o_border := 0; o_float := 0; o_cup := nZ 0; o_clh := nZ 0; o_cut := nZ 0; o_gs := [] |}.

  (** cache_content_text.go:22-44 cacheContentText *)
  Record ctext := {
    c_rect : option (T * T); c_color : option tcol; c_gray : T; c_mode : bool;      (* true: "color" *)
    c_font : fontv; c_fci : Z; c_size : T; c_style : Z; c_cs : T; c_setx : Z; c_x : T; c_y : T;
    c_pageH : T; c_cell : bool;                                                     (* ContentTypeCell *)
    c_opt : cellopt; c_lw : T; c_text : list Z; c_ph : bool;
    c_cw : T; c_ch : T; c_tw : T }.

  (** 46-68 isSame *)
  Definition ocol_same (a b : option tcol) : bool :=
    match a, b with None, None => true | Some x, Some y => tcol_eqb x y | _, _ => false end.
  Definition isSame (c n : ctext) : bool :=
    match c_rect c with
    | Some _ => false
    | None => ocol_same (c_color c) (c_color n) && neq N (c_gray c) (c_gray n) && (c_fci c =? c_fci n)
              && neq N (c_size c) (c_size n) && (c_style c =? c_style n) && neq N (c_cs c) (c_cs n)
              && (c_setx c =? c_setx n) && neq N (c_y c) (c_y n) && Bool.eqb (c_ph c) (c_ph n)
    end.

  (** 407-433 the loop of createContent: total width in thousandths.  None: CharWidth error (never after AddChars). *)
  Fixpoint sumWidth (f : fontv) (size cs : T) (first : bool) (lr lg : Z) (txt : list Z) : option Z :=
    match txt with
    | [] => Some 0
    | r :: t =>
        match fv_ci f r with
        | None => sumWidth f size cs false lr lg t
        | Some g =>
            let kv := if negb first && fv_useKern f then ttf2pdf (fv_pair f lr r lg g) (fv_upem f) else 0 in
            match fv_cw f r with
            | None => None
            | Some wd =>
                let spc := ttf2pdf (ntrunc N (nZ (fv_upem f) /. size *. cs)) (fv_upem f) in
                match sumWidth f size cs false r g t with
                | Some z => Some (wd + kv + spc + z)
                | None => None
                end
            end
        end
    end.
  (** 401-450 createContent: (cell width, cell height, text width).  None: error, or division by zero. *)
  Definition createContent (f : fontv) (txt : list Z) (size cs : T) (rect : option (T * T)) : option (T * T * T) :=
    if fv_upem f =? 0 then None else
    match sumWidth f size cs true 0 0 txt with
    | None => None
    | Some z =>
        let tw := nZ z *. (size /. nZ 1000) in
        match rect with
        | None => Some (tw, convertTypoUnit (fv_tasc f) (fv_upem f) size -. convertTypoUnit (fv_tdesc f) (fv_upem f) size, tw)
        | Some (rw, rh) => Some (rw, rh, tw)
        end
    end.

  (** 149-183 calY, calX *)
  Definition calY (c : ctext) : T :=
    if c_cell c then
      let tasc := convertTypoUnit (fv_tasc (c_font c)) (fv_upem (c_font c)) (c_size c) in
      let tdesc := convertTypoUnit (fv_tdesc (c_font c)) (fv_upem (c_font c)) (c_size c) in
      if has (o_align (c_opt c)) oBottom then c_pageH c -. c_y c -. c_ch c -. tdesc
      else if has (o_align (c_opt c)) oMiddle then c_pageH c -. c_y c -. c_ch c *. nhalf -. (tdesc +. tasc) *. nhalf
      else c_pageH c -. c_y c -. tasc
    else c_pageH c -. c_y c.
  Definition calX (c : ctext) : T :=
    if c_cell c then
      if has (o_align (c_opt c)) oRight then c_x c +. c_cw c -. c_tw c
      else if has (o_align (c_opt c)) oCenter then c_x c +. c_cw c *. nhalf -. c_tw c *. nhalf
      else c_x c
    else c_x c.

  (** cache_content_text_color_rgb.go:13-16, _cmyk.go:13-16 *)
  Definition pct (v : Z) : T := nZ v /. nZ 100.
  Definition b255 (v : Z) : T := nZ v /. nZ 255.
  Definition rgb_text (r g b : Z) (op : string) : bytes := f3 (b255 r) ++ sp ++ f3 (b255 g) ++ sp ++ f3 (b255 b) ++ sp ++ w op ++ nl.
  Definition cmyk_text (c m y k : Z) (op : string) : bytes :=
    f2 (pct c) ++ sp ++ f2 (pct m) ++ sp ++ f2 (pct y) ++ sp ++ f2 (pct k) ++ sp ++ w op ++ nl.
  Definition tcol_write (t : tcol) : bytes :=
    match t with RGB r g b => rgb_text r g b "rg" | CMYK c m y k => cmyk_text c m y k "k" end.

  Definition gs_write (l : list Z) : bytes := flat_map (fun i => w "/GS" ++ fmt_d i ++ w " gs" ++ nl) l.

  (** 253-284: the glyphs of the TJ array; [just] is Some (adjustment, first, last) when justifying. *)
  Fixpoint tjLoop (f : fontv) (just : option (Z * Z * Z)) (i lr lg : Z) (txt : list Z) : bytes :=
    match txt with
    | [] => []
    | r :: t =>
        match fv_ci f r with
        | None => tjLoop f just (i + 1) lr lg t
        | Some g =>
            let kv := if (0 <? i) && fv_useKern f then ttf2pdf (fv_pair f lr r lg g) (fv_upem f) else 0 in
            (if kv =? 0 then [] else w ">" ++ fmt_d (- kv) ++ w "<")
            ++ hex4 g
            ++ match just with
               | Some (adj, fi, la) => if (r =? 32) && (fi <? i) && (i <? la) then w ">" ++ fmt_d adj ++ w "<" else []
               | None => []
               end
            ++ tjLoop f just (i + 1) r g t
        end
    end.
  (** 232-249 the justification of a cell *)
  Definition justOf (c : ctext) : option (Z * Z * Z) :=
    match c_rect c with
    | Some _ =>
        if c_cell c && has (o_align (c_opt c)) oJustify then
          let adj := justifyAdjustment (c_cw c -. c_tw c) (interiorSpaceCount (c_text c)) (c_size c) in
          if adj =? 0 then None else let '(fi, la) := nonSpaceBounds (c_text c) in Some (adj, fi, la)
        else None
    | None => None
    end.
  Definition seg (x1 y1 x2 y2 : T) (op : string) : bytes :=
    f2 x1 ++ sp ++ f2 y1 ++ w " m " ++ f2 x2 ++ sp ++ f2 y2 ++ w " l " ++ w op ++ nl.
  (** 304-353 drawBorder *)
  Definition drawBorder (c : ctext) : bytes :=
    let lo := c_lw c *. nhalf in
    let top := c_pageH c -. c_y c in
    let b := o_border (c_opt c) in
    (if has b oTop then seg (c_x c -. lo) top (c_x c +. c_cw c +. lo) top "s" else [])
    ++ (if has b oLeft then seg (c_x c) top (c_x c) (top -. c_ch c) "s" else [])
    ++ (if has b oRight then seg (c_x c +. c_cw c) top (c_x c +. c_cw c) (top -. c_ch c) "s" else [])
    ++ (if has b oBottom then seg (c_x c -. lo) (top -. c_ch c) (c_x c +. c_cw c +. lo) (top -. c_ch c) "s" else []).
  (** 355-394 underline; subset_font_obj.go:326-353 Get…Px *)
  Definition px (v upem : Z) (size : T) : T := nZ v /. nZ upem *. size.
  Definition coef (v : T) : T := if neq N v (nZ 0) then nZ 1 else v.
  Definition underline (c : ctext) : bytes :=
    let f := c_font c in
    let asc := px (fv_asc f) (fv_upem f) (c_size c) in
    let desc := nneg N (px (fv_desc f) (fv_upem f) (c_size c)) in
    let leading := (asc +. desc -. coef (o_clh (c_opt c)) *. c_size c) /. nZ 2 in
    let baseline := asc +. leading in
    let upos := px (fv_upos f) (fv_upem f) (c_size c) *. coef (o_cup (c_opt c)) in
    let uth := px (fv_uthick f) (fv_upem f) (c_size c) *. coef (o_cut (c_opt c)) in
    f2 (c_x c) ++ sp ++ f2 (c_pageH c -. c_y c +. upos -. baseline) ++ sp ++ f2 (c_cw c) ++ sp ++ f2 uth ++ w " re f" ++ nl.
  (** 193-302 write.  None: nil colour in colour mode (a panic). *)
  Definition text_write (c : ctext) : option bytes :=
    match (if c_mode c then match c_color c with Some t => Some (tcol_write t) | None => None end else Some []) with
    | None => None
    | Some colour =>
        let tr := match o_gs (c_opt c) with [] => false | _ => true end in
        Some ((if tr then w "q" ++ nl else []) ++ gs_write (o_gs (c_opt c))
              ++ w "BT" ++ nl
              ++ f2 (calX c) ++ sp ++ f2 (calY c) ++ w " TD" ++ nl
              ++ w "/F" ++ fmt_d (c_fci c) ++ sp ++ nfmtTrim N (c_size c) ++ w " Tf " ++ nfmtTrim N (c_cs c) ++ w " Tc" ++ nl
              ++ colour
              ++ w "[<" ++ tjLoop (c_font c) (justOf c) 0 0 0 (c_text c) ++ w ">] TJ" ++ nl
              ++ w "ET" ++ nl
              ++ (if has (c_style c) styUnderline then underline c else [])
              ++ drawBorder c
              ++ (if tr then w "Q" ++ nl else []))
    end.

  (** ** The other caches *)
  Record cimage := { im_mask : bool; im_maskAngle : T; im_angle : T; im_vflip : bool; im_hflip : bool; im_index : Z;
                     im_x : T; im_y : T; im_pageH : T; im_w : T; im_h : T; im_crop : option (T * T * T * T);   (* x y w h *)
                     im_gs : list Z }.
  Inductive pstyle := PSdraw | PSfill | PSdrawfill.         (* style.go:3-9; "" means draw (cache_content_rectangle.go:18-20) *)
  Inductive cache :=
  | CText (c : ctext)
  | CLine (pageH x1 y1 x2 y2 : T) (gs : list Z)
  | CRect (pageH x y width height : T) (st : pstyle) (gs : list Z)
  | COval (pageH x1 y1 x2 y2 : T)
  | CCurve (pageH x0 y0 x1 y1 x2 y2 x3 y3 : T) (style : bytes)
  | CLineWidth (v : T)
  | CLineType (t : bytes)
  | CDash (a : list T) (p : T)
  | CGray (stroke : bool) (v : T)
  | CRGB (stroke : bool) (r g b : Z)
  | CCMYK (stroke : bool) (c m y k : Z)
  | CImage (i : cimage)
  | CPolygon (pageH : T) (pts : list (T * T)) (style : bytes) (gs : list Z)
  | CClip (pageH : T) (pts : list (T * T))
  | CSave | CRestore
  | CRotate (pageH angle x y : T)
  | CRotateReset
  | CColorSpace (n : Z)
  | CTemplate (pageH : T) (name : bytes) (sx sy tx ty : T).

  (** cache_content_rotate.go:36-45 *)
  Definition rotMatrix (x y angle pageH : T) : bytes :=
    let '(c, s) := rot angle in
    let cy := pageH -. y in
    let f5 := nfmt N 5 in
    f5 c ++ sp ++ f5 s ++ sp ++ f5 (nneg N s) ++ nl ++ sp ++ f5 c ++ sp ++ f2 x ++ sp ++ f2 cy ++ w " cm" ++ nl
    ++ w " 1 0 0" ++ nl ++ w " 1 " ++ f2 (nneg N x) ++ sp ++ f2 (nneg N cy) ++ w " cm" ++ nl.
  (** the points of a polygon or clip path: cache_content_polygon.go:23-31, cache_content_clip.go:14-21 *)
  Fixpoint path (pageH : T) (first : bool) (pts : list (T * T)) : bytes :=
    match pts with
    | [] => []
    | (x, y) :: r => f2 x ++ sp ++ f2 (pageH -. y) ++ (if first then w " m " else w " l ") ++ path pageH false r
    end.
  (** cache_content_image.go:20-137 *)
  Definition image_write (i : cimage) : bytes :=
    let width := im_w i in let height := im_h i in
    let '(ow, oh) := match im_crop i with Some (_, _, cw, ch) => (cw, ch) | None => (width, height) end in
    (if im_mask i then []
     else w "q" ++ nl ++ sp ++ rotMatrix (im_x i +. ow /. nZ 2) (im_y i +. oh /. nZ 2) (im_angle i) (im_pageH i))
    ++ w "q" ++ nl ++ gs_write (im_gs i)
    ++ (if im_hflip i || im_vflip i
        then (if im_hflip i then w "-1" else w "1") ++ w " 0 0 " ++ (if im_vflip i then w "-1" else w "1") ++ w " 0 0 cm" ++ nl else [])
    ++ (let x := im_x i in let y := im_pageH i -. im_y i in
        let '(clip, x, y) :=
          match im_crop i with
          | Some (cx, cy, cw, ch) =>
              let clX := if im_hflip i then nneg N x -. cw else x in
              let clY := if im_vflip i then nneg N (y -. ch) -. ch else y -. ch in
              let x' := x -. cx in
              let y' := y +. (cy -. height) in
              (f2 clX ++ sp ++ f2 clY ++ sp ++ f2 cw ++ sp ++ f2 ch ++ w " re W* n" ++ nl,
               if im_hflip i then nneg N x' -. width else x', if im_vflip i then nneg N y' -. height else y')
          | None =>
              let y' := y -. height in
              ([], if im_hflip i then nneg N x -. width else x, if im_vflip i then nneg N y' -. height else y')
          end in
        clip
        ++ w "q" ++ nl ++ sp
        ++ (if im_mask i
            then let a := im_maskAngle i +. im_angle i in
                 if neq N a (nZ 0) then [] else rotMatrix (im_x i +. width /. nZ 2) (im_y i +. height /. nZ 2) a (im_pageH i)
            else [])
        ++ sp ++ f2 width ++ w " 0 0" ++ nl ++ sp ++ f2 height ++ sp ++ f2 x ++ sp ++ f2 y
        ++ w " cm /I" ++ fmt_d (im_index i + 1) ++ w " Do " ++ nl ++ w "Q" ++ nl ++ w "Q" ++ nl)
    ++ (if im_mask i then [] else w "Q" ++ nl).
  (** "%0.2f" of a []float64 (cache_content_custom_line_type.go:14): "[a b c]". *)
  Fixpoint dashItems (l : list T) : bytes :=
    match l with [] => [] | [x] => f2 x | x :: r => f2 x ++ sp ++ dashItems r end.

  Definition beq (a : bytes) (b : string) : bool := list_eqb a (bs b).
  Definition cache_write (c : cache) : option bytes :=
    match c with
    | CText t => text_write t
    | CLine h x1 y1 x2 y2 gs =>                                  (* cache_content_line.go:17-25 *)
        Some (w "q" ++ nl ++ gs_write gs ++ seg x1 (h -. y1) x2 (h -. y2) "S" ++ w "Q" ++ nl)
    | CRect h x y wd ht st gs =>                                 (* cache_content_rectangle.go:34-50 *)
        Some (w "q" ++ nl ++ gs_write gs ++ f2 x ++ sp ++ f2 (h -. y) ++ sp ++ f2 wd ++ sp ++ f2 ht ++ w " re "
              ++ (match st with PSdraw => w "S" | PSfill => w "f" | PSdrawfill => w "B" end) ++ nl ++ w "Q" ++ nl)
    | COval h x1 y1 x2 y2 =>                                     (* cache_content_oval.go:16-50 *)
        let cp := nfrac N 55228 100000 in
        let dx := (x2 -. x1) /. nZ 2 in let dy := (y2 -. y1) /. nZ 2 in
        let v1x := x1 +. dx in let v1y := h -. y2 in
        let v2x := x2 in let v2y := h -. (y1 +. dy) in
        let v3x := x1 +. dx in let v3y := h -. y1 in
        let v4x := x1 in let v4y := h -. (y1 +. dy) in
        let c6 a b c d e g (op : string) := f2 a ++ sp ++ f2 b ++ sp ++ f2 c ++ sp ++ f2 d ++ sp ++ f2 e ++ sp ++ f2 g ++ w op ++ nl in
        Some (f2 v1x ++ sp ++ f2 v1y ++ w " m" ++ nl
              ++ c6 (v1x +. dx *. cp) v1y v2x (v2y -. dy *. cp) v2x v2y " c"%string
              ++ c6 v2x (v2y +. dy *. cp) (v3x +. dx *. cp) v3y v3x v3y " c"%string
              ++ c6 (v3x -. dx *. cp) v3y v4x (v4y +. dy *. cp) v4x v4y " c"%string
              ++ c6 v4x (v4y -. dy *. cp) (v1x -. dx *. cp) v1y v1x v1y " c S"%string)
    | CCurve h x0 y0 x1 y1 x2 y2 x3 y3 st =>                     (* cache_contnent_curve.go:22-50; [st] is trimmed and upper case (content_obj.go:298) *)
        Some (f2 x0 ++ sp ++ f2 (h -. y0) ++ w " m" ++ nl
              ++ f2 x1 ++ sp ++ f2 (h -. y1) ++ sp ++ f2 x2 ++ sp ++ f2 (h -. y2) ++ sp ++ f2 x3 ++ sp ++ f2 (h -. y3) ++ w " c"
              ++ sp ++ (if beq st "F" then w "f" else if beq st "FD" || beq st "DF" then w "B" else w "S") ++ nl)
    | CLineWidth v => Some (f2 v ++ w " w" ++ nl)                (* cache_content_line_width.go *)
    | CLineType t =>                                             (* cache_content_line_type.go *)
        Some ((if beq t "dashed" then w "[5] 2 d" else if beq t "dotted" then w "[2 3] 11 d" else w "[] 0 d") ++ nl)
    | CDash a p => Some (w "[" ++ dashItems a ++ w "] " ++ f2 p ++ w " d" ++ nl)    (* cache_content_custom_line_type.go *)
    | CGray st v => Some (f2 v ++ sp ++ (if st then w "G" else w "g") ++ nl)        (* cache_content_gray.go *)
    | CRGB st r g b => Some (rgb_text r g b (if st then "RG" else "rg")%string)            (* cache_contact_color_rgb.go *)
    | CCMYK st c m y k => Some (cmyk_text c m y k (if st then "K" else "k")%string)        (* cache_content_color_cmyk.go *)
    | CImage i => Some (image_write i)
    | CPolygon h pts st gs =>                                    (* cache_content_polygon.go:15-44 *)
        Some (w "q" ++ nl ++ gs_write gs ++ path h true pts
              ++ (if beq st "F" then w " f" else if beq st "FD" || beq st "DF" then w " b" else w " s") ++ nl ++ w "Q" ++ nl)
    | CClip h pts => Some (path h true pts ++ w "h W n" ++ nl)   (* cache_content_clip.go:13-24 *)
    | CSave => Some (w "q" ++ nl)                                (* cache_content_graphics_state.go *)
    | CRestore => Some (w "Q" ++ nl)
    | CRotate h a x y => Some (w "q" ++ nl ++ sp ++ rotMatrix x y a h)   (* cache_content_rotate.go:14-34 *)
    | CRotateReset => Some (w "Q" ++ nl)
    | CColorSpace n => Some (w "/CS" ++ fmt_d (n + 1) ++ w " CS 1.0000 SCN" ++ nl)  (* cache_color_space.go *)
    | CTemplate h name sx sy tx ty =>                            (* cache_content_imported_object.go:17-21; first write *)
        let f4 := nfmt N 4 in
        Some (w "q 0 J 1 w 0 j 0 G 0 g q " ++ f4 sx ++ w " 0 0 " ++ f4 sy ++ sp ++ f4 tx ++ sp ++ f4 (ty +. h) ++ w " cm "
              ++ name ++ w " Do Q Q" ++ nl)
    end.
  (** list_cache_content.go:63-70 *)
  Fixpoint content_write (l : list cache) : option bytes :=
    match l with
    | [] => Some []
    | c :: r => match cache_write c, content_write r with Some a, Some b => Some (a ++ b) | _, _ => None end
    end.

  (** ** The drawing calls *)
  (** content_obj.go:469-478 fixRange10 *)
  Definition fixRange10 (v : T) : T := if nlt N v (nZ 0) then nZ 0 else if nlt N (nZ 1) v then nZ 1 else v.

  (** The part of GoPdf / Current (current.go) that drawing on one page uses.  Simplification: one page, which
      exists (getContent never creates a second content object). *)
  Record ds := { s_cfg : ucfg N; s_ml : T; s_pageH : T; s_x : T; s_y : T; s_setx : Z;
                 s_font : option (Z * fontv);              (* FontFontCount and FontISubset *)
                 s_size : T; s_style : Z; s_cs : T; s_mode : bool; s_color : option tcol; s_gray : T; s_lw : T;
                 s_tr : option Z;                          (* ext graphics state of the current transparency *)
                 s_caches : list cache }.
  Definition withc (s : ds) (l : list cache) : ds :=
    {| s_cfg := s_cfg s; s_ml := s_ml s; s_pageH := s_pageH s; s_x := s_x s; s_y := s_y s; s_setx := s_setx s; s_font := s_font s;
       s_size := s_size s; s_style := s_style s; s_cs := s_cs s; s_mode := s_mode s; s_color := s_color s; s_gray := s_gray s;
       s_lw := s_lw s; s_tr := s_tr s; s_caches := l |}.
  Definition withxy (s : ds) (x y : T) (sx : Z) : ds :=
    {| s_cfg := s_cfg s; s_ml := s_ml s; s_pageH := s_pageH s; s_x := x; s_y := y; s_setx := sx; s_font := s_font s;
       s_size := s_size s; s_style := s_style s; s_cs := s_cs s; s_mode := s_mode s; s_color := s_color s; s_gray := s_gray s;
       s_lw := s_lw s; s_tr := s_tr s; s_caches := s_caches s |}.
  Definition withfont (s : ds) (f : option (Z * fontv)) (size : T) (style : Z) (cs : T) : ds :=
    {| s_cfg := s_cfg s; s_ml := s_ml s; s_pageH := s_pageH s; s_x := s_x s; s_y := s_y s; s_setx := s_setx s; s_font := f;
       s_size := size; s_style := style; s_cs := cs; s_mode := s_mode s; s_color := s_color s; s_gray := s_gray s;
       s_lw := s_lw s; s_tr := s_tr s; s_caches := s_caches s |}.
  Definition withcol (s : ds) (mode : bool) (c : option tcol) (g lw : T) (tr : option Z) : ds :=
    {| s_cfg := s_cfg s; s_ml := s_ml s; s_pageH := s_pageH s; s_x := s_x s; s_y := s_y s; s_setx := s_setx s; s_font := s_font s;
       s_size := s_size s; s_style := s_style s; s_cs := s_cs s; s_mode := mode; s_color := c; s_gray := g;
       s_lw := lw; s_tr := tr; s_caches := s_caches s |}.
  Definition add (s : ds) (c : cache) : ds := withc s (s_caches s ++ [c]).

  (** Images are drawn with an object index already found or created (imageByHolder, gopdf.go:650-721, is
      modelled in ImageModel.v) and the options of GetCacheContentImage (content_obj.go:382-408). *)
  Record imgopt := { io_x : T; io_y : T; io_w : T; io_h : T; io_angle : T; io_v : bool; io_hf : bool;
                     io_crop : option (T * T * T * T); io_mask : option T; io_gs : list Z }.
  (** An option given per call: None when absent, then the current transparency applies (gopdf.go:2416-2428). *)
  Inductive call :=
  | SetLineWidth (v : T) | SetLineType (t : bytes) | SetCustomLineType (a : list T) (p : T)
  | Line (x1 y1 x2 y2 : T)
  | RectLL (x y wd ht : T) | RectUL (x y wd ht : T)
  | RectLLOpt (x y wd ht : T) (st : pstyle) (tr : option (option Z)) | RectULOpt (x y wd ht : T) (st : pstyle) (tr : option (option Z))
  | Oval (x1 y1 x2 y2 : T) | Curve (x0 y0 x1 y1 x2 y2 x3 y3 : T) (style : bytes)
  | Polygon (pts : list (T * T)) (style : bytes) | ClipPolygon (pts : list (T * T))
  | SaveGS | RestoreGS | Rotate (angle x y : T) | RotateReset
  | SetGrayFill (v : T) | SetGrayStroke (v : T)
  | SetStrokeColor (r g b : Z) | SetFillColor (r g b : Z) | SetStrokeColorCMYK (c m y k : Z) | SetFillColorCMYK (c m y k : Z)
  | SetTextColor (r g b : Z) | SetTextColorCMYK (c m y k : Z)
  | SetX (x : T) | SetY (y : T) | SetXY (x y : T) | Br (h : T)
  | SetFont (count : Z) (f : fontv) (size : T) (style : Z) | SetFontSize (v : T) | SetCharSpacing (v : T)
  | SetTransparency (t : option Z) | ClearTransparency
  | Text (txt : list Z) | Cell (r : option (rect N)) (txt : list Z)
  | CellOpt (r : option (rect N)) (txt : list Z) (o : cellopt) (tr : option (option Z))
  | Image (idx : Z) (o : imgopt) | Template (name : bytes) (sx sy tx ty : T) | ColorSpace (n : Z)
  | PlaceHolder (width : T).

  (** list_cache_content.go:24-61 appendContentText: new cursor.  None: createContent failed. *)
  Definition setText (c : ctext) (txt : list Z) (cwht : T * T * T) : ctext :=
    let '(cw, ch, tw) := cwht in
    {| c_rect := c_rect c; c_color := c_color c; c_gray := c_gray c; c_mode := c_mode c; c_font := c_font c; c_fci := c_fci c;
       c_size := c_size c; c_style := c_style c; c_cs := c_cs c; c_setx := c_setx c; c_x := c_x c; c_y := c_y c; c_pageH := c_pageH c;
       c_cell := c_cell c; c_opt := c_opt c; c_lw := c_lw c; c_text := txt; c_ph := c_ph c; c_cw := cw; c_ch := ch; c_tw := tw |}.
  Definition splitLast (l : list cache) : list cache * option cache :=
    match rev l with [] => ([], None) | c :: r => (rev r, Some c) end.
  Definition appendContentText (l : list cache) (n : ctext) (txt : list Z) : option (list cache * T * T) :=
    let '(pre, base) :=
      match splitLast l with
      | (pre, Some (CText c)) => if isSame c n then (pre, c) else (l, n)
      | _ => (l, n)
      end in
    let txt := c_text base ++ txt in
    match createContent (c_font base) txt (c_size base) (c_cs base) (c_rect base) with
    | None => None
    | Some cwht =>
        let c := setText base txt cwht in
        let fl := o_float (c_opt c) in
        Some (pre ++ [CText c],
              (if (fl =? 0) || has fl oRight || negb (c_cell c) then c_x c +. c_cw c else c_x n),
              (if has fl oBottom then c_y c +. c_ch c else c_y n))
    end.
  (** content_obj.go:148-190 AppendStreamText, 193-231 AppendStreamSubsetFont, 101-145 placeholder. *)
  Definition mkText (s : ds) (fc : Z) (f : fontv) (r : option (T * T)) (cell ph : bool) (o : cellopt) : ctext :=
    {| c_rect := r; c_color := s_color s; c_gray := s_gray s; c_mode := s_mode s; c_font := f; c_fci := fc + 1; c_size := s_size s;
       c_style := s_style s; c_cs := s_cs s; c_setx := s_setx s; c_x := s_x s; c_y := s_y s; c_pageH := s_pageH s; c_cell := cell;
       c_opt := o; c_lw := s_lw s; c_text := []; c_ph := ph; c_cw := nZ 0; c_ch := nZ 0; c_tw := nZ 0 |}.
  Definition drawText (s : ds) (r : option (T * T)) (cell : bool) (o : cellopt) (txt : list Z) : option ds :=
    match s_font s with
    | None => None                                                (* nil FontISubset: panic *)
    | Some (fc, f) =>
        match appendContentText (s_caches s) (mkText s fc f r cell false o) (fv_add f txt) with
        | None => None
        | Some (l, x, y) => Some (withxy (withc s l) x y (s_setx s))
        end
    end.
  Definition u2p (s : ds) (v : T) : T := unitsToPoints N (s_cfg s) v.
  Definition ptU2P (s : ds) (p : T * T) : T * T := (u2p s (fst p), u2p s (snd p)).
  Definition rectPts (s : ds) (r : option (rect N)) : option (T * T) :=
    match r with None => None | Some r => let r' := rectU2P N r (u_unit (s_cfg s)) in Some (r_w N r', r_h N r') end.
  Definition trOf (s : ds) (tr : option (option Z)) : list Z :=
    match (match tr with None => s_tr s | Some t => t end) with Some i => [i] | None => [] end.

  Definition step (s : ds) (c : call) : option ds :=
    let u := u2p s in
    match c with
    | SetLineWidth v => Some (add (withcol s (s_mode s) (s_color s) (s_gray s) (u v) (s_tr s)) (CLineWidth (u v)))   (* 160-163 *)
    | SetLineType t => Some (add s (CLineType t))                                                                  (* 198-200 *)
    | SetCustomLineType a p => Some (add s (CDash (map u a) (u p)))                                                (* 207-213 *)
    | Line x1 y1 x2 y2 => Some (add s (CLine (s_pageH s) (u x1) (u y1) (u x2) (u y2) (trOf s None)))               (* 224-235 *)
    | RectLL x y wd ht => Some (add s (CRect (s_pageH s) (u x) (u y) (u wd) (u ht) PSdraw []))                     (* 238-249 *)
    | RectUL x y wd ht => Some (add s (CRect (s_pageH s) (u x) (u y +. u ht) (u wd) (u ht) PSdraw []))             (* 252-263 *)
    | RectLLOpt x y wd ht st tr => Some (add s (CRect (s_pageH s) (u x) (u y) (u wd) (u ht) st (trOf s tr)))       (* 270-298 *)
    | RectULOpt x y wd ht st tr => Some (add s (CRect (s_pageH s) (u x) (u y +. u ht) (u wd) (u ht) st (trOf s tr))) (* 305-335 *)
    | Oval x1 y1 x2 y2 => Some (add s (COval (s_pageH s) (u x1) (u y1) (u x2) (u y2)))                             (* 338-341 *)
    | Curve x0 y0 x1 y1 x2 y2 x3 y3 st =>                                                                          (* 1945-1948 *)
        Some (add s (CCurve (s_pageH s) (u x0) (u y0) (u x1) (u y1) (u x2) (u y2) (u x3) (u y3) st))
    | Polygon pts st => Some (add s (CPolygon (s_pageH s) (map (ptU2P s) pts) st (trOf s None)))                   (* 1993-2014 *)
    | ClipPolygon pts => Some (add s (CClip (s_pageH s) (map (ptU2P s) pts)))                                      (* 2016-2025 *)
    | SaveGS => Some (add s CSave) | RestoreGS => Some (add s CRestore)                                            (* 2029-2037 *)
    | Rotate a x y => Some (add s (CRotate (s_pageH s) a (u x) (u y)))                                             (* 1971-1974 *)
    | RotateReset => Some (add s CRotateReset)                                                                     (* 1977-1979 *)
    | SetGrayFill v => Some (add (withcol s false (s_color s) v (s_lw s) (s_tr s)) (CGray false (fixRange10 v)))   (* 351-355 *)
    | SetGrayStroke v => Some (add s (CGray true (fixRange10 v)))                                                  (* 358-361 *)
    | SetStrokeColor r g b => Some (add s (CRGB true r g b)) | SetFillColor r g b => Some (add s (CRGB false r g b)) (* 1889-1896 *)
    | SetStrokeColorCMYK c m y k => Some (add s (CCMYK true c m y k)) | SetFillColorCMYK c m y k => Some (add s (CCMYK false c m y k))
    | SetTextColor r g b => Some (withcol s true (Some (RGB r g b)) (s_gray s) (s_lw s) (s_tr s))                  (* 1867-1875 *)
    | SetTextColorCMYK c m y k => Some (withcol s true (Some (CMYK c m y k)) (s_gray s) (s_lw s) (s_tr s))         (* 1877-1886 *)
    | SetX x => Some (withxy s (u x) (s_y s) (s_setx s + 1))                                                       (* 364-368 *)
    | SetY y => Some (withxy s (s_x s) (u y) (s_setx s))                                                           (* 467-470 *)
    | SetXY x y => Some (withxy s (u x) (u y) (s_setx s + 1))                                                      (* 478-485 *)
    | Br h => Some (withxy s (s_ml s) (s_y s +. u h) (s_setx s))                                                   (* 344-348 *)
    | SetFont n f size style => Some (withfont s (Some (n, f)) size style (s_cs s))                                (* 955-989, success *)
    | SetFontSize v => Some (withfont s (s_font s) v (s_style s) (s_cs s))                                         (* 997-1000 *)
    | SetCharSpacing v => Some (withfont s (s_font s) (s_size s) (s_style s) (u v))                                (* 1003-1007 *)
    | SetTransparency t => Some (withcol s (s_mode s) (s_color s) (s_gray s) (s_lw s) t)                           (* 2401-2410 *)
    | ClearTransparency => Some (withcol s (s_mode s) (s_color s) (s_gray s) (s_lw s) None)                        (* 2412-2414 *)
    | Text txt => drawText s None false opt0 txt                                                                   (* 1105-1118 *)
    | Cell r txt =>                                                                                                (* 1145-1163 *)
        drawText s (rectPts s r) true
          {| o_align := Z.lor oLeft oTop; o_border := 0; o_float := oRight; o_cup := nZ 0; o_clh := nZ 0; o_cut := nZ 0; o_gs := [] |} txt
    | CellOpt r txt o tr =>                                                                                        (* 1121-1142 *)
        drawText s (rectPts s r) true
          {| o_align := o_align o; o_border := o_border o; o_float := o_float o; o_cup := o_cup o; o_clh := o_clh o; o_cut := o_cut o;
             o_gs := o_gs o ++ trOf s tr |} txt
    | Image idx o =>                                                                     (* content_obj.go:382-414 *)
        Some (add s (CImage {| im_mask := match io_mask o with Some _ => true | None => false end;
                               im_maskAngle := match io_mask o with Some a => a | None => nZ 0 end; im_angle := io_angle o;
                               im_vflip := io_v o; im_hflip := io_hf o; im_index := idx; im_x := io_x o; im_y := io_y o; im_pageH := s_pageH s;
                               im_w := io_w o; im_h := io_h o; im_crop := io_crop o; im_gs := io_gs o |}))
    | Template n sx sy tx ty => Some (add s (CTemplate (s_pageH s) n sx sy tx ty))        (* gopdf.go:1602-1608; content_obj.go:252-261 *)
    | ColorSpace n => Some (add s (CColorSpace n))                                       (* content_obj.go:455-459 *)
    | PlaceHolder v =>                                                                   (* gopdf.go:1403-1416; content_obj.go:101-145 *)
        match s_font s with
        | None => None
        | Some (fc, f) =>
            let s' := add s (CText (mkText s fc f None false true opt0)) in
            Some (withxy s' (s_x s +. pointsToUnits N (s_cfg s) v) (s_y s) (s_setx s))
        end
    end.
  Fixpoint run (s : ds) (l : list call) : option ds :=
    match l with [] => Some s | c :: r => match step s c with Some s' => run s' r | None => None end end.
End Draw.
