(** DecoSpec.v — what underlined texts and cells with borders ask for, next to the shapes of PaintSpec.v. *)
From Verif Require Import Base StrModel NumModel UnitModel DrawModel DrawSpec PaintSpec.

Section Deco.
  Variable N : num.
  Variable rot : T N -> T N * T N.
  Notation T := (T N).
  Infix "+." := (nadd N) (at level 50, left associativity).
  Infix "-." := (nsub N) (at level 50, left associativity).
  Infix "*." := (nmul N) (at level 40, left associativity).
  Infix "/." := (ndiv N) (at level 40, left associativity).
  Notation nZ := (nofZ N).
  Notation d2 := (d N 2).

  (** The box of a text, in points: its upper left corner, measured from the top of the page, its width and height. *)
  Record tbox := { b_x : T; b_y : T; b_w : T; b_h : T }.
  (** One stroked (and closed) segment. *)
  Definition stroke (x1 y1 x2 y2 : T) : what := Painted [op_ [d2 x1; d2 y1] "m"; op_ [d2 x2; d2 y2] "l"] (bs "s").
  (** The sides asked for, along the edges of the box; the horizontal ones half a line width longer at both ends. *)
  Definition sides (H lw : T) (b : tbox) (which : Z) : list what :=
    let top := H -. b_y b in let bottom := top -. b_h b in
    let left := b_x b in let right := left +. b_w b in
    let more := lw *. nfrac N 1 2 in
    (if has which oTop then [stroke (left -. more) top (right +. more) top] else [])
    ++ (if has which oLeft then [stroke left top left bottom] else [])
    ++ (if has which oRight then [stroke right top right bottom] else [])
    ++ (if has which oBottom then [stroke (left -. more) bottom (right +. more) bottom] else []).
  (** The underline: a filled rectangle as wide as the box, the font's underline position (negative: below) away from
      the line [drop] below the top of the box, and as thick as the font says; the three coefficients of the cell
      option scale the line height, the position and the thickness (0 means 1). *)
  Definition drop (f : fontv) (size lineCoef : T) : T :=
    let asc := px N (fv_asc f) (fv_upem f) size in
    let desc := nneg N (px N (fv_desc f) (fv_upem f) size) in
    asc +. (asc +. desc -. coef N lineCoef *. size) /. nZ 2.
  Definition under (H : T) (b : tbox) (f : fontv) (size : T) (o : cellopt N) : what :=
    Painted [op_ [d2 (b_x b);
                  d2 (H -. b_y b +. px N (fv_upos f) (fv_upem f) size *. coef N (o_cup N o) -. drop f size (o_clh N o));
                  d2 (b_w b); d2 (px N (fv_uthick f) (fv_upem f) size *. coef N (o_cut N o))] "re"] (bs "f").

  (** What a text call paints besides the text, in the state [s] before the call: the underline if the style asks for
      it, then the border; both in the text's colour and transparency.  The fill colour stays changed to the text's,
      unless the text has a transparency. *)
  Definition textFill (s : ds N) (g : pgs) : pgs :=
    if s_mode N s then match s_color N s with
                       | Some (RGB r g' b) => set_fill g (Some [op_ (rgbOf N r g' b) "rg"])
                       | Some (CMYK c m y k) => set_fill g (Some [op_ (cmykOf N c m y k) "k"])
                       | None => g
                       end else g.
  Definition decorated (a : asked N) (s : ds N) (f : fontv) (b : tbox) (o : cellopt N) (gs : list Z) : asked N :=
    let g := a_g N a in
    let gt := textFill s (set_ext g (p_ext g ++ map (fun i => TName (bs "GS" ++ fmt_d i)) gs)) in
    {| a_cfg := a_cfg N a; a_H := a_H N a; a_tr := a_tr N a; a_coltext := a_coltext N a;
       a_g := match gs with [] => textFill s g | _ => g end; a_stack := a_stack N a;
       a_out := a_out N a ++ map (fun k => (gt, k))
                  ((if has (s_style N s) styUnderline then [under (a_H N a) b f (s_size N s) o] else [])
                   ++ sides (a_H N a) (s_lw N s) b (o_border N o)) |}.
  (** The box of a text: at the cursor; the rectangle, or without one the measured width and the font's height. *)
  Definition boxOf (s : ds N) (f : fontv) (r : option (T * T)) (txt : list Z) : tbox :=
    match createContent N f (fv_add f txt) (s_size N s) (s_cs N s) r with
    | Some (w, h, _) => {| b_x := s_x N s; b_y := s_y N s; b_w := w; b_h := h |}
    | None => {| b_x := s_x N s; b_y := s_y N s; b_w := nZ 0; b_h := nZ 0 |}
    end.
  Definition askD (a : asked N) (s : ds N) (c : call N) : asked N :=
    match s_font N s with
    | None => ask N rot false a c
    | Some (_, f) =>
        match c with
        | Text _ txt => decorated a s f (boxOf s f None txt) (opt0 N) []
        | Cell _ r txt => decorated a s f (boxOf s f (rectPts N s r) txt) (opt0 N) []
        | CellOpt _ r txt o tr => decorated a s f (boxOf s f (rectPts N s r) txt) o (o_gs N o ++ trOf N s tr)
        | PlaceHolder _ _ => decorated a s f {| b_x := s_x N s; b_y := s_y N s; b_w := nZ 0; b_h := nZ 0 |} (opt0 N) []
        | _ => ask N rot false a c
        end
    end.
  Fixpoint asksD (a : asked N) (s : ds N) (l : list (call N)) : asked N :=
    match l with
    | [] => a
    | c :: r => match step N s c with Some s' => asksD (askD a s c) s' r | None => a end
    end.

  (** No text follows another text or a cell without a rectangle directly: since then the x position was set, something
      was drawn, or a setting written to the page.  (A text that does follow becomes part of the one before.) *)
  Definition glues (g : bool) (c : call N) : bool :=
    match c with
    | Text _ _ | Cell _ None _ | CellOpt _ None _ _ _ => true
    | SetY _ _ | Br _ _ | SetFont _ _ _ _ _ | SetFontSize _ _ | SetCharSpacing _ _ | SetTextColor _ _ _ _ | SetTextColorCMYK _ _ _ _ _
    | SetTransparency _ _ | ClearTransparency _ => g
    | _ => false
    end.
  Definition is_text (c : call N) : bool := match c with Text _ _ | Cell _ _ _ | CellOpt _ _ _ _ _ => true | _ => false end.
  Fixpoint alone (g : bool) (l : list (call N)) : Prop :=
    match l with [] => True | c :: r => (is_text c = true -> g = false) /\ alone (glues g c) r end.
End Deco.
