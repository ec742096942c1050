(** PageModel.v — sizes and boxes of pages and what is measured from them (C71): gopdf.go:806-849 AddPageWithOption,
    page_option.go, gopdf.go:2140-2186 Start (the part about PageSize and TrimBox), 852-858 AddOutlineWithPosition,
    1706-1733 links and anchors, content_obj.go:236-247 (and alike) the page height drawings are measured from.
    One document from its Start on, no SetPage (C07); header and footer callbacks and automatic page breaks are calls like any
    others.  The objects' text is ObjModel's ([page_body], [pages_body]). *)
From Verif Require Import Base NumModel UnitModel ObjModel.
Open Scope Z_scope.

Notation rect64 := (rect F64).
Notation box64 := (box F64).
Record psize := { p_w : f64; p_h : f64 }.
(** rect.go:37-50 / box.go:8-26 applied to the options (gopdf.go:807-808): the configured unit, without the custom factor. *)
Definition sizeU2P (cfg : ucfg F64) (r : rect64) : psize :=
  let r' := rectU2P F64 r (u_unit cfg) in {| p_w := r_w F64 r'; p_h := r_h F64 r' |}.
Definition trimU2P (cfg : ucfg F64) (b : box64) : boxq :=
  let b' := boxU2P F64 b (u_unit cfg) in {| bx_l := b_l F64 b'; bx_t := b_t F64 b'; bx_r := b_r F64 b'; bx_b := b_b F64 b' |}.
(** gopdf.go:2178-2179 Start: unitsToPoints(gp.config), with the custom factor. *)
Definition defSize (cfg : ucfg F64) (r : rect64) : psize :=
  let r' := rectU2P_cfg F64 r cfg in {| p_w := r_w F64 r'; p_h := r_h F64 r' |}.

(** page_obj.go:10-16 (pageOption; links as numbers), with what is put on the page: coordinates from the bottom of the page. *)
Inductive mark :=
| MDraw (y : f64)                                  (* a drawing of the content stream *)
| MLink (y : f64) | MAnchor (name : bytes) (y : f64) | MOutline (title : bytes) (y : f64).
Record pg := { pg_size : option psize; pg_trim : option boxq; pg_marks : list mark }.
Record pst := { s_cfg : ucfg F64; s_def : psize; s_cur : option psize; s_top : f64; s_y : f64; s_font : Z; s_pages : list pg }.

Inductive call :=
| AddPage                                          (* gopdf.go:800-804 *)
| AddPageWithOption (size : option rect64) (trim : option box64)
| SetMarginTop (y : f64) | SetY (y : f64) | SetFontSize (n : Z)
| Line (y : f64)                                   (* Line(x, y, x', y), or any other drawing at y from the top *)
| AddLink (y : f64)                                (* AddExternalLink, AddInternalLink *)
| SetAnchor (name : bytes) | AddOutlineWithPosition (title : bytes).

Definition start (cfg : ucfg F64) (size : rect64) (trim : box64) : pst :=
  {| s_cfg := cfg; s_def := defSize cfg size; s_cur := None; s_top := f64_ofZ 0; s_y := f64_ofZ 0; s_font := 0; s_pages := [] |}.
Definition sub64 := nsub F64.
Definition add64 := nadd F64.
(** gopdf.go:806-849. *)
Definition addPageWithOption (s : pst) (size : option rect64) (trim : option box64) : pst :=
  let size := option_map (sizeU2P (s_cfg s)) size in
  let trim := option_map (trimU2P (s_cfg s)) trim in
  let '(opt, cur) := match size with
                     | Some z => ((Some z, trim), z)                       (* page.setOption(opt) *)
                     | None => ((None, None), s_def s)                     (* isEmpty: the option is not kept *)
                     end in
  {| s_cfg := s_cfg s; s_def := s_def s; s_cur := Some cur; s_top := s_top s; s_y := s_top s; s_font := s_font s;
     s_pages := s_pages s ++ [{| pg_size := fst opt; pg_trim := snd opt; pg_marks := [] |}] |}.
(** On the page that is current (C06): with no SetPage, the last one. *)
Fixpoint put (m : mark) (l : list pg) : list pg :=
  match l with
  | [] => []
  | [p] => [{| pg_size := pg_size p; pg_trim := pg_trim p; pg_marks := pg_marks p ++ [m] |}]
  | p :: r => p :: put m r
  end.
Definition mark_it (s : pst) (m : mark) : pst :=
  {| s_cfg := s_cfg s; s_def := s_def s; s_cur := s_cur s; s_top := s_top s; s_y := s_y s; s_font := s_font s; s_pages := put m (s_pages s) |}.
Definition with_y (s : pst) (top y : f64) (font : Z) : pst :=
  {| s_cfg := s_cfg s; s_def := s_def s; s_cur := s_cur s; s_top := top; s_y := y; s_font := font; s_pages := s_pages s |}.
Definition U (s : pst) (y : f64) : f64 := unitsToPoints F64 (s_cfg s) y.
(** [None]: the call panics (no page yet). *)
Definition do (s : pst) (c : call) : option pst :=
  match c with
  | AddPage => Some (addPageWithOption s None None)
  | AddPageWithOption size trim => Some (addPageWithOption s size trim)
  | SetMarginTop y => Some (with_y s (U s y) (s_y s) (s_font s))
  | SetY y => Some (with_y s (s_top s) (U s y) (s_font s))
  | SetFontSize n => Some (with_y s (s_top s) (s_y s) n)
  | Line y => match s_cur s with Some z => Some (mark_it s (MDraw (sub64 (p_h z) (U s y)))) | None => None end
  | AddLink y => match s_pages s with [] => None | _ => Some (mark_it s (MLink (sub64 (p_h (s_def s)) (U s y)))) end
  | SetAnchor name => Some (mark_it s (MAnchor name (add64 (sub64 (p_h (s_def s)) (s_y s)) (f64_ofZ (s_font s)))))
  | AddOutlineWithPosition t => Some (mark_it s (MOutline t (add64 (sub64 (p_h (s_def s)) (s_y s)) (f64_ofZ 20))))
  end.
Fixpoint run (s : pst) (l : list call) : option pst :=
  match l with [] => Some s | c :: r => match do s c with Some s' => run s' r | None => None end end.

(** What is written for the page tree root and for page number [i]; [res], [links], [content], [kids]: object numbers (C61). *)
Definition root_text (s : pst) (kids : list Z) : bytes := pages_body (p_w (s_def s)) (p_h (s_def s)) (Z.of_nat (List.length (s_pages s))) kids.
Definition page_text (p : pg) (res : Z) (links : list Z) (content : option Z) : bytes :=
  page_body res links (match content with Some c => [c] | None => [] end) (option_map (fun z => (p_w z, p_h z)) (pg_size p)) (pg_trim p).
