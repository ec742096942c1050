(** PlaceModel.v — placeholders: gopdf.go:1401-1476 PlaceHolderText and FillInPlaceHoldText, placeholder.go, over the drawing
    model (DrawModel.v), on several pages.
    Simplifications: the current page is changed by one operation that stands for AddPage and SetPage (the cursor and page height
    afterwards are arbitrary); contents are numbered by page; a run ends at the first call that panics (or fails in the drawing model,
    None there); it goes on after an error of FillInPlaceHoldText. *)
From Verif Require Import Base StrModel NumModel UnitModel DrawModel.
Open Scope Z_scope.

Section Place.
  Variable N : num.
  Notation T := (T N).
  (** placeholder.go:8-15 placeHolderTextInfo *)
  Record info := { i_page : Z; i_index : nat; i_font : fontv; i_width : T; i_size : T; i_cs : T }.
  (** gopdf.go:105 placeHolderTexts; the caches of all the pages, the number of the current one; [p_s] is the current drawing state
      (its own list of caches is not used). *)
  Record pst := { p_s : ds N; p_page : Z; p_pages : Z -> list (cache N); p_infos : list (bytes * list info) }.
  Definition upd (f : Z -> list (cache N)) (p : Z) (l : list (cache N)) : Z -> list (cache N) := fun q => if q =? p then l else f q.
  Definition lookup (name : bytes) (l : list (bytes * list info)) : option (list info) :=
    option_map snd (find (fun e => list_eqb (fst e) name) l).
  (** gopdf.go:1422-1432: append to the slice under the name (nil when absent) *)
  Fixpoint append_info (name : bytes) (i : info) (l : list (bytes * list info)) : list (bytes * list info) :=
    match l with
    | [] => [(name, [i])]
    | (n, is) :: r => if list_eqb n name then (n, is ++ [i]) :: r else (n, is) :: append_info name i r
    end.
  Inductive pop :=
  | Draw (c : call N)
  | GoPage (p : Z) (pageH x y : T) (setx : Z)
  | PlaceHolderText (name : bytes) (width : T)
  | FillIn (name : bytes) (txt : list Z) (al : Z).
  Inductive presult := POk | PErrNotFound | PErr | PPanic.

  Definition setXText (c : ctext N) (txt : list Z) (x : T) : ctext N :=
    {| c_rect := c_rect N c; c_color := c_color N c; c_gray := c_gray N c; c_mode := c_mode N c; c_font := c_font N c; c_fci := c_fci N c;
       c_size := c_size N c; c_style := c_style N c; c_cs := c_cs N c; c_setx := c_setx N c; c_x := x; c_y := c_y N c; c_pageH := c_pageH N c;
       c_cell := c_cell N c; c_opt := c_opt N c; c_lw := c_lw N c; c_text := txt; c_ph := c_ph N c; c_cw := c_cw N c; c_ch := c_ch N c; c_tw := c_tw N c |}.
  Definition set_nth (l : list (cache N)) (k : nat) (c : cache N) : list (cache N) := firstn k l ++ c :: skipn (S k) l.
  (** gopdf.go:1446-1473, one reservation *)
  Definition fill1 (st : pst) (i : info) (txt : list Z) (al : Z) : pst * presult :=
    match nth_error (p_pages st (i_page i)) (i_index i) with
    | Some (CText _ c) =>
        let put x := {| p_s := p_s st; p_page := p_page st;
                        p_pages := upd (p_pages st) (i_page i) (set_nth (p_pages st (i_page i)) (i_index i) (CText N (setXText c txt x)));
                        p_infos := p_infos st |} in
        match s_font N (p_s st) with
        | None => (put (c_x N c), PPanic)                                     (* nil FontISubset *)
        | Some (_, f) =>
            match createContent N f txt (i_size i) (i_cs i) None with          (* gp.curr.FontISubset, 1459 *)
            | None => (put (c_x N c), PErr)
            | Some (_, _, tw) =>
                let width := pointsToUnits N (s_cfg N (p_s st)) tw in          (* 1463 *)
                let diff := nsub N (i_width i) width in
                (put (if al =? oRight then nadd N (c_x N c) diff
                      else if al =? oCenter then nadd N (c_x N c) (ndiv N diff (nofZ N 2)) else c_x N c), POk)
            end
        end
    | Some _ => (st, PErr)                                                     (* not a text *)
    | None => (st, PPanic)                                                     (* index out of range *)
    end.
  Fixpoint fills (st : pst) (is : list info) (txt : list Z) (al : Z) : pst * presult :=
    match is with
    | [] => (st, POk)
    | i :: r => match fill1 st i txt al with (st', POk) => fills st' r txt al | e => e end
    end.
  Definition with_draw (st : pst) (s' : ds N) : pst :=
    {| p_s := s'; p_page := p_page st; p_pages := upd (p_pages st) (p_page st) (s_caches N s'); p_infos := p_infos st |}.
  (** the drawing state with the caches of the current page *)
  Definition cur (st : pst) : ds N := withc N (p_s st) (p_pages st (p_page st)).
  Definition pstep (st : pst) (o : pop) : pst * presult :=
    match o with
    | Draw c => match step N (cur st) c with Some s' => (with_draw st s', POk) | None => (st, PPanic) end
    | GoPage p h x y sx =>
        let s := p_s st in
        ({| p_s := {| s_cfg := s_cfg N s; s_ml := s_ml N s; s_pageH := h; s_x := x; s_y := y; s_setx := sx; s_font := s_font N s;
                      s_size := s_size N s; s_style := s_style N s; s_cs := s_cs N s; s_mode := s_mode N s; s_color := s_color N s; s_gray := s_gray N s;
                      s_lw := s_lw N s; s_tr := s_tr N s; s_caches := [] |};
            p_page := p; p_pages := p_pages st; p_infos := p_infos st |}, POk)
    | PlaceHolderText name v =>                                                (* gopdf.go:1403-1435 *)
        match step N (cur st) (PlaceHolder N v), s_font N (p_s st) with
        | Some s', Some (_, f) =>
            let st' := with_draw st s' in
            ({| p_s := p_s st'; p_page := p_page st'; p_pages := p_pages st';
                p_infos := append_info name
                  {| i_page := p_page st; i_index := List.length (s_caches N s') - 1; i_font := f;
                     i_width := pointsToUnits N (s_cfg N (p_s st)) v; i_size := s_size N (p_s st); i_cs := s_cs N (p_s st) |} (p_infos st') |}, POk)
        | _, _ => (st, PPanic)
        end
    | FillIn name txt al =>                                                    (* gopdf.go:1440-1476 *)
        match lookup name (p_infos st) with
        | None => (st, PErrNotFound)
        | Some is => fills st is txt al
        end
    end.
  Fixpoint prun (st : pst) (l : list pop) : option pst :=
    match l with
    | [] => Some st
    | o :: r => match pstep st o with (st', PPanic) => None | (st', _) => prun st' r end
    end.
End Place.
