(** TableModel.v — table.go (all of it) and the placing of lines by MultiCellWithOption (gopdf.go:1271-1322).
    The table code only calls the public drawing operations of the document; the model records those calls, in order.
    The one call whose result matters is MultiCellWithOption: its result is an arbitrary function of everything drawn before
    and of its arguments ([text]). Arithmetic is that of an arbitrary [num]: float64 or exact. *)
From Coq Require Import QArith Lqa.
From Coq Require Import Floats.SpecFloat.
From Verif Require Import Base NumModel.
Open Scope Z_scope.

(** table.go:4-8 RGBColor *)
Record rgb := { R_ : Z; G_ : Z; B_ : Z }.
Definition black : rgb := {| R_ := 0; G_ := 0; B_ := 0 |}.
Definition is_zero (c : rgb) : bool := (R_ c =? 0) && (G_ c =? 0) && (B_ c =? 0).

Section Table.
  Variable N : num.
  Notation T := (T N).
  Notation "a +. b" := (nadd N a b) (at level 50, left associativity).
  Notation "a -. b" := (nsub N a b) (at level 50, left associativity).
  Notation "a *. b" := (nmul N a b) (at level 40, left associativity).
  Notation "a /. b" := (ndiv N a b) (at level 40, left associativity).
  Notation z := (nofZ N).

  (** table.go:11-18 BorderStyle *)
  Record border := { Top : bool; Left_ : bool; Right_ : bool; Bottom : bool; Width : T; Colour : rgb }.
  (** table.go:21-27 CellStyle *)
  Record style := { Border : border; FillColor : rgb; TextColor : rgb; Font : bytes; FontSize : T }.
  (** table.go:29-33 RowCell; [None] for useCellStyle = false (newStyledRowCell 40-46, AddRow 131-137) *)
  Record rowcell := { content : bytes; own : option style }.
  (** table.go:79-83 column *)
  Record column := { header : bytes; width : T; align : bytes }.
  (** table.go:59-74 tableLayout (without the pointer to the document and the constant cell option) *)
  Record table := { startX : T; startY : T; rowHeight : T; columns : list column; rows : list (list rowcell);
                    maxRows : Z; padding : T; tableStyle : style; headerStyle : style; cellStyle : style }.

  (** The calls made on the document. *)
  Inductive halign := ALeft | ACentre | ARight.
  Inductive call :=
  | SetFillColor (c : rgb)
  | FillRect (x y w h : T)                          (* RectFromUpperLeftWithStyle(x, y, w, h, "F") *)
  | SetLineWidth (w : T)
  | SetStrokeColor (c : rgb)
  | Line (x1 y1 x2 y2 : T)
  | SetXY (x y : T)
  | SetTextColor (c : rgb)
  | SetFont (name : bytes) (size : T)
  | MultiCell (w h : T) (s : bytes) (a : halign).   (* MultiCellWithOption at the current position, Middle *)
  Inductive result := Ok | Err (msg : bytes) | Panicked.

  (** table.go:86-123 NewTableLayout; float64 0.5 is 1/2 exactly. *)
  Definition default_border : border :=
    {| Top := true; Left_ := true; Right_ := true; Bottom := true; Width := z 1 /. z 2; Colour := black |}.
  Definition default_style (fill : rgb) : style :=
    {| Border := default_border; FillColor := fill; TextColor := black; Font := []; FontSize := z 0 |}.
  Definition newTable (x y h : T) (mr : Z) : table :=
    {| startX := x; startY := y; rowHeight := h; columns := []; rows := []; maxRows := mr; padding := z 2;
       tableStyle := default_style black; headerStyle := default_style {| R_ := 240; G_ := 240; B_ := 240 |};
       cellStyle := default_style black |}.
  (** table.go:126-128 *)
  Definition addColumn (t : table) (c : column) : table :=
    {| startX := startX t; startY := startY t; rowHeight := rowHeight t; columns := columns t ++ [c]; rows := rows t;
       maxRows := maxRows t; padding := padding t; tableStyle := tableStyle t; headerStyle := headerStyle t; cellStyle := cellStyle t |}.
  (** table.go:140-142 AddStyledRow *)
  Definition addStyledRow (t : table) (r : list rowcell) : table :=
    {| startX := startX t; startY := startY t; rowHeight := rowHeight t; columns := columns t; rows := rows t ++ [r];
       maxRows := maxRows t; padding := padding t; tableStyle := tableStyle t; headerStyle := headerStyle t; cellStyle := cellStyle t |}.
  (** table.go:131-137 *)
  Definition addRow (t : table) (r : list bytes) : table := addStyledRow t (map (fun s => {| content := s; own := None |}) r).

  (** table.go:325-349 drawBorder *)
  Definition drawBorder (x1 y1 x2 y2 : T) (b : border) : list call :=
    if nle N (Width b) (z 0) then []
    else
      let half := Width b /. z 2 in
      [SetLineWidth (Width b); SetStrokeColor (Colour b)] ++
      (if Top b then [Line (x1 -. half) y1 (x2 +. half) y1] else []) ++
      (if Bottom b then [Line (x1 -. half) y2 (x2 +. half) y2] else []) ++
      (if Left_ b then [Line x1 (y1 -. half) x1 (y2 +. half)] else []) ++
      (if Right_ b then [Line x2 (y1 -. half) x2 (y2 +. half)] else []).

  (** The result of MultiCellWithOption, given the calls made so far. *)
  Variable text : list call -> T -> T -> bytes -> halign -> option bytes.

  (** table.go:297-303 the alignment of the text *)
  Definition halign_of (a : bytes) : halign :=
    if list_eqb a (bs "right") then ARight else if list_eqb a (bs "center") then ACentre else ALeft.
  (** table.go:266-322 drawCell, [done] the calls made so far: the calls with those of the cell added, and the error *)
  Definition drawCell (t : table) (done : list call) (x y w h : T) (s : bytes) (al : bytes) (isHeader : bool) (st : style)
    : list call * result :=
    let fill := if is_zero (FillColor st) then [] else [SetFillColor (FillColor st); FillRect x y w h] in    (* 277-280 *)
    let brd := if isHeader then [] else drawBorder x y (x +. w) (y +. h) (Border st) in                      (* 282-287 *)
    let tw := w -. z 2 *. padding t in let th := h -. z 2 *. padding t in                                    (* 290-293 *)
    let fnt := match Font st with [] => [] | f => [SetFont f (FontSize st)] end in                           (* 309-311 *)
    let pre := done ++ fill ++ brd ++ [SetXY (x +. padding t) (y +. padding t); SetTextColor (TextColor st)] ++ fnt in
    let a := halign_of al in
    (pre ++ [MultiCell tw th s a],
     match text pre tw th s a with                                                                           (* 314-317 *)
     | None => Ok
     | Some e => if list_eqb e (bs "empty string") then Ok else Err e
     end).

  (** A row of cells: the content, alignment, width and style of each. *)
  Record todo := { d_s : bytes; d_a : bytes; d_w : T; d_st : style }.
  (** table.go:167-182, 188-208, 215-232: the three inner loops; [None] for an index out of range (t.columns[i], 197) *)
  Fixpoint drawRow (t : table) (done : list call) (x y : T) (isHeader : bool) (l : list (option todo)) : list call * result :=
    match l with
    | [] => (done, Ok)
    | None :: _ => (done, Panicked)
    | Some d :: r =>
        match drawCell t done x y (d_w d) (rowHeight t) (d_s d) (d_a d) isHeader (d_st d) with
        | (done', Ok) => drawRow t done' (x +. d_w d) y isHeader r
        | (done', e) => (done', e)
        end
    end.
  Definition header_todo (t : table) : list (option todo) :=
    map (fun c => Some {| d_s := header c; d_a := bs "center"; d_w := width c; d_st := headerStyle t |}) (columns t).
  Fixpoint row_todo (t : table) (cols : list column) (row : list rowcell) : list (option todo) :=
    match row, cols with
    | [], _ => []
    | c :: r, k :: ks => Some {| d_s := content c; d_a := align k; d_w := width k;
                                 d_st := match own c with Some st => st | None => cellStyle t end |} :: row_todo t ks r
    | c :: r, [] => [None]
    end.
  Definition filler_todo (t : table) : list (option todo) :=
    map (fun c => Some {| d_s := []; d_a := align c; d_w := width c; d_st := cellStyle t |}) (columns t).
  (** table.go:186-210 and 213-234: rows one under the other *)
  Fixpoint drawRows (t : table) (done : list call) (y : T) (l : list (list (option todo))) : list call * T * result :=
    match l with
    | [] => (done, y, Ok)
    | r :: rest =>
        match drawRow t done (startX t) y false r with
        | (done', Ok) => drawRows t done' (y +. rowHeight t) rest
        | (done', e) => (done', y, e)
        end
    end.
  (** table.go:245-263 drawTableAndHeaderBorder *)
  Definition outerBorders (t : table) : list call :=
    let x2 := fold_left (fun x c => x +. width c) (columns t) (startX t) in
    drawBorder (startX t) (startY t) x2 (startY t +. z (maxRows t + 1) *. rowHeight t) (Border (tableStyle t)) ++
    drawBorder (startX t) (startY t) x2 (startY t +. rowHeight t) (Border (headerStyle t)).
  (** table.go:161-242 DrawTable *)
  Definition drawTable (t : table) (done : list call) : list call * result :=
    match drawRow t done (startX t) (startY t) true (header_todo t) with
    | (d1, Ok) =>
        match drawRows t d1 (startY t +. rowHeight t)
                (map (row_todo t (columns t)) (rows t) ++
                 List.repeat (filler_todo t) (Z.to_nat (maxRows t - Z.of_nat (List.length (rows t))))) with
        | (d2, _, Ok) => (d2 ++ outerBorders t, Ok)
        | (d2, _, e) => (d2, e)
        end
    | (d1, e) => (d1, e)
    end.

  (** gopdf.go:1300-1319: the boxes (top, height) given to CellWithOption for the lines of a MultiCellWithOption, the cell
      of height [H] starting at [y], [n] lines of height [lh]. float64(1.5) is 3/2. *)
  Fixpoint boxes (y h lh : T) (n : nat) : list (T * T) :=
    match n with O => [] | S m => (y, h) :: boxes (y +. lh) h lh m end.
  Definition multiCellBoxes (y H lh : T) (n : nat) : list (T * T) :=
    let start := match n with
                 | O | S O => H
                 | _ => H -. (lh +. z 3 /. z 2) *. z (Z.of_nat (Nat.div n 2 + (if Nat.even n then 0 else 1)))
                 end in
    boxes y start lh n.
End Table.
