(** PropTable.v — C47: what DrawTable draws. *)
From Coq Require Import QArith Lqa.
From Coq Require Import Floats.SpecFloat.
From Verif Require Import Base NumModel TableModel.
Open Scope Z_scope.

(** ** Specification: reading the calls as marks on the page.
    A small graphics state: the colours, the line width, the position, the font; [None] when not set by the calls read. *)
Section Read.
  Variable T : Type.
  Inductive mark :=
  | Filled (c : option rgb) (x y w h : T)
  | Stroked (c : option rgb) (lw : option T) (x1 y1 x2 y2 : T)
  | Texted (c : option rgb) (f : option (bytes * T)) (at_ : option (T * T)) (w h : T) (s : bytes) (a : halign).
  Record gst := { g_fill : option rgb; g_lw : option T; g_stroke : option rgb; g_at : option (T * T); g_text : option rgb; g_font : option (bytes * T) }.
End Read.
Arguments Filled {T}. Arguments Stroked {T}. Arguments Texted {T}. Arguments Build_gst {T}.
Arguments g_fill {T}. Arguments g_lw {T}. Arguments g_stroke {T}. Arguments g_at {T}. Arguments g_text {T}. Arguments g_font {T}.
Definition read1 {N} (g : gst (T N)) (c : call N) : gst (T N) * list (mark (T N)) :=
  match c with
  | SetFillColor _ c => (Build_gst (Some c) (g_lw g) (g_stroke g) (g_at g) (g_text g) (g_font g), [])
  | FillRect _ x y w h => (g, [Filled (g_fill g) x y w h])
  | SetLineWidth _ w => (Build_gst (g_fill g) (Some w) (g_stroke g) (g_at g) (g_text g) (g_font g), [])
  | SetStrokeColor _ c => (Build_gst (g_fill g) (g_lw g) (Some c) (g_at g) (g_text g) (g_font g), [])
  | Line _ x1 y1 x2 y2 => (g, [Stroked (g_stroke g) (g_lw g) x1 y1 x2 y2])
  | SetXY _ x y => (Build_gst (g_fill g) (g_lw g) (g_stroke g) (Some (x, y)) (g_text g) (g_font g), [])
  | SetTextColor _ c => (Build_gst (g_fill g) (g_lw g) (g_stroke g) (g_at g) (Some c) (g_font g), [])
  | SetFont _ f sz => (Build_gst (g_fill g) (g_lw g) (g_stroke g) (g_at g) (g_text g) (Some (f, sz)), [])
  | MultiCell _ w h s a => (Build_gst (g_fill g) (g_lw g) (g_stroke g) None (g_text g) (g_font g),
                            [Texted (g_text g) (g_font g) (g_at g) w h s a])
  end.
Fixpoint read {N} (g : gst (T N)) (l : list (call N)) : gst (T N) * list (mark (T N)) :=
  match l with
  | [] => (g, [])
  | c :: r => let '(g1, m1) := read1 g c in let '(g2, m2) := read g1 r in (g2, m1 ++ m2)
  end.
Definition g0 {T} : gst T := Build_gst None None None None None None.
Definition marks {N} (l : list (call N)) : list (mark (T N)) := snd (read g0 l).

(** ** Specification: what should be drawn, each cell at the place its row and column numbers give. *)
Open Scope Q_scope.
Definition Qsum (l : list Q) : Q := fold_right Qplus 0 l.
Definition widths (t : table Qn) : list Q := map (width Qn) (columns Qn t).
(** the left edge of column [i]; the top edge of row [j] (row 0 is the header) *)
Definition colX (t : table Qn) (i : nat) : Q := startX Qn t + Qsum (firstn i (widths t)).
Definition rowY (t : table Qn) (j : nat) : Q := startY Qn t + inject_Z (Z.of_nat j) * rowHeight Qn t.
(** the sides of a frame, each drawn half a line width further at both ends; nothing for a width that is not positive *)
Definition frame (x1 y1 x2 y2 : Q) (b : border Qn) : list (mark Q) :=
  let c := Some (Colour Qn b) in let w := Width Qn b in let e := w * (1#2) in
  if Qle_bool w 0 then [] else
  (if Top Qn b then [Stroked c (Some w) (x1 - e) y1 (x2 + e) y1] else []) ++
  (if Bottom Qn b then [Stroked c (Some w) (x1 - e) y2 (x2 + e) y2] else []) ++
  (if Left_ Qn b then [Stroked c (Some w) x1 (y1 - e) x1 (y2 + e)] else []) ++
  (if Right_ Qn b then [Stroked c (Some w) x2 (y1 - e) x2 (y2 + e)] else []).
(** "right", "center", anything else is left *)
Definition side (a : bytes) : halign := if list_eqb a (bs "right") then ARight else if list_eqb a (bs "center") then ACentre else ALeft.
(** one cell: the background (unless black), the frame, the text in the cell less the padding *)
Definition cell (framed : bool) (pad x y w h : Q) (st : style Qn) (s : bytes) (a : halign) : list (mark Q) :=
  (if is_zero (FillColor Qn st) then [] else [Filled (Some (FillColor Qn st)) x y w h]) ++
  (if framed then frame x y (x + w) (y + h) (Border Qn st) else []) ++
  [Texted (Some (TextColor Qn st)) (match Font Qn st with [] => None | f => Some (f, FontSize Qn st) end) (Some (x + pad, y + pad)) (w - 2 * pad) (h - 2 * pad) s a].
(** row [j], its cells given as (content, alignment, width, style), from column [i] on *)
Record item := { i_s : bytes; i_a : halign; i_w : Q; i_st : style Qn }.
Fixpoint row_marks (t : table Qn) (framed : bool) (j i : nat) (l : list item) : list (mark Q) :=
  match l with
  | [] => []
  | d :: r => cell framed (padding Qn t) (colX t i) (rowY t j) (i_w d) (rowHeight Qn t) (i_st d) (i_s d) (i_a d) ++ row_marks t framed j (S i) r
  end.
Definition header_items (t : table Qn) : list item :=
  map (fun c => {| i_s := header Qn c; i_a := ACentre; i_w := width Qn c; i_st := headerStyle Qn t |}) (columns Qn t).
Definition row_items (t : table Qn) (r : list (rowcell Qn)) : list item :=
  map (fun rc => {| i_s := content Qn (fst rc); i_a := side (align Qn (snd rc)); i_w := width Qn (snd rc);
                    i_st := match own Qn (fst rc) with Some st => st | None => cellStyle Qn t end |}) (combine r (columns Qn t)).
Definition empty_items (t : table Qn) : list item :=
  map (fun c => {| i_s := []; i_a := side (align Qn c); i_w := width Qn c; i_st := cellStyle Qn t |}) (columns Qn t).
Fixpoint rows_marks (t : table Qn) (j : nat) (l : list (list item)) : list (mark Q) :=
  match l with [] => [] | r :: rest => row_marks t true j 0 r ++ rows_marks t (S j) rest end.
(** [n] data rows in all, the rows given first *)
Definition all_rows (t : table Qn) (n : nat) : list (list item) :=
  map (row_items t) (rows Qn t) ++ List.repeat (empty_items t) (n - List.length (rows Qn t)).
Definition table_marks (t : table Qn) (n : nat) : list (mark Q) :=
  row_marks t false 0 0 (header_items t) ++ rows_marks t 1 (all_rows t n) ++
  frame (startX Qn t) (startY Qn t) (colX t (List.length (columns Qn t))) (rowY t (S n)) (Border Qn (tableStyle Qn t)) ++
  frame (startX Qn t) (startY Qn t) (colX t (List.length (columns Qn t))) (rowY t 1) (Border Qn (headerStyle Qn t)).
(** the same marks up to equality of rationals; a text with no font of its own may be in any font *)
Definition opt_eq (a b : option (Q * Q)) : Prop := match a, b with Some (x, y), Some (x', y') => x == x' /\ y == y' | None, None => True | _, _ => False end.
Definition lw_eq (a b : option Q) : Prop := match a, b with Some x, Some y => x == y | None, None => True | _, _ => False end.
Definition mark_eq (m m' : mark Q) : Prop :=
  match m, m' with
  | Filled c x y w h, Filled c' x' y' w' h' => c = c' /\ x == x' /\ y == y' /\ w == w' /\ h == h'
  | Stroked c l x1 y1 x2 y2, Stroked c' l' x1' y1' x2' y2' => c = c' /\ lw_eq l l' /\ x1 == x1' /\ y1 == y1' /\ x2 == x2' /\ y2 == y2'
  | Texted c f p w h s a, Texted c' f' p' w' h' s' a' => c = c' /\ (f' = None \/ f = f') /\ opt_eq p p' /\ w == w' /\ h == h' /\ s = s' /\ a = a'
  | _, _ => False
  end.
(** the results of the text calls that do not abort the table *)
Definition harmless (e : option bytes) : Prop := e = None \/ e = Some (bs "empty string").

(** ** Proofs *)
Ltac qr := change (T Qn) with Q in *; ring.
Lemma q0 (x : Q) : x == x + 0. Proof. ring. Qed.
Lemma q0m (x h : Q) : x == x + 0 * h. Proof. ring. Qed.
Lemma q1m (x h : Q) : x + h == x + 1 * h. Proof. ring. Qed.
Lemma read_app {N} (l1 l2 : list (call N)) : forall g, read g (l1 ++ l2) = (fst (read (fst (read g l1)) l2), snd (read g l1) ++ snd (read (fst (read g l1)) l2)).
Proof.
  induction l1 as [|c l1 IH]; intros g; cbn [app read]; [cbn [fst snd app]; destruct (read g l2); reflexivity|].
  destruct (read1 g c) as [g1 m1]. rewrite IH. destruct (read g1 l1) as [g2 m2]. cbn [fst snd]. destruct (read g2 l2) as [g3 m3]. cbn [fst snd]. now rewrite app_assoc.
Qed.
Lemma marks_app {N} (l1 l2 : list (call N)) g : snd (read g (l1 ++ l2)) = snd (read g l1) ++ snd (read (fst (read g l1)) l2).
Proof. now rewrite read_app. Qed.
Definition meq := Forall2 mark_eq.
Lemma meq_app a b c d : meq a b -> meq c d -> meq (a ++ c) (b ++ d).
Proof. apply Forall2_app. Qed.

Lemma frame_ok g x1 y1 x2 y2 x1' y1' x2' y2' b : x1 == x1' -> y1 == y1' -> x2 == x2' -> y2 == y2' ->
  meq (snd (read g (drawBorder Qn x1 y1 x2 y2 b))) (frame x1' y1' x2' y2' b).
Proof.
  intros E1 E2 E3 E4. unfold drawBorder, frame. change (nle Qn) with Qle_bool. change (nofZ Qn 0) with 0.
  destruct (Qle_bool (Width Qn b) 0); [constructor|].
  assert (half : forall w : Q, w / 2 == w * (1#2)) by (intros; field).
  cbn [app]. cbn [read read1]. cbn [nsub nadd ndiv nofZ Qn]. change (inject_Z 2) with 2.
  set (w := Width Qn b : Q) in *. assert (H := half w).
  destruct (Top Qn b), (Bottom Qn b), (Left_ Qn b), (Right_ Qn b); cbn [app read read1 snd fst g_lw g_stroke];
    repeat (apply Forall2_cons; [cbn [mark_eq lw_eq]; split; [reflexivity|]; split; [reflexivity|]; repeat split; lra|]); apply Forall2_nil.
Qed.
Lemma halign_side a : halign_of a = side a.
Proof. reflexivity. Qed.

Lemma drawCell_app text t done x y w h s al hd st : exists new, fst (drawCell Qn text t done x y w h s al hd st) = done ++ new /\
  forall g x' y', x == x' -> y == y' -> meq (snd (read g new)) (cell (negb hd) (padding Qn t) x' y' w h st s (side al)).
Proof.
  unfold drawCell. cbn [fst]. eexists. split; [rewrite <- !app_assoc; reflexivity|]. intros g x' y' Ex Ey. unfold cell.
  rewrite marks_app. apply meq_app.
  { destruct (is_zero (FillColor Qn st)); cbn [read read1 app snd fst g_fill]; [constructor|]. constructor; [|constructor]. cbn [mark_eq]. repeat split; (lra || reflexivity). }
  rewrite marks_app. apply meq_app.
  { destruct hd; cbn [negb]; [constructor|]. apply frame_ok; try assumption; cbn [nadd Qn]; lra. }
  destruct (Font Qn st) as [|f0 f]; cbn [app read read1 snd fst g_text g_font g_at]; (constructor; [|constructor]); cbn [mark_eq opt_eq nadd nsub nmul nofZ Qn]; change (inject_Z 2) with 2;
    (split; [reflexivity|]; split; [auto|]; repeat split; lra).
Qed.

Definition item_todo (d : todo Qn) : item := {| i_s := d_s Qn d; i_a := side (d_a Qn d); i_w := d_w Qn d; i_st := d_st Qn d |}.
(** [l] describes the items of a row that starts at column [i] *)
Fixpoint widths_from (ws : list Q) (l : list item) : Prop :=
  match l with [] => True | d :: r => match ws with [] => False | w :: ws' => i_w d = w /\ widths_from ws' r end end.
Lemma colX_S t i w : nth_error (widths t) i = Some w -> colX t (S i) == colX t i + w.
Proof.
  intros H. unfold colX. enough (E : Qsum (firstn (S i) (widths t)) == Qsum (firstn i (widths t)) + w) by (rewrite E; qr).
  revert H. generalize (widths t) as l. induction i as [|i IH]; intros [|a l] H; cbn in H; try discriminate.
  - injection H as ->. cbn. qr.
  - cbn [firstn Qsum fold_right]. fold (Qsum (firstn (S i) l)). fold (Qsum (firstn i l)). rewrite (IH l H). qr.
Qed.
Lemma skipn_nth {A} (l : list A) i w ws : skipn i l = w :: ws -> nth_error l i = Some w /\ skipn (S i) l = ws.
Proof. revert l. induction i as [|i IH]; intros [|a l] H; cbn in H; try discriminate. - injection H as -> ->. split; reflexivity. - cbn [nth_error]. apply IH in H. exact H. Qed.
Lemma drawRow_ok text t hd : forall l done x y calls j i, x == colX t i -> y == rowY t j ->
  widths_from (skipn i (widths t)) (map item_todo (flat_map (fun o => match o with Some d => [d] | None => [] end) l)) ->
  drawRow Qn text t done x y hd l = (calls, Ok) ->
  ~ In None l /\ exists new, calls = done ++ new /\
  forall g, meq (snd (read g new)) (row_marks t (negb hd) j i (map item_todo (flat_map (fun o => match o with Some d => [d] | None => [] end) l))).
Proof.
  induction l as [|[d|] l IH]; intros done x y calls j i Ex Ey W H; cbn [drawRow] in H.
  - injection H as <-. split; [intros []|]. exists []. split; [now rewrite app_nil_r|]. intros g. constructor.
  - destruct (drawCell_app text t done x y (d_w Qn d) (rowHeight Qn t) (d_s Qn d) (d_a Qn d) hd (d_st Qn d)) as (n1 & E1 & M1).
    destruct (drawCell Qn text t done x y (d_w Qn d) (rowHeight Qn t) (d_s Qn d) (d_a Qn d) hd (d_st Qn d)) as [d1 [| |]] eqn:C; try discriminate.
    cbn [fst] in E1. subst d1. cbn [flat_map app map widths_from] in W. destruct (skipn i (widths t)) as [|w ws] eqn:Sk; [destruct W|]. destruct W as [Wd W].
    destruct (skipn_nth _ _ _ _ Sk) as [Nt Sk']. rewrite <- Sk' in W. cbn [i_w item_todo] in Wd.
    assert (Ex' : nadd Qn x (d_w Qn d) == colX t (S i)). { rewrite (colX_S _ _ _ Nt). cbn [nadd Qn]. rewrite Ex, <- Wd. reflexivity. }
    destruct (IH _ _ _ _ j _ Ex' Ey W H) as (NN & n2 & -> & M2). split; [intros [A|A]; [discriminate|now apply NN]|].
    exists (n1 ++ n2). split; [now rewrite app_assoc|]. intros g. rewrite marks_app. cbn [flat_map app map row_marks]. apply meq_app; [apply M1; assumption|apply M2].
  - discriminate.
Qed.
Definition items (l : list (option (todo Qn))) : list item := map item_todo (flat_map (fun o => match o with Some d => [d] | None => [] end) l).
Lemma rowY_S t j : rowY t (S j) == rowY t j + rowHeight Qn t.
Proof. unfold rowY. rewrite Nat2Z.inj_succ, <- Z.add_1_r, inject_Z_plus. change (inject_Z 1) with 1. generalize (rowHeight Qn t : Q) (startY Qn t : Q). intros a b. cbn [T Qn] in *. qr. Qed.
Lemma drawRows_ok text t : forall l done y calls y2 j, y == rowY t j -> Forall (fun r => widths_from (widths t) (items r)) l ->
  drawRows Qn text t done y l = (calls, y2, Ok) ->
  Forall (fun r => ~ In None r) l /\ exists new, calls = done ++ new /\ forall g, meq (snd (read g new)) (rows_marks t j (map items l)).
Proof.
  induction l as [|r l IH]; intros done y calls y2 j Ey W H; cbn [drawRows] in H.
  - injection H as <- <-. split; [constructor|]. exists []. split; [now rewrite app_nil_r|]. intros; constructor.
  - apply Forall_cons_iff in W as [W1 W2]. destruct (drawRow Qn text t done (startX Qn t) y false r) as [d1 [| |]] eqn:D; try discriminate.
    assert (X0 : startX Qn t == colX t 0) by (apply q0).
    destruct (drawRow_ok text t false r done _ _ d1 j 0 X0 Ey W1 D) as (NN & n1 & -> & M1).
    assert (Ey' : nadd Qn y (rowHeight Qn t) == rowY t (S j)). { rewrite rowY_S. cbn [nadd Qn]. now rewrite Ey. }
    destruct (IH _ _ _ _ _ Ey' W2 H) as (NN2 & n2 & -> & M2). split; [now constructor|]. exists (n1 ++ n2). split; [now rewrite app_assoc|].
    intros g. rewrite marks_app. cbn [map rows_marks]. apply meq_app; [apply M1|apply M2].
Qed.
Lemma items_map {A} (f : A -> todo Qn) l : items (map (fun c => Some (f c)) l) = map (fun c => item_todo (f c)) l.
Proof. unfold items. induction l as [|a l IH]; [reflexivity|]. cbn. f_equal. exact IH. Qed.
Lemma widths_from_cols (f : column Qn -> item) cols : (forall c, i_w (f c) = width Qn c) -> widths_from (map (width Qn) cols) (map f cols).
Proof. intros H. induction cols as [|c cols IH]; cbn; [exact I|]. split; [apply H|exact IH]. Qed.
Lemma widths_from_row t : forall cols r, widths_from (map (width Qn) cols) (items (row_todo Qn t cols r)).
Proof. unfold items. induction cols as [|k cols IH]; intros [|c r]; cbn; auto. Qed.
Lemma row_todo_items t : forall cols r, items (row_todo Qn t cols r) =
  map (fun rc => {| i_s := content Qn (fst rc); i_a := side (align Qn (snd rc)); i_w := width Qn (snd rc);
                    i_st := match own Qn (fst rc) with Some st => st | None => cellStyle Qn t end |}) (combine r cols).
Proof. unfold items. intros cols. induction cols as [|k cols IH]; intros [|c r]; cbn; auto. f_equal. apply IH. Qed.
Lemma row_todo_none t : forall cols r, In None (row_todo Qn t cols r) <-> (List.length cols < List.length r)%nat.
Proof.
  induction cols as [|k cols IH]; intros [|c r]; cbn [row_todo List.length In]; split; intros HH; try lia; try tauto; try (destruct HH as [H|H]; [discriminate|]; apply IH in H; lia).
  right. apply IH. lia.
Qed.
Lemma x2_fold cols : forall x x', x == x' -> fold_left (fun a c => nadd Qn a (width Qn c)) cols x == x' + Qsum (map (width Qn) cols).
Proof.
  induction cols as [|c cols IH]; intros x x' E; cbn [fold_left map Qsum fold_right]; [rewrite E; qr|].
  rewrite (IH _ (x' + width Qn c)); [fold (Qsum (map (width Qn) cols)); qr|]. cbn [nadd Qn]. now rewrite E.
Qed.
Lemma outer_ok t n g : maxRows Qn t = Z.of_nat n ->
  meq (snd (read g (outerBorders Qn t)))
      (frame (startX Qn t) (startY Qn t) (colX t (List.length (columns Qn t))) (rowY t (S n)) (Border Qn (tableStyle Qn t)) ++
       frame (startX Qn t) (startY Qn t) (colX t (List.length (columns Qn t))) (rowY t 1) (Border Qn (headerStyle Qn t))).
Proof.
  intros Hn. unfold outerBorders. rewrite marks_app.
  assert (X : fold_left (fun x c => nadd Qn x (width Qn c)) (columns Qn t) (startX Qn t) == colX t (List.length (columns Qn t))).
  { rewrite (x2_fold _ _ (startX Qn t)) by reflexivity. unfold colX, widths. rewrite firstn_all2; [reflexivity|]. rewrite map_length. auto. }
  apply meq_app; apply frame_ok; try reflexivity; try exact X; unfold rowY; cbn [nadd nmul nofZ Qn].
  - rewrite Hn. replace (Z.of_nat n + 1)%Z with (Z.of_nat (S n)) by lia. reflexivity.
  - apply q1m.
Qed.

(** ** C47 *)
(** When DrawTable succeeds on a table with no more rows than it was made for, the page gets exactly the header, the rows, empty
    cells up to the number of rows asked for, each at the place of its row and column, and the two outer frames; the table frame
    runs from the top of the header to the bottom of the last row. For every behaviour of the text layer. *)
Theorem C47_draws_the_table_partial :
  forall text t done calls n, maxRows Qn t = Z.of_nat n -> (List.length (rows Qn t) <= n)%nat ->
    drawTable Qn text t done = (calls, Ok) ->
    Forall (fun r => (List.length r <= List.length (columns Qn t))%nat) (rows Qn t) /\
    exists new, calls = done ++ new /\ Forall2 mark_eq (marks new) (table_marks t n).
Proof.
  intros text t done calls n Hn Hle H. unfold drawTable in H.
  destruct (drawRow Qn text t done (startX Qn t) (startY Qn t) true (header_todo Qn t)) as [d1 [| |]] eqn:D1; try discriminate.
  assert (X0 : startX Qn t == colX t 0) by (apply q0). assert (Y0 : startY Qn t == rowY t 0) by (apply q0m).
  assert (HI : items (header_todo Qn t) = header_items t) by (unfold header_todo; rewrite items_map; reflexivity).
  assert (W0 : widths_from (skipn 0 (widths t)) (items (header_todo Qn t))). { rewrite HI. apply widths_from_cols. reflexivity. }
  destruct (drawRow_ok text t true _ done _ _ d1 0 0 X0 Y0 W0 D1) as (_ & n1 & -> & M1). fold (items (header_todo Qn t)) in M1. rewrite HI in M1.
  set (all := map (row_todo Qn t (columns Qn t)) (rows Qn t) ++ repeat (filler_todo Qn t) (Z.to_nat (maxRows Qn t - Z.of_nat (List.length (rows Qn t))))) in H.
  destruct (drawRows Qn text t (done ++ n1) (nadd Qn (startY Qn t) (rowHeight Qn t)) all) as [[d2 y2] [| |]] eqn:D2; try discriminate.
  assert (FI : items (filler_todo Qn t) = empty_items t) by (unfold filler_todo; rewrite items_map; reflexivity).
  assert (Wall : Forall (fun r => widths_from (widths t) (items r)) all).
  { apply Forall_app. split; [apply Forall_map, Forall_forall; intros r _; apply widths_from_row|].
    apply Forall_forall. intros r Hr. apply repeat_spec in Hr. subst r. rewrite FI. apply widths_from_cols. reflexivity. }
  assert (Y1 : nadd Qn (startY Qn t) (rowHeight Qn t) == rowY t 1). { apply q1m. }
  destruct (drawRows_ok text t all _ _ _ _ 1 Y1 Wall D2) as (NN & n2 & -> & M2).
  assert (AI : map items all = all_rows t n).
  { unfold all, all_rows. rewrite map_app, map_map. f_equal.
    - apply map_ext. intros r. apply row_todo_items.
    - replace (Z.to_nat (maxRows Qn t - Z.of_nat (List.length (rows Qn t)))) with (n - List.length (rows Qn t))%nat by (rewrite Hn; lia).
      generalize (n - List.length (rows Qn t))%nat as k. induction k as [|k IH]; [reflexivity|]. cbn [repeat map]. rewrite FI. f_equal. exact IH. }
  rewrite AI in M2. injection H as <-. split.
  - apply Forall_forall. intros r Hr. destruct (le_lt_dec (List.length r) (List.length (columns Qn t))) as [L|L]; [exact L|exfalso].
    rewrite Forall_forall in NN. apply (NN (row_todo Qn t (columns Qn t) r)); [unfold all; apply in_or_app; left; now apply in_map|]. now apply row_todo_none.
  - exists (n1 ++ n2 ++ outerBorders Qn t). split; [now rewrite !app_assoc|]. unfold marks, table_marks. rewrite !marks_app.
    apply meq_app; [apply M1|]. apply meq_app; [apply M2|]. now apply outer_ok.
Qed.
Print Assumptions C47_draws_the_table_partial.

(** DrawTable succeeds exactly when no row is longer than the columns, if the text layer reports no error but "empty string". *)
Lemma drawRow_total text t hd : (forall a b c d e, harmless (text a b c d e)) -> forall l done x y,
  exists calls, drawRow Qn text t done x y hd l = (calls, if existsb (fun o => match o with None => true | _ => false end) l then Panicked else Ok).
Proof.
  intros Ht. induction l as [|[d|] l IH]; intros done x y; cbn [drawRow existsb].
  - now exists done.
  - unfold drawCell. cbn [orb]. match goal with |- context[text ?a ?b ?c ?d ?e] => destruct (Ht a b c d e) as [->| ->] end.
    + apply IH.
    + replace (list_eqb (bs "empty string") (bs "empty string")) with true by reflexivity. apply IH.
  - now exists done.
Qed.
Lemma existsb_none t cols r : existsb (fun o => match o with None => true | _ => false end) (row_todo Qn t cols r) = (List.length cols <? List.length r)%nat.
Proof.
  destruct (List.length cols <? List.length r)%nat eqn:E.
  - apply Nat.ltb_lt in E. apply (row_todo_none t) in E. apply existsb_exists. exists None. split; [exact E|reflexivity].
  - apply not_true_is_false. intros H. apply existsb_exists in H as ([d|] & H & D); [discriminate|]. apply row_todo_none in H. apply Nat.ltb_ge in E. lia.
Qed.
Lemma drawRows_total text t : (forall a b c d e, harmless (text a b c d e)) -> forall l done y,
  exists calls y2, drawRows Qn text t done y l = (calls, y2, if existsb (existsb (fun o => match o with None => true | _ => false end)) l then Panicked else Ok).
Proof.
  intros Ht. induction l as [|r l IH]; intros done y; cbn [drawRows existsb].
  - now exists done, y.
  - destruct (drawRow_total text t false Ht r done (startX Qn t) y) as [c ->]. destruct (existsb _ r); cbn [orb]; [now exists c, y|apply IH].
Qed.
Lemma existsb_rows t cols l : existsb (existsb (fun o => match o with None => true | _ => false end)) (map (row_todo Qn t cols) l) = existsb (fun r => (List.length cols <? List.length r)%nat) l.
Proof. induction l as [|r l IH]; [reflexivity|]. cbn [map existsb]. rewrite existsb_none. f_equal. exact IH. Qed.
Lemma no_none (l : list (todo Qn)) : existsb (fun o => match o with None => true | _ => false end) (map Some l) = false.
Proof. induction l; [reflexivity|exact IHl]. Qed.
Theorem C47_succeeds_iff_rows_fit :
  forall text t done, (forall a b c d e, harmless (text a b c d e)) ->
    exists calls, drawTable Qn text t done = (calls, if existsb (fun r => (List.length (columns Qn t) <? List.length r)%nat) (rows Qn t) then Panicked else Ok).
Proof.
  intros text t done Ht. unfold drawTable. destruct (drawRow_total text t true Ht (header_todo Qn t) done (startX Qn t) (startY Qn t)) as [c ->].
  unfold header_todo. rewrite <- (map_map (fun c => {| d_s := header Qn c; d_a := bs "center"; d_w := width Qn c; d_st := headerStyle Qn t |}) Some), no_none.
  match goal with |- context[drawRows Qn text t c ?y ?l] => destruct (drawRows_total text t Ht l c y) as (c2 & y2 & ->) end.
  rewrite existsb_app. match goal with |- context[existsb ?f (repeat ?a ?k)] => assert (Hr : existsb f (repeat a k) = false) end.
  { apply not_true_is_false. intros H. apply existsb_exists in H as (r & Hr & H). apply repeat_spec in Hr. subst r. unfold filler_todo in H.
    rewrite <- (map_map (fun c => {| d_s := []; d_a := align Qn c; d_w := width Qn c; d_st := cellStyle Qn t |}) Some), no_none in H. discriminate. }
  rewrite Hr, orb_false_r, existsb_rows.
  destruct (existsb _ (rows Qn t)); [now exists c2|]. eexists. reflexivity.
Qed.
Print Assumptions C47_succeeds_iff_rows_fit.

(** The places of the cells tile the table: with widths and height that are not negative, the cells of two different places have
    no common interior point, each lies inside the frame, neighbours share an edge, and the text box of a cell lies in the cell
    when the padding fits. *)
Definition in_cell (t : table Qn) (j i : nat) (w : Q) (p : Q * Q) : Prop :=
  colX t i < fst p < colX t i + w /\ rowY t j < snd p < rowY t j + rowHeight Qn t.
Lemma Qsum_mono (l : list Q) : Forall (fun w => 0 <= w) l -> forall i k, (i <= k)%nat -> Qsum (firstn i l) <= Qsum (firstn k l).
Proof.
  induction l as [|w l IH]; intros H i k L; [rewrite !firstn_nil; cbn; lra|]. apply Forall_cons_iff in H as [H1 H2].
  destruct i as [|i], k as [|k]; try lia; cbn [firstn Qsum fold_right]; fold Qsum.
  - lra.
  - assert (A := IH H2 0%nat k (Nat.le_0_l k)). cbn [firstn Qsum fold_right] in A. fold (Qsum (firstn k l)). lra.
  - assert (A := IH H2 i k ltac:(lia)). fold (Qsum (firstn k l)) (Qsum (firstn i l)). lra.
Qed.
Lemma colX_mono t i k : Forall (fun w => 0 <= w) (widths t) -> (i <= k)%nat -> colX t i <= colX t k.
Proof. intros H L. unfold colX. assert (A := Qsum_mono _ H i k L). apply Qplus_le_r. exact A. Qed.
Lemma rowY_mono t j k : 0 <= rowHeight Qn t -> (j <= k)%nat -> rowY t j <= rowY t k.
Proof. intros H L. unfold rowY. apply Qplus_le_r, Qmult_le_compat_r; [|exact H]. rewrite <- Zle_Qle. lia. Qed.
Lemma box_in (x w pd p : Q) : 0 <= pd -> 2 * pd <= w -> x + pd <= p <= x + pd + (w - 2 * pd) -> x <= p <= x + w.
Proof. lra. Qed.
Theorem C47_cells_tile_the_table :
  forall t n, Forall (fun w => 0 <= w) (widths t) -> 0 <= rowHeight Qn t ->
    (forall j i w, nth_error (widths t) i = Some w -> (j <= n)%nat ->
       colX t (S i) == colX t i + w /\ rowY t (S j) == rowY t j + rowHeight Qn t /\
       startX Qn t <= colX t i /\ colX t i + w <= colX t (List.length (columns Qn t)) /\ startY Qn t <= rowY t j /\ rowY t j + rowHeight Qn t <= rowY t (S n)) /\
    (forall j i w j' i' w' p, nth_error (widths t) i = Some w -> nth_error (widths t) i' = Some w' ->
       in_cell t j i w p -> in_cell t j' i' w' p -> j = j' /\ i = i') /\
    (forall i w p, 0 <= padding Qn t -> 2 * padding Qn t <= w -> colX t i + padding Qn t <= p <= colX t i + padding Qn t + (w - 2 * padding Qn t) -> colX t i <= p <= colX t i + w) /\
    (forall j p, 0 <= padding Qn t -> 2 * padding Qn t <= rowHeight Qn t ->
       rowY t j + padding Qn t <= p <= rowY t j + padding Qn t + (rowHeight Qn t - 2 * padding Qn t) -> rowY t j <= p <= rowY t j + rowHeight Qn t).
Proof.
  intros t n W H. split; [|split; [|split]].
  - intros j i w Hi Hj. assert (E1 := colX_S t i w Hi). assert (E2 := rowY_S t j). split; [exact E1|]. split; [exact E2|].
    assert (Li : (i < List.length (columns Qn t))%nat). { assert (nth_error (widths t) i <> None) as A by congruence. apply nth_error_Some in A. unfold widths in A. now rewrite map_length in A. }
    split; [|split; [|split]].
    + assert (E : startX Qn t == colX t 0) by apply q0. rewrite E. apply colX_mono; [exact W|lia].
    + rewrite <- E1. apply colX_mono; [exact W|lia].
    + assert (E : startY Qn t == rowY t 0) by apply q0m. rewrite E. apply rowY_mono; [exact H|lia].
    + rewrite <- E2. apply rowY_mono; [exact H|lia].
  - intros j i w j' i' w' p Hi Hi' [[A1 A2] [A3 A4]] [[B1 B2] [B3 B4]].
    assert (E1 := colX_S t i w Hi). assert (E1' := colX_S t i' w' Hi'). assert (E2 := rowY_S t j). assert (E2' := rowY_S t j').
    rewrite <- E1 in A2. rewrite <- E1' in B2. rewrite <- E2 in A4. rewrite <- E2' in B4.
    split.
    + destruct (Nat.lt_trichotomy j j') as [L|[L|L]]; [|exact L|]; exfalso.
      * assert (M := rowY_mono t (S j) j' H L). lra.
      * assert (M := rowY_mono t (S j') j H L). lra.
    + destruct (Nat.lt_trichotomy i i') as [L|[L|L]]; [|exact L|]; exfalso.
      * assert (M := colX_mono t (S i) i' W L). lra.
      * assert (M := colX_mono t (S i') i W L). lra.
  - intros i w p P1 P2 A. revert P1 P2 A. apply box_in.
  - intros j p P1 P2 A. revert P1 P2 A. apply box_in.
Qed.
Print Assumptions C47_cells_tile_the_table.

(** A table whose hypotheses are met: two columns, two rows of the three asked for, and texts that all succeed. *)
Definition text_ok : list (call Qn) -> T Qn -> T Qn -> bytes -> halign -> option bytes := fun _ _ _ s _ => match s with [] => Some (bs "empty string") | _ => None end.
Definition col2 : list (column Qn) := [Build_column Qn (bs "a") 40 (bs "left"); Build_column Qn (bs "b") 60 (bs "right")].
Definition mk (mr : Z) (rs : list (list bytes)) : table Qn := fold_left (addRow Qn) rs (fold_left (addColumn Qn) col2 (newTable Qn 10 20 25 mr)).
Definition ex_t := mk 3 [[bs "1"; bs "2"]; [bs "3"; bs "4"]].
Example C47_met : (forall a b c d e, harmless (text_ok a b c d e)) /\ snd (drawTable Qn text_ok ex_t []) = Ok /\
  List.length (rows Qn ex_t) = 2%nat /\ List.length (marks (fst (drawTable Qn text_ok ex_t []))) = 42%nat.
Proof. split; [intros; unfold harmless, text_ok; destruct d; auto|]. vm_compute. auto. Qed.

(** ** Where it fails *)
(** More rows than the table was made for are drawn, but below the frame of the table: here every line drawn is above 70 and a
    text box starts below it. *)
Definition no_border (st : style Qn) : style Qn :=
  Build_style Qn (Build_border Qn false false false false 0 black) (FillColor Qn st) (TextColor Qn st) (Font Qn st) (FontSize Qn st).
Definition with_styles (t : table Qn) (hs cs : style Qn) : table Qn :=
  Build_table Qn (startX Qn t) (startY Qn t) (rowHeight Qn t) (columns Qn t) (rows Qn t) (maxRows Qn t) (padding Qn t) (tableStyle Qn t) hs cs.
Definition late_t : table Qn := let t := mk 1 [[bs "1"; bs "2"]; [bs "late"; bs "4"]] in with_styles t (no_border (headerStyle Qn t)) (no_border (cellStyle Qn t)).
Theorem C47_frame_encloses_rows_refuted :
  exists t, snd (drawTable Qn text_ok t []) = Ok /\
    Exists (fun m => match m with Stroked _ _ _ _ _ _ => True | _ => False end) (marks (fst (drawTable Qn text_ok t []))) /\
    Forall (fun m => match m with Stroked _ _ _ y1 _ y2 => Qle_bool y1 (281#4) && Qle_bool y2 (281#4) = true | _ => True end) (marks (fst (drawTable Qn text_ok t []))) /\
    Exists (fun m => match m with Texted _ _ (Some (_, y)) _ _ s _ => s = bs "late" /\ Qle_bool 72 y = true | _ => False end) (marks (fst (drawTable Qn text_ok t []))).
Proof.
  exists late_t. split; [vm_compute; reflexivity|]. split; [|split].
  - vm_compute. repeat first [apply Exists_cons_hd; exact I | apply Exists_cons_tl].
  - vm_compute. repeat constructor.
  - vm_compute. repeat first [apply Exists_cons_hd; split; reflexivity | apply Exists_cons_tl].
Qed.
Print Assumptions C47_frame_encloses_rows_refuted.
(** A row longer than the columns crashes the program. *)
Theorem C47_long_row_refuted :
  exists t, Exists (fun r => (List.length (columns Qn t) < List.length r)%nat) (rows Qn t) /\ snd (drawTable Qn text_ok t []) = Panicked.
Proof. exists (mk 1 [[bs "1"; bs "2"; bs "3"]]). split; [left; cbn; lia|vm_compute; reflexivity]. Qed.
Print Assumptions C47_long_row_refuted.
(** A row shorter than the columns leaves places of the table without a cell: two header texts and one cell. *)
Definition n_texts (l : list (mark Q)) : nat := List.length (filter (fun m => match m with Texted _ _ _ _ _ _ _ => true | _ => false end) l).
Theorem C47_short_row_refuted :
  exists t, snd (drawTable Qn text_ok t []) = Ok /\ List.length (columns Qn t) = 2%nat /\ List.length (rows Qn t) = 1%nat /\ maxRows Qn t = 1%Z /\ n_texts (marks (fst (drawTable Qn text_ok t []))) = 3%nat.
Proof. exists (mk 1 [[bs "1"]]). split; [vm_compute; reflexivity|]. vm_compute. auto. Qed.
Print Assumptions C47_short_row_refuted.
(** The padding is not reduced for small cells: a text box of negative width. *)
Theorem C47_padding_refuted :
  exists t, Forall (fun w => 0 < w) (widths t) /\ 0 < rowHeight Qn t /\ snd (drawTable Qn text_ok t []) = Ok /\
    Exists (fun m => match m with Texted _ _ _ w _ _ _ => Qle_bool w (-1#1) = true | _ => False end) (marks (fst (drawTable Qn text_ok t []))).
Proof.
  set (t := addColumn Qn (newTable Qn 0 0 10 0) (Build_column Qn (bs "a") 3 [])). exists t. split; [repeat constructor|]. split; [reflexivity|]. split; [vm_compute; reflexivity|].
  vm_compute. repeat first [apply Exists_cons_hd; reflexivity | apply Exists_cons_tl].
Qed.
Print Assumptions C47_padding_refuted.
(** The font of the header is used for the cells when their style names none. *)
Definition font_t : table Qn := let t := mk 1 [[bs "1"; bs "2"]] in
  with_styles t (Build_style Qn (Border Qn (headerStyle Qn t)) black black (bs "Bold") 20) (cellStyle Qn t).
Theorem C47_header_font_refuted :
  exists t, Font Qn (cellStyle Qn t) = [] /\ snd (drawTable Qn text_ok t []) = Ok /\
    Exists (fun m => match m with Texted _ f _ _ _ s _ => s = bs "1" /\ f = Some (bs "Bold", 20) | _ => False end) (marks (fst (drawTable Qn text_ok t []))).
Proof.
  exists font_t. split; [reflexivity|]. split; [vm_compute; reflexivity|].
  vm_compute. repeat first [apply Exists_cons_hd; split; reflexivity | apply Exists_cons_tl].
Qed.
Print Assumptions C47_header_font_refuted.
(** The lines of a long text leave the cell: with 5 lines of height 10 in a box of height 21 the last line's box starts at 40. *)
Theorem C47_text_leaves_cell_refuted :
  exists H lh n b, 0 < H /\ nth_error (multiCellBoxes Qn 0 H lh n) (n - 1) = Some b /\ Qle_bool (2 * H) (fst b + 2) = true /\ Qle_bool (snd b) 0 = true.
Proof. exists 21, 10, 5%nat, (nth 4 (multiCellBoxes Qn 0 21 10 5) (0, 0)). split; [reflexivity|]. split; [vm_compute; reflexivity|]. split; vm_compute; reflexivity. Qed.
Print Assumptions C47_text_leaves_cell_refuted.
(** In float64 the bottom of the last row and the frame can differ: nine rows of 0.1 under a header. *)
Theorem C47_float64_frame_refuted :
  exists (h : f64) (n : nat), Nat.iter n (fun y => nadd F64 y h) (nofZ F64 0) <> nadd F64 (nofZ F64 0) (nmul F64 (nofZ F64 (Z.of_nat n)) h).
Proof. exists (ndiv F64 (nofZ F64 1) (nofZ F64 10)), 10%nat. vm_compute. discriminate. Qed.
Print Assumptions C47_float64_frame_refuted.

(** ** C47, errors: an error of the text layer other than "empty string" ends the drawing at once and is returned; and no error is
    returned that the text layer did not report. In any arithmetic. *)
Section Errors.
  Variable N : num.
  Variable text : list (call N) -> T N -> T N -> bytes -> halign -> option bytes.
  Definition faithful (done new : list (call N)) (res : result) : Prop :=
    (forall p w h s a q, new = p ++ MultiCell N w h s a :: q ->
       match text (done ++ p) w h s a with None => True | Some e => e = bs "empty string" \/ (q = [] /\ res = Err e) end) /\
    (forall e, res = Err e -> exists p w h s a, new = p ++ [MultiCell N w h s a] /\ text (done ++ p) w h s a = Some e).
  Lemma split_in {A} (x : A) : forall n1 n2 p q, n1 ++ n2 = p ++ x :: q -> (exists q', n1 = p ++ x :: q' /\ q = q' ++ n2) \/ (exists p', p = n1 ++ p' /\ n2 = p' ++ x :: q).
  Proof.
    induction n1 as [|y n1 IH]; intros n2 p q H; [right; exists p; auto|]. destruct p as [|z p].
    - left. cbn in H. assert (E1 : y = x) by congruence. assert (E2 : n1 ++ n2 = q) by congruence. exists n1. subst. auto.
    - cbn [app] in H. assert (E1 : y = z) by congruence. assert (E2 : n1 ++ n2 = p ++ x :: q) by congruence. subst z. destruct (IH _ _ _ E2) as [(q' & -> & ->)|(p' & -> & ->)]; [left; exists q'|right; exists p']; auto.
  Qed.
  Lemma faithful_app done n1 n2 res : faithful done n1 Ok -> faithful (done ++ n1) n2 res -> faithful done (n1 ++ n2) res.
  Proof.
    intros [A _] [B C]. split.
    - intros p w h s a q E. destruct (split_in _ _ _ _ _ E) as [(q' & E1 & E2)|(p' & E1 & E2)].
      + specialize (A p w h s a q' E1). destruct (text (done ++ p) w h s a); [|exact I]. destruct A as [A|[_ A]]; [now left|discriminate].
      + specialize (B p' w h s a q E2). subst p. now rewrite app_assoc.
    - intros e E. destruct (C e E) as (p & w & h & s & a & -> & H). exists (n1 ++ p), w, h, s, a. rewrite <- app_assoc, app_assoc. now rewrite app_assoc.
  Qed.
  Lemma faithful_nil done : faithful done [] Ok.
  Proof. split; [intros [|? ?] w h s a q E; discriminate|discriminate]. Qed.
  Definition silent (c : call N) : Prop := match c with MultiCell _ _ _ _ _ => False | _ => True end.
  Lemma faithful_silent done l res : Forall silent l -> (forall e, res <> Err e) -> faithful done l res.
  Proof.
    intros H R. split; [|intros e E; now apply R in E]. intros p w h s a q ->. apply Forall_app in H as [_ H]. apply Forall_cons_iff in H as [[] _].
  Qed.
  Lemma border_silent x1 y1 x2 y2 b : Forall silent (drawBorder N x1 y1 x2 y2 b).
  Proof. unfold drawBorder. destruct (nle N _ _); [constructor|]. destruct (Top N b), (Bottom N b), (Left_ N b), (Right_ N b); repeat constructor. Qed.
  Lemma cell_faithful t done x y w h s al hd st : exists new, fst (drawCell N text t done x y w h s al hd st) = done ++ new /\ faithful done new (snd (drawCell N text t done x y w h s al hd st)).
  Proof.
    unfold drawCell. cbn [fst snd].
    set (pre := (if is_zero (FillColor N st) then [] else [SetFillColor N (FillColor N st); FillRect N x y w h]) ++ (if hd then [] else drawBorder N x y (nadd N x w) (nadd N y h) (Border N st))
       ++ [SetXY N (nadd N x (padding N t)) (nadd N y (padding N t)); SetTextColor N (TextColor N st)] ++ match Font N st with [] => [] | _ :: _ => [SetFont N (Font N st) (FontSize N st)] end).
    assert (S : Forall silent pre). { unfold pre. repeat (apply Forall_app; split); [destruct (is_zero _); repeat constructor|destruct hd; [constructor|apply border_silent]|repeat constructor|destruct (Font N st); repeat constructor]. }
    match goal with |- context[text ?X ?a ?b ?c ?d] => assert (EX : X = done ++ pre) by (unfold pre; destruct (Font N st); reflexivity); rewrite EX; clear EX; set (tw := a); set (th := b); set (al' := d) end.
    clearbody pre tw th al'. exists (pre ++ [MultiCell N tw th s al']). split; [now rewrite app_assoc|]. split.
    - intros p w' h' s' a' q E. destruct (split_in _ _ _ _ _ E) as [(q' & E1 & _)|(p' & E1 & E2)].
      + rewrite E1 in S. apply Forall_app in S as [_ S]. apply Forall_cons_iff in S as [[] _].
      + destruct p' as [|c p']; [|destruct p'; discriminate]. rewrite app_nil_r in E1. subst p. cbn [app] in E2.
        assert (Q : q = []) by congruence. assert (M : MultiCell N tw th s al' = MultiCell N w' h' s' a') by congruence. injection M as <- <- <- <-.
        destruct (text (done ++ pre) tw th s al') as [e|]; [|exact I]. destruct (list_eqb e (bs "empty string")) eqn:L; [left; now apply list_eqb_eq|right; auto].
    - intros e E. exists pre, tw, th, s, al'. split; [reflexivity|]. destruct (text (done ++ pre) tw th s al') as [e'|]; [|discriminate]. destruct (list_eqb e' (bs "empty string")); [discriminate|]. congruence.
  Qed.
  Lemma row_faithful t hd : forall l done x y, exists new, fst (drawRow N text t done x y hd l) = done ++ new /\ faithful done new (snd (drawRow N text t done x y hd l)).
  Proof.
    induction l as [|[d|] l IH]; intros done x y; cbn [drawRow].
    - exists []. split; [now rewrite app_nil_r|apply faithful_nil].
    - destruct (cell_faithful t done x y (d_w N d) (rowHeight N t) (d_s N d) (d_a N d) hd (d_st N d)) as (n1 & E1 & F1).
      destruct (drawCell N text t done x y (d_w N d) (rowHeight N t) (d_s N d) (d_a N d) hd (d_st N d)) as [d1 r1]. cbn [fst snd] in E1, F1. subst d1.
      destruct r1; cbn [fst snd]; [|exists n1; auto|exists n1; auto]. destruct (IH (done ++ n1) (nadd N x (d_w N d)) y) as (n2 & E2 & F2).
      exists (n1 ++ n2). split; [now rewrite E2, app_assoc|]. now apply faithful_app.
    - exists []. split; [now rewrite app_nil_r|]. apply faithful_silent; [constructor|discriminate].
  Qed.
  Lemma rows_faithful t : forall l done y, exists new, fst (fst (drawRows N text t done y l)) = done ++ new /\ faithful done new (snd (drawRows N text t done y l)).
  Proof.
    induction l as [|r l IH]; intros done y; cbn [drawRows].
    - exists []. split; [now rewrite app_nil_r|apply faithful_nil].
    - destruct (row_faithful t false r done (startX N t) y) as (n1 & E1 & F1). destruct (drawRow N text t done (startX N t) y false r) as [d1 r1]. cbn [fst snd] in E1, F1. subst d1.
      destruct r1; cbn [fst snd]; [|exists n1; auto|exists n1; auto]. destruct (IH (done ++ n1) (nadd N y (rowHeight N t))) as (n2 & E2 & F2).
      exists (n1 ++ n2). split; [now rewrite E2, app_assoc|]. now apply faithful_app.
  Qed.
  Theorem C47_errors_reported :
    forall t done, exists new, fst (drawTable N text t done) = done ++ new /\ faithful done new (snd (drawTable N text t done)).
  Proof.
    intros t done. unfold drawTable. destruct (row_faithful t true (header_todo N t) done (startX N t) (startY N t)) as (n1 & E1 & F1).
    destruct (drawRow N text t done _ _ true (header_todo N t)) as [d1 r1]. cbn [fst snd] in E1, F1. subst d1. destruct r1; cbn [fst snd]; [|exists n1; auto|exists n1; auto].
    match goal with |- context[drawRows N text t _ ?y ?l] => destruct (rows_faithful t l (done ++ n1) y) as (n2 & E2 & F2); destruct (drawRows N text t (done ++ n1) y l) as [[d2 y2] r2] end.
    cbn [fst snd] in E2, F2. subst d2. destruct r2; cbn [fst snd].
    - exists (n1 ++ n2 ++ outerBorders N t). split; [now rewrite !app_assoc|]. apply faithful_app; [exact F1|]. apply faithful_app; [exact F2|]. apply faithful_silent; [|discriminate].
      apply Forall_app. split; apply border_silent.
    - exists (n1 ++ n2). split; [now rewrite app_assoc|]. now apply faithful_app.
    - exists (n1 ++ n2). split; [now rewrite app_assoc|]. now apply faithful_app.
  Qed.
End Errors.
Print Assumptions C47_errors_reported.
(** Met: the second cell's text is refused. *)
Example C47_errors_met : snd (drawTable Qn (fun _ _ _ s _ => if list_eqb s (bs "2") then Some (bs "bad glyph") else None) ex_t []) = Err (bs "bad glyph").
Proof. vm_compute. reflexivity. Qed.
(** The table drawn is the one built: its columns are those of the AddColumn calls and its rows those of the AddRow and
    AddStyledRow calls, each in the order of the calls, however the calls are interleaved; nothing else changes. *)
Inductive build (N : num) := BCol (c : column N) | BRow (r : list bytes) | BStyled (r : list (rowcell N)).
Arguments BCol {N}. Arguments BRow {N}. Arguments BStyled {N}.
Definition built (N : num) (t : table N) (b : build N) : table N :=
  match b with BCol c => addColumn N t c | BRow r => addRow N t r | BStyled r => addStyledRow N t r end.
Theorem C47_built_as_called (N : num) (x y h : T N) (mr : Z) (bs : list (build N)) :
  let t := fold_left (built N) bs (newTable N x y h mr) in
  columns N t = flat_map (fun b => match b with BCol c => [c] | _ => [] end) bs /\
  rows N t = flat_map (fun b => match b with BCol _ => [] | BRow r => [map (fun s => Build_rowcell N s None) r] | BStyled r => [r] end) bs /\
  startX N t = x /\ startY N t = y /\ rowHeight N t = h /\ maxRows N t = mr.
Proof.
  cbv zeta.
  assert (G : forall bs t, let t' := fold_left (built N) bs t in
    columns N t' = columns N t ++ flat_map (fun b => match b with BCol c => [c] | _ => [] end) bs /\
    rows N t' = rows N t ++ flat_map (fun b => match b with BCol _ => [] | BRow r => [map (fun s => Build_rowcell N s None) r] | BStyled r => [r] end) bs /\
    startX N t' = startX N t /\ startY N t' = startY N t /\ rowHeight N t' = rowHeight N t /\ maxRows N t' = maxRows N t).
  { clear. induction bs as [|b bs IH]; intros t; cbn [fold_left flat_map]; [rewrite !app_nil_r; auto 10|]. destruct (IH (built N t b)) as (A1 & A2 & A3 & A4 & A5 & A6). cbv zeta. rewrite A1, A2, A3, A4, A5, A6.
    destruct b; cbn [built addRow addColumn addStyledRow columns rows startX startY rowHeight maxRows app]; rewrite <- ?app_assoc; cbn [app]; auto 10. }
  destruct (G bs (newTable N x y h mr)) as (A1 & A2 & A3 & A4 & A5 & A6). auto 10.
Qed.
Example C47_built_met : columns Qn (fold_left (built Qn) [BCol (Build_column Qn (bs "a") 3 []); BRow [bs "x"]; BCol (Build_column Qn (bs "b") 4 [])] (newTable Qn 0 0 10 0)) = [Build_column Qn (bs "a") 3 []; Build_column Qn (bs "b") 4 []].
Proof. reflexivity. Qed.
Print Assumptions C47_built_as_called.
