(** SplitModel.v — SplitTextWithOption and its helpers (gopdf.go:1340-1399, 1478-1518),
    MultiCell (1166-1208) and IsFitMultiCell (1210-1253), IsFitMultiCellWithNewline (1255-1269).

    Widths are values of an arbitrary type [T] with the three operations the code applies to them
    ([+], [>] and [<=] on float64), so the model makes no assumption about rounding.  MeasureTextWidth
    is an arbitrary function of the text (None: it returned an error). *)
From Verif Require Import Base.

Inductive breakmode := Strict | Sensitive.
Record breakopt := { b_mode : breakmode; b_ind : Z; b_sep : list Z }.
Definition hasSeparator (o : breakopt) : bool := match b_sep o with [] => false | _ => true end.

Section Split.
  Context {T : Type} (add : T -> T -> T) (gt le : T -> T -> bool).
  Variable measure : list Z -> option T.

  (** Loop state: next index [i], lineText, lineTexts, separatorIdx. *)
  Record sst := { s_i : nat; s_line : list Z; s_lines : list (list Z); s_sepi : nat }.
  Inductive outcome :=
  | Running (s : sst)
  | Done (lines : list (list Z))
  | Fail                          (* an error value is returned *)
  | Crash.                        (* run-time panic (slice bounds out of range), or, for a negative trim,
                                     reading stale memory behind the line *)

  (** gopdf.go:1511-1518 breakIndicatorIndex: the last index > 0 holding the indicator. *)
  Fixpoint lastIndex (text : list Z) (bi : Z) (k : nat) : option nat :=   (* scans k, k-1, …, 1 *)
    match k with
    | O => None
    | S k' => if nth k text 0 =? bi then Some k else lastIndex text bi k'
    end.
  Definition breakIndicatorIndex (text : list Z) (bi : Z) : option nat :=
    lastIndex text bi (List.length text - 1).

  (** gopdf.go:1491-1506 performStrictLineBreak followed by the loop's i++ (the [continue] at 1375). *)
  Definition strictBreak (o : breakopt) (s : sst) : outcome :=
    if hasSeparator o then
      if (Nat.ltb (s_i s) (s_sepi s)) || Nat.ltb (List.length (s_line s)) (s_i s - s_sepi s)
      then Crash
      else Running {| s_i := s_sepi s; s_line := [];
                      s_lines := s_lines s ++ [firstn (List.length (s_line s) - (s_i s - s_sepi s)) (s_line s) ++ b_sep o];
                      s_sepi := s_sepi s |}
    else Running {| s_i := s_i s; s_line := []; s_lines := s_lines s ++ [s_line s]; s_sepi := s_sepi s |}.

  (** gopdf.go:1478-1489 performIndicatorSensitiveLineBreak followed by i++. *)
  Definition sensitiveBreak (o : breakopt) (s : sst) : option outcome :=
    match breakIndicatorIndex (s_line s) (b_ind o) with
    | Some k => Some (Running {| s_i := s_i s - (List.length (s_line s) - k) + 1; s_line := [];
                                 s_lines := s_lines s ++ [firstn k (s_line s)]; s_sepi := s_sepi s |})
    | None => None
    end.

  (** One iteration of the loop at gopdf.go:1360-1397. *)
  Definition step (o : breakopt) (text : list Z) (width sepw : T) (s : sst) : outcome :=
    match nth_error text (s_i s) with
    | None => Done (s_lines s)
    | Some r =>
        match measure (s_line s), measure [r] with
        | Some lw, Some rw =>
            if gt (add lw rw) width && negb (r =? 10) then
              match b_mode o with
              | Strict => strictBreak o s
              | Sensitive => match sensitiveBreak o s with Some x => x | None => strictBreak o s end
              end
            else if r =? 10 then
              Running {| s_i := S (s_i s); s_line := []; s_lines := s_lines s ++ [s_line s]; s_sepi := s_sepi s |}
            else
              let fin := Nat.eqb (s_i s) (List.length text - 1) in
              let lines := if fin then s_lines s ++ [s_line s ++ [r]] else s_lines s in
              (* at the end of the text the rune is appended twice to lineText (1385, 1396); the
                 loop ends there, so only the line stored matters *)
              let line := if fin then s_line s ++ [r] ++ [r] else s_line s ++ [r] in
              let sepi := if hasSeparator o && le (add (add lw rw) sepw) width then s_i s else s_sepi s in
              Running {| s_i := S (s_i s); s_line := line; s_lines := lines; s_sepi := sepi |}
        | _, _ => Fail
        end
    end.

  Fixpoint run (fuel : nat) (o : breakopt) (text : list Z) (width sepw : T) (s : sst) : outcome :=
    match fuel with
    | O => Running s
    | S f => match step o text width sepw s with
             | Running s' => run f o text width sepw s'
             | x => x
             end
    end.

  (** SplitTextWithOption after [fuel] iterations of its loop; [Running] means it has not returned yet. *)
  Definition splitText (fuel : nat) (o : breakopt) (text : list Z) (width : T) : outcome :=
    match text with
    | [] => Fail                                            (* ErrEmptyString *)
    | _ => match measure (b_sep o) with
           | None => Fail
           | Some sepw => run fuel o text width sepw {| s_i := 0; s_line := []; s_lines := []; s_sepi := 0 |}
           end
    end.

  (** MultiCell.  [w] is MeasureTextWidth with errors ignored (gopdf.go:1187-1188).  The list of lines
      it draws, in order; each drawn line is followed by Br(lineHeight).  [None] when the loop stops
      early because the rectangle is full (1184-1186). *)
  Variable w : list Z -> T.
  Fixpoint multiCell (text line : list Z) (total lineH W H : T) : list (list Z) :=
    match text with
    | [] => []
    | v :: rest =>
        if gt (add total lineH) H then []
        else
          let brk := gt (add (w line) (w [v])) W in
          let out := if brk then [line] else [] in
          let total' := if brk then add total lineH else total in
          let line' := (if brk then [] else line) ++ [v] in
          out ++ match rest with
                 | [] => [line']                            (* i == length-1 *)
                 | _ => multiCell rest line' total' lineH W H
                 end
    end.
  Fixpoint isFit (text line : list Z) (total lineH W H : T) : bool * T :=
    match text with
    | [] => (negb (gt total H), total)
    | v :: rest =>
        if gt (add total lineH) H then (false, total)
        else
          let brk := gt (add (w line) (w [v])) W in
          let total' := if brk then add total lineH else total in
          let line' := (if brk then [] else line) ++ [v] in
          match rest with
          | [] => let total'' := add total' lineH in (negb (gt total'' H), total'')
          | _ => isFit rest line' total' lineH W H
          end
    end.
End Split.
