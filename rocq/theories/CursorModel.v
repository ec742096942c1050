(** CursorModel.v — the functions of gopdf.go that report the current position and measure text:
    GetX (371-373), GetY (473-475), MarginLeft (margin.go:55-57), MeasureTextWidth (1909-1921),
    MeasureCellHeightByText (1924-1936), over any [num].  The state is that of DrawModel.v.
    None: nil font (panic), or createContent failed.  [fv_add] is what AddChars returns; that measuring also
    registers the characters with the font is C24. *)
From Verif Require Import Base NumModel UnitModel DrawModel.

Section Cursor.
  Variable N : num.
  Definition posX (s : ds N) : T N := pointsToUnits N (s_cfg N s) (s_x N s).
  Definition posY (s : ds N) : T N := pointsToUnits N (s_cfg N s) (s_y N s).
  Definition leftMargin (s : ds N) : T N := pointsToUnits N (s_cfg N s) (s_ml N s).
  Definition measureTextWidth (s : ds N) (txt : list Z) : option (T N) :=
    match s_font N s with
    | None => None
    | Some (_, f) =>
        match createContent N f (fv_add f txt) (s_size N s) (s_cs N s) None with
        | Some (_, _, tw) => Some (pointsToUnits N (s_cfg N s) tw)
        | None => None
        end
    end.
  Definition measureCellHeight (s : ds N) (txt : list Z) : option (T N) :=
    match s_font N s with
    | None => None
    | Some (_, f) =>
        match createContent N f (fv_add f txt) (s_size N s) (s_cs N s) None with
        | Some (_, ch, _) => Some (pointsToUnits N (s_cfg N s) ch)
        | None => None
        end
    end.
End Cursor.
