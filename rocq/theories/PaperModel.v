(** PaperModel.v — page_sizes.go:3-64: the predefined page sizes, rectangles in points that carry their own unit. *)
From Verif Require Import Base NumModel UnitModel.
Open Scope Z_scope.

Inductive paper := Letter | LetterSmall | Tabloid | Ledger | Legal | Statement | Executive | A0 | A1 | A2 | A3 | A3Landscape | A4 | A4Landscape | A4Small | A5
  | B4 | B5 | Folio | Quarto | P10x14.
Definition all_papers : list paper :=
  [Letter; LetterSmall; Tabloid; Ledger; Legal; Statement; Executive; A0; A1; A2; A3; A3Landscape; A4; A4Landscape; A4Small; A5; B4; B5; Folio; Quarto; P10x14].
(** page_sizes.go:3-64, W and H *)
Definition points_of (p : paper) : Z * Z :=
  match p with
  | Letter => (612, 792) | LetterSmall => (612, 792) | Tabloid => (792, 1224) | Ledger => (1224, 792) | Legal => (612, 1008) | Statement => (396, 612) | Executive => (540, 720)
  | A0 => (2384, 3371) | A1 => (1685, 2384) | A2 => (1190, 1684) | A3 => (842, 1190) | A3Landscape => (1190, 842) | A4 => (595, 842) | A4Landscape => (842, 595) | A4Small => (595, 842) | A5 => (420, 595)
  | B4 => (729, 1032) | B5 => (516, 729) | Folio => (612, 936) | Quarto => (610, 780) | P10x14 => (720, 1008)
  end.
(** page_sizes.go: unitOverride: defaultUnitConfig{Unit: UnitPT} *)
Definition page_size (p : paper) : rect F64 := Build_rect F64 (f64_ofZ (fst (points_of p))) (f64_ofZ (snd (points_of p))) (defcfg F64 1).
