(** FaceSpec.v — the measurements of a font, read directly off the bytes of the font file (OpenType: head, hhea, OS/2,
    post), and what a reader takes from a written font. *)
From Verif Require Import Base TtfSpec PdfSyntax.

(** The 16-bit value at byte [o] of the table [tag]. *)
Definition u16in (d : bytes) (tag : string) (o v : Z) : Prop :=
  exists t len, table_at d (bs tag) t len /\ u16at d (t + o) = Some v.
Definition s16in (d : bytes) (tag : string) (o v : Z) : Prop := exists u, u16in d tag o u /\ v = s16 u.

Record measures := {
  em : Z; xMin : Z; yMin : Z; xMax : Z; yMax : Z;                     (* head *)
  hAscender : Z; hDescender : Z;                                      (* hhea *)
  os2Version : Z; typoAscender : Z; typoDescender : Z; winAscent : Z; winDescent : Z;
  xHeight : option Z; capHeight : option Z;                           (* OS/2; the last two from version 2 on *)
  italicAngle : Z; underlinePosition : Z; underlineThickness : Z }.   (* post; whole degrees *)
Definition measures_in (d : bytes) (m : measures) : Prop :=
  u16in d "head" 18 (em m) /\
  s16in d "head" 36 (xMin m) /\ s16in d "head" 38 (yMin m) /\ s16in d "head" 40 (xMax m) /\ s16in d "head" 42 (yMax m) /\
  s16in d "hhea" 4 (hAscender m) /\ s16in d "hhea" 6 (hDescender m) /\
  u16in d "OS/2" 0 (os2Version m) /\ s16in d "OS/2" 68 (typoAscender m) /\ s16in d "OS/2" 70 (typoDescender m) /\
  u16in d "OS/2" 74 (winAscent m) /\ u16in d "OS/2" 76 (winDescent m) /\
  (if 2 <=? os2Version m then exists x c, s16in d "OS/2" 86 x /\ s16in d "OS/2" 88 c /\ xHeight m = Some x /\ capHeight m = Some c
   else xHeight m = None /\ capHeight m = None) /\
  s16in d "post" 4 (italicAngle m) /\ s16in d "post" 8 (underlinePosition m) /\ s16in d "post" 10 (underlineThickness m).

(** The ascent, descent, cap height and x-height of the font: the Windows values, or those of hhea where the typographic
    value is 0; below zero where hhea's is; where OS/2 is too old to say, the ascender and two thirds of it. *)
Definition ascent (m : measures) : Z := if typoAscender m =? 0 then hAscender m else winAscent m.
Definition descent (m : measures) : Z :=
  if typoDescender m =? 0 then hDescender m else if hDescender m <? 0 then - winDescent m else winDescent m.
Definition cap_height (m : measures) : Z := match capHeight m with Some c => c | None => hAscender m end.
Definition x_height (m : measures) : Z :=
  match xHeight m with Some 0 | None => Z.quot (66 * hAscender m) 100 | Some x => x end.

(** The nearest integer to [1000 v / em], away from zero when two are equally near. *)
Definition in_thousandths (em v n : Z) : Prop :=
  2 * Z.abs (n * em - 1000 * v) <= em /\ (2 * Z.abs (n * em - 1000 * v) = em -> Z.abs (1000 * v) < Z.abs (n * em)).

(** The /W array of a CIDFont: [c [w1 w2 ...]] gives glyphs c, c+1, ... their widths (ISO 32000-1, 9.7.4.3); the first
    entry for a glyph counts. *)
Fixpoint widths_of (l : list pobj) (g : Z) : option Z :=
  match l with
  | OInt c :: OArr ws :: r =>
      match (if (c <=? g) then nth_error ws (Z.to_nat (g - c)) else None) with
      | Some (OInt w) => Some w
      | _ => widths_of r g
      end
  | _ => None
  end.

(** The glyph the file gives a character: format 4 of the (3,1) subtable at [base] with [n] segments in the basic plane,
    format 12 of the (3,10) subtable above it. *)
Definition has_glyph (d : bytes) (base n r g : Z) : Prop :=
  (0 <= r <= 65535 /\ f4_glyph d base n r g) \/
  (65535 < r /\ 0 <= g < 65536 /\ exists b, subtable310 d b /\ f12_glyph d b r g).
