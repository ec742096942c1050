(** AskModel.v — IsCurrFontContainGlyph (gopdf.go:2460-2478); the arguments of SetFont and SetFontWithStyle
    (gopdf.go:921-989, font_option.go:16-28, 994-996). *)
From Coq Require Import QArith.
From Coq Require Import Floats.SpecFloat.
From Verif Require Import Base NumModel TtfModel SubsetModel DocModel.
Open Scope Z_scope.

(** ** IsCurrFontContainGlyph *)
(** subset_font_obj.go:284-298 CharCodeToGlyphIndex for any rune (an int32): uint64(r) of a negative rune is above
    0xFFFF, so format 12 is searched for it (subset_font_obj.go:240-252). *)
Definition runeToGlyph (f : ttf) (r : Z) : lres := if r <? 0 then format12 (t_groups f) (u64 r) else charToGlyph f r.
(** gopdf.go:2460-2478.  [None]: panic (CharCodeToGlyphIndex, C26).  The font is that of curr.FontISubset. *)
Definition isCurrFontContainGlyph (cur : option ttf) (r : Z) : option bool :=
  match cur with
  | None => Some false                                    (* 2462-2464 *)
  | Some f =>
      match runeToGlyph f r with
      | NotFound => Some false                            (* 2467-2468 ErrGlyphNotFound; no other error exists *)
      | Found g => if g =? 0 then Some false else Some true (* 2473-2477 *)
      | LCrash => None
      end
  end.

(** ** Sizes of any type *)
(** A Go value handed over as interface{}: an integer of one of the ten integer types listed at 922-945 ([VInt]; the
    type's range bounds it, [int] and [uint] have 64 bits), a float64, a float32 (represented by the float64 equal to
    it), or a value of any other type — a string, uintptr, a complex number, nil, a named type such as
    "type Pt float64" (a type switch matches the exact type). *)
Inductive goval := VInt (signed : bool) (bits : Z) (z : Z) | VFloat64 (x : f64) | VFloat32 (x : f64) | VOther.
Definition int_type (signed : bool) (bits z : Z) : Prop :=
  (bits = 8 \/ bits = 16 \/ bits = 32 \/ bits = 64) /\ (if signed then - 2 ^ (bits - 1) <= z < 2 ^ (bits - 1) else 0 <= z < 2 ^ bits).
(** gopdf.go:921-950 convertNumericToFloat64. *)
Definition convertNumeric (v : goval) : option f64 :=
  match v with
  | VInt _ _ z => Some (f64_ofZ z)
  | VFloat64 x => Some x
  | VFloat32 x => Some x
  | VOther => None
  end.
(** The exact value of a finite float64 (0 otherwise). *)
Definition f64_q (x : f64) : Q :=
  match x with
  | S754_finite s m e => let a := (inject_Z (Zpos m) * (if 0 <=? e then inject_Z (2 ^ e) else / inject_Z (2 ^ (- e))))%Q in if s then (- a)%Q else a
  | _ => 0
  end.
(** gopdf.go:955-989 SetFontWithStyle from its three arguments (DocModel's [setFont] is what follows the conversion). *)
Definition setFontWithStyle (family : bytes) (style : Z) (size : goval) (s : gp) : gp * result :=
  match convertNumeric size with None => (s, Err) | Some x => setFont family style (f64_q x) s end.
(** font_option.go:16-28 getConvertedStyle.  strings.ToUpper maps, besides the ASCII letters, the one character U+0131
    (bytes C4 B1, "ı") to an ASCII letter asked for here: it becomes "I".  C4 followed by B1 is always decoded so, as C4
    never continues a character. *)
Definition hasByte (b : Z) (s : bytes) : bool := existsb (Z.eqb b) s.
Fixpoint hasPair (a b : Z) (s : bytes) : bool :=
  match s with x :: ((y :: _) as r) => ((x =? a) && (y =? b)) || hasPair a b r | _ => false end.
Definition upperContains (letter : Z) (s : bytes) : bool :=
  hasByte letter s || hasByte (letter + 32) s || ((letter =? 73) && hasPair 196 177 s).
Definition getConvertedStyle (s : bytes) : Z :=
  let st := 0 in
  let st := if upperContains 66 s then Z.lor st 2 else st in
  let st := if upperContains 73 s then Z.lor st 1 else st in
  if upperContains 85 s then Z.lor st 4 else st.
(** gopdf.go:994-996 SetFont. *)
Definition setFontStr (family style : bytes) (size : goval) (s : gp) : gp * result :=
  setFontWithStyle family (getConvertedStyle style) size s.
