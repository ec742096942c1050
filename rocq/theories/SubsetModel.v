(** SubsetModel.v — subset_font_obj.go: character lookup, glyph widths, AddChars;
    map_of_character_To_glyph_index.go; cid_font_obj.go (/W array). *)
From Verif Require Import Base TtfModel.

(** Go slice indexing: None is the index-out-of-range panic. *)
Definition zth {A} (l : list A) (i : Z) : option A :=
  if (0 <=? i) && (i <? zlen l) then nth_error l (Z.to_nat i) else None.

Inductive lres := Found (g : Z) | NotFound | LCrash.

(** subset_font_obj.go:254-281 charCodeToGlyphIndexFormat4. *)
Fixpoint findSeg (ends : list Z) (v : Z) : Z :=          (* 258-263: first segment with v <= EndCount, else segCount *)
  match ends with
  | [] => 0
  | e :: r => if v <=? e then 0 else 1 + findSeg r v
  end.
Definition format4 (c : cmap4) (v : Z) : lres :=
  let seg := findSeg (c_end c) v in
  match zth (c_start c) seg with
  | None => LCrash                                        (* 265: StartCount[seg], seg = segCount *)
  | Some s =>
      if v <? s then NotFound
      else match zth (c_ro c) seg, zth (c_delta c) seg with
           | Some ro, Some dl =>
               if ro =? 0 then Found ((v + dl) mod 65536)
               else match zth (c_gids c) (u64 (ro / 2 + (v - s) - (c_seg c - seg))) with
                    | None => LCrash                      (* 276 *)
                    | Some g => if g =? 0 then Found 0 else Found ((g + dl) mod 65536)
                    end
           | _, _ => LCrash
           end
  end.
(** 240-252 charCodeToGlyphIndexFormat12. *)
Fixpoint format12 (gs : list (Z * Z * Z)) (v : Z) : lres :=
  match gs with
  | [] => NotFound
  | (s, e, g) :: r => if (s <=? v) && (v <=? e) then Found (v - s + g) else format12 r v
  end.
(** 284-298 CharCodeToGlyphIndex. *)
Definition charToGlyph (f : ttf) (r : Z) : lres :=
  if r <=? 65535 then format4 (t_cmap f) r else format12 (t_groups f) r.

(** 301-314 GlyphIndexToPdfWidth.  None: panic (index out of range, or division by zero). *)
Definition glyphWidth (f : ttf) (g : Z) : option Z :=
  let g' := if t_nHM f <=? g then u64 (t_nHM f - 1) else g in
  match zth (t_widths f) g' with
  | None => None
  | Some w => if t_upem f =? 1000 then Some w
              else if t_upem f =? 0 then None else Some (w * 1000 / t_upem f)
  end.

(** map_of_character_To_glyph_index.go: Keys/Vals in insertion order; the index map points at the last
    insertion of a key. *)
Definition charmap := list (Z * Z).
Definition keyExists (m : charmap) (k : Z) : bool := existsb (fun x => fst x =? k) m.
Definition val (m : charmap) (k : Z) : option Z :=
  match find (fun x => fst x =? k) (rev m) with Some (_, v) => Some v | None => None end.
Definition mset (m : charmap) (k v : Z) : charmap := m ++ [(k, v)].

(** subset_font_obj.go:137-166 AddChars (198-216 replaceGlyphThatNotFound).  [lookup] is CharCodeToGlyphIndex,
    [subst] the option OnGlyphNotFoundSubstitute (never nil, see 68-73).  The debugging callback
    OnGlyphNotFound is not modelled.  Texts are rune lists (Go's range over a string). *)
Section AddChars.
  Variable lookup : Z -> lres.
  Variable subst : Z -> Z.
  Fixpoint addChars (m : charmap) (txt : list Z) : option (list Z * charmap) :=    (* None: panic *)
    match txt with
    | [] => Some ([], m)
    | r :: rest =>
        let cont c m' := match addChars m' rest with Some (out, m2) => Some (c :: out, m2) | None => None end in
        if keyExists m r then cont r m
        else match lookup r with
             | Found g => cont r (mset m r g)
             | LCrash => None
             | NotFound =>
                 let s := subst r in
                 if keyExists m s then cont s m
                 else match lookup s with
                      | Found g => cont s (mset m s g)
                      | NotFound => cont s (mset m s 0)
                      | LCrash => None
                      end
             end
    end.
End AddChars.

(** cid_font_obj.go:39-45: the /W entries, one per registered character, in registration order. *)
Definition wArray (f : ttf) (m : charmap) : list (Z * option Z) := map (fun x => (snd x, glyphWidth f (snd x))) m.

(** KernValueByLeft (subset_font_obj.go:81-96) and ValueByRight (kern_table.go:17-22): the newest entry for
    the pair. *)
Definition kernValue (useKerning : bool) (f : ttf) (l r : Z) : option Z :=
  if useKerning then
    match t_kern f with
    | None => None
    | Some m => match find (fun x => (fst (fst x) =? l) && (snd (fst x) =? r)) m with Some (_, v) => Some v | None => None end
    end
  else None.
