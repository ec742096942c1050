(** FontOutModel.v — the embedded font program: buff.go, buff_write.go, strhelper.go (byte readers),
    pdf_dictionary_obj.go (glyph closure, glyf/loca subsetting, table directory, checksums).

    [None] is a Go panic (index or slice bounds out of range).  [d] is the font file held by the parser
    (FontData()); a Go slice expression may reach into the spare capacity behind its length, so [spare]
    stands for the bytes between len and cap of that slice (arbitrary).  [f] is the parsed font. *)
From Verif Require Import Base TtfModel SubsetModel.

(** ** buff.go *)
Record buff := { b_pos : Z; b_data : bytes }.
Fixpoint grow (k : nat) (l : bytes) : bytes :=                                (* 11-13 *)
  match k with O => l | S k' => grow k' (l ++ [0]) end.
Definition setz (l : bytes) (i v : Z) : option bytes :=                        (* l[i] = v *)
  if (0 <=? i) && (i <? zlen l) then Some (firstn (Z.to_nat i) l ++ v :: skipn (S (Z.to_nat i)) l) else None.
Fixpoint putLoop (l : bytes) (pos : Z) (p : bytes) : option bytes :=           (* for i: l[pos+i] = p[i] *)
  match p with
  | [] => Some l
  | x :: r => match setz l pos x with Some l' => putLoop l' (pos + 1) r | None => None end
  end.
(** buff.go:10-22 Write. *)
Definition bwrite (b : buff) (p : bytes) : option buff :=
  match putLoop (grow (Z.to_nat (b_pos b + zlen p - zlen (b_data b))) (b_data b)) (b_pos b) p with
  | Some l => Some {| b_pos := b_pos b + zlen p; b_data := l |}
  | None => None
  end.
Definition bempty : buff := {| b_pos := 0; b_data := [] |}.
Definition bseek (b : buff) (p : Z) : buff := {| b_pos := p; b_data := b_data b |}.   (* 40-42 SetPosition *)

(** ** buff_write.go *)
Definition byte (v : Z) : Z := v mod 256.                                      (* conversion byte(v) *)
Definition u32bytes (v : Z) : bytes := [byte (Z.shiftr v 24); byte (Z.shiftr v 16); byte (Z.shiftr v 8); byte v].
Definition u16bytes (v : Z) : bytes := [byte (Z.shiftr v 8); byte v].
Definition writeUInt32 (b : buff) (v : Z) := bwrite b (u32bytes v).            (* 6-16 *)
Definition writeUInt16 (b : buff) (v : Z) := bwrite b (u16bytes v).            (* 19-28 *)
(** data[offset : offset+count] of a slice with contents [d] and capacity contents [d ++ spare]. *)
Definition goslice (full : bytes) (off count : Z) : option bytes :=
  if (0 <=? off) && (0 <=? count) && (off + count <=? zlen full) then Some (slice full off count) else None.
Definition writeBytes (b : buff) (full : bytes) (off count : Z) : option buff := (* 41-48 *)
  match goslice full off count with Some s => bwrite b s | None => None end.

(** ** strhelper.go:35-55 *)
Definition rdU16 (full : bytes) (off : Z) : option Z :=
  match goslice full off 2 with Some s => Some (be s) | None => None end.
Definition rdS16 (full : bytes) (off : Z) : option Z :=
  match rdU16 full off with Some u => Some (if 32768 <=? u then u - 65536 else u) | None => None end.

Section FontOut.
  Variables (d spare : bytes) (f : ttf).
  Let full := d ++ spare.

  (** The zero entry of a Go map for a missing table. *)
  Definition entryOf (tag : bytes) : tentry :=
    match tfind (t_tables f) tag with Some e => e | None => {| e_check := 0; e_offset := 0; e_length := 0 |} end.
  Definition glyfOff : Z := e_offset (entryOf tag_glyf).
  (** pdf_dictionary_obj.go:366-371 GetOffset. *)
  Definition getOffset (g : Z) : option Z :=
    match zth (t_loca f) g with Some l => Some (glyfOff + l) | None => None end.

  (** 313-355 the component loop of AddCompositeGlyphs.  The offset grows by at least 6 per round and the
      reads are bounds checked, so [fuel] = number of bytes is never exhausted (compLoop_total). *)
  Definition argBytes (flags : Z) : Z :=
    (if Z.land flags 1 =? 0 then 2 else 4) +
    (if negb (Z.land flags 8 =? 0) then 2 else if negb (Z.land flags 64 =? 0) then 4 else 0) +
    (if negb (Z.land flags 128 =? 0) then 8 else 0).
  Definition addOnce (arr : list Z) (c : Z) : list Z := if existsb (Z.eqb c) arr then arr else arr ++ [c].
  Fixpoint compLoop (fuel : nat) (off : Z) (arr : list Z) : option (list Z) :=
    match fuel with
    | O => None
    | S k =>
        match rdU16 full off, rdU16 full (off + 2) with
        | Some fl, Some c =>
            let arr' := addOnce arr c in
            if Z.land fl 32 =? 0 then Some arr' else compLoop k (off + 4 + argBytes fl) arr'
        | _, _ => None
        end
    end.
  (** 307-355 AddCompositeGlyphs. *)
  Definition addComposite (arr : list Z) (g : Z) : option (list Z) :=
    match getOffset g, getOffset (g + 1) with
    | Some s, Some s' =>
        if s =? s' then Some arr else
        match rdS16 full s with
        | None => None
        | Some n => if 0 <=? n then Some arr else compLoop (S (List.length full)) (s + 10) arr
        end
    | _, _ => None
    end.
  (** 281-303 completeGlyphClosure; [used] is AllVals() in registration order.  glyphArray[i] for
      i < len(glyphs) is always used[i], since the array only grows at its end. *)
  Definition closure (used : list Z) : option (list Z) :=
    fold_left (fun acc g => match acc with Some arr => addComposite arr g | None => None end) used
      (Some (used ++ (if existsb (Z.eqb 0) used then [] else [0]))).

  (** sort.Ints: the sorted permutation (here by insertion). *)
  Fixpoint insertZ (x : Z) (l : list Z) : list Z :=
    match l with [] => [x] | y :: r => if x <=? y then x :: l else y :: insertZ x r end.
  Definition sortZ (l : list Z) : list Z := fold_right insertZ [] l.
  (** 92-103 distinctInts. *)
  Fixpoint distinct (prev : Z) (l : list Z) : list Z :=
    match l with [] => [] | g :: r => if g =? prev then distinct prev r else g :: distinct g r end.

  (** 157-166 getGlyphSize, 168-182 getGlyphData. *)
  Definition glyphSize (g : Z) : option Z :=
    match zth (t_loca f) g, zth (t_loca f) (g + 1) with Some a, Some b => Some (b - a) | _, _ => None end.
  Definition glyphBytes (g : Z) : option bytes :=
    match zth (t_loca f) g, zth (t_loca f) (g + 1) with
    | Some a, Some b =>
        if b - a <=? 0 then Some []
        else if glyfOff + b <=? zlen d then Some (slice d (glyfOff + a) (b - a)) else None
    | _, _ => None
    end.
  Fixpoint sumSizes (gs : list Z) : option Z :=                                (* 115-118 *)
    match gs with
    | [] => Some 0
    | g :: r => match glyphSize g, sumSizes r with Some a, Some b => Some (a + b) | _, _ => None end
    end.
  (** 124-153.  [gs] is glyphArray[glyphIndex:]; the result is the glyph table and locaTable[idx:]. *)
  Fixpoint glyfLoop (k : nat) (idx : Z) (gs : list Z) (old off : Z) (tab : bytes) : option (bytes * list Z) :=
    match k with
    | O => Some (tab, [off])
    | S k' =>
        let cont gs' old' off' tab' :=
          match glyfLoop k' (idx + 1) gs' old' off' tab' with Some (t, l) => Some (t, off :: l) | None => None end in
        let copy gs' old' :=
          match glyphBytes idx with
          | None => None
          | Some dt => match putLoop tab off dt with None => None | Some tab' => cont gs' old' (off + zlen dt) tab' end
          end in
        match gs with
        | [] => cont gs old off tab
        | g :: gs' => if g =? idx then copy gs' g else if old =? g then copy gs' old else cont gs old off tab
        end
    end.
  (** 105-155 makeGlyfAndLocaTable. *)
  Definition makeGlyfLoca (used : list Z) : option (bytes * list Z) :=
    match closure used with
    | None => None
    | Some arr =>
        let gs := distinct (-1) (sortZ arr) in
        match sumSizes gs with
        | None => None
        | Some size =>
            if paddedLength size <? 0 then None                                (* make([]byte, negative) *)
            else glyfLoop (Z.to_nat (t_nGlyphs f)) 0 gs (-1) 0 (repeat 0 (Z.to_nat (paddedLength size)))
        end
    end.

  (** 374-399 CheckSum. *)
  Fixpoint sums (l : bytes) (s : Z * Z * Z * Z) : option (Z * Z * Z * Z) :=
    match l with
    | [] => Some s
    | a :: b :: c :: e :: r => let '(s3, s2, s1, s0) := s in sums r (s3 + a, s2 + b, s1 + c, s0 + e)
    | _ => None
    end.
  Definition checkSum (l : bytes) : option Z :=
    match sums l (0, 0, 0, 0) with
    | Some (s3, s2, s1, s0) =>
        Some (((s3 * 2 ^ 24) mod 2 ^ 32 + (s2 * 2 ^ 16) mod 2 ^ 32 + (s1 * 2 ^ 8) mod 2 ^ 32 + s0 mod 2 ^ 32) mod 2 ^ 32)
    | None => None
    end.

  (** 228-258: the loca bytes (val / 2 or val, big endian), in a buffer of the padded length. *)
  Definition locaBytes (loca : list Z) : bytes :=
    if t_locFormat f =? 0 then flat_map (fun v => u16bytes (v / 2)) loca else flat_map u32bytes loca.
  Definition locaData (loca : list Z) : bytes :=
    locaBytes loca ++ repeat 0 (Z.to_nat (paddedLength (zlen (locaBytes loca)) - zlen (locaBytes loca))).

  (** 186-196, 213-217: the nine tables, in the order of sort.Strings. *)
  Definition fontTags : list bytes :=
    map bs ["cvt "; "fpgm"; "glyf"; "head"; "hhea"; "hmtx"; "loca"; "maxp"; "prep"]%string.
  (** 219-262: directory checksum, directory length and written bytes of one table. *)
  Definition tableOut (gt : bytes) (loca : list Z) (tag : bytes) : option (Z * Z * bytes) :=
    let e := entryOf tag in
    if bytes_eqb tag tag_glyf then
      match checkSum gt, goslice gt 0 (paddedLength (zlen gt)) with
      | Some c, Some s => Some (c, zlen gt, s)
      | _, _ => None
      end
    else if bytes_eqb tag tag_loca then
      match checkSum (locaData loca) with
      | Some c => Some (c, zlen (locaBytes loca), locaData loca)
      | None => None
      end
    else
      match goslice full (e_offset e) (paddedLength (e_length e)) with
      | Some s => Some (e_check e, e_length e, s)
      | None => None
      end.
  (** 217-275 the loop over the tables. *)
  Fixpoint fontLoop (gt : bytes) (loca : list Z) (tags : list bytes) (idx tablePos : Z) (b : buff) : option buff :=
    match tags with
    | [] => Some b
    | tag :: r =>
        match tableOut gt loca tag with
        | None => None
        | Some (c, len, s) =>
            match bwrite (bseek b tablePos) s with
            | None => None
            | Some b1 =>
                let endPos := b_pos b1 in
                match bwrite (bseek b1 (idx * 16 + 12)) tag with
                | None => None
                | Some b2 =>
                    match writeUInt32 b2 c with
                    | None => None
                    | Some b3 => match writeUInt32 b3 tablePos with
                      | None => None
                      | Some b4 => match writeUInt32 b4 len with
                        | None => None
                        | Some b5 => fontLoop gt loca r (idx + 1) endPos b5
                        end end
                    end
                end
            end
        end
    end.
  Definition entrySelectors : list Z := [0; 0; 1; 1; 2; 2; 2; 2; 3; 3; 3; 3; 3; 3; 3; 3; 4].   (* 14-20 *)
  Definition header (b : buff) (count : Z) : option buff :=                    (* 198-211 *)
    match zth entrySelectors count with
    | None => None
    | Some sel =>
        match writeUInt32 b 65536 with None => None | Some b1 =>
        match writeUInt16 b1 count with None => None | Some b2 =>
        match writeUInt16 b2 (2 ^ sel * 16) with None => None | Some b3 =>
        match writeUInt16 b3 sel with None => None | Some b4 => writeUInt16 b4 ((count - 2 ^ sel) * 16)
        end end end end
    end.
  (** 184-279 makeFont. *)
  Definition makeFont (used : list Z) : option bytes :=
    match makeGlyfLoca used with
    | None => None
    | Some (gt, loca) =>
        match header bempty (zlen fontTags) with
        | None => None
        | Some b =>
            match fontLoop gt loca fontTags 0 (12 + 16 * zlen fontTags) b with
            | Some b' => Some (b_data b')
            | None => None
            end
        end
    end.
End FontOut.
