(** StrModel.v — strings written by gopdf: escaping (annot_obj.go:36-40, encryption_obj.go:37-44),
    Info texts (gopdf.go:2318-2347, 2378-2388), the ToUnicode CMap (unicode_map.go:36-139) and Go's
    iteration over the characters of a string. *)
From Verif Require Import Base.

(** strings.Replace(s, old, new, -1) where [old] is a single byte (all uses in the modelled code). *)
Definition replace (old : Z) (new : bytes) (s : bytes) : bytes :=
  flat_map (fun b => if b =? old then new else [b]) s.

(** annot_obj.go:36-40 and encryption_obj.go:37-44 (same four replacements in the same order). *)
Definition escape (s : bytes) : bytes :=
  let s := replace 92 [92; 92] s in
  let s := replace 40 [92; 40] s in
  let s := replace 41 [92; 41] s in
  replace 13 [92; 114] s.

(** Go's [for _, r := range str] (utf8.DecodeRuneInString): one rune and the number of bytes used;
    invalid input gives U+FFFD and one byte. *)
Definition cont (b : Z) : bool := (128 <=? b) && (b <=? 191).
Definition decode_rune (l : bytes) : Z * nat :=
  match l with
  | [] => (65533, 0%nat)
  | b0 :: r =>
      if b0 <? 128 then (b0, 1%nat)
      else if (194 <=? b0) && (b0 <=? 223) then
        match r with
        | b1 :: _ => if cont b1 then ((b0 - 192) * 64 + (b1 - 128), 2%nat) else (65533, 1%nat)
        | _ => (65533, 1%nat)
        end
      else if (224 <=? b0) && (b0 <=? 239) then
        match r with
        | b1 :: b2 :: _ =>
            if ((if b0 =? 224 then 160 else 128) <=? b1) && (b1 <=? (if b0 =? 237 then 159 else 191)) && cont b2
            then ((b0 - 224) * 4096 + (b1 - 128) * 64 + (b2 - 128), 3%nat) else (65533, 1%nat)
        | _ => (65533, 1%nat)
        end
      else if (240 <=? b0) && (b0 <=? 244) then
        match r with
        | b1 :: b2 :: b3 :: _ =>
            if ((if b0 =? 240 then 144 else 128) <=? b1) && (b1 <=? (if b0 =? 244 then 143 else 191)) && cont b2 && cont b3
            then ((b0 - 240) * 262144 + (b1 - 128) * 4096 + (b2 - 128) * 64 + (b3 - 128), 4%nat)
            else (65533, 1%nat)
        | _ => (65533, 1%nat)
        end
      else (65533, 1%nat)
  end.
Fixpoint runes_fuel (fuel : nat) (l : bytes) : list Z :=
  match fuel, l with
  | S f, _ :: _ => let '(r, n) := decode_rune l in r :: runes_fuel f (skipn n l)
  | _, _ => []
  end.
Definition runes (s : bytes) : list Z := runes_fuel (List.length s) s.

(** fmt "%04X" (unicode_map.go:74,80) and the padding loop of encodeUtf8: at least four digits. *)
Definition hex4 (n : Z) : bytes := pad_left 4 (hex n).

(** gopdf.go:2378-2388 *)
Definition encodeUtf8 (str : bytes) : bytes := flat_map hex4 (runes str).

(** PdfInfo (pdf_info_obj.go); CreationDate is the text infodate prints, [] for the zero time. *)
Record pdfinfo := { i_author : bytes; i_title : bytes; i_subject : bytes; i_creator : bytes;
                    i_producer : bytes; i_date : bytes }.

Definition is_empty (b : bytes) : bool := match b with [] => true | _ => false end.
(** gopdf.go:2318-2347 writeInfo. *)
Definition info_entry (key : string) (v : bytes) : bytes :=
  if is_empty v then [] else bs key ++ bs " <FEFF" ++ encodeUtf8 v ++ bs ">" ++ [NL].
Definition writeInfo (i : pdfinfo) : bytes :=
  bs "/Info <<" ++ [NL]
  ++ info_entry "/Author" (i_author i)
  ++ info_entry "/Title" (i_title i)
  ++ info_entry "/Subject" (i_subject i)
  ++ info_entry "/Creator" (i_creator i)
  ++ info_entry "/Producer" (i_producer i)
  ++ (if is_empty (i_date i) then [] else bs "/CreationDate(D:" ++ i_date i ++ bs ")" ++ [NL])
  ++ bs " >>" ++ [NL].

(** CharacterToGlyphIndex (map_of_character_To_glyph_index.go): keys in insertion order with their
    glyph; [Val k] is the last value set for an existing key, so the list has no duplicate keys. *)
Definition cgmap := list (Z * Z).

(** unicode_map.go:129-139 runeByIndex: the first rune recorded for the glyph. *)
Fixpoint runeByIndex (m : cgmap) (g : Z) : Z :=
  match m with
  | [] => 0
  | (r, i) :: m' => if i =? g then r else runeByIndex m' g
  end.
(** unicode_map.go:36-84: the CMap text. *)
Definition cmap_prefix : bytes :=
  bs "/CIDInit /ProcSet findresource begin" ++ [NL] ++ bs "12 dict begin" ++ [NL] ++ bs "begincmap" ++ [NL]
  ++ bs "/CIDSystemInfo << /Registry (Adobe)/Ordering (UCS)/Supplement 0>> def" ++ [NL]
  ++ bs "/CMapName /Adobe-Identity-UCS def /CMapType 2 def" ++ [NL].
Definition cmap_suffix : bytes := bs "endcmap CMapName currentdict /CMap defineresource pop end end".
(** "%04X" of an int; negative numbers (hiIndex = -1 for an empty map) print as "-001". *)
Definition hex4i (n : Z) : bytes := if n <? 0 then 45 :: pad_left 3 (hex (- n)) else hex4 n.
Definition cmap_text (m : cgmap) : bytes :=
  let lo := fold_left (fun a e => Z.min a (snd e)) m 65536 in
  let hi := fold_left (fun a e => Z.max a (snd e)) m (-1) in
  cmap_prefix ++ bs "1 begincodespacerange" ++ [NL]
  ++ bs "<" ++ hex4i lo ++ bs "><" ++ hex4i hi ++ bs ">" ++ [NL]
  ++ bs "endcodespacerange" ++ [NL]
  ++ fmt_d (zlen m) ++ bs " beginbfrange" ++ [NL]
  ++ flat_map (fun e => bs "<" ++ hex4 (snd e) ++ bs "><" ++ hex4 (snd e) ++ bs "><"
                        ++ hex4 (runeByIndex m (snd e)) ++ bs ">" ++ [NL]) m
  ++ bs "endbfrange" ++ [NL] ++ cmap_suffix ++ [NL].
