(** TtfModel.v — the TrueType parser, fontmaker/core/ttfparser.go, ttfparser_cmap_other_format.go,
    ttfparser_kern.go, table_directory_entry.go, kern_table.go, function by function.

    A parser runs over the font file [d] from a position; it returns a value and the new position, or an
    error value, or panics.  [uint] is 64 bits wide (Go on a 64-bit platform).  The [chars] map
    (exported through Chars(), not used by gopdf itself) is kept as the list of its insertions. *)
From Verif Require Import Base.

Inductive pres (A : Type) := POk (a : A) (pos : Z) | PErr | PPanic.
Arguments POk {A}. Arguments PErr {A}. Arguments PPanic {A}.
Definition parser (A : Type) := bytes -> Z -> pres A.
Definition pret {A} (a : A) : parser A := fun _ pos => POk a pos.
Definition perr {A} : parser A := fun _ _ => PErr.
Definition ppanic {A} : parser A := fun _ _ => PPanic.
Definition pbind {A B} (p : parser A) (k : A -> parser B) : parser B :=
  fun d pos => match p d pos with POk a q => k a d q | PErr => PErr | PPanic => PPanic end.
Notation "x <- p ;; q" := (pbind p (fun x => q)) (at level 61, p at next level, right associativity).
Notation "' pat <- p ;; q" := (pbind p (fun x => match x with pat => q end))
  (at level 61, pat pattern, p at next level, right associativity).

(** ttfparser.go:1027-1037 Read, on top of bytes.Reader.Read: at or after the end it returns io.EOF; a
    short read is the error "file out of length". *)
Definition slice (d : bytes) (pos n : Z) : bytes := firstn (Z.to_nat n) (skipn (Z.to_nat pos) d).
Definition pread (n : Z) : parser bytes := fun d pos =>
  if zlen d <=? pos then PErr
  else let s := slice d pos n in if zlen s =? n then POk s (pos + n) else PErr.
(** ttfparser.go:1018-1024 Skip and bytes.Reader.Seek: only negative positions are errors. *)
Definition pseek (p : Z) : parser unit := fun _ _ => if p <? 0 then PErr else POk tt p.
Definition pskip (n : Z) : parser unit := fun _ pos => if pos + n <? 0 then PErr else POk tt (pos + n).
Definition ptell : parser Z := fun _ pos => POk pos pos.                       (* FTell 777-780 *)

(** Big-endian value of a byte string (encoding/binary.BigEndian). *)
Definition be (l : bytes) : Z := fold_left (fun a b => a * 256 + b) l 0.
Definition readUShort : parser Z := s <- pread 2 ;; pret (be s).               (* 973-980 *)
Definition readULong : parser Z := s <- pread 4 ;; pret (be s).                (* 1008-1015 *)
Definition readShort : parser Z :=                                             (* 983-1006 *)
  u <- readUShort ;; pret (if 32768 <=? u then u - 65536 else u).

Fixpoint times {A} (n : nat) (p : parser A) : parser (list A) :=
  match n with
  | O => pret []
  | S n' => a <- p ;; l <- times n' p ;; pret (a :: l)
  end.

(** table_directory_entry.go:3-12 *)
Record tentry := { e_check : Z; e_offset : Z; e_length : Z }.
Definition paddedLength (l : Z) : Z := (l + 3) / 4 * 4.

(** The table map: newest first, so that a repeated tag overrides (247-275). *)
Definition tables := list (bytes * tentry).
Fixpoint bytes_eqb (a b : bytes) : bool :=
  match a, b with
  | [], [] => true
  | x :: a', y :: b' => (x =? y) && bytes_eqb a' b'
  | _, _ => false
  end.
Fixpoint tfind (t : tables) (tag : bytes) : option tentry :=
  match t with
  | [] => None
  | (k, e) :: r => if bytes_eqb k tag then Some e else tfind r tag
  end.
Definition seekTag (t : tables) (tag : bytes) : parser unit :=                 (* Seek 954-965 *)
  match tfind t tag with None => perr | Some e => pseek (e_offset e) end.
Definition readEntry : parser (bytes * tentry) :=
  tag <- pread 4 ;; c <- readULong ;; o <- readULong ;; l <- readULong ;;
  pret (tag, {| e_check := c; e_offset := o; e_length := l |}).
Definition bytes4 (a b c d : Z) : bytes := [a; b; c; d].
Definition tag_head := bs "head". Definition tag_hhea := bs "hhea". Definition tag_maxp := bs "maxp".
Definition tag_hmtx := bs "hmtx". Definition tag_cmap := bs "cmap". Definition tag_name := bs "name".
Definition tag_os2 := bs "OS/2". Definition tag_post := bs "post". Definition tag_loca := bs "loca".
Definition tag_kern := bs "kern". Definition tag_glyf := bs "glyf".

Definition parseDirectory : parser tables :=                                   (* 224-275 *)
  v <- pread 4 ;;
  if negb (bytes_eqb v (bytes4 0 1 0 0)) then perr else
  n <- readUShort ;; _ <- pskip 6 ;; l <- times (Z.to_nat n) readEntry ;; pret (rev l).

(** ParseHead 829-895: (unitsPerEm, (xMin, yMin, xMax, yMax), indexToLocFormat). *)
Definition parseHead (t : tables) : parser (Z * (Z * Z * Z * Z) * Z) :=
  _ <- seekTag t tag_head ;; _ <- pskip 12 ;; m <- readULong ;;
  if negb (m =? 0x5F0F3CF5) then perr else
  _ <- pskip 2 ;; upem <- readUShort ;; _ <- pskip 16 ;;
  x0 <- readShort ;; y0 <- readShort ;; x1 <- readShort ;; y1 <- readShort ;;
  _ <- pskip 6 ;; f <- readShort ;; pret (upem, (x0, y0, x1, y1), f).

(** ParseHhea 898-931: (ascender, descender, numberOfHMetrics). *)
Definition parseHhea (t : tables) : parser (Z * Z * Z) :=
  _ <- seekTag t tag_hhea ;; _ <- pskip 4 ;; a <- readShort ;; d <- readShort ;;
  _ <- pskip 26 ;; n <- readUShort ;; pret (a, d, n).

Definition parseMaxp (t : tables) : parser Z :=                                (* 934-948 *)
  _ <- seekTag t tag_maxp ;; _ <- pskip 4 ;; readUShort.

(** ParseHmtx 783-811.  With numberOfHMetrics = 0 < numGlyphs the index numberOfHMetrics-1 is out of
    range: panic. *)
Fixpoint padTo (n : nat) (v : Z) (l : list Z) : list Z :=                      (* ArrayPadUint 813-826 *)
  match n with
  | O => []
  | S n' => match l with [] => v :: padTo n' v [] | x :: r => x :: padTo n' v r end
  end.
Definition parseHmtx (t : tables) (nHM nG : Z) : parser (list Z) :=
  _ <- seekTag t tag_hmtx ;;
  ws <- times (Z.to_nat nHM) (w <- readUShort ;; _ <- pskip 2 ;; pret w) ;;
  if nHM <? nG then
    match nth_error ws (Z.to_nat (nHM - 1)) with
    | Some lastw => pret (padTo (Z.to_nat nG) lastw ws)
    | None => ppanic
    end
  else pret ws.

(** ParseCmap 593-775. *)
Definition u64 (z : Z) : Z := z mod 2 ^ 64.
Definition encEntry : parser (Z * Z * Z) :=
  p <- readUShort ;; e <- readUShort ;; o <- readULong ;; pret (p, e, o).
(** The last (3,1) subtable wins (608-630). *)
Definition offset31 (l : list (Z * Z * Z)) : Z :=
  fold_left (fun acc x => let '(p, e, o) := x in if (p =? 3) && (e =? 1) then o else acc) l 0.
Record cmap4 := { c_seg : Z; c_end : list Z; c_start : list Z; c_delta : list Z; c_ro : list Z; c_gids : list Z }.
(** The characters of one segment, c1..c2 stopping before 0xFFFF (738-742). *)
Definition segChars (c1 c2 : Z) : nat := Z.to_nat (Z.min c2 65534 - c1 + 1).
Definition fixGid (g : Z) : Z := if 65536 <=? g then g - 65536 else g.
Fixpoint charsRange (k : nat) (c d : Z) : list (Z * Z) :=
  match k with
  | O => []
  | S k' => let g := fixGid (c + d) in (if 0 <? g then [(c, g)] else []) ++ charsRange k' (c + 1) d
  end.
Fixpoint charsRead (k : nat) (c d : Z) : parser (list (Z * Z)) :=
  match k with
  | O => pret []
  | S k' => g0 <- readUShort ;;
            let g := fixGid (if 0 <? g0 then g0 + d else g0) in
            r <- charsRead k' (c + 1) d ;;
            pret ((if 0 <? g then [(c, g)] else []) ++ r)
  end.
Fixpoint parseChars (i : Z) (offset : Z) (starts ends deltas ros : list Z) : parser (list (Z * Z)) :=  (* 724-766 *)
  match starts, ends, deltas, ros with
  | c1 :: s', c2 :: e', d :: ds', ro :: r' =>
      l <- (if 0 <? ro then _ <- pseek (offset + 2 * i + ro) ;; charsRead (segChars c1 c2) c1 d
            else pret (charsRange (segChars c1 c2) c1 d)) ;;
      rest <- parseChars (i + 1) offset s' e' ds' r' ;; pret (l ++ rest)
  | _, _, _, _ => pret []
  end.
Definition parseCmap4 (t : tables) : parser (cmap4 * list (Z * Z)) :=
  _ <- seekTag t tag_cmap ;; _ <- pskip 2 ;; n <- readUShort ;;
  encs <- times (Z.to_nat n) encEntry ;;
  let off := offset31 encs in
  if off =? 0 then perr else
  match tfind t tag_cmap with
  | None => perr
  | Some e =>
      _ <- pseek (e_offset e + off) ;;
      f <- readUShort ;;
      if negb (f =? 4) then perr else
      len <- readUShort ;; _ <- pskip 2 ;; sc2 <- readUShort ;;
      let sc := sc2 / 2 in
      _ <- pskip 6 ;;
      let gc := u64 (len - (16 + 8 * sc)) / 2 in
      ends <- times (Z.to_nat sc) readUShort ;; _ <- pskip 2 ;;
      starts <- times (Z.to_nat sc) readUShort ;;
      deltas <- times (Z.to_nat sc) readUShort ;;
      off2 <- ptell ;;
      ros <- times (Z.to_nat sc) readUShort ;;
      gids <- times (Z.to_nat gc) readUShort ;;
      chars <- parseChars 0 off2 starts ends deltas ros ;;
      pret ({| c_seg := sc; c_end := ends; c_start := starts; c_delta := deltas; c_ro := ros; c_gids := gids |}, chars)
  end.

(** ttfparser_cmap_other_format.go:9-129 ParseCmapFormat12: the first (3,10) subtable. *)
Definition find310 (l : list (Z * Z * Z)) : option Z :=
  match find (fun x => let '(p, e, _) := x in (p =? 3) && (e =? 10)) l with
  | Some (_, _, o) => Some o
  | None => None
  end.
Definition readGroup : parser (Z * Z * Z) := s <- readULong ;; e <- readULong ;; g <- readULong ;; pret (s, e, g).
Definition parseCmap12 (t : tables) : parser (list (Z * Z * Z)) :=
  _ <- seekTag t tag_cmap ;; _ <- pskip 2 ;; n <- readUShort ;;
  encs <- times (Z.to_nat n) encEntry ;;
  match find310 encs, tfind t tag_cmap with
  | Some o, Some e =>
      _ <- pseek (e_offset e + o) ;; f <- readUShort ;;
      if negb (f =? 12) then perr else
      r <- readUShort ;;
      if negb (r =? 0) then perr else
      _ <- pskip 4 ;; _ <- pskip 4 ;; n <- readULong ;; times (Z.to_nat n) readGroup
  | _, _ => pret []
  end.

(** ParseName 499-580.  The bytes of the PostScript name without NULs and without the digit 0
    (strings.Replace(s, strconv.Itoa(0), "", -1)).  The regular expression applied afterwards starts
    with an empty alternative, which leftmost-first matching prefers at every position, so it removes
    nothing. *)
Fixpoint nameLoop (k : nat) (tableOffset stringOffset : Z) : parser bytes :=
  match k with
  | O => pret []
  | S k' =>
      _ <- pskip 6 ;; id <- readUShort ;; len <- readUShort ;; off <- readUShort ;;
      if id =? 6 then
        _ <- pseek (tableOffset + stringOffset + off) ;; s <- pread len ;;
        pret (filter (fun b => negb (b =? 48)) (filter (fun b => negb (b =? 0)) s))
      else nameLoop k' tableOffset stringOffset
  end.
Definition parseName (t : tables) : parser bytes :=
  _ <- seekTag t tag_name ;; o <- ptell ;; _ <- pskip 2 ;; n <- readUShort ;; so <- readUShort ;;
  s <- nameLoop (Z.to_nat n) o so ;;
  match s with [] => perr | _ => pret s end.

(** ParseOS2 415-496. *)
Record os2 := { o_version : Z; o_embed : bool; o_bold : bool; o_typoAsc : Z; o_typoDesc : Z;
                o_winAsc : Z; o_winDesc : Z; o_xheight : Z; o_cap : Z }.
Definition parseOS2 (t : tables) (ascender : Z) : parser os2 :=
  _ <- seekTag t tag_os2 ;; v <- readUShort ;; _ <- pskip 6 ;; ty <- readUShort ;; _ <- pskip 52 ;;
  sel <- readUShort ;; _ <- pskip 4 ;;
  ta <- readShort ;; td <- readShort ;; _ <- readShort ;; wa <- readUShort ;; wd <- readUShort ;;
  let mk x c := {| o_version := v; o_embed := negb (ty =? 2) && (Z.land ty 512 =? 0);
                   o_bold := negb (Z.land sel 32 =? 0); o_typoAsc := ta; o_typoDesc := td;
                   o_winAsc := wa; o_winDesc := wd; o_xheight := x; o_cap := c |} in
  if 2 <=? v then _ <- pskip 8 ;; x <- readShort ;; c <- readShort ;; pret (mk x c)
  else pret (mk 0 ascender).

(** ParsePost 373-412: (italicAngle, underlinePosition, underlineThickness, isFixedPitch). *)
Definition parsePost (t : tables) : parser (Z * Z * Z * bool) :=
  _ <- seekTag t tag_post ;; _ <- pskip 4 ;; a <- readShort ;; _ <- pskip 2 ;;
  p <- readShort ;; th <- readShort ;; fx <- readULong ;; pret (a, p, th, negb (fx =? 0)).

(** ParseLoca 331-370. *)
Definition parseLoca (t : tables) (short : bool) : parser (list Z) :=
  match tfind t tag_loca with
  | None => perr
  | Some e =>
      _ <- pseek (e_offset e) ;;
      if short then l <- times (Z.to_nat (e_length e / 2)) readUShort ;; pret (map (fun v => v * 2) l)
      else times (Z.to_nat (e_length e / 4)) readULong
  end.

(** ttfparser_kern.go.  Kerning map: list of ((left, right), value), newest first; each subtable starts
    with a fresh map (56). *)
Definition kernmap := list ((Z * Z) * Z).
Definition kernPair : parser ((Z * Z) * Z) := l <- readUShort ;; r <- readUShort ;; v <- readShort ;; pret ((l, r), v).
Definition kernSub : parser kernmap :=                                          (* 46-98 *)
  _ <- pskip 4 ;; cov <- readUShort ;;
  if negb (Z.land cov 240 =? 0) then perr else
  n <- readUShort ;; _ <- pskip 6 ;; ps <- times (Z.to_nat n) kernPair ;; pret (rev ps).
Fixpoint kernSubs (n : nat) (acc : kernmap) : parser kernmap :=
  match n with
  | O => pret acc
  | S n' => m <- kernSub ;; kernSubs n' m
  end.
Definition parseKern (t : tables) : parser (option kernmap) :=                  (* 9-44 *)
  match tfind t tag_kern with
  | None => pret None
  | Some e => _ <- pseek (e_offset e) ;; _ <- readUShort ;; n <- readUShort ;;
              m <- kernSubs (Z.to_nat n) [] ;; pret (Some m)
  end.

(** The parsed font. *)
Record ttf := {
  t_tables : tables;
  t_upem : Z; t_bbox : Z * Z * Z * Z; t_locFormat : Z;
  t_asc : Z; t_desc : Z; t_nHM : Z;
  t_nGlyphs : Z; t_widths : list Z; t_cmap : cmap4; t_chars : list (Z * Z); t_groups : list (Z * Z * Z);
  t_psname : bytes; t_os2 : os2; t_post : Z * Z * Z * bool; t_loca : list Z; t_kern : option kernmap }.

(** ParseFontData 224-324 from the first byte; [useKerning] is the user's option (SetUseKerning). *)
Definition parseFontData (useKerning : bool) : parser ttf :=
  t <- parseDirectory ;;
  '(upem, bbox, lf) <- parseHead t ;;
  '(asc, desc, nhm) <- parseHhea t ;;
  ng <- parseMaxp t ;;
  ws <- parseHmtx t nhm ng ;;
  '(c4, chars) <- parseCmap4 t ;;
  c12 <- parseCmap12 t ;;
  nm <- parseName t ;;
  o2 <- parseOS2 t asc ;;
  ps <- parsePost t ;;
  loca <- parseLoca t (lf =? 0) ;;
  k <- (if useKerning then parseKern t else pret None) ;;
  pret {| t_tables := t; t_upem := upem; t_bbox := bbox; t_locFormat := lf; t_asc := asc; t_desc := desc;
          t_nHM := nhm; t_nGlyphs := ng; t_widths := ws; t_cmap := c4; t_chars := chars; t_groups := c12;
          t_psname := nm; t_os2 := o2; t_post := ps; t_loca := loca; t_kern := k |}.
Definition parseFont (useKerning : bool) (d : bytes) : option (option ttf) :=    (* None: panic; Some None: error *)
  match parseFontData useKerning d 0 with
  | POk t _ => Some (Some t)
  | PErr => Some None
  | PPanic => None
  end.
