(** PngModel.v — reading a PNG file (image_obj_parse.go:213-460).  zlib is a pair of parameters: [inflate] (None when
    zlib.NewReader or io.ReadAll fails) and [deflate].

    A [bytes.Reader] is modelled by the list of bytes not yet read: parsePng only ever moves it forward, and a Seek past
    the end leaves it empty (bytes.Reader.Seek accepts it, the next Read answers io.EOF). *)
From Verif Require Import Base StrModel StreamModel.

Inductive pngres (A : Type) := Res (a : A) | Fail | Crash.
Arguments Res {A} a. Arguments Fail {A}. Arguments Crash {A}.

(** image_obj_parse.go:505-512 readBytes with bytes.Reader.Read: io.EOF when nothing is left (even for 0 bytes),
    otherwise the buffer, filled as far as the data go, zero beyond.  [n] >= 0 always. *)
Definition take_pad (n : nat) (l : bytes) : bytes := firstn n l ++ repeat 0 (n - List.length l).
Definition readBytes (n : Z) (r : bytes) : option (bytes * bytes) :=
  match r with
  | [] => None
  | _ :: _ => Some (take_pad (Z.to_nat n) r, skipn (Z.to_nat n) r)
  end.
(** f.Seek(n, 1) with n >= 0: no error. *)
Definition seek (n : Z) (r : bytes) : bytes := skipn (Z.to_nat n) r.
(** image_obj_parse.go:486-503 readUInt, readInt: binary.BigEndian.Uint32; int is 64 bits. *)
Definition be32 (l : bytes) : Z :=
  match l with [a; b; c; d] => ((a * 256 + b) * 256 + c) * 256 + d | _ => 0 end.
Definition readUInt (r : bytes) : option (Z * bytes) :=
  match readBytes 4 r with Some (b, r) => Some (be32 b, r) | None => None end.
Definition readByte (r : bytes) : option (Z * bytes) :=
  match readBytes 1 r with Some (b, r) => Some (hd 0 b, r) | None => None end.   (* b has length 1 *)

(** image_obj_parse.go:210-211 *)
Definition pngMagicNumber : bytes := [137; 80; 78; 71; 13; 10; 26; 10].
Definition pngIHDR : bytes := bs "IHDR".

(** strings.Index(string(t), "\x00") *)
Fixpoint index0 (i : nat) (t : bytes) : option nat :=
  match t with [] => None | b :: t => if b =? 0 then Some i else index0 (S i) t end.
(** image_obj_parse.go:326-337: a tRNS chunk of colour type [ct]; [None] when t[1], t[3] or t[5] does not exist (the
    program panics); the previous value when an indexed image's chunk has no zero. *)
Definition trns_of (ct : Z) (t trns : bytes) : option bytes :=
  if ct =? 0 then match nth_error t 1 with Some a => Some [a] | None => None end
  else if ct =? 2 then
    match nth_error t 1, nth_error t 3, nth_error t 5 with Some a, Some b, Some c => Some [a; b; c] | _, _, _ => None end
  else match index0 0 t with Some p => Some [Z.of_nat p mod 256] | None => Some trns end.

Record pacc := { p_pal : bytes; p_trns : bytes; p_data : bytes }.
(** image_obj_parse.go:300-371, the chunk loop.  Each round that goes on has read at least one byte, so [length r]
    rounds always suffice ([None]: fuel exhausted). *)
Fixpoint chunks (fuel : nat) (ct : Z) (r : bytes) (a : pacc) : option (pngres pacc) :=
  match fuel with
  | O => None
  | S f =>
    match readUInt r with
    | None => Some Fail
    | Some (n, r) =>
      match readBytes 4 r with
      | None => Some Fail
      | Some (typ, r) =>
        let next r a := if n <=? 0 then Some (Res a) else chunks f ct r a in
        if list_eqb typ (bs "PLTE") then
          match readBytes n r with
          | None => Some Fail
          | Some (d, r) => next (seek 4 r) {| p_pal := d; p_trns := p_trns a; p_data := p_data a |}
          end
        else if list_eqb typ (bs "tRNS") then
          match readBytes n r with
          | None => Some Fail
          | Some (t, r) =>
            match trns_of ct t (p_trns a) with
            | None => Some Crash
            | Some tr => next (seek 4 r) {| p_pal := p_pal a; p_trns := tr; p_data := p_data a |}
            end
          end
        else if list_eqb typ (bs "IDAT") then
          match readBytes n r with
          | None => Some Fail
          | Some (d, r) => next (seek 4 r) {| p_pal := p_pal a; p_trns := p_trns a; p_data := p_data a ++ d |}
          end
        else if list_eqb typ (bs "IEND") then Some (Res a)
        else next (seek (n + 4) r) a
      end
    end
  end.

(** strings.TrimSpace(string(pal)) == "": every rune is white space (unicode.IsSpace). *)
Definition is_space (r : Z) : bool :=
  ((9 <=? r) && (r <=? 13)) || (r =? 32) || (r =? 133) || (r =? 160) || (r =? 5760)
  || ((8192 <=? r) && (r <=? 8202)) || (r =? 8232) || (r =? 8233) || (r =? 8239) || (r =? 8287) || (r =? 12288).
Definition blank (s : bytes) : bool := forallb is_space (runes s).

(** image_obj_parse.go:401-413 and 426-438: one scan line.  [pairs] for gray+alpha: color gets line[j], alpha line[j+1];
    a line of 2*w bytes is never odd.  [quads] for RGB+alpha. *)
Fixpoint pairs (line : bytes) : bytes * bytes :=
  match line with
  | g :: al :: r => let '(c, m) := pairs r in (g :: c, al :: m)
  | _ => ([], [])
  end.
Fixpoint quads (line : bytes) : bytes * bytes :=
  match line with
  | r :: g :: b :: al :: t => let '(c, m) := quads t in (r :: g :: b :: c, al :: m)
  | _ => ([], [])
  end.
(** image_obj_parse.go:396-440.  [raw] is the inflated data, [slack] the unused capacity behind it (io.ReadAll returns a
    slice of a larger array): the element afterZipData[pos] is checked against the length, the slice
    afterZipData[pos+1 : pos+length+1] against the capacity. *)
Fixpoint split_rows (one : bytes -> bytes * bytes) (len : nat) (raw slack : bytes) (i h : nat) (color alpha : bytes)
  : pngres (bytes * bytes) :=
  match h with
  | O => Res (color, alpha)
  | S h' =>
    let pos := ((1 + len) * i)%nat in
    match nth_error raw pos with
    | None => Crash
    | Some f =>
      if Nat.leb (pos + len + 1) (List.length raw + List.length slack) then
        let line := firstn len (skipn (pos + 1) (raw ++ slack)) in
        split_rows one len raw slack (S i) h' (color ++ f :: fst (one line)) (alpha ++ f :: snd (one line))
      else Crash
    end
  end.
Definition split_planes (ct : Z) (w h : Z) (raw slack : bytes) : pngres (bytes * bytes) :=
  if ct =? 4 then split_rows pairs (Z.to_nat (2 * w)) raw slack 0 (Z.to_nat h) [] []
  else split_rows quads (Z.to_nat (4 * w)) raw slack 0 (Z.to_nat h) [] [].

Section Zlib.
Variable inflate : bytes -> option bytes.
Variable deflate : bytes -> bytes.
Variable slack : bytes.

(** image_obj_parse.go:374-458, after the chunks. *)
Definition finish (w h bpc ct : Z) (cs : colspace) (a : pacc) : pngres imginfo :=
  if match cs with Indexed => blank (p_pal a) | _ => false end then Fail
  else
    let mk smask data :=
      {| im_w := w; im_h := h; im_cs := cs; im_bpc := bpc; im_filter := FFlate;
         im_colors := Some (match cs with DevRGB => 3 | _ => 1 end);
         im_trns := p_trns a; im_smask := smask; im_smaskObj := 0; im_pal := p_pal a; im_rgbObj := 0; im_data := data |} in
    if 4 <=? ct then
      match inflate (p_data a) with
      | None => Fail
      | Some raw =>
        match split_planes ct w h raw slack with
        | Res (color, alpha) => Res (mk (deflate alpha) (deflate color))
        | Fail => Fail
        | Crash => Crash
        end
      end
    else Res (mk [] (p_data a)).
(** image_obj_parse.go:256-266 *)
Definition colspace_of (ct : Z) : option colspace :=
  if (ct =? 0) || (ct =? 4) then Some DevGray
  else if (ct =? 2) || (ct =? 6) then Some DevRGB
  else if ct =? 3 then Some Indexed else None.
(** image_obj_parse.go:213-460 parsePng *)
Definition parsePng (file : bytes) : pngres imginfo :=
  match readBytes 8 file with
  | None => Fail
  | Some (b, r) =>
    if negb (list_eqb b pngMagicNumber) then Fail else
    match readBytes 4 (seek 4 r) with
    | None => Fail
    | Some (b, r) =>
      if negb (list_eqb b pngIHDR) then Fail else
      match readUInt r with
      | None => Fail
      | Some (w, r) =>
      match readUInt r with
      | None => Fail
      | Some (h, r) =>
      match readByte r with
      | None => Fail
      | Some (bpc, r) =>
        if bpc >? 8 then Fail else
      match readByte r with
      | None => Fail
      | Some (ct, r) =>
      match colspace_of ct with
      | None => Fail
      | Some cs =>
      match readByte r with
      | None => Fail
      | Some (cm, r) =>
        if negb (cm =? 0) then Fail else
      match readByte r with
      | None => Fail
      | Some (fm, r) =>
        if negb (fm =? 0) then Fail else
      match readByte r with
      | None => Fail
      | Some (il, r) =>
        if negb (il =? 0) then Fail else
        let r := seek 4 r in
        match chunks (S (List.length r)) ct r {| p_pal := []; p_trns := []; p_data := [] |} with
        | Some (Res a) => finish w h bpc ct cs a
        | Some Fail => Fail
        | Some Crash | None => Crash
        end
      end end end end end end end end end
  end.
End Zlib.
