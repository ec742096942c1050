(** StrSpec.v — how a consumer reads strings: UTF-8 (RFC 3629), UTF-16BE, PDF literal strings and
    hexadecimal strings (ISO 32000-1, 7.3.4), the Info dictionary (14.3.3) and the bfrange section of
    a ToUnicode CMap (9.10.3).  Written without reference to the gopdf model. *)
From Verif Require Import Base.

(** A Unicode scalar value. *)
Definition scalar (c : Z) : Prop := 0 <= c <= 1114111 /\ ~ (55296 <= c <= 57343).
(** A character of the basic multilingual plane. *)
Definition bmp (c : Z) : Prop := scalar c /\ c < 65536.

(** RFC 3629 encoding of one character and of a text. *)
Definition utf8_char (c : Z) : bytes :=
  if c <? 128 then [c]
  else if c <? 2048 then [192 + c / 64; 128 + c mod 64]
  else if c <? 65536 then [224 + c / 4096; 128 + c / 64 mod 64; 128 + c mod 64]
  else [240 + c / 262144; 128 + c / 4096 mod 64; 128 + c / 64 mod 64; 128 + c mod 64].
Definition utf8 (l : list Z) : bytes := flat_map utf8_char l.

(** UTF-16, big endian, without byte order mark. *)
Fixpoint utf16be (l : bytes) : option (list Z) :=
  match l with
  | [] => Some []
  | h :: lo :: r =>
      let u := h * 256 + lo in
      if (55296 <=? u) && (u <=? 56319) then
        match r with
        | h2 :: l2 :: r2 =>
            let v := h2 * 256 + l2 in
            if (56320 <=? v) && (v <=? 57343) then
              match utf16be r2 with
              | Some cs => Some (65536 + (u - 55296) * 1024 + (v - 56320) :: cs)
              | None => None
              end
            else None
        | _ => None
        end
      else if (56320 <=? u) && (u <=? 57343) then None
      else match utf16be r with Some cs => Some (u :: cs) | None => None end
  | [_] => None
  end.

(** 7.3.4.3 hexadecimal strings: the input starts after '<'; white space is skipped, an odd final
    digit is followed by an implied 0.  Result: bytes and what follows '>'. *)
Definition is_space (b : Z) : bool := existsb (Z.eqb b) [0; 9; 10; 12; 13; 32].
Fixpoint hexstring (l : bytes) (half : option Z) : option (bytes * bytes) :=
  match l with
  | [] => None
  | b :: r =>
      if b =? 62 then Some (match half with Some h => [16 * h] | None => [] end, r)
      else if is_space b then hexstring r half
      else match hexval b with
           | None => None
           | Some d => match half with
                       | None => hexstring r (Some d)
                       | Some h => match hexstring r None with
                                   | Some (bs, r') => Some (16 * h + d :: bs, r')
                                   | None => None
                                   end
                       end
           end
  end.

(** 7.9.2.2 text strings: here, only those with the UTF-16BE byte order mark. *)
Definition text_string (b : bytes) : option (list Z) :=
  match b with 254 :: 255 :: r => utf16be r | _ => None end.

(** 7.3.4.2 literal strings: the input starts after '('; [d] is the number of open inner
    parentheses.  Result: the string's bytes and what follows the closing parenthesis. *)
Definition octal (b : Z) : bool := (48 <=? b) && (b <=? 55).
Fixpoint litstring (d : nat) (l : bytes) : option (bytes * bytes) :=
  let cons' (x : Z) (r : option (bytes * bytes)) :=
    match r with Some (s, t) => Some (x :: s, t) | None => None end in
  match l with
  | [] => None
  | b :: r =>
      if b =? 40 then cons' 40 (litstring (S d) r)
      else if b =? 41 then match d with O => Some ([], r) | S d' => cons' 41 (litstring d' r) end
      else if b =? 13 then
        match r with
        | b2 :: r2 => if b2 =? 10 then cons' 10 (litstring d r2) else cons' 10 (litstring d r)
        | [] => None
        end
      else if b =? 92 then
        match r with
        | [] => None
        | c :: r1 =>
            if c =? 110 then cons' 10 (litstring d r1)
            else if c =? 114 then cons' 13 (litstring d r1)
            else if c =? 116 then cons' 9 (litstring d r1)
            else if c =? 98 then cons' 8 (litstring d r1)
            else if c =? 102 then cons' 12 (litstring d r1)
            else if c =? 10 then litstring d r1
            else if c =? 13 then
              match r1 with
              | b2 :: r2 => if b2 =? 10 then litstring d r2 else litstring d r1
              | [] => None
              end
            else if octal c then
              match r1 with
              | c2 :: r2 =>
                  if octal c2 then
                    match r2 with
                    | c3 :: r3 =>
                        if octal c3
                        then cons' (((c - 48) * 64 + (c2 - 48) * 8 + (c3 - 48)) mod 256) (litstring d r3)
                        else cons' ((c - 48) * 8 + (c2 - 48)) (litstring d r2)
                    | [] => None
                    end
                  else cons' (c - 48) (litstring d r1)
              | [] => None
              end
            else cons' c (litstring d r1)
        end
      else cons' b (litstring d r)
  end.

(** Drop an expected prefix. *)
Fixpoint drop_prefix (p l : bytes) : option bytes :=
  match p, l with
  | [], _ => Some l
  | x :: p', y :: l' => if x =? y then drop_prefix p' l' else None
  | _, [] => None
  end.

(** The text-string entries of an Info dictionary, whose source text [l] is given from the first key
    on: pairs (key, text) up to the first thing that is not "/Key <hex>". *)
Fixpoint take_name (l : bytes) : bytes * bytes :=
  match l with
  | b :: r => if (b =? 32) || (b =? 40) || (b =? 60) then ([], l)
              else let '(n, t) := take_name r in (b :: n, t)
  | [] => ([], [])
  end.
Fixpoint info_entries (fuel : nat) (l : bytes) : option (list (bytes * list Z)) :=
  match fuel with
  | O => None
  | S f =>
      match l with
      | 47 :: r =>
          let '(name, r1) := take_name r in
          match r1 with
          | 32 :: 60 :: r2 =>
              match hexstring r2 None with
              | Some (b, r3) =>
                  match text_string b, drop_prefix [10] r3 with
                  | Some t, Some r4 =>
                      match info_entries f r4 with
                      | Some es => Some ((name, t) :: es)
                      | None => None
                      end
                  | _, _ => None
                  end
              | None => None
              end
          | _ => Some []
          end
      | _ => Some []
      end
  end.
(** The whole: "/Info <<" newline, entries. *)
Definition read_info (l : bytes) : option (list (bytes * list Z)) :=
  match drop_prefix (bs "/Info <<" ++ [10]) l with
  | Some r => info_entries (S (List.length l)) r
  | None => None
  end.

(** 9.10.3: one bfrange entry "<lo><hi><dst>" per line, until "endbfrange".  [bfranges] lists
    (lo, hi, destination text). *)
Definition be_val (b : bytes) : Z := fold_left (fun a x => a * 256 + x) b 0.
Definition hex_group (l : bytes) : option (bytes * bytes) :=
  match l with 60 :: r => hexstring r None | _ => None end.
Fixpoint bfranges (fuel : nat) (l : bytes) : option (list (Z * Z * list Z)) :=
  match fuel with
  | O => None
  | S f =>
      match drop_prefix (bs "endbfrange") l with
      | Some _ => Some []
      | None =>
          match hex_group l with
          | Some (lo, r) =>
            match hex_group r with
            | Some (hi, r) =>
              match hex_group r with
              | Some (dst, r) =>
                match utf16be dst, drop_prefix [10] r with
                | Some t, Some r' =>
                    match bfranges f r' with
                    | Some es => Some ((be_val lo, be_val hi, t) :: es)
                    | None => None
                    end
                | _, _ => None
                end
              | None => None
              end
            | None => None
            end
          | None => None
          end
      end
  end.
(** First position of the text [p] in [l]: what precedes it and what follows it. *)
Fixpoint split_at (p l : bytes) : option (bytes * bytes) :=
  match drop_prefix p l with
  | Some r => Some ([], r)
  | None => match l with
            | [] => None
            | x :: l' => match split_at p l' with Some (a, r) => Some (x :: a, r) | None => None end
            end
  end.
Definition read_cmap (l : bytes) : option (list (Z * Z * list Z)) :=
  match split_at (bs "beginbfrange" ++ [10]) l with
  | Some (_, r) => bfranges (S (List.length r)) r
  | None => None
  end.
(** What the CMap maps character code [code] to.  If several ranges contain the code the standard
    does not say which one counts, so all their answers are returned. *)
Definition cmap_all (es : list (Z * Z * list Z)) (code : Z) : list (list Z) :=
  map snd (filter (fun e => (fst (fst e) <=? code) && (code <=? snd (fst e))) es).
