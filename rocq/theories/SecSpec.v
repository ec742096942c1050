(** SecSpec.v — the PDF standard security handler, revision 2 (ISO 32000-1, 7.6.2-7.6.4), as a
    consumer of a protected file applies it: read the encryption dictionary, open it with a password,
    decrypt an object.  Independent of the gopdf model. *)
From Verif Require Import Base FileSpec StrSpec Crypto.

(** Table: the 32-byte padding string of algorithm 2. *)
Definition PAD : bytes :=
  [40; 191; 78; 94; 78; 117; 138; 65; 100; 0; 78; 86; 255; 250; 1; 8;
   46; 46; 0; 182; 208; 104; 62; 128; 47; 12; 169; 254; 100; 83; 105; 122].
(** Algorithm 2 a): pad or truncate to exactly 32 bytes. *)
Definition pad32 (pw : bytes) : bytes := firstn 32 (pw ++ PAD).

(** Algorithm 2 (R 2, 40 bit, empty first ID element as in "/ID [()()]"): the file key. *)
Definition file_key (pw O : bytes) (P : Z) : bytes :=
  firstn 5 (md5 (pad32 pw ++ O ++ le_bytes 4 (P mod 2 ^ 32))).
(** Algorithm 4/6: authenticate a user password; returns the file key. *)
Definition open_user (O U : bytes) (P : Z) (pw : bytes) : option bytes :=
  let k := file_key pw O P in
  if list_eqb U (rc4 k PAD) then Some k else None.
(** Algorithm 3/7: authenticate an owner password. *)
Definition open_owner (O U : bytes) (P : Z) (pw : bytes) : option bytes :=
  open_user O U P (rc4 (firstn 5 (md5 (pad32 pw))) O).
(** Algorithm 1: the key of object number n, generation 0, and decryption of a string or stream. *)
Definition object_key (k : bytes) (n : Z) : bytes :=
  firstn 10 (md5 (k ++ le_bytes 3 n ++ [0; 0])).
Definition decrypt (k : bytes) (n : Z) (data : bytes) : bytes := rc4 (object_key k n) data.

(** A reader for flat dictionaries: "<<", then /Key value pairs, ">>". *)
Inductive pdfval := VName (n : bytes) | VStr (s : bytes) | VInt (n : Z).
Fixpoint skip_ws (l : bytes) : bytes :=
  match l with b :: r => if is_space b then skip_ws r else l | [] => [] end.
Definition is_delim (b : Z) : bool := existsb (Z.eqb b) [40; 41; 60; 62; 91; 93; 123; 125; 47; 37].
Fixpoint name_chars (l : bytes) : bytes * bytes :=
  match l with
  | b :: r => if is_space b || is_delim b then ([], l) else let '(n, t) := name_chars r in (b :: n, t)
  | [] => ([], [])
  end.
Definition value (l : bytes) : option (pdfval * bytes) :=
  match l with
  | 40 :: r => match litstring 0 r with Some (s, t) => Some (VStr s, t) | None => None end
  | 47 :: r => let '(n, t) := name_chars r in Some (VName n, t)
  | 45 :: r => match read_num r with Some (n, t) => Some (VInt (- n), t) | None => None end
  | _ => match read_num l with Some (n, t) => Some (VInt n, t) | None => None end
  end.
Fixpoint dict_entries (fuel : nat) (l : bytes) : option (list (bytes * pdfval)) :=
  match fuel with
  | O => None
  | S f =>
      match skip_ws l with
      | 62 :: 62 :: _ => Some []
      | 47 :: r =>
          let '(k, r1) := name_chars r in
          match value (skip_ws r1) with
          | Some (v, r2) => match dict_entries f r2 with Some es => Some ((k, v) :: es) | None => None end
          | None => None
          end
      | _ => None
      end
  end.
Definition read_dict (l : bytes) : option (list (bytes * pdfval)) :=
  match l with 60 :: 60 :: r => dict_entries (List.length l) r | _ => None end.
Fixpoint lookup (k : bytes) (es : list (bytes * pdfval)) : option pdfval :=
  match es with
  | [] => None
  | (k', v) :: r => if list_eqb k k' then Some v else lookup k r
  end.
(** The encryption dictionary: standard handler, version 1, revision 2. *)
Definition read_encrypt (body : bytes) : option (bytes * bytes * Z) :=
  match read_dict body with
  | Some es =>
      match lookup (bs "Filter") es, lookup (bs "V") es, lookup (bs "R") es,
            lookup (bs "O") es, lookup (bs "U") es, lookup (bs "P") es with
      | Some (VName f), Some (VInt 1), Some (VInt 2), Some (VStr o), Some (VStr u), Some (VInt p) =>
          if list_eqb f (bs "Standard") then Some (o, u, p) else None
      | _, _, _, _, _, _ => None
      end
  | None => None
  end.

(** 7.6.3.2, table 22 (R 2): bit positions 1-2 are zero, 3-6 are the four permissions, 7-32 are one;
    the entry is the word as a signed 32-bit integer.  [perm b] says whether bit position b is granted. *)
Definition permission_word (P : Z) (granted : Z -> bool) : Prop :=
  - 2 ^ 31 <= P < 2 ^ 31 /\
  forall b, 1 <= b <= 32 ->
    Z.testbit (P mod 2 ^ 32) (b - 1) =
    if b <=? 2 then false else if b <=? 6 then granted b else true.
