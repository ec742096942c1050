(** FileSpec.v — an independent, minimal PDF file reader (ISO 32000-1, 7.5): what a consumer does
    with the bytes, written without any reference to the gopdf model. *)
From Verif Require Import Base.

Fixpoint is_prefix (p l : bytes) : bool :=
  match p, l with
  | [], _ => true
  | x :: p', y :: l' => (x =? y) && is_prefix p' l'
  | _, _ => false
  end.

(** Drop an expected prefix. *)
Definition expect (p l : bytes) : option bytes :=
  if is_prefix p l then Some (skipn (List.length p) l) else None.

(** Longest leading run of decimal digits, and the rest. *)
Fixpoint take_digits (l : bytes) : bytes * bytes :=
  match l with
  | d :: r => if is_digit d then let '(a, b) := take_digits r in (d :: a, b) else ([], l)
  | [] => ([], [])
  end.

(** A decimal number. *)
Definition read_num (l : bytes) : option (Z * bytes) :=
  match take_digits l with
  | ([], _) => None
  | (ds, r) => Some (digits_val ds, r)
  end.

(** 7.5.5: the last lines of the file are startxref, a byte offset, and %%EOF.  Read backwards. *)
Definition read_startxref (file : bytes) : option Z :=
  match expect (rev ([NL] ++ bs "%%EOF" ++ [NL])) (rev file) with
  | None => None
  | Some r =>
      let '(ds, r') := take_digits r in
      match ds, expect (rev (bs "startxref" ++ [NL])) r' with
      | [], _ => None
      | _, Some _ => Some (digits_val (rev ds))
      | _, None => None
      end
  end.

(** 7.5.4: one cross-reference entry is exactly 20 bytes: nnnnnnnnnn ggggg n eol. *)
Record xentry := { xe_offset : Z; xe_gen : Z; xe_inuse : bool }.
Definition read_entry (l : bytes) : option xentry :=
  let off := firstn 10 l in
  let gen := firstn 5 (skipn 11 l) in
  if forallb is_digit off && forallb is_digit gen
     && (zlen l =? 20) && (nth 10 l 0 =? 32) && (nth 16 l 0 =? 32)
     && (nth 18 l 0 =? 32) && (nth 19 l 0 =? 10)
  then if nth 17 l 0 =? 110 (* n *) then Some {| xe_offset := digits_val off; xe_gen := digits_val gen; xe_inuse := true |}
       else if nth 17 l 0 =? 102 (* f *) then Some {| xe_offset := digits_val off; xe_gen := digits_val gen; xe_inuse := false |}
       else None
  else None.

Fixpoint read_entries (n : nat) (l : bytes) : option (list xentry * bytes) :=
  match n with
  | O => Some ([], l)
  | S n' => match read_entry (firstn 20 l), read_entries n' (skipn 20 l) with
            | Some e, Some (es, r) => Some (e :: es, r)
            | _, _ => None
            end
  end.

(** The cross-reference section at a byte offset: "xref", one subsection "0 N", N entries, then the
    trailer dictionary, whose /Size is returned, too. *)
Definition read_xref (file : bytes) (pos : Z) : option (list xentry * Z) :=
  if (pos <? 0) then None else
  match expect (bs "xref" ++ [NL] ++ bs "0 ") (skipn (Z.to_nat pos) file) with
  | None => None
  | Some r =>
      match read_num r with
      | None => None
      | Some (n, r) =>
          match expect [NL] r with
          | None => None
          | Some r =>
              match read_entries (Z.to_nat n) r with
              | None => None
              | Some (es, r) =>
                  match expect (bs "trailer" ++ [NL] ++ bs "<<" ++ [NL] ++ bs "/Size ") r with
                  | None => None
                  | Some r => match read_num r with
                              | Some (sz, _) => Some (es, sz)
                              | None => None
                              end
                  end
              end
          end
      end
  end.

(** The object numbered [k] starts at byte [pos] and its body is [body]. *)
Definition object_at (file : bytes) (pos k : Z) (body : bytes) : Prop :=
  0 <= pos /\ exists rest,
    skipn (Z.to_nat pos) file
    = dec k ++ bs " 0 obj" ++ [NL] ++ body ++ bs "endobj" ++ [NL; NL] ++ rest.

(** A file is a well-formed container of [bodies] (object k has body number k-1): startxref leads to
    a cross-reference table whose entry 0 is the free head, whose entry k (k >= 1) is in use and
    leads to object k, and whose size agrees with the trailer. *)
Definition well_formed_file (file : bytes) (bodies : list bytes) : Prop :=
  exists sx entries,
    read_startxref file = Some sx /\
    read_xref file sx = Some (entries, zlen bodies + 1) /\
    zlen entries = zlen bodies + 1 /\
    nth_error entries 0 = Some {| xe_offset := 0; xe_gen := 65535; xe_inuse := false |} /\
    forall k body, nth_error bodies k = Some body ->
      exists off, nth_error entries (S k) = Some {| xe_offset := off; xe_gen := 0; xe_inuse := true |} /\
                  object_at file off (Z.of_nat k + 1) body.

(** io.Writer contract: 0 <= n <= len b, and n < len b only together with an error. *)
Definition writer_ok {W} (wr : W -> bytes -> W * (Z * bool)) : Prop :=
  forall w b, let '(_, (n, e)) := wr w b in 0 <= n <= zlen b /\ (n < zlen b -> e = true).

(** A writer observed from outside: the same writer together with the bytes it has accepted so far
    and whether any call has failed. *)
Definition observed {W} (wr : W -> bytes -> W * (Z * bool))
  (s : W * (bytes * bool)) (b : bytes) : (W * (bytes * bool)) * (Z * bool) :=
  let '(w, (acc, failed)) := s in
  let '(w', (n, e)) := wr w b in
  ((w', (acc ++ firstn (Z.to_nat n) b, failed || e)), (n, e)).
