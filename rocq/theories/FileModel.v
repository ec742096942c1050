(** FileModel.v — how gopdf lays a document out as bytes.

    Models gopdf.go:1020-1085 (Write, Read, Close, compilePdf, countingWriter, GetBytesPdfReturnErr)
    and gopdf.go:2287-2356 (xref, formatXrefline).

    An object's [write] method is a *program of Write calls*: each call hands some bytes to the
    writer and may look at the (n, err) answer before going on.  This covers every IObj.write of the
    repository, those that stop on the first error and those that ignore errors. *)
From Verif Require Import Base.

(** IObj.write (iobj.go): the interaction of one object with the io.Writer it is given. *)
Inductive wprog : Type :=
| WDone
| WWrite (b : bytes) (k : Z -> bool -> wprog).      (* k n err *)

(** Bytes an object produces when every Write succeeds completely. *)
Fixpoint prog_bytes (p : wprog) : bytes :=
  match p with
  | WDone => []
  | WWrite b k => b ++ prog_bytes (k (zlen b) false)
  end.

(** Write a list of chunks, ignoring all answers (the io.WriteString/fmt.Fprintf calls whose results
    compilePdf and xref drop). *)
Fixpoint chunks (l : list bytes) : wprog :=
  match l with [] => WDone | b :: r => WWrite b (fun _ _ => chunks r) end.

(** Write a list of chunks, stopping at the first error. *)
Fixpoint chunks_stop (l : list bytes) : wprog :=
  match l with [] => WDone | b :: r => WWrite b (fun _ e => if e then WDone else chunks_stop r) end.

(** What the trailer needs: /Encrypt object id (gopdf.go:2305-2308) and the text writeInfo emits
    (gopdf.go:2309-2311), as the chunks it writes. *)
Record trailer := { tr_encrypt : option Z; tr_info : option (list bytes) }.

(** gopdf.go:2350-2356 formatXrefline: decimal, left-padded with '0' to at least 10 characters. *)
Definition formatXrefline (n : Z) : bytes := pad_left 10 (fmt_d n).

(** gopdf.go:1051: the header. 0xe2 0xe3 0xcf 0xd3 are raw bytes. *)
Definition header : bytes := bs "%PDF-1.7" ++ [NL] ++ bs "%" ++ [226; 227; 207; 211] ++ [NL; NL].

(** gopdf.go:2287-2316 xref, as the list of Write calls. [linelens] are the recorded offsets and
    [i] the number of objects; the code uses [i+1] in the subsection header and
    [len(linelens)+1] in /Size. *)
Definition xref_chunks (tr : trailer) (xrefoffset : Z) (linelens : list Z) (i : Z) : list bytes :=
  [ bs "xref" ++ [NL];
    bs "0 " ++ fmt_d (i + 1) ++ [NL];
    bs "0000000000 65535 f " ++ [NL] ]
  ++ map (fun n => formatXrefline n ++ bs " 00000 n " ++ [NL]) linelens
  ++ [ bs "trailer" ++ [NL]; bs "<<" ++ [NL];
       bs "/Size " ++ fmt_d (zlen linelens + 1) ++ [NL];
       bs "/Root 1 0 R" ++ [NL] ]
  ++ match tr_encrypt tr with
     | Some id => [ bs "/Encrypt " ++ fmt_d id ++ bs " 0 R" ++ [NL]; bs "/ID [()()]" ++ [NL] ]
     | None => []
     end
  ++ match tr_info tr with Some l => l | None => [] end
  ++ [ bs ">>" ++ [NL]; bs "startxref" ++ [NL]; fmt_d xrefoffset; [NL] ++ bs "%%EOF" ++ [NL] ].

(** ** The writer side: any io.Writer as a state machine. *)
Section Writer.
  Variable W : Type.
  Variable wr : W -> bytes -> W * (Z * bool).      (* Write(b) = (n, err) *)

  (** gopdf.go:1068-1083 countingWriter: [offset] adds up the [n]s returned by the inner writer. *)
  Definition cw_write (s : Z * W) (b : bytes) : (Z * W) * (Z * bool) :=
    let '(off, w) := s in
    let '(w', (n, e)) := wr w b in
    ((off + n, w'), (n, e)).

  Fixpoint run (p : wprog) (s : Z * W) : Z * W :=
    match p with
    | WDone => s
    | WWrite b k => let '(s', (n, e)) := cw_write s b in run (k n e) s'
    end.

  (** gopdf.go:1055-1063: the loop over pdfObjs; [id] is objID; returns the recorded linelens. *)
  Fixpoint run_objs (objs : list (Z -> wprog)) (id : Z) (s : Z * W) : list Z * (Z * W) :=
    match objs with
    | [] => ([], s)
    | o :: r =>
        let off := fst s in
        let s1 := run (chunks [fmt_d id ++ bs " 0 obj" ++ [NL]]) s in
        let s2 := run (o id) s1 in
        let s3 := run (chunks [bs "endobj" ++ [NL; NL]]) s2 in
        let '(offs, s4) := run_objs r (id + 1) s3 in
        (off :: offs, s4)
    end.

  (** gopdf.go:1043-1066 compilePdf after prepare(): returns (n, err) and the final writer. The error
      is always nil: no Write result is examined. *)
  Definition compilePdf (objs : list (Z -> wprog)) (tr : trailer) (w : W) : W * (Z * bool) :=
    let s0 := run (chunks [header]) (0, w) in
    let '(offs, s1) := run_objs objs 1 s0 in
    let '(off, w') := run (chunks (xref_chunks tr (fst s1) offs (zlen objs))) s1 in
    (w', (off, false)).
End Writer.

(** The writer that keeps everything it is given (bytes.Buffer). *)
Definition keep_all (log b : bytes) : bytes * (Z * bool) := (log ++ b, (zlen b, false)).

(** The bytes of a document: what a bytes.Buffer receives (gopdf.go:1086-1094). *)
Definition compile_bytes (objs : list (Z -> wprog)) (tr : trailer) : bytes :=
  fst (compilePdf bytes keep_all objs tr []).

(** ** io.Reader side: gopdf.go:1028-1041. *)
(** bytes.Buffer as far as Read/Len/Cap go: the unread bytes and whether memory has been allocated
    (Cap() <> 0).  Simplification: Cap is only compared with 0 in the code. *)
Record buffer := { bf_data : bytes; bf_alloc : bool }.
Definition buffer_zero : buffer := {| bf_data := []; bf_alloc := false |}.   (* bytes.Buffer{} *)

(** bytes.Buffer.Read(p) with len p = n: (data, eof). Empty buffer: EOF unless len p = 0. A drained
    buffer keeps its memory (Reset keeps cap). *)
Definition buffer_read (b : buffer) (n : nat) : buffer * (bytes * bool) :=
  match bf_data b with
  | [] => (b, ([], negb (Nat.eqb n 0)))
  | _ => ({| bf_data := skipn n (bf_data b); bf_alloc := bf_alloc b |}, (firstn n (bf_data b), false))
  end.

(** GoPdf.Read, gopdf.go:1028-1035. [doc] is what compilePdf writes for the current document (the
    document itself is not changed here; its own changes by prepare are modelled in DocModel). *)
Definition gp_read (doc : bytes) (b : buffer) (n : nat) : buffer * (bytes * bool) :=
  let b := match bf_data b, bf_alloc b with
           | [], false => {| bf_data := doc; bf_alloc := true |}
           | _, _ => b
           end in
  buffer_read b n.

(** GoPdf.Close, gopdf.go:1038-1041. *)
Definition gp_close (_ : buffer) : buffer := buffer_zero.
