(** PropFile.v — properties C01, C02, C03, C08 (file layout, writers, readers).
    The specification vocabulary (reader, writer contract, observation of a writer) is FileSpec.v. *)
From Verif Require Import Base FileModel FileSpec FileProofs.

(** Bodies of the objects, as each object writes itself when the writer accepts everything. *)
Definition doc_bodies (objs : list (Z -> wprog)) : list bytes :=
  map (fun '(k, o) => prog_bytes (o k))
      (combine (map (fun n => Z.of_nat n + 1) (seq 0 (List.length objs))) objs).

(** C01: a reader following startxref and the cross-reference table finds every object. *)
Theorem C01_xref_locates_every_object :
  forall (objs : list (Z -> wprog)) (tr : trailer),
    zlen (compile_bytes objs tr) < 10 ^ 10 ->
    well_formed_file (compile_bytes objs tr) (doc_bodies objs).
Proof. exact file_well_formed. Qed.
Print Assumptions C01_xref_locates_every_object.

(** A document of two objects, one containing misleading text, with /Encrypt and /Info. *)
Definition demo_objs : list (Z -> wprog) :=
  [ fun _ => chunks [bs "<</Type/Catalog>>"; [NL]];
    fun id => chunks_stop [bs "endobj xref 0 "; fmt_d id; [NL]] ].
Definition demo_tr := {| tr_encrypt := Some 2; tr_info := Some [bs "/Info <<"; bs " >>"] |}.
Example C01_example : zlen (compile_bytes demo_objs demo_tr) < 10 ^ 10 /\ List.length (doc_bodies demo_objs) = 2%nat.
Proof. split; vm_compute; reflexivity. Qed.

(** C02: the count WriteTo returns is the number of bytes the destination accepted … *)
Theorem C02_count_is_bytes_accepted :
  forall (W : Type) (wr : W -> bytes -> W * (Z * bool)) objs tr w,
    writer_ok wr ->
    let '((_, (accepted, _)), (n, _)) := compilePdf _ (observed wr) objs tr (w, ([], false)) in
    n = zlen accepted.
Proof. exact (fun W wr objs tr w H => compile_counts wr H objs tr w). Qed.
Print Assumptions C02_count_is_bytes_accepted.

(** … and a destination that never fails receives the whole document. *)
Theorem C02_complete_when_writer_never_fails :
  forall (W : Type) (wr : W -> bytes -> W * (Z * bool)) objs tr w,
    writer_ok wr -> (forall w b, snd (snd (wr w b)) = false) ->
    let '((_, (accepted, _)), (n, err)) := compilePdf _ (observed wr) objs tr (w, ([], false)) in
    accepted = compile_bytes objs tr /\ n = zlen (compile_bytes objs tr) /\ err = false.
Proof. exact (fun W wr objs tr w => compile_complete wr objs tr w). Qed.
Print Assumptions C02_complete_when_writer_never_fails.

(** A disk with [room] bytes left. *)
Definition disk (room : Z) (b : bytes) : Z * (Z * bool) :=
  if zlen b <=? room then (room - zlen b, (zlen b, false)) else (0, (room, true)).
Definition disk_pos (room : Z) (b : bytes) : Z * (Z * bool) := disk (Z.max 0 room) b.
Example C02_example_writer : writer_ok disk_pos /\ writer_ok keep_all.
Proof.
  split.
  - intros w b. unfold disk_pos, disk. pose proof (zlen_nonneg b).
    destruct (Z.leb_spec (zlen b) (Z.max 0 w)); split; try lia; intros; lia.
  - intros w b. unfold keep_all. pose proof (zlen_nonneg b). split; lia.
Qed.
Example C02_example_short_write :
  let '((_, (accepted, failed)), (n, _)) := compilePdf _ (observed disk_pos) demo_objs demo_tr (40, ([], false)) in
  n = 40 /\ zlen accepted = 40 /\ failed = true.
Proof. vm_compute. repeat split; reflexivity. Qed.

(** C03 (refuted): there is a document and a writer honouring the io.Writer contract whose Write
    fails, the file is truncated, and WriteTo returns err == nil. *)
Theorem C03_write_failure_unreported_refuted :
  exists (W : Type) (wr : W -> bytes -> W * (Z * bool)) (objs : list (Z -> wprog)) tr w,
    writer_ok wr /\
    let '((_, (accepted, failed)), (n, err)) := compilePdf _ (observed wr) objs tr (w, ([], false)) in
    failed = true /\ zlen accepted < zlen (compile_bytes objs tr) /\ err = false.
Proof.
  exists Z, disk_pos, demo_objs, demo_tr, 40. split; [apply C02_example_writer|].
  vm_compute. repeat split; reflexivity.
Qed.
Print Assumptions C03_write_failure_unreported_refuted.

(** In fact no writer failure whatsoever is ever reported. *)
Theorem C03_compile_never_reports_errors :
  forall (W : Type) (wr : W -> bytes -> W * (Z * bool)) objs tr w,
    snd (snd (compilePdf W wr objs tr w)) = false.
Proof. exact compile_never_errs. Qed.
Print Assumptions C03_compile_never_reports_errors.

(** C08: reading through io.Reader.  From a freshly closed document, whatever the buffer sizes, the
    delivered pieces concatenate to the document's prefix of the total requested length (so once
    enough was requested, to the whole document), Read reports EOF only for a non-empty buffer when
    nothing is left, and after everything was delivered every further Read is (0, EOF). *)
Theorem C08_reads_deliver_document :
  forall (doc : bytes) (sizes : list nat), doc <> [] -> sizes <> [] ->
    let '(b, outs) := reads doc buffer_zero sizes in
    List.concat (map fst outs) = firstn (list_sum sizes) doc /\
    Forall2 (fun n (o : bytes * bool) => snd o = true -> fst o = [] /\ n <> 0%nat) sizes outs /\
    ((List.length doc <= list_sum sizes)%nat ->
       forall more, let '(_, outs') := reads doc b more in
         Forall2 (fun n o => o = ([], negb (Nat.eqb n 0))) more outs') /\
    gp_close b = buffer_zero.
Proof.
  intros doc sizes Hd Hs.
  destruct sizes as [|n r]; [congruence|].
  set (b0 := {| bf_data := doc; bf_alloc := true |}).
  assert (E : reads doc buffer_zero (n :: r) = reads doc b0 (n :: r)).
  { cbn [reads]. rewrite (gp_read_alloc doc b0) by reflexivity. reflexivity. }
  rewrite E. pose proof (reads_alloc doc (n :: r) b0 eq_refl) as A.
  pose proof (reads_eof doc (n :: r) b0 eq_refl) as F.
  destruct (reads doc b0 (n :: r)) as [b outs]. destruct A as (A1 & A2 & A3). cbn [bf_data b0] in A2, A3.
  split; [exact A2|]. split; [exact F|]. split; [|reflexivity].
  intros HL more.
  assert (D : bf_data b = []) by (rewrite A3; apply skipn_all2; exact HL).
  clear - A1 D. induction more as [|m more IH]; [constructor|].
  cbn [reads]. rewrite gp_read_alloc by assumption.
  assert (R : buffer_read b m = (b, ([], negb (Nat.eqb m 0)))) by (unfold buffer_read; now rewrite D).
  rewrite R. destruct (reads doc b more) as [b2 os]. constructor; [reflexivity|exact IH].
Qed.
Print Assumptions C08_reads_deliver_document.

Example C08_example :
  snd (reads (bs "hello") buffer_zero [2; 0; 2; 7; 4; 0]%nat)
  = [(bs "he", false); ([], false); (bs "ll", false); (bs "o", false); ([], true); ([], false)].
Proof. reflexivity. Qed.
