(** PoolModel.v — several documents written at the same time: the write methods that borrow a buffer from the one pool all
    documents share (buffer_pool.go:9-25), instruction by instruction, under any schedule.  Everything else a write method
    looks at belongs to its own document (see C53 for fonts shared through a container). *)
From Verif Require Import Base FileModel StrModel Crypto SecModel StreamModel.

(** One step of a write method; "the buffer" is the one borrowed last. *)
Inductive instr :=
| Get                             (* GetBuffer: buffer_pool.go:17-19 *)
| Buf (b : bytes)                 (* buff.Write(b) *)
| Say (b : bytes)                 (* w.Write(b) *)
| Tell (f : bytes -> bytes)       (* w.Write of something computed from buff.Bytes() or buff.Len() *)
| Drain                           (* buff.WriteTo(w): bytes.Buffer.WriteTo writes everything and empties the buffer *)
| Reset                           (* PutBuffer, 23 *)
| Return.                         (* PutBuffer, 24 *)
Definition put : list instr := [Reset; Return].    (* buffer_pool.go:22-25; deferred, so also run when a method gives up *)

(** The write methods.  [chunks]: the pieces in which the data arrive at the buffer (one Write per cache entry, or as the
    compressor pleases). *)
Record job := { j_pr : option protection; j_no : Z; j_obj : sobj; j_chunks : list bytes }.
Definition ln (b : bytes) : bytes := bs "/Length " ++ fmt_d (zlen b) ++ [NL].
Definition method (zl : bytes -> bytes) (j : job) : list instr :=
  let pr := j_pr j in let n := j_no j in
  match j_obj j with
  | SContent c _ =>                                                  (* content_obj.go:25-95 *)
      [Get] ++ map Buf (j_chunks j) ++ [Say (bs "<<" ++ [NL])] ++ (if c then [Say (bs "/Filter/FlateDecode")] else [])
      ++ [Tell ln; Say (bs ">>" ++ [NL]); Say (bs "stream" ++ [NL])]
      ++ (match pr with Some _ => [Tell (enc pr n); Say [NL]] | None => [Drain] ++ if c then [Say [NL]] else [] end)
      ++ [Say (bs "endstream" ++ [NL])] ++ put
  | SFontFile f =>                                                   (* pdf_dictionary_obj.go:51-80 *)
      [Get] ++ map Buf (j_chunks j)
      ++ [Tell (fun b => bs "<</Length " ++ fmt_d (zlen b) ++ [NL]); Say (bs "/Filter /FlateDecode" ++ [NL]);
          Say (bs "/Length1 " ++ fmt_d (zlen f) ++ [NL]); Say (bs ">>" ++ [NL]); Say (bs "stream" ++ [NL])]
      ++ (match pr with Some _ => [Tell (enc pr n)] | None => [Tell (fun b => b)] end)
      ++ [Say ([NL] ++ bs "endstream" ++ [NL])] ++ put
  | SGroup (b0, b1, b2, b3) _ =>                                     (* transparency_xobject_group.go:57-93 *)
      [Get] ++ map Buf (j_chunks j)
      ++ [Tell (fun b =>
            bs "<<" ++ [NL; TAB] ++ bs "/FormType 1" ++ [NL; TAB] ++ bs "/Subtype /Form" ++ [NL; TAB]
            ++ bs "/Type /XObject" ++ [NL; TAB] ++ bs "/Matrix [1 0 0 1 0 0]" ++ [NL; TAB]
            ++ bs "/BBox [" ++ b0 ++ bs " " ++ b1 ++ bs " " ++ b2 ++ bs " " ++ b3 ++ bs "]" ++ [NL; TAB]
            ++ bs "/Group<</CS /DeviceGray /S /Transparency>>" ++ [NL; TAB]
            ++ bs "/Length " ++ fmt_d (zlen b) ++ [NL] ++ bs ">>" ++ [NL] ++ bs "stream" ++ [NL]);
          Tell (fun b => b); Say (bs "endstream" ++ [NL])] ++ put
  | SUnicode _ =>                                                    (* unicode_map.go:65-100 *)
      [Get] ++ map Buf (j_chunks j) ++ [Say (bs "<<" ++ [NL]); Tell ln; Say (bs ">>" ++ [NL]); Say (bs "stream" ++ [NL])]
      ++ (match pr with Some _ => [Tell (enc pr n)] | None => [Drain] end) ++ [Say (bs "endstream" ++ [NL])] ++ put
  | _ => [Say (sbody zl pr n (j_obj j))]                             (* the methods that borrow nothing *)
  end.

(** A goroutine: what it still has to do, the buffers it has borrowed (last first), what its destination got, and whether a
    method gave up (its destination failed). *)
Record thread := { t_prog : list instr; t_hold : list nat; t_out : bytes; t_failed : bool }.
(** The process: the contents of all buffers ever made, how many there are, the pool (sync.Pool: in any order), the threads. *)
Record sys := { y_mem : nat -> bytes; y_made : nat; y_pool : list nat; y_thr : nat -> thread }.
Definition setm {A} (f : nat -> A) (i : nat) (v : A) : nat -> A := fun j => if Nat.eqb j i then v else f j.
Fixpoint remove_at {A} (k : nat) (l : list A) : list A :=
  match l, k with [], _ => [] | _ :: r, O => r | x :: r, S k => x :: remove_at k r end.

(** What can happen next: thread [i] makes a step, Get receiving the [k]-th pooled buffer if there is one, else a new one
    (sync.Pool.Get may return any item, or call New); the collector drops a pooled buffer; thread [i]'s destination fails and
    the method returns, running the deferred PutBuffer. *)
Inductive event := Run (i k : nat) | Collect (k : nat) | Give_up (i : nat).
Fixpoint unwind (p : list instr) : list instr := match p with [] => [] | Reset :: _ | Return :: _ => p | _ :: p => unwind p end.
Definition ystep (y : sys) (e : event) : sys :=
  match e with
  | Collect k => {| y_mem := y_mem y; y_made := y_made y; y_pool := remove_at k (y_pool y); y_thr := y_thr y |}
  | Give_up i =>
      let t := y_thr y i in
      let t' := match t_hold t with
                | [] => {| t_prog := match t_prog t with Say _ :: p => p | p => p end; t_hold := []; t_out := t_out t; t_failed := true |}
                | _ => {| t_prog := unwind (t_prog t); t_hold := t_hold t; t_out := t_out t; t_failed := true |}
                end in
      {| y_mem := y_mem y; y_made := y_made y; y_pool := y_pool y; y_thr := setm (y_thr y) i t' |}
  | Run i k =>
      let t := y_thr y i in
      match t_prog t with
      | [] => y
      | c :: p =>
          let next hold out := {| t_prog := p; t_hold := hold; t_out := out; t_failed := t_failed t |} in
          let own mem t' := {| y_mem := mem; y_made := y_made y; y_pool := y_pool y; y_thr := setm (y_thr y) i t' |} in
          match c with
          | Say b => own (y_mem y) (next (t_hold t) (t_out t ++ b))
          | Get => match nth_error (y_pool y) k with
                   | Some b => {| y_mem := y_mem y; y_made := y_made y; y_pool := remove_at k (y_pool y);
                                  y_thr := setm (y_thr y) i (next (b :: t_hold t) (t_out t)) |}
                   | None => {| y_mem := setm (y_mem y) (y_made y) []; y_made := S (y_made y); y_pool := y_pool y;
                                y_thr := setm (y_thr y) i (next (y_made y :: t_hold t) (t_out t)) |}
                   end
          | _ =>
              match t_hold t with
              | [] => own (y_mem y) (next [] (t_out t))
              | b :: h =>
                  match c with
                  | Buf d => own (setm (y_mem y) b (y_mem y b ++ d)) (next (b :: h) (t_out t))
                  | Tell f => own (y_mem y) (next (b :: h) (t_out t ++ f (y_mem y b)))
                  | Drain => own (setm (y_mem y) b []) (next (b :: h) (t_out t ++ y_mem y b))
                  | Reset => own (setm (y_mem y) b []) (next (b :: h) (t_out t))
                  | _ => {| y_mem := y_mem y; y_made := y_made y; y_pool := b :: y_pool y;
                            y_thr := setm (y_thr y) i (next h (t_out t)) |}                       (* Return *)
                  end
              end
          end
      end
  end.
Definition yrun (y : sys) (l : list event) : sys := fold_left ystep l y.
(** Goroutine [i] writes the objects [docs i], one after the other; nothing pooled yet. *)
Definition fresh_sys (zl : bytes -> bytes) (docs : nat -> list job) : sys :=
  {| y_mem := fun _ => []; y_made := 0; y_pool := [];
     y_thr := fun i => {| t_prog := flat_map (method zl) (docs i); t_hold := []; t_out := []; t_failed := false |} |}.
