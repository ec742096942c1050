(** HolderModel.v — image holders: what a call to an Image function reads, over several documents and a file system that
    may change. image_holder.go:18-81, gopdf.go:650-797, image_obj.go:136-145. *)
From Verif Require Import Base Crypto DocModel.

(** fmt "%x" of a byte: two lower-case digits. *)
Definition lowdigit (x : Z) : Z := if x <? 10 then 48 + x else 87 + x.
Definition hex_low (b : bytes) : bytes := flat_map (fun x => [lowdigit (x / 16); lowdigit (x mod 16)]) b.
Example hex_low_md5 : hex_low (md5 (bs "message digest")) = bs "f96b697d7cb7938d525a2f31aaf161d0".
Proof. vm_compute. reflexivity. Qed.

(** image_holder.go:33-36 imageBuff: the identifier, and what is left in the buffer. *)
Record holder := { h_id : bytes; h_rest : bytes }.
(** image_holder.go:38-48 newImageBuff. *)
Definition newImageBuff (b : bytes) : holder := {| h_id := hex_low (md5 b); h_rest := b |}.
(** image_holder.go:50-59 newImageBuffByPath; [None] is the error of os.ReadFile. *)
Definition newImageBuffByPath (files : bytes -> option bytes) (p : bytes) : option holder :=
  match files p with Some b => Some {| h_id := p; h_rest := b |} | None => None end.
(** io.ReadAll: the chunks a reader hands out up to EOF ([true]) or an error ([false]). *)
Definition readAll (chunks : list bytes) (eof : bool) : option bytes := if eof then Some (List.concat chunks) else None.
(** image_holder.go:61-77 newImageBuffByReader. *)
Definition newImageBuffByReader (chunks : list bytes) (eof : bool) : option holder :=
  match readAll chunks eof with Some b => Some (newImageBuff b) | None => None end.

Section Decode.
(** image_obj_parse.go: what the parser makes of a file (see ImgModel.v); here any function. *)
Variable decode : bytes -> imgdesc.

(** gopdf.go:650-697 imageByHolder on a holder: the buffer is read, to its end (image_obj.go:136-145 SetImage), only when
    the identifier is not cached in this document. The document part is DocModel's [imageByHolder]. *)
Definition drawHolder (h : holder) (s : gp) : gp * holder * result :=
  match lookup (h_id h) (g_imgs s) with
  | Some _ => let '(s', r) := step s (Do (Image (h_id h) (decode []))) in (s', h, r)
  | None => let '(s', r) := step s (Do (Image (h_id h) (decode (h_rest h)))) in (s', {| h_id := h_id h; h_rest := [] |}, r)
  end.

(** The program's world: files, holders in order of creation, documents in order of creation. *)
Record world := { w_files : bytes -> option bytes; w_holders : list holder; w_docs : list gp }.
Inductive wop :=
| SetFile (p : bytes) (b : option bytes)            (* not a gopdf call: somebody writes or removes a file *)
| HolderByBytes (b : bytes)
| HolderByReader (chunks : list bytes) (eof : bool)
| HolderByPath (p : bytes)
| NewDoc (c : config)                                (* Start of a new GoPdf value *)
| ImageByHolder (d h : nat)                          (* ImageByHolder / ImageByHolderWithOptions without mask *)
| ImageFile (d : nat) (p : bytes)                    (* Image: gopdf.go:700-715 *)
| ImageFrom (d : nat) (chunks : list bytes) (eof : bool)   (* ImageFromWithOption: gopdf.go:726-770; what the encoder wrote *)
| InDoc (d : nat) (o : op).                          (* any other call *)
Definition set_file (f : bytes -> option bytes) p b : bytes -> option bytes := fun q => if list_eqb q p then b else f q.
Definition set_nth {A} (l : list A) (i : nat) (x : A) : list A := upd l i (fun _ => x).
Definition add_holder (w : world) (h : option holder) : world * result :=
  match h with
  | Some h => ({| w_files := w_files w; w_holders := w_holders w ++ [h]; w_docs := w_docs w |}, Ok)
  | None => (w, Err)
  end.
(** A holder made inside the call (Image, ImageFrom): nobody else has it. *)
Definition draw_fresh (w : world) (d : nat) (h : option holder) : world * result :=
  match h, nth_error (w_docs w) d with
  | Some h, Some s => let '(s', _, r) := drawHolder h s in ({| w_files := w_files w; w_holders := w_holders w; w_docs := set_nth (w_docs w) d s' |}, r)
  | _, _ => (w, Err)
  end.
Definition wstep (w : world) (o : wop) : world * result :=
  match o with
  | SetFile p b => ({| w_files := set_file (w_files w) p b; w_holders := w_holders w; w_docs := w_docs w |}, Ok)
  | HolderByBytes b => add_holder w (Some (newImageBuff b))
  | HolderByReader c e => add_holder w (newImageBuffByReader c e)
  | HolderByPath p => add_holder w (newImageBuffByPath (w_files w) p)
  | NewDoc c => ({| w_files := w_files w; w_holders := w_holders w; w_docs := w_docs w ++ [start c zero_gp] |}, Ok)
  | ImageByHolder d h =>
      match nth_error (w_docs w) d, nth_error (w_holders w) h with
      | Some s, Some hd => let '(s', hd', r) := drawHolder hd s in
          ({| w_files := w_files w; w_holders := set_nth (w_holders w) h hd'; w_docs := set_nth (w_docs w) d s' |}, r)
      | _, _ => (w, Err)
      end
  | ImageFile d p => draw_fresh w d (newImageBuffByPath (w_files w) p)
  | ImageFrom d c e => draw_fresh w d (newImageBuffByReader c e)
  | InDoc d o =>
      match nth_error (w_docs w) d with
      | Some s => let '(s', r) := step s o in ({| w_files := w_files w; w_holders := w_holders w; w_docs := set_nth (w_docs w) d s' |}, r)
      | None => (w, Err)
      end
  end.
Definition wrun (w : world) (l : list wop) : world := fold_left (fun w o => fst (wstep w o)) l w.
Definition wstart (files : bytes -> option bytes) : world := {| w_files := files; w_holders := []; w_docs := [] |}.
End Decode.
