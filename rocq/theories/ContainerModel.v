(** ContainerModel.v — font_container.go (all of it), and the part of a document that a shared font touches:
    AddTTFFontFromFontContainer, AddTTFFontDataWithOption (gopdf.go:1740-1756), AddChars (subset_font_obj.go:137-166), KernOverride
    (gopdf.go:1847-1864).
    A SubsetFontObj is a struct that is copied (into the container, 52, 70; out of it, 79); its field CharacterToGlyphIndex is a
    pointer, so copies share the map it points to. The maps live in a heap. The other shared parts of the struct (the parsed font,
    the option) are never written after parsing (every assignment to a field of TTFParser is in a Parse… function); the buffer
    addCharsBuff is nil in the container and rebuilt from length 0 by every AddChars, and is not modelled.
    Operations of different goroutines are interleaved as a whole: sync.Map makes Store and Load atomic, and every other operation
    touches only the objects of its document, as the theorem shows. The result of parsing is an argument. *)
From Verif Require Import Base TtfModel SubsetModel.
Open Scope Z_scope.

(** subset_font_obj.go:18-29 *)
Record fobj := { o_ttf : ttf; o_subst : Z -> Z; o_kern : option (Z -> Z -> Z -> Z -> Z -> Z); o_map : option Z }.
Record world := { w_heap : Z -> charmap; w_next : Z; w_cont : list (bytes * fobj); w_docs : Z -> list (bytes * fobj) }.
Definition empty_world : world := {| w_heap := fun _ => []; w_next := 0; w_cont := []; w_docs := fun _ => [] |}.

Inductive cop :=
| ContainerAdd (family : bytes) (parsed : option ttf) (subst : Z -> Z)     (* AddTTFFont… on the container *)
| AddFromContainer (d : Z) (family : bytes)
| AddFont (d : Z) (family : bytes) (parsed : option ttf) (subst : Z -> Z)  (* AddTTFFont… on the document *)
| Chars (d : Z) (k : nat) (txt : list Z)                                   (* text drawn with the k-th font of the document *)
| Kern (d : Z) (family : bytes) (fn : Z -> Z -> Z -> Z -> Z -> Z).
Inductive cres := COk | CText (t : list Z) | CErrParse | CErrFontNotFound | CErrMissingFamily | CPanic.

Definition load (family : bytes) (l : list (bytes * fobj)) : option fobj := option_map snd (find (fun e => list_eqb (fst e) family) l).
(** sync.Map.Store *)
Definition store (family : bytes) (o : fobj) (l : list (bytes * fobj)) : list (bytes * fobj) :=
  (family, o) :: filter (fun e => negb (list_eqb (fst e) family)) l.
Definition set_docs (w : world) (d : Z) (l : list (bytes * fobj)) : world :=
  {| w_heap := w_heap w; w_next := w_next w; w_cont := w_cont w; w_docs := fun x => if x =? d then l else w_docs w x |}.
(** subset_font_obj.go:31-36 init: a new map, no override; gopdf.go:1779-1825: the object is added to the document *)
Definition init_add (w : world) (d : Z) (family : bytes) (o : fobj) : world :=
  let p := w_next w in
  set_docs {| w_heap := fun x => if x =? p then [] else w_heap w x; w_next := p + 1; w_cont := w_cont w; w_docs := w_docs w |} d
    (w_docs w d ++ [(family, {| o_ttf := o_ttf o; o_subst := o_subst o; o_kern := None; o_map := Some p |})]).
Fixpoint set_kern (family : bytes) (fn : Z -> Z -> Z -> Z -> Z -> Z) (l : list (bytes * fobj)) : option (list (bytes * fobj)) :=
  match l with
  | [] => None
  | (n, o) :: r => if list_eqb n family then Some ((n, {| o_ttf := o_ttf o; o_subst := o_subst o; o_kern := Some fn; o_map := o_map o |}) :: r)
                   else option_map (cons (n, o)) (set_kern family fn r)
  end.
Definition cstep (w : world) (o : cop) : world * cres :=
  match o with
  | ContainerAdd family parsed subst =>                                      (* font_container.go:43-53, 61-71 *)
      match parsed with
      | None => (w, CErrParse)
      | Some f => ({| w_heap := w_heap w; w_next := w_next w;
                      w_cont := store family {| o_ttf := f; o_subst := subst; o_kern := None; o_map := None |} (w_cont w); w_docs := w_docs w |}, COk)
      end
  | AddFromContainer d family =>                                             (* font_container.go:74-84 *)
      match load family (w_cont w) with
      | None => (w, CErrFontNotFound)
      | Some o => (init_add w d family o, COk)
      end
  | AddFont d family parsed subst =>                                         (* gopdf.go:1740-1756 *)
      match parsed with
      | None => (w, CErrParse)
      | Some f => (init_add w d family {| o_ttf := f; o_subst := subst; o_kern := None; o_map := None |}, COk)
      end
  | Chars d k txt =>
      match nth_error (w_docs w d) k with
      | None => (w, CPanic)                                                  (* no such font *)
      | Some (_, o) =>
          match o_map o with
          | None => (w, CPanic)                                              (* nil map pointer *)
          | Some p =>
              match addChars (charToGlyph (o_ttf o)) (o_subst o) (w_heap w p) txt with
              | None => (w, CPanic)
              | Some (t, m) => ({| w_heap := fun x => if x =? p then m else w_heap w x; w_next := w_next w; w_cont := w_cont w; w_docs := w_docs w |}, CText t)
              end
          end
      end
  | Kern d family fn =>
      match set_kern family fn (w_docs w d) with
      | None => (w, CErrMissingFamily)
      | Some l => (set_docs w d l, COk)
      end
  end.
Fixpoint crun (w : world) (l : list cop) : world * list cres :=
  match l with
  | [] => (w, [])
  | o :: r => let '(w1, x) := cstep w o in let '(w2, xs) := crun w1 r in (w2, x :: xs)
  end.
