(** OutlineModel.v — outlines_obj.go: OutlineObj, AddOutlinesWithPosition, OutlineNodes.Parse, OutlineNode.Parse.
    Modelled: the objects behind the pointers (a heap from pointer to fields), the calls in source order, the dictionary
    entries written. Simplified: a forest is a finite tree without nil nodes or nil Obj (either panics in Go; a cyclic tree
    does not terminate); titles, destinations and heights are kept by the calls but not looked at. *)
From Verif Require Import Base.

(** outlines_obj.go:83-93 OutlineObj (the linking fields). *)
Record outl := { ol_index : Z; ol_parent : Z; ol_prev : Z; ol_next : Z; ol_first : Z; ol_last : Z }.
Definition heap := nat -> outl.                     (* the objects behind the *OutlineObj pointers *)
Definition set (h : heap) (o : nat) (v : outl) : heap := fun x => if Nat.eqb x o then v else h x.
(** outlines_obj.go:98-116 SetFirst, SetLast, SetPrev, SetNext, SetParent. *)
Definition setFirst o v (h : heap) := set h o {| ol_index := ol_index (h o); ol_parent := ol_parent (h o); ol_prev := ol_prev (h o); ol_next := ol_next (h o); ol_first := v; ol_last := ol_last (h o) |}.
Definition setLast o v (h : heap) := set h o {| ol_index := ol_index (h o); ol_parent := ol_parent (h o); ol_prev := ol_prev (h o); ol_next := ol_next (h o); ol_first := ol_first (h o); ol_last := v |}.
Definition setPrev o v (h : heap) := set h o {| ol_index := ol_index (h o); ol_parent := ol_parent (h o); ol_prev := v; ol_next := ol_next (h o); ol_first := ol_first (h o); ol_last := ol_last (h o) |}.
Definition setNext o v (h : heap) := set h o {| ol_index := ol_index (h o); ol_parent := ol_parent (h o); ol_prev := ol_prev (h o); ol_next := v; ol_first := ol_first (h o); ol_last := ol_last (h o) |}.
Definition setParent o v (h : heap) := set h o {| ol_index := ol_index (h o); ol_parent := v; ol_prev := ol_prev (h o); ol_next := ol_next (h o); ol_first := ol_first (h o); ol_last := ol_last (h o) |}.
(** outlines_obj.go:118-120 GetIndex. *)
Definition getIndex (h : heap) (o : nat) : Z := ol_index (h o).

(** outlines_obj.go:169-172 OutlineNode. *)
Inductive node := Node (obj : nat) (children : list node).
Definition nobj (n : node) := match n with Node o _ => o end.
Definition nkids (n : node) := match n with Node _ c => c end.

(** outlines_obj.go:197-220 OutlineNode.Parse: the loop over the children; [prev] is obj.Children[i-1] (None when i = 0),
    [r] the children after i (empty when i = len-1). *)
Definition child_step (po : nat) (prev : option node) (c : node) (r : list node) (h : heap) : heap :=
  let h := match prev with None => setPrev (nobj c) (-1) (setFirst po (getIndex h (nobj c)) h) | Some _ => h end in
  let h := match r with [] => setNext (nobj c) (-1) (setLast po (getIndex h (nobj c)) h) | _ => h end in
  let h := match prev with Some p => setPrev (nobj c) (getIndex h (nobj p)) h | None => h end in
  let h := match r with n :: _ => setNext (nobj c) (getIndex h (nobj n)) h | [] => h end in
  setParent (nobj c) (getIndex h po) h.
Definition kids (np : node -> heap -> heap) (po : nat) :=
  fix go (prev : option node) (l : list node) (h : heap) : heap :=
    match l with [] => h | c :: r => go (Some c) r (np c (child_step po prev c r h)) end.
Fixpoint node_parse (n : node) (h : heap) : heap :=
  match n with Node o ch => kids node_parse o None ch h end.

(** outlines_obj.go:178-194 OutlineNodes.Parse. Note line 183: SetNext, not SetPrev. *)
Definition top_step (prev : option node) (c : node) (r : list node) (h : heap) : heap :=
  let h := match prev with None => setPrev (nobj c) (-1) h | Some p => setNext (nobj c) (getIndex h (nobj p)) h end in
  match r with [] => setNext (nobj c) (-1) h | n :: _ => setNext (nobj c) (getIndex h (nobj n)) h end.
Fixpoint tops (prev : option node) (l : list node) (h : heap) : heap :=
  match l with [] => h | c :: r => tops (Some c) r (node_parse c (top_step prev c r h)) end.
Definition forest_parse (f : list node) (h : heap) : heap := tops None f h.

(** outlines_obj.go:10-18, 21-25 OutlinesObj and init; os_index is set by SetIndexObjOutlines (gopdf.go:903). *)
Record outlines := { os_index : Z; os_first : Z; os_last : Z; os_count : Z; os_lastobj : option nat; os_new : nat; os_heap : heap }.
Definition blank : outl := {| ol_index := 0; ol_parent := 0; ol_prev := 0; ol_next := 0; ol_first := 0; ol_last := 0 |}.
Definition init_outlines (index : Z) : outlines :=
  {| os_index := index; os_first := -1; os_last := -1; os_count := 0; os_lastobj := None; os_new := 0; os_heap := fun _ => blank |}.
(** outlines_obj.go:65-78 AddOutlinesWithPosition; [num] is addObj(oo)+1, the new object's number; the returned pointer
    is [os_new] before the call. *)
Definition addWithPosition (num : Z) (s : outlines) : outlines :=
  let oo := os_new s in
  let h := set (os_heap s) oo {| ol_index := num; ol_parent := os_index s; ol_prev := os_last s; ol_next := -1; ol_first := 0; ol_last := 0 |} in
  let h := match os_lastobj s with Some p => setNext p num h | None => h end in
  {| os_index := os_index s; os_first := if os_first s <=? 0 then num else os_first s; os_last := num; os_count := os_count s + 1;
     os_lastobj := Some oo; os_new := S oo; os_heap := h |}.

(** outlines_obj.go:142-166 write: the linking entries of the dictionary written. *)
Record entries := { e_parent : Z; e_prev : option Z; e_next : option Z; e_first : option Z; e_last : option Z }.
Definition written (o : outl) : entries :=
  {| e_parent := ol_parent o;
     e_prev := if 0 <=? ol_prev o then Some (ol_prev o) else None;
     e_next := if 0 <=? ol_next o then Some (ol_next o) else None;
     e_first := if 0 <? ol_first o then Some (ol_first o) else None;
     e_last := if 0 <? ol_last o then Some (ol_last o) else None |}.
(** outlines_obj.go:31-50: the outline dictionary's own entries. *)
Definition written_root (s : outlines) : option Z * option Z :=
  (if 0 <=? os_first s then Some (os_first s) else None, if 0 <=? os_last s then Some (os_last s) else None).
