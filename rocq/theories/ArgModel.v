(** ArgModel.v — the memory of the calling program as far as gopdf reads, keeps or changes it (C70).
    Slices and structs handed over by pointer live in the caller's memory; an array element or struct is named by its address.
    Typed memories: float64 slice elements, Point slice elements, CropOptions, MaskOptions (Go's types keep them apart).
    Not modelled: Transparency passed by pointer (C35), byte slices and readers of images and fonts (C66, C53); all other
    arguments are passed by value or copied at once (rect.go:21-34, box.go:8-25 build a new Rect or Box). *)
From Verif Require Import Base NumModel UnitModel.
Open Scope Z_scope.

Section Args.
  Variable N : num.
  Notation T := (T N).
  (** gopdf.go:125-149: of a MaskOptions, the fields of its ImageOptions that are converted or appended to. *)
  Record maskopt := { mk_x : T; mk_y : T; mk_rect : option (T * T); mk_gs : list Z }.
  Record heap := { h_num : nat -> T; h_pt : nat -> T * T; h_crop : nat -> T * T * T * T; h_mask : nat -> maskopt }.
  Definition set {A} (f : nat -> A) (a : nat) (v : A) : nat -> A := fun b => if Nat.eqb b a then v else f b.
  Definition set_num (h : heap) (a : nat) (v : T) := {| h_num := set (h_num h) a v; h_pt := h_pt h; h_crop := h_crop h; h_mask := h_mask h |}.
  Definition set_pt (h : heap) (a : nat) (v : T * T) := {| h_num := h_num h; h_pt := set (h_pt h) a v; h_crop := h_crop h; h_mask := h_mask h |}.
  Definition set_crop (h : heap) (a : nat) (v : T * T * T * T) := {| h_num := h_num h; h_pt := h_pt h; h_crop := set (h_crop h) a v; h_mask := h_mask h |}.
  Definition set_mask (h : heap) (a : nat) (v : maskopt) := {| h_num := h_num h; h_pt := h_pt h; h_crop := h_crop h; h_mask := set (h_mask h) a v |}.

  (** What the program does: assign to its own variables, or call gopdf. *)
  Inductive act :=
  | PutNum (a : nat) (v : T) | PutPt (a : nat) (v : T * T) | PutCrop (a : nat) (v : T * T * T * T) | PutMask (a : nat) (v : maskopt)
  | SetCustomLineType (dash : list nat) (phase : T)                        (* gopdf.go:207-213 *)
  | Polygon (pts : list nat) (style : bytes)                               (* gopdf.go:1993-2013 *)
  | ClipPolygon (pts : list nat)                                           (* gopdf.go:2016-2025 *)
  (** gopdf.go:502-537 ImageByHolderWithOptions with Rect given by value, X, Y, a crop and a mask by pointer;
      [tr]: the ExtGState index the mask's own transparency leads to, if it has one. *)
  | Image (x y w h : T) (crop : option nat) (mask : option (nat * option Z)).

  (** What is kept until the document is written: content_obj.go:314-320 (the slice itself), 383-430 (own copies; the crop by
      pointer), transparency_xobject_group.go / gopdf.go:607-645 (the mask's values, copied). *)
  Inductive kept :=
  | KDash (dash : list nat) (phase : T)
  | KPoly (pts : list (T * T)) (style : bytes)
  | KClip (pts : list (T * T))
  | KImage (x y w h : T) (crop : option nat) (mask : option maskopt).
  (** What appears on the page. *)
  Inductive item :=
  | IDash (dash : list T) (phase : T)
  | IPoly (pts : list (T * T)) (style : bytes)
  | IClip (pts : list (T * T))
  | IImage (x y w h : T) (crop : option (T * T * T * T)) (mask : option maskopt).

  Variable cfg : ucfg N.
  Definition pts_of (u : T) : T := unitsToPoints N cfg u.                  (* gopdf.go:2199-2206 *)
  Definition pair_of (p : T * T) : T * T := (pts_of (fst p), pts_of (snd p)).
  (** rect.go:37-50: Rect.UnitsToPoints(gp.config.Unit), a new Rect; the custom factor is not used. *)
  Definition rect_of (r : T * T) : T * T :=
    (unitsToPoints N (defcfg N (u_unit cfg)) (fst r), unitsToPoints N (defcfg N (u_unit cfg)) (snd r)).
  (** gopdf.go:516-527: the mask options after the call; the same values go into the document (maskHolder takes a copy). *)
  Definition mask_conv (m : maskopt) (tr : option Z) : maskopt :=
    {| mk_x := pts_of (mk_x m); mk_y := pts_of (mk_y m); mk_rect := option_map rect_of (mk_rect m);
       mk_gs := mk_gs m ++ match tr with Some i => [i] | None => [] end |}.
  (** gopdf.go:208-210: for i := range dashArray { gp.UnitsToPointsVar(&dashArray[i]) } *)
  Definition conv_dash (h : heap) (dash : list nat) : heap := fold_left (fun h a => set_num h a (pts_of (h_num h a))) dash h.

  Definition perform (s : heap * list kept) (c : act) : heap * list kept :=
    let '(h, d) := s in
    match c with
    | PutNum a v => (set_num h a v, d)
    | PutPt a v => (set_pt h a v, d)
    | PutCrop a v => (set_crop h a v, d)
    | PutMask a v => (set_mask h a v, d)
    | SetCustomLineType dash phase => (conv_dash h dash, d ++ [KDash dash (pts_of phase)])
    | Polygon pts style => (h, d ++ [KPoly (map (fun a => pair_of (h_pt h a)) pts) style])
    | ClipPolygon pts => (h, d ++ [KClip (map (fun a => pair_of (h_pt h a)) pts)])
    | Image x y w hh crop mask =>
        let r := rect_of (w, hh) in
        match mask with
        | None => (h, d ++ [KImage (pts_of x) (pts_of y) (fst r) (snd r) crop None])
        | Some (a, tr) =>
            let m := mask_conv (h_mask h a) tr in
            (set_mask h a m, d ++ [KImage (pts_of x) (pts_of y) (fst r) (snd r) crop (Some m)])
        end
    end.
  Definition perform_all (l : list act) (h : heap) : heap * list kept := fold_left perform l (h, []).
  (** Writing: cache_content_custom_line_type.go:13-16 and cache_content_image.go:26-125 read the slice and the crop now. *)
  Definition write_one (h : heap) (k : kept) : item :=
    match k with
    | KDash dash phase => IDash (map (h_num h) dash) phase
    | KPoly pts style => IPoly pts style
    | KClip pts => IClip pts
    | KImage x y w hh crop mask => IImage x y w hh (option_map (h_crop h) crop) mask
    end.
  Definition written (l : list act) (h : heap) : list item := let '(h', d) := perform_all l h in map (write_one h') d.
End Args.
