(** ImgModel.v — the image drawing functions of gopdf.go on top of the drawing calls of DrawModel.v: conversion of
    the options, the natural size, and the image cache that remembers a size.
    Not modelled here: the objects of a mask (DocModel.v has them) and decoding (an image is given by its identifier, its
    number of columns and rows, and the object index a new image object would get). *)
From Verif Require Import Base StrModel NumModel UnitModel DrawModel.

(** image_obj.go:157-187 getRect: (width, height) from the number of pixels. *)
Definition naturalSize (dx dy : Z) : Z * Z :=
  let w0 := Z.quot (- dx * 72) (-128) in
  let h0 := Z.quot (- dy * 72) (-128) in
  let w1 := if w0 =? 0 then Z.quot (h0 * dx) dy else w0 in
  (w1, if h0 =? 0 then Z.quot (w1 * dy) dx else h0).

Section Img.
  Variable N : num.
  Notation T := (T N).
  (** gopdf.go:118-137 ImageOptions without mask; all lengths in units.  q_tr: None when no Transparency is given. *)
  Record iopts := { q_x : T; q_y : T; q_rect : option (rect N); q_crop : option (T * T * T * T); q_angle : T; q_v : bool; q_hf : bool;
                    q_tr : option (option Z) }.
  (** gp.curr.ImgCaches: identifier, object index, size *)
  Definition imgtbl := list (bytes * (Z * (T * T))).
  Definition find_img (id : bytes) (t : imgtbl) : option (Z * (T * T)) :=
    match find (fun e => list_eqb id (fst e)) t with Some e => Some (snd e) | None => None end.
  (** gopdf.go:650-727 imageByHolder: the image in the content, and the cache. [o] has been converted. *)
  Definition place (t : imgtbl) (id : bytes) (dx dy next : Z) (rect : option (T * T)) (mk : T * T -> imgopt N) : call N * imgtbl :=
    match find_img id t with
    | Some (i, r) => (Image N i (mk (match rect with Some r => r | None => r end)), t)
    | None =>
        let r := match rect with Some r => r | None => let '(w, h) := naturalSize dx dy in (nofZ N w, nofZ N h) end in
        (Image N next (mk r), t ++ [(id, (next, r))])
    end.
  Definition size_of (s : ds N) (r : option (rect N)) : option (T * T) := rectPts N s r.       (* rect.go:37-50 *)
  (** gopdf.go:502-538 ImageByHolderWithOptions, no mask. The crop is passed on as it is. *)
  Definition imageWithOptions (s : ds N) (t : imgtbl) (id : bytes) (dx dy next : Z) (o : iopts) : call N * imgtbl :=
    place t id dx dy next (size_of s (q_rect o)) (fun r =>
      {| io_x := u2p N s (q_x o); io_y := u2p N s (q_y o); io_w := fst r; io_h := snd r; io_angle := q_angle o; io_v := q_v o; io_hf := q_hf o;
         io_crop := q_crop o; io_mask := None; io_gs := trOf N s (q_tr o) |}).
  (** gopdf.go:488-500 ImageByHolder, 733-748 Image, 750-797 ImageFrom and ImageFromWithOption: no options, no transparency. *)
  Definition image (s : ds N) (t : imgtbl) (id : bytes) (dx dy next : Z) (x y : T) (r : option (rect N)) : call N * imgtbl :=
    place t id dx dy next (size_of s r) (fun r =>
      {| io_x := u2p N s x; io_y := u2p N s y; io_w := fst r; io_h := snd r; io_angle := nofZ N 0; io_v := false; io_hf := false;
         io_crop := None; io_mask := None; io_gs := [] |}).
  (** ** Masks *)
  Variable rot : T -> T * T.
  (** content_obj.go:382-407 GetCacheContentImage *)
  Definition contentImage (s : ds N) (idx : Z) (o : imgopt N) : cimage N :=
    {| im_mask := match io_mask N o with Some _ => true | None => false end;
       im_maskAngle := match io_mask N o with Some a => a | None => nofZ N 0 end; im_angle := io_angle N o;
       im_vflip := io_v N o; im_hflip := io_hf N o; im_index := idx; im_x := io_x N o; im_y := io_y N o; im_pageH := s_pageH N s;
       im_w := io_w N o; im_h := io_h N o; im_crop := io_crop N o; im_gs := io_gs N o |}.
  (** gopdf.go:515-528, 540-603 maskHolder, and transparency_xobject_group.go:74-80 (the stream): the mask is converted, looked up
      in the image cache and entered there exactly as an image drawn with the same options, but its one drawing is the content of
      the mask's group instead of being added to the page.  The options of a mask are taken to have no mask of their own. *)
  Definition maskGroup (s : ds N) (t : imgtbl) (id : bytes) (dx dy next : Z) (mo : iopts) : bytes * imgtbl :=
    let '(c, t') := imageWithOptions s t id dx dy next mo in
    (match c with Image _ i io => image_write N rot (contentImage s i io) | _ => [] end, t').
  (** gopdf.go:502-538 with a mask, after maskHolder has returned the state number [gs]: the page's part, for a mask with angle [ma]. *)
  Definition imageUnderMask (s : ds N) (t : imgtbl) (id : bytes) (dx dy next : Z) (o : iopts) (ma : T) (gs : Z) : call N * imgtbl :=
    place t id dx dy next (size_of s (q_rect o)) (fun r =>
      {| io_x := u2p N s (q_x o); io_y := u2p N s (q_y o); io_w := fst r; io_h := snd r; io_angle := q_angle o; io_v := q_v o; io_hf := q_hf o;
         io_crop := q_crop o; io_mask := Some ma; io_gs := trOf N s (q_tr o) ++ [gs] |}).
  (** gopdf.go:502-538 with a mask: first the mask, then the image. *)
  Definition imageMasked (s : ds N) (t : imgtbl) (id : bytes) (dx dy next : Z) (o : iopts)
                         (mid : bytes) (mdx mdy mnext : Z) (mo : iopts) (gs : Z) : bytes * call N * imgtbl :=
    let '(grp, t1) := maskGroup s t mid mdx mdy mnext mo in
    let '(c, t2) := imageUnderMask s t1 id dx dy next o (q_angle mo) gs in
    (grp, c, t2).
End Img.
