(** PicSpec.v — what a reader of a written file sees of a picture, from the file's bytes and the picture's name alone (C83). *)
From Verif Require Import Base PdfSyntax PdfRead FileSpec SecSpec OpenSpec.
From Verif Require PropPng.
Open Scope Z_scope.

(** 8.9.5, 8.6: a picture as decoded: rows of packed samples, how many bits each has, how to colour them, which samples are
    transparent (a list min max min max …, 8.9.6.4), and the opacity of each pixel (8.9.5.4, one byte per pixel). *)
Inductive space := Gray | RGB | Palette (last : Z) (colours : bytes).
Record view := { v_w : Z; v_h : Z; v_bpc : Z; v_space : space; v_rows : list bytes; v_key : list Z; v_alpha : option (list bytes) }.
Definition per_pixel (s : space) : Z := match s with RGB => 3 | _ => 1 end.

Definition int_of (k : string) (o : pobj) : option Z := match value_of k o with Some (OInt n) => Some n | _ => None end.
Definition ints_of (l : list pobj) : option (list Z) := all_some (map (fun o => match o with OInt n => Some n | _ => None end) l).
Section Picture.
  Variable inflate : bytes -> option bytes.
  Variables (file : bytes) (es : list xentry) (key : option bytes).
  (** 8.6.4, 8.6.6.3 *)
  Definition space_at (v : pobj) : option space :=
    match v with
    | OName n => if list_eqb n (bs "DeviceGray") then Some Gray else if list_eqb n (bs "DeviceRGB") then Some RGB else None
    | OArr [OName i; OName b; OInt last; ORef n g] =>
        if list_eqb i (bs "Indexed") && list_eqb b (bs "DeviceRGB") && (g =? 0) then option_map (Palette last) (stream_of inflate file es key n) else None
    | _ => None
    end.
  (** 7.4.4.4: the samples of object [n], an image [w] x [h] with [c] samples of [b] bits per pixel, compressed with a PNG
      predictor; what the predictor is told must be what the image is. *)
  Definition samples (n : Z) (o : pobj) (c w h b : Z) : option (list bytes) :=
    match value_of "DecodeParms" o, stream_of inflate file es key n with
    | Some parms, Some raw =>
        match int_of "Predictor" parms, int_of "Colors" parms, int_of "BitsPerComponent" parms, int_of "Columns" parms with
        | Some p, Some c', Some b', Some w' =>
            if (10 <=? p) && (c' =? c) && (b' =? b) && (w' =? w)
            then PropPng.picture (Z.to_nat ((c * b + 7) / 8)) (Z.to_nat ((c * b * w + 7) / 8)) (Z.to_nat h) raw [] else None
        | _, _, _, _ => None
        end
    | _, _ => None
    end.
  (** 8.9.5.4: the soft mask: a gray image of the same size with eight bits per pixel. *)
  Definition opacity (o : pobj) (w h : Z) : option (option (list bytes)) :=
    if has_key "SMask" o then
      match ref_of "SMask" o with
      | Some m =>
          match object_of file es m with
          | Some (mo, _) =>
              match int_of "Width" mo, int_of "Height" mo, int_of "BitsPerComponent" mo, value_of "ColorSpace" mo with
              | Some w', Some h', Some 8, Some (OName g) =>
                  if (w' =? w) && (h' =? h) && list_eqb g (bs "DeviceGray") then option_map Some (samples m mo 1 w h 8) else None
              | _, _, _, _ => None
              end
          | None => None
          end
      | None => None
      end
    else Some None.
  Definition colour_key (o : pobj) : option (list Z) :=
    if has_key "Mask" o then match value_of "Mask" o with Some (OArr l) => ints_of l | _ => None end else Some [].
  Definition view_of (n : Z) (o : pobj) : option view :=
    match value_of "Subtype" o, int_of "Width" o, int_of "Height" o, int_of "BitsPerComponent" o, value_of "ColorSpace" o with
    | Some (OName t), Some w, Some h, Some b, Some cs =>
        match space_at cs with
        | Some sp =>
            match samples n o (per_pixel sp) w h b, colour_key o, opacity o w h with
            | Some rows, Some k, Some a =>
                if list_eqb t (bs "Image") then Some {| v_w := w; v_h := h; v_bpc := b; v_space := sp; v_rows := rows; v_key := k; v_alpha := a |} else None
            | _, _, _ => None
            end
        | None => None
        end
    | _, _, _, _, _ => None
    end.
End Picture.
(** The picture a name on a page stands for. *)
Definition see (inflate : bytes -> option bytes) (file : bytes) (pw : password) (page : pobj) (name : bytes) : option view :=
  match open_xref file with
  | Some (es, trailer) =>
      match file_key_of file es trailer pw, named_object file page "XObject" name with
      | Some key, Some (n, (o, _)) => view_of inflate file es key n o
      | _, _ => None
      end
  | None => None
  end.

(** What a PNG file shows (PNG 9, 11.2, 11.3.2): header [x], chunks [l], palette [pal], colour key [t] (PropPng.v), [rows] the
    decoded scan lines.  With an alpha channel, each line is the colours and the opacities of its pixels put together. *)
Definition shows_png (x : PropPng.header) (t pal : bytes) (rows : list bytes) (v : view) : Prop :=
  let w := Z.to_nat (PropPng.h_w x) in let h := Z.to_nat (PropPng.h_h x) in
  v_w v = PropPng.h_w x /\ v_h v = PropPng.h_h x /\ v_bpc v = PropPng.h_bpc x /\
  v_space v = match PropPng.h_ct x with 0 | 4 => Gray | 3 => Palette (zlen pal / 3 - 1) pal | _ => RGB end /\
  if 4 <=? PropPng.h_ct x then
    v_key v = [] /\ exists alpha, v_alpha v = Some alpha /\ List.length (v_rows v) = h /\ List.length alpha = h /\ List.length rows = h /\
    forall k, (k < h)%nat -> PropPng.recombines (if PropPng.h_ct x =? 4 then 1 else 3) w (nth k rows []) (nth k (v_rows v) []) (nth k alpha [])
  else v_rows v = rows /\ v_alpha v = None /\ v_key v = flat_map (fun a => [a; a]) t.
(** Samples per pixel of a PNG file, alpha included. *)
Definition png_samples (ct : Z) : Z := match ct with 2 => 3 | 4 => 2 | 6 => 4 | _ => 1 end.
(** The scan lines of a PNG file (PNG 7.2, 9.2). *)
Definition png_rows (inflate : bytes -> option bytes) (x : PropPng.header) (l : list PropPng.chunk) : option (list bytes) :=
  match inflate (PropPng.image_data l) with
  | Some raw => let n := png_samples (PropPng.h_ct x) * PropPng.h_bpc x in
                PropPng.picture (Z.to_nat ((n + 7) / 8)) (Z.to_nat ((n * PropPng.h_w x + 7) / 8)) (Z.to_nat (PropPng.h_h x)) raw []
  | None => None
  end.
