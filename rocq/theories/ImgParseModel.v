(** ImgParseModel.v — the image parser as a whole (image_obj_parse.go:137-204): which of the formats a file has and what becomes of it.
    Parameters: [config] is Go's image.DecodeConfig (None: an error), [as_png] is image.Decode followed by png.Encode (None: an error),
    [png] is parsePng (PngModel.v). *)
From Verif Require Import Base StreamModel PngModel.
Open Scope Z_scope.

Inductive format := Jpeg | Png | Gif | OtherFormat.
(** color.Model values Go's decoders answer; other models are one case. *)
Inductive cmodel := YCbCrModel | GrayModel | CMYKModel | RGBAModel | OtherModel.
Record config := { cf_format : format; cf_w : Z; cf_h : Z; cf_model : cmodel }.

(** image_obj_parse.go:190-211 parseImgJpg, with the data read afterwards (152-156). *)
Definition parseImgJpg (c : config) (data : bytes) : pngres imginfo :=
  match match cf_model c with YCbCrModel => Some DevRGB | GrayModel => Some DevGray | CMYKModel => Some DevCMYK | _ => None end with
  | None => Fail                                                              (* "color model not support" *)
  | Some cs => Res {| im_w := cf_w c; im_h := cf_h c; im_cs := cs; im_bpc := 8; im_filter := FDCT; im_colors := None; im_trns := []; im_smask := [];
                      im_smaskObj := 0; im_pal := []; im_rgbObj := 0; im_data := data |}
  end.
Section Parse.
  Variables (conf : bytes -> option config) (as_png : bytes -> option bytes) (png : bytes -> pngres imginfo).
  (** image_obj_parse.go:137-188 parseImg for every format but GIF. *)
  Definition parseDirect (data : bytes) : pngres imginfo :=
    match conf data with
    | None => Fail
    | Some c => match cf_format c with Jpeg => parseImgJpg c data | Png => png data | _ => Fail end
    end.
  (** image_obj_parse.go:137-188 parseImg.  A GIF file is converted and parsed again; the second parse (168) gets what png.Encode wrote,
      which is not a GIF file, so the recursion is written out once. *)
  Definition parseImg (data : bytes) : pngres imginfo :=
    match conf data with
    | None => Fail
    | Some c => match cf_format c with
                | Gif => match as_png data with Some d => parseDirect d | None => Fail end
                | _ => parseDirect data
                end
    end.
End Parse.
