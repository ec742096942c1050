(** StreamModel.v — every object of gopdf that writes a stream (or an encrypted string), and which
    protection it uses.  zlib is a parameter [zl : bytes -> bytes]: the compressed form of the data
    is whatever the compressor makes of it. *)
From Verif Require Import Base FileModel StrModel Crypto SecModel.

(** imgInfo (img_info.go) as produced by the image parser (image_obj_parse.go:186-202, 256-266,
    386-394): the texts colspace/filter/decodeParms take only these values. *)
Inductive colspace := DevRGB | DevGray | DevCMYK | Indexed.
Inductive filt := FNone | FFlate | FDCT.
Record imginfo := { im_w : Z; im_h : Z; im_cs : colspace; im_bpc : Z; im_filter : filt;
                    im_colors : option Z;             (* Some c: DecodeParms with /Colors c *)
                    im_trns : list Z; im_smask : bytes; im_smaskObj : Z; im_pal : bytes;
                    im_rgbObj : Z; im_data : bytes }.

Definition cs_text (c : colspace) : bytes :=
  match c with DevRGB => bs "DeviceRGB" | DevGray => bs "DeviceGray" | DevCMYK => bs "DeviceCMYK" | Indexed => bs "Indexed" end.
Definition TAB : Z := 9.
(** image_obj_parse.go:85-113 writeBaseImgProps *)
Definition baseImgProps (i : imginfo) (cs : colspace) : bytes :=
  bs "<<" ++ [NL; TAB] ++ bs "/Type /XObject" ++ [NL; TAB] ++ bs "/Subtype /Image" ++ [NL; TAB]
  ++ bs "/Width " ++ fmt_d (im_w i) ++ [NL; TAB]
  ++ bs "/Height " ++ fmt_d (im_h i) ++ [NL; TAB]
  ++ match im_cs i with
     | Indexed => bs "/ColorSpace [/Indexed /DeviceRGB " ++ fmt_d (zlen (im_pal i) / 3 - 1) ++ bs " "
                  ++ fmt_d (im_rgbObj i + 1) ++ bs " 0 R]" ++ [NL; TAB]
     | DevCMYK => bs "/ColorSpace /" ++ cs_text cs ++ [NL; TAB] ++ bs "/Decode [1 0 1 0 1 0 1 0]" ++ [NL; TAB]
     | _ => bs "/ColorSpace /" ++ cs_text cs ++ [NL; TAB]
     end
  ++ bs "/BitsPerComponent " ++ fmt_d (im_bpc i) ++ [NL]
  ++ match im_filter i with
     | FNone => []
     | FFlate => [TAB] ++ bs "/Filter /FlateDecode" ++ [NL]
     | FDCT => [TAB] ++ bs "/Filter /DCTDecode" ++ [NL]
     end.
(** image_obj_parse.go:24-41 writeMaskImgProps *)
Definition maskImgProps (i : imginfo) : bytes :=
  baseImgProps i DevGray ++ [TAB] ++ bs "/DecodeParms <<" ++ [NL; TAB; TAB] ++ bs "/Predictor 15" ++ [NL; TAB; TAB]
  ++ bs "/Colors 1" ++ [NL; TAB; TAB] ++ bs "/BitsPerComponent 8" ++ [NL; TAB; TAB]
  ++ bs "/Columns " ++ fmt_d (im_w i) ++ [NL; TAB] ++ bs ">>" ++ [NL].
(** image_obj_parse.go:43-83 writeImgProps *)
Definition trns_text (t : list Z) : bytes :=
  flat_map (fun x => [TAB; TAB] ++ fmt_d x ++ bs " " ++ [TAB; TAB] ++ fmt_d x ++ bs " ") t.
Definition imgProps (i : imginfo) (splitted : bool) : bytes :=
  baseImgProps i (im_cs i)
  ++ match im_colors i with
     | Some c => [TAB] ++ bs "/DecodeParms <</Predictor 15 /Colors  " ++ fmt_d c ++ bs " /BitsPerComponent "
                 ++ fmt_d (im_bpc i) ++ bs " /Columns " ++ fmt_d (im_w i) ++ bs ">>" ++ [NL]
     | None => []
     end
  ++ (if splitted then [] else
      match im_trns i with
      | [] => []
      | t => [TAB] ++ bs "/Mask [" ++ trns_text t ++ [TAB] ++ bs "]" ++ [NL]
      end
      ++ (if is_empty (im_smask i) then [] else [TAB] ++ bs "/SMask " ++ fmt_d (im_smaskObj i + 1) ++ bs " 0 R" ++ [NL])).

(** smask_obj.go:82 with image_obj.go:94-107 createSMask: an 8-bit gray image with the picture's
    width, height and filter. *)
Definition smaskProps (w h : Z) (f : filt) : bytes :=
  baseImgProps {| im_w := w; im_h := h; im_cs := DevGray; im_bpc := 8; im_filter := f; im_colors := None;
                  im_trns := []; im_smask := []; im_smaskObj := 0; im_pal := []; im_rgbObj := 0; im_data := [] |} DevGray
  ++ [TAB] ++ bs "/DecodeParms <</Predictor 15 /Colors 1 /BitsPerComponent 8 /Columns " ++ fmt_d w ++ bs ">>" ++ [NL].

(** The objects.  [SOther] stands for objects without streams or encrypted strings. *)
Inductive sobj :=
| SContent (compress : bool) (data : bytes)          (* content_obj.go:25-93 *)
| SDeviceRGB (data : bytes)                          (* device_rgb_obj.go:27-46 *)
| SEmbedFont (data : bytes) (size : Z)               (* embedfont_obj.go:24-47 *)
| SImage (i : imginfo) (isMask splitted : bool)      (* image_obj.go:41-86 *)
| SFontFile (font : bytes)                           (* pdf_dictionary_obj.go:44-80 *)
| SSMask (w h : Z) (f : filt) (data : bytes)         (* smask_obj.go:82-98, the branch with data *)
| SGroup (bbox : bytes * bytes * bytes * bytes) (data : bytes)   (* transparency_xobject_group.go:57-92 *)
| SUnicode (m : cgmap)                               (* unicode_map.go:36-100 *)
| SAnnotURL (rect : bytes) (url : bytes)             (* annot_obj.go:28-44; rect is the four numbers *)
| SOther (body : bytes).

(** The plain bytes that go into the stream. *)
Definition plain (zl : bytes -> bytes) (o : sobj) : bytes :=
  match o with
  | SContent c d => if c then zl d else d
  | SDeviceRGB d => d
  | SEmbedFont d _ => d
  | SImage i m _ => if m then im_smask i else im_data i
  | SFontFile f => zl f
  | SSMask _ _ _ d => d
  | SGroup _ d => d
  | SUnicode m => cmap_text m
  | SAnnotURL _ u => u
  | SOther _ => []
  end.

(** "if protection() != nil { rc4Cip(objectkey(objID), …) } else { … }".  rc4Cip cannot fail here: the
    object key has 10 bytes (PropSec.rc4Cip_md5). *)
Definition enc (pr : option protection) (n : Z) (d : bytes) : bytes :=
  match pr with
  | Some p => match rc4Cip (objectkey p n) d with Some e => e | None => [] end
  | None => d
  end.
(** The newline written after encrypted data only. *)
Definition enl (pr : option protection) : bytes := match pr with Some _ => [NL] | None => [] end.

(** The write methods.  [pr] is the protection the object sees, [n] its object number. *)
Definition sbody (zl : bytes -> bytes) (pr : option protection) (n : Z) (o : sobj) : bytes :=
  let d := plain zl o in
  match o with
  | SContent c _ =>
      bs "<<" ++ [NL] ++ (if c then bs "/Filter/FlateDecode" else []) ++ bs "/Length " ++ fmt_d (zlen d) ++ [NL]
      ++ bs ">>" ++ [NL] ++ bs "stream" ++ [NL] ++ enc pr n d
      ++ (match pr with Some _ => [NL] | None => if c then [NL] else [] end) ++ bs "endstream" ++ [NL]
  | SDeviceRGB _ =>
      bs "<<" ++ [NL] ++ bs "/Length " ++ fmt_d (zlen d) ++ [NL] ++ bs ">>" ++ [NL] ++ bs "stream" ++ [NL]
      ++ enc pr n d ++ enl pr ++ bs "endstream" ++ [NL]
  | SEmbedFont _ size =>
      bs "<</Length " ++ fmt_d (zlen d) ++ [NL] ++ bs "/Filter /FlateDecode" ++ [NL]
      ++ bs "/Length1 " ++ fmt_d size ++ [NL] ++ bs ">>" ++ [NL] ++ bs "stream" ++ [NL]
      ++ enc pr n d ++ enl pr ++ [NL] ++ bs "endstream" ++ [NL]
  | SImage i m sp =>
      (if m then maskImgProps i else imgProps i sp)
      ++ [TAB] ++ bs "/Length " ++ fmt_d (zlen d) ++ [NL] ++ bs ">>" ++ [NL] ++ bs "stream" ++ [NL]
      ++ enc pr n d ++ enl pr ++ [NL] ++ bs "endstream" ++ [NL]
  | SFontFile f =>
      bs "<</Length " ++ fmt_d (zlen d) ++ [NL] ++ bs "/Filter /FlateDecode" ++ [NL]
      ++ bs "/Length1 " ++ fmt_d (zlen f) ++ [NL] ++ bs ">>" ++ [NL] ++ bs "stream" ++ [NL]
      ++ enc pr n d ++ [NL] ++ bs "endstream" ++ [NL]
  | SSMask w h f _ =>
      smaskProps w h f
      ++ bs "/Length " ++ fmt_d (zlen d) ++ [NL] ++ bs ">>" ++ [NL] ++ bs "stream" ++ [NL]
      ++ enc pr n d ++ enl pr ++ [NL] ++ bs "endstream" ++ [NL]
  | SGroup (b0, b1, b2, b3) _ =>
      bs "<<" ++ [NL; TAB] ++ bs "/FormType 1" ++ [NL; TAB] ++ bs "/Subtype /Form" ++ [NL; TAB]
      ++ bs "/Type /XObject" ++ [NL; TAB] ++ bs "/Matrix [1 0 0 1 0 0]" ++ [NL; TAB]
      ++ bs "/BBox [" ++ b0 ++ bs " " ++ b1 ++ bs " " ++ b2 ++ bs " " ++ b3 ++ bs "]" ++ [NL; TAB]
      ++ bs "/Group<</CS /DeviceGray /S /Transparency>>" ++ [NL; TAB]
      ++ bs "/Length " ++ fmt_d (zlen d) ++ [NL] ++ bs ">>" ++ [NL] ++ bs "stream" ++ [NL]
      ++ d ++ bs "endstream" ++ [NL]
  | SUnicode _ =>
      bs "<<" ++ [NL] ++ bs "/Length " ++ fmt_d (zlen d) ++ [NL] ++ bs ">>" ++ [NL] ++ bs "stream" ++ [NL]
      ++ enc pr n d ++ bs "endstream" ++ [NL]
  | SAnnotURL rect _ =>
      bs "<</Type /Annot /Subtype /Link /Rect [" ++ rect ++ bs "] /Border [0 0 0] /A <</S /URI /URI ("
      ++ escape (enc pr n d) ++ bs ")>>>>" ++ [NL]
  | SOther b => b
  end.

(** ** Which protection an object sees, and the document around it. *)
(** Images, font files, ToUnicode maps and soft masks keep the pointer gp.protection() had when they
    were created (gopdf.go:556, 671, 1784, 1792; image_obj.go:97); content, palettes, embedded fonts
    and annotations ask the document at write time (content_obj.go:20, device_rgb_obj.go:18,
    embedfont_obj.go:20, annot_obj.go:29). *)
Definition captures (o : sobj) : bool :=
  match o with SImage _ _ _ | SFontFile _ | SSMask _ _ _ _ | SUnicode _ | SGroup _ _ => true | _ => false end.

Record pdoc := { pd_use : bool;                                  (* config.Protection.UseProtection *)
                 pd_cur : option protection;                     (* gp.pdfProtection *)
                 pd_objs : list (sobj * option protection) }.    (* object, captured protection *)
Inductive pop :=
| PSetProtection (p : protection)      (* gopdf.go:1952-1955, after the key generation of SetProtection *)
| PAdd (o : sobj).
(** gopdf.go:2138 and 912-914: a fresh document.  [p] is what createProtection makes of the config. *)
Definition pstart (use : bool) (p : protection) : pdoc :=
  {| pd_use := use; pd_cur := if use then Some p else None; pd_objs := [] |}.
Definition pstep (d : pdoc) (o : pop) : pdoc :=
  match o with
  | PSetProtection p => {| pd_use := pd_use d; pd_cur := Some p; pd_objs := pd_objs d |}
  | PAdd x => {| pd_use := pd_use d; pd_cur := pd_cur d; pd_objs := pd_objs d ++ [(x, pd_cur d)] |}
  end.
Definition prun (d : pdoc) (l : list pop) : pdoc := fold_left pstep l d.
(** What protection the object sees when it is written. *)
Definition sees (d : pdoc) (e : sobj * option protection) : option protection :=
  if captures (fst e) then snd e else pd_cur d.
(** prepare (gopdf.go:2236-2241) appends the encryption object when the config says so; the trailer
    names it (gopdf.go:2303-2306, 2278-2279).  The pointer is non-nil whenever pd_use holds. *)
Definition pd_all (zl : bytes -> bytes) (d : pdoc) : list (Z -> wprog) :=
  map (fun e n => chunks [sbody zl (sees d e) n (fst e)]) (pd_objs d)
  ++ (if pd_use d then match pd_cur d with Some p => [fun _ => chunks [encryption_body p]] | None => [] end else []).
Definition pd_trailer (d : pdoc) : trailer :=
  {| tr_encrypt := if pd_use d then Some (zlen (pd_objs d) + 1) else None; tr_info := None |}.
Definition pd_file (zl : bytes -> bytes) (d : pdoc) : bytes := compile_bytes (pd_all zl d) (pd_trailer d).
