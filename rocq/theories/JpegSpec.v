(** JpegSpec.v — JPEG files (ITU-T T.81, annex B) and what a reader of a written file sees of a JPEG picture (C84). *)
From Verif Require Import Base PdfSyntax PdfRead FileSpec SecSpec OpenSpec PicSpec.
Open Scope Z_scope.

Definition be16 (n : Z) : bytes := [n / 256; n mod 256].
(** B.1.1.4: a marker segment: the marker, its length (which counts itself), its parameters. *)
Definition segment (s : Z * bytes) : bytes := [255; fst s] ++ be16 (zlen (snd s) + 2) ++ snd s.
(** B.2.2: the frame header: eight bits per sample, lines, samples per line, number of components, their parameters. *)
Record frame := { f_h : Z; f_w : Z; f_comps : Z; f_params : bytes }.
Definition frame_header (f : frame) : bytes := [8] ++ be16 (f_h f) ++ be16 (f_w f) ++ [f_comps f] ++ f_params f.
(** B.2.1: start of image, segments, frame header (SOF0, SOF1 or SOF2), and the rest of the file. *)
Record jpeg := { j_before : list (Z * bytes); j_sof : Z; j_frame : frame; j_after : bytes }.
Definition jpeg_file (j : jpeg) : bytes := [255; 216] ++ flat_map segment (j_before j) ++ segment (j_sof j, frame_header (j_frame j)) ++ j_after j.
Definition frame_marker (m : Z) : Prop := 192 <= m <= 207 /\ m <> 196 /\ m <> 200 /\ m <> 204.
Definition good_jpeg (j : jpeg) : Prop :=
  Forall (fun s => 192 <= fst s < 255 /\ ~ frame_marker (fst s) /\ zlen (snd s) < 65534) (j_before j) /\ 192 <= j_sof j <= 194 /\
  0 < f_h (j_frame j) < 65536 /\ 0 < f_w (j_frame j) < 65536 /\ In (f_comps (j_frame j)) [1; 3; 4] /\ zlen (f_params (j_frame j)) = 3 * f_comps (j_frame j).
(** Adobe Technical Note 5116, 18: files with an "Adobe" APP14 segment store the four inks as what is left of the paper's white. *)
Definition adobe (s : Z * bytes) : bool := (fst s =? 238) && list_eqb (firstn 5 (snd s)) (bs "Adobe").
Definition inverted (j : jpeg) : bool := (f_comps (j_frame j) =? 4) && existsb adobe (j_before j).

(** 8.9.5, 7.4.8: what a reader hands to its JPEG decoder, and what it does with the components that come out. *)
Inductive jspace := JGray | JRGB | JCMYK.
Record jview := { v_width : Z; v_height : Z; v_bits : Z; v_colours : jspace; v_inverted : bool; v_file : bytes }.
Definition no_key (k : string) (o : pobj) : bool := negb (has_key k o).
Section Picture.
  Variables (file : bytes) (es : list xentry) (key : option bytes).
  (** 7.6.2: the bytes of a stream, decrypted but not decoded. *)
  Definition coded_of (n : Z) : option bytes :=
    match object_of file es n with
    | Some (o, rest) => option_map (fun d => match key with Some k => decrypt k n d | None => d end) (stream_data o rest)
    | None => None
    end.
  Definition jspace_at (v : pobj) : option jspace :=
    match v with
    | OName n => if list_eqb n (bs "DeviceGray") then Some JGray else if list_eqb n (bs "DeviceRGB") then Some JRGB else if list_eqb n (bs "DeviceCMYK") then Some JCMYK else None
    | _ => None
    end.
  (** 8.9.5.2: no Decode array, or one that turns every component round (1 0 for each). *)
  Fixpoint turned (n : nat) (l : list pobj) : bool :=
    match n, l with O, [] => true | S n, OInt 1 :: OInt 0 :: r => turned n r | _, _ => false end.
  Definition decode_at (sp : jspace) (o : pobj) : option bool :=
    if has_key "Decode" o then
      match value_of "Decode" o with
      | Some (OArr l) => if turned (match sp with JGray => 1 | JRGB => 3 | JCMYK => 4 end)%nat l then Some true else None
      | _ => None
      end
    else Some false.
  Definition jview_of (n : Z) (o : pobj) : option jview :=
    match value_of "Subtype" o, int_of "Width" o, int_of "Height" o, int_of "BitsPerComponent" o, value_of "ColorSpace" o with
    | Some (OName t), Some w, Some h, Some b, Some cs =>
        match jspace_at cs, value_of "Filter" o, coded_of n with
        | Some sp, Some (OName f), Some d =>
            match decode_at sp o with
            | Some inv => if list_eqb t (bs "Image") && list_eqb f (bs "DCTDecode") && no_key "DecodeParms" o && no_key "Mask" o && no_key "SMask" o
                          then Some {| v_width := w; v_height := h; v_bits := b; v_colours := sp; v_inverted := inv; v_file := d |} else None
            | None => None
            end
        | _, _, _ => None
        end
    | _, _, _, _, _ => None
    end.
End Picture.
Definition see_jpeg (file : bytes) (pw : password) (page : pobj) (name : bytes) : option jview :=
  match open_xref file with
  | Some (es, trailer) =>
      match file_key_of file es trailer pw, named_object file page "XObject" name with
      | Some key, Some (n, (o, _)) => jview_of file es key n o
      | _, _ => None
      end
  | None => None
  end.
(** The picture of a JPEG file: its bytes as they are, its size, eight bits, a colour space for its components, and the inks turned round
    where the file stores them so. *)
Definition shows_jpeg (j : jpeg) (v : jview) : Prop :=
  v_file v = jpeg_file j /\ v_width v = f_w (j_frame j) /\ v_height v = f_h (j_frame j) /\ v_bits v = 8 /\
  v_colours v = (match f_comps (j_frame j) with 1 => JGray | 3 => JRGB | _ => JCMYK end) /\ v_inverted v = inverted j.
