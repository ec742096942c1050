(** CopySpec.v — copying the text of a page out of a file: how a reader that has the file's bytes and a password gets from the
    codes in a page's content to characters (ISO 32000-1, 9.4.3, 9.7.4 Identity-H, 9.10.3 ToUnicode), and to the embedded font
    program and the widths (9.7.4.3, 9.8.1, 9.9).  Independent of gopdf. *)
From Coq Require Import QArith.
From Verif Require Import Base StrSpec FileSpec SecSpec DrawSpec PdfSyntax PdfRead OpenSpec FaceSpec PropWidth.
Open Scope Z_scope.

Section Copy.
  Variable inflate : bytes -> option bytes.
  (** The ToUnicode CMap of the font a name stands for on a page. *)
  Definition named_tounicode (file : bytes) (pw : password) (page : pobj) (name : bytes) : option (list (Z * Z * list Z)) :=
    match open_xref file, named_object file page "Font" name with
    | Some (es, trailer), Some (_, (font, _)) =>
        match file_key_of file es trailer pw, ref_of "ToUnicode" font with
        | Some key, Some n => match stream_of inflate file es key n with Some d => read_cmap d | None => None end
        | _, _ => None
        end
    | _, _ => None
    end.
  (** The CIDFont of a composite font: the one element of its DescendantFonts. *)
  Definition named_cidfont (file : bytes) (page : pobj) (name : bytes) : option pobj :=
    match open_xref file, named_object file page "Font" name with
    | Some (es, _), Some (_, (font, _)) =>
        match value_of "DescendantFonts" font with
        | Some (OArr [ORef n g]) => if g =? 0 then option_map fst (object_of file es n) else None
        | _ => None
        end
    | _, _ => None
    end.
  (** The TrueType program embedded for it. *)
  Definition named_program (file : bytes) (pw : password) (page : pobj) (name : bytes) : option bytes :=
    match open_xref file, named_cidfont file page name with
    | Some (es, trailer), Some cid =>
        match file_key_of file es trailer pw, ref_of "FontDescriptor" cid with
        | Some key, Some d =>
            match object_of file es d with
            | Some (desc, _) => match ref_of "FontFile2" desc with Some n => stream_of inflate file es key n | None => None end
            | None => None
            end
        | _, _ => None
        end
    | _, _ => None
    end.
  (** The characters of a code: what every range of the CMap that contains it says; nothing if none does or they disagree. *)
  Definition code_text (es : list (Z * Z * list Z)) (code : Z) : option (list Z) :=
    match cmap_all es code with x :: r => if forallb (list_eqb x) r then Some x else None | [] => None end.
  Definition glyphs (l : list show) : list Z := flat_map (fun x => match x with Glyph g => [g] | Move _ => [] end) l.
  (** The characters of one showing of text. *)
  Definition copied_event (tu : bytes -> option (list (Z * Z * list Z))) (e : event) : option (list Z) :=
    match e with
    | EShow g _ arr =>
        match g_font g with
        | TName n :: _ =>
            match tu n, reading arr with
            | Some es, Some l => option_map (@List.concat Z) (all_some (map (code_text es) (glyphs l)))
            | _, _ => None
            end
        | _ => None
        end
    | _ => Some []
    end.
  (** The text of a page, in the order it is shown. *)
  Definition copied (file : bytes) (pw : password) (pc : pobj * bytes) : option (list Z) :=
    option_map (@List.concat Z) (all_some (map (copied_event (named_tounicode file pw (fst pc))) (view (snd pc)))).
  (** The width the CIDFont gives a code (nothing: the default width applies). *)
  Definition named_width (file : bytes) (page : pobj) (name : bytes) (code : Z) : option Z :=
    match named_cidfont file page name with
    | Some cid => match value_of "W" cid with Some (OArr l) => widths_of l code | _ => None end
    | None => None
    end.
  (** What a page shows: font program, glyph number (CIDToGIDMap Identity) and width of every code, in order. *)
  Definition outlined_event (pg : bytes -> option bytes) (wd : bytes -> Z -> option Z) (e : event) : option (list (bytes * Z * option Z)) :=
    match e with
    | EShow g _ arr =>
        match g_font g with
        | TName n :: _ => match pg n, reading arr with Some p, Some l => Some (map (fun g => (p, g, wd n g)) (glyphs l)) | _, _ => None end
        | _ => None
        end
    | _ => Some []
    end.
  Definition outlined (file : bytes) (pw : password) (pc : pobj * bytes) : option (list (bytes * Z * option Z)) :=
    option_map (@List.concat (bytes * Z * option Z)) (all_some (map (outlined_event (named_program file pw (fst pc)) (named_width file (fst pc))) (view (snd pc)))).
End Copy.
