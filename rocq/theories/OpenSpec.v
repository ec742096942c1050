(** OpenSpec.v — opening a PDF file from its bytes (ISO 32000-1, 7.5, 7.3.8, 7.7.3, 7.8.2, 7.6.3): from the last line to the
    cross-reference table, the trailer, the catalog, the page tree and the content streams of its pages, decrypted with
    a password where the trailer names an encryption dictionary, and decompressed.  Nothing of gopdf is used;
    FileSpec.v reads cross-reference entries, PdfSyntax.v objects, SecSpec.v keys.  zlib is a parameter. *)
From Verif Require Import Base FileSpec SecSpec DrawSpec PdfSyntax.
Open Scope Z_scope.

(** 7.5.4, 7.5.5: the cross-reference section the file's end names, and the trailer dictionary after it. *)
Definition open_xref (file : bytes) : option (list xentry * pobj) :=
  match read_startxref file with
  | None => None
  | Some pos =>
      match expect (bs "xref" ++ [NL] ++ bs "0 ") (skipn (Z.to_nat pos) file) with
      | None => None
      | Some r =>
          match read_num r with
          | None => None
          | Some (n, r) =>
              match expect [NL] r with
              | None => None
              | Some r =>
                  match read_entries (Z.to_nat n) r with
                  | None => None
                  | Some (es, r) =>
                      match expect (bs "trailer" ++ [NL]) r with
                      | None => None
                      | Some r => match read_object r with Some (o, _) => Some (es, o) | None => None end
                      end
                  end
              end
          end
      end
  end.
(** 7.3.10: object [n] (generation 0) through the table: at its offset stands "n 0 obj", then the object, then the rest of
    the file. *)
Definition object_of (file : bytes) (es : list xentry) (n : Z) : option (pobj * bytes) :=
  match nth_error es (Z.to_nat n) with
  | Some e =>
      if xe_inuse e && (xe_gen e =? 0) then
        match read_num (skipn (Z.to_nat (xe_offset e)) file) with
        | Some (k, r) => if k =? n then match expect (bs " 0 obj" ++ [NL]) r with Some r => read_object r | None => None end else None
        | None => None
        end
      else None
  | None => None
  end.
(** The value of a key that stands in a dictionary exactly once. *)
Definition value_at (k : bytes) (o : pobj) : option pobj :=
  match o with ODict l => match filter (fun e => list_eqb (fst e) k) l with [e] => Some (snd e) | _ => None end | _ => None end.
Definition value_of (k : string) (o : pobj) : option pobj := value_at (bs k) o.
Definition has_key (k : string) (o : pobj) : bool :=
  match o with ODict l => match entry k l with [] => false | _ => true end | _ => false end.
Definition ref_of (k : string) (o : pobj) : option Z :=
  match value_of k o with Some (ORef n g) => if g =? 0 then Some n else None | _ => None end.
(** 7.3.8: the data of a stream object: after the dictionary the keyword, then as many bytes as /Length says, then
    "endstream". *)
Fixpoint skip_white (l : bytes) : bytes := match l with b :: r => if is_white b then skip_white r else l | [] => [] end.
Definition stream_data (o : pobj) (rest : bytes) : option bytes :=
  match value_of "Length" o, expect (bs "stream" ++ [10]) (skip_white rest) with
  | Some (OInt n), Some r =>
      if (0 <=? n) && (n <=? zlen r) && is_prefix (bs "endstream") (skip_white (skipn (Z.to_nat n) r)) then Some (firstn (Z.to_nat n) r) else None
  | _, _ => None
  end.
(** A password as its holder knows it. *)
Inductive password := User (w : bytes) | Owner (w : bytes).
Definition unlock (O U : bytes) (P : Z) (pw : password) : option bytes := match pw with User w => open_user O U P w | Owner w => open_owner O U P w end.
Section Reader.
  Variable inflate : bytes -> option bytes.
  (** 7.4.4, 7.6.2: decrypted with the file's key, if it has one, then decoded. *)
  Definition stream_of (file : bytes) (es : list xentry) (key : option bytes) (n : Z) : option bytes :=
    match object_of file es n with
    | Some (o, rest) =>
        match stream_data o rest with
        | Some d =>
            let d := match key with Some k => decrypt k n d | None => d end in
            if has_key "Filter" o then
              match value_of "Filter" o with Some (OName f) => if list_eqb f (bs "FlateDecode") then inflate d else None | _ => None end
            else Some d
        | None => None
        end
    | None => None
    end.
  (** 7.8.2: a page's content: none, one stream, or several taken as one. *)
  Fixpoint all_some {A} (l : list (option A)) : option (list A) :=
    match l with [] => Some [] | Some x :: r => match all_some r with Some t => Some (x :: t) | None => None end | None :: _ => None end.
  Definition refs_of (l : list pobj) : list (option Z) := map (fun o => match o with ORef n g => if g =? 0 then Some n else None | _ => None end) l.
  Definition content_of (file : bytes) (es : list xentry) (key : option bytes) (page : pobj) : option bytes :=
    if has_key "Contents" page then
      match value_of "Contents" page with
      | Some (ORef n g) => if g =? 0 then stream_of file es key n else None
      | Some (OArr l) => match all_some (refs_of l) with
                         | Some ns => option_map (fun ds => List.concat (map (fun d => d ++ [10]) ds)) (all_some (map (stream_of file es key) ns))
                         | None => None
                         end
      | _ => None
      end
    else Some [].
  (** 7.6.3: the file's key, from the encryption dictionary the trailer names and a password. *)
  Definition file_key_of (file : bytes) (es : list xentry) (trailer : pobj) (pw : password) : option (option bytes) :=
    if has_key "Encrypt" trailer then
      match ref_of "Encrypt" trailer with
      | Some n =>
          match object_of file es n with
          | Some (o, _) =>
              match value_of "Filter" o, value_of "V" o, value_of "R" o, value_of "O" o, value_of "U" o, value_of "P" o with
              | Some (OName f), Some (OInt 1), Some (OInt 2), Some (OStr oo), Some (OStr u), Some (OInt p) =>
                  if list_eqb f (bs "Standard") then match unlock oo u p pw with Some k => Some (Some k) | None => None end else None
              | _, _, _, _, _, _ => None
              end
          | None => None
          end
      | None => None
      end
    else Some None.
  Definition is_type (t : string) (o : pobj) : bool := match value_of "Type" o with Some (OName n) => list_eqb n (bs t) | _ => false end.
  (** 7.7.2, 7.7.3: the pages of the file in order (a page tree of one level), each with its content. *)
  Definition open_pages (file : bytes) (pw : password) : option (list (pobj * bytes)) :=
    match open_xref file with
    | None => None
    | Some (es, trailer) =>
        match file_key_of file es trailer pw, ref_of "Root" trailer with
        | Some key, Some r =>
            match object_of file es r with
            | Some (catalog, _) =>
                if is_type "Catalog" catalog then
                  match ref_of "Pages" catalog with
                  | Some p =>
                      match object_of file es p with
                      | Some (root, _) =>
                          match value_of "Kids" root, value_of "Count" root with
                          | Some (OArr kids), Some (OInt n) =>
                              if is_type "Pages" root && (n =? zlen kids) then
                                match all_some (refs_of kids) with
                                | Some ks =>
                                    all_some (map (fun k => match object_of file es k with
                                                            | Some (page, _) => if is_type "Page" page then option_map (pair page) (content_of file es key page) else None
                                                            | None => None
                                                            end) ks)
                                | None => None
                                end
                              else None
                          | _, _ => None
                          end
                      | None => None
                      end
                  | None => None
                  end
                else None
            | None => None
            end
        | _, _ => None
        end
    end.
End Reader.

(** 7.8.3: what a name in a page's content stands for: the object its resources list under that name in a category. *)
Definition named_object (file : bytes) (page : pobj) (category : string) (name : bytes) : option (Z * (pobj * bytes)) :=
  match open_xref file, ref_of "Resources" page with
  | Some (es, _), Some r =>
      match object_of file es r with
      | Some (res, _) =>
          match value_of category res with
          | Some d => match value_at name d with
                      | Some (ORef n g) => if g =? 0 then option_map (pair n) (object_of file es n) else None
                      | _ => None
                      end
          | None => None
          end
      | None => None
      end
  | _, _ => None
  end.
(** The data of an image a name stands for: decrypted, not decoded. *)
Definition named_data (file : bytes) (pw : password) (page : pobj) (name : bytes) : option (pobj * bytes) :=
  match open_xref file with
  | Some (es, trailer) =>
      match file_key_of file es trailer pw, named_object file page "XObject" name with
      | Some key, Some (n, (o, rest)) =>
          option_map (fun d => (o, match key with Some k => decrypt k n d | None => d end)) (stream_data o rest)
      | _, _ => None
      end
  | None => None
  end.
