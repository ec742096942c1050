(** OpenMarks.v — the bookmarks and links of a PDF file, read from its bytes (ISO 32000-1, 12.3.3, 12.3.2, 12.5.6.5, 12.6.4.7).
    Nothing of gopdf is used; OpenSpec.v opens the file. *)
From Verif Require Import Base FileSpec SecSpec DrawSpec PdfSyntax OpenSpec.
Open Scope Z_scope.

(** The place of a number in a list. *)
Fixpoint place_of (n : Z) (l : list Z) : option nat :=
  match l with [] => None | x :: r => if x =? n then Some O else option_map S (place_of n r) end.
Definition text_value (key : option bytes) (n : Z) (o : pobj) : option bytes :=
  match o with OStr v => Some (match key with Some k => decrypt k n v | None => v end) | _ => None end.

(** The table, the key, the catalog and the numbers of the pages in order. *)
Record opened := { op_es : list xentry; op_key : option bytes; op_catalog : pobj; op_kids : list Z }.
Definition open_document (file : bytes) (pw : password) : option opened :=
  match open_xref file with
  | None => None
  | Some (es, trailer) =>
      match file_key_of file es trailer pw, ref_of "Root" trailer with
      | Some key, Some r =>
          match object_of file es r with
          | Some (catalog, _) =>
              if is_type "Catalog" catalog then
                match ref_of "Pages" catalog with
                | Some p =>
                    match object_of file es p with
                    | Some (root, _) =>
                        match value_of "Kids" root, value_of "Count" root with
                        | Some (OArr kids), Some (OInt n) =>
                            if is_type "Pages" root && (n =? zlen kids) then
                              option_map (fun ks => {| op_es := es; op_key := key; op_catalog := catalog; op_kids := ks |}) (all_some (refs_of kids))
                            else None
                        | _, _ => None
                        end
                    | None => None
                    end
                | None => None
                end
              else None
          | None => None
          end
      | _, _ => None
      end
  end.

(** 12.3.2.2: an explicit destination: the place of its page, if it names one, and the view. *)
Definition destination (kids : list Z) (o : pobj) : option (option nat * list pobj) :=
  match o with OArr (ORef n g :: view) => if g =? 0 then Some (place_of n kids, view) else None | _ => None end.

(** 12.3.3: the bookmarks from number [n] on: title (a text string, decrypted) and page. *)
Fixpoint bookmarks_from (file : bytes) (d : opened) (fuel : nat) (n : Z) : option (list (bytes * option nat)) :=
  match fuel with
  | O => None
  | S f =>
      match object_of file (op_es d) n with
      | Some (o, _) =>
          match value_of "Title" o, value_of "Dest" o with
          | Some t, Some dst =>
              match text_value (op_key d) n t, destination (op_kids d) dst with
              | Some title, Some (page, _) =>
                  if has_key "Next" o then
                    match ref_of "Next" o with Some m => option_map (cons (title, page)) (bookmarks_from file d f m) | None => None end
                  else Some [(title, page)]
              | _, _ => None
              end
          | _, _ => None
          end
      | None => None
      end
  end.
Definition open_bookmarks (file : bytes) (pw : password) : option (list (bytes * option nat)) :=
  match open_document file pw with
  | None => None
  | Some d =>
      if has_key "Outlines" (op_catalog d) then
        match ref_of "Outlines" (op_catalog d) with
        | Some r =>
            match object_of file (op_es d) r with
            | Some (o, _) =>
                if is_type "Outlines" o then
                  if has_key "First" o then match ref_of "First" o with Some n => bookmarks_from file d (List.length (op_es d)) n | None => None end
                  else Some []
                else None
            | None => None
            end
        | None => None
        end
      else Some []
  end.

(** 12.5.6.5: a link: where it stands and where it leads, to a web address or to a place in the document. *)
Inductive target := Web (uri : bytes) | Place (page : option nat) (view : list pobj).
Definition link_of (file : bytes) (d : opened) (n : Z) : option (pobj * target) :=
  match object_of file (op_es d) n with
  | Some (o, _) =>
      match value_of "Subtype" o, value_of "Rect" o with
      | Some (OName st), Some rect =>
          if list_eqb st (bs "Link") then
            if has_key "A" o then
              match value_of "A" o with
              | Some a =>
                  match value_of "S" a, value_of "URI" a with
                  | Some (OName s), Some u => if list_eqb s (bs "URI") then option_map (fun v => (rect, Web v)) (text_value (op_key d) n u) else None
                  | _, _ => None
                  end
              | None => None
              end
            else
              match value_of "Dest" o with
              | Some dst => option_map (fun pv => (rect, Place (fst pv) (snd pv))) (destination (op_kids d) dst)
              | None => None
              end
          else None
      | _, _ => None
      end
  | None => None
  end.
Definition links_of (file : bytes) (d : opened) (n : Z) : option (list (pobj * target)) :=
  match object_of file (op_es d) n with
  | Some (page, _) =>
      if has_key "Annots" page then
        match value_of "Annots" page with
        | Some (OArr l) => match all_some (refs_of l) with Some ns => all_some (map (link_of file d) ns) | None => None end
        | _ => None
        end
      else Some []
  | None => None
  end.
(** The links of each page, pages in order. *)
Definition open_links (file : bytes) (pw : password) : option (list (list (pobj * target))) :=
  match open_document file pw with Some d => all_some (map (links_of file d) (op_kids d)) | None => None end.
