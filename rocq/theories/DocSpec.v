(** DocSpec.v — what a document is supposed to show, independently of object tables.

    Part 1: how a PDF consumer reads the object graph of an output document (page tree -> page ->
    contents -> drawings; resource names -> fonts, images, colour spaces; annotations).
    Part 2: the abstract document: a list of pages, each a list of things drawn and of links, driven
    directly by the API calls. *)
From Verif Require Import Base DocModel.

(** What a drawing means to the reader of the file. *)
Inductive shown :=
| ShBytes (b : bytes)                                 (* a drawing operator sequence *)
| ShTemplate (name : bytes)
| ShImage (data : bytes)                              (* the image object's data *)
| ShText (family : bytes) (style : Z) (t : bytes)     (* text in the font the resource name denotes *)
| ShColorSpace (name : bytes).

Record shown_link := { sl_x : Q; sl_y : Q; sl_w : Q; sl_h : Q; sl_url : bytes; sl_anchor : bytes }.

(** ** Part 1: reading the object graph *)
Definition obj_no (s : gp) (n : Z) : option obj :=
  if n <=? 0 then None else nth_error (g_objs s) (Z.to_nat (n - 1)).

(** Resource dictionary entries, procset_obj.go:29-72: /F<count+1>, /CS<count+1>, /I<index+1>. *)
Definition font_res (s : gp) (n : Z) : option obj :=
  match find (fun r => rf_count r + 1 =? n) (g_fonts s) with
  | Some r => nth_error (g_objs s) (rf_index r) | None => None end.
Definition cs_res (s : gp) (n : Z) : option obj :=
  match find (fun r => rc_count r + 1 =? n) (g_cs s) with
  | Some r => nth_error (g_objs s) (rc_index r) | None => None end.
Definition xobj_res (s : gp) (i : nat) : option obj :=
  if existsb (Nat.eqb i) (g_xobjs s) then nth_error (g_objs s) i else None.

Definition show (s : gp) (it : item) : option shown :=
  match it with
  | IBytes b => Some (ShBytes b)
  | ITemplate n _ _ => Some (ShTemplate n)
  | IImage i _ => match xobj_res s i with Some (OImage im Plain) => Some (ShImage (im_data im)) | _ => None end
  | IText n t _ => match font_res s n with Some (OSubsetFont f) => Some (ShText (fo_family f) (fo_style f) t) | _ => None end
  | IColorSpace n => match cs_res s (n + 1) with Some (OColorSpace name _) => Some (ShColorSpace name) | _ => None end
  end.

Definition content_no (s : gp) (n : Z) : list item :=
  match obj_no s n with Some (OContent l) => l | _ => [] end.
Definition link_no (s : gp) (n : Z) : option shown_link :=
  match obj_no s n with
  | Some (OAnnot l) => Some {| sl_x := lk_x l; sl_y := lk_y l; sl_w := lk_w l; sl_h := lk_h l;
                               sl_url := lk_url l; sl_anchor := lk_anchor l |}
  | _ => None end.

(** One page as read from the file. *)
Record shown_page := { sh_size : option rectq; sh_items : list (option shown); sh_links : list (option shown_link) }.
Definition read_page (s : gp) (n : Z) : option shown_page :=
  match obj_no s n with
  | Some (OPage p) => Some {| sh_size := pg_size p;
                              sh_items := map (show s) (flat_map (content_no s) (pg_contents p));
                              sh_links := map (link_no s) (pg_links p) |}
  | _ => None end.
(** All pages, through the page tree's Kids. *)
Definition read_pages (s : gp) : list (option shown_page) := map (read_page s) (g_kids s).

(** ** Part 2: the abstract document *)
Record apage := { ap_size : option rectq; ap_items : list shown; ap_links : list shown_link }.
Record adoc := {
  a_cfg : config;
  a_pages : list apage;
  a_total : Z;                               (* AddPage calls so far, over all documents *)
  a_fonts : list (bytes * Z);                (* fonts added: family, style *)
  a_sel : option (bytes * Z);                (* font selected *)
  a_imgs : list (bytes * bytes);             (* image source -> data *)
  a_cs : list bytes;                         (* colour spaces added *)
  a_header : option (list sop); a_footer : option (list sop) }.

Fixpoint upd_last {A} (f : A -> A) (l : list A) : list A :=
  match l with [] => [] | x :: r => match r with [] => [f x] | _ => x :: upd_last f r end end.

Definition with_pages (ps : list apage) (d : adoc) : adoc :=
  {| a_cfg := a_cfg d; a_pages := ps; a_total := a_total d; a_fonts := a_fonts d; a_sel := a_sel d;
     a_imgs := a_imgs d; a_cs := a_cs d; a_header := a_header d; a_footer := a_footer d |}.
Definition put (x : shown) (d : adoc) : adoc :=
  with_pages (upd_last (fun p => {| ap_size := ap_size p; ap_items := ap_items p ++ [x]; ap_links := ap_links p |})
                       (a_pages d)) d.
Definition put_link (x : shown_link) (d : adoc) : adoc :=
  with_pages (upd_last (fun p => {| ap_size := ap_size p; ap_items := ap_items p; ap_links := ap_links p ++ [x] |})
                       (a_pages d)) d.
Definition no_pages (d : adoc) : bool := match a_pages d with [] => true | _ => false end.

Definition has_font (family : bytes) (style : Z) (d : adoc) : bool :=
  existsb (fun fs => list_eqb (fst fs) family && (snd fs =? style)) (a_fonts d).

(** One call on the abstract document; the boolean says the call panics. *)
Definition a_sop (d : adoc) (o : sop) : adoc * bool :=
  match o with
  | Draw np b => if no_pages d then (d, np) else (put (ShBytes b) d, false)
  | UseTemplate n _ => if no_pages d then (d, true) else (put (ShTemplate n) d, false)
  | Text t => match a_sel d with
              | None => (d, true)
              | Some (f, st) => if no_pages d then (d, true) else (put (ShText f st t) d, false)
              end
  | AddFont f st =>
      ({| a_cfg := a_cfg d; a_pages := a_pages d; a_total := a_total d; a_fonts := a_fonts d ++ [(f, st)];
          a_sel := a_sel d; a_imgs := a_imgs d; a_cs := a_cs d; a_header := a_header d; a_footer := a_footer d |}, false)
  | SetFont f st _ =>
      (if has_font f (strip_underline st) d
       then {| a_cfg := a_cfg d; a_pages := a_pages d; a_total := a_total d; a_fonts := a_fonts d;
               a_sel := Some (f, strip_underline st); a_imgs := a_imgs d; a_cs := a_cs d;
               a_header := a_header d; a_footer := a_footer d |}
       else d, false)
  | Image id im =>
      match lookup id (a_imgs d) with
      | Some data => if no_pages d then (d, true) else (put (ShImage data) d, false)
      | None => if im_ok im then
                  if no_pages d then (d, true)
                  else let d := put (ShImage (im_data im)) d in
                       ({| a_cfg := a_cfg d; a_pages := a_pages d; a_total := a_total d; a_fonts := a_fonts d;
                           a_sel := a_sel d; a_imgs := (id, im_data im) :: a_imgs d; a_cs := a_cs d;
                           a_header := a_header d; a_footer := a_footer d |}, false)
                else (d, false)
      end
  | AddLink l =>
      if no_pages d then (d, true)
      else (put_link {| sl_x := lk_x l; sl_y := (r_h (cf_page (a_cfg d)) - lk_y l)%Q; sl_w := lk_w l; sl_h := lk_h l;
                        sl_url := lk_url l; sl_anchor := lk_anchor l |} d, false)
  | AddColorSpace n =>
      (if existsb (fun m => list_eqb m n) (a_cs d) then d
       else {| a_cfg := a_cfg d; a_pages := a_pages d; a_total := a_total d; a_fonts := a_fonts d;
               a_sel := a_sel d; a_imgs := a_imgs d; a_cs := a_cs d ++ [n];
               a_header := a_header d; a_footer := a_footer d |}, false)
  | SetColorSpace n =>
      (if existsb (fun m => list_eqb m n) (a_cs d) then if no_pages d then d else put (ShColorSpace n) d else d, false)
  | _ => (d, false)
  end.
Fixpoint a_sops (d : adoc) (l : list sop) : adoc * bool :=
  match l with
  | [] => (d, false)
  | o :: r => match a_sop d o with (d, true) => (d, true) | (d, false) => a_sops d r end
  end.
Definition a_callback (d : adoc) (f : option (list sop)) : adoc * bool :=
  match f with None => (d, false) | Some l => a_sops d l end.

Definition a_op (d : adoc) (o : op) : adoc :=
  match o with
  | Do o => fst (a_sop d o)
  | AddPage sz =>
      let d := {| a_cfg := a_cfg d; a_pages := a_pages d ++ [{| ap_size := sz; ap_items := []; ap_links := [] |}];
                  a_total := a_total d + 1; a_fonts := a_fonts d; a_sel := a_sel d; a_imgs := a_imgs d;
                  a_cs := a_cs d; a_header := a_header d; a_footer := a_footer d |} in
      match a_callback d (a_header d) with
      | (d, true) => d
      | (d, false) => fst (a_callback d (a_footer d))
      end
  | Start c => {| a_cfg := c; a_pages := []; a_total := a_total d; a_fonts := []; a_sel := None; a_imgs := [];
                  a_cs := []; a_header := a_header d; a_footer := a_footer d |}
  | AddHeader f => {| a_cfg := a_cfg d; a_pages := a_pages d; a_total := a_total d; a_fonts := a_fonts d;
                      a_sel := a_sel d; a_imgs := a_imgs d; a_cs := a_cs d; a_header := f; a_footer := a_footer d |}
  | AddFooter f => {| a_cfg := a_cfg d; a_pages := a_pages d; a_total := a_total d; a_fonts := a_fonts d;
                      a_sel := a_sel d; a_imgs := a_imgs d; a_cs := a_cs d; a_header := a_header d; a_footer := f |}
  | Output => d
  end.
Definition a_empty (c : config) : adoc :=
  {| a_cfg := c; a_pages := []; a_total := 0; a_fonts := []; a_sel := None; a_imgs := []; a_cs := [];
     a_header := None; a_footer := None |}.
Definition a_exec (d : adoc) (l : list op) : adoc := fold_left a_op l d.

(** Histories the abstract document describes: no SetPage (see C07), no masked image (see C36), fonts
    registered without the underline bit (see C42), no intermediate output (see C05). *)
Definition plain_sop (o : sop) : bool :=
  match o with
  | SetPage _ | ImageMasked _ _ _ _ => false
  | AddFont _ st => st =? strip_underline st
  | _ => true end.
Definition plain_op (o : op) : bool :=
  match o with
  | Do o => plain_sop o
  | AddHeader (Some l) | AddFooter (Some l) => forallb plain_sop l
  | Output => false
  | _ => true end.

(** A page of the file agrees with an abstract page. *)
Definition as_shown (p : apage) : option shown_page :=
  Some {| sh_size := ap_size p; sh_items := map Some (ap_items p); sh_links := map Some (ap_links p) |}.

(** ** Outlines, as a viewer walks them *)
Definition outline_no (s : gp) (n : Z) : option outline :=
  match obj_no s n with Some (OOutline o) => Some o | _ => None end.
Fixpoint walk (s : gp) (follow : outline -> Z) (fuel : nat) (n : Z) : list bytes :=
  match fuel with
  | O => []
  | S f => match outline_no s n with
           | Some o => ol_title o :: walk s follow f (follow o)
           | None => []
           end
  end.
(** Titles passed to AddOutline / AddOutlineWithPosition since the last Start. *)
Fixpoint titles_from (acc : list bytes) (l : list op) : list bytes :=
  match l with
  | [] => acc
  | Start _ :: r => titles_from [] r
  | Do (AddOutline t) :: r | Do (AddOutlinePos t) :: r => titles_from (acc ++ [t]) r
  | _ :: r => titles_from acc r
  end.
(** Header and footer callbacks that add no outline entry. *)
Definition no_outline_cb (f : option (list sop)) : bool :=
  match f with
  | Some l => forallb (fun o => match o with AddOutline _ | AddOutlinePos _ => false | _ => true end) l
  | None => true end.
Definition quiet_callbacks (o : op) : bool :=
  match o with AddHeader f | AddFooter f => no_outline_cb f | _ => true end.
