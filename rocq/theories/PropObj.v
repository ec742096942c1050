(** PropObj.v — C60: what every object of the file says when a PDF reader takes it from the bytes written. *)
From Coq Require Import QArith.
From Verif Require Import Base StrSpec StrModel NumModel NumRead DrawSpec DrawLex PropStr PaintNum SecModel FileModel StreamModel PropStream PdfSyntax PdfRead ObjModel.
Open Scope Z_scope.

(** ** Lists of pieces *)
Lemma close_arr_list l : forall acc s, close_arr (rev (map IObj l) ++ IArr :: s) acc = Some (l ++ acc, s).
Proof.
  induction l as [|o l IH] using rev_ind; intros acc s; [reflexivity|]. rewrite map_app, rev_app_distr. cbn [map rev app close_arr]. rewrite IH, <- app_assoc. reflexivity.
Qed.
Lemma read_close l s r : pread (RI (rev (map IObj l) ++ IArr :: s)) (93 :: r) = pread (composite (OArr l) s) r.
Proof. rewrite pread_cons. cbn [pstep]. unfold idle. cbn [is_white existsb Z.eqb Pos.eqb orb]. rewrite close_arr_list, app_nil_r. reflexivity. Qed.
(** the stack of a dictionary's entries *)
Definition dstack (l : list (bytes * pobj)) : list sitem := flat_map (fun e => [IObj (snd e); IObj (OName (fst e))]) (rev l).
Lemma dstack_app a b : dstack (a ++ b) = dstack b ++ dstack a.
Proof. unfold dstack. now rewrite rev_app_distr, flat_map_app. Qed.
Lemma close_dict_list l : forall acc s, close_dict (dstack l ++ IDict :: s) acc = Some (l ++ acc, s).
Proof.
  induction l as [|e l IH] using rev_ind; intros acc s; [reflexivity|]. rewrite dstack_app. cbn [dstack rev flat_map app close_dict]. rewrite IH, <- app_assoc. destruct e; reflexivity.
Qed.
Lemma read_dclose l s r : pread (RI (dstack l ++ IDict :: s)) (62 :: 62 :: r) = pread (composite (ODict l) s) r.
Proof. rewrite !pread_cons. change (pstep (RI (dstack l ++ IDict :: s)) 62) with (PRun SGt (dstack l ++ IDict :: s)). cbn [pstep Z.eqb Pos.eqb]. rewrite close_dict_list, app_nil_r. reflexivity. Qed.

(** ** Blocks: text that adds dictionary entries, or array elements *)
Definition pushes (es : list (bytes * pobj)) (stk : list sitem) : list sitem := dstack es ++ stk.
Definition pusha (l : list pobj) (stk : list sitem) : list sitem := rev (map IObj l) ++ stk.
Definition block (t : bytes) (es : list (bytes * pobj)) : Prop := forall stk r, pread (RI stk) (t ++ r) = pread (RI (pushes es stk)) r.
Definition elems (t : bytes) (l : list pobj) : Prop := forall stk r, pread (RI stk) (t ++ r) = pread (RI (pusha l stk)) r.
Lemma block_nil : block [] [].
Proof. intros stk r. reflexivity. Qed.
Lemma pushes_app a b s : pushes b (pushes a s) = pushes (a ++ b) s.
Proof. unfold pushes. rewrite dstack_app, <- app_assoc. reflexivity. Qed.
Lemma pushes_one k v s : IObj v :: IObj (OName k) :: s = pushes [(k, v)] s.
Proof. reflexivity. Qed.
Lemma block_flat {A} (f : A -> bytes) (g : A -> bytes * pobj) l : (forall x, In x l -> block (f x) [g x]) -> block (flat_map f l) (map g l).
Proof.
  induction l as [|x l IH]; intros H stk r; [reflexivity|]. cbn [flat_map map]. rewrite <- app_assoc, (H x) by now left.
  rewrite IH by (intros y I; apply H; now right). now rewrite pushes_app.
Qed.
Lemma pusha_cons (x : pobj) l s : pusha l (IObj x :: s) = pusha (x :: l) s.
Proof. unfold pusha. cbn [map rev]. now rewrite <- app_assoc. Qed.
Lemma elems_flat {A} (f : A -> bytes) (g : A -> pobj) l : (forall x stk r, In x l -> pread (RI stk) (f x ++ r) = pread (RI (IObj (g x) :: stk)) r) -> elems (flat_map f l) (map g l).
Proof.
  induction l as [|x l IH]; intros H stk r; [reflexivity|]. cbn [flat_map]. rewrite <- app_assoc, H by now left. rewrite IH by (intros; apply H; now right).
  change (map g (x :: l)) with (g x :: map g l). now rewrite pusha_cons.
Qed.
Lemma read_closea l s r : pread (RI (pusha l (IArr :: s))) (93 :: r) = pread (composite (OArr l) s) r.
Proof. apply read_close. Qed.
Lemma read_white c s r : is_white c = true -> pread (RI s) (c :: r) = pread (RI s) r.
Proof. intros W. rewrite pread_cons. cbn [pstep]. unfold idle. now rewrite W. Qed.
Lemma read_finish stk es r : stk = pushes es [IDict] -> pread (RI stk) (62 :: 62 :: r) = PDone (ODict es) r.
Proof. intros ->. unfold pushes. rewrite read_dclose. cbn [composite]. apply pread_done. Qed.
Lemma read_inner stk es x s r : stk = pushes es (IDict :: x :: s) -> pread (RI stk) (62 :: 62 :: r) = pread (RI (IObj (ODict es) :: x :: s)) r.
Proof. intros ->. unfold pushes. now rewrite read_dclose. Qed.

(** ** The proof tool: one piece at a time *)
Definition realtext (t : bytes) : Prop := forall b r stk, is_regular b = false -> pread (RI stk) (t ++ b :: r) = pread (RI (IObj (OReal t) :: stk)) (b :: r).
Lemma f64_realtext k x : finite x -> realtext (f64_fmt (S k) x).
Proof. intros F b r stk NB. now apply read_real. Qed.
Lemma cons_app {A} (x : A) l : [x] ++ l = x :: l. Proof. reflexivity. Qed.
Ltac unlit s r := let b := eval cbv in (bs s) in change (bs s ++ r) with (b ++ r); cbn [app].
Ltac piece :=
  match goal with
  | |- context [pread (PDone _ _) _] => rewrite pread_done
  | H : block ?t ?es |- context [pread (PRun SIdle ?stk) (?t ++ ?r)] => rewrite (H stk r)
  | H : elems ?t ?es |- context [pread (PRun SIdle ?stk) (?t ++ ?r)] => rewrite (H stk r)
  | |- context [pread (PRun SIdle (pusha ?l ?s)) (bs ?t ++ ?r)] => unlit t r
  | |- context [pread (PRun SIdle (pusha ?l (IArr :: ?s))) (93 :: ?r)] => rewrite (read_closea l s r); cbn [composite]
  | |- context [pread (PRun SIdle (pusha ?l ?s)) (?c :: ?r)] => rewrite (read_white c (pusha l s) r eq_refl)
  | |- context [pread (PRun SIdle (pushes ?a (pushes ?b ?s))) _] => rewrite (pushes_app b a s)
  | |- context [pread (PRun SIdle (pushes ?es (IDict :: ?x :: ?s))) (62 :: 62 :: ?r)] => rewrite (read_inner _ es x s r eq_refl)
  | |- context [pread (PRun SIdle (pushes ?es ?s)) (bs "	>>" ++ ?r)] => unlit "	>>"%string r
  | |- context [pread (PRun SIdle (pushes ?es ?s)) (9 :: ?r)] => rewrite (read_white 9 (pushes es s) r eq_refl)
  | |- context [pread (PRun ?l ?stk) (bs ">>" ++ ?r)] => change (bs ">>" ++ r) with (62 :: 62 :: r)
  | |- context [pread (PRun SIdle ?stk) (62 :: 62 :: ?r)] =>
      let x := eval cbv -[fmt_d pushes pusha map] in (pread (PRun SIdle stk) [62; 62]) in
      match x with PRun SIdle (IObj _ :: _ :: _) => replace (pread (PRun SIdle stk) (62 :: 62 :: r)) with (pread x r) by reflexivity end
  | |- context [pread (PRun ?l ?stk) (bs ?s ++ ?r)] =>
      let x := eval cbv -[fmt_d pushes pusha map] in (pread (PRun l stk) (bs s)) in
      replace (pread (PRun l stk) (bs s ++ r)) with (pread x r) by (symmetry; rewrite pread_app; reflexivity)
  | |- context [pread (PRun SIdle ?stk) (fmt_d ?z ++ ?b :: ?r)] => rewrite (read_int z b r stk eq_refl)
  | |- context [pread (PRun SIdle ?stk) (fmt_d ?z ++ bs ?s ++ ?r)] => unlit s r
  | H : realtext ?t |- context [pread (PRun SIdle ?stk) (?t ++ ?b :: ?r)] => rewrite (H b r stk eq_refl)
  | H : realtext ?t |- context [pread (PRun SIdle ?stk) (?t ++ bs ?s ++ ?r)] => unlit s r
  | H : plain_name ?t = true |- context [pread (PRun (SName []) ?stk) (?t ++ ?b :: ?r)] => rewrite (read_name [] t b r stk H eq_refl); cbn [app]
  | H : plain_name ?t = true |- context [pread (PRun (SName []) ?stk) (?t ++ bs ?s ++ ?r)] => unlit s r
  | |- context [pread (PRun (SName ?a) ?stk) (fmt_d ?z ++ ?b :: ?r)] => rewrite (read_name_int a z b r stk eq_refl eq_refl)
  | |- context [pread (PRun (SName ?a) ?stk) (fmt_d ?z ++ bs ?s ++ ?r)] => unlit s r
  | |- context [pread (PRun (SStr 0 false []) ?stk) (escape ?t ++ 41 :: ?r)] => rewrite (read_str t r stk)
  | |- context [pread (PRun (SStr 0 false []) ?stk) (escape ?t ++ bs ?s ++ ?r)] => unlit s r
  | |- context [pread (PRun ?l ?stk) (?c :: ?r)] =>
      lazymatch c with 62 => lazymatch r with 62 :: _ => fail | _ => idtac end | _ => idtac end;
      let x := eval cbv -[fmt_d pushes pusha map] in (pstep (PRun l stk) c) in
      replace (pread (PRun l stk) (c :: r)) with (pread x r) by reflexivity
  end.
(** Hide every computed number behind a variable. *)
Ltac hide :=
  repeat match goal with
  | |- context [fmt_d ?e] => tryif is_var e then fail else (let z := fresh "z" in set (z := e) in *; clearbody z)
  end.
Ltac flat := unfold NL, TAB; rewrite <- ?app_assoc, ?cons_app; cbn [app].
(** A block made of literal text, hidden numbers and names. *)
Ltac blk := intros stk r; flat; repeat piece; reflexivity.
Definition r2 (x : f64) : pobj := OReal (f2 x).
Definition r3 (x : f64) : pobj := OReal (f3 x).
Definition r6 (x : f64) : pobj := OReal (f6 x).
Ltac hidereal :=
  unfold r2, r3, r6, f2, f3, f6;
  repeat match goal with
  | F : finite ?x |- context [f64_fmt (S ?k) ?x] =>
      let t := fresh "t" in let H := fresh "RT" in pose proof (f64_realtext k x F) as H; set (t := f64_fmt (S k) x) in *; clearbody t
  end.
Lemma reads_app l o r : pread (RI []) l = PDone o r -> forallb is_white r = true -> reads_as l o.
Proof. intros E W. exists r. split; [|exact W]. unfold read_object. now rewrite E. Qed.
Ltac samestack := rewrite ?pushes_one, ?pushes_app; cbn [app]; try reflexivity; unfold pushes; rewrite ?dstack_app, <- ?app_assoc; reflexivity.
(** The whole object: read the pieces, then close the dictionary. *)
Ltac whole := apply (reads_app _ _ [10]); [flat; repeat piece; apply read_finish; samestack|reflexivity].

Theorem C60_catalog : forall outl, reads_as (catalog_body outl)
  (ODict ([(bs "Type", N_ "Catalog"); (bs "Pages", ref 2)]
          ++ (if 0 <=? outl then [(bs "PageMode", N_ "UseOutlines"); (bs "Outlines", ref outl)] else []))).
Proof. intros outl. unfold catalog_body. destruct (0 <=? outl); whole. Qed.
Print Assumptions C60_catalog.

(** Lists of references: " 3 0 R  5 0 R " and "3 0 R 5 0 R ". *)
Lemma read_refs l : elems (refs_text l) (map ref l).
Proof. apply elems_flat. intros n stk r _. flat. repeat piece. reflexivity. Qed.
Lemma read_refs' l : elems (flat_map (fun n => fmt_d n ++ bs " 0 R ") l) (map ref l).
Proof. apply elems_flat. intros n stk r _. flat. repeat piece. reflexivity. Qed.

(** The page tree root: the default page size, the number of pages and the pages in order. *)
Theorem C60_pages : forall w h count kids, finite w -> finite h ->
  reads_as (pages_body w h count kids)
    (ODict [(bs "Type", N_ "Pages"); (bs "MediaBox", OArr [OInt 0; OInt 0; r2 w; r2 h]); (bs "Count", OInt count); (bs "Kids", OArr (map ref kids))]).
Proof.
  intros w h count kids FW FH. unfold pages_body. hidereal. pose proof (read_refs kids) as HK. generalize dependent (refs_text kids). intros kt HK. whole.
Qed.
Print Assumptions C60_pages.

(** A page: its resources, its links, its content, its own size and trim box when it has them. *)
Definition page_dict (res : Z) (links : list Z) (content : option Z) (size : option (f64 * f64)) (trim : option boxq) : pobj :=
  ODict ([(bs "Type", N_ "Page"); (bs "Parent", ref 2); (bs "Resources", ref res)]
         ++ (match links with [] => [] | _ => [(bs "Annots", OArr (map ref links))] end)
         ++ (match content with None => [] | Some c => [(bs "Contents", ref c)] end)
         ++ (match size with Some (w, h) => [(bs "MediaBox", OArr [OInt 0; OInt 0; r2 w; r2 h])] | None => [] end)
         ++ (match trim with Some b => [(bs "TrimBox", OArr [r2 (bx_l b); r2 (bx_t b); r2 (bx_r b); r2 (bx_b b)])] | None => [] end)).
Definition finite_box (b : boxq) : Prop := finite (bx_l b) /\ finite (bx_t b) /\ finite (bx_r b) /\ finite (bx_b b).
Theorem C60_page_partial : forall res links content size trim,
  (forall w h, size = Some (w, h) -> finite w /\ finite h) -> (forall b, trim = Some b -> finite_box b) ->
  reads_as (page_body res links (match content with Some c => [c] | None => [] end) size trim) (page_dict res links content size (trimSet trim)).
Proof.
  intros res links content size trim FS FT. unfold page_body, page_dict.
  assert (FT' : forall b, trimSet trim = Some b -> finite_box b).
  { intros b E. apply FT. unfold trimSet in E. destruct trim as [b'|]; [|discriminate]. cbv zeta in E. destruct (_ && _ && _ && _); [discriminate|exact E]. }
  clear FT. generalize dependent (trimSet trim). intros tb FT. clear trim.
  match goal with |- reads_as (_ ++ _ ++ _ ++ _ ++ _ ++ _ ++ _ ++ _ ++ _ ++ _ ++ ?a ++ ?b ++ ?c ++ ?d ++ _) (ODict (_ ++ ?a' ++ ?b' ++ ?c' ++ ?d')) =>
    assert (BA : block a a') by (destruct links as [|l0 ls]; [apply block_nil|]; pose proof (read_refs' (l0 :: ls)) as HK; generalize dependent (map ref (l0 :: ls));
       generalize (flat_map (fun n => fmt_d n ++ bs " 0 R ") (l0 :: ls)); intros ft mr HK; blk);
    assert (BB : block b b') by (destruct content; [unfold refs_text; cbn [flat_map]; rewrite app_nil_r; blk|apply block_nil]);
    assert (BC : block c c') by (destruct size as [[w h]|]; [destruct (FS w h eq_refl) as [FW FH]; hidereal; blk|apply block_nil]);
    assert (BD : block d d') by (destruct tb as [b0|]; [destruct (FT b0 eq_refl) as (F1 & F2 & F3 & F4); hidereal; blk|apply block_nil]);
    generalize dependent a; generalize dependent b; generalize dependent c; generalize dependent d;
    generalize dependent a'; generalize dependent b'; generalize dependent c'; generalize dependent d'
  end.
  intros. whole.
Qed.
Print Assumptions C60_page_partial.
(** Missing: a page whose content is written as several references.  That happens whenever a document is written a second
    time (prepare appends to Contents again, gopdf.go:2260): the references are not put into an array and the page is no
    longer a dictionary at all. *)
Theorem C60_second_write_page_refuted : forall res c, read_object (page_body res [] [c; c] None None) = None.
Proof.
  intros res c. unfold page_body, trimSet, refs_text, read_object. cbn [flat_map]. rewrite ?app_nil_r. flat. repeat piece. reflexivity.
Qed.
Print Assumptions C60_second_write_page_refuted.

(** The resource dictionary: every font, colour space, image, template and graphics state under its own name. *)
Definition resource (prefix : string) (count num : Z) : bytes * pobj := (bs prefix ++ fmt_d count, ref num).
Theorem C60_resources : forall fonts cs xobjs tpls exts,
  Forall (fun e => exists n, fst e = 47 :: n /\ n <> [] /\ plain_name n = true) tpls ->
  reads_as (procset_body fonts cs xobjs tpls exts)
    (ODict [(bs "ProcSet", OArr [N_ "PDF"; N_ "Text"; N_ "ImageB"; N_ "ImageC"; N_ "ImageI"]);
            (bs "Font", ODict (map (fun e => resource "F" (fst e + 1) (snd e + 1)) fonts));
            (bs "ColorSpace", ODict (map (fun e => resource "CS" (fst e + 1) (snd e + 1)) cs));
            (bs "XObject", ODict (map (fun i => resource "I" (i + 1) (i + 1)) xobjs ++ map (fun e => (skipn 1 (fst e), ref (snd e))) tpls));
            (bs "ExtGState", ODict (map (fun i => resource "GS" (i + 1) (i + 1)) exts))]).
Proof.
  intros fonts cs xobjs tpls exts HT. unfold procset_body.
  match goal with |- reads_as (_ ++ _ ++ _ ++ _ ++ _ ++ _ ++ ?a ++ _ ++ _ ++ _ ++ _ ++ ?b ++ _ ++ _ ++ _ ++ _ ++ ?c ++ ?d ++ _ ++ _ ++ _ ++ _ ++ ?e ++ _)
       (ODict [_; (_, ODict ?a'); (_, ODict ?b'); (_, ODict (?c' ++ ?d')); (_, ODict ?e')]) =>
    assert (BA : block a a') by (apply block_flat; intros [x y] _; cbn [fst snd]; unfold resource; hide; blk);
    assert (BB : block b b') by (apply block_flat; intros [x y] _; cbn [fst snd]; unfold resource; hide; blk);
    assert (BC : block c c') by (apply block_flat; intros x _; unfold resource; hide; blk);
    assert (BD : block d d') by (apply block_flat; intros [x y] I; rewrite Forall_forall in HT; destruct (HT _ I) as (n & E & NE & P); cbn [fst snd] in *; subst x;
                                 cbn [skipn]; hide; blk);
    assert (BE : block e e') by (apply block_flat; intros x _; unfold resource; hide; blk);
    generalize dependent a; generalize dependent b; generalize dependent c; generalize dependent d; generalize dependent e;
    generalize dependent a'; generalize dependent b'; generalize dependent c'; generalize dependent d'; generalize dependent e'
  end.
  intros. clear HT. whole.
Qed.
Print Assumptions C60_resources.

(** ** Fonts *)
(** A family name whose characters are regular PDF name characters, spaces or slashes. *)
Definition nice_family (f : bytes) : Prop := Forall (fun b => b = 32 \/ b = 47 \/ (is_regular b = true /\ b <> 35)) f.
Lemma fontName_plain f : nice_family f -> plain_name (fontName f) = true.
Proof.
  intros H. unfold fontName, replace. rewrite flat_map_comp. unfold plain_name. induction H as [|b f B _ IH]; [reflexivity|].
  cbn [flat_map]. rewrite forallb_app, IH, andb_true_r. destruct (Z.eqb_spec b 32) as [->|N1]; [reflexivity|]. cbn [flat_map app].
  destruct (Z.eqb_spec b 47) as [->|N2]; [reflexivity|]. destruct B as [B|[B|[B1 B2]]]; try contradiction. cbn [app forallb]. rewrite B1. destruct (Z.eqb_spec b 35); [contradiction|reflexivity].
Qed.
Ltac hidename H := let E := fresh "PN" in pose proof (fontName_plain _ H) as E;
  match type of E with plain_name ?t = true => let n := fresh "nm" in set (n := t) in *; clearbody n end.

Theorem C60_font : forall family cid um, nice_family family ->
  reads_as (subset_font_body family cid um)
    (ODict [(bs "BaseFont", OName (fontName family)); (bs "DescendantFonts", OArr [ref (cid + 1)]); (bs "Encoding", N_ "Identity-H");
            (bs "Subtype", N_ "Type0"); (bs "ToUnicode", ref (um + 1)); (bs "Type", N_ "Font")]).
Proof. intros family cid um H. unfold subset_font_body. hidename H. hide. whole. Qed.
Print Assumptions C60_font.

Lemma read_widths ws : elems (flat_map (fun e => fmt_d (fst e) ++ bs "[" ++ fmt_d (snd e) ++ bs "]") ws) (flat_map (fun e => [OInt (fst e); OArr [OInt (snd e)]]) ws).
Proof.
  intros stk r. revert stk. induction ws as [|[g w] ws IH]; intros stk; [reflexivity|]. cbn [flat_map fst snd]. flat. repeat piece. rewrite IH. now rewrite !pusha_cons.
Qed.
(** The CIDFont: the widths of the glyphs used. *)
Theorem C60_cidfont : forall family desc ws, nice_family family ->
  reads_as (cid_font_body family desc ws)
    (ODict [(bs "BaseFont", OName (fontName family));
            (bs "CIDSystemInfo", ODict [(bs "Ordering", OStr (bs "Identity")); (bs "Registry", OStr (bs "Adobe")); (bs "Supplement", OInt 0)]);
            (bs "FontDescriptor", ref (desc + 1)); (bs "Subtype", N_ "CIDFontType2"); (bs "Type", N_ "Font");
            (bs "W", OArr (flat_map (fun e => [OInt (fst e); OArr [OInt (snd e)]]) ws))]).
Proof.
  intros family desc ws H. unfold cid_font_body. hidename H. hide. pose proof (read_widths ws) as HW. generalize dependent (flat_map (fun e : Z * Z => [OInt (fst e); OArr [OInt (snd e)]]) ws).
  generalize (flat_map (fun e : Z * Z => fmt_d (fst e) ++ bs "[" ++ fmt_d (snd e) ++ bs "]") ws). intros. whole.
Qed.
Print Assumptions C60_cidfont.
Theorem C60_descriptor : forall family m file, nice_family family ->
  let u v := OInt (designUnitsToPdf v (mt_upem m)) in
  reads_as (descriptor_body family m file)
    (ODict [(bs "Type", N_ "FontDescriptor"); (bs "Ascent", u (mt_asc m)); (bs "CapHeight", u (mt_cap m)); (bs "Descent", u (mt_desc m));
            (bs "Flags", OInt (mt_flag m)); (bs "FontBBox", OArr [u (mt_xmin m); u (mt_ymin m); u (mt_xmax m); u (mt_ymax m)]);
            (bs "FontFile2", ref (file + 1)); (bs "FontName", OName (fontName family)); (bs "ItalicAngle", OInt (mt_angle m));
            (bs "StemV", OInt 0); (bs "XHeight", u (mt_xheight m))]).
Proof. intros family m file H u. unfold descriptor_body, u. cbv zeta. hidename H. hide. whole. Qed.
Print Assumptions C60_descriptor.
Lemma pread_fail l : pread PFail l = PFail.
Proof. induction l; [reflexivity|]. now rewrite pread_cons. Qed.
Lemma open_string l : forall d e acc stk, forallb (fun b => negb (b =? 41)) l = true -> exists d' e' acc', pread (PRun (SStr d e acc) stk) l = PRun (SStr d' e' acc') stk.
Proof.
  induction l as [|b l IH]; intros d e acc stk H; [now exists d, e, acc|]. cbn [forallb] in H. apply andb_true_iff in H as [H1 H2]. apply negb_true_iff in H1.
  rewrite pread_cons. cbn [pstep]. destruct e; [now apply IH|]. destruct (b =? 92); [now apply IH|]. destruct (b =? 40); [now apply IH|]. rewrite H1. now apply IH.
Qed.
Lemma fmt_noparen z : forallb (fun b => negb (b =? 41)) (fmt_d z) = true.
Proof.
  pose proof (NumModel.fmt_d_num z) as H. apply numtext_chars in H. rewrite forallb_forall in *. intros x I. specialize (H x I). unfold numchar in H. rewrite existsb_exists in H.
  destruct H as (y & J & E). apply Z.eqb_eq in E. subst y. cbn in J. repeat (destruct J as [<-|J]; [reflexivity|]). contradiction.
Qed.
(** A family name with any other character breaks the font objects: with "(" or ">" nothing can be read from there on, and
    a name with "#" is read as another one. *)
Theorem C60_family_name_refuted : forall cid um,
  read_object (subset_font_body (bs "a(b") cid um) = None /\
  read_object (subset_font_body (bs "a>b") cid um) = None /\
  exists d r, read_object (subset_font_body (bs "a#42") cid um) = Some (ODict d, r) /\ entry "BaseFont" d = [OName (bs "aB")].
Proof.
  intros cid um. unfold subset_font_body, read_object. hide. split; [|split].
  - change (fontName (bs "a(b")) with (bs "a(b"). flat. do 4 piece.
    match goal with |- context [pread (PRun (SStr ?d ?e ?acc) ?stk) ?l] => destruct (open_string l d e acc stk) as (d' & e' & acc' & ->) end; [|reflexivity].
    repeat first [rewrite forallb_app|rewrite fmt_noparen|progress cbn [forallb andb negb Z.eqb Pos.eqb bs Z.of_N N_of_ascii]]. vm_compute. reflexivity.
  - change (fontName (bs "a>b")) with (bs "a>b"). flat. do 4 piece. now rewrite pread_fail.
  - change (fontName (bs "a#42")) with (bs "a#42"). flat. repeat piece. do 2 eexists. split; [|].
    + erewrite read_finish by (rewrite ?pushes_one, ?pushes_app; cbn [app]; reflexivity). reflexivity.
    + reflexivity.
Qed.
Print Assumptions C60_family_name_refuted.

(** ** Graphics states and soft masks *)
Definition odict {A} (k : string) (f : A -> pobj) (o : option A) : list (bytes * pobj) := match o with Some a => [(bs k, f a)] | None => [] end.
Lemma block_opt {A} (t : A -> bytes) k (f : A -> pobj) o : (forall a, o = Some a -> block (t a) [(bs k, f a)]) -> block (opt t o) (odict k f o).
Proof. destruct o as [a|]; intros H; [now apply H|apply block_nil]. Qed.
Theorem C60_gstate : forall ca CA bm smask,
  (forall a, ca = Some a \/ CA = Some a -> finite a) -> (forall m, bm = Some m -> plain_name m = true) ->
  reads_as (extgstate_body ca CA (option_map (fun m => 47 :: m) bm) smask)
    (ODict ([(bs "Type", N_ "ExtGState")] ++ odict "ca" r3 ca ++ odict "CA" r3 CA ++ odict "BM" OName bm ++ odict "SMask" (fun i => ref (i + 1)) smask)).
Proof.
  intros ca CA bm smask FA PB. unfold extgstate_body.
  assert (B1 : block (opt (fun a => bs "	/ca " ++ f3 a ++ [NL]) ca) (odict "ca" r3 ca)).
  { apply block_opt. intros a ->. specialize (FA a (or_introl eq_refl)). hidereal. blk. }
  assert (B2 : block (opt (fun a => bs "	/CA " ++ f3 a ++ [NL]) CA) (odict "CA" r3 CA)).
  { apply block_opt. intros a ->. specialize (FA a (or_intror eq_refl)). hidereal. blk. }
  assert (B3 : block (opt (fun m => bs "	/BM " ++ m ++ [NL]) (option_map (fun m => 47 :: m) bm)) (odict "BM" OName bm)).
  { destruct bm as [m|]; [|apply block_nil]. specialize (PB m eq_refl). cbn [option_map opt odict]. blk. }
  assert (B4 : block (opt (fun i => bs "	/SMask " ++ fmt_d (i + 1) ++ bs " 0 R" ++ [NL]) smask) (odict "SMask" (fun i => ref (i + 1)) smask)).
  { apply block_opt. intros a ->. hide. blk. }
  generalize dependent (odict "ca" r3 ca). generalize dependent (odict "CA" r3 CA). generalize dependent (odict "BM" OName bm). generalize dependent (odict "SMask" (fun i => ref (i + 1)) smask).
  generalize dependent (opt (fun a => bs "	/ca " ++ f3 a ++ [NL]) ca). generalize dependent (opt (fun a => bs "	/CA " ++ f3 a ++ [NL]) CA).
  generalize dependent (opt (fun m => bs "	/BM " ++ m ++ [NL]) (option_map (fun m => 47 :: m) bm)).
  generalize dependent (opt (fun i => bs "	/SMask " ++ fmt_d (i + 1) ++ bs " 0 R" ++ [NL]) smask). intros. clear FA PB. whole.
Qed.
Print Assumptions C60_gstate.
Theorem C60_softmask : forall g, reads_as (mask_body (bs "/Luminosity") g)
  (ODict [(bs "Type", N_ "Mask"); (bs "S", N_ "Luminosity"); (bs "G", ref (g + 1))]).
Proof. intros g. unfold mask_body. hide. whole. Qed.

(** ** Outlines *)
Definition ifd (c : bool) (k : string) (n : Z) : list (bytes * pobj) := if c then [(bs k, ref n)] else [].
Theorem C60_outlines : forall count first last, reads_as (outlines_body count first last)
  (ODict ([(bs "Type", N_ "Outlines"); (bs "Count", OInt count)] ++ ifd (0 <=? first) "First" first ++ ifd (0 <=? last) "Last" last)).
Proof. intros count first last. unfold outlines_body, ifd. destruct (0 <=? first), (0 <=? last); whole. Qed.

Lemma rune_range l : Forall (fun b => 0 <= b) l -> 0 <= fst (decode_rune l) <= 1114111.
Proof.
  intros H. unfold decode_rune, cont. destruct H as [|b0 l B0 H]; [cbn; lia|]. destruct (Z.ltb_spec b0 128); [cbn; lia|].
  destruct ((194 <=? b0) && (b0 <=? 223)) eqn:E1. { destruct H as [|b1 l B1 H]; [cbn; lia|]. destruct ((128 <=? b1) && (b1 <=? 191)) eqn:E2; cbn [fst]; lia. }
  destruct ((224 <=? b0) && (b0 <=? 239)) eqn:E3.
  { destruct H as [|b1 l B1 H]; [cbn; lia|]. destruct H as [|b2 l B2 H]; [cbn; lia|].
    match goal with |- context[fst (if ?c then _ else _)] => destruct c eqn:E4 end; cbn [fst]; [|lia]. apply andb_true_iff in E4 as [E4 E5]. apply andb_true_iff in E4 as [E4 E6].
    assert (128 <= b1 <= 191) by (destruct (b0 =? 224), (b0 =? 237); lia). lia. }
  destruct ((240 <=? b0) && (b0 <=? 244)) eqn:E4; [|cbn; lia].
  destruct H as [|b1 l B1 H]; [cbn; lia|]. destruct H as [|b2 l B2 H]; [cbn; lia|]. destruct H as [|b3 l B3 H]; [cbn; lia|].
  match goal with |- context[fst (if ?c then _ else _)] => destruct c eqn:E5 end; cbn [fst]; [|lia]. apply andb_true_iff in E5 as [E5 E6]. apply andb_true_iff in E5 as [E5 E7]. apply andb_true_iff in E5 as [E5 E8].
  destruct (Z.eqb_spec b0 244), (Z.eqb_spec b0 240); lia.
Qed.
Lemma runes_range f : forall l, Forall (fun b => 0 <= b) l -> Forall (fun c => 0 <= c <= 1114111) (runes_fuel f l).
Proof.
  induction f as [|f IH]; intros l H; [constructor|]. cbn [runes_fuel]. destruct l as [|b l]; [constructor|]. pose proof (rune_range (b :: l) H) as R.
  destruct (decode_rune (b :: l)) as [c n]. constructor; [exact R|]. apply IH. rewrite <- (firstn_skipn n (b :: l)) in H. now apply Forall_app in H.
Qed.
Lemma encode_hex s : Forall (fun b => 0 <= b) s -> exists ns, Forall (fun d => 0 <= d < 16) ns /\ encodeUtf8 s = map hexdigit ns.
Proof.
  intros H. unfold encodeUtf8, runes. pose proof (runes_range (List.length s) s H) as R. induction R as [|c l C _ (ns & A & B)]; [now exists []|].
  cbn [flat_map]. destruct (Z.lt_ge_cases c 65536).
  - exists (nibs4 c ++ ns). split; [apply Forall_app; split; [apply nibs4_ok; lia|exact A]|]. now rewrite map_app, hex4_nibs, B by lia.
  - destruct (hex4_long c ltac:(lia)) as (m & M1 & M2 & _). exists (m ++ ns). split; [now apply Forall_app|]. now rewrite map_app, M1, B.
Qed.
(** A text is written as a string whatever it is; if its characters are in the basic plane it is the text. *)
Definition text_of (s : bytes) (v : bytes) : Prop := forall cs, Forall bmp cs -> s = utf8 cs -> text_string v = Some cs.
Lemma read_text s : Forall (fun b => 0 <= b) s -> exists v, text_of s v /\
  forall stk r, pread (PRun (SHex (bs "FEFF")) stk) (encodeUtf8 s ++ 62 :: r) = pread (RI (IObj (OStr v) :: stk)) r.
Proof.
  intros H. destruct (encode_hex s H) as (ns & A & B). exists (pack None ([15; 14; 15; 15] ++ ns)).
  assert (G := hexstring_nib ([15; 14; 15; 15] ++ ns) ltac:(apply Forall_app; split; [repeat constructor; lia|assumption]) [] None).
  rewrite map_app, <- app_assoc in G. split.
  - intros cs HC ->. pose proof (hexstring_text cs [] HC) as X. rewrite B in X.
    change (bs "FEFF") with (map hexdigit [15; 14; 15; 15]) in X. rewrite X in G.
    match type of G with Some (?a, _) = Some (?b, _) => change b with (pack None ([15; 14; 15; 15] ++ ns)) in G; assert (Y : pack None ([15; 14; 15; 15] ++ ns) = a) by congruence end.
    rewrite Y. cbn [text_string]. now apply utf16_cbytes.
  - intros stk r. rewrite B, run_hex.
    + change (bs "FEFF") with (map hexdigit [15; 14; 15; 15]). rewrite G. reflexivity.
    + clear - A. induction A as [|d ns D _ IH]; [reflexivity|]. cbn [map forallb]. destruct (hexdigit_plain d D) as [-> _]. now rewrite IH.
Qed.
Theorem C60_outline : forall o, finite (oo_height o) -> Forall (fun b => 0 <= b) (oo_title o) -> exists title, text_of (oo_title o) title /\
  reads_as (outline_body o)
    (ODict ([(bs "Parent", ref (oo_parent o))] ++ ifd (0 <=? oo_prev o) "Prev" (oo_prev o) ++ ifd (0 <=? oo_next o) "Next" (oo_next o)
            ++ ifd (0 <? oo_first o) "First" (oo_first o) ++ ifd (0 <? oo_last o) "Last" (oo_last o)
            ++ [(bs "Dest", OArr [ref (oo_dest o); N_ "XYZ"; OInt 90; r6 (oo_height o); OInt 0]); (bs "Title", OStr title)])).
Proof.
  intros o F H. destruct (read_text (oo_title o) H) as (v & TV & R). exists v. split; [exact TV|]. clear TV H. unfold outline_body, ifd. hidereal.
  generalize dependent (encodeUtf8 (oo_title o)). intros et R.
  destruct (0 <=? oo_prev o), (0 <=? oo_next o), (0 <? oo_first o), (0 <? oo_last o);
    hide; (apply (reads_app _ _ [10]); [|reflexivity]); flat; repeat piece; unlit ">"%string (10 :: bs ">>" ++ [10]); rewrite R; repeat piece; apply read_finish; samestack.
Qed.
Print Assumptions C60_outline.
Print Assumptions C60_outlines.
Print Assumptions C60_softmask.
