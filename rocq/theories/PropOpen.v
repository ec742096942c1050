(** PropOpen.v — C76: opening the written file from its bytes shows the pages that were drawn. *)
From Coq Require Import QArith.
From Verif Require Import Base Crypto FileModel FileSpec FileProofs PropFile SecSpec SecModel PropSec DrawSpec NumModel StrModel StrSpec DocModel DocSpec DocProofs DocInv PropDoc
  StreamModel PropStream PdfSyntax PdfRead ObjModel PropObj PropObj2 PropObj3 RefModel PropRef PropRef2 OpenSpec PropOnePage.
From Verif Require PropName PropName2.
Open Scope Z_scope.

(** ** The cross-reference section and the trailer *)
Definition trl (enc : option Z) (info : option pdfinfo) : trailer := {| tr_encrypt := enc; tr_info := option_map (fun i => [writeInfo i]) info |}.
Lemma trailer_split enc info off (offs : list Z) : 0 <= off ->
  (bs "trailer" ++ [NL] ++ bs "<<" ++ [NL] ++ bs "/Size ") ++ dec (zlen offs + 1) ++ [NL] ++ bs "/Root 1 0 R" ++ [NL] ++ trailer_tail (trl enc info)
    ++ bs "startxref" ++ [NL] ++ dec off ++ [NL] ++ bs "%%EOF" ++ [NL]
  = (bs "trailer" ++ [NL]) ++ trailer_text enc info off (zlen offs + 1).
Proof.
  intros H. unfold trailer_text, trailer_tail, trl. cbn [tr_encrypt tr_info]. rewrite !fmt_d_nonneg by (pose proof (zlen_nonneg offs); lia). rewrite concat_app.
  generalize (List.concat (match option_map (fun i => [writeInfo i]) info with Some l => l | None => [] end)). intros it.
  generalize (List.concat match enc with Some id => [bs "/Encrypt " ++ fmt_d id ++ bs " 0 R" ++ [NL]; bs "/ID [()()]" ++ [NL]] | None => [] end). intros ec.
  rewrite <- !app_assoc. unfold NL. reflexivity.
Qed.
Lemma open_xref_ok objs enc info : let file := compile_bytes objs (trl enc info) in
  zlen file < 10 ^ 10 -> (forall i, info = Some i -> bytes_info i) ->
  exists es inf, open_xref file = Some (es, ODict ([(bs "Size", OInt (zlen objs + 1)); (bs "Root", ref 1)] ++ encrypt_entry enc ++ inf)) /\
    (inf = [] \/ exists o, inf = [(bs "Info", o)]) /\
    forall k o, nth_error objs k = Some o -> exists e post, nth_error es (S k) = Some e /\ xe_inuse e = true /\ xe_gen e = 0 /\
      skipn (Z.to_nat (xe_offset e)) file = dec (Z.of_nat k + 1) ++ (bs " 0 obj" ++ [NL]) ++ prog_bytes (o (Z.of_nat k + 1)) ++ post.
Proof.
  cbv zeta. unfold compile_bytes. rewrite compile_bytes_eq. cbn [fst].
  set (body := header ++ objs_bytes objs 1). set (offs := objs_offsets objs 1 (zlen header)).
  intros Hlen HI. assert (Lo : zlen offs = zlen objs) by (unfold zlen, offs; now rewrite objs_offsets_len).
  pose proof (zlen_nonneg objs) as Ho. pose proof (zlen_nonneg body) as Hb.
  assert (Hbody : zlen body < 10 ^ 10).
  { rewrite zlen_app in Hlen. pose proof (zlen_nonneg (List.concat (xref_chunks (trl enc info) (zlen body) offs (zlen objs)))). lia. }
  rewrite xref_concat by lia. clear Hlen.
  assert (Hoffs : Forall (fun n => 0 <= n < 10 ^ 10) offs).
  { eapply Forall_impl; [|apply objs_offsets_range; apply zlen_nonneg].
    cbn beta. intros a Ha. unfold body in Hbody. rewrite zlen_app in Hbody. lia. }
  destruct (read_trailer enc info (zlen body) (zlen offs + 1) HI) as (inf & RT & II).
  exists ({| xe_offset := 0; xe_gen := 65535; xe_inuse := false |} :: map (fun n => {| xe_offset := n; xe_gen := 0; xe_inuse := true |}) offs), inf.
  split; [|split].
  - unfold open_xref.
    match goal with |- context [read_startxref ?f] => assert (RS : read_startxref f = Some (zlen body)) end.
    { remember (bs "startxref" ++ [NL] ++ dec (zlen body) ++ [NL] ++ bs "%%EOF" ++ [NL]) as T eqn:ET.
      repeat rewrite app_assoc. rewrite ET. now apply read_startxref_ok. }
    rewrite RS. clear RS. rewrite skipn_zlen. rewrite expect_app3. rewrite read_num_dec by (try lia; reflexivity). rewrite expect_app.
    replace (Z.to_nat (zlen objs + 1)) with (S (List.length offs)) by (unfold zlen in Lo |- *; lia).
    cbn [read_entries]. rewrite (firstn_app_len 20), (skipn_app_len 20) by reflexivity. rewrite read_entries_ok by assumption.
    change (read_entry (bs "0000000000 65535 f " ++ [NL])) with (Some {| xe_offset := 0; xe_gen := 65535; xe_inuse := false |}).
    cbn match. rewrite trailer_split by lia. rewrite expect_app. rewrite RT, Lo. reflexivity.
  - destruct info as [i|]; [destruct II as (o & _ & ->); eauto|now left].
  - intros k o Eo. destruct (objs_offsets_nth objs 1 (zlen header) k o Eo) as (pre & post & E1 & E2).
    exists {| xe_offset := zlen header + zlen pre; xe_gen := 0; xe_inuse := true |}. eexists. split; [cbn [nth_error]; rewrite nth_error_map; fold offs in E2; rewrite E2; reflexivity|].
    split; [reflexivity|]. split; [reflexivity|]. cbn [xe_offset]. unfold body. rewrite E1. rewrite <- zlen_app.
    rewrite <- (app_assoc header), <- (app_assoc pre), (app_assoc header pre), skipn_zlen.
    unfold obj_bytes. rewrite fmt_d_nonneg by lia. rewrite (Z.add_comm 1). rewrite <- !app_assoc. reflexivity.
Qed.
(** ** Objects through the table *)
Lemma read_object_app l o rest x : read_object l = Some (o, rest) -> read_object (l ++ x) = Some (o, rest ++ x).
Proof.
  unfold read_object. rewrite pread_app. destruct (pread (PRun SIdle []) l) as [x1 x2|o' r'|]; try discriminate. intros E. injection E as <- <-.
  assert (D : forall y r, pread (PDone o' r) y = PDone o' (r ++ y)).
  { induction y as [|b y IH]; intros r; [now rewrite app_nil_r|]. unfold pread in *. cbn [fold_left pstep]. rewrite IH. now rewrite <- app_assoc. }
  now rewrite D.
Qed.
Lemma object_of_ok file es k e body post o rest : nth_error es (S k) = Some e -> xe_inuse e = true -> xe_gen e = 0 ->
  skipn (Z.to_nat (xe_offset e)) file = dec (Z.of_nat k + 1) ++ (bs " 0 obj" ++ [NL]) ++ body ++ post -> read_object body = Some (o, rest) ->
  object_of file es (Z.of_nat k + 1) = Some (o, rest ++ post).
Proof.
  intros N U G S R. unfold object_of. replace (Z.to_nat (Z.of_nat k + 1)) with (Datatypes.S k) by lia. rewrite N, U, G. cbn [andb Z.eqb]. rewrite S.
  rewrite read_num_dec by (try lia; reflexivity). rewrite Z.eqb_refl, expect_app. now apply read_object_app.
Qed.

Lemma skip_white_app a b : forallb is_white a = true -> skip_white (a ++ b) = skip_white b.
Proof. induction a as [|x a IH]; intros H; [reflexivity|]. cbn [forallb] in H. apply andb_true_iff in H as [H1 H2]. cbn [app skip_white]. rewrite H1. auto. Qed.
Lemma stream_data_ok o n pre data post x : value_of "Length" o = Some (OInt n) -> n = zlen data -> forallb is_white pre = true -> forallb is_white post = true ->
  OpenSpec.stream_data o ((pre ++ bs "stream" ++ [10] ++ data ++ post ++ bs "endstream" ++ [10]) ++ x) = Some data.
Proof.
  intros V -> A B. unfold OpenSpec.stream_data. rewrite V. rewrite <- app_assoc, skip_white_app by exact A.
  set (R := (data ++ post ++ bs "endstream" ++ [10]) ++ x). replace ((bs "stream" ++ [10] ++ data ++ post ++ bs "endstream" ++ [10]) ++ x) with ((bs "stream" ++ [10]) ++ R) by (unfold R; now rewrite <- !app_assoc).
  change (skip_white ((bs "stream" ++ [10]) ++ R)) with ((bs "stream" ++ [10]) ++ R). rewrite expect_app.
  unfold R. rewrite <- app_assoc. rewrite skipn_zlen. rewrite <- app_assoc, skip_white_app by exact B. pose proof (zlen_nonneg data) as N0.
  match goal with |- context [is_prefix ?p ?l] => replace (is_prefix p l) with true by (symmetry; exact (is_prefix_app (bs "endstream") ([10] ++ x))) end.
  rewrite zlen_app. match goal with |- context [zlen ?y] => match y with post ++ _ => pose proof (zlen_nonneg y) end end.
  replace (0 <=? zlen data) with true by lia. match goal with |- context [?a <=? ?b] => replace (a <=? b) with true by lia end. cbn [andb].
  f_equal. unfold zlen. rewrite Nat2Z.id. now rewrite firstn_app, Nat.sub_diag, firstn_all, app_nil_r.
Qed.
(** ** The written objects *)
(** The texts of the objects a reader of page contents meets, as the write methods produce them (ObjModel.v, StreamModel.v).  [ren] is the text of the drawings of
    a content object, [box] the numbers of a page size, [zl] the compressor; the texts of all other objects are arbitrary. *)
Definition written_doc (zl : bytes -> bytes) (pr : option protection) (box : rectq -> f64 * f64) (ren : list item -> bytes) (t : gp) (i : nat) (o : obj) (txt : bytes) : Prop :=
  match o with
  | OCatalog => txt = catalog_body (g_cat_outl t)
  | OPages => exists w h, finite w /\ finite h /\ txt = pages_body w h (g_pagecount t) (g_kids t)
  | OPage p => exists trim, (forall b, trim = Some b -> finite_box b) /\ txt = page_body 4 (pg_links p) (pg_contents p) (option_map box (pg_size p)) trim
  | OContent l => txt = sbody zl pr (Z.of_nat i + 1) (SContent (negb (g_compress t =? 0)) (ren l))
  | OEncryption => exists p, pr = Some p /\ txt = encryption_body p
  | OProcSet => exists tpls, Forall (fun e => exists n, fst e = 47 :: n /\ n <> [] /\ plain_name n = true /\ forall k, n <> bs "I" ++ fmt_d k) tpls /\
      txt = procset_body (map (fun r => (rf_count r, Z.of_nat (rf_index r))) (g_fonts t)) (map (fun r => (rc_count r, Z.of_nat (rc_index r))) (g_cs t))
                         (map Z.of_nat (g_xobjs t)) tpls (map Z.of_nat (g_extgs t))
  | OSubsetFont f => nice_family (fo_family f) /\ txt = subset_font_body (fo_family f) (Z.of_nat (fo_cid f)) (Z.of_nat (fo_umap f))
  | OColorSpace nm _ => plain_name nm = true /\ exists space zeros comps, reads_as txt (cspace nm space zeros comps)
  | _ => True
  end.
(** The same, with the data of the pictures drawn: those of the image file, as embedded. *)
Definition written_as (zl : bytes -> bytes) (pr : option protection) (box : rectq -> f64 * f64) (ren : list item -> bytes) (t : gp) (i : nat) (o : obj) (txt : bytes) : Prop :=
  match o with
  | OImage im Plain => exists p, StreamModel.im_data p = DocModel.im_data im /\ txt = sbody zl pr (Z.of_nat i + 1) (SImage p false false)
  | _ => written_doc zl pr box ren t i o txt
  end.
Lemma written_doc_of zl pr box ren t i o txt : written_as zl pr box ren t i o txt -> written_doc zl pr box ren t i o txt.
Proof. destruct o; try (intros H; exact H). intros _. exact I. Qed.
(** What a drawing in the content means to a reader of the file, through the resources of its page. *)
Definition means (file : bytes) (pw : password) (page : pobj) (it : item) (x : shown) : Prop :=
  match it, x with
  | IBytes b, ShBytes b' => b = b'
  | ITemplate n _ _, ShTemplate n' => n = n'
  | IText n txt _, ShText family _ txt' => txt = txt' /\
      exists num font rest, named_object file page "Font" (bs "F" ++ fmt_d n) = Some (num, (font, rest)) /\ is_type "Font" font = true /\ value_of "BaseFont" font = Some (OName (fontName family))
  | IImage i _, ShImage data => exists dict, named_data file pw page (bs "I" ++ fmt_d (Z.of_nat i + 1)) = Some (dict, data)
  | IColorSpace n, ShColorSpace name =>
      exists num more rest, named_object file page "ColorSpace" (bs "CS" ++ fmt_d (n + 1)) = Some (num, (OArr (N_ "Separation" :: OName name :: more), rest))
  | _, _ => False
  end.
(** The protection the document was given, and a password that opens it (any password, when it has none). *)
Definition locked (protect : bool) (pr : option protection) (pw : password) : Prop :=
  match pr with
  | None => protect = false
  | Some p => protect = true /\ exists rnd perms user owner, 0 <= perms < 256 /\ setProtection rnd perms user owner = Some p /\ (pw = User user \/ pw = Owner (owner_of rnd owner))
  end.
Definition media (wh : f64 * f64) : pobj := OArr [OInt 0; OInt 0; r2 (fst wh); r2 (snd wh)].

Lemma unlock_ok p pw : locked true (Some p) pw -> unlock (p_o p) (p_u p) (p_p p) pw = Some (p_key p).
Proof.
  intros (_ & rnd & perms & user & owner & HP & E & W). destruct (C14_passwords_open_the_file rnd perms user owner HP) as (p' & O & U & P & E' & R & A & B & _).
  rewrite E in E'. injection E' as <-.
  assert (N : p_p p < 0). { pose proof (setProtection_eq rnd perms user owner) as X. cbv zeta in X. rewrite p_value in X by exact HP. rewrite E in X. apply (f_equal (fun o => match o with Some q => p_p q | None => 0 end)) in X.
  change (p_p p = Z.lor 192 perms - 256) in X. rewrite X. pose proof (lor192 perms HP) as L9. lia. }
  rewrite (read_encrypt_body p N) in R. injection R as <- <- <-. destruct W as [-> | ->]; [exact A|exact B].
Qed.
Lemma all_some_refs ks : all_some (refs_of (map ref ks)) = Some ks.
Proof. unfold refs_of. rewrite map_map. change (all_some (map Some ks) = Some ks). induction ks as [|k ks IH]; [reflexivity|]. cbn [map all_some]. now rewrite IH. Qed.
Lemma all_some_F2 {A B C} (f : A -> option B) (R : B -> C -> Prop) ks cs : Forall2 (fun k c => exists x, f k = Some x /\ R x c) ks cs -> exists xs, all_some (map f ks) = Some xs /\ Forall2 R xs cs.
Proof.
  induction 1 as [|k c ks cs (x & E & H) F IH]; [exists []; split; [reflexivity|constructor]|]. destruct IH as (xs & E2 & G). exists (x :: xs). cbn [map all_some]. rewrite E, E2. split; [reflexivity|now constructor].
Qed.
Lemma image_length p : value_of "Length" (ODict (picture p (im_cs p) ++ parms p ++ (colour_mask (im_trns p) ++ soft_mask p) ++ [(bs "Length", OInt (zlen (StreamModel.im_data p)))])) = Some (OInt (zlen (StreamModel.im_data p))).
Proof.
  unfold picture, parms, predictor, colour_mask, soft_mask, cmyk_decode, filter_of. generalize (space_of p (im_cs p)). intros sp.
  destruct (im_cs p), (im_filter p), (im_colors p), (im_trns p), (im_smask p); reflexivity.
Qed.

(** Objects through the table, whatever is known of their texts. *)
Lemma objects_of (P : nat -> obj -> bytes -> Prop) t objs file es : List.length objs = List.length (g_objs t) -> zlen objs < 2 ^ 24 ->
  (forall k o, nth_error objs k = Some o -> exists e post, nth_error es (S k) = Some e /\ xe_inuse e = true /\ xe_gen e = 0 /\
      skipn (Z.to_nat (xe_offset e)) file = dec (Z.of_nat k + 1) ++ (bs " 0 obj" ++ [NL]) ++ prog_bytes (o (Z.of_nat k + 1)) ++ post) ->
  (forall i o f, nth_error (g_objs t) i = Some o -> nth_error objs i = Some f -> P i o (prog_bytes (f (Z.of_nat i + 1)))) ->
  forall n o, obj_no t n = Some o -> exists i txt post, n = Z.of_nat i + 1 /\ n < 2 ^ 24 /\ P i o txt /\
     forall v rest, read_object txt = Some (v, rest) -> object_of file es n = Some (v, rest ++ post).
Proof.
  intros LEN LO OB WR.
  intros n o O. assert (N1 : 1 <= n) by (unfold obj_no in O; destruct (Z.leb_spec n 0); [discriminate|lia]).
    replace n with (Z.of_nat (Z.to_nat (n - 1)) + 1) in * by lia. set (i := Z.to_nat (n - 1)) in *. clearbody i. rewrite obj_no_of_nat in O.
    assert (Li : (i < List.length (g_objs t))%nat) by (apply nth_error_Some; congruence). rewrite <- LEN in Li.
    destruct (nth_error objs i) as [f|] eqn:NF; [|apply nth_error_None in NF; lia].
    destruct (OB i f NF) as (e & post & N & U & G & SK). exists i, (prog_bytes (f (Z.of_nat i + 1))), post. split; [reflexivity|]. split; [unfold zlen in LO; lia|]. split; [now apply WR|].
    intros v rest RO. eapply object_of_ok; eauto.
Qed.
(** What the reader meets in a written document, from here on in terms of the document's objects. *)
Definition page_table (t : gp) (aps : list apage) : Prop :=
  Forall2 (fun k ap => exists p, obj_no t k = Some (OPage p) /\ pg_size p = ap_size ap /\
     ((pg_contents p = [] /\ ap_items ap = []) \/ (exists n its, pg_contents p = [n] /\ obj_no t n = Some (OContent its) /\ map (show t) its = map Some (ap_items ap)))) (g_kids t) aps.
Section Opening.
  Variables (c : config) (l : list op) (zl : bytes -> bytes) (inflate : bytes -> option bytes) (box : rectq -> f64 * f64) (ren : list item -> bytes).
  Variables (pr : option protection) (pw : password) (info : option pdfinfo) (objs : list (Z -> wprog)) (P : nat -> obj -> bytes -> Prop).
  Hypothesis F : finishes (start c zero_gp) l.
  Hypothesis HZ : forall d, inflate (zl d) = Some d.
  Hypothesis HB : forall r, finite (fst (box r)) /\ finite (snd (box r)).
  Hypothesis HI : forall i, info = Some i -> bytes_info i.
  Let s := doc c l. Let t := output s.
  Hypothesis LK : locked (cf_protect (g_cfg s)) pr pw.
  Hypothesis LEN : List.length objs = List.length (g_objs t).
  Hypothesis WR : forall i o f, nth_error (g_objs t) i = Some o -> nth_error objs i = Some f -> P i o (prog_bytes (f (Z.of_nat i + 1))).
  Hypothesis PW : forall i o txt, P i o txt -> written_doc zl pr box ren t i o txt.
  Let file := compile_bytes objs {| tr_encrypt := if cf_protect (g_cfg s) then Some (g_encid t) else None; tr_info := option_map (fun i => [writeInfo i]) info |}.
  Hypothesis LF : zlen file < 10 ^ 10.
  Hypothesis LO : zlen objs < 2 ^ 24.
  Definition opened (es : list xentry) (tr : pobj) : Prop :=
    open_xref file = Some (es, tr) /\ file_key_of file es tr pw = Some (option_map p_key pr) /\ ref_of "Root" tr = Some 1 /\
    forall n o, obj_no t n = Some o -> exists i txt post, n = Z.of_nat i + 1 /\ n < 2 ^ 24 /\ P i o txt /\
     forall v rest, read_object txt = Some (v, rest) -> object_of file es n = Some (v, rest ++ post).
  Lemma file_opened : exists es tr, opened es tr.
  Proof using F HI LK LEN WR PW LF LO.
    destruct (C61_roots c l F) as [R1 R2]. change (exec (start c zero_gp) l) with s in R1, R2. fold t in R1, R2.
    set (enc := if cf_protect (g_cfg s) then Some (g_encid t) else None) in *.
    destruct (open_xref_ok objs enc info LF HI) as (es & inf & OX & INF & OB). unfold trl in OX. fold file in OX.
    pose proof (objects_of P t objs file es LEN LO OB WR) as OBJ.
    exists es. eexists. split; [exact OX|]. split; [|split; [|exact OBJ]].
    - unfold file_key_of. unfold enc. destruct (cf_protect (g_cfg s)) eqn:CP.
      + destruct pr as [p|]; [|discriminate LK]. specialize (R2 eq_refl). destruct (OBJ _ _ R2) as (i & txt & post & _ & _ & PP & RO). destruct (PW _ _ _ PP) as (q & Eq & ->). injection Eq as <-.
        destruct (C60_encryption p) as (rest & RE & _). specialize (RO _ _ RE).
        assert (HK : forall o, has_key "Encrypt" (ODict ([(bs "Size", OInt (zlen objs + 1)); (bs "Root", ref 1)] ++ encrypt_entry (Some (g_encid t)) ++ o)) = true) by reflexivity. rewrite HK.
        assert (RF : ref_of "Encrypt" (ODict ([(bs "Size", OInt (zlen objs + 1)); (bs "Root", ref 1)] ++ encrypt_entry (Some (g_encid t)) ++ inf)) = Some (g_encid t)) by (destruct INF as [->|(o & ->)]; reflexivity). rewrite RF, RO.
        pose proof (unlock_ok p pw LK) as UK.
        change (match unlock (p_o p) (p_u p) (p_p p) pw with Some k => Some (Some k) | None => None end = Some (option_map p_key (Some p))). rewrite UK. reflexivity.
      + destruct pr as [p|]; [destruct LK; congruence|]. destruct INF as [->|(o & ->)]; reflexivity.
    - unfold enc; destruct (cf_protect (g_cfg s)), INF as [->|(o & ->)]; reflexivity.
  Qed.
  Lemma name_means (PWI : forall i im txt, P i (OImage im Plain) txt -> exists p, StreamModel.im_data p = DocModel.im_data im /\ txt = sbody zl pr (Z.of_nat i + 1) (SImage p false false)) es tr : opened es tr -> forall page it x, ref_of "Resources" page = Some 4 -> show t it = Some x -> means file pw page it x.
  Proof using F HZ LEN LK PW WR.
    intros (OX & KEY & _ & OBJ) page it x RF SH.
      assert (R4 : obj_no t 4 = Some OProcSet).
      { pose proof (PropName2.RGood_doc c l F) as G. fold s in G. destruct (R_obj t KResources 4) as (o & O & K); [apply (gd_ref false t G), in_or_app; right; insr|]. change (obj_no t 4 = Some o) in O. rewrite O. now destruct o. }
      destruct (OBJ _ _ R4) as (i4 & txt4 & post4 & _ & _ & PP & RO4). destruct (PW _ _ _ PP) as (tpls & HT & ->). clear PP.
      match type of RO4 with context [procset_body ?a ?b ?c ?d ?e] => destruct (C60_resources a b c d e) as (rest4 & RE4 & _) end; [eapply Forall_impl; [|exact HT]; intros e (n & A & B & C & _); eauto|].
      specialize (RO4 _ _ RE4). clear RE4.
      pose proof (PropName2.Good_doc c l F) as G. fold s in G. fold t in G. destruct (PropName.gd_tidy t G) as [[T1 _] [T2 _] [T3 _] [T4 _]]. clear G.
      destruct it as [b|nm ty ph|ix gs|cn|fc tx gs]; cbn [show] in SH.
      - injection SH as <-. reflexivity.
      - injection SH as <-. reflexivity.
      - unfold xobj_res in SH. destruct (existsb (Nat.eqb ix) (g_xobjs t)) eqn:EX; [|discriminate]. destruct (nth_error (g_objs t) ix) as [o|] eqn:NO; [|discriminate].
        destruct o; try discriminate. destruct use; try discriminate. injection SH as <-. rewrite <- obj_no_of_nat in NO.
        apply existsb_exists in EX as (ix' & IX & EE). apply Nat.eqb_eq in EE. subst ix'.
        destruct (OBJ _ _ NO) as (i5 & txt5 & post5 & E5 & L5 & PP & RO5). destruct (PWI _ _ _ PP) as (p & DT & ->). clear PP. rewrite <- E5 in RO5.
        destruct (C60_image zl pr (Z.of_nat ix + 1) p false) as (pre & post & rest & RE & -> & WA & WB). specialize (RO5 _ _ RE).
        cbn [means]. unfold named_data, named_object. rewrite OX, KEY, RF, RO4.
        match goal with |- context [value_of "XObject" ?d] => set (dd := d); assert (VD : value_of "XObject" dd = Some (ODict (map (fun i => resource "I" (i + 1) (i + 1)) (map Z.of_nat (g_xobjs t)) ++ map (fun e => (skipn 1 (fst e), ref (snd e))) tpls))) by reflexivity end.
        rewrite VD. rewrite map_map.
        assert (DG : value_at (bs "I" ++ fmt_d (Z.of_nat ix + 1)) (ODict (map (fun i => resource "I" (Z.of_nat i + 1) (Z.of_nat i + 1)) (g_xobjs t) ++ map (fun e => (skipn 1 (fst e), ref (snd e))) tpls)) = Some (ref (Z.of_nat ix + 1))).
        { refine (PropName2.dict_map (fun i => resource "I" (Z.of_nat i + 1) (Z.of_nat i + 1)) (g_xobjs t) ix _ _ IX _); [now apply (PropName2.index_ok "I")|].
          intros e M EQ. apply in_map_iff in M as (tp & <- & M). cbn [fst resource] in EQ. rewrite Forall_forall in HT. destruct (HT tp M) as (n & EN & _ & _ & NI). rewrite EN in EQ. exact (NI _ EQ). }
        rewrite DG. cbn [ref]. cbn [Z.eqb]. rewrite RO5. cbn [option_map].
        rewrite (stream_data_ok _ (zlen (StreamModel.im_data p))); [|apply image_length|now rewrite enc_len|exact WA|exact WB].
        cbn [option_map]. eexists. do 2 f_equal. rewrite <- DT. rewrite enc_eq. destruct pr as [q|]; [|reflexivity]. cbn [option_map]. unfold decrypt. rewrite <- C13_key_material_is_standard by lia. apply rc4_invol.
      - unfold cs_res in SH. destruct (find _ (g_cs t)) as [r|] eqn:FD; [|discriminate]. destruct (nth_error (g_objs t) (rc_index r)) as [o|] eqn:NO; [|discriminate].
        destruct o; try discriminate. injection SH as <-. rewrite <- obj_no_of_nat in NO. apply find_some in FD as [FI FE]. apply Z.eqb_eq in FE.
        destruct (OBJ _ _ NO) as (i5 & txt5 & post5 & E5 & L5 & PP & RO5). destruct (PW _ _ _ PP) as (_ & space & zs & cs & RR). clear PP. destruct RR as (rest & RE & _). specialize (RO5 _ _ RE).
        cbn [means]. unfold named_object. rewrite OX, RF, RO4.
        match goal with |- context [value_of "ColorSpace" ?d] => set (dd := d); assert (VD : value_of "ColorSpace" dd = Some (ODict (map (fun e => resource "CS" (fst e + 1) (snd e + 1)) (map (fun r => (rc_count r, Z.of_nat (rc_index r))) (g_cs t))))) by reflexivity end.
        rewrite VD. rewrite map_map. cbn [fst snd].
        assert (DG : value_at (bs "CS" ++ fmt_d (cn + 1)) (ODict (map (fun r => resource "CS" (rc_count r + 1) (Z.of_nat (rc_index r) + 1)) (g_cs t))) = Some (ref (Z.of_nat (rc_index r) + 1))).
        { pose proof (PropName2.dict_map (fun r => resource "CS" (rc_count r + 1) (Z.of_nat (rc_index r) + 1)) (g_cs t) r []) as D. rewrite app_nil_r in D. cbn [resource fst snd] in D. rewrite FE in D.
          apply D; [|exact FI|intros e []]. now apply (PropName2.counts_ok "CS"). }
        rewrite DG. cbn [ref]. cbn [Z.eqb]. rewrite RO5. cbn [option_map]. do 3 eexists. reflexivity.
      - unfold font_res in SH. destruct (find _ (g_fonts t)) as [r|] eqn:FD; [|discriminate]. destruct (nth_error (g_objs t) (rf_index r)) as [o|] eqn:NO; [|discriminate].
        destruct o; try discriminate. injection SH as <-. rewrite <- obj_no_of_nat in NO. apply find_some in FD as [FI FE]. apply Z.eqb_eq in FE.
        destruct (OBJ _ _ NO) as (i5 & txt5 & post5 & E5 & L5 & PP & RO5). destruct (PW _ _ _ PP) as (NF & ->). clear PP. 
        destruct (C60_font (fo_family f) (Z.of_nat (fo_cid f)) (Z.of_nat (fo_umap f)) NF) as (rest & RE & _). specialize (RO5 _ _ RE).
        cbn [means]. split; [reflexivity|]. unfold named_object. rewrite OX, RF, RO4.
        match goal with |- context [value_of "Font" ?d] => set (dd := d); assert (VD : value_of "Font" dd = Some (ODict (map (fun e => resource "F" (fst e + 1) (snd e + 1)) (map (fun r => (rf_count r, Z.of_nat (rf_index r))) (g_fonts t))))) by reflexivity end.
        rewrite VD. rewrite map_map. cbn [fst snd].
        assert (DG : value_at (bs "F" ++ fmt_d fc) (ODict (map (fun r => resource "F" (rf_count r + 1) (Z.of_nat (rf_index r) + 1)) (g_fonts t))) = Some (ref (Z.of_nat (rf_index r) + 1))).
        { pose proof (PropName2.dict_map (fun r => resource "F" (rf_count r + 1) (Z.of_nat (rf_index r) + 1)) (g_fonts t) r []) as D. rewrite app_nil_r in D. cbn [resource fst snd] in D. rewrite FE in D.
          apply D; [|exact FI|intros e []]. now apply (PropName2.counts_ok "F"). }
        rewrite DG. cbn [ref]. cbn [Z.eqb]. rewrite RO5. cbn [option_map]. do 3 eexists. split; [reflexivity|]. split; reflexivity.
  Qed.
  (** The object an image name leads to. *)
  Lemma named_image es tr : opened es tr -> forall page ix, ref_of "Resources" page = Some 4 -> In ix (g_xobjs t) ->
    named_object file page "XObject" (bs "I" ++ fmt_d (Z.of_nat ix + 1)) = option_map (pair (Z.of_nat ix + 1)) (object_of file es (Z.of_nat ix + 1)).
  Proof using F LEN LK PW WR.
    intros (OX & KEY & _ & OBJ) page ix RF IX.
    assert (R4 : obj_no t 4 = Some OProcSet).
    { pose proof (PropName2.RGood_doc c l F) as G. fold s in G. destruct (R_obj t KResources 4) as (o & O & K); [apply (gd_ref false t G), in_or_app; right; insr|]. change (obj_no t 4 = Some o) in O. rewrite O. now destruct o. }
    destruct (OBJ _ _ R4) as (i4 & txt4 & post4 & _ & _ & PP & RO4). destruct (PW _ _ _ PP) as (tpls & HT & ->). clear PP.
    match type of RO4 with context [procset_body ?a ?b ?c ?d ?e] => destruct (C60_resources a b c d e) as (rest4 & RE4 & _) end; [eapply Forall_impl; [|exact HT]; intros e (n & A & B & C & _); eauto|].
    specialize (RO4 _ _ RE4). clear RE4.
    pose proof (PropName2.Good_doc c l F) as G. fold s in G. fold t in G. destruct (PropName.gd_tidy t G) as [[T1 _] [T2 _] [T3 _] [T4 _]]. clear G.
    unfold named_object. rewrite OX, RF, RO4.
    match goal with |- context [value_of "XObject" ?d] => set (dd := d); assert (VD : value_of "XObject" dd = Some (ODict (map (fun i => resource "I" (i + 1) (i + 1)) (map Z.of_nat (g_xobjs t)) ++ map (fun e => (skipn 1 (fst e), ref (snd e))) tpls))) by reflexivity end.
    rewrite VD. rewrite map_map.
    assert (DG : value_at (bs "I" ++ fmt_d (Z.of_nat ix + 1)) (ODict (map (fun i => resource "I" (Z.of_nat i + 1) (Z.of_nat i + 1)) (g_xobjs t) ++ map (fun e => (skipn 1 (fst e), ref (snd e))) tpls)) = Some (ref (Z.of_nat ix + 1))).
    { refine (PropName2.dict_map (fun i => resource "I" (Z.of_nat i + 1) (Z.of_nat i + 1)) (g_xobjs t) ix _ _ IX _); [now apply (PropName2.index_ok "I")|].
      intros e M EQ. apply in_map_iff in M as (tp & <- & M). cbn [fst resource] in EQ. rewrite Forall_forall in HT. destruct (HT tp M) as (n & EN & _ & _ & NI). rewrite EN in EQ. exact (NI _ EQ). }
    rewrite DG. cbn [ref]. cbn [Z.eqb]. reflexivity.
  Qed.
  Variable aps : list apage.
  Hypothesis PT : page_table t aps.
  Hypothesis CNT : g_pagecount t = zlen (g_kids t).
  Hypothesis REN : ren [] = [].
  Lemma pages_opened : exists ps, open_pages inflate file pw = Some ps /\
    Forall2 (fun pc ap => value_of "MediaBox" (fst pc) = option_map (fun r => media (box r)) (ap_size ap) /\ ref_of "Resources" (fst pc) = Some 4 /\
                          exists its, snd pc = ren its /\ map (show t) its = map Some (ap_items ap) /\ (its = [] \/ In (OContent its) (g_objs t))) ps aps.
  Proof using All.
    destruct (C61_roots c l F) as [R1 R2]. change (exec (start c zero_gp) l) with s in R1, R2. fold t in R1, R2.
    assert (PG : obj_no t 2 = Some OPages).
    { assert (G : Good false t) by (apply (Step_good false s); [apply S_output|apply (Good_exec false l false); [discriminate|discriminate|exact F|apply Good_start]]).
      destruct (R_obj t KPages 2) as (o & O & K); [apply (gd_ref false t G), in_or_app; right; insr|]. rewrite O. now destruct o. }
    destruct file_opened as (es & tr & OX & KEY & RR & OBJ). unfold open_pages. rewrite OX, KEY, RR. clear RR.
    destruct (OBJ _ _ R1) as (i1 & txt1 & post1 & _ & _ & PP & RO1). pose proof (PW _ _ _ PP) as Q1. cbn [written_doc] in Q1. subst txt1. clear PP. destruct (C60_catalog (g_cat_outl t)) as (rest1 & RE1 & _). rewrite (RO1 _ _ RE1). clear RO1 RE1.
    assert (T1 : forall b x, is_type "Catalog" (ODict ([(bs "Type", N_ "Catalog"); (bs "Pages", ref 2)] ++ (if b : bool then [(bs "PageMode", N_ "UseOutlines"); (bs "Outlines", ref x)] else []))) = true
      /\ ref_of "Pages" (ODict ([(bs "Type", N_ "Catalog"); (bs "Pages", ref 2)] ++ (if b : bool then [(bs "PageMode", N_ "UseOutlines"); (bs "Outlines", ref x)] else []))) = Some 2) by (intros [] x; split; reflexivity).
    rewrite (proj1 (T1 _ _)), (proj2 (T1 _ _)). clear T1.
    destruct (OBJ _ _ PG) as (i2 & txt2 & post2 & _ & _ & PP & RO2). destruct (PW _ _ _ PP) as (w & h & FW & FH & ->). clear PP. destruct (C60_pages w h (g_pagecount t) (g_kids t) FW FH) as (rest2 & RE2 & _). rewrite (RO2 _ _ RE2). clear RO2 RE2.
    set (root := ODict _). assert (V1 : value_of "Kids" root = Some (OArr (map ref (g_kids t)))) by reflexivity. assert (V2 : value_of "Count" root = Some (OInt (g_pagecount t))) by reflexivity.
    assert (V3 : is_type "Pages" root = true) by reflexivity. rewrite V1, V2, V3. clear V1 V2 V3 root.
    replace (g_pagecount t =? zlen (map ref (g_kids t))) with true by (rewrite CNT; unfold zlen; rewrite map_length; now rewrite Z.eqb_refl). cbn [andb]. rewrite all_some_refs.
    apply all_some_F2. eapply Forall2_impl; [|exact PT]. intros k ap (p & O & SZ & CT).
    destruct (OBJ _ _ O) as (i3 & txt3 & post3 & _ & _ & PP & RO3). destruct (PW _ _ _ PP) as (trim & FT & ->). clear PP.
    assert (FS : forall w h, option_map box (pg_size p) = Some (w, h) -> finite w /\ finite h).
    { intros w0 h0 E. destruct (pg_size p) as [r|]; [|discriminate]. injection E as E. specialize (HB r). rewrite E in HB. exact HB. }
    assert (MB : forall content, value_of "MediaBox" (page_dict 4 (pg_links p) content (option_map box (pg_size p)) (trimSet trim)) = option_map (fun r => media (box r)) (ap_size ap)
       /\ is_type "Page" (page_dict 4 (pg_links p) content (option_map box (pg_size p)) (trimSet trim)) = true).
    { intros content. rewrite SZ. unfold page_dict. destruct (pg_links p), content, (ap_size ap) as [r|], (trimSet trim); cbn [option_map]; try destruct (box r); split; reflexivity. }
    assert (HC : forall content, has_key "Contents" (page_dict 4 (pg_links p) content (option_map box (pg_size p)) (trimSet trim)) = (match content with Some _ => true | None => false end)
       /\ value_of "Contents" (page_dict 4 (pg_links p) content (option_map box (pg_size p)) (trimSet trim)) = option_map ref content).
    { intros content. unfold page_dict. destruct (pg_links p), content, (option_map box (pg_size p)) as [[? ?]|], (trimSet trim); split; reflexivity. }
    assert (RF : forall content, ref_of "Resources" (page_dict 4 (pg_links p) content (option_map box (pg_size p)) (trimSet trim)) = Some 4) by
      (intros content; unfold page_dict; destruct (pg_links p), content, (option_map box (pg_size p)) as [[? ?]|], (trimSet trim); reflexivity).
    destruct CT as [[CT AP]|(n & its & CT & ON & SH)].
    - rewrite CT in RO3. destruct (C60_page_partial 4 (pg_links p) None _ _ FS FT) as (rest3 & RE3 & _). rewrite (RO3 _ _ RE3). clear RO3 RE3.
      rewrite (proj2 (MB None)). unfold content_of. rewrite (proj1 (HC None)). cbn [option_map]. eexists. split; [reflexivity|]. cbn [fst snd]. split; [apply MB|]. split; [apply RF|]. exists []. rewrite AP, REN. split; [reflexivity|]. split; [reflexivity|now left].
    - rewrite CT in RO3. destruct (C60_page_partial 4 (pg_links p) (Some n) _ _ FS FT) as (rest3 & RE3 & _). rewrite (RO3 _ _ RE3). clear RO3 RE3.
      rewrite (proj2 (MB (Some n))). unfold content_of. rewrite (proj1 (HC (Some n))), (proj2 (HC (Some n))). cbn [option_map ref]. cbn [Z.eqb].
      destruct (OBJ _ _ ON) as (i4 & txt4 & post4 & E4 & L4 & PP & RO4). pose proof (PW _ _ _ PP) as Q4. cbn [written_doc] in Q4. subst txt4. clear PP. rewrite <- E4 in RO4.
      set (cmp := negb (g_compress t =? 0)) in *. set (d := ren its) in *.
      destruct (C60_content zl pr n cmp d) as (pre & post & rest & RE & -> & WA & WB). specialize (RO4 _ _ RE). unfold stream_of. rewrite RO4.
      rewrite (stream_data_ok _ (zlen (if cmp then zl d else d))); [|destruct cmp; reflexivity|now rewrite enc_len|exact WA|exact WB].
      assert (DE : (match option_map p_key pr with Some k0 => decrypt k0 n (StreamModel.enc pr n (if cmp then zl d else d)) | None => StreamModel.enc pr n (if cmp then zl d else d) end) = (if cmp then zl d else d)).
      { rewrite enc_eq. destruct pr as [q|]; [|reflexivity]. cbn [option_map]. unfold decrypt. rewrite <- C13_key_material_is_standard by lia. apply rc4_invol. }
      cbv zeta. rewrite DE.
      assert (FL : (if has_key "Filter" (ODict (flate cmp ++ [(bs "Length", OInt (zlen (if cmp then zl d else d)))])) then
         match value_of "Filter" (ODict (flate cmp ++ [(bs "Length", OInt (zlen (if cmp then zl d else d)))])) with Some (OName f) => if list_eqb f (bs "FlateDecode") then inflate (if cmp then zl d else d) else None | _ => None end
         else Some (if cmp then zl d else d)) = Some d).
      { destruct cmp; [|reflexivity]. change (inflate (zl d) = Some d). apply HZ. }
      rewrite FL. cbn [option_map]. eexists. split; [reflexivity|]. cbn [fst snd]. split; [apply MB|]. split; [apply RF|]. exists its. split; [reflexivity|]. split; [exact SH|]. right. rewrite E4, obj_no_of_nat in ON. exact (nth_error_In _ _ ON).
  Qed.
End Opening.
Lemma plain_table c l : forallb plain_op l = true -> page_table (output (doc c l)) (a_pages (adoc_of c l)) /\ g_pagecount (output (doc c l)) = zlen (g_kids (output (doc c l))).
Proof.
  intros P. split; [exact (output_page_table c l P)|]. destruct (doc_Inv c l P) as (pages & INV).
  unfold output. cbn [g_pagecount g_kids set_objs]. destruct (prepare_eq (doc c l)) as (_ & A & B & _). rewrite A, B. destruct (iv_kids _ _ _ INV) as [-> ->]. reflexivity.
Qed.

Theorem C76_opening_the_file : forall c l zl inflate box ren pr pw info objs,
  forallb plain_op l = true -> finishes (start c zero_gp) l ->
  (forall d, inflate (zl d) = Some d) -> (forall r, finite (fst (box r)) /\ finite (snd (box r))) -> (forall i, info = Some i -> bytes_info i) ->
  let s := doc c l in let t := output s in
  locked (cf_protect (g_cfg s)) pr pw ->
  List.length objs = List.length (g_objs t) ->
  (forall i o f, nth_error (g_objs t) i = Some o -> nth_error objs i = Some f -> written_as zl pr box (flat_map ren) t i o (prog_bytes (f (Z.of_nat i + 1)))) ->
  let file := compile_bytes objs {| tr_encrypt := if cf_protect (g_cfg s) then Some (g_encid t) else None; tr_info := option_map (fun i => [writeInfo i]) info |} in
  zlen file < 10 ^ 10 -> zlen objs < 2 ^ 24 ->
  exists ps, open_pages inflate file pw = Some ps /\
    Forall2 (fun pc ap => value_of "MediaBox" (fst pc) = option_map (fun r => media (box r)) (ap_size ap) /\
                          exists its, snd pc = flat_map ren its /\ Forall2 (means file pw (fst pc)) its (ap_items ap)) ps (a_pages (adoc_of c l)).
Proof.
  intros c l zl inflate box ren pr pw info objs P F HZ HB HI s t LK LEN WR file LF LO. destruct (plain_table c l P) as [PT CNT]. pose proof (fun i o txt => written_doc_of zl pr box (flat_map ren) t i o txt) as PW. pose proof (fun i im txt (H : written_as zl pr box (flat_map ren) t i (OImage im Plain) txt) => H) as PWI.
  destruct (file_opened c l zl box (flat_map ren) pr pw info objs _ F HI LK LEN WR PW LF LO) as (es & tr & OP).
  destruct (pages_opened c l zl inflate box (flat_map ren) pr pw info objs _ F HZ HB HI LK LEN WR PW LF LO _ PT CNT eq_refl) as (ps & E & FA). exists ps. split; [exact E|].
  eapply Forall2_impl; [|exact FA]. intros pc ap (MB & RF & its & B & SH & _). split; [exact MB|]. exists its. split; [exact B|].
  pose proof (fun it x => name_means c l zl inflate box (flat_map ren) pr pw info objs _ F HZ LK LEN WR PW PWI es tr OP (fst pc) it x RF) as RES. clear - RES SH. revert SH. generalize (ap_items ap). 
  induction its as [|it its IH]; intros [|x xs] SH; cbn [map] in SH; try discriminate SH; constructor; injection SH as S1 S2; [now apply RES|now apply IH].
Qed.
Print Assumptions C76_opening_the_file.

(** A page of drawings alone: its content is the bytes drawn, in order. *)
Theorem C76_drawings : forall c l zl inflate box ren pr pw info objs,
  forallb plain_op l = true -> finishes (start c zero_gp) l -> (forall b, ren (IBytes b) = b) ->
  (forall d, inflate (zl d) = Some d) -> (forall r, finite (fst (box r)) /\ finite (snd (box r))) -> (forall i, info = Some i -> bytes_info i) ->
  let s := doc c l in let t := output s in
  locked (cf_protect (g_cfg s)) pr pw -> List.length objs = List.length (g_objs t) ->
  (forall i o f, nth_error (g_objs t) i = Some o -> nth_error objs i = Some f -> written_as zl pr box (flat_map ren) t i o (prog_bytes (f (Z.of_nat i + 1)))) ->
  let file := compile_bytes objs {| tr_encrypt := if cf_protect (g_cfg s) then Some (g_encid t) else None; tr_info := option_map (fun i => [writeInfo i]) info |} in
  zlen file < 10 ^ 10 -> zlen objs < 2 ^ 24 ->
  exists ps, open_pages inflate file pw = Some ps /\ List.length ps = List.length (a_pages (adoc_of c l)) /\
    forall k page content ap drawn, nth_error ps k = Some (page, content) -> nth_error (a_pages (adoc_of c l)) k = Some ap -> ap_items ap = map ShBytes drawn -> content = List.concat drawn.
Proof.
  intros c l zl inflate box ren pr pw info objs P F HR HZ HB HI s t LK LEN WR file LF LO.
  destruct (C76_opening_the_file c l zl inflate box ren pr pw info objs P F HZ HB HI LK LEN WR LF LO) as (ps & OP & FA). exists ps. split; [exact OP|]. clear - FA HR.
  split; [induction FA; cbn; congruence|]. intros k page content ap drawn N1 N2 AP. revert k N1 N2. induction FA as [|pc a ps' aps (_ & its & E & M) FA IH]; intros [|k] N1 N2; try discriminate.
  - injection N1 as ->. injection N2 as ->. cbn [snd fst] in *. subst content. rewrite AP in M. clear - M HR. revert drawn M. induction its as [|it its IH]; intros [|b bl] M; inversion M; subst; [reflexivity|].
    cbn [flat_map List.concat]. rewrite (IH bl) by assumption. f_equal. destruct it; cbn [means] in H2; try contradiction. now subst.
  - exact (IH k N1 N2).
Qed.
Print Assumptions C76_drawings.

(** ** A document meeting the hypotheses, written to bytes and opened *)
Definition one64 : f64 := f64_ofZ 1.
Definition demo_box (r : rectq) : f64 * f64 := (one64, one64).
Definition demo_ren (it : item) : bytes :=
  match it with
  | IBytes b => b
  | ITemplate n _ _ => n ++ bs " Do "
  | IImage i _ => bs "/I" ++ fmt_d (Z.of_nat i + 1) ++ bs " Do "
  | IColorSpace n => bs "/CS" ++ fmt_d (n + 1) ++ bs " cs "
  | IText n t _ => bs "BT /F" ++ fmt_d n ++ bs " 12 Tf (" ++ t ++ bs ") Tj ET "
  end.
Definition demo_picture (im : imgdesc) : imginfo :=
  {| im_w := 1; im_h := 1; im_cs := DevRGB; im_bpc := 8; im_filter := FNone; im_colors := None; im_trns := []; im_smask := []; im_smaskObj := 0; im_pal := []; im_rgbObj := 0; StreamModel.im_data := DocModel.im_data im |}.
Definition demo_text (pr : option protection) (t : gp) (i : nat) (o : obj) : bytes :=
  match o with
  | OCatalog => catalog_body (g_cat_outl t)
  | OPages => pages_body one64 one64 (g_pagecount t) (g_kids t)
  | OPage p => page_body 4 (pg_links p) (pg_contents p) (option_map demo_box (pg_size p)) None
  | OContent l => sbody (fun d => 7 :: d) pr (Z.of_nat i + 1) (SContent (negb (g_compress t =? 0)) (flat_map demo_ren l))
  | OEncryption => match pr with Some p => encryption_body p | None => [] end
  | OProcSet => procset_body (map (fun r => (rf_count r, Z.of_nat (rf_index r))) (g_fonts t)) (map (fun r => (rc_count r, Z.of_nat (rc_index r))) (g_cs t))
                         (map Z.of_nat (g_xobjs t)) [] (map Z.of_nat (g_extgs t))
  | OSubsetFont f => subset_font_body (fo_family f) (Z.of_nat (fo_cid f)) (Z.of_nat (fo_umap f))
  | OImage im Plain => sbody (fun d => 7 :: d) pr (Z.of_nat i + 1) (SImage (demo_picture im) false false)
  | OColorSpace nm _ => colorspace_rgb nm 1 2 3
  | _ => bs "null" ++ [NL]
  end.
Definition demo_objs (pr : option protection) (t : gp) : list (Z -> wprog) :=
  map (fun '(i, o) => fun _ : Z => chunks [demo_text pr t i o]) (combine (seq 0 (List.length (g_objs t))) (g_objs t)).
Definition nice_obj (o : obj) : bool :=
  match o with OColorSpace nm _ => plain_name nm | OSubsetFont f => forallb (fun b => (b =? 32) || (b =? 47) || (is_regular b && negb (b =? 35))) (fo_family f) | _ => true end.
Lemma nth_combine {A} (l : list A) : forall s k, nth_error (combine (seq s (List.length l)) l) k = option_map (pair (s + k)%nat) (nth_error l k).
Proof. induction l as [|x l IH]; intros s [|k]; cbn [List.length seq combine nth_error option_map]; try reflexivity; [now rewrite Nat.add_0_r|]. rewrite IH. now rewrite Nat.add_succ_comm. Qed.
Lemma one64_finite : finite one64. Proof. discriminate. Qed.
Lemma demo_writes pr t : (pr = None -> ~ In OEncryption (g_objs t)) -> forallb nice_obj (g_objs t) = true ->
  forall i o f, nth_error (g_objs t) i = Some o -> nth_error (demo_objs pr t) i = Some f -> written_as (fun d => 7 :: d) pr demo_box (flat_map demo_ren) t i o (prog_bytes (f (Z.of_nat i + 1))).
Proof.
  intros HE HN i o f N NF. unfold demo_objs in NF. rewrite nth_error_map, nth_combine, N in NF. cbn [option_map] in NF. injection NF as <-. match goal with |- written_as ?a ?b ?c ?d ?e ?f ?g _ => change (written_as a b c d e f g (prog_bytes (chunks [demo_text pr t i o]))) end. rewrite prog_bytes_chunks. cbn [List.concat]. rewrite app_nil_r.
  rewrite forallb_forall in HN. specialize (HN o (nth_error_In _ _ N)). destruct o; cbn [written_as written_doc demo_text]; try exact I.
  - reflexivity.
  - exists one64, one64. split; [exact one64_finite|]. split; [exact one64_finite|reflexivity].
  - exists []. split; [constructor|reflexivity].
  - exists None. split; [discriminate|reflexivity].
  - reflexivity.
  - split; [|reflexivity]. cbn [nice_obj] in HN. apply Forall_forall. intros b Hb. rewrite forallb_forall in HN. specialize (HN b Hb). apply orb_true_iff in HN as [HN|HN]; [apply orb_true_iff in HN as [HN|HN]; [left; lia|right; left; lia]|].
    apply andb_true_iff in HN as [H1 H2]. right. right. split; [exact H1|]. apply negb_true_iff in H2. lia.
  - destruct use; try exact I. exists (demo_picture im). split; reflexivity.
  - cbn [nice_obj] in HN. split; [exact HN|]. do 3 eexists. apply C60_rgb_space; [exact HN|lia..].
  - destruct pr as [p|]; [exists p; split; reflexivity|]. destruct (HE eq_refl). eapply nth_error_In, N.
Qed.
Print Assumptions demo_writes.

Definition open_hist : list op :=
  [Do (AddFont (bs "serif") 0); AddPage None; Do (Draw true (bs "1 0 0 RG ")); Do (SetFont (bs "serif") 0 12%Q); Do (Text (bs "a")); AddPage (Some small);
   Do (Image (bs "p") (Build_imgdesc (bs "JPEG") true false false)); Do (AddColorSpace (bs "red")); Do (SetColorSpace (bs "red")); AddPage None].
Notation open_key := (setProtection (bs "0123456789abcdefghijklmnopqrstuv") 4 (bs "secret") []).
Definition open_state : gp := output (doc a4 open_hist).
Definition open_file : bytes := compile_bytes (demo_objs open_key open_state) {| tr_encrypt := Some (g_encid open_state); tr_info := option_map (fun i => [writeInfo i]) None |}.
(** The hypotheses of [C76_opening_the_file] hold of a protected document of three pages with a font, an image and a colour space ... *)
Example C76_met : exists pr, open_key = Some pr /\ forallb plain_op open_hist = true /\ finishes (start a4 zero_gp) open_hist /\
  locked (cf_protect (g_cfg (doc a4 open_hist))) (Some pr) (User (bs "secret")) /\ List.length (demo_objs (Some pr) open_state) = List.length (g_objs open_state) /\
  (forall i o f, nth_error (g_objs open_state) i = Some o -> nth_error (demo_objs (Some pr) open_state) i = Some f ->
     written_as (fun d => 7 :: d) (Some pr) demo_box (flat_map demo_ren) open_state i o (prog_bytes (f (Z.of_nat i + 1)))) /\
  zlen open_file < 10 ^ 10.
Proof.
  assert (X : match open_key with Some _ => true | None => false end = true) by (vm_cast_no_check (eq_refl true)).
  destruct open_key as [pr|] eqn:E; [clear X|discriminate X]. exists pr. split; [reflexivity|]. split; [vm_compute; reflexivity|]. split; [apply finishesb_ok; vm_compute; reflexivity|].
  split; [unfold locked; replace (cf_protect (g_cfg (doc a4 open_hist))) with true by (vm_compute; reflexivity); split; [reflexivity|]; exists (bs "0123456789abcdefghijklmnopqrstuv"), 4, (bs "secret"), []; split; [lia|]; split; [exact E|left; reflexivity]|].
  split; [unfold demo_objs; rewrite map_length, combine_length, seq_length; apply Nat.min_id|]. split; [|vm_compute; reflexivity].
  clear E. refine (demo_writes (Some pr) open_state _ _); [intros X; discriminate X|vm_compute; reflexivity].
Qed.
(** ... and reading the bytes of that file with the user password yields what was drawn; with another password it yields nothing. *)
Example C76_opened :
  option_map (map snd) (open_pages (fun d => Some (tl d)) open_file (User (bs "secret"))) = Some [bs "1 0 0 RG BT /F1 12 Tf (a) Tj ET "; bs "/I13 Do /CS1 cs "; []] /\
  open_pages (fun d => Some (tl d)) open_file (User (bs "Secret")) = None.
Proof. split; vm_compute; reflexivity. Qed.
