(** PropObj3.v — C60 concluded: the trailer. *)
From Coq Require Import QArith.
From Verif Require Import Base StrSpec StrModel NumModel NumRead DrawSpec DrawLex PropStr PaintNum SecModel FileModel StreamModel PropStream PdfSyntax PdfRead ObjModel PropObj PropObj2.
Open Scope Z_scope.

(** ** The trailer *)
Definition ent (k : string) (s v : bytes) : list (bytes * pobj) := match s with [] => [] | _ => [(bs k, OStr v)] end.
Definition plain_text (s : bytes) : Prop := Forall (fun b => b <> 40 /\ b <> 41 /\ b <> 92 /\ b <> 13) s.
Lemma plain_escape s : plain_text s -> escape s = s.
Proof.
  assert (R : forall c d, c <> 0 -> Forall (fun b => b <> c) s -> replace c d s = s).
  { clear. intros c d _. induction 1 as [|b s A _ IH]; [reflexivity|]. unfold replace in *. cbn [flat_map]. rewrite IH. now replace (b =? c) with false by lia. }
  intros H. unfold escape. cbv zeta. rewrite !R; try lia; try reflexivity; (eapply Forall_impl; [|exact H]); cbv beta; tauto.
Qed.
Lemma info_block k (kt : string) s : bs kt = 47 :: bs k -> plain_name (bs k) = true -> Forall (fun b => 0 <= b) s -> exists v, text_of s v /\ block (info_entry kt s) (ent k s v).
Proof.
  intros K P H. destruct (read_text s H) as (v & TV & R). exists v. split; [exact TV|]. unfold info_entry, ent. destruct s as [|c s]; cbn [is_empty]; [apply block_nil|].
  generalize dependent (encodeUtf8 (c :: s)). intros et R. rewrite K. generalize dependent (bs k). intros kb K P. intros stk r. cbn [app]. flats.
  change (pread (RI stk) (47 :: kb ++ bs " <FEFF" ++ et ++ bs ">" ++ 10 :: r)) with (pread (PRun (SName []) stk) (kb ++ bs " <FEFF" ++ et ++ bs ">" ++ 10 :: r)).
  repeat piece. unlit ">"%string (10 :: r). rewrite R. repeat piece. reflexivity.
Qed.
Definition encrypt_entry (e : option Z) : list (bytes * pobj) := match e with Some id => [(bs "Encrypt", ref id); (bs "ID", OArr [OStr []; OStr []])] | None => [] end.
Definition bytes_info (i : pdfinfo) : Prop :=
  Forall (fun b => 0 <= b) (i_author i) /\ Forall (fun b => 0 <= b) (i_title i) /\ Forall (fun b => 0 <= b) (i_subject i) /\ Forall (fun b => 0 <= b) (i_creator i) /\ Forall (fun b => 0 <= b) (i_producer i)
  /\ plain_text (i_date i).
Definition info_says (i : pdfinfo) (o : pobj) : Prop := exists va vt vs vc vp,
  text_of (i_author i) va /\ text_of (i_title i) vt /\ text_of (i_subject i) vs /\ text_of (i_creator i) vc /\ text_of (i_producer i) vp /\
  o = ODict (ent "Author" (i_author i) va ++ ent "Title" (i_title i) vt ++ ent "Subject" (i_subject i) vs ++ ent "Creator" (i_creator i) vc ++ ent "Producer" (i_producer i) vp
             ++ ent "CreationDate" (i_date i) (bs "D:" ++ i_date i)).
Lemma writeInfo_block i : bytes_info i -> exists o, info_says i o /\ forall x s r, pread (RI (x :: s)) (writeInfo i ++ r) = pread (RI (IObj o :: IObj (N_ "Info") :: x :: s)) r.
Proof.
  intros (H1 & H2 & H3 & H4 & H5 & H6). destruct (info_block "Author" "/Author" (i_author i) eq_refl eq_refl H1) as (va & T1 & B1).
  destruct (info_block "Title" "/Title" (i_title i) eq_refl eq_refl H2) as (vt & T2 & B2). destruct (info_block "Subject" "/Subject" (i_subject i) eq_refl eq_refl H3) as (vs & T3 & B3).
  destruct (info_block "Creator" "/Creator" (i_creator i) eq_refl eq_refl H4) as (vc & T4 & B4). destruct (info_block "Producer" "/Producer" (i_producer i) eq_refl eq_refl H5) as (vp & T5 & B5).
  eexists. split; [exists va, vt, vs, vc, vp; do 5 (split; [eassumption|]); reflexivity|].
  unfold writeInfo.
  assert (B6 : block (if is_empty (i_date i) then [] else bs "/CreationDate(D:" ++ i_date i ++ bs ")" ++ [NL]) (ent "CreationDate" (i_date i) (bs "D:" ++ i_date i))).
  { unfold ent. destruct (i_date i) as [|c d]; cbn [is_empty]; [apply block_nil|]. generalize dependent (c :: d). intros s H6. assert (PT : plain_text (bs "D:" ++ s)) by (apply Forall_app; split; [repeat constructor; discriminate|exact H6]).
    apply plain_escape in PT. intros stk r. flats. change (bs "/CreationDate(D:" ++ s ++ bs ")" ++ 10 :: r) with (bs "/CreationDate(" ++ (bs "D:" ++ s) ++ bs ")" ++ 10 :: r).
    rewrite <- PT at 1. generalize (bs "D:" ++ s). intros u. repeat piece. reflexivity. }
  generalize dependent (ent "CreationDate" (i_date i) (bs "D:" ++ i_date i)). generalize dependent (if is_empty (i_date i) then [] else bs "/CreationDate(D:" ++ i_date i ++ bs ")" ++ [NL]).
  intros t6 e6 B6. generalize dependent (info_entry "/Author" (i_author i)). generalize dependent (info_entry "/Title" (i_title i)). generalize dependent (info_entry "/Subject" (i_subject i)).
  generalize dependent (info_entry "/Creator" (i_creator i)). generalize dependent (info_entry "/Producer" (i_producer i)).
  generalize (ent "Author" (i_author i) va) (ent "Title" (i_title i) vt) (ent "Subject" (i_subject i) vs) (ent "Creator" (i_creator i) vc) (ent "Producer" (i_producer i) vp).
  intros e1 e2 e3 e4 e5 t5 B5 t4 B4 t3 B3 t2 B2 t1 B1 x s r. clear -B1 B2 B3 B4 B5 B6. flats.
  replace (pread (RI (x :: s)) (bs "/Info <<" ++ 10 :: t1 ++ t2 ++ t3 ++ t4 ++ t5 ++ t6 ++ bs " >>" ++ 10 :: r))
    with (pread (RI (IDict :: IObj (N_ "Info") :: x :: s)) (t1 ++ t2 ++ t3 ++ t4 ++ t5 ++ t6 ++ 32 :: 62 :: 62 :: 10 :: r)) by (symmetry; rewrite pread_app; reflexivity).
  rewrite B1, B2, B3, B4, B5, B6. rewrite (read_white 32 _ _ eq_refl). rewrite !pushes_app. rewrite (read_inner _ _ _ _ _ eq_refl). rewrite (read_white 10 _ _ eq_refl). now rewrite <- ?app_assoc.
Qed.
(** The trailer dictionary: the number of objects (and the free one), the catalog, the encryption dictionary of a protected file
    with the two file identifiers, and the document information (as a dictionary in place). *)
Definition trailer_text (enc : option Z) (info : option pdfinfo) (off size : Z) : bytes :=
  bs "<<" ++ [10] ++ bs "/Size " ++ fmt_d size ++ [10] ++ bs "/Root 1 0 R" ++ [10]
  ++ List.concat match enc with Some id => [bs "/Encrypt " ++ fmt_d id ++ bs " 0 R" ++ [NL]; bs "/ID [()()]" ++ [NL]] | None => [] end
  ++ List.concat (match option_map (fun i => [writeInfo i]) info with Some l => l | None => [] end)
  ++ bs ">>" ++ [10] ++ bs "startxref" ++ [10] ++ fmt_d off ++ [10] ++ bs "%%EOF" ++ [10].
Lemma read_trailer : forall enc info off size, (forall i, info = Some i -> bytes_info i) ->
  exists inf, read_object (trailer_text enc info off size) = Some (ODict ([(bs "Size", OInt size); (bs "Root", ref 1)] ++ encrypt_entry enc ++ inf), [10] ++ bs "startxref" ++ [10] ++ fmt_d off ++ [10] ++ bs "%%EOF" ++ [10]) /\
    match info with None => inf = [] | Some i => exists o, info_says i o /\ inf = [(bs "Info", o)] end.
Proof.
  intros enc info off size H. unfold trailer_text.
  assert (I : exists inf, match info with None => inf = [] | Some i => exists o, info_says i o /\ inf = [(bs "Info", o)] end /\
     forall es r, pread (RI (pushes es [IDict])) (List.concat (match option_map (fun i => [writeInfo i]) info with Some l => l | None => [] end) ++ r) = pread (RI (pushes (es ++ inf) [IDict])) r).
  { destruct info as [i|]; cbn [option_map List.concat].
    - destruct (writeInfo_block i (H i eq_refl)) as (o & S & B). exists [(bs "Info", o)]. split; [exists o; auto|]. intros es r. rewrite app_nil_r.
      assert (X : exists x s, pushes es [IDict] = x :: s) by (unfold pushes; destruct (dstack es); cbn; eauto). destruct X as (x & s & X). rewrite X, B, <- X.
      unfold N_. rewrite pushes_one. now rewrite pushes_app.
    - exists []. split; [reflexivity|]. intros es r. now rewrite app_nil_r. }
  destruct I as (inf & I1 & I2). generalize dependent (List.concat (match option_map (fun i => [writeInfo i]) info with Some l => l | None => [] end)). intros it I2.
  set (ec := List.concat match enc with Some id => [bs "/Encrypt " ++ fmt_d id ++ bs " 0 R" ++ [NL]; bs "/ID [()()]" ++ [NL]] | None => [] end).
  exists inf. split; [|exact I1].
    unfold read_object. flats.
    assert (E0 : pread (RI []) (bs "<<" ++ 10 :: bs "/Size " ++ fmt_d size ++ 10 :: bs "/Root 1 0 R" ++ [10]) = RI (pushes [(bs "Size", OInt size); (bs "Root", ref 1)] [IDict])).
    { hide. steps. reflexivity. }
    assert (EE : forall r, pread (RI (pushes [(bs "Size", OInt size); (bs "Root", ref 1)] [IDict])) (ec ++ r)
      = pread (RI (pushes ([(bs "Size", OInt size); (bs "Root", ref 1)] ++ encrypt_entry enc) [IDict])) r).
    { intros r. unfold ec, NL. hide. destruct enc as [id|]; cbn [List.concat encrypt_entry]; [|reflexivity]. unfold pushes. cbn [app dstack rev flat_map fst snd]. steps. reflexivity. }
    clearbody ec. replace (bs "<<" ++ 10 :: bs "/Size " ++ fmt_d size ++ 10 :: bs "/Root 1 0 R" ++ 10 :: ec ++ it ++ bs ">>" ++ 10 :: bs "startxref" ++ 10 :: fmt_d off ++ 10 :: bs "%%EOF" ++ [10])
      with ((bs "<<" ++ 10 :: bs "/Size " ++ fmt_d size ++ 10 :: bs "/Root 1 0 R" ++ [10]) ++ ec ++ it ++ bs ">>" ++ 10 :: bs "startxref" ++ 10 :: fmt_d off ++ 10 :: bs "%%EOF" ++ [10]) by (flats; reflexivity).
    rewrite pread_app, E0, EE, I2.
    match goal with |- context[bs ">>" ++ ?r] => change (bs ">>" ++ r) with (62 :: 62 :: r) end. rewrite (read_finish _ _ _ eq_refl). cbn [app]. rewrite <- ?app_assoc. reflexivity.
Qed.
Theorem C60_trailer : forall enc info off lens n, (forall i, info = Some i -> bytes_info i) ->
  exists before d inf, List.concat (xref_chunks {| tr_encrypt := enc; tr_info := option_map (fun i => [writeInfo i]) info |} off lens n) = before ++ bs "trailer" ++ [10] ++ d /\
    read_object d = Some (ODict ([(bs "Size", OInt (zlen lens + 1)); (bs "Root", ref 1)] ++ encrypt_entry enc ++ inf), [10] ++ bs "startxref" ++ [10] ++ fmt_d off ++ [10] ++ bs "%%EOF" ++ [10]) /\
    match info with None => inf = [] | Some i => exists o, info_says i o /\ inf = [(bs "Info", o)] end.
Proof.
  intros enc info off lens n H. destruct (read_trailer enc info off (zlen lens + 1) H) as (inf & R & I).
  match goal with |- context [xref_chunks ?tr] => unfold xref_chunks end. rewrite !concat_app. cbn [tr_encrypt tr_info].
  match goal with |- context[List.concat (map ?f lens)] => set (B := List.concat (map f lens)) end.
  exists (List.concat [bs "xref" ++ [NL]; bs "0 " ++ fmt_d (n + 1) ++ [NL]; bs "0000000000 65535 f " ++ [NL]] ++ B), (trailer_text enc info off (zlen lens + 1)), inf.
  split; [|split; [exact R|exact I]]. clear R I H. unfold trailer_text.
  generalize (List.concat (match option_map (fun i => [writeInfo i]) info with Some l => l | None => [] end)). intros it.
  generalize (List.concat match enc with Some id => [bs "/Encrypt " ++ fmt_d id ++ bs " 0 R" ++ [NL]; bs "/ID [()()]" ++ [NL]] | None => [] end). intros ec.
  clearbody B. rewrite <- !app_assoc. f_equal. f_equal. cbn [List.concat]. rewrite !app_nil_r. unfold NL. flats. reflexivity.
Qed.
Print Assumptions C60_trailer.

(** No dictionary names an entry twice. *)
Fixpoint nodupb (l : list bytes) : bool := match l with [] => true | x :: r => negb (existsb (list_eqb x) r) && nodupb r end.
Lemma nodupb_ok l : nodupb l = true -> NoDup l.
Proof.
  induction l as [|x l IH]; intros H; [constructor|]. cbn [nodupb] in H. apply andb_true_iff in H as [H1 H2]. constructor; [|now apply IH]. intros I.
  apply negb_true_iff in H1. assert (X : existsb (list_eqb x) l = true); [|congruence]. apply existsb_exists. exists x. split; [exact I|now apply list_eqb_eq].
Qed.
Ltac nodup := unfold distinct_keys; apply nodupb_ok; vm_compute; reflexivity.
Theorem C60_distinct_entries :
  (forall outl, distinct_keys (ODict ([(bs "Type", N_ "Catalog"); (bs "Pages", ref 2)] ++ (if 0 <=? outl then [(bs "PageMode", N_ "UseOutlines"); (bs "Outlines", ref outl)] else [])))) /\
  (forall res links content size trim, distinct_keys (page_dict res links content size trim)) /\
  (forall i split, distinct_keys (ODict (picture i (im_cs i) ++ parms i ++ (if split : bool then [] else colour_mask (im_trns i) ++ soft_mask i) ++ [(bs "Length", OInt (zlen (im_data i)))]))) /\
  (forall w h f len, distinct_keys (gray w h f len)) /\
  (forall i o, info_says i o -> distinct_keys o).
Proof.
  split; [|split; [|split; [|split]]].
  - intros outl. destruct (0 <=? outl); nodup.
  - intros res links content size trim. unfold page_dict. destruct links, content, size as [[? ?]|], trim; nodup.
  - intros i sp. unfold picture, cmyk_decode, filter_of, parms, predictor, colour_mask, soft_mask. destruct (im_cs i), (im_filter i), (im_colors i), sp, (im_trns i), (im_smask i); nodup.
  - intros w h f len. unfold gray, predictor. destruct f; nodup.
  - intros i o (va & vt & vs & vc & vp & _ & _ & _ & _ & _ & ->). unfold ent. destruct (i_author i), (i_title i), (i_subject i), (i_creator i), (i_producer i), (i_date i); nodup.
Qed.
Print Assumptions C60_distinct_entries.

(** The hypotheses are met, and the reader reads: an indexed picture with a transparent colour and a soft mask, unprotected. *)
Definition pic : imginfo :=
  {| im_w := 3; im_h := 2; im_cs := Indexed; im_bpc := 8; im_filter := FFlate; im_colors := Some 1; im_trns := [7]; im_smask := [1; 2]; im_smaskObj := 11; im_pal := [0; 0; 0; 9; 9; 9];
     im_rgbObj := 12; im_data := [1; 2; 3] |}.
Example C60_met :
  read_object (sbody (fun d => d) None 5 (SImage pic false false))
  = Some (ODict [(bs "Type", N_ "XObject"); (bs "Subtype", N_ "Image"); (bs "Width", OInt 3); (bs "Height", OInt 2);
                 (bs "ColorSpace", OArr [N_ "Indexed"; N_ "DeviceRGB"; OInt 1; ref 13]); (bs "BitsPerComponent", OInt 8); (bs "Filter", N_ "FlateDecode");
                 (bs "DecodeParms", ODict [(bs "Predictor", OInt 15); (bs "Colors", OInt 1); (bs "BitsPerComponent", OInt 8); (bs "Columns", OInt 3)]);
                 (bs "Mask", OArr [OInt 7; OInt 7]); (bs "SMask", ref 12); (bs "Length", OInt 3)], [10] ++ bs "stream" ++ [10; 1; 2; 3; 10] ++ bs "endstream" ++ [10])
  /\ bytes_info {| i_author := bs "A"; i_title := []; i_subject := bs "S(1)"; i_creator := []; i_producer := []; i_date := bs "20260102030405+07'00'" |}
  /\ finite (div64 31 255) /\ plain_name (bs "spot1") = true /\ read_object (colorspace_rgb (bs "spot1") 1 2 3) <> None.
Proof.
  split; [vm_compute; reflexivity|]. split; [|split; [|split]].
  - repeat split; cbn; repeat constructor; try lia; discriminate.
  - unfold finite. vm_compute. discriminate.
  - reflexivity.
  - vm_compute. discriminate.
Qed.
