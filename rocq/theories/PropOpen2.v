(** PropOpen2.v — C78: opening the written file from its bytes shows the bookmarks and links that were set. *)
From Coq Require Import QArith.
From Verif Require Import Base Crypto FileModel FileSpec FileProofs PropFile SecSpec SecModel PropSec DrawSpec NumModel StrModel StrSpec DocModel DocSpec DocProofs DocInv PropDoc
  StreamModel PropStream PdfSyntax PdfRead ObjModel PropObj PropObj2 PropObj3 RefModel PropRef PropRef2 OpenSpec PropOnePage PropOpen OpenMarks PropMarks PropLinks.
From Verif Require PropName PropName2.
Open Scope Z_scope.

(** ** The written objects *)
(** The texts of the objects a reader of bookmarks and links meets, as the write methods produce them (ObjModel.v, StreamModel.v); [rectangle]
    are the numbers of a link's rectangle.  The texts of all other objects, and sizes and boxes of pages, are arbitrary. *)
Definition corner (r : f64 * f64 * f64 * f64) : Prop := let '(x, y, w, h) := r in finite x /\ finite y /\ finite (add64 x w) /\ finite (sub64 y h).
Definition rect_of (r : f64 * f64 * f64 * f64) : pobj := let '(x, y, w, h) := r in OArr [r2 x; r2 y; r2 (add64 x w); r2 (sub64 y h)].
Definition shown_link_of (k : link) : shown_link := {| sl_x := lk_x k; sl_y := lk_y k; sl_w := lk_w k; sl_h := lk_h k; sl_url := lk_url k; sl_anchor := lk_anchor k |}.
Definition marks_written (zl : bytes -> bytes) (pr : option protection) (rectangle : shown_link -> f64 * f64 * f64 * f64) (t : gp) (i : nat) (o : obj) (txt : bytes) : Prop :=
  match o with
  | OCatalog => txt = catalog_body (g_cat_outl t)
  | OPages => exists w h, finite w /\ finite h /\ txt = pages_body w h (g_pagecount t) (g_kids t)
  | OPage p => exists size trim, (forall w h, size = Some (w, h) -> finite w /\ finite h) /\ (forall b, trim = Some b -> finite_box b) /\ txt = page_body 4 (pg_links p) (pg_contents p) size trim
  | OOutlines => txt = outlines_body (g_outl_count t) (g_outl_first t) (g_outl_last t)
  | OOutline q => exists h, finite h /\ Forall (fun b => 0 <= b) (ol_title q) /\
      txt = outline_body {| oo_title := ol_title q; oo_dest := ol_dest q; oo_parent := ol_parent q; oo_prev := ol_prev q; oo_next := ol_next q; oo_first := ol_first q; oo_last := ol_last q; oo_height := h |}
  | OAnnot k => let '(x, y, w, h) := rectangle (shown_link_of k) in
      if is_empty (lk_url k) then exists ay, finite ay /\ txt = internal_body x y w h (option_map (fun a => (idx (fst a), ay)) (lookup (lk_anchor k) (g_anchors t)))
      else txt = sbody zl pr (Z.of_nat i + 1) (SAnnotURL (rect_text x y w h) (lk_url k))
  | OEncryption => exists p, pr = Some p /\ txt = encryption_body p
  | _ => True
  end.
(** The page, counted from 0, a mark belongs to. *)
Definition on_page (k : nat) : option nat := match k with O => None | S j => Some j end.
(** The title a reader shows: the text asked for; in a protected file, that text put through the decryption it was never encrypted for. *)
Definition title_read (pr : option protection) (v t : bytes) : Prop :=
  match pr with None => text_of t v | Some p => exists n w, text_of t w /\ v = decrypt (p_key p) n w end.

Lemma place_nth ks : forall j n, NoDup ks -> nth_error ks j = Some n -> place_of n ks = Some j.
Proof.
  induction ks as [|k ks IH]; intros [|j] n ND N; try discriminate; cbn [place_of nth_error] in *; inversion ND; subst.
  - injection N as ->. now rewrite Z.eqb_refl.
  - destruct (Z.eqb_spec k n) as [->|D]; [destruct H1; eapply nth_error_In; eauto|]. now rewrite (IH j n).
Qed.
Lemma place_not ks n : ~ In n ks -> place_of n ks = None.
Proof. induction ks as [|k ks IH]; intros H; [reflexivity|]. cbn [place_of]. destruct (Z.eqb_spec k n) as [->|D]; [destruct H; now left|]. rewrite IH; [reflexivity|]. intros X. apply H. now right. Qed.
Lemma outline_obj t n o : get_outline (map sk (g_objs t)) n = Some o -> obj_no t n = Some (OOutline o).
Proof. rewrite <- outline_no_get. unfold outline_no. destruct (obj_no t n) as [x|]; [|discriminate]. destruct x; try discriminate. now intros [= ->]. Qed.
Lemma few nums (objs : list obj) : NoDup nums -> Forall (fun n => 0 < n <= zlen objs) nums -> (List.length nums <= List.length objs)%nat.
Proof.
  intros ND B. rewrite <- (seq_length (List.length objs) 1), <- (map_length Z.of_nat). apply NoDup_incl_length; [exact ND|]. intros n H. rewrite Forall_forall in B. specialize (B n H).
  apply in_map_iff. exists (Z.to_nat n). split; [lia|]. apply in_seq. unfold zlen in B. lia.
Qed.
(** The link a reader finds: its rectangle, and the web address asked for or the page its anchor's name was last set on. *)
Definition link_read (rectangle : shown_link -> f64 * f64 * f64 * f64) (m : marked) (x : pobj * target) (k : shown_link) : Prop :=
  fst x = rect_of (rectangle k) /\
  if is_empty (sl_url k) then exists p y, last_set (sl_anchor k) (mk_anchors m) = Some p /\ snd x = Place (on_page p) [N_ "XYZ"; OInt 0; y; OKey (bs "null")]
  else snd x = Web (sl_url k).

Section File.
  Variables (c : config) (l : list op) (zl : bytes -> bytes) (rectangle : shown_link -> f64 * f64 * f64 * f64) (pr : option protection) (pw : password) (info : option pdfinfo) (objs : list (Z -> wprog)).
  Let s := doc c l.
  Let t := output s.
  Let enc := if cf_protect (g_cfg s) then Some (g_encid t) else None.
  Let file := compile_bytes objs {| tr_encrypt := enc; tr_info := option_map (fun i => [writeInfo i]) info |}.
  Hypotheses (NO : no_output l = true) (F : finishes (start c zero_gp) l) (HI : forall i, info = Some i -> bytes_info i)
    (LK : locked (cf_protect (g_cfg s)) pr pw) (LEN : List.length objs = List.length (g_objs t))
    (WR : forall i o f, nth_error (g_objs t) i = Some o -> nth_error objs i = Some f -> marks_written zl pr rectangle t i o (prog_bytes (f (Z.of_nat i + 1))))
    (LF : zlen file < 10 ^ 10) (LO : zlen objs < 2 ^ 24).

  Lemma opens : exists d, open_document file pw = Some d /\ op_key d = option_map p_key pr /\ op_kids d = g_kids t /\ (List.length objs < List.length (op_es d))%nat /\
    op_catalog d = ODict ([(bs "Type", N_ "Catalog"); (bs "Pages", ref 2)] ++ (if 0 <=? g_cat_outl t then [(bs "PageMode", N_ "UseOutlines"); (bs "Outlines", ref (g_cat_outl t))] else [])) /\
    forall n o, obj_no t n = Some o -> exists i txt post, n = Z.of_nat i + 1 /\ n < 2 ^ 24 /\ marks_written zl pr rectangle t i o txt /\
      forall v rest, read_object txt = Some (v, rest) -> object_of file (op_es d) n = Some (v, rest ++ post).
  Proof.
    destruct (C61_roots c l F) as [R1 R2]. change (exec (start c zero_gp) l) with s in R1, R2. fold t in R1, R2.
    assert (CNT : g_pagecount t = zlen (g_kids t)).
    { destruct (C04_page_tree_lists_every_page_once c l NO) as (_ & A & B & _). fold s in A, B. fold t in A, B. congruence. }
    assert (PG : obj_no t 2 = Some OPages).
    { assert (G : Good false t) by (apply (Step_good false s); [apply S_output|apply (Good_exec false l false); [discriminate|discriminate|exact F|apply Good_start]]).
      destruct (R_obj t KPages 2) as (o & O & K); [apply (gd_ref false t G), in_or_app; right; insr|]. rewrite O. now destruct o. }
    destruct (open_xref_ok objs enc info LF HI) as (es & inf & OX & INF & OB). unfold trl in OX. fold file in OX, OB.
    assert (OBJ : forall n o, obj_no t n = Some o -> exists i txt post, n = Z.of_nat i + 1 /\ n < 2 ^ 24 /\ marks_written zl pr rectangle t i o txt /\
       forall v rest, read_object txt = Some (v, rest) -> object_of file es n = Some (v, rest ++ post)).
    { intros n o O. assert (N1 : 1 <= n) by (unfold obj_no in O; destruct (Z.leb_spec n 0); [discriminate|lia]).
      replace n with (Z.of_nat (Z.to_nat (n - 1)) + 1) in * by lia. set (i := Z.to_nat (n - 1)) in *. clearbody i. rewrite obj_no_of_nat in O.
      assert (Li : (i < List.length (g_objs t))%nat) by (apply nth_error_Some; congruence). rewrite <- LEN in Li.
      destruct (nth_error objs i) as [f|] eqn:NF; [|apply nth_error_None in NF; lia].
      destruct (OB i f NF) as (e & post & N & U & G & SK). exists i, (prog_bytes (f (Z.of_nat i + 1))), post. split; [reflexivity|]. split; [unfold zlen in LO; lia|]. split; [now apply WR|].
      intros v rest RO. eapply object_of_ok; eauto. }
    assert (ESL : (List.length objs < List.length es)%nat).
    { assert (NZ : objs <> []) by (intros E; rewrite E in LEN; pose proof R1 as R1'; change (nth_error (g_objs t) 0 = Some OCatalog) in R1'; destruct (g_objs t) as [|o0 os0]; [discriminate R1'|discriminate LEN]).
      destruct (exists_last NZ) as (pre & f & E). assert (NF : nth_error objs (List.length pre) = Some f) by (rewrite E, nth_error_app2, Nat.sub_diag by lia; reflexivity).
      destruct (OB _ f NF) as (e & post & N & _). rewrite E, app_length. cbn [List.length]. rewrite Nat.add_1_r. apply nth_error_Some. congruence. }
    unfold open_document. rewrite OX.
    assert (KEY : file_key_of file es (ODict ([(bs "Size", OInt (zlen objs + 1)); (bs "Root", ref 1)] ++ encrypt_entry enc ++ inf)) pw = Some (option_map p_key pr)).
    { unfold file_key_of. unfold enc. destruct (cf_protect (g_cfg s)) eqn:CP.
      - destruct pr as [p|]; [|discriminate LK]. specialize (R2 eq_refl). destruct (OBJ _ _ R2) as (i & txt & post & _ & _ & (q & Eq & ->) & RO). injection Eq as <-.
        destruct (C60_encryption p) as (rest & RE & _). specialize (RO _ _ RE).
        assert (HK : forall o, has_key "Encrypt" (ODict ([(bs "Size", OInt (zlen objs + 1)); (bs "Root", ref 1)] ++ encrypt_entry (Some (g_encid t)) ++ o)) = true) by reflexivity. rewrite HK.
        assert (RF : ref_of "Encrypt" (ODict ([(bs "Size", OInt (zlen objs + 1)); (bs "Root", ref 1)] ++ encrypt_entry (Some (g_encid t)) ++ inf)) = Some (g_encid t)) by (destruct INF as [->|(o & ->)]; reflexivity). rewrite RF, RO.
        pose proof (unlock_ok p pw LK) as UK.
        change (match unlock (p_o p) (p_u p) (p_p p) pw with Some k => Some (Some k) | None => None end = Some (option_map p_key (Some p))). rewrite UK. reflexivity.
      - destruct pr as [p|]; [destruct LK; congruence|]. destruct INF as [->|(o & ->)]; reflexivity. }
    rewrite KEY.
    assert (RR : ref_of "Root" (ODict ([(bs "Size", OInt (zlen objs + 1)); (bs "Root", ref 1)] ++ encrypt_entry enc ++ inf)) = Some 1)
      by (unfold enc; destruct (cf_protect (g_cfg s)), INF as [->|(o & ->)]; reflexivity).
    rewrite RR. clear RR.
    destruct (OBJ _ _ R1) as (i1 & txt1 & post1 & _ & _ & -> & RO1). destruct (C60_catalog (g_cat_outl t)) as (rest1 & RE1 & _). rewrite (RO1 _ _ RE1). clear RO1 RE1.
    assert (T1 : forall b x, is_type "Catalog" (ODict ([(bs "Type", N_ "Catalog"); (bs "Pages", ref 2)] ++ (if b : bool then [(bs "PageMode", N_ "UseOutlines"); (bs "Outlines", ref x)] else []))) = true
      /\ ref_of "Pages" (ODict ([(bs "Type", N_ "Catalog"); (bs "Pages", ref 2)] ++ (if b : bool then [(bs "PageMode", N_ "UseOutlines"); (bs "Outlines", ref x)] else []))) = Some 2) by (intros [] x; split; reflexivity).
    rewrite (proj1 (T1 _ _)), (proj2 (T1 _ _)). clear T1.
    destruct (OBJ _ _ PG) as (i2 & txt2 & post2 & _ & _ & (w & h & FW & FH & ->) & RO2). destruct (C60_pages w h (g_pagecount t) (g_kids t) FW FH) as (rest2 & RE2 & _). rewrite (RO2 _ _ RE2). clear RO2 RE2.
    set (root := ODict _). assert (V1 : value_of "Kids" root = Some (OArr (map ref (g_kids t)))) by reflexivity. assert (V2 : value_of "Count" root = Some (OInt (g_pagecount t))) by reflexivity.
    assert (V3 : is_type "Pages" root = true) by reflexivity. rewrite V1, V2, V3. clear V1 V2 V3 root.
    replace (g_pagecount t =? zlen (map ref (g_kids t))) with true by (rewrite CNT; unfold zlen; rewrite map_length; now rewrite Z.eqb_refl). cbn [andb]. rewrite all_some_refs. cbn [option_map].
    eexists. split; [reflexivity|]. cbn [op_key op_kids op_es op_catalog]. split; [reflexivity|]. split; [reflexivity|]. split; [exact ESL|]. split; [reflexivity|exact OBJ].
  Qed.

  Lemma at_output : exists nums, M t (marks_of l) nums.
  Proof. destruct (M_exec l _ _ _ (M_first c) F) as (nums & I). change (exec (start c zero_gp) l) with (doc c l) in I. exists nums. now apply M_output. Qed.
  Lemma dest_place nums k : M t (marks_of l) nums -> (k <= mk_pages (marks_of l))%nat -> place_of (destno (pageof (pages_at t) k)) (g_kids t) = on_page k.
  Proof.
    intros I H. pose proof (kids_pages c l NO) as K. cbv zeta in K. fold s in K. fold t in K. destruct (C04_page_tree_lists_every_page_once c l NO) as (_ & _ & _ & ND). fold s in ND. fold t in ND.
    rewrite K in *. destruct k as [|k]; cbn [pageof on_page].
    - cbn [destno]. apply place_not. intros X. apply in_map_iff in X as (p & E & _). lia.
    - pose proof (m_count _ _ _ I) as CT. destruct (nth_error (pages_at t) k) as [p|] eqn:N; [|apply nth_error_None in N; lia]. cbn [destno]. apply place_nth; [exact ND|]. now rewrite nth_error_map, N.
  Qed.

  Theorem C78_bookmarks : exists bms, open_bookmarks file pw = Some bms /\
    Forall2 (fun b tk => title_read pr (fst b) (fst tk) /\ snd b = on_page (snd tk)) bms (mk_list (marks_of l)).
  Proof.
    destruct opens as (d & OD & KEY & KIDS & ESL & CAT & OBJ). destruct at_output as (nums & I). unfold open_bookmarks. rewrite OD, CAT.
    assert (T1 : forall b x, has_key "Outlines" (ODict ([(bs "Type", N_ "Catalog"); (bs "Pages", ref 2)] ++ (if b : bool then [(bs "PageMode", N_ "UseOutlines"); (bs "Outlines", ref x)] else []))) = b) by (intros [] x; reflexivity).
    rewrite T1. clear T1. destruct (Z.leb_spec 0 (g_cat_outl t)) as [CO|CO].
    2:{ exists []. split; [reflexivity|]. destruct (mk_list (marks_of l)) as [|x xs] eqn:EM; [constructor|]. exfalso.
        assert (C : 0 < g_outl_count s). { destruct (output_keep s) as (_ & _ & C & _). fold t in C. rewrite <- C, (ou_count _ _ _ (m_ou _ _ _ I)), EM. unfold zlen. cbn. lia. }
        assert (X : g_cat_outl t = 3); [|lia]. unfold t, output, prepare. cbn [set_objs g_cat_outl set_kids set_pagecount set_encid]. destruct (cf_protect (g_cfg s)); cbn [addObj snd set_objs g_outl_count];
          (replace (0 <? g_outl_count s) with true by lia); reflexivity. }
    assert (RO : ref_of "Outlines" (ODict ([(bs "Type", N_ "Catalog"); (bs "Pages", ref 2)] ++ [(bs "PageMode", N_ "UseOutlines"); (bs "Outlines", ref (g_cat_outl t))])) = Some (g_cat_outl t)) by reflexivity. rewrite RO. clear RO.
    assert (OO : obj_no t (g_cat_outl t) = Some OOutlines).
    { assert (G : Good false t) by (apply (Step_good false s); [apply S_output|apply (Good_exec false l false); [discriminate|discriminate|exact F|apply Good_start]]).
      destruct (R_obj t KOutlines (g_cat_outl t)) as (o & O & K); [apply (gd_ref false t G), in_or_app; right|rewrite O; now destruct o].
      unfold srefs. rewrite !in_app_iff. do 3 right. left. apply un_in. lia. }
    destruct (OBJ _ _ OO) as (i1 & txt1 & post1 & _ & _ & -> & RD1). destruct (C60_outlines (g_outl_count t) (g_outl_first t) (g_outl_last t)) as (rest1 & RE1 & _). rewrite (RD1 _ _ RE1). clear RD1 RE1.
    assert (T2 : forall x y z a b, is_type "Outlines" (ODict ([(bs "Type", N_ "Outlines"); (bs "Count", OInt x)] ++ ifd a "First" y ++ ifd b "Last" z)) = true
       /\ has_key "First" (ODict ([(bs "Type", N_ "Outlines"); (bs "Count", OInt x)] ++ ifd a "First" y ++ ifd b "Last" z)) = a
       /\ (a = true -> ref_of "First" (ODict ([(bs "Type", N_ "Outlines"); (bs "Count", OInt x)] ++ ifd a "First" y ++ ifd b "Last" z)) = Some y))
      by (intros x y z [] []; repeat split; discriminate).
    destruct (T2 (g_outl_count t) (g_outl_first t) (g_outl_last t) (0 <=? g_outl_first t) (0 <=? g_outl_last t)) as (A1 & A2 & A3). rewrite A1, A2. clear T2 A1 A2.
    pose proof (m_ou _ _ _ I) as [[L1 L2] OF _ _ _ OB ND]. rewrite map_length in L1. pose proof (m_dest _ _ _ I) as MD. pose proof (m_bl _ _ _ I) as BL.
    rewrite OF in *. destruct nums as [|n0 nums']. { cbn [hd_or] in *. exists []. split; [reflexivity|]. inversion MD. constructor. }
    cbn [hd_or] in *. assert (P0 : 0 < n0) by (inversion OB; lia). replace (0 <=? n0) with true in * by lia. rewrite (A3 eq_refl). clear A3.
    assert (FU : (List.length (n0 :: nums') <= List.length (op_es d))%nat) by (pose proof (few _ _ ND OB); lia).
    assert (N0 : nth_error (n0 :: nums') 0 = Some n0) by reflexivity. set (nums := n0 :: nums') in *. clearbody nums.
    assert (G : forall k fuel n, (List.length nums - k <= fuel)%nat -> nth_error nums k = Some n ->
      exists bms, bookmarks_from file d fuel n = Some bms /\ Forall2 (fun b tk => title_read pr (fst b) (fst tk) /\ snd b = on_page (snd tk)) bms (skipn k (mk_list (marks_of l)))).
    { intros k fuel. revert k. induction fuel as [|fu IH]; intros k n H N; assert (LKN : (k < List.length nums)%nat) by (apply nth_error_Some; congruence); [lia|].
      destruct (nth_error (mk_list (marks_of l)) k) as [tk|] eqn:NT; [|apply nth_error_None in NT; lia].
      destruct (L2 k n (fst tk) N) as (o & O1 & (O2 & _) & O3 & _); [now rewrite nth_error_map, NT|].
      assert (OD' : ol_dest o = destno (pageof (pages_at t) (snd tk))).
      { clear - MD N NT O1. revert k N NT. induction MD as [|n' tk' ns tks (o' & A & B) D IH]; intros [|k] En Et; try discriminate; [|now apply (IH k)]. injection En as ->. injection Et as ->. congruence. }
      assert (PL : place_of (ol_dest o) (g_kids t) = on_page (snd tk)). { rewrite OD'. apply (dest_place nums); [exact I|]. rewrite Forall_forall in BL. apply BL. eapply nth_error_In; eauto. }
      destruct (OBJ _ _ (outline_obj t n o O1)) as (i & txt & post & -> & LN & (h & FH & FT & ->) & RD). match type of RD with context [outline_body ?x] => set (q := x) in * end.
      destruct (C60_outline q FH FT) as (title & TT & rest & RE & _). specialize (RD _ _ RE). cbn [bookmarks_from]. rewrite RD. clear RD RE.
      assert (V : forall a b c0 e x y z w u v, value_of "Title" (ODict ([(bs "Parent", ref u)] ++ ifd a "Prev" x ++ ifd b "Next" y ++ ifd c0 "First" z ++ ifd e "Last" w ++ [(bs "Dest", v); (bs "Title", OStr title)])) = Some (OStr title)
        /\ value_of "Dest" (ODict ([(bs "Parent", ref u)] ++ ifd a "Prev" x ++ ifd b "Next" y ++ ifd c0 "First" z ++ ifd e "Last" w ++ [(bs "Dest", v); (bs "Title", OStr title)])) = Some v
        /\ has_key "Next" (ODict ([(bs "Parent", ref u)] ++ ifd a "Prev" x ++ ifd b "Next" y ++ ifd c0 "First" z ++ ifd e "Last" w ++ [(bs "Dest", v); (bs "Title", OStr title)])) = b
        /\ (b = true -> ref_of "Next" (ODict ([(bs "Parent", ref u)] ++ ifd a "Prev" x ++ ifd b "Next" y ++ ifd c0 "First" z ++ ifd e "Last" w ++ [(bs "Dest", v); (bs "Title", OStr title)])) = Some y))
        by (intros [] [] [] [] x y z w u v; repeat split; discriminate).
      match goal with |- context [value_of "Title" (ODict ([(bs "Parent", ref ?u)] ++ ifd ?a "Prev" ?x ++ ifd ?b "Next" ?y ++ ifd ?c0 "First" ?z ++ ifd ?e "Last" ?w ++ [(bs "Dest", ?v); _]))] => destruct (V a b c0 e x y z w u v) as (V1 & V2 & V3 & V4) end. match type of V1 with value_of _ ?x = _ => set (D := x) in * end. clearbody D.
      rewrite V1, V2, V3. clear V V1 V2 V3. cbn [text_value destination ref]. rewrite KIDS. cbn [Z.eqb]. change (oo_dest q) with (ol_dest o). rewrite PL. change (oo_next q) with (ol_next o) in *. rewrite O3 in *.
      assert (TR : title_read pr (match op_key d with Some k0 => decrypt k0 (Z.of_nat i + 1) title | None => title end) (fst tk)).
      { rewrite KEY. rewrite <- O2. change (ol_title o) with (oo_title q). destruct pr as [p|]; cbn [option_map title_read]; [eauto|exact TT]. }
      rewrite (skipn_nth _ _ _ NT). destruct (nth_error nums (S k)) as [m|] eqn:N2.
      - assert (PM : 0 < m) by (rewrite Forall_forall in OB; apply (OB m); eapply nth_error_In; eauto). replace (0 <=? m) with true in * by lia. rewrite (V4 eq_refl).
        destruct (IH (S k) m ltac:(lia) N2) as (bms & E & FA). rewrite E. cbn [option_map]. eexists. split; [reflexivity|]. constructor; [split; [exact TR|reflexivity]|exact FA].
      - change (0 <=? -1) with false. cbn match. eexists. split; [reflexivity|]. apply nth_error_None in N2. rewrite skipn_all2 by lia. constructor; [split; [exact TR|reflexivity]|constructor]. }
    apply (G O (List.length (op_es d)) n0); [lia|exact N0].
  Qed.

  Lemma anchor_bound nums name k : M t (marks_of l) nums -> last_set name (mk_anchors (marks_of l)) = Some k -> (k <= mk_pages (marks_of l))%nat.
  Proof.
    intros I. pose proof (m_ba _ _ _ I) as B. induction (mk_anchors (marks_of l)) as [|[n j] r IH]; cbn [last_set]; [discriminate|]. inversion B; subst. destruct (list_eqb name n); [intros E; injection E as <-; assumption|now apply IH].
  Qed.
  Theorem C78_links : (forall k, corner (rectangle k)) ->
    let m := links_asked c l in
    (forall p k, In (p, k) (ld_links m) -> sl_url k = [] -> last_set (sl_anchor k) (mk_anchors (marks_of l)) <> None) ->
    exists ls, open_links file pw = Some ls /\ Forall2 (fun x j => Forall2 (link_read rectangle (marks_of l)) x (links_on (S j) m)) ls (seq 0 (ld_pages m)).
  Proof.
    intros HR m SET. destruct opens as (d & OD & KEY & KIDS & _ & _ & OBJ). destruct at_output as (nums & I). pose proof (L_doc c l F) as IL. fold s in IL. fold t in IL. fold m in IL.
    pose proof (kids_pages c l NO) as K. cbv zeta in K. fold s in K. fold t in K. unfold open_links. rewrite OD. apply all_some_F2. rewrite KIDS, K, <- (l_count _ _ IL). pose proof (l_links _ _ IL) as D.
    assert (ONE : forall p ks, page_links t ks p -> (forall k, In k ks -> sl_url k = [] -> last_set (sl_anchor k) (mk_anchors (marks_of l)) <> None) -> exists x, links_of file d (Z.of_nat p + 1) = Some x /\ Forall2 (link_read rectangle (marks_of l)) x ks).
    { intros p ks (pg & NP & LNK) ST. rewrite <- obj_no_of_nat in NP. destruct (OBJ _ _ NP) as (i & txt & post & _ & _ & (size & trim & FS & FT & ->) & RD). unfold links_of.
      assert (RE : exists content rest, read_object (page_body 4 (pg_links pg) (pg_contents pg) size trim) = Some (page_dict 4 (pg_links pg) content size (trimSet trim), rest)).
      { destruct (output_contents c l NO (Z.of_nat p + 1) pg NP) as [->|(cn & its & -> & _)]; [destruct (C60_page_partial 4 (pg_links pg) None size trim FS FT) as (rest & E & _)|destruct (C60_page_partial 4 (pg_links pg) (Some cn) size trim FS FT) as (rest & E & _)]; do 2 eexists; exact E. }
      destruct RE as (content & rest & RE). rewrite (RD _ _ RE). clear RD RE.
      assert (AN : has_key "Annots" (page_dict 4 (pg_links pg) content size (trimSet trim)) = (match pg_links pg with [] => false | _ => true end)
        /\ (pg_links pg <> [] -> value_of "Annots" (page_dict 4 (pg_links pg) content size (trimSet trim)) = Some (OArr (map ref (pg_links pg))))).
      { unfold page_dict. destruct (pg_links pg), content, size as [[? ?]|], (trimSet trim); split; try reflexivity; intros X; destruct X; reflexivity. }
      destruct AN as [A1 A2]. rewrite A1. destruct (pg_links pg) as [|n0 ns0] eqn:EL; [cbn [map] in LNK; destruct ks; [|discriminate]; exists []; split; [reflexivity|constructor]|].
      rewrite A2 by discriminate. clear A1 A2. rewrite <- EL in *. rewrite all_some_refs. clear EL n0 ns0. apply all_some_F2.
      generalize dependent (pg_links pg). clear NP FS FT. induction ks as [|k ks IH]; intros [|n ns] LNK; try discriminate; constructor; [|apply IH; [intros k' H; apply ST; now right|cbn [map] in LNK; now injection LNK]].
      cbn [map] in LNK. injection LNK as LNK _. unfold link_no in LNK. destruct (obj_no t n) as [o|] eqn:ON; [|discriminate]. assert (OK : exists k', o = OAnnot k') by (destruct o; try discriminate LNK; eexists; reflexivity). destruct OK as (k' & ->). injection LNK as LNK.
      destruct (OBJ _ _ ON) as (i' & txt' & post' & EN & LN' & W' & RD'). cbn [marks_written] in W'. assert (SK : shown_link_of k' = k) by (rewrite <- LNK; reflexivity). rewrite SK in W'. specialize (HR k).
      assert (EU : lk_url k' = sl_url k) by (rewrite <- LNK; reflexivity). assert (EA : lk_anchor k' = sl_anchor k) by (rewrite <- LNK; reflexivity). rewrite EU, EA in W'.
      unfold link_of, link_read, rect_of. destruct (rectangle k) as [[[x y] w] h]. destruct HR as (F1 & F2 & F3 & F4). unfold is_empty in *. destruct (sl_url k) as [|u0 us] eqn:UK.
      - destruct W' as (ay & FY & ->). pose proof (ST k (or_introl eq_refl) UK) as NN. destruct (last_set (sl_anchor k) (mk_anchors (marks_of l))) as [q|] eqn:LS; [|destruct NN; reflexivity].
        pose proof (C77_links_lead_to_their_anchors c l NO F (sl_anchor k)) as LA. fold s in LA. fold t in LA. rewrite LS in LA. destruct (lookup (sl_anchor k) (g_anchors t)) as [[pgx yq]|]; [|discriminate LA]. cbn [option_map fst] in LA. injection LA as LA.
        cbn [option_map fst] in RD'. destruct (C60_internal_link x y w h (idx pgx) ay F1 F2 F3 F4 FY) as (rest' & RE' & _). rewrite (RD' _ _ RE').
        assert (PL : place_of (idx pgx + 1) (g_kids t) = on_page q).
        { replace (idx pgx + 1) with (destno pgx) by (destruct pgx; reflexivity). rewrite LA, (page_ref_of t q K). apply (dest_place nums); [exact I|]. eapply anchor_bound; eauto. }
        set (D0 := ODict _). assert (V1 : value_of "Subtype" D0 = Some (N_ "Link")) by reflexivity. assert (V2 : value_of "Rect" D0 = Some (OArr [r2 x; r2 y; r2 (add64 x w); r2 (sub64 y h)])) by reflexivity.
        assert (V3 : has_key "A" D0 = false) by reflexivity. assert (V4 : value_of "Dest" D0 = Some (OArr [ref (idx pgx + 1); N_ "XYZ"; OInt 0; r2 ay; OKey (bs "null")])) by reflexivity. rewrite V1, V2. unfold N_. replace (list_eqb (bs "Link") (bs "Link")) with true by reflexivity. rewrite V3, V4. cbn [destination ref Z.eqb]. rewrite KIDS, PL.
        cbn [option_map fst snd]. eexists. split; [reflexivity|]. cbn [fst snd]. split; [reflexivity|]. do 2 eexists. split; reflexivity.
      - rewrite W' in RD'. destruct (C60_external_link zl pr (Z.of_nat i' + 1) x y w h (u0 :: us) F1 F2 F3 F4) as (rest' & RE' & _). rewrite (RD' _ _ RE').
        set (D0 := ODict _). assert (V1 : value_of "Subtype" D0 = Some (N_ "Link")) by reflexivity. assert (V2 : value_of "Rect" D0 = Some (OArr [r2 x; r2 y; r2 (add64 x w); r2 (sub64 y h)])) by reflexivity.
        assert (V3 : has_key "A" D0 = true) by reflexivity. assert (V4 : value_of "A" D0 = Some (ODict [(bs "S", N_ "URI"); (bs "URI", OStr (StreamModel.enc pr (Z.of_nat i' + 1) (u0 :: us)))])) by reflexivity. rewrite V1, V2. unfold N_. replace (list_eqb (bs "Link") (bs "Link")) with true by reflexivity. rewrite V3, V4.
        set (D1 := ODict _). assert (V5 : value_of "S" D1 = Some (N_ "URI")) by reflexivity. assert (V6 : value_of "URI" D1 = Some (OStr (StreamModel.enc pr (Z.of_nat i' + 1) (u0 :: us)))) by reflexivity. rewrite V5, V6. unfold N_. replace (list_eqb (bs "URI") (bs "URI")) with true by reflexivity. cbn [text_value option_map].
        eexists. split; [reflexivity|]. cbn [fst snd]. split; [reflexivity|]. f_equal. rewrite KEY, <- EN. rewrite enc_eq. destruct pr as [q|]; [|reflexivity]. cbn [option_map]. unfold decrypt. rewrite <- C13_key_material_is_standard by lia. apply rc4_invol. }
    assert (G : forall ps b, (forall j p, nth_error ps j = Some p -> page_links t (links_on (S (b + j)) m) p) ->
      Forall2 (fun k j => exists x, links_of file d k = Some x /\ Forall2 (link_read rectangle (marks_of l)) x (links_on (S j) m)) (map (fun p => Z.of_nat p + 1) ps) (seq b (List.length ps))); [|now apply G].
    induction ps as [|p ps IH]; intros b H; cbn [map List.length seq]; constructor.
    - apply ONE; [specialize (H O p eq_refl); now rewrite Nat.add_0_r in H|]. intros k IK. unfold links_on in IK. apply in_map_iff in IK as ([q k0] & <- & IK). apply filter_In in IK as [IK _]. now apply (SET q).
    - apply IH. intros j q N. replace (S b + j)%nat with (b + S j)%nat by lia. now apply H.
  Qed.
End File.
Print Assumptions C78_bookmarks.
Print Assumptions C78_links.

(** ** A document meeting the hypotheses, written to bytes and opened *)
Definition demo_rect (k : shown_link) : f64 * f64 * f64 * f64 := (one64, one64, one64, one64).
Definition marks_text (pr : option protection) (t : gp) (i : nat) (o : obj) : bytes :=
  match o with
  | OCatalog => catalog_body (g_cat_outl t)
  | OPages => pages_body one64 one64 (g_pagecount t) (g_kids t)
  | OPage p => page_body 4 (pg_links p) (pg_contents p) None None
  | OOutlines => outlines_body (g_outl_count t) (g_outl_first t) (g_outl_last t)
  | OOutline q => outline_body {| oo_title := ol_title q; oo_dest := ol_dest q; oo_parent := ol_parent q; oo_prev := ol_prev q; oo_next := ol_next q; oo_first := ol_first q; oo_last := ol_last q; oo_height := one64 |}
  | OAnnot k => if is_empty (lk_url k) then internal_body one64 one64 one64 one64 (option_map (fun a => (idx (fst a), one64)) (lookup (lk_anchor k) (g_anchors t)))
                else sbody (fun d => d) pr (Z.of_nat i + 1) (SAnnotURL (rect_text one64 one64 one64 one64) (lk_url k))
  | OEncryption => match pr with Some p => encryption_body p | None => [] end
  | _ => bs "null" ++ [NL]
  end.
Definition marks_objs (pr : option protection) (t : gp) : list (Z -> wprog) :=
  map (fun '(i, o) => fun _ : Z => chunks [marks_text pr t i o]) (combine (seq 0 (List.length (g_objs t))) (g_objs t)).
Lemma demo_marks pr t : (pr = None -> ~ In OEncryption (g_objs t)) -> forallb (fun o => match o with OOutline q => forallb (fun b => 0 <=? b) (ol_title q) | _ => true end) (g_objs t) = true ->
  forall i o f, nth_error (g_objs t) i = Some o -> nth_error (marks_objs pr t) i = Some f -> marks_written (fun d => d) pr demo_rect t i o (prog_bytes (f (Z.of_nat i + 1))).
Proof.
  intros HE HN i o f N NF. unfold marks_objs in NF. rewrite nth_error_map, nth_combine, N in NF. cbn [option_map] in NF. injection NF as <-.
  match goal with |- marks_written ?a ?b ?c ?d ?e ?f _ => change (marks_written a b c d e f (prog_bytes (chunks [marks_text pr t i o]))) end. rewrite prog_bytes_chunks. cbn [List.concat]. rewrite app_nil_r.
  rewrite forallb_forall in HN. specialize (HN o (nth_error_In _ _ N)). destruct o; cbn [marks_written marks_text]; try exact I; try reflexivity.
  - exists one64, one64. split; [exact one64_finite|]. split; [exact one64_finite|reflexivity].
  - exists None, None. split; [discriminate|]. split; [discriminate|reflexivity].
  - unfold demo_rect. destruct (is_empty (lk_url l)); [|reflexivity]. exists one64. split; [exact one64_finite|reflexivity].
  - exists one64. split; [exact one64_finite|]. split; [|reflexivity]. apply Forall_forall. intros b Hb. rewrite forallb_forall in HN. specialize (HN b Hb). lia.
  - destruct pr as [p|]; [exists p; split; reflexivity|]. destruct (HE eq_refl). eapply nth_error_In, N.
Qed.
Definition a4open : config := {| cf_page := {| r_w := 595; r_h := 842 |}; cf_protect := false |}.
Definition guide : list op :=
  [ Do (AddOutline (bs "Cover")); AddFooter (Some [AddOutline (bs "foot")]); AddPage None; Do (Draw false (bs "a")); Do (AddLink (k1 "http://one" "")); AddFooter None; Do (SetAnchor (bs "here"));
    AddPage (Some small); Do (Draw false (bs "b")); Do (SetPage 1); Do (Draw false (bs "c")); Do (AddLink (k1 "" "here")); Do (AddOutlinePos (bs "Two")); AddPage None ].
Definition guide_state : gp := output (doc a4open guide).
Definition guide_file : bytes := compile_bytes (marks_objs None guide_state) {| tr_encrypt := None; tr_info := option_map (fun i => [writeInfo i]) None |}.
Example C78_met : no_output guide = true /\ finishes (start a4open zero_gp) guide /\ locked (cf_protect (g_cfg (doc a4open guide))) None (User []) /\
  List.length (marks_objs None guide_state) = List.length (g_objs guide_state) /\
  (forall i o f, nth_error (g_objs guide_state) i = Some o -> nth_error (marks_objs None guide_state) i = Some f -> marks_written (fun d => d) None demo_rect guide_state i o (prog_bytes (f (Z.of_nat i + 1)))) /\
  (forall k, corner (demo_rect k)) /\ zlen guide_file < 10 ^ 10 /\
  (forall p k, In (p, k) (ld_links (links_asked a4open guide)) -> sl_url k = [] -> last_set (sl_anchor k) (mk_anchors (marks_of guide)) <> None).
Proof.
  split; [reflexivity|]. split; [apply finishesb_ok; vm_compute; reflexivity|]. split; [vm_compute; reflexivity|].
  split; [unfold marks_objs; rewrite map_length, combine_length, seq_length; apply Nat.min_id|]. split.
  { refine (demo_marks None guide_state _ _); [|vm_compute; reflexivity]. intros _ H.
    assert (A : existsb (fun o => match o with OEncryption => true | _ => false end) (g_objs guide_state) = false) by (vm_compute; reflexivity).
    assert (B : existsb (fun o => match o with OEncryption => true | _ => false end) (g_objs guide_state) = true) by (apply existsb_exists; exists OEncryption; split; [exact H|reflexivity]). rewrite A in B. discriminate B. }
  split; [intros k; repeat split; vm_compute; discriminate|]. split; [vm_compute; reflexivity|].
  assert (A : forallb (fun x => negb (is_empty (sl_url (snd x))) || match last_set (sl_anchor (snd x)) (mk_anchors (marks_of guide)) with Some _ => true | None => false end) (ld_links (links_asked a4open guide)) = true) by (vm_compute; reflexivity).
  intros p k H U. rewrite forallb_forall in A. specialize (A _ H). cbn [snd] in A. rewrite U in A. cbn [is_empty negb orb] in A. intros X. rewrite X in A. discriminate A.
Qed.
(** Reading the bytes of that file: three bookmarks with their pages (the first has none), and the links of the three pages. *)
Example C78_opened :
  option_map (map (fun b => (text_string (fst b), snd b))) (open_bookmarks guide_file (User []))
    = Some [(Some (bs "Cover"), None); (Some (bs "foot"), Some 0%nat); (Some (bs "Two"), Some 1%nat)] /\
  option_map (map (map (fun x => match snd x with Web u => inl u | Place p _ => inr p end))) (open_links guide_file (User []))
    = Some [[inl (bs "http://one")]; [inr (Some 0%nat)]; []].
Proof. split; vm_compute; reflexivity. Qed.

(** ** Refuted: titles of bookmarks in protected files
    They are written in the clear, so a reader, decrypting them, shows something else. *)
Definition sealed_state : gp := output (doc a4 guide).
Definition sealed_file : bytes := compile_bytes (marks_objs open_key sealed_state) {| tr_encrypt := Some (g_encid sealed_state); tr_info := option_map (fun i => [writeInfo i]) None |}.
Theorem C78_protected_titles_refuted : exists pr, open_key = Some pr /\ no_output guide = true /\ finishes (start a4 zero_gp) guide /\ locked (cf_protect (g_cfg (doc a4 guide))) (Some pr) (User (bs "secret")) /\
  (forall i o f, nth_error (g_objs sealed_state) i = Some o -> nth_error (marks_objs (Some pr) sealed_state) i = Some f -> marks_written (fun d => d) (Some pr) demo_rect sealed_state i o (prog_bytes (f (Z.of_nat i + 1)))) /\
  option_map (map (fun b => (text_string (fst b), snd b))) (open_bookmarks sealed_file (User (bs "secret"))) = Some [(None, None); (None, Some 0%nat); (None, Some 1%nat)] /\
  option_map (map (map (fun x => match snd x with Web u => inl u | Place p _ => inr p end))) (open_links sealed_file (User (bs "secret"))) = Some [[inl (bs "http://one")]; [inr (Some 0%nat)]; []].
Proof.
  assert (X : match open_key with Some _ => true | None => false end = true) by (vm_cast_no_check (eq_refl true)).
  assert (Y : option_map (map (fun b => (text_string (fst b), snd b))) (open_bookmarks sealed_file (User (bs "secret"))) = Some [(None, None); (None, Some 0%nat); (None, Some 1%nat)]) by (vm_compute; reflexivity).
  assert (Y2 : option_map (map (map (fun x => match snd x with Web u => inl u | Place p _ => inr p end))) (open_links sealed_file (User (bs "secret"))) = Some [[inl (bs "http://one")]; [inr (Some 0%nat)]; []]) by (vm_compute; reflexivity).
  destruct open_key as [pr|] eqn:E; [clear X|discriminate X]. exists pr. split; [reflexivity|]. split; [reflexivity|]. split; [apply finishesb_ok; vm_compute; reflexivity|].
  split; [unfold locked; replace (cf_protect (g_cfg (doc a4 guide))) with true by (vm_compute; reflexivity); split; [reflexivity|]; exists (bs "0123456789abcdefghijklmnopqrstuv"), 4, (bs "secret"), []; split; [lia|]; split; [exact E|left; reflexivity]|].
  split; [|split; [exact Y|exact Y2]]. clear E Y Y2. refine (demo_marks (Some pr) sealed_state _ _); [intros X; discriminate X|vm_compute; reflexivity].
Qed.
Print Assumptions C78_protected_titles_refuted.
