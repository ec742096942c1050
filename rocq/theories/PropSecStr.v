(** PropSecStr.v — C69: the strings in the objects of a protected document.  A reader decrypts every string of every object
    (ISO 32000-1, 7.6.2) except those of the encryption dictionary. *)
From Coq Require Import QArith.
From Verif Require Import Base NumModel StrModel StrSpec Crypto DocModel DocSpec DocProofs DocInv SecModel SecSpec PropSec FileModel StreamModel PropStream PdfSyntax PdfRead ObjModel PropObj PropObj2 RefModel PropRef PropDoc.
Open Scope Z_scope.

(** ** Specification *)
(** All strings in a value, wherever they stand. *)
Fixpoint strings (o : pobj) : list bytes :=
  match o with
  | OStr s => [s]
  | OArr l => (fix go (l : list pobj) := match l with [] => [] | x :: r => strings x ++ go r end) l
  | ODict l => (fix go (l : list (bytes * pobj)) := match l with [] => [] | (_, x) :: r => strings x ++ go r end) l
  | _ => []
  end.
(** What a reader that opened the document with key [k] makes of the strings of object number [n]. *)
Definition shown (k : bytes) (n : Z) (o : pobj) : list bytes := map (decrypt k n) (strings o).

Lemma strings_arr l : strings (OArr l) = flat_map strings l.
Proof. induction l as [|x l IH]; [reflexivity|]. cbn in *. now rewrite IH. Qed.
Lemma strings_dict l : strings (ODict l) = flat_map (fun e => strings (snd e)) l.
Proof. induction l as [|[k x] l IH]; [reflexivity|]. cbn in *. now rewrite IH. Qed.
Lemma no_strings {A B} (f : A -> B) (g : B -> list bytes) l : (forall x, g (f x) = []) -> flat_map g (map f l) = [].
Proof. intros H. induction l as [|x l IH]; [reflexivity|]. cbn [map flat_map]. now rewrite H, IH. Qed.
Lemma no_strings2 {A B} (f : A -> list B) (g : B -> list bytes) l : (forall x, flat_map g (f x) = []) -> flat_map g (flat_map f l) = [].
Proof. intros H. induction l as [|x l IH]; [reflexivity|]. cbn [flat_map]. now rewrite flat_map_app, H, IH. Qed.
Ltac str := rewrite ?strings_dict; rewrite ?flat_map_app; cbn [flat_map fst snd]; rewrite ?strings_arr; cbn [flat_map fst snd app].

(** Which objects hold strings: links to web addresses, bookmarks, fonts, the encryption dictionary; no others. *)
Lemma text_strings zl pr t i o txt v rest : writes zl pr t i o txt -> read_object txt = Some (v, rest) ->
  match o with
  | OAnnot l => strings v = if is_empty (lk_url l) then [] else [enc pr (Z.of_nat i + 1) (lk_url l)]
  | OOutline q => exists s, strings v = [s] /\ text_of (ol_title q) s
  | OCIDFont _ => strings v = [bs "Identity"; bs "Adobe"]
  | OEncryption => True
  | _ => strings v = []
  end.
Proof.
  intros Wr RO. destruct Wr.
  - pose proof (reads_value _ _ _ _ (C60_catalog _) RO) as ->. str. now destruct (0 <=? g_cat_outl t).
  - pose proof (reads_value _ _ _ _ (C60_pages w h _ _ H H0) RO) as ->. str. now rewrite no_strings by reflexivity.
  - pose proof (reads_value _ _ _ _ (C60_outlines _ _ _) RO) as ->. unfold ifd. str. now destruct (0 <=? g_outl_first t), (0 <=? g_outl_last t).
  - assert (HT : Forall (fun e => exists n, fst e = 47 :: n /\ n <> [] /\ plain_name n = true) tpls) by (eapply Forall_impl; [|exact H]; now intros e [X _]).
    pose proof (reads_value _ _ _ _ (C60_resources _ _ _ _ _ HT) RO) as ->. rewrite strings_dict. cbn [flat_map snd]. rewrite strings_arr, !strings_dict. rewrite flat_map_app, !no_strings by reflexivity. reflexivity.
  - destruct (pg_contents p) as [|c1 [|c2 cs]] eqn:PC; [| |now rewrite page_multi in RO by assumption].
    + pose proof (reads_value _ _ _ _ (C60_page_partial 4 (pg_links p) None size trim H H0) RO) as ->. unfold page_dict. str.
      assert (E : flat_map (fun e : bytes * pobj => strings (snd e)) (match pg_links p with [] => [] | _ :: _ => [(bs "Annots", OArr (map ref (pg_links p)))] end) = []).
      { generalize (pg_links p) at 2 as k. intros k. destruct (pg_links p); [reflexivity|]. str. now rewrite no_strings by reflexivity. }
      rewrite E. destruct size as [[w h]|], (trimSet trim); reflexivity.
    + pose proof (reads_value _ _ _ _ (C60_page_partial 4 (pg_links p) (Some c1) size trim H H0) RO) as ->. unfold page_dict. str.
      assert (E : flat_map (fun e : bytes * pobj => strings (snd e)) (match pg_links p with [] => [] | _ :: _ => [(bs "Annots", OArr (map ref (pg_links p)))] end) = []).
      { generalize (pg_links p) at 2 as k. intros k. destruct (pg_links p); [reflexivity|]. str. now rewrite no_strings by reflexivity. }
      rewrite E. destruct size as [[w h]|], (trimSet trim); reflexivity.
  - pose proof (reads_value_s _ _ _ _ _ (C60_content _ _ _ _ _) RO) as ->. now destruct c.
  - pose proof (reads_value _ _ _ _ (C60_external_link _ _ _ _ _ _ _ _ H0 H1 H2 H3) RO) as ->. destruct (lk_url l) eqn:E; [congruence|]. reflexivity.
  - destruct (DocModel.lookup (lk_anchor l) (g_anchors t)) as [[pg y0]|] eqn:L; cbn [option_map fst] in RO; [|rewrite C60_unknown_anchor_refuted in RO; discriminate].
    pose proof (reads_value _ _ _ _ (C60_internal_link _ _ _ _ _ _ H0 H1 H2 H3 H4) RO) as ->. rewrite H. reflexivity.
  - match type of RO with read_object (outline_body ?q) = _ => destruct (C60_outline q H H0) as (title & T & RA) end. pose proof (reads_value _ _ _ _ RA RO) as ->.
    cbn [oo_title] in T. exists title. split; [|exact T]. unfold ifd. str. repeat match goal with |- context [if ?b then _ else _] => destruct b end; reflexivity.
  - pose proof (reads_value_s _ _ _ _ _ (C60_tounicode _ _ _ _) RO) as ->. reflexivity.
  - pose proof (reads_value_s _ _ _ _ _ (C60_fontfile _ _ _ _) RO) as ->. reflexivity.
  - pose proof (reads_value _ _ _ _ (C60_descriptor _ _ _ H) RO) as ->. reflexivity.
  - pose proof (reads_value _ _ _ _ (C60_cidfont _ _ _ H) RO) as ->. rewrite strings_dict. cbn [flat_map snd]. rewrite (strings_arr (flat_map _ ws)).
    rewrite no_strings2 by reflexivity. reflexivity.
  - pose proof (reads_value _ _ _ _ (C60_font _ _ _ H) RO) as ->. reflexivity.
  - assert (SP : forall cs, strings (space_of p cs) = []) by (intros cs; unfold space_of; destruct (im_cs p), cs; reflexivity).
    assert (PI : forall cs, flat_map (fun e : bytes * pobj => strings (snd e)) (picture p cs) = []).
    { intros cs. unfold picture. rewrite !flat_map_app. cbn [flat_map snd]. rewrite SP. unfold cmyk_decode, filter_of. now destruct (im_cs p), (im_filter p). }
    assert (UM : use = AsMask \/ use <> AsMask) by (destruct use; auto; right; discriminate). destruct UM as [->|UM].
    + pose proof (reads_value_s _ _ _ _ _ (C60_mask_image _ _ _ _ _) RO) as ->. rewrite strings_dict, !flat_map_app, PI. reflexivity.
    + assert (EM : (match use with AsMask => true | _ => false end) = false) by (now destruct use). rewrite EM in RO. clear EM.
      pose proof (reads_value_s _ _ _ _ _ (C60_image _ _ _ _ _) RO) as ->. rewrite strings_dict, !flat_map_app, PI.
      assert (E1 : flat_map (fun e : bytes * pobj => strings (snd e)) (parms p) = []) by (unfold parms; now destruct (im_colors p)).
      assert (E2 : flat_map (fun e : bytes * pobj => strings (snd e)) (colour_mask (im_trns p) ++ soft_mask p) = []).
      { rewrite flat_map_app. unfold soft_mask. assert (X : flat_map (fun e : bytes * pobj => strings (snd e)) (colour_mask (im_trns p)) = []).
        { unfold colour_mask. generalize (im_trns p) at 2 as k. intros k. destruct (im_trns p); [reflexivity|]. str. now rewrite no_strings2 by reflexivity. }
        rewrite X. now destruct (im_smask p). }
      rewrite E1. destruct use; rewrite ?E2; reflexivity.
  - pose proof (reads_value_s _ _ _ _ _ (C60_smask _ _ _ _ _ _ _) RO) as ->. unfold gray. now destruct f.
  - pose proof (reads_value_s _ _ _ _ _ (C60_palette _ _ _ _) RO) as ->. reflexivity.
  - pose proof (reads_value_s _ _ _ _ _ (C60_group _ _ _ _ _ _ _ _ H H0 H1 H2) RO) as ->. reflexivity.
  - pose proof (reads_value _ _ _ _ (C60_softmask _) RO) as ->. reflexivity.
  - pose proof (reads_value _ _ _ _ (C60_gstate _ _ _ _ H H0) RO) as ->. unfold odict. now destruct ca, CA, bm, (eg_smask e).
  - pose proof (reads_value _ _ _ _ (C60_rgb_space _ _ _ _ H H0 H1 H2) RO) as ->. reflexivity.
  - pose proof (reads_value _ _ _ _ (C60_cmyk_space _ _ _ _ _ H H0 H1 H2 H3) RO) as ->. reflexivity.
  - exact I.
Qed.

(** ** Proved: the addresses of links come back, and no other object than bookmarks and fonts holds strings at all. *)
Theorem C69_strings_recovered_partial : forall zl p t i o txt v rest,
  writes zl (Some p) t i o txt -> read_object txt = Some (v, rest) -> Z.of_nat i + 1 < 2 ^ 24 ->
  match o with
  | OAnnot l => shown (p_key p) (Z.of_nat i + 1) v = if is_empty (lk_url l) then [] else [lk_url l]
  | OOutline _ | OCIDFont _ | OEncryption => True
  | _ => shown (p_key p) (Z.of_nat i + 1) v = []
  end.
Proof.
  intros zl p t i o txt v rest W RO B. pose proof (text_strings _ _ _ _ _ _ _ _ W RO) as H. unfold shown. destruct o; try exact I; try (rewrite H; reflexivity).
  rewrite H. destruct (is_empty (lk_url _)); [reflexivity|]. cbn [map]. rewrite enc_eq. unfold decrypt. rewrite <- C13_key_material_is_standard by lia. now rewrite rc4_invol.
Qed.
Print Assumptions C69_strings_recovered_partial.

(** ** Refuted for the titles of bookmarks (and the registry and ordering of fonts): they are written in the clear, so a reader,
    which decrypts them, shows the encryption of the title. *)
Lemma rc4_two key : exists k1 k2 tail, forall a b m, rc4 key (a :: b :: m) = Z.lxor a k1 :: Z.lxor b k2 :: tail m.
Proof. unfold rc4. set (s := ksa _ _ _ _ _). clearbody s. do 3 eexists. intros a b m. cbn [prga]. cbv zeta. reflexivity. Qed.
Lemma lxor_same u w : Z.lxor u w = u -> w = 0.
Proof. intros H. assert (H2 : Z.lxor u (Z.lxor u w) = Z.lxor u u) by now rewrite H. now rewrite <- Z.lxor_assoc, Z.lxor_nilpotent, Z.lxor_0_l in H2. Qed.
Lemma rc4_pairs key a b m : firstn 2 (rc4 key (a :: b :: m)) = [a; b] -> firstn 2 (rc4 key [0; 0]) = [0; 0].
Proof.
  destruct (rc4_two key) as (k1 & k2 & tail & R). rewrite !R. cbn [firstn]. intros E.
  assert (E1 : Z.lxor a k1 = a) by congruence. assert (E2 : Z.lxor b k2 = b) by congruence. apply lxor_same in E1, E2. now subst.
Qed.
Theorem C69_titles_refuted : forall zl p t i q txt v rest cs,
  writes zl (Some p) t i (OOutline q) txt -> read_object txt = Some (v, rest) ->
  Forall bmp cs -> ol_title q = utf8 cs -> cs <> [] ->
  exists s, text_string s = Some cs /\ shown (p_key p) (Z.of_nat i + 1) v = [rc4 (object_key (p_key p) (Z.of_nat i + 1)) s] /\
    (* it is still marked as Unicode text only if the cipher's first two bytes happen to be zero *)
    (shown (p_key p) (Z.of_nat i + 1) v = [s] -> firstn 2 (rc4 (object_key (p_key p) (Z.of_nat i + 1)) [0; 0]) = [0; 0]).
Proof.
  intros zl p t i q txt v rest cs W RO HB HT NE. destruct (text_strings _ _ _ _ _ _ _ _ W RO) as (s & E & T). specialize (T cs HB HT).
  exists s. split; [exact T|]. unfold shown. rewrite E. cbn [map]. split; [reflexivity|]. unfold decrypt. intros H.
  assert (S2 : exists a b m, s = a :: b :: m).
  { destruct s as [|a [|b m]]; [discriminate T| |eauto]. exfalso. clear -T. unfold text_string in T. destruct a as [|x|x]; try discriminate T. do 8 (destruct x as [x|x|]; try discriminate T). }
  destruct S2 as (a & b & m & ->). apply (rc4_pairs _ a b m). apply (f_equal (hd [])) in H. cbn [hd] in H. rewrite H. reflexivity.
Qed.
Print Assumptions C69_titles_refuted.

(** A real case: the document of the user password "u", bookmark number 12, title "Chapter": what a reader shows is not even
    marked as Unicode text. *)
Definition title_shown : bool :=
  match setProtection (bs "r") 4 (bs "u") [] with
  | Some p => match read_object (outline_body {| oo_title := bs "Chapter"; oo_dest := 3; oo_parent := 2; oo_prev := -1; oo_next := -1; oo_first := -1; oo_last := -1; oo_height := f64_ofZ 800 |}) with
              | Some (v, _) => existsb (fun s => match text_string s with Some _ => true | None => false end) (shown (p_key p) 12 v)
              | None => true
              end
  | None => true
  end.
Example C69_title_example : title_shown = false.
Proof. vm_compute. reflexivity. Qed.
Example C69_link_met : exists p t l txt v rest, setProtection (bs "r") 4 (bs "u") [] = Some p /\ lk_url l = bs "https://go.dev" /\
  writes (fun b => b) (Some p) t 5 (OAnnot l) txt /\ read_object txt = Some (v, rest).
Proof.
  pose (x := f64_ofZ 10). assert (F : forall a, a = x \/ a = add64 x x \/ a = sub64 x x -> finite a) by (intros a [->|[->| ->]]; vm_compute; discriminate).
  pose (l := {| lk_x := 0%Q; lk_y := 0%Q; lk_w := 0%Q; lk_h := 0%Q; lk_url := bs "https://go.dev"; lk_anchor := [] |}).
  destruct (setProtection (bs "r") 4 (bs "u") []) as [p|] eqn:E; [|rewrite setProtection_eq in E; discriminate].
  destruct (C60_external_link (fun b => b) (Some p) (Z.of_nat 5 + 1) x x x x (lk_url l)) as (r & R & _); auto.
  exists p, zero_gp, l, (sbody (fun b => b) (Some p) (Z.of_nat 5 + 1) (SAnnotURL (rect_text x x x x) (lk_url l))). do 2 eexists.
  split; [reflexivity|]. split; [reflexivity|]. split; [|exact R].
  apply W_external; auto. discriminate.
Qed.
