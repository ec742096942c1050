(** PropStream.v — C33 (stream lengths), C15 (everything encrypted).  Specification: StreamSpec.v,
    SecSpec.v, FileSpec.v. *)
From Verif Require Import Base FileModel FileSpec FileProofs PropFile StrSpec StrModel PropStr Crypto SecSpec SecModel PropSec
  StreamSpec StreamModel.

(** ** Searching across numbers *)
Definition numtext (l : bytes) : Prop :=
  l <> [] /\ forallb (fun c => is_digit c || (c =? 45) || (c =? 46)) l = true.
Lemma fmt_d_num n : numtext (fmt_d n).
Proof.
  unfold fmt_d. assert (D : forall n, 0 <= n -> forallb (fun c => is_digit c || (c =? 45) || (c =? 46)) (dec n) = true).
  { intros k Hk. pose proof (dec_digits k Hk) as D. rewrite forallb_forall in *. intros c Hc. now rewrite (D c Hc). }
  destruct (Z.ltb_spec n 0).
  - split; [discriminate|]. cbn [forallb]. rewrite D by lia. reflexivity.
  - split; [apply dec_nonempty; lia|apply D; lia].
Qed.
Definition safe_pat (p : bytes) : Prop :=
  p <> [] /\ forallb (fun c => negb (is_digit c || (c =? 45) || (c =? 46))) p = true.
Lemma num_foreign p t : safe_pat p -> numtext t -> Forall (fun c => ~ In c p) t.
Proof.
  intros [_ Hp] [_ Ht]. apply Forall_forall. intros c Hc Hi. rewrite forallb_forall in Hp, Ht.
  specialize (Hp c Hi). rewrite (Ht c Hc) in Hp. discriminate.
Qed.
(** A literal piece, a number, and the rest. *)
Lemma split_piece p L t q : safe_pat p -> numtext t -> split_at p L = None ->
  split_at p (L ++ t ++ q) = match split_at p q with Some (b, r) => Some (L ++ t ++ b, r) | None => None end.
Proof.
  intros Hp Ht HL. pose proof (num_foreign p t Hp Ht) as F. destruct t as [|c t]; [destruct Ht; congruence|].
  apply Forall_cons_iff in F as [Fc F]. cbn [app].
  rewrite (split_at_sep p c (t ++ q)) by (apply Hp || assumption).
  rewrite split_at_foreign by (apply Hp || assumption). destruct (split_at p q) as [[? ?]|]; reflexivity.
Qed.
Lemma split_here p q : p <> [] -> split_at p (p ++ q) = Some ([], q).
Proof. intros H. destruct p as [|x p]; [congruence|]. cbn [app split_at]. change (x :: p ++ q) with ((x :: p) ++ q). now rewrite drop_prefix_app. Qed.
(** ** Dictionaries: text without "stream" newline and with the right length entry *)
Definition SP := bs "stream" ++ [10].
Definition LP := bs "/Length ".
Lemma SP_safe : safe_pat SP. Proof. split; [discriminate|reflexivity]. Qed.
Lemma LP_safe : safe_pat LP. Proof. split; [discriminate|reflexivity]. Qed.

(** [dict_for D n]: the dictionary text [D] is directly followed by the stream keyword, the first
    such keyword, and its length entry is n. *)
Definition dict_for (D : bytes) (n : Z) : Prop :=
  (forall q, split_at SP (D ++ SP ++ q) = Some (D, q)) /\ length_entry D = Some n.

(** Front parts in which neither pattern occurs, whatever follows — provided what follows starts with
    a byte outside both patterns or the like; pieces are closed under concatenation. *)
Definition clear (p L : bytes) : Prop :=
  forall q, split_at p (L ++ q) = match split_at p q with Some (b, r) => Some (L ++ b, r) | None => None end.
Lemma clear_nil p : clear p [].
Proof. intros q. cbn [app]. destruct (split_at p q) as [[? ?]|]; reflexivity. Qed.
Lemma clear_app p a b : clear p a -> clear p b -> clear p (a ++ b).
Proof.
  intros Ha Hb q. rewrite <- app_assoc, Ha, Hb. destruct (split_at p q) as [[? ?]|]; [|reflexivity].
  now rewrite <- app_assoc.
Qed.
Lemma clear_num p t : safe_pat p -> numtext t -> clear p t.
Proof. intros Hp Ht q. apply split_at_foreign; [apply Hp|]. apply num_foreign; assumption. Qed.
(** A literal none of whose suffixes can begin an occurrence. *)
Fixpoint compat (p s : bytes) : bool :=
  match p, s with x :: p', y :: s' => (x =? y) && compat p' s' | _, _ => true end.
Fixpoint clearb (p L : bytes) : bool :=
  match L with [] => true | _ :: L' => negb (compat p L) && clearb p L' end.
Lemma compat_drop p : forall s q, compat p s = false -> drop_prefix p (s ++ q) = None.
Proof.
  induction p as [|x p IH]; intros [|y s] q H; try discriminate.
  cbn in *. destruct (x =? y); [apply IH; exact H|reflexivity].
Qed.
Lemma clear_lit p L : clearb p L = true -> clear p L.
Proof.
  induction L as [|x L IH]; intros H; [apply clear_nil|]. intros q.
  cbn [clearb] in H. apply andb_prop in H as [H1 H2]. apply negb_true_iff in H1.
  cbn [app split_at]. change (x :: L ++ q) with ((x :: L) ++ q). rewrite (compat_drop _ _ _ H1).
  rewrite (IH H2). destruct (split_at p q) as [[? ?]|]; reflexivity.
Qed.
(** A literal followed by a number. *)
Lemma clear_lit_num p L t : safe_pat p -> numtext t -> split_at p L = None -> clear p (L ++ t).
Proof.
  intros Hp Ht HL q. rewrite <- app_assoc, split_piece by assumption.
  destruct (split_at p q) as [[? ?]|]; [|reflexivity]. now rewrite <- app_assoc.
Qed.
(** Text without the pattern's first byte. *)
Lemma clear_nohd b p L : forallb (fun c => negb (b =? c)) L = true -> clear (b :: p) L.
Proof. intros H q. apply split_at_nohd. exact H. Qed.

Lemma length_entry_at L n r : clear LP L -> 0 <= n -> match r with [] => True | x :: _ => is_digit x = false end ->
  length_entry (L ++ LP ++ fmt_d n ++ r) = Some n.
Proof.
  intros HL Hn Hr. unfold length_entry. change (bs "/Length ") with LP. rewrite HL.
  rewrite split_here by discriminate. rewrite fmt_d_nonneg by lia. rewrite read_num_dec by assumption. reflexivity.
Qed.

Lemma stream_read D n data tailws : dict_for D n -> zlen data = n ->
  forallb is_space tailws = true ->
  read_stream (D ++ SP ++ data ++ tailws ++ bs "endstream" ++ [10]) = Some data.
Proof.
  intros [HD HL] Hn Hws. unfold read_stream. change (bs "stream" ++ [10]) with SP. rewrite HD, HL. cbv zeta.
  assert (Z.to_nat n = List.length data) as -> by (unfold zlen in Hn; lia).
  rewrite skipn_app_exact, firstn_app_exact.
  assert (W : skip_ws (tailws ++ bs "endstream" ++ [10]) = bs "endstream" ++ [10]).
  { clear -Hws. induction tailws as [|b w IH]; [reflexivity|]. cbn [forallb] in Hws. apply andb_prop in Hws as [H1 H2].
    cbn [app skip_ws]. rewrite H1. auto. }
  rewrite W, (proj2 (list_eqb_eq _ _) eq_refl), andb_true_r, zlen_app.
  pose proof (zlen_nonneg (tailws ++ bs "endstream" ++ [10])).
  destruct (Z.leb_spec n (zlen data + zlen (tailws ++ bs "endstream" ++ [10]))); [reflexivity|lia].
Qed.

(** The end of every dictionary: "/Length n", newline, ">>", newline. *)
Definition lenline (n : Z) : bytes := LP ++ fmt_d n ++ [NL] ++ bs ">>" ++ [NL].
Lemma dict_for_end L n : clear SP L -> clear LP L -> 0 <= n -> dict_for (L ++ lenline n) n.
Proof.
  intros HS HL Hn. split.
  - intros q. unfold lenline. rewrite <- !app_assoc. rewrite HS.
    rewrite (split_piece SP LP (fmt_d n)) by (apply SP_safe || apply fmt_d_num || reflexivity).
    assert (G : clear SP ([NL] ++ bs ">>" ++ [NL])) by (apply clear_nohd; reflexivity).
    change ([NL] ++ bs ">>" ++ [NL] ++ SP ++ q) with (([NL] ++ bs ">>" ++ [NL]) ++ SP ++ q).
    rewrite G, split_here by discriminate. rewrite app_nil_r. reflexivity.
  - unfold lenline. apply length_entry_at; [exact HL|exact Hn|reflexivity].
Qed.
(** Fonts: "<</Length n", filter, "/Length1 m". *)
Lemma dict_for_font n m : 0 <= n -> dict_for (bs "<</Length " ++ fmt_d n ++ [NL] ++ bs "/Filter /FlateDecode" ++ [NL]
      ++ bs "/Length1 " ++ fmt_d m ++ [NL] ++ bs ">>" ++ [NL]) n.
Proof.
  intros Hn. split.
  - intros q. rewrite <- !app_assoc.
    rewrite (split_piece SP (bs "<</Length ") (fmt_d n)) by (apply SP_safe || apply fmt_d_num || reflexivity).
    change ([NL] ++ bs "/Filter /FlateDecode" ++ [NL] ++ bs "/Length1 " ++ ?q) with (([NL] ++ bs "/Filter /FlateDecode" ++ [NL] ++ bs "/Length1 ") ++ q).
    rewrite (split_piece SP _ (fmt_d m)) by (apply SP_safe || apply fmt_d_num || reflexivity).
    assert (G : clear SP ([NL] ++ bs ">>" ++ [NL])) by (apply clear_nohd; reflexivity).
    change ([NL] ++ bs ">>" ++ [NL] ++ SP ++ q) with (([NL] ++ bs ">>" ++ [NL]) ++ SP ++ q).
    rewrite G, split_here by discriminate. rewrite app_nil_r. reflexivity.
  - change (bs "<</Length " ++ ?q) with (bs "<<" ++ LP ++ q). apply length_entry_at; [|exact Hn|reflexivity].
    apply clear_nohd. reflexivity.
Qed.

(** The image dictionaries. *)
Lemma clear_cons p x L : clear p [x] -> clear p L -> clear p (x :: L).
Proof. intros H1 H2. apply (clear_app p [x] L H1 H2). Qed.
Ltac closed_lit L := lazymatch L with context [fmt_d] => fail | context [imgProps] => fail | _ => idtac end.
Ltac clr := repeat first [ apply clear_nil | (lazymatch goal with |- clear _ ?L => closed_lit L end; apply clear_lit; vm_compute; reflexivity)
                         | apply clear_app | apply clear_num; [assumption|apply fmt_d_num] ].
Lemma clear_base p i cs : p = SP \/ p = LP -> clear p (baseImgProps i cs).
Proof.
  intros Hp.
  assert (Sp : safe_pat p) by (destruct Hp; subst; [apply SP_safe|apply LP_safe]).
  unfold baseImgProps. destruct Hp; subst p; destruct (im_cs i), (im_filter i), cs; clr.
Qed.
Lemma clear_trns p t : p = SP \/ p = LP -> clear p (trns_text t).
Proof.
  intros Hp.
  assert (Sp : safe_pat p) by (destruct Hp; subst; [apply SP_safe|apply LP_safe]).
  induction t as [|x t IH]; [apply clear_nil|]. unfold trns_text. cbn [flat_map]. apply clear_app; [|exact IH].
  destruct Hp; subst p; clr.
Qed.
Lemma clear_img p i sp : p = SP \/ p = LP -> clear p (imgProps i sp).
Proof.
  intros Hp. pose proof (clear_base p i (im_cs i) Hp) as B. pose proof (clear_trns p (im_trns i) Hp) as T.
  assert (Sp : safe_pat p) by (destruct Hp; subst; [apply SP_safe|apply LP_safe]).
  unfold imgProps. apply clear_app; [exact B|]. destruct Hp; subst p;
  (apply clear_app; [destruct (im_colors i); clr|]); (destruct sp; [apply clear_nil|]);
  (apply clear_app; [destruct (im_trns i); [apply clear_nil|]; apply clear_app; [clr|apply clear_app; [clr|apply clear_app; [exact T|clr]]]|]);
  destruct (is_empty (im_smask i)); clr.
Qed.
Lemma clear_mask p i : p = SP \/ p = LP -> clear p (maskImgProps i).
Proof.
  intros Hp. pose proof (clear_base p i DevGray Hp) as B.
  assert (Sp : safe_pat p) by (destruct Hp; subst; [apply SP_safe|apply LP_safe]).
  unfold maskImgProps. apply clear_app; [exact B|]. destruct Hp; subst p; clr.
Qed.
Lemma clear_smask p w h f : p = SP \/ p = LP -> clear p (smaskProps w h f).
Proof.
  intros Hp. unfold smaskProps. apply clear_app; [apply clear_base; exact Hp|].
  assert (Sp : safe_pat p) by (destruct Hp; subst; [apply SP_safe|apply LP_safe]).
  destruct Hp; subst p; clr.
Qed.

(** Objects that are streams; the numbers of a bounding box are printed numbers. *)
Definition is_stream (o : sobj) : Prop :=
  match o with
  | SAnnotURL _ _ | SOther _ => False
  | SGroup (b0, b1, b2, b3) _ => numtext b0 /\ numtext b1 /\ numtext b2 /\ numtext b3
  | _ => True
  end.
Lemma enc_eq pr n d : enc pr n d = match pr with Some p => rc4 (objectkey p n) d | None => d end.
Proof. unfold enc. destruct pr as [p|]; [|reflexivity]. unfold objectkey. rewrite rc4Cip_md5 by lia. reflexivity. Qed.
Lemma enc_len pr n d : zlen (enc pr n d) = zlen d.
Proof. rewrite enc_eq. destruct pr; [|reflexivity]. unfold zlen. now rewrite rc4_len. Qed.
Definition unencrypted (o : sobj) : bool := match o with SGroup _ _ => true | _ => false end.

Lemma stream_data zl pr n o : is_stream o ->
    read_stream (sbody zl pr n o) =
    Some (if unencrypted o then plain zl o
          else match pr with Some p => rc4 (objectkey p n) (plain zl o) | None => plain zl o end).
Proof.
  intros Ho.
  set (d := plain zl o).
  assert (Hd : 0 <= zlen d) by apply zlen_nonneg.
  assert (W : forallb is_space (enl pr) = true) by (destruct pr; reflexivity).
  rewrite <- enc_eq.
  assert (F : forall L ws, clear SP L -> clear LP L -> forallb is_space ws = true ->
     read_stream (L ++ lenline (zlen d) ++ SP ++ enc pr n d ++ ws ++ bs "endstream" ++ [10]) = Some (enc pr n d)).
  { intros L ws H1 H2 H3. rewrite (app_assoc L). eapply stream_read; [apply dict_for_end; eassumption|apply enc_len|exact H3]. }
  assert (F' : forall L ws, clear SP L -> clear LP L -> forallb is_space ws = true ->
     read_stream (L ++ lenline (zlen d) ++ SP ++ d ++ ws ++ bs "endstream" ++ [10]) = Some d).
  { intros L ws H1 H2 H3. rewrite (app_assoc L). eapply stream_read; [apply dict_for_end; eassumption|reflexivity|exact H3]. }
  destruct o as [c dat|dat|dat size|i m sp|f|w h f dat|[[[b0 b1] b2] b3] dat|m|rect url|b]; cbn [unencrypted]; unfold sbody; fold d; try contradiction.
  - destruct c.
    + destruct pr as [p|]; (rewrite <- (F (bs "<<" ++ [NL] ++ bs "/Filter/FlateDecode") [NL]); [|clr..|reflexivity]);
      unfold lenline; rewrite <- !app_assoc; reflexivity.
    + destruct pr as [p|].
      * rewrite <- (F (bs "<<" ++ [NL]) [NL]); [|clr..|reflexivity]. unfold lenline; rewrite <- !app_assoc; reflexivity.
      * rewrite <- (F (bs "<<" ++ [NL]) []); [|clr..|reflexivity]. unfold lenline; rewrite <- !app_assoc; reflexivity.
  - rewrite <- (F (bs "<<" ++ [NL]) (enl pr)); [|clr..|exact W]. unfold lenline; rewrite <- !app_assoc; reflexivity.
  - rewrite <- (stream_read _ _ (enc pr n d) (enl pr ++ [NL]) (dict_for_font (zlen d) size Hd));
      [|apply enc_len|rewrite forallb_app, W; reflexivity]. rewrite <- !app_assoc. reflexivity.
  - rewrite <- (F ((if m then maskImgProps i else imgProps i sp) ++ [TAB]) (enl pr ++ [NL])).
    + unfold lenline; rewrite <- !app_assoc; reflexivity.
    + apply clear_app; [destruct m; [apply clear_mask|apply clear_img]; auto|clr].
    + apply clear_app; [destruct m; [apply clear_mask|apply clear_img]; auto|clr].
    + rewrite forallb_app, W; reflexivity.
  - rewrite <- (stream_read _ _ (enc pr n d) ([NL]) (dict_for_font (zlen d) (zlen f) Hd));
      [|apply enc_len|reflexivity]. rewrite <- !app_assoc. reflexivity.
  - rewrite <- (F (smaskProps w h f) (enl pr ++ [NL])).
    + unfold lenline; rewrite <- !app_assoc; reflexivity.
    + apply clear_smask; auto.
    + apply clear_smask; auto.
    + rewrite forallb_app, W; reflexivity.
  - destruct Ho as (H0 & H1 & H2 & H3).
    set (L := bs "<<" ++ [NL; TAB] ++ bs "/FormType 1" ++ [NL; TAB] ++ bs "/Subtype /Form" ++ [NL; TAB]
      ++ bs "/Type /XObject" ++ [NL; TAB] ++ bs "/Matrix [1 0 0 1 0 0]" ++ [NL; TAB]
      ++ bs "/BBox [" ++ b0 ++ bs " " ++ b1 ++ bs " " ++ b2 ++ bs " " ++ b3 ++ bs "]" ++ [NL; TAB]
      ++ bs "/Group<</CS /DeviceGray /S /Transparency>>" ++ [NL; TAB]).
    assert (C : forall p, p = SP \/ p = LP -> clear p L).
    { intros p Hp. assert (Sp : safe_pat p) by (destruct Hp; subst; [apply SP_safe|apply LP_safe]).
      unfold L. destruct Hp; subst p; repeat first [apply clear_nil | apply clear_app | apply clear_num; assumption | apply clear_lit; reflexivity]. }
    rewrite <- (F' L []); [|apply C; auto|apply C; auto|reflexivity].
    unfold lenline, L. rewrite <- !app_assoc. reflexivity.
  - rewrite <- (F (bs "<<" ++ [NL]) []); [|clr..|reflexivity]. unfold lenline; rewrite <- !app_assoc; reflexivity.
Qed.
(** C33: for every stream object gopdf writes — contents, palettes, images, masks, fonts, ToUnicode
    maps, transparency groups — with or without protection, whatever the compressor produces, a
    reader that trusts /Length gets exactly the (possibly encrypted) data, of the original length, and
    then finds "endstream". *)
Theorem C33_stream_length_is_exact :
  forall (zl : bytes -> bytes) (pr : option protection) (n : Z) (o : sobj),
    is_stream o ->
    exists data, read_stream (sbody zl pr n o) = Some data /\ List.length data = List.length (plain zl o) /\
      (pr = None -> data = plain zl o).
Proof.
  intros zl pr n o Ho. rewrite stream_data by exact Ho. eexists. split; [reflexivity|].
  split; [|intros ->; destruct (unencrypted o); reflexivity].
  destruct (unencrypted o), pr; try reflexivity. apply rc4_len.
Qed.
Print Assumptions C33_stream_length_is_exact.

Definition demo_img : imginfo :=
  {| im_w := 2; im_h := 1; im_cs := Indexed; im_bpc := 8; im_filter := FFlate; im_colors := Some 1; im_trns := [3];
     im_smask := [1; 2]; im_smaskObj := 11; im_pal := [0; 0; 0; 255; 255; 255]; im_rgbObj := 12;
     im_data := bs "endstream stream /Length 3" |}.
Example C33_example : is_stream (SImage demo_img false false) /\
  read_stream (sbody (fun b => b) None 5 (SImage demo_img false false)) = Some (bs "endstream stream /Length 3") /\
  read_stream (sbody (fun b => b) None 5 (SContent true (bs "q Q"))) = Some (bs "q Q").
Proof. split; [exact I|]. split; vm_compute; reflexivity. Qed.

(** ** C15 *)
(** Bodies of a document's own objects. *)
Lemma prun_app d a b : prun d (a ++ b) = prun (prun d a) b.
Proof. apply fold_left_app. Qed.
Definition added (l : list pop) : list sobj := flat_map (fun o => match o with PAdd x => [x] | _ => [] end) l.
Lemma prun_adds l : (forall o, In o l -> exists x, o = PAdd x) -> forall d,
  prun d l = {| pd_use := pd_use d; pd_cur := pd_cur d; pd_objs := pd_objs d ++ map (fun x => (x, pd_cur d)) (added l) |}.
Proof.
  induction l as [|o l IH]; intros H d.
  - cbn. rewrite app_nil_r. destruct d; reflexivity.
  - destruct (H o (or_introl eq_refl)) as (x & ->). cbn [prun fold_left]. fold (prun (pstep d (PAdd x)) l).
    rewrite IH by (intros o' Ho'; apply H; now right). cbn. rewrite <- app_assoc. reflexivity.
Qed.

Lemma doc_bodies_nth objs k o : nth_error objs k = Some o ->
  nth_error (doc_bodies objs) k = Some (prog_bytes (o (Z.of_nat k + 1))).
Proof.
  intros H. unfold doc_bodies.
  assert (L : (k < List.length objs)%nat) by (apply nth_error_Some; congruence).
  rewrite (map_nth_error _ k _ (d := (Z.of_nat k + 1, o))); [reflexivity|].
  assert (G : forall (A B : Type) (a : list A) (b : list B) k x y, nth_error a k = Some x -> nth_error b k = Some y ->
     nth_error (combine a b) k = Some (x, y)).
  { intros A B a. induction a as [|x0 a IH]; intros b k0 x y Ha Hb; [destruct k0; discriminate|].
    destruct b as [|y0 b]; [destruct k0; discriminate|]. destruct k0; cbn in *; [congruence|]. apply IH; assumption. }
  apply G; [|exact H]. rewrite (map_nth_error _ k _ (d := k)); [reflexivity|].
  rewrite (nth_error_nth' _ 0%nat) by (rewrite seq_length; exact L). now rewrite seq_nth.
Qed.

(** C15: a document protected through its configuration (the supported way), to which any objects
    except transparency groups and imported templates were added.  In the file written, every object
    is found through the cross-reference table (C01); the trailer's /Encrypt object opens with the
    user's password; and every stream found decrypts, with that key and the number of its own
    object, to the data the object was given. *)
Theorem C15_streams_encrypted_partial :
  forall (zl : bytes -> bytes) rnd perms user owner p (ops : list pop),
    0 <= perms < 256 -> setProtection rnd perms user owner = Some p ->
    (forall o, In o ops -> exists x, o = PAdd x) ->
    (forall x, In x (added ops) -> unencrypted x = false) ->
    zlen (added ops) < 2 ^ 24 - 1 ->
    let d := prun (pstart true p) ops in
    zlen (pd_file zl d) < 10 ^ 10 ->
    exists bodies encid encbody Oo U P k,
      well_formed_file (pd_file zl d) bodies /\
      tr_encrypt (pd_trailer d) = Some encid /\ nth_error bodies (Z.to_nat (encid - 1)) = Some encbody /\
      read_encrypt encbody = Some (Oo, U, P) /\ open_user Oo U P user = Some k /\
      forall i o, nth_error (added ops) i = Some o -> is_stream o ->
        exists body data, nth_error bodies i = Some body /\ read_stream body = Some data /\
          decrypt k (Z.of_nat i + 1) data = plain zl o.
Proof.
  intros zl rnd perms user owner p ops HP Hset Hadd Hun Hsz d Hfile.
  destruct (C14_passwords_open_the_file rnd perms user owner HP) as (p' & Oo & U & P & E & R & Hu & _ & _ & _).
  assert (p' = p) by congruence. subst p'.
  assert (D : d = {| pd_use := true; pd_cur := Some p; pd_objs := map (fun x => (x, Some p)) (added ops) |}).
  { unfold d. rewrite prun_adds by exact Hadd. reflexivity. }
  set (bodies := doc_bodies (pd_all zl d)).
  exists bodies, (zlen (added ops) + 1), (encryption_body p), Oo, U, P, (p_key p).
  split; [apply C01_xref_locates_every_object; exact Hfile|].
  assert (EN : forall i o, nth_error (added ops) i = Some o -> nth_error bodies i = Some (sbody zl (Some p) (Z.of_nat i + 1) o)).
  { intros i o Hi. unfold bodies. erewrite doc_bodies_nth.
    2:{ unfold pd_all. rewrite D. cbn [pd_objs pd_use pd_cur]. rewrite nth_error_app1.
        - rewrite map_map. erewrite map_nth_error by exact Hi. reflexivity.
        - rewrite !map_length. apply nth_error_Some. congruence. }
    cbn [fst sees pd_cur snd chunks prog_bytes]. unfold sees. cbn [pd_cur snd fst]. rewrite app_nil_r.
    destruct (captures o); reflexivity. }
  split; [unfold pd_trailer; rewrite D; cbn; unfold zlen; rewrite map_length; reflexivity|].
  split.
  { replace (Z.to_nat (zlen (added ops) + 1 - 1)) with (List.length (added ops)) by (unfold zlen; lia).
    unfold bodies. erewrite doc_bodies_nth.
    2:{ unfold pd_all. rewrite D. cbn [pd_objs pd_use pd_cur]. rewrite nth_error_app2 by (rewrite !map_length; lia).
        rewrite !map_length, Nat.sub_diag. reflexivity. }
    cbn [chunks prog_bytes]. now rewrite app_nil_r. }
  split; [exact R|]. split; [exact Hu|].
  intros i o Hi Hs. exists (sbody zl (Some p) (Z.of_nat i + 1) o). eexists. split; [apply EN; exact Hi|].
  rewrite (stream_data zl (Some p) _ o Hs). rewrite (Hun o) by (eapply nth_error_In; exact Hi).
  split; [reflexivity|].
  unfold decrypt. rewrite <- C13_key_material_is_standard; [apply rc4_invol|].
  assert (i < List.length (added ops))%nat by (apply nth_error_Some; congruence). unfold zlen in Hsz. lia.
Qed.
Print Assumptions C15_streams_encrypted_partial.

Example C15_example :
  exists p, setProtection (bs "r") 4 (bs "u") [] = Some p /\
    zlen (pd_file (fun b => b) (prun (pstart true p) [PAdd (SContent false (bs "q Q")); PAdd (SImage demo_img false false)])) < 10 ^ 10.
Proof. eexists. split; [apply setProtection_eq|]. vm_compute. reflexivity. Qed.

(** URLs of links are decrypted back, too (they are strings, C10). *)
Theorem C15_link_url_encrypted :
  forall zl p n rect url, 0 <= n < 2 ^ 24 ->
    exists before enc_url rest, sbody zl (Some p) n (SAnnotURL rect url) = before ++ 40 :: enc_url ++ rest /\
      litstring 0 (enc_url ++ rest) = Some (rc4 (objectkey p n) url, tl rest) /\
      decrypt (p_key p) n (rc4 (objectkey p n) url) = url.
Proof.
  intros zl p n rect url Hn.
  exists (bs "<</Type /Annot /Subtype /Link /Rect [" ++ rect ++ bs "] /Border [0 0 0] /A <</S /URI /URI "),
    (escape (rc4 (objectkey p n) url)), (bs ")>>>>" ++ [NL]).
  unfold sbody. cbn [plain]. rewrite enc_eq. split.
  - rewrite <- !app_assoc. change (bs "] /Border [0 0 0] /A <</S /URI /URI (") with (bs "] /Border [0 0 0] /A <</S /URI /URI " ++ [40]).
    rewrite <- !app_assoc. reflexivity.
  - split.
    + change (bs ")>>>>" ++ [NL]) with ([41] ++ bs ">>>>" ++ [NL]). rewrite C10_escaped_literal_reads_back. reflexivity.
    + unfold decrypt. rewrite <- C13_key_material_is_standard by exact Hn. apply rc4_invol.
Qed.
Print Assumptions C15_link_url_encrypted.

(** C15 refuted for masked images: the transparency group's stream is written as is. *)
Theorem C15_transparency_group_refuted :
  forall zl p n bbox data, is_stream (SGroup bbox data) ->
    read_stream (sbody zl (Some p) n (SGroup bbox data)) = Some data.
Proof. intros zl p n bbox data H. apply (stream_data zl (Some p) n (SGroup bbox data) H). Qed.
Print Assumptions C15_transparency_group_refuted.

(** So a viewer, which decrypts every stream, sees something else. *)
Example C15_group_example :
  match setProtection (bs "r") 4 (bs "u") [] with
  | Some p =>
      match read_stream (sbody (fun b => b) (Some p) 9 (SGroup (bs "0.000", bs "0.000", bs "10.000", bs "10.000") (bs "q 10 0 0 10 0 0 cm /I1 Do Q"))) with
      | Some data => list_eqb (decrypt (p_key p) 9 data) (bs "q 10 0 0 10 0 0 cm /I1 Do Q")
      | None => true
      end
  | None => true
  end = false.
Proof. vm_compute. reflexivity. Qed.

(** C54: protection requested with the SetProtection method alone (without Config.Protection):
    streams are encrypted, but the file names no encryption dictionary, whatever is added. *)
Theorem C54_setprotection_method_refuted :
  forall zl p0 p ops, (forall o, In o ops -> exists x, o = PAdd x) ->
    let d := prun (pstart false p0) (PSetProtection p :: ops) in
    tr_encrypt (pd_trailer d) = None /\
    forall i o, nth_error (added ops) i = Some o -> is_stream o -> unencrypted o = false ->
      exists body, nth_error (doc_bodies (pd_all zl d)) i = Some body /\
        read_stream body = Some (rc4 (objectkey p (Z.of_nat i + 1)) (plain zl o)).
Proof.
  intros zl p0 p ops Hadd d.
  assert (D : d = {| pd_use := false; pd_cur := Some p; pd_objs := map (fun x => (x, Some p)) (added ops) |}).
  { unfold d. cbn [prun fold_left]. fold (prun (pstep (pstart false p0) (PSetProtection p)) ops).
    rewrite prun_adds by exact Hadd. reflexivity. }
  split; [rewrite D; reflexivity|].
  intros i o Hi Hs Hu. exists (sbody zl (Some p) (Z.of_nat i + 1) o). split.
  - erewrite doc_bodies_nth.
    2:{ unfold pd_all. rewrite D. cbn [pd_objs pd_use pd_cur]. rewrite nth_error_app1.
        - rewrite map_map. erewrite map_nth_error by exact Hi. reflexivity.
        - rewrite !map_length. apply nth_error_Some. congruence. }
    unfold sees. cbn [fst pd_cur snd chunks prog_bytes]. rewrite app_nil_r. destruct (captures o); reflexivity.
  - rewrite (stream_data zl (Some p) _ o Hs), Hu. reflexivity.
Qed.
Print Assumptions C54_setprotection_method_refuted.

(** C54, second part: calling SetProtection after an image or font was added leaves that object
    encrypted with the old key. *)
Theorem C54_late_setprotection_refuted :
  forall zl p0 p o, captures o = true -> is_stream o -> unencrypted o = false ->
    let d := prun (pstart true p0) [PAdd o; PSetProtection p] in
    nth_error (doc_bodies (pd_all zl d)) 1 = Some (encryption_body p) /\
    exists body, nth_error (doc_bodies (pd_all zl d)) 0 = Some body /\
      read_stream body = Some (rc4 (objectkey p0 1) (plain zl o)).
Proof.
  intros zl p0 p o Hc Hs Hu d. split.
  - erewrite doc_bodies_nth by reflexivity. cbn. now rewrite app_nil_r.
  - exists (sbody zl (Some p0) 1 o). split.
    + erewrite doc_bodies_nth by reflexivity. cbn [chunks prog_bytes]. unfold sees. cbn [fst snd]. rewrite Hc, app_nil_r. reflexivity.
    + rewrite (stream_data zl (Some p0) 1 o Hs), Hu. reflexivity.
Qed.
Print Assumptions C54_late_setprotection_refuted.
