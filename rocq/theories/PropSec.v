(** PropSec.v — C13 (encryption), C14 (protection dictionary).  Specification: SecSpec.v. *)
From Verif Require Import Base FileSpec FileProofs StrSpec StrModel PropStr Crypto SecSpec SecModel.

Lemma pad32_len pw : List.length (pad32 pw) = 32%nat.
Proof. unfold pad32. rewrite firstn_length, app_length. cbn [List.length PAD]. lia. Qed.
Lemma pad32_exact l : List.length l = 32%nat -> pad32 l = l.
Proof. intros H. unfold pad32. rewrite <- H. apply firstn_app_exact. Qed.
Lemma rc4Cip_md5 n m src : (1 <= n <= 16)%nat -> rc4Cip (firstn n (md5 m)) src = Some (rc4 (firstn n (md5 m)) src).
Proof.
  intros H. unfold rc4Cip, zlen. rewrite firstn_length, md5_len.
  destruct (Z.leb_spec 1 (Z.of_nat (Nat.min n 16))); [|lia].
  destruct (Z.leb_spec (Z.of_nat (Nat.min n 16)) 256); [reflexivity|lia].
Qed.

(** The effective owner password: the given one, or the random one when none is given. *)
Definition owner_of (rnd owner : bytes) : bytes := match owner with [] => rnd | _ => owner end.

(** What SetProtection computes, in the vocabulary of the standard. *)
Lemma setProtection_eq rnd perms user owner :
  let prot := Z.lor 192 perms in
  let O := rc4 (firstn 5 (md5 (pad32 (owner_of rnd owner)))) (pad32 user) in
  let key := firstn 5 (md5 (pad32 user ++ O ++ [prot mod 256; 255; 255; 255])) in
  setProtection rnd perms user owner =
  Some {| p_u := rc4 key PAD; p_o := O; p_p := - (Z.lxor prot 255 + 1); p_key := key |}.
Proof.
  cbv zeta. unfold setProtection, generateEncryptionKey, createOValue, createUValue.
  change protectionPadding with PAD. fold (pad32 user).
  fold (owner_of rnd owner). fold (pad32 (owner_of rnd owner)).
  rewrite rc4Cip_md5 by lia. rewrite rc4Cip_md5 by lia. reflexivity.
Qed.

Lemma lor192 perms : 0 <= perms < 256 -> 192 <= Z.lor 192 perms < 256.
Proof.
  intros H.
  assert (A : 0 <= Z.lor 192 perms) by (apply Z.lor_nonneg; lia).
  split.
  - (* bits 6 and 7 are set *)
    assert (L : Z.land (Z.lor 192 perms) 192 = 192).
    { apply Z.bits_inj'. intros n Hn. rewrite Z.land_spec, Z.lor_spec.
      destruct (Z.testbit 192 n), (Z.testbit perms n); reflexivity. }
    pose proof (Z.land_ones (Z.lor 192 perms) 6 ltac:(lia)) as M.
    assert (D : Z.lor 192 perms / 64 = Z.lor 3 (perms / 64)).
    { change 64 with (2 ^ 6). rewrite <- !Z.shiftr_div_pow2 by lia. rewrite Z.shiftr_lor. reflexivity. }
    assert (P : perms / 64 = 0 \/ perms / 64 = 1 \/ perms / 64 = 2 \/ perms / 64 = 3) by lia.
    assert (Q : Z.lor 3 (perms / 64) = 3) by (destruct P as [P|[P|[P|P]]]; rewrite P; reflexivity).
    rewrite Q in D. clear Q P L M. lia.
  - assert (T : Z.log2 (Z.lor 192 perms) < 8).
    { rewrite Z.log2_lor by lia. apply Z.max_lub_lt; [reflexivity|].
      destruct (Z.eq_dec perms 0) as [->|]; [reflexivity|]. apply Z.log2_lt_pow2; lia. }
    assert (P : 0 < Z.lor 192 perms).
    { destruct (Z.eq_dec (Z.lor 192 perms) 0) as [E|]; [apply Z.lor_eq_0_iff in E; lia|lia]. }
    apply Z.log2_lt_pow2 in T; [|exact P]. exact T.
Qed.
Lemma lxor255 n : 0 <= n < 256 -> Z.lxor n 255 = 255 - n.
Proof.
  intros H. change 255 with (Z.ones 8) at 1.
  assert (E : Z.lxor n (Z.ones 8) = Z.ldiff (Z.ones 8) n).
  { apply Z.bits_inj'. intros k Hk. rewrite Z.lxor_spec, Z.ldiff_spec.
    destruct (Z.ltb_spec k 8).
    - rewrite Z.ones_spec_low by lia. now destruct (Z.testbit n k).
    - rewrite Z.ones_spec_high by lia. rewrite (Z.bits_above_log2 n k); [reflexivity|lia|].
      destruct (Z.eq_dec n 0) as [->|]; [cbn; lia|]. assert (Z.log2 n < 8) by (apply Z.log2_lt_pow2; lia). lia. }
  rewrite E.
  rewrite <- Z.sub_nocarry_ldiff; [reflexivity|].
  apply Z.bits_inj'. intros k Hk. rewrite Z.ldiff_spec, Z.bits_0.
  destruct (Z.ltb_spec k 8).
  - rewrite Z.ones_spec_low by lia. now rewrite andb_false_r.
  - rewrite (Z.bits_above_log2 n k); [reflexivity|lia|].
    destruct (Z.eq_dec n 0) as [->|]; [cbn; lia|]. assert (Z.log2 n < 8) by (apply Z.log2_lt_pow2; lia). lia.
Qed.
Lemma p_value perms : 0 <= perms < 256 -> - (Z.lxor (Z.lor 192 perms) 255 + 1) = Z.lor 192 perms - 256.
Proof. intros H. pose proof (lor192 perms H). rewrite lxor255 by lia. lia. Qed.

Lemma p_bytes perms : 0 <= perms < 256 ->
  le_bytes 4 ((Z.lor 192 perms - 256) mod 2 ^ 32) = [Z.lor 192 perms mod 256; 255; 255; 255].
Proof.
  intros H. pose proof (lor192 perms H) as L. set (q := Z.lor 192 perms) in *. clearbody q.
  unfold le_bytes. cbn [seq map Z.of_nat]. change (Z.of_nat 1) with 1.
  change (256 ^ 0) with 1. change (256 ^ 1) with 256.
  change (256 ^ Z.pos (Pos.of_succ_nat 1)) with 65536. change (256 ^ Z.pos (Pos.of_succ_nat 2)) with 16777216.
  change (2 ^ 32) with 4294967296.
  replace ((q - 256) mod 4294967296) with (q - 256 + 4294967296) by lia.
  repeat (f_equal; [lia|]). f_equal. lia.
Qed.

(** Reading the encryption object back. *)
Lemma value_str s r : value (40 :: escape s ++ bs ")" ++ r) = Some (VStr s, r).
Proof. cbn [value]. change (bs ")" ++ r) with ([41] ++ r). rewrite C10_escaped_literal_reads_back. reflexivity. Qed.
Lemma skip_ws_digit n r : 0 <= n -> skip_ws (dec n ++ r) = dec n ++ r.
Proof.
  intros Hn. pose proof (dec_digits n Hn) as D. destruct (dec n) as [|d ds] eqn:E; [now apply dec_nonempty in E|].
  cbn [app skip_ws]. cbn [forallb] in D. apply andb_prop in D as [D _].
  assert (is_space d = false) as ->; [|reflexivity].
  unfold is_digit in D. unfold is_space. cbn [existsb]. lia.
Qed.
Lemma value_int n r : n < 0 -> value (skip_ws (fmt_d n ++ NL :: r)) = Some (VInt n, NL :: r).
Proof.
  intros H. unfold fmt_d. destruct (Z.ltb_spec n 0); [|lia].
  cbn [app skip_ws]. change (is_space 45) with false. cbn iota. cbn [value].
  rewrite read_num_dec by (lia || reflexivity). repeat f_equal. lia.
Qed.
(** One dictionary entry with a concrete key. *)
Definition keychar (b : Z) : bool := negb (is_space b || is_delim b).
Lemma name_chars_app k : forallb keychar k = true -> forall c r, is_space c || is_delim c = true ->
  name_chars (k ++ c :: r) = (k, c :: r).
Proof.
  induction k as [|b k IH]; intros H c r Hc.
  - cbn [app name_chars]. rewrite Hc. reflexivity.
  - cbn [forallb] in H. apply andb_prop in H as [H1 H2]. cbn [app name_chars]. rewrite (IH H2 c r Hc).
    unfold keychar in H1. destruct (is_space b || is_delim b); [discriminate|reflexivity].
Qed.
Lemma entry_step f k v r1 r2 : forallb keychar k = true -> value (skip_ws r1) = Some (v, r2) ->
  dict_entries (S f) (NL :: 47 :: k ++ 32 :: r1) =
  match dict_entries f r2 with Some es => Some ((k, v) :: es) | None => None end.
Proof.
  intros Hk Hv. cbn [dict_entries skip_ws]. change (is_space NL) with true. change (is_space 47) with false. cbn iota.
  rewrite name_chars_app by (assumption || reflexivity). cbn [skip_ws]. change (is_space 32) with true. cbn iota.
  rewrite Hv. reflexivity.
Qed.
Lemma read_encrypt_body p : p_p p < 0 -> read_encrypt (encryption_body p) = Some (p_o p, p_u p, p_p p).
Proof.
  intros HP. unfold read_encrypt.
  assert (R : read_dict (encryption_body p) = Some
    [(bs "Filter", VName (bs "Standard")); (bs "V", VInt 1); (bs "R", VInt 2);
     (bs "O", VStr (p_o p)); (bs "U", VStr (p_u p)); (bs "P", VInt (p_p p))]).
  { unfold encryption_body.
    set (T3 := NL :: bs ">>" ++ [NL]).
    set (T2 := NL :: 47 :: bs "P" ++ 32 :: fmt_d (p_p p) ++ T3).
    set (T1 := NL :: 47 :: bs "U" ++ 32 :: 40 :: escape (p_u p) ++ bs ")" ++ T2).
    set (T0 := NL :: 47 :: bs "O" ++ 32 :: 40 :: escape (p_o p) ++ bs ")" ++ T1).
    assert (E2 : forall f, dict_entries (S (S f)) T2 = Some [(bs "P", VInt (p_p p))]).
    { intros f. unfold T2. rewrite (entry_step _ (bs "P") (VInt (p_p p)) _ T3); [reflexivity|reflexivity|].
      apply value_int. exact HP. }
    assert (E1 : forall f, dict_entries (S (S (S f))) T1 = Some [(bs "U", VStr (p_u p)); (bs "P", VInt (p_p p))]).
    { intros f. unfold T1. rewrite (entry_step _ (bs "U") (VStr (p_u p)) _ T2); [now rewrite E2|reflexivity|].
      apply value_str. }
    assert (E0 : forall f, dict_entries (S (S (S (S f)))) T0 = Some [(bs "O", VStr (p_o p)); (bs "U", VStr (p_u p)); (bs "P", VInt (p_p p))]).
    { intros f. unfold T0. rewrite (entry_step _ (bs "O") (VStr (p_o p)) _ T1); [now rewrite E1|reflexivity|].
      apply value_str. }
    change (read_dict (60 :: 60 :: NL :: 47 :: bs "Filter" ++ 32 :: bs "/Standard" ++ NL :: 47 :: bs "V" ++ 32 :: bs "1" ++ NL :: 47 :: bs "R" ++ 32 :: bs "2" ++ T0)
      = Some [(bs "Filter", VName (bs "Standard")); (bs "V", VInt 1); (bs "R", VInt 2);
     (bs "O", VStr (p_o p)); (bs "U", VStr (p_u p)); (bs "P", VInt (p_p p))]).
    unfold read_dict.
    match goal with |- context [List.length ?L] => 
      assert (HL : exists g, List.length L = S (S (S (S (S (S (S g))))))) by (eexists; reflexivity) end.
    destruct HL as (g & ->).
    rewrite (entry_step _ (bs "Filter") (VName (bs "Standard")) _ (NL :: 47 :: bs "V" ++ 32 :: bs "1" ++ NL :: 47 :: bs "R" ++ 32 :: bs "2" ++ T0)) by reflexivity.
    rewrite (entry_step _ (bs "V") (VInt 1) _ (NL :: 47 :: bs "R" ++ 32 :: bs "2" ++ T0)) by reflexivity.
    rewrite (entry_step _ (bs "R") (VInt 2) _ T0) by reflexivity.
    rewrite E0. reflexivity. }
  rewrite R. reflexivity.
Qed.

(** C14: the permission word.  For every combination of the four permission constants (Print 4,
    Modify 8, Copy 16, AnnotForms 32) the P entry read back from the file is the word the standard
    defines: granted bits set, the others clear, reserved bits as required. *)
Theorem C14_permission_word :
  forall rnd user owner (print modify copy annot : bool),
    let perms := (if print then 4 else 0) + (if modify then 8 else 0) + (if copy then 16 else 0) + (if annot then 32 else 0) in
    exists p O U P,
      setProtection rnd perms user owner = Some p /\
      read_encrypt (encryption_body p) = Some (O, U, P) /\
      permission_word P (fun b => if b =? 3 then print else if b =? 4 then modify else if b =? 5 then copy else annot).
Proof.
  intros rnd user owner print modify copy annot perms.
  assert (HP : 0 <= perms < 256) by (subst perms; destruct print, modify, copy, annot; lia).
  pose proof (setProtection_eq rnd perms user owner) as E. cbv zeta in E.
  rewrite p_value in E by exact HP. pose proof (lor192 perms HP).
  do 4 eexists. split; [exact E|]. split; [apply read_encrypt_body; cbn [p_p]; lia|].
  cbn [p_p]. unfold permission_word. split.
  { change (2 ^ 31) with 2147483648. lia. }
  intros b Hb.
  assert (C : b = 1 \/ b = 2 \/ b = 3 \/ b = 4 \/ b = 5 \/ b = 6 \/ b = 7 \/ b = 8 \/ b = 9 \/ b = 10 \/ b = 11 \/
     b = 12 \/ b = 13 \/ b = 14 \/ b = 15 \/ b = 16 \/ b = 17 \/ b = 18 \/ b = 19 \/ b = 20 \/ b = 21 \/ b = 22 \/
     b = 23 \/ b = 24 \/ b = 25 \/ b = 26 \/ b = 27 \/ b = 28 \/ b = 29 \/ b = 30 \/ b = 31 \/ b = 32) by lia.
  subst perms. destruct print, modify, copy, annot;
  repeat (destruct C as [-> | C]; [reflexivity|]); subst b; reflexivity.
Qed.
Print Assumptions C14_permission_word.

Lemma open_user_pad O U P pw : open_user O U P (pad32 pw) = open_user O U P pw.
Proof. unfold open_user, file_key. rewrite (pad32_exact (pad32 pw)) by apply pad32_len. reflexivity. Qed.

(** C14: passwords.  Whatever the user and owner passwords (any length), the dictionary in the file
    opens with the user password and with the owner password, yielding the key gopdf encrypts with. *)
Theorem C14_passwords_open_the_file :
  forall rnd perms user owner, 0 <= perms < 256 ->
    exists p O U P,
      setProtection rnd perms user owner = Some p /\
      read_encrypt (encryption_body p) = Some (O, U, P) /\
      open_user O U P user = Some (p_key p) /\
      open_owner O U P (owner_of rnd owner) = Some (p_key p) /\
      List.length O = 32%nat /\ List.length U = 32%nat.
Proof.
  intros rnd perms user owner HP.
  pose proof (setProtection_eq rnd perms user owner) as E. cbv zeta in E.
  rewrite p_value in E by exact HP. pose proof (lor192 perms HP).
  do 4 eexists. split; [exact E|]. split; [apply read_encrypt_body; cbn [p_p]; lia|].
  cbn [p_p p_o p_u p_key].
  set (O := rc4 (firstn 5 (md5 (pad32 (owner_of rnd owner)))) (pad32 user)).
  assert (K : file_key user O (Z.lor 192 perms - 256) = firstn 5 (md5 (pad32 user ++ O ++ [Z.lor 192 perms mod 256; 255; 255; 255]))).
  { unfold file_key. rewrite p_bytes by exact HP. reflexivity. }
  assert (U : open_user O (rc4 (firstn 5 (md5 (pad32 user ++ O ++ [Z.lor 192 perms mod 256; 255; 255; 255]))) PAD)
                (Z.lor 192 perms - 256) user
              = Some (firstn 5 (md5 (pad32 user ++ O ++ [Z.lor 192 perms mod 256; 255; 255; 255])))).
  { unfold open_user. rewrite K. cbv zeta. rewrite (proj2 (list_eqb_eq _ _) eq_refl). reflexivity. }
  split; [exact U|]. split; [|split; [unfold O; rewrite rc4_len; apply pad32_len|rewrite rc4_len; reflexivity]].
  unfold open_owner.
  assert (D : rc4 (firstn 5 (md5 (pad32 (owner_of rnd owner)))) O = pad32 user) by (unfold O; apply rc4_invol).
  rewrite D, open_user_pad. exact U.
Qed.
Print Assumptions C14_passwords_open_the_file.

(** The 32-byte rule itself. *)
Theorem C14_password_padding :
  forall pw : bytes, List.length (pad32 pw) = 32%nat /\
    ((List.length pw <= 32)%nat -> pad32 pw = pw ++ firstn (32 - List.length pw) PAD) /\
    ((32 <= List.length pw)%nat -> pad32 pw = firstn 32 pw).
Proof.
  intros pw. split; [apply pad32_len|]. split; intros H; unfold pad32; rewrite firstn_app.
  - now rewrite firstn_all2.
  - replace (32 - List.length pw)%nat with 0%nat by lia. apply app_nil_r.
Qed.
Print Assumptions C14_password_padding.

(** C14, refuted for permission words with bits above the low byte (e.g. 2048, the revision 3 bit for
    high-resolution printing): the key is derived from other bytes than the P entry, and the user's
    own password does not open the file. *)
Theorem C14_high_permission_bits_refuted :
  exists rnd perms user owner,
    match setProtection rnd perms user owner with
    | Some p => match read_encrypt (encryption_body p) with
                | Some (Oo, U, P) => open_user Oo U P user = None
                | None => False
                end
    | None => False
    end.
Proof. exists [], 2048, (bs "secret"), (bs "owner"). vm_compute. reflexivity. Qed.
Print Assumptions C14_high_permission_bits_refuted.

(** C13: key material. *)
Theorem C13_key_material_is_standard :
  forall (p : protection) n, 0 <= n < 2 ^ 24 -> objectkey p n = object_key (p_key p) n.
Proof.
  intros p n H. unfold objectkey, object_key, key_material. cbv zeta. do 3 f_equal.
  change (2 ^ 24) with 16777216 in H. change (2 ^ 32) with 4294967296.
  rewrite Z.mod_small by lia. reflexivity.
Qed.
Print Assumptions C13_key_material_is_standard.
Theorem C13_key_material_distinct :
  forall (p : protection) n m, 0 <= n < 2 ^ 24 -> 0 <= m < 2 ^ 24 ->
    key_material p n = key_material p m -> n = m.
Proof.
  intros p n m Hn Hm E. unfold key_material in E. apply app_inv_head in E.
  change (2 ^ 24) with 16777216 in *. change (2 ^ 32) with 4294967296 in E.
  rewrite !Z.mod_small in E by lia. unfold le_bytes, at_ in E. cbn in E.
  injection E as E1 E2 E3. change (Z.pow_pos 256 2) with 65536 in *. change (Z.pow_pos 256 1) with 256 in *. lia.
Qed.
Print Assumptions C13_key_material_distinct.

(** C13: end to end.  Whatever the passwords, permissions, object number and data: the encrypted data
    has the original length, and a reader who opens the encryption dictionary found in the file with
    the user's password or the owner's password decrypts it to the original data. *)
Theorem C13_reader_recovers_data :
  forall rnd perms user owner n data, 0 <= perms < 256 -> 0 <= n < 2 ^ 24 ->
    exists p enc O U P k,
      setProtection rnd perms user owner = Some p /\
      rc4Cip (objectkey p n) data = Some enc /\
      List.length enc = List.length data /\
      read_encrypt (encryption_body p) = Some (O, U, P) /\
      open_user O U P user = Some k /\ open_owner O U P (owner_of rnd owner) = Some k /\
      decrypt k n enc = data.
Proof.
  intros rnd perms user owner n data HP Hn.
  destruct (C14_passwords_open_the_file rnd perms user owner HP) as (p & O & U & P & E & R & Hu & Ho & _).
  exists p, (rc4 (objectkey p n) data), O, U, P, (p_key p).
  split; [exact E|]. split; [unfold objectkey; apply rc4Cip_md5; lia|].
  split; [apply rc4_len|]. split; [exact R|]. split; [exact Hu|]. split; [exact Ho|].
  unfold decrypt. rewrite <- C13_key_material_is_standard by exact Hn. apply rc4_invol.
Qed.
Print Assumptions C13_reader_recovers_data.

Example C13_example :
  match setProtection (bs "0123456789abcdef01234567") 20 (bs "secret") [] with
  | Some p =>
      match rc4Cip (objectkey p 7) (bs "BT (hi) Tj ET"), read_encrypt (encryption_body p) with
      | Some enc, Some (Oo, U, P) =>
          (list_eqb enc (bs "BT (hi) Tj ET"),
           option_map (fun k => decrypt k 7 enc) (open_user Oo U P (bs "secret")),
           open_user Oo U P (bs "guess"))
      | _, _ => (true, None, None)
      end
  | None => (true, None, None)
  end = (false, Some (bs "BT (hi) Tj ET"), None).
Proof. vm_compute. reflexivity. Qed.
