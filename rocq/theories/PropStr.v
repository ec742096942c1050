(** PropStr.v — C10 (literal strings), C11 (metadata texts), C12 (ToUnicode). *)
From Verif Require Import Base StrSpec StrModel.

(** ** Escaping *)
Lemma flat_map_comp {A B C} (f : A -> list B) (g : B -> list C) l :
  flat_map g (flat_map f l) = flat_map (fun a => flat_map g (f a)) l.
Proof. induction l as [|a l IH]; [reflexivity|]. cbn [flat_map]. now rewrite flat_map_app, IH. Qed.

Definition esc1 (b : Z) : bytes :=
  if b =? 92 then [92; 92] else if b =? 40 then [92; 40] else if b =? 41 then [92; 41]
  else if b =? 13 then [92; 114] else [b].
Lemma escape_char s : escape s = flat_map esc1 s.
Proof.
  unfold escape, replace. cbv zeta. rewrite !flat_map_comp. apply flat_map_ext. intros b. unfold esc1.
  destruct (Z.eqb_spec b 92) as [->|H1]; [reflexivity|].
  cbn [flat_map app].
  destruct (Z.eqb_spec b 40) as [->|H2]; [reflexivity|]. cbn [flat_map app].
  destruct (Z.eqb_spec b 41) as [->|H3]; [reflexivity|]. cbn [flat_map app].
  destruct (Z.eqb_spec b 13) as [->|H4]; reflexivity.
Qed.

Lemma lit_esc1 b r : litstring 0 (esc1 b ++ r)
  = match litstring 0 r with Some (s, t) => Some (b :: s, t) | None => None end.
Proof.
  unfold esc1.
  destruct (Z.eqb_spec b 92) as [->|H1]; [reflexivity|].
  destruct (Z.eqb_spec b 40) as [->|H2]; [reflexivity|].
  destruct (Z.eqb_spec b 41) as [->|H3]; [reflexivity|].
  destruct (Z.eqb_spec b 13) as [->|H4]; [reflexivity|].
  cbn [app litstring].
  destruct (Z.eqb_spec b 40); [lia|]. destruct (Z.eqb_spec b 41); [lia|].
  destruct (Z.eqb_spec b 13); [lia|]. destruct (Z.eqb_spec b 92); [lia|]. reflexivity.
Qed.

(** C10: whatever the bytes, the literal is read back as the same bytes and ends exactly at the
    closing parenthesis gopdf writes, no matter what follows. *)
Theorem C10_escaped_literal_reads_back :
  forall (s rest : bytes), litstring 0 (escape s ++ [41] ++ rest) = Some (s, rest).
Proof.
  intros s rest. rewrite escape_char. induction s as [|b s IH]; [reflexivity|].
  cbn [flat_map]. rewrite <- app_assoc, lit_esc1, IH. reflexivity.
Qed.
Print Assumptions C10_escaped_literal_reads_back.
Example C10_example :
  escape (bs "a)(\" ++ [13; 10; 255]) = bs "a\)\(\\\r" ++ [10; 255] /\
  litstring 0 (bs "a)(\" ++ [13; 10; 255] ++ bs ")") = Some (bs "a", bs "(\" ++ [13; 10; 255] ++ bs ")").
Proof. split; reflexivity. Qed.

(** ** Go's rune iteration inverts UTF-8 *)
Lemma decode_utf8 c r : scalar c -> decode_rune (utf8_char c ++ r) = (c, List.length (utf8_char c)).
Proof.
  intros [H1 H2]. unfold utf8_char.
  destruct (Z.ltb_spec c 128) as [A|A].
  { cbn [app decode_rune List.length]. destruct (Z.ltb_spec c 128); [reflexivity|lia]. }
  destruct (Z.ltb_spec c 2048) as [B|B].
  { cbn [app decode_rune List.length]. unfold cont.
    replace (192 + c / 64 <? 128) with false by lia.
    replace ((194 <=? 192 + c / 64) && (192 + c / 64 <=? 223)) with true by lia.
    replace ((128 <=? 128 + c mod 64) && (128 + c mod 64 <=? 191)) with true by lia.
    f_equal. lia. }
  destruct (Z.ltb_spec c 65536) as [C|C].
  { cbn [app decode_rune List.length]. unfold cont.
    replace (224 + c / 4096 <? 128) with false by lia.
    replace ((194 <=? 224 + c / 4096) && (224 + c / 4096 <=? 223)) with false by lia.
    replace ((224 <=? 224 + c / 4096) && (224 + c / 4096 <=? 239)) with true by lia.
    replace ((128 <=? 128 + c mod 64) && (128 + c mod 64 <=? 191)) with true by lia.
    assert (E : ((if 224 + c / 4096 =? 224 then 160 else 128) <=? 128 + c / 64 mod 64)
             && (128 + c / 64 mod 64 <=? (if 224 + c / 4096 =? 237 then 159 else 191)) = true).
    { destruct (Z.eqb_spec (224 + c / 4096) 224); destruct (Z.eqb_spec (224 + c / 4096) 237); lia. }
    rewrite E. cbn [andb]. f_equal. lia. }
  cbn [app decode_rune List.length]. unfold cont.
  replace (240 + c / 262144 <? 128) with false by lia.
  replace ((194 <=? 240 + c / 262144) && (240 + c / 262144 <=? 223)) with false by lia.
  replace ((224 <=? 240 + c / 262144) && (240 + c / 262144 <=? 239)) with false by lia.
  replace ((240 <=? 240 + c / 262144) && (240 + c / 262144 <=? 244)) with true by lia.
  replace ((128 <=? 128 + c mod 64) && (128 + c mod 64 <=? 191)) with true by lia.
  replace ((128 <=? 128 + c / 64 mod 64) && (128 + c / 64 mod 64 <=? 191)) with true by lia.
  assert (E : ((if 240 + c / 262144 =? 240 then 144 else 128) <=? 128 + c / 4096 mod 64)
           && (128 + c / 4096 mod 64 <=? (if 240 + c / 262144 =? 244 then 143 else 191)) = true).
  { destruct (Z.eqb_spec (240 + c / 262144) 240); destruct (Z.eqb_spec (240 + c / 262144) 244); lia. }
  rewrite E. cbn [andb]. f_equal. lia.
Qed.

Lemma utf8_char_len c : (1 <= List.length (utf8_char c))%nat.
Proof. unfold utf8_char. destruct (c <? 128), (c <? 2048), (c <? 65536); cbn; lia. Qed.

Lemma runes_fuel_utf8 l : Forall scalar l -> forall f, (List.length (utf8 l) <= f)%nat -> runes_fuel f (utf8 l) = l.
Proof.
  induction 1 as [|c l Hc Hl IH]; intros f Hf.
  - destruct f; reflexivity.
  - unfold utf8 in *. cbn [flat_map] in *. rewrite app_length in Hf.
    pose proof (utf8_char_len c). destruct f as [|f]; [lia|].
    destruct (utf8_char c) as [|b0 r0] eqn:E; [cbn in H; lia|].
    cbn [runes_fuel app]. change (b0 :: r0 ++ flat_map utf8_char l) with ((b0 :: r0) ++ flat_map utf8_char l).
    rewrite <- E, (decode_utf8 c _ Hc), (skipn_app_len _ _ _ eq_refl).
    f_equal. apply IH. lia.
Qed.
Lemma runes_utf8 l : Forall scalar l -> runes (utf8 l) = l.
Proof. intros H. apply runes_fuel_utf8; auto. Qed.

(** ** Hexadecimal *)
Lemma hexval_digit d : 0 <= d < 16 -> hexval (hexdigit d) = Some d.
Proof.
  intros H. unfold hexval, hexdigit. destruct (Z.ltb_spec d 10).
  - replace ((48 <=? 48 + d) && (48 + d <=? 57)) with true by lia. f_equal; lia.
  - replace ((48 <=? 55 + d) && (55 + d <=? 57)) with false by lia.
    replace ((65 <=? 55 + d) && (55 + d <=? 70)) with true by lia. f_equal; lia.
Qed.
Lemma hexdigit_plain d : 0 <= d < 16 -> hexdigit d =? 62 = false /\ is_space (hexdigit d) = false.
Proof.
  intros H. unfold is_space, hexdigit. cbn [existsb]. destruct (Z.ltb_spec d 10); split; lia.
Qed.

(** [nib ns]: the characters of a list of nibbles. *)
Lemma hexstring_nib ns : Forall (fun d => 0 <= d < 16) ns -> forall r half,
  hexstring (map hexdigit ns ++ 62 :: r) half =
  Some ((fix pack (h : option Z) (ns : list Z) := match ns with
         | [] => match h with Some h => [16 * h] | None => [] end
         | d :: ns' => match h with None => pack (Some d) ns' | Some h => 16 * h + d :: pack None ns' end
         end) half ns, r).
Proof.
  induction 1 as [|d ns Hd Hns IH]; intros r half.
  - destruct half; reflexivity.
  - cbn [map app hexstring]. destruct (hexdigit_plain d Hd) as [-> ->]. rewrite (hexval_digit d Hd).
    destruct half; rewrite IH; reflexivity.
Qed.
Definition pack := (fix pack (h : option Z) (ns : list Z) := match ns with
         | [] => match h with Some h => [16 * h] | None => [] end
         | d :: ns' => match h with None => pack (Some d) ns' | Some h => 16 * h + d :: pack None ns' end
         end).

Definition nibs4 (n : Z) : list Z := [n / 4096; n / 256 mod 16; n / 16 mod 16; n mod 16].
Lemma fuel_ge n k : 0 <= k -> 2 ^ k <= n -> (S (Z.to_nat k) <= dec_fuel n)%nat.
Proof.
  intros Hk H. unfold dec_fuel. assert (k <= Z.log2 n); [|lia].
  apply Z.log2_le_pow2; [|assumption]. pose proof (Z.pow_pos_nonneg 2 k). lia.
Qed.
Lemma div16 n : 0 <= n -> n / 16 / 16 = n / 256 /\ n / 16 / 16 / 16 = n / 4096
  /\ n / 16 / 16 / 16 / 16 = n / 65536 /\ n / 16 / 16 / 16 / 16 / 16 = n / 1048576.
Proof. intros. rewrite !Z.div_div by lia. repeat split. Qed.
Ltac hexstep := cbn [hex_aux];
  match goal with |- context [?a <? 16] => destruct (Z.ltb_spec a 16); try (exfalso; lia) end.
Lemma hex4_nibs n : 0 <= n < 65536 -> hex4 n = map hexdigit (nibs4 n).
Proof.
  intros H. unfold hex4, hex, nibs4. pose proof (div16 n ltac:(lia)) as (E2 & E3 & E4 & E5).
  assert (C : n < 16 \/ 16 <= n < 256 \/ 256 <= n < 4096 \/ 4096 <= n) by lia.
  destruct C as [C|[C|[C|C]]].
  - destruct (dec_fuel n) as [|f] eqn:F; [unfold dec_fuel in F; lia|].
    hexstep. cbn [pad_left List.length Nat.sub repeat app map].
    unfold pad_left. cbn [List.length Nat.sub repeat app].
    replace (n / 4096) with 0 by lia. replace (n / 256 mod 16) with 0 by lia.
    replace (n / 16 mod 16) with 0 by lia. reflexivity.
  - pose proof (fuel_ge n 4 ltac:(lia) ltac:(lia)) as G. cbn in G.
    destruct (dec_fuel n) as [|[|f]]; [lia|lia|]. hexstep. hexstep.
    unfold pad_left. cbn [List.length Nat.sub repeat app map].
    replace (n / 4096) with 0 by lia. replace (n / 256 mod 16) with 0 by lia. reflexivity.
  - pose proof (fuel_ge n 8 ltac:(lia) ltac:(lia)) as G. cbn in G.
    destruct (dec_fuel n) as [|[|[|f]]]; [lia|lia|lia|]. hexstep. hexstep. hexstep.
    unfold pad_left. cbn [List.length Nat.sub repeat app map].
    replace (n / 4096) with 0 by lia. rewrite E2. reflexivity.
  - pose proof (fuel_ge n 12 ltac:(lia) ltac:(lia)) as G. cbn in G.
    destruct (dec_fuel n) as [|[|[|[|f]]]]; [lia|lia|lia|lia|].
    cbn [hex_aux].
    destruct (Z.ltb_spec n 16); [lia|]. destruct (Z.ltb_spec (n / 16) 16); [lia|].
    rewrite E2. destruct (Z.ltb_spec (n / 256) 16); [lia|]. 
    replace (n / 256 / 16) with (n / 4096) by lia.
    destruct (Z.ltb_spec (n / 4096) 16); [|lia].
    unfold pad_left. cbn [List.length Nat.sub repeat app map].
    replace (n / 4096 mod 16) with (n / 4096) by lia. reflexivity.
Qed.
(** Outside the basic plane the code is 5 or 6 digits long. *)
Lemma hex4_long n : 65536 <= n <= 1114111 ->
  exists ns, hex4 n = map hexdigit ns /\ Forall (fun d => 0 <= d < 16) ns /\
             (List.length ns = 5%nat \/ List.length ns = 6%nat).
Proof.
  intros H. unfold hex4, hex.
  pose proof (fuel_ge n 16 ltac:(lia) ltac:(lia)) as G. cbn in G.
  destruct (dec_fuel n) as [|[|[|[|[|[|[|f]]]]]]]; try lia.
  cbn [hex_aux]. rewrite !Z.div_div by lia. cbn [Z.mul Pos.mul].
  destruct (Z.ltb_spec n 16); [lia|]. destruct (Z.ltb_spec (n / 16) 16); [lia|].
  destruct (Z.ltb_spec (n / 256) 16); [lia|]. destruct (Z.ltb_spec (n / 4096) 16); [lia|].
  destruct (Z.ltb_spec (n / 65536) 16).
  - exists [n / 65536 mod 16; n / 4096 mod 16; n / 256 mod 16; n / 16 mod 16; n mod 16].
    split; [reflexivity|]. split; [|left; reflexivity]. repeat constructor; lia.
  - exists [n / 1048576 mod 16; n / 65536 mod 16; n / 4096 mod 16; n / 256 mod 16; n / 16 mod 16; n mod 16].
    destruct (Z.ltb_spec (n / 1048576) 16); [|lia].
    split; [reflexivity|]. split; [|right; reflexivity]. repeat constructor; lia.
Qed.

Definition cbytes (c : Z) : bytes := [c / 256; c mod 256].
Lemma nibs4_ok c : 0 <= c < 65536 -> Forall (fun d => 0 <= d < 16) (nibs4 c).
Proof. intros. unfold nibs4. repeat constructor; lia. Qed.
Lemma pack_nibs4 c ns : 0 <= c < 65536 -> pack None (nibs4 c ++ ns) = cbytes c ++ pack None ns.
Proof. intros H. unfold nibs4, cbytes. cbn [pack app]. f_equal; [lia|]. f_equal; lia. Qed.
Lemma encode_nibs cs : Forall bmp cs -> flat_map hex4 cs = map hexdigit (flat_map nibs4 cs).
Proof.
  induction 1 as [|c cs [[H1 H2] H3] _ IH]; [reflexivity|]. cbn [flat_map].
  rewrite map_app, IH, hex4_nibs by lia. reflexivity.
Qed.
Lemma nibs_ok cs : Forall bmp cs -> Forall (fun d => 0 <= d < 16) (flat_map nibs4 cs).
Proof.
  induction 1 as [|c cs [[H1 H2] H3] _ IH]; [constructor|]. cbn [flat_map].
  apply Forall_app. split; [apply nibs4_ok; lia|assumption].
Qed.
Lemma pack_nibs cs : Forall bmp cs -> forall ns, pack None (flat_map nibs4 cs ++ ns) = flat_map cbytes cs ++ pack None ns.
Proof.
  induction 1 as [|c cs [[H1 H2] H3] _ IH]; intros ns; [reflexivity|]. cbn [flat_map].
  rewrite <- !app_assoc, pack_nibs4, IH by lia. reflexivity.
Qed.
Lemma utf16_cbytes cs : Forall bmp cs -> utf16be (flat_map cbytes cs) = Some cs.
Proof.
  induction 1 as [|c cs [[H1 H2] H3] _ IH]; [reflexivity|]. unfold cbytes in *. cbn [flat_map app utf16be].
  replace (c / 256 * 256 + c mod 256) with c by lia.
  replace ((55296 <=? c) && (c <=? 56319)) with false by lia.
  replace ((56320 <=? c) && (c <=? 57343)) with false by lia.
  rewrite IH. reflexivity.
Qed.

Lemma bmp_scalar cs : Forall bmp cs -> Forall scalar cs.
Proof. intros H; eapply Forall_impl; [|exact H]. intros a [A _]; exact A. Qed.

(** The hexadecimal string "FEFF…" of a text. *)
Lemma hexstring_text cs r : Forall bmp cs ->
  hexstring (bs "FEFF" ++ encodeUtf8 (utf8 cs) ++ 62 :: r) None = Some (254 :: 255 :: flat_map cbytes cs, r).
Proof.
  intros H. unfold encodeUtf8. rewrite runes_utf8 by (apply bmp_scalar; assumption).
  rewrite encode_nibs by assumption.
  assert (G := hexstring_nib ([15; 14; 15; 15] ++ flat_map nibs4 cs)).
  specialize (G ltac:(apply Forall_app; split; [repeat constructor; lia|apply nibs_ok; assumption]) r None).
  rewrite map_app, <- app_assoc in G. cbn [map app] in G. change (hexdigit 15) with 70 in G. change (hexdigit 14) with 69 in G.
  change (bs "FEFF") with [70; 69; 70; 70]. cbn [app].
  rewrite G. fold pack. 
  change (pack None (15 :: 14 :: 15 :: 15 :: flat_map nibs4 cs)) with
    (254 :: 255 :: pack None (flat_map nibs4 cs)).
  rewrite <- (app_nil_r (flat_map nibs4 cs)), (pack_nibs cs H []). cbn [pack]. now rewrite app_nil_r.
Qed.

(** A text as the user gives it: UTF-8 of a list of characters; empty when there is none. *)
Definition info_of (author title subject creator producer : list Z) (date : bytes) : pdfinfo :=
  {| i_author := utf8 author; i_title := utf8 title; i_subject := utf8 subject;
     i_creator := utf8 creator; i_producer := utf8 producer; i_date := date |}.
(** What the reader should find: the entries of the non-empty texts. *)
Definition entry_of (k : string) (t : list Z) : list (bytes * list Z) :=
  match t with [] => [] | _ => [(bs k, t)] end.

Lemma utf8_empty t : is_empty (utf8 t) = match t with [] => true | _ => false end.
Proof.
  destruct t as [|c t]; [reflexivity|]. unfold utf8. cbn [flat_map].
  pose proof (utf8_char_len c). destruct (utf8_char c); [cbn in *; lia|reflexivity].
Qed.

Definition reads_info (r : bytes) (res : list (bytes * list Z)) : Prop :=
  forall f, (List.length r < f)%nat -> info_entries f r = Some res.
Lemma info_entry_read k t r res :
  Forall bmp t -> forallb (fun b => negb ((b =? 32) || (b =? 40) || (b =? 60))) (bs k) = true ->
  reads_info r res -> reads_info (info_entry (String "/" k) (utf8 t) ++ r) (entry_of k t ++ res).
Proof.
  intros Ht Hk Hr f Hlen.
  destruct t as [|c t]; [apply Hr; exact Hlen|].
  unfold info_entry in *. rewrite utf8_empty in *. cbn [entry_of app].
  change (bs (String "/" k)) with (47 :: bs k) in *. rewrite <- !app_assoc in *. cbn [app] in *. cbn [List.length] in Hlen.
  rewrite !app_length in Hlen. cbn [List.length bs app] in Hlen.
  destruct f as [|f]; [lia|].
  assert (E : info_entries f r = Some res) by (apply Hr; lia).
  cbn [info_entries].
  assert (T : forall q, take_name (bs k ++ bs " <FEFF" ++ q) = (bs k, bs " <FEFF" ++ q)).
  { intros q. clear -Hk. induction (bs k) as [|b k' IH]; [reflexivity|].
    cbn [forallb] in Hk. apply andb_prop in Hk. destruct Hk as [A B].
    cbn [app take_name]. rewrite (IH B). destruct ((b =? 32) || (b =? 40) || (b =? 60)); [discriminate|reflexivity]. }
  rewrite T. change (bs " <FEFF" ++ ?q) with (32 :: 60 :: bs "FEFF" ++ q).
  cbn iota beta. change (bs ">" ++ ?q) with (62 :: q).
  rewrite hexstring_text by assumption. cbn [text_string].
  rewrite utf16_cbytes by assumption. change NL with 10. cbn [drop_prefix Z.eqb Pos.eqb].
  rewrite E. reflexivity.
Qed.

(** The end of the dictionary has no further text entries. *)
Lemma info_tail (d : bytes) : reads_info
  ((if is_empty d then [] else bs "/CreationDate(D:" ++ d ++ bs ")" ++ [NL]) ++ bs " >>" ++ [NL]) [].
Proof. intros [|f] H; [lia|]. destruct d; reflexivity. Qed.

(** C11, proved part: for texts of characters of the basic multilingual plane, a reader of the Info
    dictionary finds exactly the non-empty texts the user set, character for character.
    Missing: characters above U+FFFF (see the refutation). *)
Theorem C11_info_texts_read_back_partial :
  forall (author title subject creator producer : list Z) (date : bytes),
    Forall bmp author -> Forall bmp title -> Forall bmp subject -> Forall bmp creator -> Forall bmp producer ->
    read_info (writeInfo (info_of author title subject creator producer date)) =
    Some (entry_of "Author" author ++ entry_of "Title" title ++ entry_of "Subject" subject
          ++ entry_of "Creator" creator ++ entry_of "Producer" producer).
Proof.
  intros a t s c p d Ha Ht Hs Hc Hp.
  unfold read_info, writeInfo, info_of. cbn [i_author i_title i_subject i_creator i_producer i_date].
  assert (D : forall x y, drop_prefix (bs "/Info <<" ++ [10]) (bs "/Info <<" ++ [NL] ++ y ++ x) = Some (y ++ x))
    by reflexivity.
  rewrite <- (app_nil_r (entry_of "Producer" p)). rewrite D.
  apply info_entry_read; [assumption|reflexivity| |].
  2:{ cbn [app bs List.length]. rewrite !app_length. lia. }
  apply info_entry_read; [assumption|reflexivity|].
  apply info_entry_read; [assumption|reflexivity|].
  apply info_entry_read; [assumption|reflexivity|].
  apply info_entry_read; [assumption|reflexivity|].
  apply info_tail.
Qed.
Print Assumptions C11_info_texts_read_back_partial.
Example C11_example :
  Forall bmp [3626; 233; 65] /\
  encodeUtf8 (utf8 [3626; 233; 65]) = bs "0E2A00E90041" /\
  read_info (writeInfo (info_of [3626; 233; 65] [] [65] [] [] (bs "20200101000000+00'00'")))
  = Some [(bs "Author", [3626; 233; 65]); (bs "Subject", [65])].
Proof. split; [repeat constructor; unfold bmp, scalar; lia|]. split; reflexivity. Qed.

(** C11, refuted part: a text consisting of any single character above U+FFFF (an emoji, say) is not
    readable as a text string at all. *)
Theorem C11_supplementary_character_refuted :
  forall c, 65536 <= c <= 1114111 ->
    exists b, hexstring (bs "FEFF" ++ encodeUtf8 (utf8 [c]) ++ bs ">") None = Some (b, [])
              /\ text_string b = None.
Proof.
  intros c H. unfold encodeUtf8. rewrite runes_utf8 by (repeat constructor; unfold scalar; lia).
  cbn [flat_map]. rewrite app_nil_r. destruct (hex4_long c H) as (ns & -> & Hns & Hl).
  assert (G := hexstring_nib ([15; 14; 15; 15] ++ ns) ltac:(apply Forall_app; split; [repeat constructor; lia|assumption]) [] None).
  rewrite map_app, <- app_assoc in G. cbn [map app] in G.
  change (hexdigit 15) with 70 in G. change (hexdigit 14) with 69 in G.
  eexists. split; [exact G|].
  destruct Hl as [Hl|Hl].
  - destruct ns as [|a [|b [|d [|e [|g [|]]]]]]; try discriminate Hl. cbn [text_string utf16be].
    destruct ((55296 <=? (16 * a + b) * 256 + (16 * d + e)) && _); [reflexivity|].
    destruct ((56320 <=? (16 * a + b) * 256 + (16 * d + e)) && _); reflexivity.
  - destruct ns as [|a [|b [|d [|e [|g [|h [|]]]]]]]; try discriminate Hl. cbn [text_string utf16be].
    destruct ((55296 <=? (16 * a + b) * 256 + (16 * d + e)) && _); [reflexivity|].
    destruct ((56320 <=? (16 * a + b) * 256 + (16 * d + e)) && _); reflexivity.
Qed.
Print Assumptions C11_supplementary_character_refuted.

(** ** ToUnicode *)
(** What the reader should get: one entry per registered character, in registration order. *)
Lemma hex_group4 c r : 0 <= c < 65536 -> hex_group (bs "<" ++ hex4 c ++ 62 :: r) = Some (cbytes c, r).
Proof.
  intros H. cbn [bs app hex_group]. change (Z.of_N (N_of_ascii "<")) with 60. cbn iota.
  rewrite hex4_nibs by assumption. rewrite (hexstring_nib (nibs4 c)) by (apply nibs4_ok; assumption).
  fold pack. pose proof (pack_nibs4 c [] H) as P. rewrite app_nil_r in P. rewrite P. reflexivity.
Qed.
Lemma be_cbytes c : 0 <= c < 65536 -> be_val (cbytes c) = c.
Proof. intros H. unfold be_val, cbytes. cbn [fold_left]. lia. Qed.

Lemma gtlt q : bs "><" ++ q = 62 :: bs "<" ++ q. Proof. reflexivity. Qed.
Lemma gt1 q : bs ">" ++ q = 62 :: q. Proof. reflexivity. Qed.
Definition bfline (g c : Z) : bytes := bs "<" ++ hex4 g ++ bs "><" ++ hex4 g ++ bs "><" ++ hex4 c ++ bs ">" ++ [NL].
Lemma bfline_read g c r f : 0 <= g < 65536 -> bmp c ->
  bfranges (S f) (bfline g c ++ r) =
  match bfranges f r with Some es => Some ((g, g, [c]) :: es) | None => None end.
Proof.
  intros Hg Hc. unfold bfline. rewrite <- !app_assoc. cbn [bfranges].
  change (drop_prefix (bs "endbfrange") (bs "<" ++ ?q)) with (@None bytes). cbn iota.
  rewrite !gtlt, gt1.
  rewrite !hex_group4 by (destruct Hc as [[? ?] ?]; lia).
  pose proof (utf16_cbytes [c] ltac:(repeat constructor; apply Hc || assumption)) as U.
  cbn [flat_map] in U. rewrite app_nil_r in U. rewrite U.
  change (drop_prefix [10] ([NL] ++ r)) with (Some r). cbn iota.
  rewrite be_cbytes by assumption. reflexivity.
Qed.

Lemma bflines_read (m0 : cgmap) (r : bytes) : forall m : cgmap, Forall (fun e : Z * Z => 0 <= snd e < 65536 /\ bmp (runeByIndex m0 (snd e))) m ->
  forall f, (List.length m < f)%nat ->
  bfranges f (flat_map (fun e => bfline (snd e) (runeByIndex m0 (snd e))) m ++ bs "endbfrange" ++ r)
  = Some (map (fun e => (snd e, snd e, [runeByIndex m0 (snd e)])) m).
Proof.
  induction 1 as [|e m [H1 H2] _ IH]; intros [|f] Hf; try lia; [reflexivity|].
  cbn [flat_map map]. rewrite <- app_assoc, bfline_read by assumption.
  rewrite IH by (cbn [List.length] in Hf; lia). reflexivity.
Qed.

(** Searching past text that cannot contain the pattern. *)
Lemma drop_prefix_app p : forall l, drop_prefix p (p ++ l) = Some l.
Proof. induction p as [|x p IH]; intros l; [reflexivity|]. cbn. rewrite Z.eqb_refl. apply IH. Qed.
Lemma drop_prefix_sep p : forall a c q, ~ In c p -> drop_prefix p a = None -> drop_prefix p (a ++ c :: q) = None.
Proof.
  induction p as [|x p IH]; intros a c q Hc H; [discriminate|].
  destruct a as [|y a].
  - cbn. destruct (Z.eqb_spec x c); [subst; exfalso; apply Hc; now left|reflexivity].
  - cbn in *. destruct (x =? y); [|reflexivity]. apply IH; [intros X; apply Hc; now right|assumption].
Qed.
Lemma split_at_sep p c q : p <> [] -> ~ In c p -> forall a, split_at p a = None ->
  split_at p (a ++ c :: q) = match split_at p q with Some (b, r) => Some (a ++ c :: b, r) | None => None end.
Proof.
  intros Hp Hc. induction a as [|x a IH]; intros H.
  - cbn [app split_at]. destruct p as [|y p]; [congruence|].
    assert (E : drop_prefix (y :: p) (c :: q) = None).
    { cbn. destruct (Z.eqb_spec y c); [subst; exfalso; apply Hc; now left|reflexivity]. }
    rewrite E. reflexivity.
  - cbn [split_at] in H. destruct (drop_prefix p (x :: a)) eqn:D; [discriminate|].
    cbn [app split_at]. change (x :: a ++ c :: q) with ((x :: a) ++ c :: q).
    rewrite (drop_prefix_sep p _ _ _ Hc D). rewrite IH by (destruct (split_at p a) as [[? ?]|]; [discriminate|reflexivity]).
    destruct (split_at p q) as [[? ?]|]; reflexivity.
Qed.
(** Text all of whose bytes are foreign to the pattern. *)
Lemma split_at_foreign p q : p <> [] -> forall a, Forall (fun c => ~ In c p) a ->
  split_at p (a ++ q) = match split_at p q with Some (b, r) => Some (a ++ b, r) | None => None end.
Proof.
  intros Hp. induction 1 as [|c a Hc _ IH].
  - cbn [app]. destruct (split_at p q) as [[? ?]|]; reflexivity.
  - change ((c :: a) ++ q) with ([] ++ c :: a ++ q).
    rewrite (split_at_sep p c (a ++ q) Hp Hc []) by (destruct p; [congruence|reflexivity]).
    cbn [app]. rewrite IH. destruct (split_at p q) as [[? ?]|]; reflexivity.
Qed.

Lemma split_at_nohd b p q : forall a, forallb (fun c => negb (b =? c)) a = true ->
  split_at (b :: p) (a ++ q) = match split_at (b :: p) q with Some (x, r) => Some (a ++ x, r) | None => None end.
Proof.
  induction a as [|c a IH]; intros H.
  - cbn [app]. destruct (split_at (b :: p) q) as [[? ?]|]; reflexivity.
  - cbn [forallb] in H. apply andb_prop in H. destruct H as [H1 H2].
    cbn [app split_at drop_prefix]. destruct (b =? c); [discriminate|]. rewrite IH by assumption.
    destruct (split_at (b :: p) q) as [[? ?]|]; reflexivity.
Qed.

Lemma digits_foreign p l : forallb is_digit l = true -> forallb (fun c => negb (is_digit c)) p = true ->
  Forall (fun c => ~ In c p) l.
Proof.
  intros Hl Hp. apply Forall_forall. intros c Hc Hi.
  rewrite forallb_forall in Hl, Hp. specialize (Hl c Hc). specialize (Hp c Hi). rewrite Hl in Hp. discriminate.
Qed.
Definition upper_hex (c : Z) : bool := is_digit c || ((65 <=? c) && (c <=? 70)).
Lemma hex_upper fuel : forall n acc, 0 <= n -> forallb upper_hex acc = true -> forallb upper_hex (hex_aux fuel n acc) = true.
Proof.
  induction fuel as [|f IH]; intros n acc Hn Ha; [exact Ha|]. cbn [hex_aux].
  assert (U : forallb upper_hex (hexdigit (n mod 16) :: acc) = true).
  { cbn [forallb]. rewrite Ha, andb_true_r. unfold upper_hex, is_digit, hexdigit. destruct (Z.ltb_spec (n mod 16) 10); lia. }
  destruct (n <? 16); [exact U|]. apply IH; [lia|exact U].
Qed.
Lemma pad_upper w l : forallb upper_hex l = true -> forallb upper_hex (pad_left w l) = true.
Proof.
  intros H. unfold pad_left. rewrite forallb_app, H, andb_true_r.
  induction (w - List.length l)%nat as [|k IH]; [reflexivity|]. cbn [repeat forallb]. now rewrite IH.
Qed.
Lemma hex4i_foreign n : Forall (fun c => ~ In c (bs "beginbfrange" ++ [10])) (hex4i n).
Proof.
  assert (U : forall l, forallb upper_hex l = true -> Forall (fun c => ~ In c (bs "beginbfrange" ++ [10])) l).
  { intros l H. apply Forall_forall. intros c Hc Hi. rewrite forallb_forall in H. specialize (H c Hc).
    cbn [bs app In] in Hi. unfold upper_hex, is_digit in H.
    repeat (destruct Hi as [Hi|Hi]; [subst c; discriminate H|]). exact Hi. }
  unfold hex4i. destruct (Z.ltb_spec n 0).
  - constructor; [intros Hi; cbn [bs app In] in Hi; repeat (destruct Hi as [Hi|Hi]; [discriminate Hi|]); exact Hi|].
    apply U, pad_upper, hex_upper; [lia|reflexivity].
  - apply U, pad_upper, hex_upper; [lia|reflexivity].
Qed.

Lemma runeByIndex_in m g : (exists e, In e m /\ snd e = g) -> In (runeByIndex m g, g) m.
Proof.
  induction m as [|[r i] m IH]; intros (e & Hi & He); [destruct Hi|].
  cbn [runeByIndex]. destruct (Z.eqb_spec i g) as [->|N]; [now left|].
  right. apply IH. destruct Hi as [<-|Hi]; [cbn in He; congruence|]. exists e. auto.
Qed.

Lemma cmap_text_split (m : cgmap) : exists a,
  split_at (bs "beginbfrange" ++ [10]) (cmap_text m)
  = Some (a, flat_map (fun e => bfline (snd e) (runeByIndex m (snd e))) m
             ++ bs "endbfrange" ++ [NL] ++ cmap_suffix ++ [NL]).
Proof.
  unfold cmap_text. cbv zeta.
  rewrite (flat_map_ext _ (fun e => bfline (snd e) (runeByIndex m (snd e)))) by reflexivity.
  set (p := bs "beginbfrange" ++ [10]).
  assert (Hp : p <> []) by discriminate.
  set (X := flat_map _ m ++ _).
  assert (S1 : split_at p (fmt_d (zlen m) ++ bs " beginbfrange" ++ [NL] ++ X) = Some (fmt_d (zlen m) ++ [32], X)).
  { rewrite split_at_foreign; [|assumption|].
    - change (bs " beginbfrange" ++ [NL] ++ X) with (32 :: p ++ X).
      change (32 :: p ++ X) with ([] ++ 32 :: p ++ X).
      rewrite (split_at_sep p 32 (p ++ X) Hp) by (reflexivity || intros Hi; vm_compute in Hi; repeat (destruct Hi as [Hi|Hi]; [discriminate Hi|]); exact Hi).
      assert (E : split_at p (p ++ X) = Some ([], X)) by reflexivity.
      rewrite E. reflexivity.
    - unfold fmt_d. pose proof (zlen_nonneg m). destruct (Z.ltb_spec (zlen m) 0); [lia|].
      apply digits_foreign; [apply dec_digits; lia|reflexivity]. }
  assert (S2 : exists a, split_at p (cmap_prefix ++ bs "1 begincodespacerange" ++ [NL]
     ++ bs "<" ++ hex4i (fold_left (fun a e => Z.min a (snd e)) m 65536) ++ bs "><"
     ++ hex4i (fold_left (fun a e => Z.max a (snd e)) m (-1)) ++ bs ">" ++ [NL]
     ++ bs "endcodespacerange" ++ [NL] ++ fmt_d (zlen m) ++ bs " beginbfrange" ++ [NL] ++ X) = Some (a, X)).
  { set (R := fmt_d (zlen m) ++ _) in *.
    assert (NI : forall c, existsb (Z.eqb c) p = false -> ~ In c p).
    { intros c E Hi. assert (existsb (Z.eqb c) p = true); [|congruence]. apply existsb_exists. exists c. split; [assumption|apply Z.eqb_refl]. }
    set (L := cmap_prefix ++ bs "1 begincodespacerange" ++ [NL]).
    change (cmap_prefix ++ bs "1 begincodespacerange" ++ [NL] ++ bs "<" ++ ?q) with (L ++ 60 :: q).
    rewrite (split_at_sep p 60 _ Hp (NI 60 eq_refl) L ltac:(vm_compute; reflexivity)).
    rewrite split_at_foreign by (assumption || apply hex4i_foreign).
    change (bs "><" ++ ?q) with ([62] ++ 60 :: q).
    rewrite (split_at_sep p 60 _ Hp (NI 60 eq_refl) [62] ltac:(vm_compute; reflexivity)).
    rewrite split_at_foreign by (assumption || apply hex4i_foreign).
    change (bs ">" ++ [NL] ++ bs "endcodespacerange" ++ [NL] ++ R)
      with ((bs ">" ++ [NL] ++ bs "endcodespace") ++ bs "range" ++ [NL] ++ R).
    change ((bs ">" ++ [NL] ++ bs "endcodespace") ++ bs "range" ++ [NL] ++ R)
      with ((bs ">" ++ [NL] ++ bs "endcode") ++ 115 :: bs "pacerange" ++ [NL] ++ R).
    rewrite (split_at_sep p 115 _ Hp (NI 115 eq_refl) (bs ">" ++ [NL] ++ bs "endcode") ltac:(vm_compute; reflexivity)).
    assert (S3 : split_at p (bs "pacerange" ++ [NL] ++ R) = Some (bs "pacerange" ++ [NL] ++ fmt_d (zlen m) ++ [32], X)).
    { change (bs "pacerange" ++ [NL] ++ R) with ((bs "pacerange" ++ [NL]) ++ R).
      unfold p. change (bs "beginbfrange" ++ [10]) with (98 :: (bs "eginbfrange" ++ [10])).
      rewrite split_at_nohd by reflexivity. 
      change (98 :: (bs "eginbfrange" ++ [10])) with p. rewrite S1. reflexivity. }
    rewrite S3. eexists. reflexivity. }
  destruct S2 as (a & S2). exists a. exact S2.
Qed.

Lemma cmap_text_read (m : cgmap) : Forall (fun e => bmp (fst e) /\ 0 <= snd e < 65536) m ->
  read_cmap (cmap_text m) = Some (map (fun e => (snd e, snd e, [runeByIndex m (snd e)])) m).
Proof.
  intros H. unfold read_cmap. destruct (cmap_text_split m) as (a & ->).
  apply bflines_read.
  - rewrite Forall_forall in H |- *. intros e He. destruct (H e He) as [H1 H2]. split; [exact H2|].
    assert (I := runeByIndex_in m (snd e) (ex_intro _ e (conj He eq_refl))).
    apply (H _ I).
  - apply Nat.lt_succ_r. rewrite app_length.
    assert (G : forall f (l : cgmap), (forall e, (1 <= List.length (f e : bytes))%nat) -> (List.length l <= List.length (flat_map f l))%nat).
    { intros f l Hf. induction l as [|e l IH]; [cbn; lia|]. cbn [flat_map]. rewrite app_length. specialize (Hf e). cbn [List.length]. lia. }
    etransitivity; [apply (G (fun e => bfline (snd e) (runeByIndex m (snd e))))|lia].
    intros e. unfold bfline. cbn [bs app List.length]. lia.
Qed.

(** C12: every code gopdf writes for a registered character is mapped, by every range of the CMap
    that contains it, to the FIRST character registered for that glyph … *)
Theorem C12_tounicode_gives_first_character :
  forall (m : cgmap), Forall (fun e => bmp (fst e) /\ 0 <= snd e < 65536) m ->
    exists es, read_cmap (cmap_text m) = Some es /\
      forall r g, In (r, g) m ->
        exists r0 before after, m = before ++ (r0, g) :: after /\ (forall e, In e before -> snd e <> g) /\
          cmap_all es g <> [] /\ Forall (eq [r0]) (cmap_all es g).
Proof.
  intros m H. rewrite (cmap_text_read m H). eexists; split; [reflexivity|].
  intros r g Hin.
  assert (F : exists before after, m = before ++ (runeByIndex m g, g) :: after /\ forall e, In e before -> snd e <> g).
  { clear H. revert Hin. induction m as [|[r1 i] m IH]; intros Hin; [destruct Hin|].
    cbn [runeByIndex]. destruct (Z.eqb_spec i g) as [->|N].
    - exists [], m. split; [reflexivity|]. intros e [].
    - destruct Hin as [Hin|Hin]; [congruence|]. destruct (IH Hin) as (b & a & E & Hb).
      exists ((r1, i) :: b), a. split; [cbn; f_equal; exact E|].
      intros e [<-|He]; [exact N|auto]. }
  destruct F as (b & a & E & Hb). exists (runeByIndex m g), b, a. split; [exact E|]. split; [exact Hb|].
  set (h := fun e : Z * Z => (snd e, snd e, [runeByIndex m (snd e)])).
  unfold cmap_all. split.
  - intros X. assert (I : In [runeByIndex m g] (map snd (filter (fun e => (fst (fst e) <=? g) && (g <=? snd (fst e))) (map h m)))).
    { apply in_map_iff. exists (g, g, [runeByIndex m g]). split; [reflexivity|].
      apply filter_In. split; [apply in_map_iff; exists (r, g); split; [reflexivity|exact Hin]|cbn; lia]. }
    rewrite X in I. destruct I.
  - apply Forall_forall. intros t Ht. apply in_map_iff in Ht. destruct Ht as (e & <- & He).
    apply filter_In in He. destruct He as [He1 He2]. apply in_map_iff in He1. destruct He1 as (e1 & <- & He1).
    unfold h in *. cbn [fst snd] in *. replace (snd e1) with g by lia. reflexivity.
Qed.
Print Assumptions C12_tounicode_gives_first_character.

(** … so text comes back unchanged when no two registered characters share a glyph. *)
Theorem C12_text_copies_back_distinct_glyphs_partial :
  forall (m : cgmap), Forall (fun e => bmp (fst e) /\ 0 <= snd e < 65536) m ->
    (forall r1 r2 g, In (r1, g) m -> In (r2, g) m -> r1 = r2) ->
    exists es, read_cmap (cmap_text m) = Some es /\
      forall r g, In (r, g) m -> cmap_all es g <> [] /\ Forall (eq [r]) (cmap_all es g).
Proof.
  intros m H Hinj. destruct (C12_tounicode_gives_first_character m H) as (es & E & A).
  exists es. split; [exact E|]. intros r g Hin. destruct (A r g Hin) as (r0 & b & a & Em & _ & N & F).
  replace r with r0; [split; assumption|]. apply (Hinj r0 r g); [|assumption].
  rewrite Em. apply in_or_app. right. now left.
Qed.
Print Assumptions C12_text_copies_back_distinct_glyphs_partial.

(** Refuted in general: a second character drawn with the glyph of an earlier one comes back as the
    earlier one (e.g. U+00A0 after U+0020 in most fonts). *)
Theorem C12_shared_glyph_refuted :
  forall (before after : cgmap) (r1 r2 g : Z),
    Forall (fun e => bmp (fst e) /\ 0 <= snd e < 65536) (before ++ (r1, g) :: after) ->
    (forall e, In e before -> snd e <> g) -> In (r2, g) after -> r2 <> r1 ->
    exists es, read_cmap (cmap_text (before ++ (r1, g) :: after)) = Some es /\ ~ In [r2] (cmap_all es g).
Proof.
  intros b a r1 r2 g H Hb Hin Hne.
  rewrite (cmap_text_read _ H). eexists; split; [reflexivity|]. intros I.
  unfold cmap_all in I. apply in_map_iff in I. destruct I as (e & He & I). apply filter_In in I. destruct I as [I1 I2].
  apply in_map_iff in I1. destruct I1 as (e1 & <- & _). cbn [fst snd] in *.
  replace (snd e1) with g in He by lia.
  assert (R : runeByIndex (b ++ (r1, g) :: a) g = r1).
  { clear -Hb. induction b as [|[r i] b IH]; cbn [app runeByIndex].
    - now rewrite Z.eqb_refl.
    - destruct (Z.eqb_spec i g) as [->|]; [exfalso; apply (Hb (r, g)); [now left|reflexivity]|].
      apply IH. intros e He. apply Hb. now right. }
  rewrite R in He. congruence.
Qed.
Print Assumptions C12_shared_glyph_refuted.

(** Refuted above U+FFFF: the CMap of a font in which one such character was drawn is unreadable. *)
Theorem C12_supplementary_character_refuted :
  forall c g, 65536 <= c <= 1114111 -> 0 <= g < 65536 -> read_cmap (cmap_text [(c, g)]) = None.
Proof.
  intros c g H Hg. unfold read_cmap. destruct (cmap_text_split [(c, g)]) as (a & ->).
  cbn [flat_map snd runeByIndex]. rewrite Z.eqb_refl, app_nil_r. set (r := bs "endbfrange" ++ _).
  unfold bfline. rewrite <- !app_assoc. cbn [bfranges].
  change (drop_prefix (bs "endbfrange") (bs "<" ++ ?q)) with (@None bytes). cbn iota.
  rewrite !gtlt, gt1.
  rewrite !hex_group4 by lia.
  destruct (hex4_long c H) as (ns & -> & Hns & Hl).
  cbn [bs app hex_group]. change (Z.of_N (N_of_ascii "<")) with 60. cbn iota.
  rewrite (hexstring_nib ns Hns).
  destruct Hl as [Hl|Hl].
  - destruct ns as [|x [|b [|d [|e [|k [|]]]]]]; try discriminate Hl. cbn [utf16be].
    destruct ((55296 <=? (16 * x + b) * 256 + (16 * d + e)) && _); [reflexivity|].
    destruct ((56320 <=? (16 * x + b) * 256 + (16 * d + e)) && _); reflexivity.
  - destruct ns as [|x [|b [|d [|e [|k [|h [|]]]]]]]; try discriminate Hl. cbn [utf16be].
    destruct ((55296 <=? (16 * x + b) * 256 + (16 * d + e)) && _); [reflexivity|].
    destruct ((56320 <=? (16 * x + b) * 256 + (16 * d + e)) && _); reflexivity.
Qed.
Print Assumptions C12_supplementary_character_refuted.

Example C12_example :
  let m := [(65, 36); (32, 3); (160, 3); (3626, 1200)] in
  Forall (fun e => bmp (fst e) /\ 0 <= snd e < 65536) m /\
  option_map (fun es => map (cmap_all es) [36; 3; 1200]) (read_cmap (cmap_text m))
  = Some [[[65]]; [[32]; [32]]; [[3626]]].
Proof. split; [repeat constructor; cbn; unfold bmp, scalar; lia|reflexivity]. Qed.
