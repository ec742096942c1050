(** Crypto.v — the two standard algorithms PDF's security handler is built on, written out so that
    nothing about them is assumed: MD5 (RFC 1321) and RC4.  The Go code calls crypto/md5 and
    crypto/rc4; both the model and the reader specification use these definitions.  The published
    test vectors below are checked by computation. *)
From Verif Require Import Base.

(** ** RC4 *)
Definition upd (l : list Z) (i v : Z) : list Z :=
  firstn (Z.to_nat i) l ++ v :: skipn (S (Z.to_nat i)) l.
Definition at_ (l : list Z) (i : Z) : Z := nth (Z.to_nat i) l 0.
Definition swap (s : list Z) (i j : Z) : list Z := upd (upd s i (at_ s j)) j (at_ s i).
Fixpoint ksa (n : nat) (i : Z) (j : Z) (key s : list Z) : list Z :=
  match n with
  | O => s
  | S n' => let j' := (j + at_ s i + at_ key (i mod zlen key)) mod 256 in
            ksa n' (i + 1) j' key (swap s i j')
  end.
Fixpoint prga (s : list Z) (i j : Z) (data : bytes) : bytes :=
  match data with
  | [] => []
  | b :: r =>
      let i' := (i + 1) mod 256 in
      let j' := (j + at_ s i') mod 256 in
      let s' := swap s i' j' in
      Z.lxor b (at_ s' ((at_ s' i' + at_ s' j') mod 256)) :: prga s' i' j' r
  end.
Definition rc4 (key data : bytes) : bytes :=
  prga (ksa 256 0 0 key (map Z.of_nat (seq 0 256))) 0 0 data.

Example rc4_vector1 : rc4 (bs "Key") (bs "Plaintext") = [187; 243; 22; 232; 217; 64; 175; 10; 211].
Proof. vm_compute. reflexivity. Qed.
Example rc4_vector2 : rc4 (bs "Wiki") (bs "pedia") = [16; 33; 191; 4; 32].
Proof. vm_compute. reflexivity. Qed.

(** ** MD5 *)
Definition w32 (n : Z) : Z := n mod 4294967296.
Definition rotl (n s : Z) : Z := w32 (Z.lor (Z.shiftl n s) (Z.shiftr n (32 - s))).
Definition md5_K : list Z := [3614090360; 3905402710; 606105819; 3250441966; 4118548399; 1200080426; 2821735955; 4249261313; 1770035416; 2336552879; 4294925233; 2304563134; 1804603682; 4254626195; 2792965006; 1236535329; 4129170786; 3225465664; 643717713; 3921069994; 3593408605; 38016083; 3634488961; 3889429448; 568446438; 3275163606; 4107603335; 1163531501; 2850285829; 4243563512; 1735328473; 2368359562; 4294588738; 2272392833; 1839030562; 4259657740; 2763975236; 1272893353; 4139469664; 3200236656; 681279174; 3936430074; 3572445317; 76029189; 3654602809; 3873151461; 530742520; 3299628645; 4096336452; 1126891415; 2878612391; 4237533241; 1700485571; 2399980690; 4293915773; 2240044497; 1873313359; 4264355552; 2734768916; 1309151649; 4149444226; 3174756917; 718787259; 3951481745].
Definition md5_S : list Z :=
  [7; 12; 17; 22; 7; 12; 17; 22; 7; 12; 17; 22; 7; 12; 17; 22;
   5; 9; 14; 20; 5; 9; 14; 20; 5; 9; 14; 20; 5; 9; 14; 20;
   4; 11; 16; 23; 4; 11; 16; 23; 4; 11; 16; 23; 4; 11; 16; 23;
   6; 10; 15; 21; 6; 10; 15; 21; 6; 10; 15; 21; 6; 10; 15; 21].
Definition not32 (n : Z) : Z := 4294967295 - n.
Definition md5_round (i : Z) (st : Z * Z * Z * Z) (blk : list Z) : Z * Z * Z * Z :=
  let '(a, b, c, d) := st in
  let '(f, g) :=
    if i <? 16 then (Z.lor (Z.land b c) (Z.land (not32 b) d), i)
    else if i <? 32 then (Z.lor (Z.land d b) (Z.land (not32 d) c), (5 * i + 1) mod 16)
    else if i <? 48 then (Z.lxor (Z.lxor b c) d, (3 * i + 5) mod 16)
    else (Z.lxor c (Z.lor b (not32 d)), (7 * i) mod 16) in
  let f := w32 (f + a + at_ md5_K i + at_ blk g) in
  (d, w32 (b + rotl f (at_ md5_S i)), b, c).
Fixpoint md5_rounds (n : nat) (i : Z) (st : Z * Z * Z * Z) (blk : list Z) :=
  match n with O => st | S n' => md5_rounds n' (i + 1) (md5_round i st blk) blk end.
Definition le_word (b : bytes) : Z := at_ b 0 + 256 * (at_ b 1 + 256 * (at_ b 2 + 256 * at_ b 3)).
Definition le_bytes (k : nat) (n : Z) : bytes := map (fun i => n / 256 ^ (Z.of_nat i) mod 256) (seq 0 k).
Fixpoint words (n : nat) (b : bytes) : list Z :=
  match n with O => [] | S n' => le_word b :: words n' (skipn 4 b) end.
Fixpoint md5_blocks (n : nat) (st : Z * Z * Z * Z) (m : bytes) : Z * Z * Z * Z :=
  match n with
  | O => st
  | S n' =>
      let '(a, b, c, d) := st in
      let '(a', b', c', d') := md5_rounds 64 0 st (words 16 m) in
      md5_blocks n' (w32 (a + a'), w32 (b + b'), w32 (c + c'), w32 (d + d')) (skipn 64 m)
  end.
Definition md5_pad (m : bytes) : bytes :=
  m ++ [128] ++ repeat 0 (Z.to_nat ((55 - zlen m) mod 64)) ++ le_bytes 8 (8 * zlen m).
Definition md5 (m : bytes) : bytes :=
  let p := md5_pad m in
  let '(a, b, c, d) := md5_blocks (Nat.div (List.length p) 64) (1732584193, 4023233417, 2562383102, 271733878) p in
  le_bytes 4 a ++ le_bytes 4 b ++ le_bytes 4 c ++ le_bytes 4 d.

Definition hex_of (b : bytes) : bytes :=
  flat_map (fun x => [hexdigit (x / 16); hexdigit (x mod 16)]) b.
Example md5_vector1 : hex_of (md5 []) = bs "D41D8CD98F00B204E9800998ECF8427E".
Proof. vm_compute. reflexivity. Qed.
Example md5_vector2 : hex_of (md5 (bs "message digest")) = bs "F96B697D7CB7938D525A2F31AAF161D0".
Proof. vm_compute. reflexivity. Qed.
Example md5_vector3 : hex_of (md5 (bs "12345678901234567890123456789012345678901234567890123456789012345678901234567890"))
  = bs "57EDF4A22BE3C955AC49DA2E2107B67A".
Proof. vm_compute. reflexivity. Qed.

Lemma le_bytes_len k n : List.length (le_bytes k n) = k.
Proof. unfold le_bytes. now rewrite map_length, seq_length. Qed.
Lemma md5_len m : List.length (md5 m) = 16%nat.
Proof.
  unfold md5. cbv zeta. destruct (md5_blocks _ _ _) as [[[a b] c] d].
  rewrite !app_length, !le_bytes_len. reflexivity.
Qed.
Lemma prga_len data : forall s i j, List.length (prga s i j data) = List.length data.
Proof. induction data as [|b r IH]; intros; [reflexivity|]. cbn [prga List.length]. now rewrite IH. Qed.
Lemma prga_invol data : forall s i j, prga s i j (prga s i j data) = data.
Proof.
  induction data as [|b r IH]; intros; [reflexivity|]. cbn [prga].
  rewrite IH, Z.lxor_assoc, Z.lxor_nilpotent, Z.lxor_0_r. reflexivity.
Qed.
Lemma rc4_len key data : List.length (rc4 key data) = List.length data.
Proof. apply prga_len. Qed.
Lemma rc4_invol key data : rc4 key (rc4 key data) = data.
Proof. apply prga_invol. Qed.
