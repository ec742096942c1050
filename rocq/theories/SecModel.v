(** SecModel.v — pdf_protection.go and encryption_obj.go. *)
From Verif Require Import Base StrModel Crypto.

(** pdf_protection.go:22-25 *)
Definition protectionPadding : bytes :=
  [40; 191; 78; 94; 78; 117; 138; 65; 100; 0; 78; 86; 255; 250; 1; 8;
   46; 46; 0; 182; 208; 104; 62; 128; 47; 12; 169; 254; 100; 83; 105; 122].

(** PDFProtection, pdf_protection.go:28-35. *)
Record protection := { p_u : bytes; p_o : bytes; p_p : Z; p_key : bytes }.

(** pdf_protection.go:139-147 rc4Cip; rc4.NewCipher fails for key lengths outside 1..256. *)
Definition rc4Cip (key src : bytes) : option bytes :=
  if (1 <=? zlen key) && (zlen key <=? 256) then Some (rc4 key src) else None.

(** byte(x): conversion of an int to a byte. *)
Definition byte_of (n : Z) : Z := n mod 256.

(** pdf_protection.go:85-95 createOValue *)
Definition createOValue (userPad ownerPad : bytes) : option bytes :=
  rc4Cip (firstn 5 (md5 ownerPad)) userPad.
(** pdf_protection.go:97-111 createUValue: also stores the encryption key. *)
Definition createUValue (userPad oValue : bytes) (prot : Z) : option (bytes * bytes) :=
  let key := firstn 5 (md5 (userPad ++ oValue ++ [byte_of prot; 255; 255; 255])) in
  match rc4Cip key protectionPadding with Some u => Some (u, key) | None => None end.
(** pdf_protection.go:50-71 generateEncryptionKey.  [append] followed by [0:32]; the appended slice
    has at least 32 bytes, so the slice expression cannot fail. *)
Definition generateEncryptionKey (userPass ownerPass : bytes) (prot : Z) : option protection :=
  let userPad := firstn 32 (userPass ++ protectionPadding) in
  let ownerPad := firstn 32 (ownerPass ++ protectionPadding) in
  match createOValue userPad ownerPad with
  | None => None
  | Some o =>
      match createUValue userPad o prot with
      | None => None
      | Some (u, key) => Some {| p_u := u; p_o := o; p_p := - (Z.lxor prot 255 + 1); p_key := key |}
      end
  end.
(** pdf_protection.go:42-48 setProtection; [rnd] is what randomPass(24) returns. *)
Definition setProtection (rnd : bytes) (permissions : Z) (userPass ownerPass : bytes) : option protection :=
  let prot := Z.lor 192 permissions in
  let ownerPass := match ownerPass with [] => rnd | _ => ownerPass end in
  generateEncryptionKey userPass ownerPass prot.
(** pdf_protection.go:130-136 objectkey: PutUint32 little endian, the low three bytes, two zeros. *)
Definition key_material (p : protection) (n : Z) : bytes :=
  let tmp := le_bytes 4 (n mod 2 ^ 32) in
  p_key p ++ [at_ tmp 0; at_ tmp 1; at_ tmp 2; 0; 0].
Definition objectkey (p : protection) (n : Z) : bytes := firstn 10 (md5 (key_material p n)).

(** encryption_obj.go:25-35 *)
Definition encryption_body (p : protection) : bytes :=
  bs "<<" ++ [NL] ++ bs "/Filter /Standard" ++ [NL] ++ bs "/V 1" ++ [NL] ++ bs "/R 2" ++ [NL]
  ++ bs "/O (" ++ escape (p_o p) ++ bs ")" ++ [NL]
  ++ bs "/U (" ++ escape (p_u p) ++ bs ")" ++ [NL]
  ++ bs "/P " ++ fmt_d (p_p p) ++ [NL] ++ bs ">>" ++ [NL].
