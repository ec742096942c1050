(** PropForm.v — C15 and imported objects: they are written as they are, protected document or not. *)
From Verif Require Import Base Crypto FileModel FileSpec SecSpec SecModel StreamSpec StreamModel PropStream.
Open Scope Z_scope.

(** imported_obj.go:20-25 ImportedObj.write: the data handed to ImportObjects, whatever the protection and object number. *)
Definition imported_body (pr : option protection) (n : Z) (data : bytes) : bytes := data.

(** An imported form: the stream a reader finds in the file is the one imported, in the clear. *)
Definition form_text (data : bytes) : bytes :=
  bs "<</Type /XObject /Subtype /Form /Length " ++ dec (zlen data) ++ bs ">>" ++ [NL] ++ bs "stream" ++ [NL] ++ data ++ [NL] ++ bs "endstream" ++ [NL].
Definition form_demo : bytes := bs "0 0 10 10 re f".
(** So a viewer, which decrypts every stream with the number of its object, sees something else than what was imported. *)
Theorem C15_imported_refuted : exists rnd perms user p n data,
  setProtection rnd perms user [] = Some p /\ 0 <= n < 2 ^ 24 /\
  read_stream (imported_body (Some p) n (form_text data)) = Some data /\ decrypt (p_key p) n data <> data.
Proof.
  assert (X : match setProtection (bs "r") 4 (bs "u") [] with Some p => list_eqb (decrypt (p_key p) 9 form_demo) form_demo | None => true end = false) by (vm_compute; reflexivity).
  exists (bs "r"), 4, (bs "u"). destruct (setProtection (bs "r") 4 (bs "u") []) as [p|]; [|discriminate X]. exists p, 9, form_demo.
  split; [reflexivity|]. split; [lia|]. split; [vm_compute; reflexivity|]. intros E. rewrite E in X. rewrite (proj2 (list_eqb_eq _ _) eq_refl) in X. discriminate X.
Qed.
Print Assumptions C15_imported_refuted.
