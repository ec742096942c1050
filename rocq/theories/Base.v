(** Base.v — bytes, string literals, decimal and hexadecimal printing, list helpers.

    Bytes are integers in Z (0 <= b < 256 where it matters); a Go [string] / [[]byte] is a
    [list Z].  Nothing here is specific to gopdf except the three Go formatting verbs used by the
    repository: "%d" ([fmt_d]), "%010d"-like left padding ([pad_left]) and "%X" ([hex]). *)
From Coq Require Export List ZArith Lia Bool Ascii String.
From Coq Require Export ZifyBool ZifyNat ZifyN.
Export ListNotations.
Open Scope Z_scope.
Ltac Zify.zify_post_hook ::= Z.div_mod_to_equations.

Notation bytes := (list Z).

(** String literals as byte lists. *)
Fixpoint bs (s : string) : bytes :=
  match s with
  | EmptyString => []
  | String c r => Z.of_N (N_of_ascii c) :: bs r
  end.

Definition NL : Z := 10.   (* '\n' *)
Definition CR : Z := 13.   (* '\r' *)

(** Length as Z (Go's [len]). *)
Definition zlen {A} (l : list A) : Z := Z.of_nat (List.length l).

Lemma zlen_app {A} (l r : list A) : zlen (l ++ r) = zlen l + zlen r.
Proof. unfold zlen. rewrite app_length. lia. Qed.
Lemma zlen_nil {A} : zlen (@nil A) = 0.
Proof. reflexivity. Qed.
Lemma zlen_cons {A} (x : A) l : zlen (x :: l) = 1 + zlen l.
Proof. unfold zlen. simpl List.length. lia. Qed.
Lemma zlen_nonneg {A} (l : list A) : 0 <= zlen l.
Proof. unfold zlen. lia. Qed.

(** ** Decimal printing: Go's "%d" / strconv.FormatInt(n, 10). *)
Fixpoint dec_aux (fuel : nat) (n : Z) (acc : bytes) : bytes :=
  match fuel with
  | O => acc
  | S f => let acc' := (48 + n mod 10) :: acc in
           if n <? 10 then acc' else dec_aux f (n / 10) acc'
  end.
Definition dec_fuel (n : Z) : nat := S (Z.to_nat (Z.log2 n)).
Definition dec (n : Z) : bytes := dec_aux (dec_fuel n) n [].          (* n >= 0 *)
Definition fmt_d (n : Z) : bytes := if n <? 0 then 45 :: dec (- n) else dec n.

Definition is_digit (b : Z) : bool := (48 <=? b) && (b <=? 57).
(** Value of a digit string. *)
Definition digits_val (l : bytes) : Z := fold_left (fun a d => a * 10 + (d - 48)) l 0.

(** Left padding with '0' up to [w] characters (formatXrefline, gopdf.go:2350-2356). *)
Definition pad_left (w : nat) (l : bytes) : bytes := repeat 48 (w - List.length l) ++ l.

Lemma dec_aux_app fuel : forall n acc, dec_aux fuel n acc = dec_aux fuel n [] ++ acc.
Proof.
  induction fuel as [|f IH]; intros n acc; [reflexivity|].
  cbn [dec_aux]. destruct (n <? 10); [reflexivity|].
  rewrite (IH _ (_ :: acc)), (IH _ [_]), <- app_assoc. reflexivity.
Qed.

Lemma digits_val_app l r : digits_val (l ++ r) = digits_val l * 10 ^ zlen r + digits_val r.
Proof.
  unfold digits_val. rewrite fold_left_app.
  set (a := fold_left _ l 0). clearbody a.
  assert (G : forall r a, fold_left (fun a d => a * 10 + (d - 48)) r a
                          = a * 10 ^ zlen r + fold_left (fun a d => a * 10 + (d - 48)) r 0).
  { clear. induction r as [|d r IH]; intros a; [cbn; lia|].
    cbn [fold_left]. rewrite IH, (IH (0 * 10 + (d - 48))).
    rewrite zlen_cons, Z.pow_add_r by (pose proof (zlen_nonneg r); lia). lia. }
  apply G.
Qed.

Lemma dec_fuel_step n : 10 <= n -> exists f, dec_fuel n = S f /\ (dec_fuel (n / 10) <= f)%nat.
Proof.
  intros H. unfold dec_fuel. exists (Z.to_nat (Z.log2 n)). split; [reflexivity|].
  assert (Z.log2 (n / 10) < Z.log2 n).
  { assert (H1 : Z.log2 (n / 10) <= Z.log2 (n / 2)) by (apply Z.log2_le_mono; lia).
    assert (H2 : Z.log2 n = Z.succ (Z.log2 (n / 2))).
    { rewrite <- Z.div2_div. apply Z.log2_succ_double || idtac.
      rewrite Z.div2_div.
      assert (E : n = 2 * (n / 2) + n mod 2) by lia.
      assert (H3 : 0 < n / 2) by lia.
      assert (H4 : n mod 2 = 0 \/ n mod 2 = 1) by lia.
      destruct H4 as [H4|H4]; rewrite E at 1; rewrite H4.
      - rewrite Z.add_0_r. now rewrite Z.log2_double.
      - now rewrite Z.log2_succ_double. }
    lia. }
  pose proof (Z.log2_nonneg (n / 10)). lia.
Qed.

Lemma dec_aux_val fuel : forall n, 0 <= n -> (dec_fuel n <= fuel)%nat ->
  digits_val (dec_aux fuel n []) = n /\ forallb is_digit (dec_aux fuel n []) = true /\
  dec_aux fuel n [] <> [].
Proof.
  induction fuel as [|f IH]; intros n Hn Hf; [unfold dec_fuel in Hf; lia|].
  cbn [dec_aux]. destruct (Z.ltb_spec n 10) as [H|H].
  - split; [|split].
    + unfold digits_val; cbn [fold_left]. lia.
    + cbn [forallb]. unfold is_digit. lia.
    + discriminate.
  - destruct (dec_fuel_step n H) as (g & Hg & Hg').
    destruct (IH (n / 10)) as (V & D & NN); [lia|lia|].
    rewrite dec_aux_app. split; [|split].
    + rewrite digits_val_app, V. unfold digits_val. cbn [fold_left zlen List.length].
      change (zlen [48 + n mod 10]) with 1. lia.
    + rewrite forallb_app, D. cbn [forallb andb]. unfold is_digit. lia.
    + destruct (dec_aux f (n / 10) []); discriminate.
Qed.

Lemma dec_val n : 0 <= n -> digits_val (dec n) = n.
Proof. intros H. apply dec_aux_val; auto. Qed.
Lemma dec_digits n : 0 <= n -> forallb is_digit (dec n) = true.
Proof. intros H. apply dec_aux_val; auto. Qed.
Lemma dec_nonempty n : 0 <= n -> dec n <> [].
Proof. intros H. apply (dec_aux_val (dec_fuel n)); auto. Qed.

(** Number of digits: n < 10^k (k>=1) prints in at most k characters. *)
Lemma dec_aux_len fuel : forall n k, 0 <= n -> (dec_fuel n <= fuel)%nat -> (1 <= k)%nat ->
  n < 10 ^ Z.of_nat k -> (List.length (dec_aux fuel n []) <= k)%nat.
Proof.
  induction fuel as [|f IH]; intros n k Hn Hf Hk Hlt; [cbn; lia|].
  cbn [dec_aux]. destruct (Z.ltb_spec n 10) as [H|H]; [cbn; lia|].
  rewrite dec_aux_app, app_length. cbn [List.length].
  destruct (dec_fuel_step n H) as (g & Hg & Hg').
  destruct k as [|[|k]]; [lia| change (10 ^ Z.of_nat 1) with 10 in Hlt; lia|].
  assert (List.length (dec_aux f (n / 10) []) <= S k)%nat; [|lia].
  apply IH; [lia|lia|lia|].
  rewrite (Nat2Z.inj_succ (S k)), Z.pow_succ_r in Hlt by lia. lia.
Qed.
Lemma dec_len n k : 0 <= n -> (1 <= k)%nat -> n < 10 ^ Z.of_nat k -> (List.length (dec n) <= k)%nat.
Proof. intros; apply dec_aux_len; auto. Qed.

Lemma digits_val_zeros k l : digits_val (repeat 48 k ++ l) = digits_val l.
Proof.
  rewrite digits_val_app. assert (E : digits_val (repeat 48 k) = 0).
  { induction k as [|k IH]; [reflexivity|]. cbn [repeat].
    change (48 :: repeat 48 k) with ([48] ++ repeat 48 k). rewrite digits_val_app, IH.
    unfold digits_val; cbn [fold_left]. lia. }
  rewrite E. lia.
Qed.

Lemma pad_left_val w l : digits_val (pad_left w l) = digits_val l.
Proof. apply digits_val_zeros. Qed.
Lemma pad_left_len w l : (List.length l <= w)%nat -> List.length (pad_left w l) = w.
Proof. intros H. unfold pad_left. rewrite app_length, repeat_length. lia. Qed.
Lemma pad_left_digits w l : forallb is_digit l = true -> forallb is_digit (pad_left w l) = true.
Proof.
  intros H. unfold pad_left. rewrite forallb_app, H, andb_true_r.
  induction (w - List.length l)%nat as [|k IH]; [reflexivity|]. cbn [repeat forallb]. now rewrite IH.
Qed.

(** dec is injective and printing has no sign / blanks inside. *)
Lemma dec_inj a b : 0 <= a -> 0 <= b -> dec a = dec b -> a = b.
Proof. intros Ha Hb E. rewrite <- (dec_val a Ha), <- (dec_val b Hb), E. reflexivity. Qed.

(** ** Hexadecimal, upper case: Go's "%X". *)
Definition hexdigit (d : Z) : Z := if d <? 10 then 48 + d else 55 + d.     (* 'A' = 65 *)
Fixpoint hex_aux (fuel : nat) (n : Z) (acc : bytes) : bytes :=
  match fuel with
  | O => acc
  | S f => let acc' := hexdigit (n mod 16) :: acc in
           if n <? 16 then acc' else hex_aux f (n / 16) acc'
  end.
Definition hex (n : Z) : bytes := hex_aux (dec_fuel n) n [].

(** Value of one hexadecimal digit, [None] when it is not one. *)
Definition hexval (b : Z) : option Z :=
  if (48 <=? b) && (b <=? 57) then Some (b - 48)
  else if (65 <=? b) && (b <=? 70) then Some (b - 55)
  else if (97 <=? b) && (b <=? 102) then Some (b - 87) else None.

(** ** List helpers *)
Fixpoint list_eqb (a b : bytes) : bool :=
  match a, b with
  | [], [] => true
  | x :: a', y :: b' => (x =? y) && list_eqb a' b'
  | _, _ => false
  end.
Lemma list_eqb_eq a : forall b, list_eqb a b = true <-> a = b.
Proof.
  induction a as [|x a IH]; intros [|y b]; cbn; try (split; congruence).
  rewrite andb_true_iff, IH. split; [intros [H1 H2]; f_equal; [lia|assumption] | intros H; injection H; intros; split; [lia|assumption]].
Qed.

Lemma skipn_app_exact {A} (l r : list A) : skipn (List.length l) (l ++ r) = r.
Proof. rewrite skipn_app, skipn_all, Nat.sub_diag. reflexivity. Qed.
Lemma firstn_app_exact {A} (l r : list A) : firstn (List.length l) (l ++ r) = l.
Proof. rewrite firstn_app, Nat.sub_diag, firstn_all. cbn. apply app_nil_r. Qed.
Lemma skipn_app_len {A} n (l r : list A) : n = List.length l -> skipn n (l ++ r) = r.
Proof. intros ->. apply skipn_app_exact. Qed.
Lemma firstn_app_len {A} n (l r : list A) : n = List.length l -> firstn n (l ++ r) = l.
Proof. intros ->. apply firstn_app_exact. Qed.

Lemma skipn_nth {A} (l : list A) : forall k x, nth_error l k = Some x -> skipn k l = x :: skipn (S k) l.
Proof. induction l as [|y l IH]; intros [|k] x H; try discriminate; [cbn in *; congruence|]. cbn [skipn]. rewrite (IH k x H). reflexivity. Qed.
Lemma firstn_snoc {A} (l : list A) : forall k x, nth_error l k = Some x -> firstn (S k) l = firstn k l ++ [x].
Proof. induction l as [|y l IH]; intros [|k] x H; try discriminate; [cbn in *; congruence|]. cbn [firstn app] in *. now rewrite <- (IH k x H). Qed.
