(** PaintNum.v — a printed number is within half a unit of its last decimal of the number meant. *)
From Coq Require Import QArith Qabs.
From Verif Require Import Base NumModel NumRead.
Open Scope Z_scope.

Lemma roundHE_near n d : 0 <= n -> 0 < d -> Z.abs (2 * d * roundHE n d - 2 * n) <= d.
Proof.
  intros A D. unfold roundHE. pose proof (Z.div_mod n d ltac:(lia)). pose proof (Z.mod_pos_bound n d D).
  destruct (Z.ltb_spec (2 * (n mod d)) d); [nia|]. destruct (Z.ltb_spec d (2 * (n mod d))); [nia|]. destruct (Z.even _); nia.
Qed.
(** The value of a printed number and the number meant differ by at most 1/(2*10^k). *)
Definition near (k : nat) (q x : Q) : Prop := (Qabs (q - x) <= Qmake 1 (Z.to_pos (2 * 10 ^ Z.of_nat k)))%Q.
Lemma fmtExact_near k s n d : 0 <= n -> 0 < d -> exists q, number_val (fmtExact k s n d) = Some q /\ near k q (qsgn s (Qmake n (Z.to_pos d))).
Proof.
  intros A D. destruct (fmtExact_val k s n d A D) as (q & Q1 & Q2). exists q. split; [exact Q1|]. unfold near. rewrite Q2.
  set (p := 10 ^ Z.of_nat k) in *. assert (P : 0 < p) by (apply Z.pow_pos_nonneg; lia).
  pose proof (roundHE_near (n * p) d ltac:(nia) D) as R. set (m := roundHE (n * p) d) in *.
  assert (E : (Qabs (Qmake m (Z.to_pos p) - Qmake n (Z.to_pos d)) <= Qmake 1 (Z.to_pos (2 * p)))%Q).
  { apply Qabs_case; intros _; unfold Qle, Qminus, Qplus, Qopp; cbn [Qnum Qden]; rewrite ?Pos2Z.inj_mul, !Z2Pos.id by lia; nia. }
  destruct s; cbn [qsgn]; [|exact E].
  assert (X : (- Qmake m (Z.to_pos p) - - Qmake n (Z.to_pos d) == - (Qmake m (Z.to_pos p) - Qmake n (Z.to_pos d)))%Q) by ring.
  rewrite X, Qabs_opp. exact E.
Qed.
Theorem Qn_near k (x : Q) : exists q, number_val (nfmt Qn k x) = Some q /\ near k q x.
Proof.
  destruct (fmtExact_near k (q_neg x) (Z.abs (Qnum x)) (Zpos (Qden x)) ltac:(lia) ltac:(lia)) as (q & A & B). exists q. split; [exact A|].
  unfold near in *. assert (E : (qsgn (q_neg x) (Qmake (Z.abs (Qnum x)) (Z.to_pos (Zpos (Qden x)))) == x)%Q).
  { unfold q_neg. cbn [Z.to_pos]. destruct (Z.ltb_spec (Qnum x) 0); cbn [qsgn]; unfold Qeq, Qopp; cbn [Qnum Qden]; nia. }
  rewrite E in B. exact B.
Qed.
(** The exact value of a finite float64 *)
Definition f64_val (x : f64) : option Q :=
  match x with
  | SpecFloat.S754_zero _ => Some 0%Q
  | SpecFloat.S754_finite s m e => let '(n, d) := magn m e in Some (qsgn s (Qmake n (Z.to_pos d)))
  | _ => None
  end.
Theorem F64_near k (x : f64) v : f64_val x = Some v -> exists q, number_val (nfmt F64 k x) = Some q /\ near k q v.
Proof.
  destruct x as [s|s| |s m e]; cbn [f64_val nfmt F64 f64_fmt]; try discriminate.
  - intros [= <-]. destruct (fmtExact_near k s 0 1 ltac:(lia) ltac:(lia)) as (q & A & B). exists q. split; [exact A|]. unfold near in *.
    assert (E : (qsgn s (Qmake 0 (Z.to_pos 1)) == 0)%Q) by (destruct s; reflexivity). rewrite E in B. exact B.
  - pose proof (magn_pos m e). destruct (magn m e) as [n d]. intros [= <-]. apply fmtExact_near; cbn [fst snd] in *; lia.
Qed.
(** Every number in the content, printed with k decimals, is read by a viewer as the float64 meant to within half a
    unit of its last decimal. *)
Theorem C58_numbers_read k (x : f64) v : f64_val x = Some v -> exists q, number_val (nfmt F64 k x) = Some q /\ near k q v.
Proof. apply F64_near. Qed.
Print Assumptions C58_numbers_read.
