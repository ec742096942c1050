(** NumRead.v — how a reader takes the number written in a PDF (ISO 32000-1, 7.3.3), and that numbers printed by
    the model read back as the rounded value. *)
From Coq Require Import QArith.
From Verif Require Import Base NumModel.
Open Scope Z_scope.

(** ** Specification: [sign] digits [. digits] *)
Fixpoint span_digits (l : bytes) : bytes * bytes :=
  match l with
  | b :: r => if is_digit b then let '(a, t) := span_digits r in (b :: a, t) else ([], l)
  | [] => ([], [])
  end.
Definition unsigned_val (l : bytes) : option Q :=
  let '(ip, rest) := span_digits l in
  match rest with
  | [] => match ip with [] => None | _ => Some (Qmake (digits_val ip) 1) end
  | b :: r => let '(fr, tail) := span_digits r in
              match tail with
              | [] => if b =? 46 then match ip ++ fr with [] => None | _ => Some (Qmake (digits_val (ip ++ fr)) (Z.to_pos (10 ^ zlen fr))) end else None
              | _ => None
              end
  end.
Definition number_val (l : bytes) : option Q :=
  match l with
  | b :: r => if b =? 45 then option_map Qopp (unsigned_val r) else if b =? 43 then unsigned_val r else unsigned_val l
  | [] => None
  end.

(** ** Reading back what the model prints *)
Lemma span_all l : forallb is_digit l = true -> span_digits l = (l, []).
Proof. induction l as [|b l IH]; [reflexivity|]. cbn [forallb span_digits]. intros H. apply andb_true_iff in H as [-> H]. now rewrite IH. Qed.
Lemma span_stop l b r : forallb is_digit l = true -> is_digit b = false -> span_digits (l ++ b :: r) = (l, b :: r).
Proof.
  intros H B. induction l as [|c l IH]; cbn [app span_digits]; [now rewrite B|]. cbn [forallb] in H. apply andb_true_iff in H as [-> H]. now rewrite IH.
Qed.
Lemma unsigned_int l : l <> [] -> forallb is_digit l = true -> unsigned_val l = Some (Qmake (digits_val l) 1).
Proof. intros NE D. unfold unsigned_val. rewrite span_all by exact D. destruct l; [contradiction|reflexivity]. Qed.
Lemma unsigned_frac l r : l <> [] -> forallb is_digit l = true -> forallb is_digit r = true ->
  unsigned_val (l ++ 46 :: r) = Some (Qmake (digits_val (l ++ r)) (Z.to_pos (10 ^ zlen r))).
Proof.
  intros NE D R. unfold unsigned_val. rewrite span_stop by (exact D || reflexivity). rewrite span_all by exact R. cbn [Z.eqb Pos.eqb].
  destruct l; [contradiction|]. reflexivity.
Qed.
Lemma digit_notsign b : is_digit b = true -> b =? 45 = false /\ b =? 43 = false.
Proof. unfold is_digit. lia. Qed.
Definition qsgn (s : bool) (q : Q) : Q := if s then Qopp q else q.
Lemma number_sgn s l : (exists b r, l = b :: r /\ is_digit b = true) -> number_val (sgn_ s ++ l) = option_map (qsgn s) (unsigned_val l).
Proof.
  intros (b & r & -> & D). destruct s; cbn [sgn_ app number_val qsgn].
  - reflexivity.
  - destruct (digit_notsign b D) as [-> ->]. destruct (unsigned_val (b :: r)); reflexivity.
Qed.
Lemma dec_head m r : 0 <= m -> exists b t, dec m ++ r = b :: t /\ is_digit b = true.
Proof.
  intros M. pose proof (dec_nonempty m M) as NE. pose proof (dec_digits m M) as D. destruct (dec m) as [|b t]; [contradiction|].
  cbn [forallb] in D. apply andb_true_iff in D as [D _]. now exists b, (t ++ r).
Qed.
Lemma fixedDec_val k m : 0 <= m -> exists q, unsigned_val (fixedDec k m) = Some q /\ q == Qmake m (Z.to_pos (10 ^ Z.of_nat k)).
Proof.
  intros M. assert (P : 0 < 10 ^ Z.of_nat k) by (apply Z.pow_pos_nonneg; lia). unfold fixedDec. destruct k as [|k].
  - eexists. split; [apply unsigned_int; [now apply dec_nonempty|now apply dec_digits]|]. rewrite dec_val by exact M. reflexivity.
  - set (p := 10 ^ Z.of_nat (S k)) in *. assert (0 <= m / p) by (apply Z.div_pos; lia). pose proof (Z.mod_pos_bound m p P).
    assert (L : (List.length (dec (m mod p)) <= S k)%nat) by (apply dec_len; fold p; lia).
    eexists. cbn [app]. split; [apply unsigned_frac; [now apply dec_nonempty|now apply dec_digits|apply pad_left_digits, dec_digits; lia]|].
    rewrite digits_val_app, pad_left_val. unfold zlen. rewrite pad_left_len by exact L. fold p. rewrite !dec_val by lia. replace (m / p * p + m mod p) with m by (rewrite (Z.div_mod m p) at 1; lia). reflexivity.
Qed.
Lemma qsgn_eq s a b : a == b -> qsgn s a == qsgn s b.
Proof. intros H. destruct s; cbn [qsgn]; now rewrite H. Qed.
Lemma fixedDec_head k m : 0 <= m -> exists b t, fixedDec k m = b :: t /\ is_digit b = true.
Proof.
  intros M. assert (P : 0 < 10 ^ Z.of_nat k) by (apply Z.pow_pos_nonneg; lia). unfold fixedDec. destruct k as [|k].
  - rewrite <- (app_nil_r (dec m)). now apply dec_head.
  - apply dec_head. apply Z.div_pos; lia.
Qed.
Lemma fmtExact_val k s n d : 0 <= n -> 0 < d ->
  exists q, number_val (fmtExact k s n d) = Some q /\ q == qsgn s (Qmake (roundHE (n * 10 ^ Z.of_nat k) d) (Z.to_pos (10 ^ Z.of_nat k))).
Proof.
  intros A D. unfold fmtExact. assert (0 < 10 ^ Z.of_nat k) by (apply Z.pow_pos_nonneg; lia).
  set (m := roundHE _ _). assert (M : 0 <= m) by (apply roundHE_pos; lia). rewrite number_sgn by now apply fixedDec_head.
  destruct (fixedDec_val k m M) as (q & Q1 & Q2). rewrite Q1. exists (qsgn s q). split; [reflexivity|]. now apply qsgn_eq.
Qed.
Lemma fmt_d_val z : exists q, number_val (fmt_d z) = Some q /\ q == inject_Z z.
Proof.
  unfold fmt_d. destruct (Z.ltb_spec z 0).
  - change (45 :: dec (- z)) with (sgn_ true ++ dec (- z)). rewrite number_sgn by (rewrite <- (app_nil_r (dec (- z))); apply dec_head; lia).
    rewrite unsigned_int by (apply dec_nonempty || apply dec_digits; lia). rewrite dec_val by lia. eexists. split; [reflexivity|]. cbn [qsgn]. unfold Qeq, inject_Z. cbn. lia.
  - change (dec z) with (sgn_ false ++ dec z). rewrite number_sgn by (rewrite <- (app_nil_r (dec z)); apply dec_head; lia).
    rewrite unsigned_int by (apply dec_nonempty || apply dec_digits; lia). rewrite dec_val by lia. eexists. split; [reflexivity|]. reflexivity.
Qed.
Lemma dropZeros_split l : exists n, l = repeat 48 n ++ dropZeros l.
Proof.
  induction l as [|y l (n & IH)]; [now exists 0%nat|]. cbn [dropZeros]. destruct (Z.eq_dec y 48) as [->|NE].
  - exists (S n). cbn [repeat app]. now rewrite IH at 1.
  - exists 0%nat. destruct y as [|p|p]; try reflexivity. repeat (destruct p as [p|p|]; try reflexivity; try (exfalso; lia)).
Qed.
Lemma trim3_val s m : 0 <= m -> exists q, number_val (trim3 s m) = Some q /\ q == qsgn s (Qmake m 1000).
Proof.
  intros M. unfold trim3. cbv zeta. set (fr0 := pad_left 3 (dec (m mod 1000))).
  assert (D0 : forallb is_digit fr0 = true) by (apply pad_left_digits, dec_digits; lia).
  assert (V0 : digits_val fr0 = m mod 1000) by (unfold fr0; rewrite pad_left_val; apply dec_val; lia).
  assert (L0 : zlen fr0 = 3) by (unfold zlen, fr0; rewrite pad_left_len; [reflexivity|apply dec_len; [lia|lia|cbn; lia]]).
  destruct (dropZeros_split (rev fr0)) as (n & E). set (fr := rev (dropZeros (rev fr0))).
  assert (E0 : fr0 = fr ++ repeat 48 n).
  { rewrite <- (rev_involutive fr0), E, rev_app_distr. unfold fr. f_equal. clear. induction n as [|n IH]; [reflexivity|]. cbn [repeat rev]. rewrite IH. clear. induction n as [|n IH]; [reflexivity|]. cbn [repeat app]. now rewrite IH. }
  assert (DF : forallb is_digit fr = true) by (rewrite E0, forallb_app in D0; now apply andb_true_iff in D0).
  assert (LF : zlen fr + Z.of_nat n = 3) by (rewrite E0, zlen_app in L0; unfold zlen in *; rewrite repeat_length in L0; exact L0).
  assert (VF : digits_val fr * 10 ^ Z.of_nat n = m mod 1000).
  { rewrite <- V0, E0, digits_val_app. unfold zlen. rewrite repeat_length. pose proof (digits_val_zeros n []) as Z0. rewrite app_nil_r in Z0. rewrite Z0. cbn. lia. }
  assert (H0 : 0 <= m / 1000) by lia.
  rewrite number_sgn by now apply dec_head.
  assert (U : exists q, unsigned_val (dec (m / 1000) ++ match fr with [] => [] | _ => 46 :: fr end) = Some q /\ q == Qmake m 1000).
  { destruct fr as [|a r] eqn:F.
    - rewrite app_nil_r, unsigned_int by (now apply dec_nonempty || now apply dec_digits). eexists. split; [reflexivity|]. rewrite dec_val by exact H0. unfold Qeq. cbn [Qnum Qden].
      change (digits_val []) with 0 in VF. lia.
    - rewrite <- F in *. rewrite unsigned_frac by (now apply dec_nonempty || now apply dec_digits || exact DF). eexists. split; [reflexivity|].
      rewrite digits_val_app, dec_val by exact H0. unfold Qeq. cbn [Qnum Qden]. pose proof (zlen_nonneg fr).
      assert (P : 0 < 10 ^ zlen fr) by (apply Z.pow_pos_nonneg; lia). rewrite Z2Pos.id by exact P.
      assert (K : 10 ^ zlen fr * 10 ^ Z.of_nat n = 1000) by (rewrite <- Z.pow_add_r by lia; rewrite LF; reflexivity).
      assert (P2 : 0 < 10 ^ Z.of_nat n) by (apply Z.pow_pos_nonneg; lia).
      change (Z.pos 1000) with 1000. pose proof (Z.div_mod m 1000 ltac:(lia)). nia. }
  destruct U as (q & U1 & U2). rewrite U1. exists (qsgn s q). split; [reflexivity|]. now apply qsgn_eq.
Qed.
