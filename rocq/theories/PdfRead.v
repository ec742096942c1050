(** PdfRead.v — reading back the pieces gopdf's write methods are made of: what the reader of PdfSyntax.v makes of a
    printed integer, real number, name, escaped literal string or hexadecimal string, whatever surrounds it. *)
From Coq Require Import QArith.
From Verif Require Import Base StrSpec NumModel NumRead DrawSpec DrawLex StrModel PropStr PaintNum PdfSyntax.
Open Scope Z_scope.

Notation RI stk := (PRun SIdle stk).
Lemma pread_app st a b : pread st (a ++ b) = pread (pread st a) b.
Proof. apply fold_left_app. Qed.
Lemma pread_cons st x l : pread st (x :: l) = pread (pstep st x) l.
Proof. reflexivity. Qed.
Lemma pread_done o l : forall r, pread (PDone o r) l = PDone o (r ++ l).
Proof. induction l as [|x l IH]; intros r; [now rewrite app_nil_r|]. rewrite pread_cons. cbn [pstep]. rewrite IH, <- app_assoc. reflexivity. Qed.

Lemma run_word w : forall acc b r stk, forallb is_regular w = true -> is_regular b = false ->
  pread (PRun (SWord acc) stk) (w ++ b :: r) = pread (match push_word (acc ++ w) stk with Some s => RI s | None => PFail end) (b :: r).
Proof.
  induction w as [|c w IH]; intros acc b r stk R NB.
  - cbn [app]. rewrite app_nil_r, pread_cons. cbn [pstep]. rewrite NB. destruct (push_word acc stk); reflexivity.
  - cbn [forallb] in R. apply andb_true_iff in R as [R1 R2]. cbn [app]. rewrite pread_cons. cbn [pstep]. rewrite R1, IH by assumption. now rewrite <- app_assoc.
Qed.
Lemma idle_regular b stk : is_regular b = true -> idle b stk = PRun (SWord [b]) stk.
Proof.
  intros R. unfold idle. rewrite R. unfold is_regular in R. apply andb_true_iff in R as [A1 A2]. apply negb_true_iff in A1, A2. rewrite A1.
  destruct (Z.eqb_spec b 47) as [->|]; [discriminate|]. destruct (Z.eqb_spec b 40) as [->|]; [discriminate|]. destruct (Z.eqb_spec b 60) as [->|]; [discriminate|].
  destruct (Z.eqb_spec b 62) as [->|]; [discriminate|]. destruct (Z.eqb_spec b 91) as [->|]; [discriminate|]. destruct (Z.eqb_spec b 93) as [->|]; [discriminate|].
  destruct (Z.eqb_spec b 37) as [->|]; [discriminate|]. reflexivity.
Qed.
Lemma read_word w b r stk s : w <> [] -> forallb is_regular w = true -> is_regular b = false -> push_word w stk = Some s ->
  pread (RI stk) (w ++ b :: r) = pread (RI s) (b :: r).
Proof.
  destruct w as [|c w]; [contradiction|]. intros _ R NB P. cbn [forallb] in R. apply andb_true_iff in R as [R1 R2]. cbn [app]. rewrite pread_cons. cbn [pstep].
  rewrite idle_regular by exact R1. rewrite run_word by assumption. cbn [app]. now rewrite P.
Qed.

(** ** Integers *)
Lemma digit_notR l : forallb is_digit l = true -> list_eqb l (bs "R") = false.
Proof.
  intros D. destruct (list_eqb l (bs "R")) eqn:X; [|reflexivity]. apply list_eqb_eq in X. subst l. discriminate.
Qed.
Lemma word_int_dec n : 0 <= n -> word_int (dec n) = Some n.
Proof.
  intros H. destruct (dec_head n [] H) as (b & t & E & B). rewrite app_nil_r in E. pose proof (dec_digits n H) as D. pose proof (dec_val n H) as V.
  rewrite E in *. unfold word_int. destruct (digit_notsign b B) as [-> ->]. cbv zeta. now rewrite D, V.
Qed.
Lemma word_int_fmt z : word_int (fmt_d z) = Some z.
Proof.
  unfold fmt_d. destruct (Z.ltb_spec z 0); [|now apply word_int_dec].
  unfold word_int. cbn [Z.eqb Pos.eqb]. pose proof (dec_digits (- z) ltac:(lia)) as D. pose proof (dec_val (- z) ltac:(lia)) as V.
  destruct (dec_head (- z) [] ltac:(lia)) as (b & t & E & B). rewrite app_nil_r in E. rewrite E in *. rewrite D, V. cbn [option_map]. f_equal. lia.
Qed.
Lemma push_int z stk : push_word (fmt_d z) stk = Some (IObj (OInt z) :: stk).
Proof.
  unfold push_word. rewrite word_int_fmt. destruct (list_eqb _ _) eqn:X; [|reflexivity]. apply list_eqb_eq in X. pose proof (word_int_fmt z) as W. rewrite X in W. discriminate.
Qed.
Lemma read_int z b r stk : is_regular b = false -> pread (RI stk) (fmt_d z ++ b :: r) = pread (RI (IObj (OInt z) :: stk)) (b :: r).
Proof.
  intros NB. apply read_word; [apply numtext_ne, fmt_d_num|apply numtext_regular, fmt_d_num|exact NB|apply push_int].
Qed.

(** ** Real numbers *)
Definition finite (x : f64) : Prop := f64_val x <> None.
Lemma word_int_point s : forall a r, word_int (sgn_ s ++ a ++ 46 :: r) = None.
Proof.
  intros a r. assert (X : forall l, forallb is_digit (l ++ 46 :: r) = false) by (intros l; rewrite forallb_app; cbn; now rewrite andb_false_r).
  destruct s; cbn [sgn_ app]; unfold word_int; cbn [Z.eqb Pos.eqb].
  - destruct (a ++ 46 :: r) eqn:E; [reflexivity|]. rewrite <- E, X. reflexivity.
  - destruct a as [|b a]; [reflexivity|]. cbn [app]. rewrite (X (b :: a) : forallb is_digit (b :: a ++ 46 :: r) = false).
    destruct (b =? 45). { pose proof (X a). destruct (a ++ 46 :: r); [reflexivity|]. now rewrite H. }
    destruct (b =? 43); [|reflexivity]. pose proof (X a). destruct (a ++ 46 :: r); [reflexivity|]. now rewrite H.
Qed.
Lemma fmtExact_notint k s n d : word_int (fmtExact (S k) s n d) = None.
Proof. unfold fmtExact, fixedDec. cbv zeta. apply word_int_point. Qed.
Lemma push_real k x stk : finite x -> push_word (f64_fmt (S k) x) stk = Some (IObj (OReal (f64_fmt (S k) x)) :: stk).
Proof.
  intros F. destruct (f64_val x) as [v|] eqn:V; [|now destruct F]. destruct (F64_near (S k) x v V) as (q & Q1 & _). change (nfmt F64 (S k) x) with (f64_fmt (S k) x) in Q1.
  unfold push_word. rewrite Q1. assert (W : word_int (f64_fmt (S k) x) = None).
  { destruct x as [s|s| |s m e]; cbn [f64_val] in V; try discriminate; cbn [f64_fmt]; [apply fmtExact_notint|]. destruct (magn m e). apply fmtExact_notint. }
  rewrite W. destruct (list_eqb _ _) eqn:X; [|reflexivity]. apply list_eqb_eq in X. rewrite X in Q1. discriminate.
Qed.
Lemma read_real k x b r stk : finite x -> is_regular b = false ->
  pread (RI stk) (f64_fmt (S k) x ++ b :: r) = pread (RI (IObj (OReal (f64_fmt (S k) x)) :: stk)) (b :: r).
Proof.
  intros F NB. pose proof (proj1 F64_prints (S k) x) as NT. change (nfmt F64 (S k) x) with (f64_fmt (S k) x) in NT.
  apply read_word; [now apply numtext_ne|now apply numtext_regular|exact NB|now apply push_real].
Qed.

(** ** Names without special characters *)
Definition plain_name (n : bytes) : bool := forallb (fun b => is_regular b && negb (b =? 35)) n.
Lemma plain_decode n : plain_name n = true -> name_decode n = Some n.
Proof.
  induction n as [|b n IH]; [reflexivity|]. cbn [plain_name forallb]. intros H. apply andb_true_iff in H as [H1 H2]. apply andb_true_iff in H1 as [_ H1].
  apply negb_true_iff in H1. cbn [name_decode]. rewrite H1, IH by exact H2. reflexivity.
Qed.
Lemma plain_regular n : plain_name n = true -> forallb is_regular n = true.
Proof. unfold plain_name. rewrite !forallb_forall. intros H x I. specialize (H x I). now apply andb_true_iff in H. Qed.
Lemma run_name w : forall acc b r stk, forallb is_regular w = true -> is_regular b = false ->
  pread (PRun (SName acc) stk) (w ++ b :: r) = pread (match name_decode (acc ++ w) with Some n => RI (IObj (OName n) :: stk) | None => PFail end) (b :: r).
Proof.
  induction w as [|c w IH]; intros acc b r stk R NB.
  - cbn [app]. rewrite app_nil_r, pread_cons. cbn [pstep]. rewrite NB. destruct (name_decode acc); reflexivity.
  - cbn [forallb] in R. apply andb_true_iff in R as [R1 R2]. cbn [app]. rewrite pread_cons. cbn [pstep]. rewrite R1, IH by assumption. now rewrite <- app_assoc.
Qed.
(** after the slash and a literal prefix of the name *)
Lemma read_name acc w b r stk : plain_name (acc ++ w) = true -> is_regular b = false ->
  pread (PRun (SName acc) stk) (w ++ b :: r) = pread (RI (IObj (OName (acc ++ w)) :: stk)) (b :: r).
Proof.
  intros P NB. rewrite run_name; [now rewrite plain_decode| |exact NB]. apply plain_regular in P. rewrite forallb_app in P. now apply andb_true_iff in P.
Qed.
Lemma digits_plain l : forallb is_digit l = true -> plain_name l = true.
Proof.
  unfold plain_name. rewrite !forallb_forall. intros H x I. specialize (H x I). unfold is_digit in H. unfold is_regular, is_white, is_delim. cbn.
  assert (48 <= x <= 57) by lia. repeat match goal with |- context [x =? ?k] => destruct (Z.eqb_spec x k); [lia|] end. reflexivity.
Qed.
Lemma plain_app a b : plain_name (a ++ b) = plain_name a && plain_name b.
Proof. apply forallb_app. Qed.
Lemma fmt_plain z : plain_name (fmt_d z) = true.
Proof.
  unfold fmt_d. destruct (Z.ltb_spec z 0); [|now apply digits_plain, dec_digits]. change (45 :: dec (- z)) with ([45] ++ dec (- z)). rewrite plain_app.
  now rewrite (digits_plain (dec (- z))) by (apply dec_digits; lia).
Qed.
Lemma read_name_int acc z b r stk : plain_name acc = true -> is_regular b = false ->
  pread (PRun (SName acc) stk) (fmt_d z ++ b :: r) = pread (RI (IObj (OName (acc ++ fmt_d z)) :: stk)) (b :: r).
Proof. intros P NB. apply read_name; [|exact NB]. now rewrite plain_app, P, fmt_plain. Qed.

(** ** Strings *)
Lemma run_esc1 b acc stk l : pread (PRun (SStr 0 false acc) stk) (esc1 b ++ l) = pread (PRun (SStr 0 false (acc ++ esc1 b)) stk) l.
Proof.
  unfold esc1. destruct (Z.eqb_spec b 92) as [->|]; [cbn [app]; rewrite !pread_cons; cbn; now rewrite <- app_assoc|].
  destruct (Z.eqb_spec b 40) as [->|]; [cbn [app]; rewrite !pread_cons; cbn; now rewrite <- app_assoc|].
  destruct (Z.eqb_spec b 41) as [->|]; [cbn [app]; rewrite !pread_cons; cbn; now rewrite <- app_assoc|].
  destruct (Z.eqb_spec b 13) as [->|]; [cbn [app]; rewrite !pread_cons; cbn; now rewrite <- app_assoc|].
  cbn [app]. rewrite pread_cons. cbn [pstep]. destruct (Z.eqb_spec b 92); [lia|]. destruct (Z.eqb_spec b 40); [lia|]. destruct (Z.eqb_spec b 41); [lia|]. reflexivity.
Qed.
Lemma run_esc s : forall acc stk l, pread (PRun (SStr 0 false acc) stk) (flat_map esc1 s ++ l) = pread (PRun (SStr 0 false (acc ++ flat_map esc1 s)) stk) l.
Proof.
  induction s as [|b s IH]; intros acc stk l; [cbn [flat_map app]; now rewrite app_nil_r|].
  cbn [flat_map]. rewrite <- app_assoc, run_esc1, IH, <- app_assoc. reflexivity.
Qed.
Lemma read_str s r stk : pread (PRun (SStr 0 false []) stk) (escape s ++ 41 :: r) = pread (RI (IObj (OStr s) :: stk)) r.
Proof.
  rewrite escape_char, run_esc. cbn [app]. rewrite pread_cons. cbn [pstep Z.eqb Pos.eqb]. rewrite <- escape_char.
  change [41] with ([41] ++ []). rewrite C10_escaped_literal_reads_back. reflexivity.
Qed.
Lemma run_hex h : forall acc r stk, forallb (fun b => negb (b =? 62)) h = true ->
  pread (PRun (SHex acc) stk) (h ++ 62 :: r) = pread (match hexstring (acc ++ h ++ [62]) None with Some (v, []) => RI (IObj (OStr v) :: stk) | _ => PFail end) r.
Proof.
  induction h as [|c h IH]; intros acc r stk H.
  - cbn [app]. rewrite pread_cons. reflexivity.
  - cbn [forallb] in H. apply andb_true_iff in H as [H1 H2]. apply negb_true_iff in H1. cbn [app]. rewrite pread_cons. cbn [pstep]. rewrite H1, IH by exact H2.
    now rewrite <- app_assoc.
Qed.

(** ** Literal text *)
Lemma read_lit st l st' r : pread st l = st' -> pread st (l ++ r) = pread st' r.
Proof. intros <-. apply pread_app. Qed.
(** One step over the goal [pread (PRun ..) (piece ++ rest) = ..]. *)
Ltac lit_step :=
  match goal with
  | |- context [pread (PRun ?l ?stk) (bs ?s ++ ?r)] =>
      let x := eval vm_compute in (pread (PRun l stk) (bs s)) in rewrite (read_lit (PRun l stk) (bs s) x r (eq_refl x <: pread (PRun l stk) (bs s) = x))
  | |- context [pread (PRun ?l ?stk) (?c :: ?r)] =>
      let x := eval vm_compute in (pstep (PRun l stk) c) in change (pread (PRun l stk) (c :: r)) with (pread x r)
  end.
