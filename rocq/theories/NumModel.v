(** NumModel.v — the arithmetic of float64 that the drawing code uses, and how it is printed.

    The drawing code of gopdf is transcribed over an arbitrary [num] (a type with the operations the Go
    code applies to float64).  Two instances are given:
    - [F64]: IEEE binary64 exactly as Go computes (Coq's executable [SpecFloat], round to nearest even);
    - [Qn]: exact rational arithmetic, for properties that talk about exact lengths.
    Printing with "%.kf" is exact in both: Go prints the correctly rounded decimal of the exact value of the
    float (strconv: exact decimal conversion, ties to even). *)
From Coq Require Import QArith Qround.
From Coq Require Import Floats.SpecFloat.
From Verif Require Import Base.
Open Scope Z_scope.

Record num := {
  T : Type;
  nadd : T -> T -> T; nsub : T -> T -> T; nmul : T -> T -> T; ndiv : T -> T -> T; nneg : T -> T;
  nofZ : Z -> T;                       (* float64(int) *)
  nlt : T -> T -> bool; nle : T -> T -> bool; neq : T -> T -> bool;      (* < <= == *)
  nround : T -> Z;                     (* int(math.Round(x)) *)
  ntrunc : T -> Z;                     (* int(x) *)
  nfmt : nat -> T -> bytes;            (* "%.kf" *)
  nfmtTrim : T -> bytes                (* FormatFloatTrim, cache_content_text.go:185-191 *)
}.

(** ** Decimal printing of the exact value n/d with k decimals, ties to even; [s] is the sign bit. *)
Definition roundHE (n d : Z) : Z :=          (* n >= 0, d > 0 *)
  let q := n / d in let r := n mod d in
  if 2 * r <? d then q else if d <? 2 * r then q + 1 else if Z.even q then q else q + 1.
Definition fixedDec (k : nat) (m : Z) : bytes :=        (* m * 10^-k *)
  let p := 10 ^ Z.of_nat k in
  match k with
  | O => dec m
  | _ => dec (m / p) ++ [46] ++ pad_left k (dec (m mod p))
  end.
Definition sgn_ (s : bool) : bytes := if s then [45] else [].
Definition fmtExact (k : nat) (s : bool) (n d : Z) : bytes := sgn_ s ++ fixedDec k (roundHE (n * 10 ^ Z.of_nat k) d).

(** math.Round: half away from zero; [n/d] is the absolute value. *)
Definition roundHA (n d : Z) : Z := (2 * n + d) / (2 * d).
(** Trailing zeros (and the point) removed from a number of thousandths. *)
Fixpoint dropZeros (l : bytes) : bytes :=      (* on the reversed fraction *)
  match l with 48 :: r => dropZeros r | _ => l end.
Definition trim3 (s : bool) (m : Z) : bytes :=
  let fr := rev (dropZeros (rev (pad_left 3 (dec (m mod 1000))))) in
  sgn_ s ++ dec (m / 1000) ++ (match fr with [] => [] | _ => 46 :: fr end).

(** ** IEEE binary64 *)
Definition prec64 : Z := 53.
Definition emax64 : Z := 1024.
Notation f64 := spec_float.
Definition f64_ofZ (z : Z) : f64 := binary_normalize prec64 emax64 z 0 false.
(** Exact absolute value as a fraction. *)
Definition magn (m : positive) (e : Z) : Z * Z :=
  if 0 <=? e then (Zpos m * 2 ^ e, 1) else (Zpos m, 2 ^ (- e)).
Definition f64_fmt (k : nat) (x : f64) : bytes :=
  match x with
  | S754_zero s => fmtExact k s 0 1
  | S754_finite s m e => let '(n, d) := magn m e in fmtExact k s n d
  | S754_infinity s => if s then bs "-Inf" else bs "+Inf"
  | S754_nan => bs "NaN"
  end.
(** Conversion of an out-of-range float to int (amd64: the smallest int64). *)
Definition toInt64 (z : Z) : Z := if (- 2 ^ 63 <=? z) && (z <? 2 ^ 63) then z else - 2 ^ 63.
Definition f64_round (x : f64) : Z :=
  match x with
  | S754_zero _ => 0
  | S754_finite s m e => let '(n, d) := magn m e in toInt64 (if s then - roundHA n d else roundHA n d)
  | _ => - 2 ^ 63
  end.
Definition f64_trunc (x : f64) : Z :=
  match x with
  | S754_zero _ => 0
  | S754_finite s m e => let '(n, d) := magn m e in toInt64 (if s then - (n / d) else n / d)
  | _ => - 2 ^ 63
  end.
(** cache_content_text.go:185-191 FormatFloatTrim: math.Round(1000*x)/1000 printed with the shortest decimal
    that reads back as the same float.  Simplification: the shortest decimal of the float nearest to m/1000 is
    taken to be the decimal m/1000 itself, which is so for |m| < 2^53. *)
Definition f64_trim (x : f64) : bytes :=
  match SFmul prec64 emax64 (f64_ofZ 1000) x with
  | S754_zero s => trim3 s 0
  | S754_finite s m e => let '(n, d) := magn m e in trim3 s (roundHA n d)
  | S754_infinity s => if s then bs "-Inf" else bs "+Inf"
  | S754_nan => bs "NaN"
  end.
Definition F64 : num := {|
  T := f64;
  nadd := SFadd prec64 emax64; nsub := SFsub prec64 emax64; nmul := SFmul prec64 emax64; ndiv := SFdiv prec64 emax64;
  nneg := SFopp; nofZ := f64_ofZ; nlt := SFltb; nle := SFleb; neq := SFeqb;
  nround := f64_round; ntrunc := f64_trunc; nfmt := f64_fmt; nfmtTrim := f64_trim |}.

(** ** Exact rationals *)
Definition q_neg (x : Q) : bool := Qnum x <? 0.
Definition Qn : num := {|
  T := Q;
  nadd := Qplus; nsub := Qminus; nmul := Qmult; ndiv := Qdiv; nneg := Qopp; nofZ := inject_Z;
  nlt := fun a b => negb (Qle_bool b a); nle := Qle_bool; neq := Qeq_bool;
  nround := fun x => if q_neg x then - roundHA (- Qnum x) (Zpos (Qden x)) else roundHA (Qnum x) (Zpos (Qden x));
  ntrunc := fun x => Z.quot (Qnum x) (Zpos (Qden x));
  nfmt := fun k x => fmtExact k (q_neg x) (Z.abs (Qnum x)) (Zpos (Qden x));
  nfmtTrim := fun x => trim3 (q_neg x) (roundHA (1000 * Z.abs (Qnum x)) (Zpos (Qden x))) |}.

(** ** Characters of printed numbers *)
Definition numchar (b : Z) : bool := existsb (Z.eqb b) (bs "0123456789.-+NaInf").
(** What the token-level theorems need of a [num]: a printed number starts with a digit or a sign (or is
    "NaN") and has only number characters. *)
Definition numstart (b : Z) : bool := existsb (Z.eqb b) (bs "0123456789-+").
Definition numtext (l : bytes) : Prop := l = bs "NaN" \/ exists b r, l = b :: r /\ numstart b = true /\ forallb numchar r = true.
Definition num_prints (N : num) : Prop := (forall k x, numtext (nfmt N k x)) /\ (forall x, numtext (nfmtTrim N x)).

Lemma digit_numchar b : is_digit b = true -> numchar b = true.
Proof.
  unfold is_digit. intros H. apply andb_true_iff in H as [H1 H2].
  assert (E : b = 48 \/ b = 49 \/ b = 50 \/ b = 51 \/ b = 52 \/ b = 53 \/ b = 54 \/ b = 55 \/ b = 56 \/ b = 57) by lia.
  repeat (destruct E as [->|E]; [reflexivity|]). now subst.
Qed.
Lemma digits_numchar l : forallb is_digit l = true -> forallb numchar l = true.
Proof. intros H. apply forallb_forall. intros x Hx. rewrite forallb_forall in H. now apply digit_numchar, H. Qed.
Lemma numstart_numchar b : numstart b = true -> numchar b = true.
Proof. unfold numstart, numchar. rewrite !existsb_exists. intros (x & I & E). exists x. split; [|exact E]. cbn in *. intuition. Qed.
Lemma digit_numstart b : is_digit b = true -> numstart b = true.
Proof.
  unfold is_digit. intros H. apply andb_true_iff in H as [H1 H2].
  assert (E : b = 48 \/ b = 49 \/ b = 50 \/ b = 51 \/ b = 52 \/ b = 53 \/ b = 54 \/ b = 55 \/ b = 56 \/ b = 57) by lia.
  repeat (destruct E as [->|E]; [reflexivity|]). now subst.
Qed.
Lemma numtext_digits l r : l <> [] -> forallb is_digit l = true -> forallb numchar r = true -> numtext (l ++ r).
Proof.
  intros NE D R. right. destruct l as [|b l]; [contradiction|]. exists b, (l ++ r). split; [reflexivity|]. cbn [forallb] in D. apply andb_true_iff in D as [D1 D2].
  split; [now apply digit_numstart|]. rewrite forallb_app, R, digits_numchar by exact D2. reflexivity.
Qed.
Lemma numtext_chars l : numtext l -> forallb numchar l = true.
Proof. intros [->|(b & r & -> & S & R)]; [reflexivity|]. cbn [forallb]. now rewrite (numstart_numchar b S), R. Qed.
Lemma roundHE_pos n d : 0 <= n -> 0 < d -> 0 <= roundHE n d.
Proof.
  intros N D. unfold roundHE. assert (0 <= n / d) by (apply Z.div_pos; lia).
  destruct (_ <? _); [lia|]. destruct (_ <? _); [lia|]. destruct (Z.even _); lia.
Qed.
Lemma fixedDec_num k m : 0 <= m -> numtext (fixedDec k m).
Proof.
  intros M. assert (P : 0 < 10 ^ Z.of_nat k) by (apply Z.pow_pos_nonneg; lia). unfold fixedDec. destruct k as [|k].
  - rewrite <- (app_nil_r (dec m)). apply numtext_digits; [now apply dec_nonempty|now apply dec_digits|reflexivity].
  - set (p := 10 ^ Z.of_nat (S k)) in *. assert (0 <= m / p) by (apply Z.div_pos; lia). pose proof (Z.mod_pos_bound m p P).
    apply numtext_digits; [now apply dec_nonempty|now apply dec_digits|].
    rewrite forallb_app. cbn [forallb]. rewrite digits_numchar; [reflexivity|]. apply pad_left_digits, dec_digits; lia.
Qed.
Lemma sgn_num s l : numtext l -> numtext (sgn_ s ++ l).
Proof. destruct s; [|auto]. intros H. right. exists 45, l. split; [reflexivity|]. split; [reflexivity|now apply numtext_chars]. Qed.
Lemma fmtExact_num k s n d : 0 <= n -> 0 < d -> numtext (fmtExact k s n d).
Proof.
  intros N D. apply sgn_num, fixedDec_num, roundHE_pos; [|exact D].
  assert (0 < 10 ^ Z.of_nat k) by (apply Z.pow_pos_nonneg; lia). lia.
Qed.
Lemma dropZeros_in l x : In x (dropZeros l) -> In x l.
Proof.
  induction l as [|y l IH]; [auto|]. intros H. cbn [dropZeros] in H. destruct (Z.eq_dec y 48) as [->|NE].
  - right. now apply IH.
  - assert (E : match y with 48 => dropZeros l | _ => y :: l end = y :: l).
    { destruct y as [|p|p]; try reflexivity. repeat (destruct p as [p|p|]; try reflexivity; try (exfalso; lia)). }
    rewrite E in H. exact H.
Qed.
Lemma trim3_num s m : 0 <= m -> numtext (trim3 s m).
Proof.
  intros M. unfold trim3. cbv zeta. apply sgn_num. assert (0 <= m / 1000) by lia. apply numtext_digits; [now apply dec_nonempty|now apply dec_digits|].
  destruct (rev (dropZeros (rev (pad_left 3 (dec (m mod 1000)))))) as [|a r] eqn:E; [reflexivity|].
  change (forallb numchar (a :: r) = true). rewrite <- E. apply digits_numchar, forallb_forall. intros x Hx.
  apply in_rev, dropZeros_in, in_rev in Hx. assert (A : forallb is_digit (pad_left 3 (dec (m mod 1000))) = true) by (apply pad_left_digits, dec_digits; lia).
  rewrite forallb_forall in A. now apply A.
Qed.
Lemma fmt_d_num n : numtext (fmt_d n).
Proof.
  unfold fmt_d. destruct (Z.ltb_spec n 0); [|rewrite <- (app_nil_r (dec n)); apply numtext_digits; [now apply dec_nonempty|now apply dec_digits|reflexivity]].
  right. exists 45, (dec (- n)). split; [reflexivity|]. split; [reflexivity|]. apply digits_numchar, dec_digits. lia.
Qed.
Lemma roundHA_pos n d : 0 <= n -> 0 < d -> 0 <= roundHA n d.
Proof. intros. unfold roundHA. apply Z.div_pos; lia. Qed.
Lemma magn_pos m e : 0 <= fst (magn m e) /\ 0 < snd (magn m e).
Proof.
  unfold magn. destruct (Z.leb_spec 0 e); cbn [fst snd].
  - assert (0 < 2 ^ e) by (apply Z.pow_pos_nonneg; lia). nia.
  - split; [lia|]. apply Z.pow_pos_nonneg; lia.
Qed.
Theorem F64_prints : num_prints F64.
Proof.
  assert (I : forall s : bool, numtext (if s then bs "-Inf" else bs "+Inf")).
  { intros s. right. destruct s; eexists; eexists; (split; [reflexivity|split; reflexivity]). }
  split; cbn [nfmt nfmtTrim F64 T].
  - intros k [s|s| |s m e]; cbn [f64_fmt].
    + apply fmtExact_num; lia.
    + apply I.
    + now left.
    + pose proof (magn_pos m e). destruct (magn m e) as [n d]. apply fmtExact_num; cbn [fst snd] in *; lia.
  - intros x. unfold f64_trim. destruct (SFmul _ _ _ x) as [s|s| |s m e].
    + apply trim3_num; lia.
    + apply I.
    + now left.
    + pose proof (magn_pos m e). destruct (magn m e) as [n d]. apply trim3_num, roundHA_pos; cbn [fst snd] in *; lia.
Qed.
Theorem Qn_prints : num_prints Qn.
Proof.
  split; cbn [nfmt nfmtTrim Qn T].
  - intros k x. apply fmtExact_num; lia.
  - intros x. apply trim3_num, roundHA_pos; lia.
Qed.
