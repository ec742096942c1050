(** PropDate.v — C62: the creation date names the instant that was set (gopdf.go:2342-2344 and 2390-2393 infodate). *)
From Verif Require Import Base StrModel FileProofs PropObj3.
Open Scope Z_scope.

(** ** Model *)
(** The fields of a time.Time: the wall clock and the offset of its zone from UTC in seconds. *)
Record gotime := { tm_y : Z; tm_mo : Z; tm_d : Z; tm_h : Z; tm_mi : Z; tm_s : Z; tm_off : Z }.
(** Go's appendInt: at least [w] digits. *)
Definition appendInt (w : nat) (n : Z) : bytes := if n <? 0 then 45 :: pad_left w (dec (- n)) else pad_left w (dec n).
(** t.Format("20060102150405-07'00'"), gopdf.go:2391.  The chunks the formatter finds in that layout are 2006, 01, 02, 15, 04, 05 and
    -07 (the hours of the zone only); the rest, '00', is copied literally. *)
Definition infodate (t : gotime) : bytes :=
  let zone := Z.quot (tm_off t) 60 in
  appendInt 4 (tm_y t) ++ appendInt 2 (tm_mo t) ++ appendInt 2 (tm_d t) ++ appendInt 2 (tm_h t) ++ appendInt 2 (tm_mi t) ++ appendInt 2 (tm_s t)
  ++ (if zone <? 0 then [45] else [43]) ++ appendInt 2 (Z.quot (Z.abs zone) 60) ++ bs "'00'".

(** ** Specification: PDF dates (ISO 32000-1, 7.9.4): (D:YYYYMMDDHHmmSSOHH'mm'), O one of + - Z *)
Definition num (k : nat) (l : bytes) : option (Z * bytes) :=
  let d := firstn k l in if (Nat.eqb (List.length d) k) && forallb is_digit d then Some (digits_val d, skipn k l) else None.
Definition lit (c : Z) (l : bytes) : option bytes := match l with b :: r => if b =? c then Some r else None | [] => None end.
Notation "'do' p <- a ; b" := (match a with Some p => b | None => None end) (at level 200, p pattern, a at level 100, b at level 200).
(** The wall clock time and the zone's offset in seconds. *)
Definition read_fields (l : bytes) : option gotime :=
  do (y, l) <- num 4 l; do (mo, l) <- num 2 l; do (d, l) <- num 2 l; do (h, l) <- num 2 l; do (mi, l) <- num 2 l; do (s, l) <- num 2 l;
  match l with
  | o :: l =>
      do (oh, l) <- num 2 l; do l <- lit 39 l; do (om, l) <- num 2 l; do l <- lit 39 l;
      match l with
      | [] => if o =? 43 then Some {| tm_y := y; tm_mo := mo; tm_d := d; tm_h := h; tm_mi := mi; tm_s := s; tm_off := oh * 3600 + om * 60 |}
              else if o =? 45 then Some {| tm_y := y; tm_mo := mo; tm_d := d; tm_h := h; tm_mi := mi; tm_s := s; tm_off := - (oh * 3600 + om * 60) |}
              else None
      | _ => None
      end
  | [] => None
  end.
Definition read_date (l : bytes) : option gotime := do l <- lit 68 l; do l <- lit 58 l; read_fields l.
(** A time of the years 0 to 9999, as time.Time gives it. *)
Definition regular (t : gotime) : Prop :=
  0 <= tm_y t <= 9999 /\ 1 <= tm_mo t <= 12 /\ 1 <= tm_d t <= 31 /\ 0 <= tm_h t <= 23 /\ 0 <= tm_mi t <= 59 /\ 0 <= tm_s t <= 59 /\ Z.abs (tm_off t) < 360000.
(** The instant: seconds on any calendar of the wall clock, minus the offset. *)
Definition instant (calendar : Z -> Z -> Z -> Z -> Z -> Z -> Z) (t : gotime) : Z := calendar (tm_y t) (tm_mo t) (tm_d t) (tm_h t) (tm_mi t) (tm_s t) - tm_off t.

Lemma num_append k n r : 0 <= n < 10 ^ Z.of_nat k -> (1 <= k)%nat -> num k (appendInt k n ++ r) = Some (n, r).
Proof.
  intros H K. unfold num, appendInt. replace (n <? 0) with false by lia.
  assert (L : List.length (pad_left k (dec n)) = k) by (apply pad_left_len, dec_len; lia).
  assert (D : forallb is_digit (pad_left k (dec n)) = true) by (apply pad_left_digits, dec_digits; lia).
  assert (V : digits_val (pad_left k (dec n)) = n) by (rewrite pad_left_val, dec_val by lia; reflexivity).
  clear H. generalize dependent (pad_left k (dec n)). intros p <- D V. rewrite firstn_app, Nat.sub_diag, firstn_all, skipn_app, Nat.sub_diag, skipn_all. cbn [firstn skipn app].
  rewrite app_nil_r, Nat.eqb_refl, D, V. reflexivity.
Qed.
(** What a reader makes of the date: the same wall clock, and the offset without its minutes and seconds. *)
Theorem C62_date_read :
  forall t, regular t -> read_date (bs "D:" ++ infodate t)
    = Some {| tm_y := tm_y t; tm_mo := tm_mo t; tm_d := tm_d t; tm_h := tm_h t; tm_mi := tm_mi t; tm_s := tm_s t; tm_off := Z.quot (tm_off t) 3600 * 3600 |}.
Proof.
  intros t (H1 & H2 & H3 & H4 & H5 & H6 & H7). unfold infodate. cbv zeta. match goal with |- read_date (bs "D:" ++ ?l) = _ => change (read_date (bs "D:" ++ l)) with (read_fields l) end. unfold read_fields.
  assert (Q : Z.quot (Z.abs (Z.quot (tm_off t) 60)) 60 = Z.abs (Z.quot (tm_off t) 3600)) by (clear - H7; Z.to_euclidean_division_equations; lia).
  rewrite (num_append 4) by (change (10 ^ Z.of_nat 4) with 10000; lia). rewrite !(num_append 2) by (change (10 ^ Z.of_nat 2) with 100; lia). rewrite Q.
  assert (B : 0 <= Z.abs (Z.quot (tm_off t) 3600) < 100) by (clear - H7; Z.to_euclidean_division_equations; lia).
  destruct (Z.ltb_spec (Z.quot (tm_off t) 60) 0) as [N|N]; cbn [app]; rewrite (num_append 2) by (change (10 ^ Z.of_nat 2) with 100; lia).
  - assert (Z.quot (tm_off t) 3600 <= 0) by (clear - N; Z.to_euclidean_division_equations; lia).
    replace (tm_off t ÷ 3600 * 3600) with (- (Z.abs (tm_off t ÷ 3600) * 3600 + 0 * 60)) by lia. reflexivity.
  - assert (0 <= Z.quot (tm_off t) 3600) by (clear - N; Z.to_euclidean_division_equations; lia).
    replace (tm_off t ÷ 3600 * 3600) with (Z.abs (tm_off t ÷ 3600) * 3600 + 0 * 60) by lia. reflexivity.
Qed.
Print Assumptions C62_date_read.

(** When the zone is a whole number of hours away from UTC, the date names the instant that was set, … *)
Theorem C62_creation_date_partial :
  forall t, regular t -> (3600 | tm_off t) -> exists r, read_date (bs "D:" ++ infodate t) = Some r /\ forall calendar, instant calendar r = instant calendar t.
Proof.
  intros t R [k K]. eexists. split; [apply (C62_date_read t R)|]. intros c. unfold instant. cbn. rewrite K, Z.quot_mul by lia. lia.
Qed.
Print Assumptions C62_creation_date_partial.
(** … and in no other zone: in India, Newfoundland, Nepal, … the date is off by the minutes of the zone. *)
Theorem C62_other_zones_refuted :
  forall t, regular t -> ~ (3600 | tm_off t) -> exists r, read_date (bs "D:" ++ infodate t) = Some r /\ forall calendar, instant calendar r <> instant calendar t.
Proof.
  intros t R K. eexists. split; [apply (C62_date_read t R)|]. intros c. unfold instant. cbn. intros E. apply K. exists (Z.quot (tm_off t) 3600). lia.
Qed.
Print Assumptions C62_other_zones_refuted.
(** The years after 9999 do not fit the form at all. *)
Theorem C62_late_years_refuted :
  exists t, tm_y t = 12026 /\ read_date (bs "D:" ++ infodate t) = None.
Proof. exists {| tm_y := 12026; tm_mo := 1; tm_d := 2; tm_h := 3; tm_mi := 4; tm_s := 5; tm_off := 0 |}. split; reflexivity. Qed.
(** The text has no character that is special in a string, so the trailer carries it unchanged (PropObj3.C60_trailer). *)
Lemma append_plain w n : 0 <= n -> plain_text (appendInt w n).
Proof.
  intros H. unfold appendInt. replace (n <? 0) with false by lia. assert (D : forallb is_digit (pad_left w (dec n)) = true) by (apply pad_left_digits, dec_digits; lia).
  rewrite forallb_forall in D. apply Forall_forall. intros b B. specialize (D b B). unfold is_digit in D. lia.
Qed.
Theorem C62_date_in_trailer : forall t, regular t -> plain_text (infodate t).
Proof.
  intros t (H1 & H2 & H3 & H4 & H5 & H6 & H7). unfold infodate. cbv zeta. unfold plain_text. repeat (apply Forall_app; split); try (apply append_plain; lia).
  - destruct (_ <? 0); repeat constructor; discriminate.
  - repeat constructor; discriminate.
Qed.
Print Assumptions C62_date_in_trailer.
Definition bangkok : gotime := {| tm_y := 2026; tm_mo := 11; tm_d := 18; tm_h := 9; tm_mi := 5; tm_s := 0; tm_off := 25200 |}.
Definition delhi : gotime := {| tm_y := 2026; tm_mo := 11; tm_d := 18; tm_h := 9; tm_mi := 5; tm_s := 0; tm_off := 19800 |}.
Example C62_met : regular bangkok /\ (3600 | tm_off bangkok) /\ infodate bangkok = bs "20261118090500+07'00'" /\ regular delhi /\ ~ (3600 | tm_off delhi) /\ infodate delhi = bs "20261118090500+05'00'".
Proof. unfold regular. cbn. repeat split; try lia; [exists 7; reflexivity|intros [k K]; lia]. Qed.
Print Assumptions C62_late_years_refuted.
