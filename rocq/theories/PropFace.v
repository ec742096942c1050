(** PropFace.v — C79: the written font descriptor carries the measurements of the font file; C80: texts are measured, and
    shown by a reader, with the advance widths of the font file. *)
From Coq Require Import QArith Lqa SpecFloat.
From Verif Require Import Base NumModel TtfModel TtfSpec TtfProofs SubsetModel PropTtf PropSubset ObjModel PdfSyntax PropDesign UnitModel DrawModel FaceModel FaceSpec.
From Verif Require DrawSpec DrawView PropDraw PropObj CursorModel PropText PropWidth PropUnit PropAsk.
Open Scope Z_scope.

Lemma u16in_parsed uk d f tag e o v : parseFont uk d = Some (Some f) -> zlen (bs tag) = 4 -> tfind (t_tables f) (bs tag) = Some e ->
  u16at d (e_offset e + o) = Some v -> u16in d tag o v.
Proof. intros H L F U. exists (e_offset e), (e_length e). split; [eapply parsed_tables; eassumption|exact U]. Qed.

Ltac found := match goal with H : u16at _ ?p = Some _ |- u16at _ ?q = Some _ => replace q with p by lia; exact H end.

Lemma head_all t d q up x0 y0 x1 y1 lf q' : parseHead t d q = POk (up, (x0, y0, x1, y1), lf) q' ->
  exists e a b c g, tfind t tag_head = Some e /\ u16at d (e_offset e + 18) = Some up /\ u16at d (e_offset e + 36) = Some a /\ u16at d (e_offset e + 38) = Some b /\
    u16at d (e_offset e + 40) = Some c /\ u16at d (e_offset e + 42) = Some g /\ x0 = s16 a /\ y0 = s16 b /\ x1 = s16 c /\ y1 = s16 g.
Proof.
  intros H. unfold parseHead in H. apply pbind_ok in H as (u & r & H1 & H). apply seekTag_ok in H1 as (e & F & -> & P).
  exists e. repeat pstep.
  match goal with H : (_, _, _) = (_, _, _) |- _ => injection H as -> -> -> -> -> -> end.
  do 4 eexists. split; [exact F|]. repeat (split; [found|]). repeat split.
Qed.
Lemma hhea_all t d q a de n q' : parseHhea t d q = POk (a, de, n) q' ->
  exists e u v, tfind t tag_hhea = Some e /\ u16at d (e_offset e + 4) = Some u /\ u16at d (e_offset e + 6) = Some v /\ u16at d (e_offset e + 34) = Some n /\ a = s16 u /\ de = s16 v.
Proof.
  intros H. unfold parseHhea in H. apply pbind_ok in H as (u & r & H1 & H). apply seekTag_ok in H1 as (e & F & -> & P).
  exists e. repeat pstep. match goal with H : (_, _, _) = (_, _, _) |- _ => injection H as -> -> -> end.
  do 2 eexists. split; [exact F|]. repeat (split; [found|]). repeat split.
Qed.
Lemma post_all t d q a p th fx q' : parsePost t d q = POk (a, p, th, fx) q' ->
  exists e u v w, tfind t tag_post = Some e /\ u16at d (e_offset e + 4) = Some u /\ u16at d (e_offset e + 8) = Some v /\ u16at d (e_offset e + 10) = Some w /\
    a = s16 u /\ p = s16 v /\ th = s16 w.
Proof.
  intros H. unfold parsePost in H. apply pbind_ok in H as (u & r & H1 & H). apply seekTag_ok in H1 as (e & F & -> & P).
  exists e. repeat pstep. match goal with H : (_, _, _, _) = (_, _, _, _) |- _ => injection H as -> -> -> -> end.
  do 3 eexists. split; [exact F|]. repeat (split; [found|]). repeat split.
Qed.
Lemma os2_all t asc d q o q' : parseOS2 t asc d q = POk o q' ->
  exists e u v, tfind t tag_os2 = Some e /\ u16at d (e_offset e) = Some (o_version o) /\ u16at d (e_offset e + 68) = Some u /\ u16at d (e_offset e + 70) = Some v /\
    o_typoAsc o = s16 u /\ o_typoDesc o = s16 v /\
    u16at d (e_offset e + 74) = Some (o_winAsc o) /\ u16at d (e_offset e + 76) = Some (o_winDesc o) /\
    (if 2 <=? o_version o then exists x c, u16at d (e_offset e + 86) = Some x /\ u16at d (e_offset e + 88) = Some c /\ o_xheight o = s16 x /\ o_cap o = s16 c
     else o_xheight o = 0 /\ o_cap o = asc).
Proof.
  intros H. unfold parseOS2 in H. apply pbind_ok in H as (u & r & H1 & H). apply seekTag_ok in H1 as (e & F & -> & P).
  exists e. repeat pstep.
  all: cbn [o_version o_typoAsc o_typoDesc o_winAsc o_winDesc o_xheight o_cap].
  all: do 2 eexists; (split; [exact F|]); repeat (split; [first [found|reflexivity]|]).
  - match goal with H : (2 <=? _) = true |- _ => rewrite H end. do 2 eexists. repeat (split; [found|]). split; reflexivity.
  - match goal with H : (2 <=? _) = false |- _ => rewrite H end. split; reflexivity.
Qed.

(** What the parser found is what is in the file. *)
Definition measured_by (f : ttf) : measures :=
  let '(x0, y0, x1, y1) := t_bbox f in let '(a, p, th, _) := t_post f in let v2 := 2 <=? o_version (t_os2 f) in
  {| em := t_upem f; xMin := x0; yMin := y0; xMax := x1; yMax := y1; hAscender := t_asc f; hDescender := t_desc f;
     os2Version := o_version (t_os2 f); typoAscender := o_typoAsc (t_os2 f); typoDescender := o_typoDesc (t_os2 f);
     winAscent := o_winAsc (t_os2 f); winDescent := o_winDesc (t_os2 f);
     xHeight := if v2 then Some (o_xheight (t_os2 f)) else None; capHeight := if v2 then Some (o_cap (t_os2 f)) else None;
     italicAngle := a; underlinePosition := p; underlineThickness := th |}.
Lemma parsed_measures uk d f : parseFont uk d = Some (Some f) -> measures_in d (measured_by f).
Proof.
  intros H. pose proof (parse_inv _ _ _ H) as (q0 & _ & (qa & qa' & Hh) & (qb & qb' & Hhh) & _ & _ & _ & _ & _ & (qc & qc' & Ho) & (qd & qd' & Hp) & _).
  unfold measured_by. destruct (t_bbox f) as [[[x0 y0] x1] y1]. destruct (t_post f) as [[[a p] th] fx].
  apply head_all in Hh as (eh & a1 & a2 & a3 & a4 & Fh & U & U1 & U2 & U3 & U4 & -> & -> & -> & ->).
  apply hhea_all in Hhh as (ee & b1 & b2 & Fe & V1 & V2 & _ & E1 & E2).
  apply post_all in Hp as (ep & c1 & c2 & c3 & Fp & W1 & W2 & W3 & -> & -> & ->).
  apply os2_all in Ho as (eo & d1 & d2 & Fo & X0 & X1 & X2 & E3 & E4 & X3 & X4 & X5).
  assert (X0' : u16at d (e_offset eo + 0) = Some (o_version (t_os2 f))) by (rewrite Z.add_0_r; exact X0).
  unfold measures_in. cbn [em xMin yMin xMax yMax hAscender hDescender os2Version typoAscender typoDescender winAscent winDescent xHeight capHeight italicAngle underlinePosition underlineThickness].
  assert (I : forall tag e o v, tfind (t_tables f) (bs tag) = Some e -> zlen (bs tag) = 4 -> u16at d (e_offset e + o) = Some v -> u16in d tag o v).
  { intros tag e o v F L Q. eapply u16in_parsed; eassumption. }
  assert (J : forall tag e o v, tfind (t_tables f) (bs tag) = Some e -> zlen (bs tag) = 4 -> u16at d (e_offset e + o) = Some v -> s16in d tag o (s16 v)).
  { intros tag e o v F L Q. exists v. split; [eapply I; eassumption|reflexivity]. }
  split; [exact (I "head"%string _ _ _ Fh eq_refl U)|].
  split; [exact (J "head"%string _ _ _ Fh eq_refl U1)|]. split; [exact (J "head"%string _ _ _ Fh eq_refl U2)|].
  split; [exact (J "head"%string _ _ _ Fh eq_refl U3)|]. split; [exact (J "head"%string _ _ _ Fh eq_refl U4)|].
  split; [rewrite E1; exact (J "hhea"%string _ _ _ Fe eq_refl V1)|]. split; [rewrite E2; exact (J "hhea"%string _ _ _ Fe eq_refl V2)|].
  split; [exact (I "OS/2"%string _ _ _ Fo eq_refl X0')|]. split; [rewrite E3; exact (J "OS/2"%string _ _ _ Fo eq_refl X1)|]. split; [rewrite E4; exact (J "OS/2"%string _ _ _ Fo eq_refl X2)|].
  split; [exact (I "OS/2"%string _ _ _ Fo eq_refl X3)|]. split; [exact (I "OS/2"%string _ _ _ Fo eq_refl X4)|].
  split.
  - destruct (2 <=? o_version (t_os2 f)); [|split; reflexivity]. destruct X5 as (x & c & Q1 & Q2 & -> & ->).
    exists (s16 x), (s16 c). split; [exact (J "OS/2"%string _ _ _ Fo eq_refl Q1)|]. split; [exact (J "OS/2"%string _ _ _ Fo eq_refl Q2)|]. split; reflexivity.
  - split; [exact (J "post"%string _ _ _ Fp eq_refl W1)|]. split; [exact (J "post"%string _ _ _ Fp eq_refl W2)|exact (J "post"%string _ _ _ Fp eq_refl W3)].
Qed.
Lemma measures_fun d m m' : measures_in d m -> measures_in d m' -> m = m'.
Proof.
  assert (U : forall tag o v v', u16in d tag o v -> u16in d tag o v' -> v = v').
  { intros tag o v v' (t & l & T & A) (t' & l' & T' & A'). destruct (table_at_fun _ _ _ _ _ _ T T') as [-> _]. congruence. }
  assert (S : forall tag o v v', s16in d tag o v -> s16in d tag o v' -> v = v').
  { intros tag o v v' (u & A & ->) (u' & A' & ->). now rewrite (U _ _ _ _ A A'). }
  destruct m as [m1 m2 m3 m4 m5 m6 m7 m8 m9 m10 m11 m12 m13 m14 m15 m16 m17], m' as [n1 n2 n3 n4 n5 n6 n7 n8 n9 n10 n11 n12 n13 n14 n15 n16 n17]. unfold measures_in. cbn [em xMin yMin xMax yMax hAscender hDescender os2Version typoAscender typoDescender winAscent winDescent xHeight capHeight italicAngle underlinePosition underlineThickness].
  intros (A1 & A2 & A3 & A4 & A5 & A6 & A7 & A8 & A9 & A10 & A11 & A12 & A13 & A14 & A15 & A16) (B1 & B2 & B3 & B4 & B5 & B6 & B7 & B8 & B9 & B10 & B11 & B12 & B13 & B14 & B15 & B16).
  pose proof (U _ _ _ _ A8 B8). subst n8.
  assert (m13 = n13 /\ m14 = n14) as [<- <-].
  { destruct (2 <=? m8); [|destruct A13 as [-> ->], B13 as [-> ->]; split; reflexivity].
    destruct A13 as (x & c & P1 & P2 & -> & ->), B13 as (x' & c' & P1' & P2' & -> & ->). now rewrite (S _ _ _ _ P1 P1'), (S _ _ _ _ P2 P2'). }
  rewrite (U _ _ _ _ A1 B1), (U _ _ _ _ A11 B11), (U _ _ _ _ A12 B12),
    (S _ _ _ _ A2 B2), (S _ _ _ _ A3 B3), (S _ _ _ _ A4 B4), (S _ _ _ _ A5 B5), (S _ _ _ _ A6 B6), (S _ _ _ _ A7 B7), (S _ _ _ _ A9 B9), (S _ _ _ _ A10 B10), (S _ _ _ _ A14 B14), (S _ _ _ _ A15 B15), (S _ _ _ _ A16 B16). reflexivity.
Qed.

(** ** C79 *)
(** 0.66 times a 16-bit ascender in float64, truncated: all 65536 values. *)
Definition two_thirds (a : Z) : Z := f64_trunc (SFmul prec64 emax64 (SFdiv prec64 emax64 (f64_ofZ 66) (f64_ofZ 100)) (f64_ofZ a)).
Definition c66 : f64 := S754_finite false 5944751508129055 (-53).
Fixpoint all_from (n : nat) (a : Z) : bool :=
  match n with O => true | S n' => (f64_trunc (SFmul prec64 emax64 c66 (f64_ofZ a)) =? Z.quot (66 * a) 100) && all_from n' (a + 1) end.
Lemma all_from_at n : forall a, all_from n a = true -> forall b, a <= b < a + Z.of_nat n -> f64_trunc (SFmul prec64 emax64 c66 (f64_ofZ b)) = Z.quot (66 * b) 100.
Proof.
  induction n as [|n IH]; intros a H b R; [lia|]. cbn [all_from] in H. apply andb_prop in H as [H1 H2].
  destruct (Z.eq_dec b a) as [->|N]; [apply Z.eqb_eq, H1|]. apply (IH _ H2). lia.
Qed.
Lemma two_thirds_ok a : - 32768 <= a < 32768 -> two_thirds a = Z.quot (66 * a) 100.
Proof.
  intros R. unfold two_thirds. replace (SFdiv prec64 emax64 (f64_ofZ 66) (f64_ofZ 100)) with c66 by (vm_compute; reflexivity).
  assert (F : all_from (Z.to_nat 65536) (-32768) = true) by (vm_cast_no_check (eq_refl true)).
  apply (all_from_at _ _ F). rewrite Z2Nat.id; lia.
Qed.

Lemma s16_range u : 0 <= u < 65536 -> - 32768 <= s16 u < 32768.
Proof. intros R. unfold s16. destruct (Z.ltb_spec u 32768); lia. Qed.

(** For every font file the parser accepts (with a non-zero em) and every family name: the font descriptor written for it
    reads as a dictionary with the measurements found in the file, in thousandths of the em, rounded to nearest. *)
Theorem C79_descriptor :
  forall uk d f family file m, isbytes d -> parseFont uk d = Some (Some f) -> measures_in d m -> em m <> 0 -> PropObj.nice_family family ->
    exists asc cap desc x0 y0 x1 y1 xh,
      in_thousandths (em m) (ascent m) asc /\ in_thousandths (em m) (cap_height m) cap /\ in_thousandths (em m) (descent m) desc /\
      in_thousandths (em m) (xMin m) x0 /\ in_thousandths (em m) (yMin m) y0 /\ in_thousandths (em m) (xMax m) x1 /\ in_thousandths (em m) (yMax m) y1 /\
      in_thousandths (em m) (x_height m) xh /\
      reads_as (descriptor_body family (metrics_of f) file)
        (ODict [(bs "Type", N_ "FontDescriptor"); (bs "Ascent", OInt asc); (bs "CapHeight", OInt cap); (bs "Descent", OInt desc);
                (bs "Flags", OInt 32); (bs "FontBBox", OArr [OInt x0; OInt y0; OInt x1; OInt y1]);
                (bs "FontFile2", ref (file + 1)); (bs "FontName", OName (fontName family)); (bs "ItalicAngle", OInt (italicAngle m));
                (bs "StemV", OInt 0); (bs "XHeight", OInt xh)]).
Proof.
  intros uk d f family file m B H M E NF. pose proof (parsed_measures uk d f H) as P. rewrite (measures_fun d m _ M P) in *. clear m M.
  assert (RU : forall tag o v, u16in d tag o v -> 0 <= v < 65536) by (intros tag o v (t & l & _ & Q); eapply u16_range; eassumption).
  assert (RS : forall tag o v, s16in d tag o v -> - 32768 <= v < 32768) by (intros tag o v (u & Q & ->); apply s16_range; eapply RU; exact Q).
  destruct P as (A1 & A2 & A3 & A4 & A5 & A6 & A7 & A8 & A9 & A10 & A11 & A12 & A13 & _).
  apply RU in A1, A8, A11, A12. apply RS in A2, A3, A4, A5, A6, A7, A9, A10.
  assert (XC : - 32768 <= cap_height (measured_by f) < 65536 /\ - 32768 <= x_height (measured_by f) < 65536 /\
               xHeightOf f = x_height (measured_by f) /\ (o_cap (t_os2 f) = cap_height (measured_by f))).
  { pose proof (parse_inv _ _ _ H) as (_ & _ & _ & _ & _ & _ & _ & _ & _ & (qc & qc' & Ho) & _). apply os2_all in Ho as (eo & d1 & d2 & _ & _ & _ & _ & _ & _ & _ & _ & X5).
    assert (TT : - 32768 <= Z.quot (66 * hAscender (measured_by f)) 100 < 65536).
    { clear - A6. pose proof (Z.quot_rem' (66 * hAscender (measured_by f)) 100). pose proof (Z.rem_bound_abs (66 * hAscender (measured_by f)) 100 ltac:(lia)). lia. }
    assert (HA : hAscender (measured_by f) = t_asc f) by (unfold measured_by; destruct (t_bbox f) as [[[? ?] ?] ?]; destruct (t_post f) as [[[? ?] ?] ?]; reflexivity).
    assert (HX : xHeight (measured_by f) = if 2 <=? o_version (t_os2 f) then Some (o_xheight (t_os2 f)) else None) by (unfold measured_by; destruct (t_bbox f) as [[[? ?] ?] ?]; destruct (t_post f) as [[[? ?] ?] ?]; reflexivity).
    assert (HC : capHeight (measured_by f) = if 2 <=? o_version (t_os2 f) then Some (o_cap (t_os2 f)) else None) by (unfold measured_by; destruct (t_bbox f) as [[[? ?] ?] ?]; destruct (t_post f) as [[[? ?] ?] ?]; reflexivity).
    assert (HV : os2Version (measured_by f) = o_version (t_os2 f)) by (unfold measured_by; destruct (t_bbox f) as [[[? ?] ?] ?]; destruct (t_post f) as [[[? ?] ?] ?]; reflexivity).
    rewrite HV in A13. unfold cap_height, x_height, xHeightOf. rewrite HX, HC in *. rewrite HA in *. fold (two_thirds (t_asc f)). rewrite (two_thirds_ok _ A6).
    destruct (2 <=? o_version (t_os2 f)); cbn [andb].
    - destruct A13 as (x & c & P1 & P2 & E1 & E2). apply RS in P1, P2. injection E1 as <-. injection E2 as <-.
      destruct (Z.eqb_spec (o_xheight (t_os2 f)) 0) as [->|NZ]; cbn [negb].
      + repeat split; try reflexivity; lia.
      + destruct (o_xheight (t_os2 f)); [contradiction| |]; repeat split; try reflexivity; lia.
    - destruct X5 as [_ ->]. repeat split; try reflexivity; lia. }
  destruct XC as (RC & RX & EX & EC).
  assert (ME : ascenderOf f = ascent (measured_by f) /\ descenderOf f = descent (measured_by f) /\
     metrics_of f = {| mt_asc := ascent (measured_by f); mt_cap := cap_height (measured_by f); mt_desc := descent (measured_by f); mt_flag := 32; mt_xmin := xMin (measured_by f);
       mt_ymin := yMin (measured_by f); mt_xmax := xMax (measured_by f); mt_ymax := yMax (measured_by f); mt_angle := italicAngle (measured_by f);
       mt_xheight := x_height (measured_by f); mt_upem := em (measured_by f) |}).
  { assert (D : descenderOf f = descent (measured_by f)).
    { unfold descenderOf, descent, measured_by. destruct (t_bbox f) as [[[? ?] ?] ?]; destruct (t_post f) as [[[? ?] ?] ?]. cbn [typoDescender hDescender winDescent].
      destruct (_ =? 0); [reflexivity|]. destruct (_ <? 0); [|reflexivity]. lia. }
    assert (A : ascenderOf f = ascent (measured_by f)).
    { unfold ascenderOf, ascent, measured_by. destruct (t_bbox f) as [[[? ?] ?] ?]; destruct (t_post f) as [[[? ?] ?] ?]. reflexivity. }
    split; [exact A|]. split; [exact D|]. unfold metrics_of. rewrite A, D, EX, EC. unfold flagOf, measured_by.
    destruct (t_bbox f) as [[[? ?] ?] ?]; destruct (t_post f) as [[[? ?] ?] ?]. reflexivity. }
  destruct ME as (_ & _ & ME).
  assert (RA : - 32768 <= ascent (measured_by f) < 65536) by (unfold ascent; destruct (_ =? 0); lia).
  pose proof (PropObj.C60_descriptor family (metrics_of f) file NF) as R. cbv zeta in R. rewrite ME in *. cbn [mt_asc mt_cap mt_desc mt_flag mt_xmin mt_ymin mt_xmax mt_ymax mt_angle mt_xheight mt_upem] in R.
  assert (RD : - 65536 < descent (measured_by f) < 65536) by (unfold descent; destruct (_ =? 0); [lia|destruct (_ <? 0); lia]).
  assert (RE : 0 < em (measured_by f) < 2 ^ 16) by lia.
  assert (N : forall v, - 2 ^ 16 < v < 2 ^ 16 -> in_thousandths (em (measured_by f)) v (designUnitsToPdf v (em (measured_by f)))).
  { intros v RV. exact (C60_design_units v _ RV RE). }
  do 8 eexists. split; [apply N; lia|]. split; [apply N; lia|]. split; [apply N; lia|]. split; [apply N; lia|]. split; [apply N; lia|].
  split; [apply N; lia|]. split; [apply N; lia|]. split; [apply N; lia|]. exact R.
Qed.

(** ** C80 *)
(** The kerning the file gives a pair of glyphs: the last matching pair of its only format-0 subtable, else 0. *)
Definition kern_in (d : bytes) (kern n l r v : Z) : Prop :=
  (exists i, 0 <= i < n /\ kern_pair d kern i l r v /\ forall j v', i < j < n -> ~ kern_pair d kern j l r v') \/
  (v = 0 /\ forall i v', 0 <= i < n -> ~ kern_pair d kern i l r v').
(** [pairs R l ks]: each two neighbours of [l] are related to one element of [ks]. *)
Inductive pairs (R : Z -> Z -> Z -> Prop) : list Z -> list Z -> Prop :=
| pairs_nil : pairs R [] []
| pairs_one a : pairs R [a] []
| pairs_more a b l k ks : R a b k -> pairs R (b :: l) ks -> pairs R (a :: b :: l) (k :: ks).
Definition zsum (l : list Z) : Z := fold_right Z.add 0 l.


Lemma advance_fun d g a a' : hmtx_advance d g a -> hmtx_advance d g a' -> a = a'.
Proof.
  intros (h & l & x & l2 & n & T1 & T2 & U1 & U2) (h' & l' & x' & l2' & n' & T1' & T2' & U1' & U2').
  destruct (table_at_fun _ _ _ _ _ _ T1 T1') as [-> _]. destruct (table_at_fun _ _ _ _ _ _ T2 T2') as [-> _]. rewrite U1 in U1'. injection U1' as <-. congruence.
Qed.
Lemma em_of uk d f u : parseFont uk d = Some (Some f) -> units_per_em d u -> t_upem f = u.
Proof.
  intros H (h & l & T & U). pose proof (parse_inv _ _ _ H) as (q0 & _ & (qa & qa' & Hh) & _). apply head_ok in Hh as (e & F & X). cbn [fst] in X.
  destruct (table_at_fun _ _ _ _ _ _ T (parsed_tables _ _ _ _ _ H (eq_refl : zlen tag_head = 4) F)) as [-> _]. congruence.
Qed.
(** A character the file gives a glyph is found with that glyph. *)
Lemma f12_fun d b r g h : f12_glyph d b r g -> f12_glyph d b r h -> g = h.
Proof.
  intros (k & i & st & e & g0 & N & I & G & C & -> & F) (n' & i' & s' & e' & g0' & N' & I' & G' & C' & -> & F').
  assert (i = i'). { destruct (Z.lt_total i i') as [X|[X|X]]; [|exact X|]; exfalso; [exact (F' i st e g0 ltac:(lia) G C)|exact (F i' s' e' g0' ltac:(lia) G' C')]. }
  subst i'. destruct G as (K1 & K2 & K3), G' as (K1' & K2' & K3'). assert (st = s') by congruence. assert (g0 = g0') by congruence. subst. reflexivity.
Qed.
Lemma has_found uk d f base n r g : isbytes d -> parseFont uk d = Some (Some f) -> subtable31 d base -> segments d base n ->
  (forall seg ro, 0 <= seg < n -> f4_ro d base n seg = Some ro -> ro mod 2 = 0) -> has_glyph d base n r g -> charToGlyph f r <> LCrash -> charToGlyph f r = Found g.
Proof.
  intros B H S1 S2 EV [[RR G]|(RR & _ & b & S3 & G)] NC.
  - pose proof (C25_bmp_lookup_follows_cmap uk d f base n r B H S1 S2 EV RR) as L. destruct (charToGlyph f r) as [g'| |].
    + now rewrite (PropAsk.f4_fun _ _ _ _ _ _ G L).
    + contradiction L. eapply PropAsk.f4_cov. exact G.
    + contradiction.
  - pose proof (C25_supplementary_lookup_follows_cmap uk d f b r B H S3 RR) as L. destruct (charToGlyph f r) as [g'| |].
    + f_equal. eapply f12_fun; eassumption.
    + destruct G as (k & i & st & e & g0 & N & I & G & C & _). contradiction L. exists k, i, st, e, g0. auto.
    + contradiction.
Qed.
Lemma has_fun uk d f base n r g h : isbytes d -> parseFont uk d = Some (Some f) -> has_glyph d base n r g -> has_glyph d base n r h -> g = h.
Proof.
  intros B H [[RR G]|(RR & _ & b & S3 & G)] [[RR' G']|(RR' & _ & b' & S3' & G')]; try lia; [eapply PropAsk.f4_fun; eassumption|].
  pose proof (C25_supplementary_lookup_follows_cmap uk d f b r B H S3 RR) as L. pose proof (C25_supplementary_lookup_follows_cmap uk d f b' r B H S3' RR) as L'.
  destruct (charToGlyph f r) as [k| |]; [|destruct G as (k & i & st & e & g0 & N & I & G & C & _); contradiction L; exists k, i, st, e, g0; auto|contradiction].
  rewrite (f12_fun _ _ _ _ _ G L). symmetry. eapply f12_fun; eassumption.
Qed.
Lemma glyph_range d base n r g : has_glyph d base n r g -> 0 <= g < 65536.
Proof.
  intros [[_ (seg & st & dl & ro & _ & _ & _ & _ & _ & G)]|(_ & G & _)]; [|exact G]. destruct G as [[_ ->]|[_ (v & _ & [[_ ->]|[_ ->]])]]; try lia; apply Z.mod_pos_bound; lia.
Qed.
(** A text registered with the font whose characters the font has: AddChars keeps it, and its glyphs are those of the file. *)
Lemma registered_text uk d f base n subst before drawn m txt gs :
  isbytes d -> parseFont uk d = Some (Some f) -> subtable31 d base -> segments d base n ->
  (forall seg ro, 0 <= seg < n -> f4_ro d base n seg = Some ro -> ro mod 2 = 0) ->
  addTexts (charToGlyph f) subst [] before = Some (drawn, m) -> In txt before ->
  Forall2 (has_glyph d base n) txt gs ->
  Forall2 (fun r g => val m r = Some g) txt gs /\ addChars (charToGlyph f) subst m txt = Some (txt, m).
Proof.
  intros B H S1 S2 EV AT I F. destruct (addTexts_prov _ _ _ _ _ _ (prov_nil (charToGlyph f) subst) AT) as (PM & _ & FD & FA).
  assert (X : exists o, Forall2 (drawn_as (charToGlyph f) subst) txt o /\ Forall (fun c => In c (map fst m)) o).
  { clear - FD FA I. revert FA. induction FD as [|t o ts os D FD IH]; intros FA; [contradiction|]. inversion FA; subst.
    destruct I as [->|I]; [exists o; split; assumption|]. now apply IH. }
  destruct X as (o & D & R).
  assert (V : Forall2 (fun r g => val m r = Some g) txt gs).
  { clear - B H S1 S2 EV F D R PM. revert o D R. induction F as [|r g txt gs G F IH]; intros o D R; [constructor|].
    inversion D as [|? c ? o' D1 D2]; subst. inversion R; subst. constructor; [|eapply IH; eassumption].
    assert (E : charToGlyph f r = Found g) by (apply (has_found uk d f base n r g B H S1 S2 EV G); intros X; unfold drawn_as in D1; rewrite X in D1; exact D1). unfold drawn_as in D1. rewrite E in D1. subst c.
    destruct PM as [ND PM]. match goal with X : In r (map fst m) |- _ => pose proof X as Y0 end. apply in_map_iff in Y0 as ([k g'] & K & X). cbn [fst] in K. subst k.
    apply val_in; [exact ND|]. destruct (PM _ _ X) as [Y|[Y _]]; rewrite E in Y; [injection Y as ->; exact X|discriminate Y]. }
  split; [exact V|]. clear - V. induction V as [|r g txt gs V1 V IH]; [reflexivity|]. cbn [addChars]. cbv zeta.
  assert (K : keyExists m r = true).
  { unfold val in V1. unfold keyExists. destruct (find _ (rev m)) as [[a b]|] eqn:E; [|discriminate]. apply find_some in E as [E1 E2].
    apply existsb_exists. exists (a, b). split; [now apply in_rev|exact E2]. }
  rewrite K, IH. reflexivity.
Qed.
Lemma face_upem f uk subst m : fv_upem (face f uk subst m) = t_upem f.
Proof. unfold face. destruct (t_post f) as [[[? ?] ?] ?]. reflexivity. Qed.
Lemma face_ci f uk subst m r : fv_ci (face f uk subst m) r = val m r.
Proof. unfold face. destruct (t_post f) as [[[? ?] ?] ?]. reflexivity. Qed.
Lemma face_cw f uk subst m r : fv_cw (face f uk subst m) r = match val m r with Some g => glyphWidth f g | None => None end.
Proof. unfold face. destruct (t_post f) as [[[? ?] ?] ?]. reflexivity. Qed.
Lemma face_kern f uk subst m : fv_useKern (face f uk subst m) = uk.
Proof. unfold face. destruct (t_post f) as [[[? ?] ?] ?]. reflexivity. Qed.
Lemma face_pair f uk subst m a b l r : fv_pair (face f uk subst m) a b l r = match kernValue uk f l r with Some v => v | None => 0 end.
Proof. unfold face. destruct (t_post f) as [[[? ?] ?] ?]. reflexivity. Qed.
Lemma face_add f uk subst m t : fv_add (face f uk subst m) t = match addChars (charToGlyph f) subst m t with Some (out, _) => out | None => t end.
Proof. unfold face. destruct (t_post f) as [[[? ?] ?] ?]. reflexivity. Qed.
Lemma face_typo f uk subst m : fv_tasc (face f uk subst m) = o_typoAsc (t_os2 f) /\ fv_tdesc (face f uk subst m) = o_typoDesc (t_os2 f).
Proof. unfold face. destruct (t_post f) as [[[? ?] ?] ?]. split; reflexivity. Qed.
Lemma face_under f uk subst m : fv_upos (face f uk subst m) = snd (fst (fst (t_post f))) /\ fv_uthick (face f uk subst m) = snd (fst (t_post f)).
Proof. unfold face. destruct (t_post f) as [[[? ?] ?] ?]. split; reflexivity. Qed.

Section Sum.
  Variables (f : ttf) (uk : bool) (subst : Z -> Z) (m : charmap) (size cs : Q) (K : Z -> Z -> Z -> Prop).
  Hypothesis C0 : cs == 0.
  Hypothesis UP : 0 < t_upem f.
  Hypothesis KV : forall l r k, K l r k -> (if uk then match kernValue uk f l r with Some v => v | None => 0 end else 0) = k.
  Notation F := (face f uk subst m).
  Lemma no_spacing : ttf2pdf (ntrunc Qn (nmul Qn (ndiv Qn (nofZ Qn (fv_upem F)) size) cs)) (fv_upem F) = 0.
  Proof. exact (PropWidth.spacing_zero (fv_upem F) size cs C0). Qed.
  Definition sum (ws ks : list Z) : Z := zsum ws + zsum (map (fun k => Z.quot (1000 * k) (t_upem f)) ks).
  Lemma sum_next txt : forall lr lg gs ws ks, Forall2 (fun r g => val m r = Some g) txt gs -> Forall2 (fun g w => glyphWidth f g = Some w) gs ws ->
    pairs K (lg :: gs) ks -> sumWidth Qn F size cs false lr lg txt = Some (sum ws ks).
  Proof.
    induction txt as [|r txt IH]; intros lr lg gs ws ks V W P.
    - inversion V; subst. inversion W; subst. inversion P; subst. reflexivity.
    - inversion V as [|? g ? gs' V1 V2]; subst. inversion W as [|? w ? ws' W1 W2]; subst. inversion P as [| |? ? ? k ks' P1 P2]; subst.
      cbn [sumWidth negb]. rewrite face_ci, V1. cbv zeta. rewrite face_cw, V1, W1, no_spacing. rewrite face_kern, face_pair.
      rewrite (IH r g gs' ws' ks' V2 W2 P2). f_equal. unfold sum. cbn [zsum fold_right map]. fold (zsum ws'). fold (zsum (map (fun k0 => Z.quot (1000 * k0) (t_upem f)) ks')).
      specialize (KV _ _ _ P1). rewrite face_upem. destruct uk; cbn [andb].
      + rewrite KV. rewrite PropWidth.ttf2pdf_quot by exact UP. lia.
      + subst k. change (1000 * 0) with 0. rewrite Z.quot_0_l by lia. lia.
  Qed.
  Lemma sum_all txt gs ws ks : Forall2 (fun r g => val m r = Some g) txt gs -> Forall2 (fun g w => glyphWidth f g = Some w) gs ws ->
    pairs K gs ks -> sumWidth Qn F size cs true 0 0 txt = Some (sum ws ks).
  Proof.
    intros V W P. destruct txt as [|r txt]; [inversion V; subst; inversion W; subst; inversion P; subst; reflexivity|].
    inversion V as [|? g ? gs' V1 V2]; subst. inversion W as [|? w ? ws' W1 W2]; subst.
    cbn [sumWidth negb]. rewrite face_ci, V1. cbv zeta. rewrite face_cw, V1, W1, no_spacing. cbn [andb].
    rewrite (sum_next txt r g gs' ws' ks V2 W2 P). f_equal. unfold sum. cbn [zsum fold_right]. fold (zsum ws'). lia.
  Qed.
End Sum.

(** Measuring a text all of whose characters the font has: the sum of the advance widths that the font file gives them
    (hmtx through cmap), each in thousandths of the em rounded down, and, with kerning, of the file's kerning values for
    the neighbouring pairs, rounded towards zero; times the font size over 1000.  The font may have been used for any
    texts before. *)
Theorem C80_text_width :
  forall uk d f base n kern nk subst before drawn m (s : ds Qn) fn txt gs advs ks u nm,
    isbytes d -> parseFont uk d = Some (Some f) -> units_per_em d u -> 0 < u -> u16in d "hhea" 34 nm -> 0 < nm ->
    subtable31 d base -> segments d base n -> (forall seg ro, 0 <= seg < n -> f4_ro d base n seg = Some ro -> ro mod 2 = 0) ->
    (uk = true -> single_kern d kern nk) ->
    addTexts (charToGlyph f) subst [] before = Some (drawn, m) -> In txt before ->
    s_font Qn s = Some (fn, face f uk subst m) -> (s_cs Qn s == 0)%Q ->
    Forall2 (has_glyph d base n) txt gs -> Forall2 (hmtx_advance d) gs advs ->
    pairs (if uk then kern_in d kern nk else fun _ _ k => k = 0) gs ks ->
    exists v, CursorModel.measureTextWidth Qn s txt = Some v /\
      (unitsToPoints Qn (s_cfg Qn s) v ==
       inject_Z (zsum (map (fun a => a * 1000 / u) advs) + zsum (map (fun k => Z.quot (1000 * k) u) ks))%Z * ((s_size Qn s : Q) / 1000))%Q.
Proof.
  intros uk d f base n kern nk subst before drawn m s fn txt gs advs ks u nm B H HU U HN N0 S1 S2 EV SK AT I SF CS FG FA PK.
  destruct (registered_text uk d f base n subst before drawn m txt gs B H S1 S2 EV AT I FG) as [V AC].
  pose proof (em_of _ _ _ _ H HU) as EU.
  assert (NM : t_nHM f = nm).
  { pose proof (parse_inv _ _ _ H) as (q0 & _ & _ & (qb & qb' & Hhh) & _). apply hhea_ok in Hhh as (e & F & X). cbn [snd] in X.
    destruct HN as (t & l & T & Y). destruct (table_at_fun _ _ _ _ _ _ T (parsed_tables _ _ _ _ _ H (eq_refl : zlen tag_hhea = 4) F)) as [-> _]. congruence. }
  assert (W : Forall2 (fun g w => glyphWidth f g = Some w) gs (map (fun a => a * 1000 / u) advs)).
  { assert (GP : Forall (fun g => 0 <= g) gs).
    { clear - FG. induction FG as [|r g l l' G FG IH]; constructor; [apply (glyph_range _ _ _ _ _ G)|exact IH]. }
    clear - FA GP B H HU U N0 NM. induction FA as [|g a gs advs A FA IH]; [constructor|]. inversion GP; subst. cbn [map]. constructor; [|now apply IH].
    destruct (C27_width_total uk d f g u B H ltac:(assumption) HU ltac:(lia) N0) as (w & E). rewrite E. f_equal.
    destruct (C27_width_from_hmtx uk d f g w u B H ltac:(assumption) HU E) as (a' & A' & ->). now rewrite (advance_fun _ _ _ _ A A'). }
  assert (KV : forall l r k, (if uk then kern_in d kern nk else fun _ _ k => k = 0) l r k -> (if uk then match kernValue uk f l r with Some v => v | None => 0 end else 0) = k).
  { intros l r k Kk. destruct uk; [|now symmetry]. pose proof (C49_single_subtable_partial d f kern nk l r B H (SK eq_refl)) as Q.
    destruct (kernValue true f l r) as [v|].
    - destruct Q as (i & Ri & P & L). destruct Kk as [(i' & Ri' & P' & L')|[_ No]]; [|exfalso; exact (No _ _ Ri P)].
      assert (i = i'). { destruct (Z.lt_total i i') as [X|[X|X]]; [|exact X|]; exfalso; [exact (L i' k ltac:(lia) P')|exact (L' i v ltac:(lia) P)]. } subst i'.
      destruct P as (u1 & _ & _ & X1 & ->), P' as (u2 & _ & _ & X2 & ->). congruence.
    - destruct Kk as [(i' & Ri' & P' & L')|[-> _]]; [exfalso; exact (Q _ _ Ri' P')|reflexivity]. }
  unfold CursorModel.measureTextWidth. rewrite SF. rewrite face_add, AC. unfold createContent. rewrite face_upem, EU.
  destruct (Z.eqb_spec u 0) as [E0|_]; [lia|].
  rewrite (sum_all f uk subst m (s_size Qn s) (s_cs Qn s) _ CS ltac:(lia) KV txt gs _ ks V W PK).
  eexists. split; [reflexivity|]. rewrite (proj2 (PropUnit.C19_round_trip (s_cfg Qn s) _)). unfold sum. rewrite EU.
  cbn [nmul ndiv nofZ Qn]. change (inject_Z 1000) with 1000%Q. reflexivity.
Qed.

(** *** The widths in the written file, and what the viewer shows *)
(** A font of the document: the file, as used so far, and the CIDFont object written for it. *)
Record fontfile := {
  ff_bytes : bytes; ff_kern : bool; ff_ttf : ttf;                       (* AddTTFFontWithOption: the file, UseKerning *)
  ff_base : Z; ff_segs : Z; ff_em : Z; ff_hm : Z; ff_kernat : Z; ff_pairs : Z;   (* where things are in the file *)
  ff_subst : Z -> Z; ff_texts : list (list Z); ff_drawn : list (list Z); ff_map : charmap;   (* the texts drawn or measured *)
  ff_family : bytes; ff_desc : Z; ff_ws : list (Z * Z); ff_W : list pobj }.
Definition fontfile_ok (x : fontfile) : Prop :=
  let d := ff_bytes x in
  isbytes d /\ parseFont (ff_kern x) d = Some (Some (ff_ttf x)) /\ units_per_em d (ff_em x) /\ 0 < ff_em x /\ u16in d "hhea" 34 (ff_hm x) /\ 0 < ff_hm x /\
  subtable31 d (ff_base x) /\ segments d (ff_base x) (ff_segs x) /\
  (forall seg ro, 0 <= seg < ff_segs x -> f4_ro d (ff_base x) (ff_segs x) seg = Some ro -> ro mod 2 = 0) /\
  (ff_kern x = true -> single_kern d (ff_kernat x) (ff_pairs x)) /\
  addTexts (charToGlyph (ff_ttf x)) (ff_subst x) [] (ff_texts x) = Some (ff_drawn x, ff_map x) /\
  wArray (ff_ttf x) (ff_map x) = map (fun e => (fst e, Some (snd e))) (ff_ws x) /\ PropObj.nice_family (ff_family x) /\
  exists l, reads_as (cid_font_body (ff_family x) (ff_desc x) (ff_ws x)) (ODict l) /\ entry "W" l = [OArr (ff_W x)].
(** The characters of the text, in the file: glyphs, advance widths, kerning. *)
Definition glyph_in (x : fontfile) (r g : Z) : Prop := has_glyph (ff_bytes x) (ff_base x) (ff_segs x) r g.
Definition known (x : fontfile) (txt : list Z) : Prop := In txt (ff_texts x) /\ Forall (fun r => exists g, glyph_in x r g) txt.
Definition file_width (x : fontfile) (txt : list Z) (w : Z) : Prop :=
  exists gs advs ks, Forall2 (glyph_in x) txt gs /\ Forall2 (hmtx_advance (ff_bytes x)) gs advs /\
    pairs (if ff_kern x then kern_in (ff_bytes x) (ff_kernat x) (ff_pairs x) else fun _ _ k => k = 0) gs ks /\
    w = zsum (map (fun a => a * 1000 / ff_em x) advs) + zsum (map (fun k => Z.quot (1000 * k) (ff_em x)) ks).
Definition face_of (x : fontfile) : fontv := face (ff_ttf x) (ff_kern x) (ff_subst x) (ff_map x).
(** The widths the viewer finds in the CIDFont (ISO 32000-1, 9.7.4.3; the default width DW is 1000). *)
Definition viewer_width (x : fontfile) (g : Z) : Z := match widths_of (ff_W x) g with Some w => w | None => 1000 end.

Lemma kern_reads uk d f kern nk : isbytes d -> parseFont uk d = Some (Some f) -> (uk = true -> single_kern d kern nk) ->
  forall l r k, (if uk then kern_in d kern nk else fun _ _ k => k = 0) l r k -> (if uk then match kernValue uk f l r with Some v => v | None => 0 end else 0) = k.
Proof.
  intros B H SK l r k Kk. destruct uk; [|now symmetry]. pose proof (C49_single_subtable_partial d f kern nk l r B H (SK eq_refl)) as Q.
  destruct (kernValue true f l r) as [v|].
  - destruct Q as (i & Ri & P & L). destruct Kk as [(i' & Ri' & P' & L')|[_ No]]; [|exfalso; exact (No _ _ Ri P)].
    assert (i = i'). { destruct (Z.lt_total i i') as [X|[X|X]]; [|exact X|]; exfalso; [exact (L i' k ltac:(lia) P')|exact (L' i v ltac:(lia) P)]. } subst i'.
    destruct P as (u1 & _ & _ & X1 & ->), P' as (u2 & _ & _ & X2 & ->). congruence.
  - destruct Kk as [(i' & Ri' & P' & L')|[-> _]]; [exfalso; exact (Q _ _ Ri' P')|reflexivity].
Qed.
Lemma width_reads uk d f u nm g a : isbytes d -> parseFont uk d = Some (Some f) -> units_per_em d u -> 0 < u -> u16in d "hhea" 34 nm -> 0 < nm -> 0 <= g ->
  hmtx_advance d g a -> glyphWidth f g = Some (a * 1000 / u).
Proof.
  intros B H HU U HN N0 GP A.
  assert (NM : t_nHM f = nm).
  { pose proof (parse_inv _ _ _ H) as (q0 & _ & _ & (qb & qb' & Hhh) & _). apply hhea_ok in Hhh as (e & F & X). cbn [snd] in X.
    destruct HN as (t & l & T & Y). destruct (table_at_fun _ _ _ _ _ _ T (parsed_tables _ _ _ _ _ H (eq_refl : zlen tag_hhea = 4) F)) as [-> _]. congruence. }
  destruct (C27_width_total uk d f g u B H GP HU ltac:(lia) ltac:(lia)) as (w & E). rewrite E. f_equal.
  destruct (C27_width_from_hmtx uk d f g w u B H GP HU E) as (a' & A' & ->). now rewrite (advance_fun _ _ _ _ A A').
Qed.
Lemma widths_of_list ws g : forall w, In (g, w) ws -> (forall w', In (g, w') ws -> w' = w) ->
  widths_of (flat_map (fun e => [OInt (fst e); OArr [OInt (snd e)]]) ws) g = Some w.
Proof.
  induction ws as [|[c v] ws IH]; intros w I U; [contradiction|]. cbn [flat_map app fst snd widths_of].
  destruct (Z.leb_spec c g) as [L|L].
  - destruct (Z.eq_dec c g) as [->|N].
    + rewrite Z.sub_diag. cbn. f_equal. apply U. now left.
    + replace (Z.to_nat (g - c)) with (S (Z.to_nat (g - c - 1))) by lia. cbn [nth_error].
      assert (E : nth_error (@nil pobj) (Z.to_nat (g - c - 1)) = None) by (destruct (Z.to_nat (g - c - 1)); reflexivity). rewrite E.
      destruct I as [I|I]; [congruence|]. apply IH; [exact I|]. intros w' I'. apply U. now right.
  - destruct I as [I|I]; [injection I as -> ->; lia|]. apply IH; [exact I|]. intros w' I'. apply U. now right.
Qed.
Lemma W_is x : fontfile_ok x -> ff_W x = flat_map (fun e => [OInt (fst e); OArr [OInt (snd e)]]) (ff_ws x).
Proof.
  intros (_ & _ & _ & _ & _ & _ & _ & _ & _ & _ & _ & _ & NF & l & (rest & R & _) & E).
  destruct (PropObj.C60_cidfont (ff_family x) (ff_desc x) (ff_ws x) NF) as (rest' & R' & _). rewrite R in R'. injection R' as R' _. rewrite R' in E.
  cbn in E. injection E as E. now symmetry.
Qed.
Lemma known_map x txt r g : fontfile_ok x -> known x txt -> In r txt -> glyph_in x r g -> val (ff_map x) r = Some g.
Proof.
  intros OK [I K] IR G. destruct OK as (B & H & HU & U & HN & N0 & S1 & S2 & EV & SK & AT & _).
  assert (X : exists gs, Forall2 (has_glyph (ff_bytes x) (ff_base x) (ff_segs x)) txt gs).
  { clear - K. induction K as [|r l [g G] K [gs IH]]; [exists []; constructor|]. exists (g :: gs). constructor; assumption. }
  destruct X as [gs X]. destruct (registered_text _ _ _ _ _ _ _ _ _ _ _ B H S1 S2 EV AT I X) as [V _].
  clear - V X IR G B H S1 S2 EV. induction X as [|r' g' l l' Y X IH]; [contradiction|]. inversion V; subst. destruct IR as [->|IR]; [|now apply IH].
  rewrite (has_fun _ _ _ _ _ _ _ _ B H G Y). assumption.
Qed.
Lemma viewer_reads x txt r g a : fontfile_ok x -> known x txt -> In r txt -> glyph_in x r g -> hmtx_advance (ff_bytes x) g a ->
  viewer_width x g = a * 1000 / ff_em x /\ fv_ci (face_of x) r = Some g /\ fv_cw (face_of x) r = Some (a * 1000 / ff_em x).
Proof.
  intros OK K IR G A. pose proof (known_map x txt r g OK K IR G) as V. pose proof (W_is x OK) as WX.
  destruct OK as (B & H & HU & U & HN & N0 & S1 & S2 & EV & SK & AT & WA & _).
  pose proof (width_reads _ _ _ _ _ _ _ B H HU U HN N0 (proj1 (glyph_range _ _ _ _ _ G)) A) as GW.
  unfold face_of. rewrite face_ci, face_cw, V, GW. split; [|split; reflexivity].
  unfold viewer_width. rewrite WX.
  assert (UN : forall w, In (g, w) (ff_ws x) -> w = a * 1000 / ff_em x).
  { intros w I. assert (Y : In (g, Some w) (wArray (ff_ttf x) (ff_map x))) by (rewrite WA; apply in_map_iff; exists (g, w); split; [reflexivity|exact I]).
    unfold wArray in Y. apply in_map_iff in Y as ([r' g'] & Y & _). cbn [snd] in Y. injection Y as -> Y. congruence. }
  assert (IW : In (g, a * 1000 / ff_em x) (ff_ws x)).
  { assert (Y : In (g, glyphWidth (ff_ttf x) g) (wArray (ff_ttf x) (ff_map x))).
    { unfold wArray. apply in_map_iff. unfold val in V. destruct (find _ _) as [[r' g']|] eqn:E; [|discriminate V]. injection V as ->. apply find_some in E as [E _].
      exists (r', g). split; [reflexivity|]. now apply in_rev. }
    rewrite WA, GW in Y. apply in_map_iff in Y as ([g' w] & Y & I). cbn [fst snd] in Y. injection Y as -> ->. exact I. }
  now rewrite (widths_of_list _ _ _ IW UN).
Qed.
(** For every character of the texts drawn or measured with the font: the /W array of the CIDFont written for it gives the
    character's glyph the advance width of the font file. *)
Theorem C80_widths_in_the_file : forall x txt r g a, fontfile_ok x -> known x txt -> In r txt -> glyph_in x r g -> hmtx_advance (ff_bytes x) g a ->
  widths_of (ff_W x) g = Some (a * 1000 / ff_em x).
Proof.
  intros x txt r g a OK K IR G A. pose proof (known_map x txt r g OK K IR G) as V. pose proof (W_is x OK) as WX. rewrite WX.
  destruct OK as (B & H & HU & U & HN & N0 & S1 & S2 & EV & SK & AT & WA & _).
  pose proof (width_reads _ _ _ _ _ _ _ B H HU U HN N0 (proj1 (glyph_range _ _ _ _ _ G)) A) as GW.
  apply widths_of_list.
  - assert (Y : In (g, glyphWidth (ff_ttf x) g) (wArray (ff_ttf x) (ff_map x))).
    { unfold wArray. apply in_map_iff. unfold val in V. destruct (find _ _) as [[r' g']|] eqn:E; [|discriminate V]. injection V as ->. apply find_some in E as [E _].
      exists (r', g). split; [reflexivity|]. now apply in_rev. }
    rewrite WA, GW in Y. apply in_map_iff in Y as ([g' w] & Y & I). cbn [fst snd] in Y. injection Y as -> ->. exact I.
  - intros w I. assert (Y : In (g, Some w) (wArray (ff_ttf x) (ff_map x))) by (rewrite WA; apply in_map_iff; exists (g, w); split; [reflexivity|exact I]).
    unfold wArray in Y. apply in_map_iff in Y as ([r' g'] & Y & _). cbn [snd] in Y. injection Y as -> Y. congruence.
Qed.
(** On a fresh page, after any orderly history of calls whose texts consist of characters their fonts have: every text the
    viewer shows (not justified, no letter spacing) advances by the width the font file gives it. *)
Definition drawn_by_file (fonts : Z -> fontfile) (wds : bytes -> Z -> Z) (e : DrawSpec.event) (grp : list (PropText.piece Qn)) : Prop :=
  match grp with
  | [] => False
  | p :: _ =>
      PropWidth.plain p -> PropWidth.printable (PropText.p_size Qn p) -> (0 < PropText.p_size Qn p)%Q -> (PropText.p_cs Qn p == 0)%Q ->
      forall w, file_width (fonts (PropText.p_font Qn p)) (flat_map (PropText.p_text Qn) grp) w ->
        exists a, PropWidth.show_advance wds e = Some a /\ (a == inject_Z w * ((PropText.p_size Qn p : Q) / 1000))%Q
  end.
Lemma file_width_parts x txt gs : Forall2 (glyph_in x) txt gs -> Forall (fun r => exists g, glyph_in x r g) txt.
Proof. induction 1; constructor; [eexists; eassumption|assumption]. Qed.
Lemma has_advance x g : fontfile_ok x -> 0 <= g -> exists a, hmtx_advance (ff_bytes x) g a.
Proof.
  intros (B & H & HU & U & HN & N0 & _) GP.
  assert (NM : t_nHM (ff_ttf x) = ff_hm x).
  { pose proof (parse_inv _ _ _ H) as (q0 & _ & _ & (qb & qb' & Hhh) & _). apply hhea_ok in Hhh as (e & F & X). cbn [snd] in X.
    destruct HN as (t & l & T & Y). destruct (table_at_fun _ _ _ _ _ _ T (parsed_tables _ _ _ _ _ H (eq_refl : zlen tag_hhea = 4) F)) as [-> _]. congruence. }
  destruct (C27_width_total _ _ _ g _ B H GP HU ltac:(lia) ltac:(lia)) as (w & E).
  destruct (C27_width_from_hmtx _ _ _ g w _ B H GP HU E) as (a' & A' & _). now exists a'.
Qed.
Theorem C80_shown_by_the_file :
  forall (fonts : Z -> fontfile) (wds : bytes -> Z -> Z) rot (s s' : ds Qn) (calls : list (call Qn)) (content : bytes),
    (forall k, fontfile_ok (fonts k)) -> (forall k g, wds (PropWidth.fname k) g = viewer_width (fonts k) g) ->
    s_caches Qn s = [] -> s_font Qn s = None -> s_mode Qn s = false -> s_color Qn s = None ->
    PropText.fonts_named Qn (fun k => face_of (fonts k)) calls -> PropText.orderly Qn false calls ->
    Forall (fun p => known (fonts (PropText.p_font Qn p)) (PropText.p_text Qn p)) (PropText.pieces Qn s calls) ->
    run Qn s calls = Some s' -> content_write Qn rot (s_caches Qn s') = Some content ->
    exists groups, List.concat groups = PropText.pieces Qn s calls /\
      Forall2 (fun e grp => PropText.shown Qn e grp /\ drawn_by_file fonts wds e grp) (DrawView.shows content) groups.
Proof.
  intros fonts wds rot s s' calls content OK WD E F M C FN OR KN R W.
  pose proof (PropWidth.pieces_font Qn (fun k => face_of (fonts k)) calls s FN ltac:(intros n f X; rewrite F in X; discriminate X)) as PF.
  assert (SO : Forall (PropWidth.sound wds) (PropText.pieces Qn s calls)).
  { rewrite Forall_forall in *. intros p I. specialize (PF p I). cbn beta in PF. specialize (KN p I). cbn beta in KN. set (x := fonts (PropText.p_font Qn p)) in *. pose proof (OK (PropText.p_font Qn p)) as O. fold x in O.
    split.
    - intros r IR. rewrite PF. pose proof KN as [_ K]. rewrite Forall_forall in K. destruct (K r IR) as [g G].
      pose proof (glyph_range _ _ _ _ _ G) as GR. destruct (has_advance x g O ltac:(lia)) as [a A].
      destruct (viewer_reads x _ r g a O KN IR G A) as (V1 & V2 & V3). exists g. split; [exact V2|]. split; [exact GR|]. rewrite V3. f_equal. rewrite WD. fold x. now symmetry.
    - rewrite PF. unfold face_of. rewrite face_upem. destruct O as (B & H & HU & U & _). rewrite (em_of _ _ _ _ H HU). exact U. }
  destruct (PropWidth.C39_measured_is_drawn rot (fun k => face_of (fonts k)) wds s s' calls content E F M C FN OR SO R W) as (G & CG & FG).
  exists G. split; [exact CG|].
  assert (PG : Forall (Forall (fun p => PropText.p_fv Qn p = face_of (fonts (PropText.p_font Qn p)) /\ known (fonts (PropText.p_font Qn p)) (PropText.p_text Qn p))) G).
  { apply PropWidth.Forall_concat. rewrite CG. rewrite Forall_forall in *. intros p I. split; [exact (PF p I)|exact (KN p I)]. }
  clear - FG PG OK. revert PG. induction FG as [|e grp es G [S1 A1] FG IH]; intros PG; [constructor|]. inversion PG as [|? ? P1 P2]; subst. constructor; [|now apply IH].
  split; [exact S1|]. destruct grp as [|p ps]; [exact A1|]. intros PL PS SP PC w FW.
  assert (PR : PropWidth.printable (PropText.p_cs Qn p)) by (exists 0; rewrite PC; reflexivity).
  destruct (A1 PL PS SP PR) as (w' & a & MW & SA & EQ & _). exists a. split; [exact SA|]. rewrite (EQ PC). clear EQ SA.
  destruct FW as (gs & advs & ks & FG1 & FA & PK & ->).
  inversion P1 as [|? ? [PF PK0] P1']; subst. set (x := fonts (PropText.p_font Qn p)) in *. pose proof (OK (PropText.p_font Qn p)) as O. fold x in O.
  (* the pieces of a group are in one font *)
  assert (V : Forall2 (fun r g => val (ff_map x) r = Some g) (flat_map (PropText.p_text Qn) (p :: ps)) gs).
  { assert (KA : forall r, In r (flat_map (PropText.p_text Qn) (p :: ps)) -> exists txt, known x txt /\ In r txt).
    { intros r I. apply in_flat_map in I as (q & IQ & IR). exists (PropText.p_text Qn q). split; [|exact IR].
      rewrite Forall_forall in P1. specialize (P1 q IQ) as [_ Kq].
      assert (EQF : PropText.p_font Qn q = PropText.p_font Qn p).
      { destruct IQ as [<-|IQ]; [reflexivity|]. destruct S1 as (_ & SAT & _). rewrite Forall_forall in SAT. destruct (SAT q IQ) as (EF & _). exact EF. }
      rewrite EQF in Kq. exact Kq. }
    clear - KA FG1 O. revert KA. induction FG1 as [|r g l l' Y FG1 IH]; intros KA; [constructor|]. constructor; [|apply IH; intros r' I; apply KA; now right].
    destruct (KA r (or_introl eq_refl)) as (txt & K & I). eapply known_map; eassumption. }
  assert (WG : Forall2 (fun g w => glyphWidth (ff_ttf x) g = Some w) gs (map (fun a => a * 1000 / ff_em x) advs)).
  { assert (GP : Forall (fun g => 0 <= g) gs) by (clear - FG1; induction FG1 as [|r g l l' Y FG1 IH]; constructor; [apply (glyph_range _ _ _ _ _ Y)|exact IH]).
    destruct O as (B & H & HU & U & HN & N0 & _). clear - FA GP B H HU U HN N0. induction FA as [|g a gs advs A FA IH]; [constructor|]. inversion GP; subst. cbn [map]. constructor; [|now apply IH].
    eapply width_reads; eassumption. }
  destruct O as (B & H & HU & U & HN & N0 & S1' & S2 & EV & SK & _). pose proof (em_of _ _ _ _ H HU) as EU.
  pose proof (sum_all (ff_ttf x) (ff_kern x) (ff_subst x) (ff_map x) (PropText.p_size Qn p) (PropText.p_cs Qn p) _ PC ltac:(lia) (kern_reads _ _ _ _ _ B H SK) _ gs _ ks V WG PK) as SU.
  rewrite (PropWidth.measured_sum p _ _ ltac:(rewrite PF; unfold face_of; rewrite face_upem; lia) ltac:(rewrite PF; exact SU)) in MW. injection MW as <-.
  unfold sum. rewrite EU. change (inject_Z 1000) with 1000%Q. reflexivity.
Qed.

(** Cell height: from the typographic ascender to the typographic descender of the file, at the font size. *)
Theorem C80_cell_height :
  forall uk d f subst m (s : ds Qn) fn txt u ta td v, isbytes d -> parseFont uk d = Some (Some f) -> units_per_em d u -> 0 < u ->
    s16in d "OS/2" 68 ta -> s16in d "OS/2" 70 td -> s_font Qn s = Some (fn, face f uk subst m) ->
    CursorModel.measureCellHeight Qn s txt = Some v ->
    (unitsToPoints Qn (s_cfg Qn s) v == inject_Z (ta - td) * (s_size Qn s : Q) / inject_Z u)%Q.
Proof.
  intros uk d f subst m s fn txt u ta td v B H HU U TA TD SF M.
  pose proof (parsed_measures uk d f H) as (_ & _ & _ & _ & _ & _ & _ & _ & A9 & A10 & _).
  assert (S16 : forall tag o v v', s16in d tag o v -> s16in d tag o v' -> v = v').
  { intros tag o w w' (x & (t & l & T & A) & ->) (x' & (t' & l' & T' & A') & ->). destruct (table_at_fun _ _ _ _ _ _ T T') as [-> _]. congruence. }
  assert (MB : typoAscender (measured_by f) = o_typoAsc (t_os2 f) /\ typoDescender (measured_by f) = o_typoDesc (t_os2 f))
    by (unfold measured_by; destruct (t_bbox f) as [[[? ?] ?] ?]; destruct (t_post f) as [[[? ?] ?] ?]; split; reflexivity).
  destruct MB as [M1 M2]. rewrite M1 in A9. rewrite M2 in A10. rewrite (S16 _ _ _ _ TA A9), (S16 _ _ _ _ TD A10). clear TA TD A9 A10 M1 M2.
  pose proof (em_of _ _ _ _ H HU) as EU. unfold CursorModel.measureCellHeight in M. rewrite SF in M. unfold createContent in M.
  destruct (fv_upem _ =? 0); [discriminate M|]. destruct (sumWidth _ _ _ _ _ _ _ _); [|discriminate M]. injection M as <-.
  rewrite (proj2 (PropUnit.C19_round_trip (s_cfg Qn s) _)). destruct (face_typo f uk subst m) as [-> ->]. rewrite face_upem, EU.
  unfold convertTypoUnit. cbn [nsub nmul ndiv nofZ Qn]. change (inject_Z 1000) with 1000%Q.
  assert (UQ : ~ inject_Z u == 0) by (intros X; unfold Qeq, inject_Z in X; cbn in X; lia).
  set (a := o_typoAsc (t_os2 f)). set (b := o_typoDesc (t_os2 f)). unfold Z.sub. rewrite inject_Z_plus, inject_Z_opp.
  set (sz := s_size Qn s) in *. change (T Qn) with Q in sz. field. exact UQ.
Qed.

(** ** Concrete cases *)
Definition b79_head : bytes := zeros 12 ++ b32 0x5F0F3CF5 ++ zeros 2 ++ b16 2048 ++ zeros 16 ++ b16 (65536 - 100) ++ b16 (65536 - 420) ++ b16 1999 ++ b16 1901 ++ zeros 6 ++ b16 1 ++ zeros 4.
Definition b79_os2 : bytes := b16 2 ++ zeros 66 ++ b16 1491 ++ b16 (65536 - 431) ++ zeros 2 ++ b16 1854 ++ b16 434 ++ zeros 8 ++ b16 1062 ++ b16 1466 ++ zeros 6.
Definition b79_post : bytes := zeros 4 ++ b16 (65536 - 12) ++ zeros 2 ++ b16 (65536 - 217) ++ b16 150 ++ zeros 4.
(** The cmap: a (3,0) symbol record and the (3,1) record, both to the same subtable. *)
Definition b79_cmap : bytes :=
  b16 0 ++ b16 2 ++ b16 3 ++ b16 0 ++ b32 20 ++ b16 3 ++ b16 1 ++ b32 20 ++ skipn 12 good_cmap.
Definition font79 : bytes :=
  mkfont [(bs "head", b79_head); (bs "hhea", mk_hhea 2); (bs "maxp", mk_maxp 4); (bs "hmtx", mk_hmtx [500; 600]);
          (bs "cmap", b79_cmap); (bs "name", mk_name); (bs "OS/2", b79_os2); (bs "post", b79_post);
          (bs "loca", mk_loca); (bs "glyf", mk_glyf)].
Lemma font79_bytes : isbytes font79.
Proof.
  intros b. assert (F : forallb (fun x => (0 <=? x) && (x <? 256)) font79 = true) by (vm_compute; reflexivity).
  rewrite forallb_forall in F. intros H. specialize (F b H). lia.
Qed.
Definition measured79 : measures :=
  {| em := 2048; xMin := -100; yMin := -420; xMax := 1999; yMax := 1901; hAscender := 800; hDescender := -200; os2Version := 2;
     typoAscender := 1491; typoDescender := -431; winAscent := 1854; winDescent := 434; xHeight := Some 1062; capHeight := Some 1466;
     italicAngle := -12; underlinePosition := -217; underlineThickness := 150 |}.
Definition descriptor79 : list (bytes * pobj) :=
  [(bs "Type", N_ "FontDescriptor"); (bs "Ascent", OInt 905); (bs "CapHeight", OInt 716); (bs "Descent", OInt (-212));
   (bs "Flags", OInt 32); (bs "FontBBox", OArr [OInt (-49); OInt (-205); OInt 976; OInt 928]);
   (bs "FontFile2", ref 8); (bs "FontName", N_ "Fam"); (bs "ItalicAngle", OInt (-12));
   (bs "StemV", OInt 0); (bs "XHeight", OInt 519)].
Lemma nice_fam : PropObj.nice_family (bs "Fam").
Proof. repeat (constructor; [right; right; split; [reflexivity|discriminate]|]). constructor. Qed.
Example C79_met : exists f, isbytes font79 /\ parseFont false font79 = Some (Some f) /\ measures_in font79 measured79 /\ em measured79 <> 0 /\
  PropObj.nice_family (bs "Fam") /\ reads_as (descriptor_body (bs "Fam") (metrics_of f) 7) (ODict descriptor79).
Proof.
  assert (C : match parseFont false font79 with Some (Some f) => measured_by f = measured79 /\ read_object (descriptor_body (bs "Fam") (metrics_of f) 7) = Some (ODict descriptor79, [10]) | _ => False end)
    by (vm_compute; split; reflexivity).
  destruct (parseFont false font79) as [[f|]|] eqn:P; try contradiction. destruct C as [C1 C2]. exists f.
  split; [exact font79_bytes|]. split; [reflexivity|]. split; [rewrite <- C1; exact (parsed_measures _ _ _ P)|]. split; [discriminate|].
  split; [|exists [10]; split; [exact C2|reflexivity]]. exact nice_fam.
Qed.
(** A symbol font — its cmap has a (3,0) record — is written with Flags 32, Nonsymbolic, like any other: the record is
    never looked at. *)
Theorem C79_symbolic_refuted : exists f cmap len off, isbytes font79 /\ parseFont false font79 = Some (Some f) /\
  table_at font79 (bs "cmap") cmap len /\ enc_record font79 cmap 0 3 0 off /\
  exists l, reads_as (descriptor_body (bs "Fam") (metrics_of f) 7) (ODict l) /\ entry "Flags" l = [OInt 32].
Proof.
  destruct C79_met as (f & B & P & _ & _ & _ & R). exists f.
  assert (C : match parseFont false font79 with Some (Some f) => option_map (fun e => (e_offset e, e_length e)) (tfind (t_tables f) tag_cmap) | _ => None end = Some (280, 58)) by (vm_compute; reflexivity).
  rewrite P in C. destruct (tfind (t_tables f) tag_cmap) as [e|] eqn:F; [|discriminate C]. injection C as C1 C2.
  exists 280, 58, 20. split; [exact B|]. split; [exact P|].
  split; [rewrite <- C1, <- C2; exact (parsed_tables _ _ _ _ _ P (eq_refl : zlen tag_cmap = 4) F)|].
  split; [vm_compute; repeat split; reflexivity|]. exists descriptor79. split; [exact R|reflexivity].
Qed.

Definition ttf80 : ttf := Eval vm_compute in
  match parseFont true good_font as o return match o with Some (Some _) => ttf | _ => unit end with Some (Some f) => f | _ => tt end.
Definition map80 : charmap := [(65, 1); (66, 2); (67, 3)].
Definition ws80 : list (Z * Z) := [(1, 300); (2, 300); (3, 300)].
Definition font80 : fontfile :=
  {| ff_bytes := good_font; ff_kern := true; ff_ttf := ttf80; ff_base := 12 + 16 * 11 + 56 + 36 + 8 + 8 + 12; ff_segs := 2; ff_em := 2000; ff_hm := 2;
     ff_kernat := 538; ff_pairs := 2; ff_subst := fun r => r; ff_texts := [[65; 66]; [66; 67]]; ff_drawn := [[65; 66]; [66; 67]]; ff_map := map80;
     ff_family := bs "Fam"; ff_desc := 4; ff_ws := ws80; ff_W := flat_map (fun e => [OInt (fst e); OArr [OInt (snd e)]]) ws80 |}.

Lemma parse80 : parseFont true good_font = Some (Some ttf80).
Proof. vm_compute. reflexivity. Qed.
Lemma table80 tag e : zlen (bs tag) = 4 -> tfind (t_tables ttf80) (bs tag) = Some e -> table_at good_font (bs tag) (e_offset e) (e_length e).
Proof. intros L F. eapply parsed_tables; [exact parse80|exact L|exact F]. Qed.
Lemma font80_ok : fontfile_ok font80.
Proof.
  unfold fontfile_ok. cbv zeta. cbn [ff_bytes ff_kern ff_ttf ff_base ff_segs ff_em ff_hm ff_kernat ff_pairs ff_subst ff_texts ff_drawn ff_map ff_family ff_desc ff_ws ff_W font80].
  split; [exact good_font_bytes|]. split; [exact parse80|].
  split; [do 2 eexists; split; [eapply (table80 "head"); [reflexivity|vm_compute; reflexivity]|vm_compute; reflexivity]|]. split; [lia|].
  split; [do 2 eexists; split; [eapply (table80 "hhea"); [reflexivity|vm_compute; reflexivity]|vm_compute; reflexivity]|]. split; [lia|].
  destruct good_subtable31 as [S1 S2]. split; [exact S1|]. split; [exact S2|].
  split. { intros seg ro Hs. assert (C : seg = 0 \/ seg = 1) by lia. destruct C as [->| ->]; vm_compute; intros E; injection E as <-; reflexivity. }
  split. { intros _. split; [let x := eval vm_compute in (tfind (t_tables ttf80) (bs "kern")) in match x with Some ?e => exists (e_length e); exact (table80 "kern" e eq_refl ltac:(vm_compute; reflexivity)) end|]. vm_compute. repeat split. }
  split; [vm_compute; reflexivity|]. split; [vm_compute; reflexivity|]. split; [exact nice_fam|].
  eexists. split; [exact (PropObj.C60_cidfont (bs "Fam") 4 ws80 nice_fam)|reflexivity].
Qed.
Lemma glyph80 r g : In (r, g) map80 -> glyph_in font80 r g.
Proof.
  intros I. assert (C : forallb (fun e => match charToGlyph ttf80 (fst e) with Found g => g =? snd e | _ => false end) map80 = true) by (vm_compute; reflexivity).
  rewrite forallb_forall in C. specialize (C _ I). cbn [fst snd] in C.
  assert (R : 0 <= r <= 65535) by (destruct I as [I|[I|[I|[]]]]; injection I as <- <-; lia). left. split; [exact R|].
  destruct font80_ok as (B & P & _ & _ & _ & _ & S1 & S2 & EV & _). pose proof (C25_bmp_lookup_follows_cmap true good_font ttf80 _ 2 r B P S1 S2 EV R) as L.
  destruct (charToGlyph ttf80 r) as [g'| |]; try discriminate C. apply Z.eqb_eq in C. subst g'. exact L.
Qed.
Lemma known80 txt : In txt (ff_texts font80) -> known font80 txt.
Proof.
  intros I. split; [exact I|].
  destruct I as [<-|[<-|[]]]; (constructor; [|constructor; [|constructor]]); eexists; apply glyph80; cbn; auto.
Qed.
Lemma width80 : file_width font80 [65; 66] 580.
Proof.
  exists [1; 2], [600; 600], [-40]. split; [|split; [|split]].
  - constructor; [apply glyph80; cbn; auto|]. constructor; [apply glyph80; cbn; auto|constructor].
  - assert (A : forall g, In g [1; 2] -> hmtx_advance good_font g 600).
    { intros g I. let x := eval vm_compute in (tfind (t_tables ttf80) (bs "hhea")) in let y := eval vm_compute in (tfind (t_tables ttf80) (bs "hmtx")) in
        match x with Some ?e => match y with Some ?h => exists (e_offset e), (e_length e), (e_offset h), (e_length h), 2;
          (split; [exact (table80 "hhea" e eq_refl ltac:(vm_compute; reflexivity))|]); (split; [exact (table80 "hmtx" h eq_refl ltac:(vm_compute; reflexivity))|]) end end.
      destruct I as [<-|[<-|[]]]; vm_compute; split; reflexivity. }
    constructor; [apply A; cbn; auto|]. constructor; [apply A; cbn; auto|constructor].
  - cbn [ff_kern font80]. constructor; [|constructor]. left. exists 0. split; [cbn; lia|]. split; [exists 65496; vm_compute; repeat split|].
    intros j v' J (u & P & _). cbn [ff_pairs font80] in J. replace j with 1 in P by lia. vm_compute in P. discriminate P.
  - vm_compute. reflexivity.
Qed.
Definition calls80 : list (call Qn) := [SetFont Qn 0 (face_of font80) (nofZ Qn 12) 0; SetXY Qn (nofZ Qn 30) (nofZ Qn 40); Text Qn [65; 66]; SetXY Qn (nofZ Qn 30) (nofZ Qn 60); Text Qn [66; 67]].
Definition content80 : bytes := Eval vm_compute in PropDraw.got (PropDraw.outcome Qn (PropDraw.norot Qn) (PropDraw.dpage Qn) calls80).
Example C80_met : fontfile_ok font80 /\ known font80 [65; 66] /\ file_width font80 [65; 66] 580 /\
  PropText.fonts_named Qn (fun _ => face_of font80) calls80 /\ PropText.orderly Qn false calls80 /\
  Forall (fun p => known font80 (PropText.p_text Qn p)) (PropText.pieces Qn (PropDraw.dpage Qn) calls80) /\
  PropDraw.outcome Qn (PropDraw.norot Qn) (PropDraw.dpage Qn) calls80 = Some content80 /\
  List.length (DrawView.shows content80) = 2%nat /\
  map (option_map Qred) (map (PropWidth.show_advance (fun _ => viewer_width font80)) (DrawView.shows content80)) = [Some (174 # 25)%Q; Some (369 # 50)%Q].
Proof.
  split; [exact font80_ok|]. split; [apply known80; cbn; auto|]. split; [exact width80|].
  split; [intros n f size st H; repeat (destruct H as [H|H]; [try discriminate H; now injection H as _ <-|]); contradiction|].
  split; [cbn; repeat split; discriminate|].
  split.
  { assert (E : map (PropText.p_text Qn) (PropText.pieces Qn (PropDraw.dpage Qn) calls80) = [[65; 66]; [66; 67]]) by (vm_compute; reflexivity).
    apply Forall_forall. intros p I. apply known80. apply (in_map (PropText.p_text Qn)) in I. rewrite E in I. exact I. }
  vm_compute. repeat split; reflexivity.
Qed.
Print Assumptions C79_descriptor.
Print Assumptions C79_symbolic_refuted.
Print Assumptions C80_text_width.
Print Assumptions C80_widths_in_the_file.
Print Assumptions C80_shown_by_the_file.
Print Assumptions C80_cell_height.
