(** PropColour.v — C34: colour components in the page content lie between 0 and 1. *)
From Coq Require Import QArith Floats.SpecFloat.
From Verif Require Import Base StrModel NumModel NumRead UnitModel DrawModel DrawSpec DrawLex DrawNest PropDraw.
Open Scope Z_scope.

(** ** Specification *)
(** Operators whose operands are colour components (ISO 32000-1, 8.6.8). *)
Definition component_ops : list string := ["g"; "G"; "rg"; "RG"; "k"; "K"; "sc"; "SC"; "scn"; "SCN"]%string.
Definition in01 (t : tok) : Prop := exists b q, t = TWord b /\ number_val b = Some q /\ (0 <= q)%Q /\ (q <= 1)%Q.
Definition colours_in_range (content : bytes) : Prop :=
  forall args name, In (args, name) (content_ops content) -> among name component_ops = true -> Forall in01 args.
(** float64 values: the canonical ones (what Go can hold) that are not NaN *)
Definition float64 (x : T F64) : Prop := valid_binary prec64 emax64 x = true.
Definition notnan (x : T F64) : Prop := x <> S754_nan.
(** Arguments as the API's types and documentation have them: uint8 for RGB, percent (0..100) for CMYK. *)
Definition u8 (z : Z) : Prop := 0 <= z < 256.
Definition percent (z : Z) : Prop := 0 <= z <= 100.
Definition colour_args (c : call F64) : Prop :=
  match c with
  | SetGrayFill _ v | SetGrayStroke _ v => float64 v /\ notnan v
  | SetStrokeColor _ r g b | SetFillColor _ r g b | SetTextColor _ r g b => u8 r /\ u8 g /\ u8 b
  | SetStrokeColorCMYK _ c m y k | SetFillColorCMYK _ c m y k | SetTextColorCMYK _ c m y k => percent c /\ percent m /\ percent y /\ percent k
  | Template _ name _ _ _ _ => exists wd, name = bs "/" ++ wd /\ forallb is_regular wd = true
  | _ => True
  end.

(** ** Numbers *)
Lemma in01_int (z d : Z) (s : bool) q : 0 < d -> 0 <= z <= d -> (s = true -> z = 0) -> (q == qsgn s (Qmake z (Z.to_pos d)))%Q -> (0 <= q)%Q /\ (q <= 1)%Q.
Proof.
  intros D Z1 S E. rewrite E. destruct s; [rewrite (S eq_refl)|]; cbn [qsgn]; unfold Qle; cbn [Qnum Qden Qopp]; rewrite ?Z2Pos.id by lia; split; lia.
Qed.
Lemma fmtExact_01 k s n d : 0 <= n <= d -> 0 < d -> (s = true -> n = 0) -> in01 (TWord (fmtExact k s n d)).
Proof.
  intros A D S. destruct (fmtExact_val k s n d ltac:(lia) D) as (q & Q1 & Q2). exists (fmtExact k s n d), q. split; [reflexivity|]. split; [exact Q1|].
  assert (P : 0 < 10 ^ Z.of_nat k) by (apply Z.pow_pos_nonneg; lia).
  apply (in01_int (roundHE (n * 10 ^ Z.of_nat k) d) (10 ^ Z.of_nat k) s q P); [|intros E|exact Q2].
  - split; [apply roundHE_pos; lia|]. unfold roundHE. set (p := 10 ^ Z.of_nat k) in *. 
    assert (B : n * p / d <= p) by (apply Z.div_le_upper_bound; nia).
    destruct (Z.eq_dec (n * p / d) p) as [E|NE].
    + assert (n = d) by (pose proof (Z.mul_div_le (n * p) d D); nia). subst n. replace (d * p) with (p * d) by lia. rewrite Z.mod_mul by lia. rewrite Z.div_mul by lia. replace (2 * 0 <? d) with true by lia. lia.
    + destruct (2 * _ <? d); [lia|]. destruct (d <? _); [lia|]. destruct (Z.even _); lia.
  - rewrite (S E). unfold roundHE. rewrite Z.mul_0_l, Z.div_0_l, Z.mod_0_l by lia. replace (2 * 0 <? d) with true by lia. reflexivity.
Qed.
Definition range01b (b : bytes) : bool := match number_val b with Some q => Qle_bool 0 q && Qle_bool q 1 | None => false end.
Lemma range01b_ok b : range01b b = true -> in01 (TWord b).
Proof.
  unfold range01b. destruct (number_val b) as [q|] eqn:E; [|discriminate]. intros H. apply andb_true_iff in H as [H1 H2]. apply Qle_bool_iff in H1, H2. now exists b, q.
Qed.
Lemma b255_all : forallb (fun n => range01b (nfmt F64 3 (b255 F64 (Z.of_nat n)))) (seq 0 256) = true. Proof. vm_compute. reflexivity. Qed.
Lemma pct_all : forallb (fun n => range01b (nfmt F64 2 (pct F64 (Z.of_nat n)))) (seq 0 101) = true. Proof. vm_compute. reflexivity. Qed.
Lemma b255_01 z : u8 z -> in01 (n3 F64 (b255 F64 z)).
Proof. intros H. apply range01b_ok. pose proof b255_all as A. rewrite forallb_forall in A. specialize (A (Z.to_nat z) ltac:(apply in_seq; unfold u8 in H; lia)). cbv beta in A. now rewrite Z2Nat.id in A by apply H. Qed.
Lemma pct_01 z : percent z -> in01 (n2 F64 (pct F64 z)).
Proof. intros H. apply range01b_ok. pose proof pct_all as A. rewrite forallb_forall in A. specialize (A (Z.to_nat z) ltac:(apply in_seq; unfold percent in H; lia)). cbv beta in A. now rewrite Z2Nat.id in A by apply H. Qed.
Lemma digits2_bound m : Zpos m < 2 ^ Zpos (digits2_pos m).
Proof. induction m as [m IH|m IH|]; cbn [digits2_pos]; [| |reflexivity]; rewrite Pos2Z.inj_succ, Z.pow_succ_r by lia; lia. Qed.
Lemma bounded_small m e : bounded prec64 emax64 m e = true -> Zpos m < 2 ^ 53.
Proof.
  unfold bounded, canonical_mantissa. intros H. apply andb_true_iff in H as [H _]. apply Zeq_bool_eq in H. unfold fexp, prec64 in H.
  pose proof (digits2_bound m). assert (Zpos (digits2_pos m) <= 53) by lia.
  eapply Z.lt_le_trans; [eassumption|]. apply Z.pow_le_mono_r; lia.
Qed.
(** clamping keeps a float64 between 0 and 1 *)
Lemma clamp_01 v : float64 v -> notnan v -> in01 (n2 F64 (fixRange10 F64 v)).
Proof.
  intros V NN. unfold fixRange10. cbn [nlt F64 nofZ]. change (f64_ofZ 0) with (S754_zero false). change (f64_ofZ 1) with (S754_finite false 4503599627370496 (-52)).
  destruct (SFltb v (S754_zero false)) eqn:L0; [apply range01b_ok; vm_compute; reflexivity|].
  destruct (SFltb (S754_finite false 4503599627370496 (-52)) v) eqn:L1; [apply range01b_ok; vm_compute; reflexivity|].
  unfold n2. destruct v as [s|s| |s m e].
  - cbn [nfmt F64 f64_fmt]. apply fmtExact_01; lia.
  - destruct s; vm_compute in L0, L1; discriminate.
  - now contradiction NN.
  - assert (s = false) as -> by (destruct s; [vm_compute in L0; discriminate|reflexivity]).
    cbn [nfmt F64 f64_fmt]. assert (B : Zpos m < 2 ^ 53) by (apply (bounded_small m e); exact V).
    assert (C : fst (magn m e) <= snd (magn m e)).
    { unfold SFltb in L1. cbn [SFcompare] in L1. unfold magn. 
      destruct (Z.compare_spec (-52) e) as [EQ|LT|GT].
      - rewrite <- EQ. cbn [fst snd Z.leb Z.compare Z.opp]. change (2 ^ 52) with 4503599627370496.
        destruct (Pos.compare_cont Eq 4503599627370496 m) eqn:PC; [| discriminate L1|].
        + apply Pos.compare_eq in PC. subst m. lia.
        + change (Pos.compare_cont Eq 4503599627370496 m) with (Pos.compare 4503599627370496 m) in PC. apply Pos.compare_gt_iff in PC. apply Z.lt_le_incl. exact PC.
      - discriminate L1.
      - destruct (Z.leb_spec 0 e); [lia|]. cbn [fst snd]. assert (2 ^ 53 <= 2 ^ (- e)) by (apply Z.pow_le_mono_r; lia). lia. }
    pose proof (magn_pos m e). destruct (magn m e) as [a b]. cbn [fst snd] in *. apply fmtExact_01; [lia|lia|discriminate].
Qed.

(** ** Invariant: the caches of the page *)
Definition tcol_args (t : tcol) : Prop := match t with RGB r g b => u8 r /\ u8 g /\ u8 b | CMYK c m y k => percent c /\ percent m /\ percent y /\ percent k end.
Definition ccol (c : cache F64) : Prop :=
  match c with
  | CText _ t => match c_color F64 t with Some t => tcol_args t | None => True end
  | CGray _ _ v => in01 (n2 F64 v)
  | CRGB _ _ r g b => u8 r /\ u8 g /\ u8 b
  | CCMYK _ _ c m y k => percent c /\ percent m /\ percent y /\ percent k
  | CTemplate _ _ name _ _ _ _ => name_ok name
  | _ => True
  end.
Definition opcol (x : op) : Prop := among (snd x) component_ops = true -> Forall in01 (fst x).
Ltac plain := let A := fresh in intros A; cbn [snd o] in A; vm_compute in A; discriminate A.
Ltac plains := repeat (constructor; [plain|]); try constructor.
Lemma rgb_op r g b p : u8 r -> u8 g -> u8 b -> Forall opcol (orgb F64 r g b p).
Proof. intros. constructor; [|constructor]. intros _. cbn [fst o]. repeat constructor; now apply b255_01. Qed.
Lemma cmyk_op c m y k p : percent c -> percent m -> percent y -> percent k -> Forall opcol (ocmyk F64 c m y k p).
Proof. intros. constructor; [|constructor]. intros _. cbn [fst o]. repeat constructor; now apply pct_01. Qed.
Lemma gs_op l : Forall opcol (gs_ops l).
Proof. apply Forall_forall. intros x H. apply in_map_iff in H as (i & <- & _). plain. Qed.
Lemma rot_op rot x y a h : Forall opcol (orot F64 rot x y a h).
Proof. unfold orot. destruct (rot a). plains. Qed.
Lemma seg_op x1 y1 x2 y2 p : (p = "s" \/ p = "S")%string -> Forall opcol (oseg F64 x1 y1 x2 y2 p).
Proof. intros [->| ->]; unfold oseg; plains. Qed.
Lemma path_op h pts : forall f, Forall opcol (opath F64 h f pts).
Proof. induction pts as [|[x y] pts IH]; intros f; cbn [opath]; constructor; [destruct f; plain|apply IH]. Qed.
Lemma cache_col rot c : ccol c -> Forall opcol (cache_ops F64 rot c).
Proof.
  assert (IF : forall (b : bool) l r, Forall opcol l -> Forall opcol r -> Forall opcol (if b then l else r)) by (intros []; auto).
  intros H. destruct c; cbn [cache_ops ccol] in *.
  - unfold otext, otextobj. cbv zeta. repeat rewrite Forall_app. split; [apply IF; plains|]. split; [apply gs_op|]. split; [|split; [|split]].
    + do 4 (constructor; [plain|]). apply Forall_app. split; [|plains]. apply IF; [|constructor]. destruct (c_color F64 c) as [[r g b|c0 m y k]|]; [| |constructor].
      * destruct H as (? & ? & ?). now apply rgb_op.
      * destruct H as (? & ? & ? & ?). now apply cmyk_op.
    + apply IF; [unfold ounderline; plains|constructor].
    + unfold oborder. cbv zeta. repeat rewrite Forall_app. repeat split; (apply IF; [apply seg_op; auto|constructor]).
    + apply IF; plains.
  - constructor; [plain|]. repeat rewrite Forall_app. split; [apply gs_op|]. split; [apply seg_op; auto|plains].
  - constructor; [plain|]. repeat rewrite Forall_app. split; [apply gs_op|]. destruct st; plains.
  - plains.
  - destruct (beq style "F"); [plains|]. destruct (_ || _); plains.
  - plains.
  - destruct (beq t "dashed"); [plains|]. destruct (beq t "dotted"); plains.
  - plains.
  - constructor; [|constructor]. intros _. cbn [fst o]. now constructor.
  - destruct H as (? & ? & ?). now apply rgb_op.
  - destruct H as (? & ? & ? & ?). now apply cmyk_op.
  - unfold oimage. destruct (im_crop F64 i) as [[[[cx cy] cw] ch]|]; cbv zeta iota beta;
      repeat match goal with
        | |- Forall opcol (_ ++ _) => apply Forall_app; split
        | |- Forall opcol [] => constructor
        | |- Forall opcol (_ :: _) => constructor; [plain|]
        | |- Forall opcol (if _ then _ else _) => apply IF
        | |- Forall opcol (gs_ops _) => apply gs_op
        | |- Forall opcol (orot _ _ _ _ _ _) => apply rot_op
        end.
  - constructor; [plain|]. repeat rewrite Forall_app. split; [apply gs_op|]. split; [apply path_op|]. destruct (beq style "F"); [plains|]. destruct (_ || _); plains.
  - rewrite Forall_app. split; [apply path_op|plains].
  - plains.
  - plains.
  - constructor; [plain|apply rot_op].
  - plains.
  - constructor; [plain|]. constructor; [|constructor]. intros _. cbn [fst o]. constructor; [apply range01b_ok; vm_compute; reflexivity|constructor].
  - assert (Z0 : in01 (lit "0")) by (apply range01b_ok; vm_compute; reflexivity).
    repeat (constructor; [first [plain|intros _; cbn [fst o]; constructor; [exact Z0|constructor]]|]). constructor.
Qed.
Definition colinv (s : ds F64) : Prop := Forall ccol (s_caches F64 s) /\ match s_color F64 s with Some t => tcol_args t | None => True end.
Lemma colinv_text s r cell opt txt s' : colinv s -> drawText F64 s r cell opt txt = Some s' -> colinv s'.
Proof.
  intros (F & C) H. unfold drawText in H. destruct (s_font F64 s) as [[fc f]|]; [|discriminate].
  unfold appendContentText in H. set (n := mkText F64 s fc f r cell false opt) in *.
  assert (B : exists pre base, Forall ccol pre /\ ccol (CText F64 base) /\
     match splitLast F64 (s_caches F64 s) with (pre, Some (CText _ c)) => if isSame F64 c n then (pre, c) else (s_caches F64 s, n) | _ => (s_caches F64 s, n) end = (pre, base)).
  { assert (NC : ccol (CText F64 n)) by exact C.
    destruct (splitLast F64 (s_caches F64 s)) as [pre [c|]] eqn:SL; [|exists (s_caches F64 s), n; auto].
    apply (splitLast_app F64) in SL. destruct c; try (exists (s_caches F64 s), n; now auto).
    destruct (isSame F64 c n); [exists pre, c|exists (s_caches F64 s), n; auto]. rewrite SL in F. apply Forall_app in F as [F1 F2]. inversion F2; subst. auto. }
  destruct B as (pre & base & B1 & B2 & B3). rewrite B3 in H.
  destruct (createContent F64 _ _ _ _ _) as [[[cw ch] tw]|]; [|discriminate]. injection H as <-. split; [|exact C]. cbn [s_caches withxy withc].
  apply Forall_app. split; [exact B1|]. constructor; [exact B2|constructor].
Qed.
Lemma colinv_add s s' c : colinv s -> ccol c -> s_caches F64 s' = s_caches F64 s ++ [c] -> s_color F64 s' = s_color F64 s -> colinv s'.
Proof. intros (F & C) G E E2. split; [rewrite E; apply Forall_app; auto|now rewrite E2]. Qed.
Lemma colinv_step s c s' : colinv s -> colour_args c -> step F64 s c = Some s' -> colinv s'.
Proof.
  intros I A H. pose proof I as (F & C).
  destruct c; cbn [step colour_args] in *; try (eapply colinv_text; [exact I|exact H]);
    try (injection H as <-; match goal with |- colinv (add F64 _ ?cc) => apply (colinv_add s _ cc I) end; [|reflexivity|reflexivity]; cbn [ccol]; auto; fail);
    try (injection H as <-; split; [exact F|cbn; auto]; fail).
  - injection H as <-. match goal with |- colinv (add F64 _ ?cc) => apply (colinv_add s _ cc I) end; [|reflexivity|reflexivity]. cbn [ccol]. now apply clamp_01.
  - injection H as <-. match goal with |- colinv (add F64 _ ?cc) => apply (colinv_add s _ cc I) end; [|reflexivity|reflexivity]. cbn [ccol]. now apply clamp_01.
  - destruct (s_font F64 s) as [[fc f]|]; [|discriminate]. injection H as <-.
    apply (colinv_add s _ (CText F64 (mkText F64 s fc f None false true (opt0 F64))) I); [exact C|reflexivity|reflexivity].
Qed.
Lemma colinv_run l : forall s s', colinv s -> Forall colour_args l -> run F64 s l = Some s' -> colinv s'.
Proof.
  induction l as [|c l IH]; intros s s' I A R; cbn [run] in R; [injection R as <-; exact I|]. inversion A; subst.
  destruct (step F64 s c) as [s1|] eqn:E; [|discriminate]. eapply IH; [eapply colinv_step; eassumption|assumption|exact R].
Qed.

(** C34: on a page where nothing was drawn and no text colour set, after any drawing calls with proper colour
    arguments, every colour component in the content is a number between 0 and 1 (real float64 arithmetic). *)
Theorem C34_in_range rot (s s' : ds F64) (calls : list (call F64)) (content : bytes) :
  s_caches F64 s = [] -> s_color F64 s = None -> Forall colour_args calls ->
  run F64 s calls = Some s' -> content_write F64 rot (s_caches F64 s') = Some content -> colours_in_range content.
Proof.
  intros E C A R W. assert (I : colinv s') by (eapply colinv_run; [|exact A|exact R]; split; [rewrite E; constructor|now rewrite C]).
  destruct I as (F & _). intros args name H K.
  rewrite (content_ops_write F64 rot F64_prints (s_caches F64 s') content) in H; [|eapply Forall_impl; [|exact F]; intros c; destruct c; cbn; auto|exact W].
  apply in_flat_map in H as (c & Hc & H). rewrite Forall_forall in F. pose proof (cache_col rot c (F c Hc)) as P. rewrite Forall_forall in P. now apply (P _ H K).
Qed.
Definition ccalls : list (call F64) :=
  [SetGrayFill F64 (f64_ofZ 7); SetGrayStroke F64 (SFdiv prec64 emax64 (f64_ofZ 1) (f64_ofZ 3)); SetFillColor F64 255 128 0; SetStrokeColorCMYK F64 100 50 25 0;
   SetFont F64 0 dfont (f64_ofZ 12) 0; SetTextColor F64 12 34 56; Text F64 (bs "a"); SetTextColorCMYK F64 1 2 3 4; Text F64 (bs "b")].
Definition ccontent : bytes := Eval vm_compute in got (outcome F64 (norot F64) (dpage F64) ccalls).
Example C34_met : Forall colour_args ccalls /\ outcome F64 (norot F64) (dpage F64) ccalls = Some ccontent /\
  filter (fun o => among (snd o) component_ops) (content_ops ccontent) = map (fun x => (map (fun t => TWord (bs t)) (fst x), bs (snd x)))
    [(["1.00"], "g"); (["0.33"], "G"); (["1.000"; "0.502"; "0.000"], "rg"); (["1.00"; "0.50"; "0.25"; "0.00"], "K");
     (["0.047"; "0.133"; "0.220"], "rg"); (["0.01"; "0.02"; "0.03"; "0.04"], "k")]%string.
Proof.
  split; [|split; vm_compute; reflexivity]. unfold ccalls. repeat (constructor; [cbn [colour_args]; unfold u8, percent, float64, notnan; repeat split; try lia; try (vm_compute; reflexivity); try (vm_compute; discriminate); auto|]). constructor.
Qed.
(** The full property is false: CMYK components are uint8 and divided by 100 without clamping; NaN is not clamped. *)
Theorem C34_cmyk_refuted : exists content, outcome F64 (norot F64) (dpage F64) [SetFillColorCMYK F64 255 0 0 0] = Some content /\ ~ colours_in_range content.
Proof.
  exists (bs "2.55 0.00 0.00 0.00 k" ++ [NL]). split; [vm_compute; reflexivity|]. intros A.
  specialize (A [TWord (bs "2.55"); TWord (bs "0.00"); TWord (bs "0.00"); TWord (bs "0.00")] (bs "k") ltac:(vm_compute; left; reflexivity) ltac:(vm_compute; reflexivity)).
  inversion A as [|t l (b & q & EB & V & _ & Q1) _]; subst. injection EB as <-. vm_compute in V. injection V as <-. vm_compute in Q1. now apply Q1.
Qed.
Theorem C34_gray_nan_refuted : exists content, outcome F64 (norot F64) (dpage F64) [SetGrayFill F64 S754_nan] = Some content /\ ~ colours_in_range content.
Proof.
  exists (bs "NaN g" ++ [NL]). split; [vm_compute; reflexivity|]. intros A.
  specialize (A [TWord (bs "NaN")] (bs "g") ltac:(vm_compute; left; reflexivity) ltac:(vm_compute; reflexivity)).
  inversion A as [|t l (b & q & EB & V & _) _]; subst. injection EB as <-. vm_compute in V. discriminate.
Qed.
Print Assumptions C34_in_range.
Print Assumptions C34_cmyk_refuted.
Print Assumptions C34_gray_nan_refuted.
