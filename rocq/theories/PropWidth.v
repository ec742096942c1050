(** PropWidth.v — C39: the measured width is the advance the viewer computes; C38: justified cells. *)
From Coq Require Import QArith Qabs Lqa Qround.
From Verif Require Import Base StrSpec StrModel PropStr NumModel NumRead UnitModel DrawModel DrawSpec DrawLex DrawNest DrawView PropDraw PropText.
Open Scope Z_scope.

(** ** Specification: what the viewer does with the array of TJ (ISO 32000-1, 9.4.3, 9.4.4) *)
Inductive show := Glyph (g : Z) | Move (q : Q).
(** Two-byte codes (Identity-H). *)
Fixpoint code_list (b : bytes) : option (list Z) :=
  match b with
  | [] => Some []
  | a :: b :: c :: d :: r =>
      match hexval a, hexval b, hexval c, hexval d, code_list r with
      | Some a, Some b, Some c, Some d, Some l => Some (4096 * a + 256 * b + 16 * c + d :: l)
      | _, _, _, _, _ => None
      end
  | _ => None
  end.
Fixpoint reading (l : list tok) : option (list show) :=
  match l with
  | [] => Some []
  | THex b :: r => match code_list b, reading r with Some c, Some s => Some (map Glyph c ++ s) | _, _ => None end
  | TWord b :: r => match number_val b, reading r with Some q, Some s => Some (Move q :: s) | _, _ => None end
  | TOpen :: r | TClose :: r => reading r
  | _ => None
  end.
Local Open Scope Q_scope.
Definition milli : Q := 1 # 1000.
(** Glyph displacement tx = w0 Tfs + Tc, adjustment tx = - Tj/1000 Tfs. *)
Fixpoint advance (wd : Z -> Z) (size tc : Q) (l : list show) : Q :=
  match l with
  | [] => 0
  | Glyph g :: r => inject_Z (wd g) * milli * size + tc + advance wd size tc r
  | Move q :: r => - q * milli * size + advance wd size tc r
  end.
(** Where the pen stands after each glyph. *)
Fixpoint pens (wd : Z -> Z) (size tc x : Q) (l : list show) : list Q :=
  match l with
  | [] => []
  | Glyph g :: r => let x' := x + inject_Z (wd g) * milli * size + tc in x' :: pens wd size tc x' r
  | Move q :: r => pens wd size tc (x - q * milli * size) r
  end.
(** A shown text with the widths [wds font glyph] of the embedded fonts: its advance and pen positions. *)
Definition viewed {A} (f : (Z -> Z) -> Q -> Q -> list show -> A) (wds : bytes -> Z -> Z) (e : event) : option A :=
  match e with
  | EShow g _ arr =>
      match g_font g, g_tc g with
      | [TName n; TWord s], [TWord t] =>
          match number_val s, number_val t, reading arr with Some s, Some t, Some l => Some (f (wds n) s t l) | _, _, _ => None end
      | _, _ => None
      end
  | _ => None
  end.
Definition show_advance := viewed advance.
Definition show_pens := viewed (fun wd s t l => pens wd s t 0 l).
(** A number the content stream can carry exactly (three decimals). *)
Definition printable (q : Q) : Prop := exists k : Z, q == inject_Z k * milli.
(** The characters drawn are in the embedded font, with the width the font gives (C24, C27, C29). *)
Definition fname (n : Z) : bytes := bs "F" ++ fmt_d (n + 1).
Definition embedded (wds : bytes -> Z -> Z) (p : piece Qn) : Prop :=
  forall r, In r (p_text Qn p) -> exists g, fv_ci (p_fv Qn p) r = Some g /\ (0 <= g < 65536)%Z /\ fv_cw (p_fv Qn p) r = Some (wds (fname (p_font Qn p)) g).
Definition measured (p : piece Qn) (txt : list Z) : option Q := text_width Qn (p_fv Qn p) (p_size Qn p) (p_cs Qn p) txt.
(** spaces *)
Definition spaces (l : list Z) : Prop := Forall (fun r => r = 32%Z) l.
Definition solid (l : list Z) : Prop := (exists a t, l = a :: t /\ a <> 32%Z) /\ (exists t a, l = t ++ [a] /\ a <> 32%Z).
Definition count_sp (l : list Z) : Z := Z.of_nat (List.length (filter (Z.eqb 32) l)).

(** ** Proofs *)
Lemma number_int z : number_val (fmt_d z) = Some (inject_Z z).
Proof.
  unfold fmt_d. destruct (Z.ltb_spec z 0).
  - change (45%Z :: dec (- z)) with (sgn_ true ++ dec (- z)). rewrite number_sgn by (rewrite <- (app_nil_r (dec (- z))); apply dec_head; lia).
    rewrite unsigned_int by (apply dec_nonempty || apply dec_digits; lia). rewrite dec_val by lia. cbn [option_map qsgn]. unfold Qopp, inject_Z. cbn [Qnum Qden]. now rewrite Z.opp_involutive.
  - change (dec z) with (sgn_ false ++ dec z). rewrite number_sgn by (rewrite <- (app_nil_r (dec z)); apply dec_head; lia).
    rewrite unsigned_int by (apply dec_nonempty || apply dec_digits; lia). rewrite dec_val by lia. reflexivity.
Qed.
Lemma code_list_hex gs : Forall (fun g => (0 <= g < 65536)%Z) gs -> code_list (flat_map hex4 gs) = Some gs.
Proof.
  induction 1 as [|g gs G _ IH]; [reflexivity|]. cbn [flat_map]. rewrite hex4_nibs by exact G. pose proof (nibs4_ok g G) as N4. unfold nibs4 in *.
  cbn [map app code_list]. rewrite IH. inversion N4 as [|? ? N1 M1]; subst. inversion M1 as [|? ? N2 M2]; subst. inversion M2 as [|? ? N3 M3]; subst. inversion M3 as [|? ? N4' M4]; subst.
  rewrite !hexval_digit by assumption. do 2 f_equal. lia.
Qed.
(** what the array of a text says, in order *)
Fixpoint marks (f : fontv) (just : option (Z * Z * Z)) (i lr lg : Z) (txt : list Z) : list show :=
  match txt with
  | [] => []
  | r :: t =>
      match fv_ci f r with
      | None => marks f just (i + 1) lr lg t
      | Some g =>
          let kv := if (0 <? i)%Z && fv_useKern f then ttf2pdf (fv_pair f lr r lg g) (fv_upem f) else 0%Z in
          (if (kv =? 0)%Z then [] else [Move (inject_Z (- kv))]) ++ [Glyph g]
          ++ (match just with Some (adj, fi, la) => if (r =? 32)%Z && (fi <? i)%Z && (i <? la)%Z then [Move (inject_Z adj)] else [] | None => [] end)
          ++ marks f just (i + 1) r g t
      end
  end.
Lemma reading_marks f just txt : (forall r g, In r txt -> fv_ci f r = Some g -> (0 <= g < 65536)%Z) -> forall i lr lg gs, Forall (fun g => (0 <= g < 65536)%Z) gs ->
  reading (tjToks f just i lr lg (flat_map hex4 gs) txt ++ [TClose]) = Some (map Glyph gs ++ marks f just i lr lg txt).
Proof.
  intros RG. induction txt as [|r txt IH]; intros i lr lg gs G.
  - cbn [tjToks app reading marks]. rewrite code_list_hex by exact G. reflexivity.
  - cbn [tjToks marks]. destruct (fv_ci f r) as [g|] eqn:CI; [|apply IH; [intros r' g' I; apply RG; now right|exact G]]. cbv zeta.
    assert (GR : (0 <= g < 65536)%Z) by (apply (RG r); [now left|exact CI]).
    assert (IH' : forall i lr lg gs, Forall (fun g => (0 <= g < 65536)%Z) gs -> reading (tjToks f just i lr lg (flat_map hex4 gs) txt ++ [TClose]) = Some (map Glyph gs ++ marks f just i lr lg txt))
      by (apply IH; intros r' g' I; apply RG; now right).
    set (kv := if (0 <? i)%Z && fv_useKern f then ttf2pdf (fv_pair f lr r lg g) (fv_upem f) else 0%Z).
    assert (H4 : forall gs, flat_map hex4 gs ++ hex4 g = flat_map hex4 (gs ++ [g])) by (intros gs0; rewrite flat_map_app; cbn [flat_map]; now rewrite app_nil_r).
    assert (X : forall gs0, Forall (fun g => (0 <= g < 65536)%Z) gs0 -> forall jj adj,
      reading (((if jj : bool then [THex (flat_map hex4 gs0 ++ hex4 g); int adj] else []) ++ tjToks f just (i + 1) r g (if jj then [] else flat_map hex4 gs0 ++ hex4 g) txt) ++ [TClose])
      = Some (map Glyph gs0 ++ [Glyph g] ++ (if jj then [Move (inject_Z adj)] else []) ++ marks f just (i + 1) r g txt)).
    { intros gs0 G0 jj adj. rewrite H4. assert (G1 : Forall (fun g => (0 <= g < 65536)%Z) (gs0 ++ [g])) by (apply Forall_app; split; [exact G0|now repeat constructor]).
      destruct jj.
      - cbn [app reading int]. rewrite code_list_hex by exact G1. rewrite number_int. change (@nil Z) with (flat_map hex4 []) at 1. rewrite IH' by constructor. rewrite map_app. cbn [map app]. now rewrite <- app_assoc.
      - cbn [app]. rewrite IH' by exact G1. rewrite map_app. cbn [map app]. now rewrite <- app_assoc. }
    assert (J : forall k, match just with Some (adj, fi, la) => if (r =? 32)%Z && (fi <? k)%Z && (k <? la)%Z then [Move (inject_Z adj)] else [] | None => [] end =
                (if match just with Some (_, fi, la) => (r =? 32)%Z && (fi <? k)%Z && (k <? la)%Z | None => false end then [Move (inject_Z (match just with Some (adj, _, _) => adj | None => 0%Z end))] else []))
      by (intros k; destruct just as [[[a b] c]|]; reflexivity).
    rewrite J. set (jj := match just with Some (_, fi, la) => _ | None => false end). set (adj := match just with Some (a, _, _) => a | None => 0%Z end).
    destruct (kv =? 0)%Z.
    + cbn [app]. rewrite X by exact G. now cbn [app].
    + cbn [app reading int]. rewrite code_list_hex by exact G. rewrite number_int. pose proof (X [] ltac:(constructor) jj adj) as X0. cbn [flat_map app map] in X0. cbn [app] in *. rewrite X0. reflexivity.
Qed.
Section Marks.
  Variable f : fontv.
  Variable wd : Z -> Z.
  Variables size tc size0 cs0 : Q.
  Variable just : option (Z * Z * Z).
  Let spc : Z := ttf2pdf (ntrunc Qn (inject_Z (fv_upem f) / size0 * cs0)) (fv_upem f).
  Let adj : Z := match just with Some (a, _, _) => a | None => 0 end.
  Definition stretched (txt : list Z) (i : Z) : Z := match just with Some (_, fi, la) => countIn txt i fi la | None => 0 end.
  Definition registered (r : Z) : Prop := exists g, fv_ci f r = Some g /\ fv_cw f r = Some (wd g).
  Lemma stretched_cons r t i : stretched (r :: t) i = ((match just with Some (_, fi, la) => if (r =? 32) && (fi <? i) && (i <? la) then 1 else 0 | None => 0 end) + stretched t (i + 1))%Z.
  Proof. unfold stretched. destruct just as [[[a fi] la]|]; reflexivity. Qed.
  Lemma first_next i : (0 <= i)%Z -> negb (0 <? i + 1)%Z = false. Proof. intros. lia. Qed.
  Ltac inj := unfold Z.sub, Z.succ; rewrite ?inject_Z_plus, ?inject_Z_mult, ?inject_Z_opp, ?inject_Z_plus, ?inject_Z_mult, ?inject_Z_opp, ?inject_Z_plus, ?inject_Z_mult.
  Lemma marks_advance txt : forall i lr lg, (0 <= i)%Z -> Forall registered txt -> exists z,
    sumWidth Qn f size0 cs0 (negb (0 <? i)%Z) lr lg txt = Some z /\
    advance wd size tc (marks f just i lr lg txt) == inject_Z (z - spc * Z.of_nat (List.length txt) - adj * stretched txt i) * milli * size + inject_Z (Z.of_nat (List.length txt)) * tc.
  Proof.
    induction txt as [|r txt IH]; intros i lr lg I R.
    - exists 0%Z. split; [reflexivity|]. cbn [marks advance List.length Z.of_nat]. unfold stretched. replace (0 - spc * 0 - adj * _)%Z with 0%Z by (destruct just as [[[a b] c]|]; cbn [countIn]; lia). cbn. ring.
    - pose proof (Forall_inv R) as (g & CI & CW). pose proof (Forall_inv_tail R) as R'. destruct (IH (i + 1)%Z r g ltac:(lia) R') as (z & S1 & A1). rewrite first_next in S1 by exact I.
      cbn [sumWidth marks]. rewrite CI, CW. cbv zeta. rewrite S1. change (ttf2pdf (ntrunc Qn (nmul Qn (ndiv Qn (nofZ Qn (fv_upem f)) size0) cs0)) (fv_upem f)) with spc. rewrite negb_involutive. set (kv := if (0 <? i)%Z && fv_useKern f then ttf2pdf (fv_pair f lr r lg g) (fv_upem f) else 0%Z).
      eexists. split; [reflexivity|]. rewrite stretched_cons. cbn [List.length]. rewrite Nat2Z.inj_succ.
      set (n := Z.of_nat (List.length txt)) in *. set (st := stretched txt (i + 1)) in *. set (ad := advance wd size tc (marks f just (i + 1) r g txt)) in *. clearbody n st.
      assert (J : exists b, (match just with Some (_, fi, la) => if (r =? 32) && (fi <? i) && (i <? la) then 1 else 0 | None => 0 end)%Z = b /\
         advance wd size tc ((match just with Some (a, fi, la) => if ((r =? 32) && (fi <? i) && (i <? la))%Z then [Move (inject_Z a)] else [] | None => [] end) ++ marks f just (i + 1) r g txt) == ad - inject_Z (adj * b) * milli * size).
      { clear - just. unfold adj. eexists. split; [reflexivity|]. destruct just as [[[a fi] la]|]; cbn [app]; [destruct (_ && _ && _)%bool; cbn [app advance]|]; rewrite ?Z.mul_1_r, ?Z.mul_0_r; fold ad; try reflexivity; cbn; ring. }
      destruct J as (b & -> & J).
      assert (KV : advance wd size tc ((if (kv =? 0)%Z then [] else [Move (inject_Z (- kv))]) ++ [Glyph g] ++ (match just with Some (a, fi, la) => if ((r =? 32) && (fi <? i) && (i <? la))%Z then [Move (inject_Z a)] else [] | None => [] end) ++ marks f just (i + 1) r g txt)
         == inject_Z kv * milli * size + inject_Z (wd g) * milli * size + tc + (ad - inject_Z (adj * b) * milli * size)).
      { destruct (Z.eqb_spec kv 0) as [->|]; cbn [app advance]; rewrite J; [|rewrite inject_Z_opp]; cbn; ring. }
      rewrite KV, A1. inj. change (inject_Z 1) with 1. ring.
  Qed.

  Lemma marks_pens txt : forall i lr lg x, (0 <= i)%Z -> Forall registered txt -> forall j, (j < List.length txt)%nat -> exists q z,
    nth_error (pens wd size tc x (marks f just i lr lg txt)) j = Some q /\
    sumWidth Qn f size0 cs0 (negb (0 <? i)%Z) lr lg (firstn (S j) txt) = Some z /\
    q == x + inject_Z (z - spc * Z.of_nat (S j) - adj * stretched (firstn j txt) i) * milli * size + inject_Z (Z.of_nat (S j)) * tc.
  Proof.
    induction txt as [|r txt IH]; intros i lr lg x I R j L; [cbn in L; lia|].
    pose proof (Forall_inv R) as (g & CI & CW). pose proof (Forall_inv_tail R) as R'.
    cbn [marks]. rewrite CI. cbv zeta. set (kv := if (0 <? i)%Z && fv_useKern f then ttf2pdf (fv_pair f lr r lg g) (fv_upem f) else 0%Z).
    set (jm := match just with Some (a, fi, la) => if ((r =? 32) && (fi <? i) && (i <? la))%Z then [Move (inject_Z a)] else [] | None => [] end).
    assert (KV : exists x1, x1 == x + inject_Z kv * milli * size /\ forall l, pens wd size tc x ((if (kv =? 0)%Z then [] else [Move (inject_Z (- kv))]) ++ l) = pens wd size tc x1 l).
    { destruct (Z.eqb_spec kv 0) as [->|]; eexists; (split; [|intros l; cbn [app pens]; reflexivity]); [|rewrite inject_Z_opp]; cbn; ring. }
    destruct KV as (x1 & X1 & KV). rewrite KV. cbn [app pens]. set (x2 := x1 + inject_Z (wd g) * milli * size + tc).
    assert (FS : forall t z', sumWidth Qn f size0 cs0 false r g t = Some z' -> sumWidth Qn f size0 cs0 (negb (0 <? i)%Z) lr lg (r :: t) = Some (wd g + kv + spc + z')%Z).
    { intros t z' E. cbn [sumWidth]. rewrite CI, CW. cbv zeta. rewrite E. rewrite negb_involutive. reflexivity. }
    destruct j as [|j].
    - exists x2, (wd g + kv + spc + 0)%Z. split; [reflexivity|]. split; [apply FS; reflexivity|]. unfold x2. rewrite X1. cbn [firstn]. unfold stretched.
      replace (match just with Some (_, fi, la) => countIn [] i fi la | None => 0 end)%Z with 0%Z by (destruct just as [[[a b] c]|]; reflexivity). rewrite Z.mul_0_r. cbn [Z.of_nat Pos.of_succ_nat]. inj. change (inject_Z 1) with 1. change (inject_Z 0) with 0. ring.
    - cbn [List.length] in L. cbn [nth_error].
      assert (JM : exists b x3, (match just with Some (_, fi, la) => if (r =? 32) && (fi <? i) && (i <? la) then 1 else 0 | None => 0 end)%Z = b /\
         x3 == x2 - inject_Z (adj * b) * milli * size /\ pens wd size tc x2 (jm ++ marks f just (i + 1) r g txt) = pens wd size tc x3 (marks f just (i + 1) r g txt)).
      { clear - just. unfold adj, jm. destruct just as [[[a fi] la]|]; cbn [app]; [destruct (_ && _ && _)%bool; cbn [app pens]|]; eexists; eexists; (split; [reflexivity|]); (split; [|reflexivity]);
          rewrite ?Z.mul_1_r, ?Z.mul_0_r; try reflexivity; cbn; ring. }
      destruct JM as (b & x3 & JB & X3 & JM). rewrite JM.
      destruct (IH (i + 1)%Z r g x3 ltac:(lia) R' j ltac:(lia)) as (q & z & N1 & S1 & Q1). rewrite first_next in S1 by exact I.
      exists q. eexists. split; [exact N1|]. split; [change (firstn (S (S j)) (r :: txt)) with (r :: firstn (S j) txt); apply FS; exact S1|].
      rewrite Q1, X3. unfold x2. rewrite X1. change (firstn (S j) (r :: txt)) with (r :: firstn j txt). rewrite stretched_cons, JB. rewrite (Nat2Z.inj_succ (S j)).
      set (n := Z.of_nat (S j)). set (st := stretched (firstn j txt) (i + 1)). inj. change (inject_Z 1) with 1. ring.
  Qed.
End Marks.

Lemma printable_val q : printable q -> exists v, number_val (nfmtTrim Qn q) = Some v /\ v == q.
Proof.
  intros (k & K). destruct q as [n d]. unfold Qeq, inject_Z, milli, Qmult in K. cbn [Qnum Qden] in K. rewrite Z.mul_1_r in K. rewrite Pos.mul_1_l in K.
  cbn [nfmtTrim Qn]. unfold q_neg. cbn [Qnum Qden].
  assert (R : roundHA (1000 * Z.abs n) (Zpos d) = Z.abs k).
  { unfold roundHA. replace (2 * (1000 * Z.abs n) + Z.pos d)%Z with (Z.abs k * (2 * Z.pos d) + Z.pos d)%Z by lia.
    rewrite Z.div_add_l by lia. rewrite (Z.div_small (Z.pos d)) by lia. lia. }
  rewrite R. destruct (trim3_val (n <? 0)%Z (Z.abs k) ltac:(lia)) as (v & V1 & V2). exists v. split; [exact V1|]. rewrite V2. unfold Qeq, qsgn.
  destruct (Z.ltb_spec n 0); cbn [Qnum Qden Qopp]; lia.
Qed.
Lemma advance_ext wd s s' t t' l : s == s' -> t == t' -> advance wd s t l == advance wd s' t' l.
Proof. intros E F. induction l as [|[g|q] l IH]; cbn [advance]; [reflexivity| |]; rewrite IH, E, ?F; reflexivity. Qed.
Lemma pens_ext wd s s' t t' l : s == s' -> t == t' -> forall x x', x == x' -> Forall2 Qeq (pens wd s t x l) (pens wd s' t' x' l).
Proof.
  intros E F. induction l as [|[g|q] l IH]; intros x x' X; cbn [pens]; [constructor| |].
  - cbv zeta. constructor; [now rewrite X, E, F|]. apply IH. now rewrite X, E, F.
  - apply IH. now rewrite X, E.
Qed.
Lemma F2_nth {A B} (R : A -> B -> Prop) l r : Forall2 R l r -> forall j b, nth_error r j = Some b -> exists a, nth_error l j = Some a /\ R a b.
Proof. induction 1 as [|a b l r H _ IH]; intros [|j] c E; try discriminate; [injection E as <-; now exists a|now apply IH]. Qed.

(** ** Letter spacing is measured in whole thousandths of the font size *)
Lemma quot_near (n : Z) (d : positive) : Qabs ((n # d) - inject_Z (Z.quot n (Zpos d))) <= 1.
Proof.
  pose proof (Z.quot_rem' n (Zpos d)) as E. assert (B : (Z.abs (Z.rem n (Zpos d)) < Zpos d)%Z) by (pose proof (Z.rem_bound_abs n (Zpos d) ltac:(lia)); lia).
  set (q := Z.quot n (Zpos d)) in *. apply Qabs_Qle_condition. unfold Qle, Qminus, Qplus, Qopp, inject_Z. cbn [Qnum Qden]. split; nia.
Qed.
Lemma ttf2pdf_quot n upem : (0 < upem)%Z -> ttf2pdf n upem = Z.quot (1000 * n) upem.
Proof.
  intros U. unfold ttf2pdf. destruct (Z.ltb_spec n 0).
  - cbv zeta. assert (L : (if (1000 * Z.rem n upem =? 0)%Z then 0 else Z.quot (Z.rem n upem) (1000 * Z.rem n upem))%Z = 0%Z).
    { destruct (Z.eqb_spec (1000 * Z.rem n upem) 0) as [|NE]; [reflexivity|]. set (r := Z.rem n upem) in *. clearbody r. apply Z.quot_small_iff; lia. }
    rewrite L, Z.sub_0_r. replace (-1000 * n)%Z with (- (1000 * n))%Z by lia. rewrite Z.quot_opp_l by lia. lia.
  - rewrite !Z.quot_div_nonneg, Z.rem_mod_nonneg by (try lia; apply Z.mul_nonneg_nonneg; try lia; rewrite ?Z.rem_mod_nonneg by lia; pose proof (Z.mod_pos_bound n upem U); lia).
    rewrite (Z.div_mod n upem) at 3 by lia. replace (1000 * (upem * (n / upem) + n mod upem))%Z with (n / upem * 1000 * upem + n mod upem * 1000)%Z by ring. now rewrite Z.div_add_l by lia.
Qed.
Lemma spacing_near upem size cs : (0 < upem)%Z -> 0 < size ->
  Qabs (cs - inject_Z (ttf2pdf (ntrunc Qn (inject_Z upem / size * cs)) upem) * milli * size) <= size * (1 / inject_Z upem + milli).
Proof.
  intros U S. rewrite ttf2pdf_quot by exact U. set (x := inject_Z upem / size * cs). set (t := ntrunc Qn x).
  assert (T : Qabs (x - inject_Z t) <= 1) by (unfold t; cbn [ntrunc Qn]; destruct x as [n d]; apply quot_near).
  assert (UP : 0 < inject_Z upem) by (unfold Qlt, inject_Z; cbn; lia).
  destruct upem as [|p|p]; try lia. pose proof (quot_near (1000 * t) p) as K. set (z := Z.quot (1000 * t) (Z.pos p)) in *.
  assert (E : (1000 * t # p) == 1000 * inject_Z t / inject_Z (Z.pos p)).
  { unfold Qeq, Qdiv, Qmult, inject_Z, Qinv. cbn [Qnum Qden]. lia. }
  rewrite E in K. set (u := inject_Z (Z.pos p)) in *. set (tq := inject_Z t) in *. set (zq := inject_Z z) in *.
  assert (CS : cs == x * size / u) by (unfold x; field; split; apply Qnot_eq_sym, Qlt_not_eq; assumption).
  apply Qabs_Qle_condition in T as [T1 T2]. apply Qabs_Qle_condition in K as [K1 K2]. clearbody x tq zq u. clear t z E.
  assert (A : cs - zq * milli * size == size / u * (x - tq) + milli * size * (1000 * tq / u - zq)).
  { rewrite CS. unfold milli. field. apply Qnot_eq_sym, Qlt_not_eq; assumption. }
  rewrite A. assert (SU : 0 < size / u) by (apply Qlt_shift_div_l; [exact UP|lra]). assert (MS : 0 < milli * size) by (unfold milli; lra).
  setoid_replace (size * (1 / u + milli)) with (size / u + milli * size) by (field; apply Qnot_eq_sym, Qlt_not_eq; assumption).
  set (a := size / u) in *. set (b := milli * size) in *. set (v := x - tq) in *. set (w := 1000 * tq / u - zq) in *. clearbody a b v w. apply Qabs_Qle_condition. split; nra.
Qed.
Lemma spacing_zero upem size cs : cs == 0 -> ttf2pdf (ntrunc Qn (inject_Z upem / size * cs)) upem = 0%Z.
Proof.
  intros C. assert (E : inject_Z upem / size * cs == 0) by (rewrite C; ring). cbn [ntrunc Qn]. set (x := inject_Z upem / size * cs) in *. clearbody x. destruct x as [n d]. unfold Qeq in E. cbn [Qnum Qden] in *.
  assert (n = 0%Z) by lia. subst n. cbn. unfold ttf2pdf. cbn. now destruct upem.
Qed.

(** ** Which spaces are stretched *)
Lemma countIn_app a b : forall i fi la, countIn (a ++ b) i fi la = (countIn a i fi la + countIn b (i + zlen a) fi la)%Z.
Proof.
  induction a as [|r a IH]; intros i fi la; cbn [app countIn]; [unfold zlen; cbn; now rewrite Z.add_0_r|]. rewrite IH. unfold zlen. cbn [List.length]. rewrite Nat2Z.inj_succ.
  replace (i + 1 + Z.of_nat (List.length a))%Z with (i + Z.succ (Z.of_nat (List.length a)))%Z by lia. lia.
Qed.
Lemma countIn_low l : forall i fi la, (i + zlen l <= fi + 1)%Z -> countIn l i fi la = 0%Z.
Proof.
  induction l as [|r l IH]; intros i fi la H; cbn [countIn]; [reflexivity|]. unfold zlen in *. cbn [List.length] in H. rewrite IH by lia. replace (fi <? i)%Z with false by lia. now rewrite andb_false_r.
Qed.
Lemma countIn_high l : forall i fi la, (la <= i)%Z -> countIn l i fi la = 0%Z.
Proof. induction l as [|r l IH]; intros i fi la H; cbn [countIn]; [reflexivity|]. rewrite IH by lia. replace (i <? la)%Z with false by lia. now rewrite andb_false_r. Qed.
Lemma countIn_mid l : forall i fi la, (fi < i)%Z -> (i + zlen l <= la)%Z -> countIn l i fi la = count_sp l.
Proof.
  induction l as [|r l IH]; intros i fi la H K; cbn [countIn]; [reflexivity|]. unfold zlen in *. cbn [List.length] in K. rewrite IH by lia. replace (fi <? i)%Z with true by lia. replace (i <? la)%Z with true by lia.
  rewrite !andb_true_r. unfold count_sp. cbn [filter]. rewrite (Z.eqb_sym 32 r). destruct (r =? 32)%Z; cbn [List.length]; lia.
Qed.
Lemma count_sp_app a b : count_sp (a ++ b) = (count_sp a + count_sp b)%Z.
Proof. unfold count_sp. rewrite filter_app, app_length. lia. Qed.
Lemma bounds_spaces l : spaces l -> forall i fi la, nonSpaceBounds' l i fi la = (fi, la).
Proof. induction 1 as [|r l -> _ IH]; intros; cbn [nonSpaceBounds']; [reflexivity|]. apply IH. Qed.
Lemma bounds_app a b : forall i fi la, nonSpaceBounds' (a ++ b) i fi la = let '(f, l) := nonSpaceBounds' a i fi la in nonSpaceBounds' b (i + zlen a) f l.
Proof.
  induction a as [|r a IH]; intros i fi la; cbn [app nonSpaceBounds']; [unfold zlen; cbn; now rewrite Z.add_0_r|].
  assert (E : (i + 1 + zlen a = i + zlen (r :: a))%Z) by (unfold zlen; cbn [List.length]; lia). destruct (r =? 32)%Z; rewrite IH, E; reflexivity.
Qed.
Lemma bounds_first l : forall i fi la, (0 <= fi)%Z -> fst (nonSpaceBounds' l i fi la) = fi.
Proof. induction l as [|r l IH]; intros i fi la H; cbn [nonSpaceBounds']; [reflexivity|]. destruct (r =? 32)%Z; [now apply IH|]. replace (fi <? 0)%Z with false by lia. now apply IH. Qed.
Lemma bounds_of pre body post : spaces pre -> spaces post -> solid body -> nonSpaceBounds (pre ++ body ++ post) = (zlen pre, (zlen pre + zlen body - 1)%Z).
Proof.
  intros P Q ((a & t & A & NA) & (t' & z & B & NB)). unfold nonSpaceBounds. rewrite bounds_app, (bounds_spaces pre P). rewrite Z.add_0_l.
  rewrite bounds_app. destruct (nonSpaceBounds' body (zlen pre) (-1) (-1)) as [f l] eqn:E.
  assert (F : f = zlen pre).
  { rewrite A in E. cbn [nonSpaceBounds'] in E. replace (a =? 32)%Z with false in E by lia. cbn [Z.ltb Z.compare] in E. pose proof (bounds_first t (zlen pre + 1)%Z (zlen pre) (zlen pre) ltac:(unfold zlen; lia)) as F. now rewrite E in F. }
  assert (L : l = (zlen pre + zlen body - 1)%Z).
  { rewrite B, bounds_app in E. destruct (nonSpaceBounds' t' (zlen pre) (-1) (-1)) as [f' l']. cbn [nonSpaceBounds'] in E. replace (z =? 32)%Z with false in E by lia. injection E as _ <-. rewrite B, zlen_app. unfold zlen. cbn. lia. }
  subst. now rewrite bounds_spaces.
Qed.
(** Among the first j characters, exactly the spaces inside the body count. *)
Lemma interior_firstn pre body post : spaces pre -> spaces post -> solid body -> forall j,
  countIn (firstn j (pre ++ body ++ post)) 0 (zlen pre) (zlen pre + zlen body - 1) = count_sp (firstn (j - List.length pre) body).
Proof.
  intros P Q ((a & t & A & NA) & (t' & z & B & NB)) j. rewrite firstn_app, countIn_app. rewrite countIn_low by (unfold zlen; rewrite firstn_length; lia).
  rewrite Z.add_0_l. destruct (Nat.le_gt_cases j (List.length pre)) as [LE|GT].
  { replace (j - List.length pre)%nat with 0%nat by lia. reflexivity. }
  set (k := (j - List.length pre)%nat). replace (zlen (firstn j pre)) with (zlen pre) by (unfold zlen; rewrite firstn_length; lia). rewrite Z.add_0_l.
  rewrite firstn_app, countIn_app.
  assert (PO : countIn (firstn (k - List.length body) post) (zlen pre + zlen (firstn k body)) (zlen pre) (zlen pre + zlen body - 1) = 0%Z).
  { destruct (Nat.le_gt_cases (List.length body) k); [apply countIn_high; unfold zlen; rewrite firstn_length; lia|]. now replace (k - List.length body)%nat with 0%nat by lia. }
  rewrite PO, Z.add_0_r. destruct k as [|k]; [reflexivity|].
  assert (HD : forall u, countIn (a :: u) (zlen pre) (zlen pre) (zlen pre + zlen body - 1) = countIn u (zlen pre + 1) (zlen pre) (zlen pre + zlen body - 1) /\ count_sp (a :: u) = count_sp u).
  { intros u. cbn [countIn]. replace (a =? 32)%Z with false by lia. unfold count_sp. cbn [filter]. replace (32 =? a)%Z with false by lia. auto. }
  destruct (Nat.le_gt_cases (List.length body) (S k)) as [LE|LT].
  - rewrite firstn_all2 by exact LE. assert (E : t = [] \/ exists t2, t = t2 ++ [z]).
    { destruct t as [|c t]; [now left|]. right. rewrite A in B. destruct t' as [|c' t']; [discriminate B|]. injection B as _ B. exists t'. exact B. }
    rewrite A at 1 3. destruct (HD t) as [-> ->]. destruct E as [->|(t2 & ->)]; [reflexivity|].
    rewrite countIn_app, count_sp_app. assert (Z0 : count_sp [z] = 0%Z) by (unfold count_sp; cbn [filter]; now replace (32 =? z)%Z with false by lia).
    rewrite Z0. f_equal; [|cbn [countIn]; now replace (z =? 32)%Z with false by lia].
    apply countIn_mid; [lia|]. rewrite A. unfold zlen. cbn [List.length]. rewrite app_length. cbn. lia.
  - rewrite A at 1 3. cbn [firstn]. destruct (HD (firstn k t)) as [-> ->]. apply countIn_mid; [lia|]. rewrite A in *. unfold zlen in *. cbn [List.length] in *. rewrite firstn_length. lia.
Qed.
Lemma interior_all pre body post : spaces pre -> spaces post -> solid body -> interiorSpaceCount (pre ++ body ++ post) = count_sp body.
Proof.
  intros P Q S. unfold interiorSpaceCount. rewrite bounds_of by assumption. replace (zlen pre <? 0)%Z with false by (unfold zlen; lia).
  pose proof (interior_firstn pre body post P Q S (List.length (pre ++ body ++ post))) as I. rewrite firstn_all in I. rewrite I. f_equal. apply firstn_all2. rewrite !app_length. lia.
Qed.
Lemma interior_blank l : spaces l -> interiorSpaceCount l = 0%Z.
Proof. intros S. unfold interiorSpaceCount, nonSpaceBounds. now rewrite bounds_spaces. Qed.

Lemma round_near x : Qabs (x - inject_Z (nround Qn x)) <= 1 # 2.
Proof.
  destruct x as [n d]. cbn [nround Qn]. unfold q_neg. cbn [Qnum Qden].
  assert (R : forall m, (0 <= m)%Z -> (2 * m - Z.pos d <= 2 * Z.pos d * roundHA m (Z.pos d) <= 2 * m + Z.pos d)%Z).
  { intros m M. unfold roundHA. pose proof (Z.div_mod (2 * m + Z.pos d) (2 * Z.pos d) ltac:(lia)). pose proof (Z.mod_pos_bound (2 * m + Z.pos d) (2 * Z.pos d) ltac:(lia)). lia. }
  apply Qabs_Qle_condition. unfold Qle, Qminus, Qplus, Qopp, inject_Z. cbn [Qnum Qden]. destruct (Z.ltb_spec n 0); [pose proof (R (- n)%Z ltac:(lia))|pose proof (R n ltac:(lia))]; split; lia.
Qed.
Lemma Qltb_true a b : nle Qn a b = true <-> a <= b. Proof. cbn [nle Qn]. apply Qle_bool_iff. Qed.
Lemma adjustment_fills slack gaps size : 0 < size -> let step := - inject_Z (justifyAdjustment Qn slack gaps size) * milli * size in
  ((gaps <= 0)%Z \/ slack <= 0 -> step == 0) /\ ((0 < gaps)%Z -> 0 < slack -> Qabs (inject_Z gaps * step - slack) <= inject_Z gaps * size * (1 # 2000)).
Proof.
  intros S step. unfold step, justifyAdjustment. cbn [nofZ Qn ndiv nmul nneg].
  split.
  - intros H. replace (_ || _ || _)%bool with true; [cbn; ring|]. symmetry. destruct H as [H|H].
    + replace (gaps <=? 0)%Z with true by lia. reflexivity.
    + assert (E : nle Qn slack 0 = true) by now apply Qltb_true. change (inject_Z 0) with 0. rewrite E. now rewrite orb_true_r.
  - intros G L. assert (C : ((gaps <=? 0)%Z || nle Qn slack (inject_Z 0) || nle Qn size (inject_Z 0))%bool = false).
    { change (inject_Z 0) with 0. replace (gaps <=? 0)%Z with false by lia. destruct (nle Qn slack 0) eqn:E1; [apply Qltb_true in E1; lra|]. destruct (nle Qn size 0) eqn:E2; [apply Qltb_true in E2; lra|]. reflexivity. }
    rewrite C. set (x := - (slack / inject_Z gaps * inject_Z 1000 / size)). pose proof (round_near x) as R. set (k := inject_Z (nround Qn x)) in *.
    assert (GP : 0 < inject_Z gaps) by (unfold Qlt, inject_Z; cbn; lia). set (g := inject_Z gaps) in *. clearbody k g.
    assert (E : g * (- k * milli * size) - slack == g * size * milli * (x - k)).
    { unfold x. change (inject_Z 1000) with 1000. unfold milli. field. split; apply Qnot_eq_sym, Qlt_not_eq; assumption. }
    rewrite E. apply Qabs_Qle_condition in R as [R1 R2]. assert (GS : 0 < g * size) by nra. set (m := g * size) in *. set (v := x - k) in *. clearbody m v. unfold milli. apply Qabs_Qle_condition. split; nra.
Qed.

Section Width.
  Variable ft : Z -> fontv.
  Variable wds : bytes -> Z -> Z.
  Definition sound (p : piece Qn) : Prop := embedded wds p /\ (0 < fv_upem (p_fv Qn p))%Z.
  Lemma viewed_text {A} (F : (Z -> Z) -> Q -> Q -> list show -> A) e c p ps :
    showsText Qn e c -> holds Qn ft c (p :: ps) -> Forall sound (p :: ps) -> printable (p_size Qn p) -> printable (p_cs Qn p) ->
    exists s t, s == p_size Qn p /\ t == p_cs Qn p /\
      viewed F wds e = Some (F (wds (fname (p_font Qn p))) s t (marks (p_fv Qn p) (justOf Qn c) 0 0 0 (flat_map (p_text Qn) (p :: ps)))) /\
      Forall (registered (p_fv Qn p) (wds (fname (p_font Qn p)))) (flat_map (p_text Qn) (p :: ps)).
  Proof.
    intros (g & -> & A1 & A2 & _) H SO PS PC. destruct H as (Q1 & Q2 & Q2' & Q3 & Q4 & Q5 & Q6 & Q7 & Q8 & Q9 & Q9r & Q9a & Q10 & Q11 & Q12 & Q13).
    assert (EM : forall r, In r (flat_map (p_text Qn) (p :: ps)) -> exists g, fv_ci (p_fv Qn p) r = Some g /\ (0 <= g < 65536)%Z /\ fv_cw (p_fv Qn p) r = Some (wds (fname (p_font Qn p)) g)).
    { intros r I. apply in_flat_map in I as (q & IQ & IR). rewrite Forall_forall in SO. destruct (SO q IQ) as [E _]. specialize (E r IR). destruct IQ as [<-|IQ]; [exact E|].
      rewrite Forall_forall in Q12. destruct (Q12 q IQ) as (B1 & B2 & _). now rewrite B1, B2 in E. }
    cbn [viewed]. rewrite A1, A2. rewrite Q3, Q5. destruct (printable_val _ PS) as (s & S1 & S2). destruct (printable_val _ PC) as (t & T1 & T2). rewrite S1, T1.
    unfold items. cbn [reading]. change (@nil Z) with (flat_map hex4 []). rewrite reading_marks; [|intros r g0 I CI; rewrite Q11 in I; rewrite Q2 in CI; destruct (EM r I) as (g1 & G1 & G2 & _); rewrite CI in G1; injection G1 as ->; exact G2|constructor].
    exists s, t. split; [exact S2|]. split; [exact T2|]. split; [rewrite Q1, Q2, Q11; reflexivity|].
    apply Forall_forall. intros r I. destruct (EM r I) as (g1 & G1 & _ & G3). now exists g1.
  Qed.
  Lemma measured_sum p txt z : (0 < fv_upem (p_fv Qn p))%Z -> sumWidth Qn (p_fv Qn p) (p_size Qn p) (p_cs Qn p) true 0 0 txt = Some z ->
    measured p txt = Some (inject_Z z * (p_size Qn p / inject_Z 1000)).
  Proof using. clear ft wds. intros U S. unfold measured, text_width, createContent. replace (fv_upem (p_fv Qn p) =? 0)%Z with false by lia. rewrite S. reflexivity. Qed.

  Definition plain (p : piece Qn) : Prop := p_cell Qn p = false \/ has (p_align Qn p) oJustify = false.
  Lemma plain_just c p ps : holds Qn ft c (p :: ps) -> plain p -> justOf Qn c = None.
  Proof.
    intros (Q1 & Q2 & Q2' & Q3 & Q4 & Q5 & Q6 & Q7 & Q8 & Q9 & Q9r & Q9a & _) PL. unfold justOf. destruct (c_rect Qn c); [|reflexivity]. rewrite Q9, Q9a. destruct PL as [-> | ->]; [reflexivity|]. now rewrite andb_false_r.
  Qed.
  (** What the viewer does with one shown group, compared with what MeasureTextWidth says of its text. *)
  Definition advances (e : event) (grp : list (piece Qn)) : Prop :=
    match grp with
    | [] => False
    | p :: _ =>
        plain p -> printable (p_size Qn p) -> 0 < p_size Qn p -> printable (p_cs Qn p) ->
        let txt := flat_map (p_text Qn) grp in
        exists w a, measured p txt = Some w /\ show_advance wds e = Some a /\
          (p_cs Qn p == 0 -> a == w) /\
          Qabs (a - w) <= inject_Z (Z.of_nat (List.length txt)) * (p_size Qn p * (1 / inject_Z (fv_upem (p_fv Qn p)) + milli))
    end.
  Lemma holds_advances e c grp : showsText Qn e c -> holds Qn ft c grp -> Forall sound grp -> advances e grp.
  Proof.
    intros SH H SO. destruct grp as [|p ps]; [contradiction|]. intros PL PS SP PC txt.
    destruct (viewed_text advance e c p ps SH H SO PS PC) as (s & t & E1 & E2 & V & R). rewrite (plain_just c p ps H PL) in V. fold txt in V, R.
    pose proof (Forall_inv SO) as [_ U].
    destruct (marks_advance (p_fv Qn p) (wds (fname (p_font Qn p))) s t (p_size Qn p) (p_cs Qn p) None txt 0 0 0 ltac:(lia) R) as (z & S1 & A1).
    cbn [negb Z.ltb Z.compare] in S1. unfold stretched in A1. rewrite Z.mul_0_l, Z.sub_0_r in A1.
    eexists. eexists. split; [apply (measured_sum p txt z U S1)|]. split; [exact V|].
    set (n := Z.of_nat (List.length txt)) in *. set (spc := ttf2pdf _ _) in A1.
    assert (A : advance (wds (fname (p_font Qn p))) s t (marks (p_fv Qn p) None 0 0 0 txt) - inject_Z z * (p_size Qn p / inject_Z 1000) == inject_Z n * (p_cs Qn p - inject_Z spc * milli * p_size Qn p)).
    { rewrite A1, E1, E2. unfold Z.sub. rewrite inject_Z_plus, inject_Z_opp, inject_Z_mult. change (inject_Z 1000) with 1000. unfold milli. field. }
    split.
    - intros C. assert (Z0 : spc = 0%Z) by (apply spacing_zero; exact C). rewrite Z0 in A. assert (A' : inject_Z n * (p_cs Qn p - inject_Z 0 * milli * p_size Qn p) == 0) by (rewrite C; cbn; ring). rewrite A' in A. lra.
    - rewrite A. pose proof (spacing_near (fv_upem (p_fv Qn p)) (p_size Qn p) (p_cs Qn p) U SP) as B. fold spc in B.
      rewrite Qabs_Qmult. assert (N0 : 0 <= inject_Z n) by (unfold Qle, inject_Z, n; cbn; lia). rewrite (Qabs_pos _ N0). set (X := p_cs Qn p - inject_Z spc * milli * p_size Qn p) in *. set (Y := p_size Qn p * _) in *.
      rewrite (Qmult_comm (inject_Z n) (Qabs X)), (Qmult_comm (inject_Z n) Y). apply Qmult_le_compat_r; assumption.
  Qed.
End Width.

Section C38C39.
  Variable rot : T Qn -> T Qn * T Qn.
  Variable ft : Z -> fontv.
  Variable wds : bytes -> Z -> Z.
  Lemma Forall_concat {A} (P : A -> Prop) ll : Forall P (List.concat ll) -> Forall (Forall P) ll.
  Proof. induction ll as [|l ll IH]; cbn [List.concat]; intros H; constructor; apply Forall_app in H; [apply H|now apply IH]. Qed.

  (** C39: on a fresh page, after any orderly history of calls, every text the viewer shows (not justified) advances by
      exactly the width MeasureTextWidth reports for it when no letter spacing is set; with letter spacing the two
      differ by less than size/unitsPerEm + size/1000 per character. *)
  Theorem C39_measured_is_drawn (s s' : ds Qn) (calls : list (call Qn)) (content : bytes) :
    s_caches Qn s = [] -> s_font Qn s = None -> s_mode Qn s = false -> s_color Qn s = None ->
    fonts_named Qn ft calls -> orderly Qn false calls -> Forall (sound wds) (pieces Qn s calls) ->
    run Qn s calls = Some s' -> content_write Qn rot (s_caches Qn s') = Some content ->
    exists groups, List.concat groups = pieces Qn s calls /\ Forall2 (fun e grp => shown Qn e grp /\ advances wds e grp) (shows content) groups.
  Proof.
    intros E F M C FN OR SO R W. destruct (shown_caches Qn rot Qn_prints ft s s' calls content E F M C FN OR R W) as (G & ts & CG & SH & K1 & K3).
    exists G. split; [exact CG|]. rewrite <- CG in SO. apply Forall_concat in SO. clear - SH K1 K3 SO. revert G K1 K3 SO. generalize dependent (shows content).
    intros es SH. induction SH as [|e c es ts S1 SH IH]; intros G K1 K3 SO; inversion K1; subst; [constructor|]. inversion K3; subst. inversion SO; subst.
    constructor; [split; [eapply holds_shown; eassumption|eapply holds_advances; eassumption]|now apply IH].
  Qed.

  (** One justified cell: text = pre ++ body ++ post with blanks around the body. *)
  Definition fills (e : event) (grp : list (piece Qn)) : Prop :=
    forall p ps W H, grp = p :: ps -> p_cell Qn p = true -> p_rect Qn p = Some (W, H) -> has (p_align Qn p) oJustify = true ->
      printable (p_size Qn p) -> 0 < p_size Qn p -> p_cs Qn p == 0 ->
      forall pre body post, p_text Qn p = pre ++ body ++ post -> spaces pre -> spaces post -> body = [] \/ solid body ->
      ps = [] /\
      exists w step pos a,
        measured p (p_text Qn p) = Some w /\ show_pens wds e = Some pos /\ show_advance wds e = Some a /\
        (* every character ends where its measured prefix ends plus one step per earlier space inside the body *)
        (forall j, (j < List.length (p_text Qn p))%nat -> exists q wj, nth_error pos j = Some q /\ measured p (firstn (S j) (p_text Qn p)) = Some wj /\
            q == wj + step * inject_Z (count_sp (firstn (j - List.length pre) body))) /\
        a == w + step * inject_Z (count_sp body) /\
        (* nothing to stretch, or no room: unchanged *)
        (count_sp body = 0%Z \/ W <= w -> step == 0) /\
        (* otherwise the text fills the width, up to the rounding of the step to a thousandth of the size *)
        ((0 < count_sp body)%Z -> w < W -> Qabs (a - W) <= inject_Z (count_sp body) * p_size Qn p * (1 # 2000)).
  Lemma holds_fills s e c grp : tinv Qn s c -> showsText Qn e c -> holds Qn ft c grp -> Forall (sound wds) grp -> fills e grp.
  Proof using ft wds.
    clear rot. intros TI SH HO SO p ps W H -> CE RC AL PS SP CS pre body post TX PR PO BO.
    assert (PN : ps = []).
    { destruct HO as (_ & _ & _ & _ & _ & _ & _ & _ & _ & _ & _ & _ & _ & _ & Q12 & _). destruct ps as [|q ps]; [reflexivity|]. apply Forall_inv in Q12. destruct Q12 as (_ & _ & _ & _ & _ & _ & _ & Q & _). rewrite CE in Q. discriminate. }
    subst ps. split; [reflexivity|].
    assert (PC : printable (p_cs Qn p)) by (exists 0%Z; rewrite CS; cbn; ring).
    destruct (viewed_text ft wds advance e c p [] SH HO SO PS PC) as (s1 & t1 & E1 & E2 & V1 & R).
    destruct (viewed_text ft wds (fun wd s t l => pens wd s t 0 l) e c p [] SH HO SO PS PC) as (s2 & t2 & E3 & E4 & V2 & _).
    cbn [flat_map] in V1, V2, R. rewrite app_nil_r in V1, V2, R. set (txt := p_text Qn p) in *.
    pose proof (Forall_inv SO) as [_ U]. set (wd := wds (fname (p_font Qn p))) in *.
    destruct (marks_advance (p_fv Qn p) wd s1 t1 (p_size Qn p) (p_cs Qn p) (justOf Qn c) txt 0 0 0 ltac:(lia) R) as (z & S1 & A1). cbn [negb Z.ltb Z.compare] in S1.
    rewrite spacing_zero in A1 by exact CS.
    set (w := inject_Z z * (p_size Qn p / inject_Z 1000)). assert (MW : measured p txt = Some w) by (apply measured_sum; assumption).
    (* the adjustment *)
    set (step := - inject_Z (justifyAdjustment Qn (W - w) (count_sp body) (p_size Qn p)) * milli * p_size Qn p).
    assert (IC : interiorSpaceCount txt = count_sp body).
    { rewrite TX. destruct BO as [->|SB]; [|now apply interior_all]. cbn [app]. rewrite interior_blank; [reflexivity|]. apply Forall_app. auto. }
    assert (JO : match justOf Qn c with Some (a, _, _) => a | None => 0%Z end = justifyAdjustment Qn (W - w) (count_sp body) (p_size Qn p) /\
                 forall j, (match justOf Qn c with Some (a, _, _) => a | None => 0%Z end * stretched (justOf Qn c) (firstn j txt) 0 =
                            justifyAdjustment Qn (W - w)%Q (count_sp body) (p_size Qn p) * count_sp (firstn (j - List.length pre) body))%Z).
    { destruct HO as (Q1 & Q2 & Q2' & Q3 & Q4 & Q5 & Q6 & Q7 & Q8 & Q9 & Q9r & Q9a & Q10 & Q11 & Q12 & Q13). destruct TI as (_ & _ & _ & TR).
      rewrite Q9r, Q11, Q2, Q3, Q5 in TR. cbn [flat_map] in TR. rewrite app_nil_r in TR. fold txt in TR. destruct (TR W H RC) as (T1 & T2 & T3). unfold measured in MW. rewrite MW in T3. injection T3 as T3.
      unfold justOf. rewrite Q9r, RC, Q9, CE, Q9a, AL. cbn [andb]. rewrite Q11. cbn [flat_map]. rewrite app_nil_r. fold txt. rewrite IC, T1, <- T3, Q3. cbn [nsub Qn].
      set (ad := justifyAdjustment Qn (W - w) (count_sp body) (p_size Qn p)). destruct (Z.eqb_spec ad 0) as [->|NZ]; [split; [reflexivity|]; intros j; cbn; lia|].
      destruct (nonSpaceBounds txt) as [fi la] eqn:NB. split; [reflexivity|]. intros j. f_equal. cbn [stretched].
      destruct BO as [->|SB].
      - exfalso. apply NZ. unfold ad, justifyAdjustment, count_sp. cbn. reflexivity.
      - rewrite TX, bounds_of in NB by assumption. injection NB as <- <-. rewrite TX. now apply interior_firstn. }
    destruct JO as [JA JC].
    assert (AL' : forall j, (j = List.length txt)%nat -> (j - List.length pre >= List.length body)%nat) by (intros j ->; rewrite TX, !app_length; lia).
    pose proof (JC (List.length txt)) as JL. rewrite firstn_all in JL. rewrite (firstn_all2 body (AL' _ eq_refl)) in JL. rewrite JL in A1.
    assert (AA : advance wd s1 t1 (marks (p_fv Qn p) (justOf Qn c) 0 0 0 txt) == w + step * inject_Z (count_sp body)).
    { rewrite A1, E1, E2, CS. unfold step, w. rewrite Z.mul_0_l, Z.sub_0_r. unfold Z.sub. rewrite inject_Z_plus, inject_Z_opp, inject_Z_mult. change (inject_Z 1000) with 1000. unfold milli. field. }
    exists w, step. eexists. eexists. split; [exact MW|]. split; [exact V2|]. split; [exact V1|]. split; [|split; [exact AA|]].
    - intros j LJ. destruct (marks_pens (p_fv Qn p) wd s2 t2 (p_size Qn p) (p_cs Qn p) (justOf Qn c) txt 0 0 0 0 ltac:(lia) R j LJ) as (q & zj & N1 & S2 & Q1). cbn [negb Z.ltb Z.compare] in S2.
      exists q. eexists. split; [exact N1|]. split; [apply measured_sum; [exact U|exact S2]|]. rewrite spacing_zero in Q1 by exact CS. rewrite JC in Q1. rewrite Q1, E3, E4, CS. unfold step. rewrite Z.mul_0_l, Z.sub_0_r. unfold Z.sub.
      rewrite inject_Z_plus, inject_Z_opp, inject_Z_mult. change (inject_Z 1000) with 1000. unfold milli. field.
    - destruct (adjustment_fills (W - w) (count_sp body) (p_size Qn p) SP) as [F1 F2]. fold step in F1, F2. split.
      + intros [Z0|LE]; apply F1; [left; lia|right; lra].
      + intros G0 LT. specialize (F2 G0 ltac:(lra)). rewrite AA. assert (EQ : w + step * inject_Z (count_sp body) - W == inject_Z (count_sp body) * step - (W - w)) by ring. rewrite EQ. exact F2.
  Qed.
  (** C38: on a fresh page, after any orderly history, every justified cell is shown as [fills] says. *)
  Theorem C38_justified_fills (s s' : ds Qn) (calls : list (call Qn)) (content : bytes) :
    s_caches Qn s = [] -> s_font Qn s = None -> s_mode Qn s = false -> s_color Qn s = None ->
    fonts_named Qn ft calls -> orderly Qn false calls -> Forall (sound wds) (pieces Qn s calls) ->
    run Qn s calls = Some s' -> content_write Qn rot (s_caches Qn s') = Some content ->
    exists groups, List.concat groups = pieces Qn s calls /\ Forall2 (fun e grp => shown Qn e grp /\ fills e grp) (shows content) groups.
  Proof.
    intros E F M C FN OR SO R W. destruct (shown_caches Qn rot Qn_prints ft s s' calls content E F M C FN OR R W) as (G & ts & CG & SH & K1 & K3).
    exists G. split; [exact CG|]. rewrite <- CG in SO. apply Forall_concat in SO. clear - SH K1 K3 SO. revert G K1 K3 SO. generalize dependent (shows content).
    intros es SH. induction SH as [|e c es ts S1 SH IH]; intros G K1 K3 SO; inversion K1; subst; [constructor|]. inversion K3; subst. inversion SO; subst.
    constructor; [split; [eapply holds_shown; eassumption|eapply holds_fills; eassumption]|now apply IH].
  Qed.
End C38C39.

(** ** Concrete cases *)
Lemma step_font N s c s' : step N s c = Some s' -> s_font N s' = s_font N s \/ exists n f size st, c = SetFont N n f size st /\ s_font N s' = Some (n, f).
Proof.
  destruct c; cbn [step]; try (intros [= <-]; left; reflexivity).
  - intros [= <-]. right. repeat eexists.
  - unfold drawText. destruct (s_font N s) as [[fc f]|] eqn:E; [|discriminate]. destruct (appendContentText _ _ _ _) as [[[l x] y]|]; [|discriminate]. intros [= <-]. left. exact E.
  - unfold drawText. destruct (s_font N s) as [[fc f]|] eqn:E; [|discriminate]. destruct (appendContentText _ _ _ _) as [[[l x] y]|]; [|discriminate]. intros [= <-]. left. exact E.
  - unfold drawText. destruct (s_font N s) as [[fc f]|] eqn:E; [|discriminate]. destruct (appendContentText _ _ _ _) as [[[l x] y]|]; [|discriminate]. intros [= <-]. left. exact E.
  - destruct (s_font N s) as [[fc f]|] eqn:E; [|discriminate]. intros [= <-]. left. exact E.
Qed.
Lemma pieces_font N ft calls : forall s, fonts_named N ft calls -> (forall n f, s_font N s = Some (n, f) -> f = ft n) -> Forall (fun p => p_fv N p = ft (p_font N p)) (pieces N s calls).
Proof.
  induction calls as [|c calls IH]; intros s FN F; cbn [pieces]; [constructor|]. destruct (step N s c) as [s1|] eqn:ST; [|constructor]. apply Forall_app. split.
  - assert (A : forall cell rr al txt, Forall (fun p => p_fv N p = ft (p_font N p)) (piece_at N s cell rr al txt)).
    { intros. unfold piece_at. destruct (s_font N s) as [[n f]|]; constructor; [exact (F n f eq_refl)|constructor]. }
    destruct c; cbn [pieces_of]; try constructor; try apply A. unfold piece_ph. destruct (s_font N s) as [[n f]|]; constructor; [exact (F n f eq_refl)|constructor].
  - apply IH; [intros n f size st H; apply (FN n f size st); now right|]. intros n f E. destruct (step_font _ _ _ _ ST) as [E'|(n' & f' & sz & st & -> & E')]; rewrite E' in E; [now apply F|].
    injection E as <- <-. apply (FN n' f' sz st). now left.
Qed.
Definition dwds : bytes -> Z -> Z := fun _ g => if (g =? 3)%Z then 250%Z else 500%Z.
Definition dok (p : piece Qn) : bool := forallb (fun r => (29 <=? r)%Z && (r <? 65536)%Z) (p_text Qn p).
Lemma dfont_sound calls : fonts_named Qn (fun _ => dfont) calls -> forallb dok (pieces Qn (dpage Qn) calls) = true -> Forall (sound dwds) (pieces Qn (dpage Qn) calls).
Proof.
  intros FN B. pose proof (pieces_font Qn (fun _ => dfont) calls (dpage Qn) FN ltac:(discriminate)) as F. rewrite forallb_forall in B. apply Forall_forall. intros p I.
  rewrite Forall_forall in F. specialize (F p I). cbn beta in F. specialize (B p I). split; [|rewrite F; reflexivity].
  intros r IR. unfold dok in B. rewrite forallb_forall in B. specialize (B r IR). apply andb_true_iff in B as [B1 B2]. rewrite F. cbn [fv_ci fv_cw dfont]. exists (r - 29)%Z. split; [reflexivity|]. split; [lia|].
  unfold dwds. destruct (Z.eqb_spec r 32) as [->|]; [reflexivity|]. replace (r - 29 =? 3)%Z with false by lia. reflexivity.
Qed.
Definition jcell (W : Q) (txt : bytes) : call Qn :=
  CellOpt Qn (Some (Build_rect Qn W (nofZ Qn 20) (defcfg Qn 0))) txt (Build_cellopt Qn oJustify 0 oBottom (nofZ Qn 0) (nofZ Qn 0) (nofZ Qn 0) []) None.
Definition wcalls : list (call Qn) :=
  [SetFont Qn 0 dfont (nofZ Qn 12) 0; SetXY Qn (nofZ Qn 30) (nofZ Qn 40); Text Qn (bs "AV"); Text Qn (bs " b"); SetXY Qn (nofZ Qn 30) (nofZ Qn 60); jcell 100 (bs " x y z ")].
Definition wcontent : bytes := Eval vm_compute in got (outcome Qn (norot Qn) (dpage Qn) wcalls).
(** "AV b" is shown with its kerning and advances by 20.04 points, its measured width; the cell is stretched to
    within a tenth of a point of 100 by steps after "x " and "y " only. *)
Example C39_met : fonts_named Qn (fun _ => dfont) wcalls /\ orderly Qn false wcalls /\ Forall (sound dwds) (pieces Qn (dpage Qn) wcalls) /\
  outcome Qn (norot Qn) (dpage Qn) wcalls = Some wcontent /\ List.length (shows wcontent) = 2%nat /\
  map (fun p => p_text Qn p) (pieces Qn (dpage Qn) wcalls) = [bs "AV"; bs " b"; bs " x y z "] /\
  map (option_map Qred) (map (show_advance dwds) (shows wcontent)) = [Some (501 # 25); Some (12501 # 125)].
Proof.
  assert (FN : fonts_named Qn (fun _ => dfont) wcalls) by (intros n f size st H; repeat (destruct H as [H|H]; [try discriminate H; now injection H as _ <-|]); contradiction).
  split; [exact FN|]. split; [cbn; repeat split; discriminate|]. split; [apply dfont_sound; [exact FN|vm_compute; reflexivity]|]. vm_compute. repeat split; reflexivity.
Qed.
Example C38_met : has (o_align Qn (Build_cellopt Qn oJustify 0 oBottom 0 0 0 [])) oJustify = true /\ bs " x y z " = bs " " ++ bs "x y z" ++ bs " " /\ solid (bs "x y z") /\
  map (option_map (map Qred)) (map (show_pens dwds) (skipn 1 (shows wcontent))) = [Some [3; 9; 12; 13251 # 250; 14001 # 250; 12126 # 125; 12501 # 125]].
Proof.
  split; [reflexivity|]. split; [reflexivity|]. split; [|vm_compute; reflexivity]. split; [exists 120%Z, (bs " y z"); split; [reflexivity|lia]|exists (bs "x y "), 122%Z; split; [reflexivity|lia]].
Qed.

(** With letter spacing the measured width is not the drawn one: 0.1 point at size 12 is measured as 8/1000 em. *)
Definition spcalls : list (call Qn) := [SetFont Qn 0 dfont (nofZ Qn 12) 0; SetCharSpacing Qn (1 # 10); Text Qn (bs "ab")].
Definition spcontent : bytes := Eval vm_compute in got (outcome Qn (norot Qn) (dpage Qn) spcalls).
Theorem C39_spacing_refuted :
  fonts_named Qn (fun _ => dfont) spcalls /\ orderly Qn false spcalls /\ Forall (sound dwds) (pieces Qn (dpage Qn) spcalls) /\
  outcome Qn (norot Qn) (dpage Qn) spcalls = Some spcontent /\
  exists e p w a, shows spcontent = [e] /\ pieces Qn (dpage Qn) spcalls = [p] /\ p_text Qn p = bs "ab" /\ measured p (bs "ab") = Some w /\ show_advance dwds e = Some a /\ ~ a == w.
Proof.
  assert (FN : fonts_named Qn (fun _ => dfont) spcalls) by (intros n f size st H; repeat (destruct H as [H|H]; [try discriminate H; now injection H as _ <-|]); contradiction).
  split; [exact FN|]. split; [cbn; repeat split; discriminate|]. split; [apply dfont_sound; [exact FN|vm_compute; reflexivity]|]. split; [vm_compute; reflexivity|].
  destruct (shows spcontent) as [|e [|]] eqn:SE; [discriminate (f_equal (@List.length event) SE)| |discriminate (f_equal (@List.length event) SE)].
  assert (PL : List.length (pieces Qn (dpage Qn) spcalls) = 1%nat) by (vm_compute; reflexivity). destruct (pieces Qn (dpage Qn) spcalls) as [|p [|]] eqn:PE; try discriminate.
  assert (A : map (fun e => option_map Qred (show_advance dwds e)) (shows spcontent) = [Some (61 # 5)]) by (vm_compute; reflexivity). rewrite SE in A.
  assert (M : map (fun p => (p_text Qn p, option_map Qred (measured p (bs "ab")))) (pieces Qn (dpage Qn) spcalls) = [(bs "ab", Some (1524 # 125))]) by (vm_compute; reflexivity). rewrite PE in M.
  cbn [map] in A, M. injection A as A. assert (M1 := f_equal (fun l => match l with (t, _) :: _ => t | [] => [] end) M). assert (M2 := f_equal (fun l => match l with (_, t) :: _ => t | [] => None end) M). cbn beta iota in M1, M2.
  destruct (show_advance dwds e) as [a|] eqn:EA; [|discriminate]. destruct (measured p (bs "ab")) as [w|] eqn:EM; [|discriminate]. cbn [option_map] in A, M2.
  exists e, p, w, a. repeat (split; [first [reflexivity|assumption]|]). intros EQ. apply Qred_complete in EQ. assert (A' : Qred a = 61 # 5) by congruence. assert (M' : Qred w = 1524 # 125) by congruence. rewrite A', M' in EQ. discriminate.
Qed.
Print Assumptions C39_measured_is_drawn.
Print Assumptions C38_justified_fills.
Print Assumptions C39_spacing_refuted.
