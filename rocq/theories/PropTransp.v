(** PropTransp.v — C35: transparency is validated, shared and carried correctly. *)
From Coq Require Import QArith Floats.SpecFloat.
From Verif Require Import Base NumModel NumRead DocModel TrModel PropColour.
Open Scope Z_scope.

(** ** Specification *)
(** The exact value of a finite float64. *)
Definition f64_val (x : f64) : option Q :=
  match x with
  | S754_zero _ => Some 0%Q
  | S754_finite s m e => Some (qsgn s (Qmake (fst (magn m e)) (Z.to_pos (snd (magn m e)))))
  | _ => None
  end.
(** What each drawing call asked for: its own option, else the transparency set before, else nothing. *)
Record want := { a_vars : list (f64 * bytes); a_cur : option (f64 * bytes); a_asked : list (option (f64 * bytes)) }.
Definition a_tstep (w : want) (o : top) : want :=
  match o with
  | Declare t => {| a_vars := a_vars w ++ [(t_alpha t, t_bm t)]; a_cur := a_cur w; a_asked := a_asked w |}
  | Assign v a b => {| a_vars := upd (a_vars w) v (fun _ => (a, b)); a_cur := a_cur w; a_asked := a_asked w |}
  | SetT v => match nth_error (a_vars w) v with
              | Some t => {| a_vars := a_vars w; a_cur := Some t; a_asked := a_asked w |}
              | None => w end
  | ClearT => {| a_vars := a_vars w; a_cur := None; a_asked := a_asked w |}
  | DrawT None => {| a_vars := a_vars w; a_cur := a_cur w; a_asked := a_asked w ++ [a_cur w] |}
  | DrawT (Some v) => {| a_vars := a_vars w; a_cur := a_cur w; a_asked := a_asked w ++ [nth_error (a_vars w) v] |}
  | MaskT | AddT => w
  end.
Definition a_trun (l : list top) : want := fold_left a_tstep l {| a_vars := []; a_cur := None; a_asked := [] |}.
(** The graphics state dictionary a drawing refers to (object number [g], 1-based). *)
Definition gs_object (s : tst) (g : Z) : option bytes := if 0 <? g then body s (Z.to_nat (g - 1)) else None.
Definition gs_dict (alpha3 bm : bytes) : bytes :=
  bs "<<" ++ [NL] ++ bs "	/Type /ExtGState" ++ [NL] ++ bs "	/ca " ++ alpha3 ++ [NL] ++ bs "	/CA " ++ alpha3 ++ [NL]
  ++ bs "	/BM " ++ bm ++ [NL] ++ bs ">>" ++ [NL].
(** A drawing looks as asked: it refers to a graphics state with the asked alpha (three decimals) and blend mode, or,
    asked for nothing more than the default (opaque, normal), to none. *)
Definition looks_as_asked (s : tst) (asked : option (f64 * bytes)) (g : option Z) : Prop :=
  match asked, g with
  | None, None => True
  | Some (a, bm), Some g => gs_object s g = Some (gs_dict (f64_fmt 3 a) bm)
  | Some (a, bm), None => f64_fmt 3 a = bs "1.000" /\ bm = bs "/Normal"
  | None, Some _ => False
  end.
(** The caller does not write to a Transparency it has passed by pointer, and combines alpha 1 with /Normal only. *)
Definition no_assign (o : top) : bool := match o with Assign _ _ _ => false | _ => true end.
Definition tame (o : top) : Prop :=
  match o with Declare t => SFeqb (t_alpha t) (f64_ofZ 1) = true -> t_bm t = bs "/Normal" | _ => True end.

(** ** NewTransparency *)
Lemma range_iff x : float64 x -> x <> S754_nan ->
  ((SFltb x (f64_ofZ 0) || SFltb (f64_ofZ 1) x = false)%bool <-> exists q, f64_val x = Some q /\ (0 <= q)%Q /\ (q <= 1)%Q).
Proof.
  intros V NN. change (f64_ofZ 0) with (S754_zero false). change (f64_ofZ 1) with (S754_finite false 4503599627370496 (-52)).
  destruct x as [s|s| |s m e].
  - split; [|now destruct s]. intros _. exists 0%Q. split; [reflexivity|]. split; discriminate.
  - split; [destruct s; vm_compute; discriminate|]. intros (q & H & _). discriminate.
  - now contradiction NN.
  - cbn [f64_val]. assert (B : Zpos m < 2 ^ 53) by (apply (bounded_small m e); exact V). pose proof (magn_pos m e) as [P1 P2].
    assert (G : 0 < fst (magn m e)). { unfold magn. destruct (0 <=? e) eqn:E; cbn [fst]; [|lia]. assert (0 < 2 ^ e) by (apply Z.pow_pos_nonneg; lia). nia. }
    destruct s.
    + split; [vm_compute; discriminate|]. intros (q & H & Q0 & _). injection H as <-. unfold Qle in Q0. cbn in Q0. lia.
    + assert (C : SFltb (S754_finite false 4503599627370496 (-52)) (S754_finite false m e) = false <-> fst (magn m e) <= snd (magn m e)).
      { unfold SFltb. cbn [SFcompare]. unfold magn. destruct (Z.compare_spec (-52) e) as [EQ|LT|GT].
        - rewrite <- EQ. cbn [fst snd Z.leb Z.compare Z.opp]. change (2 ^ 52) with 4503599627370496.
          change (Pos.compare_cont Eq 4503599627370496 m) with (Pos.compare 4503599627370496 m).
          destruct (Pos.compare_spec 4503599627370496 m) as [E1|E1|E1].
          + subst m. split; [lia|reflexivity].
          + split; [discriminate|]. intros. exfalso. lia.
          + split; [intros _; apply Z.lt_le_incl; exact E1|intros _; reflexivity].
        - split; [discriminate|]. intros H. exfalso.
          assert (K : 2 ^ 52 <= Zpos m).
          { unfold float64, valid_binary, bounded, canonical_mantissa in V. apply andb_true_iff in V as [V _]. apply Zeq_bool_eq in V.
            unfold fexp, prec64, emin, emax64 in V. assert (D : Zpos (digits2_pos m) = 53) by lia.
            clear -D. assert (G : forall p, 2 ^ (Zpos (digits2_pos p) - 1) <= Zpos p).
            { induction p as [p IH|p IH|]; cbn [digits2_pos]; [| |cbn; lia];
                (rewrite Pos2Z.inj_succ; replace (Z.succ (Zpos (digits2_pos p)) - 1) with (Z.succ (Zpos (digits2_pos p) - 1)) by lia;
                 rewrite Z.pow_succ_r by lia; lia). }
            specialize (G m). rewrite D in G. exact G. }
          destruct (Z.leb_spec 0 e) as [E0|E0]; cbn [fst snd] in H.
          + assert (0 < 2 ^ e) by (apply Z.pow_pos_nonneg; lia). assert (2 ^ 52 = 4503599627370496) by reflexivity. nia.
          + assert (2 ^ (- e) <= 2 ^ 51) by (apply Z.pow_le_mono_r; lia). assert (2 ^ 51 < 2 ^ 52) by reflexivity. lia.
        - split; [intros _|reflexivity]. destruct (Z.leb_spec 0 e); [lia|]. cbn [fst snd]. assert (2 ^ 53 <= 2 ^ (- e)) by (apply Z.pow_le_mono_r; lia). lia. }
      change (SFltb (S754_finite false m e) (S754_zero false)) with false. cbn [orb]. rewrite C. cbn [qsgn]. split.
      * intros H. eexists. split; [reflexivity|]. unfold Qle. cbn [Qnum Qden]. rewrite Z2Pos.id by exact P2. lia.
      * intros (q & E & _ & Q1). injection E as <-. unfold Qle in Q1. cbn [Qnum Qden] in Q1. rewrite Z2Pos.id in Q1 by exact P2. lia.
Qed.
Lemma define_iff m : (exists b, defineBlendModeType m = Some b) <-> m = [] \/ In m blend_modes.
Proof.
  unfold defineBlendModeType. destruct m as [|x m]; [split; [now left|intros _; eexists; reflexivity]|]. destruct (existsb _ _) eqn:E.
  - split; [|intros; eexists; reflexivity]. intros _. right. apply existsb_exists in E as (y & I & E). apply list_eqb_eq in E. now subst.
  - split; [intros (b & H); discriminate|]. intros [H|H]; [discriminate|]. exfalso. assert (T : existsb (list_eqb (x :: m)) blend_modes = true); [|congruence].
    apply existsb_exists. exists (x :: m). split; [exact H|now apply list_eqb_eq].
Qed.
(** NewTransparency accepts exactly the alphas in [0,1] and the known blend modes (every float64 except NaN), and
    returns what it was given, the empty mode meaning /Normal. *)
Theorem C35_newtransparency_partial :
  forall (a : f64) (m : bytes), float64 a -> a <> S754_nan ->
    ((exists t, newTransparency a m = Some t) <->
       (exists q, f64_val a = Some q /\ (0 <= q)%Q /\ (q <= 1)%Q) /\ (m = [] \/ In m blend_modes)) /\
    (forall t, newTransparency a m = Some t -> t_alpha t = a /\ t_bm t = match m with [] => bs "/Normal" | _ => m end).
Proof.
  intros a m V NN. rewrite <- (range_iff a V NN), <- define_iff. unfold newTransparency. split.
  - destruct (_ || _)%bool.
    + split; [intros (t & H); discriminate|intros [H _]; discriminate].
    + destruct (defineBlendModeType m) as [b|].
      * split; intros _; [split; [reflexivity|eexists; reflexivity]|eexists; reflexivity].
      * split; [intros (t & H); discriminate|intros [_ (b & H)]; discriminate].
  - intros t. destruct (_ || _)%bool; [discriminate|]. unfold defineBlendModeType. destruct m as [|x m].
    + intros H. injection H as <-. split; reflexivity.
    + destruct (existsb _ _); [|discriminate]. intros H. injection H as <-. split; reflexivity.
Qed.
Print Assumptions C35_newtransparency_partial.
(** NaN passes the range check, and is written into the document as "NaN". *)
Theorem C35_nan_accepted_refuted :
  exists a t l, f64_val a = None /\ newTransparency a [] = Some t /\ l = [Declare t; SetT 0; DrawT None] /\
    exists g b, h_draws (trun l) = [Some g] /\ gs_object (trun l) g = Some b /\ b = gs_dict (bs "NaN") (bs "/Normal") /\ number_val (bs "NaN") = None.
Proof.
  exists S754_nan. eexists. eexists. split; [reflexivity|]. split; [vm_compute; reflexivity|]. split; [reflexivity|].
  eexists. eexists. split; [vm_compute; reflexivity|]. split; [vm_compute; reflexivity|]. split; reflexivity.
Qed.
Print Assumptions C35_nan_accepted_refuted.

(** ** The caches *)
Lemma sep_inj (P : Z -> bool) sep x y r r' : forallb P x = true -> forallb P y = true -> P sep = false ->
  x ++ sep :: r = y ++ sep :: r' -> x = y /\ r = r'.
Proof.
  intros HX HY S. revert y HY. induction x as [|a x IH]; intros [|b y] HY E; cbn [app forallb] in *.
  - injection E as E. now subst.
  - injection E as E1 E2. subst b. rewrite S in HY. discriminate.
  - injection E as E1 E2. subst a. rewrite S in HX. discriminate.
  - injection E as E1 E2. subst b. apply andb_true_iff in HX as [_ HX]. apply andb_true_iff in HY as [_ HY].
    destruct (IH HX y HY E2) as [-> ->]. split; reflexivity.
Qed.
Lemma f3_chars a : forallb numchar (f64_fmt 3 a) = true.
Proof. apply numtext_chars. exact (proj1 F64_prints 3%nat a). Qed.
Lemma getId_inj a b a' b' : f64_fmt 3 a ++ bs "_" ++ b = f64_fmt 3 a' ++ bs "_" ++ b' -> f64_fmt 3 a = f64_fmt 3 a' /\ b = b'.
Proof. intros H. apply (sep_inj numchar 95 _ _ _ _ (f3_chars a) (f3_chars a') eq_refl H). Qed.
Lemma alpha_id_inj a b a' b' : alpha_id a b = alpha_id a' b' -> f64_fmt 3 a = f64_fmt 3 a' /\ b = b'.
Proof.
  unfold alpha_id. intros H. apply app_inv_head in H.
  destruct (sep_inj numchar 59 _ _ _ _ (f3_chars a) (f3_chars a') eq_refl H) as [H1 H2]. split; [exact H1|].
  rewrite H1 in H2. cbn [app bs] in H2. injection H2 as H2. apply app_inv_head in H2. injection H2 as H2. now apply app_inv_tail in H2.
Qed.
Lemma alpha_smask a b i : alpha_id a b <> smask_id i.
Proof. unfold alpha_id, smask_id. cbn. discriminate. Qed.
Lemma dict_inj a b a' b' : gs_dict (f64_fmt 3 a) b = gs_dict (f64_fmt 3 a') b' -> f64_fmt 3 a = f64_fmt 3 a' /\ b = b'.
Proof.
  unfold gs_dict. intros H. do 5 apply app_inv_head in H. destruct (sep_inj numchar NL _ _ _ _ (f3_chars a) (f3_chars a') eq_refl H) as [H1 H2]. split; [exact H1|].
  rewrite H1 in H2. do 4 apply app_inv_head in H2. change ([NL] ++ bs ">>" ++ [NL]) with (NL :: bs ">>" ++ [NL]) in H2. now apply app_inv_tail in H2.
Qed.

(** The object [i] carries (a, bm), up to printing. *)
Definition carries (s : tst) (i : nat) (a : f64) (bm : bytes) : Prop :=
  exists p t, nth_error (h_objs s) i = Some (EAlpha p bm) /\ mem s p = Some t /\ f64_fmt 3 (t_alpha t) = f64_fmt 3 a.
Definition grows (s s' : tst) : Prop :=
  (exists k, h_objs s' = h_objs s ++ k) /\ forall p t, mem s p = Some t -> exists t', mem s' p = Some t' /\ t_alpha t' = t_alpha t.
Lemma grows_refl s : grows s s.
Proof. split; [exists []; now rewrite app_nil_r|]. intros p t H. now exists t. Qed.
Lemma grows_trans a b c : grows a b -> grows b c -> grows a c.
Proof.
  intros [(k & E) M] [(k' & E') M']. split; [exists (k ++ k'); now rewrite E', E, app_assoc|].
  intros p t H. destruct (M p t H) as (t' & H' & A). destruct (M' p t' H') as (t2 & H2 & A2). exists t2. split; [exact H2|congruence].
Qed.
Lemma carries_grows s s' i a b : grows s s' -> carries s i a b -> carries s' i a b.
Proof.
  intros [(k & E) M] (p & t & H1 & H2 & H3). destruct (M p t H2) as (t' & H4 & H5). exists p, t'. split; [|split; [exact H4|congruence]].
  rewrite E. rewrite nth_error_app1; [exact H1|]. apply nth_error_Some. congruence.
Qed.
Record Inv (s : tst) (w : want) : Prop := {
  iv_vars : map (fun t => (t_alpha t, t_bm t)) (h_vars s) = a_vars w;
  iv_ext : forall id i, In (id, i) (h_ext s) -> (exists a b, id = alpha_id a b /\ carries s i a b) \/ exists m, id = smask_id m;
  iv_tr : forall id c, In (id, c) (h_tr s) -> id = getId c /\ exists i, t_gs c = Z.of_nat i + 1 /\ carries s i (t_alpha c) (t_bm c);
  iv_tame : Forall (fun t => SFeqb (t_alpha t) (f64_ofZ 1) = true -> t_bm t = bs "/Normal") (h_vars s);
  iv_cur : looks_as_asked s (a_cur w) (h_cur s);
  iv_draws : Forall2 (looks_as_asked s) (a_asked w) (h_draws s) }.

Lemma looks_carries s a b i : carries s i a b -> looks_as_asked s (Some (a, b)) (Some (Z.of_nat i + 1)).
Proof.
  intros (p & t & H1 & H2 & H3). cbn [looks_as_asked]. unfold gs_object. replace (0 <? Z.of_nat i + 1) with true by lia.
  replace (Z.to_nat (Z.of_nat i + 1 - 1)) with i by lia. unfold body. rewrite H1, H2. cbn [option_map]. f_equal. unfold ext_text, gs_dict, w3. now rewrite H3.
Qed.
Lemma looks_grows s s' x g : grows s s' -> looks_as_asked s x g -> looks_as_asked s' x g.
Proof.
  intros G. destruct x as [[a b]|], g as [g|]; cbn [looks_as_asked]; auto. unfold gs_object. destruct (0 <? g); [|discriminate].
  unfold body. destruct (nth_error (h_objs s) (Z.to_nat (g - 1))) as [o|] eqn:E; [|discriminate].
  destruct G as [(k & Ek) M]. rewrite Ek, nth_error_app1 by (apply nth_error_Some; congruence). rewrite E.
  destruct o; try discriminate. destruct (mem s p) as [t|] eqn:Em; [|discriminate]. destruct (M p t Em) as (t' & H1 & H2). rewrite H1. cbn [option_map]. now rewrite H2.
Qed.
Lemma lookup_in {B} k (l : list (bytes * B)) v : lookup k l = Some v -> In (k, v) l.
Proof.
  induction l as [|[k' v'] l IH]; [discriminate|]. cbn [lookup]. destruct (list_eqb k k') eqn:E.
  - apply list_eqb_eq in E. intros H. injection H as ->. subst. now left.
  - intros H. right. now apply IH.
Qed.
Lemma eq_one a : SFeqb a (f64_ofZ 1) = true -> a = f64_ofZ 1.
Proof.
  change (f64_ofZ 1) with (S754_finite false 4503599627370496 (-52)). unfold SFeqb. destruct a as [s|s| |s m e]; try (destruct s; discriminate); try discriminate.
  cbn [SFcompare]. destruct s; [discriminate|]. destruct (Z.compare_spec e (-52)) as [->|?|?]; try discriminate.
  destruct (Pos.compare_cont Eq m 4503599627370496) eqn:E; try discriminate. apply Pos.compare_eq in E. now subst.
Qed.

Lemma upd_nth {A} (l : list A) : forall i f j, nth_error (upd l i f) j = if Nat.eqb i j then option_map f (nth_error l j) else nth_error l j.
Proof.
  induction l as [|x l IH]; intros [|i] f [|j]; cbn; try reflexivity. now destruct (Nat.eqb i j). apply IH.
Qed.
Lemma mem_store s p t q : mem (store p t s) q = match p, q with
  | Var n, Var m | Priv n, Priv m => if Nat.eqb n m then option_map (fun _ => t) (mem s q) else mem s q
  | _, _ => mem s q end.
Proof. destruct p, q; cbn [mem store h_vars h_priv]; try reflexivity; apply upd_nth. Qed.

Lemma F2_impl {A B} (R S : A -> B -> Prop) l m : (forall x y, R x y -> S x y) -> Forall2 R l m -> Forall2 S l m.
Proof. induction 2; constructor; auto. Qed.
Lemma Forall_upd {A} (P : A -> Prop) l x : forall n, Forall P l -> P x -> Forall P (upd l n (fun _ => x)).
Proof. induction l as [|y l IH]; intros [|n] F H; cbn; try assumption; inversion F; subst; constructor; auto. Qed.

(** save: the returned index carries what the variable holds. *)
Lemma save_ok s w p t : Inv s w -> mem s p = Some t -> (SFeqb (t_alpha t) (f64_ofZ 1) = true -> t_bm t = bs "/Normal") ->
  Inv (snd (save p s)) w /\ grows s (snd (save p s)) /\ looks_as_asked (snd (save p s)) (Some (t_alpha t, t_bm t)) (fst (save p s)).
Proof.
  intros I M T. unfold save. rewrite M. destruct (lookup (getId t) (h_tr s)) as [c|] eqn:L.
  - cbn [fst snd]. split; [exact I|]. split; [apply grows_refl|]. apply lookup_in in L. destruct (iv_tr s w I _ _ L) as (E & i & G & C).
    apply getId_inj in E as [E1 E2]. rewrite G. apply looks_carries. destruct C as (q & u & C1 & C2 & C3). exists q, u. rewrite E2. split; [exact C1|]. split; [exact C2|congruence].
  - destruct (SFeqb (t_alpha t) (f64_ofZ 1)) eqn:ONE; cbn [negb].
    + cbn [fst snd]. split; [exact I|]. split; [apply grows_refl|]. cbn [looks_as_asked]. split; [|now apply T]. apply eq_one in ONE. rewrite ONE. vm_compute. reflexivity.
    + set (r := cachedExt _ _ s).
      assert (X : grows s (snd r) /\ carries (snd r) (fst r) (t_alpha t) (t_bm t) /\ h_vars (snd r) = h_vars s /\ h_priv (snd r) = h_priv s /\
                  h_tr (snd r) = h_tr s /\ h_cur (snd r) = h_cur s /\ h_draws (snd r) = h_draws s /\
                  (forall id i, In (id, i) (h_ext (snd r)) -> In (id, i) (h_ext s) \/ (id = alpha_id (t_alpha t) (t_bm t) /\ i = fst r))).
      { unfold r, cachedExt. destruct (lookup (alpha_id (t_alpha t) (t_bm t)) (h_ext s)) as [i|] eqn:LE; cbn [fst snd].
        - split; [apply grows_refl|]. split; [|repeat split; auto]. apply lookup_in in LE. destruct (iv_ext s w I _ _ LE) as [(a & b & E & C)|(m & E)].
          + apply alpha_id_inj in E as [E1 E2]. destruct C as (q & u & C1 & C2 & C3). exists q, u. rewrite E2. split; [exact C1|]. split; [exact C2|congruence].
          + now apply alpha_smask in E.
        - split; [split; [now exists [EAlpha p (t_bm t)]|]; intros q u H; exists u; split; [destruct q; exact H|reflexivity]|]. split.
          + exists p, t. cbn [h_objs]. rewrite nth_error_app2, Nat.sub_diag by lia. split; [reflexivity|]. split; [destruct p; exact M|reflexivity].
          + repeat split. intros id i [H|H]; [right; injection H as <- <-; now split|now left]. }
      destruct r as [i s1]. cbn [fst snd] in X |- *. destruct X as (G & C & V1 & V2 & V3 & V4 & V5 & V6).
      set (t' := {| t_alpha := t_alpha t; t_bm := t_bm t; t_gs := Z.of_nat i + 1 |}). set (s2 := store p t' _).
      assert (M1 : forall q, mem s1 q = mem s q) by (intros [n|n]; cbn [mem]; now rewrite ?V1, ?V2).
      assert (G2 : grows s1 s2).
      { split; [exists []; unfold s2; cbn; now rewrite app_nil_r|]. intros q u H. unfold s2. rewrite mem_store.
        rewrite M1 in H. assert (H0 : forall q, mem {| h_vars := h_vars s1; h_priv := h_priv s1; h_objs := h_objs s1; h_ext := h_ext s1; h_tr := (getId t', t') :: h_tr s1; h_cur := h_cur s1; h_draws := h_draws s1 |} q = mem s q) by (intros [n|n]; cbn [mem h_vars h_priv]; now rewrite ?V1, ?V2).
        destruct p as [n|n], q as [m|m]; rewrite H0; try (exists u; split; [exact H|reflexivity]);
          destruct (Nat.eqb_spec n m); try (exists u; split; [exact H|reflexivity]); subst m; rewrite M in H; injection H as <-; rewrite M; exists t'; split; reflexivity. }
      assert (GG : grows s s2) by exact (grows_trans s s1 s2 G G2). assert (C2 : carries s2 i (t_alpha t) (t_bm t)) by exact (carries_grows s1 s2 _ _ _ G2 C).
      split; [|split; [exact GG|cbn [t_gs t']; now apply looks_carries]]. constructor.
      * rewrite <- (iv_vars s w I). unfold s2. cbn [h_vars store]. destruct p as [n|n]; [|now rewrite V1]. rewrite V1. cbn [mem] in M. revert M. generalize (h_vars s). clear.
        intros l. revert n. induction l as [|x l IH]; intros [|n] M; cbn in *; try reflexivity; [injection M as ->; reflexivity|now rewrite IH].
      * intros id j H. unfold s2 in H. cbn [h_ext store] in H. apply V6 in H as [H|[-> ->]].
        -- destruct (iv_ext s w I _ _ H) as [(a & b & E & CC)|E]; [left; exists a, b; split; [exact E|eapply carries_grows; eauto]|now right].
        -- left. now exists (t_alpha t), (t_bm t).
      * intros id c H. unfold s2 in H. cbn [h_tr store] in H. destruct H as [H|H].
        -- injection H as <- <-. split; [reflexivity|]. exists i. split; [reflexivity|exact C2].
        -- rewrite V3 in H. destruct (iv_tr s w I _ _ H) as (E & j & E2 & CC). split; [exact E|]. exists j. split; [exact E2|eapply carries_grows; eauto].
      * unfold s2. cbn [h_vars store]. rewrite V1. destruct p as [n|n]; [|apply (iv_tame s w I)]. apply Forall_upd; [apply (iv_tame s w I)|unfold t'; cbn [t_alpha t_bm]; rewrite ONE; discriminate].
      * unfold s2. cbn [h_cur store]. rewrite V4. fold s2. eapply looks_grows; [exact GG|apply I].
      * unfold s2 at 2. cbn [h_draws store]. rewrite V5. eapply F2_impl; [|exact (iv_draws s w I)]. intros x g H. now apply (looks_grows s s2 x g GG).
Qed.

Lemma grows_draw s g : grows s (drawn g s).
Proof. split; [exists []; cbn; now rewrite app_nil_r|]. intros p t H. exists t. split; [destruct p; exact H|reflexivity]. Qed.
Lemma grows_cur s g : grows s (set_cur g s).
Proof. split; [exists []; cbn; now rewrite app_nil_r|]. intros p t H. exists t. split; [destruct p; exact H|reflexivity]. Qed.
Lemma grows_add s o : grows s (add_obj o s).
Proof. split; [exists [o]; reflexivity|]. intros p t H. exists t. split; [destruct p; exact H|reflexivity]. Qed.
Lemma grows_declare s t : grows s (declare t s).
Proof.
  split; [exists []; cbn; now rewrite app_nil_r|]. intros p u H. exists u. split; [|reflexivity]. destruct p; [|exact H]. cbn [mem declare h_vars] in *.
  rewrite nth_error_app1; [exact H|]. apply nth_error_Some. congruence.
Qed.
Lemma grows_copy s t : grows s (snd (copy t s)).
Proof.
  split; [exists []; cbn; now rewrite app_nil_r|]. intros p u H. exists u. split; [|reflexivity]. destruct p; [exact H|]. cbn [mem copy snd h_priv] in *.
  rewrite nth_error_app1; [exact H|]. apply nth_error_Some. congruence.
Qed.
(** A state that grows with the same caches and draws keeps the invariant. *)
Lemma Inv_grows s s' w : Inv s w -> grows s s' -> h_vars s' = h_vars s -> h_ext s' = h_ext s -> h_tr s' = h_tr s -> h_cur s' = h_cur s -> h_draws s' = h_draws s -> Inv s' w.
Proof.
  intros I G E1 E2 E3 E4 E5. constructor; rewrite ?E1, ?E4, ?E5; try apply I.
  - intros id i H. rewrite E2 in H. destruct (iv_ext s w I _ _ H) as [(a & b & E & C)|E]; [left; exists a, b; split; [exact E|eapply carries_grows; eauto]|now right].
  - intros id c H. rewrite E3 in H. destruct (iv_tr s w I _ _ H) as (E & i & E6 & C). split; [exact E|]. exists i. split; [exact E6|eapply carries_grows; eauto].
  - eapply looks_grows; [exact G|apply I].
  - eapply F2_impl; [|apply I]. intros x g H. eapply looks_grows; eauto.
Qed.
Lemma vars_nth s w v : Inv s w -> nth_error (a_vars w) v = option_map (fun t => (t_alpha t, t_bm t)) (nth_error (h_vars s) v).
Proof. intros I. rewrite <- (iv_vars s w I). apply nth_error_map. Qed.
Lemma tame_nth s w v t : Inv s w -> nth_error (h_vars s) v = Some t -> SFeqb (t_alpha t) (f64_ofZ 1) = true -> t_bm t = bs "/Normal".
Proof. intros I H. pose proof (iv_tame s w I) as F. rewrite Forall_forall in F. apply F. eapply nth_error_In; eauto. Qed.

Lemma Inv_drawn s w x g : Inv s w -> looks_as_asked s x g -> Inv (drawn g s) {| a_vars := a_vars w; a_cur := a_cur w; a_asked := a_asked w ++ [x] |}.
Proof.
  intros I L. pose proof (grows_draw s g) as G. constructor; cbn [a_vars a_cur a_asked].
  - apply (iv_vars s w I).
  - intros id i H. destruct (iv_ext s w I _ _ H) as [(a & b & E & C)|E]; [left; exists a, b; split; [exact E|eapply carries_grows; eauto]|now right].
  - intros id c H. destruct (iv_tr s w I _ _ H) as (E & i & E6 & C). split; [exact E|]. exists i. split; [exact E6|eapply carries_grows; eauto].
  - apply (iv_tame s w I).
  - eapply looks_grows; [exact G|]. apply I.
  - change (h_draws (drawn g s)) with (h_draws s ++ [g]). apply Forall2_app.
    + eapply F2_impl; [|apply I]. intros y g' H. eapply looks_grows; eauto.
    + constructor; [|constructor]. eapply looks_grows; eauto.
Qed.
Lemma Inv_cur s w x g : Inv s w -> looks_as_asked s x g -> Inv (set_cur g s) {| a_vars := a_vars w; a_cur := x; a_asked := a_asked w |}.
Proof.
  intros I L. pose proof (grows_cur s g) as G. constructor; cbn [a_vars a_cur a_asked].
  - apply (iv_vars s w I).
  - intros id i H. destruct (iv_ext s w I _ _ H) as [(a & b & E & C)|E]; [left; exists a, b; split; [exact E|eapply carries_grows; eauto]|now right].
  - intros id c H. destruct (iv_tr s w I _ _ H) as (E & i & E6 & C). split; [exact E|]. exists i. split; [exact E6|eapply carries_grows; eauto].
  - apply (iv_tame s w I).
  - eapply looks_grows; eauto.
  - eapply F2_impl; [|apply I]. intros y g' H. eapply looks_grows; eauto.
Qed.
Lemma Inv_smask s w m : Inv s w -> Inv (snd (cachedExt (smask_id m) (ESMask m) s)) w.
Proof.
  intros I. unfold cachedExt. destruct (lookup _ _); [exact I|]. cbn [snd]. set (s' := {| h_vars := _ |}).
  assert (G : grows s s') by (split; [now exists [ESMask m]|]; intros p t H; exists t; split; [destruct p; exact H|reflexivity]).
  constructor.
  - apply (iv_vars s w I).
  - intros id i [H|H]; [injection H as <- <-; right; now exists m|].
    destruct (iv_ext s w I _ _ H) as [(a & b & E & C)|E]; [left; exists a, b; split; [exact E|eapply carries_grows; eauto]|now right].
  - intros id c H. destruct (iv_tr s w I _ _ H) as (E & i & E6 & C). split; [exact E|]. exists i. split; [exact E6|eapply carries_grows; eauto].
  - apply (iv_tame s w I).
  - eapply looks_grows; [exact G|]. apply I.
  - eapply F2_impl; [|apply I]. intros y g' H. eapply looks_grows; eauto.
Qed.
Lemma Inv_step s w o : Inv s w -> no_assign o = true -> tame o -> Inv (tstep s o) (a_tstep w o).
Proof.
  intros I NA TM. destruct o as [t|v a b|v| |[v|]| |]; try discriminate; cbn [tstep a_tstep].
  - pose proof (grows_declare s t) as G. constructor; cbn [a_vars a_cur a_asked].
    + cbn [declare h_vars]. rewrite map_app, (iv_vars s w I). reflexivity.
    + intros id i H. destruct (iv_ext s w I _ _ H) as [(a & b & E & C)|E]; [left; exists a, b; split; [exact E|eapply carries_grows; eauto]|now right].
    + intros id c H. destruct (iv_tr s w I _ _ H) as (E & i & E6 & C). split; [exact E|]. exists i. split; [exact E6|eapply carries_grows; eauto].
    + cbn [declare h_vars]. apply Forall_app. split; [apply (iv_tame s w I)|]. constructor; [exact TM|constructor].
    + eapply looks_grows; [exact G|]. apply I.
    + eapply F2_impl; [|apply I]. intros y g' H. eapply looks_grows; eauto.
  - rewrite (vars_nth s w v I). destruct (nth_error (h_vars s) v) as [t|] eqn:E; cbn [option_map]; [|exact I].
    pose proof (grows_copy s t) as G. destruct (copy t s) as [p s1] eqn:EC. cbn [snd] in G. unfold copy in EC. injection EC as <- <-.
    match goal with |- context [save ?p ?s1] => set (s1' := s1) in *; set (p' := p) in * end.
    assert (I1 : Inv s1' w) by (now apply (Inv_grows s s1' w I G)).
    assert (M1 : mem s1' p' = Some t) by (unfold s1', p'; cbn [mem h_priv]; rewrite nth_error_app2, Nat.sub_diag by lia; reflexivity).
    destruct (save_ok s1' w p' t I1 M1 (tame_nth s w v t I E)) as (I2 & G2 & L). destruct (save p' s1') as [g s2]. cbn [fst snd] in *. now apply Inv_cur.
  - now apply Inv_cur.
  - rewrite (vars_nth s w v I). destruct (nth_error (h_vars s) v) as [t|] eqn:E; cbn [option_map].
    + destruct (save_ok s w (Var v) t I E (tame_nth s w v t I E)) as (I2 & G2 & L). destruct (save (Var v) s) as [g s2]. cbn [fst snd] in *. now apply Inv_drawn.
    + unfold save. cbn [mem]. rewrite E. now apply Inv_drawn.
  - apply Inv_drawn; [exact I|apply I].
  - apply Inv_smask. assert (I1 : Inv (add_obj EOther s) w) by (apply (Inv_grows s _ w I (grows_add s EOther)); reflexivity).
    apply (Inv_grows _ _ w I1 (grows_add _ EOther)); reflexivity.
  - apply (Inv_grows s _ w I (grows_add s EOther)); reflexivity.
Qed.
Lemma Inv_run l : forall s w, Inv s w -> forallb no_assign l = true -> Forall tame l -> Inv (fold_left tstep l s) (fold_left a_tstep l w).
Proof.
  induction l as [|o l IH]; intros s w I H T; [exact I|]. cbn [forallb fold_left] in *. apply andb_true_iff in H as [H1 H2]. inversion T; subst. apply IH; auto. now apply Inv_step.
Qed.
Lemma Inv_init : Inv tinit {| a_vars := []; a_cur := None; a_asked := [] |}.
Proof. constructor; cbn; try constructor; intros; contradiction. Qed.

(** For every history of settings and drawings (any number of variables, masks and other objects in between): each
    drawing refers to a graphics state carrying exactly the alpha (to three decimals) and blend mode in force. *)
Theorem C35_drawings_carry_their_transparency_partial :
  forall (l : list top), forallb no_assign l = true -> Forall tame l ->
    Forall2 (looks_as_asked (trun l)) (a_asked (a_trun l)) (h_draws (trun l)).
Proof. intros l H T. exact (iv_draws _ _ (Inv_run l tinit _ Inv_init H T)). Qed.
Print Assumptions C35_drawings_carry_their_transparency_partial.
(** Two drawings share a graphics state only if they asked for the same alpha (to three decimals) and mode. *)
Lemma Forall2_nth {A B} (R : A -> B -> Prop) l m : Forall2 R l m -> forall i y, nth_error m i = Some y -> exists x, nth_error l i = Some x /\ R x y.
Proof.
  induction 1 as [|x y l m H F IH]; intros [|i] z E; try discriminate.
  - injection E as <-. exists x. split; [reflexivity|exact H].
  - now apply IH.
Qed.
Theorem C35_sharing :
  forall (l : list top) (i j : nat) (g : Z), forallb no_assign l = true -> Forall tame l ->
    nth_error (h_draws (trun l)) i = Some (Some g) -> nth_error (h_draws (trun l)) j = Some (Some g) ->
    exists a a' bm bm', nth_error (a_asked (a_trun l)) i = Some (Some (a, bm)) /\ nth_error (a_asked (a_trun l)) j = Some (Some (a', bm')) /\
      f64_fmt 3 a = f64_fmt 3 a' /\ bm = bm'.
Proof.
  intros l i j g H T D1 D2. pose proof (C35_drawings_carry_their_transparency_partial l H T) as F.
  destruct (Forall2_nth _ _ _ F _ _ D1) as (x1 & E1 & L1). destruct (Forall2_nth _ _ _ F _ _ D2) as (x2 & E2 & L2).
  destruct x1 as [[a b]|]; [|contradiction]. destruct x2 as [[a' b']|]; [|contradiction]. cbn [looks_as_asked] in L1, L2.
  exists a, a', b, b'. split; [exact E1|]. split; [exact E2|]. apply dict_inj. congruence.
Qed.
Print Assumptions C35_sharing.

Definition half : f64 := S754_finite false 4503599627370496 (-53).
Definition tr (a : f64) (m : string) : transp := {| t_alpha := a; t_bm := bs m; t_gs := 0 |}.
Definition tdemo : list top :=
  [Declare (tr half "/Multiply"); Declare (tr half "/Normal"); Declare (tr (f64_ofZ 1) "/Normal"); SetT 0; DrawT None; MaskT; DrawT (Some 1%nat);
   SetT 2; DrawT None; SetT 0; AddT; DrawT None; ClearT; DrawT None].
Example C35_met : forallb no_assign tdemo = true /\ Forall tame tdemo /\
  h_draws (trun tdemo) = [Some 5; Some 9; None; Some 5; None] /\
  gs_object (trun tdemo) 5 = Some (gs_dict (bs "0.500") (bs "/Multiply")) /\ gs_object (trun tdemo) 9 = Some (gs_dict (bs "0.500") (bs "/Normal")).
Proof.
  split; [reflexivity|]. split.
  - repeat constructor; cbn; intros H; try reflexivity; vm_compute in H; discriminate.
  - vm_compute. repeat split; reflexivity.
Qed.

(** Refuted without the restrictions.  A blend mode asked for with alpha 1 is dropped: *)
Theorem C35_opaque_blend_mode_refuted :
  exists t l, newTransparency (f64_ofZ 1) (bs "/Multiply") = Some t /\ l = [Declare t; SetT 0; DrawT None] /\
    a_asked (a_trun l) = [Some (f64_ofZ 1, bs "/Multiply")] /\ h_draws (trun l) = [None].
Proof. eexists. eexists. split; [vm_compute; reflexivity|]. split; [reflexivity|]. split; vm_compute; reflexivity. Qed.
Print Assumptions C35_opaque_blend_mode_refuted.
(** … and changing a Transparency after passing it by pointer changes earlier drawings, and those of others: *)
Theorem C35_later_assignment_refuted :
  exists l g, Forall tame l /\ a_asked (a_trun l) = [Some (half, bs "/Normal"); Some (half, bs "/Normal")] /\
    h_draws (trun l) = [Some g; Some g] /\ gs_object (trun l) g = Some (gs_dict (bs "0.000") (bs "/Normal")).
Proof.
  exists [Declare (tr half "/Normal"); Declare (tr half "/Normal"); DrawT (Some 0%nat); Assign 0 (f64_ofZ 0) (bs "/Normal"); DrawT (Some 1%nat)]. eexists.
  split; [repeat constructor; cbn; intros H; reflexivity|]. split; [vm_compute; reflexivity|]. split; [vm_compute; reflexivity|vm_compute; reflexivity].
Qed.
Print Assumptions C35_later_assignment_refuted.

(** ** Masks *)
Definition keys_ok (s : tst) : Prop :=
  forall id i, In (id, i) (h_ext s) -> (exists a b, id = alpha_id a b) \/ exists m, id = smask_id m /\ (m < List.length (h_objs s))%nat.
Lemma keys_grow s s' : keys_ok s -> h_ext s' = h_ext s -> (List.length (h_objs s) <= List.length (h_objs s'))%nat -> keys_ok s'.
Proof. intros K E L id i H. rewrite E in H. destruct (K id i H) as [A|(m & A & B)]; [now left|right; exists m; split; [exact A|lia]]. Qed.
Lemma keys_alpha s a b o : keys_ok s -> keys_ok (snd (cachedExt (alpha_id a b) o s)).
Proof.
  intros K. unfold cachedExt. destruct (lookup _ _); [exact K|]. cbn [snd]. intros id i H. cbn [h_ext h_objs] in *. destruct H as [H|H].
  - left. exists a, b. now injection H as <- _.
  - destruct (K id i H) as [A|(m & A & B)]; [now left|right; exists m; split; [exact A|rewrite app_length; lia]].
Qed.
Lemma keys_save p s : keys_ok s -> keys_ok (snd (save p s)).
Proof.
  intros K. unfold save. destruct (mem s p) as [t|]; [|exact K]. destruct (lookup _ (h_tr s)); [exact K|]. destruct (negb _); [|exact K].
  pose proof (keys_alpha s (t_alpha t) (t_bm t) (EAlpha p (t_bm t)) K) as K1. destruct (cachedExt _ _ s) as [i s1]. cbn [snd] in *.
  apply (keys_grow s1); [exact K1|reflexivity|apply le_n].
Qed.
Lemma sm_inj a b : fmt_d (Z.of_nat a) = fmt_d (Z.of_nat b) -> a = b.
Proof.
  unfold fmt_d. replace (Z.of_nat a <? 0) with false by lia. replace (Z.of_nat b <? 0) with false by lia. intros H.
  apply dec_inj in H; lia.
Qed.
Lemma smask_fresh s : keys_ok s -> lookup (smask_id (List.length (h_objs s))) (h_ext s) = None.
Proof.
  intros K. destruct (lookup _ _) as [i|] eqn:L; [|reflexivity]. apply lookup_in in L. destruct (K _ _ L) as [(a & b & E)|(m & E & B)].
  - symmetry in E. now apply alpha_smask in E.
  - unfold smask_id in E. apply app_inv_head in E. apply app_inv_tail in E. apply sm_inj in E. lia.
Qed.
Lemma mask_step s : keys_ok s ->
  h_objs (tstep s MaskT) = h_objs s ++ [EOther; EOther; ESMask (S (List.length (h_objs s)))] /\ keys_ok (tstep s MaskT).
Proof.
  intros K. cbn [tstep]. set (s2 := add_obj EOther (add_obj EOther s)).
  assert (L1 : List.length (h_objs (add_obj EOther s)) = S (List.length (h_objs s))) by (cbn [add_obj h_objs]; rewrite app_length; cbn; lia).
  assert (L2 : List.length (h_objs s2) = S (S (List.length (h_objs s)))) by (unfold s2; cbn [add_obj h_objs]; rewrite !app_length; cbn; lia).
  rewrite L1. assert (F : lookup (smask_id (S (List.length (h_objs s)))) (h_ext s2) = None).
  { rewrite <- L1. change (h_ext s2) with (h_ext (add_obj EOther s)). apply smask_fresh. apply (keys_grow s); [exact K|reflexivity|rewrite L1; lia]. }
  unfold cachedExt. rewrite F. cbn [snd h_objs]. split.
  - unfold s2. cbn [add_obj h_objs]. rewrite <- !app_assoc. reflexivity.
  - intros id i H. cbn [h_ext h_objs] in *. destruct H as [H|H].
    + right. eexists. split; [now injection H as <- _|]. rewrite app_length, L2. lia.
    + destruct (K id i H) as [A|(m & A & B)]; [now left|right; exists m; split; [exact A|rewrite app_length, L2; lia]].
Qed.
Lemma keys_step s o : keys_ok s -> keys_ok (tstep s o).
Proof.
  intros K. destruct o as [t|v a b|v| |[v|]| |].
  - apply (keys_grow s); [exact K|reflexivity|apply le_n].
  - cbn [tstep]. destruct (nth_error _ _); [|exact K]. apply (keys_grow s); [exact K|reflexivity|apply le_n].
  - cbn [tstep]. destruct (nth_error (h_vars s) v) as [t|]; [|exact K]. destruct (copy t s) as [p s1] eqn:EC.
    assert (K1 : keys_ok s1) by (injection EC as _ <-; apply (keys_grow s); [exact K|reflexivity|apply le_n]).
    apply (keys_save p) in K1. destruct (save p s1) as [g s2]. apply (keys_grow s2); [exact K1|reflexivity|apply le_n].
  - apply (keys_grow s); [exact K|reflexivity|apply le_n].
  - cbn [tstep]. pose proof (keys_save (Var v) s K) as K1. destruct (save _ s) as [g s2]. apply (keys_grow s2); [exact K1|reflexivity|apply le_n].
  - apply (keys_grow s); [exact K|reflexivity|apply le_n].
  - now apply mask_step.
  - apply (keys_grow s); [exact K|reflexivity|cbn; rewrite app_length; lia].
Qed.
(** Whatever was drawn, set or masked before (and whatever the caller wrote into its own variables meanwhile), a new
    masked image gets a graphics state of its own, naming its own mask: masks are never confused with each other. *)
Theorem C35_masks_own_state :
  forall (l : list top), h_objs (trun (l ++ [MaskT])) = h_objs (trun l) ++ [EOther; EOther; ESMask (S (List.length (h_objs (trun l))))].
Proof.
  intros l. unfold trun. rewrite fold_left_app. cbn [fold_left]. apply mask_step.
  assert (G : forall l s, keys_ok s -> keys_ok (fold_left tstep l s)) by (clear; induction l as [|o l IH]; intros s K; [exact K|]; cbn [fold_left]; apply IH; now apply keys_step).
  apply G. intros id i H. contradiction.
Qed.
Print Assumptions C35_masks_own_state.
Example C35_two_masks : h_objs (trun [MaskT; AddT; MaskT]) =
  repeat EOther 4 ++ [EOther; EOther; ESMask 5; EOther; EOther; EOther; ESMask 9].
Proof. reflexivity. Qed.
