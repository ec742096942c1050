(** PropArg.v — C70: what a call draws is fixed by the values of its arguments at the call; the caller's memory is left alone. *)
From Coq Require Import QArith.
From Verif Require Import Base NumModel UnitModel ArgModel.
Open Scope Z_scope.

Section Spec.
  Variable N : num.
  Variable cfg : ucfg N.
  Notation T := (T N).
  Notation U := (unitsToPoints N cfg).
  Notation R := (unitsToPoints N (defcfg N (u_unit cfg))).
  (** ** Specification *)
  (** The memory as the program itself leaves it: only its own assignments. *)
  Definition own (h : heap N) (c : act N) : heap N :=
    match c with
    | PutNum _ a v => set_num N h a v | PutPt _ a v => set_pt N h a v | PutCrop _ a v => set_crop N h a v | PutMask _ a v => set_mask N h a v
    | _ => h
    end.
  (** What a call asks for, every length converted to points once. *)
  Definition asked (h : heap N) (c : act N) : list (item N) :=
    match c with
    | SetCustomLineType _ dash phase => [IDash N (map (fun a => U (h_num N h a)) dash) (U phase)]
    | Polygon _ pts style => [IPoly N (map (fun a => (U (fst (h_pt N h a)), U (snd (h_pt N h a)))) pts) style]
    | ClipPolygon _ pts => [IClip N (map (fun a => (U (fst (h_pt N h a)), U (snd (h_pt N h a)))) pts)]
    | Image _ x y w hh crop mask =>
        [IImage N (U x) (U y) (R w) (R hh) (option_map (h_crop N h) crop)
           (option_map (fun m : nat * option Z => let o := h_mask N h (fst m) in
              Build_maskopt N (U (mk_x N o)) (U (mk_y N o)) (option_map (fun r => (R (fst r), R (snd r))) (mk_rect N o))
                (mk_gs N o ++ match snd m with Some i => [i] | None => [] end)) mask)]
    | _ => []
    end.
  Fixpoint expected (h : heap N) (l : list (act N)) : list (item N) :=
    match l with [] => [] | c :: r => asked h c ++ expected (own h c) r end.
  Definition ownall (h : heap N) (l : list (act N)) : heap N := fold_left own l h.

  (** The calls that take part of the caller's memory for good: *)
  Definition dashes (c : act N) : list nat := match c with SetCustomLineType _ d _ => d | _ => [] end.
  Definition masks (c : act N) : list nat := match c with Image _ _ _ _ _ _ (Some (a, _)) => [a] | _ => [] end.
  Definition crops (c : act N) : list nat := match c with Image _ _ _ _ _ (Some a) _ => [a] | _ => [] end.
  (** The program neither assigns to nor hands over again a dash array, does not assign to a crop, and does not hand over a mask
      again, after having handed them over. *)
  Definition leaves (du cr ma : list nat) (c : act N) : Prop :=
    match c with
    | PutNum _ a _ => ~ In a du
    | PutCrop _ a _ => ~ In a cr
    | _ => (forall a, In a (dashes c) -> ~ In a du) /\ (forall a, In a (masks c) -> ~ In a ma)
    end.
  Fixpoint careful (l : list (act N)) : Prop :=
    match l with [] => True | c :: r => NoDup (dashes c) /\ Forall (leaves (dashes c) (crops c) (masks c)) r /\ careful r end.

  (** ** Proofs *)
  Lemma conv_dash_spec dash : NoDup dash -> forall h,
    (forall a, h_num N (conv_dash N cfg h dash) a = if existsb (Nat.eqb a) dash then U (h_num N h a) else h_num N h a) /\
    h_pt N (conv_dash N cfg h dash) = h_pt N h /\ h_crop N (conv_dash N cfg h dash) = h_crop N h /\ h_mask N (conv_dash N cfg h dash) = h_mask N h.
  Proof.
    unfold conv_dash. induction dash as [|b dash IH]; intros ND h; [split; [reflexivity|auto]|]. apply NoDup_cons_iff in ND as [NI ND].
    cbn [fold_left]. destruct (IH ND (set_num N h b (pts_of N cfg (h_num N h b)))) as (A & B & C & D). split; [|auto].
    intros a. rewrite A. cbn [existsb h_num set_num]. unfold set. destruct (Nat.eqb_spec a b) as [->|NE]; cbn [orb]; [|reflexivity].
    replace (existsb (Nat.eqb b) dash) with false; [reflexivity|]. symmetry. apply not_true_is_false. intros E. apply existsb_exists in E as (x & I & E). apply Nat.eqb_eq in E. now subst.
  Qed.
  Lemma conv_dash_other dash : forall h,
    (forall a, ~ In a dash -> h_num N (conv_dash N cfg h dash) a = h_num N h a) /\
    h_pt N (conv_dash N cfg h dash) = h_pt N h /\ h_crop N (conv_dash N cfg h dash) = h_crop N h /\ h_mask N (conv_dash N cfg h dash) = h_mask N h.
  Proof.
    unfold conv_dash. induction dash as [|b dash IH]; intros h; [split; [reflexivity|auto]|]. cbn [fold_left].
    destruct (IH (set_num N h b (pts_of N cfg (h_num N h b)))) as (A & B & C & D). split; [|auto]. intros a NI. rewrite A by (intros I; apply NI; now right).
    cbn. unfold set. destruct (Nat.eqb_spec a b) as [->|NE]; [|reflexivity]. exfalso. apply NI. now left.
  Qed.
  (** The document's memory [h] against the program's own [g]: equal but for dash arrays [du] and masks [ma] already taken. *)
  Record agree (du ma : list nat) (h g : heap N) : Prop := {
    ag_num : forall a, ~ In a du -> h_num N h a = h_num N g a;
    ag_pt : forall a, h_pt N h a = h_pt N g a;
    ag_crop : forall a, h_crop N h a = h_crop N g a;
    ag_mask : forall a, ~ In a ma -> h_mask N h a = h_mask N g a }.
  Definition within (du cr : list nat) (k : kept N) : Prop :=
    match k with KDash _ d _ => incl d du | KImage _ _ _ _ _ c _ => (forall a, c = Some a -> In a cr) | _ => True end.
  Lemma write_same du cr h h' d : Forall (within du cr) d -> (forall a, In a du -> h_num N h' a = h_num N h a) -> (forall a, In a cr -> h_crop N h' a = h_crop N h a) ->
    map (write_one N h') d = map (write_one N h) d.
  Proof.
    intros W A B. induction W as [|k d Wk W IH]; [reflexivity|]. cbn [map]. rewrite IH. f_equal. destruct k; cbn [write_one within] in *; try reflexivity.
    - f_equal. apply map_ext_in. intros a I. apply A, Wk, I.
    - destruct crop as [a|]; [|reflexivity]. cbn [option_map]. now rewrite B by (now apply Wk).
  Qed.
  Lemma within_incl du cr du' cr' d : incl du du' -> incl cr cr' -> Forall (within du cr) d -> Forall (within du' cr') d.
  Proof. intros A B. apply Forall_impl. intros k H. destruct k; cbn in *; auto. - eapply incl_tran; eauto. Qed.
  Lemma leaves_app a b c a' b' c' k : leaves a b c k -> leaves a' b' c' k -> leaves (a ++ a') (b ++ b') (c ++ c') k.
  Proof.
    destruct k; cbn; try (intros H K I; apply in_app_iff in I as [I|I]; [now apply H|now apply K]);
      intros [H1 H2] [K1 K2]; (split; [intros q I J; apply in_app_iff in J as [J|J]; [now apply (H1 q I)|now apply (K1 q I)]|
                                       intros q I J; apply in_app_iff in J as [J|J]; [now apply (H2 q I)|now apply (K2 q I)]]).
  Qed.
  Lemma sim l : forall h d g du cr ma, agree du ma h g -> Forall (within du cr) d -> careful l -> Forall (leaves du cr ma) l ->
    let s := fold_left (perform N cfg) l (h, d) in map (write_one N (fst s)) (snd s) = map (write_one N h) d ++ expected g l.
  Proof.
    induction l as [|c l IH]; intros h d g du cr ma A W K L; cbv zeta.
    { cbn [fold_left fst snd expected]. now rewrite app_nil_r. }
    cbn [careful] in K. destruct K as (ND & K1 & K2). apply Forall_cons_iff in L as [Lc L]. cbn [fold_left expected].
    destruct c as [a v|a v|a v|a v|dash phase|pts style|pts|x y w hh crop mask]; cbn [perform asked own app].
    - cbn [leaves] in Lc. rewrite (IH (set_num N h a v) d (set_num N g a v) du cr ma); [|destruct A; split; cbn; unfold set; auto; intros b NB; destruct (Nat.eqb b a); auto|exact W|exact K2|exact L].
      f_equal. apply (write_same du cr); [exact W| |auto]. intros b I. cbn. unfold set. destruct (Nat.eqb_spec b a); [subst; contradiction|reflexivity].
    - rewrite (IH (set_pt N h a v) d (set_pt N g a v) du cr ma); [reflexivity|destruct A; split; cbn; unfold set; auto; intros b; destruct (Nat.eqb b a); auto|exact W|exact K2|exact L].
    - cbn [leaves] in Lc. rewrite (IH (set_crop N h a v) d (set_crop N g a v) du cr ma); [|destruct A; split; cbn; unfold set; auto; intros b; destruct (Nat.eqb b a); auto|exact W|exact K2|exact L].
      f_equal. apply (write_same du cr); [exact W|auto|]. intros b I. cbn. unfold set. destruct (Nat.eqb_spec b a); [subst; contradiction|reflexivity].
    - rewrite (IH (set_mask N h a v) d (set_mask N g a v) du cr ma); [reflexivity|destruct A; split; cbn; unfold set; auto; intros b NB; destruct (Nat.eqb b a); auto|exact W|exact K2|exact L].
    - destruct Lc as [Lc _]. cbn [dashes crops masks] in *. destruct (conv_dash_spec dash ND h) as (CN & CP & CC & CM). set (h' := conv_dash N cfg h dash) in *.
      assert (EX : forall a, existsb (Nat.eqb a) dash = true <-> In a dash).
      { intros a. rewrite existsb_exists. split; [intros (b & I & E); apply Nat.eqb_eq in E; now subst|intros I; exists a; now rewrite Nat.eqb_refl]. }
      rewrite (IH h' _ g (du ++ dash) cr ma).
      + rewrite map_app, <- app_assoc. cbn [map app write_one]. f_equal.
        * apply (write_same du cr); [exact W| |intros; now rewrite CC]. intros a I. rewrite CN. destruct (existsb (Nat.eqb a) dash) eqn:E; [|reflexivity].
          apply EX in E. exfalso. exact (Lc a E I).
        * f_equal. f_equal. apply map_ext_in. intros a I. rewrite CN. rewrite (proj2 (EX a) I). f_equal. apply (ag_num du ma h g A). exact (Lc a I).
      + destruct A as [A1 A2 A3 A4]. split; [|intros; now rewrite CP|intros; now rewrite CC|intros; rewrite CM; auto].
        intros a NI. rewrite in_app_iff in NI. rewrite CN. destruct (existsb (Nat.eqb a) dash) eqn:E; [apply EX in E; exfalso; apply NI; now right|]. apply A1. intros I. apply NI. now left.
      + apply Forall_app. split; [eapply within_incl; [| |exact W]; [intros a I; apply in_or_app; now left|apply incl_refl]|].
        constructor; [|constructor]. cbn. intros a I. apply in_or_app. now right.
      + exact K2.
      + clear - K1 L. induction L as [|k r Hk L IH]; [constructor|]. apply Forall_cons_iff in K1 as [K K1]. constructor; [|auto].
        rewrite <- (app_nil_r cr), <- (app_nil_r ma). now apply leaves_app.
    - rewrite (IH h _ g du cr ma A); [|apply Forall_app; split; [exact W|repeat constructor]|exact K2|exact L].
      rewrite map_app, <- app_assoc. cbn [map app write_one]. do 3 f_equal. apply map_ext. intros a. unfold pair_of, pts_of. now rewrite (ag_pt du ma h g A).
    - rewrite (IH h _ g du cr ma A); [|apply Forall_app; split; [exact W|repeat constructor]|exact K2|exact L].
      rewrite map_app, <- app_assoc. cbn [map app write_one]. do 3 f_equal. apply map_ext. intros a. unfold pair_of, pts_of. now rewrite (ag_pt du ma h g A).
    - destruct Lc as [_ Lc]. cbn [dashes] in *.
      assert (CE : option_map (h_crop N h) crop = option_map (h_crop N g) crop) by (destruct crop; [cbn; now rewrite (ag_crop du ma h g A)|reflexivity]).
      assert (LL : Forall (leaves du (cr ++ crops (Image N x y w hh crop mask)) (ma ++ masks (Image N x y w hh crop mask))) l).
      { clear - K1 L. induction L as [|k r Hk L IH]; [constructor|]. apply Forall_cons_iff in K1 as [K K1]. constructor; [|auto]. rewrite <- (app_nil_r du). now apply leaves_app. }
      assert (WW : forall m, Forall (within du (cr ++ crops (Image N x y w hh crop mask))) (d ++ [KImage N (pts_of N cfg x) (pts_of N cfg y) (fst (rect_of N cfg (w, hh))) (snd (rect_of N cfg (w, hh))) crop m])).
      { intros m. apply Forall_app. split; [eapply within_incl; [apply incl_refl| |exact W]; intros a I; apply in_or_app; now left|]. constructor; [|constructor].
        cbn. intros a ->. apply in_or_app. right. now left. }
      destruct mask as [[a tr]|].
      + rewrite (IH (set_mask N h a (mask_conv N cfg (h_mask N h a) tr)) _ g du (cr ++ crops (Image N x y w hh crop (Some (a, tr)))) (ma ++ [a]));
          [|destruct A as [A1 A2 A3 A4]; split; cbn; unfold set; auto; intros b NB; rewrite in_app_iff in NB; destruct (Nat.eqb_spec b a); [exfalso; apply NB; right; left; auto|apply A4; tauto]|apply WW|exact K2|exact LL].
        rewrite map_app, <- app_assoc. cbn [map app write_one]. cbn [set_mask h_crop option_map fst snd]. f_equal. rewrite CE. do 2 f_equal.
        unfold mask_conv. rewrite (ag_mask du ma h g A a) by (apply Lc; now left). reflexivity.
      + rewrite (IH h _ g du (cr ++ crops (Image N x y w hh crop None)) (ma ++ [])); [|rewrite app_nil_r; exact A|apply WW|exact K2|exact LL].
        rewrite map_app, <- app_assoc. cbn [map app write_one option_map]. now rewrite CE.
  Qed.

  (** ** Proved: a careful program gets on the page exactly what each call asked for when it was made. *)
  Theorem C70_as_asked_partial : forall l h, careful l -> written N cfg l h = expected h l.
  Proof.
    intros l h C. unfold written, perform_all.
    pose proof (sim l h [] h [] [] [] ltac:(split; auto) ltac:(constructor) C) as S. cbv zeta in S.
    destruct (fold_left (perform N cfg) l (h, [])) as [h' d]. cbn [fst snd map app] in S. apply S.
    clear. induction l as [|c l IH]; constructor; [|exact IH]. destruct c; cbn; auto.
  Qed.
  (** ** Proved for every program: nothing of the caller's memory changes but the dash arrays and masks handed over, *)
  Theorem C70_memory_partial : forall l h, let h' := fst (perform_all N cfg l h) in
    (forall a, h_pt N h' a = h_pt N (ownall h l) a) /\ (forall a, h_crop N h' a = h_crop N (ownall h l) a) /\
    (forall a, ~ In a (flat_map dashes l) -> h_num N h' a = h_num N (ownall h l) a) /\
    (forall a, ~ In a (flat_map masks l) -> h_mask N h' a = h_mask N (ownall h l) a).
  Proof.
    intros l h. unfold perform_all, ownall. cbv zeta. generalize (@nil (kept N)) as d. revert h.
    assert (G : forall l h g d du ma, agree du ma h g -> agree (du ++ flat_map dashes l) (ma ++ flat_map masks l) (fst (fold_left (perform N cfg) l (h, d))) (fold_left own l g)).
    { clear. induction l as [|c l IH]; intros h g d du ma A; [cbn [flat_map fold_left fst]; rewrite !app_nil_r; exact A|].
      cbn [flat_map fold_left]. rewrite !app_assoc. destruct (perform N cfg (h, d) c) as [h1 d1] eqn:E. apply IH.
      assert (A' : agree (du ++ dashes c) (ma ++ masks c) h g).
      { destruct A as [A1 A2 A3 A4]. split; auto; intros a NI; [apply A1|apply A4]; intros I; apply NI; apply in_or_app; now left. }
      clear A. destruct A' as [A1 A2 A3 A4].
      destruct c as [a v|a v|a v|a v|dash phase|pts style|pts|x y w hh crop mask]; cbn [perform own dashes masks] in *.
      5:{ injection E as <- _. destruct (conv_dash_other dash h) as (CN & CP & CC & CM). split; [|intros; now rewrite CP|intros; now rewrite CC|intros; rewrite CM; auto].
          intros a NI. rewrite CN by (intros I; apply NI, in_or_app; now right). auto. }
      7:{ destruct mask as [[a tr]|]; injection E as <- _; [|now split]. split; cbn; auto. intros b NB. unfold set. destruct (Nat.eqb_spec b a); [subst; exfalso; apply NB, in_or_app; right; now left|auto]. }
      all: injection E as <- _; split; cbn; unfold set; auto; intros b; try intros NB; try destruct (Nat.eqb b a); auto. }
    intros h d. destruct (G l h h d [] [] ltac:(split; auto)) as [A1 A2 A3 A4]. cbn [app] in *. auto.
  Qed.
  (** and polygons and clip paths are those asked for, whatever else the program does with its memory. *)
  Definition path (i : item N) : bool := match i with IPoly _ _ _ | IClip _ _ => true | _ => false end.
  Theorem C70_points_copied : forall l h, filter path (written N cfg l h) = filter path (expected h l).
  Proof.
    intros l h. unfold written, perform_all.
    assert (G : forall l h g d, (forall a, h_pt N h a = h_pt N g a) -> forall h2,
      filter path (map (write_one N h2) (snd (fold_left (perform N cfg) l (h, d)))) = filter path (map (write_one N h2) d) ++ filter path (expected g l)).
    { clear. induction l as [|c l IH]; intros h g d A h2; [cbn [fold_left snd expected filter]; now rewrite app_nil_r|].
      assert (FP : forall (x : item N) xs, path x = false -> filter path (x :: xs) = filter path xs) by (intros x xs E; cbn [filter]; now rewrite E).
      cbn [fold_left expected]. destruct c as [a v|a v|a v|a v|dash phase|pts style|pts|x y w hh crop mask]; cbn [perform own asked app].
      1-4: apply IH; cbn; unfold set; auto; intros b; destruct (Nat.eqb b a); auto.
      - rewrite (IH _ g); [|intros; now rewrite (proj1 (proj2 (conv_dash_other dash h)))]. rewrite map_app, filter_app, <- app_assoc. reflexivity.
      - rewrite (IH _ g) by exact A. rewrite map_app, filter_app, <- app_assoc. cbn [map write_one filter path app]. f_equal. rewrite (map_ext (fun a0 => pair_of N cfg (h_pt N h a0)) (fun a0 => (U (fst (h_pt N g a0)), U (snd (h_pt N g a0))))); [reflexivity|]. intros a0. unfold pair_of, pts_of. now rewrite A.
      - rewrite (IH _ g) by exact A. rewrite map_app, filter_app, <- app_assoc. cbn [map write_one filter path app]. f_equal. rewrite (map_ext (fun a0 => pair_of N cfg (h_pt N h a0)) (fun a0 => (U (fst (h_pt N g a0)), U (snd (h_pt N g a0))))); [reflexivity|]. intros a0. unfold pair_of, pts_of. now rewrite A.
      - destruct mask as [[a tr]|]; (rewrite (IH _ g); [|exact A]); rewrite map_app, filter_app, <- app_assoc; reflexivity. }
    pose proof (G l h h [] ltac:(auto) (fst (fold_left (perform N cfg) l (h, [])))) as X.
    destruct (fold_left (perform N cfg) l (h, [])) as [h' d]. exact X.
  Qed.
End Spec.
Print Assumptions C70_as_asked_partial.
Print Assumptions C70_memory_partial.
Print Assumptions C70_points_copied.

(** ** Refuted for programs that reuse what they handed over (float64 lengths, unit: inches). *)
Notation n := f64_ofZ.
Ltac vmr := match goal with |- _ = ?b => vm_cast_no_check (eq_refl b) end.
Definition inch : ucfg F64 := defcfg F64 4.
Definition clean : heap F64 :=
  Build_heap F64 (fun _ => n 0) (fun _ => (n 0, n 0)) (fun _ => (n 0, n 0, n 1, n 1)) (fun _ => Build_maskopt F64 (n 1) (n 2) (Some (n 3, n 4)) []).
(** (a) SetCustomLineType with the same slice for two lines: both are drawn with a pattern 72 times too long, *)
Definition dash_twice : list (act F64) :=
  [PutNum F64 0 (n 1); PutNum F64 1 (n 2); SetCustomLineType F64 [0; 1]%nat (n 0); SetCustomLineType F64 [0; 1]%nat (n 0)].
Theorem C70_dash_twice_refuted :
  expected F64 inch clean dash_twice = [IDash F64 [n 72; n 144] (n 0); IDash F64 [n 72; n 144] (n 0)] /\
  written F64 inch dash_twice clean = [IDash F64 [n 5184; n 10368] (n 0); IDash F64 [n 5184; n 10368] (n 0)].
Proof. split; vmr. Qed.
(** and the program's own slice, read back after one call, holds points instead of inches. *)
Theorem C70_dash_memory_refuted : exists l : list (act F64), let h' := fst (perform_all F64 inch l clean) in
  h_num F64 (ownall F64 clean l) 0%nat = n 1 /\ h_num F64 h' 0%nat = n 72.
Proof. exists [PutNum F64 0 (n 1); SetCustomLineType F64 [0%nat] (n 0)]. split; vmr. Qed.
(** (b) Filling the slice anew for a second line changes the first line, drawn before. *)
Definition dash_anew : list (act F64) :=
  [PutNum F64 0 (n 1); SetCustomLineType F64 [0%nat] (n 0); PutNum F64 0 (n 3); SetCustomLineType F64 [0%nat] (n 0)].
Theorem C70_dash_anew_refuted :
  expected F64 inch clean dash_anew = [IDash F64 [n 72] (n 0); IDash F64 [n 216] (n 0)] /\
  written F64 inch dash_anew clean = [IDash F64 [n 216] (n 0); IDash F64 [n 216] (n 0)].
Proof. split; vmr. Qed.
(** (c) An assignment to the crop options after the drawing changes what was drawn. *)
Definition crop_later : list (act F64) :=
  [PutCrop F64 0 (n 5, n 6, n 7, n 8); Image F64 (n 0) (n 0) (n 1) (n 1) (Some 0%nat) None; PutCrop F64 0 (n 9, n 9, n 9, n 9)].
Theorem C70_crop_later_refuted :
  expected F64 inch clean crop_later = [IImage F64 (n 0) (n 0) (n 72) (n 72) (Some (n 5, n 6, n 7, n 8)) None] /\
  written F64 inch crop_later clean = [IImage F64 (n 0) (n 0) (n 72) (n 72) (Some (n 9, n 9, n 9, n 9)) None].
Proof. split; vmr. Qed.
(** (d) The same mask for two drawings: the second time its place and size are converted again and its graphics state is listed twice. *)
Definition mask_twice : list (act F64) :=
  [Image F64 (n 0) (n 0) (n 1) (n 1) None (Some (0%nat, Some 7)); Image F64 (n 0) (n 0) (n 1) (n 1) None (Some (0%nat, Some 7))].
Definition im (m : maskopt F64) := IImage F64 (n 0) (n 0) (n 72) (n 72) None (Some m).
Theorem C70_mask_twice_refuted :
  expected F64 inch clean mask_twice =
    [im (Build_maskopt F64 (n 72) (n 144) (Some (n 216, n 288)) [7]); im (Build_maskopt F64 (n 72) (n 144) (Some (n 216, n 288)) [7])] /\
  written F64 inch mask_twice clean =
    [im (Build_maskopt F64 (n 72) (n 144) (Some (n 216, n 288)) [7]); im (Build_maskopt F64 (n 5184) (n 10368) (Some (n 15552, n 20736)) [7; 7])].
Proof. split; vmr. Qed.
(** The hypothesis of C70_as_asked_partial is met: own memory for each call, the points of a polygon reused freely. *)
Definition tidy : list (act F64) :=
  [PutNum F64 0 (n 1); SetCustomLineType F64 [0%nat] (n 0); PutNum F64 1 (n 3); SetCustomLineType F64 [1%nat] (n 0);
   PutPt F64 0 (n 1, n 2); Polygon F64 [0; 0; 0]%nat []; PutPt F64 0 (n 2, n 2); ClipPolygon F64 [0%nat];
   Image F64 (n 0) (n 0) (n 1) (n 1) (Some 0%nat) (Some (0%nat, Some 7)); PutMask F64 0 (Build_maskopt F64 (n 9) (n 9) None []);
   Image F64 (n 0) (n 0) (n 1) (n 1) (Some 0%nat) (Some (1%nat, None))].
Example C70_careful_met : careful F64 tidy.
Proof.
  cbn. repeat split; repeat constructor; cbn; try (intros a [<-|[]]); try (intros a []); try (intros [H|[]]; discriminate H); try (intros []);
    intros; intuition discriminate.
Qed.
Print Assumptions C70_mask_twice_refuted.
