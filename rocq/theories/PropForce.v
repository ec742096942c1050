(** PropForce.v — C40: the attributes "in force" at a piece of text are those the calls before it asked for. *)
From Coq Require Import QArith.
From Verif Require Import Base StrModel NumModel NumRead UnitModel DrawModel DrawSpec DrawLex DrawNest DrawView PropDraw PropUnit PropText.
Open Scope Z_scope.

(** ** Specification: what the setters called so far ask for, the last call of each kind counting *)
Record look := { k_font : option (Z * fontv); k_size : Q; k_style : Z; k_spacing : Q; k_col : option tcol }.
Definition plain_look : look := {| k_font := None; k_size := 0%Q; k_style := 0; k_spacing := 0%Q; k_col := None |}.
Definition asks (cfg : ucfg Qn) (a : look) (c : call Qn) : look :=
  match c with
  | SetFont _ n f size st => {| k_font := Some (n, f); k_size := size; k_style := st; k_spacing := k_spacing a; k_col := k_col a |}
  | SetFontSize _ v => {| k_font := k_font a; k_size := v; k_style := k_style a; k_spacing := k_spacing a; k_col := k_col a |}
  | SetCharSpacing _ v =>     (* in the document's unit; shown in points *)
      {| k_font := k_font a; k_size := k_size a; k_style := k_style a; k_spacing := (v * points_per_unit (u_unit cfg) (u_conv cfg))%Q; k_col := k_col a |}
  | SetTextColor _ r g b => {| k_font := k_font a; k_size := k_size a; k_style := k_style a; k_spacing := k_spacing a; k_col := Some (RGB r g b) |}
  | SetTextColorCMYK _ c m y k => {| k_font := k_font a; k_size := k_size a; k_style := k_style a; k_spacing := k_spacing a; k_col := Some (CMYK c m y k) |}
  | SetGrayFill _ _ => {| k_font := k_font a; k_size := k_size a; k_style := k_style a; k_spacing := k_spacing a; k_col := None |}
  | _ => a
  end.
Definition in_force (cfg : ucfg Qn) (calls : list (call Qn)) : look := fold_left (asks cfg) calls plain_look.
Definition looks (a : look) (p : piece Qn) : Prop :=
  k_font a = Some (p_font Qn p, p_fv Qn p) /\ (p_size Qn p : Q) == k_size a /\ p_style Qn p = k_style a /\ (p_cs Qn p : Q) == k_spacing a /\ p_col Qn p = k_col a.
Definition text_of_call (c : call Qn) : option (list Z) :=
  match c with Text _ t | Cell _ _ t | CellOpt _ _ t _ _ => Some t | PlaceHolder _ _ => Some [] | _ => None end.

Record agrees (s : ds Qn) (a : look) : Prop := {
  ag_font : s_font Qn s = k_font a; ag_size : (s_size Qn s : Q) == k_size a; ag_style : s_style Qn s = k_style a; ag_cs : (s_cs Qn s : Q) == k_spacing a;
  ag_col : (if s_mode Qn s then s_color Qn s else None) = k_col a }.
Lemma agrees_same s s' a : agrees s a -> s_font Qn s' = s_font Qn s -> s_size Qn s' = s_size Qn s -> s_style Qn s' = s_style Qn s -> s_cs Qn s' = s_cs Qn s ->
  s_mode Qn s' = s_mode Qn s -> s_color Qn s' = s_color Qn s -> agrees s' a.
Proof. intros [A B C D E] F1 F2 F3 F4 F5 F6. constructor; [now rewrite F1|now rewrite F2|now rewrite F3|now rewrite F4|now rewrite F5, F6]. Qed.
Lemma agrees_text s s' a r cell o txt : agrees s a -> drawText Qn s r cell o txt = Some s' -> agrees s' a /\ s_cfg Qn s' = s_cfg Qn s.
Proof.
  intros A. unfold drawText. destruct (s_font Qn s) as [[fc f]|] eqn:F; [|discriminate]. destruct (appendContentText _ _ _ _) as [[[l x] y]|]; [|discriminate].
  intros H. injection H as <-. split; [|reflexivity]. now apply (agrees_same s).
Qed.
Lemma agrees_step s s' a c : agrees s a -> step Qn s c = Some s' -> agrees s' (asks (s_cfg Qn s) a c) /\ s_cfg Qn s' = s_cfg Qn s.
Proof.
  intros A H. destruct c; cbn [step asks] in *; try (now apply (agrees_text _ _ _ _ _ _ _ A H)); try (injection H as <-; split; [now apply (agrees_same s)|reflexivity]).
  all: try (injection H as <-; split; [|reflexivity]; destruct A as [A1 A2 A3 A4 A5]; constructor; cbn; solve [assumption|reflexivity]).
  - injection H as <-. split; [|reflexivity]. destruct A as [A1 A2 A3 A4 A5]. constructor; cbn; try assumption. apply (proj1 (C19_conversion_factor _ _)).
  - destruct (s_font Qn s) as [[fc f]|]; [|discriminate]. injection H as <-. split; [|reflexivity]. now apply (agrees_same s).
Qed.
Lemma agrees_run l : forall s s' a, agrees s a -> run Qn s l = Some s' -> agrees s' (fold_left (asks (s_cfg Qn s)) l a) /\ s_cfg Qn s' = s_cfg Qn s.
Proof.
  induction l as [|c l IH]; intros s s' a A R; cbn [run fold_left] in *; [injection R as <-; now split|].
  destruct (step Qn s c) as [s1|] eqn:S1; [|discriminate]. destruct (agrees_step _ _ _ _ A S1) as [A1 E1]. destruct (IH _ _ _ A1 R) as [A2 E2]. rewrite E1 in A2, E2. now split.
Qed.

(** Every piece of text of a document's history has the font, size, style, spacing and colour the calls before it asked for last; there is
    one piece for each call that draws text, in order, holding that call's text. *)
Definition texts (l : list (call Qn)) : nat := List.length (filter (fun c => match text_of_call c with Some _ => true | None => false end) l).
Lemma pieces_one s s' c : step Qn s c = Some s' -> List.length (pieces_of Qn s c) = texts [c] /\
  forall a t, agrees s a -> text_of_call c = Some t -> exists p, pieces_of Qn s c = [p] /\ looks a p /\ p_text Qn p = match c with PlaceHolder _ _ => [] | _ => fv_add (p_fv Qn p) t end.
Proof.
  intros H. assert (F : text_of_call c <> None -> exists n f, s_font Qn s = Some (n, f)).
  { intros X. destruct c; cbn [text_of_call] in X; try congruence; cbn [step] in H; unfold drawText in H; (destruct (s_font Qn s) as [[n f]|]; [now exists n, f|discriminate H]). }
  split.
  - destruct c; try reflexivity; (destruct F as (n & f & F); [discriminate|]); cbn [pieces_of]; unfold piece_at, piece_ph; rewrite F; reflexivity.
  - intros a t [A1 A2 A3 A4 A5] TC. destruct F as (n & f & F); [congruence|].
    destruct c; try discriminate TC; injection TC as <-; cbn [pieces_of]; unfold piece_at, piece_ph; rewrite F; (eexists; split; [reflexivity|]; unfold looks; cbn [p_font p_fv p_size p_style p_cs p_col p_text]; rewrite <- A1, F; now auto).
Qed.
Lemma texts_app l l' : texts (l ++ l') = (texts l + texts l')%nat.
Proof. unfold texts. now rewrite filter_app, app_length. Qed.
Lemma pieces_app l : forall s s1 l', run Qn s l = Some s1 -> pieces Qn s (l ++ l') = pieces Qn s l ++ pieces Qn s1 l' /\ List.length (pieces Qn s l) = texts l.
Proof.
  induction l as [|c l IH]; intros s s1 l' R; cbn [run pieces app] in *; [injection R as <-; now split|].
  destruct (step Qn s c) as [s2|] eqn:S1; [|discriminate]. destruct (IH _ _ l' R) as [E L]. rewrite E, app_assoc. split; [reflexivity|].
  rewrite app_length, L, (proj1 (pieces_one _ _ _ S1)). change (c :: l) with ([c] ++ l). now rewrite texts_app.
Qed.
Lemma run_app a b : forall s, run Qn s (a ++ b) = match run Qn s a with Some s' => run Qn s' b | None => None end.
Proof. induction a as [|c a IH]; intros s; cbn [run app]; [reflexivity|]. destruct (step Qn s c); [apply IH|reflexivity]. Qed.
Theorem C40_in_force : forall (s s' : ds Qn) (calls : list (call Qn)),
  s_font Qn s = None -> (s_size Qn s : Q) == 0 -> s_style Qn s = 0 -> (s_cs Qn s : Q) == 0 -> s_mode Qn s = false ->
  run Qn s calls = Some s' ->
  List.length (pieces Qn s calls) = texts calls /\
  forall before c after t, calls = before ++ c :: after -> text_of_call c = Some t ->
    exists p, nth_error (pieces Qn s calls) (texts before) = Some p /\ looks (in_force (s_cfg Qn s) before) p /\
      p_text Qn p = match c with PlaceHolder _ _ => [] | _ => fv_add (p_fv Qn p) t end.
Proof.
  intros s s' calls F S0 ST C M R. split; [pose proof (proj2 (pieces_app calls s s' [] R)) as L; exact L|].
  intros before c after t -> TC. rewrite run_app in R. destruct (run Qn s before) as [s1|] eqn:R1; [|discriminate].
  assert (A0 : agrees s plain_look) by (constructor; cbn; try assumption; now rewrite M).
  destruct (agrees_run _ _ _ _ A0 R1) as [A1 E1]. cbn [run] in R. destruct (step Qn s1 c) as [s2|] eqn:S1; [|discriminate].
  destruct (proj2 (pieces_one _ _ _ S1) _ _ A1 TC) as (p & P1 & P2 & P3). exists p. destruct (pieces_app before s s1 (c :: after) R1) as [E L].
  rewrite E, nth_error_app2 by lia. rewrite L, Nat.sub_diag. cbn [pieces]. rewrite S1, P1. split; [reflexivity|]. now split.
Qed.
Print Assumptions C40_in_force.

(** A history that meets the hypotheses: in centimetres, spacing 1/10 cm is 2.83 points. *)
Definition cm0 : ds Qn := Build_ds Qn (Build_ucfg Qn 3 (nofZ Qn 0)) (nofZ Qn 72) (nofZ Qn 800) (nofZ Qn 72) (nofZ Qn 36) 0 None (nofZ Qn 0) 0 (nofZ Qn 0) false None (nofZ Qn 0) (nofZ Qn 1) None [].
Definition fcalls : list (call Qn) :=
  [SetFont Qn 0 dfont (nofZ Qn 12) 0; SetCharSpacing Qn (1 # 10); Text Qn (bs "A"); SetFontSize Qn (nofZ Qn 9); SetTextColor Qn 255 0 0; SetXY Qn (nofZ Qn 2) (nofZ Qn 3); Text Qn (bs "b")].
Example C40_in_force_met : option_map (fun _ => tt) (run Qn cm0 fcalls) = Some tt /\ texts fcalls = 2%nat.
Proof. split; [vm_compute; reflexivity|reflexivity]. Qed.
Example C40_in_force_seen : (map (fun p => (Qred (p_size Qn p), Qred (p_cs Qn p))) (pieces Qn cm0 fcalls)) = [((12 # 1)%Q, (360 # 127)%Q); ((9 # 1)%Q, (360 # 127)%Q)].
Proof. vm_compute. reflexivity. Qed.
Example C40_in_force_asked : (k_spacing (in_force (s_cfg Qn cm0) fcalls) == 360 # 127)%Q.
Proof. vm_compute. reflexivity. Qed.
