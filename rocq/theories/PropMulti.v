(** PropMulti.v — C64: a paragraph is drawn line by line, every line where it belongs. *)
From Coq Require Import QArith Qabs Lqa.
From Verif Require Import Base StrModel NumModel NumRead UnitModel PropUnit DrawModel DrawSpec DrawLex DrawNest DrawView PropDraw PropText PropWidth PropAlign MultiModel.
Require Verif.SplitModel.
Open Scope Z_scope.
Local Open Scope Q_scope.

(** ** Specification *)
(** Every character AddChars hands back has a width (C24). *)
Definition all_widths (f : fontv) : Prop := forall t r, In r (fv_add f t) -> fv_cw f r <> None.
(** The alignment of a line: the last line of a justified paragraph is set flush left instead, all else as asked. *)
Definition aligned_as (al : Z) (last : bool) (al' : Z) : Prop :=
  (last = true -> Z.testbit al 6 = true ->
     Z.testbit al' 6 = false /\ Z.testbit al' 3 = true /\ forall b, b <> 6%Z -> b <> 3%Z -> Z.testbit al' b = Z.testbit al b) /\
  (last = false \/ Z.testbit al 6 = false -> al' = al).
(** The pieces of text of a paragraph drawn in state [s]: piece [i] is line [i], in the look in force, at the x of the
    call, [i] steps below its y, in a box of the given width and height (points). *)
Definition paragraph (s : ds Qn) (f : fontv) (lines : list (list Z)) (W H down : Q) (al : Z) (ps : list (piece Qn)) : Prop :=
  List.length ps = List.length lines /\
  forall i l, nth_error lines i = Some l -> exists p w h,
    nth_error ps i = Some p /\ p_text Qn p = fv_add f l /\ p_cell Qn p = true /\
    p_x Qn p == s_x Qn s /\ p_y Qn p == s_y Qn s + inject_Z (Z.of_nat i) * down /\
    p_rect Qn p = Some (w, h) /\ w == W /\ h == H /\
    aligned_as al (Nat.eqb (S i) (List.length lines)) (p_align Qn p) /\
    p_fv Qn p = f /\ (exists n, s_font Qn s = Some (n, f) /\ p_font Qn p = n) /\ p_size Qn p = s_size Qn s /\ p_cs Qn p = s_cs Qn s /\
    p_style Qn p = s_style Qn s /\ p_pageH Qn p = s_pageH Qn s /\ p_gray Qn p = s_gray Qn s /\
    p_col Qn p = if s_mode Qn s then s_color Qn s else None.
(** The last call set the cursor. *)
Definition ends_setX (l : list (call Qn)) : Prop := exists l' c, l = l' ++ [c] /\ match c with SetX _ _ | SetXY _ _ _ => True | _ => False end.
(** One of gopdf's own units; Config.ConversionForUnit is not set (C19 refutes its uniform use). *)
Definition own_unit (s : ds Qn) : Prop := u_conv (s_cfg Qn s) = 0.
Definition in_points (s : ds Qn) (v : Q) : Q := v * points_per_unit (u_unit (s_cfg Qn s)) 0.

(** ** Proofs *)
Lemma sumWidth_some N f size cs t : (forall r, In r t -> fv_cw f r <> None) -> forall b lr lg, sumWidth N f size cs b lr lg t <> None.
Proof.
  induction t as [|r t IH]; intros H b lr lg; cbn [sumWidth]; [discriminate|]. destruct (fv_ci f r) as [g|].
  - destruct (fv_cw f r) as [wd|] eqn:E; [|exfalso; apply (H r); [now left|exact E]].
    destruct (sumWidth N f size cs false r g t) eqn:E2; [discriminate|]. exfalso. revert E2. apply IH. intros x I. apply H. now right.
  - apply IH. intros x I. apply H. now right.
Qed.
(** No text is pending: the last thing on the page is not a Text drawn since the cursor was set. *)
Definition settled (s : ds Qn) : Prop := forall pre c, splitLast Qn (s_caches Qn s) = (pre, Some (CText Qn c)) -> c_rect Qn c = None -> c_setx Qn c <> s_setx Qn s.
(** Everything but the cursor and the caches. *)
Definition same_look (s s' : ds Qn) : Prop :=
  s_cfg Qn s' = s_cfg Qn s /\ s_font Qn s' = s_font Qn s /\ s_size Qn s' = s_size Qn s /\ s_style Qn s' = s_style Qn s /\ s_cs Qn s' = s_cs Qn s /\
  s_mode Qn s' = s_mode Qn s /\ s_color Qn s' = s_color Qn s /\ s_gray Qn s' = s_gray Qn s /\ s_pageH Qn s' = s_pageH Qn s /\ s_tr Qn s' = s_tr Qn s /\ s_ml Qn s' = s_ml Qn s.
Lemma look_refl s : same_look s s.
Proof. repeat split. Qed.
Lemma look_trans a b c : same_look a b -> same_look b c -> same_look a c.
Proof. unfold same_look. intros H1 H2. decompose [and] H1. decompose [and] H2. repeat split; congruence. Qed.
Lemma splitLast_snoc (l : list (cache Qn)) c : splitLast Qn (l ++ [c]) = (l, Some c).
Proof. unfold splitLast. rewrite rev_app_distr. cbn. now rewrite rev_involutive. Qed.
Lemma rect_pts s wd ht : own_unit s -> exists w h, rectPts Qn s (cellRect Qn wd ht) = Some (w, h) /\ w == in_points s wd /\ h == in_points s ht.
Proof.
  intros U. unfold rectPts, cellRect. eexists. eexists. split; [reflexivity|]. unfold rectU2P, rectU2P_cfg, rectCfg. cbn [r_w r_h r_over u_unit defcfg Z.eqb].
  split; unfold in_points; rewrite (proj1 (C19_conversion_factor _ _)); reflexivity.
Qed.
Lemma round_trip_pts s (v : Q) : u2p Qn s (pointsToUnits Qn (s_cfg Qn s) v) == v.
Proof. unfold u2p. apply (C19_round_trip (s_cfg Qn s) v). Qed.
Definition fresh_text (s : ds Qn) (fc : Z) (f : fontv) (r : Q * Q) (o : cellopt Qn) (txt : list Z) (tw : Q) : ctext Qn :=
  setText Qn (mkText Qn s fc f (Some r) true false o) txt (fst r, snd r, tw).
Lemma one_cell s n f rw rh o txt : s_font Qn s = Some (n, f) -> (fv_upem f =? 0)%Z = false -> all_widths f -> settled s ->
  exists s' tw, drawText Qn s (Some (rw, rh)) true o txt = Some s' /\ same_look s s' /\ s_setx Qn s' = s_setx Qn s /\
    s_caches Qn s' = s_caches Qn s ++ [CText Qn (fresh_text s n f (rw, rh) o (fv_add f txt) tw)] /\
    s_y Qn s' = (if has (o_float Qn o) oBottom then nadd Qn (s_y Qn s) rh else s_y Qn s).
Proof.
  intros F U AW ST. unfold drawText. rewrite F.
  assert (B : (match splitLast Qn (s_caches Qn s) with
               | (pre, Some (CText _ c)) => if isSame Qn c (mkText Qn s n f (Some (rw, rh)) true false o) then (pre, c) else (s_caches Qn s, mkText Qn s n f (Some (rw, rh)) true false o)
               | _ => (s_caches Qn s, mkText Qn s n f (Some (rw, rh)) true false o)
               end) = (s_caches Qn s, mkText Qn s n f (Some (rw, rh)) true false o)).
  { destruct (splitLast Qn (s_caches Qn s)) as [pre [[]|]] eqn:E; try reflexivity. specialize (ST pre _ E). unfold isSame.
    match type of E with _ = (_, Some (CText _ ?t0)) => set (t := t0) in * end. destruct (c_rect Qn t) eqn:R; [reflexivity|]. specialize (ST eq_refl). cbn [mkText c_setx].
    replace (c_setx Qn t =? s_setx Qn s)%Z with false by (symmetry; apply Z.eqb_neq; exact ST). rewrite !andb_false_r. reflexivity. }
  unfold appendContentText. rewrite B. cbn [mkText c_text c_font c_size c_cs c_rect app].
  unfold createContent. rewrite U. destruct (sumWidth Qn f (s_size Qn s) (s_cs Qn s) true 0 0 (fv_add f txt)) as [z|] eqn:SW.
  2:{ exfalso. revert SW. apply sumWidth_some. intros r. apply AW. }
  eexists. eexists. split; [reflexivity|]. cbn [withxy withc s_setx s_caches s_y]. split; [repeat split|]. split; [reflexivity|]. split; [reflexivity|].
  unfold setText. cbn [mkText c_opt c_y c_ch]. reflexivity.
Qed.
(** One line: cell, Br, SetX. *)
Lemma settled_cell s s' c : s_caches Qn s' = s_caches Qn s ++ [CText Qn c] -> c_rect Qn c <> None -> settled s'.
Proof. intros E R pre d H. rewrite E, splitLast_snoc in H. injection H as _ <-. intros X. contradiction. Qed.

Lemma down0 (a b : Q) : a == a + inject_Z (Z.of_nat 0) * b.
Proof. change (inject_Z (Z.of_nat 0)) with 0. ring. Qed.
Lemma downS (y d z : Q) k : z == y + d -> z + inject_Z (Z.of_nat k) * d == y + inject_Z (Z.of_nat (S k)) * d.
Proof. intros ->. rewrite Nat2Z.inj_succ. unfold Z.succ. rewrite inject_Z_plus. change (inject_Z 1) with 1. ring. Qed.
(** A loop of lines, for a call [cellc] drawing one line in a box. *)
Section Loop.
  Variables (n : Z) (f : fontv) (lh x : Q) (rw rh : Q).
  Variable mk : list Z -> bool -> call Qn.                  (* the cell call for a line; true: the last one *)
  Variable opt : ds Qn -> bool -> cellopt Qn.
  Fixpoint loop (s : ds Qn) (lines : list (list Z)) : ds Qn :=
    match lines with
    | [] => s
    | l :: rest =>
        let s := silently Qn s (mk l (match rest with [] => true | _ => false end)) in
        let s := silently Qn s (Br Qn lh) in
        let s := silently Qn s (SetX Qn x) in
        loop s rest
    end.
  Fixpoint calls_of (lines : list (list Z)) : list (call Qn) :=
    match lines with
    | [] => []
    | l :: rest => mk l (match rest with [] => true | _ => false end) :: Br Qn lh :: SetX Qn x :: calls_of rest
    end.
  Hypothesis mk_draws : forall s l b, same_look s s -> rectPts Qn s (cellRect Qn rw rh) <> None ->
    step Qn s (mk l b) = drawText Qn s (rectPts Qn s (cellRect Qn rw rh)) true (opt s b) l /\
    pieces_of Qn s (mk l b) = piece_at Qn s true (rectPts Qn s (cellRect Qn rw rh)) (o_align Qn (opt s b)) l.
  Hypothesis mk_orderly : forall l b r, orderly Qn false r -> orderly Qn false (mk l b :: r).
  Hypothesis opt_look : forall s s' b, same_look s s' -> opt s' b = opt s b.
  Hypothesis opt_float : forall s b, o_float Qn (opt s b) = o_float Qn (opt s true).
  Definition step_down (s : ds Qn) : Q := u2p Qn s lh + if has (o_float Qn (opt s true)) oBottom then in_points s rh else 0.
  Lemma one_line s l b : s_font Qn s = Some (n, f) -> (fv_upem f =? 0)%Z = false -> all_widths f -> settled s -> own_unit s ->
    exists s1 s2 s3 w h, step Qn s (mk l b) = Some s1 /\ step Qn s1 (Br Qn lh) = Some s2 /\ step Qn s2 (SetX Qn x) = Some s3 /\
      same_look s s3 /\ settled s3 /\ s_x Qn s3 == u2p Qn s x /\ s_y Qn s3 == s_y Qn s + step_down s /\
      rectPts Qn s (cellRect Qn rw rh) = Some (w, h) /\ w == in_points s rw /\ h == in_points s rh /\
      pieces_of Qn s (mk l b) = piece_at Qn s true (Some (w, h)) (o_align Qn (opt s b)) l /\ pieces_of Qn s1 (Br Qn lh) = [] /\ pieces_of Qn s2 (SetX Qn x) = [] /\
      (exists t, s_caches Qn s3 = s_caches Qn s ++ [CText Qn t] /\ c_opt Qn t = opt s b).
  Proof using mk_draws opt_float.
    intros F U AW ST OU. destruct (rect_pts s rw rh OU) as (w & h & R & W1 & H1).
    destruct (mk_draws s l b (look_refl s)) as [D P]; [congruence|]. rewrite R in D, P.
    destruct (one_cell s n f w h (opt s b) l F U AW ST) as (s1 & tw & E & LK & SX & CA & Y). rewrite E in D.
    exists s1. eexists. eexists. exists w, h. split; [exact D|]. split; [reflexivity|]. split; [reflexivity|].
    assert (S1 : settled s1) by (eapply settled_cell; [exact CA|discriminate]).
    assert (CF : s_cfg Qn s1 = s_cfg Qn s) by apply LK.
    split; [eapply look_trans; [exact LK|]; repeat split|]. split.
    { intros pre c Hs R0. cbn [withxy s_caches s_setx] in *. rewrite CA, splitLast_snoc in Hs. injection Hs as _ <-. discriminate R0. }
    split; [cbn [withxy s_x]; unfold u2p; cbn [withxy s_cfg]; rewrite CF; reflexivity|]. split.
    { cbn [withxy s_y]. rewrite Y. unfold step_down, u2p. rewrite CF, (opt_float s b). set (a := unitsToPoints Qn (s_cfg Qn s) lh). set (y := s_y Qn s). destruct (has (o_float Qn (opt s true)) oBottom).
      - assert (Z0 : (y + h) + a == y + (a + in_points s rh)) by (rewrite H1; ring). exact Z0.
      - assert (Z0 : y + a == y + (a + 0)) by ring. exact Z0. }
    split; [exact R|]. split; [exact W1|]. split; [exact H1|]. split; [exact P|]. split; [reflexivity|]. split; [reflexivity|].
    eexists. split; [cbn [withxy s_caches]; exact CA|reflexivity].
  Qed.
  Lemma loop_ok lines : forall s, s_font Qn s = Some (n, f) -> (fv_upem f =? 0)%Z = false -> all_widths f -> settled s -> own_unit s ->
    u2p Qn s x == s_x Qn s ->
    run Qn s (calls_of lines) = Some (loop s lines) /\ same_look s (loop s lines) /\ orderly Qn false (calls_of lines) /\
    s_x Qn (loop s lines) == s_x Qn s /\ s_y Qn (loop s lines) == s_y Qn s + inject_Z (Z.of_nat (List.length lines)) * step_down s /\
    List.length (pieces Qn s (calls_of lines)) = List.length lines /\
    forall i l, nth_error lines i = Some l -> exists p w h, nth_error (pieces Qn s (calls_of lines)) i = Some p /\ p_text Qn p = fv_add f l /\
      p_cell Qn p = true /\ p_x Qn p == s_x Qn s /\ p_y Qn p == s_y Qn s + inject_Z (Z.of_nat i) * step_down s /\ p_rect Qn p = Some (w, h) /\
      w == in_points s rw /\ h == in_points s rh /\ p_align Qn p = o_align Qn (opt s (Nat.eqb (S i) (List.length lines))) /\
      p_fv Qn p = f /\ (exists m, s_font Qn s = Some (m, f) /\ p_font Qn p = m) /\ p_size Qn p = s_size Qn s /\ p_cs Qn p = s_cs Qn s /\
      p_style Qn p = s_style Qn s /\ p_pageH Qn p = s_pageH Qn s /\ p_gray Qn p = s_gray Qn s /\
      p_col Qn p = if s_mode Qn s then s_color Qn s else None.
  Proof using mk_draws opt_float mk_orderly opt_look.
    induction lines as [|l lines IH]; intros s F U AW ST OU X.
    - cbn [calls_of loop run pieces orderly List.length]. split; [reflexivity|]. split; [apply look_refl|]. split; [exact I|]. split; [reflexivity|]. split; [apply down0|].
      split; [reflexivity|]. intros [|i] l H; discriminate.
    - set (b := match lines with [] => true | _ => false end). destruct (one_line s l b F U AW ST OU) as (s1 & s2 & s3 & w & h & E1 & E2 & E3 & LK & S3 & X3 & Y3 & R & W1 & H1 & P1 & P2 & P3 & _).
      assert (LP : loop s (l :: lines) = loop s3 lines) by (cbn [loop]; fold b; unfold silently; rewrite E1, E2, E3; reflexivity).
      assert (CP : run Qn s (calls_of (l :: lines)) = run Qn s3 (calls_of lines)) by (cbn [calls_of run]; fold b; rewrite E1; change (step Qn s1 (Br Qn lh)) with (step Qn s1 (Br Qn lh)); rewrite E2, E3; reflexivity).
      assert (PP : pieces Qn s (calls_of (l :: lines)) = pieces_of Qn s (mk l b) ++ pieces Qn s3 (calls_of lines)).
      { cbn [calls_of pieces]. fold b. rewrite E1, E2, E3, P2, P3. reflexivity. }
      rewrite LP, CP, PP. pose proof LK as (L1 & L2 & L3 & L4 & L5 & L6 & L7 & L8 & L9 & L10 & L11).
      assert (SD : step_down s3 = step_down s) by (unfold step_down, u2p, in_points; rewrite (opt_look s s3 true LK), L1; reflexivity).
      assert (UX : forall v, u2p Qn s3 v = u2p Qn s v) by (intros v; unfold u2p; now rewrite L1).
      destruct (IH s3) as (A1 & A2 & A3 & A4 & A5 & A6 & A7); [rewrite L2; exact F|exact U|exact AW|exact S3|unfold own_unit; rewrite L1; exact OU|rewrite UX, X3; reflexivity|].
      rewrite P1. unfold piece_at. rewrite F. cbn [app]. split; [exact A1|]. split; [eapply look_trans; eassumption|]. split.
      { cbn [calls_of]. fold b. apply mk_orderly. cbn [orderly]. split; [exact I|exact A3]. }
      split; [rewrite A4, X3, X; reflexivity|]. split.
      { rewrite A5, SD. cbn [List.length]. apply downS. exact Y3. }
      split; [cbn [List.length]; now rewrite A6|]. intros [|i] l' Hn; cbn [nth_error] in *.
      + injection Hn as <-. eexists. exists w, h. split; [reflexivity|]. cbn [p_text p_cell p_x p_y p_rect p_align p_fv p_font p_size p_cs p_style p_pageH p_gray p_col].
        split; [reflexivity|]. split; [reflexivity|]. split; [reflexivity|]. split; [apply down0|].
        split; [reflexivity|]. split; [exact W1|]. split; [exact H1|]. split; [unfold b; destruct lines; reflexivity|]. split; [reflexivity|]. split; [now exists n|]. repeat split.
      + destruct (A7 i l' Hn) as (p & w' & h' & B1 & B2 & B3 & B4 & B5 & B6 & B7 & B8 & B9 & B10 & B11 & B12 & B13 & B14 & B15 & B16 & B17). exists p, w', h'.
        split; [exact B1|]. split; [exact B2|]. split; [exact B3|]. split; [rewrite B4, X3, X; reflexivity|]. split.
        { rewrite B5, SD. apply downS. exact Y3. }
        split; [exact B6|]. unfold in_points in *. rewrite L1 in B7, B8. split; [exact B7|]. split; [exact B8|]. rewrite B9, (opt_look s s3 _ LK), B10, B12, B13, B14, B15, B16, B17, L3, L4, L5, L6, L7, L8, L9.
        split; [reflexivity|]. split; [reflexivity|]. split; [destruct B11 as (m & B11a & B11b); exists m; rewrite L2, F in B11a; now split|]. repeat split.
  Qed.
  Lemma loop_opts lines : forall s, s_font Qn s = Some (n, f) -> (fv_upem f =? 0)%Z = false -> all_widths f -> settled s -> own_unit s ->
    exists ts, s_caches Qn (loop s lines) = s_caches Qn s ++ map (CText Qn) ts /\ List.length ts = List.length lines /\ Forall (fun t => exists b, c_opt Qn t = opt s b) ts.
  Proof using mk_draws opt_float mk_orderly opt_look.
    induction lines as [|l lines IH]; intros s F U AW ST OU; [exists []; cbn; rewrite app_nil_r; split; [reflexivity|split; [reflexivity|constructor]]|].
    set (b := match lines with [] => true | _ => false end). destruct (one_line s l b F U AW ST OU) as (s1 & s2 & s3 & w & h & E1 & E2 & E3 & LK & S3 & _ & _ & _ & _ & _ & _ & _ & _ & t & CA & CO).
    assert (LP : loop s (l :: lines) = loop s3 lines) by (cbn [loop]; fold b; unfold silently; rewrite E1, E2, E3; reflexivity). rewrite LP.
    destruct (IH s3) as (ts & T1 & T2 & T3); [now rewrite (proj1 (proj2 LK))|exact U|exact AW|exact S3|unfold own_unit; rewrite (proj1 LK); exact OU|].
    exists (t :: ts). split; [rewrite T1, CA, <- app_assoc; reflexivity|]. split; [cbn; now rewrite T2|]. constructor; [now exists b|].
    eapply Forall_impl; [|exact T3]. intros a (b' & B). exists b'. now rewrite B, (opt_look s s3 b' LK).
  Qed.
End Loop.
(** ** Histories: after SetX or SetXY nothing is pending *)
Definition counted (s : ds Qn) : Prop := forall c, In (CText Qn c) (s_caches Qn s) -> (c_setx Qn c <= s_setx Qn s)%Z.
Lemma counted_add s s' c : counted s -> s_caches Qn s' = s_caches Qn s ++ [c] -> s_setx Qn s' = s_setx Qn s -> (forall t, c = CText Qn t -> (c_setx Qn t <= s_setx Qn s)%Z) -> counted s'.
Proof. intros K E X H t I. rewrite E in I. rewrite X. apply in_app_iff in I as [I|[I|[]]]; [now apply K|now apply H]. Qed.
Lemma counted_same s s' : counted s -> s_caches Qn s' = s_caches Qn s -> (s_setx Qn s <= s_setx Qn s')%Z -> counted s'.
Proof. intros K E X t I. rewrite E in I. specialize (K t I). lia. Qed.
Lemma splitLast_in (l : list (cache Qn)) pre c : splitLast Qn l = (pre, Some c) -> l = pre ++ [c].
Proof.
  unfold splitLast. destruct (rev l) as [|d r] eqn:E; [discriminate|]. intros H. injection H as <- <-.
  rewrite <- (rev_involutive l), E. reflexivity.
Qed.
Lemma counted_text s s' r cell o txt : counted s -> drawText Qn s r cell o txt = Some s' -> counted s'.
Proof.
  intros K. unfold drawText. destruct (s_font Qn s) as [[fc f]|]; [|discriminate]. unfold appendContentText.
  set (nn := mkText Qn s fc f r cell false o).
  set (pb := match splitLast Qn (s_caches Qn s) with (pre, Some (CText _ c)) => if isSame Qn c nn then (pre, c) else (s_caches Qn s, nn) | _ => (s_caches Qn s, nn) end).
  assert (B : (forall c, In c (fst pb) -> In c (s_caches Qn s)) /\ (c_setx Qn (snd pb) <= s_setx Qn s)%Z).
  { unfold pb. destruct (splitLast Qn (s_caches Qn s)) as [pre [c|]] eqn:E.
    - apply splitLast_in in E. destruct c; try (split; [auto|cbn; lia]). destruct (isSame Qn _ _); [|split; [auto|cbn; lia]]. cbn [fst snd]. rewrite E. split; [intros c0 I0; apply in_app_iff; now left|].
      apply K. rewrite E. apply in_app_iff. right. now left.
    - split; [auto|cbn; lia]. }
  destruct pb as [pre base]. cbn [fst snd] in B. destruct B as [B1 B2].
  destruct (createContent _ _ _ _ _ _) as [[[a b] d]|]; [|discriminate]. intros E. injection E as <-. intros t I. cbn [withxy withc s_caches s_setx] in *.
  apply in_app_iff in I as [I|[I|[]]]; [apply K; now apply B1|]. injection I as <-. exact B2.
Qed.
Lemma counted_step s c s' : counted s -> step Qn s c = Some s' -> counted s'.
Proof.
  intros K. destruct c; cbn [step]; try (apply counted_text; exact K); try (intros E; injection E as <-; eapply counted_add; [exact K|reflexivity|reflexivity|intros; discriminate]);
    try (intros E; injection E as <-; apply (counted_same s); [exact K|reflexivity|cbn; lia]).
  destruct (s_font Qn s) as [[fc f]|]; [|discriminate]. intros E. injection E as <-. eapply counted_add; [exact K|reflexivity|reflexivity|]. intros t E. injection E as <-. cbn. lia.
Qed.
Lemma counted_run l : forall s s', counted s -> run Qn s l = Some s' -> counted s'.
Proof.
  induction l as [|c l IH]; intros s s' K; cbn [run]; [intros E; injection E as <-; exact K|]. destruct (step Qn s c) as [s1|] eqn:E; [|discriminate].
  apply IH. eapply counted_step; eassumption.
Qed.
Lemma run_app a b : forall s, run Qn s (a ++ b) = match run Qn s a with Some s' => run Qn s' b | None => None end.
Proof. induction a as [|c a IH]; intros s; cbn [run app]; [reflexivity|]. destruct (step Qn s c); [apply IH|reflexivity]. Qed.
Lemma pieces_app a b : forall s s', run Qn s a = Some s' -> pieces Qn s (a ++ b) = pieces Qn s a ++ pieces Qn s' b.
Proof.
  induction a as [|c a IH]; intros s s'; cbn [run app pieces]; [intros E; injection E as <-; reflexivity|]. destruct (step Qn s c) as [s1|]; [|discriminate].
  intros E. rewrite (IH s1 s' E), app_assoc. reflexivity.
Qed.
Lemma settled_after s0 hist s : s_caches Qn s0 = [] -> ends_setX hist -> run Qn s0 hist = Some s -> settled s.
Proof.
  intros E (l & c & -> & C) R. rewrite run_app in R. destruct (run Qn s0 l) as [s1|] eqn:R1; [|discriminate].
  assert (K : counted s1) by (eapply counted_run; [|exact R1]; intros t I; rewrite E in I; contradiction).
  cbn [run] in R. intros pre t S _. apply splitLast_in in S.
  destruct c; try contradiction; cbn [step] in R; injection R as <-; cbn [withxy s_caches s_setx] in *; (assert (I : In (CText Qn t) (s_caches Qn s1)) by (rewrite S; apply in_app_iff; right; now left)); specialize (K t I); lia.
Qed.
Lemma orderly_app a b : ends_setX a -> orderly Qn false b -> forall g, orderly Qn g a -> orderly Qn g (a ++ b).
Proof.
  intros (l & c & -> & C) B. induction l as [|d l IH]; intros g O.
  - cbn [app] in *. destruct c; try contradiction; exact B.
  - cbn [app] in *. cbn [orderly] in *. destruct d; try contradiction; try (now apply IH); try (destruct O as (O1 & O2 & O3); split; [exact O1|]; split; [exact O2|now apply IH]).
    + destruct O as [O1 O2]. split; [|now apply IH]. destruct l; [destruct c; try contradiction; exact I|exact O1].
    + destruct O as [O1 O2]. split; [exact O1|now apply IH].
Qed.
Lemma fonts_app ft a b : fonts_named Qn ft a -> (forall n f size st, ~ In (SetFont Qn n f size st) b) -> fonts_named Qn ft (a ++ b).
Proof. intros A B n f size st I. apply in_app_iff in I as [I|I]; [eapply A; exact I|exfalso; eapply B; exact I]. Qed.

(** ** MultiCellWithOption *)
Lemma has_bit v b : (0 <= b)%Z -> has v (2 ^ b) = Z.testbit v b.
Proof.
  intros B. unfold has. destruct (Z.testbit v b) eqn:E.
  - apply Z.eqb_eq. apply Z.bits_inj'. intros k K. rewrite Z.land_spec, Z.pow2_bits_eqb by exact B. destruct (Z.eqb_spec b k) as [<-|]; [rewrite E; reflexivity|apply andb_false_r].
  - apply Z.eqb_neq. intros H. assert (X : Z.testbit (Z.land v (2 ^ b)) b = true) by (rewrite H; apply Z.pow2_bits_true; exact B). rewrite Z.land_spec, E in X. discriminate.
Qed.
Lemma lineAlign_as al last : aligned_as al last (lineAlign al last).
Proof.
  unfold lineAlign. change oJustify with (2 ^ 6)%Z. change oLeft with (2 ^ 3)%Z. rewrite has_bit by lia. split.
  - intros -> ->. cbn [andb]. rewrite !Z.lor_spec, !Z.ldiff_spec, !Z.pow2_bits_eqb by lia. cbn [Z.eqb Pos.eqb].
    split; [rewrite andb_false_r; reflexivity|]. split; [rewrite orb_true_r; reflexivity|]. intros b H1 H2. rewrite Z.lor_spec, Z.ldiff_spec, !Z.pow2_bits_eqb by lia.
    replace (6 =? b)%Z with false by (symmetry; apply Z.eqb_neq; congruence). replace (3 =? b)%Z with false by (symmetry; apply Z.eqb_neq; congruence).
    cbn [negb]. now rewrite andb_true_r, orb_false_r.
  - intros [->| ->]; [reflexivity|]. now rewrite andb_false_r.
Qed.

(** The line height: from the font's descender to its ascender, in points. *)
Definition line_pts (s : ds Qn) (f : fontv) : Q := inject_Z (fv_tasc f - fv_tdesc f) * s_size Qn s / inject_Z (fv_upem f).
(** The height MultiCellWithOption gives the box of every line: the whole rectangle for one line, else that less half
    the lines (rounded up), each counted 1.5 units higher than the line height. *)
Definition box_pts (s : ds Qn) (f : fontv) (H : Q) (n : nat) : Q :=
  if Nat.leb n 1 then in_points s H else in_points s H - (line_pts s f + in_points s (3 # 2)) * inject_Z (Z.of_nat ((n + 1) / 2)).
Definition floats_down (o : cellopt Qn) (h : Q) : Q := if has (o_float Qn o) oBottom then h else 0.

Lemma line_height s f t lh : own_unit s -> (0 < fv_upem f)%Z -> lineHeight Qn s f t = Some lh ->
  u2p Qn s lh == line_pts s f /\ lh * points_per_unit (u_unit (s_cfg Qn s)) 0 == line_pts s f.
Proof.
  intros OU U. unfold lineHeight, createContent. destruct (fv_upem f =? 0)%Z; [discriminate|]. destruct (sumWidth _ _ _ _ _ _ _ _); [|discriminate]. intros E.
  set (v := nsub Qn _ _) in E. assert (EL : lh = pointsToUnits Qn (s_cfg Qn s) v) by congruence.
  assert (V : v == line_pts s f).
  { assert (NU : ~ inject_Z (fv_upem f) == 0) by (unfold Qeq, inject_Z; cbn; lia).
    pose proof (typo (fv_tasc f) _ (s_size Qn s) NU) as TA. pose proof (typo (fv_tdesc f) _ (s_size Qn s) NU) as TD.
    unfold v. change (nsub Qn) with Qminus. unfold line_pts. unfold Zminus. rewrite inject_Z_plus, inject_Z_opp.
    set (a := convertTypoUnit Qn (fv_tasc f) _ _) in *. set (d := convertTypoUnit Qn (fv_tdesc f) _ _) in *.
    assert (G : a - d == (inject_Z (fv_tasc f) + - inject_Z (fv_tdesc f)) * s_size Qn s / inject_Z (fv_upem f)) by (rewrite TA, TD; field; exact NU). exact G. }
  rewrite EL. split; [rewrite round_trip_pts; exact V|]. rewrite (proj2 (C19_conversion_factor _ _)).
  assert (UC : u_conv (s_cfg Qn s) = 0) by exact OU. rewrite UC. rewrite V. field. apply ppu_nonzero.
Qed.
Lemma half_up n : (n / 2 + (if Nat.eqb (n mod 2) 0 then 0 else 1) = (n + 1) / 2)%nat.
Proof.
  pose proof (Nat.div_mod_eq n 2) as H. pose proof (Nat.mod_upper_bound n 2 ltac:(lia)) as B. destruct (n mod 2)%nat as [|[|k]] eqn:E; [| |lia]; cbn [Nat.eqb].
  - rewrite Nat.add_0_r. apply Nat.div_unique with 1%nat; lia.
  - apply Nat.div_unique with 0%nat; lia.
Qed.
Lemma start_pts s f H lh n : own_unit s -> lh * points_per_unit (u_unit (s_cfg Qn s)) 0 == line_pts s f -> in_points s (startHeight Qn H lh n) == box_pts s f H n.
Proof.
  intros OU L. unfold startHeight, box_pts. rewrite half_up. destruct (Nat.ltb_spec 1 n).
  - destruct (Nat.leb_spec n 1); [lia|]. unfold in_points. rewrite <- L. set (k := inject_Z (Z.of_nat ((n + 1) / 2))). set (q := points_per_unit _ 0).
    change (nsub Qn) with Qminus. change (nadd Qn) with Qplus. change (nmul Qn) with Qmult. change (ndiv Qn) with Qdiv. change (nofZ Qn) with inject_Z. fold k.
    change (inject_Z 3) with 3. change (inject_Z 2) with 2.
    assert (G : (H - (lh + 3 / 2) * k) * q == H * q - (lh * q + (3 # 2) * q) * k) by (change (3 # 2) with (3 / 2); ring). exact G.
  - destruct (Nat.leb_spec n 1); [reflexivity|lia].
Qed.
Definition mk_opt W st (o : cellopt Qn) tr (l : list Z) (b : bool) : call Qn := CellOpt Qn (cellRect Qn W st) l (lineOpt Qn o b) tr.
Definition opt_opt (o : cellopt Qn) tr (s : ds Qn) (b : bool) : cellopt Qn :=
  Build_cellopt Qn (lineAlign (o_align Qn o) b) (o_border Qn o) (o_float Qn o) (o_cup Qn o) (o_clh Qn o) (o_cut Qn o) (o_gs Qn o ++ trOf Qn s tr).
Lemma lineLoop_is W st lh x o tr lines : forall s, lineLoop Qn s W st lh x o tr lines = loop lh x (mk_opt W st o tr) s lines.
Proof. induction lines as [|l lines IH]; intros s; [reflexivity|]. cbn [lineLoop loop]. rewrite IH. reflexivity. Qed.
Lemma calls_nofont lh x mk lines : (forall l b n f size st, mk l b <> SetFont Qn n f size st) -> forall n f size st, ~ In (SetFont Qn n f size st) (calls_of lh x mk lines).
Proof.
  intros M n f size st. induction lines as [|l lines IH]; [intros []|]. cbn [calls_of]. intros [H|[H|[H|H]]]; try discriminate H; [now apply M in H|now apply IH].
Qed.

(** C64, MultiCellWithOption: on a fresh page, after any orderly history ending with the cursor being set, for every
    text, rectangle, break option and cell option: the lines SplitTextWithOption gives are drawn, each at the x of the
    call, one line height under the one before (plus the box height with Float Bottom), in the look in force, with the
    alignment asked for except that the last line of a justified paragraph is flush left; the page shows them so, each
    placed in its box as its alignment says; the cursor ends at the same x under the last line. *)
Theorem C64_paragraph_with_option :
  forall (rot : T Qn -> T Qn * T Qn) (ft : Z -> fontv) (s0 s s' : ds Qn) (hist : list (call Qn)) (content : bytes)
         (fuel : nat) (W H : Q) (text : list Z) (bo : SplitModel.breakopt) (o : cellopt Qn) (tr : option (option Z)) (n : Z) (f : fontv),
    s_caches Qn s0 = [] -> s_font Qn s0 = None -> s_mode Qn s0 = false -> s_color Qn s0 = None ->
    fonts_named Qn ft hist -> orderly Qn false hist -> ends_setX hist -> Forall (fun p => (0 < fv_upem (p_fv Qn p))%Z) (pieces Qn s0 hist) ->
    run Qn s0 hist = Some s -> own_unit s -> s_font Qn s = Some (n, f) -> (0 < fv_upem f)%Z -> all_widths f ->
    multiCellWithOption Qn fuel s W H text bo o tr = MDone Qn s' -> content_write Qn rot (s_caches Qn s') = Some content ->
    exists lines ps groups,
      SplitModel.splitText Qplus (fun a b => negb (Qle_bool a b)) Qle_bool (measureText Qn s f) fuel bo text W = SplitModel.Done lines /\
      let h := box_pts s f H (List.length lines) in let down := line_pts s f + floats_down o h in
      paragraph s f lines (in_points s W) h down (o_align Qn o) ps /\
      s_x Qn s' == s_x Qn s /\ s_y Qn s' == s_y Qn s + inject_Z (Z.of_nat (List.length lines)) * down /\
      List.concat groups = pieces Qn s0 hist ++ ps /\
      Forall2 (fun e grp => shown Qn e grp /\ placed e grp) (shows content) groups.
Proof.
  intros rot ft s0 s s' hist content fuel W H text bo o tr n f E0 F0 M0 C0 FN OR EN UP R OU F U AW MC CW.
  unfold multiCellWithOption in MC. rewrite F in MC. destruct (lineHeight Qn s f text) as [lh|] eqn:LH; [|discriminate].
  change (SplitModel.splitText (nadd Qn) (fun a b : T Qn => nlt Qn b a) (nle Qn)) with (SplitModel.splitText Qplus (fun a b => negb (Qle_bool a b)) Qle_bool) in MC.
  destruct (SplitModel.splitText _ _ _ _ _ _ _ _) as [|lines| |]; try discriminate MC.
  cbv zeta in MC.
  set (o' := Build_cellopt Qn (o_align Qn o) _ _ _ _ _ _) in MC. set (st := startHeight Qn H lh (List.length lines)) in MC. set (x := pointsToUnits Qn (s_cfg Qn s) (s_x Qn s)) in MC.
  assert (ES : s' = loop lh x (mk_opt W st o' tr) s lines) by (rewrite <- lineLoop_is; congruence).
  destruct (line_height s f text lh OU U LH) as [L1 L2].
  assert (UZ : (fv_upem f =? 0)%Z = false) by lia.
  assert (X1 : u2p Qn s x == s_x Qn s) by apply round_trip_pts.
  assert (SE : settled s) by exact (settled_after s0 hist s E0 EN R).
  destruct (loop_ok n f lh x W st (mk_opt W st o' tr) (opt_opt o' tr)) with (lines := lines) (s := s) as (A1 & A2 & A3 & A4 & A5 & A6 & A7); try assumption.
  { intros s1 l b _ _. split; reflexivity. }
  { intros l b r O. cbn [orderly mk_opt]. split; [discriminate|]. split; [reflexivity|exact O]. }
  { intros s1 s2 b LK. unfold opt_opt, trOf. destruct LK as (_ & _ & _ & _ & _ & _ & _ & _ & _ & -> & _). reflexivity. }
  { intros s1 b. reflexivity. }
  rewrite <- ES in A1, A2, A4, A5.
  assert (BH : in_points s st == box_pts s f H (List.length lines)) by (apply start_pts; assumption).
  assert (SD : step_down lh st (opt_opt o' tr) s == line_pts s f + floats_down o (box_pts s f H (List.length lines))).
  { unfold step_down, floats_down. rewrite L1. cbn [opt_opt o_float o']. destruct (has (o_float Qn o) oBottom); [rewrite BH; reflexivity|reflexivity]. }
  set (calls := calls_of lh x (mk_opt W st o' tr) lines) in *.
  destruct (C55_alignment rot ft s0 s' (hist ++ calls) content E0 F0 M0 C0) as (G & G1 & G2).
  { apply fonts_app; [exact FN|]. apply calls_nofont. intros. discriminate. }
  { now apply orderly_app. }
  { rewrite (pieces_app _ _ _ _ R). apply Forall_app. split; [exact UP|]. apply Forall_forall. intros p I. apply In_nth_error in I as (i & I).
    assert (LT : (i < List.length lines)%nat) by (rewrite <- A6; apply nth_error_Some; congruence). apply nth_error_Some in LT. destruct (nth_error lines i) as [l|] eqn:EL; [|contradiction].
    destruct (A7 i l EL) as (p' & w & h & B1 & B). rewrite I in B1. injection B1 as <-. destruct B as (_ & _ & _ & _ & _ & _ & _ & _ & -> & _). exact U. }
  { rewrite run_app, R. exact A1. }
  { exact CW. }
  exists lines, (pieces Qn s calls), G. split; [reflexivity|]. cbv zeta. split; [split; [exact A6|]|].
  - intros i l EL. destruct (A7 i l EL) as (p & w & h & B1 & B2 & B3 & B4 & B5 & B6 & B7 & B8 & B9 & B10). exists p, w, h.
    split; [exact B1|]. split; [exact B2|]. split; [exact B3|]. split; [exact B4|]. split; [rewrite B5, SD; reflexivity|]. split; [exact B6|]. split; [exact B7|]. split; [rewrite B8; exact BH|].
    split; [rewrite B9; apply lineAlign_as|exact B10].
  - split; [exact A4|]. split; [rewrite A5, SD; reflexivity|]. split; [rewrite G1; now apply pieces_app|exact G2].
Qed.
Print Assumptions C64_paragraph_with_option.

(** The lines are broken by the widths MeasureTextWidth reports, in the document's unit. *)
Theorem C64_measured_in_units :
  forall (s : ds Qn) (f : fontv) (t : list Z) (v : Q), own_unit s -> measureText Qn s f t = Some v ->
    exists w, text_width Qn f (s_size Qn s) (s_cs Qn s) (fv_add f t) = Some w /\ in_points s v == w.
Proof.
  intros s f t v OU. unfold measureText, text_width. destruct (createContent Qn f (fv_add f t) (s_size Qn s) (s_cs Qn s) None) as [[[a b] w]|]; [|discriminate].
  intros E. exists w. split; [reflexivity|]. assert (V : v = pointsToUnits Qn (s_cfg Qn s) w) by congruence. rewrite V. unfold in_points. rewrite (proj2 (C19_conversion_factor _ _)).
  assert (UC : u_conv (s_cfg Qn s) = 0) by exact OU. rewrite UC. field. apply ppu_nonzero.
Qed.
Print Assumptions C64_measured_in_units.
(** Every line is written under the transparency asked for: the one of the options, else the current one (the last graphics
    state named before a text is the one in force). *)
Theorem C64_transparency :
  forall (s0 s s' : ds Qn) (hist : list (call Qn)) (fuel : nat) (W H : Q) (text : list Z) (bo : SplitModel.breakopt) (o : cellopt Qn)
         (tr : option (option Z)) (n : Z) (f : fontv),
    s_caches Qn s0 = [] -> ends_setX hist -> run Qn s0 hist = Some s -> own_unit s -> s_font Qn s = Some (n, f) -> (0 < fv_upem f)%Z -> all_widths f ->
    o_gs Qn o = [] -> multiCellWithOption Qn fuel s W H text bo o tr = MDone Qn s' ->
    exists lines ts, SplitModel.splitText Qplus (fun a b => negb (Qle_bool a b)) Qle_bool (measureText Qn s f) fuel bo text W = SplitModel.Done lines /\
      s_caches Qn s' = s_caches Qn s ++ map (CText Qn) ts /\ List.length ts = List.length lines /\
      forall t, In t ts -> match (match tr with None => s_tr Qn s | Some i => i end) with
                           | Some i => o_gs Qn (c_opt Qn t) <> [] /\ last (o_gs Qn (c_opt Qn t)) 0%Z = i
                           | None => o_gs Qn (c_opt Qn t) = []
                           end.
Proof.
  intros s0 s s' hist fuel W H text bo o tr n f E0 EN R OU F U AW OG MC.
  unfold multiCellWithOption in MC. rewrite F in MC. destruct (lineHeight Qn s f text) as [lh|] eqn:LH; [|discriminate].
  change (SplitModel.splitText (nadd Qn) (fun a b : T Qn => nlt Qn b a) (nle Qn)) with (SplitModel.splitText Qplus (fun a b => negb (Qle_bool a b)) Qle_bool) in MC.
  destruct (SplitModel.splitText _ _ _ _ _ _ _ _) as [|lines| |]; try discriminate MC. cbv zeta in MC.
  set (o' := Build_cellopt Qn (o_align Qn o) _ _ _ _ _ _) in MC. set (st := startHeight Qn H lh (List.length lines)) in MC. set (x := pointsToUnits Qn (s_cfg Qn s) (s_x Qn s)) in MC.
  assert (ES : s' = loop lh x (mk_opt W st o' tr) s lines) by (rewrite <- lineLoop_is; congruence).
  destruct (loop_opts n f lh x W st (mk_opt W st o' tr) (opt_opt o' tr)) with (lines := lines) (s := s) as (ts & T1 & T2 & T3); try assumption.
  { intros s1 l b _ _. split; reflexivity. }
  { intros l b r O. cbn [orderly mk_opt]. split; [discriminate|]. split; [reflexivity|exact O]. }
  { intros s1 s2 b LK. unfold opt_opt, trOf. destruct LK as (_ & _ & _ & _ & _ & _ & _ & _ & _ & -> & _). reflexivity. }
  { intros s1 b. reflexivity. }
  { lia. }
  { exact (settled_after s0 hist s E0 EN R). }
  exists lines, ts. split; [reflexivity|]. split; [rewrite ES; exact T1|]. split; [exact T2|]. intros t I. rewrite Forall_forall in T3. destruct (T3 t I) as (b & B). rewrite B.
  unfold opt_opt, o', trOf. cbn [o_gs]. rewrite OG. destruct (match tr with None => s_tr Qn s | Some i => i end) as [i|]; [|reflexivity]. cbn [app]. split; [discriminate|reflexivity].
Qed.
Print Assumptions C64_transparency.

(** ** MultiCell *)
Definition mk_cell W h (l : list Z) (_ : bool) : call Qn := Cell Qn (cellRect Qn W h) l.
Definition opt_cell (_ : ds Qn) (_ : bool) : cellopt Qn := Build_cellopt Qn (Z.lor oLeft oTop) 0 oRight 0 0 0 [].
Lemma cellLoop_is W lh x lines : forall s, cellLoop Qn s W lh x lines = loop lh x (mk_cell W lh) s lines.
Proof. induction lines as [|l lines IH]; intros s; [reflexivity|]. cbn [cellLoop loop]. rewrite IH. reflexivity. Qed.
(** C64, MultiCell: the same with the lines of C23 (as many as the rectangle has room for), each in a box one line high,
    set flush left at its top. *)
Theorem C64_paragraph :
  forall (rot : T Qn -> T Qn * T Qn) (ft : Z -> fontv) (s0 s s' : ds Qn) (hist : list (call Qn)) (content : bytes)
         (W H : Q) (text : list Z) (n : Z) (f : fontv),
    s_caches Qn s0 = [] -> s_font Qn s0 = None -> s_mode Qn s0 = false -> s_color Qn s0 = None ->
    fonts_named Qn ft hist -> orderly Qn false hist -> ends_setX hist -> Forall (fun p => (0 < fv_upem (p_fv Qn p))%Z) (pieces Qn s0 hist) ->
    run Qn s0 hist = Some s -> own_unit s -> s_font Qn s = Some (n, f) -> (0 < fv_upem f)%Z -> all_widths f ->
    multiCell Qn s W H text = MDone Qn s' -> content_write Qn rot (s_caches Qn s') = Some content ->
    exists lh lines ps groups,
      in_points s lh == line_pts s f /\
      lines = SplitModel.multiCell Qplus (fun a b => negb (Qle_bool a b)) (measured0 Qn s f) (fv_add f text) [] 0 lh W H /\
      paragraph s f lines (in_points s W) (line_pts s f) (line_pts s f) (Z.lor oLeft oTop) ps /\
      s_x Qn s' == s_x Qn s /\ s_y Qn s' == s_y Qn s + inject_Z (Z.of_nat (List.length lines)) * line_pts s f /\
      List.concat groups = pieces Qn s0 hist ++ ps /\
      Forall2 (fun e grp => shown Qn e grp /\ placed e grp) (shows content) groups.
Proof.
  intros rot ft s0 s s' hist content W H text n f E0 F0 M0 C0 FN OR EN UP R OU F U AW MC CW.
  unfold multiCell in MC. rewrite F in MC. destruct (lineHeight Qn s f text) as [lh|] eqn:LH; [|discriminate].
  change (SplitModel.multiCell (nadd Qn) (fun a b : T Qn => nlt Qn b a)) with (SplitModel.multiCell Qplus (fun a b => negb (Qle_bool a b))) in MC.
  change (nofZ Qn 0) with 0 in MC.
  set (lines := SplitModel.multiCell _ _ _ _ _ _ _ _ _) in MC. set (x := pointsToUnits Qn (s_cfg Qn s) (s_x Qn s)) in MC.
  assert (ES : s' = loop lh x (mk_cell W lh) s lines) by (rewrite <- cellLoop_is; congruence).
  destruct (line_height s f text lh OU U LH) as [L1 L2].
  assert (UZ : (fv_upem f =? 0)%Z = false) by lia.
  assert (X1 : u2p Qn s x == s_x Qn s) by apply round_trip_pts.
  assert (SE : settled s) by exact (settled_after s0 hist s E0 EN R).
  destruct (loop_ok n f lh x W lh (mk_cell W lh) opt_cell) with (lines := lines) (s := s) as (A1 & A2 & A3 & A4 & A5 & A6 & A7); try assumption.
  { intros s1 l b _ _. split; reflexivity. }
  { intros l b r O. cbn [orderly mk_cell]. split; [discriminate|]. split; [reflexivity|exact O]. }
  { intros. reflexivity. }
  { intros. reflexivity. }
  rewrite <- ES in A1, A2, A4, A5.
  assert (SD : step_down lh lh opt_cell s == line_pts s f) by (unfold step_down; rewrite L1; cbn [opt_cell o_float]; change (has oRight oBottom) with false; cbn iota; ring).
  set (calls := calls_of lh x (mk_cell W lh) lines) in *.
  destruct (C55_alignment rot ft s0 s' (hist ++ calls) content E0 F0 M0 C0) as (G & G1 & G2).
  { apply fonts_app; [exact FN|]. apply calls_nofont. intros. discriminate. }
  { now apply orderly_app. }
  { rewrite (pieces_app _ _ _ _ R). apply Forall_app. split; [exact UP|]. apply Forall_forall. intros p I. apply In_nth_error in I as (i & I).
    assert (LT : (i < List.length lines)%nat) by (rewrite <- A6; apply nth_error_Some; congruence). apply nth_error_Some in LT. destruct (nth_error lines i) as [l|] eqn:EL; [|contradiction].
    destruct (A7 i l EL) as (p' & w & h & B1 & B). rewrite I in B1. injection B1 as <-. destruct B as (_ & _ & _ & _ & _ & _ & _ & _ & -> & _). exact U. }
  { rewrite run_app, R. exact A1. }
  { exact CW. }
  exists lh, lines, (pieces Qn s calls), G. split; [exact L2|]. split; [reflexivity|]. split; [split; [exact A6|]|].
  - intros i l EL. destruct (A7 i l EL) as (p & w & h & B1 & B2 & B3 & B4 & B5 & B6 & B7 & B8 & B9 & B10). exists p, w, h.
    split; [exact B1|]. split; [exact B2|]. split; [exact B3|]. split; [exact B4|]. split; [rewrite B5, SD; reflexivity|]. split; [exact B6|]. split; [exact B7|]. split; [rewrite B8; exact L2|].
    split; [|exact B10]. rewrite B9. cbn [opt_cell o_align]. split; [intros _ X; discriminate X|reflexivity].
  - split; [exact A4|]. split; [rewrite A5, SD; reflexivity|]. split; [rewrite G1; now apply pieces_app|exact G2].
Qed.
Print Assumptions C64_paragraph.

(** Concrete: a justified paragraph of two lines. *)
Definition mhist : list (call Qn) := [SetFont Qn 0 dfont (nofZ Qn 12) 0; SetXY Qn (nofZ Qn 30) (nofZ Qn 40)].
Definition mbo : SplitModel.breakopt := {| SplitModel.b_mode := SplitModel.Sensitive; SplitModel.b_ind := 32%Z; SplitModel.b_sep := [] |}.
Definition mopt : cellopt Qn := Build_cellopt Qn oJustify 0 0 0 0 0 [].
Definition mstate : ds Qn := match run Qn (dpage Qn) mhist with Some s => s | None => dpage Qn end.
Definition mtext : list Z := bs "aa bb cc dd".
Definition mdone : option (list (bytes * Z)) :=
  match multiCellWithOption Qn 40 mstate 33 100 mtext mbo mopt None with
  | MDone _ s' => Some (map (fun c => match c with CText _ t => (c_text Qn t, o_align Qn (c_opt Qn t)) | _ => ([], 0%Z) end) (s_caches Qn s'))
  | _ => None
  end.
Example C64_met : run Qn (dpage Qn) mhist = Some mstate /\ orderly Qn false mhist /\ ends_setX mhist /\ own_unit mstate /\ s_font Qn mstate = Some (0%Z, dfont) /\
  all_widths dfont /\ fonts_named Qn (fun _ => dfont) mhist /\
  mdone = Some [(bs "aa bb", oJustify); (bs "cc dd", oLeft)].
Proof.
  split; [reflexivity|]. split; [cbn; auto|]. split; [exists [SetFont Qn 0 dfont (nofZ Qn 12) 0]; eexists; split; [reflexivity|exact I]|]. split; [reflexivity|]. split; [reflexivity|].
  split; [intros t r _; discriminate|]. split; [intros m g size st I; repeat (destruct I as [I|I]; [try discriminate I; now injection I as _ <-|]); contradiction|]. vm_compute. reflexivity.
Qed.
