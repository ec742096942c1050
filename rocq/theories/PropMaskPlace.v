(** PropMaskPlace.v — C59: masks and masked images appear where asked. *)
From Coq Require Import QArith Qabs Lqa.
From Verif Require Import Base StrModel NumModel NumRead UnitModel DrawModel DrawSpec DrawLex DrawNest DrawView PropDraw PaintSpec PropPaint PaintNum ImgModel PropImagePlace.
Open Scope Z_scope.

(** ** Specification *)
(** The graphics states a viewer takes up ("gs"): their names, the transformation then in force — a soft mask lives in
    these coordinates (ISO 32000-1, 11.6.5.3) — and the number of marks painted before. *)
Fixpoint taken_up (v : pv) (l : list op) : list (list tok * list gmat * nat) :=
  match l with
  | [] => []
  | o :: r => (if list_eqb (snd o) (bs "gs") then [(fst o, p_ctm (pv_g v), List.length (pv_out v))] else []) ++ taken_up (pstep v o) r
  end.
Definition states_taken (content : bytes) : list (list tok * list gmat * nat) := taken_up pv0 (content_ops content).

Section C59m.
  Variable rot : Q -> Q * Q.

  (** An image under a mask: its points turned by [angle] about the middle of the rectangle [full]; the visible box is
      where asked, never turned. *)
  Definition placed_masked (H : Q) (before g : pgs) (img vis full : box) (crop hf vf : bool) (angle : Q) : Prop :=
    exists own, p_ctm g = p_ctm before ++ own /\
      (forall u v, unit_ u -> unit_ v -> exists q, takes own (u, v) = Some q /\ turned_about rot H full angle (spot H img hf vf u v) q) /\
      (if crop then exists outer path, p_clip g = p_clip before ++ [(p_ctm before ++ outer, path, bs "W*")] /\
         forall u v, unit_ u -> unit_ v -> exists p q, reat path u v = Some p /\ takes outer p = Some q /\ close q (spot H vis hf vf u v)
       else p_clip g = p_clip before).

  (** *** Algebra *)
  Lemma takes_nil p : takes [] p = Some p. Proof. reflexivity. Qed.
  Lemma close_peq p q r : peq p q -> close q r -> close p r.
  Proof. unfold peq, close, within. intros [A B] [C D]. rewrite A, B. split; assumption. Qed.
  Lemma turned_none C p : peq p (turned C (1, 0)%Q p).
  Proof. unfold peq, turned. cbn [fst snd]. split; ring. Qed.
  Definition fullBox (X Y W Ht : Q) : box := {| bx_left := X; bx_top := Y; bx_w := W; bx_h := Ht |}.
  Hypothesis rot0 : forall a, (a == 0)%Q -> rot a = (1, 0)%Q.
  Lemma about0 (H : Q) (b : box) (a : Q) p q : (a == 0)%Q -> close q p -> turned_about rot H b a p q.
  Proof using rot0.
    intros A C. exists ((bx_left b + bx_w b / 2)%Q, (H - (bx_top b + bx_h b / 2))%Q), (1, 0)%Q, q. rewrite (rot0 a A). cbn [fst snd].
    assert (Z : forall e x, (0 <= e)%Q -> within e x x). { intros e x E0. unfold within. setoid_replace (x - x)%Q with 0%Q by ring. exact E0. }
    split; [apply Z; discriminate|]. split; [apply Z; discriminate|]. split; [apply Z; discriminate|]. split; [apply Z; discriminate|].
    split; [intros _; split; reflexivity|]. split; [exact C|apply turned_none].
  Qed.
  (** The page's part: mirrored, cropped, turned and placed. *)
  Lemma imageMark_masked (H : Q) g idx (o : imgopt Qn) ma : io_mask Qn o = Some ma ->
    (io_hf Qn o = false /\ io_v Qn o = false) \/ (ma + io_angle Qn o == 0)%Q ->
    placed_masked H g (fst (imageMark Qn rot H g idx o)) (imgBox (io_x Qn o) (io_y Qn o) (io_w Qn o) (io_h Qn o) (io_crop Qn o))
      (visBox (io_x Qn o) (io_y Qn o) (io_w Qn o) (io_h Qn o) (io_crop Qn o)) (fullBox (io_x Qn o) (io_y Qn o) (io_w Qn o) (io_h Qn o))
      (cropped (io_crop Qn o)) (io_hf Qn o) (io_v Qn o) (ma + io_angle Qn o).
  Proof using rot0.
    destruct o as [X Y W Ht an vf hf crop mask gs]. cbn [io_x io_y io_w io_h io_crop io_mask io_hf io_v io_angle]. intros -> OK.
    unfold imageMark. cbn [io_x io_y io_w io_h io_crop io_mask io_hf io_v io_angle io_gs].
    change (if hf || vf then _ else []) with (flipm hf vf).
    set (img := imgBox X Y W Ht crop). set (vis := visBox X Y W Ht crop).
    set (px := match crop with Some (cx, _, _, _) => (X - cx)%Q | None => X end). set (py := match crop with Some (_, cy, _, _) => (H - Y + (cy - Ht))%Q | None => (H - Y - Ht)%Q end).
    set (mt := if neq Qn (nadd Qn ma an) (nofZ Qn 0) then [] else rotAbout Qn rot H (X + W / 2)%Q (Y + Ht / 2)%Q (ma + an)%Q).
    set (pl := [d Qn 2 W; wd "0"; wd "0"; d Qn 2 Ht; d Qn 2 (if hf then - px - W else px)%Q; d Qn 2 (if vf then - py - Ht else py)%Q]).
    assert (OWN : forall u v, unit_ u -> unit_ v -> exists q, takes (flipm hf vf ++ mt ++ [pl]) (u, v) = Some q /\ turned_about rot H (fullBox X Y W Ht) (ma + an)%Q (spot H img hf vf u v) q).
    { intros u v U V. destruct (place_takes W Ht (if hf then - px - W else px)%Q (if vf then - py - Ht else py)%Q u v) as (q0 & E0 & P0). change (takes [pl] (u, v) = Some q0) in E0.
      assert (CC : close ((if hf then -1 # 1 else 1) * (u * pr 2 W + pr 2 (if hf then - px - W else px)), (if vf then -1 # 1 else 1) * (v * pr 2 Ht + pr 2 (if vf then - py - Ht else py)))%Q (spot H img hf vf u v)).
      { unfold img, spot, imgBox, px, py. destruct crop as [[[[cx cy] cw] ch]|]; cbn [fst snd bx_left bx_top bx_w bx_h]; (split; [apply (coord rot); exact U|]); [|apply (coord rot); exact V].
        eapply (within_eq rot); [reflexivity| |apply (coord rot); exact V]. cbn [fst snd]. ring. }
      destruct (Qeq_dec (ma + an) 0) as [Z|NZ].
      - assert (MT : mt = []). { unfold mt. cbn [neq Qn nadd nofZ]. apply Qeq_bool_iff in Z. change (inject_Z 0) with 0%Q. rewrite Z. reflexivity. }
        rewrite MT, app_nil_l, takes_app, E0. destruct (flip_takes hf vf q0) as (q & -> & P). exists q. split; [reflexivity|]. apply about0; [exact Z|].
        eapply close_peq; [exact P|]. destruct P0 as [P1 P2]. cbn [fst snd] in P1, P2. eapply close_peq; [|exact CC]. split; cbn [fst snd]; [rewrite P1|rewrite P2]; reflexivity.
      - destruct OK as [[-> ->]|OK]; [|contradiction]. cbn [flipm orb app].
        assert (MT : mt = rotAbout Qn rot H (X + W / 2)%Q (Y + Ht / 2)%Q (ma + an)%Q).
        { unfold mt. cbn [neq Qn nadd nofZ]. destruct (Qeq_bool (ma + an) (inject_Z 0)) eqn:Q; [|reflexivity]. apply Qeq_bool_iff in Q. contradiction. }
        rewrite MT, takes_app, E0. destruct (rot_takes rot H (X + W / 2)%Q (Y + Ht / 2)%Q (ma + an)%Q q0) as (q & E & P). exists q. split; [exact E|].
        eapply about; [| | |exact P]; cbn [fullBox bx_left bx_top bx_w bx_h]; try reflexivity.
        eapply close_peq; [exact P0|]. eapply close_peq; [|exact CC]. split; cbn [fst snd]; ring. }
    exists (flipm hf vf ++ mt ++ [pl]).
    assert (CT : p_ctm g ++ flipm hf vf ++ mt ++ [pl] = (p_ctm g ++ [] ++ flipm hf vf) ++ mt ++ [pl]) by (rewrite app_nil_l, <- app_assoc; reflexivity).
    unfold px, py, pl in *. destruct crop as [[[[cx cy] cw] ch]|]; cbn [fst snd cropped set_ctm set_clip set_ext p_ctm p_clip].
    - split; [rewrite CT; reflexivity|]. split; [exact OWN|]. exists (flipm hf vf). eexists. split; [rewrite app_nil_l; reflexivity|]. intros u v U V. cbn [reat].
      unfold op_. change (list_eqb (bs "re") (bs "re")) with true. cbv iota. rewrite !pr_val. eexists.
      destruct (flip_takes hf vf (u * pr 2 cw + pr 2 (if hf then - X - cw else X), v * pr 2 ch + pr 2 (if vf then - (H - Y - ch) - ch else H - Y - ch))%Q) as (q & E & P).
      exists q. split; [reflexivity|]. split; [exact E|]. eapply close_peq; [exact P|]. unfold close, spot, vis, visBox. cbn [fst snd bx_left bx_top bx_w bx_h].
      split; [apply (coord rot); exact U|apply (coord rot); exact V].
    - split; [rewrite CT; reflexivity|]. split; [exact OWN|]. now rewrite app_nil_r.
  Qed.

  (** ** Steps keep what was drawn *)
  Lemma step_keeps (N : num) (s s' : ds N) c P i : step N s c = Some s' -> (exists k, s_caches N s = P ++ CImage N i :: k) -> exists k, s_caches N s' = P ++ CImage N i :: k.
  Proof.
    intros S (k & E).
    assert (A : forall x, exists k', s_caches N s ++ [x] = P ++ CImage N i :: k') by (intros x; exists (k ++ [x]); rewrite E, <- app_assoc; reflexivity).
    assert (TX : forall n t l x y, appendContentText N (s_caches N s) n t = Some (l, x, y) -> exists k', l = P ++ CImage N i :: k').
    { intros n t l x y H. unfold appendContentText in H.
      assert (R : exists pre' b, (exists k', pre' = P ++ CImage N i :: k') /\
         match splitLast N (s_caches N s) with (pre, Some (CText _ c1)) => if isSame N c1 n then (pre, c1) else (s_caches N s, n) | _ => (s_caches N s, n) end = (pre', b)).
      { destruct (splitLast N (s_caches N s)) as [pre [c0|]] eqn:SL; [|eexists; eexists; split; [exists k; exact E|reflexivity]].
        apply splitLast_app in SL. destruct c0; try (eexists; eexists; split; [exists k; exact E|reflexivity]).
        destruct (isSame N c0 n); [|eexists; eexists; split; [exists k; exact E|reflexivity]].
        eexists; eexists; split; [|reflexivity]. rewrite SL in E. destruct k as [|z k] using rev_ind.
        - apply app_inj_tail in E as [_ E]. discriminate.
        - clear IHk. exists k. change (P ++ CImage N i :: k ++ [z]) with (P ++ (CImage N i :: k) ++ [z]) in E. rewrite app_assoc in E. apply app_inj_tail in E as [E _]. exact E. }
      destruct R as (pre & b & (k' & ->) & R). rewrite R in H. destruct (createContent N _ _ _ _ _) as [?|]; [|discriminate].
      assert (EL : (P ++ CImage N i :: k') ++ [CText N (setText N b (c_text N b ++ t) p)] = l) by congruence. rewrite <- EL, <- app_assoc. eexists. reflexivity. }
    assert (DR : forall r cell o t, drawText N s r cell o t = Some s' -> exists k', s_caches N s' = P ++ CImage N i :: k').
    { intros r cell o t H. unfold drawText in H. destruct (s_font N s) as [[fc f]|]; [|discriminate]. destruct (appendContentText N _ _ _) as [[[l x] y]|] eqn:AC; [|discriminate].
      apply TX in AC. injection H as <-. exact AC. }
    destruct c; cbn [step] in S; try (injection S as <-; apply A); try (injection S as <-; exists k; exact E); try (eapply DR; exact S).
    destruct (s_font N s) as [[fc f]|]; [|discriminate]. injection S as <-. apply A.
  Qed.
  Lemma run_keeps (N : num) l P i : forall (s s' : ds N), run N s l = Some s' -> (exists k, s_caches N s = P ++ CImage N i :: k) -> exists k, s_caches N s' = P ++ CImage N i :: k.
  Proof.
    induction l as [|c l IH]; intros s s' R E; cbn [run] in R; [injection R as <-; exact E|]. destruct (step N s c) as [s1|] eqn:S; [|discriminate].
    eapply IH; [exact R|]. eapply step_keeps; eassumption.
  Qed.
  Lemma run_app (N : num) l r : forall (s : ds N), run N s (l ++ r) = match run N s l with Some s' => run N s' r | None => None end.
  Proof. induction l as [|c l IH]; intros s; [reflexivity|]. cbn [app run]. destruct (step N s c); [apply IH|reflexivity]. Qed.
  Lemma taken_app l : forall v r, taken_up v (l ++ r) = taken_up v l ++ taken_up (pview_from v l) r.
  Proof. induction l as [|x l IH]; intros v r; [reflexivity|]. cbn [app taken_up]. rewrite IH, app_assoc. reflexivity. Qed.
  Lemma taken_gs l : forall v g st out, v = idle_pv g st out -> taken_up v (gs_ops l) = map (fun i => ([TName (bs "GS" ++ fmt_d i)], p_ctm g, List.length out)) l.
  Proof.
    induction l as [|i l IH]; intros v g st out ->; [reflexivity|]. cbn [gs_ops map taken_up]. change (list_eqb (snd _) (bs "gs")) with true. cbn [app fst].
    f_equal. change (map (fun i0 => o [TName (bs "GS" ++ fmt_d i0)] "gs") l) with (gs_ops l).
    assert (E : pstep (idle_pv g st out) (o [TName (bs "GS" ++ fmt_d i)] "gs") = idle_pv (set_ext g (p_ext g ++ [TName (bs "GS" ++ fmt_d i)])) st out) by reflexivity.
    rewrite E. apply (IH _ (set_ext g (p_ext g ++ [TName (bs "GS" ++ fmt_d i)])) st out eq_refl).
  Qed.

  (** ** C59: masks *)
  (** A mask, of any image, at any time: the mask's group shows that image alone, every point of it where asked, exactly as
      the same image drawn on the page with the same options would be. *)
  Theorem C59_mask_where_asked_partial (s : ds Qn) hist t id dx dy next mo grp t' :
    history hist t -> maskGroup Qn rot s t id dx dy next mo = (grp, t') ->
    let X := unitsToPoints Qn (s_cfg Qn s) (q_x Qn mo) in let Y := unitsToPoints Qn (s_cfg Qn s) (q_y Qn mo) in
    let '(Wd, Ht) := asked_size s (q_rect Qn mo) hist id dx dy in
    exists g, marks grp = [(g, External [TName (bs "I" ++ fmt_d (asked_object hist id next + 1))])] /\
      placed rot (s_pageH Qn s) pgs0 g (imgBox X Y Wd Ht (q_crop Qn mo)) (visBox X Y Wd Ht (q_crop Qn mo)) (cropped (q_crop Qn mo)) (q_hf Qn mo) (q_v Qn mo) (q_angle Qn mo) /\
      p_ext g = extOf (match q_tr Qn mo with Some tr => tr | None => s_tr Qn s end).
  Proof.
    intros HI E X Y. unfold maskGroup in E. destruct (imageWithOptions Qn s t id dx dy next mo) as [c t1] eqn:IM.
    destruct c; try (unfold imageWithOptions, place in IM; destruct (find_img Qn id t) as [[? ?]|]; discriminate).
    unfold imageWithOptions in IM. apply (place_asked s hist) in IM; [|exact HI|intros z; split; reflexivity]. destruct IM as [-> ->].
    destruct (asked_size s (q_rect Qn mo) hist id dx dy) as [Wd Ht]. cbn [fst snd] in *. injection E as <- <-.
    set (io := Build_imgopt Qn _ _ _ _ _ _ _ _ _ _). set (idx := asked_object hist id next).
    assert (M : marks (image_write Qn rot (contentImage Qn s idx io)) = [imageMark Qn rot (s_pageH Qn s) pgs0 idx io]).
    { unfold marks, content_ops. pose proof (E_image Qn rot Qn_prints (contentImage Qn s idx io) []) as EI. rewrite app_nil_r in EI.
      match type of EI with _ = ?a ++ ?b => change b with (@nil op) in EI; rewrite app_nil_r in EI end.
      change (pv_out (pview_from pv0 (DrawLex.E [] (image_write Qn rot (contentImage Qn s idx io)))) = [imageMark Qn rot (s_pageH Qn s) pgs0 idx io]).
      rewrite EI. change pv0 with (idle_pv pgs0 [] []). rewrite pv_image. reflexivity. }
    rewrite M. destruct (imageMark_rest rot (s_pageH Qn s) pgs0 idx io) as [R1 R2].
    exists (fst (imageMark Qn rot (s_pageH Qn s) pgs0 idx io)). split; [rewrite <- R1, <- surjective_pairing; reflexivity|].
    split; [apply (imageMark_placed rot (s_pageH Qn s) pgs0 idx io eq_refl)|].
    rewrite R2. cbn [io io_gs app]. change (p_ext pgs0) with (@nil tok). cbn [app]. unfold trOf. destruct (match q_tr Qn mo with Some tr => tr | None => s_tr Qn s end); reflexivity.
  Qed.

  (** An image drawn under a mask, at any point of any history of calls.  The mask's group: as above.  On the page: at that
      place in the order the viewer shows that image; not mirrored, or not turned, every point of it appears where asked,
      turned by the angles of the mask and of the image together about the middle of its rectangle; a crop shows the crop box
      and nothing else; the transparency and the state of the mask apply, and the mask lives in the coordinates in force. *)
  Theorem C59_masked_image_partial (s s1 : ds Qn) calls rest content hist t id dx dy next o mid mdx mdy mnext mo gs grp c t' :
    fresh_page Qn s -> has (s_style Qn s) styUnderline = false -> Forall (sensible Qn) (calls ++ c :: rest) -> Forall (undecorated Qn) (calls ++ c :: rest) ->
    history hist t -> run Qn s calls = Some s1 -> imageMasked Qn rot s1 t id dx dy next o mid mdx mdy mnext mo gs = (grp, c, t') ->
    outcome Qn rot s (calls ++ c :: rest) = Some content ->
    (q_hf Qn o = false /\ q_v Qn o = false) \/ (q_angle Qn mo + q_angle Qn o == 0)%Q ->
    let a := asks Qn rot false (blank Qn s) calls in
    let X := unitsToPoints Qn (s_cfg Qn s1) (q_x Qn o) in let Y := unitsToPoints Qn (s_cfg Qn s1) (q_y Qn o) in
    let hist1 := hist ++ [(mid, (asked_object hist mid mnext, asked_size s1 (q_rect Qn mo) hist mid mdx mdy))] in
    let '(Wd, Ht) := asked_size s1 (q_rect Qn o) hist1 id dx dy in
    (exists t1, maskGroup Qn rot s1 t mid mdx mdy mnext mo = (grp, t1)) /\
    exists g, nth_error (marks content) (List.length (a_out Qn a)) = Some (g, External [TName (bs "I" ++ fmt_d (asked_object hist1 id next + 1))]) /\
      placed_masked (s_pageH Qn s) (a_g Qn a) g (imgBox X Y Wd Ht (q_crop Qn o)) (visBox X Y Wd Ht (q_crop Qn o)) (fullBox X Y Wd Ht)
        (cropped (q_crop Qn o)) (q_hf Qn o) (q_v Qn o) (q_angle Qn mo + q_angle Qn o) /\
      p_ext g = p_ext (a_g Qn a) ++ extOf (match q_tr Qn o with Some tr => tr | None => s_tr Qn s1 end) ++ [TName (bs "GS" ++ fmt_d gs)] /\
      In ([TName (bs "GS" ++ fmt_d gs)], p_ctm (a_g Qn a), List.length (a_out Qn a)) (states_taken content).
  Proof using rot0.
    intros FP UL SE UD HI R1 IM OC OK a X Y hist1.
    unfold imageMasked in IM. destruct (maskGroup Qn rot s1 t mid mdx mdy mnext mo) as [grp' t1] eqn:MG.
    destruct (imageUnderMask Qn s1 t1 id dx dy next o (q_angle Qn mo) gs) as [c' t2] eqn:UM.
    assert (E1 : grp' = grp) by congruence. assert (E2 : c' = c) by congruence. assert (E3 : t2 = t') by congruence. clear IM. subst grp' c' t2.
    assert (HI1 : history hist1 t1).
    { unfold maskGroup in MG. destruct (imageWithOptions Qn s1 t mid mdx mdy mnext mo) as [mc t1'] eqn:MI.
      destruct mc; try (unfold imageWithOptions, place in MI; destruct (find_img Qn mid t) as [[? ?]|]; discriminate).
      assert (E : t1' = t1) by congruence. subst t1'. pose proof (h_opts _ _ _ _ _ _ _ _ _ _ _ HI MI) as HH.
      unfold imageWithOptions in MI. apply (place_asked s1 hist) in MI; [|exact HI|intros z; split; reflexivity]. destruct MI as [-> ->]. cbn [io_w io_h] in HH.
      unfold hist1. rewrite <- surjective_pairing in HH. exact HH. }
    destruct c; try (unfold imageUnderMask, place in UM; destruct (find_img Qn id t1) as [[? ?]|]; discriminate).
    unfold imageUnderMask in UM. apply (place_asked s1 hist1) in UM; [|exact HI1|intros z; split; reflexivity]. destruct UM as [-> ->].
    destruct (asked_size s1 (q_rect Qn o) hist1 id dx dy) as [Wd Ht]. cbn [fst snd] in *.
    split; [exists t1; reflexivity|].
    set (io := Build_imgopt Qn _ _ _ _ _ _ _ _ _ _) in *. set (idx := asked_object hist1 id next) in *.
    set (m := imageMark Qn rot (s_pageH Qn s) (a_g Qn a) idx io).
    pose proof (C58_painted_as_asked Qn rot Qn_prints s _ content FP UL SE UD OC) as R.
    assert (N : nth_error (a_out Qn (asks Qn rot false (blank Qn s) (calls ++ Image Qn idx io :: rest))) (List.length (a_out Qn a)) = Some m).
    { unfold asks. rewrite fold_left_app. cbn [fold_left]. fold (asks Qn rot false (blank Qn s) calls). fold a.
      destruct (asks_out rot false rest (ask Qn rot false a (Image Qn idx io))) as (k & E). unfold asks in E. rewrite E. cbn [ask amark a_out].
      rewrite <- app_assoc, nth_error_app2, Nat.sub_diag by lia. cbn [app nth_error]. unfold m, a. now rewrite asks_H. }
    destruct (Forall2_nth _ _ _ _ _ R N) as ([g w] & E & L1 & L2). cbn [fst snd] in *. destruct (imageMark_rest rot (s_pageH Qn s) (a_g Qn a) idx io) as [X1 X2]. fold m in X1, X2.
    exists g. split; [rewrite E, L2, X1; reflexivity|]. destruct L1 as (A & B & _ & _ & _ & C & _).
    split; [|split].
    - pose proof (imageMark_masked (s_pageH Qn s) (a_g Qn a) idx io (q_angle Qn mo) eq_refl OK) as P. fold m in P.
      unfold placed_masked in *. rewrite A, B. exact P.
    - rewrite C, X2. f_equal. cbn [io io_gs]. rewrite map_app. f_equal. unfold trOf. destruct (match q_tr Qn o with Some tr => tr | None => s_tr Qn s1 end); reflexivity.
    - destruct FP as [FC FM].
      assert (S0 : sim Qn rot s (blank Qn s)).
      { split; [rewrite FC; exists pgs0, [], []; repeat split; auto; constructor|]. repeat (split; [reflexivity|]). split; [exact UL|]. rewrite FC. split; constructor. }
      assert (SE1 : Forall (sensible Qn) calls) by (apply Forall_app in SE; tauto). assert (UD1 : Forall (undecorated Qn) calls) by (apply Forall_app in UD; tauto).
      destruct (sim_run Qn rot calls SE1 UD1 s (blank Qn s) s1 S0 R1) as ((g0 & st & out & SN & GL & _ & ML) & _). fold a in GL, ML.
      apply outcome_run in OC as (s' & RR & W).
      destruct (sim_run Qn rot _ SE UD s (blank Qn s) s' S0 RR) as (_ & _ & _ & _ & _ & _ & _ & K).
      unfold states_taken. rewrite (content_ops_write Qn rot Qn_prints (s_caches Qn s') content K W).
      assert (CA : exists k, s_caches Qn s' = s_caches Qn s1 ++ CImage Qn (contentImage Qn s1 idx io) :: k).
      { rewrite run_app, R1 in RR. cbn [run] in RR. change (step Qn s1 (Image Qn idx io)) with (Some (add Qn s1 (CImage Qn (contentImage Qn s1 idx io)))) in RR. cbv iota beta in RR.
        eapply run_keeps; [exact RR|]. exists []. reflexivity. }
      destruct CA as (k & ->). rewrite flat_map_app. cbn [flat_map]. rewrite taken_app. apply in_or_app. right. unfold seen in SN. rewrite SN.
      rewrite taken_app. apply in_or_app. left. cbn [cache_ops].
      assert (OI : exists post, oimage Qn rot (contentImage Qn s1 idx io) = DrawLex.o [] "q" :: gs_ops (io_gs Qn io) ++ post).
      { unfold oimage. cbv zeta. cbn [contentImage im_mask io io_mask im_gs]. destruct (match im_crop Qn _ with Some _ => _ | None => _ end) as [? ?]. cbn [app]. rewrite <- ?app_assoc. eexists. reflexivity. }
      destruct OI as (post & ->). cbn [taken_up]. apply in_or_app. right.
      change (pstep (idle_pv g0 st out) (DrawLex.o [] "q")) with (idle_pv g0 (g0 :: st) out).
      rewrite taken_app. apply in_or_app. left. rewrite (taken_gs _ _ g0 (g0 :: st) out eq_refl).
      destruct GL as (G1 & _). rewrite <- G1. assert (LL : List.length out = List.length (a_out Qn a)) by (clear - ML; induction ML; cbn; congruence). rewrite <- LL.
      apply in_map_iff. exists gs. split; [reflexivity|]. cbn [io io_gs]. apply in_or_app. right. left. reflexivity.
  Qed.
End C59m.

(** A mask that is not turned, no crop, and not both mirrored and turned: the image appears exactly as it would without the mask. *)
Theorem C59_masked_like_plain rot H before g img vis full hf vf a : vis = full ->
  placed_masked rot H before g img vis full false hf vf a -> placed rot H before g img vis false hf vf a.
Proof. intros -> P. exact P. Qed.

(** ** Concrete cases *)
Lemma irot0 : forall a, (a == 0)%Q -> irot a = (1, 0)%Q.
Proof. intros a A. unfold irot. destruct (Qeq_bool a 90) eqn:E; [|reflexivity]. apply Qeq_bool_iff in E. rewrite A in E. discriminate. Qed.
Definition mopt : iopts Qn := Build_iopts Qn 1%Q 2%Q (Some (Build_rect Qn 3%Q 2%Q (defcfg Qn 0))) None 90%Q true false None.
Definition mpic : iopts Qn := Build_iopts Qn 1%Q 2%Q (Some (Build_rect Qn 3%Q 2%Q (defcfg Qn 0))) (Some (10, 20, 30, 40)%Q) 0%Q false false (Some (Some 6)).
Definition mthe (o mo : iopts Qn) : bytes * call Qn * imgtbl Qn := imageMasked Qn irot (iafter ibefore) [] (bs "logo") 200 100 8 o (bs "veil") 64 64 7 mo 9.
Definition mcontent (o mo : iopts Qn) : option bytes := outcome Qn irot ipage (ibefore ++ [snd (fst (mthe o mo)); RotateReset Qn]).
Definition mpage : bytes := Eval vm_compute in got (mcontent mpic mopt).
Definition mgroup : bytes := Eval vm_compute in fst (fst (mthe mpic mopt)).
Example C59_masked_met : (forall a, (a == 0)%Q -> irot a = (1, 0)%Q) /\ fresh_page Qn ipage /\ has (s_style Qn ipage) styUnderline = false /\
  Forall (sensible Qn) (ibefore ++ snd (fst (mthe mpic mopt)) :: [RotateReset Qn]) /\ Forall (undecorated Qn) (ibefore ++ snd (fst (mthe mpic mopt)) :: [RotateReset Qn]) /\
  history [] [] /\ run Qn ipage ibefore = Some (iafter ibefore) /\
  outcome Qn irot ipage (ibefore ++ snd (fst (mthe mpic mopt)) :: [RotateReset Qn]) = Some mpage /\
  q_hf Qn mpic = false /\ q_v Qn mpic = false /\ fst (fst (mthe mpic mopt)) = mgroup /\ List.length (marks mgroup) = 1%nat.
Proof.
  split; [exact irot0|]. split; [split; [reflexivity|discriminate]|]. split; [reflexivity|]. split; [repeat constructor|]. split; [repeat constructor|]. split; [constructor|].
  split; [reflexivity|]. split; [vm_compute; reflexivity|]. split; [reflexivity|]. split; [reflexivity|]. split; [vm_compute; reflexivity|]. vm_compute. reflexivity.
Qed.

(** ** Where the code does less than a user expects *)
(** where a picture's corners and its crop box appear, if it is the only mark *)
Definition corner (content : option bytes) (u v : Q) : option (Q * Q) :=
  match content with Some c => match marks c with [(g, _)] => option_map (fun q => (Qred (fst q), Qred (snd q))) (takes (p_ctm g) (u, v)) | _ => None end | None => None end.
Definition under (o mo : iopts Qn) : option bytes :=
  outcome Qn irot ipage [snd (fst (imageMasked Qn irot ipage [] (bs "logo") 200 100 8 o (bs "veil") 64 64 7 mo 9))].
Definition alone (o : iopts Qn) : option bytes := outcome Qn irot ipage [fst (imageWithOptions Qn ipage [] (bs "logo") 200 100 8 o)].
Definition rect32 : option (rect Qn) := Some (Build_rect Qn 3%Q 2%Q (defcfg Qn 0)).
(** Turning the mask turns the picture: a picture with angle 0, 216 points wide and 144 high, under a mask with angle 90. *)
Theorem C59_mask_turns_picture_refuted :
  let o := Build_iopts Qn 1%Q 2%Q rect32 None 0%Q false false None in
  let veil := fun a => Build_iopts Qn 1%Q 2%Q rect32 None a false false None in
  corner (alone o) 0 0 = Some (72, 512)%Q /\ corner (under o (veil 0%Q)) 0 0 = Some (72, 512)%Q /\ corner (under o (veil 90%Q)) 0 0 = Some (252, 476)%Q.
Proof. split; [vm_compute; reflexivity|]. split; vm_compute; reflexivity. Qed.
(** A mirrored picture that is turned, under a mask, is thrown off the page. *)
Theorem C59_mirrored_under_mask_refuted :
  let o := Build_iopts Qn 1%Q 2%Q rect32 None 90%Q false true None in
  let veil := Build_iopts Qn 1%Q 2%Q rect32 None 0%Q false false None in
  corner (alone o) 0 0 = Some (252, 692)%Q /\ corner (alone o) 1 1 = Some (108, 476)%Q /\
  corner (under o veil) 0 0 = Some (-252, 116)%Q /\ corner (under o veil) 1 1 = Some (-108, 332)%Q.
Proof. repeat split; vm_compute; reflexivity. Qed.
(** A crop is turned with its picture, but not under a mask. *)
Definition cropped_to (content : option bytes) : list (option (Q * Q)) :=
  match content with Some c => match marks c with [(g, _)] => map (fun '(m, p, _) => match reat p 0 0 with Some q => option_map (fun q => (Qred (fst q), Qred (snd q))) (takes m q) | None => None end) (p_clip g) | _ => [] end | None => [] end.
Theorem C59_crop_not_turned_under_mask_refuted :
  let o := Build_iopts Qn 1%Q 2%Q rect32 (Some (0, 0, 100, 50)%Q) 90%Q false false None in
  let veil := Build_iopts Qn 1%Q 2%Q rect32 None 0%Q false false None in
  cropped_to (alone o) = [Some (147, 581)%Q] /\ cropped_to (under o veil) = [Some (72, 606)%Q].
Proof. split; vm_compute; reflexivity. Qed.
(** One image used as mask and as picture: both are the object made for the mask. *)
Theorem C59_mask_is_picture_refuted rot s t id dx dy dx' dy' next mnext o mo gs grp c t' :
  imageMasked Qn rot s t id dx dy next o id dx' dy' mnext mo gs = (grp, c, t') -> find_img Qn id t = None -> exists io, c = Image Qn mnext io.
Proof.
  unfold imageMasked, maskGroup, imageUnderMask, imageWithOptions, place. intros E F. rewrite F in E.
  match type of E with context [find_img Qn id (t ++ [(id, (mnext, ?r))])] =>
    assert (G : find_img Qn id (t ++ [(id, (mnext, r))]) = Some (mnext, r)) by (rewrite find_img_snoc, F; cbn [fst snd]; replace (list_eqb id id) with true by (symmetry; apply list_eqb_eq; reflexivity); reflexivity);
    rewrite G in E end.
  match type of E with (_, Image Qn _ ?io, _) = _ => exists io end. congruence.
Qed.
Print Assumptions C59_mask_where_asked_partial.
Print Assumptions C59_masked_image_partial.
Print Assumptions C59_mask_is_picture_refuted.
