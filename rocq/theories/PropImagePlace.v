(** PropImagePlace.v — C59: images appear where, and as large, as asked. *)
From Coq Require Import QArith Qabs Lqa.
From Verif Require Import Base StrModel NumModel NumRead UnitModel DrawModel DrawSpec DrawLex DrawNest DrawView PropDraw PaintSpec PropPaint PaintNum ImgModel.
Open Scope Z_scope.

(** ** Specification: where a transformation takes a point (ISO 32000-1, 8.3.4) *)
Definition tval (t : tok) : option Q := match t with TWord b => number_val b | _ => None end.
Definition mapply (m : gmat) (p : Q * Q) : option (Q * Q) :=
  match map tval m with
  | [Some a; Some b; Some c; Some e; Some f; Some g] => Some ((a * fst p + c * snd p + f)%Q, (b * fst p + e * snd p + g)%Q)
  | _ => None
  end.
(** outermost first: the last one is applied first *)
Fixpoint takes (l : list gmat) (p : Q * Q) : option (Q * Q) :=
  match l with [] => Some p | m :: r => match takes r p with Some p' => mapply m p' | None => None end end.
Lemma takes_app l r p : takes (l ++ r) p = match takes r p with Some p' => takes l p' | None => None end.
Proof. induction l as [|m l IH]; [cbn; now destruct (takes r p)|]. cbn [app takes]. rewrite IH. destruct (takes r p) as [p'|]; [reflexivity|reflexivity]. Qed.
Definition within (e q x : Q) : Prop := (Qabs (q - x) <= e)%Q.

(** ** Printed numbers *)
Definition pr (k : nat) (x : Q) : Q := match number_val (nfmt Qn k x) with Some q => q | None => 0%Q end.
Lemma pr_val k x : tval (d Qn k x) = Some (pr k x).
Proof. unfold d, tval, pr. destruct (Qn_near k x) as (q & -> & _). reflexivity. Qed.
Lemma pr_near k x : near k (pr k x) x.
Proof. unfold pr. destruct (Qn_near k x) as (q & -> & H). exact H. Qed.
Lemma pr_eq k x : (pr k x == qsgn (q_neg x) (Qmake (roundHE (Z.abs (Qnum x) * 10 ^ Z.of_nat k) (Zpos (Qden x))) (Z.to_pos (10 ^ Z.of_nat k))))%Q.
Proof.
  unfold pr. cbn [nfmt Qn]. destruct (fmtExact_val k (q_neg x) (Z.abs (Qnum x)) (Zpos (Qden x)) ltac:(lia) ltac:(lia)) as (q & -> & H). exact H.
Qed.
Lemma pr_neg k x : (pr k (- x) == - pr k x)%Q.
Proof.
  rewrite !pr_eq. cbn [Qopp Qnum Qden]. rewrite Z.abs_opp. set (r := roundHE _ _). unfold q_neg. cbn [Qopp Qnum].
  destruct (Z.eq_dec (Qnum x) 0) as [E|E].
  - assert (R : r = 0) by (unfold r; rewrite E; unfold roundHE; rewrite Z.mul_0_l, Z.div_0_l, Z.mod_0_l by lia; reflexivity). rewrite E, R. reflexivity.
  - destruct (Z.ltb_spec (- Qnum x) 0), (Z.ltb_spec (Qnum x) 0); try lia; cbn [qsgn]; ring.
Qed.
Lemma near2 x : within (1 # 200) (pr 2 x) x. Proof. exact (pr_near 2 x). Qed.

Section C59.
  Variable rot : Q -> Q * Q.
  Notation rotA := (rotAbout Qn rot).
  (** A printed rotation turns about its printed centre by the printed cosine and sine. *)
  Definition turned (C cs : Q * Q) (p : Q * Q) : Q * Q :=
    ((fst C + (fst cs * (fst p - fst C) - snd cs * (snd p - snd C)))%Q, (snd C + (snd cs * (fst p - fst C) + fst cs * (snd p - snd C)))%Q).
  Definition peq (p q : Q * Q) : Prop := (fst p == fst q)%Q /\ (snd p == snd q)%Q.
  Lemma turn_alg (c s ns X Y nX nY u v : Q) : (ns == - s)%Q -> (nX == - X)%Q -> (nY == - Y)%Q ->
    peq (c * (1 * u + 0 * v + nX) + ns * (0 * u + 1 * v + nY) + X, s * (1 * u + 0 * v + nX) + c * (0 * u + 1 * v + nY) + Y)%Q
        (turned (X, Y) (c, s) (u, v)).
  Proof. intros E1 E2 E3. unfold peq, turned. cbn [fst snd]. rewrite E1, E2, E3. split; ring. Qed.
  Lemma rot_takes (H x y a : Q) p : exists q, takes (rotA H x y a) p = Some q /\
    peq q (turned (pr 2 x, pr 2 (H - y)%Q) (pr 5 (fst (rot a)), pr 5 (snd (rot a))) p).
  Proof.
    unfold rotAbout. destruct (rot a) as [c s]. cbn [takes]. unfold mapply at 2. cbn [map]. rewrite !pr_val.
    change (tval (wd "1")) with (Some 1%Q). change (tval (wd "0")) with (Some 0%Q). cbn [fst snd].
    unfold mapply. cbn [map]. rewrite !pr_val. eexists. split; [reflexivity|]. destruct p as [u v].
    apply turn_alg; apply pr_neg.
  Qed.
  (** ** What is asked for: a box on the page, from the top left corner, in points *)
  Record box := { bx_left : Q; bx_top : Q; bx_w : Q; bx_h : Q }.
  (** The point at (u, v) of the box, from its lower left corner, on a page of height H; mirrored if asked. *)
  Definition spot (H : Q) (b : box) (hf vf : bool) (u v : Q) : Q * Q :=
    ((bx_left b + (if hf then 1 - u else u) * bx_w b)%Q, (H - bx_top b - bx_h b + (if vf then 1 - v else v) * bx_h b)%Q).
  Definition unit_ (u : Q) : Prop := (0 <= u)%Q /\ (u <= 1)%Q.
  Definition close (p q : Q * Q) : Prop := within (1 # 100) (fst p) (fst q) /\ within (1 # 100) (snd p) (snd q).
  (** [q] is [p], to a hundredth of a point, turned by the angle about the middle of the box [b] (the centre rounded to
      a two-hundredth of a point, cosine and sine to a 200000th). *)
  Definition turned_about (H : Q) (b : box) (angle : Q) (p q : Q * Q) : Prop :=
    exists C cs p', within (1 # 200) (fst C) (bx_left b + bx_w b / 2) /\ within (1 # 200) (snd C) (H - (bx_top b + bx_h b / 2)) /\
      within (1 # 200000) (fst cs) (fst (rot angle)) /\ within (1 # 200000) (snd cs) (snd (rot angle)) /\ (rot angle = (1, 0)%Q -> peq cs (1, 0)%Q) /\ close p' p /\ peq q (turned C cs p').

  (** ** Algebra *)
  Lemma within_lin (u a a' b b' : Q) : unit_ u -> within (1 # 200) a a' -> within (1 # 200) b b' -> within (1 # 100) (u * a + b) (u * a' + b').
  Proof.
    unfold within, unit_. intros [U0 U1] A B. apply Qabs_Qle_condition in A as [A1 A2]. apply Qabs_Qle_condition in B as [B1 B2].
    apply Qabs_Qle_condition. split; nra.
  Qed.
  Lemma within_neg (e a b : Q) : within e a b -> within e (- a) (- b).
  Proof. unfold within. intros A. apply Qabs_Qle_condition in A as [A1 A2]. apply Qabs_Qle_condition. split; lra. Qed.
  Lemma within_eq (e a b a' b' : Q) : (a == a')%Q -> (b == b')%Q -> within e a b -> within e a' b'.
  Proof. unfold within. intros -> ->. tauto. Qed.
  (** one coordinate: mirrored or not *)
  Lemma coord (fl : bool) (u w p : Q) : unit_ u ->
    within (1 # 100) ((if fl then -1 # 1 else 1) * (u * pr 2 w + pr 2 (if fl then - p - w else p))) (p + (if fl then 1 - u else u) * w).
  Proof.
    intros U. destruct fl.
    - eapply within_eq; [| |apply within_neg; apply (within_lin u _ w _ (- p - w)%Q U (near2 w) (near2 (- p - w)%Q))]; ring.
    - eapply within_eq; [| |apply (within_lin u _ w _ p U (near2 w) (near2 p))]; ring.
  Qed.
  Lemma near5 x : within (1 # 200000) (pr 5 x) x. Proof. exact (pr_near 5 x). Qed.

  (** *** The matrices *)
  Definition flipm (hf vf : bool) : list gmat :=
    if hf || vf then [[wd (if hf then "-1" else "1"); wd "0"; wd "0"; wd (if vf then "-1" else "1"); wd "0"; wd "0"]] else [].
  Lemma flip_takes hf vf p : exists q, takes (flipm hf vf) p = Some q /\ peq q ((if hf then -1 # 1 else 1) * fst p, (if vf then -1 # 1 else 1) * snd p)%Q.
  Proof.
    assert (E0 : tval (wd "0") = Some 0%Q) by reflexivity. assert (E1 : tval (wd "1") = Some 1%Q) by reflexivity.
    assert (E2 : tval (wd "-1") = Some (-1 # 1)%Q) by reflexivity. destruct p as [a b].
    unfold flipm. destruct hf, vf; cbn [orb takes]; unfold mapply; cbn [map]; rewrite ?E0, ?E1, ?E2; eexists; (split; [reflexivity|]); unfold peq; cbn [fst snd]; split; ring.
  Qed.
  Lemma place_takes (w h x y u v : Q) : exists q, takes [[d Qn 2 w; wd "0"; wd "0"; d Qn 2 h; d Qn 2 x; d Qn 2 y]] (u, v) = Some q /\
    peq q (u * pr 2 w + pr 2 x, v * pr 2 h + pr 2 y)%Q.
  Proof.
    assert (E0 : tval (wd "0") = Some 0%Q) by reflexivity.
    cbn [takes]. unfold mapply. cbn [map]. rewrite !pr_val, !E0. eexists. split; [reflexivity|]. unfold peq. cbn [fst snd]. split; ring.
  Qed.
  Lemma turned_peq C cs p q : peq p q -> peq (turned C cs p) (turned C cs q).
  Proof. unfold peq, turned. intros [A B]. cbn [fst snd] in *. rewrite A, B. split; reflexivity. Qed.
  Lemma peq_trans p q r : peq p q -> peq q r -> peq p r.
  Proof. unfold peq. intros [A B] [C D]. rewrite A, B. split; assumption. Qed.
  Lemma mapply_ext m p q : peq p q -> match mapply m p, mapply m q with Some a, Some b => peq a b | None, None => True | _, _ => False end.
  Proof.
    intros [A B]. unfold mapply. destruct (map tval m) as [|[a|] [|[b|] [|[c|] [|[e|] [|[f|] [|[g|] [|]]]]]]]; auto.
    unfold peq. cbn [fst snd]. rewrite A, B. split; reflexivity.
  Qed.
  (** The whole of an image's own transformation: a rotation, a mirror and a last step. *)
  Lemma own_takes (H x y a : Q) hf vf last p q0 q1 :
    takes last p = Some q0 -> peq q0 q1 ->
    exists q, takes (rotA H x y a ++ flipm hf vf ++ last) p = Some q /\
      peq q (turned (pr 2 x, pr 2 (H - y)%Q) (pr 5 (fst (rot a)), pr 5 (snd (rot a))) ((if hf then -1 # 1 else 1) * fst q1, (if vf then -1 # 1 else 1) * snd q1)%Q).
  Proof.
    intros E P. rewrite !takes_app, E. destruct (flip_takes hf vf q0) as (q2 & -> & P2). destruct (rot_takes H x y a q2) as (q & -> & P3).
    exists q. split; [reflexivity|]. eapply peq_trans; [exact P3|]. apply turned_peq. eapply peq_trans; [exact P2|].
    destruct P as [P1 P1']. unfold peq. cbn [fst snd]. rewrite P1, P1'. split; reflexivity.
  Qed.
  (** The centre and the angle as printed *)
  Lemma about (H : Q) (b : box) (a : Q) (x y : Q) p p' q :
    (x == bx_left b + bx_w b / 2)%Q -> (y == bx_top b + bx_h b / 2)%Q -> close p' p ->
    peq q (turned (pr 2 x, pr 2 (H - y)%Q) (pr 5 (fst (rot a)), pr 5 (snd (rot a))) p') -> turned_about H b a p q.
  Proof.
    intros X Y C P. exists (pr 2 x, pr 2 (H - y)%Q), (pr 5 (fst (rot a)), pr 5 (snd (rot a))), p'. cbn [fst snd].
    split; [eapply within_eq; [reflexivity| |apply near2]; exact X|]. split; [eapply within_eq; [reflexivity| |apply near2]; rewrite Y; reflexivity|].
    split; [apply near5|]. split; [apply near5|]. split; [intros ->; cbn [fst snd]; split; reflexivity|]. split; [exact C|exact P].
  Qed.
  (** The image's own box: the crop box is moved over it. *)
  Definition imgBox (X Y W Ht : Q) (crop : option (Q * Q * Q * Q)) : box :=
    match crop with Some (cx, cy, _, _) => {| bx_left := X - cx; bx_top := Y - cy; bx_w := W; bx_h := Ht |}
                  | None => {| bx_left := X; bx_top := Y; bx_w := W; bx_h := Ht |} end.
  Definition visBox (X Y W Ht : Q) (crop : option (Q * Q * Q * Q)) : box :=
    match crop with Some (_, _, cw, ch) => {| bx_left := X; bx_top := Y; bx_w := cw; bx_h := ch |}
                  | None => {| bx_left := X; bx_top := Y; bx_w := W; bx_h := Ht |} end.
  (** a path that is a rectangle: its point at (u, v) *)
  Definition reat (p : gpath) (u v : Q) : option (Q * Q) :=
    match p with
    | [([x; y; w; h], o)] => if list_eqb o (bs "re") then
        match tval x, tval y, tval w, tval h with Some x, Some y, Some w, Some h => Some ((u * w + x)%Q, (v * h + y)%Q) | _, _, _, _ => None end else None
    | _ => None
    end.

  (** ** What an image's mark looks like *)
  Definition placed (H : Q) (before g : pgs) (img vis : box) (crop hf vf : bool) (angle : Q) : Prop :=
    exists own, p_ctm g = p_ctm before ++ own /\
      (forall u v, unit_ u -> unit_ v -> exists q, takes own (u, v) = Some q /\ turned_about H vis angle (spot H img hf vf u v) q) /\
      (if crop then exists outer path, p_clip g = p_clip before ++ [(p_ctm before ++ outer, path, bs "W*")] /\
         forall u v, unit_ u -> unit_ v -> exists p q, reat path u v = Some p /\ takes outer p = Some q /\ turned_about H vis angle (spot H vis hf vf u v) q
       else p_clip g = p_clip before).
  Definition cropped {A} (o : option A) : bool := match o with Some _ => true | None => false end.
  Lemma imageMark_placed (H : Q) g idx (o : imgopt Qn) : io_mask Qn o = None ->
    placed H g (fst (imageMark Qn rot H g idx o)) (imgBox (io_x Qn o) (io_y Qn o) (io_w Qn o) (io_h Qn o) (io_crop Qn o))
      (visBox (io_x Qn o) (io_y Qn o) (io_w Qn o) (io_h Qn o) (io_crop Qn o)) (cropped (io_crop Qn o)) (io_hf Qn o) (io_v Qn o) (io_angle Qn o).
  Proof.
    destruct o as [X Y W Ht an vf hf crop mask gs]. cbn [io_x io_y io_w io_h io_crop io_mask io_hf io_v io_angle]. intros ->.
    unfold imageMark. cbn [io_x io_y io_w io_h io_crop io_mask io_hf io_v io_angle io_gs].
    change (if hf || vf then _ else []) with (flipm hf vf).
    unfold placed. destruct crop as [[[[cx cy] cw] ch]|]; cbn [fst snd app cropped imgBox visBox set_ctm set_clip set_ext p_ctm p_clip].
    - exists ((rotA H (X + cw / 2) (Y + ch / 2) an ++ flipm hf vf) ++
              [[d Qn 2 W; wd "0"; wd "0"; d Qn 2 Ht; d Qn 2 (if hf then - (X - cx) - W else X - cx); d Qn 2 (if vf then - (H - Y + (cy - Ht)) - Ht else H - Y + (cy - Ht))]])%Q.
      split; [cbn [app]; rewrite <- !app_assoc; reflexivity|]. split.
      + intros u v U V. rewrite <- app_assoc.
        destruct (place_takes W Ht (if hf then - (X - cx) - W else X - cx)%Q (if vf then - (H - Y + (cy - Ht)) - Ht else H - Y + (cy - Ht))%Q u v) as (q0 & E0 & P0).
        destruct (own_takes H (X + cw / 2)%Q (Y + ch / 2)%Q an hf vf _ _ _ _ E0 P0) as (q & E & P). exists q. split; [exact E|].
        eapply about; [| | |exact P]; cbn [bx_left bx_top bx_w bx_h]; try reflexivity. unfold close, spot. cbn [fst snd bx_left bx_top bx_w bx_h].
        split; [apply coord; exact U|]. eapply within_eq; [reflexivity| |apply coord; exact V]. ring.
      + exists (rotA H (X + cw / 2) (Y + ch / 2) an ++ flipm hf vf)%Q. eexists. split; [reflexivity|]. intros u v U V. cbn [reat].
        unfold op_. change (list_eqb (bs "re") (bs "re")) with true. cbv iota. rewrite !pr_val. eexists.
        destruct (own_takes H (X + cw / 2)%Q (Y + ch / 2)%Q an hf vf [] (u * pr 2 cw + pr 2 (if hf then - X - cw else X), v * pr 2 ch + pr 2 (if vf then - (H - Y - ch) - ch else H - Y - ch))%Q _ _ eq_refl (conj (Qeq_refl _) (Qeq_refl _))) as (q & E & P).
        exists q. split; [reflexivity|]. rewrite app_nil_r in E. split; [exact E|].
        eapply about; [| | |exact P]; cbn [bx_left bx_top bx_w bx_h]; try reflexivity. unfold close, spot. cbn [fst snd bx_left bx_top bx_w bx_h].
        split; [apply coord; exact U|apply coord; exact V].
    - exists ((rotA H (X + W / 2) (Y + Ht / 2) an ++ flipm hf vf) ++
              [[d Qn 2 W; wd "0"; wd "0"; d Qn 2 Ht; d Qn 2 (if hf then - X - W else X); d Qn 2 (if vf then - (H - Y - Ht) - Ht else H - Y - Ht)]])%Q.
      split; [rewrite <- !app_assoc; reflexivity|]. split; [|now rewrite app_nil_r].
      intros u v U V. rewrite <- app_assoc.
      destruct (place_takes W Ht (if hf then - X - W else X)%Q (if vf then - (H - Y - Ht) - Ht else H - Y - Ht)%Q u v) as (q0 & E0 & P0).
      destruct (own_takes H (X + W / 2)%Q (Y + Ht / 2)%Q an hf vf _ _ _ _ E0 P0) as (q & E & P). exists q. split; [exact E|].
      eapply about; [| | |exact P]; cbn [bx_left bx_top bx_w bx_h]; try reflexivity. unfold close, spot. cbn [fst snd bx_left bx_top bx_w bx_h].
      split; [apply coord; exact U|apply coord; exact V].
  Qed.

  (** ** Histories *)
  Lemma ask_H i a c : a_H Qn (ask Qn rot i a c) = a_H Qn a.
  Proof. destruct c; cbn [ask]; try reflexivity; try (destruct (a_stack Qn a); reflexivity); destruct (a_coltext Qn a); reflexivity. Qed.
  Lemma asks_H i l : forall a, a_H Qn (asks Qn rot i a l) = a_H Qn a.
  Proof. unfold asks. induction l as [|c l IH]; intros a; [reflexivity|]. cbn [fold_left]. now rewrite IH, ask_H. Qed.
  Lemma ask_out i a c : exists k, a_out Qn (ask Qn rot i a c) = a_out Qn a ++ k.
  Proof.
    destruct c; cbn [ask]; try (exists []; rewrite app_nil_r; reflexivity); try (eexists; reflexivity);
      try (destruct (a_stack Qn a); exists []; rewrite app_nil_r; reflexivity); destruct (a_coltext Qn a); exists []; rewrite app_nil_r; reflexivity.
  Qed.
  Lemma asks_out i l : forall a, exists k, a_out Qn (asks Qn rot i a l) = a_out Qn a ++ k.
  Proof.
    unfold asks. induction l as [|c l IH]; intros a; [exists []; now rewrite app_nil_r|]. cbn [fold_left].
    destruct (IH (ask Qn rot i a c)) as (k & ->). destruct (ask_out i a c) as (k' & ->). exists (k' ++ k). now rewrite app_assoc.
  Qed.
  Lemma Forall2_nth {A B} (R : A -> B -> Prop) l l' n b : Forall2 R l l' -> nth_error l' n = Some b -> exists a, nth_error l n = Some a /\ R a b.
  Proof. intros F. revert n. induction F; intros [|n] E; cbn in *; try discriminate; [injection E as <-; eauto|eauto]. Qed.
  Lemma placed_like H a a' g g' img vis cr hf vf an : p_ctm a = p_ctm a' -> p_clip a = p_clip a' -> p_ctm g = p_ctm g' -> p_clip g = p_clip g' ->
    placed H a g img vis cr hf vf an -> placed H a' g' img vis cr hf vf an.
  Proof. unfold placed. intros -> -> -> ->. tauto. Qed.
  Lemma imageMark_rest (H : Q) g idx (o : imgopt Qn) : snd (imageMark Qn rot H g idx o) = External [TName (bs "I" ++ fmt_d (idx + 1))] /\
    p_ext (fst (imageMark Qn rot H g idx o)) = p_ext g ++ map (fun i => TName (bs "GS" ++ fmt_d i)) (io_gs Qn o).
  Proof. unfold imageMark. destruct (io_crop Qn o) as [[[[? ?] ?] ?]|]; split; reflexivity. Qed.
  Lemma image_marks (s : ds Qn) calls rest content idx io :
    let c := Image Qn idx io in let a := asks Qn rot false (blank Qn s) calls in
    fresh_page Qn s -> has (s_style Qn s) styUnderline = false -> Forall (sensible Qn) (calls ++ c :: rest) -> Forall (undecorated Qn) (calls ++ c :: rest) ->
    io_mask Qn io = None -> outcome Qn rot s (calls ++ c :: rest) = Some content ->
    exists g, nth_error (marks content) (List.length (a_out Qn a)) = Some (g, External [TName (bs "I" ++ fmt_d (idx + 1))]) /\
      p_ext g = p_ext (a_g Qn a) ++ map (fun i => TName (bs "GS" ++ fmt_d i)) (io_gs Qn io) /\
      placed (s_pageH Qn s) (a_g Qn a) g (imgBox (io_x Qn io) (io_y Qn io) (io_w Qn io) (io_h Qn io) (io_crop Qn io))
        (visBox (io_x Qn io) (io_y Qn io) (io_w Qn io) (io_h Qn io) (io_crop Qn io)) (cropped (io_crop Qn io)) (io_hf Qn io) (io_v Qn io) (io_angle Qn io).
  Proof.
    intros c a F U SE UD MA O. pose proof (C58_painted_as_asked Qn rot Qn_prints s _ content F U SE UD O) as R.
    set (m := imageMark Qn rot (s_pageH Qn s) (a_g Qn a) idx io).
    assert (N : nth_error (a_out Qn (asks Qn rot false (blank Qn s) (calls ++ c :: rest))) (List.length (a_out Qn a)) = Some m).
    { unfold asks. rewrite fold_left_app. cbn [fold_left]. fold (asks Qn rot false (blank Qn s) calls). fold a.
      destruct (asks_out false rest (ask Qn rot false a c)) as (k & E). unfold asks in E. rewrite E. unfold c. cbn [ask amark a_out].
      rewrite <- app_assoc, nth_error_app2, Nat.sub_diag by lia. cbn [app nth_error]. unfold m, a. now rewrite asks_H. }
    destruct (Forall2_nth _ _ _ _ _ R N) as ([g w] & E & L1 & L2). cbn [fst snd] in *. destruct (imageMark_rest (s_pageH Qn s) (a_g Qn a) idx io) as [X1 X2]. fold m in X1, X2.
    exists g. split; [rewrite E, L2, X1; reflexivity|].
    destruct L1 as (A & B & _ & _ & _ & C & _).
    split; [rewrite C; exact X2|]. eapply placed_like; [reflexivity|reflexivity|symmetry; exact A|symmetry; exact B|]. now apply imageMark_placed.
  Qed.

  (** ** Images by identifier *)
  (** All images drawn so far, in order: the identifier, the object, the size in points. *)
  Inductive history : list (bytes * (Z * (Q * Q))) -> imgtbl Qn -> Prop :=
  | h_none : history [] []
  | h_opts l t s id dx dy next o idx io t' : history l t -> imageWithOptions Qn s t id dx dy next o = (Image Qn idx io, t') ->
      history (l ++ [(id, (idx, (io_w Qn io, io_h Qn io)))]) t'
  | h_masked l t s id dx dy next o ma gs idx io t' : history l t -> imageUnderMask Qn s t id dx dy next o ma gs = (Image Qn idx io, t') ->
      history (l ++ [(id, (idx, (io_w Qn io, io_h Qn io)))]) t'
  | h_plain l t s id dx dy next x y r idx io t' : history l t -> image Qn s t id dx dy next x y r = (Image Qn idx io, t') ->
      history (l ++ [(id, (idx, (io_w Qn io, io_h Qn io)))]) t'.
  Definition first_of (id : bytes) (l : list (bytes * (Z * (Q * Q)))) : option (Z * (Q * Q)) := find_img Qn id l.
  Lemma find_img_snoc id l e : find_img Qn id (l ++ [e]) = match find_img Qn id l with Some r => Some r | None => if list_eqb id (fst e) then Some (snd e) else None end.
  Proof.
    unfold find_img. induction l as [|x l IH]; [cbn [app find]; destruct (list_eqb id (fst e)); reflexivity|].
    cbn [app find]. destruct (list_eqb id (fst x)); [reflexivity|exact IH].
  Qed.
  Lemma history_first l t : history l t -> forall id, find_img Qn id t = first_of id l.
  Proof.
    induction 1 as [|l t s id dx dy next o idx io t' Hi IH E|l t s id dx dy next o ma gs idx io t' Hi IH E|l t s id dx dy next x y r idx io t' Hi IH E]; intros j; [reflexivity| | |].
    - unfold imageWithOptions, place in E. unfold first_of. rewrite find_img_snoc. fold (first_of j l). rewrite <- IH. cbn [fst snd].
      destruct (find_img Qn id t) as [[i r]|] eqn:Fi.
      + assert (E' : t' = t) by congruence. subst t'. destruct (find_img Qn j t) eqn:Fj; [reflexivity|]. destruct (list_eqb j id) eqn:Eq; [|reflexivity].
        apply list_eqb_eq in Eq. congruence.
      + match type of E with (Image Qn ?a ?b, ?c) = _ => assert (E1 : t' = c) by congruence; assert (E2 : idx = a) by congruence; assert (E3 : io = b) by congruence end.
        subst t' idx io. rewrite find_img_snoc. cbn [fst snd io_w io_h]. destruct (find_img Qn j t); [reflexivity|]. destruct (list_eqb j id); [|reflexivity].
        now destruct (size_of Qn s (q_rect Qn o)) as [[? ?]|].
    - unfold imageUnderMask, place in E. unfold first_of. rewrite find_img_snoc. fold (first_of j l). rewrite <- IH. cbn [fst snd].
      destruct (find_img Qn id t) as [[i r]|] eqn:Fi.
      + assert (E' : t' = t) by congruence. subst t'. destruct (find_img Qn j t) eqn:Fj; [reflexivity|]. destruct (list_eqb j id) eqn:Eq; [|reflexivity].
        apply list_eqb_eq in Eq. congruence.
      + match type of E with (Image Qn ?a ?b, ?c) = _ => assert (E1 : t' = c) by congruence; assert (E2 : idx = a) by congruence; assert (E3 : io = b) by congruence end.
        subst t' idx io. rewrite find_img_snoc. cbn [fst snd io_w io_h]. destruct (find_img Qn j t); [reflexivity|]. destruct (list_eqb j id); [|reflexivity].
        now destruct (size_of Qn s (q_rect Qn o)) as [[? ?]|].
    - unfold image, place in E. unfold first_of. rewrite find_img_snoc. fold (first_of j l). rewrite <- IH. cbn [fst snd].
      destruct (find_img Qn id t) as [[i r0]|] eqn:Fi.
      + assert (E' : t' = t) by congruence. subst t'. destruct (find_img Qn j t) eqn:Fj; [reflexivity|]. destruct (list_eqb j id) eqn:Eq; [|reflexivity].
        apply list_eqb_eq in Eq. congruence.
      + match type of E with (Image Qn ?a ?b, ?c) = _ => assert (E1 : t' = c) by congruence; assert (E2 : idx = a) by congruence; assert (E3 : io = b) by congruence end.
        subst t' idx io. rewrite find_img_snoc. cbn [fst snd io_w io_h]. destruct (find_img Qn j t); [reflexivity|]. destruct (list_eqb j id); [|reflexivity].
        now destruct (size_of Qn s r) as [[? ?]|].
  Qed.

  (** ** C59 *)
  (** The size, in points: the rectangle given; else that of the first drawing of the same image; else 9/16 of a point per pixel. *)
  Definition asked_size (s : ds Qn) (r : option (rect Qn)) (hist : list (bytes * (Z * (Q * Q)))) (id : bytes) (dx dy : Z) : Q * Q :=
    match r with
    | Some r => let c := if u_unit (r_over Qn r) =? 0 then Build_ucfg Qn (u_unit (s_cfg Qn s)) 0%Q else r_over Qn r in
                (unitsToPoints Qn c (r_w Qn r), unitsToPoints Qn c (r_h Qn r))
    | None => match first_of id hist with
              | Some (_, sz) => sz
              | None => (inject_Z (fst (naturalSize dx dy)), inject_Z (snd (naturalSize dx dy)))
              end
    end.
  (** The object: the one made by the first drawing, or a new one. *)
  Definition asked_object (hist : list (bytes * (Z * (Q * Q)))) (id : bytes) (next : Z) : Z :=
    match first_of id hist with Some (i, _) => i | None => next end.
  Lemma place_asked (s : ds Qn) hist t id dx dy next r mk idx io t' : history hist t ->
    (forall z, io_w Qn (mk z) = fst z /\ io_h Qn (mk z) = snd z) ->
    place Qn t id dx dy next (size_of Qn s r) mk = (Image Qn idx io, t') ->
    idx = asked_object hist id next /\ io = mk (asked_size s r hist id dx dy).
  Proof.
    intros HI MK E. unfold place in E. rewrite (history_first _ _ HI) in E. unfold asked_object, asked_size.
    destruct (first_of id hist) as [[i z]|]; split; try congruence;
      match type of E with (Image Qn ?a ?b, ?c) = _ => assert (E1 : io = b) by congruence; rewrite E1 end; f_equal; destruct r as [r|]; reflexivity || (destruct (naturalSize dx dy); reflexivity).
  Qed.

  (** An image drawn at any point of any history of calls: the viewer shows that image at that place in the order;
      every point of it appears where asked, turned about the middle of the visible box, in the coordinates in force;
      a crop shows the crop box and nothing else of it; the transparency asked for, or the current one, applies. *)
  Theorem C59_image_where_asked_partial (s s1 : ds Qn) calls rest content hist t id dx dy next o c t' :
    fresh_page Qn s -> has (s_style Qn s) styUnderline = false -> Forall (sensible Qn) (calls ++ c :: rest) -> Forall (undecorated Qn) (calls ++ c :: rest) ->
    history hist t -> run Qn s calls = Some s1 -> imageWithOptions Qn s1 t id dx dy next o = (c, t') ->
    outcome Qn rot s (calls ++ c :: rest) = Some content ->
    let a := asks Qn rot false (blank Qn s) calls in
    let X := unitsToPoints Qn (s_cfg Qn s1) (q_x Qn o) in let Y := unitsToPoints Qn (s_cfg Qn s1) (q_y Qn o) in
    let '(Wd, Ht) := asked_size s1 (q_rect Qn o) hist id dx dy in
    exists g, nth_error (marks content) (List.length (a_out Qn a)) = Some (g, External [TName (bs "I" ++ fmt_d (asked_object hist id next + 1))]) /\
      placed (s_pageH Qn s) (a_g Qn a) g (imgBox X Y Wd Ht (q_crop Qn o)) (visBox X Y Wd Ht (q_crop Qn o)) (cropped (q_crop Qn o)) (q_hf Qn o) (q_v Qn o) (q_angle Qn o) /\
      p_ext g = p_ext (a_g Qn a) ++ extOf (match q_tr Qn o with Some tr => tr | None => s_tr Qn s1 end).
  Proof.
    intros FP UL SE UD HI R1 IM OC a X Y. destruct c; try (unfold imageWithOptions, place in IM; destruct (find_img Qn id t) as [[? ?]|]; discriminate).
    unfold imageWithOptions in IM. apply (place_asked s1 hist) in IM; [|exact HI|intros z; split; reflexivity]. destruct IM as [-> ->].
    destruct (asked_size s1 (q_rect Qn o) hist id dx dy) as [Wd Ht]. cbn [fst snd] in *.
    destruct (image_marks s calls rest content _ _ FP UL SE UD eq_refl OC) as (g & A & B & C). exists g. split; [exact A|]. split; [exact C|].
    rewrite B. f_equal. cbn [io_gs]. unfold trOf. destruct (match q_tr Qn o with Some tr => tr | None => s_tr Qn s1 end); reflexivity.
  Qed.
  (** Image, ImageByHolder, ImageFrom: the same, without angle, mirror or crop; no transparency. *)
  Theorem C59_plain_image_where_asked (s s1 : ds Qn) calls rest content hist t id dx dy next x y r c t' :
    fresh_page Qn s -> has (s_style Qn s) styUnderline = false -> Forall (sensible Qn) (calls ++ c :: rest) -> Forall (undecorated Qn) (calls ++ c :: rest) ->
    history hist t -> run Qn s calls = Some s1 -> image Qn s1 t id dx dy next x y r = (c, t') ->
    outcome Qn rot s (calls ++ c :: rest) = Some content -> rot 0%Q = (1, 0)%Q ->
    let a := asks Qn rot false (blank Qn s) calls in
    let X := unitsToPoints Qn (s_cfg Qn s1) x in let Y := unitsToPoints Qn (s_cfg Qn s1) y in
    let '(Wd, Ht) := asked_size s1 r hist id dx dy in
    exists g own, nth_error (marks content) (List.length (a_out Qn a)) = Some (g, External [TName (bs "I" ++ fmt_d (asked_object hist id next + 1))]) /\
      p_ctm g = p_ctm (a_g Qn a) ++ own /\ p_clip g = p_clip (a_g Qn a) /\ p_ext g = p_ext (a_g Qn a) /\
      forall u v, unit_ u -> unit_ v -> exists q, takes own (u, v) = Some q /\
        close q ((X + u * Wd)%Q, (s_pageH Qn s - Y - Ht + v * Ht)%Q).
  Proof.
    intros FP UL SE UD HI R1 IM OC R0 a X Y. destruct c; try (unfold image, place in IM; destruct (find_img Qn id t) as [[? ?]|]; discriminate).
    unfold image in IM. apply (place_asked s1 hist) in IM; [|exact HI|intros z; split; reflexivity]. destruct IM as [-> ->].
    destruct (asked_size s1 r hist id dx dy) as [Wd Ht]. cbn [fst snd] in *.
    destruct (image_marks s calls rest content _ _ FP UL SE UD eq_refl OC) as (g & A & B & own & C & D & E). exists g, own. split; [exact A|]. split; [exact C|].
    split; [exact E|]. split; [rewrite B; cbn [io_gs map]; apply app_nil_r|]. intros u v Uu Uv. destruct (D u v Uu Uv) as (q & T & (Ce & cs & p' & _ & _ & _ & _ & Z & CL & PE)).
    exists q. split; [exact T|]. specialize (Z R0). destruct Z as [Z1 Z2], PE as [PE1 PE2], CL as [CL1 CL2]. unfold turned in PE1, PE2. cbn [fst snd] in *.
    rewrite Z1, Z2 in PE1, PE2. unfold spot, imgBox in CL1, CL2. cbn [fst snd io_hf io_v io_x io_y io_w io_h io_crop bx_left bx_top bx_w bx_h] in CL1, CL2. split; cbn [fst snd].
    - eapply within_eq; [| |exact CL1]; [rewrite PE1; ring|reflexivity].
    - eapply within_eq; [| |exact CL2]; [rewrite PE2; ring|reflexivity].
  Qed.
End C59.

(** ** The default size *)
(** Truncated to whole points: within one point of 9/16 of a point per pixel. *)
Theorem C59_natural_size dx dy : 2 <= dx -> 2 <= dy ->
  let '(w, h) := naturalSize dx dy in 0 < w /\ 0 < h /\ 128 * w <= 72 * dx < 128 * (w + 1) /\ 128 * h <= 72 * dy < 128 * (h + 1).
Proof.
  intros A B. unfold naturalSize.
  assert (Q : forall v, 2 <= v -> Z.quot (- v * 72) (-128) = v * 72 / 128).
  { intros v V. replace (- v * 72) with (- (v * 72)) by ring. change (-128) with (- (128)). rewrite Z.quot_opp_opp by lia. apply Z.quot_div_nonneg; lia. }
  rewrite !Q by assumption. pose proof (Z.div_mod (dx * 72) 128 ltac:(lia)). pose proof (Z.mod_pos_bound (dx * 72) 128 ltac:(lia)).
  pose proof (Z.div_mod (dy * 72) 128 ltac:(lia)). pose proof (Z.mod_pos_bound (dy * 72) 128 ltac:(lia)).
  destruct (Z.eqb_spec (dx * 72 / 128) 0); [lia|]. destruct (Z.eqb_spec (dy * 72 / 128) 0); [lia|]. lia.
Qed.
(** An image one pixel wide or one pixel high has a default size of zero in that direction, whatever the other. *)
Theorem C59_one_pixel_vanishes_refuted dy : 1 <= dy -> fst (naturalSize 1 dy) = 0 /\ snd (naturalSize dy 1) = 0.
Proof.
  intros B. unfold naturalSize. cbn [fst snd].
  assert (Q : forall v, 1 <= v -> Z.quot (- v * 72) (-128) = v * 72 / 128).
  { intros v V. replace (- v * 72) with (- (v * 72)) by ring. change (-128) with (- (128)). rewrite Z.quot_opp_opp by lia. apply Z.quot_div_nonneg; lia. }
  rewrite !Q by lia. change (1 * 72 / 128) with 0. change (0 =? 0) with true. cbv iota.
  pose proof (Z.div_mod (dy * 72) 128 ltac:(lia)). pose proof (Z.mod_pos_bound (dy * 72) 128 ltac:(lia)).
  assert (S1 : dy * 72 / 128 < dy) by lia. assert (S0 : 0 <= dy * 72 / 128) by lia.
  split; [rewrite Z.quot_small; lia|]. destruct (Z.eqb_spec (dy * 72 / 128) 0) as [E|E]; [|rewrite Z.mul_1_r; apply Z.quot_small; lia].
  rewrite Z.mul_1_r. change (0 * dy) with 0. now rewrite Z.quot_0_l by lia.
Qed.

(** ** Concrete cases *)
(** A page 800 points high, lengths in inches; the cosine and sine of 90 degrees and of 0. *)
Definition ipage : ds Qn :=
  Build_ds Qn (Build_ucfg Qn 4 0%Q) 10%Q 800%Q 10%Q 20%Q 0 None 0%Q 0 0%Q false None 0%Q 1%Q None [].
Definition irot (a : Q) : Q * Q := if Qeq_bool a 90 then (0, 1)%Q else (1, 0)%Q.
Definition iopt : iopts Qn := Build_iopts Qn 1%Q 2%Q (Some (Build_rect Qn 3%Q 2%Q (defcfg Qn 0))) (Some (10, 20, 30, 40)%Q) 90%Q false true (Some (Some 6)).
Definition ibefore : list (call Qn) := [SetLineWidth Qn 2%Q; Rotate Qn 90%Q 1%Q 1%Q; Line Qn 0%Q 0%Q 1%Q 1%Q].
Definition iafter (l : list (call Qn)) : ds Qn := match run Qn ipage l with Some s => s | None => ipage end.
Definition ithe (o : iopts Qn) : call Qn * imgtbl Qn := imageWithOptions Qn (iafter ibefore) [] (bs "logo") 200 100 7 o.
Definition icontent : bytes := Eval vm_compute in got (outcome Qn irot ipage (ibefore ++ [fst (ithe iopt); RotateReset Qn])).
Example C59_met : fresh_page Qn ipage /\ has (s_style Qn ipage) styUnderline = false /\
  Forall (sensible Qn) (ibefore ++ fst (ithe iopt) :: [RotateReset Qn]) /\ Forall (undecorated Qn) (ibefore ++ fst (ithe iopt) :: [RotateReset Qn]) /\
  history [] [] /\ run Qn ipage ibefore = Some (iafter ibefore) /\ imageWithOptions Qn (iafter ibefore) [] (bs "logo") 200 100 7 iopt = (fst (ithe iopt), snd (ithe iopt)) /\
  outcome Qn irot ipage (ibefore ++ fst (ithe iopt) :: [RotateReset Qn]) = Some icontent /\ irot 0 = (1, 0)%Q.
Proof.
  split; [split; [reflexivity|discriminate]|]. split; [reflexivity|]. split; [repeat constructor|]. split; [repeat constructor|]. split; [constructor|].
  split; [reflexivity|]. split; [reflexivity|]. split; [vm_compute; reflexivity|reflexivity].
Qed.

(** ** Where the code does less than a user expects *)
(** Lengths are in the document's unit, except those of a crop: in a document in inches, a crop of 72 by 36 is 72 by
    36 points, while the same numbers given as a rectangle are 72 by 36 inches. *)
Theorem C59_crop_in_points_refuted :
  let o := Build_iopts Qn 1%Q 1%Q (Some (Build_rect Qn 72%Q 36%Q (defcfg Qn 0))) (Some (0, 0, 72, 36)%Q) 0%Q false false None in
  let c := fst (imageWithOptions Qn ipage [] (bs "logo") 200 100 7 o) in
  exists content g w, outcome Qn irot ipage [c] = Some content /\ marks content = [(g, w)] /\
    last (p_ctm g) [] = [wd "5184.00"; wd "0"; wd "0"; wd "2592.00"; wd "72.00"; wd "-1864.00"] /\
    map (fun x => snd (fst x)) (p_clip g) = [[([wd "72.00"; wd "692.00"; wd "72.00"; wd "36.00"], bs "re")]].
Proof. eexists. eexists. eexists. split; [vm_compute; reflexivity|]. split; [vm_compute; reflexivity|]. split; reflexivity. Qed.
(** Without a rectangle the second drawing of an image takes the size of the first, not the image's own. *)
Theorem C59_second_size_refuted :
  let o1 := Build_iopts Qn 1%Q 1%Q (Some (Build_rect Qn 1%Q 1%Q (defcfg Qn 0))) None 0%Q false false None in
  let o2 := Build_iopts Qn 1%Q 1%Q None None 0%Q false false None in
  let '(c1, t) := imageWithOptions Qn ipage [] (bs "logo") 200 100 7 o1 in
  let c2 := fst (imageWithOptions Qn ipage t (bs "logo") 200 100 8 o2) in
  let c3 := fst (imageWithOptions Qn ipage [] (bs "logo") 200 100 8 o2) in
  exists content content' g1 g2 g3 w1 w2 w3,
    outcome Qn irot ipage [c1; c2] = Some content /\ marks content = [(g1, w1); (g2, w2)] /\ last (p_ctm g2) [] = [wd "72.00"; wd "0"; wd "0"; wd "72.00"; wd "72.00"; wd "656.00"] /\
    outcome Qn irot ipage [c3] = Some content' /\ marks content' = [(g3, w3)] /\ last (p_ctm g3) [] = [wd "112.00"; wd "0"; wd "0"; wd "56.00"; wd "72.00"; wd "672.00"].
Proof.
  cbv zeta. destruct (imageWithOptions Qn ipage [] _ _ _ _ _) as [c1 t] eqn:E. unfold imageWithOptions, place in E. cbn [find_img find size_of rectPts q_rect] in E.
  match type of E with (?a, ?b) = _ => assert (E1 : c1 = a) by congruence; assert (E2 : t = b) by congruence; clear E; subst c1 t end.
  do 8 eexists. split; [vm_compute; reflexivity|]. split; [vm_compute; reflexivity|]. split; [reflexivity|].
  split; [vm_compute; reflexivity|]. split; [vm_compute; reflexivity|]. reflexivity.
Qed.
(** Image, ImageByHolder and ImageFrom do not apply the current transparency, ImageByHolderWithOptions does. *)
Theorem C59_transparency_skipped_refuted :
  let s := iafter [SetTransparency Qn (Some 3)] in
  let c := fst (image Qn s [] (bs "logo") 200 100 7 1%Q 1%Q None) in
  let c' := fst (imageWithOptions Qn s [] (bs "logo") 200 100 7 (Build_iopts Qn 1%Q 1%Q None None 0%Q false false None)) in
  exists content content' g g' w w', outcome Qn irot ipage [SetTransparency Qn (Some 3); c] = Some content /\ marks content = [(g, w)] /\ p_ext g = [] /\
    outcome Qn irot ipage [SetTransparency Qn (Some 3); c'] = Some content' /\ marks content' = [(g', w')] /\ p_ext g' = [TName (bs "GS3")].
Proof.
  do 6 eexists. split; [vm_compute; reflexivity|]. split; [vm_compute; reflexivity|]. split; [reflexivity|].
  split; [vm_compute; reflexivity|]. split; [vm_compute; reflexivity|]. reflexivity.
Qed.
(** The image of [C59_met]: turned within turned coordinates, mirrored, cropped. *)
Example C59_applied : exists g1 w1 g w, marks icontent = [(g1, w1); (g, w)] /\ w = External [TName (bs "I8")] /\ p_ext g = [TName (bs "GS6")] /\ List.length (p_ctm g) = 6%nat /\ List.length (p_clip g) = 1%nat.
Proof. do 4 eexists. split; [vm_compute; reflexivity|]. repeat split. Qed.
Print Assumptions C59_image_where_asked_partial.
Print Assumptions C59_plain_image_where_asked.
Print Assumptions C59_natural_size.
Print Assumptions C59_crop_in_points_refuted.
Print Assumptions C59_one_pixel_vanishes_refuted.
Print Assumptions C59_second_size_refuted.
Print Assumptions C59_transparency_skipped_refuted.
