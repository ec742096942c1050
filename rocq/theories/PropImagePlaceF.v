(** PropImagePlaceF.v — C59 in float64: images appear where, and as large, as asked, whatever the rounding. *)
From Coq Require Import QArith ZArith Reals Qreals Qabs Lqa Lia Bool SpecFloat.
From Flocq Require Import Core.
From Verif Require Import Base StrModel NumModel NumRead PaintNum UnitModel DrawModel DrawSpec DrawLex DrawNest DrawView PropDraw PaintSpec PropPaint PropUnit FloatReal PropUnitF FloatApx PropDrawF ImgModel PropImagePlace.
Open Scope Z_scope.

(** ** Specification: as in PropImagePlace.v, the rounding of float64 added to that of the printed numbers *)
Definition closeF (p q : Q * Q) : Prop := within (1 # 99) (fst p) (fst q) /\ within (1 # 99) (snd p) (snd q).
(** [q] is [p], to a 99th of a point, turned by the angle of cosine and sine [cs0] about the middle of the box [b];
    not turned at all if the library's cosine and sine of it are one and zero. *)
Definition turned_aboutF (H : Q) (b : box) (still : Prop) (cs0 : Q * Q) (p q : Q * Q) : Prop :=
  exists C cs p', within (1 # 199) (fst C) (bx_left b + bx_w b / 2) /\ within (1 # 199) (snd C) (H - (bx_top b + bx_h b / 2)) /\
    within (1 # 100000) (fst cs) (fst cs0) /\ within (1 # 100000) (snd cs) (snd cs0) /\ (still -> peq cs (1, 0)%Q) /\ closeF p' p /\ peq q (turned C cs p').
Definition placedF (H : Q) (before g : pgs) (img vis : box) (crop hf vf : bool) (still : Prop) (cs0 : Q * Q) : Prop :=
  exists own, p_ctm g = p_ctm before ++ own /\
    (forall u v, unit_ u -> unit_ v -> exists q, takes own (u, v) = Some q /\ turned_aboutF H vis still cs0 (spot H img hf vf u v) q) /\
    (if crop then exists outer path, p_clip g = p_clip before ++ [(p_ctm before ++ outer, path, bs "W*")] /\
       forall u v, unit_ u -> unit_ v -> exists p q, reat path u v = Some p /\ takes outer p = Some q /\ turned_aboutF H vis still cs0 (spot H vis hf vf u v) q
     else p_clip g = p_clip before).

(** ** Printed float64 numbers *)
Definition fin (x : f64) : Prop := exists r, is64 x r.
Definition prF (k : nat) (x : f64) : Q := match number_val (nfmt F64 k x) with Some q => q | None => 0%Q end.
Lemma prF_val k x : fin x -> tval (d F64 k x) = Some (prF k x).
Proof. intros (r & I). destruct (f64_val_is x r I) as (v & V & _). unfold d, tval, prF. destruct (F64_near k x v V) as (q & -> & _). reflexivity. Qed.
Lemma ap_fin n x q : ap n x q -> fin x. Proof. intros (r & I & _). now exists r. Qed.
Lemma fin_opp x : fin x -> fin (nneg F64 x). Proof. intros (r & I). exists (- r)%R. now apply is64_opp. Qed.
Lemma prF_neg k x : fin x -> (prF k (nneg F64 x) == - prF k x)%Q.
Proof.
  intros (r & A & B & C). unfold prF. destruct x as [s|s| |s m e]; try discriminate; cbn [nneg F64 SFopp nfmt f64_fmt].
  - destruct (fmtExact_val k (negb s) 0 1 ltac:(lia) ltac:(lia)) as (q & -> & E). destruct (fmtExact_val k s 0 1 ltac:(lia) ltac:(lia)) as (q' & -> & E').
    rewrite E, E'. destruct s; cbn [negb qsgn]; ring.
  - pose proof (magn_pos m e) as MP. destruct (magn m e) as [n dd]. cbn [fst snd] in MP.
    destruct (fmtExact_val k (negb s) n dd ltac:(lia) ltac:(lia)) as (q & -> & E). destruct (fmtExact_val k s n dd ltac:(lia) ltac:(lia)) as (q' & -> & E').
    rewrite E, E'. destruct s; cbn [negb qsgn]; ring.
Qed.
Lemma prF_near k n x q : ap n x q -> 0 <= n <= 16 -> within (Qmake 1 (Z.to_pos (2 * 10 ^ Z.of_nat k)) + (1 # 1000000)) (prF k x) q.
Proof.
  intros A L. destruct (tok_ap n k x q L A) as [E|(k' & x' & y & r & E1 & E2 & I & B)].
  - pose proof (pr_near k q) as N. unfold near in N. unfold within, prF. unfold d in E. assert (E' : nfmt F64 k x = nfmt Qn k q) by congruence. rewrite E'.
    change (match number_val (nfmt Qn k q) with Some q0 => q0 | None => 0%Q end) with (pr k q). eapply Qle_trans; [exact N|]. lra.
  - clear E1 E2 I B k' x' y r. destruct A as (r & I & B & _). destruct (f64_val_is x r I) as (v & V & VR). destruct (F64_near k x v V) as (w & W & N). unfold near in N. unfold within, prF. rewrite W.
    assert (D : (Qabs (v - q) <= 1 # 1000000)%Q).
    { subst r. assert (E16 : (IZR n * eps <= / 1000000)%R).
      { assert (N1 : (IZR n <= 16)%R) by (apply (IZR_le n 16); lia). assert (E : (eps * 16 <= / 1000000)%R) by (rewrite eps_val; replace (IZR (2 ^ 28)) with 268435456%R by reflexivity; Lra.lra). pose proof eps_pos. Lra.nra. }
      assert (M : Q2R (1 # 1000000) = (/ 1000000)%R) by (unfold Q2R; cbn; Lra.lra). rewrite <- M in E16. apply (Rle_trans _ _ _ B) in E16. apply Rabs_le_inv in E16 as [B1 B2].
      apply Qabs_Qle_condition. split; apply Rle_Qle; rewrite ?Q2R_opp, Q2R_minus; assumption. }
    assert (E : (w - q == (w - v) + (v - q))%Q) by ring. rewrite E. eapply Qle_trans; [apply Qabs_triangle|]. now apply Qplus_le_compat.
Qed.
Definition e2 : Q := 5001 # 1000000.
Lemma near2F n x q : ap n x q -> 0 <= n <= 16 -> within e2 (prF 2 x) q.
Proof. intros A L. pose proof (prF_near 2 n x q A L) as W. unfold within in *. eapply Qle_trans; [exact W|]. unfold Qle. cbn. lia. Qed.
Lemma near5F n x q : ap n x q -> 0 <= n <= 16 -> within (1 # 100000) (prF 5 x) q.
Proof. intros A L. pose proof (prF_near 5 n x q A L) as W. unfold within in *. eapply Qle_trans; [exact W|]. unfold Qle. cbn. lia. Qed.
Lemma within_mono e e' a b : (e <= e')%Q -> within e a b -> within e' a b. Proof. unfold within. intros L W. now apply Qle_trans with e. Qed.
Lemma withinF_eq (e a b a' b' : Q) : (a == a')%Q -> (b == b')%Q -> within e a b -> within e a' b'.
Proof. unfold within. intros -> ->. tauto. Qed.
Lemma withinF_lin (u a a' b b' : Q) : unit_ u -> within e2 a a' -> within e2 b b' -> within (1 # 99) (u * a + b) (u * a' + b').
Proof.
  unfold within, unit_, e2. intros [U0 U1] A B. apply Qabs_Qle_condition in A as [A1 A2]. apply Qabs_Qle_condition in B as [B1 B2].
  apply Qabs_Qle_condition. split; nra.
Qed.
Lemma withinF_neg (e a b : Q) : within e a b -> within e (- a) (- b).
Proof. unfold within. intros A. apply Qabs_Qle_condition in A as [A1 A2]. apply Qabs_Qle_condition. split; lra. Qed.
(** one coordinate: mirrored or not *)
Lemma coordF (fl : bool) (u : Q) nw np w p (w' p' : Q) : unit_ u -> ap nw w w' -> 0 <= nw <= 7 -> ap np p p' -> 0 <= np <= 7 ->
  within (1 # 99) ((if fl then -1 # 1 else 1) * (u * prF 2 w + prF 2 (if fl then nsub F64 (nneg F64 p) w else p))) (p' + (if fl then 1 - u else u) * w').
Proof.
  intros U W LW P LP. pose proof (near2F nw w w' W ltac:(lia)) as NW. destruct fl.
  - assert (S : ap (np + nw + 1) (nsub F64 (nneg F64 p) w) (nsub Qn (nneg Qn p') w')) by (apply ap_subN; [now apply ap_oppN|exact W|lia|lia|lia]).
    apply near2F in S; [|lia]. eapply withinF_eq; [| |apply withinF_neg; apply (withinF_lin u _ _ _ _ U NW S)]; [ring|]. cbn [nsub nneg Qn]. ring.
  - pose proof (near2F np p p' P ltac:(lia)) as NP. eapply withinF_eq; [| |apply (withinF_lin u _ _ _ _ U NW NP)]; ring.
Qed.
Section Place.
  Variable rf : f64 -> f64 * f64. Variable rq : Q -> Q * Q. Hypothesis RA : rots_agree rf rq.
  Variable H : f64. Variable H' : Q. Hypothesis HH : ap 1 H H'.
  Lemma rotF_takes n m x y a (x' y' a' : Q) p : ap n x x' -> ap m y y' -> 0 <= n <= 7 -> 0 <= m <= 7 -> ang a a' ->
    exists q, takes (rotAbout F64 rf H x y a) p = Some q /\ peq q (turned (prF 2 x, prF 2 (nsub F64 H y)) (prF 5 (fst (rf a)), prF 5 (snd (rf a))) p).
  Proof using RA HH.
    intros X Y Ln Lm (r & A & E & BB). destruct (RA a r a' A E BB) as [C S]. apply pts_ap, ap_fin in C, S. unfold rotAbout. destruct (rf a) as [c s]. cbn [fst snd] in *.
    assert (FY : fin (nsub F64 H y)) by (eapply ap_fin, (ap_subN 1 m H y H' y'); [exact HH|exact Y|lia|lia|lia]). apply ap_fin in X.
    cbn [takes]. unfold mapply at 2. cbn [map]. rewrite !prF_val by (try apply fin_opp; assumption).
    change (tval (wd "1")) with (Some 1%Q). change (tval (wd "0")) with (Some 0%Q). cbn [fst snd].
    unfold mapply. cbn [map]. rewrite !prF_val by (try apply fin_opp; assumption). eexists. split; [reflexivity|]. destruct p as [u v].
    apply turn_alg; now apply prF_neg.
  Qed.
  Lemma placeF_takes w h x y u v : fin w -> fin h -> fin x -> fin y -> exists q, takes [[d F64 2 w; wd "0"; wd "0"; d F64 2 h; d F64 2 x; d F64 2 y]] (u, v) = Some q /\
    peq q (u * prF 2 w + prF 2 x, v * prF 2 h + prF 2 y)%Q.
  Proof using.
    intros A B C D. assert (E0 : tval (wd "0") = Some 0%Q) by reflexivity.
    cbn [takes]. unfold mapply. cbn [map]. rewrite !prF_val, !E0 by assumption. eexists. split; [reflexivity|]. unfold peq. cbn [fst snd]. split; ring.
  Qed.
  Lemma ownF_takes n m x y a (x' y' a' : Q) hf vf last p q0 q1 : ap n x x' -> ap m y y' -> 0 <= n <= 7 -> 0 <= m <= 7 -> ang a a' ->
    takes last p = Some q0 -> peq q0 q1 ->
    exists q, takes (rotAbout F64 rf H x y a ++ flipm hf vf ++ last) p = Some q /\
      peq q (turned (prF 2 x, prF 2 (nsub F64 H y)) (prF 5 (fst (rf a)), prF 5 (snd (rf a))) ((if hf then -1 # 1 else 1) * fst q1, (if vf then -1 # 1 else 1) * snd q1)%Q).
  Proof using RA HH.
    intros X Y Ln Lm A E P. rewrite !takes_app, E. destruct (flip_takes hf vf q0) as (q2 & -> & P2). destruct (rotF_takes n m x y a x' y' a' q2 X Y Ln Lm A) as (q & -> & P3).
    exists q. split; [reflexivity|]. eapply peq_trans; [exact P3|]. apply turned_peq. eapply peq_trans; [exact P2|].
    destruct P as [P1 P1']. unfold peq. cbn [fst snd]. rewrite P1, P1'. split; reflexivity.
  Qed.
  Lemma aboutF n m x y a (x' y' a' : Q) (b : box) p p' q : ap n x x' -> ap m y y' -> 0 <= n <= 7 -> 0 <= m <= 7 -> ang a a' ->
    (x' == bx_left b + bx_w b / 2)%Q -> (y' == bx_top b + bx_h b / 2)%Q -> closeF p' p ->
    peq q (turned (prF 2 x, prF 2 (nsub F64 H y)) (prF 5 (fst (rf a)), prF 5 (snd (rf a))) p') -> turned_aboutF H' b (rf a = (nofZ F64 1, nofZ F64 0)) (rq a') p q.
  Proof using RA HH.
    intros X Y Ln Lm (r & A & E & BB) XE YE C P. destruct (RA a r a' A E BB) as [CC S]. apply pts_ap in CC, S.
    assert (L2 : (e2 <= 1 # 199)%Q) by (unfold e2, Qle; cbn; lia).
    exists (prF 2 x, prF 2 (nsub F64 H y)), (prF 5 (fst (rf a)), prF 5 (snd (rf a))), p'. cbn [fst snd].
    split; [apply within_mono with e2; [exact L2|]; eapply withinF_eq; [reflexivity| |apply (near2F n x x' X); lia]; exact XE|].
    split; [apply within_mono with e2; [exact L2|]; eapply withinF_eq; [reflexivity| |eapply (near2F (1 + m + 1)); [apply (ap_subN 1 m H y H' y'); [exact HH|exact Y|lia|lia|lia]|lia]]; cbn [nsub Qn]; rewrite YE; reflexivity|].
    split; [apply (near5F 1); [exact CC|lia]|]. split; [apply (near5F 1); [exact S|lia]|].
    split; [intros ->; cbn [fst snd]; split; reflexivity|]. split; [exact C|exact P].
  Qed.
  Lemma imageMarkF_placed g idx (o : imgopt F64) (o' : imgopt Qn) : img_arg o o' -> io_mask F64 o = None ->
    placedF H' g (fst (imageMark F64 rf H g idx o)) (imgBox (io_x Qn o') (io_y Qn o') (io_w Qn o') (io_h Qn o') (io_crop Qn o'))
      (visBox (io_x Qn o') (io_y Qn o') (io_w Qn o') (io_h Qn o') (io_crop Qn o')) (cropped (io_crop Qn o')) (io_hf Qn o') (io_v Qn o') (rf (io_angle F64 o) = (nofZ F64 1, nofZ F64 0)) (rq (io_angle Qn o')).
  Proof using RA HH.
    intros (A1 & A2 & A3 & A4 & A5 & A6 & A7 & A8 & A9 & _). apply pts_ap in A1, A2, A3, A4. apply num_ang in A5.
    destruct o as [X Y W Ht an vf hf crop mask gs], o' as [X' Y' W' Ht' an' vf' hf' crop' mask' gs'].
    unfold imageMark. cbn [io_x io_y io_w io_h io_crop io_mask io_hf io_v io_angle io_gs] in *. intros ->. subst vf' hf'.
    change (if hf || vf then _ else []) with (flipm hf vf).
    change (T Qn) with Q in *.
    unfold placedF. destruct crop as [[[[cx cy] cw] ch]|], crop' as [[[[cx' cy'] cw'] ch']|]; try contradiction; cbn [fst snd app cropped imgBox visBox set_ctm set_clip set_ext p_ctm p_clip].
    - destruct A9 as (C1 & C2 & C3 & C4). apply pts_ap in C1, C2, C3, C4.
      set (cenx := nadd F64 X (ndiv F64 cw (nofZ F64 2))). set (ceny := nadd F64 Y (ndiv F64 ch (nofZ F64 2))).
      set (px := nsub F64 X cx). set (py := nadd F64 (nsub F64 H Y) (nsub F64 cy Ht)). set (pz := nsub F64 (nsub F64 H Y) ch).
      assert (CX : ap 4 cenx (nadd Qn X' (ndiv Qn cw' (nofZ Qn 2)))) by (unfold cenx; eapply ap_mono; cycle 1; [apx|lia]). assert (CY : ap 4 ceny (nadd Qn Y' (ndiv Qn ch' (nofZ Qn 2)))) by (unfold ceny; eapply ap_mono; cycle 1; [apx|lia]).
      assert (PX : ap 3 px (nsub Qn X' cx')) by (unfold px; eapply ap_mono; cycle 1; [apx|lia]). assert (PY : ap 7 py (nadd Qn (nsub Qn H' Y') (nsub Qn cy' Ht'))) by (unfold py; eapply ap_mono; cycle 1; [apx|lia]).
      assert (PZ : ap 5 pz (nsub Qn (nsub Qn H' Y') ch')) by (unfold pz; eapply ap_mono; cycle 1; [apx|lia]).
      assert (FX : fin (if hf then nsub F64 (nneg F64 px) W else px)) by (destruct hf; [eapply ap_fin, (ap_subN 3 1); [apply ap_oppN; exact PX|exact A3|lia|lia|lia]|exact (ap_fin _ _ _ PX)]).
      assert (FY : fin (if vf then nsub F64 (nneg F64 py) Ht else py)) by (destruct vf; [eapply ap_fin, (ap_subN 7 1); [apply ap_oppN; exact PY|exact A4|lia|lia|lia]|exact (ap_fin _ _ _ PY)]).
      assert (FZ : fin (if vf then nsub F64 (nneg F64 pz) ch else pz)) by (destruct vf; [eapply ap_fin, (ap_subN 5 1); [apply ap_oppN; exact PZ|exact C4|lia|lia|lia]|exact (ap_fin _ _ _ PZ)]).
      assert (FV : fin (if hf then nsub F64 (nneg F64 X) cw else X)) by (destruct hf; [eapply ap_fin, (ap_subN 1 1); [apply ap_oppN; exact A1|exact C3|lia|lia|lia]|exact (ap_fin _ _ _ A1)]).
      assert (TZ : tval (d F64 2 (if vf then nsub F64 (nneg F64 pz) ch else pz)) = Some (prF 2 (if vf then nsub F64 (nneg F64 pz) ch else pz))) by exact (prF_val 2 _ FZ).
      assert (TV : tval (d F64 2 (if hf then nsub F64 (nneg F64 X) cw else X)) = Some (prF 2 (if hf then nsub F64 (nneg F64 X) cw else X))) by exact (prF_val 2 _ FV).
      clearbody cenx ceny px py pz.
      exists ((rotAbout F64 rf H cenx ceny an ++ flipm hf vf) ++
              [[d F64 2 W; wd "0"; wd "0"; d F64 2 Ht; d F64 2 (if hf then nsub F64 (nneg F64 px) W else px); d F64 2 (if vf then nsub F64 (nneg F64 py) Ht else py)]]).
      split; [cbn [app]; rewrite <- !app_assoc; reflexivity|]. split.
      + intros u v U V. rewrite <- app_assoc.
        destruct (placeF_takes W Ht _ _ u v (ap_fin _ _ _ A3) (ap_fin _ _ _ A4) FX FY) as (q0 & E0 & P0).
        destruct (ownF_takes 4 4 cenx ceny an _ _ an' hf vf _ _ _ _ CX CY ltac:(lia) ltac:(lia) A5 E0 P0) as (q & E & P). exists q. split; [exact E|].
        eapply (aboutF 4 4); [exact CX|exact CY|lia|lia|exact A5| | | |exact P]; cbn [bx_left bx_top bx_w bx_h]; try reflexivity. unfold closeF, spot. cbn [fst snd bx_left bx_top bx_w bx_h].
        split; [exact (coordF hf u 1 3 _ _ _ _ U A3 ltac:(lia) PX ltac:(lia))|]. eapply withinF_eq; [reflexivity| |exact (coordF vf v 1 7 _ _ _ _ V A4 ltac:(lia) PY ltac:(lia))]. cbn [nadd nsub Qn]. ring.
      + exists (rotAbout F64 rf H cenx ceny an ++ flipm hf vf). eexists. split; [reflexivity|]. intros u v U V. cbn [reat].
        unfold op_. change (list_eqb (bs "re") (bs "re")) with true. cbv iota.
        rewrite (prF_val 2 cw (ap_fin _ _ _ C3)), (prF_val 2 ch (ap_fin _ _ _ C4)), TZ, TV. eexists.
        destruct (ownF_takes 4 4 cenx ceny an _ _ an' hf vf [] (u * prF 2 cw + prF 2 (if hf then nsub F64 (nneg F64 X) cw else X), v * prF 2 ch + prF 2 (if vf then nsub F64 (nneg F64 pz) ch else pz))%Q _ _ CX CY ltac:(lia) ltac:(lia) A5 eq_refl (conj (Qeq_refl _) (Qeq_refl _))) as (q & E & P).
        exists q. split; [reflexivity|]. rewrite app_nil_r in E. split; [exact E|].
        eapply (aboutF 4 4); [exact CX|exact CY|lia|lia|exact A5| | | |exact P]; cbn [bx_left bx_top bx_w bx_h]; try reflexivity. unfold closeF, spot. cbn [fst snd bx_left bx_top bx_w bx_h].
        split; [exact (coordF hf u 1 1 _ _ _ _ U C3 ltac:(lia) A1 ltac:(lia))|exact (coordF vf v 1 5 _ _ _ _ V C4 ltac:(lia) PZ ltac:(lia))].
    - set (cenx := nadd F64 X (ndiv F64 W (nofZ F64 2))). set (ceny := nadd F64 Y (ndiv F64 Ht (nofZ F64 2))). set (pz := nsub F64 (nsub F64 H Y) Ht).
      assert (CX : ap 4 cenx (nadd Qn X' (ndiv Qn W' (nofZ Qn 2)))) by (unfold cenx; eapply ap_mono; cycle 1; [apx|lia]). assert (CY : ap 4 ceny (nadd Qn Y' (ndiv Qn Ht' (nofZ Qn 2)))) by (unfold ceny; eapply ap_mono; cycle 1; [apx|lia]).
      assert (PZ : ap 5 pz (nsub Qn (nsub Qn H' Y') Ht')) by (unfold pz; eapply ap_mono; cycle 1; [apx|lia]).
      assert (FX : fin (if hf then nsub F64 (nneg F64 X) W else X)) by (destruct hf; [eapply ap_fin, (ap_subN 1 1); [apply ap_oppN; exact A1|exact A3|lia|lia|lia]|exact (ap_fin _ _ _ A1)]).
      assert (FY : fin (if vf then nsub F64 (nneg F64 pz) Ht else pz)) by (destruct vf; [eapply ap_fin, (ap_subN 5 1); [apply ap_oppN; exact PZ|exact A4|lia|lia|lia]|exact (ap_fin _ _ _ PZ)]).
      clearbody cenx ceny pz.
      exists ((rotAbout F64 rf H cenx ceny an ++ flipm hf vf) ++
              [[d F64 2 W; wd "0"; wd "0"; d F64 2 Ht; d F64 2 (if hf then nsub F64 (nneg F64 X) W else X); d F64 2 (if vf then nsub F64 (nneg F64 pz) Ht else pz)]]).
      split; [cbn [app]; rewrite <- !app_assoc; reflexivity|]. split; [|now rewrite app_nil_r].
      intros u v U V. rewrite <- app_assoc.
      destruct (placeF_takes W Ht _ _ u v (ap_fin _ _ _ A3) (ap_fin _ _ _ A4) FX FY) as (q0 & E0 & P0).
      destruct (ownF_takes 4 4 cenx ceny an _ _ an' hf vf _ _ _ _ CX CY ltac:(lia) ltac:(lia) A5 E0 P0) as (q & E & P). exists q. split; [exact E|].
      eapply (aboutF 4 4); [exact CX|exact CY|lia|lia|exact A5| | | |exact P]; cbn [bx_left bx_top bx_w bx_h]; try reflexivity. unfold closeF, spot. cbn [fst snd bx_left bx_top bx_w bx_h].
      split; [exact (coordF hf u 1 1 _ _ _ _ U A3 ltac:(lia) A1 ltac:(lia))|exact (coordF vf v 1 5 _ _ _ _ V A4 ltac:(lia) PZ ltac:(lia))].
  Qed.
End Place.

(** ** Histories *)
Section C59F.
  Variable rf : f64 -> f64 * f64. Variable rq : Q -> Q * Q. Hypothesis RA : rots_agree rf rq.
  Lemma askF_H i a c : a_H F64 (ask F64 rf i a c) = a_H F64 a.
  Proof using. destruct c; cbn [ask]; try reflexivity; try (destruct (a_stack F64 a); reflexivity); destruct (a_coltext F64 a); reflexivity. Qed.
  Lemma asksF_H i l : forall a, a_H F64 (asks F64 rf i a l) = a_H F64 a.
  Proof using. unfold asks. induction l as [|c l IH]; intros a; [reflexivity|]. cbn [fold_left]. now rewrite IH, askF_H. Qed.
  Lemma askF_out i a c : exists k, a_out F64 (ask F64 rf i a c) = a_out F64 a ++ k.
  Proof using.
    destruct c; cbn [ask]; try (exists []; rewrite app_nil_r; reflexivity); try (eexists; reflexivity);
      try (destruct (a_stack F64 a); exists []; rewrite app_nil_r; reflexivity); destruct (a_coltext F64 a); exists []; rewrite app_nil_r; reflexivity.
  Qed.
  Lemma asksF_out i l : forall a, exists k, a_out F64 (asks F64 rf i a l) = a_out F64 a ++ k.
  Proof using.
    unfold asks. induction l as [|c l IH]; intros a; [exists []; now rewrite app_nil_r|]. cbn [fold_left].
    destruct (IH (ask F64 rf i a c)) as (k & ->). destruct (askF_out i a c) as (k' & ->). exists (k' ++ k). now rewrite app_assoc.
  Qed.
  Lemma imageMarkF_rest (H : f64) g idx (o : imgopt F64) : snd (imageMark F64 rf H g idx o) = External [TName (bs "I" ++ fmt_d (idx + 1))] /\
    p_ext (fst (imageMark F64 rf H g idx o)) = p_ext g ++ map (fun i => TName (bs "GS" ++ fmt_d i)) (io_gs F64 o).
  Proof using. unfold imageMark. destruct (io_crop F64 o) as [[[[? ?] ?] ?]|]; split; reflexivity. Qed.
  Lemma imageF_marks (s : ds F64) (H : Q) calls rest content idx io (io' : imgopt Qn) :
    let c := Image F64 idx io in let a := asks F64 rf false (blank F64 s) calls in
    fresh_page F64 s -> has (s_style F64 s) styUnderline = false -> Forall (sensible F64) (calls ++ c :: rest) -> Forall (undecorated F64) (calls ++ c :: rest) ->
    num_arg (s_pageH F64 s) H -> img_arg io io' ->
    io_mask F64 io = None -> outcome F64 rf s (calls ++ c :: rest) = Some content ->
    exists g, nth_error (marks content) (List.length (a_out F64 a)) = Some (g, External [TName (bs "I" ++ fmt_d (idx + 1))]) /\
      p_ext g = p_ext (a_g F64 a) ++ map (fun i => TName (bs "GS" ++ fmt_d i)) (io_gs F64 io) /\
      placedF H (a_g F64 a) g (imgBox (io_x Qn io') (io_y Qn io') (io_w Qn io') (io_h Qn io') (io_crop Qn io'))
        (visBox (io_x Qn io') (io_y Qn io') (io_w Qn io') (io_h Qn io') (io_crop Qn io')) (cropped (io_crop Qn io')) (io_hf Qn io') (io_v Qn io') (rf (io_angle F64 io) = (nofZ F64 1, nofZ F64 0)) (rq (io_angle Qn io')).
  Proof using RA.
    intros c a F U SE UD HH IA MA O. pose proof (C58_painted_as_asked F64 rf F64_prints s _ content F U SE UD O) as R.
    set (m := imageMark F64 rf (s_pageH F64 s) (a_g F64 a) idx io).
    assert (N : nth_error (a_out F64 (asks F64 rf false (blank F64 s) (calls ++ c :: rest))) (List.length (a_out F64 a)) = Some m).
    { unfold asks. rewrite fold_left_app. cbn [fold_left]. fold (asks F64 rf false (blank F64 s) calls). fold a.
      destruct (asksF_out false rest (ask F64 rf false a c)) as (k & E). unfold asks in E. rewrite E. unfold c. cbn [ask amark a_out].
      rewrite <- app_assoc, nth_error_app2, Nat.sub_diag by lia. cbn [app nth_error]. unfold m, a. now rewrite asksF_H. }
    destruct (Forall2_nth _ _ _ _ _ R N) as ([g w] & E & L1 & L2). cbn [fst snd] in *. destruct (imageMarkF_rest (s_pageH F64 s) (a_g F64 a) idx io) as [X1 X2]. fold m in X1, X2.
    exists g. split; [rewrite E, L2, X1; reflexivity|].
    destruct L1 as (A & B & _ & _ & _ & C & _).
    split; [rewrite C; exact X2|]. pose proof (imageMarkF_placed rf rq RA (s_pageH F64 s) H (num_ap _ _ HH) (a_g F64 a) idx io io' IA MA) as PL. fold m in PL.
    unfold placedF in *. rewrite A, B. exact PL.
  Qed.

  (** *** The same options and sizes, in float64 and exactly *)
  Definition rect_same (t : Z) (r : option (rect F64)) (r' : option (rect Qn)) : Prop :=
    match r, r' with
    | Some r, Some r' => same_cfg (r_over F64 r) (r_over Qn r') /\
        (let c := rectCfg Qn r' (defcfg Qn t) in len_arg c (r_w F64 r) (r_w Qn r') /\ len_arg c (r_h F64 r) (r_h Qn r'))
    | None, None => True
    | _, _ => False
    end.
  Definition opts_same (c : ucfg Qn) (o : iopts F64) (o' : iopts Qn) : Prop :=
    len_arg c (q_x F64 o) (q_x Qn o') /\ len_arg c (q_y F64 o) (q_y Qn o') /\ rect_same (u_unit c) (q_rect F64 o) (q_rect Qn o') /\
    match q_crop F64 o, q_crop Qn o' with
    | Some (x, y, w, h), Some (x', y', w', h') => pts_arg x x' /\ pts_arg y y' /\ pts_arg w w' /\ pts_arg h h'
    | None, None => True
    | _, _ => False
    end /\ num_arg (q_angle F64 o) (q_angle Qn o') /\ q_v F64 o = q_v Qn o' /\ q_hf F64 o = q_hf Qn o' /\ q_tr F64 o = q_tr Qn o'.
  Definition size_same (z : f64 * f64) (z' : Q * Q) : Prop := pts_arg (fst z) (fst z') /\ pts_arg (snd z) (snd z').
  (** the same images drawn before, at the same sizes *)
  Definition same_tbl (t : imgtbl F64) (t' : imgtbl Qn) : Prop := Forall2 (fun e e' => fst e = fst e' /\ fst (snd e) = fst (snd e') /\ size_same (snd (snd e)) (snd (snd e'))) t t'.
  Lemma find_same t t' id : same_tbl t t' ->
    match find_img F64 id t, find_img Qn id t' with Some (i, z), Some (i', z') => i = i' /\ size_same z z' | None, None => True | _, _ => False end.
  Proof using.
    intros ST. unfold find_img. induction ST as [|[a [i z]] [b [i' z']] t t' (E1 & E2 & E3) _ IH]; [exact I|]. cbn [fst snd] in *. subst b i'. cbn [find fst].
    destruct (list_eqb id a); [cbn [snd]; split; [reflexivity|exact E3]|exact IH].
  Qed.
  Lemma defcfg_same t : same_cfg (defcfg F64 t) (defcfg Qn t).
  Proof using. split; [reflexivity|]. split; [cbn [defcfg u_conv]; rewrite Q2R_Z; apply (ofZ_is 0); lia|]. left. reflexivity. Qed.
  Lemma len_pts c c' x q : same_cfg c c' -> len_arg c' x q -> pts_arg (unitsToPoints F64 c x) (unitsToPoints Qn c' q).
  Proof using. intros S L. destruct (len_ap c c' x q S L) as (r & A & B & C). exists r. split; [exact A|]. rewrite eps_val, big_val, !Rmult_1_l in *. split; assumption. Qed.
  Lemma size_close (s : ds F64) (s' : ds Qn) r r' : u_unit (s_cfg F64 s) = u_unit (s_cfg Qn s') -> rect_same (u_unit (s_cfg Qn s')) r r' ->
    match size_of F64 s r, size_of Qn s' r' with Some z, Some z' => size_same z z' | None, None => True | _, _ => False end.
  Proof using.
    intros UE RS. unfold size_of, rectPts. destruct r as [r|], r' as [r'|]; try contradiction; [|exact I]. destruct RS as (OV & LW & LH). unfold rectU2P, rectU2P_cfg, r_w at 1, r_h at 1. cbn [r_w r_h].
    assert (CC : same_cfg (rectCfg F64 r (defcfg F64 (u_unit (s_cfg F64 s)))) (rectCfg Qn r' (defcfg Qn (u_unit (s_cfg Qn s'))))).
    { unfold rectCfg. rewrite UE. destruct OV as (OE & O2). pose proof OE as OE'. rewrite OE'. destruct (u_unit (r_over Qn r') =? 0); [apply defcfg_same|exact (conj OE O2)]. }
    split; cbn [fst snd]; now apply len_pts.
  Qed.
  Definition small_image (dx dy : Z) : Prop := let '(w, h) := naturalSize dx dy in 0 <= w < 2 ^ 20 /\ 0 <= h < 2 ^ 20.
  Lemma Z_pts a : 0 <= a < 2 ^ 20 -> pts_arg (nofZ F64 a) (nofZ Qn a).
  Proof using. intros L. destruct (ap_Z a L) as (r & A & B & C). exists r. split; [exact A|]. rewrite eps_val, big_val, !Rmult_1_l in *. split; assumption. Qed.
  Lemma place_same t t' id dx dy next r r' mk mk' c : same_tbl t t' -> small_image dx dy ->
    match r, r' with Some z, Some z' => size_same z z' | None, None => True | _, _ => False end ->
    (forall z z', size_same z z' -> img_arg (mk z) (mk' z')) ->
    let '(a, t1) := place F64 t id dx dy next r mk in let '(b, t1') := place Qn t' id dx dy next r' mk' in same_call c a b /\ same_tbl t1 t1'.
  Proof using.
    intros ST SM RS MK. unfold place. pose proof (find_same t t' id ST) as FS. destruct (find_img F64 id t) as [[i z]|], (find_img Qn id t') as [[i' z']|]; try contradiction.
    - destruct FS as [<- FS]. split; [|exact ST]. split; [reflexivity|]. apply MK. destruct r, r'; try contradiction; assumption.
    - assert (SZ : size_same match r with Some r => r | None => let '(w, h) := naturalSize dx dy in (nofZ F64 w, nofZ F64 h) end match r' with Some r => r | None => let '(w, h) := naturalSize dx dy in (nofZ Qn w, nofZ Qn h) end).
      { destruct r, r'; try contradiction; [assumption|]. unfold small_image in SM. destruct (naturalSize dx dy) as [w h]. destruct SM. split; cbn [fst snd]; now apply Z_pts. }
      split; [split; [reflexivity|now apply MK]|]. apply Forall2_app; [exact ST|]. constructor; [|constructor]. cbn [fst snd]. split; [reflexivity|]. split; [reflexivity|exact SZ].
  Qed.

  (** The same call in float64 and in exact numbers asks for the same drawing, and remembers the same size. *)
  Theorem C59_same_image_float64 (s : ds F64) (s' : ds Qn) t t' id dx dy next o o' :
    same_cfg (s_cfg F64 s) (s_cfg Qn s') -> s_tr F64 s = s_tr Qn s' -> same_tbl t t' -> small_image dx dy -> opts_same (s_cfg Qn s') o o' ->
    let '(a, t1) := imageWithOptions F64 s t id dx dy next o in let '(b, t1') := imageWithOptions Qn s' t' id dx dy next o' in
    same_call (s_cfg Qn s') a b /\ same_tbl t1 t1'.
  Proof using.
    intros CF TR ST SM (X & Y & RS & CR & AN & V & HF & TT). apply place_same; [exact ST|exact SM|apply size_close; [exact (proj1 CF)|exact RS]|].
    intros z z' [Z1 Z2]. unfold img_arg. cbn [io_x io_y io_w io_h io_angle io_v io_hf io_crop io_mask io_gs].
    refine (conj (len_pts _ _ _ _ CF X) (conj (len_pts _ _ _ _ CF Y) (conj Z1 (conj Z2 (conj AN (conj V (conj HF (conj _ (conj CR I))))))))). unfold trOf. now rewrite TR, TT.
  Qed.
  Theorem C59_same_plain_image_float64 (s : ds F64) (s' : ds Qn) t t' id dx dy next x y r x' y' r' :
    same_cfg (s_cfg F64 s) (s_cfg Qn s') -> same_tbl t t' -> small_image dx dy ->
    len_arg (s_cfg Qn s') x x' -> len_arg (s_cfg Qn s') y y' -> rect_same (u_unit (s_cfg Qn s')) r r' ->
    let '(a, t1) := image F64 s t id dx dy next x y r in let '(b, t1') := image Qn s' t' id dx dy next x' y' r' in
    same_call (s_cfg Qn s') a b /\ same_tbl t1 t1'.
  Proof using.
    intros CF ST SM X Y RS. apply place_same; [exact ST|exact SM|apply size_close; [exact (proj1 CF)|exact RS]|].
    intros z z' [Z1 Z2]. unfold img_arg. cbn [io_x io_y io_w io_h io_angle io_v io_hf io_crop io_mask io_gs].
    refine (conj (len_pts _ _ _ _ CF X) (conj (len_pts _ _ _ _ CF Y) (conj Z1 (conj Z2 (conj _ (conj eq_refl (conj eq_refl (conj eq_refl (conj I I))))))))).
    split; [cbn [nofZ Qn]; rewrite Q2R_Z; apply (ofZ_is 0); lia|]. cbn [nofZ Qn]. rewrite Q2R_Z, Rabs_R0. apply (IZR_le 0). lia.
  Qed.

  (** ** C59 in float64 *)
  (** An image drawn at any point of any history of calls: the viewer shows that image at that place in the order; every
      point of it appears where asked in exact arithmetic, whatever was rounded on the way. *)
  Theorem C59_image_where_asked_float64_partial (s s1 : ds F64) (s1' : ds Qn) (H : Q) calls rest content hist t t' id dx dy next o o' c t1 :
    fresh_page F64 s -> has (s_style F64 s) styUnderline = false -> Forall (sensible F64) (calls ++ c :: rest) -> Forall (undecorated F64) (calls ++ c :: rest) ->
    num_arg (s_pageH F64 s) H -> same_cfg (s_cfg F64 s1) (s_cfg Qn s1') -> s_tr F64 s1 = s_tr Qn s1' -> history hist t' -> same_tbl t t' -> small_image dx dy ->
    opts_same (s_cfg Qn s1') o o' -> run F64 s calls = Some s1 -> imageWithOptions F64 s1 t id dx dy next o = (c, t1) ->
    outcome F64 rf s (calls ++ c :: rest) = Some content ->
    let a := asks F64 rf false (blank F64 s) calls in
    let X := unitsToPoints Qn (s_cfg Qn s1') (q_x Qn o') in let Y := unitsToPoints Qn (s_cfg Qn s1') (q_y Qn o') in
    let '(Wd, Ht) := asked_size s1' (q_rect Qn o') hist id dx dy in
    exists g, nth_error (marks content) (List.length (a_out F64 a)) = Some (g, External [TName (bs "I" ++ fmt_d (asked_object hist id next + 1))]) /\
      placedF H (a_g F64 a) g (imgBox X Y Wd Ht (q_crop Qn o')) (visBox X Y Wd Ht (q_crop Qn o')) (cropped (q_crop Qn o')) (q_hf Qn o') (q_v Qn o')
        (rf (q_angle F64 o) = (nofZ F64 1, nofZ F64 0)) (rq (q_angle Qn o')) /\
      p_ext g = p_ext (a_g F64 a) ++ extOf (match q_tr F64 o with Some tr => tr | None => s_tr F64 s1 end).
  Proof using RA.
    intros FP UL SE UD HH CF TR HI ST SM OS R1 IM OC a X Y.
    pose proof (C59_same_image_float64 s1 s1' t t' id dx dy next o o' CF TR ST SM OS) as SA. rewrite IM in SA.
    destruct (imageWithOptions Qn s1' t' id dx dy next o') as [b t1'] eqn:IQ. destruct SA as [SC _].
    destruct c; try (unfold imageWithOptions, place in IM; destruct (find_img F64 id t) as [[? ?]|]; discriminate). destruct b; try contradiction. destruct SC as [<- IA].
    assert (M0 : io_mask F64 o0 = None /\ io_angle F64 o0 = q_angle F64 o /\ io_gs F64 o0 = trOf F64 s1 (q_tr F64 o)).
    { unfold imageWithOptions, place in IM. destruct (find_img F64 id t) as [[? ?]|]; match type of IM with (Image F64 _ ?b, _) = _ => assert (E3 : o0 = b) by congruence end; rewrite E3; repeat split. }
    destruct M0 as (M1 & M2 & M3).
    unfold imageWithOptions in IQ. apply (place_asked s1' hist) in IQ; [|exact HI|intros z; split; reflexivity]. destruct IQ as [-> ->].
    destruct (asked_size s1' (q_rect Qn o') hist id dx dy) as [Wd Ht]. cbn [fst snd] in *.
    destruct (imageF_marks s H calls rest content _ _ _ FP UL SE UD HH IA M1 OC) as (g & A & B & C). exists g. split; [exact A|]. split.
    - cbn [io_x io_y io_w io_h io_crop io_hf io_v io_angle] in C. rewrite M2 in C. exact C.
    - rewrite B, M3. f_equal. unfold trOf. destruct (match q_tr F64 o with Some tr => tr | None => s_tr F64 s1 end); reflexivity.
  Qed.
  (** Image, ImageByHolder, ImageFrom: every point of the image within a 99th of a point of where it was asked for. *)
  Theorem C59_plain_image_where_asked_float64 (s s1 : ds F64) (s1' : ds Qn) (H : Q) calls rest content hist t t' id dx dy next x y r x' y' r' c t1 :
    fresh_page F64 s -> has (s_style F64 s) styUnderline = false -> Forall (sensible F64) (calls ++ c :: rest) -> Forall (undecorated F64) (calls ++ c :: rest) ->
    num_arg (s_pageH F64 s) H -> same_cfg (s_cfg F64 s1) (s_cfg Qn s1') -> history hist t' -> same_tbl t t' -> small_image dx dy ->
    len_arg (s_cfg Qn s1') x x' -> len_arg (s_cfg Qn s1') y y' -> rect_same (u_unit (s_cfg Qn s1')) r r' ->
    run F64 s calls = Some s1 -> image F64 s1 t id dx dy next x y r = (c, t1) ->
    outcome F64 rf s (calls ++ c :: rest) = Some content -> rf (nofZ F64 0) = (nofZ F64 1, nofZ F64 0) ->
    let a := asks F64 rf false (blank F64 s) calls in
    let X := unitsToPoints Qn (s_cfg Qn s1') x' in let Y := unitsToPoints Qn (s_cfg Qn s1') y' in
    let '(Wd, Ht) := asked_size s1' r' hist id dx dy in
    exists g own, nth_error (marks content) (List.length (a_out F64 a)) = Some (g, External [TName (bs "I" ++ fmt_d (asked_object hist id next + 1))]) /\
      p_ctm g = p_ctm (a_g F64 a) ++ own /\ p_clip g = p_clip (a_g F64 a) /\ p_ext g = p_ext (a_g F64 a) /\
      forall u v, unit_ u -> unit_ v -> exists q, takes own (u, v) = Some q /\ closeF q ((X + u * Wd)%Q, (H - Y - Ht + v * Ht)%Q).
  Proof using RA.
    intros FP UL SE UD HH CF HI ST SM LX LY RS R1 IM OC R0 a X Y.
    pose proof (C59_same_plain_image_float64 s1 s1' t t' id dx dy next x y r x' y' r' CF ST SM LX LY RS) as SA. rewrite IM in SA.
    destruct (image Qn s1' t' id dx dy next x' y' r') as [b t1'] eqn:IQ. destruct SA as [SC _].
    destruct c; try (unfold image, place in IM; destruct (find_img F64 id t) as [[? ?]|]; discriminate). destruct b; try contradiction. destruct SC as [<- IA].
    assert (M0 : io_mask F64 o = None /\ io_angle F64 o = nofZ F64 0 /\ io_gs F64 o = []).
    { unfold image, place in IM. destruct (find_img F64 id t) as [[? ?]|]; match type of IM with (Image F64 _ ?b, _) = _ => assert (E3 : o = b) by congruence end; rewrite E3; repeat split. }
    destruct M0 as (M1 & M2 & M3).
    unfold image in IQ. apply (place_asked s1' hist) in IQ; [|exact HI|intros z; split; reflexivity]. destruct IQ as [-> ->].
    destruct (asked_size s1' r' hist id dx dy) as [Wd Ht]. cbn [fst snd] in *.
    destruct (imageF_marks s H calls rest content _ _ _ FP UL SE UD HH IA M1 OC) as (g & A & B & own & C & D & E). exists g, own. split; [exact A|]. split; [exact C|].
    split; [exact E|]. split; [rewrite B, M3; cbn [map]; apply app_nil_r|]. intros u v Uu Uv. destruct (D u v Uu Uv) as (q & T & (Ce & cs & p' & _ & _ & _ & _ & Z & CL & PE)).
    exists q. split; [exact T|]. rewrite M2 in Z. specialize (Z R0). destruct Z as [Z1 Z2], PE as [PE1 PE2], CL as [CL1 CL2]. unfold turned in PE1, PE2. cbn [fst snd] in *.
    rewrite Z1, Z2 in PE1, PE2. unfold spot, imgBox in CL1, CL2. cbn [fst snd io_hf io_v io_x io_y io_w io_h io_crop bx_left bx_top bx_w bx_h] in CL1, CL2. split; cbn [fst snd].
    - eapply withinF_eq; [| |exact CL1]; [rewrite PE1; ring|reflexivity].
    - eapply withinF_eq; [| |exact CL2]; [rewrite PE2; ring|reflexivity].
  Qed.
End C59F.

(** ** A concrete case: millimetres, a crop, mirrored, and no rotation *)
Definition fopt : iopts F64 := Build_iopts F64 (z 10) (z 20) (Some (Build_rect F64 (z 30) (z 40) (defcfg F64 0))) (Some (z 1, z 2, z 30, z 40)) (z 0) false true None.
Definition fopt' : iopts Qn := Build_iopts Qn (zq 10) (zq 20) (Some (Build_rect Qn (zq 30) (zq 40) (defcfg Qn 0))) (Some (zq 1, zq 2, zq 30, zq 40)) (zq 0) false true None.
Definition fpage' : ds Qn := Build_ds Qn qcfg (zq 10) (zq 800) (zq 10) (zq 20) 0 None (zq 0) 0 (zq 0) false None (zq 0) (zq 1) None [].
Definition fthe : call F64 * imgtbl F64 := imageWithOptions F64 ppage [] (bs "logo") 200 100 7 fopt.
Definition fbefore : list (call F64) := [SetX F64 (z 5)].
Definition fs1 : ds F64 := match run F64 ppage fbefore with Some s => s | None => ppage end.
Definition fcontent : bytes := Eval vm_compute in got (outcome F64 (norot F64) ppage (fbefore ++ fst fthe :: [])).
Example C59_float64_met :
  fresh_page F64 ppage /\ has (s_style F64 ppage) styUnderline = false /\ Forall (sensible F64) (fbefore ++ fst fthe :: []) /\ Forall (undecorated F64) (fbefore ++ fst fthe :: []) /\
  num_arg (s_pageH F64 ppage) (zq 800) /\ same_cfg (s_cfg F64 fs1) (s_cfg Qn fpage') /\ s_tr F64 fs1 = s_tr Qn fpage' /\ history [] [] /\ same_tbl [] [] /\ small_image 200 100 /\
  opts_same (s_cfg Qn fpage') fopt fopt' /\ run F64 ppage fbefore = Some fs1 /\ imageWithOptions F64 fs1 [] (bs "logo") 200 100 7 fopt = (fst fthe, snd fthe) /\
  outcome F64 (norot F64) ppage (fbefore ++ fst fthe :: []) = Some fcontent /\ rots_agree (norot F64) (norot Qn).
Proof.
  split; [split; [reflexivity|discriminate]|]. split; [reflexivity|]. split; [repeat constructor|]. split; [repeat constructor|].
  split; [apply z_num; lia|]. split; [exact qcfg_same|]. split; [reflexivity|]. split; [constructor|]. split; [constructor|].
  split; [unfold small_image; cbn; lia|]. split.
  { unfold opts_same, fopt, fopt', rect_same. cbn [q_x q_y q_rect q_crop q_angle q_v q_hf q_tr r_over r_w r_h].
    split; [apply z_len; lia|]. split; [apply z_len; lia|]. split; [split; [apply defcfg_same|]; split; apply z_len; lia|].
    split; [repeat split; apply z_pts; lia|]. split; [apply z_num; lia|]. repeat split. }
  split; [reflexivity|]. split; [reflexivity|]. split; [vm_compute; reflexivity|exact norot_agree].
Qed.
Print Assumptions C59_image_where_asked_float64_partial.
