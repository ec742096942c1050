(** PropMarks.v — C77: bookmarks and links to anchors lead to the page they were set on. *)
From Verif Require RefModel PropRef2 PdfSyntax ObjModel PropObj PropObj2.
From Verif Require Import Base DocModel DocSpec DocProofs DocInv PropDoc.
Open Scope Z_scope.

(** ** Specification: the pages, bookmarks and anchors the calls ask for *)
(** Bookmarks in order, each with the number (from 1) of the last page added when it was set, 0 if there was none; anchors, latest first. *)
Record marked := { mk_pages : nat; mk_list : list (bytes * nat); mk_anchors : list (bytes * nat); mk_header : option (list sop); mk_footer : option (list sop) }.
Definition no_marks : marked := {| mk_pages := 0; mk_list := []; mk_anchors := []; mk_header := None; mk_footer := None |}.
Definition m_sop (m : marked) (o : sop) : marked :=
  match o with
  | AddOutline t | AddOutlinePos t =>
      {| mk_pages := mk_pages m; mk_list := mk_list m ++ [(t, mk_pages m)]; mk_anchors := mk_anchors m; mk_header := mk_header m; mk_footer := mk_footer m |}
  | SetAnchor n =>
      {| mk_pages := mk_pages m; mk_list := mk_list m; mk_anchors := (n, mk_pages m) :: mk_anchors m; mk_header := mk_header m; mk_footer := mk_footer m |}
  | _ => m
  end.
Definition m_sops (m : marked) (f : option (list sop)) : marked := match f with None => m | Some l => fold_left m_sop l m end.
Definition m_op (m : marked) (o : op) : marked :=
  match o with
  | Do o => m_sop m o
  | AddPage _ =>
      let m := {| mk_pages := S (mk_pages m); mk_list := mk_list m; mk_anchors := mk_anchors m; mk_header := mk_header m; mk_footer := mk_footer m |} in
      m_sops (m_sops m (mk_header m)) (mk_footer m)
  | Start _ => {| mk_pages := 0; mk_list := []; mk_anchors := []; mk_header := mk_header m; mk_footer := mk_footer m |}
  | AddHeader f => {| mk_pages := mk_pages m; mk_list := mk_list m; mk_anchors := mk_anchors m; mk_header := f; mk_footer := mk_footer m |}
  | AddFooter f => {| mk_pages := mk_pages m; mk_list := mk_list m; mk_anchors := mk_anchors m; mk_header := mk_header m; mk_footer := f |}
  | Output => m
  end.
Definition marks_of (l : list op) : marked := fold_left m_op l no_marks.

(** ** Page positions in the object table *)
Fixpoint kpos (l : list (option skel)) (i : nat) : list nat :=
  match l with [] => [] | x :: r => (match x with Some (KPage _) => [i] | _ => [] end) ++ kpos r (S i) end.
Lemma kpos_app a : forall b i, kpos (a ++ b) i = kpos a i ++ kpos b (i + List.length a).
Proof. induction a as [|x a IH]; intros b i; cbn [kpos app List.length]; [now rewrite Nat.add_0_r|]. rewrite IH, <- app_assoc. do 3 f_equal. lia. Qed.
Lemma kpos_none k : forall i, kpos (repeat None k) i = [].
Proof. induction k as [|k IH]; intros i; cbn; auto. Qed.
Lemma kpos_prep l : forall i, prep_kids l i = map (fun p => Z.of_nat p + 1) (kpos (map sk l) i).
Proof. induction l as [|o l IH]; intros i; cbn [prep_kids map kpos]; [reflexivity|]. rewrite map_app, IH. f_equal. now destruct o. Qed.
Definition pageof (ps : list nat) (k : nat) : option nat := match k with O => None | S j => nth_error ps j end.
Definition destno (p : option nat) : Z := match p with Some p => Z.of_nat p + 1 | None => 0 end.
Lemma pageof_app ps x k : (k <= List.length ps)%nat -> pageof (ps ++ x) k = pageof ps k.
Proof. destruct k as [|k]; intros H; [reflexivity|]. cbn. now apply nth_error_app1. Qed.

Definition pages_at (s : gp) : list nat := kpos (map sk (g_objs s)) 0.
Definition anchor_pages (s : gp) : list (bytes * option nat) := map (fun a => (fst a, fst (snd a))) (g_anchors s).
Record M (s : gp) (m : marked) (nums : list Z) : Prop := {
  m_ou : Outl s (map fst (mk_list m)) nums;
  m_dest : Forall2 (fun n tk => exists o, get_outline (map sk (g_objs s)) n = Some o /\ ol_dest o = destno (pageof (pages_at s) (snd tk))) nums (mk_list m);
  m_anch : anchor_pages s = map (fun nk => (fst nk, pageof (pages_at s) (snd nk))) (mk_anchors m);
  m_count : List.length (pages_at s) = mk_pages m;
  m_page : g_page s = pageof (pages_at s) (mk_pages m);
  m_bl : Forall (fun tk => (snd tk <= mk_pages m)%nat) (mk_list m);
  m_ba : Forall (fun nk => (snd nk <= mk_pages m)%nat) (mk_anchors m);
  m_h : g_header s = mk_header m; m_f : g_footer s = mk_footer m }.

(** No call but SetAnchor touches the anchors. *)
Lemma A_addObj o s : g_anchors (snd (addObj o s)) = g_anchors s. Proof. reflexivity. Qed.
Lemma A_draw np f s : g_anchors (fst (draw np f s)) = g_anchors s.
Proof. unfold draw, getContent. destruct (g_content s) as [i|]; cbn [snd]; [|cbn [addObj]]; (match goal with |- context [g_pagesize ?x] => destruct (g_pagesize x) end; [|destruct np]; reflexivity). Qed.
Lemma A_getCached e s : g_anchors (snd (getCachedExtGState e s)) = g_anchors s.
Proof. unfold getCachedExtGState. match goal with |- context [match ?x with Some _ => _ | None => _ end] => destruct x end; reflexivity. Qed.
Lemma A_getContent s : g_anchors (snd (getContent s)) = g_anchors s.
Proof. unfold getContent. destruct (g_content s); reflexivity. Qed.
Lemma A_image b id im gs s : g_anchors (fst (imageByHolder b id im gs s)) = g_anchors s.
Proof.
  unfold imageByHolder. destruct (lookup id (g_imgs s)) as [i|]; [apply A_draw|]. destruct (im_ok im); [|reflexivity]. cbn [addObj]. set (s1 := set_objs _ s).
  match goal with |- context [draw true ?f s1] => pose proof (A_draw true f s1) as A; destruct (draw true f s1) as [s2 r] end. cbn [fst] in A.
  destruct r; [|exact A|exact A]. rewrite <- (eq_refl : g_anchors s1 = g_anchors s), <- A. cbn [fst]. destruct (im_alpha im), (im_indexed im); reflexivity.
Qed.
Lemma A_mask id im s : g_anchors (fst (fst (maskHolder id im s))) = g_anchors s.
Proof.
  unfold maskHolder. assert (A : g_anchors (fst (fst (maskImage id im s))) = g_anchors s).
  { unfold maskImage. destruct (lookup id (g_imgs s)) as [i|].
    - pose proof (A_getContent s) as A. destruct (getContent s). exact A.
    - destruct (im_ok im); [|reflexivity]. cbn [addObj]. set (s1 := set_objs _ s). pose proof (A_getContent s1) as A. destruct (getContent s1) as [i s2]. cbn [snd] in A. destruct (g_pagesize s2); exact A. }
  destruct (maskImage id im s) as [[s1 r] ix]. cbn [fst] in A. destruct r; try exact A. destruct (g_pagesize s1); [|exact A]. cbn [addObj].
  match goal with |- context [getCachedExtGState ?e ?x] => pose proof (A_getCached e x) as B; destruct (getCachedExtGState e x) as [i s3] end. cbn [fst snd] in *. rewrite B. exact A.
Qed.
Lemma A_sop s o : g_anchors (fst (sstep s o)) = match o with SetAnchor n => (n, (g_page s, (r_h (cf_page (g_cfg s)) - g_y s + g_fontsize s)%Q)) :: g_anchors s | _ => g_anchors s end.
Proof.
  destruct o; cbn [sstep]; try reflexivity; try apply A_draw.
  - unfold text. destruct (g_font s); [apply A_draw|reflexivity].
  - unfold setPage. destruct (find_content _ _ _ _); reflexivity.
  - unfold addFont. cbn [addObj]. match goal with |- context [if ?c then _ else _] => destruct c end; reflexivity.
  - unfold setFont. destruct (find_font _ _ _ _) as [[i f]|]; reflexivity.
  - apply A_image.
  - pose proof (A_mask mid mim s) as H. destruct (maskHolder mid mim s) as [[s1 r1] e]. cbn [fst] in H. destruct r1; try exact H. rewrite A_image. exact H.
  - unfold addLink. destruct (g_page s); reflexivity.
  - unfold addOutline. cbn [addObj]. cbv zeta. cbn [g_outl_first set_outl_last set_objs]. destruct (g_outl_first s <=? 0); cbn [g_outl_lastobj set_outl_first set_outl_last set_objs]; destruct (g_outl_lastobj s); reflexivity.
  - unfold addOutline. cbn [addObj]. cbv zeta. cbn [g_outl_first set_outl_last set_objs]. destruct (g_outl_first s <=? 0); cbn [g_outl_lastobj set_outl_first set_outl_last set_objs]; destruct (g_outl_lastobj s); reflexivity.
  - unfold importObjects. cbn [fst]. generalize (seq 0 (List.length objs)). intros ks. revert s. induction ks as [|k ks IH]; intros s; [reflexivity|]. cbn [fold_left]. rewrite IH.
    destruct (zlookup _ objs) as [[|b dt]|]; reflexivity.
  - unfold addColorSpace. cbn [addObj]. destruct (existsb _ _); reflexivity.
  - unfold setColorSpace. destruct (find_cs _ _); [apply A_draw|reflexivity].
  - unfold saveTransparency. destruct (lookup _ (g_trmap s)); [reflexivity|]. destruct (Qeq_bool alpha 1); [reflexivity|].
    match goal with |- context [getCachedExtGState ?e s] => pose proof (A_getCached e s) as H; destruct (getCachedExtGState e s) as [i s1] end. exact H.
  - unfold setCompressLevel. destruct (l <? -2); [reflexivity|]. destruct (9 <? l); reflexivity.
Qed.

(** ** The invariant is kept *)
(** Objects that are neither pages nor bookmarks are added, and nothing else. *)
Lemma M_frame s s' m nums : M s m nums -> Outl s' (map fst (mk_list m)) nums -> Ev (g_objs s) (g_objs s') -> g_page s' = g_page s -> anchor_pages s' = anchor_pages s ->
  g_header s' = g_header s -> g_footer s' = g_footer s -> M s' m nums.
Proof.
  intros [A B C D E F1 F2 H1 H2] O (k & EV) GP AP GH GF.
  assert (P : pages_at s' = pages_at s) by (unfold pages_at; now rewrite EV, kpos_app, kpos_none, app_nil_r).
  constructor; try rewrite P; try congruence; try assumption. eapply Forall2_impl; [|exact B]. cbv beta. intros n tk (o & G & X). exists o. split; [rewrite EV; now apply get_outline_app|exact X].
Qed.
Lemma M_sop_plain s m nums o : is_addoutline o = false -> (forall n, o <> SetAnchor n) -> M s m nums -> M (fst (sstep s o)) m nums.
Proof.
  intros N A I. pose proof (F_sop s o N) as K. pose proof (Outl_F _ _ _ _ K (m_ou _ _ _ I)) as O. destruct K as [K E]. unfold keep in K. destruct K as (_ & _ & _ & K4 & _ & _ & _ & _ & _ & K10 & K11).
  apply (M_frame s); try assumption. unfold anchor_pages. rewrite A_sop. destruct o; try reflexivity. destruct (A name); reflexivity.
Qed.
Lemma M_anchor s m nums n y : M s m nums -> M (set_anchors ((n, (g_page s, y)) :: g_anchors s) s) (m_sop m (SetAnchor n)) nums.
Proof.
  intros [A B C D E F1 F2 H1 H2]. constructor; cbn [m_sop mk_pages mk_list mk_anchors mk_header mk_footer]; try assumption.
  - destruct A; constructor; assumption.
  - unfold anchor_pages in *. cbn [g_anchors set_anchors map fst snd]. rewrite C. f_equal. f_equal. exact E.
  - now constructor.
Qed.
Lemma dest_next l : forall j num n o, get_outline (map sk l) n = Some o -> exists o', get_outline (map sk (upd l j (set_next num))) n = Some o' /\ ol_dest o' = ol_dest o.
Proof.
  intros j num n o. unfold get_outline. destruct (n <=? 0); [discriminate|]. generalize (Z.to_nat (n - 1)). clear n. revert j.
  induction l as [|x l IH]; intros [|j] [|k]; cbn [map upd nth_error]; try discriminate; try (intros H; exists o; now split).
  - destruct x; cbn [sk set_next]; try discriminate; try (intros H; exists o; now split). intros H. injection H as <-. eexists. split; reflexivity.
  - apply IH.
Qed.
Lemma kpos_next l : forall j num i, kpos (map sk (upd l j (set_next num))) i = kpos (map sk l) i.
Proof. induction l as [|x l IH]; intros [|j] num i; cbn [map upd kpos]; try reflexivity; [|now rewrite IH]. now destruct x. Qed.
Lemma M_outline s m nums t w o : (o = AddOutline t \/ o = AddOutlinePos t) -> M s m nums -> M (fst (addOutline t w s)) (m_sop m o) (nums ++ [zlen (g_objs s) + 1]).
Proof.
  intros HO [A B C D E F1 F2 H1 H2].
  assert (MS : m_sop m o = {| mk_pages := mk_pages m; mk_list := mk_list m ++ [(t, mk_pages m)]; mk_anchors := mk_anchors m; mk_header := mk_header m; mk_footer := mk_footer m |}) by (destruct HO as [-> | ->]; reflexivity).
  rewrite MS. clear MS HO o. pose proof (Outl_add _ _ _ t w A) as OA. destruct (addOutline_eq t w s) as (E1 & _ & _ & _ & _ & _ & _ & _ & E9 & _ & E11 & E12). cbv zeta in *.
  assert (EA : anchor_pages (fst (addOutline t w s)) = anchor_pages s) by (unfold anchor_pages; pose proof (A_sop s (if w then AddOutlinePos t else AddOutline t)) as X; destruct w; cbn [sstep] in X; now rewrite X).
  set (s' := fst (addOutline t w s)) in *. set (q := new_outline t w s) in *. set (num := zlen (g_objs s) + 1) in *.
  assert (P : pages_at s' = pages_at s).
  { unfold pages_at. rewrite E1. destruct (g_outl_lastobj s) as [j|]; [rewrite kpos_next|]; rewrite map_app, kpos_app; cbn; apply app_nil_r. }
  assert (G : forall n o, get_outline (map sk (g_objs s ++ [OOutline q])) n = Some o -> exists o', get_outline (map sk (g_objs s')) n = Some o' /\ ol_dest o' = ol_dest o).
  { intros n o H. rewrite E1. destruct (g_outl_lastobj s) as [j|]; [now apply dest_next|exists o; now split]. }
  constructor; cbn [mk_pages mk_list mk_anchors mk_header mk_footer]; try rewrite P; try congruence; try assumption.
  - rewrite map_app. exact OA.
  - apply Forall2_app.
    + eapply Forall2_impl; [|exact B]. cbv beta. intros n tk (o & GO & X). destruct (G n o) as (o' & G1 & G2); [rewrite map_app; now apply get_outline_app|]. exists o'. split; [exact G1|congruence].
    + constructor; [|constructor]. destruct (G num q) as (o' & G1 & G2).
      { unfold get_outline, num, zlen. replace (Z.of_nat (List.length (g_objs s)) + 1 <=? 0) with false by lia. rewrite map_app, nth_error_app2; rewrite map_length; [|lia].
        replace (Z.to_nat (Z.of_nat (List.length (g_objs s)) + 1 - 1) - List.length (g_objs s))%nat with O by lia. reflexivity. }
      exists o'. split; [exact G1|]. rewrite G2. cbn [snd]. rewrite <- E. unfold q, new_outline. cbn [ol_dest]. unfold destno. reflexivity.
  - apply Forall_app. split; [exact F1|]. constructor; [cbn; lia|constructor].
Qed.
Lemma M_sop s m nums o : M s m nums -> exists nums', M (fst (sstep s o)) (m_sop m o) nums'.
Proof.
  intros I. destruct (is_addoutline o) eqn:N.
  - destruct o; try discriminate; cbn [sstep]; eexists; (apply M_outline; [|exact I]); auto.
  - assert (H : (exists n, o = SetAnchor n) \/ (forall n, o <> SetAnchor n)) by (destruct o; try (right; intros ?; discriminate); left; eexists; reflexivity).
    destruct H as [(n & ->)|H]; [exists nums; cbn [sstep fst]; now apply M_anchor|]. exists nums. replace (m_sop m o) with m by (destruct o; try discriminate N; try reflexivity; destruct (H name); reflexivity).
    now apply M_sop_plain.
Qed.
Lemma M_sops l : forall s m nums, M s m nums -> snd (run_sops s l) <> Panic -> exists nums', M (fst (run_sops s l)) (fold_left m_sop l m) nums'.
Proof.
  induction l as [|o l IH]; intros s m nums I NP; [exists nums; exact I|]. cbn [run_sops fold_left] in *. destruct (M_sop s m nums o I) as (nums' & I'). destruct (sstep s o) as [s1 r]. cbn [fst] in I'.
  destruct r; try (apply (IH _ _ _ I' NP)). destruct NP; reflexivity.
Qed.
Lemma M_reset s m nums : M s m nums -> M (resetXY s) m nums.
Proof. intros [[A1 A2 A3 A4 A5 A6 A7] B C D E F1 F2 H1 H2]. constructor; try assumption. constructor; assumption. Qed.
Lemma M_callback f s m nums : M s m nums -> let r := match f with None => (s, Ok) | Some f => match run_sops s f with (s, Panic) => (s, Panic) | (s, _) => (resetXY s, Ok) end end in
  snd r <> Panic -> exists nums', M (fst r) (m_sops m f) nums'.
Proof.
  cbv zeta. intros I. destruct f as [f|]; cbn [m_sops]; [|intros _; exists nums; exact I]. pose proof (M_sops f s m nums I) as H. destruct (run_sops s f) as [s1 r1]. cbn [fst snd] in H.
  destruct r1; cbn [fst snd]; intros NP; try (destruct (H ltac:(discriminate)) as (nums' & I'); exists nums'; now apply M_reset). destruct NP; reflexivity.
Qed.
Lemma m_sop_cb m o : mk_header (m_sop m o) = mk_header m /\ mk_footer (m_sop m o) = mk_footer m /\ mk_pages (m_sop m o) = mk_pages m.
Proof. destruct o; repeat split. Qed.
Lemma m_sops_cb f m : mk_header (m_sops m f) = mk_header m /\ mk_footer (m_sops m f) = mk_footer m /\ mk_pages (m_sops m f) = mk_pages m.
Proof.
  destruct f as [l|]; [|repeat split]. cbn [m_sops]. revert m. induction l as [|o l IH]; intros m; [repeat split|]. cbn [fold_left]. destruct (IH (m_sop m o)) as (A & B & C). destruct (m_sop_cb m o) as (A' & B' & C'). rewrite A, B, C, A', B', C'. repeat split.
Qed.
Lemma M_page s m nums sz : M s m nums -> snd (addPage sz s) <> Panic -> exists nums', M (fst (addPage sz s)) (m_op m (AddPage sz)) nums'.
Proof.
  intros I. unfold addPage. cbn [addObj]. set (s1 := resetXY _). cbn [m_op]. set (m1 := Build_marked (S (mk_pages m)) (mk_list m) (mk_anchors m) (mk_header m) (mk_footer m)).
  assert (I1 : M s1 m1 nums).
  { destruct I as [[A1 A2 A3 A4 A5 A6 A7] B C D E F1 F2 H1 H2].
    assert (SK : map sk (g_objs s1) = map sk (g_objs s) ++ [Some (KPage sz)]) by (unfold s1; cbn; now rewrite map_app).
    assert (P : pages_at s1 = pages_at s ++ [List.length (g_objs s)]) by (unfold pages_at; rewrite SK, kpos_app, map_length; reflexivity).
    assert (PO : forall k, (k <= mk_pages m)%nat -> pageof (pages_at s1) k = pageof (pages_at s) k) by (intros k H; rewrite P; apply pageof_app; lia).
    constructor; cbn [m1 mk_pages mk_list mk_anchors mk_header mk_footer].
    - constructor; try assumption.
      + destruct A1 as [L1 L2]. split; [exact L1|]. intros k n t N1 N2. destruct (L2 k n t N1 N2) as (o & O1 & O2). exists o. split; [|exact O2]. rewrite SK. now apply get_outline_app.
      + eapply Forall_impl; [|exact A6]. cbv beta. intros a Ha. unfold s1. cbn. unfold zlen in *. rewrite app_length. cbn [List.length]. lia.
    - clear - B PO F1 SK. induction B as [|n tk ns tks (o & G & X) B IH]; inversion F1; subst; constructor; [|now apply IH]. exists o. rewrite PO by assumption. split; [rewrite SK; now apply get_outline_app|exact X].
    - transitivity (anchor_pages s); [reflexivity|]. rewrite C. clear - PO F2. induction F2 as [|nk l H F2 IH]; cbn [map]; [reflexivity|]. now rewrite PO, IH.
    - rewrite P, app_length, D. cbn. lia.
    - unfold s1. cbn [g_page set_content set_npages set_page resetXY set_x set_y set_objs]. fold s1. rewrite P. cbn [pageof]. rewrite nth_error_app2 by lia. replace (mk_pages m - List.length (pages_at s))%nat with O by lia. reflexivity.
    - eapply Forall_impl; [|exact F1]. cbv beta. lia.
    - eapply Forall_impl; [|exact F2]. cbv beta. lia.
    - exact H1.
    - exact H2. }
  clearbody s1. clear I. pose proof (m_h _ _ _ I1) as GH. pose proof (M_callback (g_header s1) s1 m1 nums I1) as CB. cbv zeta in CB.
  destruct (match g_header s1 with None => (s1, Ok) | Some f => _ end) as [s2 r2] eqn:R2. cbn [fst snd] in CB. intros NP.
  assert (N2 : r2 <> Panic) by (intros ->; apply NP; reflexivity). destruct (CB N2) as (nums2 & I2). rewrite GH in I2. pose proof (m_f _ _ _ I2) as GF.
  assert (EF : mk_footer (m_sops m1 (mk_header m1)) = mk_footer m1) by apply m_sops_cb. rewrite EF in GF.
  pose proof (M_callback (g_footer s2) s2 _ nums2 I2) as CB2. cbv zeta in CB2. replace (m_sops (m_sops m1 (mk_header m1)) (g_footer s2)) with (m_sops (m_sops m1 (mk_header m1)) (mk_footer m1)) in CB2 by now rewrite GF. change (mk_header m1) with (mk_header m) in *. change (mk_footer m1) with (mk_footer m) in *.
  destruct r2; try (apply CB2; exact NP). destruct N2; reflexivity.
Qed.

Lemma output_anchors s : g_anchors (output s) = g_anchors s.
Proof. unfold output, prepare. cbn [set_objs g_anchors set_kids set_pagecount set_encid]. destruct (cf_protect (g_cfg s)); cbn [addObj snd set_objs g_outl_count]; destruct (0 <? g_outl_count s); reflexivity. Qed.
Lemma M_start c s m nums : M s m nums -> M (start c s) (m_op m (Start c)) [].
Proof.
  intros [_ _ _ _ _ _ _ H1 H2]. cbn [m_op]. constructor; cbn [mk_list mk_pages mk_anchors mk_header mk_footer map]; [|constructor|reflexivity|reflexivity|reflexivity|constructor|constructor|exact H1|exact H2].
  constructor; [|reflexivity|reflexivity|reflexivity|reflexivity|constructor|constructor]. split; [reflexivity|]. intros [|k] n t H; discriminate.
Qed.
Lemma M_header f s m nums : M s m nums -> M (set_header f s) (m_op m (AddHeader f)) nums.
Proof. intros [[A1 A2 A3 A4 A5 A6 A7] B C D E F1 F2 H1 H2]. constructor; [constructor; assumption|assumption..|reflexivity|assumption]. Qed.
Lemma M_footer f s m nums : M s m nums -> M (set_footer f s) (m_op m (AddFooter f)) nums.
Proof. intros [[A1 A2 A3 A4 A5 A6 A7] B C D E F1 F2 H1 H2]. constructor; [constructor; assumption|assumption..|reflexivity]. Qed.
Lemma M_output s m nums : M s m nums -> M (output s) m nums.
Proof.
  intros I. destruct (output_keep s) as (K1 & K2 & K3 & K4 & K5 & K6 & K7). pose proof (output_sk s) as E.
  apply (M_frame s); try assumption; [|unfold anchor_pages; now rewrite output_anchors]. eapply Outl_weak; eauto. apply I.
Qed.
Lemma M_op s m nums o : M s m nums -> snd (step s o) <> Panic -> exists nums', M (fst (step s o)) (m_op m o) nums'.
Proof.
  intros I. destruct o as [o|c|size|f|f|].
  - intros _. exact (M_sop s m nums o I).
  - intros _. exists []. exact (M_start c s m nums I).
  - exact (M_page s m nums size I).
  - intros _. exists nums. exact (M_header f s m nums I).
  - intros _. exists nums. exact (M_footer f s m nums I).
  - intros _. exists nums. exact (M_output s m nums I).
Qed.
Lemma M_exec l : forall s m nums, M s m nums -> RefModel.finishes s l -> exists nums', M (exec s l) (fold_left m_op l m) nums'.
Proof.
  induction l as [|o l IH]; intros s m nums I F; [exists nums; exact I|]. destruct F as [NP F]. destruct (M_op s m nums o I NP) as (nums' & I'). exact (IH _ _ _ I' F).
Qed.

(** ** What a reader of the document follows *)
(** The bookmarks in the order of their /Next links: title and number of the object the destination names. *)
Fixpoint follow (t : gp) (fuel : nat) (n : Z) : list (bytes * Z) :=
  match fuel with
  | O => []
  | S f => match outline_no t n with Some o => (ol_title o, ol_dest o) :: follow t f (ol_next o) | None => [] end
  end.
(** The object number of the [k]-th page of the page tree; 0, which is no object, when there is none. *)
Definition page_ref (t : gp) (k : nat) : Z := match k with O => 0 | S j => nth j (g_kids t) 0 end.

Lemma M_first c : M (start c zero_gp) no_marks [].
Proof.
  constructor; cbn [no_marks mk_list mk_pages mk_anchors mk_header mk_footer map]; [|constructor|reflexivity|reflexivity|reflexivity|constructor|constructor|reflexivity|reflexivity].
  constructor; [|reflexivity|reflexivity|reflexivity|reflexivity|constructor|constructor]. split; [reflexivity|]. intros [|k] n t H; discriminate.
Qed.
Lemma follow_next t ms nums fuel : linked (get_outline (map sk (g_objs t))) nums (map fst ms) ->
  Forall2 (fun n tk => exists o, get_outline (map sk (g_objs t)) n = Some o /\ ol_dest o = destno (pageof (pages_at t) (snd tk))) nums ms ->
  (List.length ms <= fuel)%nat -> follow t fuel (hd_or (-1) nums) = map (fun tk => (fst tk, destno (pageof (pages_at t) (snd tk)))) ms.
Proof.
  intros (L1 & L2) D Hf. rewrite map_length in L1.
  assert (G : forall k fuel, (List.length ms - k <= fuel)%nat -> (k <= List.length ms)%nat ->
     follow t fuel (match nth_error nums k with Some n => n | None => -1 end) = skipn k (map (fun tk => (fst tk, destno (pageof (pages_at t) (snd tk)))) ms)).
  { intros k fu. revert k. induction fu as [|fu IH]; intros k H1 H2.
    - rewrite skipn_all2 by (rewrite map_length; lia). reflexivity.
    - destruct (nth_error nums k) as [n|] eqn:En.
      + assert (Hk : (k < List.length ms)%nat) by (rewrite <- L1; apply nth_error_Some; congruence).
        destruct (nth_error ms k) as [tk|] eqn:Et; [|apply nth_error_None in Et; lia].
        destruct (L2 k n (fst tk) En) as (o & O1 & (O2 & _) & O3 & _); [rewrite nth_error_map, Et; reflexivity|].
        assert (OD : ol_dest o = destno (pageof (pages_at t) (snd tk))).
        { clear - D En Et O1. revert k En Et. induction D as [|n' tk' ns tks (o' & A & B) D IH]; intros [|k] En Et; try discriminate; [|now apply (IH k)]. injection En as ->. injection Et as ->. congruence. }
        cbn [follow]. rewrite outline_no_get, O1, O3, IH by lia.
        rewrite (skipn_nth _ k (fst tk, destno (pageof (pages_at t) (snd tk)))) by (rewrite nth_error_map, Et; reflexivity). now rewrite O2, OD.
      + apply nth_error_None in En. rewrite skipn_all2 by (rewrite map_length; lia). cbn [follow]. rewrite outline_no_get. reflexivity. }
  specialize (G O fuel). cbn [skipn] in G. rewrite <- G by lia. destruct nums; reflexivity.
Qed.
Lemma kids_pages c l : no_output l = true -> let t := output (doc c l) in g_kids t = map (fun p => Z.of_nat p + 1) (pages_at t).
Proof.
  intros N. cbv zeta. destruct (exec_pages l (start c zero_gp) [] N) as (_ & B & _); try reflexivity. fold (doc c l) in B.
  unfold pages_at. destruct (output_sk (doc c l)) as (k & ->). rewrite kpos_app, kpos_none, app_nil_r.
  unfold output. cbn [g_kids set_objs]. destruct (prepare_eq (doc c l)) as (_ & P2 & _). rewrite P2, B, kpos_prep, map_app, kpos_app. cbn [app]. f_equal.
  destruct (cf_protect _); apply app_nil_r.
Qed.
Lemma page_ref_of t k : g_kids t = map (fun p => Z.of_nat p + 1) (pages_at t) -> page_ref t k = destno (pageof (pages_at t) k).
Proof.
  intros K. destruct k as [|k]; [reflexivity|]. cbn [page_ref pageof]. rewrite K. clear K. generalize (pages_at t). intros ps. revert k. induction ps as [|p ps IH]; intros [|k]; try reflexivity. cbn. apply IH.
Qed.

(** ** C77 *)
(** For every history without an earlier output that ends without a panic: following the bookmarks of the
    document from its first one gives the bookmarks the calls asked for, in their order, each leading to the
    page object that the page tree lists at the place of the page last added when it was set. *)
Theorem C77_bookmarks_lead_to_their_pages :
  forall (c : config) (l : list op), no_output l = true -> RefModel.finishes (start c zero_gp) l ->
    let t := output (doc c l) in let m := marks_of l in
    List.length (g_kids t) = mk_pages m /\
    Forall (fun tk => (snd tk <= mk_pages m)%nat) (mk_list m) /\
    follow t (List.length (mk_list m)) (g_outl_first t) = map (fun tk => (fst tk, page_ref t (snd tk))) (mk_list m) /\
    g_outl_count t = zlen (mk_list m).
Proof.
  intros c l N F. cbv zeta. destruct (M_exec l _ _ _ (M_first c) F) as (nums & I). change (exec (start c zero_gp) l) with (doc c l) in I. fold (marks_of l) in I. apply M_output in I.
  pose proof (kids_pages c l N) as K. cbv zeta in K. set (t := output (doc c l)) in *. destruct I as [[A1 A2 A3 A4 A5 A6 A7] B C D E F1 F2 H1 H2].
  split; [rewrite K, map_length; exact D|]. split; [exact F1|]. split.
  - rewrite A2, (follow_next t (mk_list (marks_of l)) nums _ A1 B) by lia. apply map_ext. intros tk. now rewrite (page_ref_of t (snd tk) K).
  - rewrite A4. unfold zlen. now rewrite map_length.
Qed.
Print Assumptions C77_bookmarks_lead_to_their_pages.

(** The page an internal link to a name leads to: the one the name was last set on. *)
Fixpoint last_set (name : bytes) (l : list (bytes * nat)) : option nat :=
  match l with [] => None | (n, k) :: r => if list_eqb name n then Some k else last_set name r end.
Lemma lookup_anchor name ps : forall (l : list (bytes * (option nat * Q))) l', map (fun a => (fst a, fst (snd a))) l = map (fun nk => (fst nk, pageof ps (snd nk))) l' ->
  option_map fst (lookup name l) = option_map (pageof ps) (last_set name l').
Proof.
  induction l as [|[n [p y]] l IH]; intros [|[n' k] l'] H; try discriminate; [reflexivity|]. cbn [map fst snd] in H. injection H as -> H0 H. cbn [lookup last_set]. rewrite H0. destruct (list_eqb name n'); [reflexivity|]. apply IH, H.
Qed.
Theorem C77_links_lead_to_their_anchors :
  forall (c : config) (l : list op), no_output l = true -> RefModel.finishes (start c zero_gp) l ->
    let t := output (doc c l) in forall name : bytes,
    option_map (fun a => destno (fst a)) (lookup name (g_anchors t)) = option_map (page_ref t) (last_set name (mk_anchors (marks_of l))).
Proof.
  intros c l N F. cbv zeta. intros name. destruct (M_exec l _ _ _ (M_first c) F) as (nums & I). change (exec (start c zero_gp) l) with (doc c l) in I. fold (marks_of l) in I. apply M_output in I.
  pose proof (kids_pages c l N) as K. cbv zeta in K. set (t := output (doc c l)) in *. pose proof (lookup_anchor name (pages_at t) _ _ (m_anch _ _ _ I)) as L.
  destruct (lookup name (g_anchors t)) as [[p y]|], (last_set name (mk_anchors (marks_of l))) as [k|]; try discriminate; [|reflexivity]. cbn [option_map] in *. injection L as L. cbn [fst] in *. subst p. now rewrite (page_ref_of t k K).
Qed.
Print Assumptions C77_links_lead_to_their_anchors.

(** What an internal link's text says: a destination on the page its name was last set on; nothing, if it never was. *)
Theorem C77_link_text :
  forall (c : config) (l : list op), no_output l = true -> RefModel.finishes (start c zero_gp) l ->
    let t := output (doc c l) in forall zl pr i k txt, lk_url k = [] -> RefModel.writes zl pr t i (OAnnot k) txt ->
    match last_set (lk_anchor k) (mk_anchors (marks_of l)) with
    | Some p => exists v rest rect y, PdfSyntax.read_object txt = Some (v, rest) /\
        v = PdfSyntax.ODict [(bs "Type", PdfSyntax.N_ "Annot"); (bs "Subtype", PdfSyntax.N_ "Link"); (bs "Rect", rect);
                             (bs "Border", PdfSyntax.OArr [PdfSyntax.OInt 0; PdfSyntax.OInt 0; PdfSyntax.OInt 0]);
                             (bs "Dest", PdfSyntax.OArr [PdfSyntax.ORef (page_ref t p) 0; PdfSyntax.N_ "XYZ"; PdfSyntax.OInt 0; y; PdfSyntax.OKey (bs "null")])]
    | None => PdfSyntax.read_object txt = None
    end.
Proof.
  intros c l N F. cbv zeta. intros zl pr i k txt U W. pose proof (C77_links_lead_to_their_anchors c l N F (lk_anchor k)) as A. set (t := output (doc c l)) in *. clearbody t.
  inversion W; subst; [congruence|]. destruct (lookup (lk_anchor k) (g_anchors t)) as [[pg yq]|], (last_set (lk_anchor k) (mk_anchors (marks_of l))) as [p|]; try discriminate; [|reflexivity].
  cbn [option_map fst] in *. injection A as A. match goal with |- context [ObjModel.internal_body ?x ?y ?w ?h (Some (?a, ?b))] => destruct (PropObj2.C60_internal_link x y w h a b) as (rest & E & _); [assumption..|] end.
  do 4 eexists. split; [exact E|]. unfold PdfSyntax.ref. repeat f_equal. rewrite <- A. destruct pg; cbn; lia.
Qed.
Print Assumptions C77_link_text.

(** ** Meeting the hypotheses *)
Definition tour : list op :=
  [ Do (AddOutline (bs "Cover")); AddFooter (Some [SetAnchor (bs "top"); AddOutlinePos (bs "foot")]); AddPage None; Do (AddOutline (bs "One")); Do (SetAnchor (bs "here"));
    Do (AddLink {| lk_x := 1; lk_y := 2; lk_w := 3; lk_h := 4; lk_url := []; lk_anchor := bs "top" |}); AddFooter None; AddPage (Some small); Do (SetAnchor (bs "here")); Do (AddOutline (bs "Two")) ].
Example C77_met : no_output tour = true /\ RefModel.finishes (start a4 zero_gp) tour /\
  mk_list (marks_of tour) = [(bs "Cover", 0%nat); (bs "foot", 1%nat); (bs "One", 1%nat); (bs "Two", 2%nat)] /\
  last_set (bs "here") (mk_anchors (marks_of tour)) = Some 2%nat /\ last_set (bs "top") (mk_anchors (marks_of tour)) = Some 1%nat /\
  let t := output (doc a4 tour) in g_kids t = [6; 10] /\ follow t 4 (g_outl_first t) = [(bs "Cover", 0); (bs "foot", 6); (bs "One", 6); (bs "Two", 10)].
Proof.
  split; [reflexivity|]. split; [apply PropRef2.finishesb_ok; vm_compute; reflexivity|]. split; [reflexivity|]. split; [reflexivity|]. split; [reflexivity|]. cbv zeta. split; vm_compute; reflexivity.
Qed.

(** ** Refuted: marks set while drawing on an earlier page
    SetPage changes the page later drawings appear on, but not the page bookmarks and anchors are set on. *)
Theorem C77_after_setpage_refuted :
  exists (c : config) (l : list op), no_output l = true /\ RefModel.finishes (start c zero_gp) l /\
    let t := output (doc c l) in
    map (option_map sh_items) (read_pages t) = [Some [Some (ShBytes (bs "a")); Some (ShBytes (bs "drawn on page 1"))]; Some [Some (ShBytes (bs "b"))]] /\
    follow t 1 (g_outl_first t) = [(bs "set on page 1", page_ref t 2)] /\ page_ref t 1 <> page_ref t 2 /\
    option_map (fun a => destno (fst a)) (lookup (bs "set on page 1") (g_anchors t)) = Some (page_ref t 2).
Proof.
  exists a4, [AddPage None; Do (Draw false (bs "a")); AddPage None; Do (Draw false (bs "b")); Do (SetPage 1); Do (Draw false (bs "drawn on page 1")); Do (AddOutline (bs "set on page 1")); Do (SetAnchor (bs "set on page 1"))].
  split; [reflexivity|]. split; [apply PropRef2.finishesb_ok; vm_compute; reflexivity|]. cbv zeta. split; [vm_compute; reflexivity|]. split; [vm_compute; reflexivity|]. split; [vm_compute; discriminate|vm_compute; reflexivity].
Qed.
Print Assumptions C77_after_setpage_refuted.
