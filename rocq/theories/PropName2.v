(** PropName2.v — C63, theorems. *)
From Coq Require Import QArith FinFun.
From Verif Require Import Base NumModel StrModel StrSpec DocModel DocSpec DocProofs DocInv PropDoc PropImage PropTransp SecModel FileModel StreamModel PdfSyntax PdfRead ObjModel PropObj PropObj2 RefModel PropRef PropRef2 PropName.
Open Scope Z_scope.

(** ** Dictionaries *)
Lemma fmt_d_injz a b : 0 <= a -> 0 <= b -> fmt_d a = fmt_d b -> a = b.
Proof. intros A B. unfold fmt_d. destruct (Z.ltb_spec a 0); [lia|]. destruct (Z.ltb_spec b 0); [lia|]. now apply dec_inj. Qed.
Lemma filter_one {A} (f : A -> bytes) (l : list A) x : NoDup (map f l) -> In x l -> filter (fun e => list_eqb (f e) (f x)) l = [x].
Proof.
  induction l as [|y l IH]; [intros _ []|]. cbn [map filter]. intros N I. inversion N as [|? ? NI N']; subst. destruct I as [->|I].
  - assert (Q : list_eqb (f x) (f x) = true) by now apply list_eqb_eq. rewrite Q. f_equal. clear IH N N' Q. induction l as [|z l IH]; [reflexivity|]. cbn [filter map] in *.
    destruct (list_eqb (f z) (f x)) eqn:Q; [apply list_eqb_eq in Q; destruct NI; now left|]. apply IH. intros J. apply NI. now right.
  - destruct (list_eqb (f y) (f x)) eqn:Q; [|now apply IH]. apply list_eqb_eq in Q. destruct NI. rewrite Q. now apply in_map.
Qed.
Lemma dict_map {A} (f : A -> bytes * pobj) (l : list A) x more : NoDup (map (fun e => fst (f e)) l) -> In x l -> (forall e, In e more -> fst e <> fst (f x)) ->
  dict_get (fst (f x)) (ODict (map f l ++ more)) = Some (snd (f x)).
Proof.
  intros N I M. unfold dict_get. rewrite filter_app. rewrite <- map_map in N. rewrite (filter_one fst (map f l) (f x) N (in_map f l x I)).
  replace (filter _ more) with (@nil (bytes * pobj)); [reflexivity|]. clear - M. induction more as [|e m IH]; [reflexivity|]. cbn [filter]. destruct (list_eqb (fst e) (fst (f x))) eqn:Q.
  - apply list_eqb_eq in Q. destruct (M e); [now left|exact Q].
  - apply IH. intros e' I'. apply M. now right.
Qed.
Lemma NoDup_names {A} (p : bytes) (c : A -> Z) l : Forall (fun x => 0 <= c x) l -> NoDup (map c l) -> NoDup (map (fun x => p ++ fmt_d (c x)) l).
Proof.
  induction l as [|y l IH]; intros P N; [constructor|]. inversion P; subst. inversion N as [|? ? NI N']; subst. cbn [map]. constructor; [|now apply IH].
  intros I. apply in_map_iff in I as (z & E & I). apply NI. apply app_inv_head in E. rewrite Forall_forall in H2. apply fmt_d_injz in E; [|now apply H2|assumption]. rewrite <- E. now apply in_map.
Qed.
Lemma upto_nodup n : NoDup (upto n).
Proof. unfold upto. apply FinFun.Injective_map_NoDup; [intros a b; lia|apply seq_NoDup]. Qed.
Lemma upto_pos n x : In x (upto n) -> 0 <= x.
Proof. unfold upto. rewrite in_map_iff. intros (k & <- & _). lia. Qed.
Lemma NoDup_shift {A} (c : A -> Z) l : NoDup (map c l) -> NoDup (map (fun x => c x + 1) l).
Proof. intros N. rewrite <- (map_map c (fun z => z + 1)). apply FinFun.Injective_map_NoDup; [intros a b; lia|exact N]. Qed.
Lemma counts_ok {A} (p : string) (c : A -> Z) l : map c l = upto (List.length l) -> NoDup (map (fun x => bs p ++ fmt_d (c x + 1)) l).
Proof.
  intros H. apply (NoDup_names (bs p) (fun x => c x + 1)); [|apply NoDup_shift; rewrite H; apply upto_nodup].
  apply Forall_forall. intros x I. assert (0 <= c x); [|lia]. apply (upto_pos (List.length l)). rewrite <- H. now apply in_map.
Qed.
Lemma index_ok (p : string) (l : list nat) : NoDup l -> NoDup (map (fun i => bs p ++ fmt_d (Z.of_nat i + 1)) l).
Proof.
  intros H. apply (NoDup_names (bs p) (fun i => Z.of_nat i + 1)); [apply Forall_forall; lia|]. apply NoDup_shift. apply FinFun.Injective_map_NoDup; [intros a b; lia|exact H].
Qed.
Lemma Good_doc c l : finishes (start c zero_gp) l -> PropName.Good (output (exec (start c zero_gp) l)).
Proof. intros F. eapply PropName.Step_good; [apply PropName.S_output|]. apply PropName.Good_exec; [exact F|apply PropName.Good_start]. Qed.
Lemma RGood_doc c l : finishes (start c zero_gp) l -> PropRef.Good false (output (exec (start c zero_gp) l)).
Proof. intros F. eapply PropRef.Step_good; [apply PropRef.S_output|]. apply (PropRef.Good_exec false l false); [discriminate|discriminate|exact F|apply PropRef.Good_start]. Qed.

(** After any history of calls that do not panic, the document is written.  A reader looks up, in the resources dictionary, a name
    that occurs in a content stream — a font, an image, a graphics state, a colour space.  The name stands there exactly once, and it
    leads to an object of that kind — provided no imported template was given the very same name. *)
Theorem C63_names_resolve : forall zl pr c l, finishes (start c zero_gp) l -> let t := output (exec (start c zero_gp) l) in
  nth_error (g_objs t) 3 = Some OProcSet /\
  forall i its it u txt v rest, nth_error (g_objs t) i = Some (OContent its) -> In it its -> In u (uses it) ->
  writes zl pr t 3 OProcSet txt -> read_object txt = Some (v, rest) ->
  (forall xs n d, dict_get (bs "XObject") v = Some (ODict xs) -> In (name_of u, ref n) xs -> obj_no t n <> Some (OImported d)) ->
  exists n o, defined_as v u n /\ obj_no t n = Some o /\ kind_of o = kind_for u.
Proof.
  intros zl pr c l F t. pose proof (RGood_doc c l F) as RG. pose proof (Good_doc c l F) as G. fold t in RG, G.
  assert (GS : forall x, In x (srefs false t) -> R t x) by (intros x J; apply (gd_ref false t RG), in_or_app; now right). split.
  - destruct (R_obj t RefModel.KResources 4) as (o & O & K); [apply GS; insr|]. cbn in O. destruct o; try discriminate K. exact O.
  - intros i its it u txt v rest N I U Wr RO TP. inversion Wr as [| | |tpls HT TX| | | | | | | | | | | | | | | | | | |]; subst txt.
    match type of RO with read_object (procset_body ?a ?b ?c ?d ?e) = _ => pose proof (C60_resources a b c d e) as RD end.
    assert (HT' : Forall (fun e : bytes * Z => exists n, fst e = 47 :: n /\ n <> [] /\ plain_name n = true) tpls) by (eapply Forall_impl; [|exact HT]; intros e [A _]; exact A).
    specialize (RD HT'). apply (reads_value _ _ _ _ RD) in RO. clear RD HT' Wr.
    assert (IL : In u (listed t)).
    { apply (PropName.gd_use t G). apply in_or_app. left. apply in_flat_map. exists (OContent its). split; [eapply nth_error_In; eauto|]. cbn [ouses]. apply in_flat_map. eauto. }
    destruct (PropName.gd_tidy t G) as [[T1 _] [T2 _] [T3 _] [T4 _]]. subst v. unfold listed in IL. rewrite !in_app_iff, !in_map_iff in IL.
    destruct IL as [(r & <- & J)|[(x & <- & J)|[(x & <- & J)|(r & <- & J)]]].
    + destruct (R_obj t RefModel.KFont (Z.of_nat (rf_index r) + 1)) as (o & O & K).
      { apply GS. unfold srefs. rewrite !in_app_iff. do 5 right. left. apply in_map_iff. exists r. split; [reflexivity|exact J]. }
      exists (Z.of_nat (rf_index r) + 1), o. split; [|split; [exact O|exact K]]. eexists. split; [reflexivity|]. rewrite map_map. cbn [fst snd].
      pose proof (dict_map (fun r => resource "F" (rf_count r + 1) (Z.of_nat (rf_index r) + 1)) (g_fonts t) r []) as D. rewrite app_nil_r in D. apply D; [|exact J|intros e []].
      now apply (counts_ok "F").
    + destruct (R_obj t RefModel.KImage (Z.of_nat x + 1)) as (o & O & K).
      { apply GS. unfold srefs. rewrite !in_app_iff. do 7 right. left. apply in_map_iff. exists x. split; [reflexivity|exact J]. }
      exists (Z.of_nat x + 1), o. split; [|split; [exact O|exact K]]. eexists. split; [reflexivity|]. rewrite map_map. cbn [fst snd].
      apply (dict_map (fun i => resource "I" (Z.of_nat i + 1) (Z.of_nat i + 1)) (g_xobjs t) x); [now apply (index_ok "I")|exact J|].
      intros e M E. apply in_map_iff in M as (tp & <- & M). cbn [fst resource] in E. rewrite Forall_forall in HT. destruct (HT tp M) as [_ [d O2]].
      eapply TP; [reflexivity| |exact O2]. apply in_or_app. right. apply in_map_iff. exists tp. split; [|exact M]. cbn [name_of]. now rewrite <- E.
    + destruct (R_obj t RefModel.KGState (Z.of_nat x + 1)) as (o & O & K).
      { apply GS. unfold srefs. rewrite !in_app_iff. do 8 right. left. apply in_map_iff. exists x. split; [reflexivity|exact J]. }
      exists (Z.of_nat x + 1), o. split; [|split; [exact O|exact K]]. eexists. split; [reflexivity|]. rewrite map_map. cbn [fst snd].
      pose proof (dict_map (fun i => resource "GS" (Z.of_nat i + 1) (Z.of_nat i + 1)) (g_extgs t) x []) as D. rewrite app_nil_r in D. apply D; [|exact J|intros e []].
      now apply (index_ok "GS").
    + destruct (R_obj t RefModel.KColorSpace (Z.of_nat (rc_index r) + 1)) as (o & O & K).
      { apply GS. unfold srefs. rewrite !in_app_iff. do 6 right. left. apply in_map_iff. exists r. split; [reflexivity|exact J]. }
      exists (Z.of_nat (rc_index r) + 1), o. split; [|split; [exact O|exact K]]. eexists. split; [reflexivity|]. rewrite map_map. cbn [fst snd].
      pose proof (dict_map (fun r => resource "CS" (rc_count r + 1) (Z.of_nat (rc_index r) + 1)) (g_cs t) r []) as D. rewrite app_nil_r in D. apply D; [|exact J|intros e []].
      now apply (counts_ok "CS").
Qed.
Print Assumptions C63_names_resolve.

(** ** The transparency asked for *)
(** Specification: what SetTransparency and ClearTransparency last said, header and footer functions included. *)
Definition wish := option (Q * bytes).
Definition wish_sop (w : wish) (o : sop) : wish := match o with SetTransparency a b => Some (a, b) | ClearTransparency => None | _ => w end.
Definition wish_cb (f : option (list sop)) (w : wish) : wish := match f with Some l => fold_left wish_sop l w | None => w end.
Record wishes := { now : wish; header : option (list sop); footer : option (list sop) }.
Definition wish_op (a : wishes) (o : op) : wishes :=
  match o with
  | Do o => {| now := wish_sop (now a) o; header := header a; footer := footer a |}
  | Start _ => {| now := None; header := header a; footer := footer a |}
  | AddPage _ => {| now := wish_cb (footer a) (wish_cb (header a) (now a)); header := header a; footer := footer a |}
  | AddHeader f => {| now := now a; header := f; footer := footer a |}
  | AddFooter f => {| now := now a; header := header a; footer := f |}
  | Output => a
  end.
Definition wished (l : list op) : wish := now (fold_left wish_op l {| now := None; header := None; footer := None |}).
(** The graphics state [gs] named at a drawing (none, or object number [g]) is the one wished for: none if none was asked for, else one whose
    constant alpha prints (with three decimals) as the one asked for, with the blend mode asked for; opaque needs none. *)
Definition as_wished (t : gp) (w : wish) (gs : option Z) : Prop :=
  match w, gs with
  | None, None => True
  | Some (a, b), Some g => carries t g a b
  | Some (a, b), None => (a == 1)%Q
  | None, Some _ => False
  end.

(** ** What every call keeps *)
Definition steady (it : item) : Prop := match it with ITemplate _ _ _ => False | _ => True end.
Definition grows (a b : list obj) : Prop := forall ci l, nth_error a ci = Some (OContent l) -> exists l', nth_error b ci = Some (OContent l') /\
  forall n it, steady it -> nth_error l n = Some it -> nth_error l' n = Some it.
Record Keep (s s' : gp) : Prop := { kp_it : grows (g_objs s) (g_objs s'); kp_c : content_ok s -> content_ok s';
  kp_tr : g_tr s' = g_tr s; kp_h : g_header s' = g_header s; kp_f : g_footer s' = g_footer s }.
Lemma grows_refl a : grows a a. Proof. intros ci l N. eauto. Qed.
Lemma grows_trans a b c : grows a b -> grows b c -> grows a c.
Proof. intros A B ci l N. destruct (A ci l N) as (l1 & N1 & K1). destruct (B ci l1 N1) as (l2 & N2 & K2). exists l2. split; [exact N2|]. auto. Qed.
Lemma grows_app a k : grows a (a ++ k).
Proof. intros ci l N. exists l. split; [rewrite nth_error_app1; [exact N|apply nth_error_Some; congruence]|auto]. Qed.
Lemma grows_upd a i f : (forall l, exists l', f (OContent l) = OContent l' /\ forall n it, steady it -> nth_error l n = Some it -> nth_error l' n = Some it) -> grows a (upd a i f).
Proof. intros H ci l N. rewrite nth_upd, N. destruct (Nat.eqb i ci); [|exists l; auto]. cbn. destruct (H l) as (l' & -> & K). eauto. Qed.
Lemma K_refl s : Keep s s. Proof. constructor; auto using grows_refl. Qed.
Lemma K_trans a b c : Keep a b -> Keep b c -> Keep a c.
Proof. intros [A1 A2 A3 A4 A5] [B1 B2 B3 B4 B5]. constructor; auto; try congruence. eapply grows_trans; eauto. Qed.
Lemma ok_grows s s' : grows (g_objs s) (g_objs s') -> g_content s' = g_content s -> content_ok s -> content_ok s'.
Proof. intros H E C i. rewrite E. intros G. destruct (C i G) as [l N]. destruct (H i l N) as (l' & N' & _). eauto. Qed.
Lemma K_objs s s' : grows (g_objs s) (g_objs s') -> g_content s' = g_content s -> g_tr s' = g_tr s -> g_header s' = g_header s -> g_footer s' = g_footer s -> Keep s s'.
Proof. intros H E1 E2 E3 E4. constructor; auto. now apply ok_grows. Qed.
Lemma K_add o s : Keep s (snd (addObj o s)). Proof. apply K_objs; try reflexivity. apply grows_app. Qed.
Ltac kframe := apply K_objs; try reflexivity; apply grows_refl.
Lemma K_getContent s : Keep s (snd (getContent s)).
Proof.
  unfold getContent. destruct (g_content s) eqn:E; [apply K_refl|]. cbn [addObj snd]. constructor; try reflexivity; [apply grows_app|].
  intros _ i G. cbn in G. injection G as <-. exists []. apply nth_snoc_new.
Qed.
Lemma K_append i it s : Keep s (append_item i it s).
Proof.
  apply K_objs; try reflexivity. apply grows_upd. intros l. exists (l ++ [it]). split; [reflexivity|]. intros n x _ N. rewrite nth_error_app1; [exact N|apply nth_error_Some; congruence].
Qed.
Lemma K_draw np it s : Keep s (fst (draw np it s)).
Proof.
  unfold draw. pose proof (K_getContent s) as G. destruct (getContent s) as [i s1]. cbn [snd] in *.
  destruct (g_pagesize s1); [|destruct np]; cbn [fst]; try exact G; (eapply K_trans; [exact G|apply K_append]).
Qed.
Lemma find_content_spec l : forall i seen n j, find_content l i seen n = Some j -> (i <= j)%nat /\ exists c, nth_error l (j - i) = Some (OContent c).
Proof.
  induction l as [|o l IH]; intros i seen n j; [discriminate|]. cbn [find_content].
  assert (D : forall sn, find_content l (S i) sn n = Some j -> (i <= j)%nat /\ exists c, nth_error (o :: l) (j - i) = Some (OContent c)).
  { intros sn H. apply IH in H as [L [c N]]. split; [lia|]. exists c. replace (j - i)%nat with (S (j - S i)) by lia. exact N. }
  destruct o; try apply D. destruct (_ =? n); [|apply D]. intros H. injection H as <-. split; [lia|]. rewrite Nat.sub_diag. eexists. reflexivity.
Qed.
Lemma K_setPage n s : Keep s (fst (setPage n s)).
Proof.
  unfold setPage. destruct (find_content _ _ _ _) eqn:FC; [|apply K_refl]. constructor; try reflexivity; [apply grows_refl|]. intros _ i G. cbn in G. injection G as <-.
  apply find_content_spec in FC as [_ [c N]]. rewrite Nat.sub_0_r in N. exists c. exact N.
Qed.
Lemma K_addFont f st s : Keep s (fst (addFont f st s)).
Proof.
  unfold addFont. cbn [addObj]. destruct (existsb _ _); cbn [fst]; (apply K_objs; try reflexivity; cbn [g_objs set_objs set_countfont set_fonts]; rewrite <- !app_assoc; apply grows_app).
Qed.
Lemma K_setFont f st z s : Keep s (fst (setFont f st z s)).
Proof. unfold setFont. destruct (find_font _ _ _ _) as [[i o]|]; [kframe|apply K_refl]. Qed.
Lemma K_cached e s : Keep s (snd (getCachedExtGState e s)).
Proof. unfold getCachedExtGState. destruct (lookup _ _); [apply K_refl|]. cbn [addObj snd]. apply K_objs; try reflexivity. apply grows_app. Qed.
Lemma K_saveTr a b s : Keep s (snd (saveTransparency a b s)).
Proof.
  unfold saveTransparency. destruct (lookup _ _); [apply K_refl|]. destruct (Qeq_bool _ _); [apply K_refl|].
  match goal with |- context [getCachedExtGState ?e s] => pose proof (K_cached e s) as H; destruct (getCachedExtGState e s) as [i s1] end. cbn [snd] in *. eapply K_trans; [exact H|kframe].
Qed.
Lemma K_image b id im gs s : Keep s (fst (imageByHolder b id im gs s)).
Proof.
  unfold imageByHolder. destruct (lookup _ _); [apply K_draw|]. destruct (im_ok im); [|apply K_refl].
  match goal with |- context [addObj ?o s] => pose proof (K_add o s) as H1; destruct (addObj o s) as [ix s1] end. cbn [snd] in H1.
  match goal with |- context [draw true ?it s1] => pose proof (K_draw true it s1) as H2; destruct (draw true it s1) as [s2 r] end. cbn [fst] in H2.
  assert (H : Keep s s2) by (eapply K_trans; eauto). destruct r; [|exact H|exact H]. cbn [fst]. eapply K_trans; [exact H|].
  set (s3 := set_imgs _ _). assert (H3 : Keep s2 s3) by kframe. clearbody s3. eapply K_trans; [exact H3|]. clear.
  set (s4 := if im_alpha im then _ else s3). assert (H4 : Keep s3 s4) by (unfold s4; destruct (im_alpha im); [|apply K_refl]; cbn [addObj]; (eapply K_trans; [apply (K_add OSMaskImg)|kframe])).
  clearbody s4. eapply K_trans; [exact H4|]. destruct (im_indexed im); [|apply K_refl]. cbn [addObj]. eapply K_trans; [apply (K_add ODeviceRGB)|kframe].
Qed.
Lemma K_maskImage id im s : Keep s (fst (fst (maskImage id im s))).
Proof.
  unfold maskImage. destruct (lookup _ _); [pose proof (K_getContent s) as H; destruct (getContent s); exact H|]. destruct (im_ok im); [|apply K_refl].
  match goal with |- context [addObj ?o s] => pose proof (K_add o s) as H1; destruct (addObj o s) as [ix s1] end. cbn [snd] in H1.
  pose proof (K_getContent s1) as H2. destruct (getContent s1) as [ci s2]. cbn [snd] in H2. assert (H : Keep s s2) by (eapply K_trans; eauto).
  destruct (g_pagesize s2); cbn [fst]; [|exact H]. eapply K_trans; [exact H|kframe].
Qed.
Lemma K_mask id im s : Keep s (fst (fst (maskHolder id im s))).
Proof.
  unfold maskHolder. pose proof (K_maskImage id im s) as H. destruct (maskImage id im s) as [[s1 r] ix]. cbn [fst] in H. destruct r; try exact H. destruct (g_pagesize s1); [|exact H].
  match goal with |- context [addObj ?o s1] => pose proof (K_add o s1) as H1; destruct (addObj o s1) as [gi s2] end. cbn [snd] in H1.
  match goal with |- context [addObj ?o s2] => pose proof (K_add o s2) as H2; destruct (addObj o s2) as [mi s3] end. cbn [snd] in H2.
  match goal with |- context [getCachedExtGState ?e s3] => pose proof (K_cached e s3) as H3; destruct (getCachedExtGState e s3) as [i s4] end. cbn [fst snd] in *.
  repeat (eapply K_trans; [eassumption|]). apply K_refl.
Qed.
Lemma K_link l s : Keep s (fst (addLink l s)).
Proof.
  unfold addLink. destruct (g_page s) as [p|]; [|apply K_refl]. match goal with |- context [addObj ?o s] => pose proof (K_add o s) as H1; destruct (addObj o s) as [ix s1] end. cbn [fst snd] in *.
  eapply K_trans; [exact H1|]. apply K_objs; try reflexivity. apply grows_upd. intros c. exists c. auto.
Qed.
Lemma K_outline title w s : Keep s (fst (addOutline title w s)).
Proof.
  unfold addOutline. match goal with |- context [addObj ?o s] => pose proof (K_add o s) as H1; destruct (addObj o s) as [ix s1] end. cbn [fst snd] in *.
  set (num := Z.of_nat (List.length (g_objs s)) + 1). set (s2 := set_outl_last num s1). assert (H2 : Keep s1 s2) by kframe.
  set (s3 := if g_outl_first s2 <=? 0 then set_outl_first num s2 else s2). assert (H3 : Keep s2 s3) by (unfold s3; destruct (_ <=? 0); [kframe|apply K_refl]). clearbody s2 s3.
  assert (HS : Keep s s3) by (eapply K_trans; [exact H1|eapply K_trans; eauto]). clear H1 H2 H3.
  match goal with |- context [match ?x with Some j => _ | None => s3 end] => destruct x as [j|] end; (eapply K_trans; [exact HS|]); [|kframe].
  apply K_objs; try reflexivity. apply grows_upd. intros c. exists c. auto.
Qed.
Lemma K_import objs start : forall ks s, Keep s (fold_left (fun s k => match zlookup (start + Z.of_nat k) objs with Some (b :: d) => snd (addObj (OImported (b :: d)) s) | _ => s end) ks s).
Proof.
  induction ks as [|k ks IH]; intros s; [apply K_refl|]. cbn [fold_left]. eapply K_trans; [|apply IH].
  destruct (zlookup _ _) as [[|b d]|]; try apply K_refl. apply K_add.
Qed.
Lemma K_sop s o : Keep s (set_tr (g_tr s) (fst (sstep s o))).
Proof.
  assert (D : forall s', Keep s s' -> Keep s (set_tr (g_tr s) s')) by (intros s' [A B C D E]; constructor; auto).
  destruct o; cbn [sstep]; try (apply D; apply K_draw); try (cbn [fst]; kframe); (match goal with |- context [saveTransparency] => idtac | _ => apply D end).
  - unfold text. destruct (g_font s); [apply K_draw|apply K_refl].
  - apply K_setPage.
  - apply K_addFont.
  - apply K_setFont.
  - apply K_image.
  - pose proof (K_mask mid mim s) as H. destruct (maskHolder mid mim s) as [[s1 r] e]. cbn [fst] in H. destruct r; try exact H. eapply K_trans; [exact H|]. apply K_image.
  - apply K_link.
  - apply K_outline.
  - apply K_outline.
  - apply K_import.
  - unfold addColorSpace. cbn [addObj]. destruct (existsb _ _); cbn [fst]; (apply K_objs; try reflexivity; apply grows_app).
  - unfold setColorSpace. destruct (find_cs _ _); [apply K_draw|apply K_refl].
  - pose proof (K_saveTr alpha bm s) as H. destruct (saveTransparency alpha bm s) as [t s1]. cbn [fst snd] in *. destruct H as [A B C D' F']. constructor; auto.
  - cbn [fst]. unfold setCompressLevel. destruct (_ <? _); [|destruct (_ <? _)]; kframe || apply K_refl.
Qed.
Lemma tr_sop s o : match o with SetTransparency _ _ | ClearTransparency => True | _ => g_tr (fst (sstep s o)) = g_tr s end.
Proof.
  destruct o; cbn [sstep]; try exact I; try (cbn; reflexivity); try (apply kp_tr); try apply K_draw.
  - unfold text. destruct (g_font s); [apply K_draw|apply K_refl].
  - apply K_setPage.
  - apply K_addFont.
  - apply K_setFont.
  - apply K_image.
  - pose proof (K_mask mid mim s) as H. destruct (maskHolder mid mim s) as [[s1 r] e]. cbn [fst] in H. destruct r; try exact H. eapply K_trans; [exact H|]. apply K_image.
  - apply K_link.
  - apply K_outline.
  - apply K_outline.
  - apply K_import.
  - unfold addColorSpace. cbn [addObj]. destruct (existsb _ _); cbn [fst]; (apply K_objs; try reflexivity; apply grows_app).
  - unfold setColorSpace. destruct (find_cs _ _); [apply K_draw|apply K_refl].
  - unfold setCompressLevel. destruct (_ <? _); [|destruct (_ <? _)]; kframe || apply K_refl.
Qed.
(** ** The wish and the state agree *)
Lemma wished_mono s s' w g : stable (g_objs s) (g_objs s') -> as_wished s w g -> as_wished s' w g.
Proof. intros H. destruct w as [[a b]|], g as [g|]; cbn; auto. now apply carries_stable. Qed.
Record Agree (s : gp) (w : wish) : Prop := { ag_w : as_wished s w (g_tr s); ag_c : content_ok s; ag_g : PropName.Good s }.
Lemma saved_wish a b s : PropName.Good (snd (saveTransparency a b s)) -> as_wished (snd (saveTransparency a b s)) (Some (a, b)) (fst (saveTransparency a b s)).
Proof.
  intros G. pose proof (saveTr_in a b s) as H. destruct (fst (saveTransparency a b s)) as [g|] eqn:E; cbn [as_wished].
  - destruct (H g eq_refl) as (_ & id & I & ->). destruct (PropName.gd_tr _ G _ _ I) as (a' & b' & K & C). apply tr_id_inj in K as [K1 ->]. destruct C as (a2 & O & T). exists a2. split; [exact O|]. now rewrite T, K1.
  - unfold saveTransparency in E. destruct (lookup _ _); [discriminate|]. destruct (Qeq_bool a 1) eqn:Q; [now apply Qeq_bool_iff|]. destruct (getCachedExtGState _ _); discriminate.
Qed.
Lemma A_sop s w o : snd (sstep s o) <> Panic -> Agree s w -> Agree (fst (sstep s o)) (wish_sop w o) /\ g_header (fst (sstep s o)) = g_header s /\ g_footer (fst (sstep s o)) = g_footer s.
Proof.
  intros NP [A C G]. pose proof (PropName.S_sop s o NP) as ST. assert (G' : PropName.Good (fst (sstep s o))) by now apply (PropName.Step_good s).
  pose proof (K_sop s o) as [K1 K2 _ K4 K5]. split; [|split; [exact K4|exact K5]]. constructor; [|exact (K2 C)|exact G'].
  pose proof (tr_sop s o) as T. pose proof (PropName.sp_obj _ _ ST) as SO.
  destruct o; try (cbn [wish_sop]; rewrite T; apply (wished_mono s); [exact SO|exact A]).
  - cbn [wish_sop]. clear T. cbn [sstep] in *. pose proof (saved_wish alpha bm s) as SW. pose proof (PropName.Step_good _ _ (PropName.S_saveTr alpha bm s) G) as G1. specialize (SW G1).
    destruct (saveTransparency alpha bm s) as [t s1]. cbn [fst snd] in *. exact SW.
  - exact I.
Qed.
Lemma A_sops l : forall s w, snd (run_sops s l) <> Panic -> Agree s w -> Agree (fst (run_sops s l)) (fold_left wish_sop l w) /\ g_header (fst (run_sops s l)) = g_header s /\ g_footer (fst (run_sops s l)) = g_footer s.
Proof.
  induction l as [|o l IH]; intros s w NP A; [split; [exact A|now split]|]. cbn [run_sops fold_left] in *. pose proof (A_sop s w o) as H. destruct (sstep s o) as [s1 r]. cbn [fst snd] in *.
  destruct r; [..|now destruct NP]; (destruct (H ltac:(discriminate) A) as (A1 & H1 & H2); destruct (IH s1 _ NP A1) as (A2 & H3 & H4); split; [exact A2|split; congruence]).
Qed.
Lemma A_frame s s' w : PropName.Step s s' -> g_tr s' = g_tr s -> (content_ok s -> content_ok s') -> Agree s w -> Agree s' w.
Proof. intros ST E C [A B G]. constructor; [|auto|now apply (PropName.Step_good s)]. rewrite E. apply (wished_mono s); [exact (PropName.sp_obj _ _ ST)|exact A]. Qed.
Lemma A_callback f s w : snd (callback f s) <> Panic -> Agree s w -> Agree (fst (callback f s)) (wish_cb f w) /\ g_header (fst (callback f s)) = g_header s /\ g_footer (fst (callback f s)) = g_footer s.
Proof.
  destruct f as [l|]; cbn [callback wish_cb]; [|intros _ A; split; [exact A|now split]]. pose proof (A_sops l s w) as H. destruct (run_sops s l) as [s1 r]. cbn [fst snd] in *.
  destruct r; cbn [fst snd]; intros NP A; [..|now destruct NP]; (destruct (H ltac:(discriminate) A) as (A1 & H1 & H2); split; [|split; [exact H1|exact H2]]; apply (A_frame s1); [apply PropName.S_reset|reflexivity|auto|exact A1]).
Qed.
Lemma A_page sz s w : snd (addPage sz s) <> Panic -> Agree s w ->
  Agree (fst (addPage sz s)) (wish_cb (g_footer s) (wish_cb (g_header s) w)) /\ g_header (fst (addPage sz s)) = g_header s /\ g_footer (fst (addPage sz s)) = g_footer s.
Proof.
  rewrite addPage_split. intros NP A. assert (A0 : Agree (fresh_page sz s) w).
  { apply (A_frame s); [apply PropName.S_fresh|reflexivity|intros _ i G; discriminate G|exact A]. }
  assert (H0 : g_header (fresh_page sz s) = g_header s /\ g_footer (fresh_page sz s) = g_footer s) by (split; reflexivity). destruct H0 as [H0 F0].
  generalize dependent (fresh_page sz s). intros f NP A0 H0 F0. pose proof (A_callback (g_header f) f w) as H1. destruct (callback (g_header f) f) as [s1 r]. cbn [fst snd] in *.
  destruct r; [..|now destruct NP]; (destruct (H1 ltac:(discriminate) A0) as (A1 & E1 & E2); destruct (A_callback (g_footer s1) s1 _ NP A1) as (A2 & E3 & E4); assert (EF : g_footer s1 = g_footer s) by congruence; rewrite EF in *; rewrite H0 in A2; split; [exact A2|split; congruence]).
Qed.
Lemma output_agree s w : Agree s w -> Agree (output s) w /\ g_header (output s) = g_header s /\ g_footer (output s) = g_footer s /\ grows (g_objs s) (g_objs (output s)).
Proof.
  intros A. assert (E : g_header (output s) = g_header s /\ g_footer (output s) = g_footer s /\ g_tr (output s) = g_tr s /\ g_content (output s) = g_content s) by (unfold output, prepare; cbv zeta; destruct (cf_protect _), (0 <? _); repeat split).
  destruct E as (E1 & E2 & E3 & E4).
  assert (GW : grows (g_objs s) (g_objs (output s))).
  { unfold output. cbn [g_objs set_objs]. assert (W1 : forall a, grows a (map written_obj a)).
    { intros a ci l N. exists (map written_item l). rewrite nth_error_map, N. split; [reflexivity|]. intros n it SD M. rewrite nth_error_map, M. destruct it; [..|reflexivity]; try reflexivity. destruct SD. }
    eapply grows_trans; [|apply W1]. unfold prepare. set (s1 := if cf_protect _ then _ else s). assert (H1 : grows (g_objs s) (g_objs s1)) by (unfold s1; destruct (cf_protect _); [apply grows_app|apply grows_refl]). clearbody s1.
    set (s2 := if 0 <? _ then _ else s1). assert (H2 : grows (g_objs s1) (g_objs s2)) by (unfold s2; destruct (_ <? _); apply grows_refl). clearbody s2.
    eapply grows_trans; [exact H1|]. eapply grows_trans; [exact H2|]. cbn [g_objs set_objs]. set (st := {| ps_objs := g_objs s2 |}). change (g_objs s2) with (ps_objs st). clearbody st.
    generalize (seq 0 (List.length (ps_objs st))). intros ks. revert st. induction ks as [|k ks IH]; intros st; [apply grows_refl|]. cbn [fold_left]. eapply grows_trans; [|apply IH]. clear.
    unfold prep_step. destruct (nth_error (ps_objs st) k) as [[]|]; try apply grows_refl. destruct (ps_cur st); [|apply grows_refl]. cbn [ps_objs]. apply grows_upd. intros c. exists c. auto. }
  split; [|auto]. apply (A_frame s); [apply PropName.S_output|exact E3|now apply ok_grows|exact A].
Qed.
Definition agrees (s : gp) (a : wishes) : Prop := Agree s (now a) /\ g_header s = header a /\ g_footer s = footer a.
Lemma A_op s a o : snd (step s o) <> Panic -> agrees s a -> agrees (fst (step s o)) (wish_op a o).
Proof.
  intros NP (A & H & F). destruct o.
  - assert (E : step s (Do o) = sstep s o) by reflexivity. rewrite E in *. clear E. destruct (A_sop s (now a) o NP A) as (A1 & H1 & F1). split; [exact A1|]. cbn [wish_op header footer]. split; congruence.
  - assert (E : fst (step s (Start c)) = start c s) by reflexivity. rewrite E. split; [|split; [exact H|exact F]]. constructor; [exact I|intros i G; discriminate G|apply PropName.Good_start].
  - assert (E : step s (AddPage size) = addPage size s) by reflexivity. rewrite E in *. clear E. destruct (A_page size s (now a) NP A) as (A1 & H1 & F1). cbn [wish_op]. rewrite <- H, <- F. split; [exact A1|]. cbn [header footer]. split; assumption.
  - assert (E : fst (step s (AddHeader f)) = set_header f s) by reflexivity. rewrite E. split; [|split; [reflexivity|exact F]]. cbn [wish_op now]. apply (A_frame s); [PropName.same|reflexivity|auto|exact A].
  - assert (E : fst (step s (AddFooter f)) = set_footer f s) by reflexivity. rewrite E. split; [|split; [exact H|reflexivity]]. cbn [wish_op now]. apply (A_frame s); [PropName.same|reflexivity|auto|exact A].
  - assert (E : fst (step s Output) = output s) by reflexivity. rewrite E. destruct (output_agree s _ A) as (A1 & H1 & F1 & _). split; [exact A1|]. cbn [wish_op]. split; congruence.
Qed.
Lemma A_exec l : forall s a, finishes s l -> agrees s a -> agrees (exec s l) (fold_left wish_op l a).
Proof. induction l as [|o l IH]; intros s a F A; [exact A|]. destruct F as [F1 F2]. unfold exec. cbn [fold_left]. apply IH; [exact F2|]. now apply A_op. Qed.
Lemma later l : forall s a, finishes s l -> forallb no_start l = true -> agrees s a -> stable (g_objs s) (g_objs (exec s l)) /\ grows (g_objs s) (g_objs (exec s l)).
Proof.
  induction l as [|o l IH]; intros s a F N A; [split; [now intros i o|apply grows_refl]|]. destruct F as [F1 F2]. cbn [forallb] in N. apply andb_true_iff in N as [N1 N2].
  pose proof (A_op s a o F1 A) as A1. destruct (IH _ _ F2 N2 A1) as [S2 G2]. unfold exec. cbn [fold_left]. fold (exec (fst (step s o)) l).
  assert (ST : PropName.Step s (fst (step s o))) by (apply PropName.S_op; [intros c ->; discriminate|exact F1]).
  assert (GR : grows (g_objs s) (g_objs (fst (step s o)))).
  { destruct o; try discriminate N1.
    - assert (E : step s (Do o) = sstep s o) by reflexivity. rewrite E. apply (kp_it _ _ (K_sop s o)).
    - assert (E : step s (AddPage size) = addPage size s) by reflexivity. rewrite E in *. clear - F1. rewrite addPage_split in *.
      assert (CB : forall f s, grows (g_objs s) (g_objs (fst (callback f s)))).
      { intros [f|] u; [|apply grows_refl]. cbn [callback]. assert (RS : grows (g_objs u) (g_objs (fst (run_sops u f)))).
        { revert u. induction f as [|x f IHf]; intros u; [apply grows_refl|]. cbn [run_sops]. pose proof (kp_it _ _ (K_sop u x)) as K. change (g_objs (set_tr (g_tr u) (fst (sstep u x)))) with (g_objs (fst (sstep u x))) in K.
          destruct (sstep u x) as [u1 r]. cbn [fst] in K. destruct r; [..|exact K]; (eapply grows_trans; [exact K|apply IHf]). }
        destruct (run_sops u f) as [u1 r]. cbn [fst] in RS. destruct r; exact RS. }
      assert (G0 : grows (g_objs s) (g_objs (fresh_page size s))) by apply grows_app. generalize dependent (fresh_page size s). intros f F1 G0.
      pose proof (CB (g_header f) f) as C1. destruct (callback (g_header f) f) as [s1 r]. cbn [fst] in C1. destruct r; [..|eapply grows_trans; eauto]; (eapply grows_trans; [exact G0|]; eapply grows_trans; [exact C1|]; apply CB).
    - apply grows_refl.
    - apply grows_refl.
    - assert (E : fst (step s Output) = output s) by reflexivity. rewrite E. eapply output_agree. apply A. }
  split; [|eapply grows_trans; eauto]. intros i x SX NX. apply S2; [exact SX|]. now apply (PropName.sp_obj _ _ ST).
Qed.
(** What a drawing call with transparency leaves: the [n]-th item of content object [ci], with the graphics states it names first. *)
Definition draws_text (t : gp) (ci n : nat) (txt : bytes) (gs : option Z) : Prop :=
  exists its fc, nth_error (g_objs t) ci = Some (OContent its) /\ nth_error its n = Some (IText fc txt gs).
Definition draws_image (t : gp) (ci n : nat) (gs : list Z) : Prop :=
  exists its i, nth_error (g_objs t) ci = Some (OContent its) /\ nth_error its n = Some (IImage i gs).
Definition states (gs : option Z) : list Z := match gs with Some g => [g] | None => [] end.

Lemma finishes_app l : forall s l', finishes s (l ++ l') <-> finishes s l /\ finishes (exec s l) l'.
Proof. induction l as [|o l IH]; intros s l'; cbn [app finishes]; [split; [auto|now intros []]|]. rewrite IH. unfold exec at 2. cbn [fold_left]. fold (exec (fst (step s o)) l). tauto. Qed.
Lemma exec_app s l l' : exec s (l ++ l') = exec (exec s l) l'.
Proof. unfold exec. now rewrite fold_left_app. Qed.
Lemma A_doc c l : finishes (start c zero_gp) l -> agrees (exec (start c zero_gp) l) (fold_left wish_op l {| now := None; header := None; footer := None |}).
Proof.
  intros F. apply A_exec; [exact F|]. split; [|split; reflexivity]. constructor; [exact I|intros i G; discriminate G|apply PropName.Good_start].
Qed.
Lemma stays s l' a ci k it : finishes s l' -> forallb no_start l' = true -> agrees s a -> steady it -> nth_error (g_objs s) ci = Some (OContent (k ++ [it])) ->
  (exists its, nth_error (g_objs (output (exec s l'))) ci = Some (OContent its) /\ nth_error its (List.length k) = Some it) /\
  (forall w g, as_wished s w g -> as_wished (output (exec s l')) w g).
Proof.
  intros F N A SD NT. destruct (later l' s a F N A) as [S1 G1]. pose proof (A_exec l' s a F A) as A1. destruct (output_agree _ _ (proj1 A1)) as (_ & _ & _ & G2). split.
  - destruct (grows_trans _ _ _ G1 G2 ci _ NT) as (its & N2 & K). exists its. split; [exact N2|]. apply K; [exact SD|]. rewrite nth_error_app2, Nat.sub_diag by lia. reflexivity.
  - intros w g. apply wished_mono. intros i o SO NO. apply (PropName.sp_obj _ _ (PropName.S_output (exec s l'))); [exact SO|]. now apply S1.
Qed.

(** After any history, a text drawn names the graphics state asked for last, and still does when the document is written, whatever is
    called in between. *)
Theorem C63_transparency_text : forall c l txt l', let s := exec (start c zero_gp) l in let call := Do (Text txt) in
  finishes (start c zero_gp) (l ++ call :: l') -> forallb no_start l' = true ->
  let t := output (exec s (call :: l')) in
  exists ci gs, g_content (fst (step s call)) = Some ci /\ draws_text t ci (List.length (current_content s)) txt gs /\ as_wished t (wished l) gs.
Proof.
  intros c l txt l' s call F N t. apply finishes_app in F as [F1 F2]. fold s in F2. destruct F2 as [F2 F3]. pose proof (A_doc c l F1) as A. fold s in A.
  pose proof (A_op s _ call F2 A) as A1. pose proof (PropName.S_op s call ltac:(intros ? Q; discriminate Q) F2) as ST. assert (ET : t = output (exec (fst (step s call)) l')) by reflexivity. rewrite ET. clearbody t. clear ET.
  assert (E : step s call = sstep s (Text txt)) by reflexivity. rewrite E in *. clear E. cbn [sstep] in *. unfold text in *. destruct (g_font s); [|now destruct F2].
  destruct (draw _ _ s) as [s1 r] eqn:D. cbn [fst snd] in *. pose proof (draw_noerr true (fun _ => IText (g_fontcount s + 1) txt (g_tr s)) s) as NE. rewrite D in NE. cbn [snd] in NE.
  destruct r; [|now destruct NE|now destruct F2]. destruct (draw_adds _ _ _ _ D (ag_c _ _ (proj1 A))) as (rq & ci & k & G1 & G2 & ->). exists ci, (g_tr s). split; [exact G1|].
  destruct (stays s1 l' _ ci _ (IText (g_fontcount s + 1) txt (g_tr s)) F3 N A1 I G2) as [[its [N1 N2]] W]. split; [exists its, (g_fontcount s + 1); split; assumption|]. apply W. fold (wished l).
  assert (AW : as_wished s (wished l) (g_tr s)) by apply (proj1 A). apply (wished_mono s); [|exact AW].
  exact (PropName.sp_obj _ _ ST).
Qed.
Print Assumptions C63_transparency_text.

Lemma image_item (b : bool) id im gs s s' : content_ok s -> imageByHolder b id im gs s = (s', Ok) ->
  exists i ci, g_content s' = Some ci /\ nth_error (g_objs s') ci = Some (OContent (current_content s ++ [IImage i gs])).
Proof.
  intros C D. unfold imageByHolder in D. destruct (lookup id (g_imgs s)) as [i|] eqn:L.
  - destruct (draw_adds _ _ _ _ D C) as (r & ci & l & E1 & E2 & ->). exists i, ci. auto.
  - destruct (im_ok im); [|discriminate]. pose proof (content_snoc s (OImage im (if b then Split else Plain)) C) as CC.
    assert (C1 : content_ok (snd (addObj (OImage im (if b then Split else Plain)) s))) by (apply (content_mono s); [apply om_app|reflexivity|exact C]).
    cbn [addObj snd] in CC, C1, D. set (s1 := set_objs _ s) in *. clearbody s1.
    destruct (draw true (fun _ => IImage (List.length (g_objs s)) gs) s1) as [s2 r] eqn:D2. destruct r; try discriminate.
    destruct (draw_adds _ _ _ _ D2 C1) as (q & ci & l & E1 & E2 & ->). rewrite CC in E2. exists (List.length (g_objs s)), ci.
    assert (D' : fst (s', Ok) = s') by reflexivity. rewrite <- D in D'. cbn [fst] in D'. clear D. set (s3 := set_imgs _ _) in D'.
    assert (G : g_content s' = Some ci /\ exists k, g_objs s' = g_objs s2 ++ k).
    { rewrite <- D'. assert (O3 : g_objs s3 = g_objs s2) by reflexivity. assert (C3 : g_content s3 = Some ci) by exact E1. clearbody s3.
      destruct (im_alpha im), (im_indexed im); cbn [addObj snd g_content set_objs set_smasks set_rgbs g_imgs g_objs]; rewrite ?O3; (split; [assumption|]).
      - rewrite <- app_assoc. eexists; reflexivity.
      - eexists; reflexivity.
      - eexists; reflexivity.
      - exists []. now rewrite app_nil_r. }
    destruct G as (G1 & (k & G3)). split; [exact G1|]. rewrite G3, nth_error_app1; [exact E2|apply nth_error_Some; congruence].
Qed.
Lemma cc_add o s : content_ok s -> content_ok (snd (addObj o s)) /\ current_content (snd (addObj o s)) = current_content s.
Proof. intros C. split; [apply (content_mono s); [apply om_app|reflexivity|exact C]|now apply content_snoc]. Qed.
Lemma cc_cached e s : content_ok s -> current_content (snd (getCachedExtGState e s)) = current_content s.
Proof.
  intros C. unfold getCachedExtGState. destruct (lookup _ _); [reflexivity|]. destruct (cc_add (OExtGState e) s C) as [_ A]. cbn [addObj snd] in *. rewrite <- A. now apply cc_same.
Qed.
Lemma cc_mask id im s : content_ok s -> current_content (fst (fst (maskHolder id im s))) = current_content s.
Proof.
  intros C. assert (M : current_content (fst (fst (maskImage id im s))) = current_content s).
  { unfold maskImage. destruct (lookup id (g_imgs s)); [pose proof (cc_getContent s) as CC; destruct (getContent s); exact CC|]. destruct (im_ok im); [|reflexivity].
    destruct (cc_add (OImage im AsMask) s C) as [C1 CC]. destruct (addObj (OImage im AsMask) s) as [ix s1]. cbn [snd] in *. pose proof (cc_getContent s1) as CC2. destruct (getContent s1) as [ci s2]. cbn [snd] in CC2.
    destruct (g_pagesize s2); cbn [fst]; [|congruence]. transitivity (current_content s2); [now apply cc_same|congruence]. }
  pose proof (kp_c _ _ (K_maskImage id im s) C) as C1. unfold maskHolder. destruct (maskImage id im s) as [[s1 r] ix]. cbn [fst] in *. destruct r; try exact M. destruct (g_pagesize s1); [|exact M].
  destruct (cc_add (OXGroup ix) s1 C1) as [C2 E2]. destruct (addObj (OXGroup ix) s1) as [gi s2]. cbn [snd] in *. destruct (cc_add (OMask gi) s2 C2) as [C3 E3]. destruct (addObj (OMask gi) s2) as [mi s3]. cbn [snd] in *.
  match goal with |- context [getCachedExtGState ?e s3] => pose proof (cc_cached e s3 C3) as E4; destruct (getCachedExtGState e s3) as [ei s4] end. cbn [fst snd] in *. congruence.
Qed.
(** Likewise for a successful image call: plain, it names that graphics state only; under a mask, that one first and then the mask's. *)
Definition masks_of (o : sop) (gs : list Z) : Prop := match o with Image _ _ => gs = [] | ImageMasked _ _ _ _ => exists e, gs = [e] | _ => False end.
Definition image_call (o : sop) : Prop := match o with Image _ _ | ImageMasked _ _ _ _ => True | _ => False end.
Theorem C63_transparency_image : forall c l o l', image_call o -> let s := exec (start c zero_gp) l in let call := Do o in
  finishes (start c zero_gp) (l ++ call :: l') -> forallb no_start l' = true -> snd (step s call) = Ok ->
  let t := output (exec s (call :: l')) in
  exists ci gs more, g_content (fst (step s call)) = Some ci /\ draws_image t ci (List.length (current_content s)) (states gs ++ more) /\
    masks_of o more /\ as_wished t (wished l) gs.
Proof.
  intros c l o l' IC s call F N OK t. apply finishes_app in F as [F1 F2]. fold s in F2. destruct F2 as [F2 F3]. pose proof (A_doc c l F1) as A. fold s in A.
  pose proof (A_op s _ call F2 A) as A1. pose proof (PropName.S_op s call ltac:(intros ? Q; discriminate Q) F2) as ST. assert (ET : t = output (exec (fst (step s call)) l')) by reflexivity. rewrite ET. clearbody t. clear ET.
  assert (AW : as_wished s (wished l) (g_tr s)) by apply (proj1 A). pose proof (ag_c _ _ (proj1 A)) as C.
  assert (E : step s call = sstep s o) by reflexivity. rewrite E in *. clear E.
  assert (IT : exists i ci more, g_content (fst (sstep s o)) = Some ci /\ nth_error (g_objs (fst (sstep s o))) ci = Some (OContent (current_content s ++ [IImage i (states (g_tr s) ++ more)])) /\ masks_of o more).
  { clear - IC OK C. destruct o; try destruct IC; cbn [sstep] in *.
    - destruct (imageByHolder _ _ _ _ s) as [s1 r] eqn:D. cbn [snd] in OK. subst r. destruct (image_item _ _ _ _ _ _ C D) as (i & ci & G1 & G2). exists i, ci, []. cbn [fst]. rewrite app_nil_r. split; [exact G1|]. split; [exact G2|reflexivity].
    - pose proof (cc_mask mid mim s C) as CC. pose proof (K_mask mid mim s) as KM. destruct (maskHolder mid mim s) as [[s1 r] e]. cbn [fst] in *. destruct r; try discriminate OK.
      destruct (imageByHolder _ _ _ _ s1) as [s2 r] eqn:D. cbn [snd] in OK. subst r. destruct (image_item _ _ _ _ _ _ (kp_c _ _ KM C) D) as (i & ci & G1 & G2). exists i, ci, [e]. cbn [fst]. rewrite CC, (kp_tr _ _ KM) in G2.
      split; [exact G1|]. split; [exact G2|]. now exists e. }
  destruct IT as (i & ci & more & G1 & G2 & G3). exists ci, (g_tr s), more. split; [exact G1|].
  destruct (stays _ l' _ ci _ (IImage i (states (g_tr s) ++ more)) F3 N A1 I G2) as [[its [N1 N2]] W]. split; [exists its, i; split; assumption|]. split; [exact G3|]. apply W. apply (wished_mono s); [exact (PropName.sp_obj _ _ ST)|exact AW].
Qed.
Print Assumptions C63_transparency_image.

(** ** A document that meets the hypotheses *)
Definition pic0 : imgdesc := Build_imgdesc (bs "jpeg") true false false.
Definition mask0 : imgdesc := Build_imgdesc (bs "mask") true true false.
Definition doc0 : list op :=
  [AddHeader (Some [SetTransparency (1 # 4) (bs "/Screen")]); Do (AddFont (bs "serif") 0); AddPage None; Do (SetFont (bs "serif") 0 12%Q); Do (Text (bs "a"));
   Do (SetTransparency (1 # 2) (bs "/Multiply")); Do (Image (bs "p") pic0); Do (AddColorSpace (bs "red")); Do (SetColorSpace (bs "red"));
   Do (ImageMasked (bs "q") pic0 (bs "m") mask0); Do ClearTransparency].
Definition cfg0 : config := {| cf_page := {| r_w := 595; r_h := 842 |}; cf_protect := false |}.
Definition items0 : list item := [IText 1 (bs "a") (Some 11); IImage 13 [13]; IColorSpace 0; IImage 19 [13; 19]].
Example C63_met :
  finishes (start cfg0 zero_gp) (doc0 ++ [Do (Text (bs "b"))]) /\
  wished (firstn 3 doc0) = Some ((1 # 4)%Q, bs "/Screen") /\ wished (firstn 6 doc0) = Some ((1 # 2)%Q, bs "/Multiply") /\ wished doc0 = None /\
  (let t := output (exec (start cfg0 zero_gp) doc0) in nth_error (g_objs t) 11 = Some (OContent items0) /\
    exists txt v rest, writes (fun d => d) None t 3 OProcSet txt /\ read_object txt = Some (v, rest) /\ dict_get (bs "GS11") (match dict_get (bs "ExtGState") v with Some d => d | None => OInt 0 end) = Some (ref 11)) /\
    flat_map uses items0 = [UFont 1; UState 11; UImage 14; UState 13; USpace 1; UImage 20; UState 13; UState 19].
Proof.
  split; [apply finishesb_ok; vm_compute; reflexivity|]. split; [reflexivity|]. split; [reflexivity|]. split; [reflexivity|]. split; [|reflexivity]. cbv zeta.
  split; [vm_compute; reflexivity|]. set (t := output _).
  eexists. eexists. eexists. split; [apply (W_resources (fun d => d) None t 3 []); constructor|]. split; vm_compute; reflexivity.
Qed.
(** What the side condition rules out: a template may be given the name of an image, which then stands twice. *)
Example C63_template_clash_refuted : exists v rest, read_object (procset_body [] [] [5] [(bs "/I6", 9)] []) = Some (v, rest) /\ ~ exists n, defined_as v (UImage 6) n.
Proof.
  eexists. eexists. split; [vm_compute; reflexivity|]. intros (n & d & D & H). vm_compute in D. injection D as <-. vm_compute in H. discriminate H.
Qed.
