(** PropRef.v — C61: in every document gopdf writes, each reference leads to an object of the kind its place asks for. *)
From Coq Require Import QArith.
From Verif Require Import Base NumModel StrModel StrSpec DocModel DocSpec DocProofs DocInv SecModel FileModel StreamModel PdfSyntax PdfRead ObjModel PropObj PropObj2 RefModel.
Open Scope Z_scope.

(** ** Invariant: every number the document holds *)
(** [strict]: the destination 0 of bookmarks and anchors is not excepted. *)
Section Invariant.
Variable strict : bool.
Definition R (s : gp) (x : kind * Z) : Prop := 0 < snd x /\ nth_error (map kind_of (g_objs s)) (Z.to_nat (snd x - 1)) = Some (fst x).
Definition unless (c : bool) (k : kind) (n : Z) : list (kind * Z) := if c then [] else [(k, n)].
Definition at_ (k : kind) (i : nat) : kind * Z := (k, Z.of_nat i + 1).
Definition orefs (o : obj) : list (kind * Z) :=
  match o with
  | OPage p => map (pair KAnnot) (pg_links p) ++ map (pair KContent) (pg_contents p)
  | OOutline q => unless (ol_prev q =? -1) KOutline (ol_prev q) ++ unless (ol_next q =? -1) KOutline (ol_next q)
                  ++ unless (ol_first q =? 0) KOutline (ol_first q) ++ unless (ol_last q =? 0) KOutline (ol_last q) ++ unless (negb strict && (ol_dest q =? 0)) KPage (ol_dest q)
  | OSubDesc d => [at_ KFontFile d] | OCIDFont d => [at_ KDescriptor d]
  | OSubsetFont f => [at_ KCIDFont (fo_cid f); at_ KToUnicode (fo_umap f)]
  | OMask g => [at_ KGroup g]
  | OExtGState e => match eg_smask e with Some m => [at_ KMask m] | None => [] end
  | _ => []
  end.
Definition srefs (s : gp) : list (kind * Z) :=
  map (pair KPage) (g_kids s) ++ unless (g_outl_first s =? -1) KOutline (g_outl_first s) ++ unless (g_outl_last s =? -1) KOutline (g_outl_last s)
  ++ unless (g_cat_outl s =? -1) KOutlines (g_cat_outl s) ++ unless (g_encid s =? 0) KEncryption (g_encid s)
  ++ map (fun r => at_ KFont (rf_index r)) (g_fonts s) ++ map (fun r => at_ KColorSpace (rc_index r)) (g_cs s)
  ++ map (at_ KImage) (g_xobjs s) ++ map (at_ KGState) (g_extgs s)
  ++ match g_page s with Some p => [at_ KPage p] | None => [] end
  ++ flat_map (fun a => match fst (snd a) with Some p => [at_ KPage p] | None => if strict then [(KPage, 0)] else [] end) (g_anchors s)
  ++ map (fun e => at_ KSoftMaskImage (snd e)) (g_smasks s) ++ map (fun e => at_ KPalette (snd e)) (g_rgbs s)
  ++ [(KCatalog, 1); (KPages, 2); (KOutlines, 3); (KResources, 4)].
Definition rr (s : gp) : list (kind * Z) := flat_map orefs (g_objs s) ++ srefs s.
(** A picture that is drawn has its soft mask and its palette. *)
Definition whole_img (s : gp) (i : nat) (im : imgdesc) : Prop :=
  (im_alpha im = true -> nlookup i (g_smasks s) <> None) /\ (im_indexed im = true -> nlookup i (g_rgbs s) <> None).
(** No two pictures share a soft mask, or a palette. *)
Definition own (s : gp) : Prop :=
  (NoDup (map snd (g_smasks s)) /\ NoDup (map snd (g_rgbs s))) /\
  (Forall (fun e => (snd e < List.length (g_objs s))%nat) (g_smasks s) /\ Forall (fun e => (snd e < List.length (g_objs s))%nat) (g_rgbs s)).
Lemma own_mono s s' : g_smasks s' = g_smasks s -> g_rgbs s' = g_rgbs s -> (List.length (g_objs s) <= List.length (g_objs s'))%nat -> own s -> own s'.
Proof. intros A B L [N [F1 F2]]. unfold own. rewrite A, B. split; [exact N|]. split; (eapply Forall_impl; [|eassumption]); cbv beta; intros; lia. Qed.
Lemma fresh_snd (l : list (nat * nat)) m : Forall (fun e => (snd e < m)%nat) l -> NoDup (map snd l) -> forall k, NoDup (map snd ((k, m) :: l)).
Proof. intros F N k. cbn [map snd]. constructor; [|exact N]. intros I. apply in_map_iff in I as (e & E & I). rewrite Forall_forall in F. specialize (F e I). lia. Qed.
Record Step (s s' : gp) : Prop := {
  st_kind : exists r, map kind_of (g_objs s') = map kind_of (g_objs s) ++ r;
  st_ref : forall x, In x (rr s') -> In x (rr s) \/ R s' x;
  st_img : forall i im use, nth_error (g_objs s') i = Some (OImage im use) -> use <> AsMask -> nth_error (g_objs s) i = Some (OImage im use) \/ whole_img s' i im;
  st_page : g_page s <> None -> g_page s' <> None;
  st_ids : forall i, (nlookup i (g_smasks s) <> None -> nlookup i (g_smasks s') <> None) /\ (nlookup i (g_rgbs s) <> None -> nlookup i (g_rgbs s') <> None);
  st_own : own s -> own s' }.
Record Good (s : gp) : Prop := {
  gd_ref : forall x, In x (rr s) -> R s x;
  gd_img : forall i im use, nth_error (g_objs s) i = Some (OImage im use) -> use <> AsMask -> whole_img s i im;
  gd_own : own s }.
Lemma R_mono s s' x : (exists r, map kind_of (g_objs s') = map kind_of (g_objs s) ++ r) -> R s x -> R s' x.
Proof. intros [r E] [P N]. split; [exact P|]. rewrite E, nth_error_app1; [exact N|]. apply nth_error_Some. congruence. Qed.
Lemma Step_good s s' : Step s s' -> Good s -> Good s'.
Proof.
  intros [K F I P D O] [G1 G2 G3]. constructor; [| |exact (O G3)].
  - intros x H. destruct (F x H) as [H1|H1]; [|exact H1]. apply (R_mono s); [exact K|now apply G1].
  - intros i im use H N. destruct (I i im use H N) as [H1|H1]; [|exact H1]. destruct (G2 i im use H1 N) as [A B]. destruct (D i) as [D1 D2]. split; auto.
Qed.
Lemma Step_refl s : Step s s.
Proof. constructor; auto. exists []. now rewrite app_nil_r. Qed.
Lemma Step_trans a b c : Step a b -> Step b c -> Step a c.
Proof.
  intros [K1 F1 I1 P1 D1 O1] [K2 F2 I2 P2 D2 O2]. constructor; [| | | | |auto].
  - destruct K1 as [r1 E1], K2 as [r2 E2]. exists (r1 ++ r2). now rewrite E2, E1, app_assoc.
  - intros x H. destruct (F2 x H) as [H1|H1]; [|now right]. destruct (F1 x H1) as [H2|H2]; [now left|right; now apply (R_mono b)].
  - intros i im use H N. destruct (I2 i im use H N) as [H1|H1]; [|now right]. destruct (I1 i im use H1 N) as [H2|[A B]]; [now left|right]. destruct (D2 i). split; auto.
  - auto.
  - intros i. destruct (D1 i), (D2 i). auto.
Qed.
(** Same table, and no new numbers. *)
Lemma Step_same s s' : g_objs s' = g_objs s -> g_page s' = g_page s -> g_smasks s' = g_smasks s -> g_rgbs s' = g_rgbs s -> (forall x, In x (srefs s') -> In x (rr s) \/ R s' x) -> Step s s'.
Proof.
  intros O PE A B H. constructor; [| | | | |apply own_mono; auto; rewrite O; lia].
  - exists []. now rewrite O, app_nil_r.
  - intros x. unfold rr at 1. rewrite O, in_app_iff. intros [I|I]; [left; apply in_or_app; now left|now apply H].
  - intros i im use. rewrite O. auto.
  - now rewrite PE.
  - intros i. rewrite A, B. auto.
Qed.
Lemma Step_frame s s' : g_objs s' = g_objs s -> g_page s' = g_page s -> g_smasks s' = g_smasks s -> g_rgbs s' = g_rgbs s -> srefs s' = srefs s -> Step s s'.
Proof. intros O PE A B E. apply Step_same; auto. rewrite E. intros x I. left. apply in_or_app. now right. Qed.
Lemma kinds_app a b : map kind_of (a ++ b) = map kind_of a ++ map kind_of b. Proof. apply map_app. Qed.
Lemma R_new s o : R (snd (addObj o s)) (at_ (kind_of o) (List.length (g_objs s))).
Proof. split; [cbn; lia|]. cbn [addObj snd g_objs set_objs fst at_]. replace (Z.to_nat (Z.of_nat (List.length (g_objs s)) + 1 - 1)) with (List.length (map kind_of (g_objs s))) by (rewrite map_length; lia).
  rewrite kinds_app. apply nth_app_len. Qed.
Lemma Step_add s o : (forall x, In x (orefs o) -> In x (rr s) \/ R (snd (addObj o s)) x) -> (forall im use, o = OImage im use -> use = AsMask) -> Step s (snd (addObj o s)).
Proof.
  intros H M. constructor; [| | | | |apply own_mono; try reflexivity; cbn [addObj snd g_objs set_objs]; rewrite app_length; lia].
  - exists [kind_of o]. apply kinds_app.
  - intros x. unfold rr at 1. cbn [addObj snd g_objs set_objs]. rewrite flat_map_app. cbn [flat_map]. rewrite app_nil_r, !in_app_iff. intros [[I|I]|I].
    + left. apply in_or_app. now left.
    + now apply H.
    + left. apply in_or_app. now right.
  - intros i im use. cbn [addObj snd g_objs set_objs]. intros N U. left. destruct (Nat.lt_ge_cases i (List.length (g_objs s))) as [L|L].
    + now rewrite nth_error_app1 in N.
    + rewrite nth_error_app2 in N by exact L. destruct (i - List.length (g_objs s))%nat as [|j]; [|destruct j; discriminate]. cbn in N. injection N as E. now apply M in E.
  - auto.
  - auto.
Qed.
Lemma Step_upd s i f : (forall o, kind_of (f o) = kind_of o) -> (forall o x, In x (orefs (f o)) -> In x (orefs o) \/ In x (rr s) \/ R s x) ->
  (forall o im use, f o = OImage im use -> o = OImage im use) -> Step s (set_objs (upd (g_objs s) i f) s).
Proof.
  intros K H M. assert (KE : map kind_of (upd (g_objs s) i f) = map kind_of (g_objs s)).
  { generalize i. induction (g_objs s) as [|o l IH]; intros [|j]; cbn; rewrite ?K, ?IH; reflexivity. }
  constructor; [| | | | |apply own_mono; try reflexivity; cbn [g_objs set_objs]; apply (f_equal (@List.length _)) in KE; rewrite !map_length in KE; rewrite KE; lia].
  - exists []. rewrite app_nil_r. exact KE.
  - intros x. unfold rr at 1. cbn [g_objs set_objs]. rewrite in_app_iff. intros [I|I]; [|left; apply in_or_app; now right].
    apply in_flat_map in I as (o & I & J). apply In_nth_error in I as [j I]. rewrite nth_upd in I.
    assert (L : forall o', nth_error (g_objs s) j = Some o' -> In x (orefs o') -> In x (rr s)).
    { intros o' N Q. apply in_or_app. left. apply in_flat_map. exists o'. split; [eapply nth_error_In; eauto|exact Q]. }
    destruct (Nat.eqb i j); [|left; eapply L; eauto]. destruct (nth_error (g_objs s) j) as [o'|] eqn:N; [|discriminate]. cbn in I. injection I as <-.
    destruct (H o' x J) as [Q|[Q|Q]]; [left; eapply L; eauto|now left|right]. split; [apply Q|]. cbn [g_objs set_objs]. rewrite KE. apply Q.
  - intros j im use. cbn [g_objs set_objs]. rewrite nth_upd. intros N U. left. destruct (Nat.eqb i j); [|exact N]. destruct (nth_error (g_objs s) j) as [o'|]; [|discriminate].
    cbn in N. injection N as N. f_equal. now apply M.
  - auto.
  - auto.
Qed.
Lemma nil_refs (o : obj) s : orefs o = [] -> forall x, In x (orefs o) -> In x (rr s) \/ R (snd (addObj o s)) x.
Proof. intros -> x []. Qed.

(** ** Calls *)
Lemma S_getContent s : Step s (snd (getContent s)).
Proof.
  unfold getContent. destruct (g_content s); [apply Step_refl|]. cbn [addObj snd]. eapply Step_trans; [apply (Step_add s (OContent [])); [now apply nil_refs|discriminate]|].
  apply Step_frame; reflexivity.
Qed.
Lemma S_append i it s : Step s (append_item i it s).
Proof. apply Step_upd; [now intros []|intros o x I; left; destruct o; exact I|intros o0 im0 use0 E0; destruct o0; cbn in E0; congruence]. Qed.
Lemma S_draw np it s : Step s (fst (draw np it s)).
Proof.
  unfold draw. pose proof (S_getContent s) as H. destruct (getContent s) as [i s1]. cbn [snd] in H.
  destruct (g_pagesize s1); [|destruct np]; cbn [fst]; try exact H; eapply Step_trans; [exact H|apply S_append|exact H|apply S_append].
Qed.
Ltac inapp := repeat (rewrite ?in_app_iff in *; cbn [In] in *).
(** Membership in the numbers of a changed state. *)
Ltac sr := intros x; unfold rr, srefs; cbn; inapp; intuition auto.
Lemma S_setPage n s : Step s (fst (setPage n s)).
Proof. unfold setPage. destruct (find_content _ _ _ _); [|apply Step_refl]. apply Step_frame; reflexivity. Qed.
Lemma S_addFont f st s : Step s (fst (addFont f st s)).
Proof.
  unfold addFont. cbn [addObj].
  set (s1 := set_objs (g_objs s ++ [OUnicodeMap]) s). assert (H1 : Step s s1) by (apply (Step_add s OUnicodeMap); [now apply nil_refs|discriminate]).
  assert (R1 : R s1 (at_ KToUnicode (List.length (g_objs s)))) by apply (R_new s OUnicodeMap). set (ui := List.length (g_objs s)) in *. 
  set (s2 := set_objs (g_objs s1 ++ [OPdfDict]) s1). assert (H2 : Step s1 s2) by (apply (Step_add s1 OPdfDict); [now apply nil_refs|discriminate]).
  assert (R2 : R s2 (at_ KFontFile (List.length (g_objs s1)))) by apply (R_new s1 OPdfDict). set (di := List.length (g_objs s1)) in *.
  set (s3 := set_objs (g_objs s2 ++ [OSubDesc di]) s2). assert (H3 : Step s2 s3).
  { apply (Step_add s2 (OSubDesc di)); [|discriminate]. intros x [<-|[]]. right. apply (R_mono s2); [exists [KDescriptor]; apply kinds_app|exact R2]. }
  assert (R3 : R s3 (at_ KDescriptor (List.length (g_objs s2)))) by apply (R_new s2 (OSubDesc di)). set (fi := List.length (g_objs s2)) in *.
  set (s4 := set_objs (g_objs s3 ++ [OCIDFont fi]) s3). assert (H4 : Step s3 s4).
  { apply (Step_add s3 (OCIDFont fi)); [|discriminate]. intros x [<-|[]]. right. apply (R_mono s3); [exists [KCIDFont]; apply kinds_app|exact R3]. }
  assert (R4 : R s4 (at_ KCIDFont (List.length (g_objs s3)))) by apply (R_new s3 (OCIDFont fi)). set (ci := List.length (g_objs s3)) in *.
  assert (R1' : R s4 (at_ KToUnicode ui)) by (apply (R_mono s1); [|exact R1]; eapply st_kind, Step_trans; [exact H2|eapply Step_trans; eauto]).
  assert (H04 : Step s s4) by (repeat (eapply Step_trans; [eassumption|]); apply Step_refl).
  clearbody s4 ui ci. clear - H04 R4 R1'.
  set (fo := {| fo_family := f |}). set (s5 := set_objs (g_objs s4 ++ [OSubsetFont fo]) s4). assert (H5 : Step s4 s5).
  { apply (Step_add s4 (OSubsetFont fo)); [|discriminate]. intros x [<-|[<-|[]]]; right; (eapply R_mono; [exists [KFont]; apply kinds_app|assumption]). }
  assert (R5 : R s5 (at_ KFont (List.length (g_objs s4)))) by apply (R_new s4 (OSubsetFont fo)). clearbody s5.
  destruct (existsb _ _); cbn [fst]; [eapply Step_trans; eauto|]. eapply Step_trans; [exact H04|]. eapply Step_trans; [exact H5|].
  apply Step_same; try reflexivity. intros x. unfold srefs at 1. cbn. rewrite map_app. intros I. unfold rr, srefs. cbn [map] in I. inapp. intuition (subst; auto).
Qed.
Lemma S_setFont f st z s : Step s (fst (setFont f st z s)).
Proof. unfold setFont. destruct (find_font _ _ _ _) as [[i o]|]; [|apply Step_refl]. apply Step_frame; reflexivity. Qed.
Lemma S_cached e s : (forall m, eg_smask e = Some m -> R s (at_ KMask m)) -> Step s (snd (getCachedExtGState e s)).
Proof.
  intros H. unfold getCachedExtGState. destruct (lookup _ _); [apply Step_refl|]. cbn [addObj snd].
  set (s1 := set_objs (g_objs s ++ [OExtGState e]) s). assert (H1 : Step s s1).
  { apply (Step_add s (OExtGState e)); [|discriminate]. intros x I. right. cbn [orefs] in I. destruct (eg_smask e) as [m|]; [|destruct I]. destruct I as [<-|[]].
    apply (R_mono s); [exists [KGState]; apply kinds_app|now apply H]. }
  assert (R1 : R s1 (at_ KGState (List.length (g_objs s)))) by apply (R_new s (OExtGState e)). clearbody s1.
  eapply Step_trans; [exact H1|]. apply Step_same; try reflexivity. intros x. unfold srefs at 1. cbn. rewrite map_app. intros I. unfold rr, srefs. cbn [map] in I. inapp. intuition (subst; auto).
Qed.
Lemma S_saveTr a b s : Step s (snd (saveTransparency a b s)).
Proof.
  unfold saveTransparency. destruct (lookup _ _); [apply Step_refl|]. destruct (Qeq_bool _ _); [apply Step_refl|].
  match goal with |- context [getCachedExtGState ?e s] => pose proof (S_cached e s ltac:(discriminate)) as H; destruct (getCachedExtGState e s) as [i s1] end.
  cbn [snd] in *. eapply Step_trans; [exact H|]. apply Step_frame; reflexivity.
Qed.
Lemma draw_noerr np it s : snd (draw np it s) <> Err.
Proof. unfold draw. destruct (getContent s) as [i s1]. destruct (g_pagesize s1); [|destruct np]; discriminate. Qed.
Lemma S_image b id im gs s : snd (imageByHolder b id im gs s) <> Panic -> Step s (fst (imageByHolder b id im gs s)).
Proof.
  unfold imageByHolder. destruct (lookup _ _) as [i|]; intros NP; [apply S_draw|]. destruct (im_ok im); [|apply Step_refl].
  cbn [addObj] in *. set (ix := List.length (g_objs s)) in *. set (u := if b then Split else Plain) in *.
  set (s1 := set_objs (g_objs s ++ [OImage im u]) s) in *.
  assert (R1 : R s1 (at_ KImage ix)) by apply (R_new s (OImage im u)).
  assert (NX : nth_error (g_objs s1) ix = Some (OImage im u)) by apply nth_snoc_new.
  assert (OLD : forall i im' use, nth_error (g_objs s1) i = Some (OImage im' use) -> i <> ix -> nth_error (g_objs s) i = Some (OImage im' use)).
  { intros i im' use N NE. unfold s1 in N. cbn [g_objs set_objs] in N. destruct (Nat.lt_ge_cases i ix) as [L|L]; [now rewrite nth_error_app1 in N|].
    rewrite nth_error_app2 in N by exact L. fold ix in N. destruct (i - ix)%nat as [|[|j]] eqn:EJ; [lia|discriminate..]. }
  assert (RR : forall x, In x (rr s1) -> In x (rr s)).
  { intros x. unfold rr. cbn [s1 g_objs set_objs]. rewrite flat_map_app. cbn [flat_map orefs app]. rewrite app_nil_r. auto. }
  assert (K1 : exists r, map kind_of (g_objs s1) = map kind_of (g_objs s) ++ r) by (exists [KImage]; apply kinds_app).
  assert (ID : g_smasks s1 = g_smasks s /\ g_rgbs s1 = g_rgbs s) by (split; reflexivity). assert (OW : own s -> own s1) by (apply own_mono; try reflexivity; unfold s1; cbn [g_objs set_objs]; rewrite app_length; lia). assert (PE : g_page s1 = g_page s) by reflexivity.
  clearbody s1 ix.
  match goal with |- context [draw true ?it s1] => pose proof (S_draw true it s1) as H2; pose proof (draw_noerr true it s1) as DE; destruct (draw true it s1) as [s2 r] end. cbn [fst snd] in *.
  destruct r; cbn [fst snd] in *; [|now destruct DE|now destruct NP].
  set (s3 := set_imgs _ _). assert (H3 : Step s1 s3).
  { eapply Step_trans; [exact H2|]. apply Step_same; try reflexivity. intros x. unfold srefs at 1. cbn. rewrite map_app. intros I. unfold rr, srefs. cbn [map] in I. inapp.
    intuition (subst; auto). right. apply (R_mono s1); [apply H2|exact R1]. }
  clearbody s3. clear H2.
  set (s4 := if im_alpha im then _ else s3).
  assert (H4 : Step s3 s4 /\ (im_alpha im = true -> nlookup ix (g_smasks s4) <> None)).
  { unfold s4. destruct (im_alpha im); [|split; [apply Step_refl|discriminate]]. cbn [addObj].
    pose proof (Step_add s3 OSMaskImg (nil_refs OSMaskImg s3 eq_refl) ltac:(discriminate)) as A. pose proof (R_new s3 OSMaskImg) as B. cbn [addObj snd] in A, B.
    set (m := List.length (g_objs s3)) in *. set (t := set_objs (g_objs s3 ++ [OSMaskImg]) s3) in *.
    assert (EM : m = List.length (g_objs s3)) by reflexivity. assert (EL : List.length (g_objs t) = S m) by (unfold t; cbn [g_objs set_objs]; rewrite app_length; cbn [List.length]; lia).
    assert (ES : g_smasks t = g_smasks s3) by reflexivity. assert (EG : g_rgbs t = g_rgbs s3) by reflexivity. clearbody t m. split.
    - destruct A as [AK AF AI AP AD AO]. constructor.
      + exact AK.
      + intros x I. assert (J : In x (rr t) \/ R (set_smasks ((ix, m) :: g_smasks t) t) x); [|destruct J as [J|J]; [exact (AF x J)|right; exact J]]. revert I. unfold rr at 1. unfold srefs. cbn. intros I. unfold rr, srefs. inapp. intuition (subst; auto).
      + intros i im' use N U. destruct (AI i im' use N U) as [J|[J1 J2]]; [left; exact J|right]. unfold whole_img. cbn. split; intros Q; [specialize (J1 Q)|specialize (J2 Q)]; try assumption; destruct (Nat.eqb i ix); [discriminate|assumption].
      + exact AP.
      + intros i. destruct (AD i) as [D1 D2]. cbn. split; [|auto]. destruct (Nat.eqb i ix); [discriminate|auto].
      + intros [[N1 N2] [F1 F2]]. unfold own. cbn [g_smasks g_rgbs g_objs set_smasks]. rewrite ES, EG, EL. split; [split; [apply fresh_snd; [rewrite EM; exact F1|exact N1]|exact N2]|].
        split; [constructor; [cbn; lia|]|]; (eapply Forall_impl; [|eassumption]); cbv beta; intros; lia.
    - intros _. cbn. rewrite Nat.eqb_refl. discriminate. }
  clearbody s4. destruct H4 as [H4 C4].
  set (s5 := if im_indexed im then _ else s4).
  assert (H5 : Step s4 s5 /\ (im_indexed im = true -> nlookup ix (g_rgbs s5) <> None)).
  { unfold s5. destruct (im_indexed im); [|split; [apply Step_refl|discriminate]]. cbn [addObj].
    pose proof (Step_add s4 ODeviceRGB (nil_refs ODeviceRGB s4 eq_refl) ltac:(discriminate)) as A. pose proof (R_new s4 ODeviceRGB) as B. cbn [addObj snd] in A, B.
    set (m := List.length (g_objs s4)) in *. set (t := set_objs (g_objs s4 ++ [ODeviceRGB]) s4) in *.
    assert (EM : m = List.length (g_objs s4)) by reflexivity. assert (EL : List.length (g_objs t) = S m) by (unfold t; cbn [g_objs set_objs]; rewrite app_length; cbn [List.length]; lia).
    assert (ES : g_smasks t = g_smasks s4) by reflexivity. assert (EG : g_rgbs t = g_rgbs s4) by reflexivity. clearbody t m. split.
    - destruct A as [AK AF AI AP AD AO]. constructor.
      + exact AK.
      + intros x I. assert (J : In x (rr t) \/ R (set_rgbs ((ix, m) :: g_rgbs t) t) x); [|destruct J as [J|J]; [exact (AF x J)|right; exact J]]. revert I. unfold rr at 1. unfold srefs. cbn. intros I. unfold rr, srefs. inapp. intuition (subst; auto).
      + intros i im' use N U. destruct (AI i im' use N U) as [J|[J1 J2]]; [left; exact J|right]. unfold whole_img. cbn. split; intros Q; [specialize (J1 Q)|specialize (J2 Q)]; try assumption; destruct (Nat.eqb i ix); [discriminate|assumption].
      + exact AP.
      + intros i. destruct (AD i) as [D1 D2]. cbn. split; [auto|]. destruct (Nat.eqb i ix); [discriminate|auto].
      + intros [[N1 N2] [F1 F2]]. unfold own. cbn [g_smasks g_rgbs g_objs set_rgbs]. rewrite ES, EG, EL. split; [split; [exact N1|apply fresh_snd; [rewrite EM; exact F2|exact N2]]|].
        split; [|constructor; [cbn; lia|]]; (eapply Forall_impl; [|eassumption]); cbv beta; intros; lia.
    - intros _. cbn. rewrite Nat.eqb_refl. discriminate. }
  clearbody s5. destruct H5 as [H5 C5].
  assert (H : Step s1 s5) by (eapply Step_trans; [exact H3|eapply Step_trans; eauto]).
  destruct H as [HK HF HI HP HD HO]. constructor; [| | | | |auto].
  - destruct K1 as [k1 E1], HK as [k2 E2]. exists (k1 ++ k2). now rewrite E2, E1, app_assoc.
  - intros x I. destruct (HF x I) as [J|J]; [left; now apply RR|now right].
  - intros i im' use N U. destruct (HI i im' use N U) as [J|J]; [|now right]. destruct (Nat.eq_dec i ix) as [->|NE]; [|left; now apply OLD].
    right. rewrite NX in J. injection J as <- <-. split; [|exact C5]. intros A. apply (st_ids _ _ H5), C4, A.
  - rewrite <- PE. exact HP.
  - intros i. destruct ID as [<- <-]. apply HD.
Qed.
Lemma S_maskImage id im s : snd (fst (maskImage id im s)) <> Panic -> Step s (fst (fst (maskImage id im s))).
Proof.
  unfold maskImage. destruct (lookup _ _); intros NP.
  - pose proof (S_getContent s) as H. destruct (getContent s). exact H.
  - destruct (im_ok im); [|apply Step_refl]. cbn [addObj] in *.
    set (s1 := set_objs (g_objs s ++ [OImage im AsMask]) s) in *.
    assert (H1 : Step s s1) by (apply (Step_add s (OImage im AsMask)); [now apply nil_refs|congruence]).
    assert (R1 : R s1 (at_ KImage (List.length (g_objs s)))) by apply (R_new s (OImage im AsMask)). clearbody s1.
    pose proof (S_getContent s1) as H2. destruct (getContent s1) as [ci s2]. cbn [snd] in H2. destruct (g_pagesize s2); cbn [fst snd] in *; [|now destruct NP].
    eapply Step_trans; [exact H1|]. eapply Step_trans; [exact H2|]. apply Step_same; try reflexivity.
    intros x. unfold srefs at 1. cbn. rewrite map_app. intros I. unfold rr, srefs. cbn [map] in I. inapp. intuition (subst; auto). right. apply (R_mono s1); [apply H2|exact R1].
Qed.
Lemma S_mask id im s : snd (fst (maskHolder id im s)) <> Panic -> Step s (fst (fst (maskHolder id im s))).
Proof.
  unfold maskHolder. pose proof (S_maskImage id im s) as H. destruct (maskImage id im s) as [[s1 r] ix]. cbn [fst snd] in *.
  destruct r; cbn [fst snd]; [|exact H|exact H]. specialize (H ltac:(discriminate)). destruct (g_pagesize s1); cbn [fst snd]; [|intros N; now destruct N]. cbn [addObj].
  set (s2 := set_objs (g_objs s1 ++ [OXGroup ix]) s1). assert (H2 : Step s1 s2) by (apply (Step_add s1 (OXGroup ix)); [now apply nil_refs|discriminate]).
  assert (R2 : R s2 (at_ KGroup (List.length (g_objs s1)))) by apply (R_new s1 (OXGroup ix)). set (gi := List.length (g_objs s1)) in *.
  set (s3 := set_objs (g_objs s2 ++ [OMask gi]) s2). assert (H3 : Step s2 s3).
  { apply (Step_add s2 (OMask gi)); [|discriminate]. intros x [<-|[]]. right. apply (R_mono s2); [exists [KMask]; apply kinds_app|exact R2]. }
  assert (R3 : R s3 (at_ KMask (List.length (g_objs s2)))) by apply (R_new s2 (OMask gi)). set (mi := List.length (g_objs s2)) in *. clearbody s2 s3 mi.
  match goal with |- context [getCachedExtGState ?e s3] => pose proof (S_cached e s3) as H4; destruct (getCachedExtGState e s3) as [ei s4] end. cbn [fst snd] in *. intros _.
  repeat (eapply Step_trans; [eassumption|]). apply H4. cbn. intros m E. now injection E as <-.
Qed.
Lemma S_link l s : Step s (fst (addLink l s)).
Proof.
  unfold addLink. destruct (g_page s) as [p|]; [|apply Step_refl]. cbn [addObj]. set (l' := {| lk_x := lk_x l |}).
  pose proof (Step_add s (OAnnot l') (nil_refs (OAnnot l') s eq_refl) ltac:(discriminate)) as A. pose proof (R_new s (OAnnot l')) as B. cbn [addObj snd] in A, B.
  set (n := List.length (g_objs s)) in *. set (t := set_objs (g_objs s ++ [OAnnot l']) s) in *. clearbody t n. cbn [fst].
  eapply Step_trans; [exact A|]. apply Step_upd.
  - now intros [].
  - intros o x. destruct o; auto. cbn [orefs pg_links pg_contents]. rewrite map_app. inapp. cbn [map]. inapp. intuition (subst; auto).
  - intros o im use E. destruct o; congruence.
Qed.
Lemma in_unless (c : bool) k n x : In x (unless c k n) -> c = false /\ x = (k, n).
Proof. destruct c; cbn; [tauto|]. intros [<-|[]]. auto. Qed.
Lemma un_in (c : bool) k n : c = false -> In (k, n) (unless c k n).
Proof. intros ->. now left. Qed.
Lemma S_outline title w s : (strict = true -> g_page s <> None) -> Step s (fst (addOutline title w s)).
Proof.
  intros PG. unfold addOutline. cbn [addObj]. set (num := Z.of_nat (List.length (g_objs s)) + 1). set (o := {| ol_title := title |}).
  set (s1 := set_objs (g_objs s ++ [OOutline o]) s).
  assert (H1 : Step s s1).
  { apply (Step_add s (OOutline o)); [|discriminate]. intros x I. left. cbn [orefs o ol_prev ol_next ol_first ol_last ol_dest] in I. cbn [Z.eqb unless] in I. inapp.
    destruct I as [I|[I|[I|[I|I]]]]; try (destruct I).
    - apply in_or_app. right. unfold srefs. inapp. auto 6.
    - apply in_unless in I as [E ->]. apply in_or_app. right. unfold srefs. destruct (g_page s) as [p|]; [|cbn in E; rewrite andb_true_r in E; apply negb_false_iff in E; now apply PG in E]. inapp. change (KPage, Z.of_nat p + 1) with (at_ KPage p). auto 20. }
  assert (R1 : R s1 (KOutline, num)) by apply (R_new s (OOutline o)). 
  assert (N1 : g_outl_lastobj s1 = g_outl_lastobj s) by reflexivity.
  clearbody s1 num. clear o.
  set (s2 := set_outl_last num s1). assert (H2 : Step s1 s2).
  { apply Step_same; try reflexivity. intros x. unfold srefs at 1. cbn. intros I. unfold rr, srefs. inapp. intuition auto. match goal with H : In x (unless _ _ _) |- _ => apply in_unless in H as [_ ->]; auto end. }
  set (s3 := if g_outl_first s2 <=? 0 then set_outl_first num s2 else s2). assert (H3 : Step s2 s3).
  { unfold s3. destruct (_ <=? 0); [|apply Step_refl]. apply Step_same; try reflexivity. intros x. unfold srefs at 1. cbn. intros I. unfold rr, srefs. cbn. inapp. intuition auto. }
  assert (R3 : R s3 (KOutline, num)) by (apply (R_mono s1); [eapply st_kind, Step_trans; eauto|exact R1]).
  clearbody s2 s3. clear N1. assert (H4 : forall k c, Step s3 (set_outl_count k (set_outl_lastobj c s3))) by (intros; apply Step_frame; reflexivity).
  assert (HS : Step s s3) by (eapply Step_trans; [exact H1|eapply Step_trans; eauto]). clear H1 H2 H3.
  match goal with |- context [match ?x with Some j => _ | None => s3 end] => destruct x as [j|] end; cbn [fst].
  - eapply Step_trans; [exact HS|]. match goal with |- context [set_objs (upd (g_objs s3) j ?f) s3] => assert (H5 : Step s3 (set_objs (upd (g_objs s3) j f) s3)) end.
    { apply Step_upd.
      - now intros [].
      - intros ob x. destruct ob; auto. cbn [orefs ol_prev ol_next ol_first ol_last ol_dest]. inapp. intuition auto.
        match goal with H : In x (unless _ _ num) |- _ => apply in_unless in H as [_ ->]; auto end.
      - intros ob im use E. destruct ob; congruence. }
    eapply Step_trans; [exact H5|]. apply Step_frame; reflexivity.
  - eapply Step_trans; [exact HS|]. apply H4.
Qed.
Lemma S_import objs start : forall ks s, Step s (fold_left (fun s k => match zlookup (start + Z.of_nat k) objs with Some (b :: d) => snd (addObj (OImported (b :: d)) s) | _ => s end) ks s).
Proof.
  induction ks as [|k ks IH]; intros s; [apply Step_refl|]. cbn [fold_left]. eapply Step_trans; [|apply IH].
  destruct (zlookup _ _) as [[|b d]|]; try apply Step_refl. apply Step_add; [now apply nil_refs|discriminate].
Qed.
Lemma S_addCs n s : Step s (fst (addColorSpace n s)).
Proof.
  unfold addColorSpace. cbn [addObj]. set (c := if existsb _ _ then 0 else _).
  pose proof (Step_add s (OColorSpace n c) (nil_refs (OColorSpace n c) s eq_refl) ltac:(discriminate)) as A. pose proof (R_new s (OColorSpace n c)) as B. cbn [addObj snd] in A, B.
  set (m := List.length (g_objs s)) in *. set (t := set_objs (g_objs s ++ [OColorSpace n c]) s) in *. clearbody t m. destruct (existsb _ _); cbn [fst]; [exact A|].
  eapply Step_trans; [exact A|]. apply Step_same; try reflexivity. intros x. unfold srefs at 1. cbn. rewrite map_app. intros I. unfold rr, srefs. cbn [map] in I. inapp. intuition (subst; auto).
Qed.
Lemma S_anchor n y s : (strict = true -> g_page s <> None) -> Step s (set_anchors ((n, (g_page s, y)) :: g_anchors s) s).
Proof.
  intros PG. apply Step_same; try reflexivity. intros x. unfold srefs at 1. cbn. intros I. unfold rr, srefs. destruct (g_page s); [inapp; intuition (subst; auto 20)|].
  assert (ST : strict = false) by (destruct strict; [now destruct PG|reflexivity]). rewrite ST in *. inapp; intuition (subst; auto 20).
Qed.
Lemma S_sop s o : (strict = true -> marks o = true -> g_page s <> None) -> snd (sstep s o) <> Panic -> Step s (fst (sstep s o)).
Proof.
  destruct o; cbn [sstep]; intros PG NP; try (apply S_draw); try (apply Step_frame; reflexivity).
  - unfold text in *. destruct (g_font s); [|apply Step_refl]. apply S_draw.
  - apply S_setPage.
  - apply S_addFont.
  - apply S_setFont.
  - now apply S_image.
  - pose proof (S_mask mid mim s) as H. destruct (maskHolder mid mim s) as [[s1 r] e]. cbn [fst snd] in *. destruct r; try (now apply H).
    eapply Step_trans; [apply H; discriminate|]. now apply S_image.
  - apply S_link.
  - apply S_anchor. auto.
  - apply S_outline. auto.
  - apply S_outline. auto.
  - apply S_import.
  - apply S_addCs.
  - unfold setColorSpace. destruct (find_cs _ _); [apply S_draw|apply Step_refl].
  - pose proof (S_saveTr alpha bm s) as H. destruct (saveTransparency alpha bm s) as [t s1]. cbn [fst snd] in *. eapply Step_trans; [exact H|]. apply Step_frame; reflexivity.
  - cbn [fst]. unfold setCompressLevel. destruct (_ <? _); [|destruct (_ <? _)]; (apply Step_frame; reflexivity) || apply Step_refl.
Qed.
Lemma S_sops l : forall s, g_page s <> None -> snd (run_sops s l) <> Panic -> Step s (fst (run_sops s l)).
Proof.
  induction l as [|o l IH]; intros s PG; [intros; apply Step_refl|]. cbn [run_sops]. pose proof (S_sop s o (fun _ _ => PG)) as H. destruct (sstep s o) as [s1 r]. cbn [fst snd] in H.
  destruct r; intros NP; [..|now destruct NP]; (eapply Step_trans; [apply H; discriminate|apply IH; [|exact NP]; now apply (st_page s s1), PG; apply H]).
Qed.
Lemma S_reset s : Step s (resetXY s).
Proof. apply Step_frame; reflexivity. Qed.
Lemma S_page_both sz s : snd (addPage sz s) <> Panic -> Step s (fst (addPage sz s)) /\ g_page (fst (addPage sz s)) <> None.
Proof.
  unfold addPage. cbn [addObj]. set (s0 := set_pagesize _ s). assert (H0 : Step s s0) by (apply Step_frame; reflexivity). clearbody s0.
  pose proof (Step_add s0 (OPage (new_page sz)) (nil_refs (OPage (new_page sz)) s0 eq_refl) ltac:(discriminate)) as A. pose proof (R_new s0 (OPage (new_page sz))) as B. cbn [addObj snd] in A, B.
  set (m := List.length (g_objs s0)) in *. set (t := set_objs (g_objs s0 ++ [OPage (new_page sz)]) s0) in *. clearbody t m.
  set (s1 := set_page (Some m) t). assert (H1 : Step t s1).
  { constructor; [| | | | |apply own_mono; try reflexivity; cbn; lia].
    - exists []. now rewrite app_nil_r.
    - intros x. unfold rr at 1. cbn [g_objs s1 set_page]. rewrite in_app_iff. intros [I|I]; [left; apply in_or_app; now left|]. revert I. unfold srefs at 1. cbn. intros I. unfold rr, srefs. inapp. intuition (subst; auto).
    - auto.
    - discriminate.
    - auto. }
  set (s2 := resetXY _). assert (H2 : Step s1 s2) by (apply Step_frame; reflexivity). assert (PG : g_page s2 <> None) by (apply (st_page s1 s2 H2); discriminate). clearbody s2.
  assert (HS : Step s s2) by (repeat (eapply Step_trans; [eassumption|]); apply Step_refl). clear - HS PG.
  assert (CB : forall s f, g_page s <> None -> snd (match f with None => (s, Ok) | Some f => match run_sops s f with (s, Panic) => (s, Panic) | (s, _) => (resetXY s, Ok) end end) <> Panic ->
     Step s (fst (match f with None => (s, Ok) | Some f => match run_sops s f with (s, Panic) => (s, Panic) | (s, _) => (resetXY s, Ok) end end))).
  { intros u [l|] PU N; [|apply Step_refl]. pose proof (S_sops l u PU) as H. destruct (run_sops u l) as [u1 r]. cbn [fst snd] in *.
    destruct r; cbn [fst snd] in *; [..|now destruct N]; (eapply Step_trans; [apply H; discriminate|apply S_reset]). }
  pose proof (CB s2 (g_header s2) PG) as C1. set (p := match g_header s2 with None => _ | Some f => _ end) in *. destruct p as [s3 r]. cbn [fst snd] in C1.
  destruct r; intros NP; [..|now destruct NP]; (assert (P3 : g_page s3 <> None) by (apply (st_page s2 s3); [apply C1; discriminate|exact PG]);
    pose proof (CB s3 _ P3 NP) as C2; split; [eapply Step_trans; [exact HS|]; eapply Step_trans; [apply C1; discriminate|exact C2]|exact (st_page _ _ C2 P3)]).
Qed.
Lemma S_page sz s : snd (addPage sz s) <> Panic -> Step s (fst (addPage sz s)). Proof. apply S_page_both. Qed.
Lemma S_page_has sz s : snd (addPage sz s) <> Panic -> g_page (fst (addPage sz s)) <> None. Proof. apply S_page_both. Qed.
(** ** Output *)
Definition inst (st : prep_st) (s : gp) : gp := set_objs (ps_objs st) (set_kids (ps_kids st) (set_pagecount (ps_count st) (set_encid (ps_enc st) s))).
Lemma nth_R s i o : nth_error (g_objs s) i = Some o -> R s (at_ (kind_of o) i).
Proof. intros N. split; [cbn; lia|]. cbn [at_ snd fst]. replace (Z.to_nat (Z.of_nat i + 1 - 1)) with i by lia. now rewrite nth_error_map, N. Qed.
Lemma S_prep s : forall ks st, Step (inst st s) (inst (fold_left prep_step ks st) s).
Proof.
  induction ks as [|i ks IH]; intros st; [apply Step_refl|]. cbn [fold_left]. eapply Step_trans; [|apply IH]. clear IH ks. unfold prep_step.
  destruct (nth_error (ps_objs st) i) as [o|] eqn:N; [|apply Step_refl]. assert (NR : R (inst st s) (at_ (kind_of o) i)) by now apply nth_R.
  destruct o; try apply Step_refl.
  - apply Step_same; try reflexivity. intros x. unfold srefs at 1. cbn. rewrite map_app. intros I. unfold rr, srefs. cbn [map] in I. inapp. intuition (subst; auto).
  - destruct (ps_cur st) as [p0|]; [|apply Step_refl].
    change (Step (inst st s) (set_objs (upd (g_objs (inst st s)) p0 (add_content (Z.of_nat i + 1))) (inst st s))). apply Step_upd.
    + now intros [].
    + intros o x. destruct o; auto. cbn [add_content orefs pg_links pg_contents]. rewrite map_app. cbn [map]. inapp. intuition (subst; auto).
    + intros o im use E. destruct o; cbn in E; congruence.
  - apply Step_same; try reflexivity. intros x. unfold srefs at 1. cbn. intros I. unfold rr, srefs. inapp. intuition auto.
    match goal with H : In x (unless _ _ _) |- _ => apply in_unless in H as [_ ->]; auto end.
Qed.
Lemma S_written s : Step s (set_objs (map written_obj (g_objs s)) s).
Proof.
  assert (K : map kind_of (map written_obj (g_objs s)) = map kind_of (g_objs s)) by (rewrite map_map; apply map_ext; now intros []).
  constructor; [| | | | |apply own_mono; try reflexivity; cbn [g_objs set_objs]; rewrite map_length; lia].
  - exists []. rewrite app_nil_r. exact K.
  - intros x. unfold rr at 1. cbn [g_objs set_objs]. replace (flat_map orefs (map written_obj (g_objs s))) with (flat_map orefs (g_objs s)); [auto|].
    induction (g_objs s) as [|o l IH]; [reflexivity|]. cbn [map flat_map]. rewrite <- IH by (cbn in K; congruence). f_equal. now destruct o.
  - intros i im use. cbn [g_objs set_objs]. rewrite nth_error_map. destruct (nth_error (g_objs s) i) as [o|]; [|discriminate]. cbn. intros E _. left. injection E as E. destruct o; cbn in E; congruence.
  - auto.
  - auto.
Qed.
Lemma S_output s : Step s (output s).
Proof.
  unfold output. eapply Step_trans; [|apply S_written]. unfold prepare.
  set (s1 := if cf_protect (g_cfg s) then snd (addObj OEncryption s) else s).
  assert (H1 : Step s s1) by (unfold s1; destruct (cf_protect _); [apply Step_add; [now apply nil_refs|discriminate]|apply Step_refl]). clearbody s1.
  set (s2 := if 0 <? g_outl_count s1 then set_cat_outl 3 s1 else s1). assert (H2 : Step s1 s2).
  { unfold s2. destruct (_ <? _); [|apply Step_refl]. apply Step_same; try reflexivity. intros x. unfold srefs at 1. cbn. intros I. unfold rr, srefs. inapp. cbn [In]. intuition (subst; auto 20). }
  clearbody s2. eapply Step_trans; [exact H1|]. eapply Step_trans; [exact H2|].
  set (st0 := {| ps_objs := g_objs s2 |}). eapply Step_trans; [|apply (S_prep s2 (seq 0 (List.length (g_objs s2))) st0)]. apply Step_frame; reflexivity.
Qed.
Lemma Good_start c s : Good (start c s).
Proof. constructor; [| |split; split; constructor]; [|intros [|[|[|[|i]]]] im use; cbn; try discriminate; destruct i; discriminate]. intros x. cbn. intuition (subst; split; (cbn; lia) || reflexivity). Qed.
Lemma Good_op s o : (forall x, o = Do x -> strict = true -> marks x = true -> g_page s <> None) -> snd (step s o) <> Panic -> Good s ->
  Good (fst (step s o)) /\ (match o with Start _ => True | AddPage _ => g_page (fst (step s o)) <> None | _ => g_page s <> None -> g_page (fst (step s o)) <> None end).
Proof.
  intros PG NP G. assert (DN : forall s', Step s s' -> Good s' /\ (g_page s <> None -> g_page s' <> None)) by (intros s' H; split; [now apply (Step_good s)|apply H]).
  destruct o.
  - assert (E : step s (Do o) = sstep s o) by reflexivity. rewrite E in *. clear E. apply DN. apply S_sop; [now apply PG|exact NP].
  - split; [apply Good_start|exact I].
  - assert (E : step s (AddPage size) = addPage size s) by reflexivity. rewrite E in *. clear E. split; [apply DN; now apply S_page|now apply S_page_has].
  - apply DN. assert (E : fst (step s (AddHeader f)) = set_header f s) by reflexivity. rewrite E. apply Step_frame; reflexivity.
  - apply DN. assert (E : fst (step s (AddFooter f)) = set_footer f s) by reflexivity. rewrite E. apply Step_frame; reflexivity.
  - assert (E : fst (step s Output) = output s) by reflexivity. rewrite E. apply DN. apply S_output.
Qed.
Lemma Good_exec l : forall have s, (strict = true -> marks_on_pages have l = true) -> (have = true -> g_page s <> None) -> finishes s l -> Good s -> Good (exec s l).
Proof.
  induction l as [|o l IH]; intros have s M P F G; [exact G|]. destruct F as [F1 F2]. unfold exec. cbn [fold_left].
  assert (PG : forall x, o = Do x -> strict = true -> marks x = true -> g_page s <> None).
  { intros x -> ST MX. specialize (M ST). cbn in M. rewrite MX, orb_false_r in M. apply andb_true_iff in M as [M _]. auto. }
  destruct (Good_op s o PG F1 G) as [G' P']. 
  destruct o; cbn [marks_on_pages] in M.
  - apply (IH have); auto. intros ST. specialize (M ST). now apply andb_true_iff in M as [_ M].
  - now apply (IH false).
  - apply (IH true); auto.
  - apply (IH have); auto.
  - apply (IH have); auto.
  - apply (IH have); auto.
Qed.
End Invariant.

(** ** Texts *)
Lemma R_obj t k n : R t (k, n) -> exists o, obj_no t n = Some o /\ kind_of o = k.
Proof.
  intros [P N]. cbn [fst snd] in *. unfold obj_no. destruct (Z.leb_spec n 0); [lia|]. rewrite nth_error_map in N. destruct (nth_error (g_objs t) (Z.to_nat (n - 1))) as [o|]; [|discriminate].
  exists o. split; [reflexivity|]. cbn in N. congruence.
Qed.
Lemma res_ok t k (s : string) ks k' n : In (k, s, ks) wants -> In k' ks -> R t (k', n) -> resolves t k (bs s) (n, 0).
Proof. intros W I H. apply R_obj in H as (o & O & E). split; [reflexivity|]. exists o. split; [exact O|]. exists s, ks. rewrite E. auto. Qed.
Ltac wanted := unfold wants; cbn [In]; repeat (first [left; reflexivity|right]).
Lemma reads_value l o v rest : reads_as l o -> read_object l = Some (v, rest) -> v = o.
Proof. intros (r & E & _) H. congruence. Qed.
Lemma reads_value_s l o d v rest : reads_as_stream l o d -> read_object l = Some (v, rest) -> v = o.
Proof. intros (a & b & c & E & _) H. congruence. Qed.
Definition entry_refs (l : list (bytes * pobj)) : list (bytes * (Z * Z)) := flat_map (fun e => map (pair (fst e)) (refs_in (snd e))) l.
Lemma entry_app a b : entry_refs (a ++ b) = entry_refs a ++ entry_refs b. Proof. apply flat_map_app. Qed.
Lemma refs_arr l : refs_in (OArr (map ref l)) = map (fun n => (n, 0)) l.
Proof. induction l as [|x l IH]; [reflexivity|]. cbn [map]. cbn in IH |- *. now rewrite IH. Qed.
Lemma refs_dict {A} (f : A -> bytes * pobj) (g : A -> Z) l : (forall x, snd (f x) = ref (g x)) -> refs_in (ODict (map f l)) = map (fun x => (g x, 0)) l.
Proof. intros H. induction l as [|x l IH]; [reflexivity|]. cbn [map]. specialize (H x). destruct (f x) as [k v]. cbn [snd] in H. subst v. cbn in IH |- *. now rewrite IH. Qed.
Lemma refs_dict_app a b : refs_in (ODict (a ++ b)) = refs_in (ODict a) ++ refs_in (ODict b).
Proof. induction a as [|[k v] a IH]; [reflexivity|]. cbn [app]. cbn in IH |- *. rewrite IH. now rewrite app_assoc. Qed.
(** A page with several contents is not readable. *)
Lemma close_dict_pushes es stk acc : close_dict (pushes es stk) acc = close_dict stk (es ++ acc).
Proof.
  revert acc. unfold pushes. induction es as [|e es IH] using rev_ind; intros acc; [reflexivity|]. rewrite dstack_app. cbn [dstack rev flat_map app close_dict]. rewrite IH, <- app_assoc. now destruct e.
Qed.
Lemma page_multi res links c1 c2 cs size trim :
  (forall w h, size = Some (w, h) -> finite w /\ finite h) -> (forall b, trim = Some b -> finite_box b) ->
  read_object (page_body res links (c1 :: c2 :: cs) size trim) = None.
Proof.
  intros FS FT. unfold page_body, read_object.
  assert (FT' : forall b, trimSet trim = Some b -> finite_box b).
  { intros b E. apply FT. unfold trimSet in E. destruct trim as [b'|]; [|discriminate]. cbv zeta in E. destruct (_ && _ && _ && _); [discriminate|exact E]. }
  clear FT. generalize dependent (trimSet trim). intros tb FT. clear trim.
  match goal with |- context[pread _ (_ ++ _ ++ _ ++ _ ++ _ ++ _ ++ _ ++ _ ++ _ ++ _ ++ ?a ++ (bs "  /Contents " ++ ?b ++ [NL]) ++ ?c ++ ?d ++ _)] =>
    assert (BA : exists a', block a a') by (destruct links as [|l0 ls]; [exists []; apply block_nil|exists [(bs "Annots", OArr (map ref (l0 :: ls)))]]; pose proof (read_refs' (l0 :: ls)) as HK; generalize dependent (map ref (l0 :: ls));
       generalize (flat_map (fun n => fmt_d n ++ bs " 0 R ") (l0 :: ls)); intros ft mr HK; blk);
    assert (BB : exists r1 r2 s, elems b (s ++ [ORef r1 0; ORef r2 0]));
    [|assert (BC : exists c', block c c') by (destruct size as [[w h]|]; [destruct (FS w h eq_refl) as [FW FH]; exists [(bs "MediaBox", OArr [OInt 0; OInt 0; r2 w; r2 h])]; hidereal; blk|exists []; apply block_nil]);
    assert (BD : exists d', block d d') by (destruct tb as [b0|]; [destruct (FT b0 eq_refl) as (F1 & F2 & F3 & F4); exists [(bs "TrimBox", OArr [r2 (bx_l b0); r2 (bx_t b0); r2 (bx_r b0); r2 (bx_b b0)])]; hidereal; blk|exists []; apply block_nil]);
    generalize dependent a; generalize dependent b; generalize dependent c; generalize dependent d]
  end.
  - assert (L : exists s r1 r2, c1 :: c2 :: cs = s ++ [r1; r2]).
    { destruct (@exists_last _ (c1 :: c2 :: cs) ltac:(discriminate)) as (l1 & r2 & E1). destruct l1 as [|y l1]; [destruct cs; discriminate|].
      destruct (@exists_last _ (y :: l1) ltac:(discriminate)) as (l2 & r1 & E2). exists l2, r1, r2. rewrite E1, E2, <- app_assoc. reflexivity. }
    destruct L as (s & r1 & r2 & L). exists r1, r2, (map ref s). rewrite L. pose proof (read_refs (s ++ [r1; r2])) as HK. rewrite map_app in HK. exact HK.
  - intros d [d' BD] c [c' BC] b (r1 & r2 & s & BB) a [a' BA]. flat. repeat piece.
    unfold pusha. rewrite map_app, rev_app_distr. cbn [map rev app]. repeat piece.
    change (bs ">>" ++ [10]) with [62; 62; 10]. rewrite !pread_cons.
    match goal with |- context[pstep (PRun SIdle ?st) 62] => change (pstep (PRun SIdle st) 62) with (PRun SGt st) end. cbn [pstep Z.eqb Pos.eqb].
    rewrite ?close_dict_pushes. reflexivity.
Qed.
