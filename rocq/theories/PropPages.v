(** PropPages.v — C07 for whole histories: every page shows what was drawn while it was the selected page, SetPage included. *)
From Verif Require Import Base DocModel DocSpec DocProofs DocInv PropDoc PropSetPage.
Open Scope Z_scope.

(** ** The abstract document with a selected page *)
(** A call does to page [k] what it does to the page of a one-page document with the same fonts, images and colour spaces. *)
Definition on_page (k : nat) (f : adoc -> adoc) (d : adoc) : adoc :=
  match nth_error (a_pages d) k with
  | Some p => let d' := f (with_pages [p] d) in with_pages (upd (a_pages d) k (fun q => hd q (a_pages d'))) d'
  | None => f d
  end.
Definition p_op (b : adoc * nat) (o : op) : adoc * nat :=
  let '(d, cur) := b in
  match o with
  | Do (SetPage n) => (d, if (1 <=? n) && (n <=? zlen (a_pages d)) then Z.to_nat (n - 1) else cur)
  | Do o => (on_page cur (fun d => fst (a_sop d o)) d, cur)
  | AddPage sz => (a_op d (AddPage sz), List.length (a_pages d))      (* a new page is the selected one *)
  | o => (a_op d o, cur)
  end.
Definition p_doc (c : config) (l : list op) : adoc * nat := fold_left p_op l (a_empty c, O).

(** Histories: a drawing follows every AddPage before anything else is drawn or selected; no link is added after SetPage before
    the next AddPage (C07_links_refuted); no masked image, callbacks, Start or intermediate output.  The refutations in
    PropSetPage.v show what happens otherwise. *)
Fixpoint paged (st : status) (moved : bool) (l : list op) : bool :=
  match l with
  | [] => match st with Blank => false | _ => true end
  | o :: r =>
      match st, o with
      | (NoPage | Drawn), AddPage _ => paged Blank false r
      | _, AddHeader None | _, AddFooter None => paged st moved r
      | Blank, Do (Draw _ _) => paged Drawn false r
      | Drawn, Do (SetPage _) => paged Drawn true r
      | Drawn, Do (AddLink _) => negb moved && paged Drawn moved r
      | Drawn, Do o => plain_sop o && paged Drawn moved r
      | _, Do o => sets_up o && plain_sop o && paged st moved r
      | _, _ => false
      end
  end.

(** ** States that differ only in what the contents hold and which is current *)
Definition fill1 (F : nat -> list item) (i : nat) (o : obj) : obj := match o with OContent _ => OContent (F i) | _ => o end.
Fixpoint refill (F : nat -> list item) (i : nat) (l : list obj) : list obj := match l with [] => [] | o :: r => fill1 F i o :: refill F (S i) r end.
Definition tw (g : option nat) (F : nat -> list item) (s : gp) : gp := set_content g (set_objs (refill F 0 (g_objs s)) s).
Definition addF (j : nat) (dl : list item) (F : nat -> list item) (k : nat) : list item := if Nat.eqb k j then F k ++ dl else F k.
(** Where the contents are. *)
Fixpoint cpos (i : nat) (l : list obj) : list nat := match l with [] => [] | OContent _ :: r => i :: cpos (S i) r | _ :: r => cpos (S i) r end.
Fixpoint pagesof (l : list obj) : list page := match l with [] => [] | OPage p :: r => p :: pagesof r | _ :: r => pagesof r end.

Lemma refill_app F a : forall i b, refill F i (a ++ b) = refill F i a ++ refill F (i + List.length a) b.
Proof. induction a as [|o a IH]; intros i b; cbn [app refill List.length]; [now rewrite Nat.add_0_r|]. rewrite IH. now rewrite Nat.add_succ_comm. Qed.
Lemma cpos_app a : forall i b, cpos i (a ++ b) = cpos i a ++ cpos (i + List.length a) b.
Proof. induction a as [|o a IH]; intros i b; cbn [app cpos List.length]; [now rewrite Nat.add_0_r|]. rewrite IH, Nat.add_succ_comm. now destruct o. Qed.
Lemma refill_len F l : forall i, List.length (refill F i l) = List.length l.
Proof. induction l as [|o l IH]; intros i; cbn; [reflexivity|]. now rewrite IH. Qed.
Lemma refill_ext F G l : forall i, (forall k, In k (cpos i l) -> F k = G k) -> refill F i l = refill G i l.
Proof.
  induction l as [|o l IH]; intros i H; [reflexivity|]. cbn [refill]. rewrite (IH (S i)); [|intros k K; apply H; cbn [cpos]; destruct o; try exact K; now right].
  f_equal. destruct o; try reflexivity. cbn [fill1]. now rewrite (H i (or_introl eq_refl)).
Qed.
Lemma refill_refill F G l : forall i, refill F i (refill G i l) = refill F i l.
Proof. induction l as [|o l IH]; intros i; [reflexivity|]. cbn [refill]. rewrite IH. f_equal. now destruct o. Qed.
Lemma cpos_refill F l : forall i, cpos i (refill F i l) = cpos i l.
Proof. induction l as [|o l IH]; intros i; [reflexivity|]. cbn [refill cpos]. rewrite IH. now destruct o. Qed.
Lemma kinds_refill F l : forall i, kinds (refill F i l) = kinds l.
Proof. induction l as [|o l IH]; intros i; [reflexivity|]. cbn [refill kinds flat_map]. unfold kinds in IH. rewrite IH. now destruct o. Qed.
Lemma sv_refill F l : forall i, map sv (refill F i l) = map sv l.
Proof. induction l as [|o l IH]; intros i; [reflexivity|]. cbn [refill map]. rewrite IH. f_equal. now destruct o. Qed.
Lemma cpos_bound l : forall i k, In k (cpos i l) -> (i <= k < i + List.length l)%nat.
Proof. induction l as [|o l IH]; intros i k H; [contradiction|]. cbn [cpos List.length] in *. assert (G : k = i \/ In k (cpos (S i) l)) by (destruct o; cbn in H; intuition). destruct G as [->|G]; [lia|]. apply IH in G. lia. Qed.
Lemma cpos_NoDup l : forall i, NoDup (cpos i l).
Proof.
  induction l as [|o l IH]; intros i; [constructor|]. cbn [cpos]. destruct o; try apply IH. constructor; [|apply IH]. intros H. apply cpos_bound in H. lia.
Qed.
(** A change that leaves contents alone commutes with refilling. *)
Lemma refill_upd F l f : (forall i o, fill1 F i (f o) = f (fill1 F i o)) -> forall n i, refill F i (upd l n f) = upd (refill F i l) n f.
Proof. intros H. induction l as [|o l IH]; intros [|n] i; cbn [upd refill]; try reflexivity; [now rewrite H|now rewrite IH]. Qed.
Lemma cpos_upd l f : (forall o i r, cpos i (f o :: r) = cpos i (o :: r)) -> forall n i, cpos i (upd l n f) = cpos i l.
Proof. intros H. induction l as [|o l IH]; intros [|n] i; cbn [upd]; try reflexivity; [apply H|]. cbn [cpos]. now rewrite IH. Qed.
(** Appending a drawing to a content is a refilling. *)
Lemma refill_append F l it : forall i j, In j (cpos i l) -> upd (refill F i l) (j - i) (add_item it) = refill (addF j [it] F) i l.
Proof.
  induction l as [|o l IH]; intros i j H; [contradiction|]. cbn [refill].
  assert (G : (exists x, o = OContent x /\ j = i) \/ In j (cpos (S i) l)) by (cbn [cpos] in H; destruct o; auto; destruct H as [->|H]; eauto).
  destruct G as [(x & -> & ->)|G].
  - rewrite Nat.sub_diag. cbn [upd fill1 add_item]. f_equal; [unfold addF; now rewrite Nat.eqb_refl|]. apply refill_ext. intros k K. apply cpos_bound in K. unfold addF. destruct (Nat.eqb_spec k i); [lia|reflexivity].
  - pose proof (cpos_bound _ _ _ G). replace (j - i)%nat with (S (j - S i)) by lia. cbn [upd]. rewrite IH by exact G. f_equal. destruct o; try reflexivity. cbn [fill1]. unfold addF. destruct (Nat.eqb_spec i j); [lia|reflexivity].
Qed.
Lemma addF_nil j F l i : refill (addF j [] F) i l = refill F i l.
Proof. apply refill_ext. intros k _. unfold addF. destruct (k =? j)%nat; [apply app_nil_r|reflexivity]. Qed.
Lemma tw_addF_nil g j F s : tw g (addF j [] F) s = tw g F s.
Proof. unfold tw. now rewrite addF_nil. Qed.
Lemma addObj_tw o g F s : is_content o = false -> addObj o (tw g F s) = (List.length (g_objs s), tw g F (snd (addObj o s))).
Proof. intros H. unfold addObj, tw. cbn [g_objs set_objs set_content snd]. rewrite refill_len, refill_app. cbn [refill]. replace (fill1 F (0 + List.length (g_objs s)) o) with o by (destruct o; try reflexivity; discriminate H). reflexivity. Qed.

(** What a call keeps in place. *)
Definition Kept (s s' : gp) : Prop :=
  cpos 0 (g_objs s') = cpos 0 (g_objs s) /\ kinds (g_objs s') = kinds (g_objs s) /\ g_pagesize s' = g_pagesize s /\ g_header s' = g_header s /\ g_footer s' = g_footer s /\ g_kids s' = g_kids s.
Lemma Kept_refl s : Kept s s. Proof. repeat split. Qed.
Lemma Kept_trans a b c : Kept a b -> Kept b c -> Kept a c. Proof. unfold Kept. intuition congruence. Qed.
Lemma Kept_add o s : kd o = [] -> Kept s (snd (addObj o s)).
Proof. intros H. unfold addObj. cbn [snd]. split; [cbn; rewrite cpos_app; destruct o; try discriminate H; apply app_nil_r|]. split; [now apply kinds_snoc|repeat split]. Qed.
Ltac kept := repeat split.

(** Calls that draw nothing. *)
Definition Same (z : gp) (f : gp -> gp * result) : Prop := exists z' r, Kept z z' /\ forall g F, f (tw g F z) = (tw g F z', r).
Lemma kd_content o : kd o = [] -> is_content o = false. Proof. now destruct o. Qed.
Lemma add_tw o g F s n s' : is_content o = false -> addObj o s = (n, s') -> addObj o (tw g F s) = (n, tw g F s').
Proof. intros H E. rewrite addObj_tw by exact H. now injection E as <- <-. Qed.
Lemma add_kept o s n s' : kd o = [] -> addObj o s = (n, s') -> Kept s s'.
Proof. intros H E. pose proof (Kept_add o s H) as K. rewrite E in K. exact K. Qed.
Lemma tw_fonts v g F s : set_fonts v (tw g F s) = tw g F (set_fonts v s). Proof. destruct s; reflexivity. Qed.
Lemma tw_countfont v g F s : set_countfont v (tw g F s) = tw g F (set_countfont v s). Proof. destruct s; reflexivity. Qed.
Lemma tw_cs v g F s : set_cs v (tw g F s) = tw g F (set_cs v s). Proof. destruct s; reflexivity. Qed.
Lemma tw_countcs v g F s : set_countcs v (tw g F s) = tw g F (set_countcs v s). Proof. destruct s; reflexivity. Qed.
Lemma tw_ol1 v g F s : set_outl_last v (tw g F s) = tw g F (set_outl_last v s). Proof. destruct s; reflexivity. Qed.
Lemma tw_ol2 v g F s : set_outl_first v (tw g F s) = tw g F (set_outl_first v s). Proof. destruct s; reflexivity. Qed.
Lemma tw_ol3 v g F s : set_outl_count v (tw g F s) = tw g F (set_outl_count v s). Proof. destruct s; reflexivity. Qed.
Lemma tw_ol4 v g F s : set_outl_lastobj v (tw g F s) = tw g F (set_outl_lastobj v s). Proof. destruct s; reflexivity. Qed.
Lemma tw_imgs v g F s : set_imgs v (tw g F s) = tw g F (set_imgs v s). Proof. destruct s; reflexivity. Qed.
Lemma tw_xobjs v g F s : set_xobjs v (tw g F s) = tw g F (set_xobjs v s). Proof. destruct s; reflexivity. Qed.
Lemma tw_smasks v g F s : set_smasks v (tw g F s) = tw g F (set_smasks v s). Proof. destruct s; reflexivity. Qed.
Lemma tw_rgbs v g F s : set_rgbs v (tw g F s) = tw g F (set_rgbs v s). Proof. destruct s; reflexivity. Qed.
Lemma tw_upd g F s n f : (forall i o, fill1 F i (f o) = f (fill1 F i o)) -> set_objs (upd (g_objs (tw g F s)) n f) (tw g F s) = tw g F (set_objs (upd (g_objs s) n f) s).
Proof. intros H. unfold tw. cbn [g_objs set_objs set_content]. rewrite <- refill_upd by exact H. destruct s; reflexivity. Qed.
Lemma Kept_upd s n f : (forall o, kd (f o) = kd o) -> (forall o i r, cpos i (f o :: r) = cpos i (o :: r)) -> Kept s (set_objs (upd (g_objs s) n f) s).
Proof. intros H K. split; [cbn; now apply cpos_upd|]. split; [cbn; now apply kinds_upd|kept]. Qed.
Lemma Same_font fam st z : Same z (addFont fam st).
Proof.
  exists (fst (addFont fam st z)), Ok. unfold addFont.
  destruct (addObj OUnicodeMap z) as [ui s1] eqn:E1. destruct (addObj OPdfDict s1) as [di s2] eqn:E2. destruct (addObj (OSubDesc di) s2) as [fi s3] eqn:E3. destruct (addObj (OCIDFont fi) s3) as [ci s4] eqn:E4. cbv zeta.
  match goal with |- context [addObj (OSubsetFont ?f) s4] => destruct (addObj (OSubsetFont f) s4) as [ix s5] eqn:E5 end. split.
  - pose proof (add_kept OUnicodeMap z _ _ eq_refl E1) as K1. pose proof (add_kept OPdfDict s1 _ _ eq_refl E2) as K2. pose proof (add_kept (OSubDesc di) s2 _ _ eq_refl E3) as K3. pose proof (add_kept (OCIDFont fi) s3 _ _ eq_refl E4) as K4.
    match type of E5 with addObj ?o _ = _ => pose proof (add_kept o s4 _ _ eq_refl E5) as K5 end.
    pose proof (Kept_trans _ _ _ K1 (Kept_trans _ _ _ K2 (Kept_trans _ _ _ K3 (Kept_trans _ _ _ K4 K5)))) as K. destruct (existsb _ _); [exact K|]. exact K.
  - intros g F. rewrite (add_tw OUnicodeMap g F z _ _ eq_refl E1). cbv beta iota. rewrite (add_tw OPdfDict g F s1 _ _ eq_refl E2). cbv beta iota. rewrite (add_tw (OSubDesc di) g F s2 _ _ eq_refl E3). cbv beta iota. rewrite (add_tw (OCIDFont fi) g F s3 _ _ eq_refl E4). cbv beta iota zeta.
    change (g_fonts (tw g F s4)) with (g_fonts s4). change (g_countfont (tw g F s4)) with (g_countfont s4). match type of E5 with addObj ?o _ = _ => rewrite (add_tw o g F s4 _ _ eq_refl E5) end. change (g_fonts (tw g F s5)) with (g_fonts s5). change (g_countfont (tw g F s5)) with (g_countfont s5).
    destruct (existsb _ _); [reflexivity|]. rewrite tw_fonts, tw_countfont. reflexivity.
Qed.
Lemma Same_setFont fam st sz z : Same z (setFont fam st sz).
Proof.
  exists (fst (setFont fam st sz z)), (snd (setFont fam st sz z)). split; [unfold setFont; destruct (find_font _ _ _ _) as [[i f]|]; kept|].
  intros g F. unfold setFont. replace (find_font (g_objs (tw g F z)) 0 fam st) with (find_font (g_objs z) 0 fam st) by (apply find_font_sv; symmetry; exact (sv_refill F (g_objs z) 0)).
  destruct (find_font _ _ _ _) as [[i f]|]; reflexivity.
Qed.
Lemma Same_cs n z : Same z (addColorSpace n).
Proof.
  exists (fst (addColorSpace n z)), (snd (addColorSpace n z)). unfold addColorSpace. cbv zeta.
  match goal with |- context [addObj ?o z] => destruct (addObj o z) as [i s1] eqn:E1; pose proof (add_kept o z _ _ eq_refl E1) as K1; pose proof (fun g F => add_tw o g F z _ _ eq_refl E1) as T1 end. split.
  - destruct (existsb _ _); exact K1.
  - intros g F. change (g_cs (tw g F z)) with (g_cs z). change (g_countcs (tw g F z)) with (g_countcs z). rewrite T1. destruct (existsb _ _); [reflexivity|].
    change (g_cs (tw g F s1)) with (g_cs s1). change (g_countcs (tw g F s1)) with (g_countcs s1). rewrite tw_cs, tw_countcs. reflexivity.
Qed.
Lemma cached_tw e g F s : getCachedExtGState e (tw g F s) = (fst (getCachedExtGState e s), tw g F (snd (getCachedExtGState e s))).
Proof.
  unfold getCachedExtGState. change (g_extmap (tw g F s)) with (g_extmap s). destruct (lookup _ _); [reflexivity|]. rewrite addObj_tw by reflexivity. reflexivity.
Qed.
Lemma Kept_cached e s : Kept s (snd (getCachedExtGState e s)).
Proof. unfold getCachedExtGState. destruct (lookup _ _); [apply Kept_refl|]. exact (Kept_trans _ _ _ (Kept_add (OExtGState e) s eq_refl) (Kept_refl _)). Qed.
Lemma Same_tr a b z : Same z (fun s => let '(t, s) := saveTransparency a b s in (set_tr t s, Ok)).
Proof.
  exists (fst (let '(t, s) := saveTransparency a b z in (set_tr t s, Ok))), Ok. unfold saveTransparency. split.
  - destruct (lookup _ _); [kept|]. destruct (Qeq_bool a 1); [kept|]. match goal with |- context [getCachedExtGState ?e z] => pose proof (Kept_cached e z) as K; destruct (getCachedExtGState e z) as [i s1] end. exact K.
  - intros g F. change (g_trmap (tw g F z)) with (g_trmap z). destruct (lookup _ _); [reflexivity|]. destruct (Qeq_bool a 1); [reflexivity|]. rewrite cached_tw. destruct (getCachedExtGState _ z) as [i s1]. reflexivity.
Qed.
Lemma Same_outline t w z : Same z (addOutline t w).
Proof.
  exists (fst (addOutline t w z)), Ok. unfold addOutline. cbv zeta.
  match goal with |- context [addObj ?o z] => destruct (addObj o z) as [i s1] eqn:E1; pose proof (add_kept o z _ _ eq_refl E1) as K1; pose proof (fun g F => add_tw o g F z _ _ eq_refl E1) as T1 end.
  set (n0 := Z.of_nat (List.length (g_objs z)) + 1) in *. split.
  - change (g_outl_first (set_outl_last n0 s1)) with (g_outl_first s1). set (s2 := if g_outl_first s1 <=? 0 then _ else _).
    assert (K2 : Kept z s2) by (unfold s2; destruct (_ <=? 0); exact K1). clearbody s2. destruct (g_outl_lastobj s2); [|exact K2].
    refine (Kept_trans _ _ _ K2 (Kept_trans _ _ _ (Kept_upd s2 n _ _ _) _)); [| |kept]; now intros [].
  - intros g F. change (g_objs (tw g F z)) with (refill F 0 (g_objs z)). change (g_page (tw g F z)) with (g_page z). change (g_outl_last (tw g F z)) with (g_outl_last z). change (g_cfg (tw g F z)) with (g_cfg z). change (g_y (tw g F z)) with (g_y z).
    rewrite refill_len. change (Z.of_nat (List.length (g_objs z)) + 1) with n0. clearbody n0. rewrite T1. rewrite tw_ol1. change (g_outl_first (tw g F (set_outl_last n0 s1))) with (g_outl_first (set_outl_last n0 s1)).
    set (s2 := set_outl_last n0 s1).
    replace (if g_outl_first s2 <=? 0 then set_outl_first n0 (tw g F s2) else tw g F s2) with (tw g F (if g_outl_first s2 <=? 0 then set_outl_first n0 s2 else s2)) by (destruct (g_outl_first s2 <=? 0); [symmetry; apply tw_ol2|reflexivity]).
    set (s3 := if g_outl_first s2 <=? 0 then _ else _). clearbody s3. change (g_outl_lastobj (tw g F s3)) with (g_outl_lastobj s3). destruct (g_outl_lastobj s3) as [j|].
    + match goal with |- context [upd (g_objs (tw g F s3)) j ?f] => rewrite (tw_upd g F s3 j f) by (intros ? []; reflexivity) end. set (s4 := set_objs _ s3). clearbody s4.
      change (g_outl_count (tw g F s4)) with (g_outl_count s4). now rewrite tw_ol4, tw_ol3.
    + change (g_outl_count (tw g F s3)) with (g_outl_count s3). now rewrite tw_ol4, tw_ol3.
Qed.
Lemma Same_compress l z : Same z (fun s => (setCompressLevel l s, Ok)).
Proof. exists (setCompressLevel l z), Ok. unfold setCompressLevel. split; [destruct (l <? -2); [kept|]; destruct (9 <? l); kept|]. intros g F. destruct (l <? -2); [reflexivity|]. destruct (9 <? l); reflexivity. Qed.
Lemma Same_setup z o : sets_up o = true -> Same z (fun s => sstep s o).
Proof.
  intros H. destruct o; try discriminate H; cbn [sstep].
  - apply Same_font.
  - apply Same_setFont.
  - exists (set_anchors ((name, (g_page z, (r_h (cf_page (g_cfg z)) - g_y z + g_fontsize z)%Q)) :: g_anchors z) z), Ok. split; [kept|reflexivity].
  - apply Same_outline.
  - apply Same_outline.
  - apply Same_cs.
  - apply Same_tr.
  - exists (set_tr None z), Ok. split; [kept|reflexivity].
  - exists (set_x x (set_y y z)), Ok. split; [kept|reflexivity].
  - apply Same_compress.
  - exists (set_compress 0 z), Ok. split; [kept|reflexivity].
Qed.

(** Calls that draw: the same drawing, on whichever content is current. *)
Definition Acts (z : gp) (f : gp -> gp * result) : Prop :=
  exists dl z' r, Kept z z' /\ forall j F, In j (cpos 0 (g_objs z)) -> f (tw (Some j) F z) = (tw (Some j) (addF j dl F) z', r).
Lemma Same_Acts z f : Same z f -> Acts z f.
Proof. intros (z' & r & K & H). exists [], z', r. split; [exact K|]. intros j F _. rewrite tw_addF_nil. apply H. Qed.
Lemma append_tw j F z it : In j (cpos 0 (g_objs z)) -> append_item j it (tw (Some j) F z) = tw (Some j) (addF j [it] F) z.
Proof.
  intros J. unfold append_item. unfold tw at 1 2. cbn [g_objs set_objs set_content].
  pose proof (refill_append F (g_objs z) it 0 j J) as E. rewrite Nat.sub_0_r in E. unfold add_item in E. rewrite E. destruct z; reflexivity.
Qed.
Lemma draw_tw np it z r j F : g_pagesize z = Some r -> In j (cpos 0 (g_objs z)) -> draw np it (tw (Some j) F z) = (tw (Some j) (addF j [it r] F) z, Ok).
Proof. intros P J. unfold draw, getContent. change (g_content (tw (Some j) F z)) with (Some j). cbv iota beta. change (g_pagesize (tw (Some j) F z)) with (g_pagesize z). rewrite P. now rewrite append_tw. Qed.
Lemma Acts_draw np it z r : g_pagesize z = Some r -> Acts z (draw np it).
Proof. intros P. exists [it r], z, Ok. split; [apply Kept_refl|]. intros j F J. now apply draw_tw. Qed.
Lemma find_cs_refill F n l : forall i, find_cs (refill F i l) n = find_cs l n.
Proof. induction l as [|o l IH]; intros i; [reflexivity|]. cbn [refill]. destruct o; cbn [fill1 find_cs]; rewrite IH; reflexivity. Qed.
Lemma Acts_link l z : Acts z (addLink l).
Proof.
  apply Same_Acts. exists (fst (addLink l z)), (snd (addLink l z)). unfold addLink. destruct (g_page z) as [p|] eqn:P.
  2:{ split; [apply Kept_refl|]. intros g F. change (g_page (tw g F z)) with (g_page z). now rewrite P. }
  cbv zeta. match goal with |- context [addObj ?o z] => destruct (addObj o z) as [i s1] eqn:E1; pose proof (add_kept o z _ _ eq_refl E1) as K1; pose proof (fun g F => add_tw o g F z _ _ eq_refl E1) as T1 end. split.
  - refine (Kept_trans _ _ _ K1 (Kept_upd s1 p _ _ _)); now intros [].
  - intros g F. change (g_page (tw g F z)) with (g_page z). rewrite P. change (g_cfg (tw g F z)) with (g_cfg z). rewrite T1. cbn [fst snd].
    match goal with |- context [upd (g_objs (tw g F s1)) p ?f] => rewrite (tw_upd g F s1 p f) by (intros ? []; reflexivity) end. reflexivity.
Qed.
Lemma Same_import m st z : Same z (fun s => (importObjects m st s, Ok)).
Proof.
  unfold importObjects. generalize (seq 0 (List.length m)). intros ks. revert z. induction ks as [|k ks IH]; intros z.
  - exists z, Ok. split; [apply Kept_refl|reflexivity].
  - cbn [fold_left]. destruct (zlookup (st + Z.of_nat k) m) as [[|b d]|]; try apply IH.
    destruct (addObj (OImported (b :: d)) z) as [i z1] eqn:E1. destruct (IH z1) as (z' & r & K & H). exists z', r. split.
    + exact (Kept_trans _ _ _ (add_kept (OImported (b :: d)) z _ _ eq_refl E1) K).
    + intros g F. rewrite (add_tw (OImported (b :: d)) g F z _ _ eq_refl E1). cbn [snd]. apply H.
Qed.
Lemma Acts_image id im gs z r : g_pagesize z = Some r -> Acts z (imageByHolder false id im gs).
Proof.
  intros P. unfold imageByHolder. destruct (lookup id (g_imgs z)) as [i|] eqn:L.
  { exists [IImage i gs], z, Ok. split; [apply Kept_refl|]. intros j F J. change (g_imgs (tw (Some j) F z)) with (g_imgs z). rewrite L. now apply (draw_tw true (fun _ => IImage i gs) z r). }
  destruct (im_ok im).
  2:{ exists [], z, Err. split; [apply Kept_refl|]. intros j F J. change (g_imgs (tw (Some j) F z)) with (g_imgs z). rewrite L. now rewrite tw_addF_nil. }
  cbv iota. destruct (addObj (OImage im Plain) z) as [ix z1] eqn:E1. pose proof (add_kept (OImage im Plain) z _ _ eq_refl E1) as K1.
  set (z2 := set_imgs ((id, ix) :: g_imgs z1) (set_xobjs (g_xobjs z1 ++ [ix]) z1)).
  set (z3 := if im_alpha im then let '(m, s) := addObj OSMaskImg z2 in set_smasks ((ix, m) :: g_smasks s) s else z2).
  set (z4 := if im_indexed im then let '(d, s) := addObj ODeviceRGB z3 in set_rgbs ((ix, d) :: g_rgbs s) s else z3).
  assert (K2 : Kept z z2) by exact K1.
  assert (K3 : Kept z z3).
  { unfold z3. destruct (im_alpha im); [|exact K2]. destruct (addObj OSMaskImg z2) as [m s] eqn:E. pose proof (add_kept OSMaskImg z2 _ _ eq_refl E) as K. exact (Kept_trans _ _ _ K2 K). }
  assert (K4 : Kept z z4).
  { unfold z4. destruct (im_indexed im); [|exact K3]. destruct (addObj ODeviceRGB z3) as [m s] eqn:E. pose proof (add_kept ODeviceRGB z3 _ _ eq_refl E) as K. exact (Kept_trans _ _ _ K3 K). }
  exists [IImage ix gs], z4, Ok. split; [exact K4|]. intros j F J. change (g_imgs (tw (Some j) F z)) with (g_imgs z). rewrite L. rewrite (add_tw (OImage im Plain) (Some j) F z _ _ eq_refl E1). cbv beta iota.
  assert (P1 : g_pagesize z1 = Some r) by (rewrite <- P; apply K1). assert (J1 : In j (cpos 0 (g_objs z1))) by (rewrite (proj1 K1); exact J).
  rewrite (draw_tw true (fun _ => IImage ix gs) z1 r j F P1 J1). cbv beta iota zeta. set (G := addF j [IImage ix gs] F).
  change (g_xobjs (tw (Some j) G z1)) with (g_xobjs z1). rewrite tw_xobjs. change (g_imgs (tw (Some j) G (set_xobjs (g_xobjs z1 ++ [ix]) z1))) with (g_imgs z1). rewrite tw_imgs. fold z2.
  assert (T3 : (if im_alpha im then let '(m, s) := addObj OSMaskImg (tw (Some j) G z2) in set_smasks ((ix, m) :: g_smasks s) s else tw (Some j) G z2) = tw (Some j) G z3).
  { unfold z3. destruct (im_alpha im); [|reflexivity]. destruct (addObj OSMaskImg z2) as [m s] eqn:E. rewrite (add_tw OSMaskImg (Some j) G z2 _ _ eq_refl E). change (g_smasks (tw (Some j) G s)) with (g_smasks s). apply tw_smasks. }
  rewrite T3. clearbody z3. f_equal. unfold z4. destruct (im_indexed im); [|reflexivity]. destruct (addObj ODeviceRGB z3) as [m s] eqn:E. rewrite (add_tw ODeviceRGB (Some j) G z3 _ _ eq_refl E). change (g_rgbs (tw (Some j) G s)) with (g_rgbs s). apply tw_rgbs.
Qed.
Lemma Acts_sop z o r : plain_sop o = true -> g_pagesize z = Some r -> Acts z (fun s => sstep s o).
Proof.
  intros Po P. destruct (sets_up o) eqn:S; [apply Same_Acts; now apply Same_setup|]. destruct o; try discriminate S; try discriminate Po; cbn [sstep].
  - now apply (Acts_draw _ _ _ r).
  - now apply (Acts_draw _ _ _ r).
  - destruct (g_font z) as [i|] eqn:Fz.
    + exists [IText (g_fontcount z + 1) t (g_tr z)], z, Ok. split; [apply Kept_refl|]. intros j F J. unfold text. change (g_font (tw (Some j) F z)) with (g_font z). rewrite Fz. change (g_fontcount (tw (Some j) F z)) with (g_fontcount z). change (g_tr (tw (Some j) F z)) with (g_tr z). now apply (draw_tw true (fun _ => IText (g_fontcount z + 1) t (g_tr z)) z r).
    + apply Same_Acts. exists z, Panic. split; [apply Kept_refl|]. intros g F. unfold text. change (g_font (tw g F z)) with (g_font z). now rewrite Fz.
  - destruct (Acts_image id im (match g_tr z with Some t => [t] | None => [] end) z r P) as (dl & z' & q & K & H). exists dl, z', q. split; [exact K|]. intros j F J. change (g_tr (tw (Some j) F z)) with (g_tr z). now apply H.
  - apply Acts_link.
  - apply Same_Acts. apply Same_import.
  - destruct (find_cs (g_objs z) name) as [k|] eqn:C.
    + exists [IColorSpace k], z, Ok. split; [apply Kept_refl|]. intros j F J. unfold setColorSpace. change (g_objs (tw (Some j) F z)) with (refill F 0 (g_objs z)). rewrite find_cs_refill, C. now apply (draw_tw false (fun _ => IColorSpace k) z r).
    + apply Same_Acts. exists z, Err. split; [apply Kept_refl|]. intros g F. unfold setColorSpace. change (g_objs (tw g F z)) with (refill F 0 (g_objs z)). now rewrite find_cs_refill, C.
Qed.

(** ** What was drawn stays shown *)
Lemma Ext_same s s' : g_objs s' = g_objs s -> g_fonts s' = g_fonts s -> g_cs s' = g_cs s -> g_xobjs s' = g_xobjs s -> Ext s s'.
Proof. intros A B C D. constructor; [intros i o _; now rewrite A|exists []; now rewrite app_nil_r|exists []; now rewrite app_nil_r|rewrite D; apply incl_refl]. Qed.
Lemma Ext_refl s : Ext s s. Proof. now apply Ext_same. Qed.
Lemma Ext_add o s n s' : addObj o s = (n, s') -> Ext s s'.
Proof.
  intros E. injection E as <- <-. constructor; [|exists []; now rewrite app_nil_r|exists []; now rewrite app_nil_r|apply incl_refl].
  intros i x _ H. cbn [g_objs set_objs]. rewrite nth_error_app1; [exact H|]. apply nth_error_Some. congruence.
Qed.
Lemma Ext_upd s n f : (forall o, static o = true -> f o = o) -> Ext s (set_objs (upd (g_objs s) n f) s).
Proof.
  intros H. constructor; [|exists []; now rewrite app_nil_r|exists []; now rewrite app_nil_r|apply incl_refl].
  intros i x S. cbn [g_objs set_objs]. generalize (g_objs s) as l. clear s. intros l. revert n i. induction l as [|y l IH]; intros [|n] [|i] E; cbn in *; try discriminate E; auto. injection E as ->. now rewrite H.
Qed.
Ltac es := apply Ext_same; reflexivity.
Lemma Ext_draw np it s : Ext s (fst (draw np it s)).
Proof.
  unfold draw. assert (A : Ext s (snd (getContent s))).
  { unfold getContent. destruct (g_content s); [apply Ext_refl|]. destruct (addObj (OContent []) s) as [i s1] eqn:E. cbn [snd]. refine (Ext_trans _ _ _ (Ext_add _ _ _ _ E) _). es. }
  destruct (getContent s) as [i s1]. cbn [snd] in A. assert (B : forall x, Ext s (append_item i x s1)) by (intros x; refine (Ext_trans _ _ _ A (Ext_upd s1 i _ _)); now intros []).
  destruct (g_pagesize s1); [apply B|]. destruct np; [exact A|apply B].
Qed.
Lemma Ext_cached e s : Ext s (snd (getCachedExtGState e s)).
Proof. unfold getCachedExtGState. destruct (lookup _ _); [apply Ext_refl|]. destruct (addObj (OExtGState e) s) as [i s1] eqn:E. cbn [snd]. refine (Ext_trans _ _ _ (Ext_add _ _ _ _ E) _). es. Qed.
Lemma Ext_font fam st s : Ext s (fst (addFont fam st s)).
Proof.
  unfold addFont. destruct (addObj OUnicodeMap s) as [ui s1] eqn:E1. destruct (addObj OPdfDict s1) as [di s2] eqn:E2. destruct (addObj (OSubDesc di) s2) as [fi s3] eqn:E3. destruct (addObj (OCIDFont fi) s3) as [ci s4] eqn:E4. cbv zeta.
  match goal with |- context [addObj (OSubsetFont ?f) s4] => destruct (addObj (OSubsetFont f) s4) as [ix s5] eqn:E5 end.
  pose proof (Ext_trans _ _ _ (Ext_add _ _ _ _ E1) (Ext_trans _ _ _ (Ext_add _ _ _ _ E2) (Ext_trans _ _ _ (Ext_add _ _ _ _ E3) (Ext_trans _ _ _ (Ext_add _ _ _ _ E4) (Ext_add _ _ _ _ E5))))) as K.
  destruct (existsb _ _); [exact K|]. refine (Ext_trans _ _ _ K _). constructor; cbn; auto using incl_refl; [eexists; reflexivity|exists []; now rewrite app_nil_r].
Qed.
Lemma Ext_cs n s : Ext s (fst (addColorSpace n s)).
Proof.
  unfold addColorSpace. cbv zeta. match goal with |- context [addObj ?o s] => destruct (addObj o s) as [i s1] eqn:E1 end. pose proof (Ext_add _ _ _ _ E1) as K.
  destruct (existsb _ _); [exact K|]. refine (Ext_trans _ _ _ K _). constructor; cbn; auto using incl_refl; [exists []; now rewrite app_nil_r|eexists; reflexivity].
Qed.
Lemma Ext_outline t w s : Ext s (fst (addOutline t w s)).
Proof.
  unfold addOutline. cbv zeta. match goal with |- context [addObj ?o s] => destruct (addObj o s) as [i s1] eqn:E1 end. pose proof (Ext_add _ _ _ _ E1) as K. set (n0 := Z.of_nat _ + 1). cbn [fst].
  set (s2 := if g_outl_first (set_outl_last n0 s1) <=? 0 then _ else _). assert (K2 : Ext s s2) by (refine (Ext_trans _ _ _ K _); unfold s2; destruct (_ <=? 0); es). clearbody s2.
  destruct (g_outl_lastobj s2); [|refine (Ext_trans _ _ _ K2 _); es]. match goal with |- context [upd (g_objs s2) n ?f] => refine (Ext_trans _ _ _ K2 (Ext_trans _ _ _ (Ext_upd s2 n f _) _)) end; [now intros []|es].
Qed.
Lemma Ext_image id im gs s : Ext s (fst (imageByHolder false id im gs s)).
Proof.
  unfold imageByHolder. destruct (lookup _ _); [apply Ext_draw|]. destruct (im_ok im); [|apply Ext_refl].
  destruct (addObj _ s) as [ix s1] eqn:E1. pose proof (Ext_add _ _ _ _ E1) as K1. match goal with |- context [draw true ?it s1] => pose proof (Ext_draw true it s1) as K2; destruct (draw true it s1) as [s2 r] end. cbn [fst] in K2.
  pose proof (Ext_trans _ _ _ K1 K2) as K. clear K1 K2. destruct r; cbn [fst]; try exact K. refine (Ext_trans _ _ _ K _). clear K.
  set (s3 := set_imgs _ _). assert (K3 : Ext s2 s3) by (constructor; cbn; auto; [exists []; now rewrite app_nil_r|exists []; now rewrite app_nil_r|apply incl_appl, incl_refl]). clearbody s3. refine (Ext_trans _ _ _ K3 _). clear K3.
  set (s4 := if im_alpha im then _ else _). assert (K4 : Ext s3 s4).
  { unfold s4. destruct (im_alpha im); [|apply Ext_refl]. destruct (addObj OSMaskImg s3) as [m x] eqn:E. refine (Ext_trans _ _ _ (Ext_add _ _ _ _ E) _). es. }
  clearbody s4. refine (Ext_trans _ _ _ K4 _). destruct (im_indexed im); [|apply Ext_refl]. destruct (addObj ODeviceRGB s4) as [m x] eqn:E. refine (Ext_trans _ _ _ (Ext_add _ _ _ _ E) _). es.
Qed.
Lemma Ext_sop s o : plain_sop o = true -> Ext s (fst (sstep s o)).
Proof.
  intros P. destruct o; try discriminate P; cbn [sstep].
  - apply Ext_draw.
  - apply Ext_draw.
  - unfold text. destruct (g_font s); [apply Ext_draw|apply Ext_refl].
  - apply Ext_font.
  - unfold setFont. destruct (find_font _ _ _ _) as [[? ?]|]; es.
  - apply Ext_image.
  - unfold addLink. destruct (g_page s) as [p|]; [|apply Ext_refl]. cbv zeta. match goal with |- context [addObj ?o s] => destruct (addObj o s) as [i s1] eqn:E1 end.
    refine (Ext_trans _ _ _ (Ext_add _ _ _ _ E1) (Ext_upd s1 p _ _)). intros []; cbn [static]; intros S; first [discriminate S|reflexivity].
  - es.
  - apply Ext_outline.
  - apply Ext_outline.
  - cbn [fst]. unfold importObjects. generalize (seq 0 (List.length objs)). intros ks. revert s. induction ks as [|k ks IH]; intros s; [apply Ext_refl|]. cbn [fold_left].
    destruct (zlookup _ objs) as [[|b dt]|]; try apply IH. destruct (addObj (OImported (b :: dt)) s) as [i s1] eqn:E. refine (Ext_trans _ _ _ (Ext_add _ _ _ _ E) (IH s1)).
  - apply Ext_cs.
  - unfold setColorSpace. destruct (find_cs _ _); [apply Ext_draw|apply Ext_refl].
  - unfold saveTransparency. destruct (lookup _ _); [es|]. destruct (Qeq_bool alpha 1); [es|]. match goal with |- context [getCachedExtGState ?e s] => pose proof (Ext_cached e s) as K; destruct (getCachedExtGState e s) as [i s1] end. cbn [fst snd] in *. refine (Ext_trans _ _ _ K _). es.
  - es.
  - es.
  - unfold setCompressLevel. destruct (l <? -2); [es|]. destruct (9 <? l); es.
  - es.
Qed.

(** ** What a call does to the page it is about *)
Definition grow (xs : list shown) (ls : list shown_link) (p : apage) : apage := {| ap_size := ap_size p; ap_items := ap_items p ++ xs; ap_links := ap_links p ++ ls |}.
Lemma grow_nil p : grow [] [] p = p. Proof. unfold grow. rewrite !app_nil_r. now destruct p. Qed.
Definition is_link (o : sop) : bool := match o with AddLink _ => true | _ => false end.
Lemma put_last x pre p d : put x (with_pages (pre ++ [p]) d) = with_pages (pre ++ [grow [x] [] p]) d.
Proof. unfold put. cbn [a_pages with_pages]. rewrite upd_last_snoc. unfold grow. rewrite app_nil_r. reflexivity. Qed.
Lemma no_pages_last pre p d : no_pages (with_pages (pre ++ [p]) d) = false. Proof. unfold no_pages. cbn [a_pages with_pages]. destruct pre; reflexivity. Qed.
Lemma focus o d : plain_sop o = true ->
  exists xs ls d1, (is_link o = false -> ls = []) /\ (sets_up o = true -> xs = [] /\ ls = []) /\
    forall pre p, fst (a_sop (with_pages (pre ++ [p]) d) o) = with_pages (pre ++ [grow xs ls p]) d1.
Proof.
  intros P.
  assert (Id : forall d1, (forall pre p, fst (a_sop (with_pages (pre ++ [p]) d) o) = with_pages (pre ++ [p]) d1) -> exists xs ls d1, (is_link o = false -> ls = []) /\ (sets_up o = true -> xs = [] /\ ls = []) /\
    forall pre p, fst (a_sop (with_pages (pre ++ [p]) d) o) = with_pages (pre ++ [grow xs ls p]) d1).
  { intros d1 H. exists [], [], d1. split; [auto|]. split; [auto|]. intros pre p. rewrite grow_nil. apply H. }
  assert (Pt : forall x d1, sets_up o = false -> (forall pre p, fst (a_sop (with_pages (pre ++ [p]) d) o) = with_pages (pre ++ [grow [x] [] p]) d1) -> exists xs ls d1, (is_link o = false -> ls = []) /\ (sets_up o = true -> xs = [] /\ ls = []) /\
    forall pre p, fst (a_sop (with_pages (pre ++ [p]) d) o) = with_pages (pre ++ [grow xs ls p]) d1).
  { intros x d1 S H. exists [x], [], d1. split; [auto|]. split; [rewrite S; discriminate|]. exact H. }
  destruct o; try discriminate P; cbn [a_sop] in *.
  - refine (Pt (ShBytes b) d eq_refl _). intros pre p. rewrite no_pages_last. cbn [fst]. apply put_last.
  - refine (Pt (ShTemplate name) d eq_refl _). intros pre p. rewrite no_pages_last. cbn [fst]. apply put_last.
  - cbn [a_sel with_pages] in *. destruct (a_sel d) as [[f st]|] eqn:A.
    + refine (Pt (ShText f st t) d eq_refl _). intros pre p. rewrite no_pages_last. cbn [fst]. apply put_last.
    + apply (Id d). reflexivity.
  - apply (Id (fst (a_sop d (AddFont family style)))). intros pre p. reflexivity.
  - destruct (has_font family (strip_underline style) d) eqn:H.
    + apply (Id {| a_cfg := a_cfg d; a_pages := []; a_total := a_total d; a_fonts := a_fonts d; a_sel := Some (family, strip_underline style); a_imgs := a_imgs d; a_cs := a_cs d; a_header := a_header d; a_footer := a_footer d |}). intros pre p. change (has_font family (strip_underline style) (with_pages (pre ++ [p]) d)) with (has_font family (strip_underline style) d). rewrite H. reflexivity.
    + apply (Id d). intros pre p. change (has_font family (strip_underline style) (with_pages (pre ++ [p]) d)) with (has_font family (strip_underline style) d). rewrite H. reflexivity.
  - cbn [a_imgs with_pages] in *. destruct (lookup id (a_imgs d)) as [data|].
    + refine (Pt (ShImage data) d eq_refl _). intros pre p. rewrite no_pages_last. cbn [fst]. apply put_last.
    + destruct (im_ok im); [|apply (Id d); reflexivity].
      refine (Pt (ShImage (im_data im)) {| a_cfg := a_cfg d; a_pages := []; a_total := a_total d; a_fonts := a_fonts d; a_sel := a_sel d; a_imgs := (id, im_data im) :: a_imgs d; a_cs := a_cs d; a_header := a_header d; a_footer := a_footer d |} eq_refl _). intros pre p. rewrite no_pages_last. cbn [fst]. rewrite put_last. reflexivity.
  - exists [], [{| sl_x := lk_x l; sl_y := (r_h (cf_page (a_cfg d)) - lk_y l)%Q; sl_w := lk_w l; sl_h := lk_h l; sl_url := lk_url l; sl_anchor := lk_anchor l |}], d. split; [discriminate|]. split; [discriminate|]. intros pre p. rewrite no_pages_last. cbn [fst]. unfold put_link. cbn [a_pages with_pages]. rewrite upd_last_snoc. unfold grow. rewrite app_nil_r. reflexivity.
  - apply (Id d). reflexivity.
  - apply (Id d). reflexivity.
  - apply (Id d). reflexivity.
  - apply (Id d). reflexivity.
  - cbn [a_cs with_pages] in *. destruct (existsb _ (a_cs d)); [apply (Id d); reflexivity|]. apply (Id {| a_cfg := a_cfg d; a_pages := []; a_total := a_total d; a_fonts := a_fonts d; a_sel := a_sel d; a_imgs := a_imgs d; a_cs := a_cs d ++ [name]; a_header := a_header d; a_footer := a_footer d |}). intros pre p. reflexivity.
  - cbn [a_cs with_pages] in *. destruct (existsb _ (a_cs d)); [|apply (Id d); reflexivity]. refine (Pt (ShColorSpace name) d eq_refl _). intros pre p. rewrite no_pages_last. cbn [fst]. apply put_last.
  - apply (Id d). reflexivity.
  - apply (Id d). reflexivity.
  - apply (Id d). reflexivity.
  - apply (Id d). reflexivity.
  - apply (Id d). reflexivity.
Qed.

(** ** The invariant *)
Definition shows (u : gp) (its : list item) (xs : list shown) : Prop := Forall2 (fun it x => show u it = Some x) its xs.
Definition same_frame (p q : apage) : Prop := ap_size p = ap_size q /\ ap_links p = ap_links q.
(** [s] is the document; [u] the document without the SetPage calls, [d] what that one shows; [b] what [s] should show. *)
Record Twin (st : status) (moved : bool) (k cur : nat) (s : gp) (b : adoc) (z : gp) (Fs Fu : nat -> list item) (gi gj : option nat) (d : adoc) (pages : list (page * list item)) (ready : list apage) : Prop := {
  t_s : s = tw gi Fs z;
  t_u : Inv (tw gj Fu z) d pages;
  t_hf : g_header z = None /\ g_footer z = None;
  t_b : b = with_pages (a_pages b) d;
  t_frame : Forall2 same_frame (a_pages d) (a_pages b);
  t_items : Forall2 (fun pos p => shows (tw gj Fu z) (Fs pos) (ap_items p)) (cpos 0 (g_objs z)) ready;
  t_st : match st with
         | NoPage => k = O /\ kinds (g_objs z) = [] /\ gi = None /\ gj = None /\ a_pages b = [] /\ ready = []
         | Blank => kinds (g_objs z) = pcs k ++ [0] /\ gi = None /\ gj = None /\ cur = k /\ List.length ready = k /\ g_pagesize z <> None /\ exists p, a_pages b = ready ++ [p] /\ ap_items p = []
         | Drawn => kinds (g_objs z) = pcs k /\ a_pages b = ready /\ g_pagesize z <> None /\ gi <> None /\ gi = nth_error (cpos 0 (g_objs z)) cur /\ gj <> None /\ gj = nth_error (cpos 0 (g_objs z)) (k - 1) /\ (moved = false -> cur = (k - 1)%nat)
         end }.
Definition Paged st moved k cur s b := exists z Fs Fu gi gj d pages ready, Twin st moved k cur s b z Fs Fu gi gj d pages ready.

(** Pages and contents alternate, so the pages read are the pages with the contents at the same place in the list. *)
Lemma alternate F l : forall i,
  (forall k, kinds l = pcs k -> List.length (cpos i l) = k /\ List.length (pagesof l) = k /\ items_until (refill F i l) = [] /\ vr (refill F i l) = combine (pagesof l) (map F (cpos i l))) /\
  (forall k, kinds l = 1 :: pcs k -> exists c r, cpos i l = c :: r /\ List.length r = k /\ List.length (pagesof l) = k /\ items_until (refill F i l) = F c /\ vr (refill F i l) = combine (pagesof l) (map F r)).
Proof.
  induction l as [|o l IH]; intros i.
  - split; intros k H; [|discriminate H]. destruct k; [auto|discriminate H].
  - destruct (IH (S i)) as (A & B). clear IH. unfold kinds in *. cbn [flat_map].
    assert (Sk : kd o = [] -> (exists x, o = OContent x) \/ (exists p, o = OPage p) \/ (cpos i (o :: l) = cpos (S i) l /\ pagesof (o :: l) = pagesof l /\ items_until (refill F i (o :: l)) = items_until (refill F (S i) l) /\ vr (refill F i (o :: l)) = vr (refill F (S i) l))).
    { intros _. destruct o; eauto 10. }
    destruct (kd o) as [|v w] eqn:K.
    + destruct (Sk eq_refl) as [(x & ->)|[(p & ->)|(E1 & E2 & E3 & E4)]]; [discriminate K|destruct p; discriminate K|]. cbn [app]. rewrite E1, E2, E3, E4. split; [exact A|exact B].
    + destruct o; try discriminate K.
      * cbn [kd] in K. injection K as Kv Kw. subst v w. cbn [app]. split; intros k H.
        -- destruct k; [discriminate H|]. cbn [pcs] in H. injection H as H0 H1. destruct (B k H1) as (c & r & E1 & E2 & E3 & E4 & E5). cbn [cpos refill fill1 pagesof items_until vr List.length]. rewrite E1, E5, E4. cbn. auto.
        -- exfalso. injection H as H0 H1. destruct (pg_contents p); discriminate H0.
      * cbn [kd] in K. injection K as Kv Kw. subst v w. cbn [app]. split; intros k H.
        -- destruct k; [discriminate H|]. cbn [pcs] in H. discriminate H.
        -- injection H as H1. destruct (A k H1) as (E1 & E2 & E3 & E4). exists i, (cpos (S i) l). cbn [cpos refill fill1 pagesof items_until vr List.length]. rewrite E3, app_nil_r. auto.
Qed.
Lemma Inv_items z gj Fu d pages k n pos p : Inv (tw gj Fu z) d pages -> kinds (g_objs z) = pcs k -> nth_error (cpos 0 (g_objs z)) n = Some pos -> nth_error (a_pages d) n = Some p -> shows (tw gj Fu z) (Fu pos) (ap_items p).
Proof.
  intros I K N P. pose proof (iv_pages _ _ _ I) as G. rewrite <- (Lay_vw _ _ _ _ (iv_lay _ _ _ I)), vw_vr in G. change (g_objs (tw gj Fu z)) with (refill Fu 0 (g_objs z)) in G.
  destruct (alternate Fu (g_objs z) 0) as (A & _). destruct (A k K) as (A1 & A2 & _ & A4). rewrite A4 in G. clear A A4 I K. revert n N P G. generalize (a_pages d). revert A1 A2. generalize (pagesof (g_objs z)). generalize (cpos 0 (g_objs z)). revert k.
  intros k ps. revert k. induction ps as [|q ps IH]; intros k pgs A1 A2 aps n N P G; [destruct n; discriminate N|]. destruct k; [discriminate A1|]. destruct pgs as [|g pgs]; [discriminate A2|]. cbn [map combine] in G. inversion G; subst. destruct n as [|n]; cbn in N, P.
  - injection N as ->. injection P as ->. apply H1.
  - injection A1 as A1. injection A2 as A2. exact (IH k pgs A1 A2 _ n N P H3).
Qed.
Lemma find_content_nth l : forall i seen n, find_content l i seen n = if seen + 1 <=? n then nth_error (cpos i l) (Z.to_nat (n - seen - 1)) else None.
Proof.
  induction l as [|o l IH]; intros i seen n; cbn [find_content cpos].
  - destruct (seen + 1 <=? n); [|reflexivity]. now destruct (Z.to_nat _).
  - destruct o; try apply IH. destruct (Z.eqb_spec (seen + 1) n) as [E|E].
    + subst n. rewrite Z.leb_refl. replace (seen + 1 - seen - 1) with 0 by lia. reflexivity.
    + rewrite IH. destruct (Z.leb_spec (seen + 1 + 1) n).
      * replace (seen + 1 <=? n) with true by lia. replace (Z.to_nat (n - seen - 1)) with (S (Z.to_nat (n - (seen + 1) - 1))) by lia. reflexivity.
      * replace (seen + 1 <=? n) with false by lia. reflexivity.
Qed.
Lemma shows_ext u u' a x : Ext u u' -> shows u a x -> shows u' a x.
Proof. intros E H. eapply Forall2_impl; [|exact H]. intros; eapply show_ext; eauto. Qed.
Lemma Forall2_nth {A B} (R : A -> B -> Prop) l l' : Forall2 R l l' -> forall n a b, nth_error l n = Some a -> nth_error l' n = Some b -> R a b.
Proof. induction 1; intros [|n] a b X Y; cbn in *; try discriminate X; [congruence|eauto]. Qed.
Lemma Forall2_len {A B} (R : A -> B -> Prop) l l' : Forall2 R l l' -> List.length l = List.length l'. Proof. induction 1; cbn; congruence. Qed.
Lemma Forall2_snoc {A B} (R : A -> B -> Prop) l l' a b : Forall2 R l l' -> R a b -> Forall2 R (l ++ [a]) (l' ++ [b]).
Proof. induction 1; intros; cbn; auto. Qed.
(** Changing one place on both sides. *)
Lemma Forall2_at {A B} (R R' : A -> B -> Prop) (g : B -> B) l l' n : Forall2 R l l' ->
  (forall m a b, nth_error l m = Some a -> R a b -> R' a (if (m =? n)%nat then g b else b)) -> Forall2 R' l (upd l' n g).
Proof.
  intros H. revert n. induction H as [|a b l l' E H IH]; intros [|n] Q; cbn [upd]; constructor.
  - exact (Q O a b eq_refl E).
  - clear -H Q. assert (Q' : forall m a b, nth_error l m = Some a -> R a b -> R' a b) by (intros m x y N; exact (Q (S m) x y N)). clear Q. induction H; constructor; [exact (Q' O _ _ eq_refl H)|]. apply IHForall2. intros m; exact (Q' (S m)).
  - exact (Q O a b eq_refl E).
  - apply IH. intros m x y N X. exact (Q (S m) x y N X).
Qed.
Lemma nth_NoDup (l : list nat) m n i : NoDup l -> nth_error l m = Some i -> nth_error l n = Some i -> m = n.
Proof. intros N A B. apply (proj1 (NoDup_nth_error l) N); [apply nth_error_Some; congruence|congruence]. Qed.
Lemma on_page_focus k o b d xs ls d1 p : b = with_pages (a_pages b) d -> nth_error (a_pages b) k = Some p ->
  (forall pre p, fst (a_sop (with_pages (pre ++ [p]) d) o) = with_pages (pre ++ [grow xs ls p]) d1) ->
  on_page k (fun d => fst (a_sop d o)) b = with_pages (upd (a_pages b) k (grow xs ls)) d1.
Proof.
  intros B P H. unfold on_page. rewrite P. replace (with_pages [p] b) with (with_pages ([] ++ [p]) d) by (rewrite B; reflexivity). rewrite H. cbn [a_pages with_pages app].
  replace (upd (a_pages b) k (fun q => hd q [grow xs ls p])) with (upd (a_pages b) k (grow xs ls)); [reflexivity|].
  clear -P. revert k P. generalize (a_pages b). intros l. induction l as [|y l IH]; intros [|k] P; cbn in *; try discriminate P; [now injection P as ->|f_equal; now apply IH].
Qed.
Lemma Forall2_tail {A B} (R : A -> B -> Prop) a c b e : List.length a = List.length c -> Forall2 R (a ++ b) (c ++ e) -> Forall2 R b e.
Proof. revert c. induction a as [|x a IH]; intros [|y c] L H; cbn in *; try discriminate L; [exact H|]. inversion H; subst. apply (IH c); [lia|assumption]. Qed.
Lemma upd_mid {A} (a : list A) x b f : upd (a ++ x :: b) (List.length a) f = a ++ f x :: b.
Proof. induction a as [|y a IH]; cbn; [reflexivity|]. now rewrite IH. Qed.
Lemma last_split {A} (l : list A) k : List.length l = S k -> exists pre x, l = pre ++ [x] /\ List.length pre = k.
Proof. intros H. destruct (exists_last (l := l)) as (pre & x & ->); [intros ->; discriminate H|]. exists pre, x. split; [reflexivity|]. rewrite app_length in H. cbn in H. lia. Qed.
Lemma Twin_drawn moved k cur s b z Fs Fu gi gj d pages ready o :
  Twin Drawn moved k cur s b z Fs Fu gi gj d pages ready -> plain_sop o = true -> (is_link o = true -> moved = false) ->
  Paged Drawn moved k cur (fst (sstep s o)) (on_page cur (fun d => fst (a_sop d o)) b).
Proof.
  intros [Es I (Hh & Hf) Eb Fr It (Kd & Er & Ps & Ni & Ei & Nj & Ej & Mv)] P L.
  destruct gi as [i|]; [|congruence]. destruct gj as [j|]; [|congruence]. clear Ni Nj. destruct (g_pagesize z) as [r|] eqn:Pz; [|congruence]. clear Ps.
  destruct (Acts_sop z o r P Pz) as (dl & z' & q & K & H). assert (Ii : In i (cpos 0 (g_objs z))) by (symmetry in Ei; now apply nth_error_In in Ei). assert (Ij : In j (cpos 0 (g_objs z))) by (symmetry in Ej; now apply nth_error_In in Ej).
  pose proof (H i Fs Ii) as Hs. pose proof (H j Fu Ij) as Hu. clear H. destruct (Inv_sop _ _ _ o I P) as (pages' & I' & _). pose proof (Ext_sop (tw (Some j) Fu z) o P) as X. rewrite Hu in I', X. cbn [fst] in I', X.
  set (u := tw (Some j) Fu z) in *. set (u' := tw (Some j) (addF j dl Fu) z') in *. destruct (focus o d P) as (xs & ls & d1 & Fl & _ & Fo).
  destruct K as (K1 & K2 & K3 & K4 & K5 & K6). destruct (alternate Fu (g_objs z) 0) as (Al & _). destruct (Al k Kd) as (Lps & _). clear Al.
  assert (Lr : List.length (a_pages b) = k) by (rewrite Er, <- (Forall2_len _ _ _ It); exact Lps). assert (Ld : List.length (a_pages d) = k) by (rewrite (Forall2_len _ _ _ Fr); exact Lr).
  destruct k as [|k]; [exfalso; destruct (cpos 0 (g_objs z)); [contradiction|discriminate Lps]|]. replace (S k - 1)%nat with k in * by lia.
  destruct (last_split _ _ Ld) as (pre & p & Ed & Lp). assert (Dd : d = with_pages (pre ++ [p]) d) by (rewrite <- Ed; destruct d; reflexivity).
  assert (Nd : nth_error (a_pages d) k = Some p) by (rewrite Ed, nth_error_app2 by lia; now rewrite Lp, Nat.sub_diag).
  pose proof (Inv_items _ _ _ _ _ _ _ _ _ I Kd (eq_sym Ej) Nd) as S1.
  assert (Ed' : fst (a_sop d o) = with_pages (pre ++ [grow xs ls p]) d1) by (rewrite Dd at 1; apply Fo). rewrite Ed' in I'.
  assert (S2 : shows u' dl xs).
  { assert (Nd' : nth_error (a_pages (with_pages (pre ++ [grow xs ls p]) d1)) k = Some (grow xs ls p)) by (cbn [a_pages with_pages]; rewrite nth_error_app2 by lia; now rewrite Lp, Nat.sub_diag).
    assert (Kd' : kinds (g_objs z') = pcs (S k)) by (now rewrite K2). assert (Ej' : nth_error (cpos 0 (g_objs z')) k = Some j) by (rewrite K1; now symmetry).
    pose proof (Inv_items _ _ _ _ _ _ _ _ _ I' Kd' Ej' Nd') as S3. unfold addF in S3 at 2. rewrite Nat.eqb_refl in S3. cbn [ap_items grow] in S3. exact (Forall2_tail _ _ _ _ _ (Forall2_len _ _ _ S1) S3). }
  destruct (nth_error (a_pages b) cur) as [bp|] eqn:Nb.
  2:{ exfalso. apply nth_error_None in Nb. assert (cur < List.length (cpos 0 (g_objs z)))%nat by (apply nth_error_Some; congruence). lia. }
  rewrite (on_page_focus cur o b d xs ls d1 bp Eb Nb Fo). rewrite Es, Hs. cbn [fst].
  exists z', (addF i dl Fs), (addF j dl Fu), (Some i), (Some j), (with_pages (pre ++ [grow xs ls p]) d1), pages', (upd (a_pages b) cur (grow xs ls)). constructor.
  - reflexivity.
  - exact I'.
  - split; congruence.
  - reflexivity.
  - cbn [a_pages with_pages]. rewrite Ed in Fr. destruct (is_link o) eqn:Lo.
    + rewrite (Mv (L eq_refl)). destruct (last_split _ _ Lr) as (bpre & q0 & Eb0 & Lb). rewrite Eb0 in *. rewrite <- Lb at 1. rewrite upd_mid. apply Forall2_app_inv_l in Fr as (l1 & l2 & F1 & F2 & F3).
      inversion F2 as [|? y ? ? Fp F2']; subst l2. inversion F2'; subst. apply app_inj_tail in F3 as (F3 & F4). subst l1 y. apply Forall2_snoc; [exact F1|]. destruct Fp as (Fp1 & Fp2). split; cbn; congruence.
    + rewrite (Fl eq_refl). assert (Fr2 : Forall2 same_frame (pre ++ [grow xs [] p]) (a_pages b)).
      { apply Forall2_app_inv_l in Fr as (l1 & l2 & F1 & F2 & F3). inversion F2 as [|? y ? ? Fp F2']; subst l2. inversion F2'; subst. rewrite F3. apply Forall2_snoc; [exact F1|]. destruct Fp as (Fp1 & Fp2). split; cbn; rewrite ?app_nil_r; congruence. }
      refine (Forall2_at _ _ _ _ _ _ Fr2 _). intros m a q0 _ (Q1 & Q2). destruct (m =? cur)%nat; split; cbn; rewrite ?app_nil_r; congruence.
  - rewrite K1. rewrite <- Er in It. refine (Forall2_at _ _ _ _ _ _ It _). intros m pos q0 Nm Sq. unfold addF. destruct (Nat.eqb_spec pos i) as [->|Ne].
    + rewrite (nth_NoDup _ m cur i (cpos_NoDup _ _) Nm (eq_sym Ei)), Nat.eqb_refl. cbn [ap_items grow]. apply Forall2_app; [exact (shows_ext _ _ _ _ X Sq)|exact S2].
    + destruct (Nat.eqb_spec m cur) as [->|Nc]; [exfalso; congruence|]. exact (shows_ext _ _ _ _ X Sq).
  - cbn [a_pages with_pages]. rewrite K1, K2, K3. repeat split; auto; try discriminate; try congruence. replace (S k - 1)%nat with k by lia. exact Ej. intros Q. rewrite (Mv Q). lia.
Qed.
Lemma Twin_setpage moved k cur s b z Fs Fu gi gj d pages ready n :
  Twin Drawn moved k cur s b z Fs Fu gi gj d pages ready ->
  Paged Drawn true k (if (1 <=? n) && (n <=? zlen (a_pages b)) then Z.to_nat (n - 1) else cur) (fst (setPage n s)) b.
Proof.
  intros [Es I Hf Eb Fr It (Kd & Er & Ps & Ni & Ei & Nj & Ej & Mv)].
  destruct (alternate Fu (g_objs z) 0) as (Al & _). destruct (Al k Kd) as (Lps & _). clear Al.
  assert (Lr : List.length (a_pages b) = k) by (rewrite Er, <- (Forall2_len _ _ _ It); exact Lps).
  unfold setPage. rewrite Es. change (g_objs (tw gi Fs z)) with (refill Fs 0 (g_objs z)). rewrite find_content_nth, cpos_refill. replace (n - 0 - 1) with (n - 1) by lia. change (0 + 1) with 1. unfold zlen. rewrite Lr.
  assert (Stay : forall c, nth_error (cpos 0 (g_objs z)) c <> None -> Paged Drawn true k c (tw (nth_error (cpos 0 (g_objs z)) c) Fs z) b).
  { intros c Nc. exists z, Fs, Fu, (nth_error (cpos 0 (g_objs z)) c), gj, d, pages, ready. constructor; auto. repeat split; auto. discriminate. }
  destruct (Z.leb_spec 1 n) as [H1|H1]; cbn [andb].
  2:{ rewrite Ei. apply Stay. congruence. }
  destruct (Z.leb_spec n (Z.of_nat k)) as [H2|H2].
  - specialize (Stay (Z.to_nat (n - 1))). destruct (nth_error (cpos 0 (g_objs z)) (Z.to_nat (n - 1))) as [i'|] eqn:N.
    + assert (T : set_content (Some i') (tw gi Fs z) = tw (Some i') Fs z) by (destruct z; reflexivity). cbn [fst]. rewrite T. apply Stay. discriminate.
    + exfalso. apply nth_error_None in N. lia.
  - replace (nth_error (cpos 0 (g_objs z)) (Z.to_nat (n - 1))) with (@None nat) by (symmetry; apply nth_error_None; lia). cbn [fst]. rewrite Ei. apply Stay. congruence.
Qed.
Lemma tw_npages v g F s : set_npages v (tw g F s) = tw g F (set_npages v s). Proof. destruct s; reflexivity. Qed.
Lemma tw_page v g F s : set_page v (tw g F s) = tw g F (set_page v s). Proof. destruct s; reflexivity. Qed.
Lemma tw_pagesize v g F s : set_pagesize v (tw g F s) = tw g F (set_pagesize v s). Proof. destruct s; reflexivity. Qed.
Lemma tw_content v g F s : set_content v (tw g F s) = tw v F (set_content v s). Proof. destruct s; reflexivity. Qed.
Lemma tw_reset g F s : resetXY (tw g F s) = tw g F (resetXY s). Proof. destruct s; reflexivity. Qed.
Definition new_state (sz : option rectq) (s : gp) : gp :=
  let s := set_pagesize (match sz with Some r => Some r | None => Some (cf_page (g_cfg s)) end) s in
  let '(index, s) := addObj (OPage (new_page sz)) s in
  resetXY (set_content None (set_npages (g_npages s + 1) (set_page (Some index) s))).
Lemma addPage_new sz s : g_header s = None -> g_footer s = None -> addPage sz s = (new_state sz s, Ok).
Proof.
  intros Hh Hf. unfold addPage, new_state. cbv zeta. set (s1 := set_pagesize _ s). destruct (addObj (OPage (new_page sz)) s1) as [ix s2] eqn:E.
  change (g_npages (set_page (Some ix) s2)) with (g_npages s2).
  assert (A : g_header s2 = None /\ g_footer s2 = None) by (injection E as <- <-; auto). destruct A as (A1 & A2). set (s3 := resetXY _).
  replace (g_header s3) with (@None (list sop)) by (symmetry; exact A1). cbv iota beta. replace (g_footer s3) with (@None (list sop)) by (symmetry; exact A2). reflexivity.
Qed.
Lemma new_state_tw sz g F z : new_state sz (tw g F z) = tw None F (new_state sz z).
Proof.
  unfold new_state. cbv zeta. change (g_cfg (tw g F z)) with (g_cfg z). rewrite tw_pagesize. set (z1 := set_pagesize _ z). clearbody z1. destruct (addObj (OPage (new_page sz)) z1) as [ix z2] eqn:E. rewrite (add_tw (OPage (new_page sz)) g F z1 _ _ eq_refl E).
  change (g_npages (tw g F z2)) with (g_npages z2). now rewrite tw_page, tw_npages, tw_content, tw_reset.
Qed.
Lemma new_state_facts sz z : g_objs (new_state sz z) = g_objs z ++ [OPage (new_page sz)] /\ g_header (new_state sz z) = g_header z /\ g_footer (new_state sz z) = g_footer z /\ g_pagesize (new_state sz z) <> None.
Proof. split; [reflexivity|]. split; [reflexivity|]. split; [reflexivity|]. change (g_pagesize (new_state sz z)) with (match sz with Some r => Some r | None => Some (cf_page (g_cfg z)) end). destruct sz; discriminate. Qed.
Lemma Ext_new sz s : Ext s (new_state sz s).
Proof.
  unfold new_state. cbv zeta. set (s1 := set_pagesize _ s). assert (A : Ext s s1) by es. destruct (addObj (OPage (new_page sz)) s1) as [ix s2] eqn:E. refine (Ext_trans _ _ _ A (Ext_trans _ _ _ (Ext_add _ _ _ _ E) _)). es.
Qed.
Definition fresh (sz : option rectq) : apage := {| ap_size := sz; ap_items := []; ap_links := [] |}.
Definition counted (d : adoc) : adoc := {| a_cfg := a_cfg d; a_pages := []; a_total := a_total d + 1; a_fonts := a_fonts d; a_sel := a_sel d; a_imgs := a_imgs d; a_cs := a_cs d; a_header := a_header d; a_footer := a_footer d |}.
Lemma a_op_page d sz : a_header d = None -> a_footer d = None -> a_op d (AddPage sz) = with_pages (a_pages d ++ [fresh sz]) (counted d).
Proof. intros Hh Hf. unfold a_op. cbv zeta. cbn [a_header a_footer]. rewrite Hh. cbn [a_callback]. cbn [a_footer]. rewrite Hf. cbn [a_callback fst]. unfold with_pages, counted. cbn. now rewrite Hh, Hf. Qed.
Lemma step_page s sz : step s (AddPage sz) = addPage sz s. Proof. reflexivity. Qed.
Lemma Twin_addpage st moved k cur s b z Fs Fu gi gj d pages ready sz :
  st <> Blank -> Twin st moved k cur s b z Fs Fu gi gj d pages ready -> Paged Blank false k (List.length (a_pages b)) (fst (addPage sz s)) (a_op b (AddPage sz)).
Proof.
  intros Nb [Es I (Hh & Hf) Eb Fr It St]. destruct (iv_hdr _ _ _ I) as (Ih & _). destruct (iv_ftr _ _ _ I) as (If_ & _). change (g_header (tw gj Fu z)) with (g_header z) in Ih. change (g_footer (tw gj Fu z)) with (g_footer z) in If_. rewrite Hh in Ih. rewrite Hf in If_. symmetry in Ih, If_.
  destruct (Inv_op _ _ _ (AddPage sz) I eq_refl) as (pages' & I'). rewrite step_page in I'. rewrite (addPage_new sz (tw gj Fu z) Hh Hf) in I'. change (fst (new_state sz (tw gj Fu z), Ok)) with (new_state sz (tw gj Fu z)) in I'. pose proof (Ext_new sz (tw gj Fu z)) as X. rewrite new_state_tw in I', X. rewrite a_op_page in I' by assumption.
  rewrite Es, (addPage_new sz (tw gi Fs z) Hh Hf). change (fst (new_state sz (tw gi Fs z), Ok)) with (new_state sz (tw gi Fs z)). rewrite new_state_tw. assert (Bh : a_header b = None /\ a_footer b = None) by (rewrite Eb; auto). rewrite a_op_page by apply Bh.
  destruct (new_state_facts sz z) as (Zo & Zh & Zf & Zp). set (z' := new_state sz z) in *. clearbody z'.
  assert (Rd : a_pages b = ready /\ kinds (g_objs z) = pcs k) by (destruct st; [|congruence|]; [destruct St as (-> & -> & _ & _ & -> & ->)|destruct St as (-> & -> & _)]; auto).
  destruct Rd as (Rd & Kd). destruct (alternate Fu (g_objs z) 0) as (Al & _). destruct (Al k Kd) as (Lps & _). clear Al. assert (Lr : List.length ready = k) by (rewrite <- (Forall2_len _ _ _ It); exact Lps).
  assert (Cp : cpos 0 (g_objs z') = cpos 0 (g_objs z)) by (rewrite Zo, cpos_app; cbn [cpos]; apply app_nil_r).
  exists z', Fs, Fu, None, None, (with_pages (a_pages d ++ [fresh sz]) (counted d)), pages', ready. constructor.
  - reflexivity.
  - exact I'.
  - split; congruence.
  - rewrite Eb. reflexivity.
  - cbn [a_pages with_pages]. apply Forall2_snoc; [exact Fr|]. split; reflexivity.
  - rewrite Cp. eapply Forall2_impl; [|exact It]. intros pos p Sp. exact (shows_ext _ _ _ _ X Sp).
  - rewrite Rd. cbn [a_pages with_pages]. split; [rewrite Zo, kinds_app, Kd; reflexivity|]. repeat split; auto. exists (fresh sz). auto.
Qed.
Lemma Twin_hf st moved k cur s b z Fs Fu gi gj d pages ready o :
  Twin st moved k cur s b z Fs Fu gi gj d pages ready -> (o = AddHeader None \/ o = AddFooter None) -> Paged st moved k cur (fst (step s o)) (a_op b o).
Proof.
  intros [Es I (Hh & Hf) Eb Fr It St] O. assert (Po : plain_op o = true) by (destruct O as [-> | ->]; reflexivity). destruct (Inv_op _ _ _ o I Po) as (pages' & I').
  assert (Z : exists z', (forall g F, fst (step (tw g F z) o) = tw g F z') /\ g_objs z' = g_objs z /\ g_header z' = None /\ g_footer z' = None /\ g_pagesize z' = g_pagesize z /\ g_fonts z' = g_fonts z /\ g_cs z' = g_cs z /\ g_xobjs z' = g_xobjs z).
  { destruct O as [-> | ->]; [exists (set_header None z)|exists (set_footer None z)]; (split; [intros g F; destruct z; reflexivity|]); repeat split; auto. }
  destruct Z as (z' & T & Zo & Zh & Zf & Zp & Z1 & Z2 & Z3). rewrite T in I'. rewrite Es, T.
  assert (X : Ext (tw gj Fu z) (tw gj Fu z')) by (apply Ext_same; [unfold tw; cbn; now rewrite Zo|exact Z1|exact Z2|exact Z3]).
  exists z', Fs, Fu, gi, gj, (a_op d o), pages', ready. constructor.
  - reflexivity.
  - exact I'.
  - auto.
  - rewrite Eb. destruct O as [-> | ->]; reflexivity.
  - destruct O as [-> | ->]; exact Fr.
  - rewrite Zo. eapply Forall2_impl; [|exact It]. intros pos p Sp. exact (shows_ext _ _ _ _ X Sp).
  - rewrite Zo, Zp. destruct O as [-> | ->]; exact St.
Qed.
Lemma upd_id {A} (f : A -> A) l : (forall x, f x = x) -> forall n, upd l n f = l.
Proof. intros H. induction l as [|x l IH]; intros [|n]; cbn; rewrite ?H, ?IH; reflexivity. Qed.
Lemma Twin_setup st moved k cur s b z Fs Fu gi gj d pages ready o :
  st <> Drawn -> Twin st moved k cur s b z Fs Fu gi gj d pages ready -> sets_up o = true -> plain_sop o = true ->
  Paged st moved k cur (fst (sstep s o)) (on_page cur (fun d => fst (a_sop d o)) b).
Proof.
  intros Nd [Es I (Hh & Hf) Eb Fr It St] S P. destruct (Inv_sop _ _ _ o I P) as (pages' & I' & _). pose proof (Ext_sop (tw gj Fu z) o P) as X.
  destruct (Same_setup z o S) as (z' & r & (K1 & K2 & K3 & K4 & K5 & _) & T). cbv beta in T. rewrite T in I', X. cbn [fst] in I', X. rewrite Es, T. cbn [fst].
  destruct (focus o d P) as (xs & ls & d1 & _ & Fl & Fo). destruct (Fl S) as (-> & ->). clear Fl.
  assert (It' : Forall2 (fun pos p => shows (tw gj Fu z') (Fs pos) (ap_items p)) (cpos 0 (g_objs z')) ready) by (rewrite K1; eapply Forall2_impl; [|exact It]; intros pos p Sp; exact (shows_ext _ _ _ _ X Sp)).
  destruct st; [|clear Nd|congruence].
  - destruct St as (Ek & Kd & Ei & Ej & Ep & Er). assert (Bd : b = d) by (rewrite Eb, Ep; rewrite Ep in Fr; inversion Fr as [Q|]; destruct d; cbn in Q; subst; reflexivity). subst d.
    assert (On : on_page cur (fun d => fst (a_sop d o)) b = fst (a_sop b o)) by (unfold on_page; rewrite Ep; now destruct cur). rewrite On.
    assert (Pp : a_pages (fst (a_sop b o)) = []).
    { rewrite <- Ep. destruct o; try discriminate S; cbn [a_sop fst]; try reflexivity; [destruct (has_font _ _ _); reflexivity|destruct (existsb _ _); reflexivity]. }
    exists z', Fs, Fu, gi, gj, (fst (a_sop b o)), pages', ready. constructor; auto.
    + split; congruence.
    + destruct (fst (a_sop b o)); reflexivity.
    + rewrite Pp. constructor.
    + repeat split; auto. congruence.
  - destruct St as (Kd & Ei & Ej & Ec & Lr & Zp & p & Ep & Np). assert (Nb : nth_error (a_pages b) cur = Some p) by (rewrite Ep, nth_error_app2 by lia; replace (cur - List.length ready)%nat with O by lia; reflexivity).
    rewrite (on_page_focus cur o b d [] [] d1 p Eb Nb Fo). rewrite upd_id by apply grow_nil.
    destruct (exists_last (l := a_pages d)) as (pre & q & Ed); [intros Q; apply Forall2_len in Fr; rewrite Q, Ep, app_length in Fr; cbn in Fr; lia|].
    assert (Ed' : fst (a_sop d o) = with_pages (a_pages d) d1) by (replace d with (with_pages (pre ++ [q]) d) at 1 by (rewrite <- Ed; destruct d; reflexivity); rewrite Fo, grow_nil; now rewrite Ed). rewrite Ed' in I'.
    exists z', Fs, Fu, gi, gj, (with_pages (a_pages d) d1), pages', ready. constructor; auto.
    + split; congruence.
    + rewrite K2, K3. cbn [a_pages with_pages]. repeat split; auto. exists p. auto.
Qed.
Definition fillat (n : nat) (its : list item) (F : nat -> list item) (k : nat) : list item := if (k =? n)%nat then its else F k.
Lemma first_draw np it z r F : g_pagesize z = Some r ->
  draw np it (tw None F z) = (tw (Some (List.length (g_objs z))) (fillat (List.length (g_objs z)) [it r] F) (set_objs (g_objs z ++ [OContent []]) z), Ok).
Proof.
  intros P. unfold draw, getContent. change (g_content (tw None F z)) with (@None nat). unfold addObj. cbv iota beta. change (g_objs (tw None F z)) with (refill F 0 (g_objs z)). rewrite refill_len. set (n := List.length (g_objs z)).
  set (s1 := set_content (Some n) _). change (g_pagesize s1) with (g_pagesize z). rewrite P. f_equal. unfold append_item. change (g_objs s1) with (refill F 0 (g_objs z) ++ [OContent []]).
  pose proof (refill_len F (g_objs z) 0) as Ln. fold n in Ln. rewrite <- Ln at 1. rewrite upd_mid. unfold tw. cbn [g_objs set_objs]. rewrite refill_app. cbn [refill fill1]. replace (0 + List.length (g_objs z))%nat with n by reflexivity. unfold fillat at 2. rewrite Nat.eqb_refl.
  rewrite (refill_ext (fillat n [it r] F) F (g_objs z) 0); [destruct z; reflexivity|]. intros k K. apply cpos_bound in K. unfold fillat. destruct (Nat.eqb_spec k n); [subst n; lia|reflexivity].
Qed.
Lemma Forall2_in {A B} (R R' : A -> B -> Prop) l l' : (forall a b, In a l -> R a b -> R' a b) -> Forall2 R l l' -> Forall2 R' l l'.
Proof. intros H G. induction G; constructor; [apply H; [now left|assumption]|]. apply IHG. intros a b I. apply H. now right. Qed.
Lemma sstep_draw s np bts : sstep s (Draw np bts) = draw np (fun _ => IBytes bts) s. Proof. reflexivity. Qed.
Lemma Twin_first moved k cur s b z Fs Fu gi gj d pages ready np bts :
  Twin Blank moved k cur s b z Fs Fu gi gj d pages ready -> Paged Drawn false (S k) cur (fst (sstep s (Draw np bts))) (on_page cur (fun d => fst (a_sop d (Draw np bts))) b).
Proof.
  intros [Es I (Hh & Hf) Eb Fr It (Kd & Ei & Ej & Ec & Lr & Zp & p & Ep & Np)]. subst gi gj.
  destruct (Inv_sop _ _ _ (Draw np bts) I eq_refl) as (pages' & I' & _). pose proof (Ext_sop (tw None Fu z) (Draw np bts) eq_refl) as X. rewrite sstep_draw in I', X. rewrite Es, sstep_draw.
  destruct (g_pagesize z) as [r|] eqn:Pz; [|congruence]. rewrite (first_draw np (fun _ => IBytes bts) z r Fu Pz) in I', X. rewrite (first_draw np (fun _ => IBytes bts) z r Fs Pz). cbn [fst] in *.
  set (n := List.length (g_objs z)) in *. set (z' := set_objs (g_objs z ++ [OContent []]) z) in *.
  assert (Nb : nth_error (a_pages b) cur = Some p) by (rewrite Ep, nth_error_app2 by lia; replace (cur - List.length ready)%nat with O by lia; reflexivity).
  assert (Fo : forall pre p, fst (a_sop (with_pages (pre ++ [p]) d) (Draw np bts)) = with_pages (pre ++ [grow [ShBytes bts] [] p]) d) by (intros pre p0; cbn [a_sop]; rewrite no_pages_last; cbn [fst]; apply put_last).
  rewrite (on_page_focus cur (Draw np bts) b d [ShBytes bts] [] d p Eb Nb Fo).
  destruct (exists_last (l := a_pages d)) as (pre & q & Ed); [intros Q; apply Forall2_len in Fr; rewrite Q, Ep, app_length in Fr; cbn in Fr; lia|].
  assert (Ed' : fst (a_sop d (Draw np bts)) = with_pages (pre ++ [grow [ShBytes bts] [] q]) d) by (replace d with (with_pages (pre ++ [q]) d) at 1 by (rewrite <- Ed; destruct d; reflexivity); apply Fo). rewrite Ed' in I'.
  assert (Ub : upd (a_pages b) cur (grow [ShBytes bts] []) = ready ++ [grow [ShBytes bts] [] p]) by (rewrite Ep; replace cur with (List.length ready) by lia; apply upd_mid). rewrite Ub.
  assert (Lps : List.length (cpos 0 (g_objs z)) = k) by (rewrite (Forall2_len _ _ _ It); exact Lr).
  assert (Cp : cpos 0 (g_objs z') = cpos 0 (g_objs z) ++ [n]) by (change (g_objs z') with (g_objs z ++ [OContent []]); rewrite cpos_app; reflexivity).
  assert (Nn : nth_error (cpos 0 (g_objs z')) k = Some n) by (rewrite Cp, nth_error_app2 by lia; now rewrite Lps, Nat.sub_diag).
  exists z', (fillat n [IBytes bts] Fs), (fillat n [IBytes bts] Fu), (Some n), (Some n), (with_pages (pre ++ [grow [ShBytes bts] [] q]) d), pages', (ready ++ [grow [ShBytes bts] [] p]). constructor.
  - reflexivity.
  - exact I'.
  - auto.
  - reflexivity.
  - cbn [a_pages with_pages]. rewrite Ed, Ep in Fr. apply Forall2_app_inv_l in Fr as (l1 & l2 & F1 & F2 & F3). inversion F2 as [|? y ? ? Fp F2']; subst l2. inversion F2'; subst. apply app_inj_tail in F3 as (F3 & F4). subst l1 y.
    apply Forall2_snoc; [exact F1|]. destruct Fp as (Fp1 & Fp2). split; cbn; rewrite ?app_nil_r; congruence.
  - rewrite Cp. apply Forall2_snoc.
    + refine (Forall2_in _ _ _ _ _ It). intros pos x In_ Sx. apply cpos_bound in In_. unfold fillat at 2. destruct (Nat.eqb_spec pos n) as [E|_]; [subst n; lia|]. exact (shows_ext _ _ _ _ X Sx).
    + unfold fillat at 2. rewrite Nat.eqb_refl. cbn [ap_items grow]. rewrite Np. constructor; [reflexivity|constructor].
  - cbn [a_pages with_pages]. replace (S k - 1)%nat with k by lia. rewrite Ec. repeat split; auto; try discriminate.
    + change (g_objs z') with (g_objs z ++ [OContent []]). rewrite kinds_app, Kd, <- app_assoc. cbn [app]. exact (pcs_snoc k).
    + change (g_pagesize z') with (g_pagesize z). congruence.
Qed.
Lemma p_op_sop b cur o : (forall n, o <> SetPage n) -> p_op (b, cur) (Do o) = (on_page cur (fun d => fst (a_sop d o)) b, cur).
Proof. intros H. destruct o; try reflexivity. destruct (H n eq_refl). Qed.
Lemma step_do s o : step s (Do o) = sstep s o. Proof. reflexivity. Qed.
Lemma sstep_setpage s n : sstep s (SetPage n) = setPage n s. Proof. reflexivity. Qed.
Lemma exec_cons s o l : exec s (o :: l) = exec (fst (step s o)) l. Proof. reflexivity. Qed.
Lemma Paged_exec l : forall st moved k cur s b, Paged st moved k cur s b -> paged st moved l = true ->
  exists st' moved' k' cur', st' <> Blank /\ Paged st' moved' k' cur' (exec s l) (fst (fold_left p_op l (b, cur))).
Proof.
  induction l as [|o l IH]; intros st moved k cur s b P H.
  - exists st, moved, k, cur. split; [intros ->; discriminate H|exact P].
  - rewrite exec_cons. cbn [fold_left]. destruct P as (z & Fs & Fu & gi & gj & d & pages & ready & T).
    assert (HF : forall q, (o = AddHeader None \/ o = AddFooter None) -> paged st moved l = true -> q = p_op (b, cur) o -> exists st' moved' k' cur', st' <> Blank /\ Paged st' moved' k' cur' (exec (fst (step s o)) l) (fst (fold_left p_op l q))).
    { intros q O R ->. replace (p_op (b, cur) o) with (a_op b o, cur) by (destruct O as [-> | ->]; reflexivity). exact (IH _ _ _ _ _ _ (Twin_hf _ _ _ _ _ _ _ _ _ _ _ _ _ _ o T O) R). }
    assert (SU : forall o', o = Do o' -> sets_up o' && plain_sop o' && paged st moved l = true -> st <> Drawn -> exists st' moved' k' cur', st' <> Blank /\ Paged st' moved' k' cur' (exec (fst (step s o)) l) (fst (fold_left p_op l (p_op (b, cur) o)))).
    { intros o' -> R N. apply andb_true_iff in R as (R & R3). apply andb_true_iff in R as (R1 & R2). rewrite step_do, p_op_sop by (intros n ->; discriminate R1). exact (IH _ _ _ _ _ _ (Twin_setup _ _ _ _ _ _ _ _ _ _ _ _ _ _ o' N T R1 R2) R3). }
    assert (DR : forall o' m', o = Do o' -> st = Drawn -> (forall n, o' <> SetPage n) -> (is_link o' = true -> moved = false) -> m' = moved -> plain_sop o' = true -> paged Drawn m' l = true -> exists st' moved' k' cur', st' <> Blank /\ Paged st' moved' k' cur' (exec (fst (step s o)) l) (fst (fold_left p_op l (p_op (b, cur) o)))).
    { intros o' m' -> -> N L -> Po R. rewrite step_do, p_op_sop by exact N. exact (IH _ _ _ _ _ _ (Twin_drawn _ _ _ _ _ _ _ _ _ _ _ _ _ o' T Po L) R). }
    assert (AP : forall sz, o = AddPage sz -> st <> Blank -> paged Blank false l = true -> exists st' moved' k' cur', st' <> Blank /\ Paged st' moved' k' cur' (exec (fst (step s o)) l) (fst (fold_left p_op l (p_op (b, cur) o)))).
    { intros sz -> N R. rewrite step_page. exact (IH _ _ _ _ _ _ (Twin_addpage _ _ _ _ _ _ _ _ _ _ _ _ _ _ sz N T) R). }
    destruct o as [o|c|sz|h|h|]; cbn [paged] in H.
    + destruct st.
      * apply (SU o eq_refl); [|discriminate]. destruct o; exact H.
      * destruct (match o with Draw _ _ => true | _ => false end) eqn:Dr.
        -- destruct o; try discriminate Dr. rewrite step_do, p_op_sop by discriminate. exact (IH _ _ _ _ _ _ (Twin_first _ _ _ _ _ _ _ _ _ _ _ _ _ _ _ T) H).
        -- apply (SU o eq_refl); [|discriminate]. destruct o; try discriminate Dr; exact H.
      * destruct (match o with SetPage _ => true | _ => false end) eqn:Sp.
        -- destruct o; try discriminate Sp. rewrite step_do, sstep_setpage. exact (IH _ _ _ _ _ _ (Twin_setpage _ _ _ _ _ _ _ _ _ _ _ _ _ n T) H).
        -- destruct (is_link o) eqn:Lo.
           ++ destruct o; try discriminate Lo. apply andb_true_iff in H as (H1 & H2). apply negb_true_iff in H1. apply (DR (AddLink l0) moved eq_refl eq_refl); auto. discriminate.
           ++ assert (H' : plain_sop o && paged Drawn moved l = true) by (destruct o; try discriminate Sp; try discriminate Lo; exact H). apply andb_true_iff in H' as (H1 & H2). apply (DR o moved eq_refl eq_refl); auto; [intros n ->; discriminate Sp|rewrite Lo; discriminate].
    + destruct st; discriminate H.
    + apply (AP sz eq_refl); destruct st; try discriminate H; try discriminate; exact H.
    + destruct h as [h|]; [destruct st; discriminate H|]. apply HF; auto. destruct st; exact H.
    + destruct h as [h|]; [destruct st; discriminate H|]. apply HF; auto. destruct st; exact H.
    + destruct st; discriminate H.
Qed.

(** ** From the invariant to the pages read *)
Lemma Ext_twins z g F g' F' : Ext (tw g F z) (tw g' F' z).
Proof.
  constructor; [|exists []; now rewrite app_nil_r|exists []; now rewrite app_nil_r|apply incl_refl]. intros i o S. change (g_objs (tw g F z)) with (refill F 0 (g_objs z)). change (g_objs (tw g' F' z)) with (refill F' 0 (g_objs z)).
  generalize (g_objs z). intros l. generalize 0%nat. revert i. induction l as [|x l IH]; intros [|i] m E; cbn in *; try discriminate E; [|exact (IH i (Datatypes.S m) E)]. injection E as <-. destruct x; try discriminate S; reflexivity.
Qed.
Lemma swap_items u (Fu Fs : nat -> list item) : forall (ps : list nat) pgs dps bps, List.length pgs = List.length ps -> Forall2 (PgRel u) (combine pgs (map Fu ps)) dps -> Forall2 same_frame dps bps ->
  Forall2 (fun pos p => shows u (Fs pos) (ap_items p)) ps bps -> Forall2 (PgRel u) (combine pgs (map Fs ps)) bps.
Proof.
  induction ps as [|pos ps IH]; intros [|pg pgs] dps bps L A B C; try discriminate L.
  - inversion C; subst. constructor.
  - cbn [map combine] in *. inversion A as [|? dp ? dps' A1 A2]; subst. inversion B as [|? bp ? bps' (B1 & B2) B3]; subst. inversion C as [|? ? ? ? C1 C2]; subst. destruct A1 as (A3 & A4 & A5 & A6). constructor; [|apply (IH pgs dps' bps'); auto].
    cbn [fst snd] in *. split; [cbn; congruence|]. split; [exact A4|]. split; [exact C1|]. cbn. rewrite <- B2. exact A6.
Qed.
Lemma Paged_pages st moved k cur s b : st <> Blank -> Paged st moved k cur s b -> Forall2 (PgRel s) (vw (g_objs s)) (a_pages b) /\ g_kids s = [] /\ g_pagecount s = 0.
Proof.
  intros Nb (z & Fs & Fu & gi & gj & d & pages & ready & [Es I _ Eb Fr It St]). assert (Rd : a_pages b = ready /\ kinds (g_objs z) = pcs k) by (destruct st; [|congruence|]; [destruct St as (-> & -> & _ & _ & -> & ->)|destruct St as (-> & -> & _)]; auto). destruct Rd as (Rd & Kd). split; [|split; [rewrite Es; exact (proj1 (iv_kids _ _ _ I))|rewrite Es; exact (proj2 (iv_kids _ _ _ I))]].
  rewrite <- Rd in It. pose proof (iv_pages _ _ _ I) as G. rewrite <- (Lay_vw _ _ _ _ (iv_lay _ _ _ I)), vw_vr in G. change (g_objs (tw gj Fu z)) with (refill Fu 0 (g_objs z)) in G.
  destruct (alternate Fu (g_objs z) 0) as (A & _). destruct (A k Kd) as (A1 & A2 & _ & A4). rewrite A4 in G. destruct (alternate Fs (g_objs z) 0) as (A' & _). destruct (A' k Kd) as (_ & _ & _ & A4').
  rewrite Es, vw_vr. change (g_objs (tw gi Fs z)) with (refill Fs 0 (g_objs z)). rewrite A4'. refine (PgRel_ext _ _ _ _ (Ext_twins z gj Fu gi Fs) _). refine (swap_items _ Fu Fs _ _ _ _ _ G Fr It). congruence.
Qed.
Lemma read_PgRel s aps : g_kids s = [] -> Forall2 (PgRel s) (vw (g_objs s)) aps -> read_pages (output s) = map as_shown aps.
Proof.
  intros K H0. rewrite (output_pages s) by exact K. pose proof (PgRel_ext _ _ _ _ (Ext_output s) H0) as H. clear H0.
  induction H as [|[p its] ap pages0 aps (A & B & C & D) H IH]; [reflexivity|]. cbn [map fst snd] in *. rewrite IH. unfold as_shown at 2. rewrite A, B. cbn [flat_map app].
  rewrite (Forall2_map_some _ _ _ D).
  assert (E : map (show (output s)) (map written_item its) = map Some (ap_items ap)) by (rewrite map_map; apply Forall2_map_some; eapply Forall2_impl; [|exact C]; intros; now apply show_written).
  rewrite E. reflexivity.
Qed.
Lemma Paged_start c : Paged NoPage false 0 0 (start c zero_gp) (a_empty c).
Proof.
  exists (start c zero_gp), (fun _ => []), (fun _ => []), None, None, (a_empty c), [], []. constructor; try reflexivity; try (constructor; fail).
  - exact (Inv_first c).
  - split; reflexivity.
  - repeat split.
Qed.

Lemma count_read s aps : g_kids s = [] -> g_pagecount s = 0 -> read_pages (output s) = map as_shown aps -> g_pagecount (output s) = zlen aps.
Proof.
  intros K1 K2 Q. assert (Z2 : zlen (g_kids (output s)) = zlen aps) by (unfold read_pages in Q; apply (f_equal zlen) in Q; unfold zlen in *; rewrite !map_length in Q; exact Q).
  rewrite <- Z2. unfold output. cbn [g_pagecount g_kids set_objs]. destruct (prepare_eq s) as (_ & K & P' & _). rewrite K, P', K1, K2. cbn [app]. lia.
Qed.
Lemma doc_Paged c l : paged NoPage false l = true -> exists st moved k cur, st <> Blank /\ Paged st moved k cur (doc c l) (fst (p_doc c l)).
Proof. intros H. exact (Paged_exec l _ _ _ _ _ _ (Paged_start c) H). Qed.

(** The theorem: for every such history, whatever pages are selected in it, the file's pages are, in order, those added, with
    the size given, and each shows exactly what was drawn while it was the selected page, in order (fonts, images and colour
    spaces resolved), and the links put on it. *)
Theorem C07_histories :
  forall c l, paged NoPage false l = true ->
    read_pages (output (doc c l)) = map as_shown (a_pages (fst (p_doc c l))) /\
    g_pagecount (output (doc c l)) = zlen (a_pages (fst (p_doc c l))).
Proof.
  intros c l H. destruct (doc_Paged c l H) as (st & moved & k & cur & N & P). destruct (Paged_pages _ _ _ _ _ _ N P) as (R & K1 & K2).
  pose proof (read_PgRel _ _ K1 R) as Q. exact (conj Q (count_read _ _ K1 K2 Q)).
Qed.
Print Assumptions C07_histories.

(** Without SetPage the selected page is the last one, and this is the abstract document of C06. *)
Definition no_setpage (o : op) : bool := match o with Do (SetPage _) => false | _ => true end.
Lemma paged_plain l : forall st moved, paged st moved l = true -> forallb no_setpage l = true -> forallb plain_op l = true.
Proof.
  induction l as [|o l IH]; intros st moved H N; [reflexivity|]. cbn [forallb] in *. apply andb_true_iff in N as (N1 & N2). apply andb_true_iff.
  destruct o as [o|c|sz|h|h|]; cbn [paged plain_op] in *.
  - destruct st.
    + assert (H' : sets_up o && plain_sop o && paged NoPage moved l = true) by (destruct o; exact H). apply andb_true_iff in H' as (H1 & H2). apply andb_true_iff in H1 as (_ & H1). eauto.
    + destruct (match o with Draw _ _ => true | _ => false end) eqn:Dr; [destruct o; try discriminate Dr; eauto|]. assert (H' : sets_up o && plain_sop o && paged Blank moved l = true) by (destruct o; try discriminate Dr; exact H). apply andb_true_iff in H' as (H1 & H2). apply andb_true_iff in H1 as (_ & H1). eauto.
    + destruct (is_link o) eqn:Lo; [destruct o; try discriminate Lo; apply andb_true_iff in H as (_ & H); eauto|]. assert (H' : plain_sop o && paged Drawn moved l = true) by (destruct o; try discriminate N1; try discriminate Lo; exact H). apply andb_true_iff in H' as (H1 & H2). eauto.
  - destruct st; discriminate H.
  - destruct st; try discriminate H; eauto.
  - destruct h; [destruct st; discriminate H|]. destruct st; eauto.
  - destruct h; [destruct st; discriminate H|]. destruct st; eauto.
  - destruct st; discriminate H.
Qed.
Lemma map_some_inj {A} (a b : list A) : map Some a = map Some b -> a = b.
Proof. revert b. induction a as [|x a IH]; intros [|y b] H; try discriminate H; [reflexivity|]. injection H as -> H. f_equal. auto. Qed.
Theorem C07_without_setpage :
  forall c l, paged NoPage false l = true -> forallb no_setpage l = true -> a_pages (fst (p_doc c l)) = a_pages (adoc_of c l).
Proof.
  intros c l H N. pose proof (proj1 (C07_histories c l H)) as A. destruct (doc_Inv c l (paged_plain _ _ _ H N)) as (pages & I). rewrite (Inv_read _ _ _ I) in A.
  clear -A. revert A. generalize (a_pages (adoc_of c l)). generalize (a_pages (fst (p_doc c l))). intros a b. revert a. induction b as [|y b IH]; intros [|x a] H; try discriminate H; [reflexivity|]. cbn [map] in H. injection H as H1 H2 H3 H4.
  f_equal; [|now apply IH]. destruct x, y. cbn in *. apply map_some_inj in H2, H3. now subst.
Qed.
Print Assumptions C07_without_setpage.
(** The histories of the theorem, by example: three pages, drawn on in turns; a failed SetPage in between. *)
Definition to_and_fro : list op :=
  [Do (AddFont (bs "serif") 0); AddPage None; Do (Draw true (bs "a")); Do (SetFont (bs "serif") 0 12); AddPage (Some small); Do (SetXY 1 2); Do (Draw true (bs "b"));
   Do (SetPage 1); Do (Image (bs "a.png") pic); Do (SetPage 7); Do (Text (bs "one")); AddPage None; Do (Draw true (bs "c")); Do (SetPage 2); Do (Text (bs "two")); Do (SetPage 3); Do (Image (bs "a.png") pic); Do (SetPage 1); Do (Draw true (bs "d"))].
Example C07_histories_met : paged NoPage false to_and_fro = true /\
  map ap_items (a_pages (fst (p_doc a4 to_and_fro))) =
    [[ShBytes (bs "a"); ShImage (bs "PIC"); ShText (bs "serif") 0 (bs "one"); ShBytes (bs "d")]; [ShBytes (bs "b"); ShText (bs "serif") 0 (bs "two")]; [ShBytes (bs "c"); ShImage (bs "PIC")]].
Proof. vm_compute. repeat split. Qed.
