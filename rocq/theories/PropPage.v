(** PropPage.v — C71: every page has the size and the trim box asked for it, and what is placed on it is measured from its top. *)
From Coq Require Import QArith.
From Verif Require Import Base NumModel UnitModel PdfSyntax PdfRead ObjModel PropObj PageModel.
Open Scope Z_scope.

(** ** Specification *)
(** A length in points: the rectangle's own unit if it has one, else the document's. *)
Definition in_points (cfg : ucfg F64) (r : rect64) : psize :=
  let c := if u_unit (r_over F64 r) =? 0 then cfg else r_over F64 r in
  {| p_w := unitsToPoints F64 c (r_w F64 r); p_h := unitsToPoints F64 c (r_h F64 r) |}.
Definition box_points (cfg : ucfg F64) (b : box64) : boxq :=
  let c := if u_unit (b_over F64 b) =? 0 then cfg else b_over F64 b in let k := unitsToPoints F64 c in
  {| bx_l := k (b_l F64 b); bx_t := k (b_t F64 b); bx_r := k (b_r F64 b); bx_b := k (b_b F64 b) |}.
(** What the calls ask for: pages, each with its size, the trim box given with it, and the marks on it with their distance from
    the top of that page (anchors and bookmarks: the pen position, a font size resp. 20 points higher). *)
Record want := { w_size : psize; w_trim : option boxq; w_marks : list mark }.
Record wst := { v_top : f64; v_y : f64; v_font : Z; v_pages : list want }.
Fixpoint wput (f : want -> mark) (l : list want) : list want :=
  match l with
  | [] => []
  | [p] => [{| w_size := w_size p; w_trim := w_trim p; w_marks := w_marks p ++ [f p] |}]
  | p :: r => p :: wput f r
  end.
Definition from_top (p : want) (y : f64) : f64 := sub64 (p_h (w_size p)) y.
Section Asked.
  Variables (cfg : ucfg F64) (def : rect64) (dtrim : option boxq).
  Definition ask (v : wst) (c : call) : wst :=
    let k := unitsToPoints F64 cfg in
    let marked f := {| v_top := v_top v; v_y := v_y v; v_font := v_font v; v_pages := wput f (v_pages v) |} in
    let page z t := {| v_top := v_top v; v_y := v_top v; v_font := v_font v; v_pages := v_pages v ++ [{| w_size := z; w_trim := t; w_marks := [] |}] |} in
    match c with
    | AddPage => page (in_points cfg def) dtrim
    | AddPageWithOption size trim =>
        page (match size with Some r => in_points cfg r | None => in_points cfg def end)
             (match trim with Some b => Some (box_points cfg b) | None => dtrim end)
    | SetMarginTop y => {| v_top := k y; v_y := v_y v; v_font := v_font v; v_pages := v_pages v |}
    | SetY y => {| v_top := v_top v; v_y := k y; v_font := v_font v; v_pages := v_pages v |}
    | SetFontSize n => {| v_top := v_top v; v_y := v_y v; v_font := n; v_pages := v_pages v |}
    | Line y => marked (fun p => MDraw (from_top p (k y)))
    | AddLink y => marked (fun p => MLink (from_top p (k y)))
    | SetAnchor name => marked (fun p => MAnchor name (add64 (from_top p (v_y v)) (f64_ofZ (v_font v))))
    | AddOutlineWithPosition t => marked (fun p => MOutline t (add64 (from_top p (v_y v)) (f64_ofZ 20)))
    end.
  Definition asked (l : list call) : list want :=
    v_pages (fold_left ask l {| v_top := f64_ofZ 0; v_y := f64_ofZ 0; v_font := 0; v_pages := [] |}).
End Asked.
(** A reader: the page's own box, else the one inherited from the page tree root. *)
Definition box_of (key : string) (page root : bytes) : option pobj :=
  match read_object page with
  | Some (ODict l, _) =>
      match entry key l with
      | [o] => Some o
      | [] => match read_object root with Some (ODict l', _) => match entry key l' with [o] => Some o | _ => None end | _ => None end
      | _ => None
      end
  | _ => None
  end.
Definition media_box (z : psize) : pobj := OArr [OInt 0; OInt 0; r2 (p_w z); r2 (p_h z)].
(** The trim box in the page's coordinates, whose vertical axis points up. *)
Definition trim_box (z : psize) (b : boxq) : pobj := OArr [r2 (bx_l b); r2 (sub64 (p_h z) (bx_b b)); r2 (bx_r b); r2 (sub64 (p_h z) (bx_t b))].

(** Options given in units of a document without a factor of its own, or with their own unit (as the predefined page sizes). *)
Definition plain_opt (cfg : ucfg F64) (c : call) : Prop :=
  match c with
  | AddPageWithOption size trim =>
      cfg = defcfg F64 (u_unit cfg) \/
      (match size with Some r => u_unit (r_over F64 r) <> 0 | None => True end /\ match trim with Some b => u_unit (b_over F64 b) <> 0 | None => True end)
  | _ => True
  end.

(** ** Proofs *)
Lemma size_same cfg r : cfg = defcfg F64 (u_unit cfg) \/ u_unit (r_over F64 r) <> 0 -> sizeU2P cfg r = in_points cfg r.
Proof.
  intros H. unfold sizeU2P, in_points, rectU2P, rectU2P_cfg, rectCfg. cbv zeta. cbn [r_w r_h]. destruct (Z.eqb_spec (u_unit (r_over F64 r)) 0) as [E|E]; [|reflexivity].
  destruct H as [->|H]; [reflexivity|contradiction].
Qed.
Lemma box_same cfg b : cfg = defcfg F64 (u_unit cfg) \/ u_unit (b_over F64 b) <> 0 -> trimU2P cfg b = box_points cfg b.
Proof.
  intros H. unfold trimU2P, box_points, boxU2P, boxU2P_cfg. cbv zeta. cbn [b_l b_t b_r b_b]. destruct (Z.eqb_spec (u_unit (b_over F64 b)) 0) as [E|E]; [|reflexivity].
  destruct H as [->|H]; [reflexivity|contradiction].
Qed.
Definition isdraw (m : mark) : bool := match m with MDraw _ => true | _ => false end.
(** How a page of the model matches one asked for. *)
Record match_page (d : psize) (dt : option boxq) (p : pg) (w : want) : Prop := {
  mp_size : w_size w = match pg_size p with Some z => z | None => d end;
  mp_trim : pg_size p <> None -> w_trim w = match pg_trim p with Some b => Some b | None => dt end;
  mp_none : pg_size p = None -> pg_trim p = None;
  mp_draw : filter isdraw (pg_marks p) = filter isdraw (w_marks w);
  mp_marks : p_h (w_size w) = p_h d -> pg_marks p = w_marks w }.
Lemma put_snoc m l p : put m (l ++ [p]) = l ++ [{| pg_size := pg_size p; pg_trim := pg_trim p; pg_marks := pg_marks p ++ [m] |}].
Proof. induction l as [|a l IH]; [reflexivity|]. cbn [app put]. rewrite IH. destruct l; reflexivity. Qed.
Lemma wput_snoc f l p : wput f (l ++ [p]) = l ++ [{| w_size := w_size p; w_trim := w_trim p; w_marks := w_marks p ++ [f p] |}].
Proof. induction l as [|a l IH]; [reflexivity|]. cbn [app wput]. rewrite IH. destruct l; reflexivity. Qed.
Lemma Forall2_snoc {A B} (R : A -> B -> Prop) l m a b : Forall2 R l m -> R a b -> Forall2 R (l ++ [a]) (m ++ [b]).
Proof. intros H K. apply Forall2_app; [exact H|now constructor]. Qed.
Lemma Forall2_snoc_inv {A B} (R : A -> B -> Prop) l a m : Forall2 R (l ++ [a]) m -> exists m' b, m = m' ++ [b] /\ Forall2 R l m' /\ R a b.
Proof. intros H. apply Forall2_app_inv_l in H as (m' & q & H1 & H2 & ->). inversion H2 as [|? b ? ? K1 K2]; subst. inversion K2; subst. now exists m', b. Qed.
Lemma Forall2_len {A B} (R : A -> B -> Prop) l m : Forall2 R l m -> List.length l = List.length m.
Proof. induction 1; cbn; congruence. Qed.
Lemma exists_last' {A} (l : list A) : l = [] \/ exists m a, l = m ++ [a].
Proof. induction l as [|a l _] using rev_ind; [now left|right; now exists l, a]. Qed.
Section Sim.
  Variables (cfg : ucfg F64) (def : rect64) (dt : option boxq).
  Notation d := (in_points cfg def).
  Record agree (s : pst) (v : wst) : Prop := {
    ag_cfg : s_cfg s = cfg; ag_def : s_def s = d; ag_top : s_top s = v_top v; ag_y : s_y s = v_y v; ag_font : s_font s = v_font v;
    ag_cur : s_cur s = match rev (s_pages s) with [] => None | p :: _ => Some (match pg_size p with Some z => z | None => d end) end;
    ag_pages : Forall2 (match_page d dt) (s_pages s) (v_pages v) }.
  Lemma mark_step s v m (f : want -> mark) : agree s v ->
    (isdraw m = false -> forall w, p_h (w_size w) = p_h d -> m = f w) ->
    (forall w, isdraw (f w) = isdraw m) ->
    (isdraw m = true -> forall p l w, s_pages s = l ++ [p] -> match_page d dt p w -> m = f w) ->
    agree (mark_it s m) {| v_top := v_top v; v_y := v_y v; v_font := v_font v; v_pages := wput f (v_pages v) |}.
  Proof.
    intros [A1 A2 A3 A4 A5 A6 A7] HF HD HM. destruct (exists_last' (s_pages s)) as [EP|(l0 & p0 & EP)]; rewrite EP in *.
    - inversion A7 as [E|]; subst. split; cbn; rewrite ?EP; auto. cbn. now constructor.
    - apply Forall2_snoc_inv in A7 as (vl & w & EV & A7 & M). split; cbn [mark_it s_cfg s_def s_cur s_top s_y s_font s_pages v_top v_y v_font v_pages]; auto; rewrite EP, ?EV.
      + rewrite put_snoc. rewrite rev_app_distr in A6 |- *. cbn [rev app pg_size] in *. exact A6.
      + rewrite put_snoc, wput_snoc. apply Forall2_snoc; [exact A7|]. pose proof M as [M1 M2 M3 M4 M5]. split; cbn [pg_size pg_trim pg_marks w_size w_trim w_marks]; auto.
        * rewrite !filter_app, M4. f_equal. cbn [filter]. rewrite HD. destruct (isdraw m) eqn:ED; [|reflexivity]. f_equal.
          exact (HM eq_refl p0 l0 w eq_refl M).
        * intros EH. rewrite (M5 EH). do 2 f_equal. destruct (isdraw m) eqn:ED; [exact (HM eq_refl p0 l0 w eq_refl M)|exact (HF eq_refl w EH)].
  Qed.
  Lemma step s v c s' : agree s v -> plain_opt cfg c -> do s c = Some s' -> agree s' (ask cfg def dt v c).
  Proof.
    intros A PL H. pose proof A as [A1 A2 A3 A4 A5 A6 A7].
    assert (NEW : forall size trim z t, agree s v -> z = match size with Some r => in_points cfg r | None => d end ->
       t = match trim with Some b => Some (box_points cfg b) | None => dt end ->
       (match size with Some r => sizeU2P cfg r = in_points cfg r | None => True end) -> (match trim with Some b => trimU2P cfg b = box_points cfg b | None => True end) ->
       agree (addPageWithOption s size trim) {| v_top := v_top v; v_y := v_top v; v_font := v_font v; v_pages := v_pages v ++ [{| w_size := z; w_trim := t; w_marks := [] |}] |}).
    { intros size trim z t _ -> -> H1 H2. unfold addPageWithOption. rewrite A1, A2. destruct size as [r|]; cbn [option_map]; cbn [fst snd].
      - split; cbn [s_cfg s_def s_top s_y s_font s_cur s_pages v_top v_y v_font v_pages]; auto.
        + rewrite rev_app_distr. reflexivity.
        + apply Forall2_snoc; [exact A7|]. split; cbn; auto; try discriminate. intros _. destruct trim; cbn; [now rewrite H2|reflexivity].
      - split; cbn [s_cfg s_def s_top s_y s_font s_cur s_pages v_top v_y v_font v_pages]; auto.
        + rewrite rev_app_distr. reflexivity.
        + apply Forall2_snoc; [exact A7|]. split; cbn; auto. intros X. now destruct X. }
    destruct c as [|size trim|y|y|n|y|y|name|t]; cbn [do ask plain_opt] in *.
    - injection H as <-. apply NEW with (size := None) (trim := None); auto.
    - injection H as <-. apply NEW; auto.
      + destruct size as [r|]; [|exact I]. apply size_same. destruct PL as [PL|[PL _]]; auto.
      + destruct trim as [b|]; [|exact I]. apply box_same. destruct PL as [PL|[_ PL]]; auto.
    - injection H as <-. unfold U. split; cbn; auto. now rewrite A1.
    - injection H as <-. unfold U. split; cbn; auto. now rewrite A1.
    - injection H as <-. split; cbn; auto.
    - unfold U in H. rewrite A1 in H. destruct (s_cur s) as [z|] eqn:EC; [|discriminate]. injection H as <-.
      apply mark_step with (f := fun w => MDraw (from_top w (unitsToPoints F64 cfg y))); auto; [discriminate|].
      intros _ p l w EP M. rewrite EP, rev_app_distr in A6. cbn [rev app] in A6. assert (z = w_size w) as -> by (rewrite (mp_size _ _ _ _ M); congruence). reflexivity.
    - unfold U in H. rewrite A1, A2 in H. assert (E : s' = mark_it s (MLink (sub64 (p_h d) (unitsToPoints F64 cfg y)))) by (destruct (s_pages s); congruence). subst s'. clear H.
      apply mark_step with (f := fun w => MLink (from_top w (unitsToPoints F64 cfg y))); auto; [|discriminate]. intros _ w E. unfold from_top. now rewrite E.
    - injection H as <-. rewrite A2, A4, A5.
      apply mark_step with (f := fun w => MAnchor name (add64 (from_top w (v_y v)) (f64_ofZ (v_font v)))); auto; [|discriminate]. intros _ w E. unfold from_top. now rewrite E.
    - injection H as <-. rewrite A2, A4.
      apply mark_step with (f := fun w => MOutline t (add64 (from_top w (v_y v)) (f64_ofZ 20))); auto; [|discriminate]. intros _ w E. unfold from_top. now rewrite E.
  Qed.
  Lemma run_agree l : forall s v s', agree s v -> Forall (plain_opt cfg) l -> run s l = Some s' -> agree s' (fold_left (ask cfg def dt) l v).
  Proof.
    induction l as [|c l IH]; intros s v s' A PL H; cbn [run fold_left] in *; [injection H as <-; exact A|].
    apply Forall_cons_iff in PL as [P1 P2]. destruct (do s c) as [s1|] eqn:E; [|discriminate]. exact (IH _ _ _ (step _ _ _ _ A P1 E) P2 H).
  Qed.
End Sim.
Lemma from_start cfg def dtr dt l s : Forall (plain_opt cfg) l -> run (start cfg def dtr) l = Some s ->
  s_def s = in_points cfg def /\ Forall2 (match_page (in_points cfg def) dt) (s_pages s) (asked cfg def dt l).
Proof.
  intros PL H. assert (A : agree cfg def dt (start cfg def dtr) {| v_top := f64_ofZ 0; v_y := f64_ofZ 0; v_font := 0; v_pages := [] |}).
  { split; cbn [start s_cfg s_def s_top s_y s_font s_cur s_pages v_top v_y v_font v_pages rev]; auto. }
  pose proof (run_agree cfg def dt l _ _ _ A PL H) as [_ B _ _ _ _ C]. auto.
Qed.
Lemma Forall2_nth {A B} (R : A -> B -> Prop) l m : Forall2 R l m -> forall i a, nth_error l i = Some a -> exists b, nth_error m i = Some b /\ R a b.
Proof. induction 1 as [|a b l m H F IH]; intros [|i] x E; try discriminate; [injection E as <-; now exists b|apply (IH i x E)]. Qed.

(** ** Proved: every page has, for a reader, the size asked for it, … *)
Theorem C71_page_sizes_partial : forall cfg def dtr l s, Forall (plain_opt cfg) l -> run (start cfg def dtr) l = Some s ->
  let pages := asked cfg def None l in
  (forall w, In w pages -> finite (p_w (w_size w)) /\ finite (p_h (w_size w)) /\ (forall b, w_trim w = Some b -> finite_box b)) ->
  finite (p_w (in_points cfg def)) -> finite (p_h (in_points cfg def)) ->
  List.length (s_pages s) = List.length pages /\
  forall i p, nth_error (s_pages s) i = Some p -> exists w, nth_error pages i = Some w /\
    forall kids res links content, box_of "MediaBox" (page_text p res links content) (root_text s kids) = Some (media_box (w_size w)).
Proof.
  intros cfg def dtr l s PL H pages FIN FW FH. destruct (from_start cfg def dtr None l s PL H) as [ED F2]. fold pages in F2. split; [exact (Forall2_len _ _ _ F2)|].
  intros i p EP. destruct (Forall2_nth _ _ _ F2 i p EP) as (w & EW & M). exists w. split; [exact EW|]. intros kids res links content.
  destruct (FIN w (nth_error_In _ _ EW)) as (F1 & F3 & F4). destruct M as [M1 M2 M3 _ _].
  unfold box_of, page_text. destruct (C60_page_partial res links content (option_map (fun z => (p_w z, p_h z)) (pg_size p)) (pg_trim p)) as (rest & RO & _).
  { intros w0 h0 E. destruct (pg_size p) as [z|]; [|discriminate]. cbn in E. rewrite M1 in F1, F3. injection E as <- <-. auto. }
  { intros b E. destruct (pg_size p) as [z|]; [|rewrite (M3 eq_refl) in E; discriminate]. apply F4. rewrite M2 by discriminate. now rewrite E. }
  rewrite RO. unfold page_dict. destruct (pg_size p) as [z|] eqn:EZ; cbn [option_map].
  - assert (E : forall tl, entry "MediaBox" tl = [] -> entry "MediaBox" ([(bs "Type", N_ "Page"); (bs "Parent", ref 2); (bs "Resources", ref res)]
         ++ (match links with [] => [] | _ => [(bs "Annots", OArr (map ref links))] end)
         ++ (match content with None => [] | Some c => [(bs "Contents", ref c)] end) ++ [(bs "MediaBox", media_box z)] ++ tl) = [media_box z]).
    { intros tl Et. unfold entry in *. rewrite !filter_app, !map_app. rewrite Et. destruct links, content; reflexivity. }
    unfold media_box in E at 1. rewrite E by (destruct (trimSet (pg_trim p)); reflexivity). rewrite M1. reflexivity.
  - rewrite (M3 eq_refl). cbn [trimSet]. assert (E : entry "MediaBox" ([(bs "Type", N_ "Page"); (bs "Parent", ref 2); (bs "Resources", ref res)]
         ++ (match links with [] => [] | _ => [(bs "Annots", OArr (map ref links))] end)
         ++ (match content with None => [] | Some c => [(bs "Contents", ref c)] end) ++ [] ++ []) = []) by (destruct links, content; reflexivity).
    rewrite E. unfold root_text. destruct (C60_pages (p_w (s_def s)) (p_h (s_def s)) (Z.of_nat (List.length (s_pages s))) kids) as (rest' & RO' & _); [now rewrite ED|now rewrite ED|].
    rewrite RO'. rewrite ED, M1. reflexivity.
Qed.
Print Assumptions C71_page_sizes_partial.
(** … a trim box given together with a page size is on the page, its four numbers as given: that is the box asked for when
    the box is as far from the top of the page as from the bottom (as in the project's example), *)
Theorem C71_trim_box_partial : forall cfg def dtr l s, Forall (plain_opt cfg) l -> run (start cfg def dtr) l = Some s ->
  forall i p w z b, nth_error (s_pages s) i = Some p -> nth_error (asked cfg def None l) i = Some w -> pg_size p = Some z -> w_trim w = Some b -> trimSet (Some b) = Some b ->
  finite (p_w z) -> finite (p_h z) -> finite_box b -> sub64 (p_h (w_size w)) (bx_b b) = bx_t b -> sub64 (p_h (w_size w)) (bx_t b) = bx_b b ->
  forall kids res links content, box_of "TrimBox" (page_text p res links content) (root_text s kids) = Some (trim_box (w_size w) b).
Proof.
  intros cfg def dtr l s PL H i p w z b EP EW EZ ET TS FW FH FB S1 S2 kids res links content. destruct (from_start cfg def dtr None l s PL H) as [ED F2].
  destruct (Forall2_nth _ _ _ F2 i p EP) as (w' & EW' & M). assert (w' = w) by congruence. subst w'. destruct M as [M1 M2 M3 _ _].
  assert (EB : pg_trim p = Some b) by (specialize (M2 ltac:(congruence)); rewrite ET in M2; destruct (pg_trim p); congruence).
  unfold box_of, page_text. destruct (C60_page_partial res links content (option_map (fun z => (p_w z, p_h z)) (pg_size p)) (pg_trim p)) as (rest & RO & _).
  { intros w0 h0 E. rewrite EZ in E. cbn in E. injection E as <- <-. auto. }
  { intros b0 E. assert (b0 = b) by congruence. now subst. }
  rewrite RO, EZ, EB, TS. unfold page_dict. cbn [option_map].
  assert (E : entry "TrimBox" ([(bs "Type", N_ "Page"); (bs "Parent", ref 2); (bs "Resources", ref res)]
         ++ (match links with [] => [] | _ => [(bs "Annots", OArr (map ref links))] end)
         ++ (match content with None => [] | Some c => [(bs "Contents", ref c)] end) ++ [(bs "MediaBox", OArr [OInt 0; OInt 0; r2 (p_w z); r2 (p_h z)])]
         ++ [(bs "TrimBox", OArr [r2 (bx_l b); r2 (bx_t b); r2 (bx_r b); r2 (bx_b b)])]) = [OArr [r2 (bx_l b); r2 (bx_t b); r2 (bx_r b); r2 (bx_b b)]]) by (destruct links, content; reflexivity).
  rewrite E. unfold trim_box. now rewrite S1, S2.
Qed.
Print Assumptions C71_trim_box_partial.
(** … every drawing is measured from the top of the page it is on, and on pages as high as the document's default so are
    links, anchors and bookmarks. *)
Theorem C71_measured_from_top_partial : forall cfg def dtr l s, Forall (plain_opt cfg) l -> run (start cfg def dtr) l = Some s ->
  forall i p, nth_error (s_pages s) i = Some p -> exists w, nth_error (asked cfg def None l) i = Some w /\
    filter isdraw (pg_marks p) = filter isdraw (w_marks w) /\
    (p_h (w_size w) = p_h (in_points cfg def) -> pg_marks p = w_marks w).
Proof.
  intros cfg def dtr l s PL H i p EP. destruct (from_start cfg def dtr None l s PL H) as [ED F2].
  destruct (Forall2_nth _ _ _ F2 i p EP) as (w & EW & M). exists w. split; [exact EW|]. split; [exact (mp_draw _ _ _ _ M)|exact (mp_marks _ _ _ _ M)].
Qed.
Print Assumptions C71_measured_from_top_partial.

(** ** Refuted *)
Notation n := f64_ofZ.
Ltac vmr := match goal with |- _ = ?b => vm_cast_no_check (eq_refl b) end.
Definition mk_rect (w h : f64) : rect64 := Build_rect F64 w h (defcfg F64 0).
Definition mk_box (l t r b : f64) : box64 := Build_box F64 l t r b (defcfg F64 0).
Definition pt : ucfg F64 := defcfg F64 1.
Definition A4 : rect64 := Build_rect F64 (n 595) (n 842) (defcfg F64 1).
Definition none : box64 := mk_box (n 0) (n 0) (n 0) (n 0).
(** (a) A trim box given without a page size is dropped: whatever came before, the page has none, *)
Theorem C71_trim_without_size_refuted : forall cfg def dtr l s b, run (start cfg def dtr) (l ++ [AddPageWithOption None (Some b)]) = Some s ->
  finite (p_w (s_def s)) -> finite (p_h (s_def s)) ->
  exists p q, s_pages s = p ++ [q] /\ forall kids res links content, box_of "TrimBox" (page_text q res links content) (root_text s kids) = None.
Proof.
  intros cfg def dtr l s b H FW FH. assert (R : forall l s0 s', run s0 (l ++ [AddPageWithOption None (Some b)]) = Some s' -> exists s1, s' = addPageWithOption s1 None (Some b)).
  { clear. induction l as [|c l IH]; intros s0 s' H; cbn [app run] in H.
    - cbn [do] in H. exists s0. congruence.
    - destruct (do s0 c); [|discriminate]. eapply IH, H. }
  destruct (R _ _ _ H) as (s1 & ->). unfold addPageWithOption in *. cbn [option_map fst snd s_pages s_def] in *.
  exists (s_pages s1), {| pg_size := None; pg_trim := None; pg_marks := [] |}. split; [reflexivity|]. intros kids res links content. unfold box_of, page_text. cbn [pg_size pg_trim option_map].
  destruct (C60_page_partial res links content None None ltac:(discriminate) ltac:(discriminate)) as (rest & RO & _). rewrite RO. unfold page_dict. cbn [trimSet].
  assert (E : entry "TrimBox" ([(bs "Type", N_ "Page"); (bs "Parent", ref 2); (bs "Resources", ref res)]
         ++ (match links with [] => [] | _ => [(bs "Annots", OArr (map ref links))] end)
         ++ (match content with None => [] | Some c => [(bs "Contents", ref c)] end) ++ [] ++ []) = []) by (destruct links, content; reflexivity).
  rewrite E. unfold root_text. cbn [s_def s_pages]. match goal with |- context [pages_body ?w ?h ?c kids] => destruct (C60_pages w h c kids FW FH) as (rest' & RO' & _) end.
  rewrite RO'. reflexivity.
Qed.
Print Assumptions C71_trim_without_size_refuted.
(** and so is the document's own trim box (Config.TrimBox), on every page. *)
Definition box_shown (trim : box64) (l : list call) (key : string) : list (option pobj) :=
  match run (start pt A4 trim) l with Some s => map (fun p => box_of key (page_text p 4 [] (Some 5)) (root_text s [3])) (s_pages s) | None => [] end.
Theorem C71_default_trim_refuted : exists trim l, w_trim (nth 0 (asked pt A4 (Some (box_points pt trim)) l) {| w_size := in_points pt A4; w_trim := None; w_marks := [] |})
    = Some {| bx_l := n 20; bx_t := n 20; bx_r := n 575; bx_b := n 822 |} /\ box_shown trim l "TrimBox" = [None].
Proof. exists (mk_box (n 20) (n 20) (n 575) (n 822)), [AddPage]. split; vmr. Qed.
(** (b) A trim box is measured from the bottom of the page, not from the top: 20 points from the top and 600 deep is asked for,
    20 points from the bottom is shown. *)
Definition low : boxq := {| bx_l := n 10; bx_t := n 20; bx_r := n 500; bx_b := n 600 |}.
Theorem C71_trim_upside_down_refuted : exists l w, asked pt A4 None l = [w] /\ w_trim w = Some low /\
  trim_box (w_size w) low = OArr [r2 (n 10); r2 (n 242); r2 (n 500); r2 (n 822)] /\
  box_shown none l "TrimBox" = [Some (OArr [r2 (n 10); r2 (n 20); r2 (n 500); r2 (n 600)])].
Proof.
  exists [AddPageWithOption (Some A4) (Some (mk_box (n 10) (n 20) (n 500) (n 600)))].
  eexists {| w_size := {| p_w := n 595; p_h := n 842 |}; w_trim := Some low; w_marks := [] |}. split; [vmr|]. split; [reflexivity|]. split; vmr.
Qed.
(** (c) In a document with its own conversion factor the sizes of options are not converted with it: a page of 10 x 20 units of
    72 points is shown 10 x 20 points. *)
Definition own_unit : ucfg F64 := Build_ucfg F64 0 (n 72).
Theorem C71_custom_factor_refuted : exists l w, asked own_unit A4 None l = [w] /\ w_size w = {| p_w := n 720; p_h := n 1440 |} /\
  match run (start own_unit A4 none) l with Some s => map (fun p => box_of "MediaBox" (page_text p 4 [] (Some 5)) (root_text s [3])) (s_pages s) | None => [] end
    = [Some (media_box {| p_w := n 10; p_h := n 20 |})].
Proof.
  exists [AddPageWithOption (Some (mk_rect (n 10) (n 20))) None]. eexists {| w_size := {| p_w := n 720; p_h := n 1440 |}; w_trim := None; w_marks := [] |}.
  split; [vmr|]. split; [reflexivity|]. vmr.
Qed.
(** (d) Links, anchors and bookmarks on a page of its own height are measured from the top of a default page: on a page 100 points
    high, 30 points from the top is asked for and 712 points above the top edge is shown. *)
Definition small : list call := [AddPageWithOption (Some (mk_rect (n 100) (n 100))) None; SetY (n 30); AddLink (n 30); SetAnchor (bs "a"); AddOutlineWithPosition (bs "b"); Line (n 30)].
Theorem C71_own_height_refuted :
  map w_marks (asked pt A4 None small) = [[MLink (n 70); MAnchor (bs "a") (n 70); MOutline (bs "b") (n 90); MDraw (n 70)]] /\
  option_map (fun s => map pg_marks (s_pages s)) (run (start pt A4 none) small) = Some [[MLink (n 812); MAnchor (bs "a") (n 812); MOutline (bs "b") (n 832); MDraw (n 70)]].
Proof. split; vmr. Qed.
(** The hypotheses of the theorems are met: A4 pages, a page of its own size with a trim box, drawings and a bookmark. *)
Definition usual : list call :=
  [AddPage; Line (n 10); AddPageWithOption (Some (mk_rect (n 300) (n 400))) (Some (mk_box (n 20) (n 20) (n 280) (n 380))); Line (n 20); AddPage; SetY (n 50); AddOutlineWithPosition (bs "t")].
Example C71_met : Forall (plain_opt pt) usual /\ (exists s, run (start pt A4 none) usual = Some s) /\
  Forall (fun w => finite (p_w (w_size w)) /\ finite (p_h (w_size w))) (asked pt A4 None usual) /\
  sub64 (n 400) (n 380) = n 20 /\ trimSet (Some (box_points pt (mk_box (n 20) (n 20) (n 280) (n 380)))) = Some (box_points pt (mk_box (n 20) (n 20) (n 280) (n 380))).
Proof.
  split; [repeat constructor|]. split; [eexists; reflexivity|]. split.
  - assert (E : asked pt A4 None usual = [{| w_size := {| p_w := n 595; p_h := n 842 |}; w_trim := None; w_marks := [MDraw (n 832)] |};
      {| w_size := {| p_w := n 300; p_h := n 400 |}; w_trim := Some {| bx_l := n 20; bx_t := n 20; bx_r := n 280; bx_b := n 380 |}; w_marks := [MDraw (n 380)] |};
      {| w_size := {| p_w := n 595; p_h := n 842 |}; w_trim := None; w_marks := [MOutline (bs "t") (n 812)] |}]) by vmr.
    rewrite E. repeat constructor; cbn [w_size p_w p_h]; vm_compute; discriminate.
  - split; vmr.
Qed.
Print Assumptions C71_own_height_refuted.
