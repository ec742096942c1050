(** PropPaper.v — C85: a predefined page size is the paper it is named after, whatever unit the document uses. *)
From Coq Require Import QArith Qabs.
From Verif Require Import Base NumModel UnitModel PdfSyntax PdfRead ObjModel PropObj PageModel PropPage PaperModel PaintNum.
Open Scope Z_scope.

(** ** Specification *)
(** ISO 216: A0 is 841 mm x 1189 mm; each next size is the previous one cut in half across, rounded down to whole millimetres. *)
Fixpoint iso_a (n : nat) : Z * Z := match n with O => (841, 1189) | S k => let '(w, h) := iso_a k in (h / 2, w) end.
Definition mm (p : Z * Z) : Q * Q := (inject_Z (fst p) * (72 # 1) / (254 # 10), inject_Z (snd p) * (72 # 1) / (254 # 10))%Q.
Definition inches (w h : Q) : Q * Q := (w * 72, h * 72)%Q.
Definition turned (p : Q * Q) : Q * Q := (snd p, fst p).
(** The paper, in points (1/72 inch): ISO 216 A sizes, JIS B sizes, North American sizes, Quarto of 215 mm x 275 mm; Executive as PostScript has it. *)
Definition sheet (p : paper) : Q * Q :=
  match p with
  | Letter | LetterSmall => inches (17 # 2) 11 | Tabloid => inches 11 17 | Ledger => inches 17 11 | Legal => inches (17 # 2) 14 | Statement => inches (11 # 2) (17 # 2) | Executive => inches (15 # 2) 10
  | A0 => mm (iso_a 0) | A1 => mm (iso_a 1) | A2 => mm (iso_a 2) | A3 => mm (iso_a 3) | A3Landscape => turned (mm (iso_a 3)) | A4 | A4Small => mm (iso_a 4) | A4Landscape => turned (mm (iso_a 4)) | A5 => mm (iso_a 5)
  | B4 => mm (257, 364) | B5 => mm (182, 257) | Folio => inches (17 # 2) 13 | Quarto => mm (215, 275) | P10x14 => inches 10 14
  end.
Definition near (e : Q) (a b : Q) : Prop := (Qabs (a - b) <= e)%Q.
(** The page sizes asked for, page by page: the option's, or the document's. *)
Definition sizes_asked (def : rect64) (l : list call) : list rect64 :=
  flat_map (fun c => match c with AddPage => [def] | AddPageWithOption (Some r) _ => [r] | AddPageWithOption None _ => [def] | _ => [] end) l.
Definition trims_finite (cfg : ucfg F64) (l : list call) : Prop :=
  forall size b, In (AddPageWithOption size (Some b)) l -> finite_box (trimU2P cfg b).
(** [0 0 w h] with whole numbers, as printed: 595.00 *)
Definition whole_box (wh : Z * Z) : pobj := OArr [OInt 0; OInt 0; OReal (dec (fst wh) ++ bs ".00"); OReal (dec (snd wh) ++ bs ".00")].

(** ** Proof *)
Lemma put_sizes m l : map (fun p => (pg_size p, pg_trim p)) (put m l) = map (fun p => (pg_size p, pg_trim p)) l.
Proof. induction l as [|p [|q l] IH]; [reflexivity|reflexivity|]. cbn [put map] in *. now rewrite IH. Qed.
Definition page_args (cfg : ucfg F64) (c : call) : list (option psize * option boxq) :=
  match c with
  | AddPage => [(None, None)]
  | AddPageWithOption (Some r) t => [(Some (sizeU2P cfg r), option_map (trimU2P cfg) t)]
  | AddPageWithOption None _ => [(None, None)]
  | _ => []
  end.
Lemma run_pages l : forall s s', run s l = Some s' -> s_cfg s' = s_cfg s /\ s_def s' = s_def s /\
  map (fun p => (pg_size p, pg_trim p)) (s_pages s') = map (fun p => (pg_size p, pg_trim p)) (s_pages s) ++ flat_map (page_args (s_cfg s)) l.
Proof.
  induction l as [|c l IH]; intros s s' H; cbn [run flat_map] in *; [injection H as <-; now rewrite app_nil_r|].
  destruct (do s c) as [s1|] eqn:E; [|discriminate]. destruct (IH _ _ H) as (A & B & C). clear IH H.
  assert (X : s_cfg s1 = s_cfg s /\ s_def s1 = s_def s /\ map (fun p => (pg_size p, pg_trim p)) (s_pages s1) = map (fun p => (pg_size p, pg_trim p)) (s_pages s) ++ page_args (s_cfg s) c).
  { destruct c; cbn [do page_args] in E.
    - injection E as <-. cbn [addPageWithOption option_map s_cfg s_def s_pages]. rewrite map_app. auto.
    - injection E as <-. unfold addPageWithOption. destruct size as [r|]; cbn [option_map s_cfg s_def s_pages page_args fst snd]; rewrite map_app; auto.
    - injection E as <-. cbn [with_y s_cfg s_def s_pages page_args]. rewrite app_nil_r. auto.
    - injection E as <-. cbn [with_y s_cfg s_def s_pages page_args]. rewrite app_nil_r. auto.
    - injection E as <-. cbn [with_y s_cfg s_def s_pages page_args]. rewrite app_nil_r. auto.
    - destruct (s_cur s) as [z|]; [|discriminate]. injection E as <-. cbn [mark_it s_cfg s_def s_pages page_args]. rewrite app_nil_r, put_sizes. auto.
    - destruct (s_pages s) as [|p ps] eqn:EP; [discriminate|]. injection E as <-. cbn [mark_it s_cfg s_def s_pages page_args]. rewrite app_nil_r, put_sizes, EP. auto.
    - injection E as <-. cbn [mark_it s_cfg s_def s_pages page_args]. rewrite app_nil_r, put_sizes. auto.
    - injection E as <-. cbn [mark_it s_cfg s_def s_pages page_args]. rewrite app_nil_r, put_sizes. auto. }
  destruct X as (X1 & X2 & X3). rewrite A, B, C, X1, X2, X3, <- app_assoc. auto.
Qed.
Definition own_points (p : paper) : psize := let k := unitsToPoints F64 (defcfg F64 1) in {| p_w := k (f64_ofZ (fst (points_of p))); p_h := k (f64_ofZ (snd (points_of p))) |}.
Lemma size_own cfg p : sizeU2P cfg (page_size p) = own_points p.
Proof. reflexivity. Qed.
Lemma def_own cfg p : defSize cfg (page_size p) = own_points p.
Proof. reflexivity. Qed.
Definition prints (z : psize) (wh : Z * Z) : bool :=
  list_eqb (f2 (p_w z)) (dec (fst wh) ++ bs ".00") && list_eqb (f2 (p_h z)) (dec (snd wh) ++ bs ".00")
  && match f64_val (p_w z) with Some _ => true | None => false end && match f64_val (p_h z) with Some _ => true | None => false end.
Lemma own_prints : forallb (fun p => prints (own_points p) (points_of p)) all_papers = true.
Proof. vm_cast_no_check (eq_refl true). Qed.
Lemma all_there p : In p all_papers.
Proof. unfold all_papers. destruct p; cbn [In]; tauto. Qed.
Lemma own_box p : media_box (own_points p) = whole_box (points_of p) /\ finite (p_w (own_points p)) /\ finite (p_h (own_points p)).
Proof.
  pose proof (proj1 (forallb_forall _ _) own_prints p (all_there p)) as H. cbv beta in H. unfold media_box, whole_box, r2, finite. generalize dependent (own_points p). intros z H. unfold prints in H.
  rewrite !andb_true_iff in H. destruct H as (((A & B) & C) & D). apply list_eqb_eq in A, B. rewrite A, B. split; [reflexivity|].
  split; intros X; [rewrite X in C; discriminate C|rewrite X in D; discriminate D].
Qed.
Lemma media_box_own pg res links content root z : pg_size pg = Some z -> finite (p_w z) -> finite (p_h z) -> (forall b, pg_trim pg = Some b -> finite_box b) ->
  box_of "MediaBox" (page_text pg res links content) root = Some (media_box z).
Proof.
  intros EZ F1 F2 FT. unfold box_of, page_text. rewrite EZ. cbn [option_map].
  destruct (C60_page_partial res links content (Some (p_w z, p_h z)) (pg_trim pg)) as (rest & RO & _); [intros w h E; injection E as <- <-; auto|exact FT|].
  rewrite RO. unfold page_dict. assert (E : forall tl, entry "MediaBox" tl = [] -> entry "MediaBox" ([(bs "Type", N_ "Page"); (bs "Parent", ref 2); (bs "Resources", ref res)]
         ++ (match links with [] => [] | _ => [(bs "Annots", OArr (map ref links))] end)
         ++ (match content with None => [] | Some c => [(bs "Contents", ref c)] end) ++ [(bs "MediaBox", media_box z)] ++ tl) = [media_box z]).
  { intros tl Et. unfold entry in *. rewrite !filter_app, !map_app. rewrite Et. destruct links, content; reflexivity. }
  unfold media_box in E at 1. rewrite E by (destruct (trimSet (pg_trim pg)); reflexivity). reflexivity.
Qed.
Lemma media_box_inherited pg s kids res links content : pg_size pg = None -> pg_trim pg = None -> finite (p_w (s_def s)) -> finite (p_h (s_def s)) ->
  box_of "MediaBox" (page_text pg res links content) (root_text s kids) = Some (media_box (s_def s)).
Proof.
  intros EZ ET F1 F2. unfold box_of, page_text. rewrite EZ, ET. cbn [option_map].
  destruct (C60_page_partial res links content None None) as (rest & RO & _); [discriminate|discriminate|]. rewrite RO. unfold page_dict. cbn [trimSet].
  assert (E : entry "MediaBox" ([(bs "Type", N_ "Page"); (bs "Parent", ref 2); (bs "Resources", ref res)]
         ++ (match links with [] => [] | _ => [(bs "Annots", OArr (map ref links))] end)
         ++ (match content with None => [] | Some c => [(bs "Contents", ref c)] end) ++ [] ++ []) = []) by (destruct links, content; reflexivity).
  rewrite E. unfold root_text. destruct (C60_pages (p_w (s_def s)) (p_h (s_def s)) (Z.of_nat (List.length (s_pages s))) kids) as (rest' & RO' & _); [exact F1|exact F2|]. rewrite RO'. reflexivity.
Qed.
Definition from_arg (cfg : ucfg F64) (def r : rect64) (a : option psize * option boxq) (l : list call) : Prop :=
  (a = (None, None) /\ r = def) \/ (fst a = Some (sizeU2P cfg r) /\ forall b, snd a = Some b -> exists size b0, In (AddPageWithOption size (Some b0)) l /\ b = trimU2P cfg b0).
Lemma args_asked cfg def l : Forall2 (fun a r => from_arg cfg def r a l) (flat_map (page_args cfg) l) (sizes_asked def l).
Proof.
  assert (M : forall l1 l2, (forall c, In c l1 -> In c l2) -> Forall2 (fun a r => from_arg cfg def r a l2) (flat_map (page_args cfg) l1) (sizes_asked def l1)).
  { intros l1 l2. induction l1 as [|c l1 IH]; intros S; [constructor|]. unfold sizes_asked in *. cbn [flat_map]. apply Forall2_app; [|apply IH; intros x X; apply S; now right].
    specialize (S c (or_introl eq_refl)). destruct c as [|size trim| | | | | | |]; try exact (Forall2_nil _).
    - apply Forall2_cons; [left; auto|apply Forall2_nil].
    - destruct size as [r|]; (apply Forall2_cons; [|apply Forall2_nil]); [right|left; auto]. split; [reflexivity|]. intros b E. destruct trim as [b0|]; [|discriminate E]. injection E as <-. exists (Some r), b0. auto. }
  apply M. auto.
Qed.

(** ** C85 *)
Theorem C85_predefined_size : forall cfg def dtr l s, run (start cfg def dtr) l = Some s -> trims_finite cfg l ->
  List.length (s_pages s) = List.length (sizes_asked def l) /\
  forall i pg p, nth_error (s_pages s) i = Some pg -> nth_error (sizes_asked def l) i = Some (page_size p) ->
  forall kids res links content, box_of "MediaBox" (page_text pg res links content) (root_text s kids) = Some (whole_box (points_of p)).
Proof.
  intros cfg def dtr l s H TF. destruct (run_pages l _ _ H) as (C & D & M). cbn [start s_pages s_cfg s_def map app] in C, D, M. pose proof (args_asked cfg def l) as FA. rewrite <- M in FA. split.
  - rewrite <- (map_length (fun p => (pg_size p, pg_trim p))). clear - FA. induction FA; cbn; congruence.
  - intros i pg p NP NS kids res links content.
    assert (NM : nth_error (map (fun p => (pg_size p, pg_trim p)) (s_pages s)) i = Some (pg_size pg, pg_trim pg)) by (rewrite nth_error_map, NP; reflexivity).
    destruct (Forall2_nth _ _ _ FA i _ NM) as (r & NR & FR). rewrite NS in NR. injection NR as <-. destruct (own_box p) as (OB & F1 & F2). rewrite <- OB.
    destruct FR as [[E ED]|[E ET]]; cbn [fst snd] in *.
    + injection E as E1 E2. assert (SD : s_def s = own_points p) by (rewrite D, <- ED; apply def_own). rewrite <- SD in *. apply media_box_inherited; assumption.
    + rewrite size_own in E. apply media_box_own; try assumption. intros b EB. destruct (ET b EB) as (size & b0 & I & ->). exact (TF size b0 I).
Qed.
Print Assumptions C85_predefined_size.
(** … and these points are the paper's size to within a point, A1's width excepted (which is off by less than 1.25 points). *)
Theorem C85_papers : forall p, p <> A1 -> near 1 (inject_Z (fst (points_of p))) (fst (sheet p)) /\ near 1 (inject_Z (snd (points_of p))) (snd (sheet p)).
Proof. intros p NE. destruct p; try congruence; split; vm_compute; discriminate. Qed.
Print Assumptions C85_papers.
Theorem C85_a1_refuted : ~ near 1 (inject_Z (fst (points_of A1))) (fst (sheet A1)) /\ near (5 # 4) (inject_Z (fst (points_of A1))) (fst (sheet A1)) /\ near 1 (inject_Z (snd (points_of A1))) (snd (sheet A1)) /\
  fst (points_of A1) <> snd (points_of A2).
Proof. split; [intros X; vm_compute in X; now apply X|]. split; [vm_compute; discriminate|]. split; [vm_compute; discriminate|discriminate]. Qed.
Print Assumptions C85_a1_refuted.

(** A document in millimetres with A4 pages, an A5 page with a trim box, and a page of a size of its own. *)
Definition mm_doc : list call := [AddPage; Line (f64_ofZ 10); AddPageWithOption (Some (page_size A5)) (Some (Build_box F64 (f64_ofZ 3) (f64_ofZ 3) (f64_ofZ 145) (f64_ofZ 207) (defcfg F64 0)));
  AddPageWithOption (Some (Build_rect F64 (f64_ofZ 100) (f64_ofZ 150) (defcfg F64 0))) None; SetAnchor (bs "x"); AddPageWithOption None None].
Example C85_met : exists s, run (start (defcfg F64 2) (page_size A4) (Build_box F64 (f64_ofZ 0) (f64_ofZ 0) (f64_ofZ 0) (f64_ofZ 0) (defcfg F64 0))) mm_doc = Some s /\ trims_finite (defcfg F64 2) mm_doc /\
  nth_error (sizes_asked (page_size A4) mm_doc) 0 = Some (page_size A4) /\ nth_error (sizes_asked (page_size A4) mm_doc) 1 = Some (page_size A5) /\ nth_error (sizes_asked (page_size A4) mm_doc) 3 = Some (page_size A4).
Proof.
  eexists. split; [reflexivity|]. split; [|repeat split; reflexivity].
  intros size b I. unfold mm_doc in I. cbn [In] in I. destruct I as [I|[I|[I|[I|[I|[I|[]]]]]]]; try discriminate I. injection I as _ <-.
  assert (X : match f64_val (bx_l (trimU2P (defcfg F64 2) (Build_box F64 (f64_ofZ 3) (f64_ofZ 3) (f64_ofZ 145) (f64_ofZ 207) (defcfg F64 0)))),
    f64_val (bx_t (trimU2P (defcfg F64 2) (Build_box F64 (f64_ofZ 3) (f64_ofZ 3) (f64_ofZ 145) (f64_ofZ 207) (defcfg F64 0)))),
    f64_val (bx_r (trimU2P (defcfg F64 2) (Build_box F64 (f64_ofZ 3) (f64_ofZ 3) (f64_ofZ 145) (f64_ofZ 207) (defcfg F64 0)))),
    f64_val (bx_b (trimU2P (defcfg F64 2) (Build_box F64 (f64_ofZ 3) (f64_ofZ 3) (f64_ofZ 145) (f64_ofZ 207) (defcfg F64 0)))) with Some _, Some _, Some _, Some _ => true | _, _, _, _ => false end = true) by (vm_cast_no_check (eq_refl true)).
  generalize dependent (trimU2P (defcfg F64 2) (Build_box F64 (f64_ofZ 3) (f64_ofZ 3) (f64_ofZ 145) (f64_ofZ 207) (defcfg F64 0))). intros q X. unfold finite_box, finite.
  destruct (f64_val (bx_l q)), (f64_val (bx_t q)), (f64_val (bx_r q)), (f64_val (bx_b q)); try discriminate X. repeat split; discriminate.
Qed.
