(** PropPages2.v — C07 and C76 together: the written file, read from its bytes, for histories that go back to earlier pages. *)
From Coq Require Import QArith.
From Verif Require Import Base Crypto FileModel FileSpec FileProofs PropFile SecSpec SecModel PropSec DrawSpec NumModel StrModel StrSpec DocModel DocSpec DocProofs DocInv PropDoc
  StreamModel PropStream PdfSyntax PdfRead ObjModel PropObj PropObj2 PropObj3 RefModel PropRef PropRef2 OpenSpec PropOnePage.
From Verif Require PropName PropName2.
From Verif Require Import PropOpen PropSetPage PropPages.
Open Scope Z_scope.

Lemma paged_no_output l : forall st moved, paged st moved l = true -> no_output l = true.
Proof.
  induction l as [|o l IH]; intros st moved H; [reflexivity|]. destruct o as [o|c|sz|h|h|]; cbn [paged no_output forallb] in *.
  - destruct st.
    + assert (H' : exists x, x && paged NoPage moved l = true) by (exists (sets_up o && plain_sop o); destruct o; exact H). destruct H' as (x & H'). apply andb_true_iff in H' as (_ & H'). exact (IH _ _ H').
    + destruct (match o with Draw _ _ => true | _ => false end) eqn:Dr; [destruct o; try discriminate Dr; exact (IH _ _ H)|]. assert (H' : sets_up o && plain_sop o && paged Blank moved l = true) by (destruct o; try discriminate Dr; exact H). apply andb_true_iff in H' as (_ & H'). exact (IH _ _ H').
    + destruct (match o with SetPage _ => true | _ => false end) eqn:Sp; [destruct o; try discriminate Sp; exact (IH _ _ H)|]. assert (H' : exists x, x && paged Drawn moved l = true) by (destruct (is_link o) eqn:Lo; [exists (negb moved)|exists (plain_sop o)]; destruct o; try discriminate Sp; try discriminate Lo; exact H). destruct H' as (x & H'). apply andb_true_iff in H' as (_ & H'). exact (IH _ _ H').
  - destruct st; discriminate H.
  - destruct st; try discriminate H; exact (IH _ _ H).
  - destruct h; [destruct st; discriminate H|]. destruct st; exact (IH _ _ H).
  - destruct h; [destruct st; discriminate H|]. destruct st; exact (IH _ _ H).
  - destruct st; discriminate H.
Qed.
Lemma table_of_read c l aps : no_output l = true -> let t := output (doc c l) in read_pages t = map as_shown aps ->
  page_table t aps.
Proof.
  intros P t R. pose proof (output_contents c l P) as OC. cbv zeta in OC. fold t in OC. clearbody t. unfold page_table, read_pages in *. revert aps R.
  generalize (g_kids t). induction l0 as [|k ks IH]; intros [|ap aps] R; cbn [map] in R; try discriminate R; constructor.
  - injection R as R _. unfold read_page, as_shown in R. destruct (obj_no t k) as [o|] eqn:O; [|discriminate R]. destruct o; try discriminate R. injection R as R1 R2 R3.
    exists p. split; [reflexivity|]. split; [exact R1|]. destruct (OC _ _ O) as [E|(n & its & E & N)].
    + left. split; [exact E|]. rewrite E in R2. cbn in R2. destruct (ap_items ap); [reflexivity|discriminate R2].
    + right. exists n, its. split; [exact E|]. split; [exact N|]. rewrite E in R2. cbn [flat_map] in R2. unfold content_no in R2. rewrite N, app_nil_r in R2. exact R2.
  - injection R as _ R. now apply IH.
Qed.
Lemma paged_table c l : paged NoPage false l = true -> page_table (output (doc c l)) (a_pages (fst (p_doc c l))) /\ g_pagecount (output (doc c l)) = zlen (g_kids (output (doc c l))).
Proof.
  intros P. destruct (C07_histories c l P) as (R & Cn). split; [exact (table_of_read c l _ (paged_no_output _ _ _ P) R)|]. rewrite Cn. unfold read_pages in R. apply (f_equal zlen) in R. unfold zlen in *. rewrite !map_length in R. lia.
Qed.
Theorem C76_with_setpage : forall c l zl inflate box ren pr pw info objs,
  paged NoPage false l = true -> finishes (start c zero_gp) l ->
  (forall d, inflate (zl d) = Some d) -> (forall r, finite (fst (box r)) /\ finite (snd (box r))) -> (forall i, info = Some i -> bytes_info i) ->
  let s := doc c l in let t := output s in
  locked (cf_protect (g_cfg s)) pr pw ->
  List.length objs = List.length (g_objs t) ->
  (forall i o f, nth_error (g_objs t) i = Some o -> nth_error objs i = Some f -> written_as zl pr box (flat_map ren) t i o (prog_bytes (f (Z.of_nat i + 1)))) ->
  let file := compile_bytes objs {| tr_encrypt := if cf_protect (g_cfg s) then Some (g_encid t) else None; tr_info := option_map (fun i => [writeInfo i]) info |} in
  zlen file < 10 ^ 10 -> zlen objs < 2 ^ 24 ->
  exists ps, open_pages inflate file pw = Some ps /\
    Forall2 (fun pc ap => value_of "MediaBox" (fst pc) = option_map (fun r => media (box r)) (ap_size ap) /\
                          exists its, snd pc = flat_map ren its /\ Forall2 (means file pw (fst pc)) its (ap_items ap)) ps (a_pages (fst (p_doc c l))).
Proof.
  intros c l zl inflate box ren pr pw info objs P F HZ HB HI s t LK LEN WR file LF LO. destruct (paged_table c l P) as [PT CNT]. pose proof (fun i o txt => written_doc_of zl pr box (flat_map ren) t i o txt) as PW. pose proof (fun i im txt (H : written_as zl pr box (flat_map ren) t i (OImage im Plain) txt) => H) as PWI.
  destruct (file_opened c l zl box (flat_map ren) pr pw info objs _ F HI LK LEN WR PW LF LO) as (es & tr & OP).
  destruct (pages_opened c l zl inflate box (flat_map ren) pr pw info objs _ F HZ HB HI LK LEN WR PW LF LO _ PT CNT eq_refl) as (ps & E & FA). exists ps. split; [exact E|].
  eapply Forall2_impl; [|exact FA]. intros pc ap (MB & RF & its & B & SH & _). split; [exact MB|]. exists its. split; [exact B|].
  pose proof (fun it x => name_means c l zl inflate box (flat_map ren) pr pw info objs _ F HZ LK LEN WR PW PWI es tr OP (fst pc) it x RF) as RES. clear - RES SH. revert SH. generalize (ap_items ap).
  induction its as [|it its IH]; intros [|x xs] SH; cbn [map] in SH; try discriminate SH; constructor; injection SH as S1 S2; [now apply RES|now apply IH].
Qed.
Print Assumptions C76_with_setpage.

(** The hypotheses hold of a protected document of three pages, drawn on in turns ... *)
Definition turns : list op :=
  [Do (AddFont (bs "serif") 0); AddPage None; Do (Draw true (bs "1 0 0 RG ")); Do (SetFont (bs "serif") 0 12%Q); AddPage (Some small); Do (Draw true (bs "0 g "));
   Do (SetPage 1); Do (Text (bs "a")); AddPage None; Do (Draw true (bs "q Q ")); Do (SetPage 2); Do (Image (bs "p") (Build_imgdesc (bs "JPEG") true false false)); Do (SetPage 1); Do (Text (bs "b"))].
Definition turns_state : gp := output (doc a4 turns).
Definition turns_file : bytes := compile_bytes (demo_objs open_key turns_state) {| tr_encrypt := Some (g_encid turns_state); tr_info := option_map (fun i => [writeInfo i]) None |}.
Example C76_with_setpage_met : exists pr, open_key = Some pr /\ paged NoPage false turns = true /\ finishes (start a4 zero_gp) turns /\
  locked (cf_protect (g_cfg (doc a4 turns))) (Some pr) (User (bs "secret")) /\ List.length (demo_objs (Some pr) turns_state) = List.length (g_objs turns_state) /\
  (forall i o f, nth_error (g_objs turns_state) i = Some o -> nth_error (demo_objs (Some pr) turns_state) i = Some f ->
     written_as (fun d => 7 :: d) (Some pr) demo_box (flat_map demo_ren) turns_state i o (prog_bytes (f (Z.of_nat i + 1)))) /\
  zlen turns_file < 10 ^ 10.
Proof.
  assert (X : match open_key with Some _ => true | None => false end = true) by (vm_cast_no_check (eq_refl true)).
  destruct open_key as [pr|] eqn:E; [clear X|discriminate X]. exists pr. split; [reflexivity|]. split; [vm_compute; reflexivity|]. split; [apply finishesb_ok; vm_compute; reflexivity|].
  split; [unfold locked; replace (cf_protect (g_cfg (doc a4 turns))) with true by (vm_compute; reflexivity); split; [reflexivity|]; exists (bs "0123456789abcdefghijklmnopqrstuv"), 4, (bs "secret"), []; split; [lia|]; split; [exact E|left; reflexivity]|].
  split; [unfold demo_objs; rewrite map_length, combine_length, seq_length; apply Nat.min_id|]. split; [|vm_compute; reflexivity].
  clear E. refine (demo_writes (Some pr) turns_state _ _); [intros X; discriminate X|vm_compute; reflexivity].
Qed.
(** ... and reading its bytes shows each page with what was drawn while it was selected. *)
Example C76_with_setpage_opened :
  option_map (map snd) (open_pages (fun d => Some (tl d)) turns_file (User (bs "secret"))) = Some [bs "1 0 0 RG BT /F1 12 Tf (a) Tj ET BT /F1 12 Tf (b) Tj ET "; bs "0 g /I16 Do "; bs "q Q "].
Proof. vm_compute. reflexivity. Qed.
