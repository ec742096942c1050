(** PropPages3.v — C81 and C82 for histories that go back to earlier pages with SetPage. *)
From Coq Require Import QArith.
From Verif Require Import Base Crypto FileModel FileSpec SecSpec SecModel DrawSpec NumModel StrModel StrSpec DocModel DocSpec DocProofs DocInv PropDoc
  StreamModel PdfSyntax PdfRead ObjModel PropObj PropObj2 PropObj3 RefModel OpenSpec PropOnePage PropOpen.
From Verif Require Import TtfModel TtfSpec TtfProofs PropTtf SubsetModel PropSubset FontOutModel FontOutSpec PropFont FaceModel FaceSpec PropFace.
From Verif Require Import DrawModel DrawLex DrawView PropWidth CopySpec PropText PropCopy FileProofs PropFile PropOpen2.
From Verif Require PropRef2.
From Verif Require Import PropGlyph.
From Verif Require PropSetPage PropPages PropPages2.
Open Scope Z_scope.

Theorem C81_with_setpage : forall (N : NumModel.num) rot c l zl inflate box ren pr pw info objs um prog wd,
  num_prints N -> PropPages.paged PropSetPage.NoPage false l = true -> finishes (start c zero_gp) l ->
  (forall d, inflate (zl d) = Some d) -> (forall r, finite (fst (box r)) /\ finite (snd (box r))) -> (forall i, info = Some i -> bytes_info i) ->
  let s := doc c l in let t := output s in
  locked (cf_protect (g_cfg s)) pr pw -> List.length objs = List.length (g_objs t) ->
  (forall i o f, nth_error (g_objs t) i = Some o -> nth_error objs i = Some f ->
     written_as zl pr box ren t i o (prog_bytes (f (Z.of_nat i + 1))) /\ font_written zl pr um prog wd i o (prog_bytes (f (Z.of_nat i + 1)))) ->
  ren [] = [] -> (forall its, In (OContent its) (g_objs t) -> drawn N rot t um ren its) -> (forall i, plain_map (um i)) ->
  let file := compile_bytes objs {| tr_encrypt := if cf_protect (g_cfg s) then Some (g_encid t) else None; tr_info := option_map (fun i => [writeInfo i]) info |} in
  zlen file < 10 ^ 10 -> zlen objs < 2 ^ 24 ->
  exists ps, open_pages inflate file pw = Some ps /\
    Forall2 (fun pc ap => copied inflate file pw pc = Some (flat_map characters (ap_items ap))) ps (a_pages (fst (PropPages.p_doc c l))).
Proof.
  intros N rot c l zl inflate box ren pr pw info objs um prog wd NP P F HZ HB HI s t LK LEN WR RN DR PM file LF LO. destruct (PropPages2.paged_table c l P) as [PT CNT].
  exact (text_copied_of N rot c l zl inflate box ren pr pw info objs um prog wd _ NP PT CNT F HZ HB HI LK LEN WR RN DR PM LF LO).
Qed.
Print Assumptions C81_with_setpage.
Theorem C82_with_setpage : forall (N : NumModel.num) rot src c l zl inflate box ren pr pw info objs um prog wd,
  num_prints N -> PropPages.paged PropSetPage.NoPage false l = true -> finishes (start c zero_gp) l ->
  (forall d, inflate (zl d) = Some d) -> (forall r, finite (fst (box r)) /\ finite (snd (box r))) -> (forall i, info = Some i -> bytes_info i) ->
  let s := doc c l in let t := output s in
  locked (cf_protect (g_cfg s)) pr pw -> List.length objs = List.length (g_objs t) ->
  (forall i o f, nth_error (g_objs t) i = Some o -> nth_error objs i = Some f ->
     written_as zl pr box ren t i o (prog_bytes (f (Z.of_nat i + 1))) /\ font_written zl pr um prog wd i o (prog_bytes (f (Z.of_nat i + 1)))) ->
  ren [] = [] -> fonts_from src t prog wd -> (forall its, In (OContent its) (g_objs t) -> drawn_from N rot src t ren its) ->
  let file := compile_bytes objs {| tr_encrypt := if cf_protect (g_cfg s) then Some (g_encid t) else None; tr_info := option_map (fun i => [writeInfo i]) info |} in
  zlen file < 10 ^ 10 -> zlen objs < 2 ^ 24 ->
  exists ps, open_pages inflate file pw = Some ps /\
    Forall2 (fun pc ap => exists seen, outlined inflate file pw pc = Some seen /\
               Forall2 (fun c e => as_in_file (src (fst (fst c)) (snd (fst c))) (snd c) e) (flat_map letters (ap_items ap)) seen) ps (a_pages (fst (PropPages.p_doc c l))).
Proof.
  intros N rot src c l zl inflate box ren pr pw info objs um prog wd NP P F HZ HB HI s t LK LEN WR RN FF DR file LF LO. destruct (PropPages2.paged_table c l P) as [PT CNT].
  exact (glyphs_shown_of N rot src c l zl inflate box ren pr pw info objs um prog wd _ NP PT CNT F HZ HB HI LK LEN WR RN FF DR LF LO).
Qed.
Print Assumptions C82_with_setpage.

(** The hypotheses hold of a document whose first page gets its text after the second. *)
Definition histT : list op := [Do (AddFont (bs "Fam") 0); AddPage None; Do (DocModel.Draw true []); Do (DocModel.SetFont (bs "Fam") 0 12%Q); AddPage None; Do (DocModel.Draw true []); Do (DocModel.Text (bs "BC")); Do (DocModel.SetPage 1); Do (DocModel.Text (bs "AB"))].
Definition stateT : gp := output (doc a4open histT).
Definition objsT : list (Z -> wprog) := objs_of82 stateT.
Definition fileT : bytes := compile_bytes objsT {| tr_encrypt := if cf_protect (g_cfg (doc a4open histT)) then Some (g_encid stateT) else None; tr_info := option_map (fun i => [writeInfo i]) None |}.

Lemma writesT : forall i o f, nth_error (g_objs stateT) i = Some o -> nth_error objsT i = Some f ->
  written_as (fun d => 7 :: d) None demo_box ren82 stateT i o (prog_bytes (f (Z.of_nat i + 1))) /\
  font_written (fun d => 7 :: d) None (fun _ => map80) (fun _ => prog82) (fun _ => ws80) i o (prog_bytes (f (Z.of_nat i + 1))).
Proof.
  refine (writes_of82 stateT _ _); [|vm_compute; reflexivity].
  assert (X : forallb (fun o => match o with OEncryption => false | _ => true end) (g_objs stateT) = true) by (vm_compute; reflexivity). rewrite forallb_forall in X. intros I. discriminate (X _ I).
Qed.
Lemma contentsT its : In (OContent its) (g_objs stateT) -> exists txt, In txt [[65; 66]; [66; 67]] /\ flat_map char_of its = map (pair 1) txt.
Proof.
  intros I. assert (X : flat_map drawn_chars (g_objs stateT) = [map (pair 1) [65; 66]; map (pair 1) [66; 67]]) by (vm_compute; reflexivity).
  pose proof (content_in (g_objs stateT) its I) as J. rewrite X in J. clear - J. destruct J as [J|[J|[]]]; [exists [65; 66]|exists [66; 67]]; (split; [cbn; tauto|symmetry; exact J]).
Qed.
Lemma font_resT : exists f, font_res stateT 1 = Some (OSubsetFont f).
Proof. assert (X : match font_res stateT 1 with Some (OSubsetFont _) => true | _ => false end = true) by (vm_compute; reflexivity). destruct (font_res stateT 1) as [o|]; [|discriminate X]. destruct o; try discriminate X. exists f. reflexivity. Qed.
Example C81_with_setpage_met : PropPages.paged PropSetPage.NoPage false histT = true /\ finishes (start a4open zero_gp) histT /\ locked (cf_protect (g_cfg (doc a4open histT))) None (User []) /\
  List.length objsT = List.length (g_objs stateT) /\ ren82 [] = [] /\
  (forall its, In (OContent its) (g_objs stateT) -> drawn Qn (PropDraw.norot Qn) stateT (fun _ => map80) ren82 its) /\ plain_map map80 /\ zlen fileT < 10 ^ 10 /\ zlen objsT < 2 ^ 24.
Proof.
  split; [vm_compute; reflexivity|]. split; [apply PropRef2.finishesb_ok; vm_compute; reflexivity|]. split; [vm_compute; reflexivity|]. split; [vm_compute; reflexivity|]. split; [reflexivity|].
  split; [|split; [|split; vm_compute; reflexivity]].
  - intros its I. destruct (contentsT its I) as (txt & IT & E). clear I. destruct (pieces82 txt its IT E) as (s' & R & W & P & FV). destruct (calls82_ok txt) as [FN OR].
    refine (drawn_by_calls Qn _ (fun _ => face_of font80) _ _ _ _ (PropDraw.dpage Qn) s' (calls82 txt) eq_refl _ _ FN OR R W _ _).
    + split; [intros X; discriminate X|intros X; contradiction X; reflexivity].
    + intros n f X; discriminate X.
    + rewrite E. now apply chars82.
    + apply Forall_forall. intros p Ip. destruct (piece82 txt p IT P Ip) as [P1 P2]. rewrite Forall_forall in FV. rewrite P1, P2, (FV p Ip). destruct font_resT as (f & FR). exists f. split; [exact FR|].
      intros r IR. exact (glyph82 txt r IT IR).
  - exact map82.
Qed.
Example C82_with_setpage_met : fonts_from src82 stateT (fun _ => prog82) (fun _ => ws80) /\ (forall its, In (OContent its) (g_objs stateT) -> drawn_from Qn (PropDraw.norot Qn) src82 stateT ren82 its).
Proof.
  split.
  - intros n f p _ _. cbv zeta. split; [exact font80_ok|]. split; [reflexivity|]. exists [], 4. split; [exact made82|]. split; [vm_compute; reflexivity|]. split; [exact good_num|]. split; [exact good_outlines|].
    intros g I. cbn in I. lia.
  - intros its I. destruct (contentsT its I) as (txt & IT & E). clear I. destruct (pieces82 txt its IT E) as (s' & R & W & P & FV). destruct (calls82_ok txt) as [FN OR].
    refine (drawn_from_by_calls Qn _ (fun _ => face_of font80) _ _ _ _ (PropDraw.dpage Qn) s' (calls82 txt) eq_refl _ _ FN OR R W _ _).
    + split; [intros X; discriminate X|intros X; contradiction X; reflexivity].
    + intros n f X; discriminate X.
    + rewrite E. now apply chars82.
    + apply Forall_forall. intros p Ip. destruct (piece82 txt p IT P Ip) as [P1 P2]. rewrite Forall_forall in FV. rewrite P1, P2, (FV p Ip). destruct font_resT as (f & FR). exists f. split; [exact FR|]. split; [reflexivity|]. exact (known82 txt IT).
Qed.
Definition seenT : option (list (option (list Z) * option (list (Z * option Z)))) :=
  let inflate := fun d => Some (tl d) in
  option_map (map (fun pc => (copied inflate fileT (User []) pc, option_map (map (fun e => (snd (fst e), snd e))) (outlined inflate fileT (User []) pc)))) (open_pages inflate fileT (User [])).
Example C82_with_setpage_seen : seenT = Some [(Some [65; 66], Some [(1, Some 300); (2, Some 300)]); (Some [66; 67], Some [(2, Some 300); (3, Some 300)])].
Proof. vm_compute. reflexivity. Qed.
