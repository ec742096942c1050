(** PropImport.v — C67: importing the pages of another document. *)
From Coq Require Import QArith.
From Verif Require Import Base DocModel DocSpec DocProofs DocInv PropDoc ImportModel.
From Verif Require PropName.
Open Scope Z_scope.

(** ** Specification *)
(** What gofpdi promises: objects numbered without gaps from the number it was given, and every template name it returns leads
    to one of them, which is the form of that name ([form name data]: whatever that means to gofpdi). *)
Record fpdi_page (form : bytes -> bytes -> Prop) (p : fpage) : Prop := {
  fp_dense : forall n k, 0 <= k < zlen (fp_objs p n) -> exists b d, zlookup (n + k) (fp_objs p n) = Some (b :: d);
  fp_form : forall n name id, In (name, id) (fp_tpls p n) -> n <= id < n + zlen (fp_objs p n) /\ exists d, zlookup id (fp_objs p n) = Some d /\ form name d;
  fp_own : forall n, In (fp_name p) (map fst (fp_tpls p n)) }.
Definition pages_of (o : iop) : list fpage := match o with ImportPage p => [p] | ImportPages src => src | Call _ => [] end.
(** What a program does to the pages: an import of a whole source is, for each of its pages, a new page with the template on it;
    an import of one page changes no page. *)
Definition as_calls (o : iop) : list op :=
  match o with
  | Call o => [o]
  | ImportPage _ => []
  | ImportPages src => flat_map (fun p => [AddPage None; Do (UseTemplate (fp_name p) 0)]) src
  end.
Definition plain_iop (o : iop) : bool := match o with Call o => plain_op o && no_start o | _ => true end.
(** Every call of the program returns without panic or (for an import) error. *)
Fixpoint succeeds (k : Q) (d : idoc) (l : list iop) : Prop :=
  match l with
  | [] => True
  | o :: r => snd (istep k d o) <> Panic /\ (forall src, o = ImportPages src -> snd (istep k d o) = Ok) /\ succeeds k (fst (istep k d o)) r
  end.

(** ** Traces *)
(** An import is a sequence of ordinary calls. *)
Definition one_trace (k : Q) (p : fpage) (d : idoc) (w h : Q) : list op :=
  let d1 := fst (on_gp d (step (i_gp d) (AddPage None))) in
  let n := getNextObjectID (i_gp d1) in
  [AddPage None; Do (ImportObjects (fp_objs p n) n); Do (UseTemplate (fp_name p) (fp_ty p (w * k)%Q (h * k)%Q))].
Lemma on_gp_fst d x d1 r1 : on_gp d x = (d1, r1) -> i_gp d1 = fst x.
Proof. unfold on_gp. intros H. now injection H as <- _. Qed.
Lemma import_trace k src : forall d, snd (importPages k src d) = Ok ->
  exists tr, i_gp (fst (importPages k src d)) = exec (i_gp d) tr /\ Forall (fun o => plain_op o = true /\ no_start o = true) tr /\
    forall a, a_exec a tr = a_exec a (as_calls (ImportPages src)).
Proof.
  induction src as [|p src IH]; intros d H.
  - exists []. split; [reflexivity|]. split; [constructor|reflexivity].
  - cbn [importPages] in *. destruct (fp_size p) as [[w h]|]; [|discriminate].
    destruct (on_gp d (step (i_gp d) (AddPage None))) as [d1 r1] eqn:E1. assert (G1 : i_gp d1 = fst (step (i_gp d) (AddPage None))) by exact (on_gp_fst _ _ _ _ E1).
    assert (H' : snd (match useTemplate k p w h (importPage p d1) with (d0, Panic) => (d0, Panic) | (d0, _) => importPages k src d0 end) = Ok) by (destruct r1; [exact H|exact H|discriminate H]).
    assert (E : fst (match r1 with Panic => (d1, Panic) | _ => match useTemplate k p w h (importPage p d1) with (d0, Panic) => (d0, Panic) | (d0, _) => importPages k src d0 end end)
                = fst (match useTemplate k p w h (importPage p d1) with (d0, Panic) => (d0, Panic) | (d0, _) => importPages k src d0 end)) by (destruct r1; [reflexivity|reflexivity|discriminate H]).
    rewrite E. clear E H. destruct (useTemplate k p w h (importPage p d1)) as [d2 r2] eqn:E2.
    assert (G2 : i_gp d2 = fst (step (i_gp (importPage p d1)) (Do (UseTemplate (fp_name p) (fp_ty p (w * k)%Q (h * k)%Q))))) by (unfold useTemplate in E2; exact (on_gp_fst _ _ _ _ E2)).
    assert (H2 : snd (importPages k src d2) = Ok) by (destruct r2; [exact H'|exact H'|discriminate H']).
    assert (E : fst (match r2 with Panic => (d2, Panic) | _ => importPages k src d2 end) = fst (importPages k src d2)) by (destruct r2; [reflexivity|reflexivity|discriminate H']). rewrite E. clear E H'.
    destruct (IH d2 H2) as (tr & T1 & T2 & T3). set (n := getNextObjectID (i_gp d1)) in *.
    exists ([AddPage None; Do (ImportObjects (fp_objs p n) n); Do (UseTemplate (fp_name p) (fp_ty p (w * k)%Q (h * k)%Q))] ++ tr). split; [|split].
    + rewrite T1, G2. cbn [app exec fold_left]. fold (exec (fst (step (fst (step (fst (step (i_gp d) (AddPage None))) (Do (ImportObjects (fp_objs p n) n)))) (Do (UseTemplate (fp_name p) (fp_ty p (w * k)%Q (h * k)%Q))))) tr).
      unfold importPage. cbn [i_gp]. fold n. now rewrite G1.
    + repeat (apply Forall_cons; [split; reflexivity|]). exact T2.
    + intros a. cbn [as_calls flat_map]. unfold a_exec in *. rewrite !fold_left_app. cbn [fold_left]. rewrite T3. f_equal.
Qed.
Lemma istep_call k d o : no_start o = true -> istep k d (Call o) = on_gp d (step (i_gp d) o).
Proof. destruct o; intros N; try discriminate N; cbn [istep]; reflexivity. Qed.
Lemma plain_trace k l : forall d, succeeds k d l -> forallb plain_iop l = true ->
  exists tr, i_gp (irun k d l) = exec (i_gp d) tr /\ Forall (fun o => plain_op o = true /\ no_start o = true) tr /\ forall a, a_exec a tr = a_exec a (flat_map as_calls l).
Proof.
  induction l as [|o l IH]; intros d S P.
  - exists []. split; [reflexivity|]. split; [constructor|reflexivity].
  - cbn [forallb] in P. apply andb_true_iff in P as [P1 P2]. destruct S as (S1 & S2 & S3). destruct (IH _ S3 P2) as (tr & T1 & T2 & T3).
    assert (O : exists t0, i_gp (fst (istep k d o)) = exec (i_gp d) t0 /\ Forall (fun o => plain_op o = true /\ no_start o = true) t0 /\ forall a, a_exec a t0 = a_exec a (as_calls o)).
    { destruct o as [o|p|src].
      - cbn [plain_iop] in P1. apply andb_true_iff in P1 as [P1 N1]. exists [o]. split; [|split; [constructor; [now split|constructor]|reflexivity]].
        rewrite istep_call by exact N1. unfold on_gp. cbn [fst i_gp exec fold_left]. reflexivity.
      - exists [Do (ImportObjects (fp_objs p (getNextObjectID (i_gp d))) (getNextObjectID (i_gp d)))]. split; [reflexivity|]. split; [constructor; [split; reflexivity|constructor]|reflexivity].
      - apply import_trace. exact (S2 src eq_refl). }
    destruct O as (t0 & O1 & O2 & O3). exists (t0 ++ tr). split; [|split].
    + cbn [irun fold_left]. fold (irun k (fst (istep k d o)) l). rewrite T1, O1. unfold exec. now rewrite fold_left_app.
    + apply Forall_app. now split.
    + intros a. cbn [flat_map]. unfold a_exec in *. rewrite !fold_left_app. now rewrite T3, O3.
Qed.

(** ** C67 *)
(** The pages of the file are those of the program in which every import is written out as new pages with templates. *)
Theorem C67_imported_pages :
  forall k c l, forallb plain_iop l = true -> succeeds k (istart c) l ->
    read_pages (output (i_gp (irun k (istart c) l))) = map as_shown (a_pages (adoc_of c (flat_map as_calls l))).
Proof.
  intros k c l P S. destruct (plain_trace k l (istart c) S P) as (tr & T1 & T2 & T3). rewrite T1. unfold adoc_of. rewrite <- T3.
  change (exec (i_gp (istart c)) tr) with (doc c tr). apply C06_pages_show_what_was_drawn. apply forallb_forall. intros o I. rewrite Forall_forall in T2. now apply T2.
Qed.
Print Assumptions C67_imported_pages.
(** Without header and footer: exactly one page more per page of the source, in order, showing that page's template alone, in
    the document's own page size, after the pages there were. *)
Lemma a_import src : forall d, a_header d = None -> a_footer d = None ->
  a_pages (a_exec d (as_calls (ImportPages src))) = a_pages d ++ map (fun p => {| ap_size := None; ap_items := [ShTemplate (fp_name p)]; ap_links := [] |}) src.
Proof.
  induction src as [|p src IH]; intros d H F; [cbn; now rewrite app_nil_r|]. cbn [as_calls flat_map app]. unfold a_exec. cbn [fold_left]. unfold a_exec in IH. cbn [as_calls] in IH.
  assert (E : a_op (a_op d (AddPage None)) (Do (UseTemplate (fp_name p) 0)) =
    {| a_cfg := a_cfg d; a_pages := a_pages d ++ [{| ap_size := None; ap_items := [ShTemplate (fp_name p)]; ap_links := [] |}]; a_total := a_total d + 1; a_fonts := a_fonts d; a_sel := a_sel d; a_imgs := a_imgs d;
       a_cs := a_cs d; a_header := a_header d; a_footer := a_footer d |}).
  { unfold a_op, a_callback. cbn [a_header a_footer]. rewrite H. cbn [a_footer]. rewrite F. cbn [fst a_sop]. unfold no_pages. cbn [a_pages].
    destruct (a_pages d ++ _) as [|q qs] eqn:Q; [now destruct (a_pages d)|]. cbn [fst]. unfold put, with_pages. cbn [a_cfg a_pages a_total a_fonts a_sel a_imgs a_cs a_header a_footer]. rewrite <- Q, upd_last_snoc. reflexivity. }
  rewrite E, IH; [|exact H|exact F]. cbn [a_pages map]. now rewrite <- app_assoc.
Qed.
Theorem C67_one_page_each :
  forall k c l src, forallb plain_iop l = true -> succeeds k (istart c) (l ++ [ImportPages src]) ->
    a_header (adoc_of c (flat_map as_calls l)) = None -> a_footer (adoc_of c (flat_map as_calls l)) = None ->
    read_pages (output (i_gp (irun k (istart c) (l ++ [ImportPages src]))))
    = read_pages (output (i_gp (irun k (istart c) l))) ++ map (fun p => Some {| sh_size := None; sh_items := [Some (ShTemplate (fp_name p))]; sh_links := [] |}) src.
Proof.
  intros k c l src P S H F.
  assert (S' : succeeds k (istart c) l).
  { clear - S. revert S. generalize (istart c). induction l as [|o l IH]; intros d S; [exact I|]. destruct S as (S1 & S2 & S3). split; [exact S1|]. split; [exact S2|]. now apply IH. }
  rewrite !C67_imported_pages; [|exact P|exact S'|rewrite forallb_app, P; reflexivity|exact S]. unfold adoc_of in *. rewrite flat_map_app. cbn [flat_map]. rewrite app_nil_r. unfold a_exec at 1. rewrite fold_left_app.
  fold (a_exec (a_empty c) (flat_map as_calls l)). fold (a_exec (a_exec (a_empty c) (flat_map as_calls l)) (as_calls (ImportPages src))). rewrite a_import by assumption. rewrite map_app, map_map. reflexivity.
Qed.
Print Assumptions C67_one_page_each.

Lemma import_keeps objs st s : g_header (importObjects objs st s) = g_header s /\ g_footer (importObjects objs st s) = g_footer s /\ g_pagesize (importObjects objs st s) = g_pagesize s.
Proof.
  unfold importObjects. generalize (seq 0 (List.length objs)). intros ks. revert s. induction ks as [|x ks IH]; intros s; [now repeat split|]. cbn [fold_left].
  destruct (zlookup (st + Z.of_nat x) objs) as [[|b e]|]; [apply IH| |apply IH]. destruct (IH (snd (addObj (OImported (b :: e)) s))) as (A & B & C). rewrite A, B, C. now repeat split.
Qed.
(** It succeeds exactly if every page of the source has the box asked for (no callbacks). *)
Theorem C67_success :
  forall k src d, g_header (i_gp d) = None -> g_footer (i_gp d) = None ->
    snd (importPages k src d) = if forallb (fun p => match fp_size p with Some _ => true | None => false end) src then Ok else Err.
Proof.
  intros k src. induction src as [|p src IH]; intros d H F; [reflexivity|]. cbn [importPages forallb]. destruct (fp_size p) as [[w h]|]; [|reflexivity]. cbn [andb].
  unfold on_gp at 1. cbn [step]. set (s1 := addPage None (i_gp d)).
  assert (A : snd s1 = Ok /\ g_header (fst s1) = None /\ g_footer (fst s1) = None /\ g_pagesize (fst s1) <> None).
  { unfold s1, addPage. cbn [addObj]. cbv zeta. cbn [g_header g_footer resetXY set_x set_y set_content set_npages set_page set_objs set_pagesize]. rewrite H. cbn [g_footer resetXY set_x set_y set_content set_npages set_page set_objs set_pagesize]. rewrite F. cbn. repeat split; try assumption; discriminate. }
  destruct A as (A1 & A2 & A3 & A4). destruct s1 as [s1 r]. cbn [fst snd] in *. subst r.
  set (d2 := importPage p {| i_gp := s1; i_tpls := i_tpls d |}).
  assert (B : g_header (i_gp d2) = None /\ g_footer (i_gp d2) = None /\ g_pagesize (i_gp d2) <> None).
  { unfold d2, importPage. cbn [i_gp step sstep fst]. destruct (import_keeps (fp_objs p (getNextObjectID s1)) (getNextObjectID s1) s1) as (K1 & K2 & K3). rewrite K1, K2, K3. now repeat split. }
  destruct B as (B1 & B2 & B3). unfold useTemplate, on_gp. cbn [step sstep].
  match goal with |- context [draw true ?it (i_gp d2)] => assert (C : snd (draw true it (i_gp d2)) = Ok /\ g_header (fst (draw true it (i_gp d2))) = None /\ g_footer (fst (draw true it (i_gp d2))) = None) end.
  { unfold draw, getContent. destruct (g_content (i_gp d2)); cbn [addObj]; cbv zeta; cbn [g_pagesize set_content set_objs]; destruct (g_pagesize (i_gp d2)) as [r|]; try congruence; cbn; repeat split; assumption. }
  destruct C as (C1 & C2 & C3). destruct (draw true _ (i_gp d2)) as [s3 r]. cbn [fst snd] in *. subst r. now apply IH.
Qed.
Print Assumptions C67_success.

(** At the end of every program, output included: every template name in the resources leads to an imported object that is the
    form of that name, and the names of all pages imported are there. *)
Definition resolved (form : bytes -> bytes -> Prop) (d : idoc) : Prop :=
  forall n id, In (n, id) (i_tpls d) -> exists x, obj_no (i_gp d) id = Some (OImported x) /\ form n x.
Definition obj_kept (s s' : gp) : Prop := forall i x, nth_error (g_objs s) i = Some (OImported x) -> nth_error (g_objs s') i = Some (OImported x).
Lemma kept_no s s' n x : obj_kept s s' -> obj_no s n = Some (OImported x) -> obj_no s' n = Some (OImported x).
Proof. unfold obj_no. destruct (n <=? 0); [discriminate|]. intros K. apply K. Qed.
Lemma kept_step s o : (forall c, o <> Start c) -> snd (step s o) <> Panic -> obj_kept s (fst (step s o)).
Proof. intros N P i x H. apply (PropName.sp_obj _ _ (PropName.S_op s o N P)); [reflexivity|exact H]. Qed.
Lemma resolved_kept form d s' : obj_kept (i_gp d) s' -> resolved form d -> resolved form {| i_gp := s'; i_tpls := i_tpls d |}.
Proof. intros K R n id I. destruct (R n id I) as (x & O & F). exists x. split; [now apply (kept_no (i_gp d))|exact F]. Qed.
Lemma resolved_import form p d : fpdi_page form p -> resolved form d -> resolved form (importPage p d) /\ obj_kept (i_gp d) (i_gp (importPage p d)).
Proof.
  intros [D1 D2 _] R. set (n := getNextObjectID (i_gp d)).
  destruct (C45_imported_objects_keep_their_numbers (i_gp d) (fp_objs p n) (D1 n)) as [_ C2].
  assert (K : obj_kept (i_gp d) (i_gp (importPage p d))) by (apply kept_step; [discriminate|cbn [step sstep snd]; discriminate]).
  split; [|exact K]. intros m id I. unfold importPage in I. cbn [i_tpls] in I. fold n in I. apply in_app_or in I as [I|I].
  - destruct (D2 n m id I) as (B & x & Z1 & F). exists x. split; [|exact F]. unfold importPage. cbn [i_gp step sstep fst]. unfold importObjects.
    assert (E := import_loop (fp_objs p n) n (List.length (fp_objs p n)) 0 (i_gp d)).
    specialize (E ltac:(intros j Hj; apply D1; unfold zlen; lia)). fold n. unfold obj_no. replace (id <=? 0) with false by (unfold n, getNextObjectID in B; unfold zlen in *; lia).
    rewrite E. assert (L : (Z.to_nat (id - 1) = List.length (g_objs (i_gp d)) + Z.to_nat (id - n))%nat) by (unfold n, getNextObjectID in *; unfold zlen in *; lia).
    rewrite L, nth_error_app2 by lia. replace (_ + Z.to_nat (id - n) - _)%nat with (Z.to_nat (id - n)) by lia. rewrite nth_error_map.
    assert (Q : nth_error (seq 0 (List.length (fp_objs p n))) (Z.to_nat (id - n)) = Some (Z.to_nat (id - n))).
    { rewrite (nth_error_nth' _ 0%nat) by (rewrite seq_length; unfold zlen in B; lia). rewrite seq_nth by (unfold zlen in B; lia). reflexivity. }
    rewrite Q. cbn [option_map]. replace (n + Z.of_nat (Z.to_nat (id - n))) with id by lia. now rewrite Z1.
  - destruct (R m id I) as (x & O & F). exists x. split; [now apply (kept_no (i_gp d))|exact F].
Qed.
Lemma resolved_pages form k src : forall d, Forall (fpdi_page form) src -> snd (importPages k src d) <> Panic -> resolved form d ->
  resolved form (fst (importPages k src d)) /\ (snd (importPages k src d) = Ok -> forall p, In p src -> In (fp_name p) (map fst (i_tpls (fst (importPages k src d))))) /\
  incl (i_tpls d) (i_tpls (fst (importPages k src d))).
Proof.
  induction src as [|p src IH]; intros d FA P R; [split; [exact R|]; split; [intros _ p []|apply incl_refl]|]. inversion FA as [|? ? F1 F2]; subst.
  cbn [importPages] in *. destruct (fp_size p) as [[w h]|]; [|cbn [fst snd] in *; split; [exact R|]; split; [discriminate|apply incl_refl]].
  assert (OG : on_gp d (step (i_gp d) (AddPage None)) = ({| i_gp := fst (step (i_gp d) (AddPage None)); i_tpls := i_tpls d |}, snd (step (i_gp d) (AddPage None)))) by (unfold on_gp; reflexivity).
  rewrite OG in *. clear OG. pose proof (kept_step (i_gp d) (AddPage None) ltac:(discriminate)) as K1. destruct (step (i_gp d) (AddPage None)) as [s1 r1]. cbn [fst snd] in *.
  assert (G : forall r1 : result, r1 <> Panic -> snd (match useTemplate k p w h (importPage p {| i_gp := s1; i_tpls := i_tpls d |}) with (d0, Panic) => (d0, Panic) | (d0, _) => importPages k src d0 end) <> Panic ->
     (snd (s1, r1) <> Panic -> obj_kept (i_gp d) s1) ->
     let res := match useTemplate k p w h (importPage p {| i_gp := s1; i_tpls := i_tpls d |}) with (d0, Panic) => (d0, Panic) | (d0, _) => importPages k src d0 end in
     resolved form (fst res) /\ (snd res = Ok -> forall p0, In p0 (p :: src) -> In (fp_name p0) (map fst (i_tpls (fst res)))) /\ incl (i_tpls d) (i_tpls (fst res))).
  { clear P K1 r1. intros r1 N P K1. specialize (K1 N). cbv zeta. set (d1 := {| i_gp := s1; i_tpls := i_tpls d |}) in *.
    assert (R1 : resolved form d1) by (apply resolved_kept; assumption). destruct (resolved_import form p d1 F1 R1) as [R2 _]. set (d2 := importPage p d1) in *.
    assert (I2 : incl (i_tpls d) (i_tpls d2)) by (unfold d2, importPage; cbn [i_tpls d1]; apply incl_appr, incl_refl).
    assert (N2 : In (fp_name p) (map fst (i_tpls d2))) by (unfold d2, importPage; cbn [i_tpls]; rewrite map_app; apply in_or_app; left; apply (fp_own form p F1)).
    clearbody d2. unfold useTemplate, on_gp in *. pose proof (kept_step (i_gp d2) (Do (UseTemplate (fp_name p) (fp_ty p (w * k)%Q (h * k)%Q))) ltac:(discriminate)) as K2.
    destruct (step (i_gp d2) _) as [s3 r3]. cbn [fst snd] in *.
    assert (G3 : forall r : result, r <> Panic -> (r <> Panic -> obj_kept (i_gp d2) s3) -> snd (importPages k src {| i_gp := s3; i_tpls := i_tpls d2 |}) <> Panic ->
       resolved form (fst (importPages k src {| i_gp := s3; i_tpls := i_tpls d2 |})) /\
       (snd (importPages k src {| i_gp := s3; i_tpls := i_tpls d2 |}) = Ok -> forall p0, In p0 (p :: src) -> In (fp_name p0) (map fst (i_tpls (fst (importPages k src {| i_gp := s3; i_tpls := i_tpls d2 |}))))) /\
       incl (i_tpls d) (i_tpls (fst (importPages k src {| i_gp := s3; i_tpls := i_tpls d2 |})))).
    { intros r Nr K Q. destruct (IH {| i_gp := s3; i_tpls := i_tpls d2 |} F2 Q (resolved_kept form d2 s3 (K Nr) R2)) as (J1 & J2 & J3). cbn [i_tpls] in J3. split; [exact J1|]. split.
      - intros O p0 [<-|I]; [|now apply J2]. apply in_map_iff in N2 as (e & E1 & E2). rewrite <- E1. now apply in_map, J3.
      - eapply incl_tran; eauto. }
    destruct r3; [apply (G3 Ok); [discriminate|exact K2|exact P]|apply (G3 Err); [discriminate|exact K2|exact P]|exfalso; now apply P]. }
  destruct r1; [apply (G Ok); [discriminate|exact P|exact K1]|apply (G Err); [discriminate|exact P|exact K1]|exfalso; now apply P].
Qed.
Theorem C67_templates_resolve :
  forall form k c l0 l, (forall o p, In o (l0 ++ l) -> In p (pages_of o) -> fpdi_page form p) -> (forall cf, ~ In (Call (Start cf)) l) -> succeeds k (istart c) (l0 ++ l) ->
    let t := irun k (istart c) (l0 ++ l) in
    (forall n id, In (n, id) (i_tpls t) -> exists x, obj_no (output (i_gp t)) id = Some (OImported x) /\ form n x) /\
    (forall o p, In o l -> In p (pages_of o) -> exists id, In (fp_name p, id) (i_tpls t)).
Proof.
  intros form k c l0 l FA0 NS S0 t.
  assert (FA : forall o p, In o l -> In p (pages_of o) -> fpdi_page form p) by (intros o p I; apply FA0, in_or_app; now right).
  assert (G0 : forall d, resolved form d -> succeeds k d (l0 ++ l) -> resolved form (irun k d l0) /\ succeeds k (irun k d l0) l).
  { clear - FA0. induction l0 as [|o l0 IH]; intros d R S; [now split|]. destruct S as (S1 & S2 & S3). cbn [irun fold_left]. fold (irun k (fst (istep k d o)) l0).
    apply IH; [intros o' p I; apply FA0; now right| |exact S3]. destruct o as [o|p|src].
    - assert (D : (exists cf, o = Start cf) \/ ((forall cf, o <> Start cf) /\ istep k d (Call o) = on_gp d (step (i_gp d) o))) by (destruct o; try (right; split; [discriminate|reflexivity]); left; eexists; reflexivity).
      destruct D as [(cf & ->)|(No & E)]; [intros n id []|]. rewrite E in *. unfold on_gp in *. cbn [fst snd] in *. apply resolved_kept; [now apply kept_step|exact R].
    - cbn [istep fst]. apply resolved_import; [apply (FA0 (ImportPage p)); now left|exact R].
    - cbn [istep] in *. apply (resolved_pages form k src d); [apply Forall_forall; intros p I; apply (FA0 (ImportPages src)); [now left|exact I]|exact S1|exact R]. }
  destruct (G0 (istart c) ltac:(intros n id []) S0) as (R0 & S). clear G0 FA0 S0.
  assert (ET : t = irun k (irun k (istart c) l0) l) by (unfold t, irun; now rewrite fold_left_app). clearbody t. subst t. set (t := irun k (irun k (istart c) l0) l).
  assert (G : forall d, resolved form d -> succeeds k d l -> resolved form (irun k d l) /\ incl (i_tpls d) (i_tpls (irun k d l)) /\ forall o p, In o l -> In p (pages_of o) -> In (fp_name p) (map fst (i_tpls (irun k d l)))).
  { clear t S R0. induction l as [|o l IH]; intros d R S; [split; [exact R|]; split; [apply incl_refl|intros o p []]|]. destruct S as (S1 & S2 & S3).
    cbn [irun fold_left]. fold (irun k (fst (istep k d o)) l).
    assert (St : resolved form (fst (istep k d o)) /\ incl (i_tpls d) (i_tpls (fst (istep k d o))) /\ forall p, In p (pages_of o) -> In (fp_name p) (map fst (i_tpls (fst (istep k d o))))).
    { destruct o as [o|p|src].
      - assert (No : forall cf, o <> Start cf) by (intros cf ->; apply (NS cf); now left).
        assert (E : istep k d (Call o) = on_gp d (step (i_gp d) o)) by (destruct o; try reflexivity; exfalso; now apply (No c0)). rewrite E in *. unfold on_gp in *. cbn [fst snd] in *.
        split; [apply resolved_kept; [now apply kept_step|exact R]|]. split; [apply incl_refl|intros p []].
      - cbn [istep fst]. assert (Fp : fpdi_page form p) by (apply (FA (ImportPage p)); [now left|now left]). split; [now apply resolved_import|]. split; [unfold importPage; cbn [i_tpls]; apply incl_appr, incl_refl|].
        intros q [<-|[]]. unfold importPage. cbn [i_tpls]. rewrite map_app. apply in_or_app. left. apply (fp_own form p Fp).
      - cbn [istep] in *. destruct (resolved_pages form k src d) as (J1 & J2 & J3); [apply Forall_forall; intros p I; apply (FA (ImportPages src)); [now left|exact I]|exact S1|exact R|].
        split; [exact J1|]. split; [exact J3|]. intros p I. apply J2; [now apply (S2 src)|exact I]. }
    destruct St as (R1 & I1 & M1). destruct (IH (fun cf H => NS cf (or_intror H)) (fun o' p H => FA o' p (or_intror H)) (fst (istep k d o)) R1 S3) as (R2 & I2 & M2).
    split; [exact R2|]. split; [eapply incl_tran; eauto|]. intros o' p [<-|H] Hp; [|now apply (M2 o')]. specialize (M1 p Hp). apply in_map_iff in M1 as (e & E1 & E2). rewrite <- E1. now apply in_map, I2. }
  destruct (G (irun k (istart c) l0) R0 S) as (R & _ & M). fold t in R, M. split.
  - intros n id I. destruct (R n id I) as (x & O & F). exists x. split; [|exact F]. apply (kept_no (i_gp t)); [|exact O]. intros i y H. now apply output_static.
  - intros o p Ho Hp. specialize (M o p Ho Hp). apply in_map_iff in M as ([n id] & E1 & E2). cbn in E1. subst n. now exists id.
Qed.
Print Assumptions C67_templates_resolve.

(** ** Refutations *)
Definition box_page (name : bytes) (sz : option (Q * Q)) : fpage :=
  {| fp_size := sz; fp_tpls := fun n => [(name, n + 1)]; fp_objs := fun n => [(n, bs "<<>>"); (n + 1, bs "form " ++ name)]; fp_name := name; fp_ty := fun w _ => w |}.
Definition a4c : config := {| cf_page := {| r_w := 595; r_h := 842 |}; cf_protect := false |}.
(** "On an error nothing is imported": a source whose second page lacks the box leaves its first page in the document. *)
Theorem C67_error_midway_refuted :
  exists src, snd (istep 1 (istart a4c) (ImportPages src)) = Err /\ getNumberOfPages (i_gp (fst (istep 1 (istart a4c) (ImportPages src)))) = 1.
Proof. exists [box_page (bs "/T1") (Some (100, 50)%Q); box_page (bs "/T2") None]. vm_compute. split; reflexivity. Qed.
(** "An imported page keeps its size": the new page always has the document's size, and in a document whose unit is not the
    point, the template is moreover asked for at the size in points taken as units. *)
Theorem C67_size_refuted :
  (forall k c w h name, fpdi_page (fun _ _ => True) (box_page name (Some (w, h))) /\
     read_pages (output (i_gp (irun k (istart c) [ImportPages [box_page name (Some (w, h))]]))) = [Some {| sh_size := None; sh_items := [Some (ShTemplate name)]; sh_links := [] |}]) /\
  (exists t ci, t = i_gp (irun (360 # 127) (istart a4c) [ImportPages [box_page (bs "/T1") (Some (100, 50)%Q)]]) /\ g_content t = Some ci /\
     exists ty, nth_error (g_objs t) ci = Some (OContent [ITemplate (bs "/T1") ty 842]) /\ (ty == 100 * (360 # 127))%Q).
Proof.
  split.
  - intros k c w h name. split.
    + constructor; cbn [box_page fp_objs fp_tpls fp_name].
      * intros n j Hj. unfold zlen in Hj. cbn in Hj. assert (J : j = 0 \/ j = 1) by lia. destruct J as [-> | ->]; cbn [zlookup].
        -- replace (n + 0 =? n) with true by lia. eexists. eexists. reflexivity.
        -- replace (n + 1 =? n) with false by lia. rewrite Z.eqb_refl. eexists. eexists. reflexivity.
      * intros n m id [E|[]]. injection E as <- <-. cbn [zlookup]. unfold zlen. cbn [List.length]. split; [lia|]. replace (n + 1 =? n) with false by lia. rewrite Z.eqb_refl. eexists. split; [reflexivity|exact I].
      * intros n. now left.
    + change [ImportPages [box_page name (Some (w, h))]] with ([] ++ [ImportPages [box_page name (Some (w, h))]]). rewrite C67_one_page_each; [rewrite C67_imported_pages by (exact I || reflexivity); reflexivity|reflexivity| |reflexivity|reflexivity].
      assert (Q : snd (istep k (istart c) (ImportPages [box_page name (Some (w, h))])) = Ok) by (cbn [istep]; rewrite C67_success; reflexivity).
      split; [rewrite Q; discriminate|]. split; [intros src E; injection E as <-; exact Q|exact I].
  - eexists. eexists. split; [reflexivity|]. split; [vm_compute; reflexivity|]. eexists. split; [vm_compute; reflexivity|]. vm_compute. reflexivity.
Qed.
Print Assumptions C67_size_refuted.

(** ** A program meeting the hypotheses: text of its own, a single imported page used on it, then a source of two pages. *)
Definition demo_import : list iop :=
  [Call (AddPage None); ImportPage (box_page (bs "/T0") (Some (100, 50)%Q)); Call (Do (UseTemplate (bs "/T0") 7)); ImportPages [box_page (bs "/T1") (Some (100, 50)%Q); box_page (bs "/T2") (Some (30, 40)%Q)]].
Example C67_met :
  forallb plain_iop demo_import = true /\ succeeds 1 (istart a4c) demo_import /\ (forall cf, ~ In (Call (Start cf)) demo_import) /\
  (forall o p, In o demo_import -> In p (pages_of o) -> fpdi_page (fun n d => d = bs "form " ++ n) p) /\
  map (option_map sh_items) (read_pages (output (i_gp (irun 1 (istart a4c) demo_import)))) = [Some [Some (ShTemplate (bs "/T0"))]; Some [Some (ShTemplate (bs "/T1"))]; Some [Some (ShTemplate (bs "/T2"))]] /\
  lookup (bs "/T2") (i_tpls (irun 1 (istart a4c) demo_import)) = Some 15 /\
  obj_no (output (i_gp (irun 1 (istart a4c) demo_import))) 15 = Some (OImported (bs "form /T2")).
Proof.
  split; [reflexivity|]. split; [vm_compute; repeat split; discriminate|]. split; [intros cf H; cbn in H; intuition discriminate|].
  split.
  - assert (B : forall name sz, fpdi_page (fun n d => d = bs "form " ++ n) (box_page name sz)).
    { intros name sz. constructor; cbn [box_page fp_objs fp_tpls fp_name].
      - intros n j Hj. unfold zlen in Hj. cbn in Hj. assert (J : j = 0 \/ j = 1) by lia. destruct J as [-> | ->]; cbn [zlookup].
        + replace (n + 0 =? n) with true by lia. eexists. eexists. reflexivity.
        + replace (n + 1 =? n) with false by lia. rewrite Z.eqb_refl. eexists. eexists. reflexivity.
      - intros n m id [E|[]]. injection E as <- <-. cbn [zlookup]. unfold zlen. cbn [List.length]. split; [lia|]. replace (n + 1 =? n) with false by lia. rewrite Z.eqb_refl. eexists. split; reflexivity.
      - intros n. now left. }
    intros o p Ho Hp. cbn in Ho. destruct Ho as [<-|[<-|[<-|[<-|[]]]]]; cbn in Hp; intuition (subst; apply B).
  - vm_compute. repeat split; reflexivity.
Qed.
Print Assumptions C67_error_midway_refuted.
