(** PropPool.v — C68: documents written at the same time do not disturb one another. *)
From Verif Require Import Base FileModel StrModel Crypto SecModel StreamModel PoolModel.

(** ** Specification *)
(** The pieces written into the buffer are the data of the object. *)
Definition job_ok (zl : bytes -> bytes) (j : job) : Prop := List.concat (j_chunks j) = plain zl (j_obj j).
(** What a document writes when it is alone: its objects, one after the other. *)
Definition alone (zl : bytes -> bytes) (l : list job) : bytes := flat_map (fun j => sbody zl (j_pr j) (j_no j) (j_obj j)) l.

(** ** Proofs *)
(** The rest of a thread run by itself, on the contents of the buffers it holds. *)
Fixpoint finish (stk : list bytes) (p : list instr) (out : bytes) : bytes :=
  match p with
  | [] => out
  | c :: p =>
      match c with
      | Say b => finish stk p (out ++ b)
      | Get => finish ([] :: stk) p out
      | _ => match stk with
             | [] => finish [] p out
             | b :: h =>
                 match c with
                 | Buf d => finish ((b ++ d) :: h) p out
                 | Tell f => finish (b :: h) p (out ++ f b)
                 | Drain => finish ([] :: h) p (out ++ b)
                 | Reset => finish ([] :: h) p out
                 | _ => finish h p out
                 end
             end
      end
  end.
Lemma finish_prefix p : forall stk out, exists e, finish stk p out = out ++ e.
Proof.
  induction p as [|c p IH]; intros stk out; [exists []; now rewrite app_nil_r|].
  assert (G : forall s x, exists e, finish s p (out ++ x) = out ++ e) by (intros s x; destruct (IH s (out ++ x)) as (e & E); exists (x ++ e); now rewrite E, <- app_assoc).
  destruct c; cbn [finish]; try (destruct stk as [|b0 h]); first [apply IH | apply G].
Qed.
Lemma finish_bufs l : forall b h p out, finish (b :: h) (map Buf l ++ p) out = finish ((b ++ List.concat l) :: h) p out.
Proof. induction l as [|x l IH]; intros b h p out; cbn [map app finish List.concat]; [now rewrite app_nil_r|]. now rewrite IH, app_assoc. Qed.
Lemma finish_method zl j p out : job_ok zl j -> finish [] (method zl j ++ p) out = finish [] p (out ++ sbody zl (j_pr j) (j_no j) (j_obj j)).
Proof.
  unfold job_ok. intros K. unfold method. destruct (j_obj j) as [c d|d|d z|i m s|f|w h f d|[[[b0 b1] b2] b3] d|m|r u|b]; try reflexivity; rewrite <- ?app_assoc; cbn [app finish]; rewrite finish_bufs; cbn [app];
    rewrite K; cbn [sbody plain].
  - destruct c; cbn [app finish]; destruct (j_pr j); cbn [app finish put]; unfold ln; repeat rewrite <- app_assoc; reflexivity.
  - destruct (j_pr j); cbn [app finish put]; repeat rewrite <- app_assoc; reflexivity.
  - unfold put. cbn [app finish]. f_equal. repeat (rewrite <- app_assoc; cbn [app]). reflexivity.
  - destruct (j_pr j); cbn [app finish put]; unfold ln; repeat rewrite <- app_assoc; reflexivity.
Qed.
Lemma finish_all zl l : forall out, Forall (job_ok zl) l -> finish [] (flat_map (method zl) l) out = out ++ alone zl l.
Proof.
  induction l as [|j l IH]; intros out F; [cbn; now rewrite app_nil_r|]. inversion F; subst. cbn [flat_map]. rewrite finish_method by assumption. rewrite IH by assumption.
  unfold alone. cbn [flat_map]. now rewrite app_assoc.
Qed.

(** ** The invariant: nobody else has my buffers, and pooled buffers are empty. *)
Inductive mode := Free | Held | Clean.
Fixpoint wf (m : mode) (p : list instr) : Prop :=
  match p with
  | [] => m = Free
  | c :: p => match m, c with
              | Free, Get => wf Held p
              | Free, Say _ => wf Free p
              | Held, (Buf _ | Say _ | Tell _ | Drain) => wf Held p
              | Held, Reset => wf Clean p
              | Clean, Return => wf Free p
              | _, _ => False
              end
  end.
Lemma wf_bufs l p : wf Held p -> wf Held (map Buf l ++ p).
Proof. intros H. induction l; [exact H|exact IHl]. Qed.
Lemma wf_method zl j p : wf Free p -> wf Free (method zl j ++ p).
Proof.
  intros H. unfold method. destruct (j_obj j) as [c d|d|d z|i m s|f|w h f d|[[[b0 b1] b2] b3] d|m|r u|b]; try exact H; rewrite <- ?app_assoc; cbn [app wf]; apply wf_bufs.
  - destruct c, (j_pr j); exact H.
  - destruct (j_pr j); exact H.
  - exact H.
  - destruct (j_pr j); exact H.
Qed.
Lemma wf_unwind p : wf Held p -> wf Held (unwind p).
Proof. induction p as [|c p IH]; intros H; [exact H|]. destruct c; cbn [wf unwind] in *; try contradiction; try (now apply IH); exact H. Qed.
Definition th_ok (mem : nat -> bytes) (t : thread) : Prop :=
  match t_hold t with
  | [] => wf Free (t_prog t)
  | [b] => wf Held (t_prog t) \/ (wf Clean (t_prog t) /\ mem b = [])
  | _ => False
  end.
Definition holds (y : sys) (i : nat) : list nat := t_hold (y_thr y i).
Record inv (total : nat -> bytes) (y : sys) : Prop := {
  v_pool : NoDup (y_pool y);
  v_apart : forall i b, In b (holds y i) -> ~ In b (y_pool y) /\ forall j, j <> i -> ~ In b (holds y j);
  v_made : (forall b, In b (y_pool y) -> (b < y_made y)%nat) /\ forall i b, In b (holds y i) -> (b < y_made y)%nat;
  v_empty : forall b, In b (y_pool y) -> y_mem y b = [];
  v_ok : forall i, th_ok (y_mem y) (y_thr y i);
  v_total : forall i, t_failed (y_thr y i) = false -> finish (map (y_mem y) (holds y i)) (t_prog (y_thr y i)) (t_out (y_thr y i)) = total i }.
Lemma setm_same {A} (f : nat -> A) i v : setm f i v i = v.
Proof. unfold setm. now rewrite Nat.eqb_refl. Qed.
Lemma setm_other {A} (f : nat -> A) i v j : j <> i -> setm f i v j = f j.
Proof. unfold setm. intros H. destruct (Nat.eqb_spec j i); [contradiction|reflexivity]. Qed.
Lemma map_mem (m m' : nat -> bytes) l : (forall b, In b l -> m' b = m b) -> map m' l = map m l.
Proof. intros H. apply map_ext_in. exact H. Qed.
Lemma ok_mem m m' t : (forall b, In b (t_hold t) -> m' b = m b) -> th_ok m t -> th_ok m' t.
Proof. unfold th_ok. intros E. destruct (t_hold t) as [|b [|]]; try tauto. rewrite (E b) by now left. tauto. Qed.
(** A step of thread [i] that changes only its own buffers. *)
Lemma inv_own total y i mem t : inv total y -> t_hold t = holds y i -> (forall b, ~ In b (holds y i) -> mem b = y_mem y b) ->
  (t_failed t = false -> finish (map mem (t_hold t)) (t_prog t) (t_out t) = total i) -> th_ok mem t ->
  inv total {| y_mem := mem; y_made := y_made y; y_pool := y_pool y; y_thr := setm (y_thr y) i t |}.
Proof.
  intros [V1 V2 V3 V4 V5 V6] H M T K.
  assert (HH : forall j, t_hold (setm (y_thr y) i t j) = holds y j) by (intros j; destruct (Nat.eq_dec j i) as [->|N]; [now rewrite setm_same|now rewrite setm_other]).
  assert (OM : forall j b, j <> i -> In b (holds y j) -> mem b = y_mem y b) by (intros j b N I; apply M; apply (V2 j b I); congruence).
  constructor; unfold holds; cbn [y_mem y_made y_pool y_thr].
  - exact V1.
  - intros j b. rewrite HH. intros I. destruct (V2 j b I) as [A B]. split; [exact A|]. intros k N. rewrite HH. now apply B.
  - split; [exact (proj1 V3)|]. intros j b. rewrite HH. apply (proj2 V3).
  - intros b I. rewrite M; [now apply V4|]. intros J. now apply (V2 i b J).
  - intros j. destruct (Nat.eq_dec j i) as [->|N]; [now rewrite setm_same|]. rewrite setm_other by exact N. eapply ok_mem; [|apply V5]. intros b. now apply OM.
  - intros j. destruct (Nat.eq_dec j i) as [->|N]; [rewrite setm_same; exact T|]. rewrite setm_other by exact N. intros F. rewrite (map_mem (y_mem y)); [now apply V6|]. intros b. now apply OM.
Qed.
Lemma remove_at_in {A} (l : list A) : forall k b, In b (remove_at k l) -> In b l.
Proof. induction l as [|x l IH]; intros [|k] b I; cbn in *; auto. destruct I as [I|I]; [now left|right; eauto]. Qed.
Lemma remove_at_nodup {A} (l : list A) : forall k, NoDup l -> NoDup (remove_at k l).
Proof. induction l as [|x l IH]; intros [|k] N; cbn; auto; inversion N; subst; auto. constructor; [|auto]. intros I. now apply remove_at_in in I. Qed.
Lemma remove_at_not {A} (l : list A) : forall k b, NoDup l -> nth_error l k = Some b -> ~ In b (remove_at k l).
Proof.
  induction l as [|x l IH]; intros [|k] b N E; cbn in *; try discriminate; inversion N; subst.
  - now injection E as <-.
  - intros [->|I]; [apply nth_error_In in E; contradiction|now apply (IH k b)].
Qed.
Lemma step_inv total y e : inv total y -> inv total (ystep y e).
Proof.
  intros V. pose proof V as [V1 V2 V3 V4 V5 V6]. destruct e as [i k|k|i]; cbn [ystep].
  - specialize (V5 i). specialize (V6 i). assert (AP := V2 i). unfold holds in V6, AP. unfold th_ok in V5. set (t := y_thr y i) in *.
    destruct (t_prog t) as [|c p] eqn:P; [exact V|]. cbv zeta.
    destruct c as [|d|d|f| | |].
    + (* Get *)
      assert (H0 : t_hold t = []) by (destruct (t_hold t) as [|b [|]]; [reflexivity|cbn in V5; intuition|contradiction]). rewrite H0 in *. cbn in V5.
      destruct (nth_error (y_pool y) k) as [b|] eqn:E.
      * assert (IB : In b (y_pool y)) by (eapply nth_error_In; eauto).
        constructor; unfold holds; cbn [y_mem y_made y_pool y_thr].
        -- now apply remove_at_nodup.
        -- intros j c. destruct (Nat.eq_dec j i) as [->|N].
           ++ rewrite setm_same. cbn [t_hold]. intros [<-|[]]. split; [now apply remove_at_not|]. intros j N. rewrite setm_other by exact N. intros J. now apply (V2 j b J).
           ++ rewrite setm_other by exact N. intros I. destruct (V2 j c I) as [A B]. split; [intros J; apply A; eapply remove_at_in; eauto|]. intros l L. destruct (Nat.eq_dec l i) as [->|M]; [|rewrite setm_other by exact M; now apply B].
              rewrite setm_same. cbn [t_hold]. intros [<-|[]]. contradiction.
        -- split; [intros c I; apply (proj1 V3); eapply remove_at_in; eauto|]. intros j c. destruct (Nat.eq_dec j i) as [->|N]; [rewrite setm_same; cbn [t_hold]; intros [<-|[]]; now apply (proj1 V3)|rewrite setm_other by exact N; apply (proj2 V3)].
        -- intros c I. apply V4. eapply remove_at_in; eauto.
        -- intros j. destruct (Nat.eq_dec j i) as [->|N]; [rewrite setm_same; unfold th_ok; cbn; now left|rewrite setm_other by exact N; apply V].
        -- intros j. destruct (Nat.eq_dec j i) as [->|N]; [rewrite setm_same; cbn [t_failed t_hold t_prog t_out map]; intros F; rewrite (V4 b IB); specialize (V6 F); cbn in V6; exact V6|rewrite setm_other by exact N; apply V].
      * assert (NM : forall j b, In b (holds y j) -> b <> y_made y) by (intros j b I; pose proof (proj2 V3 j b I); lia).
        constructor; unfold holds; cbn [y_mem y_made y_pool y_thr].
        -- exact V1.
        -- intros j c. destruct (Nat.eq_dec j i) as [->|N].
           ++ rewrite setm_same. cbn [t_hold]. intros [<-|[]]. split; [intros I; pose proof (proj1 V3 _ I); lia|]. intros j N. rewrite setm_other by exact N. intros J. now apply (NM j _ J).
           ++ rewrite setm_other by exact N. intros I. destruct (V2 j c I) as [A B]. split; [exact A|]. intros l L. destruct (Nat.eq_dec l i) as [->|M]; [|rewrite setm_other by exact M; now apply B].
              rewrite setm_same. cbn [t_hold]. intros [J|[]]. symmetry in J. revert J. now apply (NM j).
        -- split; [intros c I; pose proof (proj1 V3 c I); lia|]. intros j c. destruct (Nat.eq_dec j i) as [->|N]; [rewrite setm_same; cbn [t_hold]; intros [<-|[]]; lia|rewrite setm_other by exact N; intros I; pose proof (proj2 V3 j c I); lia].
        -- intros c I. rewrite setm_other; [now apply V4|]. pose proof (proj1 V3 c I); lia.
        -- intros j. destruct (Nat.eq_dec j i) as [->|N]; [rewrite setm_same; unfold th_ok; cbn; now left|rewrite setm_other by exact N]. eapply ok_mem; [|apply V]. intros b I. apply setm_other. now apply (NM j).
        -- intros j. destruct (Nat.eq_dec j i) as [->|N]; [rewrite setm_same; cbn [t_failed t_hold t_prog t_out map]; intros F; rewrite setm_same; specialize (V6 F); cbn in V6; exact V6|rewrite setm_other by exact N].
           intros F. rewrite (map_mem (y_mem y)); [now apply V|]. intros b I. apply setm_other. now apply (NM j).
    + (* Buf *) destruct (t_hold t) as [|b [|]] eqn:H0; [contradiction| |contradiction]. destruct V5 as [V5|[[] _]]. cbn [wf] in V5.
      apply inv_own; [exact V|unfold holds; fold t; now rewrite H0|intros c I; apply setm_other; intros ->; apply I; unfold holds; fold t; rewrite H0; now left| |unfold th_ok; cbn; now left].
      cbn [t_failed t_hold t_prog t_out map]. rewrite setm_same. intros F. specialize (V6 F). exact V6.
    + (* Say *) destruct (t_hold t) as [|b [|]] eqn:H0; [| |contradiction].
      * apply inv_own; [exact V|unfold holds; fold t; now rewrite H0|reflexivity|intros F; specialize (V6 F); exact V6|exact V5].
      * destruct V5 as [V5|[[] _]]. apply inv_own; [exact V|unfold holds; fold t; now rewrite H0|reflexivity|intros F; specialize (V6 F); exact V6|left; exact V5].
    + (* Tell *) destruct (t_hold t) as [|b [|]] eqn:H0; [contradiction| |contradiction]. destruct V5 as [V5|[[] _]].
      apply inv_own; [exact V|unfold holds; fold t; now rewrite H0|reflexivity|intros F; specialize (V6 F); exact V6|left; exact V5].
    + (* Drain *) destruct (t_hold t) as [|b [|]] eqn:H0; [contradiction| |contradiction]. destruct V5 as [V5|[[] _]].
      apply inv_own; [exact V|unfold holds; fold t; now rewrite H0|intros c I; apply setm_other; intros ->; apply I; unfold holds; fold t; rewrite H0; now left| |left; exact V5].
      cbn [t_failed t_hold t_prog t_out map]. rewrite setm_same. intros F. specialize (V6 F). exact V6.
    + (* Reset *) destruct (t_hold t) as [|b [|]] eqn:H0; [contradiction| |contradiction]. destruct V5 as [V5|[[] _]].
      apply inv_own; [exact V|unfold holds; fold t; now rewrite H0|intros c I; apply setm_other; intros ->; apply I; unfold holds; fold t; rewrite H0; now left| |right; split; [exact V5|apply setm_same]].
      cbn [t_failed t_hold t_prog t_out map]. rewrite setm_same. intros F. specialize (V6 F). exact V6.
    + (* Return *) destruct (t_hold t) as [|b [|]] eqn:H0; [contradiction| |contradiction]. destruct V5 as [[]|[V5 E0]]. destruct (AP b (or_introl eq_refl)) as [A1 A2].
      assert (NB : forall j c, j <> i -> In c (holds y j) -> c <> b) by (intros j c N I ->; now apply (A2 j)).
      constructor; unfold holds; cbn [y_mem y_made y_pool y_thr].
      -- now constructor.
      -- intros j c. destruct (Nat.eq_dec j i) as [->|N]; [rewrite setm_same; intros []|]. rewrite setm_other by exact N. intros I. destruct (V2 j c I) as [A B]. split; [intros [<-|J]; [now apply (NB j b)|now apply A]|].
         intros l L. destruct (Nat.eq_dec l i) as [->|M]; [rewrite setm_same; intros []|rewrite setm_other by exact M; now apply B].
      -- split; [intros c [<-|I]; [apply (proj2 V3 i); unfold holds; fold t; rewrite H0; now left|now apply (proj1 V3)]|]. intros j c. destruct (Nat.eq_dec j i) as [->|N]; [rewrite setm_same; intros []|rewrite setm_other by exact N; apply (proj2 V3)].
      -- intros c [<-|I]; [exact E0|now apply V4].
      -- intros j. destruct (Nat.eq_dec j i) as [->|N]; [rewrite setm_same; exact V5|rewrite setm_other by exact N; apply V].
      -- intros j. destruct (Nat.eq_dec j i) as [->|N]; [rewrite setm_same; intros F; specialize (V6 F); exact V6|rewrite setm_other by exact N; apply V].
  - constructor; unfold holds; cbn [y_mem y_made y_pool y_thr].
    + now apply remove_at_nodup.
    + intros i b I. destruct (V2 i b I) as [A B]. split; [intros J; apply A; eapply remove_at_in; eauto|exact B].
    + split; [intros b I; apply (proj1 V3); eapply remove_at_in; eauto|exact (proj2 V3)].
    + intros b I. apply V4. eapply remove_at_in; eauto.
    + exact V5.
    + exact V6.
  - specialize (V5 i). unfold th_ok in V5. cbv zeta. destruct (t_hold (y_thr y i)) as [|b h] eqn:H0.
    + apply inv_own; [exact V|unfold holds; now rewrite H0|reflexivity|discriminate|]. unfold th_ok. cbn [t_hold t_prog]. destruct (t_prog (y_thr y i)) as [|[]]; try exact V5.
    + destruct h; [|contradiction]. apply inv_own; [exact V|unfold holds; cbn [t_hold]; now rewrite H0|reflexivity|discriminate|]. unfold th_ok. cbn [t_hold t_prog].
      destruct V5 as [V5|[V5 E]]; [left; now apply wf_unwind|right]. split; [|exact E]. destruct (t_prog (y_thr y i)) as [|[]]; try contradiction; try discriminate; exact V5.
Qed.
Lemma run_inv total l : forall y, inv total y -> inv total (yrun y l).
Proof. induction l as [|e l IH]; intros y V; [exact V|]. cbn. apply IH. now apply step_inv. Qed.
Lemma fresh_inv zl docs : (forall i, Forall (job_ok zl) (docs i)) -> inv (fun i => alone zl (docs i)) (fresh_sys zl docs).
Proof.
  intros J. constructor; unfold holds; cbn.
  - constructor.
  - intros i b [].
  - split; [intros b []|intros i b []].
  - intros b [].
  - intros i. induction (docs i) as [|j l IH]; [reflexivity|]. cbn [flat_map]. now apply wf_method.
  - intros i _. rewrite finish_all by apply J. reflexivity.
Qed.

(** ** C68 *)
(** Whatever the schedule, the pool's choices, the collector and failures elsewhere: what a document whose destination does not
    fail has written so far is the beginning of what it writes alone, and all of it once it has finished. *)
Theorem C68_written_as_if_alone :
  forall zl docs l i, (forall i, Forall (job_ok zl) (docs i)) ->
    let t := y_thr (yrun (fresh_sys zl docs) l) i in t_failed t = false ->
    (exists rest, alone zl (docs i) = t_out t ++ rest) /\ (t_prog t = [] -> t_out t = alone zl (docs i)).
Proof.
  intros zl docs l i J t F. pose proof (run_inv _ l _ (fresh_inv zl docs J)) as V. assert (T := v_total _ _ V i F). cbv beta in T. fold t in T. split.
  - destruct (finish_prefix (t_prog t) (map (y_mem (yrun (fresh_sys zl docs) l)) (holds (yrun (fresh_sys zl docs) l) i)) (t_out t)) as (e & E). exists e. congruence.
  - intros P. rewrite P in T. cbn in T. congruence.
Qed.
Print Assumptions C68_written_as_if_alone.
(** At no moment do two goroutines hold the same buffer, or one that is in the pool; a pooled buffer is empty; a goroutine that
    has finished, even by failing, holds none. *)
Theorem C68_buffers_are_not_shared :
  forall zl docs l, (forall i, Forall (job_ok zl) (docs i)) -> let y := yrun (fresh_sys zl docs) l in
    (forall i j b, In b (t_hold (y_thr y i)) -> In b (t_hold (y_thr y j)) -> i = j) /\
    (forall i b, In b (t_hold (y_thr y i)) -> ~ In b (y_pool y)) /\
    (NoDup (y_pool y) /\ forall b, In b (y_pool y) -> y_mem y b = []) /\
    (forall i, t_prog (y_thr y i) = [] -> t_hold (y_thr y i) = []).
Proof.
  intros zl docs l J y. pose proof (run_inv _ l _ (fresh_inv zl docs J)) as V. fold y in V. split; [|split; [|split]].
  - intros i j b I K. destruct (Nat.eq_dec j i) as [->|N]; [reflexivity|]. exfalso. exact (proj2 (v_apart _ _ V i b I) j N K).
  - intros i b I. apply (v_apart _ _ V i b I).
  - split; [apply (v_pool _ _ V)|apply (v_empty _ _ V)].
  - intros i P. pose proof (v_ok _ _ V i) as O. unfold th_ok in O. rewrite P in O. destruct (t_hold (y_thr y i)) as [|b [|]]; [reflexivity| |contradiction]. destruct O as [O|[O _]]; discriminate O.
Qed.
Print Assumptions C68_buffers_are_not_shared.
(** Every goroutine can always be run to its end: none ever waits for another. *)
Theorem C68_no_waiting :
  forall zl docs l i, exists n, t_prog (y_thr (yrun (fresh_sys zl docs) (l ++ repeat (Run i 0) n)) i) = [].
Proof.
  intros zl docs l i. set (y := yrun (fresh_sys zl docs) l). exists (List.length (t_prog (y_thr y i))). unfold yrun. rewrite fold_left_app. fold (yrun (fresh_sys zl docs) l). fold y.
  assert (G : forall n y, List.length (t_prog (y_thr y i)) = n -> t_prog (y_thr (fold_left ystep (repeat (Run i 0) n) y) i) = []).
  { clear. induction n as [|n IH]; intros y L; [cbn [repeat fold_left]; destruct (t_prog (y_thr y i)); [reflexivity|discriminate]|]. cbn [repeat fold_left]. apply IH. cbn [ystep]. destruct (t_prog (y_thr y i)) as [|c p]; [discriminate|]. injection L as L. cbv zeta.
    destruct c; try (destruct (t_hold (y_thr y i)) as [|b1 h1]); try (destruct (nth_error (y_pool y) 0)); cbn [y_thr]; rewrite setm_same; exact L. }
  now apply G.
Qed.
Print Assumptions C68_no_waiting.

(** ** Two documents, one encrypted; the second borrows the buffer the first gave back while the first is still at it. *)
Definition demo_docs (i : nat) : list job :=
  match i with
  | 0%nat => [{| j_pr := None; j_no := 5; j_obj := SContent false (bs "1 0 0 RG q"); j_chunks := [bs "1 0 0 RG"; bs " q"] |};
              {| j_pr := None; j_no := 6; j_obj := SGroup (bs "0", bs "0", bs "1", bs "1") (bs "BT"); j_chunks := [bs "BT"] |}]
  | 1%nat => [{| j_pr := None; j_no := 3; j_obj := SFontFile (bs "TTF"); j_chunks := [bs "T"; bs "TF"] |}]
  | _ => []
  end.
Definition demo_sched : list event :=
  [Run 0 0; Run 0 0; Run 1 0; Run 1 0; Run 0 0; Run 0 0; Run 0 0; Run 0 0; Run 0 0; Run 0 0; Run 0 0; Run 0 0; Run 0 0; Run 1 0; Run 0 7; Collect 0; Run 0 0]
  ++ repeat (Run 1 0) 20 ++ repeat (Run 0 0) 20.
Example C68_met :
  (forall i, Forall (job_ok (fun b => b)) (demo_docs i)) /\
  let y := yrun (fresh_sys (fun b => b) demo_docs) demo_sched in
  y_made y = 3%nat /\ (forall i, t_failed (y_thr y i) = false) /\
  t_prog (y_thr y 0) = [] /\ t_prog (y_thr y 1) = [] /\ t_out (y_thr y 1) = alone (fun b => b) (demo_docs 1) /\ List.length (t_out (y_thr y 1)) = 68%nat.
Proof.
  split.
  - intros [|[|i]]; cbn [demo_docs]; repeat constructor.
  - cbv zeta. split; [vm_compute; reflexivity|]. split; [|vm_compute; repeat split; reflexivity].
    assert (G : forall l y i, (forall e, In e l -> match e with Give_up _ => False | _ => True end) -> t_failed (y_thr y i) = false -> t_failed (y_thr (yrun y l) i) = false).
    { induction l as [|e l IH]; intros y i N F; [exact F|]. cbn. apply IH; [intros e' I; apply N; now right|]. specialize (N e (or_introl eq_refl)). destruct e as [j k|k|j]; [|exact F|contradiction].
      cbn [ystep]. destruct (Nat.eq_dec i j) as [->|M].
      - destruct (t_prog (y_thr y j)) as [|c p]; [exact F|]. cbv zeta. destruct c; try (destruct (t_hold (y_thr y j)) as [|b1 h1]); try (destruct (nth_error (y_pool y) k)); cbn [y_thr]; rewrite setm_same; exact F.
      - destruct (t_prog (y_thr y j)) as [|c p]; [exact F|]. cbv zeta. destruct c; try (destruct (t_hold (y_thr y j)) as [|b1 h1]); try (destruct (nth_error (y_pool y) k)); cbn [y_thr]; rewrite setm_other by exact M; exact F. }
    intros i. apply G; [|reflexivity]. assert (A : forallb (fun e => match e with Give_up _ => false | _ => true end) demo_sched = true) by (vm_compute; reflexivity).
    intros e I. rewrite forallb_forall in A. specialize (A e I). destruct e; [constructor|constructor|discriminate].
Qed.
