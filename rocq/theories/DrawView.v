(** DrawView.v — what a viewer shows for the caches of a page: the text-showing events correspond one to one to the
    text caches. *)
From Verif Require Import Base StrModel NumModel UnitModel DrawModel DrawSpec DrawLex.

Definition isShow (e : event) : bool := match e with EShow _ _ _ => true | _ => false end.
Definition shows (content : bytes) : list event := filter isShow (view content).

Lemma view_app v l r : view_from v (l ++ r) = view_from (view_from v l) r.
Proof. apply fold_left_app. Qed.
Lemma filter_app' {A} (f : A -> bool) l r : filter f (l ++ r) = filter f l ++ filter f r. Proof. apply filter_app. Qed.

(** An operator other than TJ shows no text. *)
Definition quiet (x : op) : Prop := snd x <> bs "TJ".
Lemma among_false b l : (forall s, In s l -> b <> bs s) -> among b l = false.
Proof.
  intros H. unfold among. destruct (existsb _ l) eqn:E; [|reflexivity]. apply existsb_exists in E as (s & I & Q). apply list_eqb_eq in Q. now contradiction (H s I).
Qed.
Lemma vstep_quiet v x : quiet x -> exists es, v_out (vstep v x) = v_out v ++ es /\ filter isShow es = [].
Proof.
  intros Q. destruct x as [args b]. unfold vstep. cbn [snd] in Q.
  assert (TJ : among b ["TJ"]%string = false) by (apply among_false; intros s [<-|[]]; exact Q).
  rewrite TJ.
  destruct (among b ["q"]%string); [exists []; now rewrite app_nil_r|].
  destruct (among b ["Q"]%string); [exists []; destruct (v_stack v); cbn; now rewrite app_nil_r|].
  repeat match goal with |- context [if among b ?l then _ else _] => destruct (among b l); [first [exists []; cbn; now rewrite app_nil_r | eexists; cbn; split; [reflexivity|reflexivity]]|] end.
  exists []. now rewrite app_nil_r.
Qed.
Lemma view_quiet l : Forall quiet l -> forall v, exists es, v_out (view_from v l) = v_out v ++ es /\ filter isShow es = [].
Proof.
  induction 1 as [|x l Q _ IH]; intros v; [exists []; cbn; now rewrite app_nil_r|].
  destruct (vstep_quiet v x Q) as (e1 & A1 & B1). destruct (IH (vstep v x)) as (e2 & A2 & B2).
  exists (e1 ++ e2). change (view_from v (x :: l)) with (view_from (vstep v x) l). rewrite A2, A1, <- app_assoc, filter_app, B1, B2. now split.
Qed.

Section View.
  Variable N : num.
  Variable rot : T N -> T N * T N.
  Notation quiets := (Forall quiet).
  Ltac qt := let A := fresh in intros A; cbn [snd o] in A; discriminate A.
  Lemma q_if (b : bool) l r : quiets l -> quiets r -> quiets (if b then l else r). Proof. destruct b; auto. Qed.
  Lemma q_gs l : quiets (gs_ops l).
  Proof. apply Forall_forall. intros x H. apply in_map_iff in H as (i & <- & _). qt. Qed.
  Lemma q_rot x y a h : quiets (orot N rot x y a h).
  Proof. unfold orot. destruct (rot a). repeat (constructor; [qt|]). constructor. Qed.
  Lemma q_path h pts : forall f, quiets (opath N h f pts).
  Proof. induction pts as [|[x y] pts IH]; intros f; cbn [opath]; constructor; [destruct f; qt|apply IH]. Qed.
  Ltac qts := repeat match goal with
        | |- quiets (_ ++ _) => apply Forall_app; split
        | |- quiets [] => constructor
        | |- quiets (_ :: _) => constructor; [qt|]
        | |- quiets (if _ then _ else _) => apply q_if
        | |- quiets (gs_ops _) => apply q_gs
        | |- quiets (orot _ _ _ _ _ _) => apply q_rot
        | |- quiets (opath _ _ _ _) => apply q_path
        end.
  Lemma cache_quiet c : (forall t, c <> CText N t) -> quiets (cache_ops N rot c).
  Proof.
    intros H. destruct c; [now contradiction (H c)|..]; cbn [cache_ops]; unfold oseg, orgb, ocmyk; cbv zeta; try solve [qts].
    - destruct st; qts.
    - destruct (beq style "F"); [qts|]. destruct (_ || _); qts.
    - destruct (beq t "dashed"); [qts|]. destruct (beq t "dotted"); qts.
    - destruct stroke; qts.
    - destruct stroke; qts.
    - destruct stroke; qts.
    - unfold oimage. destruct (im_crop N i) as [[[[cx cy] cw] ch]|]; cbv zeta iota beta; qts.
    - destruct (beq style "F"); [qts|]. destruct (_ || _); qts.
  Qed.

  (** The text array of a text cache *)
  Definition items (c : ctext N) : list tok := TOpen :: tjToks (c_font N c) (justOf N c) 0 0 0 [] (c_text N c) ++ [TClose].
  Definition showsText (e : event) (c : ctext N) : Prop :=
    exists g, e = EShow g [n2 N (calX N c); n2 N (calY N c)] (items c) /\
      g_font g = [TName (bs "F" ++ fmt_d (c_fci N c)); TWord (nfmtTrim N (c_size N c))] /\
      g_tc g = [TWord (nfmtTrim N (c_cs N c))] /\
      (c_mode N c = true -> forall t, c_color N c = Some t -> otcol N t = [g_fill g]).
  Lemma text_view c v : exists es, v_out (view_from v (otext N c)) = v_out v ++ es /\ exists e, filter isShow es = [e] /\ showsText e c.
  Proof.
    unfold otext. cbv zeta. set (pre := (if match o_gs N (c_opt N c) with [] => false | _ => true end then [o [] "q"] else [])).
    assert (P : quiets (pre ++ gs_ops (o_gs N (c_opt N c)))) by (unfold pre; qts).
    rewrite app_assoc. rewrite view_app. destruct (view_quiet _ P v) as (e1 & A1 & B1). set (v1 := view_from v _) in *.
    rewrite view_app. set (post := _ ++ oborder N c ++ _).
    assert (R : quiets post) by (unfold post, ounderline, oborder, oseg; cbv zeta; qts).
    assert (M : exists g, v_out (view_from v1 (otextobj N c)) = v_out v1 ++ [EShow g [n2 N (calX N c); n2 N (calY N c)] (items c)] /\
       g_font g = [TName (bs "F" ++ fmt_d (c_fci N c)); TWord (nfmtTrim N (c_size N c))] /\ g_tc g = [TWord (nfmtTrim N (c_cs N c))] /\
       (c_mode N c = true -> forall t, c_color N c = Some t -> otcol N t = [g_fill g])).
    { unfold otextobj, items. set (TJ := TOpen :: _). clearbody TJ. destruct v1 as [g st pos out].
      destruct (c_mode N c); [destruct (c_color N c) as [[r gg b|cc m y k]|]|].
      - eexists. split; [reflexivity|]. split; [reflexivity|]. split; [reflexivity|]. intros _ t [= <-]. reflexivity.
      - eexists. split; [reflexivity|]. split; [reflexivity|]. split; [reflexivity|]. intros _ t [= <-]. reflexivity.
      - eexists. split; [reflexivity|]. split; [reflexivity|]. split; [reflexivity|]. discriminate.
      - eexists. split; [reflexivity|]. split; [reflexivity|]. split; [reflexivity|]. discriminate. }
    destruct M as (g & M1 & M2 & M3 & M4). set (v2 := view_from v1 (otextobj N c)) in *.
    destruct (view_quiet _ R v2) as (e3 & A3 & B3).
    exists (e1 ++ [EShow g [n2 N (calX N c); n2 N (calY N c)] (items c)] ++ e3). split.
    - rewrite A3, M1, A1. now rewrite <- !app_assoc.
    - eexists. split; [rewrite !filter_app, B1, B3; reflexivity|]. exists g. auto.
  Qed.
  Definition texts (l : list (cache N)) : list (ctext N) := flat_map (fun c => match c with CText _ t => [t] | _ => [] end) l.
  Lemma caches_view l : forall v, exists es, v_out (view_from v (flat_map (cache_ops N rot) l)) = v_out v ++ es /\ Forall2 showsText (filter isShow es) (texts l).
  Proof.
    induction l as [|c l IH]; intros v; [exists []; cbn; rewrite app_nil_r; split; [reflexivity|constructor]|].
    cbn [flat_map texts]. fold (texts l). rewrite view_app.
    assert (C : exists es, v_out (view_from v (cache_ops N rot c)) = v_out v ++ es /\ Forall2 showsText (filter isShow es) (match c with CText _ t => [t] | _ => [] end)).
    { assert (D : (exists t, c = CText N t) \/ (forall t, c <> CText N t)) by (destruct c; eauto; right; discriminate).
      destruct D as [(t & ->)|D].
      - destruct (text_view t v) as (es & A & e & B & C). exists es. split; [exact A|]. rewrite B. constructor; [exact C|constructor].
      - destruct (view_quiet _ (cache_quiet c D) v) as (es & A & B). exists es. split; [exact A|]. rewrite B. destruct c; try constructor. now contradiction (D c). }
    destruct C as (e1 & A1 & B1). destruct (IH (view_from v (cache_ops N rot c))) as (e2 & A2 & B2).
    exists (e1 ++ e2). split; [rewrite A2, A1; now rewrite <- app_assoc|]. rewrite filter_app. now apply Forall2_app.
  Qed.
  Hypothesis NP : num_prints N.
  Theorem content_shows l b : Forall (cache_ok N) l -> content_write N rot l = Some b -> Forall2 showsText (shows b) (texts l).
  Proof using NP.
    intros F W. unfold shows, view. rewrite (content_ops_write N rot NP l b F W).
    destruct (caches_view l {| v_g := gst0; v_stack := []; v_pos := []; v_out := [] |}) as (es & A & B). cbn [v_out app] in A. unfold gst0 in *. rewrite A. exact B.
  Qed.
End View.
