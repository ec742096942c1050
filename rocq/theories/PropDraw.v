(** PropDraw.v — C32: what is drawn on a page is a well-formed content stream. *)
From Coq Require Import QArith.
From Verif Require Import Base StrModel NumModel UnitModel DrawModel DrawSpec DrawLex DrawNest.

Open Scope Z_scope.

(** ** The histories the property talks about *)
Section Paired.
  Variable N : num.
  Definition bracket (c : call N) : bool :=
    match c with SaveGS _ | RestoreGS _ | Rotate _ _ _ _ | RotateReset _ => true | _ => false end.
  (** SaveGraphicsState/RestoreGraphicsState and Rotate/RotateReset paired and properly nested *)
  Inductive paired : list (call N) -> Prop :=
  | paired_nil : paired []
  | paired_call c : bracket c = false -> paired [c]
  | paired_save l : paired l -> paired (SaveGS N :: l ++ [RestoreGS N])
  | paired_rotate a x y l : paired l -> paired (Rotate N a x y :: l ++ [RotateReset N])
  | paired_app l r : paired l -> paired r -> paired (l ++ r).
  (** Polygon and ClipPolygon are given at least one point; imported templates have a PDF name. *)
  Definition sensible (c : call N) : Prop :=
    match c with
    | Polygon _ pts _ => pts <> [] | ClipPolygon _ pts => pts <> []
    | Template _ name _ _ _ _ => exists wd, name = bs "/" ++ wd /\ forallb is_regular wd = true
    | _ => True
    end.
  (** A page nothing was drawn on yet; text colour mode is only "color" once a colour was set (gopdf.go:2163, 1867-1886). *)
  Definition fresh_page (s : ds N) : Prop := s_caches N s = [] /\ (s_mode N s = true -> s_color N s <> None).
End Paired.

Section C32.
  Variable N : num.
  Variable rot : T N -> T N * T N.
  Hypothesis NP : num_prints N.
  Notation good := (cgood N).
  Definition inv (s : ds N) (d : Z) : Prop :=
    Forall good (s_caches N s) /\ (s_mode N s = true -> s_color N s <> None) /\ cdepth N 0 (s_caches N s) = Some d.
  Definition calldelta (c : call N) : Z := match c with SaveGS _ | Rotate _ _ _ _ => 1 | RestoreGS _ | RotateReset _ => -1 | _ => 0 end.

  Lemma splitLast_app l pre c : splitLast N l = (pre, Some c) -> l = pre ++ [c].
  Proof. unfold splitLast. destruct (rev l) as [|x r] eqn:R; [discriminate|]. intros [= <- <-]. rewrite <- (rev_involutive l), R. reflexivity. Qed.
  Lemma inv_add s d c : 0 <= d -> inv s d -> good c -> 0 <= d + cdelta N c -> forall s', s_caches N s' = s_caches N s ++ [c] -> (s_mode N s' = true -> s_color N s' <> None) -> inv s' (d + cdelta N c).
  Proof.
    intros D (F & M & C) G P s' E M'. split; [|split; [exact M'|]]; rewrite E.
    - apply Forall_app. split; [exact F|]. now constructor.
    - rewrite cdepth_app, C. cbn [cdepth]. replace (0 <=? d + cdelta N c) with true by lia. reflexivity.
  Qed.
  Lemma inv_text s d r cell opt txt s' : inv s d -> drawText N s r cell opt txt = Some s' -> inv s' d.
  Proof.
    intros (F & M & C) H. unfold drawText in H. destruct (s_font N s) as [[fc f]|]; [|discriminate].
    unfold appendContentText in H. set (n := mkText N s fc f r cell false opt) in *.
    assert (NG : good (CText N n)) by (cbn; exact M).
    assert (K : forall pre base, (pre = s_caches N s /\ base = n) \/ s_caches N s = pre ++ [CText N base] ->
              Forall good pre /\ good (CText N base) /\ cdepth N 0 (pre ++ [CText N base]) = Some d).
    { intros pre base [[-> ->]|E].
      - split; [exact F|]. split; [exact NG|]. rewrite cdepth_app, C. cbn [cdepth cdelta]. rewrite Z.add_0_r. rewrite (proj2 (Z.leb_le 0 d)); [reflexivity|]. now apply (cdepth_pos N _ 0 d ltac:(lia)) in C.
      - rewrite E in F, C. apply Forall_app in F as [F1 F2]. inversion F2; subst. auto. }
    assert (B : exists pre base, ((pre = s_caches N s /\ base = n) \/ s_caches N s = pre ++ [CText N base]) /\
       match splitLast N (s_caches N s) with (pre, Some (CText _ c)) => if isSame N c n then (pre, c) else (s_caches N s, n) | _ => (s_caches N s, n) end = (pre, base)).
    { destruct (splitLast N (s_caches N s)) as [pre [c|]] eqn:SL; [|eexists; eexists; split; [left; split; reflexivity|reflexivity]].
      apply splitLast_app in SL. destruct c; try (eexists; eexists; split; [left; split; reflexivity|reflexivity]).
      destruct (isSame N c n); eexists; eexists; (split; [|reflexivity]); [right; exact SL|left; split; reflexivity]. }
    destruct B as (pre & base & B1 & B2). rewrite B2 in H. destruct (K pre base B1) as (K1 & K2 & K3).
    destruct (createContent N _ _ _ _ _) as [[[cw ch] tw]|]; [|discriminate]. injection H as <-. split; [|split]; cbn [s_caches s_mode s_color withxy withc].
    - apply Forall_app. split; [exact K1|]. constructor; [|constructor]. exact K2.
    - exact M.
    - rewrite cdepth_app in *. exact K3.
  Qed.
  Lemma step_inv s d c s' : 0 <= d -> inv s d -> sensible N c -> 0 <= d + calldelta c -> step N s c = Some s' -> inv s' (d + calldelta c).
  Proof.
    intros D I S P H. pose proof I as (F & M & C).
    assert (Z0 : inv s' d -> calldelta c = 0 -> inv s' (d + calldelta c)) by (intros A ->; now rewrite Z.add_0_r).
    destruct c; cbn [step calldelta sensible] in *;
      try (eapply (inv_text s) in H; [now rewrite Z.add_0_r|exact I]);
      try (injection H as <-; split; [exact F|split; [exact M|now rewrite Z.add_0_r]]);
      try (injection H as <-; match goal with |- inv (add N ?x ?cc) _ => apply (inv_add s d cc D I) end; cbn; solve [reflexivity|exact M|lia|auto]);
      try (injection H as <-; split; [exact F|split; [discriminate|now rewrite Z.add_0_r]]).
    all: try (rewrite Z.add_0_r; eapply inv_text; [exact I|exact H]).
    - injection H as <-. match goal with |- inv (add N ?x ?cc) _ => apply (inv_add s d cc D I) end; cbn; try solve [reflexivity|exact M|lia|auto]. intros A. destruct pts; [contradiction|discriminate].
    - injection H as <-. match goal with |- inv (add N ?x ?cc) _ => apply (inv_add s d cc D I) end; cbn; try solve [reflexivity|exact M|lia|auto]. intros A. destruct pts; [contradiction|discriminate].
    - destruct (s_font N s) as [[fc f]|]; [|discriminate]. injection H as <-.
      apply (inv_add s d (CText N (mkText N s fc f None false true (opt0 N))) D I); cbn; try solve [reflexivity|exact M|lia|auto].
  Qed.
  Fixpoint calldepth (d : Z) (l : list (call N)) : option Z :=
    match l with [] => Some d | c :: r => if 0 <=? d + calldelta c then calldepth (d + calldelta c) r else None end.
  Lemma calldepth_app l r : forall d, calldepth d (l ++ r) = match calldepth d l with Some e => calldepth e r | None => None end.
  Proof. induction l as [|c l IH]; intros d; [reflexivity|]. cbn [app calldepth]. destruct (0 <=? _); [apply IH|reflexivity]. Qed.
  Lemma paired_depth l : paired N l -> forall d, 0 <= d -> calldepth d l = Some d.
  Proof.
    induction 1 as [|c B|l _ IH|a x y l _ IH|l r _ IH1 _ IH2]; intros d D; [reflexivity| | | |].
    - cbn [calldepth]. assert (calldelta c = 0) as -> by (destruct c; try reflexivity; discriminate). rewrite Z.add_0_r. replace (0 <=? d) with true by lia. reflexivity.
    - cbn [calldepth calldelta]. replace (0 <=? d + 1) with true by lia. rewrite calldepth_app, IH by lia. cbn [calldepth calldelta]. replace (0 <=? d + 1 + -1) with true by lia. f_equal. lia.
    - cbn [calldepth calldelta]. replace (0 <=? d + 1) with true by lia. rewrite calldepth_app, IH by lia. cbn [calldepth calldelta]. replace (0 <=? d + 1 + -1) with true by lia. f_equal. lia.
    - rewrite calldepth_app, IH1 by exact D. now apply IH2.
  Qed.
  Lemma run_inv l : Forall (sensible N) l -> forall s d e s', 0 <= d -> inv s d -> calldepth d l = Some e -> run N s l = Some s' -> inv s' e.
  Proof.
    induction 1 as [|c l S _ IH]; intros s d e s' D I C R; cbn [run calldepth] in *; [injection C as <-; injection R as <-; exact I|].
    destruct (Z.leb_spec 0 (d + calldelta c)) as [P|P]; [|discriminate]. destruct (step N s c) as [s1|] eqn:E; [|discriminate].
    eapply IH; [exact P|eapply step_inv; eassumption|exact C|exact R].
  Qed.

  (** C32: any calls, paired, on a fresh page: the page's content is written (no panic), it is a legal sequence
      of operators, q and Q balance and never pop below the start, BT and ET pair without nesting. *)
  Theorem C32_balanced (s s' : ds N) (calls : list (call N)) :
    fresh_page N s -> Forall (sensible N) calls -> paired N calls -> run N s calls = Some s' ->
    exists content, content_write N rot (s_caches N s') = Some content /\ well_formed content.
  Proof using NP.
    intros (E & M) S P R.
    assert (I : inv s' 0).
    { apply (run_inv calls S s 0 0); [lia| |apply paired_depth; [exact P|lia]|exact R]. unfold inv. rewrite E. split; [constructor|]. split; [exact M|reflexivity]. }
    destruct I as (F & _ & C). destruct (content_writes N rot _ F) as (b & B). exists b. split; [exact B|].
    unfold well_formed. rewrite (content_ops_write N rot NP (s_caches N s') b); [|eapply Forall_impl; [|exact F]; apply cgood_ok|exact B].
    rewrite caches_nest by (exact F || lia). now rewrite C.
  Qed.
  (** Also without pairing: as long as no call restores more than was saved, the content never pops below its
      start, text objects never nest, and what stays open is what the calls left open. *)
  Theorem C32_prefix (s s' : ds N) (calls rest : list (call N)) :
    fresh_page N s -> Forall (sensible N) calls -> paired N (calls ++ rest) -> run N s calls = Some s' ->
    exists content d, content_write N rot (s_caches N s') = Some content /\
      nest (0, MPage) (content_ops content) = Some (d, MPage) /\ 0 <= d.
  Proof using NP.
    intros (E & M) S P R. pose proof (paired_depth _ P 0 ltac:(lia)) as CD. rewrite calldepth_app in CD. destruct (calldepth 0 calls) as [d|] eqn:D; [|discriminate].
    assert (I : inv s' d).
    { apply (run_inv calls S s 0 d); [lia| |exact D|exact R]. unfold inv. rewrite E. split; [constructor|]. split; [exact M|reflexivity]. }
    destruct I as (F & _ & C). destruct (content_writes N rot _ F) as (b & B). exists b, d. split; [exact B|].
    rewrite (content_ops_write N rot NP (s_caches N s') b); [|eapply Forall_impl; [|exact F]; apply cgood_ok|exact B].
    rewrite caches_nest by (exact F || lia). rewrite C. split; [reflexivity|]. now apply (cdepth_pos N _ 0 d ltac:(lia)) in C.
  Qed.
End C32.

(** ** Concrete cases *)
Definition dfont : fontv :=
  {| fv_ci := fun r => Some (r - 29); fv_cw := fun r => Some (if r =? 32 then 250 else 500); fv_useKern := true; fv_pair := fun l r _ _ => if (l =? 65) && (r =? 86) then -80 else 0;
     fv_add := fun t => t; fv_upem := 1000; fv_tasc := 800; fv_tdesc := -200; fv_asc := 900; fv_desc := -210; fv_upos := -100; fv_uthick := 50 |}.
Definition dpage (N : num) : ds N :=
  Build_ds N (Build_ucfg N 1 (nofZ N 0)) (nofZ N 10) (nofZ N 800) (nofZ N 10) (nofZ N 20) 0 None (nofZ N 0) 0 (nofZ N 0) false None (nofZ N 0) (nofZ N 1) None [].
Definition norot (N : num) : T N -> T N * T N := fun _ => (nofZ N 1, nofZ N 0).
Definition dcalls (N : num) : list (call N) :=
  [SetFont N 0 dfont (nofZ N 12) styUnderline; Rotate N (nofZ N 30) (nofZ N 5) (nofZ N 5); SetTextColor N 255 0 0; Text N (bs "AV a"); Text N (bs "b");
   Polygon N [(nofZ N 1, nofZ N 2); (nofZ N 3, nofZ N 4)] (bs "FD"); RotateReset N; SaveGS N; SetTransparency N (Some 3); Line N (nofZ N 0) (nofZ N 0) (nofZ N 9) (nofZ N 9);
   CellOpt N (Some (Build_rect N (nofZ N 100) (nofZ N 20) (defcfg N 0))) (bs "x y") (Build_cellopt N oJustify 15 oBottom (nofZ N 0) (nofZ N 0) (nofZ N 0) []) None; RestoreGS N].
(** The content of the page after the calls. *)
Definition outcome (N : num) (rot : T N -> T N * T N) (s : ds N) (l : list (call N)) : option bytes :=
  match run N s l with Some s' => content_write N rot (s_caches N s') | None => None end.
Lemma outcome_run N rot s l c : outcome N rot s l = Some c -> exists s', run N s l = Some s' /\ content_write N rot (s_caches N s') = Some c.
Proof. unfold outcome. destruct (run N s l) as [s'|]; [|discriminate]. intros H. now exists s'. Qed.
Definition got (x : option bytes) : bytes := match x with Some c => c | None => [] end.
Definition dcontent : bytes := Eval vm_compute in got (outcome F64 (norot F64) (dpage F64) (dcalls F64)).
Lemma dcontent_ok : outcome F64 (norot F64) (dpage F64) (dcalls F64) = Some dcontent. Proof. vm_compute. reflexivity. Qed.
Example C32_met : paired F64 (dcalls F64) /\ Forall (sensible F64) (dcalls F64) /\ fresh_page F64 (dpage F64) /\ (exists s', run F64 (dpage F64) (dcalls F64) = Some s').
Proof.
  split; [|split; [|split]].
  - unfold dcalls. match goal with |- paired F64 (?a :: ?b :: ?t1 :: ?t2 :: ?t3 :: ?p :: ?r :: ?s :: ?rest) => change (paired F64 ([a] ++ (b :: ([t1] ++ [t2] ++ [t3] ++ [p]) ++ [r]) ++ (s :: rest))) end.
    apply paired_app; [now apply paired_call|]. apply paired_app; [apply paired_rotate; repeat (apply paired_app; [now apply paired_call|]); now apply paired_call|].
    match goal with |- paired F64 (?s :: ?a :: ?b :: ?c :: ?r) => change (paired F64 (s :: ([a] ++ [b] ++ [c]) ++ r)) end. apply paired_save. repeat (apply paired_app; [now apply paired_call|]); now apply paired_call.
  - repeat constructor. discriminate.
  - split; [reflexivity|discriminate].
  - destruct (outcome_run _ _ _ _ _ dcontent_ok) as (s' & R & _). now exists s'.
Qed.
(** What that page contains. *)
Example C32_shown : well_formed dcontent /\ map snd (content_ops dcontent) = map bs
   ["q"; "cm"; "cm"; "BT"; "TD"; "Tf"; "Tc"; "rg"; "TJ"; "ET"; "re"; "f"; "q"; "m"; "l"; "b"; "Q"; "Q"; "q"; "q"; "gs"; "m"; "l"; "S"; "Q";
    "q"; "gs"; "BT"; "TD"; "Tf"; "Tc"; "rg"; "TJ"; "ET"; "re"; "f"; "m"; "l"; "s"; "m"; "l"; "s"; "m"; "l"; "s"; "m"; "l"; "s"; "Q"; "Q"]%string.
Proof. split; vm_compute; reflexivity. Qed.
(** The full property is false: a polygon without points, or a clip path without points, writes a path-painting
    operator with no path. *)
Theorem C32_empty_polygon_refuted :
  exists (calls1 calls2 : list (call F64)) c1 c2,
    paired F64 calls1 /\ outcome F64 (norot F64) (dpage F64) calls1 = Some c1 /\ ~ well_formed c1 /\
    paired F64 calls2 /\ outcome F64 (norot F64) (dpage F64) calls2 = Some c2 /\ ~ well_formed c2.
Proof.
  exists [Polygon F64 [] (bs "F")], [ClipPolygon F64 []], (bs "q" ++ [NL] ++ bs " f" ++ [NL] ++ bs "Q" ++ [NL]), (bs "h W n" ++ [NL]).
  split; [now apply paired_call|]. split; [vm_compute; reflexivity|]. split; [intros A; vm_compute in A; discriminate|].
  split; [now apply paired_call|]. split; [vm_compute; reflexivity|]. intros A; vm_compute in A; discriminate.
Qed.
Print Assumptions C32_balanced.
Print Assumptions C32_prefix.
Print Assumptions C32_empty_polygon_refuted.
