(** PropName.v — C63: every name a content stream uses is defined in the page's resources, and leads to what was asked for. *)
From Coq Require Import QArith.
From Verif Require Import Base NumModel StrModel StrSpec DocModel DocSpec DocProofs DocInv PropDoc PropImage PropTransp SecModel FileModel StreamModel PdfSyntax PdfRead ObjModel PropObj PropObj2 RefModel PropRef PropRef2.
Open Scope Z_scope.

(** ** Specification *)
(** The names used by a piece of content: "/F3 … Tf" (cache_content_text.go:213), "/I7 Do" and "/GS5 gs" (cache_content_image.go:83, 142;
    cache_content_text.go:210), "/CS1 CS" (cache_color_space.go:13). *)
Inductive use := UFont (n : Z) | UImage (n : Z) | UState (n : Z) | USpace (n : Z).
Definition uses (it : item) : list use :=
  match it with
  | IText fc _ gs => UFont fc :: match gs with Some g => [UState g] | None => [] end
  | IImage i gs => UImage (Z.of_nat i + 1) :: map UState gs
  | IColorSpace c => [USpace (c + 1)]
  | IBytes _ | ITemplate _ _ _ => []
  end.
(** Where a reader looks the name up (ISO 32000-1, 7.8.3), and what has to be there. *)
Definition category (u : use) : string := match u with UFont _ => "Font" | UImage _ => "XObject" | UState _ => "ExtGState" | USpace _ => "ColorSpace" end%string.
Definition name_of (u : use) : bytes :=
  match u with UFont n => bs "F" ++ fmt_d n | UImage n => bs "I" ++ fmt_d n | UState n => bs "GS" ++ fmt_d n | USpace n => bs "CS" ++ fmt_d n end.
Definition kind_for (u : use) : kind := match u with UFont _ => KFont | UImage _ => KImage | UState _ => KGState | USpace _ => KColorSpace end.
(** The value of a key of a dictionary, [None] if the key is missing or stands twice. *)
Definition dict_get (key : bytes) (o : pobj) : option pobj :=
  match o with ODict l => match filter (fun e => list_eqb (fst e) key) l with [e] => Some (snd e) | _ => None end | _ => None end.
Definition defined_as (resources : pobj) (u : use) (n : Z) : Prop :=
  exists d, dict_get (bs (category u)) resources = Some d /\ dict_get (name_of u) d = Some (ref n).

(** ** Invariant: all names in use are listed *)
Definition listed (s : gp) : list use :=
  map (fun r => UFont (rf_count r + 1)) (g_fonts s) ++ map (fun i => UImage (Z.of_nat i + 1)) (g_xobjs s)
  ++ map (fun i => UState (Z.of_nat i + 1)) (g_extgs s) ++ map (fun r => USpace (rc_count r + 1)) (g_cs s).
Definition ouses (o : obj) : list use :=
  match o with
  | OContent l => flat_map uses l
  | OSubsetFont f => [UFont (fo_count f + 1)]
  | OColorSpace _ c => [USpace (c + 1)]
  | _ => []
  end.
Definition suses (s : gp) : list use :=
  match g_font s with Some _ => [UFont (g_fontcount s + 1)] | None => [] end
  ++ match g_tr s with Some g => [UState g] | None => [] end
  ++ map (fun e => UState (snd e)) (g_trmap s) ++ map (fun e => UState (Z.of_nat (snd e) + 1)) (g_extmap s)
  ++ map (fun e => UImage (Z.of_nat (snd e) + 1)) (g_imgs s)
  ++ match g_fonts s with [] => [] | _ => [UFont 1] end ++ match g_cs s with [] => [] | _ => [USpace 1] end.
Definition inuse (s : gp) : list use := flat_map ouses (g_objs s) ++ suses s.
Definition upto (n : nat) : list Z := map Z.of_nat (seq 0 n).
(** Counts are 0, 1, 2 …; indices are positions of objects, each once. *)
Record Tidy (s : gp) : Prop := {
  td_f : map rf_count (g_fonts s) = upto (List.length (g_fonts s)) /\ g_countfont s = zlen (g_fonts s);
  td_c : map rc_count (g_cs s) = upto (List.length (g_cs s)) /\ g_countcs s = zlen (g_cs s);
  td_x : NoDup (g_xobjs s) /\ Forall (fun i => (i < List.length (g_objs s))%nat) (g_xobjs s);
  td_g : NoDup (g_extgs s) /\ Forall (fun i => (i < List.length (g_objs s))%nat) (g_extgs s) }.
(** Graphics states. *)
Definition text3 (a : Q) : bytes := fmt_fixed 3 a.
Definition carries (s : gp) (g : Z) (a : Q) (b : bytes) : Prop :=
  exists a', obj_no s g = Some (OExtGState {| eg_alpha := Some a'; eg_bm := Some b; eg_smask := None |}) /\ text3 a' = text3 a.
Definition tr_ok (s : gp) : Prop := forall id g, In (id, g) (g_trmap s) -> exists a b, id = tr_id a b /\ carries s g a b.
Record Step (s s' : gp) : Prop := {
  sp_obj : forall i o, static o = true -> nth_error (g_objs s) i = Some o -> nth_error (g_objs s') i = Some o;
  sp_list : incl (listed s) (listed s');
  sp_use : Tidy s -> forall x, In x (inuse s') -> In x (inuse s) \/ In x (listed s');
  sp_ext : ext_ok s -> ext_ok s';
  sp_tr : ext_ok s -> tr_ok s -> tr_ok s';
  sp_tidy : Tidy s -> Tidy s' }.
Record Good (s : gp) : Prop := { gd_use : forall x, In x (inuse s) -> In x (listed s); gd_ext : ext_ok s; gd_tr : tr_ok s; gd_tidy : Tidy s }.
Lemma Step_good s s' : Step s s' -> Good s -> Good s'.
Proof. intros [O L U E T D] [G1 G2 G3 G4]. constructor; auto. intros x I. destruct (U G4 x I) as [J|J]; [apply L; auto|exact J]. Qed.
Lemma Step_refl s : Step s s.
Proof. constructor; auto using incl_refl. Qed.
Lemma Step_trans a b c : Step a b -> Step b c -> Step a c.
Proof.
  intros [O1 L1 U1 E1 T1 D1] [O2 L2 U2 E2 T2 D2]. constructor; auto.
  - eapply incl_tran; eauto.
  - intros D x I. destruct (U2 (D1 D) x I) as [J|J]; [|now right]. destruct (U1 D x J) as [K|K]; [now left|right; now apply L2].
Qed.
Definition stable (l l' : list obj) : Prop := forall i o, static o = true -> nth_error l i = Some o -> nth_error l' i = Some o.
Lemma ext_stable s s' : stable (g_objs s) (g_objs s') -> g_extmap s' = g_extmap s -> ext_ok s -> ext_ok s'.
Proof. intros H E G id i. rewrite E. intros L. destruct (G id i L) as (e & A & B & N). exists e. split; [exact A|]. split; [exact B|]. now apply H. Qed.
Lemma carries_stable s s' g a b : stable (g_objs s) (g_objs s') -> carries s g a b -> carries s' g a b.
Proof. intros H (a' & O & E). exists a'. split; [|exact E]. unfold obj_no in *. destruct (g <=? 0); [discriminate|]. now apply H. Qed.
Lemma tr_stable s s' : stable (g_objs s) (g_objs s') -> g_trmap s' = g_trmap s -> tr_ok s -> tr_ok s'.
Proof. intros H E G id g. rewrite E. intros I. destruct (G id g I) as (a & b & C & K). exists a, b. split; [exact C|]. eapply carries_stable; eauto. Qed.
(** Everything about names but the objects the same. *)
Record Same (s s' : gp) : Prop := {
  sm_fonts : g_fonts s' = g_fonts s; sm_cs : g_cs s' = g_cs s; sm_x : g_xobjs s' = g_xobjs s; sm_g : g_extgs s' = g_extgs s;
  sm_cf : g_countfont s' = g_countfont s; sm_cc : g_countcs s' = g_countcs s; sm_em : g_extmap s' = g_extmap s; sm_tm : g_trmap s' = g_trmap s;
  sm_im : g_imgs s' = g_imgs s }.
Lemma Step_objs s s' : Same s s' -> g_font s' = g_font s -> g_fontcount s' = g_fontcount s -> g_tr s' = g_tr s ->
  stable (g_objs s) (g_objs s') -> (List.length (g_objs s) <= List.length (g_objs s'))%nat ->
  (forall x, In x (flat_map ouses (g_objs s')) -> In x (inuse s) \/ In x (listed s')) -> Step s s'.
Proof.
  intros [S1 S2 S3 S4 S5 S6 S7 S8 S9] F1 F2 F3 ST LE H. constructor.
  - exact ST.
  - unfold listed. rewrite S1, S2, S3, S4. apply incl_refl.
  - intros _ x. unfold inuse at 1. rewrite in_app_iff. intros [I|I]; [auto|]. left. apply in_or_app. right. revert I. unfold suses. now rewrite F1, F2, F3, S1, S2, S7, S8, S9.
  - now apply ext_stable.
  - intros _. now apply tr_stable.
  - intros [D1 D2 D3 D4]. constructor; rewrite ?S1, ?S2, ?S3, ?S4, ?S5, ?S6; auto.
    + split; [apply D3|]. eapply Forall_impl; [|apply D3]. cbn. lia.
    + split; [apply D4|]. eapply Forall_impl; [|apply D4]. cbn. lia.
Qed.
Lemma Step_frame s s' : Same s s' -> g_font s' = g_font s -> g_fontcount s' = g_fontcount s -> g_tr s' = g_tr s -> g_objs s' = g_objs s -> Step s s'.
Proof. intros S F1 F2 F3 E. apply Step_objs; auto; rewrite E; [now intros i o|lia|]. intros x I. left. apply in_or_app. now left. Qed.
Lemma Step_add s o : (forall x, In x (ouses o) -> In x (inuse s) \/ In x (listed s)) -> Step s (snd (addObj o s)).
Proof.
  intros H. apply Step_objs; try reflexivity; [constructor; reflexivity|..].
  - intros i o' _ N. cbn [addObj snd g_objs set_objs]. rewrite nth_error_app1; [exact N|apply nth_error_Some; congruence].
  - cbn [addObj snd g_objs set_objs]. rewrite app_length. lia.
  - intros x. cbn [addObj snd g_objs set_objs]. rewrite flat_map_app. cbn [flat_map]. rewrite app_nil_r, in_app_iff. intros [I|I]; [left; apply in_or_app; now left|]. now apply H.
Qed.
Lemma upd_length {A} (l : list A) i f : List.length (upd l i f) = List.length l.
Proof. revert i. induction l as [|x l IH]; intros [|i]; cbn; auto. Qed.
Lemma Step_upd s i f : (forall o, static o = true -> f o = o) -> (forall o x, In x (ouses (f o)) -> In x (ouses o) \/ In x (inuse s) \/ In x (listed s)) -> Step s (set_objs (upd (g_objs s) i f) s).
Proof.
  intros K H. apply Step_objs; try reflexivity; [constructor; reflexivity|..]; cbn [g_objs set_objs].
  - intros j o S N. rewrite nth_upd, N. destruct (Nat.eqb i j); [cbn; now rewrite K|reflexivity].
  - now rewrite upd_length.
  - intros x I. apply in_flat_map in I as (o & I & J). apply In_nth_error in I as [j I]. rewrite nth_upd in I.
    assert (L : forall o', nth_error (g_objs s) j = Some o' -> In x (ouses o') -> In x (inuse s)).
    { intros o' N Q. apply in_or_app. left. apply in_flat_map. exists o'. split; [eapply nth_error_In; eauto|exact Q]. }
    destruct (Nat.eqb i j); [|left; eapply L; eauto]. destruct (nth_error (g_objs s) j) as [o'|] eqn:N; [|discriminate]. cbn in I. injection I as <-.
    destruct (H o' x J) as [Q|Q]; [left; eapply L; eauto|exact Q].
Qed.

(** ** Calls *)
Ltac same := apply Step_frame; try reflexivity; constructor; reflexivity.
Ltac inapp := repeat (rewrite ?in_app_iff in *; cbn [In] in *).
Lemma getContent_uses s : inuse (snd (getContent s)) = inuse s /\ listed (snd (getContent s)) = listed s.
Proof. unfold getContent. destruct (g_content s); [auto|]. cbn [addObj snd]. split; [|reflexivity]. unfold inuse. cbn [g_objs set_objs set_content]. rewrite flat_map_app. cbn [flat_map ouses app]. rewrite app_nil_r. reflexivity. Qed.
Lemma S_getContent s : Step s (snd (getContent s)).
Proof.
  unfold getContent. destruct (g_content s); [apply Step_refl|]. cbn [addObj snd]. eapply Step_trans; [apply (Step_add s (OContent [])); intros x []|same].
Qed.
Lemma S_append i it s : (forall x, In x (uses it) -> In x (inuse s) \/ In x (listed s)) -> Step s (append_item i it s).
Proof.
  intros H. apply Step_upd; [now intros []|]. intros o x. destruct o; cbn [ouses]; auto. rewrite flat_map_app. cbn [flat_map]. rewrite app_nil_r, in_app_iff. intros [I|I]; auto.
Qed.
Lemma S_draw np it s : (forall r x, In x (uses (it r)) -> In x (inuse s) \/ In x (listed s)) -> Step s (fst (draw np it s)).
Proof.
  intros H. unfold draw. pose proof (S_getContent s) as G. pose proof (getContent_uses s) as [U L]. destruct (getContent s) as [i s1]. cbn [snd] in *.
  destruct (g_pagesize s1); [|destruct np]; cbn [fst]; try exact G; (eapply Step_trans; [exact G|apply S_append; rewrite U, L; apply H]).
Qed.
Lemma S_setPage n s : Step s (fst (setPage n s)).
Proof. unfold setPage. destruct (find_content _ _ _ _); [same|apply Step_refl]. Qed.
Lemma upto_snoc n : upto (S n) = upto n ++ [Z.of_nat n].
Proof. unfold upto. rewrite seq_S, map_app. reflexivity. Qed.
Lemma fonts_one s x l : Tidy s -> g_fonts s = x :: l -> In (UFont 1) (listed s).
Proof.
  intros T E. destruct (td_f s T) as [F _]. rewrite E in F. cbn in F. apply in_or_app. left. rewrite E. cbn [map]. left. f_equal. injection F as F _. rewrite F. reflexivity.
Qed.
Lemma cs_one s x l : Tidy s -> g_cs s = x :: l -> In (USpace 1) (listed s).
Proof.
  intros T E. destruct (td_c s T) as [F _]. rewrite E in F. cbn in F. unfold listed. rewrite !in_app_iff. do 3 right. rewrite E. cbn [map]. left. f_equal. injection F as F _. rewrite F. reflexivity.
Qed.
Lemma S_addFont f st s : Step s (fst (addFont f st s)).
Proof.
  unfold addFont. cbn [addObj].
  set (s1 := set_objs (g_objs s ++ [OUnicodeMap]) s). assert (H1 : Step s s1) by (apply (Step_add s OUnicodeMap); intros x []). clearbody s1. generalize (List.length (g_objs s)). intros ui.
  set (s2 := set_objs (g_objs s1 ++ [OPdfDict]) s1). assert (H2 : Step s1 s2) by (apply (Step_add s1 OPdfDict); intros x []). clearbody s2. generalize (List.length (g_objs s1)). intros di.
  set (s3 := set_objs (g_objs s2 ++ [OSubDesc di]) s2). assert (H3 : Step s2 s3) by (apply (Step_add s2 (OSubDesc di)); intros x []). clearbody s3. generalize (List.length (g_objs s2)). intros fi.
  set (s4 := set_objs (g_objs s3 ++ [OCIDFont fi]) s3). assert (H34 : Step s3 s4) by (apply (Step_add s3 (OCIDFont fi)); intros x []). clearbody s4. generalize (List.length (g_objs s3)). intros ci.
  assert (H4 : Step s s4) by (repeat (eapply Step_trans; [eassumption|]); apply Step_refl). clear - H4.
  set (dup := existsb _ (g_fonts s4)). set (fo := {| fo_family := f |}).
  set (s5 := set_objs (g_objs s4 ++ [OSubsetFont fo]) s4).
  assert (ST : stable (g_objs s4) (g_objs s5)) by (intros i o _ N; cbn; rewrite nth_error_app1; [exact N|apply nth_error_Some; congruence]).
  eapply Step_trans; [exact H4|]. destruct dup eqn:DU; cbn [fst].
  - (* a second font of that name: it is given the number 0 *)
    assert (NE : g_fonts s4 <> []) by (intros E; unfold dup in DU; rewrite E in DU; discriminate).
    apply Step_objs; try reflexivity; [constructor; reflexivity|exact ST|cbn; rewrite app_length; lia|].
    intros x. cbn [s5 g_objs set_objs]. rewrite flat_map_app. cbn [flat_map ouses app]. rewrite in_app_iff. intros [I|[<-|[]]]; [left; apply in_or_app; now left|].
    left. apply in_or_app. right. unfold suses. rewrite !in_app_iff. do 5 right. left. destruct (g_fonts s4); [now destruct NE|]. now left.
  - set (r := {| rf_family := f |}). constructor.
    + exact ST.
    + unfold listed. cbn. rewrite map_app. intros x. rewrite !in_app_iff. tauto.
    + intros T x. unfold inuse at 1. cbn [s5 g_objs set_objs set_countfont set_fonts]. rewrite flat_map_app. cbn [flat_map ouses]. rewrite !in_app_iff. 
      assert (NEW : In (UFont (g_countfont s4 + 1)) (listed (set_countfont (g_countfont s5 + 1) (set_fonts (g_fonts s5 ++ [r]) s5)))).
      { apply in_or_app. left. cbn. rewrite map_app. apply in_or_app. right. now left. }
      intros [[I|I]|I]; [left; apply in_or_app; now left| |].
      * destruct I as [[E|[]]|[]]. right. rewrite <- E. exact NEW.
      * destruct (g_fonts s4) as [|y l] eqn:EF.
        { destruct (td_f s4 T) as [_ C]. rewrite EF in C. cbn in C. rewrite C in NEW. unfold suses in I. cbn in I. rewrite EF in I. cbn [app] in I. inapp.
          assert (J : x = UFont 1 \/ In x (suses s4)) by (unfold suses; rewrite EF; cbn [map app]; inapp; clear - I; intuition (subst; auto)). destruct J as [->|J]; [now right|left; apply in_or_app; now right]. }
        { left. apply in_or_app. right. revert I. unfold suses. cbn. now rewrite EF. }
    + now apply ext_stable.
    + intros _. now apply tr_stable.
    + intros [D1 D2 D3 D4]. constructor.
      * destruct D1 as [D1 D1']. split.
        { change (map rf_count (g_fonts s4 ++ [r]) = upto (List.length (g_fonts s4 ++ [r]))). rewrite map_app, app_length, D1. cbn [map List.length]. rewrite Nat.add_1_r, upto_snoc. f_equal.
          change ([g_countfont s4] = [Z.of_nat (List.length (g_fonts s4))]). now rewrite D1'. }
        { change (g_countfont s4 + 1 = zlen (g_fonts s4 ++ [r])). rewrite D1'. unfold zlen. rewrite app_length. cbn [List.length]. lia. }
      * exact D2.
      * split; [apply D3|]. eapply Forall_impl; [|apply D3]. cbn. intros k. rewrite app_length. lia.
      * split; [apply D4|]. eapply Forall_impl; [|apply D4]. cbn. intros k. rewrite app_length. lia.
Qed.

Lemma S_setFont f st z s : Step s (fst (setFont f st z s)).
Proof.
  unfold setFont. destruct (find_font _ _ _ _) as [[i o]|] eqn:FF; [|apply Step_refl]. cbn [fst].
  assert (IN : In (OSubsetFont o) (g_objs s)).
  { revert FF. generalize 0%nat. induction (g_objs s) as [|y l IH]; [discriminate|]. intros k. cbn [find_font]. destruct y; try (intros E; right; eapply IH; eauto; fail).
    destruct (_ && _); [intros E; injection E as <- <-; now left|intros E; right; eapply IH; eauto]. }
  constructor; try (now intros); try apply incl_refl; auto.
  - intros _ x. unfold inuse at 1. rewrite in_app_iff. intros [I|I]; [left; apply in_or_app; now left|]. unfold suses in I. cbn in I. inapp.
    destruct I as [<-|I].
    + left. apply in_or_app. left. apply in_flat_map. exists (OSubsetFont o). split; [exact IN|now left].
    + left. apply in_or_app. right. unfold suses. inapp. tauto.
  - intros [D1 D2 D3 D4]. now constructor.
Qed.
Lemma tr_of_objs s s' : stable (g_objs s) (g_objs s') -> g_trmap s' = g_trmap s -> ext_ok s -> tr_ok s -> tr_ok s'.
Proof. intros A B _. now apply tr_stable. Qed.
Lemma S_cached e s : api_gs e -> Step s (snd (getCachedExtGState e s)).
Proof.
  intros AG. unfold getCachedExtGState. destruct (lookup _ _) eqn:LK; [apply Step_refl|]. cbn [addObj snd]. set (n := List.length (g_objs s)).
  assert (ST : stable (g_objs s) (g_objs s ++ [OExtGState e])) by (intros i o _ N; rewrite nth_error_app1; [exact N|apply nth_error_Some; congruence]).
  constructor.
  - exact ST.
  - unfold listed. cbn. rewrite map_app. intros x. rewrite !in_app_iff. tauto.
  - intros _ x. unfold inuse at 1. cbn [g_objs set_objs set_extmap set_extgs]. rewrite flat_map_app. cbn [flat_map ouses app]. rewrite app_nil_r, in_app_iff. intros [I|I]; [left; apply in_or_app; now left|].
    unfold suses in I. cbn in I. inapp. assert (J : x = UState (Z.of_nat n + 1) \/ In x (suses s)) by (unfold suses; inapp; clear - I; intuition (subst; auto)).
    destruct J as [->|J]; [|left; apply in_or_app; now right]. right. unfold listed. cbn. rewrite !in_app_iff, map_app, in_app_iff. do 2 right. left. right. now left.
  - intros H id i E. cbn [g_extmap set_extmap lookup] in E. destruct (list_eqb id (extgs_id e)) eqn:Q.
    + apply list_eqb_eq in Q. injection E as <-. exists e. split; [exact AG|]. split; [now symmetry|]. cbn. apply nth_snoc_new.
    + destruct (H id i E) as (e' & A' & B & N). exists e'. split; [exact A'|]. split; [exact B|]. cbn. now rewrite nth_error_app1 by (apply nth_error_Some; congruence).
  - intros _. now apply tr_stable.
  - intros [D1 D2 D3 D4]. constructor; [exact D1|exact D2|..].
    + split; [apply D3|]. eapply Forall_impl; [|apply D3]. cbn. intros k. rewrite app_length. lia.
    + destruct D4 as [D4 D4']. cbn. split.
      * apply NoDup_rev in D4. rewrite <- (rev_involutive (g_extgs s ++ [n])), rev_app_distr. apply NoDup_rev. cbn. constructor; [|exact D4].
        rewrite <- in_rev. intros I. rewrite Forall_forall in D4'. apply D4' in I. unfold n in I. lia.
      * apply Forall_app. rewrite app_length. cbn. split; [eapply Forall_impl; [|exact D4']; cbn; lia|]. constructor; [unfold n; lia|constructor].
Qed.

Lemma lookup_in {B} k (l : list (bytes * B)) v : lookup k l = Some v -> In (k, v) l.
Proof. induction l as [|[k' v'] l IH]; [discriminate|]. cbn [lookup]. destruct (list_eqb k k') eqn:Q; [|intros H; right; auto]. intros H. injection H as <-. apply list_eqb_eq in Q as ->. now left. Qed.
Lemma cached_in e s : In (UState (Z.of_nat (fst (getCachedExtGState e s)) + 1)) (suses (snd (getCachedExtGState e s))).
Proof.
  unfold getCachedExtGState. destruct (lookup _ _) eqn:LK; cbn [addObj fst snd]; unfold suses; rewrite !in_app_iff; do 3 right; left.
  - apply lookup_in in LK. apply in_map_iff. now exists (extgs_id e, n).
  - cbn. now left.
Qed.
Lemma fixed_chars a : forallb numchar (text3 a) = true.
Proof.
  unfold text3, fmt_fixed. set (k := round_half_even _ _). assert (K : 0 <= k).
  { unfold k, round_half_even. assert (0 <= Z.abs (Qnum a) * 10 ^ 3 / Z.pos (Qden a)) by (apply Z.div_pos; lia). destruct (_ <? _); [assumption|]. destruct (_ <? _); [lia|]. destruct (Z.even _); lia. }
  cbn [Z.eqb]. rewrite !forallb_app, !andb_true_iff. split; [|split; [|split]].
  - now destruct (_ <? 0).
  - apply digits_numchar, dec_digits. apply Z.div_pos; lia.
  - reflexivity.
  - apply digits_numchar, pad_left_digits, dec_digits. apply Z.mod_pos_bound. lia.
Qed.
Lemma tr_id_inj a b a' b' : tr_id a b = tr_id a' b' -> text3 a = text3 a' /\ b = b'.
Proof. intros H. apply (sep_inj numchar 95 _ _ _ _ (fixed_chars a) (fixed_chars a') eq_refl H). Qed.
Lemma alpha_key e a b : api_gs e -> extgs_id e = extgs_id {| eg_alpha := Some a; eg_bm := Some b; eg_smask := None |} ->
  exists a', e = {| eg_alpha := Some a'; eg_bm := Some b; eg_smask := None |} /\ text3 a' = text3 a.
Proof.
  intros [(a' & b' & ->)|(m' & ->)]; unfold extgs_id; cbn [eg_alpha eg_bm eg_smask]; intros H.
  - rewrite !app_nil_r in H. rewrite <- !app_assoc in H. apply app_inv_head in H. fold (text3 a) (text3 a') in H.
    destruct (sep_inj numchar 59 _ _ _ _ (fixed_chars a') (fixed_chars a) eq_refl H) as [H1 H2]. rewrite H1 in H2. cbn [app bs] in H2.
    injection H2 as H2. apply app_inv_head in H2. injection H2 as H2. apply app_inv_tail in H2. subst b'. now exists a'.
  - cbn [app bs] in H. discriminate H.
Qed.
Lemma cached_carries a b s : ext_ok s -> carries (snd (getCachedExtGState {| eg_alpha := Some a; eg_bm := Some b; eg_smask := None |} s))
  (Z.of_nat (fst (getCachedExtGState {| eg_alpha := Some a; eg_bm := Some b; eg_smask := None |} s)) + 1) a b.
Proof.
  intros G. unfold getCachedExtGState. destruct (lookup _ _) eqn:LK; cbn [addObj fst snd]; unfold carries, obj_no.
  - destruct (G _ _ LK) as (e & A & B & N). destruct (alpha_key _ _ _ A B) as (a' & -> & T). exists a'. split; [|exact T].
    destruct (Z.leb_spec (Z.of_nat n + 1) 0); [lia|]. now replace (Z.to_nat (Z.of_nat n + 1 - 1)) with n by lia.
  - exists a. split; [|reflexivity]. destruct (Z.leb_spec (Z.of_nat (List.length (g_objs s)) + 1) 0); [lia|].
    replace (Z.to_nat (Z.of_nat (List.length (g_objs s)) + 1 - 1)) with (List.length (g_objs s)) by lia. cbn. apply nth_snoc_new.
Qed.
Lemma S_saveTr a b s : Step s (snd (saveTransparency a b s)).
Proof.
  unfold saveTransparency. destruct (lookup _ _); [apply Step_refl|]. destruct (Qeq_bool _ _); [apply Step_refl|]. set (e := {| eg_alpha := Some a |}).
  assert (H : Step s (snd (getCachedExtGState e s))) by (apply S_cached; left; now exists a, b).
  pose proof (cached_in e s) as C. pose proof (cached_carries a b s) as CC. fold e in CC. destruct (getCachedExtGState e s) as [i s1]. cbn [fst snd] in *.
  destruct H as [O L U EX T D]. constructor; auto.
  - intros TD x I. apply (U TD). unfold inuse in *. cbn [g_objs set_trmap] in I. apply in_app_iff in I as [I|I]; apply in_app_iff; [now left|right].
    unfold suses in I. cbn in I. inapp. unfold suses in *. inapp. clear - I C. intuition (subst; auto 10).
  - intros GE GT id g. cbn [g_trmap set_trmap]. intros [I|I]; [|now apply (T GE GT)]. injection I as <- <-. exists a, b. split; [reflexivity|]. now apply CC.
  - intros TD. destruct (D TD) as [D1 D2 D3 D4]. now constructor.
Qed.
Lemma saveTr_in a b s g : fst (saveTransparency a b s) = Some g -> In (UState g) (suses (snd (saveTransparency a b s))) /\ exists id, In (id, g) (g_trmap (snd (saveTransparency a b s))) /\ id = tr_id a b.
Proof.
  unfold saveTransparency. destruct (lookup _ _) as [ix|] eqn:LK; cbn [fst snd].
  - intros E. injection E as <-. apply lookup_in in LK. split; [|eauto]. unfold suses. rewrite !in_app_iff. do 2 right. left. apply in_map_iff. now exists (tr_id a b, ix).
  - destruct (Qeq_bool _ _); [discriminate|]. destruct (getCachedExtGState _ _) as [i s1]. cbn [fst snd]. intros E. injection E as <-. split.
    + unfold suses. rewrite !in_app_iff. do 2 right. left. cbn. now left.
    + exists (tr_id a b). split; [now left|reflexivity].
Qed.
Lemma S_setTr a b s : Step s (fst (sstep s (SetTransparency a b))).
Proof.
  cbn [sstep]. pose proof (S_saveTr a b s) as H. pose proof (saveTr_in a b s) as C. destruct (saveTransparency a b s) as [t s1]. cbn [fst snd] in *.
  destruct H as [O L U EX T D]. constructor; auto.
  - intros TD x I. apply (U TD). unfold inuse in *. cbn [g_objs set_tr] in I. apply in_app_iff in I as [I|I]; apply in_app_iff; [now left|right].
    unfold suses in I. cbn [g_font set_tr g_tr g_fontcount g_trmap g_extmap g_imgs g_fonts g_cs] in I. inapp. destruct I as [I|[I|I]]; [unfold suses; inapp; auto| |unfold suses; inapp; auto].
    destruct t as [g|]; [|destruct I]. destruct I as [<-|[]]. now apply (C g).
  - intros TD. destruct (D TD) as [D1 D2 D3 D4]. now constructor.
Qed.
(** Images: entering the object and listing it, then drawing it. *)
Definition enlist (id : bytes) (ix : nat) (s : gp) : gp := set_imgs ((id, ix) :: g_imgs (set_xobjs (g_xobjs s ++ [ix]) s)) (set_xobjs (g_xobjs s ++ [ix]) s).
Lemma enlist_draw id ix np it s : fst (draw np it (enlist id ix s)) = enlist id ix (fst (draw np it s)) /\ snd (draw np it (enlist id ix s)) = snd (draw np it s).
Proof. unfold draw, getContent, enlist. cbn [g_content set_imgs set_xobjs]. destruct (g_content s); cbn [addObj]; cbn [g_pagesize set_imgs set_xobjs set_content set_objs]; (destruct (g_pagesize s); [split; reflexivity|destruct np; split; reflexivity]). Qed.
Lemma enlist_content id ix s : snd (getContent (enlist id ix s)) = enlist id ix (snd (getContent s)).
Proof. unfold getContent, enlist. cbn [g_content set_imgs set_xobjs]. destruct (g_content s); reflexivity. Qed.
Lemma S_enlist id im u s : let s1 := enlist id (List.length (g_objs s)) (snd (addObj (OImage im u) s)) in Step s s1 /\ incl (inuse s) (inuse s1).
Proof.
  intros s1. set (ix := List.length (g_objs s)) in *. assert (ST : stable (g_objs s) (g_objs s1)) by (intros i o _ N; cbn; rewrite nth_error_app1; [exact N|apply nth_error_Some; congruence]).
  assert (NEW : In (UImage (Z.of_nat ix + 1)) (listed s1)) by (unfold listed; cbn; rewrite map_app, !in_app_iff; right; left; right; now left).
  split; [constructor|].
  - exact ST.
  - unfold listed. cbn. rewrite map_app. intros x. rewrite !in_app_iff. tauto.
  - intros _ x. unfold inuse at 1. cbn [s1 enlist addObj snd g_objs set_objs set_imgs set_xobjs]. rewrite flat_map_app. cbn [flat_map ouses app]. rewrite app_nil_r, in_app_iff. intros [I|I]; [left; apply in_or_app; now left|].
    unfold suses in I. cbn [s1 enlist addObj snd g_objs set_objs set_imgs set_xobjs g_font g_fontcount g_tr g_trmap g_extmap g_imgs g_fonts g_cs map] in I. inapp.
    assert (J : x = UImage (Z.of_nat ix + 1) \/ In x (suses s)) by (unfold suses; inapp; clear - I; intuition (subst; auto)). destruct J as [->|J]; [now right|left; apply in_or_app; now right].
  - now apply ext_stable.
  - intros _. now apply tr_stable.
  - intros [D1 D2 D3 D4]. constructor; [exact D1|exact D2|..].
    + destruct D3 as [D3 D3']. cbn. fold ix. split.
      * apply NoDup_rev in D3. rewrite <- (rev_involutive (g_xobjs s ++ [ix])), rev_app_distr. apply NoDup_rev. cbn. constructor; [|exact D3].
        rewrite <- in_rev. intros I. rewrite Forall_forall in D3'. apply D3' in I. unfold ix in I. lia.
      * apply Forall_app. rewrite app_length. cbn. split; [eapply Forall_impl; [|exact D3']; cbn; lia|]. constructor; [unfold ix; lia|constructor].
    + split; [apply D4|]. eapply Forall_impl; [|apply D4]. cbn. intros k. rewrite app_length. lia.
  - intros x. unfold inuse at 2. cbn [s1 enlist addObj snd g_objs set_objs set_imgs set_xobjs]. rewrite flat_map_app. unfold suses at 1. cbn. unfold inuse, suses. inapp. tauto.
Qed.
Lemma S_image b id im gs s : (forall g, In g gs -> In (UState g) (inuse s) \/ In (UState g) (listed s)) -> snd (imageByHolder b id im gs s) <> Panic -> Step s (fst (imageByHolder b id im gs s)).
Proof.
  intros GS. unfold imageByHolder. destruct (lookup _ _) as [i|] eqn:LK; intros NP.
  - apply S_draw. intros _ x [<-|I]; [|apply in_map_iff in I as (g & <- & I); now apply GS]. left. apply in_or_app. right. unfold suses. rewrite !in_app_iff. do 4 right. left.
    apply lookup_in in LK. apply in_map_iff. now exists (id, i).
  - destruct (im_ok im); [|apply Step_refl]. destruct (S_enlist id im (if b then Split else Plain) s) as [H1 IN1]. cbn [addObj snd] in *.
    set (ix := List.length (g_objs s)) in *. set (s1 := set_objs (g_objs s ++ [OImage im (if b then Split else Plain)]) s) in *.
    match goal with |- context [draw true ?it s1] => destruct (enlist_draw id ix true it s1) as [D1 D2]; pose proof (S_draw true it (enlist id ix s1)) as H2; pose proof (draw_noerr true it s1) as DE end.
    rewrite D1 in H2. clear D1 D2.
    assert (H3 : Step s (enlist id ix (fst (draw true (fun _ => IImage ix gs) s1)))).
    { eapply Step_trans; [exact H1|]. apply H2. intros _ x [<-|I].
      - left. apply in_or_app. right. unfold suses. rewrite !in_app_iff. do 4 right. left. cbn. now left.
      - apply in_map_iff in I as (g & <- & I). destruct (GS g I) as [J|J]; [left; now apply IN1|right; now apply (sp_list _ _ H1)]. }
    clear H1 H2 IN1. destruct (draw true (fun _ => IImage ix gs) s1) as [s2 r]. cbn [fst snd] in *. destruct r; cbn [fst snd] in *; [|now destruct DE|now destruct NP].
    fold (enlist id ix s2). eapply Step_trans; [exact H3|]. generalize (enlist id ix s2). intros s0. clear - s0.
    set (s1 := if im_alpha im then _ else s0). assert (H1 : Step s0 s1) by (unfold s1; destruct (im_alpha im); [|apply Step_refl]; cbn [addObj]; (eapply Step_trans; [apply (Step_add s0 OSMaskImg); intros x []|same])).
    clearbody s1. eapply Step_trans; [exact H1|]. destruct (im_indexed im); [|apply Step_refl]. cbn [addObj fst]. eapply Step_trans; [apply (Step_add s1 ODeviceRGB); intros x []|same].
Qed.
Lemma S_maskImage id im s : snd (fst (maskImage id im s)) <> Panic -> Step s (fst (fst (maskImage id im s))).
Proof.
  unfold maskImage. destruct (lookup _ _); intros NP.
  - pose proof (S_getContent s) as H. destruct (getContent s). exact H.
  - destruct (im_ok im); [|apply Step_refl]. destruct (S_enlist id im AsMask s) as [H1 _]. cbn [addObj snd] in *.
    set (s1 := set_objs (g_objs s ++ [OImage im AsMask]) s) in *. set (ix := List.length (g_objs s)) in *.
    pose proof (enlist_content id ix s1) as EC. pose proof (S_getContent (enlist id ix s1)) as H2. rewrite EC in H2. clear EC.
    destruct (getContent s1) as [ci s2]. cbn [snd] in H2. destruct (g_pagesize s2); cbn [fst snd] in *; [|now destruct NP].
    fold (enlist id ix s2). eapply Step_trans; [exact H1|]. exact H2.
Qed.
Lemma S_mask id im s : snd (fst (maskHolder id im s)) <> Panic -> Step s (fst (fst (maskHolder id im s))) /\
  (snd (fst (maskHolder id im s)) = Ok -> In (UState (snd (maskHolder id im s))) (suses (fst (fst (maskHolder id im s))))).
Proof.
  unfold maskHolder. pose proof (S_maskImage id im s) as H. destruct (maskImage id im s) as [[s1 r] ix]. cbn [fst snd] in *.
  destruct r; cbn [fst snd]; [|intros N; split; [now apply H|discriminate]|intros N; now destruct N]. specialize (H ltac:(discriminate)). destruct (g_pagesize s1); cbn [fst snd]; [|intros N; now destruct N]. cbn [addObj].
  set (s2 := set_objs (g_objs s1 ++ [OXGroup ix]) s1). assert (H2 : Step s1 s2) by (apply (Step_add s1 (OXGroup ix)); intros x []). set (gi := List.length (g_objs s1)) in *.
  set (s3 := set_objs (g_objs s2 ++ [OMask gi]) s2). assert (H3 : Step s2 s3) by (apply (Step_add s2 (OMask gi)); intros x []). set (mi := List.length (g_objs s2)) in *. clearbody s2 s3 mi.
  set (e := {| eg_alpha := None |}). assert (H4 : Step s3 (snd (getCachedExtGState e s3))) by (apply S_cached; right; now exists mi). pose proof (cached_in e s3) as C.
  destruct (getCachedExtGState e s3) as [ei s4]. cbn [fst snd] in *. intros _. split; [|intros _; exact C]. repeat (eapply Step_trans; [eassumption|]). apply Step_refl.
Qed.
Lemma S_link l s : Step s (fst (addLink l s)).
Proof.
  unfold addLink. destruct (g_page s) as [p|]; [|apply Step_refl]. cbn [addObj]. set (l' := {| lk_x := lk_x l |}). cbn [fst].
  eapply Step_trans; [apply (Step_add s (OAnnot l')); intros x []|]. cbn [addObj snd]. apply Step_upd; [now intros []|]. intros o x. destruct o; auto.
Qed.
Lemma S_outline title w s : Step s (fst (addOutline title w s)).
Proof.
  unfold addOutline. cbn [addObj]. set (num := Z.of_nat (List.length (g_objs s)) + 1). set (o := {| ol_title := title |}).
  set (s1 := set_objs (g_objs s ++ [OOutline o]) s). assert (H1 : Step s s1) by (apply (Step_add s (OOutline o)); intros x []). clearbody s1 num. clear o.
  set (s2 := set_outl_last num s1). assert (H2 : Step s1 s2) by same.
  set (s3 := if g_outl_first s2 <=? 0 then set_outl_first num s2 else s2). assert (H3 : Step s2 s3) by (unfold s3; destruct (_ <=? 0); [same|apply Step_refl]). clearbody s2 s3.
  assert (HS : Step s s3) by (eapply Step_trans; [exact H1|eapply Step_trans; eauto]). clear H1 H2 H3.
  match goal with |- context [match ?x with Some j => _ | None => s3 end] => destruct x as [j|] end; cbn [fst]; (eapply Step_trans; [exact HS|]); [|same].
  match goal with |- context [set_objs (upd (g_objs s3) j ?f) s3] => assert (H5 : Step s3 (set_objs (upd (g_objs s3) j f) s3)) end.
  { apply Step_upd; [now intros []|]. intros ob x. destruct ob; auto. }
  eapply Step_trans; [exact H5|]. same.
Qed.
Lemma S_import objs start : forall ks s, Step s (fold_left (fun s k => match zlookup (start + Z.of_nat k) objs with Some (b :: d) => snd (addObj (OImported (b :: d)) s) | _ => s end) ks s).
Proof.
  induction ks as [|k ks IH]; intros s; [apply Step_refl|]. cbn [fold_left]. eapply Step_trans; [|apply IH].
  destruct (zlookup _ _) as [[|b d]|]; try apply Step_refl. apply Step_add. intros x [].
Qed.
Lemma S_addCs n s : Step s (fst (addColorSpace n s)).
Proof.
  unfold addColorSpace. cbn [addObj]. destruct (existsb _ _) eqn:DU; cbn [fst].
  - (* a second colour space of that name: it is given the number 0 *)
    apply (Step_add s (OColorSpace n 0)). intros x [<-|[]]. left. apply in_or_app. right. unfold suses. rewrite !in_app_iff. do 6 right. destruct (g_cs s); [discriminate|]. now left.
  - set (r := {| rc_name := n |}). set (s5 := set_objs (g_objs s ++ [OColorSpace n (g_countcs s)]) s).
    assert (ST : stable (g_objs s) (g_objs s5)) by (intros i o _ N; cbn; rewrite nth_error_app1; [exact N|apply nth_error_Some; congruence]). constructor.
    + exact ST.
    + unfold listed. cbn. rewrite map_app. intros x. rewrite !in_app_iff. tauto.
    + intros T x. unfold inuse at 1. cbn [s5 g_objs set_objs set_countcs set_cs]. rewrite flat_map_app. cbn [flat_map ouses]. rewrite !in_app_iff.
      assert (NEW : In (USpace (g_countcs s + 1)) (listed (set_countcs (g_countcs s5 + 1) (set_cs (g_cs s5 ++ [r]) s5)))).
      { unfold listed. rewrite !in_app_iff. do 3 right. cbn. rewrite map_app. apply in_or_app. right. now left. }
      intros [[I|I]|I]; [left; apply in_or_app; now left| |].
      * destruct I as [[E|[]]|[]]. right. rewrite <- E. exact NEW.
      * destruct (g_cs s) as [|y l] eqn:EF.
        { destruct (td_c s T) as [_ C]. rewrite EF in C. cbn in C. rewrite C in NEW. unfold suses in I. cbn in I. rewrite EF in I. cbn [app] in I. inapp.
          assert (J : x = USpace 1 \/ In x (suses s)) by (unfold suses; rewrite EF; cbn [map app]; inapp; clear - I; intuition (subst; auto)). destruct J as [->|J]; [now right|left; apply in_or_app; now right]. }
        { left. apply in_or_app. right. revert I. unfold suses. cbn. now rewrite EF. }
    + now apply ext_stable.
    + intros _. now apply tr_stable.
    + intros [D1 D2 D3 D4]. constructor.
      * exact D1.
      * destruct D2 as [D2 D2']. split.
        { change (map rc_count (g_cs s ++ [r]) = upto (List.length (g_cs s ++ [r]))). rewrite map_app, app_length, D2. cbn [map List.length]. rewrite Nat.add_1_r, upto_snoc. f_equal.
          change ([g_countcs s] = [Z.of_nat (List.length (g_cs s))]). now rewrite D2'. }
        { change (g_countcs s + 1 = zlen (g_cs s ++ [r])). rewrite D2'. unfold zlen. rewrite app_length. cbn [List.length]. lia. }
      * split; [apply D3|]. eapply Forall_impl; [|apply D3]. cbn. intros k. rewrite app_length. lia.
      * split; [apply D4|]. eapply Forall_impl; [|apply D4]. cbn. intros k. rewrite app_length. lia.
Qed.
Lemma find_cs_in l n c : find_cs l n = Some c -> exists n', In (OColorSpace n' c) l.
Proof.
  induction l as [|o l IH]; [discriminate|]. cbn [find_cs]. destruct o; try (intros H; destruct (IH H) as [n' I]; exists n'; now right).
  destruct (list_eqb _ _); [intros H; injection H as <-; eexists; now left|]. intros H; destruct (IH H) as [n' I]; exists n'; now right.
Qed.
Lemma S_clear s : Step s (set_tr None s).
Proof.
  constructor; try (now intros); try apply incl_refl; auto.
  - intros _ x. unfold inuse at 1. rewrite in_app_iff. intros [I|I]; left; apply in_or_app; [now left|right]. unfold suses in *. cbn in I. inapp. tauto.
  - intros [D1 D2 D3 D4]. now constructor.
Qed.
Lemma S_sop s o : snd (sstep s o) <> Panic -> Step s (fst (sstep s o)).
Proof.
  destruct o; try (intros _; same).
  - intros _. apply S_draw. intros _ x [].
  - intros _. apply S_draw. intros r x [].
  - intros _. cbn [sstep]. unfold text. destruct (g_font s) eqn:FO; [|apply Step_refl]. apply S_draw. intros _ x I. left. apply in_or_app. right. unfold suses. rewrite FO. cbn [uses] in I. inapp.
    destruct I as [<-|I]; [auto|]. right. left. destruct (g_tr s); exact I.
  - intros _. apply S_setPage.
  - intros _. apply S_addFont.
  - intros _. apply S_setFont.
  - apply S_image. intros g I. left. apply in_or_app. right. unfold suses. inapp. right. left. destruct (g_tr s); [destruct I as [<-|[]]; now left|destruct I].
  - cbn [sstep]. pose proof (S_mask mid mim s) as H. destruct (maskHolder mid mim s) as [[s1 r] e]. cbn [fst snd] in *. destruct r; [|intros _; now apply H|intros N; now destruct N].
    destruct (H ltac:(discriminate)) as [H1 H2]. intros N. eapply Step_trans; [exact H1|]. apply S_image; [|exact N]. intros g I. left. apply in_or_app. right. apply in_app_iff in I as [I|[<-|[]]]; [|now apply H2].
    unfold suses. inapp. right. left. destruct (g_tr s1); [destruct I as [<-|[]]; now left|destruct I].
  - intros _. apply S_link.
  - intros _. apply S_outline.
  - intros _. apply S_outline.
  - intros _. apply S_import.
  - intros _. apply S_addCs.
  - intros _. cbn [sstep]. unfold setColorSpace. destruct (find_cs _ _) eqn:FC; [|apply Step_refl]. apply S_draw. intros _ x [<-|[]]. left. apply in_or_app. left.
    apply find_cs_in in FC as [n' FC]. apply in_flat_map. exists (OColorSpace n' z). split; [exact FC|now left].
  - intros _. apply S_setTr.
  - intros _. apply S_clear.
  - intros _. cbn [sstep fst]. unfold setCompressLevel. destruct (_ <? _); [|destruct (_ <? _)]; same || apply Step_refl.
Qed.
Lemma S_sops l : forall s, snd (run_sops s l) <> Panic -> Step s (fst (run_sops s l)).
Proof.
  induction l as [|o l IH]; intros s; [intros; apply Step_refl|]. cbn [run_sops]. pose proof (S_sop s o) as H. destruct (sstep s o) as [s1 r]. cbn [fst snd] in H.
  destruct r; intros NP; [..|now destruct NP]; (eapply Step_trans; [apply H; discriminate|apply IH; exact NP]).
Qed.
Lemma S_reset s : Step s (resetXY s).
Proof. same. Qed.
Definition callback (f : option (list sop)) (s : gp) : gp * result :=
  match f with None => (s, Ok) | Some f => match run_sops s f with (s, Panic) => (s, Panic) | (s, _) => (resetXY s, Ok) end end.
Lemma S_callback f s : snd (callback f s) <> Panic -> Step s (fst (callback f s)).
Proof.
  destruct f as [l|]; cbn [callback]; [|intros; apply Step_refl]. pose proof (S_sops l s) as H. destruct (run_sops s l) as [u1 r]. cbn [fst snd] in *.
  destruct r; cbn [fst snd]; intros N; [..|now destruct N]; (eapply Step_trans; [apply H; discriminate|apply S_reset]).
Qed.
Definition fresh_page (sz : option rectq) (s : gp) : gp :=
  let s := set_pagesize (match sz with Some r => Some r | None => Some (cf_page (g_cfg s)) end) s in
  let s1 := set_objs (g_objs s ++ [OPage (new_page sz)]) s in
  let s2 := set_page (Some (List.length (g_objs s))) s1 in
  let s3 := set_npages (g_npages s2 + 1) s2 in
  resetXY (set_content None s3).
Lemma addPage_split sz s : addPage sz s = match callback (g_header (fresh_page sz s)) (fresh_page sz s) with (s, Panic) => (s, Panic) | (s, _) => callback (g_footer s) s end.
Proof. unfold addPage, callback, addObj. cbv zeta. fold (fresh_page sz s). reflexivity. Qed.
Lemma S_fresh sz s : Step s (fresh_page sz s).
Proof.
  unfold fresh_page. set (s0 := set_pagesize _ s). assert (H0 : Step s s0) by same. clearbody s0. cbn [addObj]. eapply Step_trans; [exact H0|].
  eapply Step_trans; [apply (Step_add s0 (OPage (new_page sz))); intros x []|]. same.
Qed.
Lemma S_page sz s : snd (addPage sz s) <> Panic -> Step s (fst (addPage sz s)).
Proof.
  rewrite addPage_split. pose proof (S_fresh sz s) as H0. pose proof (S_callback (g_header (fresh_page sz s)) (fresh_page sz s)) as H1. destruct (callback (g_header (fresh_page sz s)) (fresh_page sz s)) as [s1 r]. cbn [fst snd] in *.
  destruct r; intros N; [..|now destruct N]; (eapply Step_trans; [exact H0|]; eapply Step_trans; [apply H1; discriminate|]; now apply S_callback).
Qed.
(** ** Output *)
Definition inst (st : prep_st) (s : gp) : gp := set_objs (ps_objs st) (set_kids (ps_kids st) (set_pagecount (ps_count st) (set_encid (ps_enc st) s))).
Lemma S_prep s : forall ks st, Step (inst st s) (inst (fold_left prep_step ks st) s).
Proof.
  induction ks as [|i ks IH]; intros st; [apply Step_refl|]. cbn [fold_left]. eapply Step_trans; [|apply IH]. clear IH ks. unfold prep_step.
  destruct (nth_error (ps_objs st) i) as [o|] eqn:N; [|apply Step_refl]. destruct o; try apply Step_refl; try same.
  destruct (ps_cur st) as [p0|]; [|apply Step_refl].
  change (Step (inst st s) (set_objs (upd (g_objs (inst st s)) p0 (add_content (Z.of_nat i + 1))) (inst st s))). apply Step_upd; [now intros []|]. intros o x. destruct o; auto.
Qed.
Lemma written_uses o : ouses (written_obj o) = ouses o.
Proof. destruct o; try reflexivity. cbn. induction l as [|it l IH]; [reflexivity|]. cbn [map flat_map]. rewrite IH. now destruct it. Qed.
Lemma S_written s : Step s (set_objs (map written_obj (g_objs s)) s).
Proof.
  apply Step_objs; try reflexivity; [constructor; reflexivity|..]; cbn [g_objs set_objs].
  - intros i o SO N. rewrite nth_error_map, N. now destruct o.
  - now rewrite map_length.
  - intros x. replace (flat_map ouses (map written_obj (g_objs s))) with (flat_map ouses (g_objs s)); [intros I; left; apply in_or_app; now left|].
    induction (g_objs s) as [|o l IH]; [reflexivity|]. cbn [map flat_map]. now rewrite <- IH, written_uses.
Qed.
Lemma S_output s : Step s (output s).
Proof.
  unfold output. eapply Step_trans; [|apply S_written]. unfold prepare.
  set (s1 := if cf_protect (g_cfg s) then snd (addObj OEncryption s) else s).
  assert (H1 : Step s s1) by (unfold s1; destruct (cf_protect _); [apply Step_add; intros x []|apply Step_refl]). clearbody s1.
  set (s2 := if 0 <? g_outl_count s1 then set_cat_outl 3 s1 else s1). assert (H2 : Step s1 s2) by (unfold s2; destruct (_ <? _); [same|apply Step_refl]).
  clearbody s2. eapply Step_trans; [exact H1|]. eapply Step_trans; [exact H2|].
  set (st0 := {| ps_objs := g_objs s2 |}). eapply Step_trans; [|apply (S_prep s2 (seq 0 (List.length (g_objs s2))) st0)]. same.
Qed.
Lemma Good_start c s : Good (start c s).
Proof.
  constructor.
  - intros x []. 
  - intros id i H. discriminate H.
  - intros id g [].
  - constructor; (split; [reflexivity || constructor|reflexivity || constructor]).
Qed.
Lemma S_op s o : (forall c, o <> Start c) -> snd (step s o) <> Panic -> Step s (fst (step s o)).
Proof.
  intros NS NP. destruct o.
  - assert (E : step s (Do o) = sstep s o) by reflexivity. rewrite E in *. clear E. now apply S_sop.
  - now destruct (NS c).
  - assert (E : step s (AddPage size) = addPage size s) by reflexivity. rewrite E in *. clear E. now apply S_page.
  - assert (E : fst (step s (AddHeader f)) = set_header f s) by reflexivity. rewrite E. same.
  - assert (E : fst (step s (AddFooter f)) = set_footer f s) by reflexivity. rewrite E. same.
  - assert (E : fst (step s Output) = output s) by reflexivity. rewrite E. apply S_output.
Qed.
Lemma Good_op s o : snd (step s o) <> Panic -> Good s -> Good (fst (step s o)).
Proof.
  intros NP G. destruct o as [o|c|size|f|f|].
  2: { assert (E : fst (step s (Start c)) = start c s) by reflexivity. rewrite E. apply Good_start. }
  all: (apply (Step_good s); [apply S_op; [discriminate|exact NP]|exact G]).
Qed.
Lemma Good_exec l : forall s, finishes s l -> Good s -> Good (exec s l).
Proof.
  induction l as [|o l IH]; intros s F G; [exact G|]. destruct F as [F1 F2]. unfold exec. cbn [fold_left]. apply IH; [exact F2|]. now apply Good_op.
Qed.
