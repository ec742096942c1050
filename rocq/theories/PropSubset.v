(** PropSubset.v — C24: every drawn character has a glyph. *)
From Verif Require Import Base TtfModel TtfSpec TtfProofs SubsetModel PropTtf.

(** A font object's life: texts added one after the other, starting from the empty map. *)
Fixpoint addTexts (lookup : Z -> lres) (subst : Z -> Z) (m : charmap) (ts : list (list Z)) : option (list (list Z) * charmap) :=
  match ts with
  | [] => Some ([], m)
  | t :: r => match addChars lookup subst m t with
              | None => None
              | Some (o, m1) => match addTexts lookup subst m1 r with Some (os, m2) => Some (o :: os, m2) | None => None end
              end
  end.

Section P.
  Variables (lookup : Z -> lres) (subst : Z -> Z).
  (** What each registered character's glyph is: the font's, or .notdef for a substitute the font lacks. *)
  Definition Prov (m : charmap) : Prop :=
    NoDup (map fst m) /\
    forall k g, In (k, g) m -> lookup k = Found g \/ (lookup k = NotFound /\ g = 0 /\ exists r, lookup r = NotFound /\ k = subst r).

  Lemma keyExists_in m k : keyExists m k = true <-> In k (map fst m).
  Proof.
    unfold keyExists. rewrite existsb_exists, in_map_iff. split.
    - intros (x & H1 & H2). apply Z.eqb_eq in H2. eauto.
    - intros (x & H1 & H2). exists x. split; [exact H2|]. now apply Z.eqb_eq.
  Qed.
  Lemma val_in m k g : NoDup (map fst m) -> (val m k = Some g <-> In (k, g) m).
  Proof.
    intros ND. unfold val. pose proof (find_rev (fun x : Z * Z => fst x =? k) m) as F.
    destruct (find _ (rev m)) as [[a b]|].
    - destruct F as (i & I1 & I2 & _). cbn [fst] in I2. apply Z.eqb_eq in I2. subst a. split.
      + intros E. injection E as ->. eapply nth_error_In. exact I1.
      + intros H. apply In_nth_error in H as [j Hj]. f_equal.
        assert (i = j).
        { apply (proj1 (NoDup_nth_error (map fst m)) ND); [rewrite map_length; apply nth_error_Some; congruence|].
          rewrite !nth_error_map, I1, Hj. reflexivity. }
        subst j. congruence.
    - split; [discriminate|]. intros H. apply In_nth_error in H as [j Hj]. specialize (F j (k, g) Hj). cbn in F. rewrite Z.eqb_refl in F. discriminate.
  Qed.
  Lemma prov_set m k g : Prov m -> keyExists m k = false ->
    (lookup k = Found g \/ (lookup k = NotFound /\ g = 0 /\ exists r, lookup r = NotFound /\ k = subst r)) -> Prov (mset m k g).
  Proof.
    intros [ND P] K H. unfold mset. split.
    - rewrite map_app. cbn. apply NoDup_app_snoc || idtac.
      assert (G : forall (l : list Z) x, NoDup l -> ~ In x l -> NoDup (l ++ [x])).
      { clear. induction l as [|a l IH]; intros x N I; cbn; [constructor; [auto|constructor]|]. inversion N; subst.
        constructor; [rewrite in_app_iff; cbn; intros [X|[X|[]]]; [contradiction|subst; apply I; now left]|]. apply IH; [assumption|]. intros X. apply I. now right. }
      apply G; [exact ND|]. intros X. apply keyExists_in in X. congruence.
    - intros k' g' I. apply in_app_iff in I as [I|[I|[]]]; [now apply P|]. injection I as <- <-. exact H.
  Qed.
  (** [ok m r c]: [c] is what the policy draws for [r]. *)
  Definition drawn_as (r c : Z) : Prop :=
    match lookup r with
    | Found _ => c = r
    | NotFound => c = subst r \/ (c = r /\ exists r', lookup r' = NotFound /\ r = subst r')
    | LCrash => False
    end.
  Lemma addChars_spec : forall txt m out m', Prov m -> addChars lookup subst m txt = Some (out, m') ->
    Prov m' /\ (exists ext, m' = m ++ ext) /\ Forall2 drawn_as txt out /\ Forall (fun c => In c (map fst m')) out.
  Proof.
    induction txt as [|r rest IH]; intros m out m' PM H; cbn [addChars] in H.
    - injection H as <- <-. split; [exact PM|]. split; [exists []; now rewrite app_nil_r|]. split; constructor.
    - assert (K : forall c m1, Prov m1 -> (exists e, m1 = m ++ e) -> drawn_as r c -> In c (map fst m1) ->
         match addChars lookup subst m1 rest with Some (out, m2) => Some (c :: out, m2) | None => None end = Some (out, m') ->
         Prov m' /\ (exists ext, m' = m ++ ext) /\ Forall2 drawn_as (r :: rest) out /\ Forall (fun c => In c (map fst m')) out).
      { intros c m1 P1 [e1 E1] DC IC HC. destruct (addChars lookup subst m1 rest) as [[o2 m2]|] eqn:A; [|discriminate]. injection HC as <- <-.
        destruct (IH _ _ _ P1 A) as (Q1 & (e2 & Q2) & Q3 & Q4). split; [exact Q1|]. split; [exists (e1 ++ e2); now rewrite Q2, E1, app_assoc|].
        split; [constructor; assumption|]. constructor; [|exact Q4]. rewrite Q2, map_app. apply in_app_iff. now left. }
      cbv zeta in H. destruct (keyExists m r) eqn:KE.
      + apply (K r m); [exact PM|exists []; now rewrite app_nil_r| |now apply keyExists_in|exact H].
        apply keyExists_in in KE. apply in_map_iff in KE as ([k g] & E & I). cbn in E. subst k.
        unfold drawn_as. destruct PM as [_ P]. destruct (P _ _ I) as [L|(L & _ & r' & L2 & E)]; rewrite L; [reflexivity|].
        right. split; [reflexivity|]. exists r'. split; assumption.
      + destruct (lookup r) as [g| |] eqn:L; [| |discriminate].
        * apply (K r (mset m r g)); [apply prov_set; auto|exists [(r, g)]; reflexivity|unfold drawn_as; now rewrite L| |exact H].
          unfold mset. rewrite map_app. apply in_app_iff. right. now left.
        * destruct (keyExists m (subst r)) eqn:KS.
          -- apply (K (subst r) m); [exact PM|exists []; now rewrite app_nil_r|unfold drawn_as; rewrite L; now left|now apply keyExists_in|exact H].
          -- destruct (lookup (subst r)) as [g| |] eqn:LS; [| |discriminate].
             ++ apply (K (subst r) (mset m (subst r) g)); [apply prov_set; auto|exists [(subst r, g)]; reflexivity|unfold drawn_as; rewrite L; now left| |exact H].
                unfold mset. rewrite map_app. apply in_app_iff. right. now left.
             ++ apply (K (subst r) (mset m (subst r) 0)); [|exists [(subst r, 0)]; reflexivity|unfold drawn_as; rewrite L; now left| |exact H].
                ** apply prov_set; [exact PM|exact KS|]. right. split; [exact LS|]. split; [reflexivity|]. exists r. split; [exact L|reflexivity].
                ** unfold mset. rewrite map_app. apply in_app_iff. right. now left.
  Qed.
  Lemma addTexts_prov : forall ts m os m', Prov m -> addTexts lookup subst m ts = Some (os, m') ->
    Prov m' /\ (exists ext, m' = m ++ ext) /\ Forall2 (fun t o => Forall2 drawn_as t o) ts os /\ Forall (Forall (fun c => In c (map fst m'))) os.
  Proof.
    induction ts as [|t ts IH]; intros m os m' PM H; cbn [addTexts] in H.
    - injection H as <- <-. split; [exact PM|]. split; [exists []; now rewrite app_nil_r|]. split; constructor.
    - destruct (addChars lookup subst m t) as [[o m1]|] eqn:A; [|discriminate]. destruct (addTexts lookup subst m1 ts) as [[os2 m2]|] eqn:B; [|discriminate].
      injection H as <- <-. destruct (addChars_spec _ _ _ _ PM A) as (Q1 & (e1 & Q2) & Q3 & Q4). destruct (IH _ _ _ Q1 B) as (R1 & (e2 & R2) & R3 & R4).
      split; [exact R1|]. split; [exists (e1 ++ e2); now rewrite R2, Q2, app_assoc|]. split; [constructor; assumption|].
      constructor; [|exact R4]. eapply Forall_impl; [|exact Q4]. intros c Hc. rewrite R2, map_app. apply in_app_iff. now left.
  Qed.
End P.

Lemma prov_nil lookup subst : Prov lookup subst []. Proof. split; [constructor|intros k g []]. Qed.

(** Whatever has been drawn before with the font ([before]), AddChars(text) returns a text of the same
    number of characters; every character of it is registered with a glyph; a character the font has is
    kept and registered with the font's glyph; a character the font lacks is replaced by the configured
    substitute (or kept, when it is itself a substitute used before); and characters registered earlier
    keep their glyphs. *)
Theorem C24_add_chars :
  forall lookup subst before drawn m text out m',
    addTexts lookup subst [] before = Some (drawn, m) ->
    addChars lookup subst m text = Some (out, m') ->
    List.length out = List.length text /\
    (forall c, In c out -> exists g, val m' c = Some g /\ (lookup c = Found g \/ (lookup c = NotFound /\ g = 0))) /\
    (forall i r, nth_error text i = Some r -> exists c, nth_error out i = Some c /\
       match lookup r with
       | Found g => c = r /\ val m' r = Some g
       | NotFound => c = subst r \/ (c = r /\ exists r', lookup r' = NotFound /\ r = subst r')
       | LCrash => False
       end) /\
    (forall k g, val m k = Some g -> val m' k = Some g).
Proof.
  intros lookup subst before drawn m text out m' H1 H2.
  destruct (addTexts_prov _ _ _ _ _ _ (prov_nil lookup subst) H1) as (PM & _).
  destruct (addChars_spec _ _ _ _ _ _ PM H2) as (PM' & (ext & E) & F2 & FA).
  split; [clear -F2; induction F2; cbn; congruence|]. destruct PM' as [ND P].
  assert (V : forall c, In c (map fst m') -> exists g, val m' c = Some g /\ (lookup c = Found g \/ (lookup c = NotFound /\ g = 0))).
  { intros c Hc. apply in_map_iff in Hc as ([k g] & Ek & I). cbn in Ek. subst k. exists g. split; [now apply val_in|].
    destruct (P _ _ I) as [L|(L & Z0 & _)]; [now left|right; split; assumption]. }
  split; [intros c Hc; rewrite Forall_forall in FA; apply V, FA; exact Hc|]. split.
  - clear H2. intros i r Hr. revert i r Hr. induction F2 as [|r0 c0 t o D F2 IH]; intros [|i] r Hr; try discriminate.
    + cbn in Hr. injection Hr as <-. exists c0. split; [reflexivity|]. unfold drawn_as in D. destruct (lookup r0) as [g| |] eqn:L; [|exact D|exact D].
      subst c0. split; [reflexivity|]. inversion FA as [|? ? HI _]; subst. destruct (V _ HI) as (g' & Vg & [L'|[L' _]]); congruence.
    + cbn in *. apply IH; [|exact Hr]. now inversion FA.
  - intros k g Hk. apply val_in; [exact ND|]. rewrite E. apply in_app_iff. left. apply val_in; [apply PM|exact Hk].
Qed.

(** AddChars never fails on a font whose lookups do not panic (C26). *)
Theorem C24_add_chars_total :
  forall lookup subst m text, (forall r, lookup r <> LCrash) -> exists out m', addChars lookup subst m text = Some (out, m').
Proof.
  intros lookup subst m text NC. revert m. induction text as [|r rest IH]; intros m; cbn [addChars]; [eauto|]. cbv zeta.
  assert (K : forall c m1, exists out m', match addChars lookup subst m1 rest with Some (out, m2) => Some (c :: out, m2) | None => None end = Some (out, m')).
  { intros c m1. destruct (IH m1) as (o & m2 & ->). eauto. }
  destruct (keyExists m r); [apply K|]. specialize (NC r) as N1. destruct (lookup r); [apply K| |congruence].
  destruct (keyExists m (subst r)); [apply K|]. specialize (NC (subst r)) as N2. destruct (lookup (subst r)); [apply K|apply K|congruence].
Qed.

(** A character that the cmap explicitly maps to the missing glyph 0 (inside a segment with a glyph array)
    is not recognised as missing: it is drawn as .notdef and the substitution policy is not applied. *)
Theorem C24_mapped_to_notdef_refuted :
  match parseFont false (font_with 2 (mk_cmap4 (16 + 16 + 6) [67; 65535] [65; 65535] [0; 1] [4; 0] [1; 0; 3]) []) with
  | Some (Some f) => addChars (charToGlyph f) (fun _ => 65) [] [66] = Some ([66], [(66, 0)])
  | _ => False end.
Proof. vm_compute. reflexivity. Qed.

(** A concrete run: 'A','C' known, 'Z' (90) unknown and replaced by the space (32), which the font lacks
    too and which therefore gets glyph 0. *)
Example C24_instance :
  match parseFont true good_font with
  | Some (Some f) => addTexts (charToGlyph f) (fun _ => 32) [] [[65]] = Some ([[65]], [(65, 1)]) /\
      addChars (charToGlyph f) (fun _ => 32) [(65, 1)] [67; 90; 65; 32] = Some ([67; 32; 65; 32], [(65, 1); (67, 3); (32, 0)])
  | _ => False end.
Proof. vm_compute. split; reflexivity. Qed.

(** C27 at the level of the document: after any texts were drawn with the font, the /W array written for it
    has an entry for the glyph of every drawn character, and every entry for a glyph carries that glyph's
    hmtx width. *)
Theorem C27_width_array_complete :
  forall f subst texts drawn m, addTexts (charToGlyph f) subst [] texts = Some (drawn, m) ->
    (forall text c, In text drawn -> In c text -> exists g, val m c = Some g /\ In (g, glyphWidth f g) (wArray f m)) /\
    (forall g w, In (g, w) (wArray f m) -> w = glyphWidth f g).
Proof.
  intros f subst texts drawn m H. destruct (addTexts_prov _ _ _ _ _ _ (prov_nil (charToGlyph f) subst) H) as (PM & _ & _ & FA).
  split.
  - intros text c I1 I2. rewrite Forall_forall in FA. specialize (FA _ I1). rewrite Forall_forall in FA. specialize (FA _ I2).
    apply in_map_iff in FA as ([k g] & E & I). cbn in E. subst k. exists g. split; [apply val_in; [apply PM|exact I]|].
    unfold wArray. apply in_map_iff. exists (c, g). split; [reflexivity|exact I].
  - intros g w I. unfold wArray in I. apply in_map_iff in I as (x & E & _). congruence.
Qed.

Print Assumptions C24_add_chars.
Print Assumptions C24_add_chars_total.
Print Assumptions C24_mapped_to_notdef_refuted.
Print Assumptions C27_width_array_complete.
