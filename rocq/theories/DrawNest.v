(** DrawNest.v — nesting of the operators each content cache writes (for C32). *)
From Verif Require Import Base StrModel NumModel UnitModel DrawModel DrawSpec DrawLex.

Lemma nest_app l r : forall st, nest st (l ++ r) = match nest st l with Some st' => nest st' r | None => None end.
Proof. induction l as [|o l IH]; intros st; [reflexivity|]. cbn [app nest]. destruct (nest_step st o); [apply IH|reflexivity]. Qed.

Section Nest.
  Variable N : num.
  Variable rot : T N -> T N * T N.
  Notation T := (T N).
  Notation ops := (cache_ops N rot).
  Definition neutral (l : list op) : Prop := forall d, 0 <= d -> nest (d, MPage) l = Some (d, MPage).
  Lemma neutral_nil : neutral []. Proof. intros d _. reflexivity. Qed.
  Lemma neutral_app l r : neutral l -> neutral r -> neutral (l ++ r).
  Proof. intros A B d D. rewrite nest_app, A by exact D. now apply B. Qed.
  Lemma neutral_q l : neutral l -> neutral (o [] "q" :: l ++ [o [] "Q"]).
  Proof.
    intros A d D. cbn [nest nest_step o snd]. change (among (bs "q") ["q"]%string) with true. cbv iota. rewrite nest_app, A by lia.
    cbn [nest nest_step o snd]. change (among (bs "Q") ["q"]%string) with false. change (among (bs "Q") ["Q"]%string) with true. cbv iota.
    replace (0 <? d + 1) with true by lia. now rewrite Z.add_simpl_r.
  Qed.
  (** a page-level operator that is neither q, Q, BT nor a path start *)
  Definition flatop (p : string) : bool := among (bs p) (["cm"; "Do"; "sh"]%string ++ gstate_ops ++ colour_ops ++ textstate_ops)
     && negb (among (bs p) ["q"; "Q"; "BT"]%string) && negb (among (bs p) pathstart_ops).
  Lemma nest_flat args p d : nest_step (d, MPage) (o args p) = nest_step (d, MPage) (o [] p). Proof. reflexivity. Qed.
  Ltac nst := let d := fresh "d" in let D := fresh "D" in intros d D; cbn [nest app]; repeat (unfold nest_step; cbn [o snd]; repeat match goal with |- context [among (bs ?p) ?l] => let v := eval vm_compute in (among (bs p) l) in change (among (bs p) l) with v end; cbv iota).
  Lemma gs_neutral l : neutral (gs_ops l).
  Proof. induction l as [|i l IH]; [apply neutral_nil|]. change (gs_ops (i :: l)) with ([o [TName (bs "GS" ++ fmt_d i)] "gs"] ++ gs_ops l). apply neutral_app; [|exact IH]. nst. reflexivity. Qed.
  Lemma rot_neutral x y a h : neutral (orot N rot x y a h).
  Proof. unfold orot. destruct (rot a). cbv zeta. nst. reflexivity. Qed.
  Lemma seg_neutral x1 y1 x2 y2 p : (p = "s" \/ p = "S")%string -> neutral (oseg N x1 y1 x2 y2 p).
  Proof. intros [->| ->]; unfold oseg; nst; reflexivity. Qed.
  Lemma border_neutral c : neutral (oborder N c).
  Proof.
    unfold oborder. cbv zeta.
    destruct (has _ oTop); (apply neutral_app; [first [apply neutral_nil|apply seg_neutral; auto]|]);
      (destruct (has _ oLeft); (apply neutral_app; [first [apply neutral_nil|apply seg_neutral; auto]|]));
      (destruct (has _ oRight); (apply neutral_app; [first [apply neutral_nil|apply seg_neutral; auto]|]));
      (destruct (has _ oBottom); first [apply neutral_nil|apply seg_neutral; auto]).
  Qed.
  Lemma path_nest h pts : forall d, nest (d, MPath) (opath N h false pts) = Some (d, MPath).
  Proof. induction pts as [|[x y] pts IH]; intros d; [reflexivity|]. cbn [opath nest]. unfold nest_step. cbn [o snd]. change (among (bs "l") path_ops) with true. cbv iota. apply IH. Qed.
  Lemma path_neutral h pts tail : pts <> [] -> (forall d, 0 <= d -> nest (d, MPath) tail = Some (d, MPage)) -> neutral (opath N h true pts ++ tail).
  Proof.
    destruct pts as [|[x y] pts]; [contradiction|]. intros _ A d D. cbn [opath app]. cbn [nest]. unfold nest_step at 1. cbn [o snd].
    change (among (bs "m") ["q"]%string) with false. change (among (bs "m") ["Q"]%string) with false. change (among (bs "m") ["BT"]%string) with false. change (among (bs "m") pathstart_ops) with true. cbv iota.
    rewrite nest_app, path_nest. apply A, D.
  Qed.
  Lemma text_neutral c : neutral (otext N c).
  Proof.
    unfold otext. set (body := otextobj N c). cbv zeta.
    assert (B : neutral body).
    { unfold body, otextobj. destruct (c_mode N c); [destruct (c_color N c) as [[|]|]|]; nst; reflexivity. }
    set (u := if has (c_style N c) styUnderline then ounderline N c else []).
    assert (U : neutral u) by (unfold u; destruct (has _ _); [unfold ounderline; nst; reflexivity|apply neutral_nil]).
    assert (A : neutral (gs_ops (o_gs N (c_opt N c)) ++ body ++ u ++ oborder N c)).
    { apply neutral_app; [apply gs_neutral|]. apply neutral_app; [exact B|]. apply neutral_app; [exact U|apply border_neutral]. }
    destruct (o_gs N (c_opt N c)); cbn [app].
    - rewrite app_nil_r. exact A.
    - apply neutral_q in A. rewrite <- !app_assoc in A. exact A.
  Qed.
  Lemma image_neutral i : neutral (oimage N rot i).
  Proof.
    unfold oimage. set (P := match im_crop N i with Some (_, _, cw, ch) => (cw, ch) | None => (im_w N i, im_h N i) end). destruct P as [ow oh]. cbv zeta.
    set (P := match im_crop N i with Some (_, _, cw, ch) => _ | None => _ end). 
    assert (C : neutral (fst (fst P))).
    { unfold P. destruct (im_crop N i) as [[[[cx cy] cw] ch]|]; [|apply neutral_nil]. cbn [fst]. nst. reflexivity. }
    destruct P as [[clip x] y]. cbn [fst] in C.
    set (m := if im_mask N i then if neq N _ _ then [] else orot _ _ _ _ _ _ else []).
    assert (M : neutral m) by (unfold m; destruct (im_mask N i); [destruct (neq _ _ _)|]; (apply neutral_nil || apply rot_neutral)).
    set (fl := if im_hflip N i || im_vflip N i then _ else []).
    assert (F : neutral fl) by (unfold fl; destruct (_ || _); [nst; reflexivity|apply neutral_nil]).
    match goal with |- context [o [?a; ?b; ?c; ?e; ?x; ?y] "cm" :: ?k :: _] => set (draw := [o [a; b; c; e; x; y] "cm"; k]) end.
    assert (D : neutral draw) by (unfold draw; nst; reflexivity).
    assert (A : neutral (o [] "q" :: (gs_ops (im_gs N i) ++ fl ++ clip ++ (o [] "q" :: (m ++ draw) ++ [o [] "Q"])) ++ [o [] "Q"])).
    { apply neutral_q. apply neutral_app; [apply gs_neutral|]. apply neutral_app; [exact F|]. apply neutral_app; [exact C|]. apply neutral_q. now apply neutral_app. }
    destruct (im_mask N i); cbn [app].
    - rewrite app_nil_r. rewrite <- !app_assoc in A. cbn [app draw] in A. rewrite <- !app_assoc in A. exact A.
    - apply (neutral_app _ _ (rot_neutral (nadd N (im_x N i) (ndiv N ow (nofZ N 2))) (nadd N (im_y N i) (ndiv N oh (nofZ N 2))) (im_angle N i) (im_pageH N i))) in A.
      apply neutral_q in A. repeat (rewrite <- !app_assoc in A; cbn [app draw] in A). repeat (rewrite <- !app_assoc; cbn [app]). exact A.
  Qed.

  (** ** Depth *)
  Definition cdelta (c : cache N) : Z := match c with CSave _ | CRotate _ _ _ _ _ => 1 | CRestore _ | CRotateReset _ => -1 | _ => 0 end.
  Definition cgood (c : cache N) : Prop :=
    match c with
    | CText _ t => c_mode N t = true -> c_color N t <> None
    | CPolygon _ _ pts _ _ => pts <> [] | CClip _ _ pts => pts <> []
    | CTemplate _ _ name _ _ _ _ => name_ok name
    | _ => True
    end.
  Lemma cgood_ok c : cgood c -> cache_ok N c. Proof. destruct c; cbn; auto. Qed.
  Lemma cgood_writes c : cgood c -> exists b, cache_write N rot c = Some b.
  Proof.
    destruct c; cbn [cgood cache_write]; intros G; try (eexists; reflexivity).
    unfold text_write. destruct (c_mode N c); [|eexists; reflexivity]. destruct (c_color N c); [eexists; reflexivity|]. now contradiction G.
  Qed.
  Lemma content_writes l : Forall cgood l -> exists b, content_write N rot l = Some b.
  Proof.
    induction 1 as [|c l G _ (b & IH)]; [now exists []|]. destruct (cgood_writes c G) as (a & A). exists (a ++ b). cbn [content_write]. now rewrite A, IH.
  Qed.
  Lemma cache_nest c d : 0 <= d -> cgood c ->
    nest (d, MPage) (ops c) = if 0 <=? d + cdelta c then Some (d + cdelta c, MPage) else None.
  Proof.
    intros D G.
    assert (Z0 : neutral (ops c) -> cdelta c = 0 -> nest (d, MPage) (ops c) = if 0 <=? d + cdelta c then Some (d + cdelta c, MPage) else None).
    { intros A E. rewrite E, Z.add_0_r. replace (0 <=? d) with true by lia. now apply A. }
    destruct c; cbn [cdelta cgood] in *; try (apply Z0; [|reflexivity]; clear Z0); cbn [cache_ops].
    - apply text_neutral.
    - rewrite app_assoc. apply neutral_q, neutral_app; [apply gs_neutral|apply seg_neutral; auto].
    - destruct st; match goal with |- neutral (o [] "q" :: (?l ++ [?a; ?b; ?q])) => change [a; b; q] with ([a; b] ++ [q]) end; rewrite app_assoc; apply neutral_q, neutral_app; [apply gs_neutral|nst; reflexivity|apply gs_neutral|nst; reflexivity|apply gs_neutral|nst; reflexivity].
    - nst. reflexivity.
    - destruct (beq style "F"); [nst; reflexivity|]. destruct (_ || _); nst; reflexivity.
    - nst. reflexivity.
    - destruct (beq t "dashed"); [nst; reflexivity|]. destruct (beq t "dotted"); nst; reflexivity.
    - nst. reflexivity.
    - destruct stroke; nst; reflexivity.
    - destruct stroke; unfold orgb; nst; reflexivity.
    - destruct stroke; unfold ocmyk; nst; reflexivity.
    - apply image_neutral.
    - set (p := if beq style "F" then "f"%string else _).
      change [o [] p; o [] "Q"] with ([o [] p] ++ [o [] "Q"]). rewrite 2!app_assoc. apply neutral_q. rewrite <- ?app_assoc. apply neutral_app; [apply gs_neutral|].
      apply path_neutral; [exact G|]. intros e _. unfold p. destruct (beq style "F"); [reflexivity|]. destruct (_ || _); reflexivity.
    - apply path_neutral; [exact G|]. intros e _. reflexivity.
    - cbn. replace (0 <=? d + 1) with true by lia. reflexivity.
    - cbn. destruct (Z.ltb_spec 0 d); [replace (0 <=? d + -1) with true by lia|replace (0 <=? d + -1) with false by lia]; reflexivity.
    - cbn [nest]. cbn [nest_step o snd]. change (among (bs "q") ["q"]%string) with true. cbv iota. rewrite rot_neutral by lia. replace (0 <=? d + 1) with true by lia. reflexivity.
    - cbn. destruct (Z.ltb_spec 0 d); [replace (0 <=? d + -1) with true by lia|replace (0 <=? d + -1) with false by lia]; reflexivity.
    - nst. reflexivity.
    - intros e P. pose proof (neutral_q (o [lit "0"] "J" :: o [lit "1"] "w" :: o [lit "0"] "j" :: o [lit "0"] "G" :: o [lit "0"] "g" :: (o [] "q" :: [o [n4 N sx; lit "0"; lit "0"; n4 N sy; n4 N tx; n4 N (nadd N ty pageH)] "cm"; o [TName (tl name)] "Do"] ++ [o [] "Q"]))) as A.
      cbn [app] in A. apply A; [|exact P]. clear A e P.
      match goal with |- neutral (?a :: ?b :: ?c :: ?e :: ?f :: ?r) => change (neutral ([a; b; c; e; f] ++ r)) end. apply neutral_app; [nst; reflexivity|].
      match goal with |- neutral (?q :: ?a :: ?b :: ?r) => change (neutral (q :: [a; b] ++ r)) end. apply neutral_q. nst. reflexivity.
  Qed.
  Fixpoint cdepth (d : Z) (l : list (cache N)) : option Z :=
    match l with [] => Some d | c :: r => if 0 <=? d + cdelta c then cdepth (d + cdelta c) r else None end.
  Lemma cdepth_app l r : forall d, cdepth d (l ++ r) = match cdepth d l with Some e => cdepth e r | None => None end.
  Proof. induction l as [|c l IH]; intros d; [reflexivity|]. cbn [app cdepth]. destruct (0 <=? _); [apply IH|reflexivity]. Qed.
  Lemma caches_nest l : Forall cgood l -> forall d, 0 <= d ->
    nest (d, MPage) (flat_map ops l) = match cdepth d l with Some e => Some (e, MPage) | None => None end.
  Proof.
    induction 1 as [|c l G _ IH]; intros d D; [reflexivity|]. cbn [flat_map cdepth]. rewrite nest_app, cache_nest by assumption.
    destruct (Z.leb_spec 0 (d + cdelta c)); [apply IH; assumption|reflexivity].
  Qed.
  Lemma cdepth_pos l : forall d e, 0 <= d -> cdepth d l = Some e -> 0 <= e.
  Proof. induction l as [|c l IH]; intros d e D H; cbn [cdepth] in H; [injection H as <-; exact D|]. destruct (Z.leb_spec 0 (d + cdelta c)); [eapply IH; eassumption|discriminate]. Qed.
End Nest.
