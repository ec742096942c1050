(** PropPaint.v — C58: shapes, clipping, images and templates are painted as asked, in the state asked for. *)
From Verif Require Import Base StrModel NumModel UnitModel DrawModel DrawSpec DrawLex DrawNest DrawView PropDraw PaintSpec.

(** A mark matches what was asked: equal, except that an unspecified fill colour may be anything. *)
Definition glike (g a : pgs) : Prop :=
  p_ctm g = p_ctm a /\ p_clip g = p_clip a /\ p_lw g = p_lw a /\ p_dash g = p_dash a /\ p_stroke g = p_stroke a /\ p_ext g = p_ext a /\
  (p_fill a = None \/ p_fill g = p_fill a).
Definition mlike (m a : mark) : Prop := glike (fst m) (fst a) /\ snd m = snd a.

Lemma pview_app v l r : pview_from v (l ++ r) = pview_from (pview_from v l) r. Proof. apply fold_left_app. Qed.
Definition idle_pv (g : pgs) (st : list pgs) (out : list mark) : pv := {| pv_g := g; pv_stack := st; pv_path := []; pv_pend := None; pv_out := out |}.

Section Paint.
  Variable N : num.
  Variable rot : T N -> T N * T N.
  Notation T := (T N).
  Infix "-." := (nsub N) (at level 50, left associativity).

  Lemma pv_gs l : forall g st out, pview_from (idle_pv g st out) (gs_ops l) = idle_pv (set_ext g (p_ext g ++ map (fun i => TName (bs "GS" ++ fmt_d i)) l)) st out.
  Proof.
    induction l as [|i l IH]; intros g st out; [cbn; rewrite app_nil_r; now destruct g|].
    change (pview_from (idle_pv g st out) (gs_ops (i :: l))) with (pview_from (idle_pv (set_ext g (p_ext g ++ [TName (bs "GS" ++ fmt_d i)])) st out) (gs_ops l)).
    rewrite IH. cbn [p_ext set_ext map]. rewrite <- app_assoc. reflexivity.
  Qed.
  Lemma vw_path_tl h pts : forall g st p out, pview_from {| pv_g := g; pv_stack := st; pv_path := p; pv_pend := None; pv_out := out |} (opath N h false pts)
    = {| pv_g := g; pv_stack := st; pv_path := p ++ map (fun q => op_ [d N 2 (fst q); d N 2 (h -. snd q)] "l") pts; pv_pend := None; pv_out := out |}.
  Proof.
    induction pts as [|[x y] pts IH]; intros g st p out; [cbn; now rewrite app_nil_r|]. cbn [opath]. 
    change (pview_from ?v (?a :: ?l)) with (pview_from (pstep v a) l).
    change (pstep {| pv_g := g; pv_stack := st; pv_path := p; pv_pend := None; pv_out := out |} (o [n2 N x; n2 N (h -. y)] "l"))
      with {| pv_g := g; pv_stack := st; pv_path := p ++ [o [n2 N x; n2 N (h -. y)] "l"]; pv_pend := None; pv_out := out |}.
    rewrite IH, <- app_assoc. reflexivity.
  Qed.
  Lemma vw_path h pts g st out : pview_from (idle_pv g st out) (opath N h true pts)
    = {| pv_g := g; pv_stack := st; pv_path := through N h pts; pv_pend := None; pv_out := out |}.
  Proof.
    destruct pts as [|[x y] pts]; [reflexivity|]. cbn [opath through].
    change (pview_from (idle_pv g st out) (o [n2 N x; n2 N (h -. y)] "m" :: ?l)) with (pview_from {| pv_g := g; pv_stack := st; pv_path := [o [n2 N x; n2 N (h -. y)] "m"]; pv_pend := None; pv_out := out |} l).
    rewrite vw_path_tl. reflexivity.
  Qed.
  Lemma pv_rot x y a h g st out : pview_from (idle_pv g st out) (orot N rot x y a h) = idle_pv (set_ctm g (p_ctm g ++ rotAbout N rot h x y a)) st out.
  Proof.
    unfold orot, rotAbout. destruct (rot a) as [c s]. cbv zeta. 
    change (pview_from (idle_pv g st out) [?a; ?b]) with (idle_pv (set_ctm g ((p_ctm g ++ [fst a]) ++ [fst b])) st out).
    rewrite <- app_assoc. reflexivity.
  Qed.

  (** ** What each cache does to an idle viewer *)
  Definition gsn (l : list Z) : list tok := map (fun i => TName (bs "GS" ++ fmt_d i)) l.
  Definition shapeAt (g : pgs) (gs : list Z) (p : gpath) (how : string) : mark := (set_ext g (p_ext g ++ gsn gs), Painted p (bs how)).
  (** q, graphics states, a path, its painting, Q *)
  Lemma pv_boxed gs body p how g st out :
    (forall g st, pview_from (idle_pv g st out) body = {| pv_g := g; pv_stack := st; pv_path := p; pv_pend := None; pv_out := out |}) ->
    In how ["S"; "s"; "f"; "B"; "b"]%string ->
    pview_from (idle_pv g st out) (o [] "q" :: gs_ops gs ++ body ++ [o [] how; o [] "Q"]) = idle_pv g st (out ++ [shapeAt g gs p how]).
  Proof.
    intros B P.
    change (pview_from (idle_pv g st out) (o [] "q" :: ?l)) with (pview_from (idle_pv g (g :: st) out) l).
    rewrite pview_app, pv_gs, pview_app, B.
    repeat (destruct P as [<-|P]; [reflexivity|]). destruct P.
  Qed.
  (** Text caches without underline and border *)
  Definition plain (c : ctext N) : Prop := has (c_style N c) styUnderline = false /\ o_border N (c_opt N c) = 0.
  Definition text_eff (c : ctext N) (g : pgs) : pgs :=
    if c_mode N c then match c_color N c, o_gs N (c_opt N c) with Some t, [] => set_fill g (Some (otcol N t)) | _, _ => g end else g.
  Lemma pv_text c g st out : plain c -> pview_from (idle_pv g st out) (otext N c) = idle_pv (text_eff c g) st out.
  Proof.
    intros [U B]. unfold otext. cbv zeta. rewrite U. unfold oborder. cbv zeta. rewrite B. cbn [has Z.land Z.eqb oTop oLeft oRight oBottom app].
    assert (TO : forall g st, pview_from (idle_pv g st out) (otextobj N c) = idle_pv (if c_mode N c then match c_color N c with Some t => set_fill g (Some (otcol N t)) | _ => g end else g) st out).
    { intros g0 st0. unfold otextobj. set (TJ := TOpen :: _). clearbody TJ. destruct (c_mode N c); [destruct (c_color N c) as [[r gg b|cc m y k]|]|]; reflexivity. }
    unfold text_eff. destruct (o_gs N (c_opt N c)) as [|i l] eqn:G.
    - cbn [app gs_ops map]. rewrite app_nil_r. rewrite TO. destruct (c_mode N c); [destruct (c_color N c)|]; reflexivity.
    - cbn [app]. change (pview_from (idle_pv g st out) (o [] "q" :: ?l)) with (pview_from (idle_pv g (g :: st) out) l).
      rewrite pview_app, pv_gs, pview_app, TO. destruct (c_mode N c); [destruct (c_color N c)|]; reflexivity.
  Qed.
  Lemma pv_place M mats pl nm g g0 st out :
    (forall st out, pview_from (idle_pv g st out) M = idle_pv (set_ctm g (p_ctm g ++ mats)) st out) ->
    pview_from (idle_pv g (g0 :: st) out) (o [] "q" :: M ++ [o pl "cm"; o nm "Do"; o [] "Q"; o [] "Q"])
    = idle_pv g0 st (out ++ [(set_ctm g (p_ctm g ++ mats ++ [pl]), External nm)]).
  Proof.
    intros HM. change (pview_from (idle_pv g (g0 :: st) out) (o [] "q" :: ?l)) with (pview_from (idle_pv g (g :: g0 :: st) out) l).
    rewrite pview_app, HM. rewrite (app_assoc (p_ctm g)). reflexivity.
  Qed.
  Lemma pv_image i g st out :
    pview_from (idle_pv g st out) (oimage N rot i)
    = idle_pv g st (out ++ [imageMark N rot (im_pageH N i) g (im_index N i)
         (Build_imgopt N (im_x N i) (im_y N i) (im_w N i) (im_h N i) (im_angle N i) (im_vflip N i) (im_hflip N i) (im_crop N i)
            (if im_mask N i then Some (im_maskAngle N i) else None) (im_gs N i))]).
  Proof.
    unfold oimage, imageMark. cbn [io_x io_y io_w io_h io_angle io_v io_hf io_crop io_mask io_gs]. cbv zeta.
    assert (FL : forall g st out fh fv, pview_from (idle_pv g st out) (if fh || fv then [o [lit (if fh then "-1" else "1"); lit "0"; lit "0"; lit (if fv then "-1" else "1"); lit "0"; lit "0"] "cm"] else [])
       = idle_pv (set_ctm g (p_ctm g ++ if fh || fv then [[wd (if fh then "-1" else "1"); wd "0"; wd "0"; wd (if fv then "-1" else "1"); wd "0"; wd "0"]] else [])) st out).
    { intros g0 st0 out0 fh fv. destruct (fh || fv); [reflexivity|]. cbn. rewrite app_nil_r. now destruct g0. }
    assert (ID : forall g st out, pview_from (idle_pv g st out) [] = idle_pv (set_ctm g (p_ctm g ++ [])) st out).
    { intros g0 st0 out0. rewrite app_nil_r. now destruct g0. }
    assert (RO : forall (b : bool) x y a h g st out, pview_from (idle_pv g st out) (if b then [] else orot N rot x y a h) = idle_pv (set_ctm g (p_ctm g ++ if b then [] else rotAbout N rot h x y a)) st out).
    { intros b x y a h g0 st0 out0. destruct b; [apply ID|apply pv_rot]. }
    assert (QQ : forall g st out l, pview_from (idle_pv g st out) (o [] "q" :: l) = pview_from (idle_pv g (g :: st) out) l) by reflexivity.
    assert (CL : forall g st out x y cw ch l, pview_from (idle_pv g st out) ([o [n2 N x; n2 N y; n2 N cw; n2 N ch] "re"; o [] "W*"; o [] "n"] ++ l)
       = pview_from (idle_pv (set_clip g (p_clip g ++ [(p_ctm g, [op_ [d N 2 x; d N 2 y; d N 2 cw; d N 2 ch] "re"], bs "W*")])) st out) l) by reflexivity.
    assert (EX : forall g l m, set_ctm (set_ext g l) m = set_ext (set_ctm g m) l) by reflexivity.
    destruct (im_crop N i) as [[[[cx cy] cw] ch]|], (im_mask N i); cbn [fst snd].
    - rewrite app_nil_l, app_nil_r, QQ, pview_app, pv_gs, pview_app, FL, CL.
      erewrite pv_place by (intros; apply RO). cbn. rewrite <- ?app_assoc. reflexivity.
    - rewrite <- app_comm_cons, QQ, pview_app, pv_rot. rewrite QQ, pview_app, pv_gs, pview_app, FL, pview_app, CL.
      rewrite app_nil_l. change (o [] "q" :: [?a; ?b; ?c; ?e]) with (o [] "q" :: [] ++ [a; b; c; e]).
      erewrite pv_place by (intros; apply ID). cbn. rewrite <- ?app_assoc. reflexivity.
    - rewrite app_nil_l, app_nil_r, QQ, pview_app, pv_gs, pview_app, FL. rewrite app_nil_l.
      erewrite pv_place by (intros; apply RO). cbn. rewrite <- ?app_assoc, ?app_nil_r. reflexivity.
    - rewrite <- app_comm_cons, QQ, pview_app, pv_rot. rewrite QQ, pview_app, pv_gs, pview_app, FL, pview_app, app_nil_l.
      rewrite app_nil_l. change (o [] "q" :: [?a; ?b; ?c; ?e]) with (o [] "q" :: [] ++ [a; b; c; e]).
      erewrite pv_place by (intros; apply ID). cbn. rewrite <- ?app_assoc, ?app_nil_r. reflexivity.
  Qed.

  Definition ceff (c : cache N) (g : pgs) (st : list pgs) : pgs * list pgs * list mark :=
    match c with
    | CText _ t => (text_eff t g, st, [])
    | CLine _ h x1 y1 x2 y2 gs => (g, st, [shapeAt g gs [op_ [d N 2 x1; d N 2 (h -. y1)] "m"; op_ [d N 2 x2; d N 2 (h -. y2)] "l"] "S"])
    | CRect _ h x y w ht s gs => (g, st, [shapeAt g gs [op_ [d N 2 x; d N 2 (h -. y); d N 2 w; d N 2 ht] "re"] (match s with PSdraw => "S" | PSfill => "f" | PSdrawfill => "B" end)%string])
    | COval _ h x1 y1 x2 y2 => (g, st, [(g, Painted (ellipse N h x1 y1 x2 y2) (bs "S"))])
    | CCurve _ h x0 y0 x1 y1 x2 y2 x3 y3 s =>
        (g, st, [(g, Painted [op_ [d N 2 x0; d N 2 (h -. y0)] "m"; op_ [d N 2 x1; d N 2 (h -. y1); d N 2 x2; d N 2 (h -. y2); d N 2 x3; d N 2 (h -. y3)] "c"]
                             (bs (if is s "F" then "f" else if is s "FD" || is s "DF" then "B" else "S")%string))])
    | CLineWidth _ v => (set_lw g [d N 2 v], st, [])
    | CLineType _ t => (set_dash g (dashOf t), st, [])
    | CDash _ a p => (set_dash g (TOpen :: map (d N 2) a ++ [TClose; d N 2 p]), st, [])
    | CGray _ s v => ((if s then set_stroke g [op_ [d N 2 v] "G"] else set_fill g (Some [op_ [d N 2 v] "g"])), st, [])
    | CRGB _ s r g' b => ((if s then set_stroke g [op_ (rgbOf N r g' b) "RG"] else set_fill g (Some [op_ (rgbOf N r g' b) "rg"])), st, [])
    | CCMYK _ s c m y k => ((if s then set_stroke g [op_ (cmykOf N c m y k) "K"] else set_fill g (Some [op_ (cmykOf N c m y k) "k"])), st, [])
    | CImage _ i => (g, st, [imageMark N rot (im_pageH N i) g (im_index N i)
         (Build_imgopt N (im_x N i) (im_y N i) (im_w N i) (im_h N i) (im_angle N i) (im_vflip N i) (im_hflip N i) (im_crop N i)
            (if im_mask N i then Some (im_maskAngle N i) else None) (im_gs N i))])
    | CPolygon _ h pts s gs => (g, st, [shapeAt g gs (through N h pts) (if is s "F" then "f" else if is s "FD" || is s "DF" then "b" else "s")%string])
    | CClip _ h pts => (set_clip g (p_clip g ++ [(p_ctm g, through N h pts ++ [op_ [] "h"], bs "W")]), st, [])
    | CSave _ => (g, g :: st, [])
    | CRestore _ | CRotateReset _ => match st with [] => (g, st, []) | g' :: st' => (g', st', []) end
    | CRotate _ h a x y => (set_ctm g (p_ctm g ++ rotAbout N rot h x y a), g :: st, [])
    | CColorSpace _ n => (set_stroke g [op_ [TName (bs "CS" ++ fmt_d (n + 1))] "CS"; op_ [wd "1.0000"] "SCN"], st, [])
    | CTemplate _ h name sx sy tx ty =>
        (g, st, [(set_fill (set_stroke (set_lw (set_ctm g (p_ctm g ++ [[d N 4 sx; wd "0"; wd "0"; d N 4 sy; d N 4 tx; d N 4 (nadd N ty h)]])) [wd "1"]) [black' "G"]) (Some [black' "g"]),
                  External [TName (tl name)])])
    end.
  Definition pc (c : cache N) : Prop := match c with CText _ t => plain t | _ => True end.
  Lemma cache_eff c g st out : pc c ->
    pview_from (idle_pv g st out) (cache_ops N rot c) = let '(g', st', ms) := ceff c g st in idle_pv g' st' (out ++ ms).
  Proof.
    intros P. assert (NI : forall g st out, idle_pv g st (out ++ []) = idle_pv g st out) by (intros; now rewrite app_nil_r).
    destruct c; cbn [cache_ops ceff]; rewrite ?NI; try reflexivity.
    - now apply pv_text.
    - change (gs_ops gs ++ oseg N x1 (pageH -. y1) x2 (pageH -. y2) "S" ++ [o [] "Q"]) with (gs_ops gs ++ [o [n2 N x1; n2 N (pageH -. y1)] "m"; o [n2 N x2; n2 N (pageH -. y2)] "l"] ++ [o [] "S"; o [] "Q"]).
      apply pv_boxed; [reflexivity|now left].
    - change (gs_ops gs ++ [?a; ?b; ?c]) with (gs_ops gs ++ [a] ++ [b; c]). apply pv_boxed; [reflexivity|]. destruct st0; cbn; auto.
    - unfold beq, is. destruct (list_eqb style (bs "F")); [reflexivity|]. destruct (_ || _); reflexivity.
    - unfold beq, dashOf, is. destruct (list_eqb t (bs "dashed")); [reflexivity|]. destruct (list_eqb t (bs "dotted")); reflexivity.
    - unfold odash. cbn [app]. rewrite <- app_assoc. reflexivity.
    - destruct stroke; reflexivity.
    - destruct stroke; reflexivity.
    - destruct stroke; reflexivity.
    - apply pv_image.
    - apply (pv_boxed gs (opath N pageH true pts)); [intros; apply vw_path|]. unfold beq, is. destruct (list_eqb style (bs "F")); [cbn; auto 8|]. destruct (_ || _); cbn; auto 8.
    - rewrite pview_app, vw_path. reflexivity.
    - destruct st; cbn [ceff]; rewrite NI; reflexivity.
    - change (pview_from (idle_pv g st out) (o [] "q" :: ?l)) with (pview_from (idle_pv g (g :: st) out) l). now rewrite pv_rot.
    - destruct st; cbn [ceff]; rewrite NI; reflexivity.
  Qed.
  (** ** Simulation *)
  Definition Rel (v : pv) (a : asked N) : Prop :=
    exists g st out, v = idle_pv g st out /\ glike g (a_g N a) /\ Forall2 glike st (a_stack N a) /\ Forall2 mlike out (a_out N a).
  Definition seen (l : list (cache N)) : pv := pview_from pv0 (flat_map (cache_ops N rot) l).
  Definition sim (s : ds N) (a : asked N) : Prop :=
    Rel (seen (s_caches N s)) a /\ s_cfg N s = a_cfg N a /\ s_pageH N s = a_H N a /\ s_tr N s = a_tr N a /\ s_mode N s = a_coltext N a /\
    has (s_style N s) styUnderline = false /\ Forall pc (s_caches N s) /\ Forall (cache_ok N) (s_caches N s).
  (** Texts without underline, cells without border. *)
  Definition undecorated (c : call N) : Prop :=
    match c with
    | SetFont _ _ _ _ style => has style styUnderline = false
    | CellOpt _ _ _ opt _ => o_border N opt = 0
    | _ => True
    end.

  Lemma seen_app l r : seen (l ++ r) = pview_from (seen l) (flat_map (cache_ops N rot) r).
  Proof. unfold seen. rewrite flat_map_app. apply pview_app. Qed.
  Lemma seen_snoc l c : seen (l ++ [c]) = pview_from (seen l) (cache_ops N rot c).
  Proof. rewrite seen_app. cbn [flat_map]. now rewrite app_nil_r. Qed.
  Lemma seen_idle l : Forall pc l -> exists g st out, seen l = idle_pv g st out.
  Proof.
    induction l as [|c l IH] using rev_ind; intros F; [now exists pgs0, [], []|]. apply Forall_app in F as [F1 F2]. inversion F2; subst.
    destruct (IH F1) as (g & st & out & E). rewrite seen_snoc, E, cache_eff by assumption. destruct (ceff c g st) as [[g' st'] ms]. eauto.
  Qed.
  Lemma glike_fill g a : glike g a -> forall f, glike (set_fill g f) (set_fill a None).
  Proof. intros (A & B & C & D & E & F & _) f. repeat split; auto. Qed.
  Lemma text_eff_like c g a (cm : bool) : glike g a -> c_mode N c = cm -> glike (text_eff c g) (if cm then set_fill a None else a).
  Proof.
    intros L <-. unfold text_eff. destruct (c_mode N c); [|exact L].
    assert (K : glike g (set_fill a None)) by (destruct L as (A & B & C & D & E & F & _); repeat split; auto).
    destruct (c_color N c); [|exact K]. destruct (o_gs N _); [|exact K]. now apply glike_fill.
  Qed.
  Lemma sim_draw s a r cell opt txt s' : sim s a -> o_border N opt = 0 -> drawText N s r cell opt txt = Some s' ->
    sim s' (if a_coltext N a then ag N a (set_fill (a_g N a) None) (a_stack N a) else a).
  Proof.
    intros (R & C1 & C2 & C3 & C4 & U & P & K) BO H. unfold drawText in H. destruct (s_font N s) as [[fc f]|]; [|discriminate].
    unfold appendContentText in H. set (n := mkText N s fc f r cell false opt) in *.
    assert (PN : plain n) by (split; assumption).
    assert (B : exists pre base, ((pre = s_caches N s /\ base = n) \/ s_caches N s = pre ++ [CText N base]) /\
       match splitLast N (s_caches N s) with (pre, Some (CText _ c)) => if isSame N c n then (pre, c) else (s_caches N s, n) | _ => (s_caches N s, n) end = (pre, base)).
    { destruct (splitLast N (s_caches N s)) as [pre [c|]] eqn:SL; [|eexists; eexists; split; [left; split; reflexivity|reflexivity]].
      apply splitLast_app in SL. destruct c; try (eexists; eexists; split; [left; split; reflexivity|reflexivity]).
      destruct (isSame N c n); eexists; eexists; (split; [|reflexivity]); [right; exact SL|left; split; reflexivity]. }
    destruct B as (pre & base & B1 & B2). rewrite B2 in H. clear B2.
    destruct (createContent N _ _ _ _ _) as [[[cw ch] tw]|]; [|discriminate]. injection H as <-.
    set (c' := setText N base (c_text N base ++ fv_add f txt) (cw, ch, tw)).
    destruct R as (g & st & out & SE & GL & SL & ML).
    assert (GOAL : Forall pc pre /\ plain base /\ Forall (cache_ok N) pre /\ Rel (seen (pre ++ [CText N c'])) (if a_coltext N a then ag N a (set_fill (a_g N a) None) (a_stack N a) else a)).
    { destruct B1 as [[-> ->]|B1].
      - split; [exact P|]. split; [exact PN|]. split; [exact K|]. exists (text_eff c' g), st, out.
        split; [rewrite seen_snoc, SE; now apply pv_text|].
        pose proof (text_eff_like c' g (a_g N a) (a_coltext N a) GL C4) as L. destruct (a_coltext N a); (split; [exact L|split; assumption]).
      - rewrite B1 in P, K. apply Forall_app in P as [P1 P2]. inversion P2 as [|? ? PB _]; subst. apply Forall_app in K as [K1 _]. cbn [pc] in PB.
        split; [exact P1|]. split; [exact PB|]. split; [exact K1|].
        assert (E : seen (pre ++ [CText N c']) = seen (pre ++ [CText N base])).
        { destruct (seen_idle pre P1) as (g0 & st0 & out0 & E0). rewrite !seen_snoc, E0. cbn [cache_ops]. rewrite !pv_text by assumption. reflexivity. }
        rewrite E, <- B1, SE. exists g, st, out. split; [reflexivity|].
        destruct (a_coltext N a); (split; [|split; assumption]); [|exact GL]. destruct GL as (A & B & C & D & EE & F & _); repeat split; auto. }
    destruct GOAL as (G1 & G2 & G3 & G4).
    split; [exact G4|]. cbn [s_cfg s_pageH s_tr s_mode s_style s_caches withxy withc].
    assert (AA : forall b : bool, a_cfg N (if b then ag N a (set_fill (a_g N a) None) (a_stack N a) else a) = a_cfg N a /\
       a_H N (if b then ag N a (set_fill (a_g N a) None) (a_stack N a) else a) = a_H N a /\
       a_tr N (if b then ag N a (set_fill (a_g N a) None) (a_stack N a) else a) = a_tr N a /\
       a_coltext N (if b then ag N a (set_fill (a_g N a) None) (a_stack N a) else a) = a_coltext N a) by (intros []; auto).
    destruct (AA (a_coltext N a)) as (-> & -> & -> & ->). repeat (split; [assumption|]).
    split; apply Forall_app; (split; [assumption|]); constructor; (exact G2 || exact I || constructor).
  Qed.

  Ltac gl := match goal with L : glike ?g ?a |- glike _ _ => destruct L as (?L1 & ?L2 & ?L3 & ?L4 & ?L5 & ?L6 & ?L7); unfold glike; cbn; rewrite ?L1, ?L2, ?L3, ?L4, ?L5, ?L6; repeat split; auto end.
  Lemma imageMark_like H g a idx opt : glike g a -> mlike (imageMark N rot H g idx opt) (imageMark N rot H a idx opt).
  Proof.
    intros L. unfold imageMark. cbv zeta. destruct (io_crop N opt) as [[[[cx cy] cw] ch]|]; (split; [|reflexivity]); cbn [fst]; gl.
  Qed.
  (** one more cache *)
  Lemma sim_cache s a c s' a' :
    sim s a -> s_caches N s' = s_caches N s ++ [c] -> pc c -> cache_ok N c ->
    s_cfg N s' = a_cfg N a' -> s_pageH N s' = a_H N a' -> s_tr N s' = a_tr N a' -> s_mode N s' = a_coltext N a' -> has (s_style N s') styUnderline = false ->
    (forall g st, glike g (a_g N a) -> Forall2 glike st (a_stack N a) ->
       let '(g', st', ms) := ceff c g st in glike g' (a_g N a') /\ Forall2 glike st' (a_stack N a') /\ exists am, a_out N a' = a_out N a ++ am /\ Forall2 mlike ms am) ->
    sim s' a'.
  Proof.
    intros (R & C1 & C2 & C3 & C4 & U & P & K) E PC OK A1 A2 A3 A4 A5 F. destruct R as (g & st & out & SE & GL & SL & ML).
    specialize (F g st GL SL). destruct (ceff c g st) as [[g' st'] ms] eqn:CE. destruct F as (F1 & F2 & am & F3 & F4).
    split; [|repeat (split; [assumption|])].
    - rewrite E, seen_snoc, SE, cache_eff by exact PC. rewrite CE. exists g', st', (out ++ ms). rewrite F3. split; [reflexivity|]. split; [exact F1|]. split; [exact F2|]. now apply Forall2_app.
    - rewrite E. split; apply Forall_app; (split; [assumption|]); (constructor; [assumption|constructor]).
  Qed.
  Lemma sim_step s a c s' : sim s a -> sensible N c -> undecorated c -> step N s c = Some s' -> sim s' (ask N rot false a c).
  Proof.
    intros S SN UD H. pose proof S as (R & C1 & C2 & C3 & C4 & U & P & K).
    assert (GS : forall tr, gsn (trOf N s tr) = extOf (match tr with None => a_tr N a | Some t => t end)).
    { intros tr. unfold trOf. rewrite C3. destruct tr as [[i|]|]; try reflexivity. destruct (a_tr N a); reflexivity. }
    assert (MK : forall g t gs p how, glike g (a_g N a) -> gsn gs = extOf t -> Forall2 mlike [shapeAt g gs p how] [(set_ext (a_g N a) (p_ext (a_g N a) ++ extOf t), Painted p (bs how))]).
    { intros g t gs p how L E. constructor; [|constructor]. split; [|reflexivity]. cbn [fst shapeAt]. rewrite E. gl. }
    assert (MK0 : forall g p how, glike g (a_g N a) -> Forall2 mlike [(g, Painted p (bs how))] [(set_ext (a_g N a) (p_ext (a_g N a) ++ extOf None), Painted p (bs how))]).
    { intros g p how L. constructor; [|constructor]. split; [|reflexivity]. cbn [fst extOf]. rewrite app_nil_r. gl. }
    assert (UU : u2p N s = unitsToPoints N (a_cfg N a)) by (rewrite <- C1; reflexivity).
    assert (PP : ptU2P N s = (fun p => (unitsToPoints N (a_cfg N a) (fst p), unitsToPoints N (a_cfg N a) (snd p)))) by (rewrite <- C1; reflexivity).
    assert (NM : exists am : list mark, a_out N a = a_out N a ++ am /\ Forall2 mlike [] am) by (exists []; rewrite app_nil_r; split; [reflexivity|constructor]).
    assert (POP : forall k, k = CRestore N \/ k = CRotateReset N -> sim (add N s k) (match a_stack N a with [] => a | g' :: st' => ag N a g' st' end)).
    { intros k HC. assert (CE : forall g st, ceff k g st = match st with [] => (g, st, []) | g' :: st' => (g', st', []) end) by (intros; destruct HC as [->| ->]; reflexivity).
      assert (PK : pc k /\ cache_ok N k) by (destruct HC as [->| ->]; split; exact I). destruct PK as [PK1 PK2].
      destruct (a_stack N a) as [|g0 st0] eqn:AS; (eapply sim_cache; [exact S|reflexivity|exact PK1|exact PK2|exact C1|exact C2|exact C3|exact C4|exact U|]);
        intros gg stt GL SL; rewrite CE; rewrite AS in SL; inversion SL; subst.
      - split; [exact GL|]. split; [rewrite AS; constructor|exact NM].
      - split; [assumption|]. split; [assumption|exact NM]. }
    destruct c; cbn [step] in H; try (injection H as <-); rewrite ?UU, ?PP;
      try (eapply sim_cache; [exact S|reflexivity|exact I|exact I|exact C1|exact C2|exact C3| | |]; [first [exact C4|reflexivity]|exact U|]; intros gg stt GL SL; cbn [ceff]; rewrite ?C2).
    1-3: (split; [rewrite ?map_map; gl|split; [exact SL|exact NM]]).
    1-7: (split; [exact GL|split; [exact SL|]]; eexists; (split; [reflexivity|]); first [apply MK; [exact GL|apply GS || reflexivity] | apply MK0; exact GL]).
    - split; [exact GL|]. split; [exact SL|]. eexists. split; [reflexivity|]. apply MK; [exact GL|apply GS].
    - split; [gl|split; [exact SL|exact NM]].
    - split; [exact GL|]. split; [constructor; assumption|exact NM].
    - apply POP. now left.
    - split; [gl|]. split; [constructor; assumption|exact NM].
    - apply POP. now right.
    - split; [gl|split; [exact SL|exact NM]].
    - split; [gl|split; [exact SL|exact NM]].
    - split; [gl|split; [exact SL|exact NM]].
    - split; [gl|split; [exact SL|exact NM]].
    - split; [gl|split; [exact SL|exact NM]].
    - split; [gl|split; [exact SL|exact NM]].
    - split; [exact R|]. repeat (split; [assumption || reflexivity|]). assumption.
    - split; [exact R|]. repeat (split; [assumption || reflexivity|]). assumption.
    - exact S.
    - exact S.
    - exact S.
    - exact S.
    - split; [exact R|]. repeat (split; [assumption|]). assumption.
    - exact S.
    - exact S.
    - split; [exact R|]. repeat (split; [assumption || reflexivity|]). assumption.
    - split; [exact R|]. repeat (split; [assumption || reflexivity|]). assumption.
    - eapply sim_draw; [exact S| |exact H]. reflexivity.
    - eapply sim_draw; [exact S| |exact H]. reflexivity.
    - eapply sim_draw; [exact S| |exact H]. exact UD.
    - split; [exact GL|]. split; [exact SL|]. eexists. split; [reflexivity|]. constructor; [|constructor].
      cbn [im_pageH im_index im_x im_y im_w im_h im_angle im_vflip im_hflip im_crop im_mask im_maskAngle im_gs].
      match goal with |- mlike (imageMark _ _ _ _ _ ?x) _ => replace x with o end; [now apply imageMark_like|]. destruct o; cbn. destruct io_mask; reflexivity.
    - destruct SN as (w0 & -> & RG).
      eapply sim_cache; [exact S|reflexivity|exact I| |exact C1|exact C2|exact C3|exact C4|exact U|]; [exists w0; auto|].
      intros gg stt GL SL. cbn [ceff]. rewrite C2. split; [exact GL|]. split; [exact SL|]. eexists. split; [reflexivity|]. constructor; [|constructor]. split; [|reflexivity]. cbn [fst]. gl.
    - split; [gl|split; [exact SL|exact NM]].
    - destruct (s_font N s) as [[fc f]|]; [|discriminate]. injection H as <-.
      set (n := mkText N s fc f None false true (opt0 N)).
      assert (PN : plain n) by (split; [exact U|reflexivity]).
      assert (AA : forall b : bool, a_cfg N (if b then ag N a (set_fill (a_g N a) None) (a_stack N a) else a) = a_cfg N a /\
       a_H N (if b then ag N a (set_fill (a_g N a) None) (a_stack N a) else a) = a_H N a /\
       a_tr N (if b then ag N a (set_fill (a_g N a) None) (a_stack N a) else a) = a_tr N a /\
       a_coltext N (if b then ag N a (set_fill (a_g N a) None) (a_stack N a) else a) = a_coltext N a /\
       a_stack N (if b then ag N a (set_fill (a_g N a) None) (a_stack N a) else a) = a_stack N a /\
       a_out N (if b then ag N a (set_fill (a_g N a) None) (a_stack N a) else a) = a_out N a /\
       a_g N (if b then ag N a (set_fill (a_g N a) None) (a_stack N a) else a) = (if b then set_fill (a_g N a) None else a_g N a)) by (intros []; repeat split).
      destruct (AA (a_coltext N a)) as (E1 & E2 & E3 & E4 & E5 & E6 & E7). cbn [ask].
      eapply (sim_cache s a (CText N n)); [exact S|reflexivity|exact PN|exact I| | | | |exact U|]; rewrite ?E1, ?E2, ?E3, ?E4; try assumption.
      intros gg stt GL SL. cbn [ceff]. rewrite E5, E6, E7. split; [|split; [exact SL|exact NM]]. now apply text_eff_like.
  Qed.
  Lemma sim_run l : Forall (sensible N) l -> Forall undecorated l -> forall s a s', sim s a -> run N s l = Some s' -> sim s' (asks N rot false a l).
  Proof.
    induction 1 as [|c l S1 _ IH]; intros U s a s' S R; cbn [run asks fold_left] in *; [injection R as <-; exact S|]. inversion U; subst.
    destruct (step N s c) as [s1|] eqn:E; [|discriminate]. eapply IH; [assumption| |exact R]. eapply sim_step; eassumption.
  Qed.
End Paint.

(** ** C58 *)
(** The page before the calls, nothing asked for yet. *)
Definition blank (N : num) (s : ds N) : asked N :=
  {| a_cfg := s_cfg N s; a_H := s_pageH N s; a_tr := s_tr N s; a_coltext := s_mode N s; a_g := pgs0; a_stack := []; a_out := [] |}.
(** The current transparency is off whenever one of the four simple shapes is drawn. *)
Fixpoint simple_opaque (N : num) (tr : option Z) (l : list (call N)) : Prop :=
  match l with
  | [] => True
  | c :: r =>
      match c with
      | RectLL _ _ _ _ _ | RectUL _ _ _ _ _ | Oval _ _ _ _ _ | Curve _ _ _ _ _ _ _ _ _ _ => tr = None /\ simple_opaque N tr r
      | SetTransparency _ t => simple_opaque N t r
      | ClearTransparency _ => simple_opaque N None r
      | _ => simple_opaque N tr r
      end
  end.
Definition no_text_colour (N : num) (c : call N) : Prop :=
  match c with SetTextColor _ _ _ _ | SetTextColorCMYK _ _ _ _ _ => False | _ => True end.

Section C58.
  Variable N : num.
  Variable rot : T N -> T N * T N.
  Hypothesis NP : num_prints N.

  (** Any history of calls on a fresh page: the marks a viewer paints, in order, are those asked for: the same
      path (coordinates in points, from the bottom of the page, printed with two decimals), painted the same way,
      under the transformations, clipping paths, line width, dash pattern, stroke colour and transparency in force;
      and with the fill colour in force unless coloured text was drawn since it was set. *)
  Theorem C58_painted_as_asked (s : ds N) (calls : list (call N)) (content : bytes) :
    fresh_page N s -> has (s_style N s) styUnderline = false -> Forall (sensible N) calls -> Forall (undecorated N) calls ->
    outcome N rot s calls = Some content ->
    Forall2 mlike (marks content) (a_out N (asks N rot false (blank N s) calls)).
  Proof using NP.
    intros (E & M) U SE UD O. apply outcome_run in O as (s' & R & W).
    assert (S0 : sim N rot s (blank N s)).
    { split; [rewrite E; exists pgs0, [], []; repeat split; auto; constructor|]. repeat (split; [reflexivity|]). split; [exact U|]. rewrite E. split; constructor. }
    destruct (sim_run N rot calls SE UD s (blank N s) s' S0 R) as (RL & _ & _ & _ & _ & _ & _ & K).
    destruct RL as (g & st & out & SN & _ & _ & ML). unfold marks. rewrite (content_ops_write N rot NP (s_caches N s') content K W).
    unfold seen in SN. rewrite SN. exact ML.
  Qed.

  Definition known (a : asked N) : Prop := p_fill (a_g N a) <> None /\ Forall (fun g => p_fill g <> None) (a_stack N a) /\ Forall (fun m : mark => p_fill (fst m) <> None) (a_out N a) /\ a_coltext N a = false.
  Lemma known_step i a c : no_text_colour N c -> known a -> known (ask N rot i a c).
  Proof.
    intros NT (A & B & C & D). assert (SN : forall m : mark, p_fill (fst m) <> None -> Forall (fun m : mark => p_fill (fst m) <> None) (a_out N a ++ [m])).
    { intros m H. apply Forall_app. split; [exact C|]. constructor; [exact H|constructor]. }
    destruct c; cbn [ask]; try contradiction; try (rewrite D); try exact (conj A (conj B (conj C D)));
      try (split; [exact A|split; [exact B|split; [apply SN; exact A|exact D]]]);
      try (split; [first [exact A|discriminate]|split; [first [exact B|constructor; assumption]|split; [exact C|first [exact D|reflexivity]]]]).
    - destruct (a_stack N a) as [|g' st'] eqn:S; [unfold known; rewrite S; exact (conj A (conj B (conj C D)))|]. inversion B; subst. split; [assumption|]. split; [assumption|]. split; [exact C|exact D].
    - destruct (a_stack N a) as [|g' st'] eqn:S; [unfold known; rewrite S; exact (conj A (conj B (conj C D)))|]. inversion B; subst. split; [assumption|]. split; [assumption|]. split; [exact C|exact D].
    - split; [exact A|split; [exact B|split; [|exact D]]]. apply SN. unfold imageMark. cbv zeta. destruct (io_crop N o) as [[[[cx cy] cw] ch]|]; exact A.
    - split; [exact A|split; [exact B|split; [|exact D]]]. apply SN. discriminate.
  Qed.
  Lemma known_run i l : Forall (no_text_colour N) l -> forall a, known a -> known (asks N rot i a l).
  Proof. induction 1 as [|c l H _ IH]; intros a K; [exact K|]. cbn [asks fold_left]. apply IH. now apply known_step. Qed.
  Lemma ask_tr i a c : a_tr N (ask N rot i a c) = match c with SetTransparency _ t => t | ClearTransparency _ => None | _ => a_tr N a end.
  Proof. destruct c; cbn [ask]; try reflexivity; try (destruct (a_stack N a); reflexivity); destruct (a_coltext N a); reflexivity. Qed.
  Lemma ideal_run l : forall a, simple_opaque N (a_tr N a) l -> asks N rot false a l = asks N rot true a l.
  Proof.
    induction l as [|c l IH]; intros a H; [reflexivity|]. cbn [asks fold_left].
    assert (E : ask N rot false a c = ask N rot true a c).
    { destruct c; try reflexivity; cbn [simple_opaque] in H; destruct H as [H _]; cbn [ask]; rewrite H; reflexivity. }
    rewrite E. apply IH. rewrite ask_tr. destruct c; cbn [simple_opaque] in H; try exact H; exact (proj2 H).
  Qed.
  Lemma glike_eq g a : glike g a -> p_fill a <> None -> g = a.
  Proof. destruct g, a. unfold glike. cbn. intros (-> & -> & -> & -> & -> & -> & [F| ->]) K; [contradiction|reflexivity]. Qed.

  (** Text in gray only, and no current transparency while a simple shape is drawn: exactly the marks asked for. *)
  Theorem C58_exactly_as_asked (s : ds N) (calls : list (call N)) (content : bytes) :
    fresh_page N s -> has (s_style N s) styUnderline = false -> Forall (sensible N) calls -> Forall (undecorated N) calls ->
    s_mode N s = false -> Forall (no_text_colour N) calls -> simple_opaque N (s_tr N s) calls ->
    outcome N rot s calls = Some content ->
    marks content = a_out N (asks N rot true (blank N s) calls).
  Proof using NP.
    intros F U SE UD MO NT SO O. pose proof (C58_painted_as_asked s calls content F U SE UD O) as R.
    rewrite <- (ideal_run calls (blank N s) SO).
    assert (KN : known (blank N s)) by (split; [discriminate|split; [constructor|split; [constructor|exact MO]]]).
    destruct (known_run false calls NT (blank N s) KN) as (_ & _ & K & _). clear -R K.
    induction R as [|m a ms as_ L R IH]; [reflexivity|]. inversion K; subst. f_equal; [|now apply IH].
    destruct m as [g w], a as [g' w'], L as [L1 L2]. cbn [fst snd] in *. f_equal; [now apply glike_eq|exact L2].
  Qed.
End C58.

(** ** Concrete cases *)
Definition z (v : Z) : T F64 := nofZ F64 v.
Definition pimg : imgopt F64 := Build_imgopt F64 (z 100) (z 50) (z 40) (z 30) (z 0) false true (Some (z 5, z 6, z 20, z 10)) None [4].
(** millimetres; every kind of mark, nested states, transparency and text *)
Definition ppage : ds F64 :=
  Build_ds F64 (Build_ucfg F64 2 (z 0)) (z 10) (z 800) (z 10) (z 20) 0 None (z 0) 0 (z 0) false None (z 0) (z 1) None [].
Definition pcalls : list (call F64) :=
  [SetFont F64 0 dfont (z 12) 0; SetLineWidth F64 (z 2); SetLineType F64 (bs "dashed"); SetStrokeColor F64 255 0 51; SetFillColorCMYK F64 10 20 30 40;
   Line F64 (z 1) (z 2) (z 3) (z 4); SaveGS F64; ClipPolygon F64 [(z 0, z 0); (z 100, z 0); (z 50, z 90)]; Rotate F64 (z 30) (z 5) (z 5); SetTransparency F64 (Some 3);
   RectLLOpt F64 (z 1) (z 2) (z 3) (z 4) PSdrawfill None; Polygon F64 [(z 1, z 2); (z 3, z 4); (z 5, z 6)] (bs "F"); ClearTransparency F64; RotateReset F64; RestoreGS F64;
   Text F64 (bs "hello"); Cell F64 None (bs "there"); RectUL F64 (z 1) (z 2) (z 3) (z 4); Oval F64 (z 10) (z 10) (z 30) (z 20);
   Curve F64 (z 1) (z 1) (z 2) (z 2) (z 3) (z 2) (z 4) (z 1) (bs "FD"); SetCustomLineType F64 [z 1; z 2] (z 0); Image F64 7 pimg; Template F64 (bs "/TPL0") (z 1) (z 1) (z 0) (z 0);
   ColorSpace F64 0; Line F64 (z 1) (z 2) (z 3) (z 4)].
Definition pcontent : bytes := Eval vm_compute in got (outcome F64 (norot F64) ppage pcalls).
Lemma pcontent_ok : outcome F64 (norot F64) ppage pcalls = Some pcontent. Proof. vm_compute. reflexivity. Qed.
Lemma pcalls_met : fresh_page F64 ppage /\ has (s_style F64 ppage) styUnderline = false /\ Forall (sensible F64) pcalls /\ Forall (undecorated F64) pcalls /\
  s_mode F64 ppage = false /\ Forall (no_text_colour F64) pcalls /\ simple_opaque F64 (s_tr F64 ppage) pcalls.
Proof.
  split; [split; [reflexivity|discriminate]|]. split; [reflexivity|]. split.
  { repeat constructor; try discriminate. exists (bs "TPL0"). split; reflexivity. }
  split; [repeat constructor|]. split; [reflexivity|]. split; [repeat constructor|]. cbn. repeat split.
Qed.
(** 9 marks; the third is the triangle, drawn under the rotation, inside the clipping path, with transparency 3. *)
Example C58_met : List.length (marks pcontent) = 9%nat /\
  match nth_error (marks pcontent) 2 with
  | Some (g, Painted p how) =>
      p = [([wd "2.83"; wd "794.33"], bs "m"); ([wd "8.50"; wd "788.66"], bs "l"); ([wd "14.17"; wd "782.99"], bs "l")] /\ how = bs "f" /\
      p_lw g = [wd "5.67"] /\ p_dash g = [TOpen; wd "5"; TClose; wd "2"] /\ p_stroke g = [([wd "1.000"; wd "0.000"; wd "0.200"], bs "RG")] /\
      p_fill g = Some [([wd "0.10"; wd "0.20"; wd "0.30"; wd "0.40"], bs "k")] /\ p_ext g = [TName (bs "GS3")] /\
      List.length (p_ctm g) = 2%nat /\ List.length (p_clip g) = 1%nat
  | _ => False
  end.
Proof. split; [vm_compute; reflexivity|]. vm_compute. repeat split. Qed.
Example C58_applied : marks pcontent = a_out F64 (asks F64 (norot F64) true (blank F64 ppage) pcalls).
Proof.
  destruct pcalls_met as (A & B & C & D & E & F & G). exact (C58_exactly_as_asked F64 (norot F64) F64_prints ppage pcalls pcontent A B C D E F G pcontent_ok).
Qed.

(** The full property is false. Coloured text changes the fill colour of the shapes drawn after it: *)
Theorem C58_text_colour_leaks_refuted :
  exists (calls : list (call F64)) content,
    calls = [SetFont F64 0 dfont (z 12) 0; SetFillColor F64 255 0 0; SetTextColor F64 0 0 255; Text F64 (bs "a"); RectLLOpt F64 (z 1) (z 2) (z 3) (z 4) PSfill None] /\
    outcome F64 (norot F64) ppage calls = Some content /\
    exists g p, marks content = [(g, Painted p (bs "f"))] /\ p_fill g = Some [([wd "0.000"; wd "0.000"; wd "1.000"], bs "rg")].
Proof.
  eexists. exists (got (outcome F64 (norot F64) ppage [SetFont F64 0 dfont (z 12) 0; SetFillColor F64 255 0 0; SetTextColor F64 0 0 255; Text F64 (bs "a"); RectLLOpt F64 (z 1) (z 2) (z 3) (z 4) PSfill None])).
  split; [reflexivity|]. split; [vm_compute; reflexivity|]. eexists. eexists. split; [vm_compute; reflexivity|]. reflexivity.
Qed.
(** ... and the current transparency is not applied to RectFromLowerLeft, RectFromUpperLeft, Oval and Curve, though
    it is to Line and to the same rectangle drawn with options. *)
Theorem C58_transparency_skipped_refuted :
  forall c, In c [RectLL F64 (z 1) (z 2) (z 3) (z 4); RectUL F64 (z 1) (z 2) (z 3) (z 4); Oval F64 (z 1) (z 2) (z 3) (z 4);
                  Curve F64 (z 1) (z 1) (z 2) (z 2) (z 3) (z 2) (z 4) (z 1) (bs "D")] ->
  exists content g w, outcome F64 (norot F64) ppage [SetTransparency F64 (Some 3); c] = Some content /\ marks content = [(g, w)] /\ p_ext g = [].
Proof.
  intros c H. repeat (destruct H as [<-|H]; [eexists; eexists; eexists; split; [vm_compute; reflexivity|split; [vm_compute; reflexivity|reflexivity]]|]). destruct H.
Qed.
Example C58_transparency_applied :
  match outcome F64 (norot F64) ppage [SetTransparency F64 (Some 3); RectLLOpt F64 (z 1) (z 2) (z 3) (z 4) PSdraw None] with
  | Some content => map (fun m => p_ext (fst m)) (marks content) = [[TName (bs "GS3")]]
  | None => False
  end.
Proof. vm_compute. reflexivity. Qed.
Print Assumptions C58_painted_as_asked.
Print Assumptions C58_exactly_as_asked.
Print Assumptions C58_text_colour_leaks_refuted.
Print Assumptions C58_transparency_skipped_refuted.
