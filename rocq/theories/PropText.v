(** PropText.v — C40: every piece of text is shown with the attributes in force when it was drawn. *)
From Coq Require Import QArith.
From Verif Require Import Base StrModel NumModel NumRead UnitModel DrawModel DrawSpec DrawLex DrawNest DrawView PropDraw.
Open Scope Z_scope.

(** ** Specification: the pieces a history draws, with the attributes in force at each call *)
Section Pieces.
  Variable N : num.
  Notation T := (T N).
  Record piece := { p_font : Z; p_fv : fontv; p_size : T; p_style : Z; p_cs : T; p_col : option tcol; p_gray : T;
                    p_x : T; p_y : T; p_pageH : T; p_cell : bool;
                    p_rect : option (T * T); p_align : Z;      (* of a cell: width and height in points, Align *)
                    p_text : list Z }.
  (** The attributes are those of the document (its current font, size, colour, spacing, GetX, GetY) before the call. *)
  Definition piece_at (s : ds N) (cell : bool) (rr : option (T * T)) (al : Z) (txt : list Z) : list piece :=
    match s_font N s with
    | Some (n, f) => [{| p_font := n; p_fv := f; p_size := s_size N s; p_style := s_style N s; p_cs := s_cs N s;
                         p_col := if s_mode N s then s_color N s else None; p_gray := s_gray N s;
                         p_x := s_x N s; p_y := s_y N s; p_pageH := s_pageH N s; p_cell := cell; p_rect := rr; p_align := al; p_text := fv_add f txt |}]
    | None => []
    end.
  (** A placeholder is a piece without text. *)
  Definition piece_ph (s : ds N) : list piece :=
    match s_font N s with
    | Some (n, f) => [{| p_font := n; p_fv := f; p_size := s_size N s; p_style := s_style N s; p_cs := s_cs N s;
                         p_col := if s_mode N s then s_color N s else None; p_gray := s_gray N s;
                         p_x := s_x N s; p_y := s_y N s; p_pageH := s_pageH N s; p_cell := false; p_rect := None; p_align := 0; p_text := [] |}]
    | None => []
    end.
  Definition pieces_of (s : ds N) (c : call N) : list piece :=
    match c with
    | Text _ txt => piece_at s false None 0 txt
    | Cell _ r txt => piece_at s true (rectPts N s r) (Z.lor oLeft oTop) txt
    | CellOpt _ r txt o _ => piece_at s true (rectPts N s r) (o_align N o) txt
    | PlaceHolder _ _ => piece_ph s
    | _ => []
    end.
  Fixpoint pieces (s : ds N) (l : list (call N)) : list piece :=
    match l with
    | [] => []
    | c :: r => match step N s c with Some s' => pieces_of s c ++ pieces s' r | None => [] end
    end.

  (** Histories the theorem covers: Br is followed by SetX or SetXY; cells have a rectangle and do not directly
      continue a Text; no SetGrayFill.  The refutations below show that each restriction is needed. *)
  Definition draws (c : call N) : bool :=
    match c with
    | Line _ _ _ _ _ | RectLL _ _ _ _ _ | RectUL _ _ _ _ _ | RectLLOpt _ _ _ _ _ _ _ | RectULOpt _ _ _ _ _ _ _ | Oval _ _ _ _ _
    | Curve _ _ _ _ _ _ _ _ _ _ | Polygon _ _ _ | ClipPolygon _ _ | SaveGS _ | RestoreGS _ | Rotate _ _ _ _ | RotateReset _ | Image _ _ _ => true
    | _ => false
    end.
  Definition setsX (l : list (call N)) : Prop := match l with SetX _ _ :: _ | SetXY _ _ _ :: _ => True | _ => False end.
  Fixpoint orderly (glued : bool) (l : list (call N)) : Prop :=
    match l with
    | [] => True
    | c :: r =>
        match c with
        | Br _ _ => setsX r /\ orderly glued r
        | SetGrayFill _ _ => False
        | Text _ _ => orderly true r
        | Cell _ rr _ => rr <> None /\ glued = false /\ orderly false r
        | CellOpt _ rr _ _ _ => rr <> None /\ glued = false /\ orderly false r
        | SetX _ _ | SetXY _ _ _ => orderly false r
        | Template _ name _ _ _ _ => (exists wd, name = bs "/" ++ wd /\ forallb is_regular wd = true) /\ orderly glued r
        | _ => orderly (if draws c then false else glued) r
        end
    end.
  (** A font number names one font. *)
  Definition fonts_named (ft : Z -> fontv) (l : list (call N)) : Prop := forall n f size st, In (SetFont N n f size st) l -> f = ft n.

  (** The width MeasureTextWidth computes (in points): gopdf.go:1909-1921. *)
  Definition text_width (f : fontv) (size cs : T) (txt : list Z) : option T :=
    match createContent N f txt size cs None with Some (_, _, tw) => Some tw | None => None end.

  (** ** What the viewer must show for a group of pieces drawn in one text object *)
  Definition fill_op (t : tcol) : op :=
    match t with
    | RGB r g b => ([TWord (nfmt N 3 (ndiv N (nofZ N r) (nofZ N 255))); TWord (nfmt N 3 (ndiv N (nofZ N g) (nofZ N 255))); TWord (nfmt N 3 (ndiv N (nofZ N b) (nofZ N 255)))], bs "rg")
    | CMYK c m y k => ([TWord (nfmt N 2 (ndiv N (nofZ N c) (nofZ N 100))); TWord (nfmt N 2 (ndiv N (nofZ N m) (nofZ N 100)));
                        TWord (nfmt N 2 (ndiv N (nofZ N y) (nofZ N 100))); TWord (nfmt N 2 (ndiv N (nofZ N k) (nofZ N 100)))], bs "k")
    end.
  (** the glyph codes in an array operand *)
  Definition codes (l : list tok) : bytes := flat_map (fun t => match t with THex b => b | _ => [] end) l.
  Definition glyph_codes (f : fontv) (txt : list Z) : bytes := flat_map (fun r => match fv_ci f r with Some g => hex4 g | None => [] end) txt.
  Definition same_attrs (p q : piece) : Prop :=
    p_font q = p_font p /\ p_fv q = p_fv p /\ neq N (p_size p) (p_size q) = true /\ p_style q = p_style p /\ neq N (p_cs p) (p_cs q) = true /\
    p_col q = p_col p /\ neq N (p_y p) (p_y q) = true /\ p_cell p = false /\ p_cell q = false.
  (** Each later piece starts where the measured text before it ends. *)
  Fixpoint chained (p : piece) (before : list Z) (ps : list piece) : Prop :=
    match ps with
    | [] => True
    | q :: r => (exists wd, text_width (p_fv p) (p_size p) (p_cs p) before = Some wd /\ p_x q = nadd N (p_x p) wd) /\ chained p (before ++ p_text q) r
    end.
  Definition shown (e : event) (grp : list piece) : Prop :=
    match grp with
    | [] => False
    | p :: ps =>
        (exists g pos arr, e = EShow g pos arr /\
          g_font g = [TName (bs "F" ++ fmt_d (p_font p + 1)); TWord (nfmtTrim N (p_size p))] /\
          g_tc g = [TWord (nfmtTrim N (p_cs p))] /\
          (forall t, p_col p = Some t -> g_fill g = fill_op t) /\
          (p_cell p = false -> pos = [TWord (nfmt N 2 (p_x p)); TWord (nfmt N 2 (nsub N (p_pageH p) (p_y p)))]) /\
          codes arr = glyph_codes (p_fv p) (flat_map p_text (p :: ps))) /\
        Forall (same_attrs p) ps /\ chained p (p_text p) ps
    end.
End Pieces.

Section C40.
  Variable N : num.
  Variable rot : T N -> T N * T N.
  Hypothesis NP : num_prints N.
  Notation T := (T N).
  Infix "+." := (nadd N) (at level 50, left associativity).
  Variable ft : Z -> fontv.

  Lemma codes_app a b : codes (a ++ b) = codes a ++ codes b. Proof. apply flat_map_app. Qed.
  Lemma codes_tj f just txt : forall i lr lg acc, codes (tjToks f just i lr lg acc txt) = acc ++ glyph_codes f txt.
  Proof.
    induction txt as [|r txt IH]; intros; [cbn; now rewrite !app_nil_r|]. cbn [tjToks glyph_codes flat_map]. fold (glyph_codes f txt). destruct (fv_ci f r) as [g|]; [|apply IH]. cbv zeta.
    rewrite !codes_app, IH. destruct (match just with Some (a, fi, la) => (r =? 32) && (fi <? i) && (i <? la) | None => false end), (_ =? 0); cbn [codes flat_map app int]; rewrite ?app_nil_r, <- ?app_assoc; reflexivity.
  Qed.

  (** A text cache holds a group of pieces. *)
  Definition holds (c : ctext N) (grp : list (piece N)) : Prop :=
    match grp with
    | [] => False
    | p :: ps =>
        c_fci N c = p_font N p + 1 /\ c_font N c = p_fv N p /\ p_fv N p = ft (p_font N p) /\ c_size N c = p_size N p /\ c_style N c = p_style N p /\ c_cs N c = p_cs N p /\
        c_x N c = p_x N p /\ c_y N c = p_y N p /\ c_pageH N c = p_pageH N p /\ c_cell N c = p_cell N p /\ c_rect N c = p_rect N p /\ o_align N (c_opt N c) = p_align N p /\
        p_col N p = c_color N c /\ c_text N c = flat_map (p_text N) (p :: ps) /\
        Forall (same_attrs N p) ps /\ chained N p (p_text N p) ps
    end.
  Definition tinv (s : ds N) (c : ctext N) : Prop :=
    (c_mode N c = true <-> c_color N c <> None) /\ c_setx N c <= s_setx N s /\
    (c_rect N c = None -> c_ph N c = false -> c_cell N c = false /\ o_float N (c_opt N c) = 0 /\ text_width N (c_font N c) (c_size N c) (c_cs N c) (c_text N c) = Some (c_cw N c)) /\
    (forall rw rh, c_rect N c = Some (rw, rh) -> c_cw N c = rw /\ c_ch N c = rh /\ text_width N (c_font N c) (c_size N c) (c_cs N c) (c_text N c) = Some (c_tw N c)).
  Record core (s : ds N) (G : list (list (piece N))) : Prop := {
    k_g : Forall2 holds (texts N (s_caches N s)) G;
    k_mode : s_mode N s = true <-> s_color N s <> None;
    k_t : Forall (tinv s) (texts N (s_caches N s));
    k_font : forall n f, s_font N s = Some (n, f) -> f = ft n;
    k_ok : Forall (cache_ok N) (s_caches N s) }.
  Definition open (s : ds N) (c : ctext N) : Prop :=
    (exists pre, s_caches N s = pre ++ [CText N c]) /\ c_rect N c = None /\ c_ph N c = false /\ c_setx N c = s_setx N s.
  Definition atEnd (s : ds N) : Prop := forall c, open s c -> s_x N s = c_x N c +. c_cw N c.
  Definition closed (s : ds N) : Prop := forall c, ~ open s c.

  Lemma texts_app l r : texts N (l ++ r) = texts N l ++ texts N r. Proof. apply flat_map_app. Qed.
  Lemma ocol_eq a b : ocol_same a b = true -> a = b.
  Proof.
    destruct a as [[r g b'|c m y k]|], b as [[r2 g2 b2|c2 m2 y2 k2]|]; cbn; try discriminate; [| |reflexivity]; intros H; f_equal.
    - repeat (apply andb_true_iff in H as [H ?]). f_equal; lia.
    - repeat (apply andb_true_iff in H as [H ?]). f_equal; lia.
  Qed.
  Lemma F2_snoc {A B} (R : A -> B -> Prop) l r a b : Forall2 R l r -> R a b -> Forall2 R (l ++ [a]) (r ++ [b]).
  Proof. intros F H. apply Forall2_app; [exact F|]. now constructor. Qed.
  Lemma F2_last {A B} (R : A -> B -> Prop) l a r : Forall2 R (l ++ [a]) r -> exists r0 b, r = r0 ++ [b] /\ Forall2 R l r0 /\ R a b.
  Proof.
    intros F. apply Forall2_app_inv_l in F as (r0 & r1 & F0 & F1 & ->). inversion F1 as [|x b l' r' RB F2]; subst. inversion F2; subst. now exists r0, b.
  Qed.
  Lemma chained_snoc p q ps : forall before, chained N p before ps -> (exists wd, text_width N (p_fv N p) (p_size N p) (p_cs N p) (before ++ flat_map (p_text N) ps) = Some wd /\ p_x N q = p_x N p +. wd) ->
    chained N p before (ps ++ [q]).
  Proof.
    induction ps as [|a ps IH]; intros before C W; cbn [app chained flat_map] in *.
    - rewrite app_nil_r in W. auto.
    - destruct C as [C1 C2]. split; [exact C1|]. apply IH; [exact C2|]. now rewrite <- app_assoc.
  Qed.
  Lemma step_core_add s s' c G : core s G -> cache_ok N c -> (forall t, c <> CText N t) -> s_caches N s' = s_caches N s ++ [c] -> s_mode N s' = s_mode N s -> s_color N s' = s_color N s ->
    s_setx N s' = s_setx N s -> s_font N s' = s_font N s -> core s' G /\ closed s'.
  Proof.
    intros [K1 K2 K3 K4 K5] OK NT E M C X F.
    assert (E' : texts N (s_caches N s') = texts N (s_caches N s)).
    { rewrite E, texts_app. cbn [texts flat_map]. destruct c; try (now rewrite app_nil_r). now contradiction (NT c). }
    split; [split|].
    - now rewrite E'.
    - now rewrite M, C.
    - rewrite E'. eapply Forall_impl; [|exact K3]. intros t (A & B & D). split; [exact A|]. split; [lia|exact D].
    - now rewrite F.
    - rewrite E. apply Forall_app. auto.
    - intros t ((pre & P) & _). rewrite E in P. apply app_inj_tail in P as [_ P]. now contradiction (NT t).
  Qed.
  (** drawing a piece *)
  Lemma createContent_rect f txt size cs r x : createContent N f txt size cs r = Some x ->
    text_width N f size cs txt = Some (snd x) /\ (r = None -> fst (fst x) = snd x) /\ (forall rw rh, r = Some (rw, rh) -> fst (fst x) = rw /\ snd (fst x) = rh).
  Proof.
    unfold text_width, createContent. destruct (fv_upem f =? 0); [discriminate|]. destruct (sumWidth N f size cs true 0 0 txt) as [z|]; [|discriminate]. cbv zeta.
    destruct r as [[rw rh]|]; intros [= <-]; cbn; split; auto; split; auto; try discriminate. intros ? ? [= <- <-]. auto.
  Qed.
  Lemma step_text s s' cell r opt txt G : core s G -> (atEnd s) -> (cell = true -> r <> None /\ closed s) -> (cell = false -> r = None /\ opt = opt0 N) ->
    drawText N s r cell opt txt = Some s' ->
    exists G', core s' G' /\ List.concat G' = List.concat G ++ piece_at N s cell r (o_align N opt) txt /\ atEnd s' /\ (cell = true -> closed s').
  Proof.
    intros K AE CE TE H. pose proof K as [K1 K2 K3 K4 K5]. unfold drawText in H. destruct (s_font N s) as [[fc f]|] eqn:FT; [|discriminate].
    pose proof (K4 _ _ eq_refl) as FF. unfold piece_at. rewrite FT.
    set (p := {| p_font := fc; p_fv := f; p_size := s_size N s; p_style := s_style N s; p_cs := s_cs N s; p_col := if s_mode N s then s_color N s else None; p_gray := s_gray N s;
                 p_x := s_x N s; p_y := s_y N s; p_pageH := s_pageH N s; p_cell := cell; p_rect := r; p_align := o_align N opt; p_text := fv_add f txt |}).
    assert (PC : p_col N p = s_color N s). { cbn. destruct (s_mode N s); [reflexivity|]. destruct (s_color N s); [|reflexivity]. destruct K2 as [_ K2]. discriminate K2. discriminate. }
    unfold appendContentText in H. set (n := mkText N s fc f r cell false opt) in *.
    assert (B : (exists pre c, s_caches N s = pre ++ [CText N c] /\ isSame N c n = true /\
                   match splitLast N (s_caches N s) with (pre, Some (CText _ c)) => if isSame N c n then (pre, c) else (s_caches N s, n) | _ => (s_caches N s, n) end = (pre, c)) \/
                match splitLast N (s_caches N s) with (pre, Some (CText _ c)) => if isSame N c n then (pre, c) else (s_caches N s, n) | _ => (s_caches N s, n) end = (s_caches N s, n)).
    { destruct (splitLast N (s_caches N s)) as [pre [c|]] eqn:SL; [|now right]. apply (splitLast_app N) in SL. destruct c; try (now right).
      destruct (isSame N c n) eqn:IS; [left; exists pre, c; auto|now right]. }
    destruct B as [(pre & c & E & IS & B)|B]; rewrite B in H.
    - (* appended to the last text *)
      unfold isSame in IS. destruct (c_rect N c) as [|] eqn:RC; [discriminate|].
      repeat (apply andb_true_iff in IS as [IS ?]). cbn [n mkText c_color c_gray c_fci c_size c_style c_cs c_setx c_y c_ph] in *.
      assert (PH : c_ph N c = false) by (destruct (c_ph N c); [discriminate|reflexivity]).
      assert (OP : open s c). { split; [now exists pre|]. split; [exact RC|]. split; [exact PH|]. lia. }
      destruct cell; [destruct (CE eq_refl) as [_ CL]; now contradiction (CL c)|]. destruct (TE eq_refl) as [-> ->].
      rewrite E, texts_app in K1, K3. cbn [texts flat_map app] in K1, K3. apply F2_last in K1 as (G0 & grp & -> & F0 & HG).
      apply Forall_app in K3 as [KT0 KT1]. pose proof (Forall_inv KT1) as (TM & TX & TW & TR). destruct (TW RC PH) as (TC & TF & TW').
      destruct (createContent N (c_font N c) (c_text N c ++ fv_add f txt) (c_size N c) (c_cs N c) None) as [x|] eqn:CC; [|discriminate].
      destruct (createContent_rect _ _ _ _ _ _ CC) as (CW1 & CW2 & CW3). specialize (CW2 eq_refl). destruct x as [[cw ch] tw]. cbn [fst snd] in *. subst tw.
      injection H as <-. destruct grp as [|p0 ps]; [contradiction|]. destruct HG as (Q1 & Q2 & Q2' & Q3 & Q4 & Q5 & Q6 & Q7 & Q8 & Q9 & Q9r & Q9a & Q10 & Q11 & Q12 & Q13).
      set (c' := setText N c (c_text N c ++ fv_add f txt) (cw, ch, cw)).
      exists (G0 ++ [p0 :: ps ++ [p]]). split; [split|split; [|split]].
      + cbn [s_caches withxy withc]. rewrite texts_app. cbn [texts flat_map app]. apply F2_snoc; [exact F0|]. cbn [holds c' setText c_fci c_font c_size c_style c_cs c_x c_y c_pageH c_cell c_rect c_opt c_color c_text].
        assert (FE : fc = p_font N p0) by lia.
        repeat (split; [assumption|]). split; [|split].
        * change (p0 :: ps ++ [p]) with ((p0 :: ps) ++ [p]). rewrite flat_map_app, <- Q11. cbn [flat_map]. now rewrite app_nil_r.
        * apply Forall_app. split; [exact Q12|]. constructor; [|constructor]. unfold same_attrs. cbn [p p_font p_fv p_size p_style p_cs p_col p_y p_cell].
          split; [exact FE|]. split; [rewrite FF, Q2'; now rewrite FE|]. split; [now rewrite <- Q3|]. split; [lia|]. split; [now rewrite <- Q5|]. split; [|].
          { change (if s_mode N s then s_color N s else None) with (p_col N p). rewrite PC, Q10. symmetry. apply ocol_eq. assumption. }
          split; [now rewrite <- Q7|]. split; [now rewrite <- Q9|reflexivity].
        * apply chained_snoc; [exact Q13|]. exists (c_cw N c). cbn [p p_x]. split; [|rewrite <- Q6; now apply AE].
          cbn [flat_map] in Q11. rewrite <- Q11, <- Q2, <- Q3, <- Q5. exact TW'.
      + exact K2.
      + cbn [s_caches withxy withc]. rewrite texts_app. cbn [texts flat_map app]. apply Forall_app. split; [eapply Forall_impl; [|exact KT0]; intros t; exact (fun z => z)|]. constructor; [|constructor].
        split; [exact TM|]. split; [exact TX|]. split; [intros _ _; split; [exact TC|]; split; [exact TF|]; exact CW1|]. cbn [c' setText c_rect]. rewrite RC. discriminate.
      + cbn [s_font withxy withc]. rewrite FT. exact K4.
      + cbn [s_caches withxy withc]. rewrite E in K5. apply Forall_app in K5 as [K5 _]. apply Forall_app. split; [exact K5|]. repeat constructor.
      + rewrite !concat_app. cbn [List.concat]. rewrite !app_nil_r. change (p0 :: ps ++ [p]) with ((p0 :: ps) ++ [p]). rewrite <- app_assoc. f_equal.
      + intros c1 ((pre1 & P) & _). cbn [s_caches withxy withc] in P. apply app_inj_tail in P as [_ P]. injection P as <-. cbn [s_x withxy setText c_x c_cw]. rewrite TF. reflexivity.
      + discriminate.
    - (* a new text object *)
      destruct (createContent N (c_font N n) (c_text N n ++ fv_add f txt) (c_size N n) (c_cs N n) (c_rect N n)) as [x|] eqn:CC; [|discriminate].
      destruct (createContent_rect _ _ _ _ _ _ CC) as (CW1 & CW2 & CW3). destruct x as [[cw ch] tw]. cbn [fst snd] in *. injection H as <-.
      set (c' := setText N n (c_text N n ++ fv_add f txt) (cw, ch, tw)).
      exists (G ++ [[p]]). split; [split|split; [|split]].
      + cbn [s_caches withxy withc]. rewrite texts_app. cbn [texts flat_map app]. apply F2_snoc; [exact K1|].
        cbn [holds c' n mkText setText c_fci c_font c_size c_style c_cs c_x c_y c_pageH c_cell c_rect c_opt c_color c_text p p_font p_fv p_size p_style p_cs p_x p_y p_pageH p_cell p_rect p_align flat_map app].
        repeat (split; [first [reflexivity|exact FF|exact PC]|]). split; [now rewrite app_nil_r|]. split; [constructor|exact I].
      + exact K2.
      + cbn [s_caches withxy withc]. rewrite texts_app. cbn [texts flat_map app]. apply Forall_app. split; [eapply Forall_impl; [|exact K3]; intros t; exact (fun z => z)|]. constructor; [|constructor].
        split; [exact K2|]. split; [cbn; lia|]. cbn [c' setText n mkText c_rect c_ph c_cell c_opt c_font c_size c_cs c_text c_cw c_ch c_tw app]. split; [|intros rw rh RR; destruct (CW3 rw rh RR) as [W1 W2]; split; [exact W1|]; split; [exact W2|exact CW1]]. intros -> _.
        destruct cell; [destruct (CE eq_refl) as [CR _]; now contradiction CR|]. destruct (TE eq_refl) as [_ ->]. rewrite (CW2 eq_refl). auto.
      + cbn [s_font withxy withc]. rewrite FT. exact K4.
      + cbn [s_caches withxy withc]. apply Forall_app. split; [exact K5|]. repeat constructor.
      + rewrite concat_app. cbn [List.concat]. now rewrite app_nil_r.
      + intros c1 ((pre1 & P) & O2 & _). cbn [s_caches withxy withc] in P. apply app_inj_tail in P as [_ P]. injection P as <-. cbn [setText n mkText c_rect] in O2.
        destruct cell; [destruct (CE eq_refl) as [CR _]; now contradiction CR|]. destruct (TE eq_refl) as [_ ->]. reflexivity.
      + intros ->. intros c1 ((pre1 & P) & O2 & _). cbn [s_caches withxy withc] in P. apply app_inj_tail in P as [_ P]. injection P as <-. cbn [setText n mkText c_rect] in O2. destruct (CE eq_refl) as [CR _]. contradiction.
  Qed.
  (** moving or changing attributes without drawing *)
  Lemma step_core_same s s' G : core s G -> s_caches N s' = s_caches N s -> (s_mode N s' = true <-> s_color N s' <> None) -> s_setx N s <= s_setx N s' ->
    (forall n f, s_font N s' = Some (n, f) -> f = ft n) -> core s' G.
  Proof.
    intros [K1 K2 K3 K4 K5] E M X F. split; rewrite ?E; auto. eapply Forall_impl; [|exact K3]. intros t (A & B & D). split; [exact A|]. split; [lia|exact D].
  Qed.
  Lemma atEnd_same s s' : atEnd s -> s_caches N s' = s_caches N s -> s_setx N s' = s_setx N s -> s_x N s' = s_x N s -> atEnd s'.
  Proof. intros A E X P c ((pre & O1) & O2 & O3 & O4). rewrite P. apply A. rewrite E in O1. split; [now exists pre|]. rewrite <- X. auto. Qed.
  Lemma closed_same s s' : closed s -> s_caches N s' = s_caches N s -> s_setx N s' = s_setx N s -> closed s'.
  Proof. intros A E X c ((pre & O1) & O2 & O3 & O4). apply (A c). rewrite E in O1. split; [now exists pre|]. rewrite <- X. auto. Qed.
  Lemma closed_moved s s' G : core s G -> s_caches N s' = s_caches N s -> s_setx N s' = s_setx N s + 1 -> closed s'.
  Proof.
    intros [_ _ K3 _ _] E X c ((pre & O1) & _ & _ & O4). rewrite E in O1. rewrite O1, texts_app in K3. cbn [texts flat_map app] in K3. apply Forall_app in K3 as [_ K3]. inversion K3 as [|? ? (_ & B & _) _]; subst. lia.
  Qed.
  Lemma closed_atEnd s : closed s -> atEnd s. Proof. intros C c O. now contradiction (C c). Qed.

  Definition glue_ok (g : bool) (s : ds N) : Prop := atEnd s /\ (g = false -> closed s).
  Lemma history l : forall g s G s', fonts_named N ft l -> orderly N g l -> core s G -> (glue_ok g s \/ setsX N l) -> run N s l = Some s' ->
    exists G', core s' G' /\ List.concat G' = List.concat G ++ pieces N s l.
  Proof.
    induction l as [|c l IH]; intros g s G s' FN OR K GL R; cbn [run pieces] in *; [injection R as <-; exists G; rewrite app_nil_r; auto|].
    destruct (step N s c) as [s1|] eqn:ST; [|discriminate].
    assert (FN' : fonts_named N ft l) by (intros n f size st H; apply (FN n f size st); now right).
    assert (NEXT : forall g1 G1, core s1 G1 -> List.concat G1 = List.concat G ++ pieces_of N s c -> orderly N g1 l -> (glue_ok g1 s1 \/ setsX N l) -> exists G', core s' G' /\ List.concat G' = List.concat G ++ pieces_of N s c ++ pieces N s1 l).
    { intros g1 G1 K1 C1 O1 GL1. destruct (IH g1 s1 G1 s' FN' O1 K1 GL1 R) as (G' & KG & CG). exists G'. split; [exact KG|]. rewrite CG, C1. now rewrite <- app_assoc. }
    pose proof K as [K1 K2 K3 K4 K5].
    (* calls that add something other than text *)
    assert (ADD : forall cc, cache_ok N cc -> (forall t, cc <> CText N t) -> pieces_of N s c = [] -> s_caches N s1 = s_caches N s ++ [cc] -> s_mode N s1 = s_mode N s -> s_color N s1 = s_color N s ->
                  s_setx N s1 = s_setx N s -> s_font N s1 = s_font N s -> (exists g1, orderly N g1 l) -> exists G', core s' G' /\ List.concat G' = List.concat G ++ pieces_of N s c ++ pieces N s1 l).
    { intros cc OK NT P E M C X F (g1 & O1). destruct (step_core_add s s1 cc G K OK NT E M C X F) as (KA & CL). apply (NEXT g1 G KA); [rewrite P; now rewrite app_nil_r|exact O1|]. left. split; [now apply closed_atEnd|auto]. }
    (* calls that change attributes only *)
    assert (ATTR : forall g1, (glue_ok g s -> glue_ok g1 s1) -> ~ setsX N (c :: l) -> pieces_of N s c = [] -> core s1 G -> orderly N g1 l -> exists G', core s' G' /\ List.concat G' = List.concat G ++ pieces_of N s c ++ pieces N s1 l).
    { intros g1 GG NS P KC O1. apply (NEXT g1 G KC); [rewrite P; now rewrite app_nil_r|exact O1|]. left. destruct GL as [GL|GL]; [now apply GG|contradiction]. }
    destruct c; cbn [step] in ST; cbn [orderly draws] in OR;
      try (injection ST as <-; eapply ADD; [| | reflexivity | reflexivity | reflexivity | reflexivity | reflexivity | reflexivity | eexists; exact OR]; [exact I|discriminate]);
      try (injection ST as <-; eapply ATTR; [ | intros [] | reflexivity | | exact OR];
           [intros [GA GC]; split; [eapply atEnd_same; [exact GA|reflexivity|reflexivity|reflexivity]|intros GF; eapply closed_same; [exact (GC GF)|reflexivity|reflexivity]]
           |eapply step_core_same; [exact K|reflexivity|first [exact K2|cbn; split; [discriminate|reflexivity]]|cbn; lia|cbn; first [exact K4|intros n0 f0 [= <- <-]; eapply FN; left; reflexivity]]]).
    - (* SetGrayFill *) contradiction.
    - (* SetX *) injection ST as <-. apply (NEXT false G); [eapply step_core_same; [exact K|reflexivity|exact K2|cbn; lia|exact K4]|now rewrite app_nil_r|exact OR|].
      left. assert (CL : closed (withxy N s (u2p N s x) (s_y N s) (s_setx N s + 1))) by (eapply closed_moved; [exact K|reflexivity|reflexivity]). split; [now apply closed_atEnd|auto].
    - (* SetXY *) injection ST as <-. apply (NEXT false G); [eapply step_core_same; [exact K|reflexivity|exact K2|cbn; lia|exact K4]|now rewrite app_nil_r|exact OR|].
      left. assert (CL : closed (withxy N s (u2p N s x) (u2p N s y) (s_setx N s + 1))) by (eapply closed_moved; [exact K|reflexivity|reflexivity]). split; [now apply closed_atEnd|auto].
    - (* Br *) injection ST as <-. destruct OR as [SX OR]. apply (NEXT g G); [eapply step_core_same; [exact K|reflexivity|exact K2|cbn; lia|exact K4]|now rewrite app_nil_r|exact OR|now right].
    - (* Text *) destruct GL as [[GA GC]|[]]. destruct (step_text s s1 false None (opt0 N) txt G K GA ltac:(discriminate) ltac:(auto) ST) as (G1 & KG & CG & AE & _).
      apply (NEXT true G1 KG CG OR). left. split; [exact AE|discriminate].
    - (* Cell *) destruct GL as [[GA GC]|[]]. destruct OR as (RN & -> & OR). destruct (step_text s s1 true (rectPts N s r) _ txt G K GA ltac:(intros _; split; [destruct r; [discriminate|contradiction]|now apply GC]) ltac:(discriminate) ST) as (G1 & KG & CG & AE & CL).
      apply (NEXT false G1 KG CG OR). left. split; [exact AE|auto].
    - (* CellOpt *) destruct GL as [[GA GC]|[]]. destruct OR as (RN & -> & OR). destruct (step_text s s1 true (rectPts N s r) _ txt G K GA ltac:(intros _; split; [destruct r; [discriminate|contradiction]|now apply GC]) ltac:(discriminate) ST) as (G1 & KG & CG & AE & CL).
      apply (NEXT false G1 KG CG OR). left. split; [exact AE|auto].
    - (* Template *) destruct OR as (NM & OR). injection ST as <-. eapply ADD; [| | reflexivity | reflexivity | reflexivity | reflexivity | reflexivity | reflexivity | eexists; exact OR]; [exact NM|discriminate].
    - (* PlaceHolder *) destruct (s_font N s) as [[fc f]|] eqn:FT; [|discriminate]. injection ST as <-.
      assert (CC : pieces_of N s (PlaceHolder N width) = [{| p_font := fc; p_fv := f; p_size := s_size N s; p_style := s_style N s; p_cs := s_cs N s;
                         p_col := if s_mode N s then s_color N s else None; p_gray := s_gray N s; p_x := s_x N s; p_y := s_y N s; p_pageH := s_pageH N s; p_cell := false; p_rect := None; p_align := 0; p_text := [] |}]).
      { cbn [pieces_of]. unfold piece_ph. now rewrite FT. }
      set (p := {| p_font := fc; p_fv := f; p_size := _; p_style := _; p_cs := _; p_col := _; p_gray := _; p_x := _; p_y := _; p_pageH := _; p_cell := _; p_text := _ |}) in CC.
      assert (PC : p_col N p = s_color N s). { cbn. destruct (s_mode N s); [reflexivity|]. destruct (s_color N s); [|reflexivity]. destruct K2 as [_ K2]. discriminate K2. discriminate. }
      apply (NEXT g (G ++ [[p]])).
      + split.
        * cbn [s_caches withxy withc add]. rewrite texts_app. cbn [texts flat_map app]. apply F2_snoc; [exact K1|].
          cbn [holds mkText c_fci c_font c_size c_style c_cs c_x c_y c_pageH c_cell c_rect c_opt c_color c_text p p_font p_fv p_size p_style p_cs p_x p_y p_pageH p_cell p_rect p_align p_text flat_map app].
          repeat (split; [first [reflexivity|exact (K4 _ _ eq_refl)|exact PC]|]). split; [constructor|exact Logic.I].
        * exact K2.
        * cbn [s_caches withxy withc add]. rewrite texts_app. cbn [texts flat_map app]. apply Forall_app. split; [eapply Forall_impl; [|exact K3]; intros t; exact (fun z => z)|]. constructor; [|constructor].
          split; [exact K2|]. split; [cbn; lia|]. cbn. split; discriminate.
        * cbn [s_font withxy withc add]. rewrite FT. exact K4.
        * cbn [s_caches withxy withc add]. apply Forall_app. split; [exact K5|]. repeat constructor.
      + rewrite CC, concat_app. cbn [List.concat]. now rewrite app_nil_r.
      + exact OR.
      + left. assert (CL : closed (withxy N (add N s (CText N (mkText N s fc f None false true (opt0 N)))) (s_x N s +. pointsToUnits N (s_cfg N s) width) (s_y N s) (s_setx N s))).
        { intros c ((pre & P) & _ & PH & _). cbn [s_caches withxy withc add] in P. apply app_inj_tail in P as [_ P]. injection P as <-. discriminate PH. }
        split; [now apply closed_atEnd|auto].
  Qed.
  Lemma otcol_fill t : otcol N t = [fill_op N t]. Proof. destruct t; reflexivity. Qed.
  Lemma holds_shown s e c grp : tinv s c -> showsText N e c -> holds c grp -> shown N e grp.
  Proof.
    intros (TM & _) (g & -> & A1 & A2 & A3) H. destruct grp as [|p ps]; [contradiction|]. destruct H as (Q1 & Q2 & Q2' & Q3 & Q4 & Q5 & Q6 & Q7 & Q8 & Q9 & Q9r & Q9a & Q10 & Q11 & Q12 & Q13).
    split; [|auto]. eexists. eexists. eexists. split; [reflexivity|]. split; [rewrite A1, Q1, Q3; reflexivity|]. split; [rewrite A2, Q5; reflexivity|]. split; [|split].
    - intros t PT. rewrite Q10 in PT. assert (M : c_mode N c = true) by (apply TM; rewrite PT; discriminate). specialize (A3 M t PT). rewrite otcol_fill in A3. now injection A3.
    - intros PC. rewrite PC in Q9. unfold calX, calY. rewrite Q9. rewrite Q6, Q7, Q8. reflexivity.
    - unfold items. cbn [codes flat_map app]. fold (codes (tjToks (c_font N c) (justOf N c) 0 0 0 [] (c_text N c) ++ [TClose])). rewrite codes_app, codes_tj. cbn [codes flat_map app]. rewrite app_nil_r. now rewrite Q2, Q11.
  Qed.
  Lemma shown_caches (s s' : ds N) (calls : list (call N)) (content : bytes) :
    s_caches N s = [] -> s_font N s = None -> s_mode N s = false -> s_color N s = None ->
    fonts_named N ft calls -> orderly N false calls ->
    run N s calls = Some s' -> content_write N rot (s_caches N s') = Some content ->
    exists groups ts, List.concat groups = pieces N s calls /\ Forall2 (showsText N) (shows content) ts /\ Forall2 holds ts groups /\ Forall (tinv s') ts.
  Proof using NP.
    intros E F M C FN OR R W.
    assert (K : core s []).
    { split; rewrite ?E, ?F, ?M, ?C; try constructor; try discriminate. intros H. now contradiction H. }
    assert (CL : closed s) by (intros c ((pre & P) & _); rewrite E in P; destruct pre; discriminate).
    destruct (history calls false s [] s' FN OR K) as (G & [K1 K2 K3 K4 K5] & CG); [left; split; [now apply closed_atEnd|auto]|exact R|].
    exists G, (texts N (s_caches N s')). split; [exact CG|]. pose proof (content_shows N rot NP _ _ K5 W) as SH. auto.
  Qed.
  (** C40: on a fresh page, after any orderly history, the texts the viewer shows are exactly the pieces drawn,
      grouped into text objects: each group is shown with the font, size, spacing and colour all its pieces had when
      they were drawn, at the position of its first piece; every later piece of a group was drawn where the measured
      text before it ends; the glyphs are those of the pieces in order. *)
  Theorem C40_attributes (s s' : ds N) (calls : list (call N)) (content : bytes) :
    s_caches N s = [] -> s_font N s = None -> s_mode N s = false -> s_color N s = None ->
    fonts_named N ft calls -> orderly N false calls ->
    run N s calls = Some s' -> content_write N rot (s_caches N s') = Some content ->
    exists groups, List.concat groups = pieces N s calls /\ Forall2 (shown N) (shows content) groups.
  Proof using NP.
    intros E F M C FN OR R W. destruct (shown_caches s s' calls content E F M C FN OR R W) as (G & ts & CG & SH & K1 & K3).
    exists G. split; [exact CG|]. clear - SH K1 K3. revert G K1 K3. generalize dependent (shows content).
    intros es SH. induction SH as [|e c es ts S1 SH IH]; intros G K1 K3; inversion K1; subst; [constructor|]. inversion K3; subst. constructor; [eapply holds_shown; eassumption|now apply IH].
  Qed.
End C40.

(** ** A concrete history: two texts merged, then a cell, a coloured text *)
Definition tcalls (N : num) : list (call N) :=
  [SetFont N 0 dfont (nofZ N 12) 0; SetXY N (nofZ N 30) (nofZ N 40); Text N (bs "AV"); Text N (bs " b"); SetXY N (nofZ N 30) (nofZ N 60);
   Cell N (Some (Build_rect N (nofZ N 100) (nofZ N 20) (defcfg N 0))) (bs "cell"); SetTextColor N 255 0 0; Text N (bs "c"); Br N (nofZ N 15); SetX N (nofZ N 30); Text N (bs "d")].
Definition tcontent : bytes := Eval vm_compute in got (outcome F64 (norot F64) (dpage F64) (tcalls F64)).
Example C40_met :
  fonts_named F64 (fun _ => dfont) (tcalls F64) /\ orderly F64 false (tcalls F64) /\ outcome F64 (norot F64) (dpage F64) (tcalls F64) = Some tcontent /\
  map (p_text F64) (pieces F64 (dpage F64) (tcalls F64)) = [bs "AV"; bs " b"; bs "cell"; bs "c"; bs "d"] /\ List.length (shows tcontent) = 4%nat.
Proof.
  split; [|split; [|split; [|split]]].
  - intros n f size st H. repeat (destruct H as [H|H]; [try discriminate H; now injection H as _ <-|]). contradiction.
  - cbn. repeat split; discriminate.
  - vm_compute. reflexivity.
  - vm_compute. reflexivity.
  - vm_compute. reflexivity.
Qed.

(** ** The full property is false outside orderly histories *)
Definition all_shown (N : num) (s : ds N) (calls : list (call N)) (content : bytes) : Prop :=
  exists groups, List.concat groups = pieces N s calls /\ Forall2 (shown N) (shows content) groups.
Lemma one_show N s calls content : List.length (shows content) = 1%nat -> all_shown N s calls content -> exists e, shown N e (pieces N s calls).
Proof.
  intros L (G & C & F). destruct (shows content) as [|e [|]]; try discriminate. inversion F as [|? grp ? ? S1 F1]; subst. inversion F1; subst. cbn [List.concat] in C. rewrite app_nil_r in C. subst. now exists e.
Qed.
Lemma shown_second N e l p q r : shown N e l -> l = p :: q :: r -> same_attrs N p q /\ exists wd, text_width N (p_fv N p) (p_size N p) (p_cs N p) (p_text N p) = Some wd /\ p_x N q = nadd N (p_x N p) wd.
Proof. intros S ->. destruct S as (_ & F & (C & _)). split; [now inversion F|exact C]. Qed.
Lemma two_of {A B} (f : A -> B) l a b : map f l = [a; b] -> exists p q, l = [p; q] /\ f p = a /\ f q = b.
Proof. destruct l as [|p [|q [|]]]; try discriminate. intros [= <- <-]. now exists p, q. Qed.
Definition f0 : call F64 := SetFont F64 0 dfont (f64_ofZ 12) 0.
(** A Text directly followed by a Cell: the cell becomes part of the text; its rectangle, alignment and border are lost. *)
Definition r1 : list (call F64) := [f0; Text F64 (bs "a"); Cell F64 (Some (Build_rect F64 (f64_ofZ 100) (f64_ofZ 20) (defcfg F64 0))) (bs "b")].
(** A Cell without rectangle directly followed by a Text: the text becomes part of the cell. *)
Definition r2 : list (call F64) := [f0; Cell F64 None (bs "a"); Text F64 (bs "b")].
(** Br(0) moves the pen to the left margin, but the next text continues the previous one. *)
Definition r3 : list (call F64) := [f0; SetX F64 (f64_ofZ 100); Text F64 (bs "a"); Br F64 (f64_ofZ 0); Text F64 (bs "b")].
(** Red text after gray text is shown gray. *)
Definition r4 : list (call F64) := [f0; SetTextColor F64 255 0 0; SetGrayFill F64 (f64_ofZ 0); Text F64 (bs "a"); SetTextColor F64 255 0 0; Text F64 (bs "b")].
Definition rc (l : list (call F64)) : bytes := got (outcome F64 (norot F64) (dpage F64) l).
Theorem C40_text_then_cell_refuted : exists content, outcome F64 (norot F64) (dpage F64) r1 = Some content /\ ~ all_shown F64 (dpage F64) r1 content.
Proof.
  exists (rc r1). split; [vm_compute; reflexivity|]. intros A. apply one_show in A as (e & A); [|vm_compute; reflexivity].
  destruct (two_of (p_cell F64) (pieces F64 (dpage F64) r1) false true ltac:(vm_compute; reflexivity)) as (p & q & E & P & Q).
  destruct (shown_second _ _ _ _ _ _ A E) as ((_ & _ & _ & _ & _ & _ & _ & _ & X) & _). rewrite Q in X. discriminate X.
Qed.
Theorem C40_nil_cell_then_text_refuted : exists content, outcome F64 (norot F64) (dpage F64) r2 = Some content /\ ~ all_shown F64 (dpage F64) r2 content.
Proof.
  exists (rc r2). split; [vm_compute; reflexivity|]. intros A. apply one_show in A as (e & A); [|vm_compute; reflexivity].
  destruct (two_of (p_cell F64) (pieces F64 (dpage F64) r2) true false ltac:(vm_compute; reflexivity)) as (p & q & E & P & Q).
  destruct (shown_second _ _ _ _ _ _ A E) as ((_ & _ & _ & _ & _ & _ & _ & X & _) & _). rewrite P in X. discriminate X.
Qed.
Theorem C40_br_zero_refuted : exists content, outcome F64 (norot F64) (dpage F64) r3 = Some content /\ ~ all_shown F64 (dpage F64) r3 content.
Proof.
  exists (rc r3). split; [vm_compute; reflexivity|]. intros A. apply one_show in A as (e & A); [|vm_compute; reflexivity].
  assert (P : map (p_x F64) (pieces F64 (dpage F64) r3) = [f64_ofZ 100; f64_ofZ 10]) by (vm_compute; reflexivity). apply two_of in P as (p & q & E & P & Q).
  destruct (shown_second _ _ _ _ _ _ A E) as (_ & wd & W & X).
  assert (WW : map (fun p => text_width F64 (p_fv F64 p) (p_size F64 p) (p_cs F64 p) (p_text F64 p)) (pieces F64 (dpage F64) r3) = [Some (f64_ofZ 6); Some (f64_ofZ 6)]) by (vm_compute; reflexivity).
  rewrite E in WW. injection WW as W1 _. rewrite W1 in W. injection W as <-. rewrite P, Q in X. vm_compute in X. discriminate.
Qed.
Theorem C40_gray_then_colour_refuted : exists content, outcome F64 (norot F64) (dpage F64) r4 = Some content /\ ~ all_shown F64 (dpage F64) r4 content.
Proof.
  exists (rc r4). split; [vm_compute; reflexivity|]. intros A. apply one_show in A as (e & A); [|vm_compute; reflexivity].
  destruct (two_of (p_col F64) (pieces F64 (dpage F64) r4) None (Some (RGB 255 0 0)) ltac:(vm_compute; reflexivity)) as (p & q & E & P & Q).
  destruct (shown_second _ _ _ _ _ _ A E) as ((_ & _ & _ & _ & _ & X & _) & _). rewrite P, Q in X. discriminate X.
Qed.
Print Assumptions C40_attributes.
Print Assumptions C40_br_zero_refuted.
Print Assumptions C40_gray_then_colour_refuted.
Print Assumptions C40_nil_cell_then_text_refuted.
Print Assumptions C40_text_then_cell_refuted.
