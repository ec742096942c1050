(** DrawLex.v — what a reader finds in the text each content cache writes: its operators and operands. *)
From Verif Require Import Base StrModel NumModel UnitModel DrawModel DrawSpec.

Notation W b := (TWord b).
Notation E acc l := (ops_from acc (lex LIdle l)).

(** ** Lexing numbers *)
Lemma numchar_regular b : numchar b = true -> is_regular b = true.
Proof. unfold numchar. rewrite existsb_exists. intros (x & I & H). apply Z.eqb_eq in H. subst b. cbn in I. repeat (destruct I as [<-|I]; [reflexivity|]). contradiction. Qed.
Lemma numtext_regular l : numtext l -> forallb is_regular l = true.
Proof. intros H. apply numtext_chars in H. rewrite forallb_forall in *. intros x Hx. now apply numchar_regular, H. Qed.
Lemma numtext_ne l : numtext l -> l <> [].
Proof. intros [->|(b & r & -> & _)]; discriminate. Qed.
Lemma numstart_ops : forallb (fun o => match o with [] => true | b :: _ => negb (numstart b) end) operators = true.
Proof. vm_compute. reflexivity. Qed.
Lemma numtext_notop l : numtext l -> is_op l = false.
Proof.
  intros [->|(b & r & -> & S & _)]; [vm_compute; reflexivity|]. unfold is_op. destruct (existsb (list_eqb (b :: r)) operators) eqn:X; [|reflexivity].
  apply existsb_exists in X as (o & I & Q). apply list_eqb_eq in Q. subst o. pose proof numstart_ops as A. rewrite forallb_forall in A. specialize (A _ I). cbv beta iota in A. rewrite S in A. discriminate.
Qed.
Lemma lex_word_run wd : forall acc b r, forallb is_regular wd = true -> is_regular b = false ->
  lex (LWord acc) (wd ++ b :: r) = TWord (acc ++ wd) :: lex LIdle (b :: r).
Proof.
  induction wd as [|c wd IH]; intros acc b r R NB.
  - cbn [app]. rewrite app_nil_r. cbn [lex lstep]. rewrite NB. destruct (idle b) as [t s]. reflexivity.
  - cbn [forallb] in R. apply andb_true_iff in R as [R1 R2]. cbn [app lex lstep]. rewrite R1. cbn [fst snd app]. rewrite IH by assumption. now rewrite <- app_assoc.
Qed.
Lemma lex_name_run wd : forall acc b r, forallb is_regular wd = true -> is_regular b = false ->
  lex (LName acc) (wd ++ b :: r) = TName (acc ++ wd) :: lex LIdle (b :: r).
Proof.
  induction wd as [|c wd IH]; intros acc b r R NB.
  - cbn [app]. rewrite app_nil_r. cbn [lex lstep]. rewrite NB. destruct (idle b) as [t s]. reflexivity.
  - cbn [forallb] in R. apply andb_true_iff in R as [R1 R2]. cbn [app lex lstep]. rewrite R1. cbn [fst snd app]. rewrite IH by assumption. now rewrite <- app_assoc.
Qed.
Lemma lex_word wd b r : wd <> [] -> forallb is_regular wd = true -> is_regular b = false -> lex LIdle (wd ++ b :: r) = TWord wd :: lex LIdle (b :: r).
Proof.
  destruct wd as [|c wd]; [contradiction|]. intros _ R NB. cbn [forallb] in R. apply andb_true_iff in R as [R1 R2]. cbn [app].
  unfold is_regular in R1. apply andb_true_iff in R1 as [A1 A2]. apply negb_true_iff in A1, A2. pose proof A2 as A3.
  assert (I : idle c = ([], LWord [c])).
  { unfold idle. rewrite A1. unfold is_delim in A2. cbn in A2. repeat (apply orb_false_iff in A2 as [?Q A2]).
    assert (47 =? c = (c =? 47)) by lia. destruct (Z.eqb_spec c 47) as [->|]; [discriminate|]. destruct (Z.eqb_spec c 60) as [->|]; [discriminate|].
    destruct (Z.eqb_spec c 91) as [->|]; [discriminate|]. destruct (Z.eqb_spec c 93) as [->|]; [discriminate|].
    rewrite A3. reflexivity. }
  change (lex LIdle (c :: wd ++ b :: r)) with (fst (idle c) ++ lex (snd (idle c)) (wd ++ b :: r)). rewrite I. cbn [fst snd app]. now apply (lex_word_run wd [c]).
Qed.
Lemma E_num acc wd b r : numtext wd -> is_regular b = false -> E acc (wd ++ b :: r) = E (acc ++ [W wd]) (b :: r).
Proof.
  intros H NB. rewrite lex_word; [|now apply numtext_ne|now apply numtext_regular|exact NB]. cbn [ops_from]. now rewrite numtext_notop.
Qed.
Lemma E_name pre wd b r : numtext wd -> is_regular b = false -> lex (LName pre) (wd ++ b :: r) = TName (pre ++ wd) :: lex LIdle (b :: r).
Proof. intros H NB. apply lex_name_run; [now apply numtext_regular|exact NB]. Qed.

(** ** The operators each cache writes *)
Section Ops.
  Variable N : num.
  Variable rot : T N -> T N * T N.
  Hypothesis NP : num_prints N.
  Notation T := (T N).
  Infix "+." := (nadd N) (at level 50, left associativity).
  Infix "-." := (nsub N) (at level 50, left associativity).
  Infix "*." := (nmul N) (at level 40, left associativity).
  Infix "/." := (ndiv N) (at level 40, left associativity).
  Notation f2 := (nfmt N 2).
  Notation nZ := (nofZ N).
  Definition n2 (x : T) : tok := W (f2 x).
  Definition n3 (x : T) : tok := W (nfmt N 3 x).
  Definition n4 (x : T) : tok := W (nfmt N 4 x).
  Definition n5 (x : T) : tok := W (nfmt N 5 x).
  Definition int (z : Z) : tok := W (fmt_d z).
  Definition o (args : list tok) (name : string) : op := (args, bs name).

  Lemma fnum k x : numtext (nfmt N k x). Proof. apply NP. Qed.
  Lemma ftrim x : numtext (nfmtTrim N x). Proof. apply NP. Qed.

  Ltac lits := unfold w, sp, nl, NL; repeat match goal with |- context [bs ?s] => let v := eval vm_compute in (bs s) in change (bs s) with v end; cbn [app].
  Ltac lx1 := match goal with
    | |- context [is_op ?x] => let v := eval vm_compute in (is_op x) in change (is_op x) with v
    | |- context [ops_from ?acc (lex LIdle (nfmt N ?k ?x ++ ?b :: ?r))] => rewrite (E_num acc (nfmt N k x) b r (fnum k x) eq_refl)
    | |- context [ops_from ?acc (lex LIdle (nfmtTrim N ?x ++ ?b :: ?r))] => rewrite (E_num acc (nfmtTrim N x) b r (ftrim x) eq_refl)
    | |- context [lex (LName ?p) (fmt_d ?i ++ ?b :: ?r)] => rewrite (E_name p (fmt_d i) b r (fmt_d_num i) eq_refl)
    | |- context [lex ?st (?b :: ?r)] => let v := eval vm_compute in (lstep st b) in change (lex st (b :: r)) with (fst v ++ lex (snd v) r); cbn [fst snd app ops_from]
    end; cbn [app ops_from].
  Ltac norm := repeat (progress (repeat rewrite <- app_assoc; cbn [app])).
  Ltac lx := lits; norm; repeat lx1.

  Definition gs_ops (l : list Z) : list op := map (fun i => o [TName (bs "GS" ++ fmt_d i)] "gs") l.
  Lemma E_white acc b r : is_white b = true -> E acc (b :: r) = E acc r.
  Proof. intros H. cbn [lex lstep]. unfold idle. rewrite H. reflexivity. Qed.
  (** one literal operator after a blank *)
  Lemma E_op acc wd b r : is_op wd = true -> wd <> [] -> forallb is_regular wd = true -> is_regular b = false ->
    E acc (wd ++ b :: r) = (acc, wd) :: E [] (b :: r).
  Proof. intros O NE R NB. rewrite lex_word by assumption. cbn [ops_from]. now rewrite O. Qed.
  Lemma E_gs l : forall r, E [] (gs_write l ++ r) = gs_ops l ++ E [] r.
  Proof.
    induction l as [|i l IH]; intros r; [reflexivity|]. change (gs_write (i :: l)) with ((w "/GS" ++ fmt_d i ++ w " gs" ++ nl) ++ gs_write l).
    rewrite <- !app_assoc. cbn [gs_ops map app]. change (E [] (w "/GS" ++ fmt_d i ++ w " gs" ++ nl ++ gs_write l ++ r)) with (ops_from [] (lex (LName (bs "GS")) (fmt_d i ++ 32 :: (bs "gs" ++ NL :: gs_write l ++ r)))).
    rewrite E_name by (apply fmt_d_num || reflexivity). cbn [ops_from app].
    rewrite E_white by reflexivity. rewrite E_op by (reflexivity || discriminate). rewrite E_white by reflexivity. rewrite IH. reflexivity.
  Qed.

  (** tokens of the array of a TJ operator, read from inside its first string *)
  Fixpoint tjToks (f : fontv) (just : option (Z * Z * Z)) (i lr lg : Z) (acc : bytes) (txt : list Z) : list tok :=
    match txt with
    | [] => [THex acc]
    | r :: t =>
        match fv_ci f r with
        | None => tjToks f just (i + 1) lr lg acc t
        | Some g =>
            let kv := if (0 <? i) && fv_useKern f then ttf2pdf (fv_pair f lr r lg g) (fv_upem f) else 0 in
            let acc1 := if kv =? 0 then acc else [] in
            let j := match just with Some (adj, fi, la) => (r =? 32) && (fi <? i) && (i <? la) | None => false end in
            let adj := match just with Some (adj, _, _) => adj | None => 0 end in
            (if kv =? 0 then [] else [THex acc; int (- kv)])
            ++ (if j then [THex (acc1 ++ hex4 g); int adj] else [])
            ++ tjToks f just (i + 1) r g (if j then [] else acc1 ++ hex4 g) t
        end
    end.
  Lemma hex_aux_plain fuel : forall n acc, forallb (fun b => negb (b =? 62)) acc = true -> forallb (fun b => negb (b =? 62)) (hex_aux fuel n acc) = true.
  Proof.
    induction fuel as [|k IH]; intros n acc A; [exact A|]. cbn [hex_aux]. cbv zeta.
    assert (B : forallb (fun b => negb (b =? 62)) (hexdigit (n mod 16) :: acc) = true).
    { cbn [forallb]. rewrite A, andb_true_r. unfold hexdigit. pose proof (Z.mod_pos_bound n 16). destruct (_ <? _) eqn:X; lia. }
    destruct (n <? 16); [exact B|apply IH, B].
  Qed.
  Lemma hex4_plain g : forallb (fun b => negb (b =? 62)) (hex4 g) = true.
  Proof.
    unfold hex4, pad_left. rewrite forallb_app. unfold hex. rewrite hex_aux_plain by reflexivity. rewrite andb_true_r.
    apply forallb_forall. intros x Hx. apply repeat_spec in Hx. subst. reflexivity.
  Qed.
  Lemma lex_hex_run wd : forall acc r, forallb (fun b => negb (b =? 62)) wd = true -> lex (LHex acc) (wd ++ r) = lex (LHex (acc ++ wd)) r.
  Proof.
    induction wd as [|c wd IH]; intros acc r H; [now rewrite app_nil_r|]. cbn [forallb] in H. apply andb_true_iff in H as [H1 H2]. apply negb_true_iff in H1.
    cbn [app lex lstep]. rewrite H1. cbn [fst snd app]. rewrite IH by exact H2. now rewrite <- app_assoc.
  Qed.
  Lemma lex_close acc r : lex (LHex acc) (62 :: r) = THex acc :: lex LIdle r. Proof. reflexivity. Qed.
  Lemma lex_num_hex n r : lex LIdle (fmt_d n ++ 60 :: r) = int n :: lex (LHex []) r.
  Proof. rewrite lex_word; [reflexivity|now apply numtext_ne, fmt_d_num|now apply numtext_regular, fmt_d_num|reflexivity]. Qed.
  Lemma tj_lex f just txt : forall i lr lg acc r, lex (LHex acc) (tjLoop f just i lr lg txt ++ 62 :: r) = tjToks f just i lr lg acc txt ++ lex LIdle r.
  Proof.
    induction txt as [|c txt IH]; intros i lr lg acc r; [reflexivity|]. cbn [tjLoop tjToks]. destruct (fv_ci f c) as [g|]; [|apply IH]. cbv zeta.
    set (kv := if (0 <? i) && fv_useKern f then ttf2pdf (fv_pair f lr c lg g) (fv_upem f) else 0). set (adj := match just with Some (adj, _, _) => adj | None => 0 end).
    replace (match just with Some (a, fi, la) => if (c =? 32) && (fi <? i) && (i <? la) then w ">" ++ fmt_d a ++ w "<" else [] | None => [] end)
      with (if (match just with Some (a, fi, la) => (c =? 32) && (fi <? i) && (i <? la) | None => false end) then w ">" ++ fmt_d adj ++ w "<" else [])
      by (unfold adj; destruct just as [[[a fi] la]|]; reflexivity).
    set (j := match just with Some (a, fi, la) => (c =? 32) && (fi <? i) && (i <? la) | None => false end).
    change (w ">") with [62]. change (w "<") with [60].
    assert (A : forall acc', lex (LHex acc') ((hex4 g ++ (if j then [62] ++ fmt_d adj ++ [60] else []) ++ tjLoop f just (i + 1) c g txt) ++ 62 :: r)
                = (if j then [THex (acc' ++ hex4 g); int adj] else []) ++ tjToks f just (i + 1) c g (if j then [] else acc' ++ hex4 g) txt ++ lex LIdle r).
    { intros acc'. rewrite <- !app_assoc. rewrite lex_hex_run by apply hex4_plain. destruct j; cbn [app].
      - rewrite lex_close, <- !app_assoc. cbn [app]. rewrite lex_num_hex. now rewrite IH.
      - now rewrite IH. }
    destruct (kv =? 0); cbn [app].
    - rewrite A. now rewrite <- !app_assoc.
    - rewrite lex_close. rewrite <- app_assoc. rewrite <- app_assoc. cbn [app]. rewrite lex_num_hex, A. now rewrite <- !app_assoc.
  Qed.
  Definition not_word (t : tok) : bool := match t with TWord b => negb (is_op b) | _ => true end.
  Lemma ops_args l : forall acc r, forallb not_word l = true -> ops_from acc (l ++ r) = ops_from (acc ++ l) r.
  Proof.
    induction l as [|t l IH]; intros acc r H; [now rewrite app_nil_r|]. cbn [forallb] in H. apply andb_true_iff in H as [H1 H2].
    cbn [app]. destruct t; cbn [ops_from]; try (rewrite IH by exact H2; now rewrite <- app_assoc).
    cbn [not_word] in H1. apply negb_true_iff in H1. rewrite H1, IH by exact H2. now rewrite <- app_assoc.
  Qed.
  Lemma tj_args f just txt : forall i lr lg acc, forallb not_word (tjToks f just i lr lg acc txt) = true.
  Proof.
    assert (I : forall n, not_word (int n) = true) by (intros n; cbn [not_word int]; now rewrite (numtext_notop _ (fmt_d_num n))).
    induction txt as [|c txt IH]; intros; [reflexivity|]. cbn [tjToks]. destruct (fv_ci f c); [|apply IH]. cbv zeta. rewrite !forallb_app, IH.
    set (j := match just with Some (a, fi, la) => _ | None => false end); destruct j, (_ =? 0); cbn [forallb andb]; rewrite ?I; reflexivity.
  Qed.

  (** ** Operators of each cache *)
  Definition oseg (x1 y1 x2 y2 : T) (p : string) : list op := [o [n2 x1; n2 y1] "m"; o [n2 x2; n2 y2] "l"; o [] p].
  Definition lit (s : string) : tok := W (bs s).
  Definition orot (x y angle pageH : T) : list op :=
    let '(c, s) := rot angle in
    let cy := pageH -. y in
    [o [n5 c; n5 s; n5 (nneg N s); n5 c; n2 x; n2 cy] "cm"; o [lit "1"; lit "0"; lit "0"; lit "1"; n2 (nneg N x); n2 (nneg N cy)] "cm"].
  Fixpoint opath (pageH : T) (first : bool) (pts : list (T * T)) : list op :=
    match pts with
    | [] => []
    | (x, y) :: r => o [n2 x; n2 (pageH -. y)] (if first then "m" else "l") :: opath pageH false r
    end.
  Definition orgb (r g b : Z) (p : string) : list op := [o [n3 (b255 N r); n3 (b255 N g); n3 (b255 N b)] p].
  Definition ocmyk (c m y k : Z) (p : string) : list op := [o [n2 (pct N c); n2 (pct N m); n2 (pct N y); n2 (pct N k)] p].
  Definition otcol (t : tcol) : list op := match t with RGB r g b => orgb r g b "rg" | CMYK c m y k => ocmyk c m y k "k" end.

  Lemma E_seg x1 y1 x2 y2 p r : (p = "s" \/ p = "S")%string -> E [] (seg N x1 y1 x2 y2 p ++ r) = oseg x1 y1 x2 y2 p ++ E [] r.
  Proof. intros [->| ->]; unfold seg; lx; reflexivity. Qed.
  Lemma E_rot x y a h r : E [] (rotMatrix N rot x y a h ++ r) = orot x y a h ++ E [] r.
  Proof. unfold rotMatrix, orot. destruct (rot a) as [c s]. cbv zeta. lx. reflexivity. Qed.
  Lemma E_path h pts : forall first r, E [] (path N h first pts ++ r) = opath h first pts ++ E [] r.
  Proof.
    induction pts as [|[x y] pts IH]; intros first r; [reflexivity|]. cbn [path opath].
    destruct first; lx; rewrite IH; reflexivity.
  Qed.
  Lemma E_rgb c g b p r : In p ["rg"; "RG"]%string -> E [] (rgb_text N c g b p ++ r) = orgb c g b p ++ E [] r.
  Proof. intros [<-|[<-|[]]]; unfold rgb_text; lx; reflexivity. Qed.
  Lemma E_cmyk c m y k p r : In p ["k"; "K"]%string -> E [] (cmyk_text N c m y k p ++ r) = ocmyk c m y k p ++ E [] r.
  Proof. intros [<-|[<-|[]]]; unfold cmyk_text; lx; reflexivity. Qed.
  Lemma E_tcol t r : E [] (tcol_write N t ++ r) = otcol t ++ E [] r.
  Proof. destruct t; [apply E_rgb|apply E_cmyk]; cbn; auto. Qed.

  Definition oborder (c : ctext N) : list op :=
    let lo := c_lw N c *. nfrac N 1 2 in
    let top := c_pageH N c -. c_y N c in
    let x := c_x N c in let cw := c_cw N c in let ch := c_ch N c in
    let b := o_border N (c_opt N c) in
    (if has b oTop then oseg (x -. lo) top (x +. cw +. lo) top "s" else [])
    ++ (if has b oLeft then oseg x top x (top -. ch) "s" else [])
    ++ (if has b oRight then oseg (x +. cw) top (x +. cw) (top -. ch) "s" else [])
    ++ (if has b oBottom then oseg (x -. lo) (top -. ch) (x +. cw +. lo) (top -. ch) "s" else []).
  Definition ounderline (c : ctext N) : list op :=
    let f := c_font N c in
    let asc := px N (fv_asc f) (fv_upem f) (c_size N c) in
    let desc := nneg N (px N (fv_desc f) (fv_upem f) (c_size N c)) in
    let leading := (asc +. desc -. coef N (o_clh N (c_opt N c)) *. c_size N c) /. nZ 2 in
    let baseline := asc +. leading in
    let upos := px N (fv_upos f) (fv_upem f) (c_size N c) *. coef N (o_cup N (c_opt N c)) in
    let uth := px N (fv_uthick f) (fv_upem f) (c_size N c) *. coef N (o_cut N (c_opt N c)) in
    [o [n2 (c_x N c); n2 (c_pageH N c -. c_y N c +. upos -. baseline); n2 (c_cw N c); n2 uth] "re"; o [] "f"].
  (** between BT and ET *)
  Definition otextobj (c : ctext N) : list op :=
    o [] "BT" :: o [n2 (calX N c); n2 (calY N c)] "TD"
    :: o [TName (bs "F" ++ fmt_d (c_fci N c)); W (nfmtTrim N (c_size N c))] "Tf" :: o [W (nfmtTrim N (c_cs N c))] "Tc"
    :: (if c_mode N c then match c_color N c with Some t => otcol t | None => [] end else [])
    ++ [o (TOpen :: tjToks (c_font N c) (justOf N c) 0 0 0 [] (c_text N c) ++ [TClose]) "TJ"; o [] "ET"].
  Definition otext (c : ctext N) : list op :=
    let gs := o_gs N (c_opt N c) in
    let tr := match gs with [] => false | _ => true end in
    (if tr then [o [] "q"] else []) ++ gs_ops gs ++ otextobj c
    ++ (if has (c_style N c) styUnderline then ounderline c else []) ++ oborder c ++ (if tr then [o [] "Q"] else []).

  Lemma E_border c r : E [] (drawBorder N c ++ r) = oborder c ++ E [] r.
  Proof.
    unfold drawBorder, oborder. cbv zeta. rewrite <- !app_assoc.
    destruct (has _ oTop); [rewrite E_seg by auto|cbn [app]]; (destruct (has _ oLeft); [rewrite E_seg by auto|cbn [app]]);
      (destruct (has _ oRight); [rewrite E_seg by auto|cbn [app]]); (destruct (has _ oBottom); [rewrite E_seg by auto|cbn [app]]); reflexivity.
  Qed.
  Lemma E_underline c r : E [] (underline N c ++ r) = ounderline c ++ E [] r.
  Proof. unfold underline, ounderline. cbv zeta. lx. reflexivity. Qed.
  Lemma lstep_regular acc b : is_regular b = true -> lstep (LName acc) b = ([], LName (acc ++ [b])).
  Proof. intros H. cbn [lstep]. now rewrite H. Qed.
  Lemma E_text c b r : text_write N c = Some b -> E [] (b ++ r) = otext c ++ E [] r.
  Proof.
    unfold text_write. set (col := if c_mode N c then match c_color N c with Some t => Some (tcol_write N t) | None => None end else Some []).
    destruct col as [colour|] eqn:C; [|discriminate]. intros [= <-].
    assert (CO : forall r, E [] (colour ++ r) = (if c_mode N c then match c_color N c with Some t => otcol t | None => [] end else []) ++ E [] r).
    { intros r0. unfold col in C. destruct (c_mode N c); [destruct (c_color N c); [|discriminate]|]; injection C as <-; [apply E_tcol|reflexivity]. }
    clear C col. unfold otext, otextobj. set (tr := match o_gs N (c_opt N c) with [] => false | _ => true end).
    repeat rewrite <- app_assoc.
    assert (Q1 : forall r, E [] ((if tr then w "q" ++ nl else []) ++ r) = (if tr then [o [] "q"] else []) ++ E [] r).
    { intros r0. destruct tr; lx; reflexivity. }
    rewrite Q1. rewrite E_gs. f_equal. f_equal. lx. rewrite CO. cbn [app]. do 4 (apply f_equal2; [reflexivity|]). rewrite <- ?app_assoc. f_equal.
    lits. lx1. lx1. rewrite tj_lex. rewrite ops_args by apply tj_args. repeat lx1. rewrite <- ?app_assoc. cbn [app]. do 2 (apply f_equal2; [reflexivity|]).
    assert (U : forall r, E [] ((if has (c_style N c) styUnderline then underline N c else []) ++ r) = (if has (c_style N c) styUnderline then ounderline c else []) ++ E [] r).
    { intros r0. destruct (has _ _); [apply E_underline|reflexivity]. }
    rewrite U, E_border. f_equal. f_equal. destruct tr; lx; reflexivity.
  Qed.

  Definition oimage (i : cimage N) : list op :=
    let width := im_w N i in let height := im_h N i in
    let '(ow, oh) := match im_crop N i with Some (_, _, cw, ch) => (cw, ch) | None => (width, height) end in
    (if im_mask N i then [] else o [] "q" :: orot (im_x N i +. ow /. nZ 2) (im_y N i +. oh /. nZ 2) (im_angle N i) (im_pageH N i))
    ++ o [] "q" :: gs_ops (im_gs N i)
    ++ (if im_hflip N i || im_vflip N i
        then [o [lit (if im_hflip N i then "-1" else "1"); lit "0"; lit "0"; lit (if im_vflip N i then "-1" else "1"); lit "0"; lit "0"] "cm"] else [])
    ++ (let x := im_x N i in let y := im_pageH N i -. im_y N i in
        let '(clip, x, y) :=
          match im_crop N i with
          | Some (cx, cy, cw, ch) =>
              let clX := if im_hflip N i then nneg N x -. cw else x in
              let clY := if im_vflip N i then nneg N (y -. ch) -. ch else y -. ch in
              let x' := x -. cx in
              let y' := y +. (cy -. height) in
              ([o [n2 clX; n2 clY; n2 cw; n2 ch] "re"; o [] "W*"; o [] "n"],
               if im_hflip N i then nneg N x' -. width else x', if im_vflip N i then nneg N y' -. height else y')
          | None =>
              let y' := y -. height in
              ([], if im_hflip N i then nneg N x -. width else x, if im_vflip N i then nneg N y' -. height else y')
          end in
        clip
        ++ o [] "q" ::
           (if im_mask N i
            then let a := im_maskAngle N i +. im_angle N i in
                 if neq N a (nZ 0) then [] else orot (im_x N i +. width /. nZ 2) (im_y N i +. height /. nZ 2) a (im_pageH N i)
            else [])
        ++ [o [n2 width; lit "0"; lit "0"; n2 height; n2 x; n2 y] "cm"; o [TName (bs "I" ++ fmt_d (im_index N i + 1))] "Do"; o [] "Q"; o [] "Q"])
    ++ (if im_mask N i then [] else [o [] "Q"]).
  Lemma E_nil r : E [] ([] ++ r) = [] ++ E [] r. Proof. reflexivity. Qed.
  Lemma E_image i r : E [] (image_write N rot i ++ r) = oimage i ++ E [] r.
  Proof.
    unfold image_write, oimage. cbv zeta.
    set (P := match im_crop N i with Some (_, _, cw, ch) => (cw, ch) | None => (im_w N i, im_h N i) end). destruct P as [ow oh].
    assert (Q1 : forall r, E [] ((if im_mask N i then [] else w "q" ++ nl ++ sp ++ rotMatrix N rot (im_x N i +. ow /. nZ 2) (im_y N i +. oh /. nZ 2) (im_angle N i) (im_pageH N i)) ++ r)
      = (if im_mask N i then [] else o [] "q" :: orot (im_x N i +. ow /. nZ 2) (im_y N i +. oh /. nZ 2) (im_angle N i) (im_pageH N i)) ++ E [] r).
    { intros r0. destruct (im_mask N i); [reflexivity|]. lx. rewrite E_rot. reflexivity. }
    assert (Q2 : forall r, E [] ((if im_hflip N i || im_vflip N i
        then (if im_hflip N i then w "-1" else w "1") ++ w " 0 0 " ++ (if im_vflip N i then w "-1" else w "1") ++ w " 0 0 cm" ++ nl else []) ++ r)
      = (if im_hflip N i || im_vflip N i
        then [o [lit (if im_hflip N i then "-1" else "1"); lit "0"; lit "0"; lit (if im_vflip N i then "-1" else "1"); lit "0"; lit "0"] "cm"] else []) ++ E [] r).
    { intros r0. destruct (im_hflip N i), (im_vflip N i); cbn [orb]; lx; reflexivity. }
    assert (Q3 : forall r, E [] ((if im_mask N i then if neq N (im_maskAngle N i +. im_angle N i) (nZ 0) then [] else rotMatrix N rot (im_x N i +. im_w N i /. nZ 2) (im_y N i +. im_h N i /. nZ 2) (im_maskAngle N i +. im_angle N i) (im_pageH N i) else []) ++ r)
      = (if im_mask N i then if neq N (im_maskAngle N i +. im_angle N i) (nZ 0) then [] else orot (im_x N i +. im_w N i /. nZ 2) (im_y N i +. im_h N i /. nZ 2) (im_maskAngle N i +. im_angle N i) (im_pageH N i) else []) ++ E [] r).
    { intros r0. destruct (im_mask N i); [|reflexivity]. destruct (neq _ _ _); [reflexivity|apply E_rot]. }
    assert (Q4 : forall r, E [] ((if im_mask N i then [] else w "Q" ++ nl) ++ r) = (if im_mask N i then [] else [o [] "Q"]) ++ E [] r).
    { intros r0. destruct (im_mask N i); [reflexivity|]. lx. reflexivity. }
    repeat rewrite <- app_assoc. rewrite Q1. f_equal. lits. do 2 lx1. cbn [app]. f_equal. repeat rewrite <- app_assoc. rewrite E_gs. f_equal. rewrite Q2. f_equal.
    destruct (im_crop N i) as [[[[cx cy] cw] ch]|]; norm; repeat lx1; rewrite Q3; norm; repeat lx1; rewrite Q4; reflexivity.
  Qed.

  Definition name_ok (name : bytes) : Prop := exists wd, name = 47 :: wd /\ forallb is_regular wd = true.
  Definition odash (l : list T) : list tok := TOpen :: map n2 l ++ [TClose].
  Definition cache_ops (c : cache N) : list op :=
    match c with
    | CText _ t => otext t
    | CLine _ h x1 y1 x2 y2 gs => o [] "q" :: gs_ops gs ++ oseg x1 (h -. y1) x2 (h -. y2) "S" ++ [o [] "Q"]
    | CRect _ h x y wd ht st gs =>
        o [] "q" :: gs_ops gs ++ [o [n2 x; n2 (h -. y); n2 wd; n2 ht] "re"; o [] (match st with PSdraw => "S" | PSfill => "f" | PSdrawfill => "B" end); o [] "Q"]
    | COval _ h x1 y1 x2 y2 =>
        let cp := nfrac N 55228 100000 in
        let dx := (x2 -. x1) /. nZ 2 in let dy := (y2 -. y1) /. nZ 2 in
        let v1x := x1 +. dx in let v1y := h -. y2 in
        let v2x := x2 in let v2y := h -. (y1 +. dy) in
        let v3x := x1 +. dx in let v3y := h -. y1 in
        let v4x := x1 in let v4y := h -. (y1 +. dy) in
        let c6 a b c d e g := o [n2 a; n2 b; n2 c; n2 d; n2 e; n2 g] "c" in
        [o [n2 v1x; n2 v1y] "m"; c6 (v1x +. dx *. cp) v1y v2x (v2y -. dy *. cp) v2x v2y;
         c6 v2x (v2y +. dy *. cp) (v3x +. dx *. cp) v3y v3x v3y;
         c6 (v3x -. dx *. cp) v3y v4x (v4y +. dy *. cp) v4x v4y;
         c6 v4x (v4y -. dy *. cp) (v1x -. dx *. cp) v1y v1x v1y; o [] "S"]
    | CCurve _ h x0 y0 x1 y1 x2 y2 x3 y3 st =>
        [o [n2 x0; n2 (h -. y0)] "m"; o [n2 x1; n2 (h -. y1); n2 x2; n2 (h -. y2); n2 x3; n2 (h -. y3)] "c";
         o [] (if beq st "F" then "f" else if beq st "FD" || beq st "DF" then "B" else "S")]
    | CLineWidth _ v => [o [n2 v] "w"]
    | CLineType _ t => [if beq t "dashed" then o [TOpen; lit "5"; TClose; lit "2"] "d"
                        else if beq t "dotted" then o [TOpen; lit "2"; lit "3"; TClose; lit "11"] "d" else o [TOpen; TClose; lit "0"] "d"]
    | CDash _ a p => [o (odash a ++ [n2 p]) "d"]
    | CGray _ st v => [o [n2 v] (if st then "G" else "g")]
    | CRGB _ st r g b => orgb r g b (if st then "RG" else "rg")
    | CCMYK _ st c m y k => ocmyk c m y k (if st then "K" else "k")
    | CImage _ i => oimage i
    | CPolygon _ h pts st gs =>
        o [] "q" :: gs_ops gs ++ opath h true pts ++ [o [] (if beq st "F" then "f" else if beq st "FD" || beq st "DF" then "b" else "s"); o [] "Q"]
    | CClip _ h pts => opath h true pts ++ [o [] "h"; o [] "W"; o [] "n"]
    | CSave _ => [o [] "q"]
    | CRestore _ | CRotateReset _ => [o [] "Q"]
    | CRotate _ h a x y => o [] "q" :: orot x y a h
    | CColorSpace _ n => [o [TName (bs "CS" ++ fmt_d (n + 1))] "CS"; o [lit "1.0000"] "SCN"]
    | CTemplate _ h name sx sy tx ty =>
        [o [] "q"; o [lit "0"] "J"; o [lit "1"] "w"; o [lit "0"] "j"; o [lit "0"] "G"; o [lit "0"] "g"; o [] "q";
         o [n4 sx; lit "0"; lit "0"; n4 sy; n4 tx; n4 (ty +. h)] "cm"; o [TName (tl name)] "Do"; o [] "Q"; o [] "Q"]
    end.
  Definition cache_ok (c : cache N) : Prop := match c with CTemplate _ _ name _ _ _ _ => name_ok name | _ => True end.

  Lemma E_dash l : forall acc b r, is_regular b = false -> E acc (dashItems N l ++ b :: r) = E (acc ++ map n2 l) (b :: r).
  Proof.
    induction l as [|x l IH]; intros acc b r NB; [now rewrite app_nil_r|]. destruct l as [|y l].
    - cbn [dashItems map]. now rewrite E_num by (apply fnum || exact NB).
    - change (dashItems N (x :: y :: l)) with (f2 x ++ sp ++ dashItems N (y :: l)). repeat rewrite <- app_assoc. cbn [app sp].
      rewrite E_num by (apply fnum || reflexivity). rewrite E_white by reflexivity. rewrite IH by exact NB. rewrite <- app_assoc. reflexivity.
  Qed.
  Lemma cache_lex c b r : cache_ok c -> cache_write N rot c = Some b -> E [] (b ++ r) = cache_ops c ++ E [] r.
  Proof.
    intros OK H. destruct c; cbn [cache_write] in H; try (apply E_text, H);
      try match type of H with Some ?x = Some b => let y := fresh "y" in remember x as y eqn:Y in H; injection H as <-; subst y end; cbn [cache_ops].
    - repeat rewrite <- app_assoc. lits. repeat lx1. rewrite E_gs, E_seg by auto. norm. repeat lx1. norm. reflexivity.
    - repeat rewrite <- app_assoc. lits. repeat lx1. rewrite E_gs. destruct st; norm; repeat lx1; norm; reflexivity.
    - lx. reflexivity.
    - destruct (beq style "F"); [lx; reflexivity|]. destruct (_ || _); lx; reflexivity.
    - lx. reflexivity.
    - destruct (beq t "dashed"); [lx; reflexivity|]. destruct (beq t "dotted"); lx; reflexivity.
    - lits. norm. lx1. rewrite E_dash by reflexivity. repeat lx1. unfold odash, n2. norm. reflexivity.
    - destruct stroke; lx; reflexivity.
    - apply E_rgb. destruct stroke; cbn; auto.
    - apply E_cmyk. destruct stroke; cbn; auto.
    - apply E_image.
    - lits. norm. repeat lx1. rewrite E_gs, E_path. norm. destruct (beq style "F"); [norm; repeat lx1; norm; reflexivity|]. destruct (_ || _); norm; repeat lx1; norm; reflexivity.
    - lits. norm. rewrite E_path. repeat lx1. norm. reflexivity.
    - lx. reflexivity.
    - lx. reflexivity.
    - lits. norm. repeat lx1. rewrite E_rot. reflexivity.
    - lx. reflexivity.
    - lx. reflexivity.
    - destruct OK as (wd & -> & R). lits. norm. repeat lx1. rewrite lex_name_run by (exact R || reflexivity). repeat lx1. norm. reflexivity.
  Qed.
  Lemma content_lex l : Forall cache_ok l -> forall b r, content_write N rot l = Some b -> E [] (b ++ r) = flat_map cache_ops l ++ E [] r.
  Proof.
    induction 1 as [|c l OK F IH]; intros b r H; cbn [content_write] in H; [injection H as <-; reflexivity|].
    destruct (cache_write N rot c) as [x|] eqn:X; [|discriminate]. destruct (content_write N rot l) as [y|] eqn:Y; [|discriminate]. injection H as <-.
    rewrite <- app_assoc, (cache_lex c x _ OK X), (IH y r eq_refl). cbn [flat_map]. now rewrite <- app_assoc.
  Qed.
  Theorem content_ops_write l b : Forall cache_ok l -> content_write N rot l = Some b -> content_ops b = flat_map cache_ops l.
  Proof. intros F H. pose proof (content_lex l F b [] H) as A. rewrite !app_nil_r in A. exact A. Qed.
End Ops.
