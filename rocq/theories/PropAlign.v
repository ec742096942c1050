(** PropAlign.v — C55: where the text of a cell is placed. *)
From Coq Require Import QArith Qabs Lqa.
From Verif Require Import Base StrModel NumModel NumRead UnitModel DrawModel DrawSpec DrawLex DrawNest DrawView PropDraw PropText PropWidth.
Open Scope Z_scope.
Local Open Scope Q_scope.

(** ** Specification.  Page coordinates have y upwards from the bottom edge; the cell of width W and height H has its
    upper left corner at (p_x, pageH - p_y).  The text box is [w] wide (MeasureTextWidth), reaches [asc] above and
    [-desc] below the baseline. *)
Definition asc (p : piece Qn) : Q := inject_Z (fv_tasc (p_fv Qn p)) * p_size Qn p / inject_Z (fv_upem (p_fv Qn p)).
Definition desc (p : piece Qn) : Q := inject_Z (fv_tdesc (p_fv Qn p)) * p_size Qn p / inject_Z (fv_upem (p_fv Qn p)).
Definition placed (e : event) (grp : list (piece Qn)) : Prop :=
  forall p ps W H, grp = p :: ps -> p_cell Qn p = true -> p_rect Qn p = Some (W, H) ->
    let left := p_x Qn p in let right := left + W in
    let top := p_pageH Qn p - p_y Qn p in let bottom := top - H in
    let al := p_align Qn p in
    exists g arr x y w, e = EShow g [TWord (nfmt Qn 2 x); TWord (nfmt Qn 2 y)] arr /\ measured p (p_text Qn p) = Some w /\
      (* horizontally: Right wins over Center, otherwise Left *)
      (has al oRight = true -> x + w == right) /\
      (has al oRight = false -> has al oCenter = true -> x - left == right - (x + w)) /\
      (has al oRight = false -> has al oCenter = false -> x == left) /\
      (* vertically: Bottom wins over Middle, otherwise Top *)
      (has al oBottom = true -> y + desc p == bottom) /\
      (has al oBottom = false -> has al oMiddle = true -> top - (y + asc p) == (y + desc p) - bottom) /\
      (has al oBottom = false -> has al oMiddle = false -> y + asc p == top).

Section C55.
  Variable rot : T Qn -> T Qn * T Qn.
  Variable ft : Z -> fontv.
  Lemma typo v u size : ~ inject_Z u == 0 -> convertTypoUnit Qn v u size == inject_Z v * size / inject_Z u.
  Proof. clear. intros U. unfold convertTypoUnit. cbn [nmul ndiv nofZ Qn]. change (inject_Z 1000) with 1000. field. exact U. Qed.
  Lemma half_ (x : Q) : nmul Qn x (nfrac Qn 1 2) == x / 2.
  Proof. clear. reflexivity. Qed.
  Lemma holds_placed s e c grp : tinv Qn s c -> showsText Qn e c -> holds Qn ft c grp -> Forall (fun p => (0 < fv_upem (p_fv Qn p))%Z) grp -> placed e grp.
  Proof using ft.
    clear rot. intros (_ & _ & _ & TR) (g & -> & _) HO SO p ps W H -> CE RC left right top bottom al.
    assert (PN : ps = []).
    { destruct HO as (_ & _ & _ & _ & _ & _ & _ & _ & _ & _ & _ & _ & _ & _ & Q12 & _). destruct ps as [|q ps]; [reflexivity|]. apply Forall_inv in Q12. destruct Q12 as (_ & _ & _ & _ & _ & _ & _ & Q & _). rewrite CE in Q. discriminate. }
    subst ps. destruct HO as (Q1 & Q2 & Q2' & Q3 & Q4 & Q5 & Q6 & Q7 & Q8 & Q9 & Q9r & Q9a & Q10 & Q11 & Q12 & Q13).
    rewrite Q9r, Q11, Q2, Q3, Q5 in TR. cbn [flat_map] in TR. rewrite app_nil_r in TR. destruct (TR W H RC) as (T1 & T2 & T3).
    exists g, (items Qn c), (calX Qn c), (calY Qn c), (c_tw Qn c). split; [reflexivity|]. split; [exact T3|].
    pose proof (Forall_inv SO) as U. cbn beta in U. assert (NU : ~ inject_Z (fv_upem (p_fv Qn p)) == 0) by (unfold Qeq, inject_Z; cbn; lia).
    unfold calX, calY. rewrite Q9, CE, Q9a. fold al. rewrite Q2, Q3, Q6, Q7, Q8, T1, T2. fold left top.
    pose proof (typo (fv_tasc (p_fv Qn p)) _ (p_size Qn p) NU) as TA. pose proof (typo (fv_tdesc (p_fv Qn p)) _ (p_size Qn p) NU) as TD. fold (asc p) in TA. fold (desc p) in TD.
    set (ta := convertTypoUnit Qn (fv_tasc _) _ _) in *. set (td := convertTypoUnit Qn (fv_tdesc _) _ _) in *. cbv zeta.
    assert (HF : nfrac Qn 1 2 = (1 # 1) / (2 # 1)) by reflexivity. rewrite HF. cbn [nadd nsub nmul Qn]. unfold bottom, right. unfold top in *.
    split; [intros ->; ring|]. split; [intros -> ->; field|]. split; [intros -> ->; reflexivity|].
    split; [intros ->; rewrite <- TD; ring|]. split; [intros -> ->; rewrite <- TD, <- TA; field|]. intros -> ->. rewrite <- TA. ring.
  Qed.
  (** C55: on a fresh page, after any orderly history, every cell's text is placed in its cell as the alignment says
      (exact arithmetic; the position is printed with two decimals). *)
  Theorem C55_alignment (s s' : ds Qn) (calls : list (call Qn)) (content : bytes) :
    s_caches Qn s = [] -> s_font Qn s = None -> s_mode Qn s = false -> s_color Qn s = None ->
    fonts_named Qn ft calls -> orderly Qn false calls -> Forall (fun p => (0 < fv_upem (p_fv Qn p))%Z) (pieces Qn s calls) ->
    run Qn s calls = Some s' -> content_write Qn rot (s_caches Qn s') = Some content ->
    exists groups, List.concat groups = pieces Qn s calls /\ Forall2 (fun e grp => shown Qn e grp /\ placed e grp) (shows content) groups.
  Proof.
    intros E F M C FN OR SO R W. destruct (shown_caches Qn rot Qn_prints ft s s' calls content E F M C FN OR R W) as (G & ts & CG & SH & K1 & K3).
    exists G. split; [exact CG|]. rewrite <- CG in SO. apply Forall_concat in SO. clear - SH K1 K3 SO. revert G K1 K3 SO. generalize dependent (shows content).
    intros es SH. induction SH as [|e c es ts S1 SH IH]; intros G K1 K3 SO; inversion K1; subst; [constructor|]. inversion K3; subst. inversion SO; subst.
    constructor; [split; [eapply holds_shown; eassumption|eapply holds_placed; eassumption]|now apply IH].
  Qed.
End C55.

(** A right- and bottom-aligned and a centred cell. *)
Definition acell (al : Z) (txt : bytes) : call Qn :=
  CellOpt Qn (Some (Build_rect Qn (nofZ Qn 100) (nofZ Qn 20) (defcfg Qn 0))) txt (Build_cellopt Qn al 0 oBottom (nofZ Qn 0) (nofZ Qn 0) (nofZ Qn 0) []) None.
Definition acalls : list (call Qn) :=
  [SetFont Qn 0 dfont (nofZ Qn 12) 0; SetXY Qn (nofZ Qn 30) (nofZ Qn 40); acell (Z.lor oRight oBottom) (bs "ab"); SetXY Qn (nofZ Qn 30) (nofZ Qn 80); acell (Z.lor oCenter oMiddle) (bs "ab")].
Definition acontent : bytes := Eval vm_compute in got (outcome Qn (norot Qn) (dpage Qn) acalls).
Definition posOf (e : event) : list tok := match e with EShow _ p _ => p | _ => [] end.
Example C55_met : fonts_named Qn (fun _ => dfont) acalls /\ orderly Qn false acalls /\ Forall (sound dwds) (pieces Qn (dpage Qn) acalls) /\
  outcome Qn (norot Qn) (dpage Qn) acalls = Some acontent /\
  map posOf (shows acontent) = [[TWord (bs "118.00"); TWord (bs "742.40")]; [TWord (bs "74.00"); TWord (bs "706.40")]].
Proof.
  assert (FN : fonts_named Qn (fun _ => dfont) acalls) by (intros n f size st H; repeat (destruct H as [H|H]; [try discriminate H; now injection H as _ <-|]); contradiction).
  split; [exact FN|]. split; [cbn; repeat split; discriminate|]. split; [apply dfont_sound; [exact FN|vm_compute; reflexivity]|]. vm_compute. repeat split; reflexivity.
Qed.
Print Assumptions C55_alignment.
