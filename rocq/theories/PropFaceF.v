(** PropFaceF.v — C80 in float64: the width the viewer shows, from the bytes of the font file. *)
From Coq Require Import QArith ZArith Reals Qreals Qabs Lqa Lia Bool SpecFloat.
From Flocq Require Import Core BinarySingleNaN.
From Verif Require Import Base NumModel TtfModel TtfSpec TtfProofs SubsetModel PropTtf PropSubset ObjModel PdfSyntax PropDesign UnitModel DrawModel FaceModel FaceSpec.
From Verif Require DrawSpec DrawView PropDraw PropObj CursorModel PropText PropWidth PropUnit PropAsk.
From Verif Require Import PaintNum FaceModel FaceSpec PropFace FloatReal FloatApx PropWidthF.
Open Scope Z_scope.

(** Text that is not justified and has no letter spacing, of exact font size [S]: if the file gives it [u] thousandths of
    an em, it is shown with an advance of [u] thousandths of the size [s] in the content (the size set to three decimals,
    exactly it if it has no more), and MeasureTextWidth returns [u] thousandths of [S] to one part in 2^51. *)
Definition drawn_by_file64 (fonts : Z -> fontfile) (wds : bytes -> Z -> Z) (e : DrawSpec.event) (grp : list (PropText.piece F64)) : Prop :=
  match grp with
  | [] => False
  | p :: _ =>
      forall S, ordinary_text p S -> forall u, file_width (fonts (PropText.p_font F64 p)) (flat_map (PropText.p_text F64) grp) u ->
        exists (s a : Q) (w : f64),
          PropWidth.show_advance wds e = Some a /\ (a == inject_Z u * (1 # 1000) * s)%Q /\
          (Qabs (s - S) <= 501 # 1000000)%Q /\ (forall k, S * 1000 == inject_Z k -> s == S)%Q /\
          PropText.text_width F64 (PropText.p_fv F64 p) (PropText.p_size F64 p) (PropText.p_cs F64 p) (flat_map (PropText.p_text F64) grp) = Some w /\
          (Z.abs u <= 2 ^ 53 -> exists m, f64_val w = Some m /\ (Qabs (m - inject_Z u * (1 # 1000) * S) <= (1 # 2 ^ 51) * Qabs (inject_Z u * (1 # 1000) * S))%Q)
  end.
Lemma sums_everywhere (rot : f64 -> f64 * f64) (ft : Z -> fontv) (wds : bytes -> Z -> Z) (s s' : ds F64) (calls : list (call F64)) (content : bytes) :
  s_caches F64 s = [] -> s_font F64 s = None -> s_mode F64 s = false -> s_color F64 s = None ->
  PropText.fonts_named F64 ft calls -> PropText.orderly F64 false calls -> Forall (sound64 wds) (PropText.pieces F64 s calls) ->
  run F64 s calls = Some s' -> content_write F64 rot (s_caches F64 s') = Some content ->
  exists groups, List.concat groups = PropText.pieces F64 s calls /\ Forall2 (fun e grp => PropText.shown F64 e grp /\ sums64 wds e grp) (DrawView.shows content) groups.
Proof.
  intros E F M C FN OR SO R W. destruct (PropText.shown_caches F64 rot F64_prints ft s s' calls content E F M C FN OR R W) as (G & ts & CG & SH & K1 & K3).
  exists G. split; [exact CG|]. rewrite <- CG in SO. apply PropWidth.Forall_concat in SO. clear - SH K1 K3 SO. revert G K1 K3 SO. generalize dependent (DrawView.shows content).
  intros es SH. induction SH as [|e c es ts S1 SH IH]; intros G K1 K3 SO; inversion K1; subst; [constructor|]. inversion K3; subst. inversion SO; subst.
  constructor; [split; [eapply PropText.holds_shown; eassumption|eapply holds_sums64; eassumption]|now apply IH].
Qed.
Theorem C80_shown_by_the_file_float64 :
  forall (fonts : Z -> fontfile) (wds : bytes -> Z -> Z) rot (s s' : ds F64) (calls : list (call F64)) (content : bytes),
    (forall k, fontfile_ok (fonts k)) -> (forall k g, wds (PropWidth.fname k) g = viewer_width (fonts k) g) ->
    s_caches F64 s = [] -> s_font F64 s = None -> s_mode F64 s = false -> s_color F64 s = None ->
    PropText.fonts_named F64 (fun k => face_of (fonts k)) calls -> PropText.orderly F64 false calls ->
    Forall (fun p => known (fonts (PropText.p_font F64 p)) (PropText.p_text F64 p)) (PropText.pieces F64 s calls) ->
    run F64 s calls = Some s' -> content_write F64 rot (s_caches F64 s') = Some content ->
    exists groups, List.concat groups = PropText.pieces F64 s calls /\
      Forall2 (fun e grp => PropText.shown F64 e grp /\ drawn_by_file64 fonts wds e grp) (DrawView.shows content) groups.
Proof.
  intros fonts wds rot s s' calls content OK WD E F M C FN OR KN R W.
  pose proof (PropWidth.pieces_font F64 (fun k => face_of (fonts k)) calls s FN ltac:(intros n f X; rewrite F in X; discriminate X)) as PF.
  assert (SO : Forall (sound64 wds) (PropText.pieces F64 s calls)).
  { rewrite Forall_forall in *. intros p I. specialize (PF p I). cbn beta in PF. specialize (KN p I). cbn beta in KN. set (x := fonts (PropText.p_font F64 p)) in *. pose proof (OK (PropText.p_font F64 p)) as O. fold x in O.
    split.
    - intros r IR. rewrite PF. pose proof KN as [_ K]. rewrite Forall_forall in K. destruct (K r IR) as [g G].
      pose proof (glyph_range _ _ _ _ _ G) as GR. destruct (has_advance x g O ltac:(lia)) as [a A].
      destruct (viewer_reads x _ r g a O KN IR G A) as (V1 & V2 & V3). exists g. split; [exact V2|]. split; [exact GR|]. rewrite V3. f_equal. rewrite WD. fold x. now symmetry.
    - rewrite PF. unfold face_of. rewrite face_upem. destruct O as (B & H & HU & U & _). rewrite (em_of _ _ _ _ H HU). split; [exact U|]. destruct HU as (t & l & _ & HU). pose proof (u16_range _ _ _ B HU). lia. }
  destruct (sums_everywhere rot (fun k => face_of (fonts k)) wds s s' calls content E F M C FN OR SO R W) as (G & CG & FG).
  exists G. split; [exact CG|].
  assert (PG : Forall (Forall (fun p => PropText.p_fv F64 p = face_of (fonts (PropText.p_font F64 p)) /\ known (fonts (PropText.p_font F64 p)) (PropText.p_text F64 p))) G).
  { apply PropWidth.Forall_concat. rewrite CG. rewrite Forall_forall in *. intros p I. split; [exact (PF p I)|exact (KN p I)]. }
  clear - FG PG OK. revert PG. induction FG as [|e grp es G [S1 A1] FG IH]; intros PG; [constructor|]. inversion PG as [|? ? P1 P2]; subst. constructor; [|now apply IH].
  split; [exact S1|]. destruct grp as [|p ps]; [exact A1|]. intros S OT w FW.
  destruct FW as (gs & advs & ks & FG1 & FA & PK & ->).
  inversion P1 as [|? ? [PF PK0] P1']; subst. set (x := fonts (PropText.p_font F64 p)) in *. pose proof (OK (PropText.p_font F64 p)) as O. fold x in O.
  (* the pieces of a group are in one font *)
  assert (V : Forall2 (fun r g => val (ff_map x) r = Some g) (flat_map (PropText.p_text F64) (p :: ps)) gs).
  { assert (KA : forall r, In r (flat_map (PropText.p_text F64) (p :: ps)) -> exists txt, known x txt /\ In r txt).
    { intros r I. apply in_flat_map in I as (q & IQ & IR). exists (PropText.p_text F64 q). split; [|exact IR].
      rewrite Forall_forall in P1. specialize (P1 q IQ) as [_ Kq].
      assert (EQF : PropText.p_font F64 q = PropText.p_font F64 p).
      { destruct IQ as [<-|IQ]; [reflexivity|]. destruct S1 as (_ & SAT & _). rewrite Forall_forall in SAT. destruct (SAT q IQ) as (EF & _). exact EF. }
      rewrite EQF in Kq. exact Kq. }
    clear - KA FG1 O. revert KA. induction FG1 as [|r g l l' Y FG1 IH]; intros KA; [constructor|]. constructor; [|apply IH; intros r' I; apply KA; now right].
    destruct (KA r (or_introl eq_refl)) as (txt & K & I). eapply known_map; eassumption. }
  assert (WG : Forall2 (fun g w => glyphWidth (ff_ttf x) g = Some w) gs (map (fun a => a * 1000 / ff_em x) advs)).
  { assert (GP : Forall (fun g => 0 <= g) gs) by (clear - FG1; induction FG1 as [|r g l l' Y FG1 IH]; constructor; [apply (glyph_range _ _ _ _ _ Y)|exact IH]).
    destruct O as (B & H & HU & U & HN & N0 & _). clear - FA GP B H HU U HN N0. induction FA as [|g a gs advs A FA IH]; [constructor|]. inversion GP; subst. cbn [map]. constructor; [|now apply IH].
    eapply width_reads; eassumption. }
  destruct O as (B & H & HU & U & HN & N0 & S1' & S2 & EV & SK & _). pose proof (em_of _ _ _ _ H HU) as EU.
  assert (C0 : ((0 # 1) == 0)%Q) by reflexivity.
  pose proof (sum_all (ff_ttf x) (ff_kern x) (ff_subst x) (ff_map x) (1 # 1)%Q (0 # 1)%Q _ C0 ltac:(lia) (kern_reads _ _ _ _ _ B H SK) _ gs _ ks V WG PK) as SU.
  destruct (A1 S OT) as (u & sz & a & w & SW & MW & SA & EQ & B1 & B2 & B3). destruct OT as (_ & (b & CS) & SZ & SB).
  assert (SR : (/ 1000 <= Q2R S <= 1048576)%R).
  { destruct SB as [D1 D2]. apply Qle_Rle in D1, D2. assert (E1 : Q2R (1 # 1000) = (/ 1000)%R) by (unfold Q2R; cbn; Lra.lra). assert (E2 : Q2R 1048576 = 1048576%R) by (unfold Q2R; cbn; Lra.lra). rewrite E1 in D1. rewrite E2 in D2. Lra.lra. }
  assert (UF : 0 < fv_upem (PropText.p_fv F64 p) <= 2 ^ 16).
  { rewrite PF. unfold face_of. rewrite face_upem, EU. split; [exact U|]. destruct HU as (t & l & _ & HU). pose proof (u16_range _ _ _ B HU). lia. }
  assert (ST : ttf2pdf (ntrunc F64 (nmul F64 (ndiv F64 (nofZ F64 (fv_upem (PropText.p_fv F64 p))) (PropText.p_size F64 p)) (PropText.p_cs F64 p))) (fv_upem (PropText.p_fv F64 p)) = 0).
  { rewrite CS, (step_zero _ _ _ b UF SZ SR). unfold ttf2pdf. reflexivity. }
  rewrite (sumWidth_step _ _ _ _ _ (eq_trans ST (eq_sym (PropWidth.spacing_zero (fv_upem (PropText.p_fv F64 p)) (1 # 1)%Q (0 # 1)%Q C0)))) in SW.
  rewrite PF in SW. unfold face_of in SW. rewrite SU in SW. injection SW as <-. unfold sum in *. rewrite EU in *.
  exists sz, a, w. auto 10.
Qed.
Print Assumptions C80_shown_by_the_file_float64.
(** The two texts of [calls80] at 12.3 points, in float64. *)
Definition calls80F : list (call F64) :=
  [SetFont F64 0 (face_of font80) (nfrac F64 123 10) 0; SetXY F64 (nofZ F64 30) (nofZ F64 40); Text F64 [65; 66]; SetXY F64 (nofZ F64 30) (nofZ F64 60); Text F64 [66; 67]].
Definition content80F : bytes := Eval vm_compute in PropDraw.got (PropDraw.outcome F64 (PropDraw.norot F64) (PropDraw.dpage F64) calls80F).
Example C80_float64_met : fontfile_ok font80 /\ known font80 [65; 66] /\ file_width font80 [65; 66] 580 /\
  PropText.fonts_named F64 (fun _ => face_of font80) calls80F /\ PropText.orderly F64 false calls80F /\
  Forall (fun p => known font80 (PropText.p_text F64 p)) (PropText.pieces F64 (PropDraw.dpage F64) calls80F) /\
  PropDraw.outcome F64 (PropDraw.norot F64) (PropDraw.dpage F64) calls80F = Some content80F /\
  map about64 (PropText.pieces F64 (PropDraw.dpage F64) calls80F) = [(false, nofZ F64 0, nfrac F64 123 10); (false, nofZ F64 0, nfrac F64 123 10)] /\
  (exists S, is64 (nfrac F64 123 10) (Q2R S) /\ ((1 # 1000) <= S /\ S <= 1048576)%Q) /\
  map (option_map Qred) (map (PropWidth.show_advance (fun _ => viewer_width font80)) (DrawView.shows content80F)) = [Some (3567 # 500)%Q; Some (15129 # 2000)%Q].
Proof.
  split; [exact font80_ok|]. split; [apply known80; cbn; auto|]. split; [exact width80|].
  split; [intros n f size st H; repeat (destruct H as [H|H]; [try discriminate H; now injection H as _ <- _ _|]); contradiction|].
  split; [cbn; repeat split; discriminate|].
  split.
  { assert (E : map (PropText.p_text F64) (PropText.pieces F64 (PropDraw.dpage F64) calls80F) = [[65; 66]; [66; 67]]) by (vm_cast_no_check (eq_refl [[65; 66]; [66; 67]])).
    apply Forall_forall. intros p I. apply known80. apply (in_map (PropText.p_text F64)) in I. rewrite E in I. exact I. }
  split; [vm_compute; reflexivity|]. split; [vm_compute; reflexivity|]. split; [exact size123|]. vm_compute. reflexivity.
Qed.
