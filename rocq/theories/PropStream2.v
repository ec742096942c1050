(** PropStream2.v — C15, C54: which key a stream is encrypted with, for every history of SetProtection calls and object-adding calls. *)
From Verif Require Import Base FileModel FileSpec FileProofs PropFile StrSpec StrModel PropStr Crypto SecSpec SecModel PropSec StreamSpec StreamModel PropStream.
Open Scope Z_scope.

(** ** Specification *)
(** The protection in force after the operations. *)
Definition in_force (start : option protection) (ops : list pop) : option protection :=
  fold_left (fun c o => match o with PSetProtection p => Some p | PAdd _ => c end) ops start.
(** Page contents, palettes and embedded font programs are written with the protection in force when the file is written; pictures, soft
    masks, subset fonts and their character maps with the one in force when they were added; transparency groups with none. *)
Inductive moment := AtWriting | AtAdding | Never.
Definition moment_of (o : sobj) : moment :=
  match o with
  | SContent _ _ | SDeviceRGB _ | SEmbedFont _ _ | SAnnotURL _ _ | SOther _ => AtWriting
  | SImage _ _ _ | SFontFile _ | SSMask _ _ _ _ | SUnicode _ => AtAdding
  | SGroup _ _ => Never
  end.
(** The bytes the stream is made of, before compression: what was drawn, the pixels, the transparency, the font program, … *)
Definition contents_of (zl : bytes -> bytes) (o : sobj) : bytes :=
  match o with
  | SContent true d => zl d
  | SContent false d => d
  | SDeviceRGB d | SEmbedFont d _ | SSMask _ _ _ d | SGroup _ d => d
  | SImage i true _ => im_smask i
  | SImage i false _ => im_data i
  | SFontFile f => zl f
  | SUnicode m => cmap_text m
  | SAnnotURL _ u => u
  | SOther _ => []
  end.
Definition locked (pr : option protection) (n : Z) (d : bytes) : bytes := match pr with Some p => rc4 (objectkey p n) d | None => d end.

Lemma prun_cur ops : forall d, pd_cur (prun d ops) = in_force (pd_cur d) ops /\ pd_use (prun d ops) = pd_use d /\ exists more, pd_objs (prun d ops) = pd_objs d ++ more /\ map fst more = added ops.
Proof.
  induction ops as [|o ops IH]; intros d; [split; [reflexivity|split; [reflexivity|exists []; rewrite app_nil_r; auto]]|].
  change (prun d (o :: ops)) with (prun (pstep d o) ops). destruct (IH (pstep d o)) as (A & B & more & C & D). destruct o as [p|x].
  - split; [exact A|]. split; [exact B|]. exists more. auto.
  - split; [exact A|]. split; [exact B|]. exists ((x, pd_cur d) :: more). cbn [pstep pd_objs] in C. rewrite <- app_assoc in C. split; [exact C|]. cbn [map fst added flat_map app]. now rewrite D.
Qed.
(** For every history, the stream of an object added at any point of it holds the object's contents, encrypted with the key of the moment
    its kind demands. *)
Theorem C54_which_key :
  forall zl use p0 before o after, is_stream o ->
    let d := prun (pstart use p0) (before ++ PAdd o :: after) in
    let start := if use then Some p0 else None in
    let n := zlen (added before) + 1 in
    exists body, nth_error (doc_bodies (pd_all zl d)) (List.length (added before)) = Some body /\
      read_stream body = Some (locked (match moment_of o with AtWriting => in_force start (before ++ PAdd o :: after) | AtAdding => in_force start before | Never => None end) n (contents_of zl o)).
Proof.
  intros zl use p0 before o after Hs d start n.
  destruct (prun_cur before (pstart use p0)) as (A1 & _ & m1 & C1 & D1).
  destruct (prun_cur (before ++ PAdd o :: after) (pstart use p0)) as (A2 & _ & _).
  set (d1 := prun (pstart use p0) before) in *.
  assert (E : d = prun (pstep d1 (PAdd o)) after) by (unfold d, d1, prun; now rewrite fold_left_app).
  destruct (prun_cur after (pstep d1 (PAdd o))) as (_ & _ & m2 & C2 & _). rewrite <- E in C2. cbn [pstep pd_objs pstart] in C1, C2.
  assert (L : List.length (pd_objs d1) = List.length (added before)) by (rewrite C1; cbn [app]; now rewrite <- D1, map_length).
  exists (sbody zl (sees d (o, pd_cur d1)) n o). split.
  - erewrite doc_bodies_nth.
    2:{ unfold pd_all. rewrite nth_error_app1 by (rewrite map_length, C2, !app_length; cbn [List.length]; lia). rewrite nth_error_map, C2, <- app_assoc, nth_error_app2 by lia. rewrite L, Nat.sub_diag. reflexivity. }
    cbn [chunks prog_bytes fst]. rewrite app_nil_r. reflexivity.
  - rewrite (stream_data zl _ n o Hs). unfold sees. cbn [fst snd].
    assert (X : pd_cur d = in_force start (before ++ PAdd o :: after)) by (unfold d; rewrite A2; unfold start; destruct use; reflexivity).
    assert (Y : pd_cur d1 = in_force start before) by (rewrite A1; unfold start; destruct use; reflexivity).
    rewrite X, Y. destruct o as [[] ?|?|? ?|? [] ?|?|? ? ? ?|? ?|?|? ?|?]; cbn [captures moment_of unencrypted plain contents_of locked]; try reflexivity; destruct Hs.
Qed.
Print Assumptions C54_which_key.
(** So a document whose protection is set once, by its configuration, and never again, opens with it; and one whose protection is set
    before anything else is added has all its streams under one key. *)
Theorem C54_one_key :
  forall zl use p0 p (adds : list pop) o rest, (forall x, In x (adds ++ PAdd o :: rest) -> exists y, x = PAdd y) -> is_stream o -> moment_of o <> Never ->
    let d := prun (pstart use p0) (PSetProtection p :: adds ++ PAdd o :: rest) in
    exists body, nth_error (doc_bodies (pd_all zl d)) (List.length (added adds)) = Some body /\
      read_stream body = Some (rc4 (objectkey p (zlen (added adds) + 1)) (contents_of zl o)).
Proof.
  intros zl use p0 p adds o rest H Hs Hm. destruct (C54_which_key zl use p0 (PSetProtection p :: adds) o rest Hs) as (body & B1 & B2). exists body. split; [exact B1|]. rewrite B2.
  assert (G : forall l c, (forall x, In x l -> exists y, x = PAdd y) -> in_force c l = c).
  { clear. induction l as [|x l IH]; intros c H; [reflexivity|]. destruct (H x (or_introl eq_refl)) as [y ->]. cbn. apply IH. intros z Z. apply H. now right. }
  assert (F1 : in_force (if use then Some p0 else None) ((PSetProtection p :: adds) ++ PAdd o :: rest) = Some p) by (cbn [app in_force fold_left]; apply G; exact H).
  assert (F2 : in_force (if use then Some p0 else None) (PSetProtection p :: adds) = Some p) by (cbn [in_force fold_left]; apply G; intros x X; apply H, in_or_app; now left).
  rewrite F1, F2. destruct (moment_of o); [reflexivity|reflexivity|contradiction].
Qed.
Print Assumptions C54_one_key.
Example C54_which_met : is_stream (SContent true (bs "q Q")) /\ is_stream (SFontFile (bs "x")) /\ moment_of (SFontFile (bs "x")) = AtAdding.
Proof. repeat split. Qed.
