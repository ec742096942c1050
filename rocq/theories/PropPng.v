(** PropPng.v — C37: the colour and alpha planes written for a PNG with an alpha channel recombine to the original
    picture, for all pixel data, widths and heights, from the bytes of the file to the two image objects.
    Also C57: a truncated PNG file is rejected. *)
From Verif Require Import Base StrModel StreamModel PngModel.

(** ** Specification 1: scan lines (PNG 9.2-9.4; PDF 7.4.4.4, Predictor 15) *)
Definition paeth (a b c : Z) : Z :=
  let p := a + b - c in
  let pa := Z.abs (p - a) in let pb := Z.abs (p - b) in let pc := Z.abs (p - c) in
  if (pa <=? pb) && (pa <=? pc) then a else if pb <=? pc then b else c.
(** The prediction for a byte from the bytes to the left, above, and above left. *)
Definition predict (ft a b c : Z) : Z :=
  if ft =? 1 then a else if ft =? 2 then b else if ft =? 3 then (a + b) / 2 else if ft =? 4 then paeth a b c else 0.
(** Undo the filter of one line; [out] is what has been reconstructed, [prior] the line above (empty: all zero),
    [bpp] the number of bytes of a pixel. *)
Definition at_left (bpp : nat) (i : nat) (l : bytes) : Z := if Nat.ltb i bpp then 0 else nth (i - bpp) l 0.
Fixpoint unfilter (bpp : nat) (ft : Z) (prior raw out : bytes) : bytes :=
  match raw with
  | [] => out
  | x :: r => let i := List.length out in
      unfilter bpp ft prior r
        (out ++ [(x + predict ft (at_left bpp i out) (nth i prior 0) (at_left bpp i prior)) mod 256])
  end.
(** [h] lines, each a filter type byte and [len] bytes.  [None]: not enough data, or an unknown filter type. *)
Fixpoint picture (bpp len h : nat) (raw prior : bytes) : option (list bytes) :=
  match h with
  | O => Some []
  | S h' =>
    match raw with
    | [] => None
    | ft :: r =>
      if (0 <=? ft) && (ft <=? 4) && Nat.leb len (List.length r) then
        let line := unfilter bpp ft prior (firstn len r) [] in
        match picture bpp len h' (skipn len r) line with Some ls => Some (line :: ls) | None => None end
      else None
    end
  end.
(** Pixels of a line: [n] samples each. *)
Definition pixel (n p : nat) (line : bytes) : list Z := map (fun c => nth (n * p + c) line 0) (seq 0 n).
(** The line [full] (n+1 samples per pixel) is the colour line [c] (n per pixel) and the alpha line [a] put together. *)
Definition recombines (n w : nat) (full c a : bytes) : Prop :=
  List.length full = ((n + 1) * w)%nat /\ List.length c = (n * w)%nat /\ List.length a = w /\
  forall p, (p < w)%nat -> pixel (n + 1) p full = pixel n p c ++ pixel 1 p a.

(** ** Specification 2: PNG files *)
Definition u32be (n : Z) : bytes := [n / 16777216 mod 256; n / 65536 mod 256; n / 256 mod 256; n mod 256].
Record chunk := { c_type : bytes; c_body : bytes; c_crc : bytes }.
Definition chunk_bytes (c : chunk) : bytes := u32be (zlen (c_body c)) ++ c_type c ++ c_body c ++ c_crc c.
Record header := { h_w : Z; h_h : Z; h_bpc : Z; h_ct : Z }.
Definition ihdr (x : header) (crc : bytes) : chunk :=
  {| c_type := bs "IHDR"; c_body := u32be (h_w x) ++ u32be (h_h x) ++ [h_bpc x; h_ct x; 0; 0; 0]; c_crc := crc |}.
Definition iend (crc : bytes) : chunk := {| c_type := bs "IEND"; c_body := []; c_crc := crc |}.
Definition png_file (x : header) (crc1 : bytes) (l : list chunk) (crc2 : bytes) : bytes :=
  [137; 80; 78; 71; 13; 10; 26; 10] ++ chunk_bytes (ihdr x crc1) ++ flat_map chunk_bytes l ++ chunk_bytes (iend crc2).
(** What the PNG standard asks of headers and chunks. *)
Definition header_ok (x : header) : Prop :=
  0 < h_w x < 2 ^ 31 /\ 0 < h_h x < 2 ^ 31 /\
  (h_ct x = 0 /\ In (h_bpc x) [1; 2; 4; 8] \/ h_ct x = 3 /\ In (h_bpc x) [1; 2; 4; 8] \/
   In (h_ct x) [2; 4; 6] /\ h_bpc x = 8).
Definition chunk_ok (c : chunk) : Prop :=
  List.length (c_type c) = 4%nat /\ List.length (c_crc c) = 4%nat /\ zlen (c_body c) < 2 ^ 31 /\ c_type c <> bs "IEND".
Definition named (t : bytes) (l : list chunk) : list bytes := map c_body (filter (fun c => list_eqb (c_type c) t) l).
Definition image_data (l : list chunk) : bytes := List.concat (named (bs "IDAT") l).
(** Palette: at most one PLTE; a palette that is needed is there and is not "blank" (see the refutation below). *)
Definition palette_ok (x : header) (l : list chunk) (pal : bytes) : Prop :=
  (named (bs "PLTE") l = [] /\ pal = [] \/ named (bs "PLTE") l = [pal]) /\ (h_ct x = 3 -> blank pal = false).
(** Transparency: at most one tRNS.  [t] is the colour key: the low byte of each 16-bit sample for gray and RGB; for a
    palette image, the first entry with alpha 0 (palettes have at most 256 entries). *)
Definition trns_ok (x : header) (l : list chunk) (t : bytes) : Prop :=
  named (bs "tRNS") l = [] /\ t = [] \/
  exists b, named (bs "tRNS") l = [b] /\
    match h_ct x with
    | 0 => exists hi lo, b = [hi; lo] /\ t = [lo]
    | 2 => exists h1 r h2 g h3 bl, b = [h1; r; h2; g; h3; bl] /\ t = [r; g; bl]
    | 3 => exists k, (k < 256)%nat /\ firstn k b = filter (fun v => negb (v =? 0)) (firstn k b) /\
             (nth_error b k = Some 0 /\ t = [Z.of_nat k] \/ k = List.length b /\ t = [])
    | _ => False
    end.

(** ** Lines *)
Lemma skipn_skipn {A} (l : list A) : forall a b, skipn a (skipn b l) = skipn (a + b) l.
Proof. induction l as [|x l IH]; intros a b; [now rewrite !skipn_nil|]. destruct b as [|b]; [now rewrite Nat.add_0_r|]. rewrite Nat.add_succ_r. cbn [skipn]. apply IH. Qed.
Fixpoint mapi (f : nat -> Z -> Z) (j : nat) (l : bytes) : bytes :=
  match l with [] => [] | x :: r => f j x :: mapi f (S j) r end.
Definition pix (m : nat) (ft : Z) (prior out : bytes) (k j : nat) (x : Z) : Z :=
  (x + predict ft (if Nat.eqb k 0 then 0 else nth (m * (k - 1) + j) out 0) (nth (m * k + j) prior 0)
               (if Nat.eqb k 0 then 0 else nth (m * (k - 1) + j) prior 0)) mod 256.
Lemma unfilter_pixel m ft prior rest out k : List.length out = (m * k)%nat -> forall xs j ys, List.length ys = j -> (j + List.length xs <= m)%nat ->
  unfilter m ft prior (xs ++ rest) (out ++ ys) = unfilter m ft prior rest ((out ++ ys) ++ mapi (pix m ft prior out k) j xs).
Proof.
  intros L. induction xs as [|x xs IH]; intros j ys Y J; cbn [app mapi]; [now rewrite app_nil_r|]. cbn [List.length] in J.
  cbn [unfilter]. rewrite <- app_assoc. rewrite (IH (S j)).
  2:{ rewrite app_length; cbn; lia. }
  2:{ lia. }
  replace ((out ++ ys) ++ pix m ft prior out k j x :: mapi (pix m ft prior out k) (S j) xs)
    with ((out ++ ys ++ [pix m ft prior out k j x]) ++ mapi (pix m ft prior out k) (S j) xs) by (rewrite <- !app_assoc; reflexivity).
  do 5 f_equal. unfold pix. rewrite app_length, L, Y. do 2 f_equal. f_equal.
  - unfold at_left. destruct (Nat.eqb_spec k 0) as [K|K].
    + destruct (Nat.ltb_spec (m * k + j) m); [reflexivity|]. nia.
    + destruct (Nat.ltb_spec (m * k + j) m) as [H|H]; [nia|]. replace (m * k + j - m)%nat with (m * (k - 1) + j)%nat by nia.
      rewrite app_nth1; [reflexivity|]. rewrite L. nia.
  - unfold at_left. destruct (Nat.eqb_spec k 0) as [K|K].
    + destruct (Nat.ltb_spec (m * k + j) m); [reflexivity|]. nia.
    + destruct (Nat.ltb_spec (m * k + j) m) as [H|H]; [nia|]. f_equal. nia.
Qed.
Lemma unfilter_len m ft prior raw : forall out, List.length (unfilter m ft prior raw out) = (List.length out + List.length raw)%nat.
Proof. induction raw as [|x r IH]; intros out; cbn [unfilter List.length]; [lia|]. rewrite IH, app_length. cbn. lia. Qed.

(** A splitting function: [n] colour samples and one alpha sample per pixel. *)
Record splits (n : nat) (one : bytes -> bytes * bytes) : Prop := {
  sp_nil : one [] = ([], []);
  sp_pix : forall c a r, List.length c = n -> one (c ++ a :: r) = (c ++ fst (one r), a :: snd (one r)) }.
Lemma splits_pairs : splits 1 pairs.
Proof. constructor; [reflexivity|]. intros [|x [|y c]] a r H; try discriminate. cbn. now destruct (pairs r). Qed.
Lemma splits_quads : splits 3 quads.
Proof. constructor; [reflexivity|]. intros [|x [|y [|z [|v c]]]] a r H; try discriminate. cbn. now destruct (quads r). Qed.

(** Lists of whole pixels. *)
Lemma pixels_ind n (P : bytes -> Prop) : P [] -> (forall c a r k, List.length c = n -> List.length r = ((n + 1) * k)%nat -> P r -> P (c ++ a :: r)) ->
  forall k l, List.length l = ((n + 1) * k)%nat -> P l.
Proof.
  intros H0 HS. induction k as [|k IH]; intros l L.
  - replace l with (@nil Z); [exact H0|]. destruct l; [reflexivity|]. cbn in L. lia.
  - rewrite <- (firstn_skipn n l). assert (X : (n < List.length l)%nat) by nia.
    destruct (skipn n l) as [|a r] eqn:E. { apply (f_equal (@List.length Z)) in E. rewrite skipn_length in E. cbn in E. lia. }
    assert (R : List.length r = ((n + 1) * k)%nat). { apply (f_equal (@List.length Z)) in E. rewrite skipn_length in E. cbn in E. nia. }
    apply (HS _ _ _ k); [rewrite firstn_length; lia|exact R|]. apply IH, R.
Qed.
Section Split.
Variable n : nat.
Variable one : bytes -> bytes * bytes.
Hypothesis S : splits n one.
Lemma one_len k l : List.length l = ((n + 1) * k)%nat -> List.length (fst (one l)) = (n * k)%nat /\ List.length (snd (one l)) = k.
Proof.
  revert l. induction k as [|k IH]; intros l L.
  - replace l with (@nil Z) by (destruct l; [reflexivity|cbn in L; lia]). rewrite (sp_nil _ _ S). cbn. lia.
  - rewrite <- (firstn_skipn n l). assert (X : (n < List.length l)%nat) by nia.
    destruct (skipn n l) as [|a r] eqn:E. { apply (f_equal (@List.length Z)) in E. rewrite skipn_length in E. cbn in E. lia. }
    assert (R : List.length r = ((n + 1) * k)%nat). { apply (f_equal (@List.length Z)) in E. rewrite skipn_length in E. cbn in E. nia. }
    rewrite (sp_pix _ _ S) by (rewrite firstn_length; lia). destruct (IH r R) as [A B]. cbn [fst snd List.length]. rewrite app_length, firstn_length, A, B. nia.
Qed.
Lemma one_app k a b : List.length a = ((n + 1) * k)%nat -> one (a ++ b) = (fst (one a) ++ fst (one b), snd (one a) ++ snd (one b)).
Proof.
  intros L. revert k a L. apply (pixels_ind n (fun a => one (a ++ b) = (fst (one a) ++ fst (one b), snd (one a) ++ snd (one b)))).
  - rewrite (sp_nil _ _ S). cbn. now destruct (one b).
  - intros c a r k C R IH. rewrite <- app_assoc. cbn [app]. rewrite !(sp_pix _ _ S) by assumption. rewrite IH. cbn [fst snd]. now rewrite <- app_assoc.
Qed.
Lemma one_nth k l : List.length l = ((n + 1) * k)%nat -> forall p,
  (forall j, (j < n)%nat -> nth (n * p + j) (fst (one l)) 0 = nth ((n + 1) * p + j) l 0) /\ nth p (snd (one l)) 0 = nth ((n + 1) * p + n) l 0.
Proof.
  revert l. induction k as [|k IH]; intros l L p.
  - replace l with (@nil Z) by (destruct l; [reflexivity|cbn in L; lia]). rewrite (sp_nil _ _ S). cbn [fst snd]. split; [intros j J|]; repeat match goal with |- context [nth ?i [] 0] => rewrite (nth_overflow []) by (cbn; lia) end; reflexivity.
  - rewrite <- (firstn_skipn n l). assert (X : (n < List.length l)%nat) by nia.
    destruct (skipn n l) as [|a r] eqn:E. { apply (f_equal (@List.length Z)) in E. rewrite skipn_length in E. cbn in E. lia. }
    assert (R : List.length r = ((n + 1) * k)%nat). { apply (f_equal (@List.length Z)) in E. rewrite skipn_length in E. cbn in E. nia. }
    assert (F : List.length (firstn n l) = n) by (rewrite firstn_length; lia). set (c := firstn n l) in *. clearbody c.
    rewrite (sp_pix _ _ S) by exact F. cbn [fst snd]. destruct p as [|p].
    + split; [intros j J; rewrite !app_nth1 by lia; f_equal; lia|]. rewrite app_nth2 by lia. replace ((n + 1) * 0 + n - List.length c)%nat with 0%nat by lia. reflexivity.
    + destruct (IH r R p) as [A B]. split.
      * intros j J. rewrite !app_nth2 by nia. replace (n * Datatypes.S p + j - List.length c)%nat with (n * p + j)%nat by nia. rewrite (A j J).
        replace ((n + 1) * Datatypes.S p + j - List.length c)%nat with (Datatypes.S ((n + 1) * p + j)) by nia. reflexivity.
      * cbn [nth]. rewrite B. rewrite app_nth2 by nia. replace ((n + 1) * Datatypes.S p + n - List.length c)%nat with (Datatypes.S ((n + 1) * p + n)) by nia. reflexivity.
Qed.
Lemma recombines_one k l : List.length l = ((n + 1) * k)%nat -> recombines n k l (fst (one l)) (snd (one l)).
Proof.
  intros L. destruct (one_len k l L) as [A B]. split; [exact L|split; [exact A|split; [exact B|]]].
  intros p P. unfold pixel. rewrite seq_app, map_app. cbn [seq map]. destruct (one_nth k l L p) as [C D]. f_equal.
  - apply map_ext_in. intros j J. apply in_seq in J. symmetry. apply C. lia.
  - f_equal. replace (0 + n)%nat with n by lia. rewrite <- D. f_equal. lia.
Qed.
Lemma mapi_app f j a b : mapi f j (a ++ b) = mapi f j a ++ mapi f (j + List.length a) b.
Proof. revert j. induction a as [|x a IH]; intros j; cbn [app mapi List.length]; [now rewrite Nat.add_0_r|]. rewrite IH. do 2 f_equal. f_equal. lia. Qed.
Lemma mapi_ext f g a : forall j, (forall i x, (j <= i < j + List.length a)%nat -> f i x = g i x) -> mapi f j a = mapi g j a.
Proof. induction a as [|x a IH]; intros j H; [reflexivity|]. cbn [mapi List.length] in *. rewrite H by lia. f_equal. apply IH. intros i y Y. apply H. lia. Qed.
Lemma mapi_len f a : forall j, List.length (mapi f j a) = List.length a.
Proof. induction a as [|x a IH]; intros j; [reflexivity|]. cbn [mapi List.length]. now rewrite IH. Qed.
(** Undoing the filter commutes with splitting. *)
Lemma unfilter_split ft prior kp : List.length prior = ((n + 1) * kp)%nat -> forall kr raw, List.length raw = ((n + 1) * kr)%nat ->
  forall ko out, List.length out = ((n + 1) * ko)%nat ->
  one (unfilter (n + 1) ft prior raw out) =
    (unfilter n ft (fst (one prior)) (fst (one raw)) (fst (one out)), unfilter 1 ft (snd (one prior)) (snd (one raw)) (snd (one out))).
Proof.
  intros LP kr raw LR. revert kr raw LR.
  apply (pixels_ind n (fun raw => forall ko out, List.length out = ((n + 1) * ko)%nat ->
    one (unfilter (n + 1) ft prior raw out) =
    (unfilter n ft (fst (one prior)) (fst (one raw)) (fst (one out)), unfilter 1 ft (snd (one prior)) (snd (one raw)) (snd (one out))))).
  - intros ko out _. rewrite (sp_nil _ _ S). cbn [fst snd unfilter]. now destruct (one out).
  - intros c a r k C R IH ko out LO. rewrite (sp_pix _ _ S) by exact C. cbn [fst snd].
    pose proof (unfilter_pixel (n + 1) ft prior r out ko LO (c ++ [a]) 0 [] eq_refl) as U. rewrite app_length in U. cbn [List.length] in U.
    specialize (U ltac:(lia)). rewrite !app_nil_r in U. rewrite <- app_assoc in U. cbn [app] in U. rewrite U. clear U.
    set (px := mapi (pix (n + 1) ft prior out ko) 0 (c ++ [a])).
    assert (LX : List.length px = (n + 1)%nat). { unfold px. rewrite mapi_len, app_length. cbn. lia. }
    rewrite (IH (Datatypes.S ko) (out ++ px)) by (rewrite app_length; nia).
    rewrite (one_app ko out px LO). cbn [fst snd].
    assert (OX : one px = (mapi (pix n ft (fst (one prior)) (fst (one out)) ko) 0 c, [pix 1 ft (snd (one prior)) (snd (one out)) ko 0 a])).
    { unfold px. rewrite mapi_app. cbn [mapi]. rewrite (sp_pix _ _ S) by (now rewrite mapi_len). rewrite (sp_nil _ _ S). cbn [fst snd]. rewrite app_nil_r. f_equal.
      - apply mapi_ext. intros i x I. unfold pix. destruct (one_nth ko out LO (ko - 1)) as [A _]. destruct (one_nth kp prior LP ko) as [B _]. destruct (one_nth kp prior LP (ko - 1)) as [D _].
        rewrite A, B, D by lia. reflexivity.
      - f_equal. unfold pix. destruct (one_nth ko out LO (ko - 1)) as [_ A]. destruct (one_nth kp prior LP ko) as [_ B]. destruct (one_nth kp prior LP (ko - 1)) as [_ D].
        replace (0 + List.length c)%nat with n by lia. replace (1 * ko + 0)%nat with ko by lia. replace (1 * (ko - 1) + 0)%nat with (ko - 1)%nat by lia. rewrite A, B, D. reflexivity. }
    rewrite OX. cbn [fst snd]. destruct (one_len ko out LO) as [L1 L2]. f_equal.
    + pose proof (unfilter_pixel n ft (fst (one prior)) (fst (one r)) (fst (one out)) ko L1 c 0 [] eq_refl ltac:(lia)) as U. rewrite !app_nil_r in U. now rewrite U.
    + pose proof (unfilter_pixel 1 ft (snd (one prior)) (snd (one r)) (snd (one out)) ko ltac:(lia) [a] 0 [] eq_refl ltac:(cbn; lia)) as U. rewrite !app_nil_r in U. cbn [app mapi] in U. now rewrite U.
Qed.

(** The planes, line by line. *)
Fixpoint planes (len h : nat) (raw : bytes) : bytes * bytes :=
  match h, raw with
  | Datatypes.S h', ft :: r => let '(c, a) := planes len h' (skipn len r) in
      (ft :: fst (one (firstn len r)) ++ c, ft :: snd (one (firstn len r)) ++ a)
  | _, _ => ([], [])
  end.
Lemma split_rows_planes len raw slack : forall h i color alpha, ((1 + len) * (i + h) <= List.length raw)%nat ->
  split_rows one len raw slack i h color alpha
  = Res (color ++ fst (planes len h (skipn ((1 + len) * i) raw)), alpha ++ snd (planes len h (skipn ((1 + len) * i) raw))).
Proof.
  induction h as [|h IH]; intros i color alpha L; cbn [split_rows]; [cbn; now rewrite !app_nil_r|].
  set (pos := ((1 + len) * i)%nat). assert (P : (pos + len + 1 <= List.length raw)%nat) by (unfold pos; nia).
  destruct (nth_error raw pos) as [f|] eqn:N. 2:{ apply nth_error_None in N. lia. }
  destruct (Nat.leb_spec (pos + len + 1) (List.length raw + List.length slack)) as [_|H]; [|lia].
  rewrite (skipn_nth _ _ _ N). cbn [planes].
  assert (F : firstn len (skipn (pos + 1) (raw ++ slack)) = firstn len (skipn (Datatypes.S pos) raw)).
  { replace (pos + 1)%nat with (Datatypes.S pos) by lia. rewrite skipn_app, firstn_app, skipn_length.
    replace (len - (List.length raw - Datatypes.S pos))%nat with 0%nat by lia. cbn [firstn]. now rewrite app_nil_r. }
  rewrite F. rewrite IH by nia.
  replace (skipn ((1 + len) * Datatypes.S i) raw) with (skipn len (skipn (Datatypes.S pos) raw)) by (rewrite skipn_skipn; replace (len + Datatypes.S pos)%nat with ((1 + len) * Datatypes.S i)%nat by (unfold pos; nia); reflexivity).
  destruct (planes len h (skipn len (skipn (Datatypes.S pos) raw))) as [c a]. cbn [fst snd]. rewrite <- !app_assoc. reflexivity.
Qed.
Lemma picture_planes w : forall h raw prior rows, List.length prior = 0%nat \/ List.length prior = ((n + 1) * w)%nat ->
  picture (n + 1) ((n + 1) * w) h raw prior = Some rows ->
  let '(c, a) := planes ((n + 1) * w) h raw in
  picture n (n * w) h c (fst (one prior)) = Some (map (fun l => fst (one l)) rows) /\
  picture 1 w h a (snd (one prior)) = Some (map (fun l => snd (one l)) rows) /\
  Forall (fun l => List.length l = ((n + 1) * w)%nat) rows /\ List.length rows = h.
Proof.
  induction h as [|h IH]; intros raw prior rows LP E; cbn [picture planes] in *.
  - injection E as <-. repeat split; constructor.
  - destruct raw as [|ft r]; [discriminate|]. destruct ((0 <=? ft) && (ft <=? 4)) eqn:FT; [|discriminate]. cbn [andb] in E.
    destruct (Nat.leb_spec ((n + 1) * w) (List.length r)) as [L|L]; [|discriminate].
    set (raw1 := firstn ((n + 1) * w) r) in *. assert (L1 : List.length raw1 = ((n + 1) * w)%nat) by (unfold raw1; rewrite firstn_length; lia).
    set (line := unfilter (n + 1) ft prior raw1 []) in *.
    assert (LL : List.length line = ((n + 1) * w)%nat) by (unfold line; rewrite unfilter_len; cbn; lia).
    destruct (picture (n + 1) ((n + 1) * w) h (skipn ((n + 1) * w) r) line) as [ls|] eqn:E2; [|discriminate]. injection E as <-.
    specialize (IH (skipn ((n + 1) * w) r) line ls (or_intror LL) E2).
    destruct (planes ((n + 1) * w) h (skipn ((n + 1) * w) r)) as [c a]. destruct IH as (A & B & C & D).
    assert (HP : exists kp, List.length prior = ((n + 1) * kp)%nat) by (destruct LP as [K|K]; [exists 0%nat; lia|exists w; exact K]). destruct HP as [kp HP].
    pose proof (unfilter_split ft prior kp HP w raw1 L1 0 [] ltac:(cbn; lia)) as U. rewrite (sp_nil _ _ S) in U. cbn [fst snd] in U. fold line in U.
    destruct (one_len w raw1 L1) as [N1 N2].
    rewrite FT. cbn [andb]. rewrite !app_length, N1, N2.
    destruct (Nat.leb_spec (n * w) (n * w + List.length c)) as [_|H]; [|lia]. destruct (Nat.leb_spec w (w + List.length a)) as [_|H]; [|lia].
    rewrite !firstn_app_len, !skipn_app_len by congruence.
    assert (X1 : unfilter n ft (fst (one prior)) (fst (one raw1)) [] = fst (one line)) by (rewrite U; reflexivity).
    assert (X2 : unfilter 1 ft (snd (one prior)) (snd (one raw1)) [] = snd (one line)) by (rewrite U; reflexivity).
    rewrite X1, X2, A, B. cbn [map List.length]. repeat split; [constructor; assumption|now rewrite D].
Qed.
Lemma picture_len w : forall h raw prior rows, picture (n + 1) ((n + 1) * w) h raw prior = Some rows -> ((1 + (n + 1) * w) * h <= List.length raw)%nat.
Proof.
  induction h as [|h IH]; intros raw prior rows E; cbn [picture] in E; [lia|]. destruct raw as [|ft r]; [discriminate|].
  destruct ((0 <=? ft) && (ft <=? 4)); [|discriminate]. cbn [andb] in E. destruct (Nat.leb_spec ((n + 1) * w) (List.length r)) as [L|L]; [|discriminate].
  destruct (picture _ _ h _ _) eqn:E2; [|discriminate]. apply IH in E2. rewrite skipn_length in E2. cbn [List.length]. nia.
Qed.
End Split.

(** ** C37, the planes *)
Definition colours (ct : Z) : nat := if ct =? 4 then 1 else 3.
Lemma split_planes_ok ct w h raw slack rows : (ct = 4 \/ ct = 6) -> 0 <= w -> 0 <= h ->
  picture (colours ct + 1) ((colours ct + 1) * Z.to_nat w) (Z.to_nat h) raw [] = Some rows ->
  exists color alpha crows arows, split_planes ct w h raw slack = Res (color, alpha) /\
    picture (colours ct) (colours ct * Z.to_nat w) (Z.to_nat h) color [] = Some crows /\
    picture 1 (Z.to_nat w) (Z.to_nat h) alpha [] = Some arows /\
    List.length rows = Z.to_nat h /\ List.length crows = Z.to_nat h /\ List.length arows = Z.to_nat h /\
    forall i, (i < Z.to_nat h)%nat -> recombines (colours ct) (Z.to_nat w) (nth i rows []) (nth i crows []) (nth i arows []).
Proof.
  intros CT W H E. assert (G : forall n one, splits n one -> n = colours ct -> (one = if ct =? 4 then pairs else quads) -> True) by auto. clear G.
  assert (M : forall n one, splits n one -> picture (n + 1) ((n + 1) * Z.to_nat w) (Z.to_nat h) raw [] = Some rows ->
    exists color alpha crows arows, split_rows one ((n + 1) * Z.to_nat w) raw slack 0 (Z.to_nat h) [] [] = Res (color, alpha) /\
    picture n (n * Z.to_nat w) (Z.to_nat h) color [] = Some crows /\
    picture 1 (Z.to_nat w) (Z.to_nat h) alpha [] = Some arows /\
    List.length rows = Z.to_nat h /\ List.length crows = Z.to_nat h /\ List.length arows = Z.to_nat h /\
    forall i, (i < Z.to_nat h)%nat -> recombines n (Z.to_nat w) (nth i rows []) (nth i crows []) (nth i arows [])).
  { intros n one S E'. pose proof (picture_len _ _ _ _ _ _ E') as L. pose proof (picture_planes n one S (Z.to_nat w) (Z.to_nat h) raw [] rows (or_introl eq_refl) E') as P.
    rewrite (split_rows_planes one ((n + 1) * Z.to_nat w) raw slack (Z.to_nat h) 0 [] []) by nia. rewrite Nat.mul_0_r. cbn [skipn].
    destruct (planes one ((n + 1) * Z.to_nat w) (Z.to_nat h) raw) as [c a]. rewrite (sp_nil _ _ S) in P. cbn [fst snd app] in *. destruct P as (A & B & C & D).
    exists c, a, (map (fun l => fst (one l)) rows), (map (fun l => snd (one l)) rows). repeat (split; [first [reflexivity|assumption|now rewrite map_length]|]).
    intros i I. rewrite (nth_indep (map (fun l => fst (one l)) rows) [] (fst (one []))) by (rewrite map_length; lia).
    rewrite (nth_indep (map (fun l => snd (one l)) rows) [] (snd (one []))) by (rewrite map_length; lia). rewrite !(map_nth (fun l => _ (one l))).
    apply recombines_one; [exact S|]. rewrite Forall_forall in C. apply C, nth_In. lia. }
  unfold split_planes, colours in *. destruct CT as [-> | ->].
  - destruct (M 1%nat pairs splits_pairs E) as (c & a & cr & ar & X & Y). exists c, a, cr, ar. split; [|exact Y]. cbn [Z.eqb Pos.eqb] in *.
    replace (Z.to_nat (2 * w)) with ((1 + 1) * Z.to_nat w)%nat by lia. exact X.
  - destruct (M 3%nat quads splits_quads E) as (c & a & cr & ar & X & Y). exists c, a, cr, ar. split; [|exact Y]. cbn [Z.eqb Pos.eqb] in *.
    replace (Z.to_nat (4 * w)) with ((3 + 1) * Z.to_nat w)%nat by lia. exact X.
Qed.

(** ** The file *)
Lemma be32_u32be v : 0 <= v < 2 ^ 32 -> be32 (u32be v) = v.
Proof. intros H. change (2 ^ 32) with 4294967296 in H. unfold be32, u32be. lia. Qed.
Lemma take_pad_app a b : take_pad (List.length a) (a ++ b) = a.
Proof. unfold take_pad. rewrite firstn_app_exact, app_length. replace (List.length a - _)%nat with 0%nat by lia. cbn. apply app_nil_r. Qed.
Lemma take_pad_len m l : List.length (take_pad m l) = m.
Proof. unfold take_pad. rewrite app_length, firstn_length, repeat_length. lia. Qed.
Lemma readBytes_app k a b : k = zlen a -> a ++ b <> [] -> readBytes k (a ++ b) = Some (a, b).
Proof.
  intros -> N. unfold readBytes. destruct (a ++ b) as [|x y] eqn:E; [contradiction|]. rewrite <- E. unfold zlen. rewrite Nat2Z.id, take_pad_app, skipn_app_exact. reflexivity.
Qed.
Lemma readUInt_app v r : 0 <= v < 2 ^ 32 -> readUInt (u32be v ++ r) = Some (v, r).
Proof. intros V. unfold readUInt. rewrite readBytes_app by (try reflexivity; discriminate). now rewrite be32_u32be. Qed.
Lemma seek_app a b k : k = zlen a -> seek k (a ++ b) = b.
Proof. intros ->. unfold seek, zlen. now rewrite Nat2Z.id, skipn_app_exact. Qed.

(** The transparency chunks one after the other. *)
Fixpoint fold_trns (ct : Z) (t : bytes) (l : list bytes) : option bytes :=
  match l with [] => Some t | b :: l => match trns_of ct b t with Some t => fold_trns ct t l | None => None end end.
Definition solid (c : chunk) : Prop := chunk_ok c /\ c_body c <> [].
Lemma named_cons t c l : named t (c :: l) = if list_eqb (c_type c) t then c_body c :: named t l else named t l.
Proof. unfold named. cbn [filter map]. now destruct (list_eqb (c_type c) t). Qed.
Lemma zlen_type c : List.length (c_type c) = 4%nat -> 4 = zlen (c_type c).
Proof. unfold zlen. intros ->. reflexivity. Qed.
Lemma body_pos c : c_body c <> [] -> 0 < zlen (c_body c).
Proof. destruct (c_body c); [contradiction|]. intros _. rewrite zlen_cons. pose proof (zlen_nonneg l). lia. Qed.
Lemma app_nonempty {A} (a b : list A) : a <> [] -> a ++ b <> [].
Proof. destruct a; [contradiction|discriminate]. Qed.
Lemma last_cons {A} (x : A) l d : last (x :: l) d = last l x.
Proof. revert x d. induction l as [|y l IH]; intros x d; [reflexivity|]. change (last (x :: y :: l) d) with (last (y :: l) d). rewrite !IH. reflexivity. Qed.
Lemma is_eqb a b : list_eqb a b = true -> a = b.
Proof. apply list_eqb_eq. Qed.
Lemma chunks_ok ct crc tail : List.length crc = 4%nat -> forall l, Forall solid l -> forall fuel a, (List.length l < fuel)%nat ->
  chunks fuel ct (flat_map chunk_bytes l ++ chunk_bytes (iend crc) ++ tail) a =
  match fold_trns ct (p_trns a) (named (bs "tRNS") l) with
  | Some t => Some (Res {| p_pal := last (named (bs "PLTE") l) (p_pal a); p_trns := t; p_data := p_data a ++ image_data l |})
  | None => Some Crash
  end.
Proof.
  intros LC. induction l as [|c l IH]; intros F fuel a FU; (destruct fuel as [|fuel]; [cbn in FU; lia|]).
  - cbn [flat_map app named filter map fold_trns last]. unfold chunk_bytes. cbn [iend c_body c_type c_crc]. rewrite <- !app_assoc. cbn [chunks].
    rewrite readUInt_app by (change (zlen (@nil Z)) with 0; lia). rewrite readBytes_app by (try reflexivity; discriminate). cbn [list_eqb].
    change (list_eqb (bs "IEND") (bs "PLTE")) with false. change (list_eqb (bs "IEND") (bs "tRNS")) with false. change (list_eqb (bs "IEND") (bs "IDAT")) with false. change (list_eqb (bs "IEND") (bs "IEND")) with true.
    cbn match. unfold image_data. cbn. rewrite app_nil_r. now destruct a.
  - inversion F as [|c0 l0 [(T & K & B & NE) NB] F']; subst c0 l0. cbn [List.length] in FU. cbn [flat_map]. unfold chunk_bytes at 1. rewrite <- !app_assoc. cbn [chunks].
    pose proof (body_pos c NB) as BP. rewrite readUInt_app by lia. rewrite readBytes_app; [|now apply zlen_type|apply app_nonempty; intros X; rewrite X in T; discriminate].
    destruct (Z.leb_spec (zlen (c_body c)) 0) as [H|_]; [lia|]. rewrite !named_cons.
    assert (RD : forall r, readBytes (zlen (c_body c)) (c_body c ++ r) = Some (c_body c, r)) by (intros r; apply readBytes_app; [reflexivity|now apply app_nonempty]).
    assert (SK : forall r, seek 4 (c_crc c ++ r) = r) by (intros r; apply seek_app; unfold zlen; now rewrite K).
    specialize (IH F' fuel). set (R := flat_map chunk_bytes l ++ chunk_bytes (iend crc) ++ tail) in *. specialize (fun a => IH a ltac:(lia)).
    assert (DI : image_data (c :: l) = (if list_eqb (c_type c) (bs "IDAT") then c_body c else []) ++ image_data l).
    { unfold image_data. rewrite named_cons. now destruct (list_eqb (c_type c) (bs "IDAT")). }
    rewrite DI. clear DI.
    destruct (list_eqb (c_type c) (bs "PLTE")) eqn:E1; [|destruct (list_eqb (c_type c) (bs "tRNS")) eqn:E2; [|destruct (list_eqb (c_type c) (bs "IDAT")) eqn:E3]].
    + apply is_eqb in E1. rewrite E1. change (list_eqb (bs "PLTE") (bs "tRNS")) with false. change (list_eqb (bs "PLTE") (bs "IDAT")) with false. cbn match.
      rewrite RD, SK, IH. cbn [p_pal p_trns p_data app]. now rewrite last_cons.
    + apply is_eqb in E2. rewrite E2. change (list_eqb (bs "tRNS") (bs "IDAT")) with false. cbn match.
      rewrite RD, SK. cbn [fold_trns]. destruct (trns_of ct (c_body c) (p_trns a)); [|reflexivity]. rewrite IH. reflexivity.
    + rewrite RD, SK, IH. cbn [p_pal p_trns p_data]. rewrite <- app_assoc. reflexivity.
    + destruct (list_eqb (c_type c) (bs "IEND")) eqn:E4; [apply is_eqb in E4; contradiction|].
      rewrite app_assoc. rewrite seek_app by (rewrite zlen_app; unfold zlen at 3; rewrite K; lia). apply IH.
Qed.
(** Cut anywhere before IEND's type, the chunk loop fails. *)
Lemma chunks_nil fuel ct a : (0 < fuel)%nat -> chunks fuel ct [] a = Some Fail.
Proof. destruct fuel; [lia|reflexivity]. Qed.
Lemma trns_len ct t t' a : List.length t = List.length t' -> trns_of ct t a = None -> trns_of ct t' a = None.
Proof.
  intros L. unfold trns_of.
  assert (N : forall i, nth_error t i = None -> nth_error t' i = None) by (intros i; rewrite !nth_error_None; lia).
  assert (N' : forall i, nth_error t' i = None -> nth_error t i = None) by (intros i; rewrite !nth_error_None; lia).
  assert (A : forall i v, nth_error t i = Some v -> exists v', nth_error t' i = Some v').
  { intros i v H. destruct (nth_error t' i) eqn:E; [eauto|]. apply N' in E. congruence. }
  destruct (ct =? 0); [|destruct (ct =? 2)].
  - destruct (nth_error t 1) eqn:E; [discriminate|]. rewrite (N _ E). auto.
  - destruct (nth_error t 1) eqn:E1; [|rewrite (N _ E1); auto]. destruct (A _ _ E1) as [? ->].
    destruct (nth_error t 3) eqn:E2; [|rewrite (N _ E2); auto]. destruct (A _ _ E2) as [? ->].
    destruct (nth_error t 5) eqn:E3; [discriminate|]. now rewrite (N _ E3).
  - destruct (index0 0 t); discriminate.
Qed.
Lemma trns_indep ct t a b : trns_of ct t a = None -> trns_of ct t b = None.
Proof. unfold trns_of. destruct (ct =? 0); [auto|destruct (ct =? 2); [auto|]]. destruct (index0 0 t); discriminate. Qed.
Lemma chunks_cut ct crc : forall l, Forall solid l -> Forall (fun b => trns_of ct b [] <> None) (named (bs "tRNS") l) ->
  forall k fuel a, (k <= List.length (flat_map chunk_bytes l) + 4)%nat -> (List.length l + 1 < fuel)%nat ->
  chunks fuel ct (firstn k (flat_map chunk_bytes l ++ chunk_bytes (iend crc))) a = Some Fail.
Proof.
  induction l as [|c l IH]; intros F TR k fuel a K FU; (destruct fuel as [|fuel]; [cbn in FU; lia|]).
  - cbn [flat_map app List.length] in *. unfold chunk_bytes. cbn [iend c_body c_type c_crc].
    destruct k as [|[|[|[|[|k]]]]]; [reflexivity|reflexivity|reflexivity|reflexivity|reflexivity|lia].
  - inversion F as [|c0 l0 [(T & KC & B & NE) NB] F']; subst c0 l0. cbn [List.length] in FU. cbn [flat_map] in *.
    pose proof (body_pos c NB) as BP. rewrite named_cons in TR.
    set (R := flat_map chunk_bytes l ++ chunk_bytes (iend crc)) in *.
    assert (E0 : forall r, (chunk_bytes c ++ r) = u32be (zlen (c_body c)) ++ c_type c ++ c_body c ++ c_crc c ++ r) by (intros r; unfold chunk_bytes; now rewrite <- !app_assoc).
    rewrite <- app_assoc. fold R. rewrite E0.
    assert (LC : List.length (chunk_bytes c) = (12 + List.length (c_body c))%nat). { unfold chunk_bytes. rewrite !app_length, T, KC. cbn. lia. }
    destruct (Nat.le_gt_cases k 4) as [K4|K4].
    { destruct k as [|[|[|[|[|k]]]]]; [reflexivity|reflexivity|reflexivity|reflexivity|reflexivity|lia]. }
    rewrite firstn_app. rewrite firstn_all2 by (cbn; lia). change (List.length (u32be (zlen (c_body c)))) with 4%nat. cbn [chunks]. rewrite readUInt_app by lia.
    destruct (Nat.lt_ge_cases (k - 4) 4) as [K8|K8].
    { (* inside the type *)
      rewrite firstn_app. replace (k - 4 - List.length (c_type c))%nat with 0%nat by lia. cbn [firstn]. rewrite app_nil_r.
      destruct (c_type c) as [|t1 [|t2 [|t3 [|t4 [|]]]]]; try discriminate T.
      assert (FU1 : (0 < fuel)%nat) by lia. assert (HN : forall x, skipn x (@nil Z) = []) by (intros; apply skipn_nil).
      destruct (Z.leb_spec (zlen (c_body c)) 0) as [H|_]; [lia|].
      destruct (k - 4)%nat as [|[|[|[|j]]]] eqn:EK; [lia| | | |lia]; cbn [firstn readBytes]; change (Z.to_nat 4) with 4%nat; cbn [take_pad firstn List.length app repeat Nat.sub skipn bs N_of_ascii list_eqb];
        unfold take_pad; cbn [firstn List.length app repeat Nat.sub]; rewrite ?andb_false_r;
        repeat match goal with |- context [list_eqb ?x (bs ?y)] => replace (list_eqb x (bs y)) with false by (cbn; now rewrite ?andb_false_r) end; unfold seek; rewrite HN; now apply chunks_nil. }
    rewrite firstn_app. rewrite firstn_all2 by lia. rewrite T.
    rewrite readBytes_app; [|now apply zlen_type|apply app_nonempty; intros X; rewrite X in T; discriminate].
    destruct (Z.leb_spec (zlen (c_body c)) 0) as [H|_]; [lia|].
    destruct (Nat.le_gt_cases (k - 4 - 4) (List.length (c_body c) + 4)) as [KB|KB].
    { (* inside the data or the checksum *)
      set (r := firstn (k - 4 - 4) (c_body c ++ c_crc c ++ R)).
      assert (LR : (List.length r <= List.length (c_body c) + 4)%nat) by (unfold r; rewrite firstn_length; lia).
      assert (RD : readBytes (zlen (c_body c)) r = None \/ exists d, readBytes (zlen (c_body c)) r = Some (d, skipn (List.length (c_body c)) r) /\ List.length d = List.length (c_body c)).
      { unfold readBytes. destruct r eqn:ER; [now left|]. right. rewrite <- ER. unfold zlen. rewrite Nat2Z.id. eexists. split; [reflexivity|apply take_pad_len]. }
      assert (S4 : seek 4 (skipn (List.length (c_body c)) r) = []). { unfold seek. rewrite skipn_skipn. apply skipn_all2. change (Z.to_nat 4) with 4%nat. lia. }
      assert (S5 : seek (zlen (c_body c) + 4) r = []). { unfold seek. apply skipn_all2. unfold zlen. lia. }
      destruct (list_eqb (c_type c) (bs "PLTE")) eqn:E1.
      { destruct RD as [-> | (d & -> & _)]; [reflexivity|]. rewrite S4. apply chunks_nil. lia. }
      destruct (list_eqb (c_type c) (bs "tRNS")) eqn:E2.
      { destruct RD as [-> | (d & -> & LD)]; [reflexivity|]. destruct (trns_of ct d (p_trns a)) eqn:ET.
        - rewrite S4. apply chunks_nil. lia.
        - exfalso. inversion TR as [|x y TX]; subst. apply TX. apply (trns_indep _ _ (p_trns a)). apply (trns_len ct d); [exact LD|exact ET]. }
      destruct (list_eqb (c_type c) (bs "IDAT")) eqn:E3.
      { destruct RD as [-> | (d & -> & _)]; [reflexivity|]. rewrite S4. apply chunks_nil. lia. }
      destruct (list_eqb (c_type c) (bs "IEND")) eqn:E4; [apply is_eqb in E4; contradiction|]. rewrite S5. apply chunks_nil. lia. }
    (* past this chunk *)
    rewrite firstn_app. rewrite (firstn_all2 (c_body c)) by lia. rewrite firstn_app. rewrite (firstn_all2 (c_crc c)) by lia.
    set (k' := (k - 4 - 4 - List.length (c_body c) - List.length (c_crc c))%nat).
    assert (RD : forall r, readBytes (zlen (c_body c)) (c_body c ++ r) = Some (c_body c, r)) by (intros r; apply readBytes_app; [reflexivity|now apply app_nonempty]).
    assert (SK : forall r, seek 4 (c_crc c ++ r) = r) by (intros r; apply seek_app; unfold zlen; now rewrite KC).
    assert (K' : (k' <= List.length (flat_map chunk_bytes l) + 4)%nat). { rewrite app_length in K. unfold k'. lia. }
    destruct (list_eqb (c_type c) (bs "PLTE")) eqn:E1.
    { apply is_eqb in E1. rewrite E1 in TR. change (list_eqb (bs "PLTE") (bs "tRNS")) with false in TR. rewrite RD, SK. apply IH; [exact F'|exact TR|exact K'|lia]. }
    destruct (list_eqb (c_type c) (bs "tRNS")) eqn:E2.
    { rewrite RD, SK. inversion TR as [|x y TX TY]; subst. destruct (trns_of ct (c_body c) (p_trns a)) eqn:ET; [|exfalso; apply TX, (trns_indep _ _ (p_trns a)), ET]. apply IH; [exact F'|exact TY|exact K'|lia]. }
    destruct (list_eqb (c_type c) (bs "IDAT")) eqn:E3.
    { rewrite RD, SK. apply IH; [exact F'|exact TR|exact K'|lia]. }
    destruct (list_eqb (c_type c) (bs "IEND")) eqn:E4; [apply is_eqb in E4; contradiction|].
    rewrite app_assoc. rewrite seek_app by (rewrite zlen_app; unfold zlen at 3; rewrite KC; lia). apply IH; [exact F'|exact TR|exact K'|lia].
Qed.

Section Parse.
Variable inflate : bytes -> option bytes.
Variable deflate : bytes -> bytes.
Variable slack : bytes.
Notation parse := (parsePng inflate deflate slack).

Definition space_of (ct : Z) : colspace := if (ct =? 0) || (ct =? 4) then DevGray else if ct =? 3 then Indexed else DevRGB.
Lemma readByte_cons b r : readByte (b :: r) = Some (b, r).
Proof. unfold readByte. change (b :: r) with ([b] ++ r). rewrite readBytes_app; [reflexivity|reflexivity|discriminate]. Qed.
Lemma parse_header x crc1 R : header_ok x -> List.length crc1 = 4%nat ->
  parse ([137; 80; 78; 71; 13; 10; 26; 10] ++ chunk_bytes (ihdr x crc1) ++ R) =
  match chunks (S (List.length R)) (h_ct x) R {| p_pal := []; p_trns := []; p_data := [] |} with
  | Some (Res a) => finish inflate deflate slack (h_w x) (h_h x) (h_bpc x) (h_ct x) (space_of (h_ct x)) a
  | Some Fail => Fail
  | Some Crash | None => Crash
  end.
Proof.
  intros (W & H & Q) K. unfold parsePng, chunk_bytes. cbn [ihdr c_body c_type c_crc]. rewrite <- !app_assoc.
  rewrite (readBytes_app 8) by (try reflexivity; discriminate). change (list_eqb [137; 80; 78; 71; 13; 10; 26; 10] pngMagicNumber) with true. cbn [negb].
  rewrite (seek_app (u32be _)) by reflexivity. rewrite (readBytes_app 4) by (try reflexivity; discriminate). change (list_eqb (bs "IHDR") pngIHDR) with true. cbn [negb].
  rewrite !readUInt_app by (change (2 ^ 31) with 2147483648 in *; change (2 ^ 32) with 4294967296; lia). cbn [app]. rewrite !readByte_cons.
  assert (BP : (h_bpc x >? 8) = false). { destruct Q as [[_ I]|[[_ I]|[_ I]]]; cbn in I; lia. } rewrite BP.
  assert (CS : colspace_of (h_ct x) = Some (space_of (h_ct x))).
  { unfold colspace_of, space_of. destruct Q as [[-> _]|[[-> _]|[I _]]]; try reflexivity. cbn in I. destruct I as [<- |[<- |[<- |[]]]]; reflexivity. }
  rewrite CS. repeat (rewrite readByte_cons; cbn [Z.eqb negb]). rewrite (seek_app crc1) by (unfold zlen; now rewrite K). reflexivity.
Qed.
Lemma index0_spec k : forall b i, firstn k b = filter (fun v => negb (v =? 0)) (firstn k b) ->
  (nth_error b k = Some 0 -> index0 i b = Some (i + k)%nat) /\ (k = List.length b -> index0 i b = None).
Proof.
  induction k as [|k IH]; intros [|v b] i F; cbn [nth_error index0 List.length]; try (split; intros; discriminate || reflexivity).
  - split; [|discriminate]. intros E. injection E as ->. cbn. now rewrite Nat.add_0_r.
  - cbn [firstn filter] in F. destruct (Z.eqb_spec v 0) as [->|V]; cbn [negb] in F.
    + exfalso. assert (L : forall l : bytes, (List.length (filter (fun v => negb (v =? 0)%Z) l) <= List.length l)%nat) by (intros l; induction l as [|y l IHl]; cbn [filter List.length]; [lia|destruct (negb (y =? 0)%Z); cbn [List.length]; lia]).
      apply (f_equal (@List.length Z)) in F. cbn [List.length] in F. specialize (L (firstn k b)). lia.
    + injection F as F. specialize (IH b (S i) F). rewrite Nat.add_succ_r. split; intros E; [now apply IH|apply IH; now injection E].
Qed.
Lemma trns_fold x l t : header_ok x -> trns_ok x l t -> fold_trns (h_ct x) [] (named (bs "tRNS") l) = Some t /\
  Forall (fun b => trns_of (h_ct x) b [] <> None) (named (bs "tRNS") l).
Proof.
  intros (_ & _ & Q) [[-> ->]|(b & -> & H)]; [split; [reflexivity|constructor]|]. cbn [fold_trns].
  assert (A : trns_of (h_ct x) b [] = Some t).
  { unfold trns_of. destruct Q as [[E _]|[[E _]|[I _]]].
    - rewrite E in *. destruct H as (hi & lo & -> & ->). reflexivity.
    - rewrite E in *. destruct H as (k & K & F & H). cbn [Z.eqb]. destruct (index0_spec k b 0 F) as [H1 H2]. destruct H as [[N ->]|[N ->]].
      + rewrite (H1 N). rewrite Nat.add_0_l. rewrite Z.mod_small by lia. reflexivity.
      + rewrite (H2 N). reflexivity.
    - cbn in I. destruct I as [E|[E|[E|[]]]]; rewrite <- E in *; try contradiction. destruct H as (h1 & r & h2 & g & h3 & bl & -> & ->). reflexivity. }
  rewrite A. split; [reflexivity|]. constructor; [congruence|constructor].
Qed.
Lemma palette_last x l pal : palette_ok x l pal -> last (named (bs "PLTE") l) [] = pal.
Proof. intros [[[-> ->]|E] _]; [reflexivity|]. rewrite E. reflexivity. Qed.
Lemma chunks_count l : (List.length l <= List.length (flat_map chunk_bytes l))%nat.
Proof. induction l as [|c l IH]; [cbn; lia|]. cbn [flat_map List.length]. rewrite app_length. unfold chunk_bytes at 1. rewrite app_length. cbn. lia. Qed.
Lemma parse_file x crc1 l crc2 t pal : header_ok x -> List.length crc1 = 4%nat -> List.length crc2 = 4%nat -> Forall solid l -> trns_ok x l t -> palette_ok x l pal ->
  parse (png_file x crc1 l crc2) =
  finish inflate deflate slack (h_w x) (h_h x) (h_bpc x) (h_ct x) (space_of (h_ct x)) {| p_pal := pal; p_trns := t; p_data := image_data l |}.
Proof.
  intros HO C1 C2 F T P. unfold png_file. rewrite parse_header by assumption.
  rewrite <- (app_nil_r (chunk_bytes (iend crc2))). rewrite (chunks_ok _ crc2 [] C2 l F).
  2:{ rewrite !app_length. pose proof (chunks_count l). lia. }
  cbn [p_trns p_pal p_data app]. destruct (trns_fold x l t HO T) as [-> _]. rewrite (palette_last x l pal P). reflexivity.
Qed.

(** C37, from the file to the two image objects: the PNG's own decoder ([picture] on the inflated image data) and a PDF
    reader of the two streams (inflate, then Predictor 15 with the written /Colors, /BitsPerComponent 8 and /Columns)
    see the same picture.  [deflate] is any compressor that [inflate] undoes. *)
Theorem C37_alpha_recombines_partial : forall x crc1 l crc2 pal raw rows,
  header_ok x -> (h_ct x = 4 \/ h_ct x = 6) -> List.length crc1 = 4%nat -> List.length crc2 = 4%nat ->
  Forall chunk_ok l -> Forall (fun c => c_body c <> []) l -> trns_ok x l [] -> palette_ok x l pal ->
  (forall d, inflate (deflate d) = Some d) ->
  let w := Z.to_nat (h_w x) in let h := Z.to_nat (h_h x) in let n := colours (h_ct x) in
  inflate (image_data l) = Some raw -> picture (n + 1) ((n + 1) * w) h raw [] = Some rows ->
  exists i color alpha crows arows,
    parse (png_file x crc1 l crc2) = Res i /\
    im_w i = h_w x /\ im_h i = h_h x /\ im_cs i = (if h_ct x =? 4 then DevGray else DevRGB) /\ im_bpc i = 8 /\
    im_filter i = FFlate /\ im_colors i = Some (Z.of_nat n) /\ im_trns i = [] /\
    inflate (im_data i) = Some color /\ picture n (n * w) h color [] = Some crows /\
    inflate (im_smask i) = Some alpha /\ picture 1 w h alpha [] = Some arows /\
    List.length rows = h /\ List.length crows = h /\ List.length arows = h /\
    forall k, (k < h)%nat -> recombines n w (nth k rows []) (nth k crows []) (nth k arows []).
Proof.
  intros x crc1 l crc2 pal raw rows HO CT C1 C2 F NB T P ZD w h n ED EP.
  assert (FS : Forall solid l). { rewrite Forall_forall in *. intros c I. split; auto. }
  pose proof HO as (HW & HH & Q).
  rewrite (parse_file x crc1 l crc2 [] pal HO C1 C2 FS T P). unfold finish.
  destruct (split_planes_ok (h_ct x) (h_w x) (h_h x) raw slack rows CT ltac:(lia) ltac:(lia) EP) as (color & alpha & crows & arows & E & A & B & L1 & L2 & L3 & RC).
  assert (BP : h_bpc x = 8). { destruct Q as [[? _]|[[? _]|[_ ?]]]; [lia|lia|assumption]. }
  assert (CS : space_of (h_ct x) = if h_ct x =? 4 then DevGray else DevRGB) by (destruct CT as [-> | ->]; reflexivity).
  cbn [p_data p_pal p_trns]. rewrite ED, E, CS, BP.
  replace (4 <=? h_ct x) with true by (destruct CT as [-> | ->]; reflexivity).
  replace (match (if h_ct x =? 4 then DevGray else DevRGB) with Indexed => blank pal | _ => false end) with false by (destruct (h_ct x =? 4); reflexivity).
  eexists. exists color, alpha, crows, arows. split; [reflexivity|]. cbn [im_w im_h im_cs im_bpc im_filter im_colors im_trns im_data im_smask].
  repeat (split; [first [reflexivity|assumption|apply ZD]|]). split.
  { unfold n, colours. destruct (h_ct x =? 4); reflexivity. }
  repeat (split; [first [reflexivity|assumption|apply ZD]|]). exact RC.
Qed.

(** For the other colour types the image data are handed over untouched, with palette and colour key. *)
Theorem C37_opaque_png_partial : forall x crc1 l crc2 t pal,
  header_ok x -> In (h_ct x) [0; 2; 3] -> List.length crc1 = 4%nat -> List.length crc2 = 4%nat ->
  Forall chunk_ok l -> Forall (fun c => c_body c <> []) l -> trns_ok x l t -> palette_ok x l pal ->
  exists i, parse (png_file x crc1 l crc2) = Res i /\
    im_w i = h_w x /\ im_h i = h_h x /\ im_bpc i = h_bpc x /\ im_filter i = FFlate /\
    im_cs i = match h_ct x with 0 => DevGray | 2 => DevRGB | _ => Indexed end /\
    im_colors i = Some (match h_ct x with 2 => 3 | _ => 1 end) /\
    im_data i = image_data l /\ im_smask i = [] /\ im_trns i = t /\ im_pal i = pal.
Proof.
  intros x crc1 l crc2 t pal HO CT C1 C2 F NB T P.
  assert (FS : Forall solid l). { rewrite Forall_forall in *. intros c I. split; auto. }
  rewrite (parse_file x crc1 l crc2 t pal HO C1 C2 FS T P). unfold finish. cbn [p_data p_pal p_trns].
  destruct P as [_ BL]. cbn [In] in CT. destruct CT as [E|[E|[E|[]]]]; rewrite <- E in *; cbn [space_of Z.eqb Pos.eqb orb Z.leb Z.compare Pos.compare Pos.compare_cont].
  1,2: (eexists; split; [reflexivity|cbn; repeat (split; [reflexivity|]); reflexivity]).
  rewrite BL by reflexivity. eexists; split; [reflexivity|cbn; repeat (split; [reflexivity|]); reflexivity].
Qed.

(** C57: a PNG file cut anywhere before the type of its end chunk is rejected with an error, whatever the colour type. *)
Lemma firstn_app_ge {A} k (a b : list A) : (List.length a <= k)%nat -> firstn k (a ++ b) = a ++ firstn (k - List.length a) b.
Proof. intros H. rewrite firstn_app, firstn_all2 by exact H. reflexivity. Qed.
Theorem C57_truncated_png_rejected_partial : forall x crc1 l crc2 t k,
  header_ok x -> List.length crc1 = 4%nat -> List.length crc2 = 4%nat ->
  Forall chunk_ok l -> Forall (fun c => c_body c <> []) l -> trns_ok x l t ->
  (k + 8 <= List.length (png_file x crc1 l crc2))%nat ->
  parse (firstn k (png_file x crc1 l crc2)) = Fail.
Proof.
  intros x crc1 l crc2 t k HO C1 C2 F NB T K.
  assert (FS : Forall solid l). { rewrite Forall_forall in *. intros c I. split; auto. }
  unfold png_file in *. rewrite !app_length in K. cbn [List.length] in K.
  assert (LH : List.length (chunk_bytes (ihdr x crc1)) = 25%nat) by (unfold chunk_bytes; cbn [ihdr c_body c_type c_crc]; rewrite !app_length, C1; reflexivity).
  assert (LE : List.length (chunk_bytes (iend crc2)) = 12%nat) by (unfold chunk_bytes; cbn [iend c_body c_type c_crc]; rewrite !app_length, C2; reflexivity).
  destruct (Nat.le_gt_cases 33 k) as [K33|K33].
  - rewrite firstn_app_ge by (cbn; lia). rewrite firstn_app_ge by (rewrite LH; cbn; lia). rewrite parse_header by assumption.
    change (List.length [137; 80; 78; 71; 13; 10; 26; 10]) with 8%nat. rewrite LH.
    destruct (trns_fold x l t HO T) as [_ TN].
    assert (EX : exists fuel, (List.length l + 1 < fuel)%nat /\ True) by (exists (S (S (List.length l))); split; [lia|exact I]).
    (* the fuel is the number of bytes left, which may be small: use monotonicity *)
    set (r := firstn (k - 8 - 25) (flat_map chunk_bytes l ++ chunk_bytes (iend crc2))).
    assert (R : forall fuel, (List.length l + 1 < fuel)%nat -> chunks fuel (h_ct x) r {| p_pal := []; p_trns := []; p_data := [] |} = Some Fail).
    { intros fuel FU. apply (chunks_cut _ crc2 l FS TN); [rewrite LE in K; lia|exact FU]. }
    assert (MONO : forall fuel r a, (List.length r < fuel)%nat -> forall fuel', (fuel <= fuel')%nat -> chunks fuel' (h_ct x) r a = chunks fuel (h_ct x) r a).
    { clear. induction fuel as [|f IH]; intros r a L f' LF; [lia|]. destruct f' as [|f']; [lia|]. cbn [chunks].
      destruct (readUInt r) as [[n r1]|] eqn:E1; [|reflexivity].
      assert (L1 : (List.length r1 < List.length r)%nat).
      { unfold readUInt, readBytes in E1. destruct r as [|b r]; [discriminate|]. assert (E : r1 = skipn (Z.to_nat 4) (b :: r)) by congruence. subst r1. change (Z.to_nat 4) with 4%nat. rewrite skipn_length. cbn [List.length]. lia. }
      destruct (readBytes 4 r1) as [[typ r2]|] eqn:E2; [|reflexivity].
      assert (RL : forall m r d r', readBytes m r = Some (d, r') -> (List.length r' <= List.length r)%nat).
      { intros m r0 d r' E. unfold readBytes in E. destruct r0 as [|b r0]; [discriminate|]. assert (E' : r' = skipn (Z.to_nat m) (b :: r0)) by congruence. subst r'. rewrite skipn_length. lia. }
      assert (SL : forall m r0, (List.length (seek m r0) <= List.length r0)%nat) by (intros m r0; unfold seek; rewrite skipn_length; lia).
      pose proof (RL _ _ _ _ E2) as L2.
      assert (NX : forall r0 a0, (List.length r0 <= List.length r2)%nat -> (if n <=? 0 then Some (Res a0) else chunks f' (h_ct x) r0 a0) = (if n <=? 0 then Some (Res a0) else chunks f (h_ct x) r0 a0)).
      { intros r0 a0 L0. destruct (n <=? 0); [reflexivity|]. apply IH; lia. }
      destruct (list_eqb typ (bs "PLTE")).
      { destruct (readBytes n r2) as [[d r3]|] eqn:E3; [|reflexivity]. apply RL in E3. apply NX. specialize (SL 4 r3). lia. }
      destruct (list_eqb typ (bs "tRNS")).
      { destruct (readBytes n r2) as [[d r3]|] eqn:E3; [|reflexivity]. apply RL in E3. destruct (trns_of (h_ct x) d (p_trns a)); [|reflexivity]. apply NX. specialize (SL 4 r3). lia. }
      destruct (list_eqb typ (bs "IDAT")).
      { destruct (readBytes n r2) as [[d r3]|] eqn:E3; [|reflexivity]. apply RL in E3. apply NX. specialize (SL 4 r3). lia. }
      destruct (list_eqb typ (bs "IEND")); [reflexivity|]. apply NX. apply SL. }
    rewrite <- (MONO (S (List.length r)) r _ ltac:(lia) (S (List.length r) + List.length l + 2)%nat ltac:(lia)). rewrite R by lia. reflexivity.
  - destruct crc1 as [|d1 [|d2 [|d3 [|d4 [|]]]]]; try discriminate C1. unfold chunk_bytes at 1. cbn [ihdr c_body c_type c_crc].
    change (u32be (zlen (u32be (h_w x) ++ u32be (h_h x) ++ [h_bpc x; h_ct x; 0; 0; 0]))) with (u32be 13).
    destruct HO as (HW & HH & Q).
    assert (BP : (h_bpc x >? 8) = false). { destruct Q as [[_ I]|[[_ I]|[_ I]]]; cbn in I; lia. }
    assert (CS : colspace_of (h_ct x) = Some (space_of (h_ct x))).
    { unfold colspace_of, space_of. destruct Q as [[-> _]|[[-> _]|[I _]]]; try reflexivity. cbn in I. destruct I as [<- |[<- |[<- |[]]]]; reflexivity. }
    unfold u32be at 2 3. generalize (h_w x / 16777216 mod 256) (h_w x / 65536 mod 256) (h_w x / 256 mod 256) (h_w x mod 256)
      (h_h x / 16777216 mod 256) (h_h x / 65536 mod 256) (h_h x / 256 mod 256) (h_h x mod 256). intros w1 w2 w3 w4 h1 h2 h3 h4.
    clear - K33 BP CS. generalize dependent (h_bpc x). intros bpc BP. generalize dependent (h_ct x). intros ct CS.
    do 33 (destruct k as [|k]; [lazy -[Z.gtb colspace_of finish]; rewrite ?BP; lazy -[colspace_of finish]; rewrite ?CS; reflexivity|]). lia.
Qed.
End Parse.

(** ** The restrictions are needed *)
(** An empty chunk (legal anywhere in a PNG file) ends the reading: whatever follows — here everything — is lost, and the
    image is accepted without data.  For every header without alpha or palette, every following chunk list. *)
Theorem C37_empty_chunk_refuted : forall inflate deflate slack x crc1 c l crc2,
  header_ok x -> In (h_ct x) [0; 2] -> List.length crc1 = 4%nat -> chunk_ok c -> c_body c = [] ->
  ~ In (c_type c) [bs "PLTE"; bs "tRNS"; bs "IDAT"] ->
  exists i, parsePng inflate deflate slack (png_file x crc1 (c :: l) crc2) = Res i /\ im_data i = [].
Proof.
  intros inflate deflate slack x crc1 c l crc2 HO CT C1 (T & K & _ & NE) EB NT. unfold png_file. rewrite parse_header by assumption.
  cbn [flat_map]. rewrite <- app_assoc.
  assert (CB : chunk_bytes c = u32be 0 ++ c_type c ++ c_crc c) by (unfold chunk_bytes; rewrite EB; reflexivity).
  rewrite CB. rewrite <- !app_assoc. cbn [chunks]. rewrite readUInt_app by lia. rewrite readBytes_app; [|now apply zlen_type|apply app_nonempty; intros X; rewrite X in T; discriminate].
  cbn [In] in NT.
  destruct (list_eqb (c_type c) (bs "PLTE")) eqn:E1; [apply is_eqb in E1; exfalso; apply NT; left; congruence|].
  destruct (list_eqb (c_type c) (bs "tRNS")) eqn:E2; [apply is_eqb in E2; exfalso; apply NT; right; left; congruence|].
  destruct (list_eqb (c_type c) (bs "IDAT")) eqn:E3; [apply is_eqb in E3; exfalso; apply NT; right; right; left; congruence|].
  destruct (list_eqb (c_type c) (bs "IEND")) eqn:E4; [apply is_eqb in E4; contradiction|]. cbn [Z.leb Z.compare]. unfold finish. cbn [p_data p_pal p_trns].
  cbn [In] in CT. destruct CT as [E|[E|[]]]; rewrite <- E; eexists; (split; [reflexivity|reflexivity]).
Qed.
(** Image data shorter than the header announces make the program panic (no spare capacity behind them). *)
Theorem C37_short_data_refuted : forall inflate deflate x crc1 l crc2 pal,
  header_ok x -> (h_ct x = 4 \/ h_ct x = 6) -> List.length crc1 = 4%nat -> List.length crc2 = 4%nat ->
  Forall chunk_ok l -> Forall (fun c => c_body c <> []) l -> trns_ok x l [] -> palette_ok x l pal ->
  inflate (image_data l) = Some [] -> parsePng inflate deflate [] (png_file x crc1 l crc2) = Crash.
Proof.
  intros inflate deflate x crc1 l crc2 pal HO CT C1 C2 F NB T P ED.
  assert (FS : Forall solid l). { rewrite Forall_forall in *. intros c I. split; auto. }
  rewrite (parse_file _ _ _ x crc1 l crc2 [] pal HO C1 C2 FS T P). unfold finish. cbn [p_data p_pal p_trns]. rewrite ED.
  destruct HO as (_ & HH & _). unfold split_planes. destruct (Z.to_nat (h_h x)) as [|hh] eqn:EH; [lia|]. cbn [split_rows]. rewrite !Nat.mul_0_r. destruct CT as [-> | ->]; reflexivity.
Qed.
(** A one-colour palette of white-space bytes — (32,32,32), a dark grey — counts as missing. *)
Definition chunkS (t : string) (b : bytes) : chunk := {| c_type := bs t; c_body := b; c_crc := [0; 0; 0; 0] |}.
Definition hdr_grey : header := {| h_w := 1; h_h := 1; h_bpc := 8; h_ct := 3 |}.
Theorem C37_dark_palette_refuted : exists l, header_ok hdr_grey /\ Forall chunk_ok l /\ Forall (fun c => c_body c <> []) l /\
  named (bs "PLTE") l = [[32; 32; 32]] /\ named (bs "IDAT") l = [[120; 1; 99; 96; 0; 0; 0; 2; 0; 1]] /\
  forall inflate deflate slack, parsePng inflate deflate slack (png_file hdr_grey [0; 0; 0; 0] l [0; 0; 0; 0]) = Fail.
Proof.
  exists [chunkS "PLTE" [32; 32; 32]; chunkS "IDAT" [120; 1; 99; 96; 0; 0; 0; 2; 0; 1]].
  split. { split; [cbn; lia|split; [cbn; lia|]]. right; left. cbn. auto 6. }
  split. { repeat constructor; cbn; try lia; discriminate. }
  split. { repeat constructor; discriminate. }
  split; [reflexivity|]. split; [reflexivity|]. intros. vm_compute. reflexivity.
Qed.

(** ** The hypotheses can be met: a 2 x 2 RGB+alpha picture, lines filtered with Sub and Paeth, in two IDAT chunks with a
    text chunk between them; a "compressor" that stores (first byte 120). *)
Definition store (d : bytes) : bytes := 120 :: d.
Definition unstore (d : bytes) : option bytes := match d with 120 :: r => Some r | _ => None end.
Definition hdr22 : header := {| h_w := 2; h_h := 2; h_bpc := 8; h_ct := 6 |}.
Definition raw22 : bytes := [1; 10; 20; 30; 255; 1; 2; 3; 200; 4; 250; 5; 5; 1; 9; 8; 7; 100].
Definition chunks22 : list chunk := [chunkS "IDAT" (store [1; 10; 20; 30; 255; 1; 2]); chunkS "tEXt" [65; 0; 66]; chunkS "IDAT" [3; 200; 4; 250; 5; 5; 1; 9; 8; 7; 100]].
Example C37_hypotheses : header_ok hdr22 /\ Forall chunk_ok chunks22 /\ Forall (fun c => c_body c <> []) chunks22 /\ trns_ok hdr22 chunks22 [] /\
  palette_ok hdr22 chunks22 [] /\ (forall d, unstore (store d) = Some d) /\ unstore (image_data chunks22) = Some raw22 /\
  picture 4 8 2 raw22 [] = Some [[10; 20; 30; 255; 11; 22; 33; 199]; [4; 25; 35; 0; 13; 33; 42; 100]].
Proof.
  split. { split; [cbn; lia|split; [cbn; lia|]]. right; right. cbn. auto. }
  split. { repeat constructor; cbn; try lia; discriminate. }
  split. { repeat constructor; discriminate. }
  split. { left. split; reflexivity. }
  split. { split; [left; split; reflexivity|discriminate]. }
  split; [reflexivity|]. split; vm_compute; reflexivity.
Qed.
Example C37_planes_written : exists i, parsePng unstore store [] (png_file hdr22 [0; 0; 0; 0] chunks22 [0; 0; 0; 0]) = Res i /\
  im_data i = store [1; 10; 20; 30; 1; 2; 3; 4; 250; 5; 5; 9; 8; 7] /\ im_smask i = store [1; 255; 200; 4; 1; 100].
Proof. eexists. split; [vm_compute; reflexivity|]. split; reflexivity. Qed.
Print Assumptions C37_alpha_recombines_partial.
Print Assumptions C37_opaque_png_partial.
Print Assumptions C57_truncated_png_rejected_partial.
Print Assumptions C37_empty_chunk_refuted.
Print Assumptions C37_short_data_refuted.
Print Assumptions C37_dark_palette_refuted.

(** ** What is accepted *)
(** Big-endian number of four bytes. *)
Definition number4 (l : bytes) : Z := fold_left (fun n b => n * 256 + b) l 0.
(** Only a file with the PNG signature and an image header is accepted; depth at most 8, a colour type of the standard, no unknown compression or
    filter method and no interlacing (whose pixels are in another order); its size is the one in the header. *)
Theorem C37_accepted_files : forall inflate deflate slack file i, parsePng inflate deflate slack file = Res i ->
  exists len w4 h4 bpc ct rest, file = [137; 80; 78; 71; 13; 10; 26; 10] ++ len ++ bs "IHDR" ++ w4 ++ h4 ++ [bpc; ct; 0; 0; 0] ++ rest /\
    List.length len = 4%nat /\ List.length w4 = 4%nat /\ List.length h4 = 4%nat /\
    im_w i = number4 w4 /\ im_h i = number4 h4 /\ im_bpc i = bpc /\ bpc <= 8 /\ In ct [0; 2; 3; 4; 6].
Proof.
  intros inflate deflate slack file i.
  assert (RB : forall n r b r', readBytes n r = Some (b, r') -> r' <> [] -> r = b ++ r' /\ List.length b = Z.to_nat n).
  { intros n [|x r] b r' E NE; [discriminate|]. cbn [readBytes] in E. assert (E1 : take_pad (Z.to_nat n) (x :: r) = b) by congruence. assert (E2 : skipn (Z.to_nat n) (x :: r) = r') by congruence.
    assert (L : (Z.to_nat n < List.length (x :: r))%nat).
    { destruct (Nat.lt_ge_cases (Z.to_nat n) (List.length (x :: r))) as [L|L]; [exact L|]. rewrite skipn_all2 in E2 by exact L. now subst r'. }
    unfold take_pad in E1. replace (Z.to_nat n - List.length (x :: r))%nat with 0%nat in E1 by lia. cbn [repeat] in E1. rewrite app_nil_r in E1. subst b r'. split; [symmetry; apply firstn_skipn|].
    rewrite firstn_length. lia. }
  assert (NE : forall n r b r', readBytes n r = Some (b, r') -> r <> []) by (intros n [|x r] b r' E; discriminate).
  unfold parsePng. destruct (readBytes 8 file) as [[b0 r0]|] eqn:E0; [|discriminate]. destruct (list_eqb b0 pngMagicNumber) eqn:M; cbn [negb]; [|discriminate]. apply list_eqb_eq in M.
  unfold seek. destruct (readBytes 4 (skipn (Z.to_nat 4) r0)) as [[b1 r1]|] eqn:E1; [|discriminate]. destruct (list_eqb b1 pngIHDR) eqn:H1; cbn [negb]; [|discriminate]. apply list_eqb_eq in H1.
  unfold readUInt, readByte.
  destruct (readBytes 4 r1) as [[b2 r2]|] eqn:E2; [|discriminate]. destruct (readBytes 4 r2) as [[b3 r3]|] eqn:E3; [|discriminate].
  destruct (readBytes 1 r3) as [[b4 r4]|] eqn:E4; [|discriminate]. destruct (_ >? 8) eqn:G8; [discriminate|].
  destruct (readBytes 1 r4) as [[b5 r5]|] eqn:E5; [|discriminate]. destruct (colspace_of (hd 0 b5)) as [cs|] eqn:CS; [|discriminate].
  destruct (readBytes 1 r5) as [[b6 r6]|] eqn:E6; [|discriminate]. destruct (Z.eqb_spec (hd 0 b6) 0) as [Z6|]; cbn [negb]; [|discriminate].
  destruct (readBytes 1 r6) as [[b7 r7]|] eqn:E7; [|discriminate]. destruct (Z.eqb_spec (hd 0 b7) 0) as [Z7|]; cbn [negb]; [|discriminate].
  destruct (readBytes 1 r7) as [[b8 r8]|] eqn:E8; [|discriminate]. destruct (Z.eqb_spec (hd 0 b8) 0) as [Z8|]; cbn [negb]; [|discriminate].
  destruct (chunks _ _ _ _) as [[a| |]|]; try discriminate. intros FI.
  assert (DIM : im_w i = be32 b2 /\ im_h i = be32 b3 /\ im_bpc i = hd 0 b4).
  { unfold finish in FI. destruct (match cs with Indexed => _ | _ => _ end); [discriminate|]. destruct (4 <=? _).
    - destruct (inflate _) as [raw|]; [|discriminate]. destruct (split_planes _ _ _ _ _) as [[c al]| |]; try discriminate. assert (X : forall j, Res i = Res j -> i = j) by (intros j X; congruence).
      symmetry in FI. apply X in FI. subst i. repeat split.
    - assert (X : forall j, Res i = Res j -> i = j) by (intros j X; congruence). symmetry in FI. apply X in FI. subst i. repeat split. }
  clear FI a. pose proof (NE _ _ _ _ E1) as N1. pose proof (NE _ _ _ _ E2) as N2. pose proof (NE _ _ _ _ E3) as N3. pose proof (NE _ _ _ _ E4) as N4. pose proof (NE _ _ _ _ E5) as N5.
  pose proof (NE _ _ _ _ E6) as N6. pose proof (NE _ _ _ _ E7) as N7. pose proof (NE _ _ _ _ E8) as N8. 
  assert (N0 : r0 <> []) by (intros ->; now destruct N1).
  apply RB in E0 as [-> L0]; [|exact N0]. apply RB in E1 as [E1 L1]; [|exact N2]. apply RB in E2 as [-> L2]; [|exact N3]. apply RB in E3 as [-> L3]; [|exact N4].
  apply RB in E4 as [-> L4]; [|exact N5]. apply RB in E5 as [-> L5]; [|exact N6]. apply RB in E6 as [-> L6]; [|exact N7]. apply RB in E7 as [-> L7]; [|exact N8].
  assert (S0 : r0 = firstn 4 r0 ++ b1 ++ b2 ++ b3 ++ b4 ++ b5 ++ b6 ++ b7 ++ r7) by (rewrite <- (firstn_skipn 4 r0) at 1; f_equal; exact E1).
  assert (LF : List.length (firstn 4 r0) = 4%nat). { rewrite firstn_length. destruct (Nat.le_ge_cases 4 (List.length r0)) as [Q|Q]; [lia|]. exfalso. apply N1. now apply skipn_all2. }
  destruct r7 as [|x8 r7]; [now destruct N8|]. cbn [readBytes] in E8. assert (X8 : x8 = 0) by (assert (Q : take_pad (Z.to_nat 1) (x8 :: r7) = b8) by congruence; rewrite <- Q in Z8; exact Z8).
  destruct b4 as [|y4 [|? ?]]; try discriminate L4. destruct b5 as [|y5 [|? ?]]; try discriminate L5. destruct b6 as [|y6 [|? ?]]; try discriminate L6. destruct b7 as [|y7 [|? ?]]; try discriminate L7.
  cbn [hd] in *. subst y6 y7 x8. exists (firstn 4 r0), b2, b3, y4, y5, r7. split; [|repeat split; auto].
  - rewrite S0 at 1. rewrite M, H1. reflexivity.
  - destruct DIM as [-> _]. destruct b2 as [|? [|? [|? [|? [|? ?]]]]]; try discriminate L2. reflexivity.
  - destruct DIM as [_ [-> _]]. destruct b3 as [|? [|? [|? [|? [|? ?]]]]]; try discriminate L3. reflexivity.
  - apply DIM.
  - rewrite Z.gtb_ltb in G8. apply Z.ltb_ge in G8. exact G8.
  - unfold colspace_of in CS. destruct (Z.eqb_spec y5 0); [subst; cbn; auto|]. destruct (Z.eqb_spec y5 4); [subst; cbn; auto 6|]. destruct (Z.eqb_spec y5 2); [subst; cbn; auto 6|].
    destruct (Z.eqb_spec y5 6); [subst; cbn; auto 8|]. destruct (Z.eqb_spec y5 3); [subst; cbn; auto 8|discriminate].
Qed.
Print Assumptions C37_accepted_files.
