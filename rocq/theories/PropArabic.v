(** PropArabic.v — C48: ToArabic shows every letter once, with its own marks, from right to left, in the contextual form
    its neighbours require. *)
From Coq Require Import Permutation.
From Verif Require Import Base StrSpec StrModel PropStr ArabicModel.

(** ** Specification: Arabic joining (Unicode, chapter 9.2) and presentation forms (U+FB50.., U+FE70..) *)
(** Joining type: right-joining (joins only the letter before it), dual-joining, join-causing, non-joining. *)
Inductive joining := R | D | C | U.
(** A letter: code point, joining type, presentation forms isolated, final, initial, medial (a letter that does not join
    forward has only the first two). *)
Record letter := { nominal : Z; jt : joining; iso : Z; fin : Z; ini : Z; med : Z }.
Definition dual (n i : Z) : letter := {| nominal := n; jt := D; iso := i; fin := i + 1; ini := i + 2; med := i + 3 |}.
Definition right (n i : Z) : letter := {| nominal := n; jt := R; iso := i; fin := i + 1; ini := 0; med := 0 |}.
Definition letters : list letter :=
  [{| nominal := 0x621; jt := U; iso := 0xfe80; fin := 0; ini := 0; med := 0 |};        (* hamza *)
   right 0x622 0xfe81; right 0x623 0xfe83; right 0x624 0xfe85; right 0x625 0xfe87;      (* alef madda, alef hamza, waw hamza, alef hamza below *)
   dual 0x626 0xfe89; right 0x627 0xfe8d; dual 0x628 0xfe8f; right 0x629 0xfe93;        (* yeh hamza, alef, beh, teh marbuta *)
   dual 0x62a 0xfe95; dual 0x62b 0xfe99; dual 0x62c 0xfe9d; dual 0x62d 0xfea1; dual 0x62e 0xfea5;
   right 0x62f 0xfea9; right 0x630 0xfeab; right 0x631 0xfead; right 0x632 0xfeaf;      (* dal, thal, reh, zain *)
   dual 0x633 0xfeb1; dual 0x634 0xfeb5; dual 0x635 0xfeb9; dual 0x636 0xfebd; dual 0x637 0xfec1; dual 0x638 0xfec5;
   dual 0x639 0xfec9; dual 0x63a 0xfecd;
   {| nominal := 0x640; jt := C; iso := 0x640; fin := 0x640; ini := 0x640; med := 0x640 |};   (* tatweel *)
   dual 0x641 0xfed1; dual 0x642 0xfed5; dual 0x643 0xfed9; dual 0x644 0xfedd; dual 0x645 0xfee1; dual 0x646 0xfee5;
   dual 0x647 0xfee9; right 0x648 0xfeed; right 0x649 0xfeef; dual 0x64a 0xfef1;        (* heh, waw, alef maksura, yeh *)
   dual 0x67e 0xfb56; dual 0x686 0xfb7a; right 0x698 0xfb8a; dual 0x6a9 0xfb8e; dual 0x6af 0xfb92; dual 0x6cc 0xfbfc;  (* Persian *)
   right 0xfefb 0xfefb; right 0xfef7 0xfef7].                                           (* lam-alef, lam-alef hamza *)
Definition forms (l : letter) : list Z := nominal l :: filter (fun c => negb (c =? 0)) [iso l; fin l; ini l; med l].
(** The letter a character is (in any of its forms). *)
Definition letter_of (r : Z) : option letter := find (fun l => existsb (Z.eqb r) (forms l)) letters.
Definition jtype (r : Z) : joining := match letter_of r with Some l => jt l | None => U end.
Definition forward (j : joining) : bool := match j with D | C => true | _ => false end.
Definition backward (j : joining) : bool := match j with D | R | C => true | U => false end.
(** The characters that show letter [l] correctly between neighbours of the given joining types.  The isolated form may be
    left to the font (nominal code point). *)
Definition shown_as (l : letter) (before after : joining) : list Z :=
  match backward (jt l) && forward before, forward (jt l) && backward after with
  | false, false => [iso l; nominal l]
  | true, false => [fin l]
  | false, true => [ini l]
  | true, true => [med l]
  end.

(** Text as letters with their marks. *)
Definition marks : list Z := [0x64b; 0x64c; 0x64d; 0x64e; 0x64f; 0x650; 0x651; 0x652; 0x653; 0x654; 0x655; 0x656; 0x657; 0x658; 0x670].
Definition is_mark (r : Z) : bool := existsb (Z.eqb r) marks.
(** Shadda ligatures stand for two marks. *)
Definition unlig (r : Z) : list Z :=
  match r with
  | 0xfc5e => [0x64c; 0x651] | 0xfc5f => [0x64d; 0x651] | 0xfc60 => [0x64e; 0x651]
  | 0xfc61 => [0x64f; 0x651] | 0xfc62 => [0x650; 0x651] | 0xfc63 => [0x670; 0x651]
  | _ => [r]
  end.
Fixpoint marks_of (l : list Z) : list Z := match l with [] => [] | r :: l => if is_mark r then r :: marks_of l else [] end.
Fixpoint clusters (l : list Z) : list (Z * list Z) :=       (* marks before the first letter belong to no cluster *)
  match l with
  | [] => []
  | r :: l => if is_mark r then clusters l else (r, marks_of l) :: clusters l
  end.
(** A unit of display: one character, or lam and alef, which are written as one ligature. *)
Inductive unit := Single (c : Z) (m : list Z) | LamAlef (alef : Z) (m1 m2 : list Z).
Fixpoint merge (cl : list (Z * list Z)) : list unit :=
  match cl with
  | [] => []
  | (c, m) :: r =>
    match r with
    | (a, m') :: r' => if (c =? 0x644) && ((a =? 0x627) || (a =? 0x623)) then LamAlef a m m' :: merge r' else Single c m :: merge r
    | [] => [Single c m]
    end
  end.
Definition units (l : list Z) : list unit := merge (clusters l).
Definition u_marks (u : unit) : list Z := match u with Single _ m => m | LamAlef _ m1 m2 => m1 ++ m2 end.
Definition u_letter (u : unit) : option letter :=
  match u with Single c _ => letter_of c | LamAlef a _ _ => if a =? 0x627 then letter_of 0xfefb else letter_of 0xfef7 end.
Definition u_type (u : option unit) : joining := match u with Some u => match u_letter u with Some l => jt l | None => U end | None => U end.
(** What the statement about contextual forms leaves out: a letter after jeh or after a lam-alef character, a dual-joining
    letter before hamza, and teh marbuta before a letter (see the refutations). *)
Definition is_char (u : option unit) (n : Z) : bool :=
  match u with Some (Single c _) => match letter_of c with Some l => nominal l =? n | None => false end | _ => false end.
Definition is_letter (u : option unit) : bool := match u with Some u => match u_letter u with Some _ => true | None => false end | None => false end.
Definition regular (prev : option unit) (u : unit) (next : option unit) : bool :=
  negb (is_char prev 0x698) && negb (is_char prev 0xfefb) && negb (is_char prev 0xfef7) &&
  negb (match u_type (Some u) with D => is_char next 0x621 | _ => false end) &&
  negb (is_char (Some u) 0x629 && is_letter next).
(** [out] shows [u] between [prev] and [next]: its marks, then one character. *)
Definition shows (prev : option unit) (u : unit) (next : option unit) (out : list Z) : Prop :=
  exists ms f, out = ms ++ [f] /\ Permutation (flat_map unlig ms) (u_marks u) /\
    match u_letter u with
    | None => match u with Single c _ => f = c | LamAlef _ _ _ => False end
    | Some l => In f (forms l) /\ (regular prev u next = true -> In f (shown_as l (u_type prev) (u_type next)))
    end.
Fixpoint all_shown (prev : option unit) (us : list unit) (outs : list (list Z)) : Prop :=
  match us, outs with
  | [], [] => True
  | u :: us, o :: outs => shows prev u (hd_error us) o /\ all_shown (Some u) us outs
  | _, _ => False
  end.

(** ** Tables *)
Lemma mark_same r : IsTashkeel r = is_mark r.
Proof.
  unfold IsTashkeel, is_mark. apply eq_true_iff_eq. rewrite !existsb_exists.
  split; intros (x & I & E); exists x; (split; [|exact E]); cbn in *; tauto.
Qed.
Definition codes : list Z := flat_map forms letters.
Definition harf_codes (h : harf) : list Z := [Unicode h; Isolated h; Beginning h; Middle h; Final h].
Lemma letter_code r l : letter_of r = Some l -> In r codes /\ In l letters /\ In r (forms l).
Proof.
  intros E. apply find_some in E as [I E]. apply existsb_exists in E as (x & X & Y). apply Z.eqb_eq in Y. subst x.
  split; [|split; [exact I|exact X]]. apply in_flat_map. eauto.
Qed.
Lemma equals_in h r : equals h r = true -> In r (harf_codes h).
Proof. unfold equals, harf_codes. cbn. lia. Qed.
Lemma alphabet_code r : in_alphabet r = true -> In r (flat_map harf_codes arabicAlphabetCollection).
Proof. intros E. apply existsb_exists in E as (h & I & E). apply in_flat_map. exists h. split; [exact I|now apply equals_in]. Qed.
Definition has_letter (r : Z) : bool := match letter_of r with Some _ => true | None => false end.
Lemma alphabet_same r : in_alphabet r = has_letter r.
Proof.
  apply eq_true_iff_eq. split; intros E.
  - apply alphabet_code in E. revert r E. apply forallb_forall. vm_compute. reflexivity.
  - unfold has_letter in E. destruct (letter_of r) as [l|] eqn:L; [|discriminate]. destruct (letter_code r l L) as [I _].
    clear E L. revert r I. apply forallb_forall. vm_compute. reflexivity.
Qed.

(** Every code point belongs to one letter only, so the order in which Go visits its map does not matter. *)
Definition map_order (order : list harf) : Prop := forall h, In h order <-> In h arabicAlphabetCollection.
Notation harf_of c := (filter (fun h => equals h c) arabicAlphabetCollection).
Lemma harf_unique c : In c codes -> exists h, harf_of c = [h].
Proof.
  intros I. assert (X : (match harf_of c with [_] => true | _ => false end) = true).
  { revert c I. apply forallb_forall. vm_compute. reflexivity. }
  destruct (harf_of c) as [|h [|]]; try discriminate. now exists h.
Qed.
Lemma find_unique {A} (f : A -> bool) (order coll : list A) h : (forall x, In x order <-> In x coll) -> filter f coll = [h] -> find f order = Some h.
Proof.
  intros O E. assert (IH : In h (filter f coll)) by (rewrite E; left; reflexivity). apply filter_In in IH as [IC EQ].
  destruct (find f order) as [s|] eqn:F.
  - apply find_some in F as [I Q]. apply O in I. assert (X : In s (filter f coll)) by (apply filter_In; split; assumption). rewrite E in X. destruct X as [X|[]]. now rewrite X.
  - apply O in IC. apply (find_none _ _ F) in IC. rewrite EQ in IC. discriminate IC.
Qed.
Lemma getHarf_order order c h : map_order order -> harf_of c = [h] -> getHarf order c = h.
Proof.
  intros O E. unfold map_order in O. unfold getHarf. pose proof (find_unique (fun s => equals s c) order arabicAlphabetCollection h O E) as X. rewrite X. reflexivity.
Qed.

(** ** Forms *)
Definition shape_of (h : harf) (prevArabic rj nextArabic : bool) : Z :=
  if prevArabic && nextArabic then if rj then Beginning h else Middle h
  else if nextArabic then Beginning h
  else if prevArabic then if rj then Isolated h else Final h
  else Isolated h.
Lemma shape_eq order p c n h : map_order order -> In c codes -> harf_of c = [h] ->
  getCharShape order p c n = shape_of h (has_letter p) (right_joining p) (has_letter n).
Proof.
  intros O I E. unfold getCharShape. rewrite !alphabet_same, (getHarf_order _ _ _ O E).
  replace (has_letter c) with true; [reflexivity|]. symmetry. clear - I. revert c I. apply forallb_forall. vm_compute. reflexivity.
Qed.
Definition jeqb (a b : joining) : bool := match a, b with R, R | D, D | C, C | U, U => true | _, _ => false end.
(** All letters in all situations: [tb], [tn] the neighbours' types, [pa], [na] whether they are letters at all. *)
Definition check (h : harf) (l : letter) : bool :=
  forallb (fun pa => forallb (fun rj => forallb (fun na =>
      let f := shape_of h pa rj na in
      existsb (Z.eqb f) (forms l) &&
      forallb (fun tb => forallb (fun tn =>
        implb ((if pa then Bool.eqb rj (negb (forward tb)) else jeqb tb U)
               && (if na then negb (jeqb (jt l) D && jeqb tn U) else jeqb tn U)
               && negb ((nominal l =? 0x629) && na))
              (existsb (Z.eqb f) (shown_as l tb tn)))
        [R; D; C; U]) [R; D; C; U])
      [true; false]) [true; false]) [true; false].
Lemma eqb_in x l : existsb (Z.eqb x) l = true -> In x l.
Proof. intros K. apply existsb_exists in K as (y & X & Y). apply Z.eqb_eq in Y. now rewrite Y. Qed.
Lemma check_sound h l pa rj na : check h l = true ->
  In (shape_of h pa rj na) (forms l) /\
  forall tb tn, (pa = true -> rj = negb (forward tb)) -> (pa = false -> tb = U) ->
    (na = true -> jt l = D -> tn <> U) -> (na = false -> tn = U) -> (nominal l = 0x629 -> na = false) ->
    In (shape_of h pa rj na) (shown_as l tb tn).
Proof.
  intros K. unfold check in K. rewrite forallb_forall in K. specialize (K pa ltac:(destruct pa; cbn; auto)).
  rewrite forallb_forall in K. specialize (K rj ltac:(destruct rj; cbn; auto)).
  rewrite forallb_forall in K. specialize (K na ltac:(destruct na; cbn; auto)). cbv zeta in K.
  apply andb_true_iff in K as [K3 K]. split; [now apply eqb_in|].
  intros tb tn H1 H2 H3 H4 H5. rewrite forallb_forall in K. specialize (K tb ltac:(destruct tb; cbn; auto)).
  rewrite forallb_forall in K. specialize (K tn ltac:(destruct tn; cbn; auto)). apply eqb_in.
  match type of K with implb ?a _ = true => replace a with true in K; [exact K|] end.
  symmetry. rewrite !andb_true_iff. repeat split.
  - destruct pa; [rewrite H1 by reflexivity; apply Bool.eqb_reflx|rewrite H2 by reflexivity; reflexivity].
  - destruct na; [|rewrite H4 by reflexivity; reflexivity]. apply negb_true_iff, andb_false_iff.
    destruct (jt l); auto; right. specialize (H3 eq_refl eq_refl). destruct tn; cbn; congruence.
  - apply negb_true_iff, andb_false_iff. destruct (Z.eqb_spec (nominal l) 0x629) as [Q|Q]; [right; now apply H5|now left].
Qed.
Definition check_code (hs : list harf) (lo : option letter) : bool := match hs, lo with [h], Some l => check h l | _, _ => false end.
Lemma check_all : forallb (fun c => check_code (harf_of c) (letter_of c)) codes = true.
Proof. vm_compute. reflexivity. Qed.
Lemma check_at c h l : In c codes -> harf_of c = [h] -> letter_of c = Some l -> check h l = true.
Proof.
  intros I E L. pose proof (proj1 (forallb_forall (fun c => check_code (harf_of c) (letter_of c)) codes) check_all c I) as K. cbv beta in K.
  rewrite E, L in K. exact K.
Qed.
Lemma form_ok order p c n l : map_order order -> letter_of c = Some l ->
  In (getCharShape order p c n) (forms l) /\
  forall tb tn, (has_letter p = true -> right_joining p = negb (forward tb)) -> (has_letter p = false -> tb = U) ->
    (has_letter n = true -> jt l = D -> tn <> U) -> (has_letter n = false -> tn = U) -> (nominal l = 0x629 -> has_letter n = false) ->
    In (getCharShape order p c n) (shown_as l tb tn).
Proof.
  intros O L. destruct (letter_code c l L) as [I _]. destruct (harf_unique c I) as [h E]. rewrite (shape_eq order p c n h O I E).
  exact (check_sound h l (has_letter p) (right_joining p) (has_letter n) (check_at c h l I E L)).
Qed.
(** The code's test "does not join the next letter" against the joining types. *)
Lemma rj_ok c l : letter_of c = Some l -> nominal l <> 0x698 -> nominal l <> 0xfefb -> nominal l <> 0xfef7 -> right_joining c = negb (forward (jt l)).
Proof.
  intros L N1 N2 N3. destruct (letter_code c l L) as [I _].
  assert (X : forallb (fun c => match letter_of c with Some l => (nominal l =? 0x698) || (nominal l =? 0xfefb) || (nominal l =? 0xfef7) || Bool.eqb (right_joining c) (negb (forward (jt l))) | None => true end) codes = true) by (vm_compute; reflexivity).
  pose proof (proj1 (forallb_forall _ _) X c I) as K. cbv beta in K. rewrite L in K. apply Bool.eqb_prop.
  destruct (Z.eqb_spec (nominal l) 0x698); [contradiction|]. destruct (Z.eqb_spec (nominal l) 0xfefb); [contradiction|]. destruct (Z.eqb_spec (nominal l) 0xfef7); [contradiction|]. exact K.
Qed.
Lemma only_hamza l : In l letters -> jt l = U -> nominal l = 0x621.
Proof.
  intros I J. assert (X : forallb (fun l => match jt l with U => nominal l =? 0x621 | _ => true end) letters = true) by (vm_compute; reflexivity).
  pose proof (proj1 (forallb_forall _ _) X l I) as K. cbv beta in K. rewrite J in K. lia.
Qed.

(** ** Units *)
Definition alef_ok (u : unit) : Prop := match u with LamAlef a _ _ => a = 0x627 \/ a = 0x623 | Single c _ => is_mark c = false end.
Definition u_char (u : unit) : Z := match u with Single c _ => c | LamAlef a _ _ => if a =? 0x627 then 0xfefb else 0xfef7 end.
Definition first_char (us : list unit) : Z := match us with [] => 0 | Single c _ :: _ => c | LamAlef _ _ _ :: _ => 0x644 end.
Definition last_char (u : option unit) : Z := match u with None => 0 | Some (Single c _) => c | Some (LamAlef a _ _) => a end.
Lemma char_ok order prev u us : map_order order -> (forall v, prev = Some v -> alef_ok v) -> alef_ok u -> Forall alef_ok us ->
  let f := getCharShape order (last_char prev) (u_char u) (first_char us) in
  match u_letter u with
  | None => match u with Single c _ => f = c | LamAlef _ _ _ => False end
  | Some l => In f (forms l) /\ (regular prev u (hd_error us) = true -> In f (shown_as l (u_type prev) (u_type (hd_error us))))
  end.
Proof.
  intros O HP HU HUS f. assert (EL : u_letter u = letter_of (u_char u)).
  { destruct u as [c m|a m1 m2]; [reflexivity|]. cbn. now destruct (a =? 0x627). }
  destruct (u_letter u) as [l|] eqn:EU.
  - rewrite EU in EL || idtac. symmetry in EL. destruct (form_ok order (last_char prev) (u_char u) (first_char us) l O EL) as [A B]. split; [exact A|].
    intros RG. unfold regular in RG. rewrite !andb_true_iff, !negb_true_iff in RG. destruct RG as ((((G1 & G2) & G3) & G4) & G5).
    apply B.
    + intros HL. destruct prev as [[c m|a m1 m2]|]; [| |discriminate HL].
      * cbn [last_char u_type u_letter is_char] in *. unfold has_letter in HL. destruct (letter_of c) as [l'|] eqn:E; [|discriminate].
        apply (rj_ok c l' E); lia.
      * cbn [last_char u_type u_letter] in *. destruct (HP _ eq_refl) as [-> | ->]; reflexivity.
    + intros HL. destruct prev as [[c m|a m1 m2]|]; [| |reflexivity].
      * cbn [last_char u_type u_letter] in *. unfold has_letter in HL. now destruct (letter_of c).
      * cbn [last_char] in HL. destruct (HP _ eq_refl) as [-> | ->]; discriminate HL.
    + intros HL JD. destruct us as [|[c m|a m1 m2] us]; cbn [first_char hd_error u_type u_letter is_char] in *.
      * discriminate HL.
      * unfold has_letter in HL. destruct (letter_of c) as [l'|] eqn:E; [|discriminate]. intros JU. rewrite EU, JD in G4.
        destruct (letter_code c l' E) as (_ & I & _). pose proof (only_hamza l' I JU). lia.
      * inversion HUS as [|x y HA]; subst. destruct HA as [-> | ->]; cbn; discriminate.
    + intros HL. destruct us as [|[c m|a m1 m2] us]; cbn [first_char hd_error u_type u_letter] in *.
      * reflexivity.
      * unfold has_letter in HL. now destruct (letter_of c).
      * discriminate HL.
    + intros N. destruct (has_letter (first_char us)) eqn:HL; [|reflexivity]. exfalso.
      destruct u as [c m|a m1 m2].
      * cbn [is_char u_letter u_char] in *. rewrite EL in G5. rewrite N in G5. cbn [Z.eqb Pos.eqb andb] in G5.
        destruct us as [|[c' m'|a m1 m2] us]; cbn [first_char hd_error is_letter u_letter] in *.
        -- discriminate HL.
        -- unfold has_letter in HL. now destruct (letter_of c').
        -- inversion HUS as [|x y HA]; subst. destruct HA as [-> | ->]; discriminate G5.
      * cbn [u_char] in EL. destruct HU as [-> | ->]; cbn in EL; injection EL as <-; discriminate N.
  - destruct u as [c m|a m1 m2].
    + unfold f, getCharShape. cbn [u_char] in *. rewrite (alphabet_same c). unfold has_letter. rewrite <- EL. reflexivity.
    + destruct HU as [-> | ->]; discriminate EU.
Qed.

(** ** The loop *)
Fixpoint comb (m : list Z) : list Z :=
  match m with
  | [] => []
  | v :: m' =>
    match m' with
    | x :: m'' => if (x =? SHADDA) && negb (v =? SHADDA) && negb (GetShaddaLigature v =? 0) then GetShaddaLigature v :: comb m'' else v :: comb m'
    | [] => [v]
    end
  end.
Definition rm (u : unit) : list Z := match u with Single _ m => comb m | LamAlef _ m1 m2 => m1 ++ comb m2 end.
Fixpoint render (order : list harf) (prev : option unit) (us : list unit) : list Z :=
  match us with
  | [] => []
  | u :: us => getCharShape order (last_char prev) (u_char u) (first_char us) :: rm u ++ render order (Some u) us
  end.
Definition cl_char (cl : list (Z * list Z)) : Z := match cl with [] => 0 | (c, _) :: _ => c end.
Lemma nearest_cl l : nearest l = cl_char (clusters l).
Proof. induction l as [|r l IH]; [reflexivity|]. cbn [nearest clusters]. rewrite mark_same. destruct (is_mark r); [exact IH|reflexivity]. Qed.
Lemma first_merge cl : first_char (merge cl) = cl_char cl.
Proof.
  destruct cl as [|(c, m) [|(a, m') cl]]; [reflexivity|reflexivity|]. cbn [merge cl_char]. destruct (Z.eqb_spec c 0x644) as [->|]; cbn [andb]; [|reflexivity].
  now destruct ((a =? 0x627) || (a =? 0x623)).
Qed.
Lemma marks_of_all l : Forall (fun r => is_mark r = true) (marks_of l).
Proof. induction l as [|r l IH]; cbn [marks_of clusters]; [constructor|]. destruct (is_mark r) eqn:E; constructor; assumption. Qed.
Lemma clusters_next a m cl l : clusters l = (a, m) :: cl -> is_mark a = false /\ exists r, l = marks_of l ++ a :: r /\ m = marks_of r /\ cl = clusters r.
Proof.
  induction l as [|r l IH]; cbn [clusters marks_of]; [discriminate|]. destruct (is_mark r) eqn:E.
  - intros H. destruct (IH H) as (A & r' & B & C0 & D0). split; [exact A|]. exists r'. split; [cbn [app]; now rewrite <- B|auto].
  - intros H. injection H as -> <- <-. split; [exact E|]. exists l. auto.
Qed.
Lemma upto_marks a ms r : Forall (fun x => is_mark x = true) ms -> is_mark a = false -> upto a (ms ++ a :: r) = (ms, ms ++ [a], r).
Proof.
  intros F A. induction F as [|x ms X F IH]; cbn [app upto]; [now rewrite Z.eqb_refl|].
  destruct (Z.eqb_spec x a) as [->|_]; [congruence|]. rewrite IH, mark_same, X. reflexivity.
Qed.
Lemma clusters_nomark l : Forall (fun c => is_mark (fst c) = false) (clusters l).
Proof. induction l as [|r l IH]; cbn [marks_of clusters]; [constructor|]. destruct (is_mark r) eqn:E; [exact IH|constructor; assumption]. Qed.
Lemma merge_cons2 c m a m' r : merge ((c, m) :: (a, m') :: r) =
  if (c =? 0x644) && ((a =? 0x627) || (a =? 0x623)) then LamAlef a m m' :: merge r else Single c m :: merge ((a, m') :: r).
Proof. reflexivity. Qed.
Lemma shape_loop_units order : forall fuel before rest prev, (List.length rest <= fuel)%nat -> nearest before = last_char prev ->
  shape_loop order fuel before rest = comb (marks_of rest) ++ render order prev (units rest).
Proof.
  induction fuel as [|f IH]; intros before rest prev L P; (destruct rest as [|cur rest]; [reflexivity|]); [cbn in L; lia|]. cbn [List.length] in L.
  cbn [shape_loop marks_of]. unfold units. cbn [clusters]. rewrite mark_same. destruct (is_mark cur) eqn:EM.
  - fold (units rest).
    assert (NB : forall b, nearest (cur :: b) = nearest b) by (intros b; cbn [nearest]; now rewrite mark_same, EM).
    destruct rest as [|nx rest].
    + cbn [marks_of comb app]. rewrite (IH _ [] prev); [reflexivity|cbn [List.length]; lia|rewrite NB; exact P].
    + assert (MS : marks_of (nx :: rest) = if is_mark nx then nx :: marks_of rest else []) by reflexivity.
      destruct ((nx =? SHADDA) && negb (cur =? SHADDA) && negb (GetShaddaLigature cur =? 0)) eqn:EL.
      * assert (NX : nx = SHADDA) by lia. rewrite MS. assert (MX : is_mark nx = true) by (rewrite NX; reflexivity). rewrite MX. cbn [comb]. rewrite EL. cbn [app].
        rewrite (IH _ rest prev); [|cbn in L; lia|cbn [nearest]; rewrite !mark_same, EM, MX; exact P]. unfold units. cbn [clusters]. now rewrite MX.
      * rewrite (IH _ (nx :: rest) prev); [|lia|rewrite NB; exact P]. rewrite MS. destruct (is_mark nx); cbn [comb app]; [now rewrite EL|reflexivity].
  - cbn [comb app]. rewrite nearest_cl. set (cl := clusters rest) in *.
    assert (SG : shape_loop order f (cur :: before) rest = comb (marks_of rest) ++ render order (Some (Single cur (marks_of rest))) (units rest)).
    { apply IH; [lia|]. cbn [nearest last_char]. now rewrite mark_same, EM. }
    destruct cl as [|(a, m) cl'] eqn:EC; subst cl.
    + cbn [cl_char merge render rm first_char u_char]. rewrite P. rewrite andb_false_r. rewrite SG. unfold units. rewrite EC. cbn [merge render]. rewrite app_nil_r. reflexivity.
    + cbn [cl_char]. rewrite merge_cons2. change (Unicode ALEF) with 0x627. change (Unicode ALEF_HAMZA_ABOVE) with 0x623. change (Unicode LAM) with 0x644.
      destruct (Z.eqb_spec cur 0x644) as [CL|CL]; cbn [andb].
      2:{ cbn [render rm u_char]. rewrite first_merge. cbn [cl_char]. rewrite P, SG. unfold units. now rewrite EC. }
      destruct (clusters_next a m cl' rest EC) as (MA & r & ER & EM' & ECL).
      destruct (Z.eqb_spec a 0x627) as [A1|A1]; [|destruct (Z.eqb_spec a 0x623) as [A2|A2]]; cbn [orb].
      1,2: (replace (negb (a =? 0)) with true by lia; cbn match;
        rewrite ER at 1; rewrite (upto_marks a _ r (marks_of_all rest) MA);
        rewrite (IH _ r (Some (LamAlef a (marks_of rest) m)));
          [|apply (f_equal (@List.length Z)) in ER; rewrite app_length in ER; cbn in ER; lia
           |rewrite rev_app_distr; cbn [rev app nearest last_char]; now rewrite mark_same, MA];
        cbn [render rm u_char]; rewrite P, first_merge, nearest_cl, <- ECL, <- EM';
        unfold units; rewrite <- ECL, <- app_assoc).
      * rewrite A1. reflexivity.
      * rewrite A2. reflexivity.
      * replace (if negb (a =? 0) then None else None) with (@None Z) by (now destruct (negb (a =? 0))). cbn [render rm u_char]. rewrite first_merge. cbn [cl_char]. rewrite P, SG. unfold units. now rewrite EC.
Qed.
Lemma merge_ok cl : Forall (fun c => is_mark (fst c) = false) cl -> Forall alef_ok (merge cl).
Proof.
  assert (G : forall k cl, (List.length cl <= k)%nat -> Forall (fun c => is_mark (fst c) = false) cl -> Forall alef_ok (merge cl)).
  { induction k as [|k IH]; intros l L F; (destruct l as [|(c, m) l]; [constructor|]); [cbn in L; lia|].
    inversion F as [|x y Fc Fl]; subst. cbn [fst] in Fc. cbn [List.length] in L. destruct l as [|(a, m') l]; cbn [merge].
    - constructor; [exact Fc|constructor].
    - destruct ((c =? 0x644) && ((a =? 0x627) || (a =? 0x623))) eqn:E.
      + inversion Fl; subst. cbn [List.length] in L. constructor; [cbn; lia|]. apply IH; [lia|assumption].
      + constructor; [exact Fc|]. apply (IH ((a, m') :: l)); [cbn [List.length] in *; lia|exact Fl]. }
  apply (G (List.length cl)). lia.
Qed.

(** ** Marks and reversal *)
Lemma unlig_mark r : is_mark r = true -> unlig r = [r].
Proof.
  intros M. apply eqb_in in M. assert (X : forallb (fun r => match unlig r with [x] => x =? r | _ => false end) marks = true) by (vm_compute; reflexivity).
  pose proof (proj1 (forallb_forall _ _) X r M) as K. cbv beta in K. destruct (unlig r) as [|x [|]]; try discriminate. f_equal. lia.
Qed.
Lemma lig_ok v : is_mark v = true -> GetShaddaLigature v <> 0 -> unlig (GetShaddaLigature v) = [v; SHADDA].
Proof.
  intros M N. apply eqb_in in M. assert (X : forallb (fun v => (GetShaddaLigature v =? 0) || list_eqb (unlig (GetShaddaLigature v)) [v; SHADDA]) marks = true) by (vm_compute; reflexivity).
  pose proof (proj1 (forallb_forall _ _) X v M) as K. cbv beta in K. destruct (Z.eqb_spec (GetShaddaLigature v) 0); [contradiction|]. cbn [orb] in K. now apply list_eqb_eq.
Qed.
Lemma comb_unlig : forall k m, (List.length m <= k)%nat -> Forall (fun r => is_mark r = true) m -> flat_map unlig (comb m) = m.
Proof.
  induction k as [|k IH]; intros m L F; (destruct m as [|v m]; [reflexivity|]); [cbn in L; lia|]. inversion F as [|x y Fv Fm]; subst. cbn [List.length] in L.
  destruct m as [|x m]; cbn [comb]; [cbn; now rewrite unlig_mark|].
  destruct ((x =? SHADDA) && negb (v =? SHADDA) && negb (GetShaddaLigature v =? 0)) eqn:E.
  - inversion Fm; subst. cbn [flat_map]. rewrite lig_ok by (try assumption; lia). cbn [List.length] in L. rewrite IH by (try assumption; lia). cbn. f_equal. f_equal. lia.
  - cbn [flat_map]. rewrite unlig_mark by exact Fv. cbn [app]. f_equal. exact (IH (x :: m) ltac:(lia) Fm).
Qed.
Definition flat (g : list (Z * list Z)) : list Z := flat_map (fun g => snd g ++ [fst g]) g.
Lemma fold_marks f G ms : forall G2 t, exists G2' t', fold_left add_rune ms (G2 ++ (f, t) :: G) = G2' ++ (f, t') :: G /\ Permutation (flat G2' ++ t') (flat G2 ++ t ++ ms).
Proof.
  induction ms as [|m ms IH]; intros G2 t; cbn [fold_left].
  - exists G2, t. split; [reflexivity|]. now rewrite app_nil_r.
  - unfold add_rune at 2. destruct (IsTashkeel m) eqn:E.
    + destruct G2 as [|(b, t2) G2]; cbn [app].
      * destruct (IH [] (t ++ [m])) as (G2' & t' & A & B). exists G2', t'. split; [exact A|]. cbn [flat flat_map app] in *. rewrite <- app_assoc in B. exact B.
      * destruct (IH ((b, t2 ++ [m]) :: G2) t) as (G2' & t' & A & B). exists G2', t'. split; [exact A|]. rewrite B. unfold flat. cbn [flat_map fst snd].
        rewrite <- !app_assoc. apply Permutation_app_head. cbn [app].
        transitivity (m :: (b :: flat_map (fun g => snd g ++ [fst g]) G2) ++ t ++ ms); [reflexivity|].
        transitivity ((b :: flat_map (fun g => snd g ++ [fst g]) G2 ++ t) ++ m :: ms); [|cbn [app]; now rewrite <- app_assoc].
        rewrite <- Permutation_middle. cbn [app]. now rewrite <- app_assoc.
    + destruct (IH ((m, []) :: G2) t) as (G2' & t' & A & B). exists G2', t'. split; [exact A|]. rewrite B. unfold flat. cbn [flat_map fst snd app].
      rewrite !app_assoc. rewrite <- Permutation_middle. reflexivity.
Qed.
Lemma form_nomark l r : In l letters -> In r (forms l) -> is_mark r = false.
Proof.
  intros I J. assert (X : forallb (fun r => negb (is_mark r)) codes = true) by (vm_compute; reflexivity).
  pose proof (proj1 (forallb_forall _ _) X r (proj2 (in_flat_map _ _ _) (ex_intro _ l (conj I J)))) as K. cbv beta in K. now destruct (is_mark r).
Qed.
Lemma letter_in c l : letter_of c = Some l -> In l letters.
Proof. intros E. now apply letter_code in E. Qed.
Definition marks_ok (u : unit) : Prop := match u with Single _ m => Forall (fun r => is_mark r = true) m | LamAlef _ m1 m2 => Forall (fun r => is_mark r = true) m1 /\ Forall (fun r => is_mark r = true) m2 end.
Lemma rm_unlig u : marks_ok u -> flat_map unlig (rm u) = u_marks u.
Proof.
  destruct u as [c m|a m1 m2]; cbn [rm u_marks marks_ok].
  - intros F. now apply (comb_unlig (List.length m)).
  - intros [F1 F2]. rewrite flat_map_app, (comb_unlig (List.length m2)) by auto. f_equal.
    induction F1 as [|x m1 X F1 IH]; [reflexivity|]. cbn [flat_map]. rewrite unlig_mark by exact X. cbn [app]. now rewrite IH.
Qed.
Lemma merge_marks cl : Forall (fun c => Forall (fun r => is_mark r = true) (snd c)) cl -> Forall marks_ok (merge cl).
Proof.
  assert (G : forall k cl, (List.length cl <= k)%nat -> Forall (fun c : Z * list Z => Forall (fun r => is_mark r = true) (snd c)) cl -> Forall marks_ok (merge cl)).
  { induction k as [|k IH]; intros l L F; (destruct l as [|(c, m) l]; [constructor|]); [cbn in L; lia|].
    inversion F as [|x y Fc Fl]; subst. cbn [snd] in Fc. cbn [List.length] in L. destruct l as [|(a, m') l]; cbn [merge].
    - constructor; [exact Fc|constructor].
    - destruct ((c =? 0x644) && ((a =? 0x627) || (a =? 0x623))) eqn:E.
      + inversion Fl; subst. cbn [List.length] in L. constructor; [split; assumption|]. apply IH; [lia|assumption].
      + constructor; [exact Fc|]. apply (IH ((a, m') :: l)); [cbn [List.length] in *; lia|exact Fl]. }
  apply (G (List.length cl)). lia.
Qed.
Lemma clusters_marks l : Forall (fun c => Forall (fun r => is_mark r = true) (snd c)) (clusters l).
Proof. induction l as [|r l IH]; cbn [marks_of clusters]; [constructor|]. destruct (is_mark r) eqn:E; [exact IH|constructor; [apply marks_of_all|exact IH]]. Qed.
Lemma render_shown order : map_order order -> forall us prev G, (forall v, prev = Some v -> alef_ok v) -> Forall alef_ok us -> Forall marks_ok us ->
  exists outs, flat (fold_left add_rune (render order prev us) G) = List.concat (rev outs) ++ flat G /\ all_shown prev us outs.
Proof.
  intros O. induction us as [|u us IH]; intros prev G HP FA FM; [exists []; split; [reflexivity|exact I]|].
  inversion FA as [|x y Fu Fus]; subst. inversion FM as [|x y Mu Mus]; subst. cbn [render].
  set (f := getCharShape order (last_char prev) (u_char u) (first_char us)). pose proof (char_ok order prev u us O HP Fu Fus) as CO. cbv zeta in CO. fold f in CO.
  assert (NM : IsTashkeel f = false).
  { rewrite mark_same. destruct (u_letter u) as [l|] eqn:EL.
    - destruct CO as [CO _]. apply (form_nomark l); [|exact CO]. destruct u as [c m|a m1 m2]; cbn [u_letter] in EL; [now apply letter_in in EL|]. destruct (a =? 0x627); now apply letter_in in EL.
    - destruct u as [c m|a m1 m2]; [|contradiction]. rewrite CO. exact Fu. }
  cbn [fold_left]. unfold add_rune at 2. rewrite NM, fold_left_app.
  destruct (fold_marks f G (rm u) [] []) as (G2 & t & A & B). cbn [app flat flat_map] in A, B. rewrite A.
  destruct (IH (Some u) (G2 ++ (f, t) :: G)) as (outs & E & S); [intros v [= <-]; exact Fu|exact Fus|exact Mus|].
  exists ((flat G2 ++ t ++ [f]) :: outs). split.
  - rewrite E. cbn [rev]. rewrite concat_app. cbn [List.concat]. rewrite app_nil_r. unfold flat. rewrite flat_map_app. cbn [flat_map fst snd]. rewrite <- !app_assoc. reflexivity.
  - cbn [all_shown]. split; [|exact S]. exists (flat G2 ++ t), f. split; [now rewrite <- app_assoc|]. split; [|exact CO].
    rewrite <- (rm_unlig u Mu). apply Permutation_flat_map. exact B.
Qed.

(** ** C48 *)
(** For every byte string and every order in which Go may visit its map: when the text (with the ligature for the word
    "Allah" put in) does not begin with a mark, its units are shown from right to left, none is lost, each one with
    exactly its marks and — outside the irregular neighbourhoods — in the right contextual form. *)
Theorem C48_arabic_shaping_partial : forall order text,
  map_order order ->
  let rs := runes (convertAllahToLigature text) in
  match rs with r :: _ => is_mark r = false | [] => True end ->
  exists outs, ToArabic order text = utf8 (List.concat (rev outs)) /\ all_shown None (units rs) outs.
Proof.
  intros order text O rs H. unfold ToArabic, ToArabicRunes. fold rs. unfold reverseWithTashkeel.
  rewrite (shape_loop_units order (List.length rs) [] rs None) by (lia || reflexivity).
  replace (comb (marks_of rs)) with (@nil Z) by (destruct rs as [|r rs']; [reflexivity|]; cbn [marks_of]; now rewrite H). cbn [app].
  destruct (render_shown order O (units rs) None []) as (outs & A & B).
  - discriminate.
  - apply merge_ok, clusters_nomark.
  - apply merge_marks, clusters_marks.
  - exists outs. split; [|exact B]. f_equal. unfold flat in A. rewrite A. cbn [flat_map]. apply app_nil_r.
Qed.
Print Assumptions C48_arabic_shaping_partial.

(** Texts without the word "Allah" are shaped as they are. *)
Fixpoint occurs (p s : bytes) : bool := match s with [] => false | _ :: r => is_prefix p s || occurs p r end.
Definition allah : bytes := utf8 [0x627; 0x644; 0x644; 0x647].
Lemma replace_none old new : forall fuel s, (List.length s <= fuel)%nat -> occurs old s = false -> replace_all fuel old new s = s.
Proof.
  induction fuel as [|f IH]; intros s L H; (destruct s as [|b s]; [reflexivity|]); [cbn in L; lia|]. cbn [replace_all occurs List.length] in *.
  apply orb_false_iff in H as [H1 H2]. rewrite H1. f_equal. apply IH; [lia|exact H2].
Qed.
Theorem C48_arabic_text_partial : forall order text,
  map_order order -> occurs allah text = false ->
  match runes text with r :: _ => is_mark r = false | [] => True end ->
  exists outs, ToArabic order text = utf8 (List.concat (rev outs)) /\ all_shown None (units (runes text)) outs.
Proof.
  intros order text O N H. assert (E : convertAllahToLigature text = text) by (apply replace_none; [lia|exact N]).
  pose proof (C48_arabic_shaping_partial order text O) as T. rewrite E in T. exact (T H).
Qed.
Print Assumptions C48_arabic_text_partial.

(** The hypotheses can be met; "salaam" with marks: seen, fatha, lam, kasra, alef, meem, tanween.  One ligature, from
    right to left in the output. *)
Example C48_salaam : let text := utf8 [0x633; 0x64e; 0x644; 0x650; 0x627; 0x645; 0x64c] in
  map_order arabicAlphabetCollection /\ occurs allah text = false /\
  units (runes text) = [Single 0x633 [0x64e]; LamAlef 0x627 [0x650] []; Single 0x645 [0x64c]] /\
  ToArabic arabicAlphabetCollection text = utf8 [0x64c; 0xfee1; 0x650; 0xfefc; 0x64e; 0xfeb3].
Proof. split; [intros h; reflexivity|]. vm_compute. auto. Qed.

(** ** The restrictions are needed *)
(** A mark at the beginning of the text disappears. *)
Theorem C48_leading_mark_refuted : forall order, map_order order ->
  ToArabic order (utf8 [0x64e; 0x628]) = ToArabic order (utf8 [0x628]).
Proof.
  intros order O. assert (E : ToArabicRunes order (utf8 [0x64e; 0x628]) = ToArabicRunes order (utf8 [0x628])); [|unfold ToArabic; now rewrite E].
  unfold ToArabicRunes. replace (runes (convertAllahToLigature (utf8 [0x64e; 0x628]))) with [0x64e; 0x628] by (vm_compute; reflexivity).
  replace (runes (convertAllahToLigature (utf8 [0x628]))) with [0x628] by (vm_compute; reflexivity). reflexivity.
Qed.
Print Assumptions C48_leading_mark_refuted.
(** Contextual forms that are wrong: [wrong cs k f]: in the text cs, unit k, a letter l, is shown as f although the
    neighbours require another form. *)
Definition wrong (cs : list Z) (k : nat) (f : Z) : Prop :=
  exists u l, nth_error (units cs) k = Some u /\ u_letter u = Some l /\
    let prev := match k with O => None | S k' => nth_error (units cs) k' end in
    ~ In f (shown_as l (u_type prev) (u_type (nth_error (units cs) (S k)))) /\
    nth_error (rev (runes (ToArabic arabicAlphabetCollection (utf8 cs)))) k = Some f.
Local Ltac wr u l := exists u, l; split; [reflexivity|split; [vm_compute; reflexivity|split; [vm_compute; intros X; repeat (destruct X as [X|X]; try discriminate X); exact X|vm_compute; reflexivity]]].
(** "shay'": yeh before hamza is shown in its medial form (final is required); after jeh, noon is shown final (isolated is
    required); teh marbuta between letters is shown isolated (final is required). *)
Theorem C48_contextual_forms_refuted :
  wrong [0x634; 0x64a; 0x621] 1 0xfef4 /\ wrong [0x698; 0x646] 1 0xfee6 /\ wrong [0x628; 0x629; 0x628] 1 0x629.
Proof.
  split; [|split].
  - wr (Single 0x64a []) (dual 0x64a 0xfef1).
  - wr (Single 0x646 []) (dual 0x646 0xfee5).
  - wr (Single 0x629 []) (right 0x629 0xfe93).
Qed.
Print Assumptions C48_contextual_forms_refuted.
(** The word "Allah" inside a longer word ("allahumma") cuts the joining: the meem after it is shown isolated although it
    follows heh, which joins it. *)
Theorem C48_allah_inside_word_refuted : forall order, map_order order ->
  let cs := [0x627; 0x644; 0x644; 0x647; 0x645] in
  u_type (nth_error (units cs) 3) = D /\ shown_as (dual 0x645 0xfee1) D U = [0xfee2] /\
  ToArabic order (utf8 cs) = utf8 [0xfee1; 0xfdf2].
Proof.
  intros order O cs. split; [vm_compute; reflexivity|split; [reflexivity|]].
  unfold ToArabic, ToArabicRunes. f_equal. replace (runes (convertAllahToLigature (utf8 cs))) with [0xfdf2; 0x645] by (vm_compute; reflexivity).
  assert (G : getCharShape order 0xfdf2 0x645 0 = 0xfee1).
  { rewrite (shape_eq order 0xfdf2 0x645 0 MEEM O); [reflexivity| |vm_compute; reflexivity]. apply eqb_in. vm_compute. reflexivity. }
  cbn [List.length shape_loop]. change (IsTashkeel 0xfdf2) with false. change (IsTashkeel 0x645) with false. cbn match.
  change (nearest []) with 0. change (nearest [0x645]) with 0x645. change (nearest [0xfdf2]) with 0xfdf2.
  change (0xfdf2 =? Unicode LAM) with false. change (0x645 =? Unicode LAM) with false. cbn [andb]. rewrite G.
  change (getCharShape order 0 0xfdf2 0x645) with 0xfdf2. reflexivity.
Qed.
Print Assumptions C48_allah_inside_word_refuted.
(** Digits and Latin words are reversed too. *)
Theorem C48_latin_order_refuted : forall order, map_order order -> ToArabic order (bs "12") = bs "21".
Proof.
  intros order O. unfold ToArabic, ToArabicRunes. replace (runes (convertAllahToLigature (bs "12"))) with [0x31; 0x32] by (vm_compute; reflexivity).
  reflexivity.
Qed.
Print Assumptions C48_latin_order_refuted.
