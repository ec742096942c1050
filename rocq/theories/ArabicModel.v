(** ArabicModel.v — shaping of Arabic text (arabic_alphabet.go, arabic_helper.go). *)
From Verif Require Import Base StrSpec StrModel.

(** arabic_alphabet.go:3-6 *)
Record harf := { Unicode : Z; Isolated : Z; Beginning : Z; Middle : Z; Final : Z }.
(** arabic_alphabet.go:70-387, the letters, one by one (generated from the source). *)
Definition ALEF_HAMZA_ABOVE := {| Unicode := 0x0623; Isolated := 0xfe83; Beginning := 0x0623; Middle := 0xfe84; Final := 0xfe84 |}.  (* line 71 *)
Definition ALEF := {| Unicode := 0x0627; Isolated := 0xfe8d; Beginning := 0x0627; Middle := 0xfe8e; Final := 0xfe8e |}.  (* line 78 *)
Definition ALEF_MADDA_ABOVE := {| Unicode := 0x0622; Isolated := 0xfe81; Beginning := 0x0622; Middle := 0xfe82; Final := 0xfe82 |}.  (* line 85 *)
Definition HAMZA := {| Unicode := 0x0621; Isolated := 0xfe80; Beginning := 0x0621; Middle := 0x0621; Final := 0x0621 |}.  (* line 92 *)
Definition WAW_HAMZA_ABOVE := {| Unicode := 0x0624; Isolated := 0xfe85; Beginning := 0x0624; Middle := 0xfe86; Final := 0xfe86 |}.  (* line 99 *)
Definition ALEF_HAMZA_BELOW := {| Unicode := 0x0625; Isolated := 0xfe87; Beginning := 0x0625; Middle := 0xfe88; Final := 0xfe88 |}.  (* line 106 *)
Definition YEH_HAMZA_ABOVE := {| Unicode := 0x0626; Isolated := 0xfe89; Beginning := 0xfe8b; Middle := 0xfe8c; Final := 0xfe8a |}.  (* line 113 *)
Definition BEH := {| Unicode := 0x0628; Isolated := 0xfe8f; Beginning := 0xfe91; Middle := 0xfe92; Final := 0xfe90 |}.  (* line 120 *)
Definition PEH := {| Unicode := 0x067e; Isolated := 0xfb56; Beginning := 0xfb58; Middle := 0xfb59; Final := 0xfb57 |}.  (* line 127 *)
Definition TEH := {| Unicode := 0x062a; Isolated := 0xfe95; Beginning := 0xfe97; Middle := 0xfe98; Final := 0xfe96 |}.  (* line 134 *)
Definition TEH_MARBUTA := {| Unicode := 0x0629; Isolated := 0xfe93; Beginning := 0x0629; Middle := 0x0629; Final := 0xfe94 |}.  (* line 141 *)
Definition THEH := {| Unicode := 0x062b; Isolated := 0xfe99; Beginning := 0xfe9b; Middle := 0xfe9c; Final := 0xfe9a |}.  (* line 148 *)
Definition JEEM := {| Unicode := 0x062c; Isolated := 0xfe9d; Beginning := 0xfe9f; Middle := 0xfea0; Final := 0xfe9e |}.  (* line 155 *)
Definition TCHEH := {| Unicode := 0x0686; Isolated := 0xfb7a; Beginning := 0xfb7c; Middle := 0xfb7d; Final := 0xfb7b |}.  (* line 162 *)
Definition HAH := {| Unicode := 0x062d; Isolated := 0xfea1; Beginning := 0xfea3; Middle := 0xfea4; Final := 0xfea2 |}.  (* line 169 *)
Definition KHAH := {| Unicode := 0x062e; Isolated := 0xfea5; Beginning := 0xfea7; Middle := 0xfea8; Final := 0xfea6 |}.  (* line 176 *)
Definition DAL := {| Unicode := 0x062f; Isolated := 0xfea9; Beginning := 0x062f; Middle := 0xfeaa; Final := 0xfeaa |}.  (* line 183 *)
Definition THAL := {| Unicode := 0x0630; Isolated := 0xfeab; Beginning := 0x0630; Middle := 0xfeac; Final := 0xfeac |}.  (* line 190 *)
Definition REH := {| Unicode := 0x0631; Isolated := 0xfead; Beginning := 0x0631; Middle := 0xfeae; Final := 0xfeae |}.  (* line 197 *)
Definition JEH := {| Unicode := 0x0698; Isolated := 0xfb8a; Beginning := 0x0698; Middle := 0xfb8b; Final := 0xfb8b |}.  (* line 204 *)
Definition ZAIN := {| Unicode := 0x0632; Isolated := 0xfeaf; Beginning := 0x0632; Middle := 0xfeb0; Final := 0xfeb0 |}.  (* line 212 *)
Definition SEEN := {| Unicode := 0x0633; Isolated := 0xfeb1; Beginning := 0xfeb3; Middle := 0xfeb4; Final := 0xfeb2 |}.  (* line 219 *)
Definition SHEEN := {| Unicode := 0x0634; Isolated := 0xfeb5; Beginning := 0xfeb7; Middle := 0xfeb8; Final := 0xfeb6 |}.  (* line 226 *)
Definition SAD := {| Unicode := 0x0635; Isolated := 0xfeb9; Beginning := 0xfebb; Middle := 0xfebc; Final := 0xfeba |}.  (* line 233 *)
Definition DAD := {| Unicode := 0x0636; Isolated := 0xfebd; Beginning := 0xfebf; Middle := 0xfec0; Final := 0xfebe |}.  (* line 240 *)
Definition TAH := {| Unicode := 0x0637; Isolated := 0xfec1; Beginning := 0xfec3; Middle := 0xfec4; Final := 0xfec2 |}.  (* line 247 *)
Definition ZAH := {| Unicode := 0x0638; Isolated := 0xfec5; Beginning := 0xfec7; Middle := 0xfec8; Final := 0xfec6 |}.  (* line 254 *)
Definition AIN := {| Unicode := 0x0639; Isolated := 0xfec9; Beginning := 0xfecb; Middle := 0xfecc; Final := 0xfeca |}.  (* line 261 *)
Definition GHAIN := {| Unicode := 0x063a; Isolated := 0xfecd; Beginning := 0xfecf; Middle := 0xfed0; Final := 0xfece |}.  (* line 268 *)
Definition FEH := {| Unicode := 0x0641; Isolated := 0xfed1; Beginning := 0xfed3; Middle := 0xfed4; Final := 0xfed2 |}.  (* line 275 *)
Definition QAF := {| Unicode := 0x0642; Isolated := 0xfed5; Beginning := 0xfed7; Middle := 0xfed8; Final := 0xfed6 |}.  (* line 282 *)
Definition KAF := {| Unicode := 0x0643; Isolated := 0xfed9; Beginning := 0xfedb; Middle := 0xfedc; Final := 0xfeda |}.  (* line 289 *)
Definition KEHEH := {| Unicode := 0x06a9; Isolated := 0xfb8e; Beginning := 0xfb90; Middle := 0xfb91; Final := 0xfb8f |}.  (* line 296 *)
Definition GAF := {| Unicode := 0x06af; Isolated := 0xfb92; Beginning := 0xfb94; Middle := 0xfb95; Final := 0xfb93 |}.  (* line 304 *)
Definition LAM := {| Unicode := 0x0644; Isolated := 0xfedd; Beginning := 0xfedf; Middle := 0xfee0; Final := 0xfede |}.  (* line 311 *)
Definition MEEM := {| Unicode := 0x0645; Isolated := 0xfee1; Beginning := 0xfee3; Middle := 0xfee4; Final := 0xfee2 |}.  (* line 318 *)
Definition NOON := {| Unicode := 0x0646; Isolated := 0xfee5; Beginning := 0xfee7; Middle := 0xfee8; Final := 0xfee6 |}.  (* line 325 *)
Definition HEH := {| Unicode := 0x0647; Isolated := 0xfee9; Beginning := 0xfeeb; Middle := 0xfeec; Final := 0xfeea |}.  (* line 332 *)
Definition WAW := {| Unicode := 0x0648; Isolated := 0xfeed; Beginning := 0x0648; Middle := 0xfeee; Final := 0xfeee |}.  (* line 339 *)
Definition YEH := {| Unicode := 0x06cc; Isolated := 0xfbfc; Beginning := 0xfbfe; Middle := 0xfbff; Final := 0xfbfd |}.  (* line 346 *)
Definition ARABICYEH := {| Unicode := 0x064a; Isolated := 0xfef1; Beginning := 0xfef3; Middle := 0xfef4; Final := 0xfef2 |}.  (* line 353 *)
Definition ALEF_MAKSURA := {| Unicode := 0x0649; Isolated := 0xfeef; Beginning := 0x0649; Middle := 0xfef0; Final := 0xfef0 |}.  (* line 360 *)
Definition TATWEEL := {| Unicode := 0x0640; Isolated := 0x0640; Beginning := 0x0640; Middle := 0x0640; Final := 0x0640 |}.  (* line 367 *)
Definition LAM_ALEF := {| Unicode := 0xfefb; Isolated := 0xfefb; Beginning := 0xfefb; Middle := 0xfefc; Final := 0xfefc |}.  (* line 374 *)
Definition LAM_ALEF_HAMZA_ABOVE := {| Unicode := 0xfef7; Isolated := 0xfef7; Beginning := 0xfef7; Middle := 0xfef8; Final := 0xfef8 |}.  (* line 381 *)
(** arabicAlphabetCollection, in the order of the source (arabic_alphabet.go:391-437) *)
Definition arabicAlphabetCollection : list harf :=
  [ALEF_HAMZA_ABOVE; ALEF; ALEF_MADDA_ABOVE; HAMZA; WAW_HAMZA_ABOVE; ALEF_HAMZA_BELOW; YEH_HAMZA_ABOVE; BEH; PEH; TEH; TEH_MARBUTA; THEH; JEEM; TCHEH; HAH; KHAH; DAL; THAL; REH; JEH; ZAIN; SEEN; SHEEN; SAD; DAD; TAH; ZAH; AIN; GHAIN; FEH; QAF; KAF; KEHEH; GAF; LAM; MEEM; NOON; HEH; WAW; YEH; ARABICYEH; ALEF_MAKSURA; TATWEEL; LAM_ALEF; LAM_ALEF_HAMZA_ABOVE].
(** arabic_alphabet.go:451-464 *)
Definition rightJoiningOnlyLetters : list harf :=
  [ALEF_HAMZA_ABOVE; ALEF_MADDA_ABOVE; ALEF; HAMZA; WAW_HAMZA_ABOVE; ALEF_HAMZA_BELOW; TEH_MARBUTA; DAL; THAL; REH; ZAIN; WAW; ALEF_MAKSURA].
(** arabic_alphabet.go:8-36 *)
Definition FATHA : Z := 0x064e.
Definition DAMMA : Z := 0x064f.
Definition KASRA : Z := 0x0650.
Definition SUKUN : Z := 0x0652.
Definition SHADDA : Z := 0x0651.
Definition TANWEEN_FATH : Z := 0x064b.
Definition TANWEEN_DAMM : Z := 0x064c.
Definition TANWEEN_KASR : Z := 0x064d.
Definition SUPERSCRIPT_ALEF : Z := 0x0670.
Definition MADDAH_ABOVE : Z := 0x0653.
Definition HAMZA_ABOVE : Z := 0x0654.
Definition HAMZA_BELOW : Z := 0x0655.
Definition SUBSCRIPT_ALEF : Z := 0x0656.
Definition INVERTED_DAMMA : Z := 0x0657.
Definition MARK_NOON_GHUNNA : Z := 0x0658.
Definition SHADDA_FATHA : Z := 0xfc60.
Definition SHADDA_DAMMA : Z := 0xfc61.
Definition SHADDA_KASRA : Z := 0xfc62.
Definition SHADDA_DAMMATAN : Z := 0xfc5e.
Definition SHADDA_KASRATAN : Z := 0xfc5f.
Definition SHADDA_SUPERSCRIPT_ALEF : Z := 0xfc63.
(** arabic_alphabet.go:38-52 *)
Definition tashkeelMarks : list Z := [FATHA; DAMMA; KASRA; SHADDA; SUKUN; TANWEEN_DAMM; TANWEEN_FATH; TANWEEN_KASR; SUPERSCRIPT_ALEF; MADDAH_ABOVE; HAMZA_ABOVE; HAMZA_BELOW; SUBSCRIPT_ALEF; INVERTED_DAMMA; MARK_NOON_GHUNNA].
(** arabic_alphabet.go:54-67 shaddaLigatures, GetShaddaLigature *)
Definition shaddaLigatures : list (Z * Z) := [(FATHA, SHADDA_FATHA); (DAMMA, SHADDA_DAMMA); (KASRA, SHADDA_KASRA); (TANWEEN_DAMM, SHADDA_DAMMATAN); (TANWEEN_KASR, SHADDA_KASRATAN); (SUPERSCRIPT_ALEF, SHADDA_SUPERSCRIPT_ALEF)].
Definition GetShaddaLigature (v : Z) : Z := match find (fun x => fst x =? v) shaddaLigatures with Some (_, l) => l | None => 0 end.
(** arabic_helper.go:147-150 *)
Definition IsTashkeel (r : Z) : bool := existsb (Z.eqb r) tashkeelMarks.
(** arabic_helper.go:61-78 *)
Definition equals (c : harf) (char : Z) : bool :=
  (char =? Unicode c) || (char =? Beginning c) || (char =? Isolated c) || (char =? Middle c) || (char =? Final c).
(** The map arabicAlphabet built by init (arabic_alphabet.go:439-448): its keys are the forms of the letters. *)
Definition in_alphabet (r : Z) : bool := existsb (fun h => equals h r) arabicAlphabetCollection.

Section Order.
(** Go visits a map in an order of its choosing: [order] lists the values of arabicAlphabet in the order of this range
    statement.  A different order at each call is covered by quantifying over it. *)
Variable order : list harf.
(** arabic_helper.go:52-59 getHarf *)
Definition getHarf (char : Z) : harf :=
  match find (fun s => equals s char) order with
  | Some s => s
  | None => {| Unicode := char; Isolated := char; Beginning := 0; Middle := char; Final := char |}
  end.
(** arabic_helper.go:80-125 getCharShape.  The two loops over rightJoiningOnlyLetters only ask whether some letter equals. *)
Definition right_joining (r : Z) : bool := existsb (fun h => equals h r) rightJoiningOnlyLetters.
Definition getCharShape (previousChar currentChar nextChar : Z) : Z :=
  let previousArabic := in_alphabet previousChar in
  let nextArabic := in_alphabet nextChar in
  if negb (in_alphabet currentChar) then currentChar
  else if previousArabic && nextArabic then
    if right_joining previousChar then Beginning (getHarf currentChar) else Middle (getHarf currentChar)
  else if nextArabic then Beginning (getHarf currentChar)
  else if previousArabic then
    if right_joining previousChar then Isolated (getHarf currentChar) else Final (getHarf currentChar)
  else Isolated (getHarf currentChar).

(** arabic_helper.go:127-145: the nearest non-mark in [l], 0 when there is none. *)
Fixpoint nearest (l : list Z) : Z := match l with [] => 0 | r :: l => if IsTashkeel r then nearest l else r end.
(** arabic_helper.go:195-201: the marks up to the first [alef], and what follows it. *)
Fixpoint upto (alef : Z) (l : list Z) : list Z * list Z * list Z :=       (* marks, all runes passed, rest *)
  match l with
  | [] => ([], [], [])
  | r :: l => if r =? alef then ([], [r], l)
              else let '(m, p, rest) := upto alef l in ((if IsTashkeel r then r :: m else m), r :: p, rest)
  end.
(** arabic_helper.go:160-215, the loop of ToArabic: [before] is hrof[:i] reversed, [rest] is hrof[i:].  [fuel]: the
    number of runes suffices. *)
Fixpoint shape_loop (fuel : nat) (before rest : list Z) : list Z :=
  match fuel, rest with
  | S f, cur :: rest =>
    if IsTashkeel cur then
      match rest with
      | nx :: rest' =>
        if (nx =? SHADDA) && negb (cur =? SHADDA) && negb (GetShaddaLigature cur =? 0)
        then GetShaddaLigature cur :: shape_loop f (nx :: cur :: before) rest'
        else cur :: shape_loop f (cur :: before) rest
      | [] => cur :: shape_loop f (cur :: before) rest
      end
    else
      let previousHarf := nearest before in
      let nextHarf := nearest rest in
      let lig := if nextHarf =? Unicode ALEF then Some (Unicode LAM_ALEF)
                 else if nextHarf =? Unicode ALEF_HAMZA_ABOVE then Some (Unicode LAM_ALEF_HAMZA_ABOVE) else None in
      match (if (cur =? Unicode LAM) && negb (nextHarf =? 0) then lig else None) with
      | Some l =>
        let '(marks, passed, rest') := upto nextHarf rest in
        getCharShape previousHarf l (nearest rest') :: marks ++ shape_loop f (rev passed ++ cur :: before) rest'
      | None => getCharShape previousHarf cur nextHarf :: shape_loop f (cur :: before) rest
      end
  | _, _ => []
  end.
End Order.

(** arabic_helper.go:17-51 reverseWithTashkeel: the groups, last one first, and the text. *)
Definition add_rune (groups : list (Z * list Z)) (r : Z) : list (Z * list Z) :=
  if IsTashkeel r then match groups with [] => [] | (b, t) :: g => (b, t ++ [r]) :: g end
  else (r, []) :: groups.
Definition reverseWithTashkeel (runes : list Z) : list Z :=
  flat_map (fun g => snd g ++ [fst g]) (fold_left add_rune runes []).

(** strings.ReplaceAll for a non-empty pattern. *)
Fixpoint is_prefix (p s : bytes) : bool :=
  match p, s with
  | [], _ => true
  | x :: p, y :: s => (x =? y) && is_prefix p s
  | _, _ => false
  end.
Fixpoint replace_all (fuel : nat) (old new s : bytes) : bytes :=
  match fuel, s with
  | S f, b :: r => if is_prefix old s then new ++ replace_all f old new (skipn (List.length old) s) else b :: replace_all f old new r
  | _, _ => []
  end.
(** arabic_helper.go:5-14 *)
Definition ALLAH_LIGATURE : Z := 0xFDF2.
Definition convertAllahToLigature (text : bytes) : bytes :=
  replace_all (List.length text) (utf8 [Unicode ALEF; Unicode LAM; Unicode LAM; Unicode HEH]) (utf8 [ALLAH_LIGATURE]) text.
(** arabic_helper.go:152-218 ToArabic *)
Definition ToArabicRunes (order : list harf) (text : bytes) : list Z :=
  let hrof := runes (convertAllahToLigature text) in
  reverseWithTashkeel (shape_loop order (List.length hrof) [] hrof).
Definition ToArabic (order : list harf) (text : bytes) : bytes := utf8 (ToArabicRunes order text).
