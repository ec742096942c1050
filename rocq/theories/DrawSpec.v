(** DrawSpec.v — how a PDF viewer reads a content stream (ISO 32000-1, 7.2, 7.8.2, 8.2 and annex A), independent
    of gopdf: tokens, operators with their operands, which operators are legal where (figure 9 of 8.2), and the
    graphics state in force when something is shown. *)
From Verif Require Import Base.

(** ** Tokens (7.2.2) *)
Definition is_white (b : Z) : bool := existsb (Z.eqb b) [0; 9; 10; 12; 13; 32].
Definition is_delim (b : Z) : bool := existsb (Z.eqb b) (bs "()<>[]{}/%").
Definition is_regular (b : Z) : bool := negb (is_white b) && negb (is_delim b).
Inductive tok := TWord (b : bytes) | TName (b : bytes) | THex (b : bytes) | TOpen | TClose | TBad.
Inductive lst := LIdle | LWord (acc : bytes) | LName (acc : bytes) | LHex (acc : bytes).
Definition idle (b : Z) : list tok * lst :=
  if is_white b then ([], LIdle) else if b =? 47 then ([], LName []) else if b =? 60 then ([], LHex [])
  else if b =? 91 then ([TOpen], LIdle) else if b =? 93 then ([TClose], LIdle) else if is_delim b then ([TBad], LIdle)
  else ([], LWord [b]).
Definition lstep (st : lst) (b : Z) : list tok * lst :=
  match st with
  | LIdle => idle b
  | LWord acc => if is_regular b then ([], LWord (acc ++ [b])) else let '(t, s) := idle b in (TWord acc :: t, s)
  | LName acc => if is_regular b then ([], LName (acc ++ [b])) else let '(t, s) := idle b in (TName acc :: t, s)
  | LHex acc => if b =? 62 then ([THex acc], LIdle) else ([], LHex (acc ++ [b]))
  end.
Fixpoint lex (st : lst) (l : bytes) : list tok :=
  match l with
  | [] => match st with LIdle => [] | LWord a => [TWord a] | LName a => [TName a] | LHex _ => [TBad] end
  | b :: r => fst (lstep st b) ++ lex (snd (lstep st b)) r
  end.
Definition tokens (l : bytes) : list tok := lex LIdle l.

(** ** Operators (annex A) *)
Definition operators : list bytes := map bs
  ["b"; "B"; "b*"; "B*"; "BDC"; "BI"; "BMC"; "BT"; "BX"; "c"; "cm"; "CS"; "cs"; "d"; "d0"; "d1"; "Do"; "DP"; "EI"; "EMC"; "ET";
   "EX"; "f"; "F"; "f*"; "G"; "g"; "gs"; "h"; "i"; "ID"; "j"; "J"; "K"; "k"; "l"; "m"; "M"; "MP"; "n"; "q"; "Q"; "re"; "RG"; "rg";
   "ri"; "s"; "S"; "SC"; "sc"; "SCN"; "scn"; "sh"; "T*"; "Tc"; "Td"; "TD"; "Tf"; "Tj"; "TJ"; "TL"; "Tm"; "Tr"; "Ts"; "Tw"; "Tz"; "v";
   "w"; "W"; "W*"; "y"; "'"; """"]%string.
Definition is_op (wd : bytes) : bool := existsb (list_eqb wd) operators.
Definition op := (list tok * bytes)%type.
Fixpoint ops_from (acc : list tok) (ts : list tok) : list op :=
  match ts with
  | [] => match acc with [] => [] | _ => [(acc, [])] end          (* operands without operator: an empty (illegal) operator *)
  | TWord b :: r => if is_op b then (acc, b) :: ops_from [] r else ops_from (acc ++ [TWord b]) r
  | t :: r => ops_from (acc ++ [t]) r
  end.
Definition content_ops (l : bytes) : list op := ops_from [] (tokens l).

(** ** Legal nesting (8.2, figure 9): page level, path object, text object. *)
Inductive mode := MPage | MPath | MText.
Definition among (b : bytes) (l : list string) : bool := existsb (fun s => list_eqb b (bs s)) l.
Definition gstate_ops : list string := ["w"; "J"; "j"; "M"; "d"; "ri"; "i"; "gs"]%string.
Definition colour_ops : list string := ["CS"; "cs"; "SC"; "SCN"; "sc"; "scn"; "G"; "g"; "RG"; "rg"; "K"; "k"]%string.
Definition textstate_ops : list string := ["Tc"; "Tw"; "Tz"; "TL"; "Tf"; "Tr"; "Ts"]%string.
Definition textshow_ops : list string := ["Td"; "TD"; "Tm"; "T*"; "Tj"; "TJ"; "'"; """"]%string.
Definition pathstart_ops : list string := ["m"; "re"]%string.
Definition path_ops : list string := ["m"; "l"; "c"; "v"; "y"; "h"; "re"; "W"; "W*"]%string.
Definition paint_ops : list string := ["S"; "s"; "f"; "F"; "f*"; "B"; "B*"; "b"; "b*"; "n"]%string.
(** Depth of saved graphics states and mode; None: illegal operator here, or Q without q. *)
Definition nest_step (st : Z * mode) (o : op) : option (Z * mode) :=
  let '(d, m) := st in let b := snd o in
  match m with
  | MPage =>
      if among b ["q"]%string then Some (d + 1, MPage)
      else if among b ["Q"]%string then if 0 <? d then Some (d - 1, MPage) else None
      else if among b ["BT"]%string then Some (d, MText)
      else if among b pathstart_ops then Some (d, MPath)
      else if among b (["cm"; "Do"; "sh"]%string ++ gstate_ops ++ colour_ops ++ textstate_ops) then Some (d, MPage)
      else None
  | MPath =>
      if among b path_ops then Some (d, MPath) else if among b paint_ops then Some (d, MPage) else None
  | MText =>
      if among b ["ET"]%string then Some (d, MPage)
      else if among b (gstate_ops ++ colour_ops ++ textstate_ops ++ textshow_ops) then Some (d, MText)
      else None
  end.
Fixpoint nest (st : Z * mode) (l : list op) : option (Z * mode) :=
  match l with [] => Some st | o :: r => match nest_step st o with Some s => nest s r | None => None end end.
(** A whole content stream is well formed: legal throughout, every q matched by a Q, no open path or text. *)
Definition well_formed (content : bytes) : Prop := nest (0, MPage) (content_ops content) = Some (0, MPage).

(** ** What is shown: the graphics state in force at each text, painted path and external object. *)
Record gst := { g_fill : op; g_stroke : op; g_font : list tok; g_tc : list tok; g_ext : list tok }.
Definition black : op := ([TWord (bs "0")], bs "g").
Definition gst0 : gst := {| g_fill := black; g_stroke := black; g_font := []; g_tc := [TWord (bs "0")]; g_ext := [] |}.
Inductive event :=
| EShow (g : gst) (pos : list tok) (items : list tok)       (* TJ *)
| EPaint (g : gst) (how : bytes)                            (* path painting *)
| EXobj (g : gst) (name : list tok).                        (* Do *)
Record vst := { v_g : gst; v_stack : list gst; v_pos : list tok; v_out : list event }.
Definition vwith (v : vst) (g : gst) : vst := {| v_g := g; v_stack := v_stack v; v_pos := v_pos v; v_out := v_out v |}.
Definition vemit (v : vst) (e : event) : vst := {| v_g := v_g v; v_stack := v_stack v; v_pos := v_pos v; v_out := v_out v ++ [e] |}.
Definition vstep (v : vst) (o : op) : vst :=
  let '(args, b) := o in let g := v_g v in
  if among b ["q"]%string then {| v_g := g; v_stack := g :: v_stack v; v_pos := v_pos v; v_out := v_out v |}
  else if among b ["Q"]%string then
    match v_stack v with [] => v | g' :: st => {| v_g := g'; v_stack := st; v_pos := v_pos v; v_out := v_out v |} end
  else if among b ["g"; "rg"; "k"; "cs"; "sc"; "scn"]%string then
    vwith v {| g_fill := o; g_stroke := g_stroke g; g_font := g_font g; g_tc := g_tc g; g_ext := g_ext g |}
  else if among b ["G"; "RG"; "K"; "CS"; "SC"; "SCN"]%string then
    vwith v {| g_fill := g_fill g; g_stroke := o; g_font := g_font g; g_tc := g_tc g; g_ext := g_ext g |}
  else if among b ["gs"]%string then
    vwith v {| g_fill := g_fill g; g_stroke := g_stroke g; g_font := g_font g; g_tc := g_tc g; g_ext := g_ext g ++ args |}
  else if among b ["Tf"]%string then
    vwith v {| g_fill := g_fill g; g_stroke := g_stroke g; g_font := args; g_tc := g_tc g; g_ext := g_ext g |}
  else if among b ["Tc"]%string then
    vwith v {| g_fill := g_fill g; g_stroke := g_stroke g; g_font := g_font g; g_tc := args; g_ext := g_ext g |}
  else if among b ["BT"]%string then {| v_g := g; v_stack := v_stack v; v_pos := []; v_out := v_out v |}
  else if among b ["Td"; "TD"]%string then {| v_g := g; v_stack := v_stack v; v_pos := v_pos v ++ args; v_out := v_out v |}
  else if among b ["TJ"]%string then vemit v (EShow g (v_pos v) args)
  else if among b paint_ops then vemit v (EPaint g b)
  else if among b ["Do"]%string then vemit v (EXobj g args)
  else v.
Definition view_from (v : vst) (l : list op) : vst := fold_left vstep l v.
Definition view (content : bytes) : list event :=
  v_out (view_from {| v_g := gst0; v_stack := []; v_pos := []; v_out := [] |} (content_ops content)).
