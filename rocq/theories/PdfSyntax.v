(** PdfSyntax.v — how a PDF reader takes one indirect object from the bytes between "obj" and "endobj"
    (ISO 32000-1, 7.2 and 7.3), independent of gopdf: numbers, names with #xx escapes, literal and hexadecimal
    strings, arrays, dictionaries, references, comments.  A byte-at-a-time reader; what follows the first complete
    array or dictionary (the stream of a stream object) is returned as the rest. *)
From Coq Require Import QArith.
From Verif Require Import Base StrSpec NumRead DrawSpec.
Open Scope Z_scope.

Inductive pobj :=
| OInt (z : Z)                       (* 7.3.3 integer *)
| OReal (text : bytes)               (* 7.3.3 real number: its text; its value is [number_val text] *)
| OName (n : bytes)                  (* 7.3.5, decoded *)
| OStr (s : bytes)                   (* 7.3.4, either notation, decoded *)
| OKey (w : bytes)                   (* true, false, null *)
| ORef (n g : Z)                     (* 7.3.10 *)
| OArr (l : list pobj)               (* 7.3.6 *)
| ODict (l : list (bytes * pobj)).   (* 7.3.7, entries in the order written *)

(** 7.3.3: an integer is an optional sign and digits only. *)
Definition word_int (w : bytes) : option Z :=
  let u (l : bytes) := match l with [] => None | _ => if forallb is_digit l then Some (digits_val l) else None end in
  match w with
  | b :: r => if b =? 45 then option_map Z.opp (u r) else if b =? 43 then u r else u w
  | [] => None
  end.
(** 7.3.5: "#" and two hexadecimal digits stand for one byte. *)
Fixpoint name_decode (l : bytes) : option bytes :=
  match l with
  | [] => Some []
  | b :: r =>
      if b =? 35 then
        match r with
        | h :: d :: r' => match hexval h, hexval d, name_decode r' with
                          | Some x, Some y, Some t => Some (16 * x + y :: t)
                          | _, _, _ => None
                          end
        | _ => None
        end
      else match name_decode r with Some t => Some (b :: t) | None => None end
  end.

(** What has been read so far: objects and the marks of open arrays and dictionaries, innermost first. *)
Inductive sitem := IObj (o : pobj) | IArr | IDict.
Inductive slex :=
| SIdle | SWord (acc : bytes) | SName (acc : bytes) | SLt | SGt | SHex (acc : bytes) | SStr (depth : nat) (esc : bool) (acc : bytes) | SCom.
Inductive pst := PRun (l : slex) (stk : list sitem) | PDone (o : pobj) (rest : bytes) | PFail.

Definition push_word (w : bytes) (stk : list sitem) : option (list sitem) :=
  if list_eqb w (bs "R") then
    match stk with IObj (OInt g) :: IObj (OInt n) :: s => Some (IObj (ORef n g) :: s) | _ => None end
  else match word_int w with
       | Some z => Some (IObj (OInt z) :: stk)
       | None => match number_val w with
                 | Some _ => Some (IObj (OReal w) :: stk)
                 | None => if existsb (list_eqb w) [bs "true"; bs "false"; bs "null"] then Some (IObj (OKey w) :: stk) else None
                 end
       end.
Fixpoint close_arr (stk : list sitem) (acc : list pobj) : option (list pobj * list sitem) :=
  match stk with
  | IObj o :: s => close_arr s (o :: acc)
  | IArr :: s => Some (acc, s)
  | _ => None
  end.
Fixpoint close_dict (stk : list sitem) (acc : list (bytes * pobj)) : option (list (bytes * pobj) * list sitem) :=
  match stk with
  | IObj v :: IObj (OName k) :: s => close_dict s ((k, v) :: acc)
  | IDict :: s => Some (acc, s)
  | _ => None
  end.
(** A complete array or dictionary: the object itself when nothing encloses it. *)
Definition composite (o : pobj) (s : list sitem) : pst :=
  match s with [] => PDone o [] | _ => PRun SIdle (IObj o :: s) end.

Definition idle (b : Z) (stk : list sitem) : pst :=
  if is_white b then PRun SIdle stk
  else if b =? 47 then PRun (SName []) stk
  else if b =? 40 then PRun (SStr 0 false []) stk
  else if b =? 60 then PRun SLt stk
  else if b =? 62 then PRun SGt stk
  else if b =? 91 then PRun SIdle (IArr :: stk)
  else if b =? 93 then match close_arr stk [] with Some (l, s) => composite (OArr l) s | None => PFail end
  else if b =? 37 then PRun SCom stk
  else if is_regular b then PRun (SWord [b]) stk
  else PFail.
Definition pstep (st : pst) (b : Z) : pst :=
  match st with
  | PFail => PFail
  | PDone o rest => PDone o (rest ++ [b])
  | PRun l stk =>
      match l with
      | SIdle => idle b stk
      | SWord acc => if is_regular b then PRun (SWord (acc ++ [b])) stk
                     else match push_word acc stk with Some s => idle b s | None => PFail end
      | SName acc => if is_regular b then PRun (SName (acc ++ [b])) stk
                     else match name_decode acc with Some n => idle b (IObj (OName n) :: stk) | None => PFail end
      | SLt => if b =? 60 then PRun SIdle (IDict :: stk)
               else if b =? 62 then PRun SIdle (IObj (OStr []) :: stk) else PRun (SHex [b]) stk
      | SGt => if b =? 62 then match close_dict stk [] with Some (l, s) => composite (ODict l) s | None => PFail end else PFail
      | SHex acc => if b =? 62 then match hexstring (acc ++ [62]) None with
                                    | Some (v, []) => PRun SIdle (IObj (OStr v) :: stk)
                                    | _ => PFail
                                    end
                    else PRun (SHex (acc ++ [b])) stk
      | SStr d esc acc =>
          if esc then PRun (SStr d false (acc ++ [b])) stk
          else if b =? 92 then PRun (SStr d true (acc ++ [b])) stk
          else if b =? 40 then PRun (SStr (S d) false (acc ++ [b])) stk
          else if b =? 41 then
            match d with
            | O => match litstring 0 (acc ++ [41]) with
                   | Some (v, []) => PRun SIdle (IObj (OStr v) :: stk)
                   | _ => PFail
                   end
            | S d' => PRun (SStr d' false (acc ++ [b])) stk
            end
          else PRun (SStr d false (acc ++ [b])) stk
      | SCom => if (b =? 10) || (b =? 13) then PRun SIdle stk else PRun SCom stk
      end
  end.
Definition pread (st : pst) (l : bytes) : pst := fold_left pstep l st.
(** The object at the start of the bytes and what follows it. *)
Definition read_object (l : bytes) : option (pobj * bytes) :=
  match pread (PRun SIdle []) l with PDone o rest => Some (o, rest) | _ => None end.
(** An object without stream: only white space follows. *)
Definition reads_as (l : bytes) (o : pobj) : Prop :=
  exists rest, read_object l = Some (o, rest) /\ forallb is_white rest = true.
(** A stream object (7.3.8): the dictionary, then the keyword "stream", a line end and the data. *)
Definition reads_as_stream (l : bytes) (o : pobj) (data : bytes) : Prop :=
  exists pre post rest, read_object l = Some (o, rest) /\ rest = pre ++ bs "stream" ++ [10] ++ data ++ post ++ bs "endstream" ++ [10]
    /\ forallb is_white pre = true /\ forallb is_white post = true.

Definition entry (k : string) (l : list (bytes * pobj)) : list pobj := map snd (filter (fun e => list_eqb (fst e) (bs k)) l).
Definition N_ (s : string) : pobj := OName (bs s).
Definition ref (n : Z) : pobj := ORef n 0.
Definition distinct_keys (o : pobj) : Prop := match o with ODict l => NoDup (map fst l) | _ => True end.

(** The reader on an example. *)
Example reader_example :
  read_object (bs "<</A#42 [1 -2.5 (a\)b(c)) <4a4B> 7 0 R null]% x" ++ [10] ++ bs "/D<</E/F>>>>rest")
  = Some (ODict [(bs "AB", OArr [OInt 1; OReal (bs "-2.5"); OStr (bs "a)b(c)"); OStr (bs "JK"); ORef 7 0; OKey (bs "null")]);
                 (bs "D", ODict [(bs "E", OName (bs "F"))])], bs "rest").
Proof. vm_compute. reflexivity. Qed.
