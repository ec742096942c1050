(** StreamSpec.v — reading a stream object (ISO 32000-1, 7.3.8): dictionary, keyword "stream",
    exactly /Length bytes, "endstream".  Independent of the gopdf model. *)
From Verif Require Import Base FileSpec StrSpec SecSpec.

(** The value of /Length in the dictionary text. *)
Definition length_entry (dict : bytes) : option Z :=
  match split_at (bs "/Length ") dict with
  | Some (_, r) => match read_num r with Some (n, _) => Some n | None => None end
  | None => None
  end.
(** The data of a stream object: what follows "stream" newline, /Length bytes long, and then (after
    white space) "endstream" and nothing else up to the newline. *)
Definition read_stream (body : bytes) : option bytes :=
  match split_at (bs "stream" ++ [10]) body with
  | None => None
  | Some (dict, rest) =>
      match length_entry dict with
      | None => None
      | Some n =>
          let k := Z.to_nat n in
          if (n <=? zlen rest) && list_eqb (skip_ws (skipn k rest)) (bs "endstream" ++ [10])
          then Some (firstn k rest) else None
      end
  end.
