(** FontOutSpec.v — what an OpenType file says about its glyph outlines (tables head, maxp, loca, glyf),
    read off the bytes, independently of the models. *)
From Verif Require Import Base TtfSpec.

(** Bytes [p, p+n) of a file. *)
Definition bytes_at (d : bytes) (p : Z) (s : bytes) : Prop :=
  0 <= p /\ forall i, 0 <= i < zlen s -> u8at d (p + i) = nth_error s (Z.to_nat i).

Definition num_glyphs (d : bytes) (n : Z) : Prop :=
  exists maxp l, table_at d (bs "maxp") maxp l /\ u16at d (maxp + 4) = Some n.

(** indexToLocFormat, at byte 50 of head. *)
Definition loca_format (d : bytes) (fmt : Z) : Prop :=
  exists head l, table_at d (bs "head") head l /\ 52 <= l /\ u16at d (head + 50) = Some fmt.
(** Entry [g] of loca: a 16-bit half offset (format 0) or a 32-bit offset (format 1). *)
Definition loca_entry (d : bytes) (g a : Z) : Prop :=
  exists fmt loca l, loca_format d fmt /\ table_at d (bs "loca") loca l /\ 0 <= g /\
    ((fmt = 0 /\ 2 * g + 2 <= l /\ exists h, u16at d (loca + 2 * g) = Some h /\ a = 2 * h) \/
     (fmt = 1 /\ 4 * g + 4 <= l /\ u32at d (loca + 4 * g) = Some a)).
(** The outline of glyph [g] is the bytes from loca[g] to loca[g+1] of glyf. *)
Definition glyph_data (d : bytes) (g : Z) (data : bytes) : Prop :=
  exists a b glyf l, loca_entry d g a /\ loca_entry d (g + 1) b /\ table_at d (bs "glyf") glyf l /\
    a <= b /\ b <= l /\ zlen data = b - a /\ bytes_at d (glyf + a) data.

(** The component records of a composite glyph (OpenType glyf, "Composite glyph description"):
    flags, glyph index, then the arguments. *)
Definition arg_size (fl : Z) : Z :=
  (if Z.testbit fl 0 then 4 else 2) +
  (if Z.testbit fl 3 then 2 else if Z.testbit fl 6 then 4 else if Z.testbit fl 7 then 8 else 0).
Definition one_scale (fl : Z) : Prop :=     (* WE_HAVE_A_SCALE, AN_X_AND_Y_SCALE, A_TWO_BY_TWO exclude each other *)
  ~ (Z.testbit fl 7 = true /\ (Z.testbit fl 3 = true \/ Z.testbit fl 6 = true)).
Inductive components (data : bytes) : Z -> list Z -> Prop :=
| comp_last p fl c : u16at data p = Some fl -> u16at data (p + 2) = Some c -> one_scale fl -> Z.testbit fl 5 = false ->
    components data p [c]
| comp_more p fl c l : u16at data p = Some fl -> u16at data (p + 2) = Some c -> one_scale fl -> Z.testbit fl 5 = true ->
    components data (p + 4 + arg_size fl) l -> components data p (c :: l).
(** The glyphs an outline refers to: none for an empty or simple outline (numberOfContours >= 0). *)
Definition refers_to (data : bytes) (cs : list Z) : Prop :=
  (data = [] /\ cs = []) \/
  (exists n, u16at data 0 = Some n /\ 0 <= s16 n /\ cs = []) \/
  (exists n, u16at data 0 = Some n /\ s16 n < 0 /\ components data 10 cs).
Definition component_of (d : bytes) (g c : Z) : Prop :=
  exists data cs, glyph_data d g data /\ refers_to data cs /\ In c cs.
Inductive reachable (d : bytes) : Z -> Z -> Prop :=
| reach_self g : reachable d g g
| reach_step g c h : component_of d g c -> reachable d c h -> reachable d g h.

(** A font whose outlines are all readable. *)
Definition outlines_ok (d : bytes) : Prop :=
  forall n g, num_glyphs d n -> 0 <= g < n ->
    exists data cs, glyph_data d g data /\ refers_to data cs /\ (forall c, In c cs -> c < n).

(** Big-endian word sum of a byte string. *)
Fixpoint word_sum (l : bytes) : Z :=
  match l with
  | a :: b :: c :: e :: r => a * 16777216 + b * 65536 + c * 256 + e + word_sum r
  | _ => 0
  end.

(** The directory row of a table: checksum, offset, length. *)
Definition table_row (d : bytes) (tag : bytes) (c off len : Z) : Prop :=
  exists n i, u16at d 4 = Some n /\ 0 <= i < n /\ tagat d (12 + 16 * i) tag /\ u32at d (12 + 16 * i + 4) = Some c /\
    u32at d (12 + 16 * i + 8) = Some off /\ u32at d (12 + 16 * i + 12) = Some len /\
    forall j, i < j < n -> ~ tagat d (12 + 16 * j) tag.
