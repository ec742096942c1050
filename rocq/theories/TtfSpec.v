(** TtfSpec.v — what an OpenType font file says, read directly off its bytes (independent of the parser
    model).  Positions are byte offsets in the file. *)
From Verif Require Import Base.

Definition u8at (d : bytes) (p : Z) : option Z := if p <? 0 then None else nth_error d (Z.to_nat p).
Definition u16at (d : bytes) (p : Z) : option Z :=
  match u8at d p, u8at d (p + 1) with Some a, Some b => Some (256 * a + b) | _, _ => None end.
Definition u32at (d : bytes) (p : Z) : option Z :=
  match u16at d p, u16at d (p + 2) with Some a, Some b => Some (65536 * a + b) | _, _ => None end.
(** Two's complement. *)
Definition s16 (v : Z) : Z := if v <? 32768 then v else v - 65536.
Definition tagat (d : bytes) (p : Z) (tag : bytes) : Prop :=
  forall i, 0 <= i < 4 -> u8at d (p + i) = nth_error tag (Z.to_nat i).

(** The table directory: entry [i] is at 12 + 16 i; the last entry with a tag counts. *)
Definition table_at (d : bytes) (tag : bytes) (off len : Z) : Prop :=
  exists n i, u16at d 4 = Some n /\ 0 <= i < n /\ tagat d (12 + 16 * i) tag /\
    u32at d (12 + 16 * i + 8) = Some off /\ u32at d (12 + 16 * i + 12) = Some len /\
    forall j, i < j < n -> ~ tagat d (12 + 16 * j) tag.

(** The cmap header: encoding record [i] at cmap + 4 + 8 i. *)
Definition enc_record (d : bytes) (cmap i p e off : Z) : Prop :=
  u16at d (cmap + 4 + 8 * i) = Some p /\ u16at d (cmap + 4 + 8 * i + 2) = Some e /\
  u32at d (cmap + 4 + 8 * i + 4) = Some off.
(** The Windows Unicode BMP subtable (3,1): the last such record.  (Fonts have at most one.) *)
Definition subtable31 (d : bytes) (base : Z) : Prop :=
  exists cmap len n i off, table_at d (bs "cmap") cmap len /\ u16at d (cmap + 2) = Some n /\ 0 <= i < n /\
    enc_record d cmap i 3 1 off /\ base = cmap + off /\
    forall j o, i < j < n -> ~ enc_record d cmap j 3 1 o.
(** The Windows full-Unicode subtable (3,10): the first such record, if any. *)
Definition subtable310 (d : bytes) (base : Z) : Prop :=
  exists cmap len n i off, table_at d (bs "cmap") cmap len /\ u16at d (cmap + 2) = Some n /\ 0 <= i < n /\
    enc_record d cmap i 3 10 off /\ base = cmap + off /\
    forall j o, 0 <= j < i -> ~ enc_record d cmap j 3 10 o.

(** Format 4 (OpenType cmap, "Segment mapping to delta values"). *)
Section F4.
  Variables (d : bytes) (base n : Z).
  Definition f4_end seg := u16at d (base + 14 + 2 * seg).
  Definition f4_start seg := u16at d (base + 16 + 2 * n + 2 * seg).
  Definition f4_delta seg := u16at d (base + 16 + 4 * n + 2 * seg).
  Definition f4_ro_pos seg := base + 16 + 6 * n + 2 * seg.
  Definition f4_ro seg := u16at d (f4_ro_pos seg).
  (** The segment for character [c]: the first whose end code is at least [c]. *)
  Definition f4_segment (c seg : Z) : Prop :=
    0 <= seg < n /\ (exists e, f4_end seg = Some e /\ c <= e) /\
    forall j e, 0 <= j < seg -> f4_end j = Some e -> e < c.
  Definition f4_covered (c : Z) : Prop := exists seg s, f4_segment c seg /\ f4_start seg = Some s /\ s <= c.
  Definition f4_glyph (c g : Z) : Prop :=
    exists seg s dl ro, f4_segment c seg /\ f4_start seg = Some s /\ s <= c /\ f4_delta seg = Some dl /\
      f4_ro seg = Some ro /\
      ((ro = 0 /\ g = (c + dl) mod 65536) \/
       (ro <> 0 /\ exists v, u16at d (f4_ro_pos seg + ro + 2 * (c - s)) = Some v /\
          ((v = 0 /\ g = 0) \/ (v <> 0 /\ g = (v + dl) mod 65536)))).
End F4.
Definition segments (d : bytes) (base n : Z) : Prop := exists x, u16at d (base + 6) = Some x /\ n = x / 2.

(** Format 12 (segmented coverage): group [i] at base + 16 + 12 i. *)
Definition f12_group (d : bytes) (base i s e g : Z) : Prop :=
  u32at d (base + 16 + 12 * i) = Some s /\ u32at d (base + 16 + 12 * i + 4) = Some e /\
  u32at d (base + 16 + 12 * i + 8) = Some g.
Definition f12_glyph (d : bytes) (base c g : Z) : Prop :=
  exists n i s e g0, u32at d (base + 12) = Some n /\ 0 <= i < n /\ f12_group d base i s e g0 /\ s <= c <= e /\
    g = g0 + (c - s) /\ forall j s' e' g', 0 <= j < i -> f12_group d base j s' e' g' -> ~ (s' <= c <= e').
Definition f12_covered (d : bytes) (base c : Z) : Prop :=
  exists n i s e g0, u32at d (base + 12) = Some n /\ 0 <= i < n /\ f12_group d base i s e g0 /\ s <= c <= e.

(** Advance width of a glyph, in font units: hmtx entry min(g, numberOfHMetrics-1). *)
Definition hmtx_advance (d : bytes) (g w : Z) : Prop :=
  exists hhea l1 hmtx l2 n, table_at d (bs "hhea") hhea l1 /\ table_at d (bs "hmtx") hmtx l2 /\
    u16at d (hhea + 34) = Some n /\ u16at d (hmtx + 4 * Z.min g (n - 1)) = Some w.
Definition units_per_em (d : bytes) (u : Z) : Prop :=
  exists head l, table_at d (bs "head") head l /\ u16at d (head + 18) = Some u.

(** The kern table (version 0): subtable at kern + 4, its format-0 pairs at kern + 18, six bytes each. *)
Definition kern_pair (d : bytes) (kern i l r v : Z) : Prop :=
  exists u, u16at d (kern + 18 + 6 * i) = Some l /\ u16at d (kern + 18 + 6 * i + 2) = Some r /\
    u16at d (kern + 18 + 6 * i + 4) = Some u /\ v = s16 u.
(** A font with one horizontal format-0 kerning subtable of [n] pairs. *)
Definition single_kern (d : bytes) (kern n : Z) : Prop :=
  (exists len, table_at d (bs "kern") kern len) /\ u16at d (kern + 2) = Some 1 /\
  u16at d (kern + 8) = Some 1 /\ u16at d (kern + 10) = Some n.
