(** * Specification vocabulary for bitmaps *)
From Verif Require Import Lib.

(** Bit [i] of the bitmap whose first word is word [base] of memory. *)
Definition mbit (m : list Z) (base i : Z) : bool :=
  match rd m (base + i / 64) with Some w => Z.testbit w (i mod 64) | None => false end.

(** Words occupied by a bitmap of [bits] bits. *)
Definition nwords (bits : Z) : Z := (bits + 63) / 64.

(** The bitmap lies inside memory. *)
Definition in_mem (m : list Z) (base bits : Z) : Prop := 0 <= base /\ base + nwords bits <= zlen m.

(** The two bitmaps are the same or do not overlap. *)
Definition same_or_disjoint (a b bits : Z) : Prop :=
  a = b \/ a + nwords bits <= b \/ b + nwords bits <= a.

(** [m'] is [m] with the bitmap at [d] replaced: bit [i < bits] is [G i], the unused bits
    of the last word are zero, and no other word changed. *)
Definition bitmap_is (m : list Z) (d bits : Z) (G : Z -> bool) (m' : list Z) : Prop :=
  zlen m' = zlen m /\ Forall u64 m' /\
  (forall i, 0 <= i < bits -> mbit m' d i = G i) /\
  (forall i, bits <= i < 64 * nwords bits -> mbit m' d i = false) /\
  (forall a, ~ (d <= a < d + nwords bits) -> rd m' a = rd m a).
