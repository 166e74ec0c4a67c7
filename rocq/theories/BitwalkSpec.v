(** * Specification vocabulary for bitmap searches *)
From Verif Require Import Lib BitmapSpec.

(** The bit at which bit [i] is stored when words are byte-reversed. *)
Definition bit_place (swap : bool) (i : Z) : Z :=
  if swap then 64 * (i / 64) + (8 * (7 - (i mod 64) / 8) + (i mod 64) mod 8) else i.

(** The searched predicate: bit [i] of [a1] (and of [a2]), inverted on request. *)
Definition wanted (m : list Z) (a1 : Z) (a2 : option Z) (inv swap : bool) (i : Z) : bool :=
  xorb inv (mbit m a1 (bit_place swap i) &&
            match a2 with None => true | Some a => mbit m a (bit_place swap i) end).

(** [r] is the least index in [lo, hi) satisfying [P], or [none] if there is none. *)
Definition least (P : Z -> bool) (lo hi none r : Z) : Prop :=
  (r = none /\ forall i, lo <= i < hi -> P i = false) \/
  (lo <= r < hi /\ P r = true /\ forall i, lo <= i < r -> P i = false).
(** [r] is the greatest such index. *)
Definition greatest (P : Z -> bool) (lo hi none r : Z) : Prop :=
  (r = none /\ forall i, lo <= i < hi -> P i = false) \/
  (lo <= r < hi /\ P r = true /\ forall i, r < i < hi -> P i = false).
