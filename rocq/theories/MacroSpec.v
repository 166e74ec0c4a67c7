(** What the arithmetic macros are for. *)
From Coq Require Import ZArith.
From Verif Require Import CArith.
Local Open Scope Z_scope.

(** The multiple of [a] at or below [v]. *)
Definition is_down (v a r : Z) : Prop := (a | r) /\ r <= v < r + a.
(** The multiple of [a] at or above [v]. *)
Definition is_up (v a r : Z) : Prop := (a | r) /\ r - a < v <= r.
(** The quotient of [n] and [d] rounded up. *)
Definition is_ceil (n d q : Z) : Prop := (q - 1) * d < n <= q * d.

(** The types for which ~(align - 1) reaches every bit of the common type: the
    promoted type of [align] is signed, or as wide as the common type. *)
Definition mask_safe (tv ta : ity) : Prop :=
  sgn (promote ta) = true \/ wid (usual tv ta) = wid (promote ta).

(** A bit field of [n] bits at position [s]: its mask. *)
Definition field_mask (n s : Z) : Z := (2 ^ n - 1) * 2 ^ s.
