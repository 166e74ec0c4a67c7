(** * Specification vocabulary for words: bits, counts, parities *)
From Verif Require Import Lib.

(** [i] is the position of the least / most significant one bit of [v]. *)
Definition lowest_set (v i : Z) : Prop :=
  0 <= i /\ Z.testbit v i = true /\ forall j, 0 <= j < i -> Z.testbit v j = false.
Definition highest_set (v i : Z) : Prop :=
  0 <= i /\ Z.testbit v i = true /\ forall j, i < j -> Z.testbit v j = false.

(** Positions of the one bits among the low [n] bits, ascending. *)
Definition set_positions (n : nat) (v : Z) : list Z := filter (Z.testbit v) (zseq 0 n).
(** Number of one bits among the low [n]. *)
Definition count_ones (n : nat) (v : Z) : Z := zlen (set_positions n v).

Definition is_pow2 (v : Z) : Prop := exists k, 0 <= k /\ v = 2 ^ k.

(** The [w]-bit word whose bit [i] is bit [sigma i] of [v]. *)
Definition permutes (w : Z) (sigma : Z -> Z) (f : Z -> Z) : Prop :=
  forall v, 0 <= v < 2 ^ w ->
    0 <= f v < 2 ^ w /\ forall i, 0 <= i < w -> Z.testbit (f v) i = Z.testbit v (sigma i).
