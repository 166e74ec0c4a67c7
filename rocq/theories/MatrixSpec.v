(** * What a matrix is: its entries *)
From Verif Require Import Lib MatrixModel.

(** Entry in row [i], column [j]. *)
Definition entry (m : matrix) (i j : Z) : Z := nth (Z.to_nat (i * col m + j)) (cells m) 0.
(** A matrix the library built: as many cells as the dimensions say, which fit an unsigned int. *)
Definition wfm (m : matrix) : Prop :=
  0 <= row m /\ 0 <= col m /\ row m * col m < 2 ^ 32 /\ zlen (cells m) = row m * col m /\ Forall u64 (cells m).
(** Sum of [f 0 .. f (n-1)]. *)
Fixpoint sum (n : nat) (f : Z -> Z) : Z :=
  match n with O => 0 | S n' => sum n' f + f (Z.of_nat n') end.
(** The row by column product, over the integers modulo 2^64. *)
Definition product_entry (a b : matrix) (i j : Z) : Z :=
  (sum (Z.to_nat (col a)) (fun k => entry a i k * entry b k j)) mod 2 ^ 64.
