(** * Specification of loops over bits: look at one bit after the other, as it is when its turn comes *)
From Verif Require Import Lib BitmapSpec.
Fixpoint bit_by_bit (l : list Z) (match_ : list Z -> Z -> bool) (body : Z -> list Z -> list Z) (m : list Z) : list Z * list Z :=
  match l with
  | [] => ([], m)
  | i :: l => if match_ m i then let '(v, m) := bit_by_bit l match_ body (body i m) in (i :: v, m) else bit_by_bit l match_ body m
  end.
(** bit [i] of the map at [a] is set, or clear for the loops over zeros *)
Definition matches (a : Z) (zero : bool) (m : list Z) (i : Z) : bool := xorb zero (mbit m a i).
(** a body that stores words into memory *)
Definition body_ok (body : Z -> list Z -> list Z) : Prop := forall i m, Forall u64 m -> Forall u64 (body i m) /\ zlen (body i m) = zlen m.
