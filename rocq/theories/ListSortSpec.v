(** * Specification of a stable sort *)
From Verif Require Import Lib.
From Verif Require Export SortSpec.

(** Elements that compare equal to any given one appear in the same order in both sequences. *)
Definition same_order {A} (cmp : A -> A -> Z) (l l' : list A) : Prop :=
  forall k, filter (fun y => cmp k y =? 0) l = filter (fun y => cmp k y =? 0) l'.
Definition stable_sort {A} (cmp : A -> A -> Z) (l l' : list A) : Prop :=
  ascending cmp l' /\ Permutation l l' /\ same_order cmp l l'.
