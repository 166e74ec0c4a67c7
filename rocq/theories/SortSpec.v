(** * Specification of sorting and searching *)
From Verif Require Import Lib.
From Coq Require Export Sorting.Permutation Sorting.Sorted.

(** A comparison function in the style of qsort describes a total preorder. *)
Definition preorder {A} (cmp : A -> A -> Z) : Prop :=
  (forall a b, 0 <= cmp a b <-> cmp b a <= 0) /\
  (forall a b c, cmp a b <= 0 -> cmp b c <= 0 -> cmp a c <= 0).
(** Every element is at most every later one. *)
Definition ascending {A} (cmp : A -> A -> Z) (l : list A) : Prop := StronglySorted (fun a b => cmp a b <= 0) l.
(** A search function is monotone along the array: first negative answers (the key is further right),
    then matches, then positive ones. *)
Definition bisects {A} (find : A -> Z) (l : list A) : Prop := StronglySorted (fun a b => Z.sgn (find a) <= Z.sgn (find b)) l.
