(** * Specification of text searching *)
From Verif Require Import Lib.
(** the pattern stands in the text at position [j] *)
Definition occurs (T P : list Z) (j : nat) : Prop := firstn (length P) (skipn j T) = P.
(** [j] is the first occurrence at or after [start] *)
Definition leftmost (T P : list Z) (start j : nat) : Prop := (start <= j)%nat /\ occurs T P j /\ forall i, (start <= i < j)%nat -> ~ occurs T P i.
Definition absent (T P : list Z) (start : nat) : Prop := forall i, (start <= i)%nat -> ~ occurs T P i.
(** the successive non-overlapping matches from [start] on, from left to right *)
Inductive enumerates (T P : list Z) : nat -> list Z -> Prop :=
| en_nil start : absent T P start -> enumerates T P start []
| en_cons start j l : leftmost T P start j -> enumerates T P (j + length P) l -> enumerates T P start (Z.of_nat j :: l).
(** a source of blocks delivers the text: at every position a non-empty piece of what follows, nothing at the end *)
Definition source (next : Z -> list Z) (text : list Z) : Prop :=
  forall c, 0 <= c -> (exists rest, skipn (Z.to_nat c) text = next c ++ rest) /\ (c < zlen text -> next c <> []).
