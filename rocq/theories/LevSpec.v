(** * Specification: the cheapest alignment of two strings *)
From Verif Require Import Lib.
(** [align u v c]: [u] can be turned into [v] at cost [c] from left to right by keeping or substituting a character ([s]),
    swapping two neighbours ([w]), adding one ([a]) and deleting one ([d]), no character being edited twice. *)
Inductive align (s w a d : Z) : list Z -> list Z -> Z -> Prop :=
| al_nil : align s w a d [] [] 0
| al_keep u v c x : align s w a d u v c -> align s w a d (u ++ [x]) (v ++ [x]) c
| al_sub u v c x y : align s w a d u v c -> align s w a d (u ++ [x]) (v ++ [y]) (c + s)
| al_swap u v c x y : align s w a d u v c -> align s w a d (u ++ [x; y]) (v ++ [y; x]) (c + w)
| al_add u v c y : align s w a d u v c -> align s w a d u (v ++ [y]) (c + a)
| al_del u v c x : align s w a d u v c -> align s w a d (u ++ [x]) v (c + d).
Definition cheapest (s w a d : Z) (u v : list Z) (c : Z) : Prop := align s w a d u v c /\ forall c', align s w a d u v c' -> c <= c'.
