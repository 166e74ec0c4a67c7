(** * Specification of word splitting *)
From Verif Require Import Lib.
(** the blank characters *)
Definition blank (c : Z) : Prop := c = 32 \/ c = 9 \/ c = 13 \/ c = 10.
Definition gap (g : list Z) : Prop := Forall blank g.
Definition word (w : list Z) : Prop := w <> [] /\ Forall (fun c => c <> 0 /\ ~ blank c) w.
(** the maximal runs of non-blank characters of a string, in order *)
Inductive splits : list Z -> list (list Z) -> Prop :=
| sp_end g : gap g -> splits g []
| sp_last g w : gap g -> word w -> splits (g ++ w) [w]
| sp_cons g w b rest ws : gap g -> word w -> blank b -> splits rest ws -> splits (g ++ w ++ b :: rest) (w :: ws).
(** the C string in [mem] at position [p] *)
Definition cstring (mem : list Z) (p : Z) (w : list Z) : Prop := 0 <= p /\ exists rest, skipn (Z.to_nat p) mem = w ++ 0 :: rest.
