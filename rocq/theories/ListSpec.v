(** * Specification of circular doubly linked lists: a head and a sequence of nodes *)
From Verif Require Import Lib Ptr ListModel.

(** [b] follows [a], in both directions. *)
Definition linked (m : mem) (a b : Z) : Prop := m a NEXT = Some b /\ m b PREV = Some a.
(** From [a] through the nodes [l] to [b]. *)
Fixpoint seg (m : mem) (a : Z) (l : list Z) (b : Z) : Prop :=
  match l with
  | [] => linked m a b
  | x :: l' => linked m a x /\ seg m x l' b
  end.
(** The list with head [h] holds the distinct nodes [l] in this order. *)
Definition ring (m : mem) (h : Z) (l : list Z) : Prop := NoDup (h :: l) /\ seg m h l h.
(** An object with both links. *)
Definition node (m : mem) (p : Z) : Prop := (exists x, m p NEXT = Some x) /\ (exists x, m p PREV = Some x).
(** Only the links of the objects [S] may differ. *)
Definition frame (S : list Z) (m m' : mem) : Prop :=
  forall q g, ~ In q S \/ (g <> PREV /\ g <> NEXT) -> m' q g = m q g.
