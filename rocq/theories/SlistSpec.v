(** * Specification of NULL-terminated lists *)
From Verif Require Import Lib Ptr SlistModel.

(** From the link of [a] through the nodes [l] to NULL. *)
Fixpoint spath (m : mem) (a : Z) (l : list Z) : Prop :=
  match l with
  | [] => m a LINK = Some NULL
  | x :: r => m a LINK = Some x /\ x <> NULL /\ spath m x r
  end.
(** The same with every node pointing back to the link that holds it. *)
Fixpoint hpath (m : mem) (a : Z) (l : list Z) : Prop :=
  match l with
  | [] => m a LINK = Some NULL
  | x :: r => m a LINK = Some x /\ x <> NULL /\ m x PPREV = Some a /\ hpath m x r
  end.
(** The list with head [h] holds the distinct nodes [l] in this order. *)
Definition slist (m : mem) (h : Z) (l : list Z) : Prop := NoDup (h :: l) /\ spath m h l.
Definition hlist (m : mem) (h : Z) (l : list Z) : Prop := NoDup (h :: l) /\ hpath m h l.
(** Only objects in [S] differ. *)
Definition only (S : list Z) (m m' : mem) : Prop := forall q g, ~ In q S -> m' q g = m q g.
Definition has (m : mem) (p f : Z) : Prop := exists v, m p f = Some v.
