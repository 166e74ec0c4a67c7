(** * Interval trees: what a client sees *)
From Verif Require Import Lib.

Inductive op := Ins (n : Z) | Del (n : Z).
Section Spec.
(** The interval of each node. *)
Variable first_ last_ : Z -> Z.
(** The intervals by their start, equal starts in the order of insertion. *)
Fixpoint put (n : Z) (l : list Z) : list Z := match l with [] => [n] | x :: l' => if first_ n <? first_ x then n :: l else x :: put n l' end.
Definition drop (n : Z) (l : list Z) : list Z := filter (fun x => negb (x =? n)) l.
Definition apply_op (o : op) (l : list Z) : list Z := match o with Ins n => put n l | Del n => drop n l end.
Fixpoint apply_ops (ops : list op) (l : list Z) : list Z := match ops with [] => l | o :: ops => apply_ops ops (apply_op o l) end.
(** The client inserts new nodes and deletes those that are in the tree. *)
Definition allowed (node : Z -> Prop) (o : op) (l : list Z) : Prop := match o with Ins n => node n /\ ~ In n l | Del n => In n l end.
(** No interval in the tree ends after the new one. *)
Definition longest (o : op) (l : list Z) : Prop := match o with Ins n => forall x, In x l -> last_ x <= last_ n | Del _ => True end.
Fixpoint history (node : Z -> Prop) (ops : list op) (l : list Z) : Prop := match ops with [] => True | o :: ops => allowed node o l /\ history node ops (apply_op o l) end.
Fixpoint history_longest (ops : list op) (l : list Z) : Prop := match ops with [] => True | o :: ops => longest o l /\ history_longest ops (apply_op o l) end.
(** The answer to a query. *)
Definition overlapping (qs qe : Z) (l : list Z) : list Z := filter (fun x => (first_ x <=? qe) && (qs <=? last_ x)) l.
End Spec.
