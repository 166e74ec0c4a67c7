(** * Binary heaps: what a client sees
    Positions are numbered from 1, level by level from left to right: the children of [i] are [2 i] and [2 i + 1]. *)
From Verif Require Import Lib Tree.

(** The way from the root to position [i]: the binary digits after the leading one. *)
Fixpoint bits (d : nat) (i : Z) : list dir := match d with O => [] | S d => (if Z.testbit i (Z.of_nat d) then R else L) :: bits d i end.
Definition path (i : Z) : list dir := bits (Z.to_nat (Z.log2 i)) i.
Fixpoint at_path {A} (t : tree A) (p : list dir) : option Z :=
  match t, p with
  | E, _ => None
  | T _ _ a _, [] => Some a
  | T _ l _ _, L :: p => at_path l p
  | T _ _ _ r, R :: p => at_path r p
  end.
Definition at_pos {A} (t : tree A) (i : Z) : option Z := at_path t (path i).
(** The tree fills the positions 1 to [c] and no others. *)
Definition complete {A} (t : tree A) (c : Z) : Prop := forall i, 1 <= i -> (at_pos t i <> None <-> i <= c).

Section Spec.
Variable cmp : Z -> Z -> Z.
(** The client's comparison is a total preorder. *)
Definition preorder_cmp : Prop := (forall x y, cmp x y < 0 <-> cmp y x > 0) /\ (forall x y z, cmp x y <= 0 -> cmp y z <= 0 -> cmp x z <= 0).
(** No child is before its parent. *)
Definition heap {A} (t : tree A) : Prop := forall i a b, 2 <= i -> at_pos t (i / 2) = Some a -> at_pos t i = Some b -> cmp a b <= 0.
(** A least element. *)
Definition least (x : Z) (l : list Z) : Prop := In x l /\ forall y, In y l -> cmp x y <= 0.
End Spec.

(** The heap as a multiset of nodes. *)
Inductive op := Ins (n : Z) | Del (n : Z).
Definition apply_op (o : op) (l : list Z) : list Z := match o with Ins n => n :: l | Del n => filter (fun x => negb (x =? n)) l end.
Fixpoint apply_ops (ops : list op) (l : list Z) : list Z := match ops with [] => l | o :: ops => apply_ops ops (apply_op o l) end.
(** The client inserts nodes that are not in the heap and deletes nodes that are. *)
Definition allowed (node : Z -> Prop) (o : op) (l : list Z) : Prop := match o with Ins n => node n /\ ~ In n l | Del n => In n l end.
Fixpoint history (node : Z -> Prop) (ops : list op) (l : list Z) : Prop := match ops with [] => True | o :: ops => allowed node o l /\ history node ops (apply_op o l) end.
