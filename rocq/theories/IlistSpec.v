(** * Specification of the index list: the surviving nodes in insertion order, and when a deletion is harmless *)
From Verif Require Import Lib Ptr ListModel ListSpec IlistModel.
From Verif Require Export ListSortSpec.

(** Node structures [U] and the head occupy distinct memory. *)
Definition apart (h : Z) (U : list Z) : Prop :=
  NoDup U /\ ~ In h U /\ ~ In NULL U /\ forall p q, In p U -> In q (h :: U) -> IDX p <> q.
Definition has_node (s : list Z) (n : Z) : bool := existsb (Z.eqb n) s.
(** What a history leaves alive, oldest first. *)
Definition alive_step (s : list Z) (op : iop) : list Z :=
  match op with
  | IAdd n => if has_node s n then s else s ++ [n]
  | IDel n => filter (fun y => negb (y =? n)) s
  end.
Definition alive (s : list Z) (ops : list iop) : list Z := fold_left alive_step ops s.
(** [x] is the oldest of several nodes with its key, and there are other keys. *)
Definition oldest_of_many (cmp : Z -> Z -> Z) (s : list Z) (x : Z) : Prop :=
  exists y r z, filter (fun y => cmp x y =? 0) s = x :: y :: r /\ In z s /\ cmp x z <> 0.
(** No step of the history deletes such a node. *)
Fixpoint harmless (cmp : Z -> Z -> Z) (s : list Z) (ops : list iop) : Prop :=
  match ops with
  | [] => True
  | op :: r => match op with IDel x => ~ oldest_of_many cmp s x | IAdd _ => True end /\ harmless cmp (alive_step s op) r
  end.
Definition uses (U : list Z) (op : iop) : Prop := match op with IAdd n | IDel n => In n U end.
(** Freshly initialised head and nodes. *)
Definition fresh (m : mem) (h : Z) (U : list Z) : Prop :=
  ring m h [] /\ forall x, In x U -> ring m x [] /\ ring m (IDX x) [].
