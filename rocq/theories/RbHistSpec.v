(** * Histories of a red-black tree: what a client sees *)
From Coq Require Import Sorting.Sorted.
From Verif Require Import Lib.

Inductive op := Ins (n : Z) | Del (n : Z) | Rep (o n : Z).
Section Spec.
(** The order that the client gives. *)
Variable cmp : Z -> Z -> Z.
Definition comparison : Prop := (forall x y, cmp x y < 0 <-> cmp y x > 0) /\ (forall x y z, cmp x y < 0 -> cmp y z < 0 -> cmp x z < 0).
Definition sorted (l : list Z) : Prop := StronglySorted (fun x y => cmp x y < 0) l.
(** The tree is a sorted list of nodes. *)
Fixpoint ins (n : Z) (l : list Z) : list Z := match l with [] => [n] | x :: l' => if cmp n x <? 0 then n :: l else x :: ins n l' end.
Definition del (n : Z) (l : list Z) : list Z := filter (fun x => negb (x =? n)) l.
Definition sub (o n : Z) (l : list Z) : list Z := map (fun x => if x =? o then n else x) l.
Definition taken (n : Z) (l : list Z) : bool := existsb (fun x => cmp n x =? 0) l.
(** An insertion replies whether the node is in; a deletion from a cached tree replies the new first node
    if the first one was deleted. *)
Definition spec (cached : bool) (o : op) (l : list Z) : list Z * Z :=
  match o with
  | Ins n => if taken n l then (l, 0) else (ins n l, 1)
  | Del n => (del n l, if cached && (hd 0 l =? n) then hd 0 (tl l) else 0)
  | Rep a n => (sub a n l, 0)
  end.
(** What the client has to observe; [node] says what is a node object. *)
Definition legal (node : Z -> Prop) (o : op) (l : list Z) : Prop :=
  match o with
  | Ins n => node n /\ ~ In n l
  | Del n => In n l
  | Rep a n => In a l /\ node n /\ ~ In n l /\ sorted (sub a n l)
  end.
Fixpoint specs (cached : bool) (ops : list op) (l : list Z) : list Z * list Z :=
  match ops with
  | [] => (l, [])
  | o :: ops => let '(l, x) := spec cached o l in let '(l, xs) := specs cached ops l in (l, x :: xs)
  end.
Fixpoint legals (node : Z -> Prop) (cached : bool) (ops : list op) (l : list Z) : Prop :=
  match ops with [] => True | o :: ops => legal node o l /\ legals node cached ops (fst (spec cached o l)) end.
End Spec.
