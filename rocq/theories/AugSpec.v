(** * Summaries of a sorted sequence of nodes: what a client sees *)
From Coq Require Import Sorting.Sorted.
From Verif Require Import Lib AugModel RbHistSpec.

Section Spec.
(** The values of the nodes, the summary of one value, how two summaries are put together, and the order of the tree. *)
Variable dat : Z -> Z.
Variable one : Z -> Z.
Variable join : Z -> Z -> Z.
Variable cmp : Z -> Z -> Z.
(** The summary of the values of the nodes [l], in order. *)
Fixpoint summary (l : list Z) : option Z :=
  match l with
  | [] => None
  | x :: l => Some (match summary l with None => one (dat x) | Some s => join (one (dat x)) s end)
  end.
(** What RBCOMPUTE has to work out: left summary, own value, right summary, joined in this order. *)
Definition joins (comb : option Z -> Z -> option Z -> Z) : Prop :=
  forall l x r, comb l x r =
    let y := match l with None => one x | Some s => join s (one x) end in
    match r with None => y | Some s => join y s end.
Definition associative : Prop := forall a b c, join (join a b) c = join a (join b c).

(** The nodes of the tree, in order. *)
Definition aspec (o : aop) (l : list Z) : list Z :=
  match o with
  | AIns n => if taken cmp n l then l else ins cmp n l
  | ADel n => del n l
  end.
Fixpoint aspecs (ops : list aop) (l : list Z) : list Z := match ops with [] => l | o :: ops => aspecs ops (aspec o l) end.
Fixpoint areplies (ops : list aop) (l : list Z) : list bool :=
  match ops with
  | [] => []
  | AIns n :: ops => negb (taken cmp n l) :: areplies ops (aspec (AIns n) l)
  | ADel n :: ops => areplies ops (aspec (ADel n) l)
  end.
(** The client inserts node objects that are not in the tree and deletes nodes that are. *)
Definition alegal (node : Z -> Prop) (o : aop) (l : list Z) : Prop := match o with AIns n => node n /\ ~ In n l | ADel n => In n l end.
Fixpoint alegals (node : Z -> Prop) (ops : list aop) (l : list Z) : Prop :=
  match ops with [] => True | o :: ops => alegal node o l /\ alegals node ops (aspec o l) end.
End Spec.
