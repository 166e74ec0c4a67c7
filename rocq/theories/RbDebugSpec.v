(** * Red-black trees with debug checks: what a client sees *)
From Verif Require Import Lib RbHistSpec.
Section Spec.
Variable cmp : Z -> Z -> Z.
Variable cached : bool.
(** The client may delete a node again that it has deleted and not put into the tree since; [gone] are those nodes. *)
Definition gone_after (o : op) (l gone : list Z) : list Z :=
  match o with
  | Ins n => if taken cmp n l then gone else filter (fun x => negb (x =? n)) gone
  | Del n => if existsb (Z.eqb n) l then n :: gone else gone
  | Rep _ n => filter (fun x => negb (x =? n)) gone
  end.
Fixpoint legals_dbg (node : Z -> Prop) (ops : list op) (l gone : list Z) : Prop :=
  match ops with
  | [] => True
  | o :: ops => (legal cmp node o l \/ exists n, o = Del n /\ In n gone) /\ legals_dbg node ops (fst (spec cmp cached o l)) (gone_after o l gone)
  end.
(** The history without the repeated deletions. *)
Fixpoint useful (ops : list op) (l : list Z) : list op :=
  match ops with
  | [] => []
  | Del n :: ops => if existsb (Z.eqb n) l then Del n :: useful ops (fst (spec cmp cached (Del n) l)) else useful ops l
  | o :: ops => o :: useful ops (fst (spec cmp cached o l))
  end.
End Spec.
