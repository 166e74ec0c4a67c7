(** * Heaps with debug checks: what a client sees *)
From Verif Require Import Lib HeapSpec.
(** The client may delete a node again that it has deleted and not inserted since; [gone] are those nodes. *)
Definition gone_after (o : op) (l gone : list Z) : list Z :=
  match o with Ins n => filter (fun x => negb (x =? n)) gone | Del n => if existsb (Z.eqb n) l then n :: gone else gone end.
Fixpoint history_dbg (node : Z -> Prop) (ops : list op) (l gone : list Z) : Prop :=
  match ops with
  | [] => True
  | o :: ops => (allowed node o l \/ exists n, o = Del n /\ In n gone) /\ history_dbg node ops (apply_op o l) (gone_after o l gone)
  end.
(** The history without the repeated deletions. *)
Fixpoint useful (ops : list op) (l : list Z) : list op :=
  match ops with
  | [] => []
  | Ins n :: ops => Ins n :: useful ops (apply_op (Ins n) l)
  | Del n :: ops => if existsb (Z.eqb n) l then Del n :: useful ops (apply_op (Del n) l) else useful ops l
  end.
