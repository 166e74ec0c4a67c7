(** * Specification: nodes handed over through a lock-free list, with what was stored in them *)
From Verif Require Import Lib AtomicModel AtomicSpec LlistFenceModel.
(** the nodes are distinct, the words of a node are its own, and the list is empty at the start *)
Definition is_node (E : env) (x : Z) : Prop := exists t, In x (emine E t).
Record env_ok (n : Z) (E : env) (f : Z -> Z) : Prop := {
  eo_head : 0 <= ehead E < n /\ f (ehead E) = 0;
  eo_distinct : forall t, NoDup (emine E t);
  eo_apart : exists owner : Z -> nat, forall t x, In x (emine E t) -> owner x = t;
  eo_node : forall x, is_node E x -> x <> 0 /\ u64v x /\ ehome E x = x;
  eo_word : forall w, is_node E (ehome E w) -> 0 <= w < n /\ w <> ehead E
}.
(** following links from [p] *)
Fixpoint chain (f : Z -> Z) (p : Z) (l : list Z) : Prop := match l with [] => p = 0 | x :: l => p = x /\ chain f (f x) l end.
(** no store to [w] among these calls *)
Definition untouched (w : Z) (l : list (nat * aop * ret)) : Prop :=
  Forall (fun x => match snd (fst x) with
                   | ARead _ | BTest _ => True
                   | AWrite u _ | ARmw _ _ u _ | ACas u _ _ | ATry u _ _ | AXchg u _ => u <> w
                   | BClr b | BSet b | BFlip b | BChange b _ | BTestClr b | BTestSet b | BTestFlip b | BTestChange b _ => b / 64 <> w
                   end) l.
