(** * Specification of loops that survive what their body does *)
From Verif Require Import Lib Ptr SlistModel HashmapModel.
(** The body run once on each of [l], in this order; it is told what it ran on before. *)
Fixpoint run_bodies (body : list Z -> mem -> Z -> option mem) (done l : list Z) (m : mem) : option mem :=
  match l with [] => Some m | a :: l => let* m := body done m a in run_bodies body (done ++ [a]) l m end.
(** A body that does what it likes to the nodes visited so far and to memory outside [nodes], and leaves the others alone. *)
Definition destroys (nodes : list Z) (body : list Z -> mem -> Z -> option mem) : Prop :=
  forall done m p, exists m', body done m p = Some m' /\ forall q f, In q nodes -> ~ In q done -> q <> p -> m' q f = m q f.
(** The node's memory is given back: no access to it is possible afterwards. *)
Definition free_node (m : mem) (p : Z) : mem := fun q f => if q =? p then None else m q f.
(** The body of a loop over a map that deletes the nodes chosen by [drop]. *)
Definition del_body (ops : hops) (key : Z -> Z) (al : mem -> Z -> Z) (fuel : nat) (drop : Z -> bool) (m : mem) (h : hmap) (x : Z) : option (mem * hmap) :=
  if drop x then let* (y, _) := del ops al fuel m h (key x) in Some y else Some (m, h).
