(** * Resource pools: what a client sees *)
From Verif Require Import Lib Ptr ListModel ListSpec.
(** The resources in the pool, the newest first; those released so far, in order; and those whose memory is gone. *)
Record pool := { held : list Z; released : list Z; gone : list Z }.
Definition without (n : Z) (l : list Z) : list Z := filter (fun x => negb (x =? n)) l.
(** The calls; [Clear] is release_all followed by init. *)
Inductive op := Insert (n : Z) | Remove (n : Z) | Release (n : Z) | FindRemove (f : Z -> Z) | FindRelease (f : Z -> Z) | Clear.
Section Spec.
Variable free : Z -> bool.
Definition drop (n : Z) (p : pool) : pool := {| held := without n (held p); released := released p; gone := gone p |}.
Definition give (n : Z) (p : pool) : pool := {| held := without n (held p); released := released p ++ [n]; gone := (if free n then [n] else []) ++ gone p |}.
(** The first match. *)
Definition first_match (f : Z -> Z) (l : list Z) : option Z := find (fun x => f x =? 0) l.
Definition apply_op (o : op) (p : pool) : pool * Z :=
  match o with
  | Insert n => ({| held := n :: held p; released := released p; gone := gone p |}, 0)
  | Remove n => (drop n p, 0)
  | Release n => (give n p, 0)
  | FindRemove f => match first_match f (held p) with Some n => (drop n p, n) | None => (p, NULL) end
  | FindRelease f => match first_match f (held p) with Some n => (give n p, n) | None => (p, NULL) end
  | Clear => ({| held := []; released := released p ++ held p; gone := filter free (held p) ++ gone p |}, 0)
  end.
Fixpoint apply_ops (ops : list op) (p : pool) : pool * list Z := match ops with [] => (p, []) | o :: ops => let (p, r) := apply_op o p in let (p, rs) := apply_ops ops p in (p, r :: rs) end.
(** The client inserts memory it has, not in the pool, and removes or releases what is in the pool. *)
Definition allowed (nd : Z -> Prop) (o : op) (p : pool) : Prop :=
  match o with
  | Insert n => nd n /\ ~ In n (gone p) /\ ~ In n (held p)
  | Remove n | Release n => In n (held p)
  | _ => True
  end.
Fixpoint history (nd : Z -> Prop) (ops : list op) (p : pool) : Prop := match ops with [] => True | o :: ops => allowed nd o p /\ history nd ops (fst (apply_op o p)) end.
(** How often [n] was put in and taken out. *)
Definition puts (n : Z) (ops : list op) : Z := Z.of_nat (length (filter (fun o => match o with Insert x => x =? n | _ => false end) ops)).
End Spec.
