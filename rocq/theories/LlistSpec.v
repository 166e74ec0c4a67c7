(** * Specification of the lock-free list: one stack, one event at a time *)
From Verif Require Import Lib Ptr SlistModel SlistSpec LlistModel.

(** The shared stack, and the chains that destroy has handed out but whose nodes the taker has not walked yet. *)
Definition abst := (list Z * (nat -> list Z))%type.
Definition is_nil {A} (l : list A) : bool := match l with [] => true | _ => false end.
Definition spec_step (a : abst) (e : ev) (a' : abst) : Prop :=
  let '(s, pend) := a in
  match e with
  | EAdd t b was_empty => was_empty = is_nil s /\ a' = (b ++ s, pend)
  | ETake t p => p = hd NULL s /\ pend t = [] /\ a' = ([], set pend t s)
  | EWalk t l => l = pend t /\ a' = (s, set pend t [])
  | EPop t x => exists r, s = x :: r /\ a' = (r, pend)
  | EPopNone t => s = [] /\ a' = a
  end.
Inductive spec_run : abst -> list ev -> abst -> Prop :=
| spec_nil a : spec_run a [] a
| spec_snoc a l a1 e a2 : spec_run a l a1 -> spec_step a1 e a2 -> spec_run a (l ++ [e]) a2.
(** At the start every thread holds its own distinct nodes and the list is empty. *)
Definition start (h : Z) (c : cfg) : Prop :=
  cm c h LINK = Some NULL /\ clog c = [] /\ (forall t, cpc c t = Idle) /\
  (forall t, NoDup (cown c t)) /\ (forall t u x, In x (cown c t) -> In x (cown c u) -> t = u) /\
  (forall t x, In x (cown c t) -> x <> h /\ x <> NULL /\ has (cm c) x LINK).
(** No del at all, or a single consumer [k] (any number of adders in both cases). *)
Definition many_takers (s : list action) : Prop := forall t, ~ In (CDel t) s.
Definition one_consumer (k : nat) (s : list action) : Prop := forall t, In (CDel t) s \/ In (CDestroy t) s -> t = k.
(** How often a node was added, and handed out. *)
Definition occ (x : Z) (l : list Z) : nat := count_occ Z.eq_dec l x.
Definition added (x : Z) (l : list ev) : nat := list_sum (map (fun e => match e with EAdd _ b _ => occ x b | _ => 0%nat end) l).
Definition taken (x : Z) (l : list ev) : nat := list_sum (map (fun e => match e with EWalk _ b => occ x b | EPop _ y => occ x [y] | _ => 0%nat end) l).
