(** * Specification of reference counting: who holds how many references *)
From Verif Require Import Lib RefcntModel.

(** [refs t] is the number of references thread [t] holds; [total n] over the threads below [n]. *)
Definition total (refs : nat -> Z) (n : nat) : Z := fold_right Z.add 0 (map refs (seq 0 n)).
Definition ref0 : nat -> Z := fun t => if Nat.eqb t 0 then 1 else 0.
(** The client's rules: only a holder takes more references, nobody gives up or hands over more than it holds,
    the number of references fits in the counter. *)
Definition legal (n : nat) (refs : nat -> Z) (a : ract) : Prop :=
  match a with
  | AGet t k => (t < n)%nat /\ 1 <= refs t /\ 0 <= k /\ total refs n + k < 2 ^ 64
  | APut t k => (t < n)%nat /\ 1 <= k <= refs t
  | AGive t u k => (t < n)%nat /\ (u < n)%nat /\ t <> u /\ 1 <= k <= refs t
  | _ => False
  end.
Definition refs_step (refs : nat -> Z) (a : ract) : nat -> Z :=
  match a with
  | AGet t k => rset refs t (refs t + k)
  | APut t k => rset refs t (refs t - k)
  | AGive t u k => rset (rset refs t (refs t - k)) u (refs u + k)
  | _ => refs
  end.
Fixpoint legal_run (n : nat) (refs : nat -> Z) (s : list ract) : Prop :=
  match s with [] => True | a :: r => legal n refs a /\ legal_run n (refs_step refs a) r end.
Definition refs_run (refs : nat -> Z) (s : list ract) : nat -> Z := fold_left refs_step s refs.
(** What the calls should report: the number of references before, and for a put whether it gave up the last one. *)
Definition report (n : nat) (refs : nat -> Z) (a : ract) : list rev :=
  match a with
  | AGet t k => [RGet t k (total refs n)]
  | APut t k => [RPut t k (total refs n) (total refs n =? k)]
  | _ => []
  end.
Fixpoint reports (n : nat) (refs : nat -> Z) (s : list ract) : list rev :=
  match s with [] => [] | a :: r => report n refs a ++ reports n (refs_step refs a) r end.
Definition is_last_put (e : rev) : bool := match e with RPut _ _ _ true => true | _ => false end.
Definition only_addnz (a : ract) : Prop := match a with AAddnz _ _ | AStep _ => True | _ => False end.
