(** * Specification of progress: how much work calls take, and how many calls finish
    "Works" counts the memory accesses a thread makes inside a call of the lock-free list (LlistModel); waiting, the
    client's own stores and the walk over a chain already taken are not counted. *)
From Verif Require Import Lib Ptr SlistModel LlistModel.

(** the thread is inside a call *)
Definition inside (p : pc) : bool := match p with Idle | Got _ => false | _ => true end.
(** how many accesses inside calls thread [t] makes during a schedule *)
Fixpoint works (h : Z) (c : cfg) (s : list action) (t : nat) : nat :=
  match s with
  | [] => 0
  | a :: r =>
    match step h c a with
    | Some c' => ((match a with Run u _ => if Nat.eqb u t && inside (cpc c t) then 1 else 0 | _ => 0 end) + works h c' r t)%nat
    | None => 0
    end
  end.
(** a call returned: add, destroy or del *)
Definition returned (e : ev) : option nat :=
  match e with EAdd t _ _ | ETake t _ | EPop t _ | EPopNone t => Some t | EWalk _ _ => None end.
Definition count (f : nat -> bool) (l : list ev) : nat := length (filter (fun e => match returned e with Some u => f u | None => false end) l).
(** the calls that returned to thread [t], to the others, to anybody *)
Definition mine (t : nat) : list ev -> nat := count (fun u => Nat.eqb u t).
Definition theirs (t : nat) : list ev -> nat := count (fun u => negb (Nat.eqb u t)).
Definition anybody : list ev -> nat := count (fun _ => true).
