(** * Specification of running once *)
From Verif Require Import Lib OnceModel AtomicModel.
(** expansion [s] was reached with a true condition *)
Definition reached (s : Z) (l : list event) : bool := existsb (fun '(x, c, _) => (x =? s) && c) l.
(** in this order, the function is called exactly the first time that its expansion is reached with a true condition *)
Definition exactly_first (l : list event) : Prop :=
  forall l1 s c r l2, l = l1 ++ (s, c, r) :: l2 -> r = c && negb (reached s l1).
(** the calls of the functions of one expansion *)
Definition runs (s : Z) (l : list event) : nat := length (filter (fun '(x, _, r) => (x =? s) && r) l).
Definition conds (l : list call) : list bool := map (fun '(Call _ c _) => c) l.
(** the events of all threads in order of completion; those of one thread *)
Definition threads_events (l : list (nat * event)) : list event := map snd l.
Definition own_events (t : nat) (l : list (nat * event)) : list event := map snd (filter (fun x => Nat.eqb (fst x) t) l).

(** ** One bit as the flag: nobody clears, flips or overwrites it; it may be tested, set by test_set, and its neighbours changed *)
Definition keeps_op (b : Z) (op : aop) : Prop :=
  match op with
  | ARead _ | BTest _ | BTestSet _ => True
  | AWrite w _ | ARmw _ _ w _ | AXchg w _ | ACas w _ _ | ATry w _ _ => w <> b / 64
  | BSet b' | BClr b' | BTestClr b' | BFlip b' | BChange b' _ | BTestFlip b' | BTestChange b' _ => b' <> b
  end.
(** the answers of the calls of test_set on bit [b], in order of completion *)
Definition answers (b : Z) (l : list (nat * aop * AtomicModel.ret)) : list (nat * bool) :=
  flat_map (fun '(t, op, r) => match op, r with BTestSet b', RBool v => if b' =? b then [(t, v)] else [] | _, _ => [] end) l.
