(** * Specification of a queue shared by one producer and one consumer *)
From Verif Require Import Lib FifoModel FifoSpec SpscModel.
(** the calls each thread may make *)
Definition p_op (o : op) : Prop := match o with OIn _ _ | OPut _ | OLen | OEmpty | OFull => True | _ => False end.
Definition c_op (o : op) : Prop := match o with OOut _ | OPeek _ | OGet | OPeek1 | OHoming | OLen | OEmpty | OFull => True | _ => False end.
Definition roles (es : Z) (cp cc : client) : Prop :=
  (forall h o, cp h = Some o -> p_op o /\ op_ok es o) /\ (forall h o, cc h = Some o -> c_op o /\ op_ok es o).
(** How a call works on the queue: how many elements it moves is settled by the queue [q0] at its beginning, the effect is on the queue
    [q] at its end. *)
Definition during (es cap : Z) (q0 q : list Z) (o : op) : result * list Z :=
  match o with
  | OIn src len => let n := Z.min len (cap - pending es q0) in ((n, []), q ++ take (n * es) src)
  | OPut e => if pending es q0 =? cap then ((0, []), q) else ((1, []), q ++ e)
  | OOut len => let n := Z.min len (pending es q0) in ((n, take (n * es) q), drop (n * es) q)
  | OPeek len => let n := Z.min len (pending es q0) in ((n, take (n * es) q), q)
  | OGet => if pending es q0 =? 0 then ((0, []), q) else ((1, take es q), drop es q)
  | OPeek1 => if pending es q0 =? 0 then ((0, []), q) else ((1, take es q), q)
  | OHoming => ((0, []), drop (pending es q0 * es) q)
  | _ => queue_step es cap q o
  end.
(** calls that look at the queue once and change nothing *)
Definition instant (e : entry) : Prop :=
  match e_op e with OLen | OEmpty | OFull => True | OPut _ | OGet | OPeek1 => fst (e_ret e) = 0 | _ => False end.
Definition fetches (o : op) : Prop := match o with OOut _ | OPeek _ | OGet | OPeek1 => True | _ => False end.
(** [qs i] is the queue after the first [i] calls of the log: never more than [cap] elements; every call is explained; one that looks only once
    by the queue of that moment; what is fetched is as long as announced *)
Definition explains (es cap : Z) (qs : nat -> list Z) (log : list entry) : Prop :=
  (forall i, (i <= length log)%nat -> pending es (qs i) <= cap /\ zlen (qs i) = pending es (qs i) * es) /\
  forall i e, nth_error log i = Some e ->
    (e_since e <= i)%nat /\ during es cap (qs (e_since e)) (qs i) (e_op e) = (e_ret e, qs (S i)) /\
    (instant e -> e_since e = i) /\ (fetches (e_op e) -> zlen (snd (e_ret e)) = fst (e_ret e) * es).
(** calls that look at the queue once, or move one element, or got all they asked for *)
Definition exact_call (e : entry) : Prop :=
  match e_op e with
  | OIn _ len | OOut len | OPeek len => fst (e_ret e) = len
  | OHoming => False
  | _ => True
  end.
Definition ops_of (l : list entry) : list op := map e_op l.
Definition rets_of (l : list entry) : list result := map e_ret l.
Fixpoint side (t : bool) (l : list entry) : list (op * result) :=
  match l with [] => [] | e :: l => if Bool.eqb (e_prod e) t then (e_op e, e_ret e) :: side t l else side t l end.
(** all orders of the calls of two threads that keep the order of each *)
Fixpoint merges {A} (a : list A) : list A -> list (list A) :=
  fix go b := match a, b with
  | [], _ => [b]
  | _, [] => [a]
  | x :: a', y :: b' => map (cons x) (merges a' b) ++ map (cons y) (go b')
  end.
(** positions of the element buffer that a thread has still to access in its call *)
Definition p_todo (p : ppc) : list Z := match p with PIdle => [] | PCopy _ todo _ => map fst todo end.
Definition c_todo (p : cpc) : list Z := match p with CIdle => [] | CCopy _ todo _ _ _ => map fst todo end.
(** what one call brought into the queue and what it took out *)
Definition brought (es : Z) (e : entry) : list Z :=
  match e_op e with OIn src _ => take (fst (e_ret e) * es) src | OPut x => if fst (e_ret e) =? 0 then [] else x | _ => [] end.
Definition took (e : entry) : list Z := match e_op e with OOut _ | OGet => snd (e_ret e) | _ => [] end.
(** each call in a thread's history is the one it wanted to make *)
Definition issued (c : client) (h : list (op * result)) : Prop := forall h1 o r h2, h = h1 ++ (o, r) :: h2 -> c h1 = Some o.
