(** * Notification chains: what a client sees *)
From Verif Require Import Lib SortSpec ListSortSpec Ptr ListModel IlistModel NotifierModel.
Section Spec.
Variable prio : Z -> Z.
Variable orc : list Z -> Z -> Z.
(** The chain that the registered nodes [s] (the newest first) form: ascending priorities, equal ones the newest first.
    [chain_is s l] defines it, [chain s] computes it. *)
Definition by_prio (a b : Z) : Z := prio a - prio b.
Definition chain_is (s l : list Z) : Prop := stable_sort by_prio s l.
Fixpoint place (n : Z) (l : list Z) : list Z := match l with [] => [n] | x :: r => if prio n <=? prio x then n :: l else x :: place n r end.
Definition chain (s : list Z) : list Z := fold_right place [] s.
(** Calling the chain [l], at most [num] nodes, with [past] calls before: the nodes [v] called. Each is called with what
    was called before it; a node that asks to stop is the last. *)
Fixpoint go_on (past v : list Z) : Prop := match v with [] => True | x :: v => Z.testbit (orc past x) 1 = false /\ go_on (past ++ [x]) v end.
Fixpoint answers (past v : list Z) : list Z := match v with [] => [] | x :: v => orc past x :: answers (past ++ [x]) v end.
Definition called (past : list Z) (num : Z) (l v : list Z) : Prop :=
  exists rest, l = v ++ rest /\ zlen v <= num /\ go_on past (removelast v) /\
    (rest = [] \/ zlen v = num \/ exists v' x, v = v' ++ [x] /\ Z.testbit (orc (past ++ v') x) 1 = true).
(** The nodes called, computed (they satisfy [called], and [called] has no other solution). *)
Fixpoint visit (past : list Z) (num : Z) (l : list Z) : list Z :=
  match l with [] => [] | x :: r => if num =? 0 then [] else if Z.testbit (orc past x) 1 then [x] else x :: visit (past ++ [x]) (num - 1) r end.
(** Those that ask to be removed. *)
Fixpoint removed (past v : list Z) : list Z := match v with [] => [] | x :: v => (if Z.testbit (orc past x) 0 then [x] else []) ++ removed (past ++ [x]) v end.
Definition remaining (past v s : list Z) : list Z := filter (fun x => negb (existsb (Z.eqb x) (removed past v))) s.
(** The reply: the last answer without the remove bit, 0 if there was no call. *)
Definition reply (past v : list Z) : Z := Z.ldiff (last (answers past v) 0) 1.
(** The state they know: the registered nodes, all nodes ever registered, and the calls so far; the results they see. *)
Record world := { regs : list Z; seen : list Z; calls : list Z }.
Variable entry : Z -> bool.
Definition abs_step (w : world) (o : nop) : world * list Z :=
  match o with
  | NRegister n => if entry n then ({| regs := n :: regs w; seen := n :: seen w; calls := calls w |}, [0]) else (w, [-22])
  | NUnregister n => ({| regs := filter (fun x => negb (x =? n)) (regs w); seen := seen w; calls := calls w |}, [])
  | NCall num =>
    let v := visit (calls w) num (chain (regs w)) in
    ({| regs := remaining (calls w) v (regs w); seen := seen w; calls := calls w ++ v |}, [reply (calls w) v; zlen v])
  end.
Definition allowed (U : list Z) (w : world) (o : nop) : Prop :=
  match o with
  | NRegister n => entry n = true -> In n U /\ ~ In n (regs w)
  | NUnregister n => In n (seen w)
  | NCall num => 0 <= num < 2 ^ 32
  end.
Fixpoint abs_run (w : world) (ops : list nop) : world * list (list Z) :=
  match ops with [] => (w, []) | o :: ops => let (w1, out) := abs_step w o in let (w2, outs) := abs_run w1 ops in (w2, out :: outs) end.
Fixpoint allowed_all (U : list Z) (w : world) (ops : list nop) : Prop :=
  match ops with [] => True | o :: ops => allowed U w o /\ allowed_all U (fst (abs_step w o)) ops end.
Definition nobody : world := {| regs := []; seen := []; calls := [] |}.
End Spec.
(** The head and the node structures before anything is done: the memory is there, with any contents. *)
Definition has_fields (m : mem) (p : Z) : Prop := (exists x, m p NEXT = Some x) /\ exists x, m p PREV = Some x.
Definition raw (m : mem) (h : Z) (U : list Z) : Prop := has_fields m h /\ forall n, In n U -> has_fields m n /\ has_fields m (IDX n).
