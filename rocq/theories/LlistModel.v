(** * Model of src/llist.c and include/bfdev/llist.h (lock-free list) under interleaving
    Any number of threads take turns; one [Run] action performs the next memory access of one thread (sequential
    consistency, the accesses being those of the C code: READ_ONCE, plain stores to private nodes,
    __sync_val_compare_and_swap).  The client actions say what a thread does between the calls. *)
From Verif Require Import Lib Ptr SlistModel.

(** Where a thread is. *)
Inductive pc :=
| Idle
| SRead (b : list Z)            (* llist.c:16, about to read head->next; [b] is the batch, [node = hd b], [end = last b] *)
| SWrite (b : list Z) (e : Z)   (* llist.c:18, about to store end->next = entry *)
| SCas (b : list Z) (e : Z)     (* llist.c:19-22, about to compare and swap *)
| XRead                         (* asm-generic/cmpxchg.h:33, in [bfdev_xchg(&head->next, NULL)], llist.h:52-56 *)
| XCas (p : Z)                  (* asm-generic/cmpxchg.h:34-35 *)
| Got (p : Z)                   (* destroy has returned [p]; the client will walk the chain *)
| DRead                         (* llist.c:32 *)
| DNext (e : Z)                 (* llist.c:36, entry is not NULL, about to read entry->next *)
| DCas (e n : Z).               (* llist.c:37-40 *)
(** What the calls did, in the order of the accesses that took effect. *)
Inductive ev :=
| EAdd (t : nat) (b : list Z) (was_empty : bool)   (* split/add returned [was_empty] *)
| ETake (t : nat) (p : Z)                          (* destroy returned [p] *)
| EWalk (t : nat) (l : list Z)                     (* the nodes found by walking from there *)
| EPop (t : nat) (x : Z)                           (* del returned [x] *)
| EPopNone (t : nat).                              (* del returned NULL *)
Record cfg := { cm : mem; cpc : nat -> pc; cown : nat -> list Z; clog : list ev }.
Inductive action :=
| CWrite (t : nat) (x v : Z)      (* the client stores [v] in the link of a node it holds *)
| CAdd (t : nat) (b : list Z)     (* the client calls llist_split with a linked batch of nodes it holds; llist_add (llist.h:42-46) is a batch of one *)
| CDestroy (t : nat)
| CDel (t : nat)
| Run (t : nat) (fuel : nat).     (* [fuel] bounds the client's walk only *)

Definition set {A} (f : nat -> A) (t : nat) (v : A) : nat -> A := fun u => if Nat.eqb u t then v else f u.
Definition with_pc (c : cfg) (t : nat) (p : pc) : cfg := {| cm := cm c; cpc := set (cpc c) t p; cown := cown c; clog := clog c |}.
Definition with_mem (c : cfg) (m : mem) : cfg := {| cm := m; cpc := cpc c; cown := cown c; clog := clog c |}.
Definition with_own (c : cfg) (t : nat) (l : list Z) : cfg := {| cm := cm c; cpc := cpc c; cown := set (cown c) t l; clog := clog c |}.
Definition emit (c : cfg) (e : ev) : cfg := {| cm := cm c; cpc := cpc c; cown := cown c; clog := clog c ++ [e] |}.
Definition mem_z (x : Z) (l : list Z) : bool := existsb (Z.eqb x) l.
Fixpoint distinct (l : list Z) : bool := match l with [] => true | x :: r => negb (mem_z x r) && distinct r end.
(** the batch is linked from its first to its last node *)
Fixpoint chained (m : mem) (l : list Z) : bool :=
  match l with
  | x :: ((y :: _) as r) => match m x LINK with Some v => (v =? y) && chained m r | None => false end
  | _ => true
  end.
Definition minus (l b : list Z) : list Z := filter (fun x => negb (mem_z x b)) l.

(** llist.c:33-36, the test and the read at the top of the loop of [bfdev_llist_del], after [entry] was read *)
Definition del_entry (c : cfg) (t : nat) (e : Z) : cfg :=
  if e =? NULL then emit (with_pc c t Idle) (EPopNone t) else with_pc c t (DNext e).
(** The next access of thread [t]; [None] is a fault. Client actions that break the rules do nothing. *)
Definition step (h : Z) (c : cfg) (a : action) : option cfg :=
  match a with
  | CWrite t x v =>
    match cpc c t with
    | Idle => if mem_z x (cown c t) then let* m := st (cm c) x LINK v in Some (with_mem c m) else Some c
    | _ => Some c
    end
  | CAdd t b =>
    match cpc c t, b with
    | Idle, _ :: _ =>
      if forallb (fun x => mem_z x (cown c t)) b && distinct b && chained (cm c) b
      then Some (with_own (with_pc c t (SRead b)) t (minus (cown c t) b)) else Some c
    | _, _ => Some c
    end
  | CDestroy t => match cpc c t with Idle => Some (with_pc c t XRead) | _ => Some c end
  | CDel t => match cpc c t with Idle => Some (with_pc c t DRead) | _ => Some c end
  | Run t fuel =>
    match cpc c t with
    | Idle => Some c
    (* llist.c:10-25 [bfdev_llist_split] *)
    | SRead b => let* e := ld (cm c) h LINK in Some (with_pc c t (SWrite b e))
    | SWrite b e => let* m := st (cm c) (last b NULL) LINK e in Some (with_pc (with_mem c m) t (SCas b e))
    | SCas b e =>
      let* v := ld (cm c) h LINK in
      if v =? e then let* m := st (cm c) h LINK (hd NULL b) in Some (emit (with_pc (with_mem c m) t Idle) (EAdd t b (e =? NULL)))
      else Some (with_pc c t (SWrite b v))
    (* llist.h:52-56 [bfdev_llist_destroy], asm-generic/cmpxchg.h:25-38 *)
    | XRead => let* p := ld (cm c) h LINK in Some (with_pc c t (XCas p))
    | XCas p =>
      let* v := ld (cm c) h LINK in
      if v =? p then let* m := st (cm c) h LINK NULL in Some (emit (with_pc (with_mem c m) t (Got p)) (ETake t p))
      else Some (with_pc c t XRead)
    | Got p =>
      match each_from fuel (cm c) p with
      | Some l => Some (emit (with_own (with_pc c t Idle) t (cown c t ++ l)) (EWalk t l))
      | None => Some c
      end
    (* llist.c:27-43 [bfdev_llist_del] *)
    | DRead => let* e := ld (cm c) h LINK in Some (del_entry c t e)
    | DNext e => let* n := ld (cm c) e LINK in Some (with_pc c t (DCas e n))
    | DCas e n =>
      let* v := ld (cm c) h LINK in
      if v =? e then let* m := st (cm c) h LINK n in Some (emit (with_own (with_pc (with_mem c m) t Idle) t (cown c t ++ [e])) (EPop t e))
      else Some (del_entry c t v)
    end
  end.
Fixpoint run (h : Z) (c : cfg) (s : list action) : option cfg :=
  match s with [] => Some c | a :: r => let* c := step h c a in run h c r end.
