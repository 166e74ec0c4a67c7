(** * Model of include/bfdev/refcount.h under interleaving
    The counter is one machine word (bfdev_atomic_t is intptr_t, types.h:52), kept as its value modulo 2^64; the
    code only adds, subtracts and compares for equality.  One action performs one atomic access of one thread.
    The reports under BFDEV_DEBUG_REFCNT (refcount.h:72-79, 95-102, 121-126; src/refcount.c) only print; they are in RefDbgModel.v. *)
From Verif Require Import Lib.

(** Where a thread is in [bfdev_refcnt_fetch_addnz_test] (refcount.h:107-129). *)
Inductive rpc :=
| RIdle
| NCas (nr prev : Z).      (* refcount.h:116, about to compare and swap; [prev] is not 0 (refcount.h:114) *)
(** What the calls reported: the old value stored through oldp, and the result. *)
Inductive rev :=
| RGet (t : nat) (n old : Z)
| RPut (t : nat) (n old : Z) (zero : bool)
| RAddnz (t : nat) (n old : Z) (zero : bool).
Inductive ract :=
| AGet (t : nat) (n : Z)       (* bfdev_refcnt_fetch_add; refcnt_add and refcnt_inc (n = 1) are wrappers, refcount.h:131-148, 177-180 *)
| APut (t : nat) (n : Z)       (* bfdev_refcnt_fetch_sub_test; refcnt_sub, refcnt_dec_test, ... are wrappers, refcount.h:150-189 *)
| AGive (t u : nat) (n : Z)    (* the client hands references from one thread to another; no call *)
| AAddnz (t : nat) (n : Z)     (* starts bfdev_refcnt_fetch_addnz_test: the read of line 111 and the test of line 114 *)
| AStep (t : nat).             (* the next access of a call under way *)
Record rcfg := { rc : Z; rpcs : nat -> rpc; rlog : list rev }.
Definition rset {A} (f : nat -> A) (t : nat) (v : A) : nat -> A := fun u => if Nat.eqb u t then v else f u.
(** asm-generic/cmpxchg.h:41-54 [bfdev_arch_try_cmpxchg]: new counter, new *old, result *)
Definition try_cmpxchg (c old value : Z) : Z * Z * bool :=
  let prev := old in
  let result := c in
  let c' := if c =? prev then value else c in
  (c', (if result =? prev then old else result), result =? prev).
(** refcount.h:113-128, the head of the loop with [prev] just set, or the end of the loop *)
Definition addnz_loop (c : rcfg) (t : nat) (n prev : Z) (again : bool) : rcfg :=
  if again && negb (prev =? 0)
  then {| rc := rc c; rpcs := rset (rpcs c) t (NCas n prev); rlog := rlog c |}
  else {| rc := rc c; rpcs := rset (rpcs c) t RIdle; rlog := rlog c ++ [RAddnz t n prev (prev =? 0)] |}.
Definition rstep (c : rcfg) (a : ract) : rcfg :=
  match a with
  (* refcount.h:62-80; asm-generic/atomic.h:72-75 *)
  | AGet t n => {| rc := w64 (rc c + n); rpcs := rpcs c; rlog := rlog c ++ [RGet t n (rc c)] |}
  (* refcount.h:82-105; asm-generic/atomic.h:77-80 *)
  | APut t n => {| rc := w64 (rc c - n); rpcs := rpcs c; rlog := rlog c ++ [RPut t n (rc c) (rc c =? n)] |}
  | AGive _ _ _ => c
  | AAddnz t n => match rpcs c t with RIdle => addnz_loop c t n (rc c) true | _ => c end
  | AStep t =>
    match rpcs c t with
    | RIdle => c
    | NCas n prev =>
      let '(v, prev', ok) := try_cmpxchg (rc c) prev (w64 (prev + n)) in
      addnz_loop {| rc := v; rpcs := rpcs c; rlog := rlog c |} t n prev' ok
    end
  end.
Definition rrun (c : rcfg) (s : list ract) : rcfg := fold_left rstep s c.
(** refcount.h:35-40 BFDEV_REFCNT_INIT *)
Definition rinit : rcfg := {| rc := 1; rpcs := fun _ => RIdle; rlog := [] |}.
