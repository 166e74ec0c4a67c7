(** * Model of include/bfdev/asm-generic/atomic.h, cmpxchg.h and the atomic bit operations of bitops.h under interleaving
    Memory is a list of machine words; bfdev_atomic_t is intptr_t (types.h:52), kept as its value modulo 2^64.
    One step performs one atomic access of one thread: the __sync builtins are taken to be atomic and memory to be
    sequentially consistent.  The public names of atomic.h, cmpxchg.h:15-40 and bitops.h:120-190 only forward. *)
From Verif Require Import Lib.

Inductive kind := KAdd | KSub | KAnd | KOr | KXor.
(** which value an operation reports: none, the one before, the one after *)
Inductive mode := MVoid | MOld | MNew.
Inductive aop :=
| ARead (w : Z)                            (* bfdev_atomic_read, asm-generic/atomic.h:15-22 *)
| AWrite (w v : Z)                         (* bfdev_atomic_write, asm-generic/atomic.h:24-31 *)
| ARmw (k : kind) (md : mode) (w v : Z)    (* bfdev_atomic_add .. xor, fetch_add .., add_fetch .., asm-generic/atomic.h:33-122 *)
| ACas (w old v : Z)                       (* bfdev_cmpxchg, asm-generic/cmpxchg.h:16-23 *)
| ATry (w old v : Z)                       (* bfdev_try_cmpxchg, asm-generic/cmpxchg.h:41-54 *)
| AXchg (w v : Z)                          (* bfdev_xchg, asm-generic/cmpxchg.h:25-38 *)
| BClr (b : Z) | BSet (b : Z) | BFlip (b : Z) | BChange (b : Z) (val : bool)       (* bfdev_bit_atomic_clr .. change *)
| BTest (b : Z)
| BTestClr (b : Z) | BTestSet (b : Z) | BTestFlip (b : Z) | BTestChange (b : Z) (val : bool).
Inductive ret := RVoid | RVal (v : Z) | RBool (b : bool) | RTry (b : bool) (old : Z).
(** where a thread is inside a call *)
Inductive pc :=
| PIdle               (* about to begin *)
| PFetch              (* in test_clr / test_set, past the first reading *)
| PXchg (prev : Z).   (* in xchg, [prev] has been read *)

(** bits.h:18 BFDEV_BITS_WORD *)
Definition wordof (b : Z) : Z := b / 64.
(** bits.h:61-63 BFDEV_BIT *)
Definition BITM (b : Z) : Z := Z.shiftl 1 (b mod 64).
(** C's ~ on unsigned long *)
Definition not64 (x : Z) : Z := w64 (Z.lnot x).
(** the __sync builtins *)
Definition rmw (k : kind) (x v : Z) : Z :=
  match k with
  | KAdd => w64 (x + v) | KSub => w64 (x - v)
  | KAnd => Z.land x v | KOr => Z.lor x v | KXor => Z.lxor x v
  end.
Definition report (md : mode) (x y : Z) : ret := match md with MVoid => RVoid | MOld => RVal x | MNew => RVal y end.
(** !!(x & BFDEV_BIT(bit)) *)
Definition hasbit (x b : Z) : bool := negb (Z.land x (BITM b) =? 0).
Definition fetch (m : list Z) (k : kind) (w v : Z) (r : Z -> Z -> ret) : option (list Z * (pc + ret)) :=
  let* x := rd m w in let* m := wr m w (rmw k x v) in Some (m, inr (r x (rmw k x v))).
(** __sync_val_compare_and_swap *)
Definition cas (m : list Z) (w old v : Z) : option (list Z * Z) :=
  let* x := rd m w in
  if x =? old then let* m := wr m w v in Some (m, x) else Some (m, x).
(** one atomic access of a call *)
Definition astep (m : list Z) (op : aop) (p : pc) : option (list Z * (pc + ret)) :=
  match op with
  | ARead w => let* x := rd m w in Some (m, inr (RVal x))
  | AWrite w v => let* m := wr m w v in Some (m, inr RVoid)
  | ARmw k md w v => fetch m k w v (report md)
  | ACas w old v => let* (m, x) := cas m w old v in Some (m, inr (RVal x))
  | ATry w old v => let* (m, x) := cas m w old v in Some (m, inr (RTry (x =? old) (if x =? old then old else x)))
  | AXchg w v =>
    match p with
    | PXchg prev => let* (m, x) := cas m w prev v in if x =? prev then Some (m, inr (RVal x)) else Some (m, inl PIdle)
    | _ => let* x := rd m w in Some (m, inl (PXchg x))
    end
  (* asm-generic/bitops.h:136-180 *)
  | BClr b => fetch m KAnd (wordof b) (not64 (BITM b)) (fun _ _ => RVoid)
  | BSet b => fetch m KOr (wordof b) (BITM b) (fun _ _ => RVoid)
  | BFlip b => fetch m KXor (wordof b) (BITM b) (fun _ _ => RVoid)
  | BChange b val => if val then fetch m KOr (wordof b) (BITM b) (fun _ _ => RVoid) else fetch m KAnd (wordof b) (not64 (BITM b)) (fun _ _ => RVoid)
  | BTest b => let* x := rd m (wordof b) in Some (m, inr (RBool (hasbit x b)))
  (* asm-generic/bitops.h: bfdev_arch_bit_atomic_test_clr .. test_change *)
  | BTestClr b =>
    match p with
    | PFetch => fetch m KAnd (wordof b) (not64 (BITM b)) (fun old _ => RBool (hasbit old b))
    | _ => let* x := rd m (wordof b) in if Z.land x (BITM b) =? 0 then Some (m, inr (RBool false)) else Some (m, inl PFetch)
    end
  | BTestSet b =>
    match p with
    | PFetch => fetch m KOr (wordof b) (BITM b) (fun old _ => RBool (hasbit old b))
    | _ => let* x := rd m (wordof b) in if negb (Z.land x (BITM b) =? 0) then Some (m, inr (RBool true)) else Some (m, inl PFetch)
    end
  | BTestFlip b => fetch m KXor (wordof b) (BITM b) (fun old _ => RBool (hasbit old b))
  | BTestChange b val =>
    if val then fetch m KOr (wordof b) (BITM b) (fun old _ => RBool (hasbit old b))
    else fetch m KAnd (wordof b) (not64 (BITM b)) (fun old _ => RBool (hasbit old b))
  end.
(** ** Threads: each decides on its next call from the calls it has made and what they reported *)
Definition client := nat -> list (aop * ret) -> option aop.
Record sys := { smem : list Z; shist : nat -> list (aop * ret); spc : nat -> pc; slog : list (nat * aop * ret) }.
Definition tset {A} (f : nat -> A) (t : nat) (v : A) : nat -> A := fun u => if Nat.eqb u t then v else f u.
Definition sstep (c : client) (s : sys) (t : nat) : option sys :=
  match c t (shist s t) with
  | None => Some s
  | Some op =>
    let* (m, r) := astep (smem s) op (spc s t) in
    match r with
    | inl p => Some {| smem := m; shist := shist s; spc := tset (spc s) t p; slog := slog s |}
    | inr v => Some {| smem := m; shist := tset (shist s) t (shist s t ++ [(op, v)]); spc := tset (spc s) t PIdle; slog := slog s ++ [(t, op, v)] |}
    end
  end.
Fixpoint srun (c : client) (sched : list nat) (s : sys) : option sys :=
  match sched with
  | [] => Some s
  | t :: sched => let* s := sstep c s t in srun c sched s
  end.
Definition sinit (m : list Z) : sys := {| smem := m; shist := fun _ => []; spc := fun _ => PIdle; slog := [] |}.
