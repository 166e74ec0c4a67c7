(** * Plain accesses between atomic ones, on a machine with store buffers
    The calls are those of AtomicModel.  [ARead] and [AWrite] stand for a plain load and a plain store of a word (asm-generic/atomic.h:15-31 are
    volatile accesses without a barrier, asm-generic/rwonce.h:13-23), also for data that is not atomic.  A store first goes
    into a buffer of its thread, which sees it at once; the other threads see it when it is moved to memory, at any time later.
    [weak = false]: in the order of the stores (x86-TSO); [weak = true]: in any order that keeps the order of the stores to one word.
    The __sync builtins are full barriers: they wait until the buffer of their thread is empty.  Loads happen in program order. *)
From Verif Require Import Lib AtomicModel.

Definition buffer := list (Z * Z).
Definition set_word (m : list Z) (x : Z * Z) : list Z := match wr m (fst x) (snd x) with Some m => m | None => m end.
(** memory as a thread with this buffer sees it *)
Definition view (m : list Z) (buf : buffer) : list Z := fold_left set_word buf m.
(** is the next access of a call one of the __sync builtins?  (asm-generic/atomic.h:33-122, cmpxchg.h:16-54, bitops.h: the first
    reading of test_clr, test_set and xchg is a plain load) *)
Definition builtin (op : aop) (p : pc) : bool :=
  match op, p with
  | ARead _, _ | AWrite _ _, _ | BTest _, _ => false
  | BTestClr _, PFetch | BTestSet _, PFetch | AXchg _ _, PXchg _ => true
  | BTestClr _, _ | BTestSet _, _ | AXchg _ _, _ => false
  | _, _ => true
  end.
(** one access: new memory, new buffer, and where the call is then *)
Definition bstep (m : list Z) (buf : buffer) (op : aop) (p : pc) : option (list Z * buffer * (pc + ret)) :=
  match op with
  | AWrite w v => if (0 <=? w) && (w <? zlen m) then Some (m, buf ++ [(w, v)], inr RVoid) else None
  | _ =>
    if builtin op p then
      match buf with
      | [] => let* (m, r) := astep m op p in Some (m, [], r)
      | _ => Some (m, buf, inl p)       (* waits for the buffer *)
      end
    else let* (_, r) := astep (view m buf) op p in Some (m, buf, r)
  end.
(** the store that reaches memory next: the [k]-th unless an older one is to the same word, else the oldest *)
Definition pick_next (weak : bool) (k : nat) (buf : buffer) : option ((Z * Z) * buffer) :=
  let first := match buf with [] => None | x :: buf => Some (x, buf) end in
  if weak then
    match nth_error buf k with
    | Some x => if existsb (fun y => fst y =? fst x) (firstn k buf) then first else Some (x, firstn k buf ++ skipn (S k) buf)
    | None => first
    end
  else first.
Inductive move := Go (t : nat) | Drain (t k : nat).
Record bsys := { bmem : list Z; bbuf : nat -> buffer; bhist : nat -> list (aop * ret); bpc : nat -> pc; blog : list (nat * aop * ret) }.
Definition bmove (weak : bool) (c : client) (s : bsys) (x : move) : option bsys :=
  match x with
  | Go t =>
    match c t (bhist s t) with
    | None => Some s
    | Some op =>
      let* (m, buf, r) := bstep (bmem s) (bbuf s t) op (bpc s t) in
      match r with
      | inl p => Some {| bmem := m; bbuf := tset (bbuf s) t buf; bhist := bhist s; bpc := tset (bpc s) t p; blog := blog s |}
      | inr v => Some {| bmem := m; bbuf := tset (bbuf s) t buf; bhist := tset (bhist s) t (bhist s t ++ [(op, v)]); bpc := tset (bpc s) t PIdle;
                         blog := blog s ++ [(t, op, v)] |}
      end
    end
  | Drain t k =>
    match pick_next weak k (bbuf s t) with
    | None => Some s
    | Some ((w, v), buf) =>
      let* m := wr (bmem s) w v in
      Some {| bmem := m; bbuf := tset (bbuf s) t buf; bhist := bhist s; bpc := bpc s; blog := blog s |}
    end
  end.
Fixpoint brun (weak : bool) (c : client) (sched : list move) (s : bsys) : option bsys :=
  match sched with
  | [] => Some s
  | x :: sched => let* s := bmove weak c s x in brun weak c sched s
  end.
Definition binit (m : list Z) : bsys := {| bmem := m; bbuf := fun _ => []; bhist := fun _ => []; bpc := fun _ => PIdle; blog := [] |}.
