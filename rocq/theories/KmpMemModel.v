(** * Model of a text search context in memory: src/textsearch/{textsearch,linear,kmp}.c, include/bfdev/textsearch.h
    The context is one block of bytes from the client's allocator; pointers are addresses, numbers little endian, as on
    x86-64. An access outside of the block is [Fault]; a loop that has run out of fuel is [Stuck]. The registry is in
    RegistryModel: here the algorithm found is "kmp". *)
From Verif Require Import Lib TextModel.

Inductive res (A : Type) : Type := Ok (a : A) | Fault | Stuck.
Arguments Ok {A} _. Arguments Fault {A}. Arguments Stuck {A}.
Definition bind {A B} (r : res A) (f : A -> res B) : res B := match r with Ok a => f a | Fault => Fault | Stuck => Stuck end.
Notation "'do' x <- e ; f" := (bind e (fun x => f)) (at level 200, x name, e at level 100, f at level 200).

Definition bmem := Z -> option Z.
Definition updb (m : bmem) (a v : Z) : bmem := fun x => if x =? a then Some v else m x.
(** loads and stores of [n] bytes *)
Fixpoint ldn (n : nat) (m : bmem) (a : Z) : res Z :=
  match n with
  | O => Ok 0
  | S n => match m a with None => Fault | Some b => do r <- ldn n m (a + 1); Ok (b + 256 * r) end
  end.
Fixpoint stn (n : nat) (m : bmem) (a v : Z) : res bmem :=
  match n with
  | O => Ok m
  | S n => match m a with None => Fault | Some _ => stn n (updb m a (v mod 256)) (a + 1) (v / 256) end
  end.
(** textsearch.h:62-81 struct bfdev_ts_context and kmp.c:9-14 struct kmp_context *)
Definition K_ALLOC : Z := 0.
Definition K_ALGO : Z := 8.
Definition K_FLAGS : Z := 16.
Definition K_NEXT : Z := 24.
Definition K_PATTERN : Z := 32.
Definition K_LEN : Z := 40.
Definition K_TABLE : Z := 44.
Definition K_SIZE : Z := 48.
(** kctx->pattern[i], a char *)
Definition pat_rd (m : bmem) (ctx i : Z) : res Z :=
  do p <- ldn 8 m (ctx + K_PATTERN); do b <- ldn 1 m (p + i); Ok (schar b).
(** kctx->prefix_table[i] *)
Definition tab_rd (m : bmem) (ctx i : Z) : res Z := ldn 4 m (ctx + K_TABLE + 4 * i).
Definition tab_wr (m : bmem) (ctx i v : Z) : res bmem := stn 4 m (ctx + K_TABLE + 4 * i) v.

Section Kmp.
(** the C library's toupper *)
Variable up : Z -> Z.
(** kmp.c:83-84 and 59-60: the inner loop *)
Fixpoint kmp_back_m (fuel : nat) (m : bmem) (ctx c match_ : Z) : res Z :=
  if match_ =? 0 then Ok 0 else
  do p <- pat_rd m ctx match_;
  if p =? c then Ok match_ else
  match fuel with O => Stuck | S fuel => do x <- tab_rd m ctx (w32 (match_ - 1)); kmp_back_m fuel m ctx c x end.
(** kmp.c:83-87 and 59-63 *)
Definition kmp_step_m (fuel : nat) (m : bmem) (ctx c match_ : Z) : res Z :=
  do match_ <- kmp_back_m fuel m ctx c match_;
  do p <- pat_rd m ctx match_;
  Ok (if p =? c then w32 (match_ + 1) else match_).
(** kmp.c:82-90: the loop of [kmp_compute_prefix]; the pattern's character is read again in every comparison, here once
    (the loop does not write in between) *)
Fixpoint kmp_prefix_m (fuel bf : nat) (m : bmem) (ctx index match_ : Z) : res bmem :=
  do len <- ldn 4 m (ctx + K_LEN);
  if index <? len then
    match fuel with
    | O => Stuck
    | S fuel =>
      do c <- pat_rd m ctx index;
      do match_ <- kmp_step_m bf m ctx c match_;
      do m <- tab_wr m ctx index match_;
      kmp_prefix_m fuel bf m ctx (w32 (index + 1)) match_
    end
  else Ok m.
(** kmp.c:109-112: memcpy or the loop with toupper; the client's pattern is a list of chars *)
Fixpoint copy_in (m : bmem) (p : Z) (icase : bool) (pattern : list Z) : res bmem :=
  match pattern with
  | [] => Ok m
  | c :: pattern => do m <- stn 1 m p (if icase then up c else c); copy_in m (p + 1) icase pattern
  end.
(** kmp.c:93-116 [kmp_prepare]: [got] is what the allocator returns for the size that is asked for, filled with zeros *)
Definition kmp_size (len : Z) : Z := w64 (K_SIZE + w32 (4 * len) + len).
Definition zeroed (base size : Z) : bmem := fun a => if (base <=? a) && (a <? base + size) then Some 0 else None.
Definition kmp_prepare_m (fuel : nat) (got : Z) (pattern : list Z) (flags : Z) : res (option bmem) :=
  let len := zlen pattern in
  let prefix_size := w32 (4 * len) in
  if got =? 0 then Ok None else
  let m := zeroed got (kmp_size len) in
  do m <- stn 8 m (got + K_FLAGS) flags;
  do m <- stn 4 m (got + K_LEN) (w32 len);
  do m <- stn 8 m (got + K_PATTERN) (got + K_SIZE + prefix_size);
  do p <- ldn 8 m (got + K_PATTERN);
  do m <- copy_in m p (Z.testbit flags 0) pattern;
  do m <- kmp_prefix_m fuel fuel m got 1 0;
  Ok (Some m).
(** textsearch.c:39-56 [bfdev_textsearch_create] after the algorithm has been found *)
Definition ts_create (fuel : nat) (alloc algo got : Z) (pattern : list Z) (flags : Z) : res (option bmem) :=
  do r <- kmp_prepare_m fuel got pattern flags;
  match r with
  | None => Ok None
  | Some m => do m <- stn 8 m (got + K_ALGO) algo; do m <- stn 8 m (got + K_ALLOC) alloc; Ok (Some m)
  end.
(** kmp.c:58-69: the bytes of one block from [index] on *)
Fixpoint kmp_block_m (bf : nat) (m : bmem) (ctx : Z) (icase : bool) (block : list Z) (consumed index match_ : Z) : res (Z + Z) :=
  match block with
  | [] => Ok (inl match_)
  | t :: block =>
    do match_ <- kmp_step_m bf m ctx (if icase then up t else t) match_;
    do len <- ldn 4 m (ctx + K_LEN);
    if match_ =? len then Ok (inr (w32 (consumed + index + 1))) else kmp_block_m bf m ctx icase block consumed (index + 1) match_
  end.
(** kmp.c:53-72 *)
Fixpoint kmp_loop_m (fuel bf : nat) (m : bmem) (ctx : Z) (icase : bool) (next : Z -> list Z) (offset consumed match_ : Z) : res (Z * Z) :=
  match fuel with
  | O => Stuck
  | S fuel =>
    let block := next consumed in
    if zlen block =? 0 then Ok (offset, UINT_MAX) else
    do r <- kmp_block_m bf m ctx icase block consumed 0 match_;
    match r with
    | inr off => do len <- ldn 4 m (ctx + K_LEN); Ok (off, w32 (off - len))
    | inl match_ => kmp_loop_m fuel bf m ctx icase next offset (w32 (consumed + zlen block)) match_
    end
  end.
(** kmp.c:39-75 [kmp_find] with tss->offset = [offset]; the new offset and the result *)
Definition kmp_find_m (fuel bf : nat) (m : bmem) (ctx : Z) (next : Z -> list Z) (offset : Z) : res (Z * Z) :=
  do flags <- ldn 8 m (ctx + K_FLAGS);
  kmp_loop_m fuel bf m ctx (Z.testbit flags 0) next offset offset 0.
(** linear.c:25-40 [bfdev_textsearch_linear]: [f] is the address of linear_next *)
Definition ts_linear (fuel bf : nat) (m : bmem) (ctx f : Z) (data : list Z) : res (bmem * (Z * Z)) :=
  do algo <- ldn 8 m (ctx + K_ALGO);
  do m <- stn 8 m (ctx + K_NEXT) f;
  do r <- kmp_find_m fuel bf m ctx (linear_next data) 0;
  Ok (m, r).
(** textsearch.h:182-190 [textsearch_pattern_get], kmp.c:19-27 *)
Definition ts_pattern_get (m : bmem) (ctx : Z) : res Z := do algo <- ldn 8 m (ctx + K_ALGO); ldn 8 m (ctx + K_PATTERN).
(** textsearch.h:196-204 [bfdev_textsearch_pattern_len], kmp.c:29-37 *)
Definition ts_pattern_len (m : bmem) (ctx : Z) : res Z := do algo <- ldn 8 m (ctx + K_ALGO); ldn 4 m (ctx + K_LEN).
(** textsearch.h:213-221 [bfdev_textsearch_destroy], kmp.c:118-125: the allocator and the address given to bfdev_free *)
Definition ts_destroy (m : bmem) (ctx : Z) : res (Z * Z) := do algo <- ldn 8 m (ctx + K_ALGO); do alloc <- ldn 8 m (ctx + K_ALLOC); Ok (alloc, ctx).
End Kmp.
