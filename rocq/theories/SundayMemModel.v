(** * Model of a Sunday search context in memory: src/textsearch/{textsearch,linear,sunday}.c
    As KmpMemModel.v (bytes, faults, zeroed blocks): the context is one block from the client's allocator, and an access
    outside of it is [Fault]. Accesses beyond an array but inside the block reach what lies there, as compiled code does. Characters are 0..255 (the code gives
    toupper the sign extended character of the pattern, and stores one byte of the answer). *)
From Verif Require Import Lib TextModel KmpMemModel.

(** sunday.c:9-14 struct sunday_context; the first 32 bytes are struct bfdev_ts_context (KmpMemModel.v) *)
Definition S_LEN : Z := 32.
Definition S_TABLE : Z := 36.
Definition S_PATTERN : Z := 1056.
Definition S_SIZE : Z := 1056.
(** sctx->pattern[i], a uint8_t *)
Definition spat_rd (m : bmem) (ctx i : Z) : res Z := ldn 1 m (ctx + S_PATTERN + i).
(** sctx->shift_table[i] = v, sctx->shift_table[i] *)
Definition stab_wr (m : bmem) (ctx i v : Z) : res bmem := stn 4 m (ctx + S_TABLE + 4 * i) v.
Definition stab_rd (m : bmem) (ctx i : Z) : res Z := ldn 4 m (ctx + S_TABLE + 4 * i).

Section Sunday.
(** the C library's toupper and tolower *)
Variables up low : Z -> Z.
(** sunday.c:84-85: the first loop of [sunday_compute_prefix]; [n] entries are left *)
Fixpoint sunday_fill_m (n : nat) (m : bmem) (ctx index : Z) : res bmem :=
  match n with
  | O => Ok m
  | S n =>
    do len <- ldn 4 m (ctx + S_LEN);
    do m <- stab_wr m ctx index (w32 (len + 1));
    sunday_fill_m n m ctx (index + 1)
  end.
(** sunday.c:87-93: the second loop; length, flags and pattern are read where the code reads them *)
Fixpoint sunday_prefix_m (fuel : nat) (m : bmem) (ctx index : Z) : res bmem :=
  do len <- ldn 4 m (ctx + S_LEN);
  if index <? len then
    match fuel with
    | O => Stuck
    | S fuel =>
      do p <- spat_rd m ctx index;
      do m <- stab_wr m ctx p (w32 (len - index));
      do flags <- ldn 8 m (ctx + K_FLAGS);
      do m <- (if Z.testbit flags 0 then do p <- spat_rd m ctx index; stab_wr m ctx (low p) (w32 (len - index)) else Ok m);
      sunday_prefix_m fuel m ctx (w32 (index + 1))
    end
  else Ok m.
(** sunday.c:96-117 [sunday_prepare]: [got] is what the allocator returns for the size that is asked for *)
Definition sunday_size (len : Z) : Z := w64 (S_SIZE + len).
Definition sunday_prepare_m (fuel : nat) (got : Z) (pattern : list Z) (flags : Z) : res (option bmem) :=
  let len := zlen pattern in
  if got =? 0 then Ok None else
  let m := zeroed got (sunday_size len) in
  do m <- stn 8 m (got + K_FLAGS) flags;
  do m <- stn 4 m (got + S_LEN) (w32 len);
  do m <- copy_in up m (got + S_PATTERN) (Z.testbit flags 0) pattern;
  do m <- sunday_fill_m 255 m got 0;
  do m <- sunday_prefix_m fuel m got 0;
  Ok (Some m).
(** sunday.c:59-62: the comparison of the pattern with the text at [shift]; the number of equal bytes. A read beyond
    [text] is a fault *)
Fixpoint sunday_cmp_m (fuel : nat) (m : bmem) (ctx : Z) (icase : bool) (text : list Z) (shift index : Z) : res Z :=
  do len <- ldn 4 m (ctx + S_LEN);
  if index <? len then
    match fuel with
    | O => Stuck
    | S fuel =>
      do p <- spat_rd m ctx index;
      match rd text (shift + index) with
      | None => Fault
      | Some t => if p =? (if icase then up t else t) then sunday_cmp_m fuel m ctx icase text shift (w32 (index + 1)) else Ok index
      end
    end
  else Ok index.
(** sunday.c:58-71: the shifts in one block of [length] bytes; inl: the shift at its end, inr: a match *)
Fixpoint sunday_scan_m (fuel cf : nat) (m : bmem) (ctx : Z) (icase : bool) (text : list Z) (length shift : Z) : res (Z + Z) :=
  do len <- ldn 4 m (ctx + S_LEN);
  if w32 (len + shift) <=? length then
    match fuel with
    | O => Stuck
    | S fuel =>
      do index <- sunday_cmp_m cf m ctx icase text shift 0;
      if index =? len then Ok (inr shift) else
      if length <=? len then Ok (inl shift) else
      match rd text (shift + len) with
      | None => Fault
      | Some t => do d <- stab_rd m ctx t; sunday_scan_m fuel cf m ctx icase text length (w32 (shift + d))
      end
    end
  else Ok (inl shift).
(** sunday.c:39-77 [sunday_find] from offset 0 on linear data (linear.c:10-23): [length] bytes, and what follows them in
    memory; the block after the first is empty *)
Definition sunday_find_m (fuel cf : nat) (m : bmem) (ctx : Z) (text : list Z) (length : Z) : res Z :=
  do flags <- ldn 8 m (ctx + K_FLAGS);
  if length =? 0 then Ok UINT_MAX else
  do r <- sunday_scan_m fuel cf m ctx (Z.testbit flags 0) text length 0;
  match r with inr shift => Ok (w32 shift) | inl _ => Ok UINT_MAX end.
(** textsearch.c:39-56 [bfdev_textsearch_create] after the algorithm "sunday" has been found *)
Definition sunday_create (fuel : nat) (alloc algo got : Z) (pattern : list Z) (flags : Z) : res (option bmem) :=
  do r <- sunday_prepare_m fuel got pattern flags;
  match r with
  | None => Ok None
  | Some m => do m <- stn 8 m (got + K_ALGO) algo; do m <- stn 8 m (got + K_ALLOC) alloc; Ok (Some m)
  end.
(** linear.c:25-40 [bfdev_textsearch_linear]: [f] is the address of linear_next *)
Definition sunday_linear (fuel cf : nat) (m : bmem) (ctx f : Z) (text : list Z) (length : Z) : res (bmem * Z) :=
  do algo <- ldn 8 m (ctx + K_ALGO);
  do m <- stn 8 m (ctx + K_NEXT) f;
  do r <- sunday_find_m fuel cf m ctx text length;
  Ok (m, r).
(** textsearch.h:182-190 [textsearch_pattern_get], sunday.c:19-27 *)
Definition sunday_get (m : bmem) (ctx : Z) : res Z := do algo <- ldn 8 m (ctx + K_ALGO); Ok (ctx + S_PATTERN).
(** textsearch.h:196-204 [bfdev_textsearch_pattern_len], sunday.c:29-37 *)
Definition sunday_get_len (m : bmem) (ctx : Z) : res Z := do algo <- ldn 8 m (ctx + K_ALGO); ldn 4 m (ctx + S_LEN).
(** textsearch.h:213-221 [bfdev_textsearch_destroy], sunday.c:119-126: the allocator and the address given to bfdev_free *)
Definition sunday_destroy (m : bmem) (ctx : Z) : res (Z * Z) := do algo <- ldn 8 m (ctx + K_ALGO); do alloc <- ldn 8 m (ctx + K_ALLOC); Ok (alloc, ctx).
End Sunday.
