(** * Model of a Boyer-Moore search context in memory: src/textsearch/{textsearch,linear,bm}.c
    As KmpMemModel.v (bytes, faults, zeroed blocks): the context is one block from the client's allocator, and an access
    outside of it is [Fault]. Accesses beyond an array but inside the block reach what lies there, as compiled code does: entry 255 of
    bad_shift is entry 0 of good_shift. Characters are 0..255 (the code gives toupper the sign extended character of the pattern, and
    stores one byte of the answer). *)
From Verif Require Import Lib TextModel KmpMemModel.

(** bm.c:9-15 struct bm_context; the first 32 bytes are struct bfdev_ts_context (KmpMemModel.v) *)
Definition B_PATTERN : Z := 32.
Definition B_LEN : Z := 40.
Definition B_BAD : Z := 44.
Definition B_GOOD : Z := 1064.
Definition B_SIZE : Z := 1064.
(** bctx->pattern[i], a uint8_t *)
Definition bpat_rd (m : bmem) (ctx i : Z) : res Z := do p <- ldn 8 m (ctx + B_PATTERN); ldn 1 m (p + i).
(** bctx->bad_shift[i] and bctx->good_shift[i] *)
Definition bad_rd (m : bmem) (ctx i : Z) : res Z := ldn 4 m (ctx + B_BAD + 4 * i).
Definition bad_wr (m : bmem) (ctx i v : Z) : res bmem := stn 4 m (ctx + B_BAD + 4 * i) v.
Definition good_rd (m : bmem) (ctx i : Z) : res Z := ldn 4 m (ctx + B_GOOD + 4 * i).
Definition good_wr (m : bmem) (ctx i v : Z) : res bmem := stn 4 m (ctx + B_GOOD + 4 * i) v.
(** bm.c:80-96 [subpattern] with the variables of its loop; [pat] is the address of the pattern *)
Fixpoint sub_m (fuel : nat) (m : bmem) (pat index j g x y : Z) : res bool :=
  match fuel with
  | O => Stuck
  | S fuel =>
    if y =? 0 then Ok false else
    do a <- ldn 1 m (pat + x);
    do b <- ldn 1 m (pat + y);
    if a =? b then
      if y - 1 <? 0 then Ok true else
      if g - 1 =? 0 then do c <- ldn 1 m (pat + (index - 1)); do d <- ldn 1 m (pat + (j - 1)); Ok (negb (c =? d))
      else sub_m fuel m pat index j (g - 1) (x - 1) (y - 1)
    else Ok false
  end.

Section Bm.
(** the C library's toupper and tolower *)
Variables up low : Z -> Z.
(** bm.c:103-104: the first loop of [bm_compute_prefix]; [n] entries are left *)
Fixpoint bm_fill_m (n : nat) (m : bmem) (ctx index : Z) : res bmem :=
  match n with
  | O => Ok m
  | S n =>
    do len <- ldn 4 m (ctx + B_LEN);
    do m <- bad_wr m ctx index len;
    bm_fill_m n m ctx (index + 1)
  end.
(** bm.c:106-112: the second loop *)
Fixpoint bm_bad_m (fuel : nat) (m : bmem) (ctx index : Z) : res bmem :=
  do len <- ldn 4 m (ctx + B_LEN);
  if index <? w32 (len - 1) then
    match fuel with
    | O => Stuck
    | S fuel =>
      do p <- bpat_rd m ctx index;
      do m <- bad_wr m ctx p (w32 (len - index - 1));
      do flags <- ldn 8 m (ctx + K_FLAGS);
      do m <- (if Z.testbit flags 0 then do p <- bpat_rd m ctx index; bad_wr m ctx (low p) (w32 (len - index - 1)) else Ok m);
      bm_bad_m fuel m ctx (index + 1)
    end
  else Ok m.
(** bm.c:115-116: the third loop *)
Fixpoint bm_good_m (fuel : nat) (m : bmem) (ctx index : Z) : res bmem :=
  do len <- ldn 4 m (ctx + B_LEN);
  if index <? len then
    match fuel with
    | O => Stuck
    | S fuel => do m <- good_wr m ctx index len; bm_good_m fuel m ctx (index + 1)
    end
  else Ok m.
(** bm.c:119-124: the inner loop over [count]; [sf] is the fuel of [subpattern] *)
Fixpoint bm_inner_m (fuel sf : nat) (m : bmem) (ctx index start count : Z) : res bmem :=
  if count <? 1 - start then Ok m else
  match fuel with
  | O => Stuck
  | S fuel =>
    do pat <- ldn 8 m (ctx + B_PATTERN);
    do b <- sub_m sf m pat index count start (index + start - 1) (count + start - 1);
    if b : bool then do len <- ldn 4 m (ctx + B_LEN); good_wr m ctx count (w32 (len - start - count))
    else bm_inner_m fuel sf m ctx index start (count - 1)
  end.
(** bm.c:118-125: the outer loop *)
Fixpoint bm_outer_m (fuel sf : nat) (m : bmem) (ctx index start : Z) : res bmem :=
  if index =? 0 then Ok m else
  match fuel with
  | O => Stuck
  | S fuel => do m <- bm_inner_m sf sf m ctx index start (index - 1); bm_outer_m fuel sf m ctx (index - 1) (start + 1)
  end.
(** bm.c:98-126 [bm_compute_prefix]; its int variables do not overflow for patterns below 2 GiB *)
Definition bm_prefix_m (fuel : nat) (m : bmem) (ctx : Z) : res bmem :=
  do m <- bm_fill_m 255 m ctx 0;
  do m <- bm_bad_m fuel m ctx 0;
  do m <- good_wr m ctx 0 1;
  do m <- bm_good_m fuel m ctx 1;
  do len <- ldn 4 m (ctx + B_LEN);
  bm_outer_m fuel (S fuel) m ctx (w32 (len - 1)) 1.
(** bm.c:128-151 [bm_prepare]: [got] is what the allocator returns for the size that is asked for; [gsize] is an unsigned int *)
Definition bm_gsize (len : Z) : Z := w32 (4 * len).
Definition bm_prepare_m (fuel : nat) (got : Z) (pattern : list Z) (flags : Z) : res (option bmem) :=
  let len := zlen pattern in
  if got =? 0 then Ok None else
  let m := zeroed got (w64 (B_SIZE + bm_gsize len + len)) in
  do m <- stn 8 m (got + K_FLAGS) flags;
  do m <- stn 4 m (got + B_LEN) (w32 len);
  do m <- stn 8 m (got + B_PATTERN) (got + B_SIZE + bm_gsize len);
  do m <- copy_in up m (got + B_SIZE + bm_gsize len) (Z.testbit flags 0) pattern;
  do m <- bm_prefix_m fuel m got;
  Ok (Some m).
(** bm.c:61-64: the comparison from the end of the pattern; the number of equal bytes. A read beyond the text is [Fault] *)
Fixpoint bm_cmp_m (fuel : nat) (m : bmem) (ctx : Z) (icase : bool) (text : list Z) (shift index : Z) : res Z :=
  do len <- ldn 4 m (ctx + B_LEN);
  if index <? len then
    match fuel with
    | O => Stuck
    | S fuel =>
      do p <- bpat_rd m ctx (w32 (len - index - 1));
      match rd text (w32 (shift - index)) with
      | None => Fault
      | Some t => if p =? (if icase then up t else t) then bm_cmp_m fuel m ctx icase text shift (w32 (index + 1)) else Ok index
      end
    end
  else Ok index.
(** bm.c:60-72: the shifts in one block of [length] bytes; inl: the shift at its end, inr: a match *)
Fixpoint bm_scan_m (fuel cf : nat) (m : bmem) (ctx : Z) (icase : bool) (text : list Z) (length shift : Z) : res (Z + Z) :=
  if shift <? length then
    match fuel with
    | O => Stuck
    | S fuel =>
      do index <- bm_cmp_m cf m ctx icase text shift 0;
      do len <- ldn 4 m (ctx + B_LEN);
      if index =? len then Ok (inr shift) else
      match rd text (w32 (shift - index)) with
      | None => Fault
      | Some t =>
        do d <- bad_rd m ctx t;
        do g <- good_rd m ctx index;
        bm_scan_m fuel cf m ctx icase text length (Z.max (w32 (shift - index + d)) (w32 (shift + g)))
      end
    end
  else Ok (inl shift).
(** bm.c:40-78 [bm_find] from offset 0 on linear data (linear.c:10-23): [length] bytes; the block after the first is empty *)
Definition bm_find_m (fuel cf : nat) (m : bmem) (ctx : Z) (text : list Z) (length : Z) : res Z :=
  do flags <- ldn 8 m (ctx + K_FLAGS);
  do len <- ldn 4 m (ctx + B_LEN);
  if length =? 0 then Ok UINT_MAX else
  do r <- bm_scan_m fuel cf m ctx (Z.testbit flags 0) text length (w32 (len - 1));
  match r with inr shift => Ok (w32 (shift - len + 1)) | inl _ => Ok UINT_MAX end.
(** textsearch.c:39-56 [bfdev_textsearch_create] after the algorithm "bm" has been found *)
Definition bm_create (fuel : nat) (alloc algo got : Z) (pattern : list Z) (flags : Z) : res (option bmem) :=
  do r <- bm_prepare_m fuel got pattern flags;
  match r with
  | None => Ok None
  | Some m => do m <- stn 8 m (got + K_ALGO) algo; do m <- stn 8 m (got + K_ALLOC) alloc; Ok (Some m)
  end.
(** linear.c:25-40 [bfdev_textsearch_linear]: [f] is the address of linear_next *)
Definition bm_linear (fuel cf : nat) (m : bmem) (ctx f : Z) (text : list Z) (length : Z) : res (bmem * Z) :=
  do algo <- ldn 8 m (ctx + K_ALGO);
  do m <- stn 8 m (ctx + K_NEXT) f;
  do r <- bm_find_m fuel cf m ctx text length;
  Ok (m, r).
(** textsearch.h:182-190 [textsearch_pattern_get], bm.c:20-28 *)
Definition bm_get (m : bmem) (ctx : Z) : res Z := do algo <- ldn 8 m (ctx + K_ALGO); ldn 8 m (ctx + B_PATTERN).
(** textsearch.h:196-204 [bfdev_textsearch_pattern_len], bm.c:30-38 *)
Definition bm_get_len (m : bmem) (ctx : Z) : res Z := do algo <- ldn 8 m (ctx + K_ALGO); ldn 4 m (ctx + B_LEN).
(** textsearch.h:213-221 [bfdev_textsearch_destroy], bm.c:153-160: the allocator and the address given to bfdev_free *)
Definition bm_destroy (m : bmem) (ctx : Z) : res (Z * Z) := do algo <- ldn 8 m (ctx + K_ALGO); do alloc <- ldn 8 m (ctx + K_ALLOC); Ok (alloc, ctx).
End Bm.
