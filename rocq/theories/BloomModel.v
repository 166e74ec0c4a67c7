(** * Model of include/bfdev/hash.h, the index function of include/bfdev/hashtbl.h, and src/bloom.c *)
From Verif Require Import Lib BitsModel.
(** hash.h:14-15 *)
Definition GOLDEN_RATIO_32 : Z := 0x61c88647.
Definition GOLDEN_RATIO_64 : Z := 0x61c8864680b583eb.
(** hash.h:33-38 [bfdev_hashv32_generic]: the product is a 64-bit number, converted to 32 bits on return *)
Definition hashv32 (value : Z) : Z := w32 (w64 (value * GOLDEN_RATIO_32)).
(** hash.h:40-44 [bfdev_hashv64_generic] *)
Definition hashv64 (value : Z) : Z := w64 (value * GOLDEN_RATIO_64).
(** hash.h:51-56 [bfdev_hash32]; [32 - bits] is an unsigned (64-bit) number; shifting a 32-bit number by 32 or more is undefined *)
Definition hash32 (value bits : Z) : option Z :=
  let s := w64 (32 - bits) in if s <? 32 then Some (Z.shiftr (hashv32 value) s) else None.
(** hash.h:58-62 [bfdev_hash64] *)
Definition hash64 (value bits : Z) : option Z :=
  let s := w64 (64 - bits) in if s <? 64 then Some (Z.shiftr (hashv64 value) s) else None.
(** hashtbl.h:32-40 [bfdev_hashtbl_index] *)
Definition hashtbl_index (size key : Z) : option Z := hash64 key (ilog2 size).

(** bloom.h:22-30 struct bfdev_bloom; the user's hash function is a pure function of the function number and the key *)
Record bloom (K : Type) := { bl_hash : Z -> K -> Z; bl_funcs : nat; bl_capacity : Z; bl_map : list Z }.
Arguments bl_hash {K}. Arguments bl_funcs {K}. Arguments bl_capacity {K}. Arguments bl_map {K}. Arguments Build_bloom {K}.
Section BLOOM.
Context {K : Type}.
Definition set_map (b : bloom K) (m : list Z) : bloom K := {| bl_hash := bl_hash b; bl_funcs := bl_funcs b; bl_capacity := bl_capacity b; bl_map := m |}.
(** bloom.c:12-21 [bloom_index] *)
Definition bloom_index (b : bloom K) (func : Z) (key : K) : option Z :=
  let* i := hashtbl_index (bl_capacity b) (bl_hash b func key) in Some (w32 i).
(** bloom.c:30-34, the loop of [bfdev_bloom_peek]: [n] functions are left, the next one is [func] *)
Fixpoint peek_loop (b : bloom K) (key : K) (n : nat) (func : Z) (retval : bool) : option bool :=
  match n with
  | O => Some retval
  | S n' =>
    let* index := bloom_index b func key in
    let* t := bit_test (bl_map b) index in
    peek_loop b key n' (func + 1) (if t then retval else false)
  end.
(** bloom.c:23-37 [bfdev_bloom_peek] *)
Definition bloom_peek (b : bloom K) (key : K) : option bool := peek_loop b key (bl_funcs b) 0 true.
(** bloom.c:46-50, the loop of [bfdev_bloom_push] *)
Fixpoint push_loop (b : bloom K) (key : K) (n : nat) (func : Z) (retval : bool) : option (bloom K * bool) :=
  match n with
  | O => Some (b, retval)
  | S n' =>
    let* index := bloom_index b func key in
    let* (t, m) := bit_test_set (bl_map b) index in
    push_loop (set_map b m) key n' (func + 1) (if t then retval else false)
  end.
(** bloom.c:39-53 [bfdev_bloom_push] *)
Definition bloom_push (b : bloom K) (key : K) : option (bloom K * bool) := push_loop b key (bl_funcs b) 0 true.
(** memset(p, 0, size) on an array of little-endian 64-bit words: the low bytes of a word come first *)
Fixpoint memset0 (m : list Z) (size : Z) : option (list Z) :=
  if size =? 0 then Some m else
  match m with
  | [] => None
  | w :: m' =>
    if 8 <=? size then let* r := memset0 m' (size - 8) in Some (0 :: r)
    else Some (Z.land w (w64 (Z.shiftl ULONG_MAX (8 * size))) :: m')
  end.
(** bloom.c:55-62 [bfdev_bloom_flush] *)
Definition bloom_flush (b : bloom K) : option (bloom K) :=
  let size := bl_capacity b / 64 in
  let* m := memset0 (bl_map b) size in Some (set_map b m).
(** bloom.c:64-85 [bfdev_bloom_create] when the allocation succeeds; align.h:49-52 on an unsigned int *)
Definition bloom_create (capacity : Z) (hash : Z -> K -> Z) (funcs : nat) : bloom K :=
  let capacity := Z.land (w32 (capacity + 63)) (w32 (Z.lnot 63)) in
  let size := capacity / 64 in
  {| bl_hash := hash; bl_funcs := funcs; bl_capacity := capacity; bl_map := repeat 0 (Z.to_nat size) |}.
End BLOOM.
