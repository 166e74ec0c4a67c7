(** * Model of src/allocpool.c and include/bfdev/allocpool.h (bump allocator) *)
From Verif Require Import Lib.
(** allocpool.h:17-22 struct bfdev_allocpool; addresses are numbers below 2^64 *)
Record apool := { ap_block : Z; ap_size : Z; ap_last : Z; ap_count : Z }.
(** align.h:49-52 [bfdev_align_high] and align.h:68-70 [bfdev_align_ptr_high] on 64-bit operands *)
Definition align_high (value align : Z) : Z := Z.land (w64 (value + w64 (align - 1))) (w64 (Z.lnot (w64 (align - 1)))).
(** allocpool.h:40-44 [bfdev_allocpool_init] *)
Definition ap_init (block size : Z) : apool := {| ap_block := block; ap_size := size; ap_last := 0; ap_count := 0 |}.
(** allocpool.h:50-55 [bfdev_allocpool_reset] *)
Definition ap_reset (p : apool) : apool := {| ap_block := ap_block p; ap_size := ap_size p; ap_last := 0; ap_count := 0 |}.
(** allocpool.c:10-30 [bfdev_allocpool_alloc]; NULL is 0 *)
Definition ap_alloc (p : apool) (size align : Z) : apool * Z :=
  if size =? 0 then (p, 0) else
  let align := align_high (if align =? 0 then 1 else align) 8 in
  let retval := align_high (w64 (ap_block p + ap_last p)) align in
  let offset := w64 (w64 (retval - ap_block p) + size) in
  if ap_size p <? offset then (p, 0) else
  ({| ap_block := ap_block p; ap_size := ap_size p; ap_last := offset; ap_count := w64 (ap_count p + 1) |}, retval).
(** allocpool.c:32-37 [bfdev_allocpool_free]; which block is freed does not matter *)
Definition ap_free (p : apool) : apool :=
  let count := w64 (ap_count p - 1) in
  {| ap_block := ap_block p; ap_size := ap_size p; ap_last := if count =? 0 then 0 else ap_last p; ap_count := count |}.
