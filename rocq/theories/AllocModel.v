(** * Model of src/allocator.c and the array helpers of include/bfdev/allocator.h *)
From Verif Require Import Lib.
(** allocator.h:24-29 struct bfdev_alloc_ops: each operation may be missing; a function pointer is a number *)
Record alloc_ops := { op_alloc : option Z; op_zalloc : option Z; op_realloc : option Z; op_free : option Z }.
(** allocator.h:19-22 struct bfdev_alloc *)
Record alloc := { a_ops : option alloc_ops; a_pdata : Z }.
(** the calls that leave this file: a function of the user's with its arguments, or one of the C library *)
Inductive call :=
| User_alloc (f size pdata : Z) | User_zalloc (f size pdata : Z) | User_realloc (f block size pdata : Z) | User_free (f block pdata : Z)
| C_malloc (size : Z) | C_calloc (n size : Z) | C_realloc (block size : Z) | C_free (block : Z).
Section Alloc.
(** the global defaults, allocator.c:10-18 (writable by the user) *)
Variables (default : alloc) (default_ops : alloc_ops).
(** what such a call returns *)
Variable answer : call -> Z.
(** allocator.c:23-38 [alloc_ops] *)
Definition ops_of (a : option alloc) : alloc_ops * Z :=
  let a := match a with Some a => a | None => default end in
  (match a_ops a with Some ops => ops | None => default_ops end, a_pdata a).
(** allocator.c:40-56; the calls made and the result *)
Definition bf_malloc (a : option alloc) (size : Z) : list call * Z :=
  if size =? 0 then ([], 0) else
  let (ops, pdata) := ops_of a in
  let c := match op_alloc ops with None => C_malloc size | Some f => User_alloc f size pdata end in ([c], answer c).
(** allocator.c:58-74 *)
Definition bf_zalloc (a : option alloc) (size : Z) : list call * Z :=
  if size =? 0 then ([], 0) else
  let (ops, pdata) := ops_of a in
  let c := match op_zalloc ops with None => C_calloc 1 size | Some f => User_zalloc f size pdata end in ([c], answer c).
(** allocator.c:99-113 *)
Definition bf_free (a : option alloc) (block : Z) : list call :=
  if block =? 0 then [] else
  let (ops, pdata) := ops_of a in
  [match op_free ops with None => C_free block | Some f => User_free f block pdata end].
(** allocator.c:76-97 *)
Definition bf_realloc (a : option alloc) (block resize : Z) : list call * Z :=
  if block =? 0 then bf_malloc a resize else
  if resize =? 0 then (bf_free a block, 0) else
  let (ops, pdata) := ops_of a in
  let c := match op_realloc ops with None => C_realloc block resize | Some f => User_realloc f block resize pdata end in ([c], answer c).
(** allocator.h:95-124 *)
Definition bf_malloc_array a nr size := bf_malloc a (w64 (size * nr)).
Definition bf_zalloc_array a nr size := bf_zalloc a (w64 (size * nr)).
Definition bf_realloc_array a block nr size := bf_realloc a block (w64 (size * nr)).
End Alloc.
