(** * Model of include/bfdev/errptr.h, include/bfdev/circle.h, src/stringhash.c and src/libc/string.c *)
From Verif Require Import Lib.
(** conversion of a 64-bit word to intptr_t and to int (two's complement, as gcc and clang do) *)
Definition to_int (x : Z) : Z := let y := x mod 2 ^ 32 in if y <? 2 ^ 31 then y else y - 2 ^ 32.
(** errno.h:123 *)
Definition ERRNO_MAX : Z := 4096.
(** errptr.h:20-24 [BFDEV_ERR_PTR]: pointers are 64-bit words *)
Definition err_ptr (error : Z) : Z := w64 error.
(** errptr.h:30-34 [BFDEV_PTR_ERR] *)
Definition ptr_err (ptr : Z) : Z := to_int ptr.
(** errptr.h:40-44 [BFDEV_PTR_INVAL]; BFDEV_EPERM is 1 (errno.h:14) *)
Definition ptr_inval (ptr : Z) : Z := let e := ptr_err ptr in if e =? 0 then -1 else e.
(** errptr.h:50-54 [BFDEV_IS_ERR] *)
Definition is_err (ptr : Z) : bool := w64 (- ERRNO_MAX) <=? ptr.
(** errptr.h:60-64 [BFDEV_IS_INVAL] *)
Definition is_inval (ptr : Z) : bool := (ptr =? 0) || is_err ptr.
(** errptr.h:70-76 [BFDEV_PTR_ERR_ZERO] *)
Definition ptr_err_zero (ptr : Z) : Z := if is_err ptr then ptr_err ptr else 0.
(** errptr.h:82-88 [BFDEV_PTR_INVAL_ZERO] *)
Definition ptr_inval_zero (ptr : Z) : Z := if is_inval ptr then ptr_inval ptr else 0.

(** circle.h:32-33 [BFDEV_CIRCLE_CNT], on unsigned long operands *)
Definition circle_cnt (head tail size : Z) : Z := Z.land (w64 (head - tail)) (w64 (size - 1)).
(** circle.h:36-37 [BFDEV_CIRCLE_SPACE] *)
Definition circle_space (head tail size : Z) : Z := Z.land (w64 (tail - w64 (head + 1))) (w64 (size - 1)).
(** circle.h:40-45 [BFDEV_CIRCLE_CNT_END]; (circle.h:48-53 [BFDEV_CIRCLE_SPACE_END] names an undeclared variable and does not compile) *)
Definition circle_cnt_end (head tail size : Z) : Z :=
  let e := w64 (size - tail) in
  let len := Z.land (w64 (head + e)) (w64 (size - 1)) in
  if len <? e then len else e.

(** stringhash.c:16-23, one round of [bfdev_pjwhash]; [c] is the value of the (signed) char; BFDEV_PJWHASH_BITS is 32 (stringhash.h:13) *)
Definition pjw_step (hash c : Z) : Z :=
  let hash := w64 (Z.shiftl hash 4) in
  let hash := w64 (hash + c) in
  let value := Z.land hash (w64 (Z.shiftl 0xf (32 - 4))) in
  if value =? 0 then hash
  else Z.lxor (Z.lxor hash (Z.shiftr value (32 - 8))) value.
(** stringhash.c:15-24, the loop up to the terminating 0; [None]: the string is not terminated within the array *)
Fixpoint pjw_loop (str : list Z) (hash : Z) : option Z :=
  match str with
  | [] => None
  | c :: str' => if c =? 0 then Some hash else pjw_loop str' (pjw_step hash c)
  end.
(** stringhash.c:9-27 [bfdev_pjwhash] *)
Definition pjwhash (str : list Z) : option Z := pjw_loop str 0.

(** string.c:11-21 [bfdev_strdiff]: offset of the result from [addr], [Some None] is NULL; (char)c is the low byte of c *)
Fixpoint strdiff_loop (a : list Z) (c : Z) (pos : Z) : option (option Z) :=
  match a with
  | [] => None
  | x :: a' => if x =? 0 then Some None else if negb (x =? c) then Some (Some pos) else strdiff_loop a' c (pos + 1)
  end.
Definition strdiff (a : list Z) (c : Z) : option (option Z) := strdiff_loop a (w8 c) 0.
(** string.c:23-36 [bfdev_memdiff] *)
Fixpoint memdiff_loop (a : list Z) (c : Z) (size : nat) (pos : Z) {struct size} : option (option Z) :=
  match size with
  | O => Some None
  | S n => match a with
           | [] => None
           | x :: a' => if negb (x =? c) then Some (Some pos) else memdiff_loop a' c n (pos + 1)
           end
  end.
Definition memdiff (a : list Z) (c : Z) (size : nat) : option (option Z) := memdiff_loop a (w8 c) size 0.
