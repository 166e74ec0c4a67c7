(** * Model of src/sort.c and include/bfdev/bsearch.h
    The array is a list of elements of type [A]; the code addresses it by byte offsets, which
    are kept: offset [off] is element [off / cells] and must be a multiple of [cells]. An access
    outside the array is [None], and so is running out of the loop fuel. The comparison is a
    pure function ([pdata] is part of it). *)
From Verif Require Import Lib.

Section Sort.
Context {A : Type}.
Variable cmp : A -> A -> Z.
Variable cells : Z.

Definition at_ (arr : list A) (off : Z) : option A :=
  if off mod cells =? 0 then rd arr (off / cells) else None.
(** src/sort.c:10-21 [sort_swap]: three copies through a buffer *)
Definition sort_swap (arr : list A) (o1 o2 : Z) : option (list A) :=
  let* buff := at_ arr o1 in
  let* x2 := at_ arr o2 in
  let* arr := wr arr (o1 / cells) x2 in
  wr arr (o2 / cells) buff.
(** src/sort.c:23-29 [parent]; [lsbit] is an unsigned int parameter, [index] a size_t *)
Definition parent (lsbit index : Z) : Z :=
  let index := w64 (index - cells) in
  let index := w64 (index - Z.land cells (w64 (- Z.land index (w32 lsbit)))) in
  Z.shiftr index 1.
(** src/sort.c:53-57: go down to a leaf along the greater children *)
Fixpoint descend (fuel : nat) (arr : list A) (size idx2 : Z) : option Z :=
  match fuel with
  | O => None
  | S fuel' =>
    let idx3 := w64 (2 * idx2 + cells) in
    let idx4 := w64 (idx3 + cells) in
    if idx4 <? size then
      let* x := at_ arr idx3 in
      let* y := at_ arr idx4 in
      descend fuel' arr size (if 0 <=? cmp x y then idx3 else idx4)
    else Some (if idx4 =? size then idx3 else idx2)
  end.
(** src/sort.c:59-60: go back up to the place of the element at [idx1] *)
Fixpoint climb (fuel : nat) (arr : list A) (lsbit idx1 idx2 : Z) : option Z :=
  match fuel with
  | O => None
  | S fuel' =>
    if idx1 =? idx2 then Some idx2
    else
      let* x := at_ arr idx1 in
      let* y := at_ arr idx2 in
      if 0 <=? cmp x y then climb fuel' arr lsbit idx1 (parent lsbit idx2) else Some idx2
  end.
(** src/sort.c:62-66: rotate the path between them *)
Fixpoint rotate (fuel : nat) (arr : list A) (lsbit idx1 idx2 idx3 : Z) : option (list A) :=
  match fuel with
  | O => None
  | S fuel' =>
    if idx1 =? idx2 then Some arr
    else
      let idx2 := parent lsbit idx2 in
      let* arr := sort_swap arr idx2 idx3 in
      rotate fuel' arr lsbit idx1 idx2 idx3
  end.
(** src/sort.c:52-66 *)
Definition sift (fuel : nat) (arr : list A) (lsbit size idx1 : Z) : option (list A) :=
  let* idx2 := descend fuel arr size idx1 in
  let* idx2 := climb fuel arr lsbit idx1 idx2 in
  rotate fuel arr lsbit idx1 idx2 idx2.
(** src/sort.c:44-67 *)
Fixpoint sort_loop (fuel : nat) (n : nat) (arr : list A) (lsbit size idx1 : Z) : option (list A) :=
  match n with
  | O => None
  | S n' =>
    if negb (idx1 =? 0) then
      let idx1 := w64 (idx1 - cells) in
      let* arr := sift fuel arr lsbit size idx1 in
      sort_loop fuel n' arr lsbit size idx1
    else
      let size := w64 (size - cells) in
      if negb (size =? 0) then
        let* arr := sort_swap arr 0 size in
        let* arr := sift fuel arr lsbit size idx1 in
        sort_loop fuel n' arr lsbit size idx1
      else Some arr
  end.
(** src/sort.c:31-70 [bfdev_sort] with non-null [base] and [cmp]: return value and array *)
Definition heap_sort (arr : list A) : option (Z * list A) :=
  let num := zlen arr in
  let idx1 := w64 (Z.shiftr num 1 * cells) in
  if idx1 =? 0 then Some (- EINVAL, arr)
  else
    let size := w64 (num * cells) in
    let lsbit := Z.land cells (w64 (- cells)) in
    let fuel := S (length arr) in
    let* arr := sort_loop fuel (fuel + fuel) arr lsbit size idx1 in
    Some (- ENOERR, arr).
End Sort.

Section Search.
Context {A : Type}.
Variable find : A -> Z.
Variable esize : Z.
(** include/bfdev/bsearch.h:22-35; [base] is a byte offset into the array. Every iteration halves
    [num], so fuel 64 is enough for a size_t. Result: offset of the match, [None] inside for NULL. *)
Fixpoint bsearch_loop (fuel : nat) (arr : list A) (base num : Z) : option (option Z) :=
  if num =? 0 then Some None
  else match fuel with
  | O => None
  | S fuel' =>
    let pivot := base + Z.shiftr num 1 * esize in
    let* x := at_ esize arr pivot in
    let result := find x in
    if result =? 0 then Some (Some pivot)
    else if result <? 0 then bsearch_loop fuel' arr (pivot + esize) (Z.shiftr (num - 1) 1)
    else bsearch_loop fuel' arr base (Z.shiftr num 1)
  end.
(** include/bfdev/bsearch.h:15-38 [bfdev_bsearch_inline], src/bsearch.c:9-14 [bfdev_bsearch] *)
Definition bsearch (arr : list A) : option (option Z) := bsearch_loop 64 arr 0 (zlen arr).
End Search.
