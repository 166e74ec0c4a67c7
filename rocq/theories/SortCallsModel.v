(** * Model of src/sort.c and include/bfdev/bsearch.h with comparison functions that are programs
    As SortModel, but the answer of the comparison function may depend on all the calls made before (a counter or a generator
    behind [pdata], a key that changes, an order that is none).  [tr] is the list of calls made so far, newest first; a
    comparison function that changes the array is not covered. *)
From Verif Require Import Lib SortModel.

Section Sort.
Context {A : Type}.
Definition calls := list (A * A).
Variable orc : calls -> A -> A -> Z.
Variable cells : Z.

(** src/sort.c:53-57 *)
Fixpoint descend_o (fuel : nat) (tr : calls) (arr : list A) (size idx2 : Z) : option (Z * calls) :=
  match fuel with
  | O => None
  | S fuel' =>
    let idx3 := w64 (2 * idx2 + cells) in
    let idx4 := w64 (idx3 + cells) in
    if idx4 <? size then
      let* x := at_ cells arr idx3 in
      let* y := at_ cells arr idx4 in
      descend_o fuel' ((x, y) :: tr) arr size (if 0 <=? orc tr x y then idx3 else idx4)
    else Some (if idx4 =? size then idx3 else idx2, tr)
  end.
(** src/sort.c:59-60 *)
Fixpoint climb_o (fuel : nat) (tr : calls) (arr : list A) (lsbit idx1 idx2 : Z) : option (Z * calls) :=
  match fuel with
  | O => None
  | S fuel' =>
    if idx1 =? idx2 then Some (idx2, tr)
    else
      let* x := at_ cells arr idx1 in
      let* y := at_ cells arr idx2 in
      if 0 <=? orc tr x y then climb_o fuel' ((x, y) :: tr) arr lsbit idx1 (parent cells lsbit idx2) else Some (idx2, (x, y) :: tr)
  end.
(** src/sort.c:52-66 *)
Definition sift_o (fuel : nat) (tr : calls) (arr : list A) (lsbit size idx1 : Z) : option (list A * calls) :=
  let* (idx2, tr) := descend_o fuel tr arr size idx1 in
  let* (idx2, tr) := climb_o fuel tr arr lsbit idx1 idx2 in
  let* arr := rotate cells fuel arr lsbit idx1 idx2 idx2 in
  Some (arr, tr).
(** src/sort.c:44-67 *)
Fixpoint sort_loop_o (fuel : nat) (n : nat) (tr : calls) (arr : list A) (lsbit size idx1 : Z) : option (list A * calls) :=
  match n with
  | O => None
  | S n' =>
    if negb (idx1 =? 0) then
      let idx1 := w64 (idx1 - cells) in
      let* (arr, tr) := sift_o fuel tr arr lsbit size idx1 in
      sort_loop_o fuel n' tr arr lsbit size idx1
    else
      let size := w64 (size - cells) in
      if negb (size =? 0) then
        let* arr := sort_swap cells arr 0 size in
        let* (arr, tr) := sift_o fuel tr arr lsbit size idx1 in
        sort_loop_o fuel n' tr arr lsbit size idx1
      else Some (arr, tr)
  end.
(** src/sort.c:31-70 [bfdev_sort] with non-null [base] and [cmp]: return value, array and the calls made *)
Definition heap_sort_o (tr : calls) (arr : list A) : option (Z * list A * calls) :=
  let num := zlen arr in
  let idx1 := w64 (Z.shiftr num 1 * cells) in
  if idx1 =? 0 then Some (- EINVAL, arr, tr)
  else
    let size := w64 (num * cells) in
    let lsbit := Z.land cells (w64 (- cells)) in
    let fuel := S (length arr) in
    let* (arr, tr) := sort_loop_o fuel (fuel + fuel) tr arr lsbit size idx1 in
    Some (- ENOERR, arr, tr).
End Sort.
Arguments calls : clear implicits.

Section Search.
Context {A : Type}.
Variable find : list A -> A -> Z.
Variable esize : Z.
(** include/bfdev/bsearch.h:22-35 *)
Fixpoint bsearch_loop_o (fuel : nat) (tr : list A) (arr : list A) (base num : Z) : option (option Z * list A) :=
  if num =? 0 then Some (None, tr)
  else match fuel with
  | O => None
  | S fuel' =>
    let pivot := base + Z.shiftr num 1 * esize in
    let* x := at_ esize arr pivot in
    let result := find tr x in
    if result =? 0 then Some (Some pivot, x :: tr)
    else if result <? 0 then bsearch_loop_o fuel' (x :: tr) arr (pivot + esize) (Z.shiftr (num - 1) 1)
    else bsearch_loop_o fuel' (x :: tr) arr base (Z.shiftr num 1)
  end.
(** include/bfdev/bsearch.h:15-38 [bfdev_bsearch_inline], src/bsearch.c:9-14 [bfdev_bsearch] *)
Definition bsearch_o (tr : list A) (arr : list A) : option (option Z * list A) := bsearch_loop_o 64 tr arr 0 (zlen arr).
End Search.
