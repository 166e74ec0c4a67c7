(** * Model of src/matrix.c (cells are 64-bit words, include/bfdev/matrix.h:15-19)

    A matrix is its dimensions and its array of cells. The allocator enters as the booleans
    [ok], [ok2]: whether growing an array succeeds (src/array.c:109-121). Storage that moves
    while growing is not observable here: every function loads its data pointers after the
    resize. *)
From Verif Require Import Lib MpiModel.

(** include/bfdev/matrix.h:23-28 struct bfdev_matrix *)
Record matrix := Matrix { row : Z; col : Z; cells : list Z }.

(** src/matrix.c:55-56, the cell loop of add and sub ([n] cells left, at [count]) *)
Fixpoint cell_loop (op : Z -> Z -> Z) (n : nat) (count : Z) (d : list Z) (sa sb : src) : option (list Z) :=
  match n with
  | O => Some d
  | S n' =>
    let* x := rds sa d count in
    let* y := rds sb d count in
    let* d := wr d count (w64 (op x y)) in
    cell_loop op n' (count + 1) d sa sb
  end.
(** src/matrix.c:23-62 [bfdev_matrix_add], [bfdev_matrix_sub]; [al] says which operands are
    [dest] itself, [junk] is what fresh memory holds. Result: return value, destination. *)
Definition matrix_addsub (op : Z -> Z -> Z) (ok : bool) (junk : Z) (al : alias) (dest va vb : matrix)
  : option (Z * matrix) :=
  let dest := match al with DestA | DestAB => va | DestB => vb | Distinct => dest end in
  if negb (row va =? row vb) || negb (col va =? col vb) then Some (- EINVAL, dest)
  else
    let size := w32 (row va * col va) in
    if negb ok then Some (- ENOMEM, dest)
    else
      let d := resize junk (cells dest) size in
      let* d := cell_loop op (Z.to_nat size) 0 d (srcof (isA al) (cells va)) (srcof (isB al) (cells vb)) in
      Some (0, Matrix (row va) (col va) d).

(** src/matrix.c:105-106, one row update: adr[row][count] += value * adb[col][count] *)
Fixpoint mul_row (n : nat) (count : Z) (adr : list Z) (arow : Z) (adb : list Z) (brow : Z) (value : Z)
  : option (list Z) :=
  match n with
  | O => Some adr
  | S n' =>
    let* x := rd adr (arow + count) in
    let* y := rd adb (brow + count) in
    let* adr := wr adr (arow + count) (w64 (x + value * y)) in
    mul_row n' (count + 1) adr arow adb brow value
  end.
(** src/matrix.c:103-107, the columns of one row *)
Fixpoint mul_cols (n : nat) (c : Z) (adr ada adb : list Z) (r acol bcol : Z) : option (list Z) :=
  match n with
  | O => Some adr
  | S n' =>
    let* value := rd ada (r * acol + c) in
    let* adr := mul_row (Z.to_nat bcol) 0 adr (r * bcol) adb (c * bcol) value in
    mul_cols n' (c + 1) adr ada adb r acol bcol
  end.
(** src/matrix.c:102-108 *)
Fixpoint mul_rows (n : nat) (r : Z) (adr ada adb : list Z) (acol bcol : Z) : option (list Z) :=
  match n with
  | O => Some adr
  | S n' =>
    let* adr := mul_cols (Z.to_nat acol) 0 adr ada adb r acol bcol in
    mul_rows n' (r + 1) adr ada adb acol bcol
  end.
(** src/matrix.c:150-174 [bfdev_matrix_set] *)
Definition matrix_set (ok : bool) (dest src : matrix) : option (Z * matrix) :=
  let size := w32 (row src * col src) in
  if negb ok then Some (- ENOMEM, dest)
  else if zlen (cells src) <? size then None
  else Some (0, Matrix (row src) (col src) (firstn (Z.to_nat size) (cells src))).
(** src/matrix.c:64-116 [bfdev_matrix_mul]; the product goes through a buffer when the
    destination is an operand. *)
Definition matrix_mul (ok ok2 : bool) (al : alias) (dest va vb : matrix) : option (Z * matrix) :=
  let dest := match al with DestA | DestAB => va | DestB => vb | Distinct => dest end in
  if negb (col va =? row vb) then Some (- EINVAL, dest)
  else
    let size := w32 (row va * col vb) in
    if negb ok then Some (- ENOMEM, dest)
    else
      let* adr := mul_rows (Z.to_nat (row va)) 0 (repeat 0 (Z.to_nat size)) (cells va) (cells vb) (col va) (col vb) in
      let prod := Matrix (row va) (col vb) adr in
      match al with Distinct => Some (0, prod) | _ => matrix_set ok2 dest prod end.

(** src/matrix.c:142-145: [add] is taken from the source and [ads] from the destination. *)
Fixpoint trans_cols (n : nat) (c : Z) (add ads : list Z) (r addcol adscol : Z) : option (list Z) :=
  match n with
  | O => Some add
  | S n' =>
    let* x := rd ads (c * adscol + r) in
    let* add := wr add (r * addcol + c) x in
    trans_cols n' (c + 1) add ads r addcol adscol
  end.
Fixpoint trans_rows (n : nat) (r : Z) (add ads : list Z) (addcol adscol : Z) : option (list Z) :=
  match n with
  | O => Some add
  | S n' =>
    let* add := trans_cols (Z.to_nat addcol) 0 add ads r addcol adscol in
    trans_rows n' (r + 1) add ads addcol adscol
  end.
(** src/matrix.c:118-148 [bfdev_matrix_trans], distinct arguments. Result: return value,
    destination, source (both after the call). *)
Definition matrix_trans (ok : bool) (junk : Z) (dest src : matrix) : option (Z * matrix * matrix) :=
  let c := row src in
  let r := col src in
  let size := w32 (r * c) in
  if negb ok then Some (- ENOMEM, dest, src)
  else
    let d := resize junk (cells dest) size in
    let* s := trans_rows (Z.to_nat r) 0 (cells src) d c (col src) in
    Some (0, Matrix r c d, Matrix (row src) (col src) s).

(** src/matrix.c:176-196 [bfdev_matrix_import] *)
Definition matrix_import (ok : bool) (var : matrix) (buffer : list Z) (r c : Z) : option (Z * matrix) :=
  let size := w32 (r * c) in
  if negb ok then Some (- ENOMEM, var)
  else if zlen buffer <? size then None
  else Some (0, Matrix r c (firstn (Z.to_nat size) buffer)).
(** src/matrix.c:198-212 [bfdev_matrix_data]: the index of the cell whose address is returned,
    [None] for NULL *)
Definition matrix_data (var : matrix) (r c : Z) : option Z :=
  if (col var <? r) || (col var <? c) then None
  else let offset := w32 (r * c) in
       if zlen (cells var) <=? offset then None else Some offset.
