(** * Giving values to multi precision integers and reading them back

    src/mpi.c: [bfdev_mpi_seti], [bfdev_mpi_set], [bfdev_mpi_import], [bfdev_mpi_data] and
    [bfdev_mpi_cmp] on any number of objects, when memory may run out.  Simplification: the
    capacity of the arrays is left out, any call that resizes may fail. *)
From Verif Require Import Lib BitsModel MpiModel.

(** src/mpi.c:35-40 [mpa_copy], a memcpy of [length] words to the start of [d]; [None] outside [d]. *)
Fixpoint copy_words (d buffer : list Z) (i : Z) : option (list Z) :=
  match buffer with
  | [] => Some d
  | x :: buffer => let* d := wr d i x in copy_words d buffer (i + 1)
  end.

(** src/mpi.c:462-480 [mpi_copy]; [fail]: the array could not be resized (src/array.c:109-121
    leaves it as it was); [junk] is what new words hold. *)
Definition mpi_copy (fail : bool) (junk : Z) (d buffer : list Z) : option (Z * list Z) :=
  if fail then Some (- ENOMEM, d) else
  let d := resize junk d (zlen buffer) in
  if zlen buffer =? 0 then Some (0, d) else
  let* d := copy_words d buffer 0 in Some (0, relocation d).

(** src/mpi.c:482-498 [mpi_seti] *)
Definition mpi_seti_f (fail : bool) (junk : Z) (d : list Z) (vi : Z) : option (Z * list Z) :=
  if fail then Some (- ENOMEM, d) else
  let d := resize junk d (if vi =? 0 then 0 else 1) in
  if vi =? 0 then Some (0, d) else let* d := wr d 0 vi in Some (0, d).

(** src/mpi.c:1689-1701 [bfdev_mpi_seti] *)
Definition do_seti (fail : bool) (junk : Z) (dest : mpi) (vi : Z) : option (Z * mpi) :=
  let* x := mpi_seti_f fail junk (limbs dest) vi in
  if negb (fst x =? 0) then Some (fst x, Mpi (snd x) (plus dest)) else Some (0, Mpi (snd x) true).
(** src/mpi.c:1703-1715 [bfdev_mpi_set] with 500-513 [mpi_set]; [own]: dest == src. *)
Definition do_set (fail : bool) (junk : Z) (own : bool) (dest src : mpi) : option (Z * mpi) :=
  let* x := if own then Some (0, limbs dest) else mpi_copy fail junk (limbs dest) (limbs src) in
  if negb (fst x =? 0) then Some (fst x, Mpi (snd x) (plus dest)) else Some (0, Mpi (snd x) (plus src)).
(** src/mpi.c:1717-1730 [bfdev_mpi_import] from a buffer outside the object. *)
Definition do_import (fail : bool) (junk : Z) (dest : mpi) (buffer : list Z) (sign : bool) : option (Z * mpi) :=
  let* x := mpi_copy fail junk (limbs dest) buffer in
  if negb (fst x =? 0) then Some (fst x, Mpi (snd x) (plus dest)) else Some (0, Mpi (snd x) sign).
(** src/mpi.c:1732-1746 [bfdev_mpi_data]: the words behind the pointer, and the sign. *)
Definition do_data (var : mpi) : list Z * bool :=
  (if zlen (limbs var) =? 0 then [0] else limbs var, plus var).

(** Calls on numbered objects. *)
Inductive mop := Seti (i : Z) (vi : Z) | SetTo (i j : Z) | Import (i : Z) (buffer : list Z) (sign : bool) | Data (i : Z) | Cmp (i j : Z).
Inductive mres := Code (r : Z) | Words (l : list Z) (sign : bool).
Section Store.
(** Whether the n-th call fails to get memory, and what new words hold. *)
Variable fails : nat -> bool.
Variable junk : nat -> Z.
Definition store1 (s : list mpi) (i : Z) (x : option (Z * mpi)) : option (mres * list mpi) :=
  let* x := x in let* s := wr s i (snd x) in Some (Code (fst x), s).
Definition mstep (n : nat) (s : list mpi) (op : mop) : option (mres * list mpi) :=
  match op with
  | Seti i vi => let* d := rd s i in store1 s i (do_seti (fails n) (junk n) d vi)
  | SetTo i j => let* d := rd s i in let* a := rd s j in store1 s i (do_set (fails n) (junk n) (i =? j) d a)
  | Import i buffer sign => let* d := rd s i in store1 s i (do_import (fails n) (junk n) d buffer sign)
  | Data i => let* d := rd s i in Some (Words (fst (do_data d)) (snd (do_data d)), s)
  | Cmp i j => let* a := rd s i in let* b := rd s j in let* r := bfdev_mpi_cmp a b in Some (Code r, s)
  end.
Fixpoint mruns (n : nat) (s : list mpi) (ops : list mop) : option (list mres * list mpi) :=
  match ops with
  | [] => Some ([], s)
  | op :: ops => let* x := mstep n s op in let* y := mruns (S n) (snd x) ops in Some (fst x :: fst y, snd y)
  end.
End Store.
