(** * Model of src/levenshtein.c *)
From Verif Require Import Lib.
Section Lev.
(** the two strings and the weights of substitution, swap, addition and deletion *)
Variables (str1 str2 : list Z) (s w a d : Z).
(** unsigned minimum written as in lines 46-48, 51-52, 55-56 *)
Definition lower (v u : Z) : Z := if u <? v then u else v.
(** levenshtein.c:41-57: [n] columns left *)
Fixpoint lev_inner (n : nat) (index1 index2 : Z) (row1 row2 row3 : list Z) : option (list Z) :=
  match n with
  | O => Some row3
  | S n =>
    let* c1 := rd str1 index1 in
    let* c2 := rd str2 index2 in
    let* x := rd row2 index1 in
    let v := w32 (x + w32 (s * (if c1 =? c2 then 0 else 1))) in
    let* v :=
      if (index2 =? 0) || (index1 =? 0) then Some v else
      let* q2 := rd str2 (index2 - 1) in
      if negb (c1 =? q2) then Some v else
      let* q1 := rd str1 (index1 - 1) in
      if negb (q1 =? c2) then Some v else
      let* y := rd row1 (index1 - 1) in Some (lower v (w32 (y + w))) in
    let* up := rd row2 (index1 + 1) in
    let v := lower v (w32 (up + a)) in
    let* lf := rd row3 index1 in
    let v := lower v (w32 (lf + d)) in
    let* row3 := wr row3 (index1 + 1) v in
    lev_inner n (index1 + 1) index2 row1 row2 row3
  end.
(** levenshtein.c:38-61: [n] rows left; the rows after both swaps; row2 at the end *)
Fixpoint lev_outer (n : nat) (index2 : Z) (row1 row2 row3 : list Z) : option (list Z) :=
  match n with
  | O => Some row2
  | S n =>
    let* row3 := wr row3 0 (w32 ((index2 + 1) * a)) in
    let* row3 := lev_inner (length str1) 0 index2 row1 row2 row3 in
    lev_outer n (index2 + 1) row2 row3 row1
  end.
(** levenshtein.c:35-36 *)
Fixpoint lev_init (n : nat) (index1 : Z) (row2 : list Z) : option (list Z) :=
  match n with
  | O => Some row2
  | S n => let* row2 := wr row2 index1 (w32 (index1 * d)) in lev_init n (index1 + 1) row2
  end.
(** levenshtein.c:11-67 with len1 and len2 the lengths of the lists; [cache] is what the allocated memory holds at
    the start, as three rows; None in its place: the allocation failed *)
Definition levenshtein_len (cache : option (list Z * list Z * list Z)) : option Z :=
  if zlen str1 =? 0 then Some (w32 (zlen str2 * a)) else
  if zlen str2 =? 0 then Some (w32 (zlen str1 * d)) else
  match cache with
  | None => Some (2 ^ 32 - 1)
  | Some (row1, row2, row3) =>
    let* row2 := lev_init (length str1) 0 row2 in
    let* row2 := lev_outer (length str2) 0 row1 row2 row3 in
    rd row2 (zlen str1)
  end.
End Lev.
