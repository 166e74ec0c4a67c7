(** * Model of the loops that are "safe against removal": rbtree.h:529-608, 835-860, heap.h:361-440, hashmap.h:175-177, 203-205
    The body of the loop is a parameter. The entry variants of the macros differ only in the member offset. *)
From Verif Require Import Lib Ptr Tree TiterModel SlistModel HashmapModel BloomModel.

(** rbtree.h:529-531 and 537-539, heap.h:361-363 and 370-371 [.._post_for_each_safe(_from)]: the successor is fetched before
    the body runs. The body is given the nodes visited before; [nf] bounds the walks of the iterator. *)
Fixpoint post_safe_from (fuel nf : nat) (body : list Z -> mem -> Z -> option mem) (done : list Z) (m : mem) (pos : Z) : option (list Z * mem) :=
  match fuel with
  | O => None
  | S fuel =>
    if pos =? NULL then Some (done, m) else
    let* tmp := post_next m nf pos in
    let* m := body done m pos in
    post_safe_from fuel nf body (done ++ [pos]) m tmp
  end.
Definition post_safe (fuel nf : nat) (body : list Z -> mem -> Z -> option mem) (m : mem) (root : Z) : option (list Z * mem) :=
  let* pos := post_first m nf root in post_safe_from fuel nf body [] m pos.

(** hlist.h:318-320 [bfdev_hlist_for_each_safe] over one bucket, with a body that may change the map *)
Fixpoint chain_safe (fuel : nat) (body : mem -> hmap -> Z -> option (mem * hmap)) (m : mem) (h : hmap) (pos tmp : Z) : option (list Z * (mem * hmap)) :=
  if pos =? NULL then Some ([], (m, h)) else
  match fuel with
  | O => None
  | S fuel =>
    let* (m, h) := body m h pos in
    let pos' := tmp in
    let* tmp' := (if pos' =? NULL then Some tmp else ld m pos' LINK) in
    let* (l, x) := chain_safe fuel body m h pos' tmp' in
    Some (pos :: l, x)
  end.
(** hashtbl.h:166-168 with hashmap.h:175-177 [bfdev_hashmap_for_each_safe]: the bucket array and the capacity are read again
    for every bucket. [tmp] is not initialised for an empty bucket (and not used): 0 here *)
Fixpoint map_safe_from (n fuel : nat) (body : mem -> hmap -> Z -> option (mem * hmap)) (m : mem) (h : hmap) (i : Z) : option (list Z * (mem * hmap)) :=
  if h_capacity h <=? i then Some ([], (m, h)) else
  match n with
  | O => None
  | S n =>
    let* pos := ld m (idx_head (h_buckets h) (h_capacity h) i) LINK in
    let* tmp := (if pos =? NULL then Some 0 else ld m pos LINK) in
    let* (l, x) := chain_safe fuel body m h pos tmp in
    let* (r, x) := map_safe_from n fuel body (fst x) (snd x) (i + 1) in
    Some (l ++ r, x)
  end.
Definition map_safe (n fuel : nat) (body : mem -> hmap -> Z -> option (mem * hmap)) (m : mem) (h : hmap) : option (list Z * (mem * hmap)) := map_safe_from n fuel body m h 0.
