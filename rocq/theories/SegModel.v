(** * Model of include/bfdev/segtree.h and src/segtree.c (trees of intervals)
    The macros of segtree.h are modelled as instantiated by segtree.c:12-15, on the cached red-black tree
    of RbModel.v with the callbacks of rbtree.h:1028-1101. *)
From Verif Require Import Lib Ptr Tree TiterModel RbModel.

(** segtree.h:16-20 struct bfdev_segtree_node: the members after the red-black node *)
Definition START : Z := 4.
Definition END : Z := 5.
Definition SUBTREE : Z := 6.

(** rbtree.h:1081-1090 one child of [compute_max] *)
Definition max_child (m : mem) (child max : Z) : option Z :=
  if child =? NULL then Some max else
  let* s := ld m child SUBTREE in
  Some (if s >? max then s else max).
(** rbtree.h:1074-1097 [compute_max] *)
Definition compute_max (m : mem) (node : Z) (exit : bool) : option (mem * bool) :=
  let* max := ld m node END in
  let* l := ld m node LEFT in
  let* max := max_child m l max in
  let* r := ld m node RIGHT in
  let* max := max_child m r max in
  let* s := ld m node SUBTREE in
  if exit && (s =? max) then Some (m, true) else
  let* m := st m node SUBTREE max in
  Some (m, false).
(** rbtree.h:1030-1040 [_rotate] *)
Definition seg_rotate (m : mem) (node successor : Z) : option mem :=
  let* s := ld m node SUBTREE in
  let* m := st m successor SUBTREE s in
  let* r := compute_max m node false in
  Some (fst r).
(** rbtree.h:1042-1051 [_copy] *)
Definition seg_copy (m : mem) (node successor : Z) : option mem :=
  let* s := ld m node SUBTREE in
  st m successor SUBTREE s.
(** rbtree.h:1053-1064 [_propagate] *)
Fixpoint seg_propagate (fuel : nat) (m : mem) (node stop : Z) : option mem :=
  match fuel with
  | O => None
  | S fuel =>
    if node =? stop then Some m else
    let* r := compute_max m node true in
    if snd r then Some (fst r) else
    let* parent := ld (fst r) node PARENT in
    seg_propagate fuel (fst r) parent stop
  end.
(** rbtree.h:1066-1070 *)
Definition seg_callbacks (fuel : nat) : callbacks :=
  {| rotate := seg_rotate; copy := seg_copy; propagate := seg_propagate fuel |}.

(** segtree.h:164-174 the loop of [_insert]: the parent, the link, whether it is the leftmost place *)
Fixpoint seg_loop (fuel : nat) (m : mem) (start end_ : Z) (lp : Z * Z) (parent : Z) (leftmost : bool) : option (mem * (Z * (Z * Z) * bool)) :=
  match fuel with
  | O => None
  | S fuel =>
    let* cur := ld m (fst lp) (snd lp) in
    if cur =? NULL then Some (m, (parent, lp, leftmost)) else
    let* s := ld m cur SUBTREE in
    let* m := if s <? end_ then st m cur SUBTREE end_ else Some m in
    let* ps := ld m cur START in
    if start <? ps then seg_loop fuel m start end_ (cur, LEFT) cur leftmost
    else seg_loop fuel m start end_ (cur, RIGHT) cur false
  end.
(** segtree.h:149-181 [bfdev_segtree_insert] *)
Definition seg_insert (fuel : nat) (m : mem) (cached node : Z) : option mem :=
  let* start := ld m node START in
  let* end_ := ld m node END in
  let* r := seg_loop fuel m start end_ (cached, NODE) NULL true in
  let '(m, (parent, lp, leftmost)) := r in
  let* m := cached_insert_node (seg_callbacks fuel) fuel m cached parent lp node leftmost in
  st m node SUBTREE end_.
(** segtree.h:183-189 [bfdev_segtree_delete] *)
Definition seg_delete (fuel : nat) (m : mem) (cached node : Z) : option mem :=
  let* r := cached_delete (seg_callbacks fuel) fuel m cached node in
  Some (fst r).
(** segtree.h:191-215 [bfdev_segtree_search] *)
Fixpoint seg_search (fuel : nat) (m : mem) (node start end_ : Z) : option Z :=
  match fuel with
  | O => None
  | S fuel =>
    let* l := ld m node LEFT in
    let* goleft := if negb (l =? NULL) then let* s := ld m l SUBTREE in Some (s >=? start) else Some false in
    if goleft then seg_search fuel m l start end_ else
    let* ns := ld m node START in
    if ns <=? end_ then
      let* ne := ld m node END in
      if start <=? ne then Some node else
      let* r := ld m node RIGHT in
      if negb (r =? NULL) then
        let* s := ld m r SUBTREE in
        if s >=? start then seg_search fuel m r start end_ else Some NULL
      else Some NULL
    else Some NULL
  end.
(** segtree.h:217-234 [bfdev_segtree_first] *)
Definition seg_first (fuel : nat) (m : mem) (cached start end_ : Z) : option Z :=
  let* node := ld m cached NODE in
  if node =? NULL then Some NULL else
  let* s := ld m node SUBTREE in
  if s <? start then Some NULL else
  let* leftmost := ld m cached LEFTMOST in
  let* ls := ld m leftmost START in
  if ls >? end_ then Some NULL else
  seg_search fuel m node start end_.
(** segtree.h:248-255 the inner loop of [_next]: [None] inside if there is no parent, else the node and its
    right child *)
Fixpoint seg_climb (fuel : nat) (m : mem) (node : Z) : option (option (Z * Z)) :=
  match fuel with
  | O => None
  | S fuel =>
    let* walk := ld m node PARENT in
    if walk =? NULL then Some None else
    let* r := ld m walk RIGHT in
    if r =? node then seg_climb fuel m walk else Some (Some (walk, r))
  end.
(** segtree.h:243-261 the outer loop of [_next] *)
Fixpoint seg_next_loop (fuel : nat) (m : mem) (node walk start end_ : Z) : option Z :=
  match fuel with
  | O => None
  | S fuel =>
    let* down := if negb (walk =? NULL) then let* s := ld m walk SUBTREE in Some (s >=? start) else Some false in
    if down then seg_search fuel m walk start end_ else
    let* c := seg_climb (S fuel) m node in
    match c with
    | None => Some NULL
    | Some (node, walk) =>
      let* ns := ld m node START in
      if end_ <? ns then Some NULL else
      let* ne := ld m node END in
      if start <=? ne then Some node else seg_next_loop fuel m node walk start end_
    end
  end.
(** segtree.h:236-262 [bfdev_segtree_next] *)
Definition seg_next (fuel : nat) (m : mem) (start end_ : Z) (node : Z) : option Z :=
  let* walk := ld m node RIGHT in
  seg_next_loop fuel m node walk start end_.
