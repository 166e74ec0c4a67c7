(** * Model of src/heap-debug.c and src/rbtree-debug.c: heaps and red-black trees compiled with BFDEV_DEBUG_HEAP and BFDEV_DEBUG_RBTREE
    The messages that the checks log are not modelled. *)
From Verif Require Import Lib Ptr Tree TiterModel RbModel HeapModel.
(** heap-debug.c:14-28 [bfdev_heap_check_link], rbtree-debug.c:14-28 [bfdev_rb_check_link]: the link does not point to the node yet *)
Definition check_link (m : mem) (lp : Z * Z) (node : Z) : option bool :=
  let* v := ld m (fst lp) (snd lp) in Some (negb (v =? node)).
(** heap-debug.c:30-61 [bfdev_heap_check_delete], rbtree-debug.c:30-61 [bfdev_rb_check_delete], with the poison values of each *)
Definition check_delete (p1 p2 p3 : Z) (m : mem) (node : Z) : option bool :=
  let* l := ld m node LEFT in
  if l =? p1 then Some false else
  let* r := ld m node RIGHT in
  if r =? p2 then Some false else
  let* p := ld m node PARENT in
  if p =? p3 then Some false else Some true.

(** heap.h:144-158 [bfdev_heap_link] *)
Definition hp_link_dbg (m : mem) (root parent : Z) (lp : Z * Z) (node : Z) : option mem :=
  let* ok := check_link m lp node in
  if negb ok then Some m else hp_link m root parent lp node.
(** heap.h:167-174 [bfdev_heap_insert_node] *)
Definition hp_insert_node_dbg (cmp : Z -> Z -> Z) (fuel : nat) (m : mem) (root parent : Z) (lp : Z * Z) (node : Z) : option mem :=
  let* m := hp_link_dbg m root parent lp node in hp_fixup cmp fuel m root node.
(** heap.h:182-190 [bfdev_heap_insert] *)
Definition hp_insert_dbg (cmp : Z -> Z -> Z) (fuel : nat) (m : mem) (root node : Z) : option mem :=
  let* pl := hp_parent m root in
  hp_insert_node_dbg cmp fuel m root (fst pl) (snd pl) node.
(** heap.h:197-214 [bfdev_heap_delete] *)
Definition hp_delete_dbg (cmp : Z -> Z -> Z) (fuel : nat) (m : mem) (root node : Z) : option mem :=
  let* ok := check_delete POISON_HPNODE1 POISON_HPNODE2 POISON_HPNODE3 m node in
  if negb ok then Some m else hp_delete cmp fuel m root node.

(** rbtree.h:616-629 [bfdev_rb_link] *)
Definition rb_link_dbg (m : mem) (parent : Z) (lp : Z * Z) (node : Z) : option mem :=
  let* ok := check_link m lp node in
  if negb ok then Some m else link m parent lp node.
(** rbtree.h:638-644 [bfdev_rb_insert_node], 697-704 the augmented one *)
Definition rb_insert_node_dbg (cb : callbacks) (fuel : nat) (m : mem) (root parent : Z) (lp : Z * Z) (node : Z) : option mem :=
  let* m := rb_link_dbg m parent lp node in fixup cb fuel m root node.
(** rbtree.h:652-664 [bfdev_rb_insert], 713-726 the augmented one *)
Definition rb_insert_dbg (cb : callbacks) (fuel : nat) (m : mem) (cmp : Z -> Z -> Z) (root node : Z) : option (mem * bool) :=
  let* p := rb_parent fuel m cmp root node in
  match p with
  | None => Some (m, false)
  | Some (parent, lp, _) => let* m := rb_insert_node_dbg cb fuel m root parent lp node in Some (m, true)
  end.
(** rbtree.h:671-687 [bfdev_rb_delete], 734-751 the augmented one *)
Definition rb_delete_dbg (cb : callbacks) (fuel : nat) (m : mem) (root node : Z) : option mem :=
  let* ok := check_delete POISON_RBNODE1 POISON_RBNODE2 POISON_RBNODE3 m node in
  if negb ok then Some m else delete cb fuel m root node.
(** rbtree.h:863-887 [bfdev_rb_cached_insert_node], 938-964 the augmented one *)
Definition rb_cached_insert_node_dbg (cb : callbacks) (fuel : nat) (m : mem) (cached parent : Z) (lp : Z * Z) (node : Z) (leftmost : bool) : option mem :=
  let* m := rb_link_dbg m parent lp node in
  let* m := if leftmost then st m cached LEFTMOST node else Some m in
  fixup cb fuel m cached node.
(** rbtree.h:895-908 [bfdev_rb_cached_insert], 973-987 the augmented one *)
Definition rb_cached_insert_dbg (cb : callbacks) (fuel : nat) (m : mem) (cmp : Z -> Z -> Z) (cached node : Z) : option (mem * bool) :=
  let* p := rb_parent fuel m cmp cached node in
  match p with
  | None => Some (m, false)
  | Some (parent, lp, leftmost) => let* m := rb_cached_insert_node_dbg cb fuel m cached parent lp node leftmost in Some (m, true)
  end.
(** rbtree.h:915-929 [bfdev_rb_cached_delete], 995-1010 the augmented one: the cached first node is changed before the check *)
Definition rb_cached_delete_dbg (cb : callbacks) (fuel : nat) (m : mem) (cached node : Z) : option (mem * Z) :=
  let* cl := ld m cached LEFTMOST in
  let* ml :=
    if negb (cl =? node) then Some (m, NULL) else
    let* leftmost := in_next m fuel node in
    let* m := st m cached LEFTMOST leftmost in
    Some (m, leftmost) in
  let '(m, leftmost) := ml in
  let* m := rb_delete_dbg cb fuel m cached node in
  Some (m, leftmost).
