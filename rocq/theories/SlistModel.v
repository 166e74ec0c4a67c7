(** * Model of include/bfdev/slist.h and include/bfdev/hlist.h (NULL-terminated intrusive lists) *)
From Verif Require Import Lib Ptr.

(** include/bfdev/slist.h:19-21, include/bfdev/hlist.h:20-27: the link of a head and of a node is at offset 0 of its
    structure, so [&head->node] and [&node->next] are represented by the address of the structure *)
Definition LINK : Z := 0.
Definition PPREV : Z := 1.
(** include/bfdev/poison.h:22-24 *)
Definition POISON_HLIST1 : Z := 0x120.
Definition POISON_HLIST2 : Z := 0x130.
Definition POISON_SLIST : Z := 0x140.

(** slist.h:45-49 [bfdev_slist_head_init] *)
Definition slist_head_init (m : mem) (head : Z) : option mem := st m head LINK NULL.
(** slist.h:56-66 [bfdev_slist_add], built without BFDEV_DEBUG_SLIST *)
Definition slist_add (m : mem) (node newn : Z) : option mem :=
  let* next := ld m node LINK in
  let* m := st m newn LINK next in
  st m node LINK newn.
(** slist.h:83-85, 147-149: search for the predecessor *)
Fixpoint slist_walk (fuel : nat) (m : mem) (walk node : Z) : option Z :=
  let* next := ld m walk LINK in
  if next =? node then Some walk
  else match fuel with
  | O => None
  | S fuel' => slist_walk fuel' m next node
  end.
(** slist.h:73-89 [bfdev_slist_del] *)
Definition slist_del (fuel : nat) (m : mem) (head node : Z) : option mem :=
  let* walk := slist_walk fuel m head node in
  let* next := ld m node LINK in
  let* m := st m walk LINK next in
  st m node LINK POISON_SLIST.
(** slist.h:95-133 [bfdev_slist_check_empty], [_first], [_end], [_another] *)
Definition slist_check_empty (m : mem) (head : Z) : option bool := let* n := ld m head LINK in Some (n =? NULL).
Definition slist_check_first (m : mem) (head node : Z) : option bool := let* n := ld m head LINK in Some (n =? node).
Definition slist_check_end (m : mem) (node : Z) : option bool := let* n := ld m node LINK in Some (n =? NULL).
Definition slist_check_another (m : mem) (head node : Z) : option bool :=
  let* n := ld m head LINK in
  if n =? node then let* k := ld m node LINK in Some (k =? NULL) else Some false.
(** slist.h:141-153 [bfdev_slist_replace] *)
Definition slist_replace (fuel : nat) (m : mem) (head oldn newn : Z) : option mem :=
  let* walk := slist_walk fuel m head oldn in
  let* m := st m walk LINK newn in
  let* next := ld m oldn LINK in
  st m newn LINK next.
(** slist.h:186-194, hlist.h:294-302 [.._for_each], [.._for_each_from] with a body that leaves the links alone *)
Fixpoint each_from (fuel : nat) (m : mem) (pos : Z) : option (list Z) :=
  if pos =? NULL then Some []
  else match fuel with
  | O => None
  | S fuel' => let* next := ld m pos LINK in
               let* l := each_from fuel' m next in Some (pos :: l)
  end.
Definition each (fuel : nat) (m : mem) (head : Z) : option (list Z) :=
  let* pos := ld m head LINK in each_from fuel m pos.
(** slist.h:210-212, hlist.h:318-320 [.._for_each_safe] with a body that removes the nodes chosen by [drop]; [rm] is the
    removal operation of the list *)
Fixpoint each_safe_from (fuel : nat) (rm : mem -> Z -> option mem) (m : mem) (drop : Z -> bool) (pos tmp : Z) : option (list Z * mem) :=
  if pos =? NULL then Some ([], m)
  else match fuel with
  | O => None
  | S fuel' =>
    let* m := (if drop pos then rm m pos else Some m) in
    let pos' := tmp in
    let* tmp' := (if pos' =? NULL then Some tmp else ld m pos' LINK) in
    let* (l, m) := each_safe_from fuel' rm m drop pos' tmp' in
    Some (pos :: l, m)
  end.
(** [tmp] starts uninitialised; its initial value matters only for an empty list and is [t0] *)
Definition each_safe (fuel : nat) (rm : mem -> Z -> option mem) (m : mem) (drop : Z -> bool) (head t0 : Z) : option (list Z * mem) :=
  let* pos := ld m head LINK in
  let* tmp := (if pos =? NULL then Some t0 else ld m pos LINK) in
  each_safe_from fuel rm m drop pos tmp.

(** hlist.h:57-72 [bfdev_hlist_head_init], [bfdev_hlist_node_init] *)
Definition hlist_head_init (m : mem) (head : Z) : option mem := st m head LINK NULL.
Definition hlist_node_init (m : mem) (node : Z) : option mem :=
  let* m := st m node PPREV NULL in st m node LINK NULL.
(** hlist.h:79-93 [bfdev_hlist_head_add] *)
Definition hlist_head_add (m : mem) (head newn : Z) : option mem :=
  let* n := ld m head LINK in
  let* m := st m newn LINK n in
  let* m := st m newn PPREV head in
  let* n := ld m head LINK in
  let* m := (if n =? NULL then Some m else st m n PPREV newn) in
  st m head LINK newn.
(** hlist.h:100-114 [bfdev_hlist_next_add] *)
Definition hlist_next_add (m : mem) (node newn : Z) : option mem :=
  let* m := st m newn PPREV node in
  let* n := ld m node LINK in
  let* m := st m newn LINK n in
  let* n := ld m newn LINK in
  let* m := (if n =? NULL then Some m else st m n PPREV node) in
  st m node LINK newn.
(** hlist.h:121-133 [bfdev_hlist_prev_add] *)
Definition hlist_prev_add (m : mem) (node newn : Z) : option mem :=
  let* p := ld m node PPREV in
  let* m := st m newn PPREV p in
  let* m := st m newn LINK node in
  let* m := st m node PPREV node in
  let* p := ld m node PPREV in
  st m p LINK newn.
(** hlist.h:139-150 [bfdev_hlist_deluf] *)
Definition hlist_deluf (m : mem) (node : Z) : option mem :=
  let* pprev := ld m node PPREV in
  let* next := ld m node LINK in
  let* m := (if next =? NULL then Some m else st m next PPREV pprev) in
  st m pprev LINK next.
(** hlist.h:156-167 [bfdev_hlist_del] *)
Definition hlist_del (m : mem) (node : Z) : option mem :=
  let* m := hlist_deluf m node in
  let* m := st m node LINK POISON_HLIST1 in
  st m node PPREV POISON_HLIST2.
(** hlist.h:173-221 [bfdev_hlist_check_empty], [_first], [_end], [_another], [_unhashed]; the first four read the same
    fields as those of slist.h and are represented by them *)
Definition hlist_check_unhashed (m : mem) (node : Z) : option bool := let* p := ld m node PPREV in Some (p =? NULL).
(** hlist.h:228-235 [bfdev_hlist_head_replace] *)
Definition hlist_head_replace (m : mem) (oldn newn : Z) : option mem :=
  let* n := ld m oldn LINK in
  let* m := st m newn LINK n in
  let* m := st m oldn LINK NULL in
  let* n := ld m newn LINK in
  if n =? NULL then Some m else st m n PPREV newn.
(** hlist.h:242-250 [bfdev_hlist_replace] *)
Definition hlist_replace (m : mem) (oldn newn : Z) : option mem :=
  let* n := ld m oldn LINK in
  let* m := st m newn LINK n in
  let* p := ld m oldn PPREV in
  let* m := st m newn PPREV p in
  let* n := ld m newn LINK in
  let* m := (if n =? NULL then Some m else st m n PPREV newn) in
  let* p := ld m newn PPREV in
  st m p LINK newn.
(** hlist.h:256-261 [bfdev_hlist_del_init] *)
Definition hlist_del_init (m : mem) (node : Z) : option mem :=
  let* m := hlist_deluf m node in hlist_node_init m node.
