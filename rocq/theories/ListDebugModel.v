(** * Model of the debug builds of the intrusive lists: src/list-debug.c, src/slist-debug.c, src/hlist-debug.c and the
    branches of include/bfdev/list.h, slist.h and hlist.h compiled with BFDEV_DEBUG_LIST, _SLIST and _HLIST.
    The message a failing check logs is not modelled; a refused operation returns with the memory as it was. *)
From Verif Require Import Lib Ptr ListModel SlistModel.

(** src/list-debug.c:14-46 [bfdev_list_check_add] *)
Definition list_check_add (m : mem) (prev next newn : Z) : option bool :=
  let* a := ld m prev NEXT in
  if negb (a =? next) then Some false
  else let* b := ld m next PREV in
  if negb (b =? prev) then Some false
  else Some (negb ((newn =? prev) || (newn =? next))).
(** src/list-debug.c:48-70 [bfdev_list_check_del] *)
Definition list_check_del (m : mem) (node : Z) : option bool :=
  let* a := ld m node NEXT in
  if a =? POISON_LIST1 then Some false
  else let* b := ld m node PREV in
  Some (negb (b =? POISON_LIST2)).
(** list.h:52-65 [bfdev_list_insert] with BFDEV_DEBUG_LIST *)
Definition dlist_insert (m : mem) (prev next node : Z) : option mem :=
  let* ok := list_check_add m prev next node in
  if ok then list_insert m prev next node else Some m.
(** list.h:82-86 [bfdev_list_add] *)
Definition dlist_add (m : mem) (node newn : Z) : option mem :=
  let* next := ld m node NEXT in dlist_insert m node next newn.
(** list.h:93-97 [bfdev_list_add_prev] *)
Definition dlist_add_prev (m : mem) (node newn : Z) : option mem :=
  let* prev := ld m node PREV in dlist_insert m prev node newn.
(** list.h:114-125 [bfdev_list_del] with BFDEV_DEBUG_LIST *)
Definition dlist_del (m : mem) (node : Z) : option mem :=
  let* ok := list_check_del m node in
  if ok then
    let* m := list_deluf m node in
    let* m := st m node NEXT POISON_LIST1 in
    st m node PREV POISON_LIST2
  else Some m.
(** list.h:246-251 [bfdev_list_move] *)
Definition dlist_move (m : mem) (head node : Z) : option mem :=
  let* m := dlist_del m node in dlist_add m head node.
(** list.h:258-263 [bfdev_list_move_prev] *)
Definition dlist_move_prev (m : mem) (head node : Z) : option mem :=
  let* m := dlist_del m node in dlist_add_prev m head node.
(** list.h:270-282 [bfdev_list_swap] *)
Definition dlist_swap (m : mem) (node1 node2 : Z) : option mem :=
  let* prev := ld m node2 PREV in
  let* m := dlist_del m node2 in
  let* m := list_replace m node1 node2 in
  let prev := if prev =? node1 then node2 else prev in
  dlist_add m prev node1.

(** src/slist-debug.c:14-36 [bfdev_slist_check_add] *)
Definition slist_check_add (m : mem) (node newn : Z) : option bool :=
  let* a := ld m node LINK in
  if a =? newn then Some false else Some (negb (node =? newn)).
(** src/slist-debug.c:38-51 [bfdev_slist_check_del] *)
Definition slist_check_del (m : mem) (node : Z) : option bool :=
  let* a := ld m node LINK in Some (negb (a =? POISON_SLIST)).
(** slist.h:56-66 [bfdev_slist_add] with BFDEV_DEBUG_SLIST *)
Definition dslist_add (m : mem) (node newn : Z) : option mem :=
  let* ok := slist_check_add m node newn in
  if ok then slist_add m node newn else Some m.
(** slist.h:73-89 [bfdev_slist_del] with BFDEV_DEBUG_SLIST *)
Definition dslist_del (fuel : nat) (m : mem) (head node : Z) : option mem :=
  let* ok := slist_check_del m node in
  if ok then slist_del fuel m head node else Some m.

(** src/hlist-debug.c:14-27 [bfdev_hlist_check_head_add] *)
Definition hlist_check_head_add (m : mem) (head newn : Z) : option bool :=
  let* a := ld m head LINK in Some (negb (a =? newn)).
(** src/hlist-debug.c:29-43 [bfdev_hlist_check_next_add] *)
Definition hlist_check_next_add (m : mem) (node newn : Z) : option bool :=
  let* a := ld m node LINK in Some (negb (a =? newn)).
(** src/hlist-debug.c:45-59 [bfdev_hlist_check_prev_add]; [&newn->next] is the address of [newn], as in SlistModel.v *)
Definition hlist_check_prev_add (m : mem) (node newn : Z) : option bool :=
  let* p := ld m node PPREV in Some (negb (p =? newn)).
(** src/hlist-debug.c:61-83 [bfdev_hlist_check_del] *)
Definition hlist_check_del (m : mem) (node : Z) : option bool :=
  let* a := ld m node LINK in
  if a =? POISON_HLIST1 then Some false
  else let* p := ld m node PPREV in
  Some (negb (p =? POISON_HLIST2)).
(** hlist.h:79-93 [bfdev_hlist_head_add] with BFDEV_DEBUG_HLIST *)
Definition dhlist_head_add (m : mem) (head newn : Z) : option mem :=
  let* ok := hlist_check_head_add m head newn in
  if ok then hlist_head_add m head newn else Some m.
(** hlist.h:100-114 [bfdev_hlist_next_add] with BFDEV_DEBUG_HLIST *)
Definition dhlist_next_add (m : mem) (node newn : Z) : option mem :=
  let* ok := hlist_check_next_add m node newn in
  if ok then hlist_next_add m node newn else Some m.
(** hlist.h:121-133 [bfdev_hlist_prev_add] with BFDEV_DEBUG_HLIST *)
Definition dhlist_prev_add (m : mem) (node newn : Z) : option mem :=
  let* ok := hlist_check_prev_add m node newn in
  if ok then hlist_prev_add m node newn else Some m.
(** hlist.h:156-167 [bfdev_hlist_del] with BFDEV_DEBUG_HLIST *)
Definition dhlist_del (m : mem) (node : Z) : option mem :=
  let* ok := hlist_check_del m node in
  if ok then hlist_del m node else Some m.
