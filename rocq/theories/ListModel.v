(** * Model of include/bfdev/list.h (circular doubly linked lists) *)
From Verif Require Import Lib Ptr.

(** include/bfdev/list.h:19-22 struct bfdev_list_head *)
Definition PREV : Z := 0.
Definition NEXT : Z := 1.
(** include/bfdev/poison.h:20-21 *)
Definition POISON_LIST1 : Z := 0x100.
Definition POISON_LIST2 : Z := 0x110.

(** list.h:52-65 [bfdev_list_insert], built without BFDEV_DEBUG_LIST *)
Definition list_insert (m : mem) (prev next node : Z) : option mem :=
  let* m := st m prev NEXT node in
  let* m := st m next PREV node in
  let* m := st m node PREV prev in
  st m node NEXT next.
(** list.h:71-75 [bfdev_list_head_init] *)
Definition list_head_init (m : mem) (head : Z) : option mem :=
  let* m := st m head PREV head in
  st m head NEXT head.
(** list.h:82-86 [bfdev_list_add] *)
Definition list_add (m : mem) (node newn : Z) : option mem :=
  let* next := ld m node NEXT in list_insert m node next newn.
(** list.h:93-97 [bfdev_list_add_prev] *)
Definition list_add_prev (m : mem) (node newn : Z) : option mem :=
  let* prev := ld m node PREV in list_insert m prev node newn.
(** list.h:103-108 [bfdev_list_deluf] *)
Definition list_deluf (m : mem) (node : Z) : option mem :=
  let* prev := ld m node PREV in
  let* next := ld m node NEXT in
  let* m := st m prev NEXT next in
  let* next := ld m node NEXT in
  let* prev := ld m node PREV in
  st m next PREV prev.
(** list.h:114-125 [bfdev_list_del] *)
Definition list_del (m : mem) (node : Z) : option mem :=
  let* m := list_deluf m node in
  let* m := st m node NEXT POISON_LIST1 in
  st m node PREV POISON_LIST2.
(** list.h:131-135 [bfdev_list_check_empty] *)
Definition list_check_empty (m : mem) (head : Z) : option bool :=
  let* n := ld m head NEXT in Some (n =? head).
(** list.h:154-159 [bfdev_list_check_first] *)
Definition list_check_first (m : mem) (head node : Z) : option bool :=
  let* x := ld m node PREV in Some (x =? head).
(** list.h:166-171 [bfdev_list_check_end] *)
Definition list_check_end (m : mem) (head node : Z) : option bool :=
  let* x := ld m node NEXT in Some (x =? head).
(** list.h:178-183 [bfdev_list_check_another] *)
Definition list_check_another (m : mem) (head node : Z) : option bool :=
  let* x := ld m head NEXT in
  if x =? node then let* y := ld m head PREV in Some (y =? node) else Some false.
(** list.h:185-200 [bfdev_list_relocate] *)
Definition list_relocate (m : mem) (prev next list : Z) : option mem :=
  let* first := ld m list NEXT in
  let* last := ld m list PREV in
  let* m := st m first PREV prev in
  let* m := st m prev NEXT first in
  let* m := st m last NEXT next in
  st m next PREV last.
(** list.h:207-212 [bfdev_list_splice] *)
Definition list_splice (m : mem) (head list : Z) : option mem :=
  let* e := list_check_empty m list in
  if negb e then let* next := ld m head NEXT in list_relocate m head next list else Some m.
(** list.h:219-224 [bfdev_list_splice_prev] *)
Definition list_splice_prev (m : mem) (head list : Z) : option mem :=
  let* e := list_check_empty m list in
  if negb e then let* prev := ld m head PREV in list_relocate m prev head list else Some m.
(** list.h:231-239 [bfdev_list_replace] *)
Definition list_replace (m : mem) (oldn newn : Z) : option mem :=
  let* p := ld m oldn PREV in
  let* m := st m newn PREV p in
  let* n := ld m oldn NEXT in
  let* m := st m newn NEXT n in
  let* p := ld m newn PREV in
  let* m := st m p NEXT newn in
  let* n := ld m newn NEXT in
  st m n PREV newn.
(** list.h:246-251 [bfdev_list_move] *)
Definition list_move (m : mem) (head node : Z) : option mem :=
  let* m := list_del m node in list_add m head node.
(** list.h:258-263 [bfdev_list_move_prev] *)
Definition list_move_prev (m : mem) (head node : Z) : option mem :=
  let* m := list_del m node in list_add_prev m head node.
(** list.h:270-282 [bfdev_list_swap] *)
Definition list_swap (m : mem) (node1 node2 : Z) : option mem :=
  let* prev := ld m node2 PREV in
  let* m := list_del m node2 in
  let* m := list_replace m node1 node2 in
  let prev := if prev =? node1 then node2 else prev in
  list_add m prev node1.
(** list.h:288-293 [bfdev_list_del_init] *)
Definition list_del_init (m : mem) (node : Z) : option mem :=
  let* m := list_deluf m node in list_head_init m node.
(** list.h:300-305 [bfdev_list_replace_init] *)
Definition list_replace_init (m : mem) (oldn newn : Z) : option mem :=
  let* m := list_replace m oldn newn in list_head_init m oldn.
(** list.h:312-319 [bfdev_list_splice_init] *)
Definition list_splice_init (m : mem) (head list : Z) : option mem :=
  let* e := list_check_empty m list in
  if negb e then let* m := list_splice m head list in list_head_init m list else Some m.
(** list.h:326-333 [bfdev_list_splice_tail_init] *)
Definition list_splice_tail_init (m : mem) (head list : Z) : option mem :=
  let* e := list_check_empty m list in
  if negb e then let* m := list_splice_prev m head list in list_head_init m list else Some m.

(** list.h:440-442, 458-459 [bfdev_list_for_each], [.._from]: the nodes visited by a body that
    does not change the list; [None] if the fuel runs out *)
Fixpoint walk_from (fuel : nat) (m : mem) (field head pos : Z) : option (list Z) :=
  if head =? pos then Some []
  else match fuel with
  | O => None
  | S fuel' => let* next := ld m pos field in
               let* l := walk_from fuel' m field head next in Some (pos :: l)
  end.
Definition for_each (fuel : nat) (m : mem) (head : Z) : option (list Z) :=
  let* pos := ld m head NEXT in walk_from fuel m NEXT head pos.
(** list.h:449-451 [bfdev_list_for_each_reverse] *)
Definition for_each_reverse (fuel : nat) (m : mem) (head : Z) : option (list Z) :=
  let* pos := ld m head PREV in walk_from fuel m PREV head pos.
(** list.h:493-496 [bfdev_list_for_each_safe] with a body that removes the nodes chosen by [drop]
    with [bfdev_list_del]: nodes visited and final memory *)
Fixpoint walk_safe (fuel : nat) (m : mem) (drop : Z -> bool) (head pos tmp : Z) : option (list Z * mem) :=
  if pos =? head then Some ([], m)
  else match fuel with
  | O => None
  | S fuel' =>
    let* m := (if drop pos then list_del m pos else Some m) in
    let* tmp' := ld m tmp NEXT in
    let* (l, m) := walk_safe fuel' m drop head tmp tmp' in
    Some (pos :: l, m)
  end.
Definition for_each_safe (fuel : nat) (m : mem) (drop : Z -> bool) (head : Z) : option (list Z * mem) :=
  let* pos := ld m head NEXT in
  let* tmp := ld m pos NEXT in
  walk_safe fuel m drop head pos tmp.
