(** * Model of src/ilist.c and include/bfdev/ilist.h (sorted list with an index over the distinct keys) *)
From Verif Require Import Lib Ptr ListModel.

(** ilist.h:22-25: a node starts with its [node_list]; its [index_list] follows it, at the address [IDX node]. The head
    is its [node_list] (ilist.h:18-20). [container_of] on the index list subtracts the offset. *)
Definition IDX (p : Z) : Z := p + 16.
Definition of_idx (q : Z) : Z := q - 16.

(** ilist.h:68-72, 78-82 [bfdev_ilist_head_init], [bfdev_ilist_node_init] *)
Definition ilist_head_init (m : mem) (head : Z) : option mem := list_head_init m head.
Definition ilist_node_init (m : mem) (node : Z) : option mem :=
  let* m := list_head_init m node in list_head_init m (IDX node).
(** ilist.h:108-112, 118-122 [bfdev_ilist_head_empty], [bfdev_ilist_node_empty] *)
Definition ilist_head_empty (m : mem) (head : Z) : option bool := list_check_empty m head.
Definition ilist_node_empty (m : mem) (node : Z) : option bool := list_check_empty m (IDX node).
(** ilist.h:88-92 [bfdev_ilist_first] *)
Definition ilist_first (m : mem) (head : Z) : option Z := ld m head NEXT.

Section Cmp.
(** the user's comparison, a pure function of the two nodes *)
Variable cmp : Z -> Z -> Z.
(** ilist.c:95-102: the search loop; returns [next], [prev] and [walk] *)
Fixpoint ilist_find (fuel : nat) (m : mem) (head inode first walk prev : Z) : option (Z * Z * Z) :=
  match fuel with
  | O => None
  | S fuel' =>
    if cmp inode walk <? 0 then Some (walk, prev, walk)
    else
      let prev := walk in
      let* q := ld m (IDX walk) NEXT in
      let walk := of_idx q in
      if walk =? first then Some (head, prev, walk) else ilist_find fuel' m head inode first walk prev
  end.
(** ilist.c:69-115 [bfdev_ilist_add], built without BFDEV_DEBUG_ILIST *)
Definition ilist_add (fuel : nat) (m : mem) (head inode : Z) : option mem :=
  let* e1 := list_check_empty m inode in
  let* e2 := list_check_empty m (IDX inode) in
  if negb e1 || negb e2 then Some m
  else
    let* e := ilist_head_empty m head in
    if e then list_add_prev m head inode
    else
      let* first := ilist_first m head in
      let* r := ilist_find fuel m head inode first first NULL in
      let '(next, prev, walk) := r in
      let* m := (if (prev =? NULL) || negb (cmp prev inode =? 0) then list_add_prev m (IDX walk) (IDX inode) else Some m) in
      list_add_prev m next inode.
End Cmp.
(** ilist.c:117-143 [bfdev_ilist_del] *)
Definition ilist_del (m : mem) (head inode : Z) : option mem :=
  let* e := ilist_node_empty m inode in
  let* m := (if negb e then
      let* n := ld m inode NEXT in
      let* m := (if negb (n =? head) then
          let* q := ld m (IDX inode) NEXT in
          let next := of_idx q in
          let* e := ilist_node_empty m next in
          if e then list_add m (IDX inode) (IDX inode) else Some m
        else Some m) in
      list_del_init m (IDX inode)
    else Some m) in
  list_del_init m inode.
(** a history of calls *)
Inductive iop := IAdd (n : Z) | IDel (n : Z).
Fixpoint ilist_run (fuel : nat) (cmp : Z -> Z -> Z) (head : Z) (m : mem) (ops : list iop) : option mem :=
  match ops with
  | [] => Some m
  | IAdd n :: r => let* m := ilist_add cmp fuel m head n in ilist_run fuel cmp head m r
  | IDel n :: r => let* m := ilist_del m head n in ilist_run fuel cmp head m r
  end.
