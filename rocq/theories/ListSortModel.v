(** * Model of src/list-sort.c (bottom-up merge sort of a circular list) *)
From Verif Require Import Lib Ptr ListModel.

(** src/list-sort.c:9-37 [list_merge]; [tail] is [None] while it points to the local variable [node] (whose value is
    [first]) and [Some p] when it is [&p->next].  The comparison function receives node addresses and does not touch links. *)
Definition tail_store (m : mem) (first : Z) (tail : option Z) (v : Z) : option (mem * Z) :=
  match tail with
  | None => Some (m, v)
  | Some p => let* m := st m p NEXT v in Some (m, first)
  end.
Fixpoint list_merge_loop (fuel : nat) (cmp : Z -> Z -> Z) (m : mem) (first : Z) (tail : option Z) (node1 node2 : Z) : option (mem * Z) :=
  match fuel with
  | O => None
  | S fuel' =>
    if cmp node1 node2 <=? 0 then
      let* (m, first) := tail_store m first tail node1 in
      let tail := Some node1 in
      let* node1 := ld m node1 NEXT in
      if node1 =? NULL then tail_store m first tail node2
      else list_merge_loop fuel' cmp m first tail node1 node2
    else
      let* (m, first) := tail_store m first tail node2 in
      let tail := Some node2 in
      let* node2 := ld m node2 NEXT in
      if node2 =? NULL then tail_store m first tail node1
      else list_merge_loop fuel' cmp m first tail node1 node2
  end.
Definition list_merge (fuel : nat) (cmp : Z -> Z -> Z) (m : mem) (node1 node2 : Z) : option (mem * Z) :=
  list_merge_loop fuel cmp m NULL None node1 node2.

(** list-sort.c:45-64, the first loop of [list_finish]: memory, last node linked and the remaining chain *)
Fixpoint list_finish_loop (fuel : nat) (cmp : Z -> Z -> Z) (m : mem) (tail node1 node2 : Z) : option (mem * Z * Z) :=
  match fuel with
  | O => None
  | S fuel' =>
    if cmp node1 node2 <=? 0 then
      let* m := st m tail NEXT node1 in
      let* m := st m node1 PREV tail in
      let tail := node1 in
      let* node1 := ld m node1 NEXT in
      if node1 =? NULL then Some (m, tail, node2)
      else list_finish_loop fuel' cmp m tail node1 node2
    else
      let* m := st m tail NEXT node2 in
      let* m := st m node2 PREV tail in
      let tail := node2 in
      let* node2 := ld m node2 NEXT in
      if node2 =? NULL then Some (m, tail, node1)
      else list_finish_loop fuel' cmp m tail node1 node2
  end.
(** list-sort.c:67-71, the second loop: backward links of the remaining chain *)
Fixpoint list_finish_rest (fuel : nat) (m : mem) (tail node2 : Z) : option (mem * Z) :=
  match fuel with
  | O => None
  | S fuel' =>
    let* m := st m node2 PREV tail in
    let tail := node2 in
    let* node2 := ld m node2 NEXT in
    if node2 =? NULL then Some (m, tail) else list_finish_rest fuel' m tail node2
  end.
(** list-sort.c:39-75 [list_finish] *)
Definition list_finish (fuel : nat) (cmp : Z -> Z -> Z) (m : mem) (head node1 node2 : Z) : option mem :=
  let* (a, node2) := list_finish_loop fuel cmp m head node1 node2 in
  let (m, tail) := a : mem * Z in
  let* m := st m tail NEXT node2 in
  let* (m, tail) := list_finish_rest fuel m tail node2 in
  let* m := st m tail NEXT head in
  st m head PREV tail.

(** list-sort.c:94-96: [tail] is [None] while it points to the local variable [pending], [Some p] for [&p->prev] *)
Definition tail_load (m : mem) (pending : Z) (tail : option Z) : option Z :=
  match tail with None => Some pending | Some p => ld m p PREV end.
Fixpoint tail_walk (fuel : nat) (m : mem) (pending : Z) (tail : option Z) (bits : Z) : option (option Z * Z) :=
  if Z.odd bits then
    match fuel with
    | O => None
    | S fuel' => let* p := tail_load m pending tail in tail_walk fuel' m pending (Some p) (bits / 2)
    end
  else Some (tail, bits).
(** list-sort.c:94-113, the body of the main loop: memory, pending and next node; the counter has 32 bits *)
Definition sort_step (fuel : nat) (cmp : Z -> Z -> Z) (m : mem) (pending count node : Z) : option (mem * Z * Z) :=
  let* (tail, bits) := tail_walk 64 m pending None count in
  let* (m, pending) :=
    (if bits =? 0 then Some (m, pending) else
     let* node2 := tail_load m pending tail in
     let* node1 := ld m node2 PREV in
     let* (m, node2) := list_merge fuel cmp m node1 node2 in
     let* p := ld m node1 PREV in
     let* m := st m node2 PREV p in
     match tail with
     | None => Some (m, node2)
     | Some t => let* m := st m t PREV node2 in Some (m, pending)
     end) in
  let* m := st m node PREV pending in
  let pending := node in
  let* node := ld m node NEXT in
  let* m := st m pending NEXT NULL in
  Some (m, pending, node).
(** list-sort.c:90-114 *)
Fixpoint sort_nodes (fuel : nat) (cmp : Z -> Z -> Z) (m : mem) (pending count node : Z) : option (mem * Z) :=
  if node =? NULL then Some (m, pending)
  else match fuel with
  | O => None
  | S fuel' =>
    let* (a, node) := sort_step fuel cmp m pending count node in
    let (m, pending) := a : mem * Z in
    sort_nodes fuel' cmp m pending (w32 (count + 1)) node
  end.
(** list-sort.c:119-128: the chains left over *)
Fixpoint sort_collect (fuel : nat) (cmp : Z -> Z -> Z) (m : mem) (pending node : Z) : option (mem * Z * Z) :=
  match fuel with
  | O => None
  | S fuel' =>
    let* next := ld m pending PREV in
    if next =? NULL then Some (m, pending, node)
    else
      let* (m, node) := list_merge fuel cmp m pending node in
      sort_collect fuel' cmp m next node
  end.
(** list-sort.c:77-131 [bfdev_list_sort] *)
Definition list_sort (fuel : nat) (cmp : Z -> Z -> Z) (m : mem) (head : Z) : option mem :=
  let* node := ld m head NEXT in
  let* last := ld m head PREV in
  if node =? last then Some m
  else
    let* last := ld m head PREV in
    let* m := st m last NEXT NULL in
    let* (m, pending) := sort_nodes fuel cmp m NULL 0 node in
    let node := pending in
    let* pending := ld m pending PREV in
    let* (a, node) := sort_collect fuel cmp m pending node in
    let (m, pending) := a : mem * Z in
    list_finish fuel cmp m head pending node.
