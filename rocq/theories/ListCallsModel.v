(** * Model of src/list-sort.c with a comparison function that is a program
    As ListSortModel, but the answer of the comparison function may depend on all the calls made before; [tr] is the list of
    calls so far, newest first.  The comparison function does not touch the links. *)
From Verif Require Import Lib Ptr ListModel ListSortModel.

Section Sort.
Definition lcalls := list (Z * Z).
Variable orc : lcalls -> Z -> Z -> Z.

(** src/list-sort.c:9-37 [list_merge]; [tail] is [None] while it points to the local variable [node] *)
Fixpoint list_merge_loop_o (fuel : nat) (tr : lcalls) (m : mem) (first : Z) (tail : option Z) (node1 node2 : Z) : option (mem * Z * lcalls) :=
  match fuel with
  | O => None
  | S fuel' =>
    if orc tr node1 node2 <=? 0 then
      let tr := (node1, node2) :: tr in
      let* (m, first) := tail_store m first tail node1 in
      let tail := Some node1 in
      let* node1 := ld m node1 NEXT in
      if node1 =? NULL then let* r := tail_store m first tail node2 in Some (r, tr)
      else list_merge_loop_o fuel' tr m first tail node1 node2
    else
      let tr := (node1, node2) :: tr in
      let* (m, first) := tail_store m first tail node2 in
      let tail := Some node2 in
      let* node2 := ld m node2 NEXT in
      if node2 =? NULL then let* r := tail_store m first tail node1 in Some (r, tr)
      else list_merge_loop_o fuel' tr m first tail node1 node2
  end.
Definition list_merge_o (fuel : nat) (tr : lcalls) (m : mem) (node1 node2 : Z) : option (mem * Z * lcalls) :=
  list_merge_loop_o fuel tr m NULL None node1 node2.

(** list-sort.c:45-64, the first loop of [list_finish]: memory, last node linked, the remaining chain and the calls *)
Fixpoint list_finish_loop_o (fuel : nat) (tr : lcalls) (m : mem) (tail node1 node2 : Z) : option (mem * Z * Z * lcalls) :=
  match fuel with
  | O => None
  | S fuel' =>
    if orc tr node1 node2 <=? 0 then
      let tr := (node1, node2) :: tr in
      let* m := st m tail NEXT node1 in
      let* m := st m node1 PREV tail in
      let tail := node1 in
      let* node1 := ld m node1 NEXT in
      if node1 =? NULL then Some (m, tail, node2, tr)
      else list_finish_loop_o fuel' tr m tail node1 node2
    else
      let tr := (node1, node2) :: tr in
      let* m := st m tail NEXT node2 in
      let* m := st m node2 PREV tail in
      let tail := node2 in
      let* node2 := ld m node2 NEXT in
      if node2 =? NULL then Some (m, tail, node1, tr)
      else list_finish_loop_o fuel' tr m tail node1 node2
  end.
(** list-sort.c:39-75 [list_finish] *)
Definition list_finish_o (fuel : nat) (tr : lcalls) (m : mem) (head node1 node2 : Z) : option (mem * lcalls) :=
  let* (m, tail, node2, tr) := list_finish_loop_o fuel tr m head node1 node2 in
  let* m := st m tail NEXT node2 in
  let* (m, tail) := list_finish_rest fuel m tail node2 in
  let* m := st m tail NEXT head in
  let* m := st m head PREV tail in
  Some (m, tr).

(** list-sort.c:94-113, the body of the main loop: memory, pending, next node and the calls *)
Definition sort_step_o (fuel : nat) (tr : lcalls) (m : mem) (pending count node : Z) : option (mem * Z * Z * lcalls) :=
  let* (tail, bits) := tail_walk 64 m pending None count in
  let* (m, pending, tr) :=
    (if bits =? 0 then Some (m, pending, tr) else
     let* node2 := tail_load m pending tail in
     let* node1 := ld m node2 PREV in
     let* (m, node2, tr) := list_merge_o fuel tr m node1 node2 in
     let* p := ld m node1 PREV in
     let* m := st m node2 PREV p in
     match tail with
     | None => Some (m, node2, tr)
     | Some t => let* m := st m t PREV node2 in Some (m, pending, tr)
     end) in
  let* m := st m node PREV pending in
  let pending := node in
  let* node := ld m node NEXT in
  let* m := st m pending NEXT NULL in
  Some (m, pending, node, tr).
(** list-sort.c:90-114 *)
Fixpoint sort_nodes_o (fuel : nat) (tr : lcalls) (m : mem) (pending count node : Z) : option (mem * Z * lcalls) :=
  if node =? NULL then Some (m, pending, tr)
  else match fuel with
  | O => None
  | S fuel' =>
    let* (m, pending, node, tr) := sort_step_o fuel tr m pending count node in
    sort_nodes_o fuel' tr m pending (w32 (count + 1)) node
  end.
(** list-sort.c:119-128: the chains left over *)
Fixpoint sort_collect_o (fuel : nat) (tr : lcalls) (m : mem) (pending node : Z) : option (mem * Z * Z * lcalls) :=
  match fuel with
  | O => None
  | S fuel' =>
    let* next := ld m pending PREV in
    if next =? NULL then Some (m, pending, node, tr)
    else
      let* (m, node, tr) := list_merge_o fuel tr m pending node in
      sort_collect_o fuel' tr m next node
  end.
(** list-sort.c:77-131 [bfdev_list_sort] *)
Definition list_sort_o (fuel : nat) (tr : lcalls) (m : mem) (head : Z) : option (mem * lcalls) :=
  let* node := ld m head NEXT in
  let* last := ld m head PREV in
  if node =? last then Some (m, tr)
  else
    let* last := ld m head PREV in
    let* m := st m last NEXT NULL in
    let* (m, pending, tr) := sort_nodes_o fuel tr m NULL 0 node in
    let node := pending in
    let* pending := ld m pending PREV in
    let* (m, pending, node, tr) := sort_collect_o fuel tr m pending node in
    list_finish_o fuel tr m head pending node.
End Sort.
