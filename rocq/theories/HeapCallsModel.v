(** * Model of src/heap.c with the calls of the client's comparison
    As HeapModel, but the client's function may answer differently every time: its answer depends on all earlier calls, which
    are recorded in [tr], newest first. *)
From Verif Require Import Lib Ptr Tree BitsModel HeapModel.

Section Orc.
Variable orc : list (Z * Z) -> Z -> Z -> Z.
(** heap.c:49-60 [bfdev_heap_fixup] *)
Fixpoint hp_fixup_o (fuel : nat) (tr : list (Z * Z)) (m : mem) (root node : Z) : option (mem * list (Z * Z)) :=
  match fuel with
  | O => None
  | S fuel =>
    let* parent := ld m node PARENT in
    if parent =? NULL then Some (m, tr) else
    let retval := orc tr node parent in
    let tr := (node, parent) :: tr in
    if retval >=? 0 then Some (m, tr) else
    let* m := parent_swap m root parent node in
    hp_fixup_o fuel tr m root node
  end.
(** heap.c:80-87 the choice of [successor] in the loop of [bfdev_heap_erase] *)
Definition hp_choose_o (tr : list (Z * Z)) (m : mem) (node child1 child2 : Z) : option (Z * list (Z * Z)) :=
  if child2 =? NULL then let* s := ld m node LEFT in Some (s, tr)
  else if child1 =? NULL then let* s := ld m node LEFT in Some (s, tr)
  else
    let retval := orc tr child1 child2 in
    let tr := (child1, child2) :: tr in
    let* s := if retval <? 0 then ld m node LEFT else ld m node RIGHT in Some (s, tr).
(** heap.c:74-94 the loop of [bfdev_heap_erase] *)
Fixpoint hp_sink_o (fuel : nat) (tr : list (Z * Z)) (m : mem) (root node : Z) : option (mem * list (Z * Z)) :=
  match fuel with
  | O => None
  | S fuel =>
    let* child1 := ld m node LEFT in
    let* child2 := ld m node RIGHT in
    if (child1 =? NULL) && (child2 =? NULL) then Some (m, tr) else
    let* (successor, tr) := hp_choose_o tr m node child1 child2 in
    if successor =? NULL then None else
    let retval := orc tr node successor in
    let tr := (node, successor) :: tr in
    if retval <? 0 then Some (m, tr) else
    let* m := parent_swap m root node successor in
    hp_sink_o fuel tr m root node
  end.
(** heap.c:62-95 [bfdev_heap_erase] *)
Definition hp_erase_o (fuel : nat) (tr : list (Z * Z)) (m : mem) (root node : Z) : option (mem * list (Z * Z)) :=
  let* successor := ld m node PARENT in
  if successor =? NULL then hp_sink_o fuel tr m root node else
  let retval := orc tr node successor in
  let tr := (node, successor) :: tr in
  if retval <? 0 then hp_fixup_o fuel tr m root node else hp_sink_o fuel tr m root node.
(** heap.h:167-174 [bfdev_heap_insert_node], heap.h:182-190 [bfdev_heap_insert] *)
Definition hp_insert_o (fuel : nat) (tr : list (Z * Z)) (m : mem) (root node : Z) : option (mem * list (Z * Z)) :=
  let* pl := hp_parent m root in
  let* m := hp_link m root (fst pl) (snd pl) node in
  hp_fixup_o fuel tr m root node.
(** heap.h:197-214 [bfdev_heap_delete] *)
Definition hp_delete_o (fuel : nat) (tr : list (Z * Z)) (m : mem) (root node : Z) : option (mem * list (Z * Z)) :=
  let* ms := hp_remove m root node in
  let* (m, tr) := if snd ms =? NULL then Some (fst ms, tr) else hp_erase_o fuel tr (fst ms) root (snd ms) in
  let* m := st m node LEFT POISON_HPNODE1 in
  let* m := st m node RIGHT POISON_HPNODE2 in
  let* m := st m node PARENT POISON_HPNODE3 in
  Some (m, tr).
End Orc.
