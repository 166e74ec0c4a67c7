(** * Model of src/heap.c and include/bfdev/heap.h (binary heap of linked nodes)
    Nodes are objects with the fields PARENT, LEFT and RIGHT of Tree.v (heap.h:20-24); the root object has the
    fields NODE (Tree.v) and COUNT. The client's comparison is a function of the two nodes (its [pdata] and the
    keys it reads are fixed); calling it with a null node is undefined. Loops up and down the tree take fuel. *)
From Verif Require Import Lib Ptr Tree BitsModel.

(** heap.h:26-29 struct bfdev_heap_root, [count] *)
Definition COUNT : Z := 1.
(** poison.h:30-32 with BFDEV_POISON_OFFSET 0 *)
Definition POISON_HPNODE1 : Z := 0x500.
Definition POISON_HPNODE2 : Z := 0x510.
Definition POISON_HPNODE3 : Z := 0x520.

(** heap.c:38-43 (and the same choice at heap.c:159-166): the pointer to [old] becomes [new] *)
Definition hp_change (m : mem) (root gparent old new : Z) : option mem :=
  if gparent =? NULL then st m root NODE new else
  let* l := ld m gparent LEFT in
  if l =? old then st m gparent LEFT new else st m gparent RIGHT new.
(** heap.c:16-19 (and 154-157): if [child] is there its parent becomes [p] *)
Definition adopt (m : mem) (child p : Z) : option mem := if child =? NULL then Some m else st m child PARENT p.
(** heap.c:11-47 [parent_swap] *)
Definition parent_swap (m : mem) (root parent node : Z) : option mem :=
  let* l := ld m node LEFT in
  let* m := adopt m l parent in
  let* r := ld m node RIGHT in
  let* m := adopt m r parent in
  let* sp := ld m node PARENT in
  let* sl := ld m node LEFT in
  let* sr := ld m node RIGHT in
  let* pl := ld m parent LEFT in
  let* m :=
    if pl =? node then
      let* m := st m node LEFT parent in
      let* pr := ld m parent RIGHT in
      let* m := st m node RIGHT pr in
      adopt m pr node
    else
      let* m := st m node RIGHT parent in
      let* pl := ld m parent LEFT in
      let* m := st m node LEFT pl in
      adopt m pl node in
  let* gparent := ld m parent PARENT in
  let* m := st m node PARENT gparent in
  let* m := hp_change m root gparent parent node in
  let* m := st m parent PARENT sp in
  let* m := st m parent LEFT sl in
  let* m := st m parent RIGHT sr in
  st m parent PARENT node.

Section Cmp.
Variable cmp : Z -> Z -> Z.
(** heap.c:49-60 [bfdev_heap_fixup] *)
Fixpoint hp_fixup (fuel : nat) (m : mem) (root node : Z) : option mem :=
  match fuel with
  | O => None
  | S fuel =>
    let* parent := ld m node PARENT in
    if parent =? NULL then Some m else
    if cmp node parent >=? 0 then Some m else
    let* m := parent_swap m root parent node in
    hp_fixup fuel m root node
  end.
(** heap.c:74-94 the loop of [bfdev_heap_erase] *)
Fixpoint hp_sink (fuel : nat) (m : mem) (root node : Z) : option mem :=
  match fuel with
  | O => None
  | S fuel =>
    let* child1 := ld m node LEFT in
    let* child2 := ld m node RIGHT in
    if (child1 =? NULL) && (child2 =? NULL) then Some m else
    let* successor :=
      if child2 =? NULL then ld m node LEFT
      else if child1 =? NULL then ld m node LEFT
      else if cmp child1 child2 <? 0 then ld m node LEFT else ld m node RIGHT in
    if successor =? NULL then None else
    if cmp node successor <? 0 then Some m else
    let* m := parent_swap m root node successor in
    hp_sink fuel m root node
  end.
(** heap.c:62-95 [bfdev_heap_erase] *)
Definition hp_erase (fuel : nat) (m : mem) (root node : Z) : option mem :=
  let* successor := ld m node PARENT in
  if negb (successor =? NULL) && (cmp node successor <? 0) then hp_fixup fuel m root node
  else hp_sink fuel m root node.

(** heap.c:208-213 the loop of [bfdev_heap_find] (and of the level-order [next], titer.h:228-233): [depth] bits of [index] from the top *)
Fixpoint hp_walk (depth : nat) (m : mem) (node index : Z) : option Z :=
  match depth with
  | O => Some node
  | S depth =>
    if node =? NULL then Some NULL else
    let* node := if Z.testbit index (Z.of_nat depth) then ld m node RIGHT else ld m node LEFT in
    hp_walk depth m node index
  end.
(** heap.c:199-216 [bfdev_heap_find]; flsuf of zero is undefined *)
Definition hp_find (m : mem) (root index : Z) : option Z :=
  let* count := ld m root COUNT in
  if count =? 0 then None else
  let* node := ld m root NODE in
  hp_walk (Z.to_nat (flsuf count)) m node index.
(** heap.c:187-194 the loop of [bfdev_heap_parent]; a link is an object and a field *)
Fixpoint hp_parent_loop (depth : nat) (m : mem) (index parent : Z) (link : Z * Z) : option (Z * (Z * Z)) :=
  match depth with
  | O => Some (parent, link)
  | S depth =>
    let* p := ld m (fst link) (snd link) in
    hp_parent_loop depth m index p (p, if Z.testbit index (Z.of_nat depth) then RIGHT else LEFT)
  end.
(** heap.c:174-197 [bfdev_heap_parent]; the parent is not set if the loop makes no step *)
Definition hp_parent (m : mem) (root : Z) : option (Z * (Z * Z)) :=
  let* node := ld m root NODE in
  if node =? NULL then Some (NULL, (root, NODE)) else
  let* count := ld m root COUNT in
  let index := w64 (count + 1) in
  if index =? 0 then None else
  let depth := Z.to_nat (flsuf index) in
  match depth with O => None | _ => hp_parent_loop depth m index NULL (root, NODE) end.
(** heap.h:144-158 [bfdev_heap_link] *)
Definition hp_link (m : mem) (root parent : Z) (link : Z * Z) (node : Z) : option mem :=
  let* m := st m (fst link) (snd link) node in
  let* m := st m node PARENT parent in
  let* m := st m node RIGHT NULL in
  let* m := st m node LEFT NULL in
  let* count := ld m root COUNT in
  st m root COUNT (w64 (count + 1)).
(** heap.h:167-174 [bfdev_heap_insert_node], heap.h:182-190 [bfdev_heap_insert] *)
Definition hp_insert (fuel : nat) (m : mem) (root node : Z) : option mem :=
  let* pl := hp_parent m root in
  let* m := hp_link m root (fst pl) (snd pl) node in
  hp_fixup fuel m root node.
(** heap.c:150-166 in [bfdev_heap_remove]: [successor] takes the place of [node] *)
Definition hp_inherit (root : Z) (m : mem) (node successor : Z) : option mem :=
  let* p := ld m node PARENT in
  let* l := ld m node LEFT in
  let* r := ld m node RIGHT in
  let* m := st m successor PARENT p in
  let* m := st m successor LEFT l in
  let* m := st m successor RIGHT r in
  let* l := ld m node LEFT in
  let* m := adopt m l successor in
  let* r := ld m node RIGHT in
  let* m := adopt m r successor in
  let* p := ld m node PARENT in
  if p =? NULL then st m root NODE successor else
  let* pl := ld m p LEFT in
  if node =? pl then st m p LEFT successor else
  let* pr := ld m p RIGHT in
  if node =? pr then st m p RIGHT successor else Some m.
(** heap.c:97-172 [bfdev_heap_remove]: the memory and the node to rebalance *)
Definition hp_remove (m : mem) (root node : Z) : option (mem * Z) :=
  let* count := ld m root COUNT in
  let* successor := hp_find m root count in
  let* parent := ld m successor PARENT in
  let* ms :=
    if parent =? NULL then
      let* m := st m root NODE NULL in
      Some (m, NULL)
    else
      let* pl := ld m parent LEFT in
      let* m := if pl =? successor then st m parent LEFT NULL else st m parent RIGHT NULL in
      if node =? successor then Some (m, NULL) else
      let* m := hp_inherit root m node successor in
      Some (m, successor) in
  let '(m, successor) := ms in
  let* count := ld m root COUNT in
  let* m := st m root COUNT (w64 (count - 1)) in
  Some (m, successor).
(** heap.h:197-214 [bfdev_heap_delete] *)
Definition hp_delete (fuel : nat) (m : mem) (root node : Z) : option mem :=
  let* ms := hp_remove m root node in
  let* m := if snd ms =? NULL then Some (fst ms) else hp_erase fuel (fst ms) root (snd ms) in
  let* m := st m node LEFT POISON_HPNODE1 in
  let* m := st m node RIGHT POISON_HPNODE2 in
  st m node PARENT POISON_HPNODE3.
End Cmp.

(** titer.h:214-220 the level-order [first]: the node and the counter *)
Definition level_first (m : mem) (root : Z) : option (Z * Z) :=
  let* node := ld m root NODE in Some (node, 0).
(** titer.h:222-236 the level-order [next] *)
Definition level_next (m : mem) (root index : Z) : option (Z * Z) :=
  let index := w64 (index + 1) in
  if w64 (index + 1) =? 0 then None else
  let* node := ld m root NODE in
  let* node := hp_walk (Z.to_nat (flsuf (w64 (index + 1)))) m node (w64 (index + 1)) in
  Some (node, index).
(** heap.h:266-268 bfdev_heap_for_each: the loop over [first] and [next] *)
Fixpoint level_visit (fuel : nat) (m : mem) (root : Z) (pos : Z * Z) : option (list Z) :=
  match fuel with
  | O => None
  | S fuel =>
    if fst pos =? NULL then Some [] else
    let* pos' := level_next m root (snd pos) in
    let* rest := level_visit fuel m root pos' in
    Some (fst pos :: rest)
  end.
