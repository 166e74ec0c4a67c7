(** * Model of src/btree.c and src/btree-utils.c (B+tree)
    A layout is its [keynum] K, with keys of one word and [ptrindex] = [keynum] as in the three stock layouts on a 64-bit
    machine (btree-utils.c:15-38, K = 8); other key lengths and the client's own order ([ops->find]) are not modelled.
    A node is the list of its 2 * K words, the heap maps node addresses to nodes; an access outside a node or to memory
    that is no node is [None]. Keys are handed around as pointers ([kref]), because removal passes pointers into nodes
    that it then changes. *)
From Verif Require Import Lib.

Definition NULL : Z := 0.
Definition ENOERR : Z := 0.
Definition ENOENT : Z := 2.
Definition ENOMEM : Z := 12.
Definition EINVAL : Z := 22.
Definition EALREADY : Z := 114.

Definition heap := Z -> option (list Z).
Definition hset (h : heap) (n : Z) (b : option (list Z)) : heap := fun x => if x =? n then b else h x.
(** a pointer to a key: the caller's own buffer with this value, or the key slot of a node *)
Inductive kref := Val (k : Z) | Slot (node index : Z).
(** btree.h:33-41 struct bfdev_btree_root; [b_clock] counts the calls of the allocator *)
Record root := { b_heap : heap; b_node : Z; b_height : Z; b_clock : nat }.
Definition with_heap (s : root) (h : heap) : root := {| b_heap := h; b_node := b_node s; b_height := b_height s; b_clock := b_clock s |}.
(** btree.h:51-61 *)
Definition btree_init : root := {| b_heap := fun _ => None; b_node := NULL; b_height := 0; b_clock := 0 |}.

Section Btree.
Variable K : Z.
(** [ops->alloc], which answers the n-th request; [ops->clash] and [ops->remove], if any, as functions of their
    arguments *)
Variable al : nat -> heap -> Z.
Variable clash : option (Z -> Z -> Z).
Variable remove : option (Z -> Z).

(** an access to the words of a node *)
Definition word (b : list Z) (i : Z) : option Z := if i <? zlen b then rd b i else None.
Definition store (b : list Z) (i v : Z) : option (list Z) := if i <? zlen b then wr b i v else None.
(** btree.c:10-21 [bnode_get_value] *)
Definition get_value (h : heap) (node index : Z) : option Z := let* b := h node in word b (w32 (K + index)).
(** btree.c:23-34 [bnode_set_value] *)
Definition set_value (h : heap) (node index v : Z) : option heap := let* b := h node in let* b := store b (w32 (K + index)) v in Some (hset h node (Some b)).
(** btree.c:36-47 [bnode_get_key] and the read of the key there *)
Definition get_key (h : heap) (node index : Z) : option Z := let* b := h node in word b (w32 index).
(** btree.c:49-62 [bnode_set_key] *)
Definition set_key (h : heap) (node index k : Z) : option heap := let* b := h node in let* b := store b (w32 index) k in Some (hset h node (Some b)).
Definition deref (h : heap) (key : kref) : option Z := match key with Val k => Some k | Slot n i => get_key h n i end.
(** btree-utils.c:40-55 [bfdev_btree_key_find] *)
Definition key_find (node key : Z) : Z := if node <? key then -1 else if key <? node then 1 else 0.
(** btree.c:64-75 [bnode_cmp_key] *)
Definition cmp_key (h : heap) (node index : Z) (key : kref) : option Z :=
  let* a := get_key h node index in let* b := deref h key in Some (key_find a b).
(** btree.c:92-106 [bnode_clear_index] *)
Definition clear_index (h : heap) (node index : Z) : option heap := let* h := set_value h node index NULL in set_key h node index 0.
(** btree.c:123-135 [bnode_migrate] *)
Definition migrate (h : heap) (nnode nindex onode oindex : Z) : option heap :=
  let* k := get_key h onode oindex in
  let* h := set_key h nnode nindex k in
  let* v := get_value h onode oindex in
  set_value h nnode nindex v.
(** btree.c:137-152 [bnode_alloc] *)
Definition node_alloc (s : root) : root * Z :=
  let node := al (b_clock s) (b_heap s) in
  ({| b_heap := if node =? NULL then b_heap s else hset (b_heap s) node (Some (repeat 0 (Z.to_nat (2 * K)))); b_node := b_node s; b_height := b_height s; b_clock := S (b_clock s) |}, node).
(** btree.c:154-162 [bnode_free]; a null pointer is ignored, freeing memory that is no node is undefined *)
Definition node_free (s : root) (node : Z) : option root :=
  if node =? NULL then Some s else let* _ := b_heap s node in Some (with_heap s (hset (b_heap s) node None)).
(** btree.c:164-178 [bnode_fill_index], [n] slots left *)
Fixpoint fill_from (n : nat) (h : heap) (node index : Z) : option Z :=
  match n with
  | O => Some index
  | S n => let* v := get_value h node index in if v =? NULL then Some index else fill_from n h node (index + 1)
  end.
Definition fill_index (h : heap) (node start : Z) : option Z := fill_from (Z.to_nat (K - start)) h node start.
(** btree.c:180-198 [bnode_key_index] *)
Fixpoint key_from (n : nat) (h : heap) (node : Z) (key : kref) (index : Z) : option Z :=
  match n with
  | O => Some K
  | S n =>
    let* retval := cmp_key h node index key in
    if retval <? 0 then Some K else if retval =? 0 then Some index else key_from n h node key (index + 1)
  end.
Definition key_index (h : heap) (node : Z) (key : kref) : option Z := key_from (Z.to_nat K) h node key 0.
(** btree.c:225-240 [bnode_find_index] (and the same loop at 210-213, 257-260) *)
Fixpoint find_from (n : nat) (h : heap) (node : Z) (key : kref) (index : Z) : option Z :=
  match n with
  | O => Some index
  | S n => let* retval := cmp_key h node index key in if retval <=? 0 then Some index else find_from n h node key (index + 1)
  end.
Definition find_index (h : heap) (node : Z) (key : kref) : option Z := find_from (Z.to_nat K) h node key 0.
(** btree.c:209-219: one step down; a key below all keys of the node replaces the last one *)
Definition step_down (h : heap) (node : Z) (key : kref) : option (heap * Z) :=
  let* index := find_index h node key in
  let* low := (if index =? K then Some true else let* v := get_value h node index in Some (v =? NULL)) in
  let* (h, index) := (if low : bool then
      let index := w32 (index - 1) in
      let* k := deref h key in let* h := set_key h node index k in Some (h, index)
    else Some (h, index)) in
  let* node := get_value h node index in Some (h, node).
Fixpoint down (n : nat) (h : heap) (node : Z) (key : kref) : option (heap * Z) :=
  match n with
  | O => Some (h, node)
  | S n => let* (h, node) := step_down h node key in down n h node key
  end.
(** btree.c:200-223 [bnode_find_parent] *)
Definition find_parent (s : root) (key : kref) (level : Z) : option (root * Z) :=
  let* (h, node) := down (Z.to_nat (b_height s - level)) (b_heap s) (b_node s) key in Some (with_heap s h, node).
(** btree.c:256-268: the loop of [bnode_lookup], [n] levels left *)
Fixpoint look (n : nat) (h : heap) (node : Z) (key : kref) : option Z :=
  match n with
  | O => Some node
  | S n =>
    let* index := find_index h node key in
    if index =? K then Some NULL else
    let* node := get_value h node index in
    if node =? NULL then Some NULL else look n h node key
  end.
(** btree.c:242-271 [bnode_lookup] *)
Definition node_lookup (s : root) (key : kref) : option Z :=
  if b_height s =? 0 then Some NULL else look (Z.to_nat (b_height s - 1)) (b_heap s) (b_node s) key.
(** btree.c:273-291 [bfdev_btree_lookup] *)
Definition btree_lookup (s : root) (k : Z) : option Z :=
  let* node := node_lookup s (Val k) in
  if node =? NULL then Some NULL else
  let* index := key_index (b_heap s) node (Val k) in
  if index =? K then Some NULL else get_value (b_heap s) node index.
(** btree.c:293-312 [bfdev_btree_update] *)
Definition btree_update (s : root) (k v : Z) : option (root * Z) :=
  let* node := node_lookup s (Val k) in
  if node =? NULL then Some (s, - ENOENT) else
  let* index := key_index (b_heap s) node (Val k) in
  if index =? K then Some (s, - ENOENT) else
  let* h := set_value (b_heap s) node index v in Some (with_heap s h, - ENOERR).

(** btree.c:314-337 [btree_extend]; the unsigned int [height] is not wrapped, it would have to reach 2^32 *)
Definition btree_extend (s : root) : option (root * Z) :=
  let (s, node) := node_alloc s in
  if node =? NULL then Some (s, - ENOMEM) else
  let* h := (if b_node s =? NULL then Some (b_heap s) else
    let* index := fill_index (b_heap s) (b_node s) 0 in
    let* k := get_key (b_heap s) (b_node s) (w32 (index - 1)) in
    let* h := set_key (b_heap s) node 0 k in
    set_value h node 0 (b_node s)) in
  Some ({| b_heap := h; b_node := node; b_height := b_height s + 1; b_clock := b_clock s |}, - ENOERR).
(** btree.c:339-353 [btree_shrink] *)
Definition btree_shrink (s : root) : option root :=
  if b_height s <? 2 then Some s else
  let node := b_node s in
  let* child := get_value (b_heap s) node 0 in
  node_free {| b_heap := b_heap s; b_node := child; b_height := b_height s - 1; b_clock := b_clock s |} node.

(** btree.c:404-408: the lower half of the loop splitting a node, [n] rounds left *)
Fixpoint split_from (n : nat) (h : heap) (newn node count half : Z) : option heap :=
  match n with
  | O => Some h
  | S n =>
    let* h := migrate h newn count node count in
    let* h := migrate h node count node (count + half) in
    let* h := clear_index h node (count + half) in
    split_from n h newn node (count + 1) half
  end.
(** btree.c:417-418, [n] rounds left *)
Fixpoint shift_up (n : nat) (h : heap) (node count : Z) : option heap :=
  match n with
  | O => Some h
  | S n => let* h := migrate h node count node (count - 1) in shift_up n h node (count - 1)
  end.
(** btree.c:374-424: one round of the loop of [insert_level]; [None] in the result asks for another round *)
Definition insert_round (rec : root -> Z -> kref -> Z -> option (root * Z)) (s : root) (level : Z) (key : kref) (value : Z) : option (root * option Z) :=
  let* (s, node) := find_parent s key level in
  let* index := find_index (b_heap s) node key in
  let* fill := fill_index (b_heap s) node index in
  let* same := (if index <? fill then let* c := cmp_key (b_heap s) node index key in Some (c =? 0) else Some false) in
  if same : bool then
    match clash with
    | Some f => let* old := get_value (b_heap s) node index in Some (s, Some (f old value))
    | None => Some (s, Some (- EALREADY))
    end
  else if negb (fill =? K) then
    let* h := shift_up (Z.to_nat (fill - index)) (b_heap s) node fill in
    let* k := deref h key in
    let* h := set_key h node index k in
    let* h := set_value h node index value in Some (with_heap s h, Some (- ENOERR))
  else
    let (s, newn) := node_alloc s in
    if newn =? NULL then Some (s, Some (- ENOMEM)) else
    let* (s, retval) := rec s (level + 1) (Slot node (w32 (fill / 2 - 1))) newn in
    if negb (retval =? 0) then let* s := node_free s newn in Some (s, Some retval) else
    let* h := split_from (Z.to_nat (fill / 2)) (b_heap s) newn node 0 (fill / 2) in
    let* h := (if Z.odd fill then let* h := migrate h newn (fill / 2) node (fill - 1) in clear_index h node (fill - 1) else Some h) in
    Some (with_heap s h, None).
Fixpoint insert_loop (m : nat) (rec : root -> Z -> kref -> Z -> option (root * Z)) (s : root) (level : Z) (key : kref) (value : Z) : option (root * Z) :=
  match m with
  | O => None
  | S m =>
    let* (s, r) := insert_round rec s level key value in
    match r with Some code => Some (s, code) | None => insert_loop m rec s level key value end
  end.
(** btree.c:355-425 [insert_level]; [n] bounds the levels, two rounds of the loop are enough *)
Fixpoint insert_level (n : nat) (s : root) (level : Z) (key : kref) (value : Z) : option (root * Z) :=
  match n with
  | O => None
  | S n =>
    let* (s, retval) := (if b_height s <? level then btree_extend s else Some (s, 0)) in
    if negb (retval =? 0) then Some (s, retval) else insert_loop 2 (insert_level n) s level key value
  end.
(** btree.c:557-564 [bfdev_btree_insert] *)
Definition btree_insert (s : root) (k v : Z) : option (root * Z) :=
  if v =? NULL then Some (s, - EINVAL) else insert_level (Z.to_nat (b_height s) + 2) s 1 (Val k) v.

(** btree.c:438-439, [n] rounds left *)
Fixpoint append_from (n : nat) (h : heap) (lnode lfill rnode count : Z) : option heap :=
  match n with
  | O => Some h
  | S n => let* h := migrate h lnode (lfill + count) rnode count in append_from n h lnode lfill rnode (count + 1)
  end.
(** btree.c:430-446 [rebalance_merge]; [rec] is [remove_level] *)
Definition rebalance_merge (rec : root -> Z -> kref -> option (root * Z)) (s : root) (level lnode lfill rnode rfill parent index : Z) : option root :=
  let* h := append_from (Z.to_nat rfill) (b_heap s) lnode lfill rnode 0 in
  let* h := set_value h parent index rnode in
  let* h := set_value h parent (index + 1) lnode in
  let* (s, _) := rec (with_heap s h) (level + 1) (Slot parent index) in
  node_free s rnode.
(** btree.c:448-491 [remove_rebalance] *)
Definition remove_rebalance (rec : root -> Z -> kref -> option (root * Z)) (s : root) (level : Z) (key : kref) (child fill : Z) : option root :=
  if fill =? 0 then let* (s, _) := rec s (level + 1) key in node_free s child else
  let* (s, parent) := find_parent s key (level + 1) in
  let* index := find_index (b_heap s) parent key in
  let* try_left := (if index =? 0 then Some None else
    let* node := get_value (b_heap s) parent (index - 1) in
    let* nfill := fill_index (b_heap s) node 0 in
    if fill + nfill <=? K then let* s := rebalance_merge rec s level node nfill child fill parent (index - 1) in Some (Some s) else Some None) in
  match try_left with
  | Some s => Some s
  | None =>
    let* pfill := fill_index (b_heap s) parent index in
    if index + 1 <? pfill then
      let* node := get_value (b_heap s) parent (index + 1) in
      let* nfill := fill_index (b_heap s) node 0 in
      if fill + nfill <=? K then rebalance_merge rec s level child fill node nfill parent index else Some s
    else Some s
  end.
(** btree.c:533-534, [n] rounds left *)
Fixpoint shift_down (n : nat) (h : heap) (node count : Z) : option heap :=
  match n with
  | O => Some h
  | S n => let* h := migrate h node count node (count + 1) in shift_down n h node (count + 1)
  end.
(** btree.c:493-546 [remove_level]; [n] bounds the levels *)
Fixpoint remove_level (n : nat) (s : root) (level : Z) (key : kref) : option (root * Z) :=
  match n with
  | O => None
  | S n =>
    if b_height s <? level then Some ({| b_heap := b_heap s; b_node := NULL; b_height := 0; b_clock := b_clock s |}, NULL) else
    let* (s, node) := find_parent s key level in
    let* index := find_index (b_heap s) node key in
    let* fill := fill_index (b_heap s) node index in
    let last := w32 (fill - 1) in
    let* (early, value) := (if level =? 1 then
        let* c := cmp_key (b_heap s) node index key in
        if negb (c =? 0) then Some (Some NULL, NULL) else
        let* value := get_value (b_heap s) node index in
        match remove with
        | Some f => let r := f value in if r =? NULL then Some (None, value) else Some (Some r, value)
        | None => Some (None, value)
        end
      else Some (None, NULL)) in
    match early with
    | Some r => Some (s, r)
    | None =>
      let* h := shift_down (Z.to_nat (last - index)) (b_heap s) node index in
      let* h := clear_index h node (Z.max index last) in
      let s := with_heap s h in
      let* s := (if last <? K / 2 then
          if level <? b_height s then remove_rebalance (remove_level n) s level key node last
          else if last =? 1 then btree_shrink s else Some s
        else Some s) in
      Some (s, value)
    end
  end.
(** btree.c:566-573 [bfdev_btree_remove] *)
Definition btree_remove (s : root) (k : Z) : option (root * Z) :=
  if b_height s =? 0 then Some (s, NULL) else remove_level (Z.to_nat (b_height s) + 1) s 1 (Val k).

(** btree.c:619-621, 640-643: down along the first and the last children *)
Fixpoint go_first (n : nat) (h : heap) (node : Z) : option Z :=
  match n with O => Some node | S n => let* node := get_value h node 0 in go_first n h node end.
Fixpoint go_last (n : nat) (h : heap) (node : Z) : option Z :=
  match n with
  | O => Some node
  | S n => let* fill := fill_index h node 0 in let* node := get_value h node (w32 (fill - 1)) in go_last n h node
  end.
(** btree.c:608-625 [bfdev_btree_first]; the results are the value and the key buffer afterwards *)
Definition btree_first (s : root) (k : Z) : option (Z * Z) :=
  if b_height s =? 0 then Some (NULL, k) else
  let* node := go_first (Z.to_nat (b_height s - 1)) (b_heap s) (b_node s) in
  let* k := get_key (b_heap s) node 0 in
  let* v := get_value (b_heap s) node 0 in Some (v, k).
(** btree.c:627-648 [bfdev_btree_last] *)
Definition btree_last (s : root) (k : Z) : option (Z * Z) :=
  if b_height s =? 0 then Some (NULL, k) else
  let* node := go_last (Z.to_nat (b_height s - 1)) (b_heap s) (b_node s) in
  let* fill := fill_index (b_heap s) node 0 in
  let last := w32 (fill - 1) in
  let* k := get_key (b_heap s) node last in
  let* v := get_value (b_heap s) node last in Some (v, k).
(** btree.c:664-670: the loop of [bfdev_btree_next], [n] levels left; the node, the index and the levels below *)
Fixpoint next_up (n : nat) (s : root) (key : kref) (depth : Z) : option (root * option (Z * Z * nat)) :=
  match n with
  | O => Some (s, None)
  | S n =>
    let* (s, node) := find_parent s key depth in
    let* index := find_index (b_heap s) node key in
    let* fill := fill_index (b_heap s) node index in
    if index + 1 <? fill then Some (s, Some (node, index + 1, Z.to_nat (depth - 1))) else next_up n s key (depth + 1)
  end.
(** btree.c:675-678 *)
Fixpoint next_down (n : nat) (h : heap) (node index : Z) : option (Z * Z) :=
  match n with
  | O => Some (node, index)
  | S n => let* node := get_value h node index in next_down n h node 0
  end.
(** btree.c:650-682 [bfdev_btree_next] *)
Definition btree_next (s : root) (k : Z) : option (root * (Z * Z)) :=
  if b_height s =? 0 then Some (s, (NULL, k)) else
  if k =? 0 then Some (s, (NULL, k)) else
  let* (s, r) := next_up (Z.to_nat (b_height s)) s (Val k) 1 in
  match r with
  | None => Some (s, (NULL, k))
  | Some (node, index, below) =>
    let* (node, index) := next_down below (b_heap s) node index in
    let* k := get_key (b_heap s) node index in
    let* v := get_value (b_heap s) node index in Some (s, (v, k))
  end.
(** btree.c:698-703 *)
Fixpoint prev_up (n : nat) (s : root) (key : kref) (depth : Z) : option (root * option (Z * Z * nat)) :=
  match n with
  | O => Some (s, None)
  | S n =>
    let* (s, node) := find_parent s key depth in
    let* index := find_index (b_heap s) node key in
    if negb (index =? 0) then Some (s, Some (node, index - 1, Z.to_nat (depth - 1))) else prev_up n s key (depth + 1)
  end.
(** btree.c:708-711 *)
Fixpoint prev_down (n : nat) (h : heap) (node index : Z) : option (Z * Z) :=
  match n with
  | O => Some (node, index)
  | S n =>
    let* node := get_value h node index in
    let* fill := fill_index h node 0 in prev_down n h node (w32 (fill - 1))
  end.
(** btree.c:684-715 [bfdev_btree_prev] *)
Definition btree_prev (s : root) (k : Z) : option (root * (Z * Z)) :=
  if b_height s =? 0 then Some (s, (NULL, k)) else
  if k =? 0 then Some (s, (NULL, k)) else
  let* (s, r) := prev_up (Z.to_nat (b_height s)) s (Val k) 1 in
  match r with
  | None => Some (s, (NULL, k))
  | Some (node, index, below) =>
    let* (node, index) := prev_down below (b_heap s) node index in
    let* k := get_key (b_heap s) node index in
    let* v := get_value (b_heap s) node index in Some (s, (v, k))
  end.
(** btree.c:587-591 with btree.h:198-203 [bfdev_btree_for_each_safe]: each value is handed to the client's [release] and
    its key removed; [n] bounds the rounds, the values released are collected *)
Fixpoint release_from (n : nat) (s : root) (key value tkey tval : Z) : option (root * list Z) :=
  if value =? NULL then Some (s, []) else
  match n with
  | O => None
  | S n =>
    let* (s, _) := btree_remove s key in
    let* (s, (tval', tkey')) := btree_next s tkey in
    let* (s, l) := release_from n s tkey tval tkey' tval' in Some (s, value :: l)
  end.
(** btree.c:575-596 [bfdev_btree_release] *)
Definition btree_release (n : nat) (s : root) : option (root * list Z) :=
  let* (value, key) := btree_first s 0 in
  let* (s, l) := (if value =? NULL then Some (s, []) else
    let* (s, (tval, tkey)) := btree_next s key in release_from n s key value tkey tval) in
  let* s := node_free s (b_node s) in
  Some ({| b_heap := b_heap s; b_node := NULL; b_height := 0; b_clock := b_clock s |}, l).

(** ** Sessions *)
Inductive bop := BLookup (k : Z) | BUpdate (k v : Z) | BInsert (k v : Z) | BRemove (k : Z) | BFirst | BLast | BNext (k : Z) | BPrev (k : Z) | BRelease (n : nat).
Inductive bres := RVal (v : Z) | RCode (c : Z) | RAt (v k : Z) | RList (l : list Z).
Definition btree_exec (s : root) (o : bop) : option (root * bres) :=
  match o with
  | BLookup k => let* v := btree_lookup s k in Some (s, RVal v)
  | BUpdate k v => let* (s, c) := btree_update s k v in Some (s, RCode c)
  | BInsert k v => let* (s, c) := btree_insert s k v in Some (s, RCode c)
  | BRemove k => let* (s, v) := btree_remove s k in Some (s, RVal v)
  | BFirst => let* (v, k) := btree_first s 0 in Some (s, RAt v k)
  | BLast => let* (v, k) := btree_last s 0 in Some (s, RAt v k)
  | BNext k => let* (s, (v, k)) := btree_next s k in Some (s, RAt v k)
  | BPrev k => let* (s, (v, k)) := btree_prev s k in Some (s, RAt v k)
  | BRelease n => let* (s, l) := btree_release n s in Some (s, RList l)
  end.
Fixpoint run_ops (n : nat) (s : root) (prog : list (bop * bres) -> bop) (h : list (bop * bres)) : option (root * list (bop * bres)) :=
  match n with
  | O => Some (s, h)
  | S n => let* (s, r) := btree_exec s (prog h) in run_ops n s prog (h ++ [(prog h, r)])
  end.
End Btree.
