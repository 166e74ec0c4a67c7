(** * Model of src/rbtree.c and include/bfdev/rbtree.h (red-black trees), built without BFDEV_DEBUG_RBTREE
    The model follows the C code statement by statement on a memory of nodes and root objects. Every loop
    takes the number of iterations it may run; running out is [None], as is any access to a missing object. *)
From Verif Require Import Lib Ptr Tree TiterModel.

(** rbtree.h:31 the [color] member of struct bfdev_rb_node *)
Definition COLOR : Z := 3.
(** rbtree.h:18-20 *)
Definition RED : Z := 0.
Definition BLACK : Z := 1.
Definition NSET : Z := 2.
(** rbtree.h:38-41 struct bfdev_rb_root_cached: the root is its first member *)
Definition LEFTMOST : Z := 1.
(** poison.h:26-28 with BFDEV_POISON_OFFSET 0 *)
Definition POISON_RBNODE1 : Z := 0x400.
Definition POISON_RBNODE2 : Z := 0x410.
Definition POISON_RBNODE3 : Z := 0x420.

(** rbtree.h:43-47 struct bfdev_rb_callbacks *)
Record callbacks := { rotate : mem -> Z -> Z -> option mem; copy : mem -> Z -> Z -> option mem; propagate : mem -> Z -> Z -> option mem }.
(** rbtree.c:502-507 [dummy_callbacks] *)
Definition dummy_callbacks : callbacks :=
  {| rotate := fun m _ _ => Some m; copy := fun m _ _ => Some m; propagate := fun m _ _ => Some m |}.

(** rbtree.c:18-28 [child_change] *)
Definition child_change (m : mem) (root parent oldn newn : Z) : option mem :=
  if parent =? NULL then st m root NODE newn else
  let* l := ld m parent LEFT in
  if l =? oldn then st m parent LEFT newn else st m parent RIGHT newn.

Section Cb.
Variable cb : callbacks.
(** rbtree.c:40-64 [rotate_set] *)
Definition rotate_set (m : mem) (root node newn child color ccolor : Z) : option mem :=
  let* parent := ld m node PARENT in
  let* m := st m newn PARENT parent in
  let* m := st m node PARENT newn in
  let* m :=
    if color =? NSET then Some m else
    let* c := ld m node COLOR in
    let* m := st m newn COLOR c in
    st m node COLOR color in
  let* m :=
    if child =? NULL then Some m else
    let* m := if ccolor =? NSET then Some m else st m child COLOR ccolor in
    st m child PARENT node in
  let* m := child_change m root parent node newn in
  rotate cb m node newn.
(** rbtree.c:74-90 [left_rotate] *)
Definition left_rotate (m : mem) (root node color ccolor : Z) : option (mem * Z) :=
  let* successor := ld m node RIGHT in
  let* child := ld m successor LEFT in
  let* m := st m node RIGHT child in
  let* m := st m successor LEFT node in
  let* m := rotate_set m root node successor child color ccolor in
  Some (m, child).
(** rbtree.c:100-116 [right_rotate] *)
Definition right_rotate (m : mem) (root node color ccolor : Z) : option (mem * Z) :=
  let* successor := ld m node LEFT in
  let* child := ld m successor RIGHT in
  let* m := st m node LEFT child in
  let* m := st m successor RIGHT node in
  let* m := rotate_set m root node successor child color ccolor in
  Some (m, child).
(** [tmp && tmp->color == BFDEV_RB_RED] *)
Definition is_red (m : mem) (p : Z) : option bool :=
  if p =? NULL then Some false else let* c := ld m p COLOR in Some (c =? RED).
(** [!tmp || tmp->color == BFDEV_RB_BLACK] *)
Definition is_black (m : mem) (p : Z) : option bool :=
  if p =? NULL then Some true else let* c := ld m p COLOR in Some (c =? BLACK).

(** rbtree.c:118-226 [bfdev_rb_fixup_augmented] *)
Fixpoint fixup (fuel : nat) (m : mem) (root node : Z) : option mem :=
  match fuel with
  | O => None
  | S fuel =>
    if node =? NULL then Some m else
    let* parent := ld m node PARENT in
    if parent =? NULL then st m node COLOR BLACK else
    let* c := ld m parent COLOR in
    if c =? BLACK then Some m else
    let* gparent := ld m parent PARENT in
    let* tmp := ld m gparent RIGHT in
    if negb (tmp =? parent) then
      let* red := is_red m tmp in
      if red then
        let* m := st m tmp COLOR BLACK in
        let* m := st m parent COLOR BLACK in
        let* m := st m gparent COLOR RED in
        fixup fuel m root gparent
      else
        let* r := ld m parent RIGHT in
        let* m := if node =? r then let* x := left_rotate m root parent NSET BLACK in Some (fst x) else Some m in
        let* x := right_rotate m root gparent RED BLACK in Some (fst x)
    else
      let* tmp := ld m gparent LEFT in
      let* red := is_red m tmp in
      if red then
        let* m := st m tmp COLOR BLACK in
        let* m := st m parent COLOR BLACK in
        let* m := st m gparent COLOR RED in
        fixup fuel m root gparent
      else
        let* l := ld m parent LEFT in
        let* m := if node =? l then let* x := right_rotate m root parent NSET BLACK in Some (fst x) else Some m in
        let* x := left_rotate m root gparent RED BLACK in Some (fst x)
  end.

(** rbtree.c:228-376 [bfdev_rb_erase_augmented]: one run of the loop body from [parent] and [node]; the
    function is entered with [node] null. *)
Fixpoint erase_loop (fuel : nat) (m : mem) (root parent node : Z) : option mem :=
  match fuel with
  | O => None
  | S fuel =>
    if parent =? NULL then Some m else
    let* sibling := ld m parent RIGHT in
    if negb (node =? sibling) then
      let* c := ld m sibling COLOR in
      let* ms := if c =? RED then left_rotate m root parent RED BLACK else Some (m, sibling) in
      let '(m, sibling) := ms in
      let* tmp2 := ld m sibling RIGHT in
      let* b2 := is_black m tmp2 in
      let* next :=
        (if b2 then
          let* tmp1 := ld m sibling LEFT in
          let* b1 := is_black m tmp1 in
          if b1 then
            let* m := st m sibling COLOR RED in
            let* pc := ld m parent COLOR in
            if pc =? RED then let* m := st m parent COLOR BLACK in Some (m, None)
            else let* pp := ld m parent PARENT in Some (m, Some (inl (parent, pp)))
          else
            let* x := right_rotate m root sibling NSET BLACK in
            Some (fst x, Some (inr sibling))
        else Some (m, Some (inr tmp2))) in
      match next with
      | (m, None) => Some m
      | (m, Some (inl (node, parent))) => if negb (parent =? NULL) then erase_loop fuel m root parent node else Some m
      | (m, Some (inr tmp2)) =>
        let* x := left_rotate m root parent BLACK NSET in
        st (fst x) tmp2 COLOR BLACK
      end
    else
      let* sibling := ld m parent LEFT in
      let* c := ld m sibling COLOR in
      let* ms := if c =? RED then right_rotate m root parent RED BLACK else Some (m, sibling) in
      let '(m, sibling) := ms in
      let* tmp1 := ld m sibling LEFT in
      let* b1 := is_black m tmp1 in
      let* next :=
        (if b1 then
          let* tmp2 := ld m sibling RIGHT in
          let* b2 := is_black m tmp2 in
          if b2 then
            let* m := st m sibling COLOR RED in
            let* pc := ld m parent COLOR in
            if pc =? RED then let* m := st m parent COLOR BLACK in Some (m, None)
            else let* pp := ld m parent PARENT in Some (m, Some (inl (parent, pp)))
          else
            let* x := left_rotate m root sibling NSET BLACK in
            Some (fst x, Some (inr sibling))
        else Some (m, Some (inr tmp1))) in
      match next with
      | (m, None) => Some m
      | (m, Some (inl (node, parent))) => if negb (parent =? NULL) then erase_loop fuel m root parent node else Some m
      | (m, Some (inr tmp1)) =>
        let* x := right_rotate m root parent BLACK NSET in
        st (fst x) tmp1 COLOR BLACK
      end
  end.
Definition erase (fuel : nat) (m : mem) (root parent : Z) : option mem := erase_loop fuel m root parent NULL.

(** rbtree.c:465-469 the loop looking for the leftmost node: [parent] and [successor] on exit *)
Fixpoint succ_loop (fuel : nat) (m : mem) (successor child1 : Z) : option (Z * Z) :=
  match fuel with
  | O => None
  | S fuel =>
    let parent := successor in
    let successor := child1 in
    let* child1 := ld m child1 LEFT in
    if negb (child1 =? NULL) then succ_loop fuel m successor child1 else Some (parent, successor)
  end.
(** rbtree.c:378-500 [bfdev_rb_remove_augmented]: the memory and the node to rebalance at *)
Definition remove (fuel : nat) (m : mem) (root node : Z) : option (mem * Z) :=
  let* parent := ld m node PARENT in
  let* child1 := ld m node LEFT in
  let* child2 := ld m node RIGHT in
  if (child1 =? NULL) && (child2 =? NULL) then
    let* c := ld m node COLOR in
    let rebalance := if c =? BLACK then parent else NULL in
    let* m := child_change m root parent node NULL in
    let* m := propagate cb m parent NULL in Some (m, rebalance)
  else if child2 =? NULL then
    let* c := ld m node COLOR in
    let* m := st m child1 COLOR c in
    let* p := ld m node PARENT in
    let* m := st m child1 PARENT p in
    let* m := child_change m root parent node child1 in
    let* m := propagate cb m parent NULL in Some (m, NULL)
  else if child1 =? NULL then
    let* c := ld m node COLOR in
    let* m := st m child2 COLOR c in
    let* p := ld m node PARENT in
    let* m := st m child2 PARENT p in
    let* m := child_change m root parent node child2 in
    let* m := propagate cb m parent NULL in Some (m, NULL)
  else
    let* child1 := ld m child2 LEFT in
    let* x :=
      if child1 =? NULL then
        let successor := child2 in
        let* tmp := ld m successor RIGHT in
        let* m := copy cb m node successor in
        Some (m, (successor, successor, tmp))
      else
        let* ps := succ_loop fuel m child2 child1 in
        let '(parent, successor) := ps in
        let* tmp := ld m successor RIGHT in
        let* m := st m parent LEFT tmp in
        let* m := st m successor RIGHT child2 in
        let* m := st m child2 PARENT successor in
        let* m := copy cb m node successor in
        let* m := propagate cb m parent successor in
        Some (m, (parent, successor, tmp)) in
    let '(m, (parent, successor, tmp)) := x in
    let* child1 := ld m node LEFT in
    let* m := st m successor LEFT child1 in
    let* m := st m child1 PARENT successor in
    let* child1 := ld m node PARENT in
    let* m := child_change m root child1 node successor in
    let* mr :=
      if negb (tmp =? NULL) then
        let* m := st m tmp PARENT parent in
        let* m := st m tmp COLOR BLACK in Some (m, NULL)
      else
        let* c := ld m successor COLOR in
        Some (m, if c =? BLACK then parent else NULL) in
    let '(m, rebalance) := mr in
    let* m := st m successor PARENT child1 in
    let* c := ld m node COLOR in
    let* m := st m successor COLOR c in
    let* m := propagate cb m successor NULL in
    Some (m, rebalance).

(** rbtree.h:616-629 [bfdev_rb_link]; the link is a field of an object *)
Definition link (m : mem) (parent : Z) (lp : Z * Z) (node : Z) : option mem :=
  let* m := st m (fst lp) (snd lp) node in
  let* m := st m node PARENT parent in
  let* m := st m node COLOR RED in
  let* m := st m node RIGHT NULL in
  st m node LEFT NULL.
(** rbtree.h:638-644 [bfdev_rb_insert_node], 697-704 [bfdev_rb_insert_node_augmented] *)
Definition insert_node (fuel : nat) (m : mem) (root parent : Z) (lp : Z * Z) (node : Z) : option mem :=
  let* m := link m parent lp node in fixup fuel m root node.
(** rbtree.h:671-687 [bfdev_rb_delete], 734-751 [bfdev_rb_delete_augmented] *)
Definition delete (fuel : nat) (m : mem) (root node : Z) : option mem :=
  let* mr := remove fuel m root node in
  let '(m, rebalance) := mr in
  let* m := if negb (rebalance =? NULL) then erase fuel m root rebalance else Some m in
  let* m := st m node LEFT POISON_RBNODE1 in
  let* m := st m node RIGHT POISON_RBNODE2 in
  st m node PARENT POISON_RBNODE3.
End Cb.

(** rbtree.c:527-542 [bfdev_rb_replace]; [*newn = *oldn] copies the four members *)
Definition replace (m : mem) (root oldn newn : Z) : option mem :=
  let* parent := ld m oldn PARENT in
  let* l := ld m oldn LEFT in
  let* r := ld m oldn RIGHT in
  let* c := ld m oldn COLOR in
  let* m := st m newn PARENT parent in
  let* m := st m newn LEFT l in
  let* m := st m newn RIGHT r in
  let* m := st m newn COLOR c in
  let* l := ld m oldn LEFT in
  let* m := if negb (l =? NULL) then st m l PARENT newn else Some m in
  let* r := ld m oldn RIGHT in
  let* m := if negb (r =? NULL) then st m r PARENT newn else Some m in
  child_change m root parent oldn newn.

(** rbtree.c:544-564 [bfdev_rb_find]; the callback compares a node with the key that is looked for *)
Fixpoint find_loop (fuel : nat) (m : mem) (find : Z -> Z) (node : Z) : option Z :=
  match fuel with
  | O => None
  | S fuel =>
    if node =? NULL then Some NULL else
    let retval := find node in
    if retval =? 0 then Some node else
    let* next := if retval >? 0 then ld m node LEFT else ld m node RIGHT in
    find_loop fuel m find next
  end.
Definition find (fuel : nat) (m : mem) (root : Z) (f : Z -> Z) : option Z :=
  let* node := ld m root NODE in find_loop fuel m f node.

(** rbtree.c:620-632 the loop of [bfdev_rb_parent], entered with [*link] not null: the parent, the link and
    whether the path only went left; [None] inside when an equal node is met *)
Fixpoint parent_loop (fuel : nat) (m : mem) (cmp : Z -> Z -> Z) (node : Z) (lp : Z * Z) (leftmost : bool) : option (option (Z * (Z * Z) * bool)) :=
  match fuel with
  | O => None
  | S fuel =>
    let* cur := ld m (fst lp) (snd lp) in
    let retval := cmp node cur in
    if retval =? 0 then Some None else
    let '(lp, leftmost) := if retval <? 0 then ((cur, LEFT), leftmost) else ((cur, RIGHT), false) in
    let* next := ld m (fst lp) (snd lp) in
    if negb (next =? NULL) then parent_loop fuel m cmp node lp leftmost else Some (Some (cur, lp, leftmost))
  end.
(** rbtree.c:603-639 [bfdev_rb_parent] *)
Definition rb_parent (fuel : nat) (m : mem) (cmp : Z -> Z -> Z) (root node : Z) : option (option (Z * (Z * Z) * bool)) :=
  let* n := ld m root NODE in
  if n =? NULL then Some (Some (NULL, (root, NODE), true)) else
  parent_loop fuel m cmp node (root, NODE) true.

(** rbtree.c:582-594 the loop of [bfdev_rb_find_last]: the result, the last node visited, the last link and
    whether the path only went left ([None]: when a node is found [*leftmostp] is not written) *)
Fixpoint find_last_loop (fuel : nat) (m : mem) (find : Z -> Z) (lp : Z * Z) (leftmost : bool) : option (Z * Z * (Z * Z) * option bool) :=
  match fuel with
  | O => None
  | S fuel =>
    let* cur := ld m (fst lp) (snd lp) in
    let retval := find cur in
    if retval =? 0 then Some (cur, cur, lp, None) else
    let '(lp, leftmost) := if retval >? 0 then ((cur, LEFT), leftmost) else ((cur, RIGHT), false) in
    let* next := ld m (fst lp) (snd lp) in
    if negb (next =? NULL) then find_last_loop fuel m find lp leftmost else Some (NULL, cur, lp, Some leftmost)
  end.
(** rbtree.c:566-601 [bfdev_rb_find_last] *)
Definition find_last (fuel : nat) (m : mem) (root : Z) (f : Z -> Z) : option (Z * Z * (Z * Z) * option bool) :=
  let* n := ld m root NODE in
  if n =? NULL then Some (NULL, NULL, (root, NODE), Some true) else find_last_loop fuel m f (root, NODE) true.

(** rbtree.h:652-664 [bfdev_rb_insert], 713-726 [bfdev_rb_insert_augmented] *)
Definition insert (cb : callbacks) (fuel : nat) (m : mem) (cmp : Z -> Z -> Z) (root node : Z) : option (mem * bool) :=
  let* p := rb_parent fuel m cmp root node in
  match p with
  | None => Some (m, false)
  | Some (parent, lp, _) => let* m := insert_node cb fuel m root parent lp node in Some (m, true)
  end.
(** rbtree.h:863-871 [bfdev_rb_cached_fixup], 881-887 [bfdev_rb_cached_insert_node] and the augmented ones, 938-964 *)
Definition cached_insert_node (cb : callbacks) (fuel : nat) (m : mem) (cached parent : Z) (lp : Z * Z) (node : Z) (leftmost : bool) : option mem :=
  let* m := link m parent lp node in
  let* m := if leftmost then st m cached LEFTMOST node else Some m in
  fixup cb fuel m cached node.
(** rbtree.h:895-908 [bfdev_rb_cached_insert], 973-987 the augmented one *)
Definition cached_insert (cb : callbacks) (fuel : nat) (m : mem) (cmp : Z -> Z -> Z) (cached node : Z) : option (mem * bool) :=
  let* p := rb_parent fuel m cmp cached node in
  match p with
  | None => Some (m, false)
  | Some (parent, lp, leftmost) => let* m := cached_insert_node cb fuel m cached parent lp node leftmost in Some (m, true)
  end.
(** rbtree.h:915-929 [bfdev_rb_cached_delete], 995-1010 the augmented one *)
Definition cached_delete (cb : callbacks) (fuel : nat) (m : mem) (cached node : Z) : option (mem * Z) :=
  let* cl := ld m cached LEFTMOST in
  let* ml :=
    if negb (cl =? node) then Some (m, NULL) else
    let* leftmost := in_next m fuel node in
    let* m := st m cached LEFTMOST leftmost in
    Some (m, leftmost) in
  let '(m, leftmost) := ml in
  let* m := delete cb fuel m cached node in
  Some (m, leftmost).
(** rbtree.h:1018-1026 [bfdev_rb_cached_replace] *)
Definition cached_replace (m : mem) (cached oldn newn : Z) : option mem :=
  let* cl := ld m cached LEFTMOST in
  let* m := if cl =? oldn then st m cached LEFTMOST newn else Some m in
  replace m cached oldn newn.
