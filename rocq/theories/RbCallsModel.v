(** * Model of the searches of src/rbtree.c with the calls of the client's comparison
    As RbModel, but the client's function may answer differently every time: its answer depends on all earlier calls, which
    are recorded in [tr], newest first. A call compares the key (or the new node) with a node of the tree. *)
From Verif Require Import Lib Ptr Tree TiterModel RbModel.

Section Orc.
Variable orc : list (Z * Z) -> Z -> Z -> Z.
(** rbtree.c:544-564 [bfdev_rb_find]; the sign is that of the key compared with the node, as in RbModel *)
Fixpoint find_loop_o (fuel : nat) (tr : list (Z * Z)) (m : mem) (key node : Z) : option (Z * list (Z * Z)) :=
  match fuel with
  | O => None
  | S fuel =>
    if node =? NULL then Some (NULL, tr) else
    let retval := orc tr key node in
    let tr := (key, node) :: tr in
    if retval =? 0 then Some (node, tr) else
    let* next := if retval >? 0 then ld m node LEFT else ld m node RIGHT in
    find_loop_o fuel tr m key next
  end.
Definition find_o (fuel : nat) (tr : list (Z * Z)) (m : mem) (root key : Z) : option (Z * list (Z * Z)) :=
  let* node := ld m root NODE in find_loop_o fuel tr m key node.
(** rbtree.c:620-632 the loop of [bfdev_rb_parent] *)
Fixpoint parent_loop_o (fuel : nat) (tr : list (Z * Z)) (m : mem) (node : Z) (lp : Z * Z) (leftmost : bool) : option (option (Z * (Z * Z) * bool) * list (Z * Z)) :=
  match fuel with
  | O => None
  | S fuel =>
    let* cur := ld m (fst lp) (snd lp) in
    let retval := orc tr node cur in
    let tr := (node, cur) :: tr in
    if retval =? 0 then Some (None, tr) else
    let '(lp, leftmost) := if retval <? 0 then ((cur, LEFT), leftmost) else ((cur, RIGHT), false) in
    let* next := ld m (fst lp) (snd lp) in
    if negb (next =? NULL) then parent_loop_o fuel tr m node lp leftmost else Some (Some (cur, lp, leftmost), tr)
  end.
(** rbtree.c:603-639 [bfdev_rb_parent] *)
Definition rb_parent_o (fuel : nat) (tr : list (Z * Z)) (m : mem) (root node : Z) : option (option (Z * (Z * Z) * bool) * list (Z * Z)) :=
  let* n := ld m root NODE in
  if n =? NULL then Some (Some (NULL, (root, NODE), true), tr) else
  parent_loop_o fuel tr m node (root, NODE) true.
(** rbtree.c:582-594 the loop of [bfdev_rb_find_last] *)
Fixpoint find_last_loop_o (fuel : nat) (tr : list (Z * Z)) (m : mem) (key : Z) (lp : Z * Z) (leftmost : bool) : option (Z * Z * (Z * Z) * option bool * list (Z * Z)) :=
  match fuel with
  | O => None
  | S fuel =>
    let* cur := ld m (fst lp) (snd lp) in
    let retval := orc tr key cur in
    let tr := (key, cur) :: tr in
    if retval =? 0 then Some (cur, cur, lp, None, tr) else
    let '(lp, leftmost) := if retval >? 0 then ((cur, LEFT), leftmost) else ((cur, RIGHT), false) in
    let* next := ld m (fst lp) (snd lp) in
    if negb (next =? NULL) then find_last_loop_o fuel tr m key lp leftmost else Some (NULL, cur, lp, Some leftmost, tr)
  end.
(** rbtree.c:566-601 [bfdev_rb_find_last] *)
Definition find_last_o (fuel : nat) (tr : list (Z * Z)) (m : mem) (root key : Z) : option (Z * Z * (Z * Z) * option bool * list (Z * Z)) :=
  let* n := ld m root NODE in
  if n =? NULL then Some (NULL, NULL, (root, NODE), Some true, tr) else find_last_loop_o fuel tr m key (root, NODE) true.
(** rbtree.h:652-664 [bfdev_rb_insert] *)
Definition insert_o (fuel : nat) (tr : list (Z * Z)) (m : mem) (root node : Z) : option (mem * bool * list (Z * Z)) :=
  let* (p, tr) := rb_parent_o fuel tr m root node in
  match p with
  | None => Some (m, false, tr)
  | Some (parent, lp, _) => let* m := insert_node dummy_callbacks fuel m root parent lp node in Some (m, true, tr)
  end.
(** rbtree.h:895-908 [bfdev_rb_cached_insert] *)
Definition cached_insert_o (fuel : nat) (tr : list (Z * Z)) (m : mem) (cached node : Z) : option (mem * bool * list (Z * Z)) :=
  let* (p, tr) := rb_parent_o fuel tr m cached node in
  match p with
  | None => Some (m, false, tr)
  | Some (parent, lp, leftmost) => let* m := cached_insert_node dummy_callbacks fuel m cached parent lp node leftmost in Some (m, true, tr)
  end.
End Orc.
