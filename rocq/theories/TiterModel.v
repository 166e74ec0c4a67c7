(** * Model of include/bfdev/titer.h (tree iterators)
    The macros are instantiated by rbtree.c:641-662 and heap.c:218-233 with the links of Tree.v. Every loop
    takes the number of iterations it may run; running out is [None]. A null test of the root object itself
    ([!root], after [root] has been read) is omitted. *)
From Verif Require Import Lib Ptr Tree BitsModel.

Section Iter.
Variable m : mem.
(** titer.h:17-24 [_left_far] *)
Fixpoint left_far (fuel : nat) (node : Z) : option Z :=
  match fuel with
  | O => None
  | S fuel => let* l := ld m node LEFT in if l =? NULL then Some node else left_far fuel l
  end.
(** titer.h:26-33 [_right_far] *)
Fixpoint right_far (fuel : nat) (node : Z) : option Z :=
  match fuel with
  | O => None
  | S fuel => let* r := ld m node RIGHT in if r =? NULL then Some node else right_far fuel r
  end.
(** titer.h:35-48 [_left_deep] *)
Fixpoint left_deep (fuel : nat) (node : Z) : option Z :=
  match fuel with
  | O => None
  | S fuel =>
    if node =? NULL then Some NULL else
    let* l := ld m node LEFT in
    if negb (l =? NULL) then left_deep fuel l else
    let* r := ld m node RIGHT in
    if negb (r =? NULL) then left_deep fuel r else Some node
  end.
(** titer.h:50-63 [_right_deep] *)
Fixpoint right_deep (fuel : nat) (node : Z) : option Z :=
  match fuel with
  | O => None
  | S fuel =>
    if node =? NULL then Some NULL else
    let* r := ld m node RIGHT in
    if negb (r =? NULL) then right_deep fuel r else
    let* l := ld m node LEFT in
    if negb (l =? NULL) then right_deep fuel l else Some node
  end.
(** titer.h:67-77 [_first] of the inorder iterator *)
Definition in_first (fuel : nat) (root : Z) : option Z :=
  let* node := ld m root NODE in
  if node =? NULL then Some NULL else left_far fuel node.
(** titer.h:79-89 [_last] *)
Definition in_last (fuel : nat) (root : Z) : option Z :=
  let* node := ld m root NODE in
  if node =? NULL then Some NULL else right_far fuel node.
(** titer.h:111-112 the climbing loop of [_prev] *)
Fixpoint climb_prev (fuel : nat) (node : Z) : option Z :=
  match fuel with
  | O => None
  | S fuel =>
    let* parent := ld m node PARENT in
    if parent =? NULL then Some parent else
    let* r := ld m parent RIGHT in
    if negb (node =? r) then climb_prev fuel parent else Some parent
  end.
(** titer.h:91-115 [_prev] *)
Definition in_prev (fuel : nat) (node : Z) : option Z :=
  if node =? NULL then Some NULL else
  let* l := ld m node LEFT in
  if negb (l =? NULL) then right_far fuel l else climb_prev fuel node.
(** titer.h:137-138 the climbing loop of [_next] *)
Fixpoint climb_next (fuel : nat) (node : Z) : option Z :=
  match fuel with
  | O => None
  | S fuel =>
    let* parent := ld m node PARENT in
    if parent =? NULL then Some parent else
    let* l := ld m parent LEFT in
    if negb (node =? l) then climb_next fuel parent else Some parent
  end.
(** titer.h:117-141 [_next] *)
Definition in_next (fuel : nat) (node : Z) : option Z :=
  if node =? NULL then Some NULL else
  let* r := ld m node RIGHT in
  if negb (r =? NULL) then left_far fuel r else climb_next fuel node.
(** titer.h:145-149 [_first] of the preorder iterator *)
Definition pre_first (root : Z) : option Z := ld m root NODE.
(** titer.h:172-176 the climbing loop and the return of the preorder [_next] *)
Fixpoint climb_pre (fuel : nat) (node : Z) : option Z :=
  match fuel with
  | O => None
  | S fuel =>
    let* parent := ld m node PARENT in
    if parent =? NULL then Some NULL else
    let* r := ld m parent RIGHT in
    if (r =? NULL) || (node =? r) then climb_pre fuel parent else Some r
  end.
(** titer.h:151-177 [_next] *)
Definition pre_next (fuel : nat) (node : Z) : option Z :=
  if node =? NULL then Some NULL else
  let* l := ld m node LEFT in
  if negb (l =? NULL) then Some l else
  let* r := ld m node RIGHT in
  if negb (r =? NULL) then Some r else climb_pre fuel node.
(** titer.h:181-190 [_first] of the postorder iterator *)
Definition post_first (fuel : nat) (root : Z) : option Z :=
  let* node := ld m root NODE in
  if node =? NULL then Some NULL else left_deep fuel node.
(** titer.h:192-210 [_next] *)
Definition post_next (fuel : nat) (node : Z) : option Z :=
  if node =? NULL then Some NULL else
  let* parent := ld m node PARENT in
  if parent =? NULL then Some parent else
  let* l := ld m parent LEFT in
  if node =? l then
    let* r := ld m parent RIGHT in
    if negb (r =? NULL) then left_deep fuel r else Some parent
  else Some parent.
(** titer.h:229-234 the loop of the levelorder [_next]; also heap.c:207-213 *)
Fixpoint walk_bits (depth : nat) (index node : Z) : option Z :=
  match depth with
  | O => Some node
  | S depth =>
    if node =? NULL then Some NULL else
    let* next := if negb (Z.land index (2 ^ Z.of_nat depth) =? 0) then ld m node RIGHT else ld m node LEFT in
    walk_bits depth index next
  end.
(** titer.h:214-221 [_first] of the levelorder iterator: the node and the counter *)
Definition level_first (root : Z) : option (Z * Z) := let* node := ld m root NODE in Some (node, 0).
(** titer.h:223-237 [_next]: the node and the advanced counter *)
Definition level_next (root index : Z) : option (Z * Z) :=
  let index := w64 (index + 1) in
  let depth := flsuf (w64 (index + 1)) in
  let* node := ld m root NODE in
  let* node := walk_bits (Z.to_nat depth) (w64 (index + 1)) node in
  Some (node, index).
End Iter.
(** The [for_each] loops of rbtree.h:325-334 and 440-441, 506-507: the nodes visited in turn. *)
Fixpoint visit (next : Z -> option Z) (fuel : nat) (pos : Z) : option (list Z) :=
  match fuel with
  | O => None
  | S fuel => if pos =? NULL then Some [] else let* pos' := next pos in let* rest := visit next fuel pos' in Some (pos :: rest)
  end.
