(** * Model of the callbacks that BFDEV_RB_DECLARE_CALLBACKS makes (include/bfdev/rbtree.h:1028-1070), for any summary
    The user's RBCOMPUTE works out the summary of a node from its own value and the summaries of its children, as the one of
    rbtree.h:1074-1097 does; [comb] is that function, with [None] for a child that is not there. *)
From Verif Require Import Lib Ptr Tree TiterModel RbModel.

(** the members of the user's structure after the red-black node: its own value and RBAUGMENTED *)
Definition DATA : Z := 4.
Definition AUG : Z := 6.

Section Comb.
Variable comb : option Z -> Z -> option Z -> Z.
(** rbtree.h:1081-1090: the summary of a child *)
Definition child_sum (m : mem) (child : Z) : option (option Z) :=
  if child =? NULL then Some None else let* s := ld m child AUG in Some (Some s).
(** rbtree.h:1074-1097 RBCOMPUTE in the form of [compute_max] *)
Definition compute (m : mem) (node : Z) (exit : bool) : option (mem * bool) :=
  let* d := ld m node DATA in
  let* l := ld m node LEFT in
  let* ls := child_sum m l in
  let* r := ld m node RIGHT in
  let* rs := child_sum m r in
  let sum := comb ls d rs in
  let* s := ld m node AUG in
  if exit && (s =? sum) then Some (m, true) else
  let* m := st m node AUG sum in
  Some (m, false).
(** rbtree.h:1030-1040 [_rotate] *)
Definition aug_rotate (m : mem) (node successor : Z) : option mem :=
  let* s := ld m node AUG in
  let* m := st m successor AUG s in
  let* r := compute m node false in
  Some (fst r).
(** rbtree.h:1042-1051 [_copy] *)
Definition aug_copy (m : mem) (node successor : Z) : option mem :=
  let* s := ld m node AUG in
  st m successor AUG s.
(** rbtree.h:1053-1064 [_propagate] *)
Fixpoint aug_propagate (fuel : nat) (m : mem) (node stop : Z) : option mem :=
  match fuel with
  | O => None
  | S fuel =>
    if node =? stop then Some m else
    let* r := compute m node true in
    if snd r then Some (fst r) else
    let* parent := ld (fst r) node PARENT in
    aug_propagate fuel (fst r) parent stop
  end.
(** rbtree.h:1066-1070 *)
Definition aug_callbacks (fuel : nat) : callbacks :=
  {| rotate := aug_rotate; copy := aug_copy; propagate := aug_propagate fuel |}.

(** An insertion by a client that keeps the summaries: rb_parent, rb_link, RBCOMPUTE of the new node, propagate from its
    parent, (cached) fixup_augmented - rbtree.h:616-629, 938-947, 1053-1064 and rbtree.c:118-226, 603-639. *)
Definition aug_insert (cached : bool) (fuel : nat) (m : mem) (cmp : Z -> Z -> Z) (root node : Z) : option (mem * bool) :=
  let* p := rb_parent fuel m cmp root node in
  match p with
  | None => Some (m, false)
  | Some (parent, lp, leftmost) =>
    let* m := link m parent lp node in
    let* r := compute m node false in
    let* m := aug_propagate fuel (fst r) parent NULL in
    let* m := if cached && leftmost then st m root LEFTMOST node else Some m in
    let* m := fixup (aug_callbacks fuel) fuel m root node in
    Some (m, true)
  end.
(** The same insertion by a client that calls propagate for the new node and relies on it for the new node's own summary. *)
Definition aug_insert_up (fuel : nat) (m : mem) (cmp : Z -> Z -> Z) (root node : Z) : option (mem * bool) :=
  let* p := rb_parent fuel m cmp root node in
  match p with
  | None => Some (m, false)
  | Some (parent, lp, leftmost) =>
    let* m := link m parent lp node in
    let* m := aug_propagate fuel m node NULL in
    let* m := fixup (aug_callbacks fuel) fuel m root node in
    Some (m, true)
  end.
(** rbtree.h:734-751 [bfdev_rb_delete_augmented], 995-1010 [bfdev_rb_cached_delete_augmented] *)
Definition aug_delete (cached : bool) (fuel : nat) (m : mem) (root node : Z) : option mem :=
  if cached then let* r := cached_delete (aug_callbacks fuel) fuel m root node in Some (fst r)
  else delete (aug_callbacks fuel) fuel m root node.
(** a history of such calls; the replies of the insertions *)
Inductive aop := AIns (n : Z) | ADel (n : Z).
Fixpoint aug_run (cached : bool) (fuel : nat) (m : mem) (cmp : Z -> Z -> Z) (root : Z) (ops : list aop) : option (mem * list bool) :=
  match ops with
  | [] => Some (m, [])
  | AIns n :: ops =>
    let* r := aug_insert cached fuel m cmp root n in
    let* s := aug_run cached fuel (fst r) cmp root ops in
    Some (fst s, snd r :: snd s)
  | ADel n :: ops =>
    let* m := aug_delete cached fuel m root n in
    aug_run cached fuel m cmp root ops
  end.
(** reading off the summary of the whole tree *)
Definition root_sum (m : mem) (root : Z) : option (option Z) := let* r := ld m root NODE in child_sum m r.
End Comb.
