(** * Specification of skip lists: a sorted list of nodes, each with a key and a height *)
From Verif Require Import Lib Ptr ListModel SkiplistModel.
From Coq Require Export Sorted.

Record entry := { e_node : Z; e_key : Z; e_height : Z }.
(** The user's comparison is an order (equal keys allowed), the search function agrees with it. *)
Record ordering (cmp : Z -> Z -> Z) : Prop := {
  ord_asym : forall a b, cmp a b < 0 -> cmp b a >= 0;
  ord_trans : forall a b c, cmp b a >= 0 -> cmp c b >= 0 -> cmp c a >= 0 }.
Definition monotone (cmp : Z -> Z -> Z) (f : Z -> Z) : Prop := forall a b, cmp b a >= 0 -> (f a >= 0 -> f b >= 0) /\ (f a > 0 -> f b > 0).
Definition in_order (cmp : Z -> Z -> Z) (s : list entry) : Prop := StronglySorted (fun a b => cmp (e_key b) (e_key a) >= 0) s.
(** An allocator answers NULL or the address of memory in which there is nothing yet. *)
Definition allocator (al : mem -> Z -> Z) : Prop :=
  forall m size, al m size = NULL \/ forall q, al m size <= q < al m size + size -> m q KEY = None /\ m q NEXT = None.
(** The nodes on a level, the greatest height. *)
Definition level (i : Z) (s : list entry) : list Z := map e_node (filter (fun e => i <? e_height e) s).
Definition tallest (s : list entry) : Z := fold_right (fun e t => Z.max (e_height e) t) 0 s.
Inductive sublist {A} : list A -> list A -> Prop :=
| sub_nil l : sublist [] l
| sub_skip x k l : sublist k l -> sublist k (x :: l)
| sub_take x k l : sublist k l -> sublist (x :: k) (x :: l).

(** [st_ok]: no insertion at a new height has failed since the last reset. *)
Record sstate := { st_list : list entry; st_ok : bool }.
(** the tallest of the nodes that match (one of them) *)
Definition match_top (f : Z -> Z) (s : list entry) (e : entry) : Prop := f (e_key e) = 0 /\ forall e', In e' s -> f (e_key e') = 0 -> e_height e' <= e_height e.
Inductive sstep (cmp : Z -> Z -> Z) (levels : Z) (full : Prop) (s : sstate) : sop -> sres -> sstate -> Prop :=
| insert_new k rand n L R : st_list s = L ++ R -> (forall e, In e L -> cmp (e_key e) k < 0) -> (forall e, In e R -> cmp (e_key e) k >= 0) -> n <> NULL -> ~ In n (map e_node (st_list s)) ->
  sstep cmp levels full s (SInsert k rand) (RCode 0) {| st_list := L ++ {| e_node := n; e_key := k; e_height := random_level levels rand |} :: R; st_ok := st_ok s |}
| insert_full k rand : full ->
  sstep cmp levels full s (SInsert k rand) (RCode (- ENOMEM)) {| st_list := st_list s; st_ok := st_ok s && (random_level levels rand <=? tallest (st_list s)) |}
| find_one f e : In e (st_list s) -> match_top f (st_list s) e -> sstep cmp levels full s (SFind f) (RNode (e_node e)) s
| find_none f : (forall e, In e (st_list s) -> f (e_key e) <> 0) -> sstep cmp levels full s (SFind f) (RNode NULL) s
| del_one f L e R : st_list s = L ++ e :: R -> match_top f (st_list s) e -> sstep cmp levels full s (SDel f) RUnit {| st_list := L ++ R; st_ok := st_ok s |}
| del_none f : (forall e, In e (st_list s) -> f (e_key e) <> 0) -> sstep cmp levels full s (SDel f) RUnit s
| each_level i : sstep cmp levels full s (SEach i) (RList (level i (st_list s))) s
| back_level i : sstep cmp levels full s (SBack i) (RList (rev (level i (st_list s)))) s
| reset_all : sstep cmp levels full s SReset (RList (map e_key (st_list s))) {| st_list := []; st_ok := true |}.
Definition sallowed (cmp : Z -> Z -> Z) (levels : Z) (s : sstate) (o : sop) : Prop :=
  match o with
  | SFind f | SDel f => st_ok s = true /\ monotone cmp f
  | SEach i | SBack i => 0 <= i < levels
  | _ => True
  end.
Inductive reach (cmp : Z -> Z -> Z) (levels : Z) : list (sop * sres) -> sstate -> Prop :=
| reach_nil : reach cmp levels [] {| st_list := []; st_ok := true |}
| reach_step h s o r s' : reach cmp levels h s -> sstep cmp levels True s o r s' -> reach cmp levels (h ++ [(o, r)]) s'.
(** A client that keeps to the rules. *)
Definition polite (cmp : Z -> Z -> Z) (levels : Z) (prog : list (sop * sres) -> sop) : Prop := forall h s, reach cmp levels h s -> sallowed cmp levels s (prog h).
