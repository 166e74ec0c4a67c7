(** * Model of src/skiplist.c and include/bfdev/skiplist.h
    A node at [p] has its key at [p] and the links of level [i] at [p + 8 + 16 * i]; a list at [h] has the head of level
    [i] at [h + 16 + 16 * i]. The fields [curr] and [levels] are kept in a record. *)
From Verif Require Import Lib Ptr ListModel.

Definition KEY : Z := 2.
(** what the allocator knows of a block: how many levels it was asked for *)
Definition BLOCK : Z := 3.
(** skiplist.h:20-30 struct bfdev_skip_node, struct bfdev_skip_head *)
Definition cell (p i : Z) : Z := p + 8 + 16 * i.
Definition hcell (h i : Z) : Z := h + 16 + 16 * i.
Record skip := { s_head : Z; s_curr : Z; s_levels : Z }.
(** the links of [n] levels, the first of them at [p] *)
Definition in_cells (p n q : Z) : bool := (p <=? q) && (q <? p + 16 * n) && ((q - p) mod 16 =? 0).
Definition is_link (g : Z) : bool := (g =? NEXT) || (g =? PREV).
Definition owns (p n q g : Z) : bool := ((q =? p) && ((g =? KEY) || (g =? BLOCK))) || (in_cells (p + 8) n q && is_link g).
(** memory that comes (contents unspecified, here 7) and goes *)
Definition alloc_node (m : mem) (p n : Z) : mem := fun q g => if owns p n q g then Some (if g =? BLOCK then n else 7) else m q g.
Definition alloc_head (m : mem) (h n : Z) : mem := fun q g => if in_cells (h + 16) n q && is_link g then Some 7 else m q g.
Definition free_node (m : mem) (p : Z) : option mem := let* n := ld m p BLOCK in Some (fun q g => if owns p n q g then None else m q g).

(** skiplist.c:10-23; [rand] are the numbers drawn, RAND_MAX is 2^31-1; the loop ends within [levels] rounds *)
Fixpoint random_from (n : nat) (level levels : Z) (rand : nat -> Z) : Z :=
  match n with
  | O => level
  | S n => if level <? levels then if rand O >? 2147483647 / 4 then level else random_from n (level + 1) levels (fun k => rand (S k)) else level
  end.
Definition random_level (levels : Z) (rand : nat -> Z) : Z := random_from (Z.to_nat levels) 1 levels rand.

Section Skip.
(** the allocator's answer to a request for [size] bytes *)
Variable al : mem -> Z -> Z.
(** the user's order *)
Variable cmp : Z -> Z -> Z.
(** bounds the walks along one level *)
Variable fuel : nat.

(** skiplist.c:41-49, 84-92, list.h:474-476: one level. [test] is the comparison; a result is (end, walk, retval), where
    retval is [None] while it is not initialised. *)
Fixpoint scan_from (n : nat) (m : mem) (test : Z -> Z) (count pos last walk : Z) (retval : option Z) : option (Z * Z * option Z) :=
  if last =? pos then Some (last, walk, retval) else
  match n with
  | O => None
  | S n =>
    let walk := pos - 8 - 16 * count in
    let* key := ld m walk KEY in
    let r := test key in
    if r >=? 0 then Some (pos, walk, Some r)
    else let* pos := ld m pos NEXT in scan_from n m test count pos last walk (Some r)
  end.
Definition scan (m : mem) (test : Z -> Z) (count pos last walk : Z) (retval : option Z) : option (Z * Z * option Z) :=
  let* pos := ld m pos NEXT in scan_from fuel m test count pos last walk retval.
(** skiplist.c:40-60, the loop of [skipnode_find], [n] levels left; reading retval before it is set is undefined.
    The result is (node, *plev). (The addresses below the arrays computed after the last level are not used.) *)
Fixpoint find_down (n : nat) (m : mem) (find : Z -> Z) (pos last walk : Z) (retval : option Z) : option (Z * Z) :=
  match n with
  | O => Some (NULL, 0)
  | S n =>
    let level := Z.of_nat n in
    let* (x, retval) := scan m find level pos last walk retval in
    let (last, walk) := x in
    let* r := retval in
    if r =? 0 then Some (walk, level + 1)
    else let* pos := ld m last PREV in find_down n m find (pos - 16) (last - 16) walk retval
  end.
(** skiplist.c:25-61 [skipnode_find] *)
Definition skipnode_find (m : mem) (h : skip) (find : Z -> Z) : option (Z * Z) :=
  if s_curr h =? 0 then Some (NULL, 0) else
  find_down (Z.to_nat (s_curr h)) m find (hcell (s_head h) (s_curr h - 1)) (hcell (s_head h) (s_curr h - 1)) 0 None.
(** skiplist.c:83-97, the loop of [bfdev_skiplist_insert] *)
Fixpoint insert_down (n : nat) (m : mem) (test : Z -> Z) (node level pos last walk : Z) (retval : option Z) : option mem :=
  match n with
  | O => Some m
  | S n =>
    let count := Z.of_nat n in
    let* (x, retval) := scan m test count pos last walk retval in
    let (last, walk) := x in
    let* pos := ld m last PREV in
    let* m := (if count <? level then list_add m pos (cell node count) else Some m) in
    insert_down n m test node level (pos - 16) (last - 16) walk retval
  end.
(** skiplist.c:63-101 [bfdev_skiplist_insert] *)
Definition skip_insert (m : mem) (h : skip) (key : Z) (rand : nat -> Z) : option (mem * skip * Z) :=
  let level := random_level (s_levels h) rand in
  let h := {| s_head := s_head h; s_curr := Z.max (s_curr h) level; s_levels := s_levels h |} in
  let node := al m (8 + 16 * level) in
  if node =? NULL then Some (m, h, - ENOMEM) else
  let m := alloc_node m node level in
  let* m := st m node KEY key in
  let top := hcell (s_head h) (s_curr h - 1) in
  let* m := insert_down (Z.to_nat (s_curr h)) m (fun k => cmp k key) node level top top 0 None in
  Some (m, h, 0).
(** skiplist.c:115-119 *)
Fixpoint del_down (n : nat) (m : mem) (h : skip) (node : Z) : option (mem * skip) :=
  match n with
  | O => Some (m, h)
  | S n =>
    let level := Z.of_nat n in
    let* m := list_del m (cell node level) in
    let* e := list_check_empty m (hcell (s_head h) level) in
    del_down n m (if e then {| s_head := s_head h; s_curr := level; s_levels := s_levels h |} else h) node
  end.
(** skiplist.c:103-122 [bfdev_skiplist_delete] *)
Definition skip_delete (m : mem) (h : skip) (find : Z -> Z) : option (mem * skip) :=
  let* (node, level) := skipnode_find m h find in
  if node =? NULL then Some (m, h) else
  let* (m, h) := del_down (Z.to_nat level) m h node in
  let* m := free_node m node in Some (m, h).
(** skiplist.c:124-131 [bfdev_skiplist_find] *)
Definition skip_find (m : mem) (h : skip) (find : Z -> Z) : option Z := let* (node, _) := skipnode_find m h find in Some node.
(** skiplist.c:133-145 [skiplist_release] with the loop of list.h:622-626; the keys given to [release] are logged. Here
    [pos] and [tmp] are the links of level 0. *)
Fixpoint release_from (n : nat) (m : mem) (head pos tmp : Z) : option (mem * list Z) :=
  if pos =? head then Some (m, []) else
  match n with
  | O => None
  | S n =>
    let node := pos - 8 in
    let* key := ld m node KEY in
    let* m := free_node m node in
    let* tmp' := ld m tmp NEXT in
    let* (m, log) := release_from n m head tmp tmp' in Some (m, key :: log)
  end.
Definition release_all (m : mem) (h : skip) : option (mem * list Z) :=
  let* pos := ld m (hcell (s_head h) 0) NEXT in
  let* tmp := ld m pos NEXT in
  release_from fuel m (hcell (s_head h) 0) pos tmp.
(** skiplist.c:154-155, 173-174; [n] heads are left *)
Fixpoint init_heads (n : nat) (m : mem) (h i : Z) : option mem :=
  match n with O => Some m | S n => let* m := list_head_init m (hcell h i) in init_heads n m h (i + 1) end.
(** skiplist.c:147-158 [bfdev_skiplist_reset] *)
Definition skip_reset (m : mem) (h : skip) : option (mem * skip * list Z) :=
  let* (m, log) := release_all m h in
  let* m := init_heads (Z.to_nat (s_levels h)) m (s_head h) 0 in
  Some (m, {| s_head := s_head h; s_curr := 0; s_levels := s_levels h |}, log).
(** skiplist.c:160-181 [bfdev_skiplist_create] *)
Definition skip_create (m : mem) (levels : Z) : option (mem * option skip) :=
  if levels =? 0 then Some (m, None) else
  let head := al m (16 + 16 * levels) in
  if head =? NULL then Some (m, None) else
  let m := alloc_head m head levels in
  let* m := init_heads (Z.to_nat levels) m head 0 in
  Some (m, Some {| s_head := head; s_curr := 0; s_levels := levels |}).
(** skiplist.c:183-192 [bfdev_skiplist_destroy] *)
Definition skip_destroy (m : mem) (h : skip) : option (mem * list Z) :=
  let* (m, log) := release_all m h in
  Some ((fun q g => if in_cells (s_head h + 16) (s_levels h) q && is_link g then None else m q g), log).
(** skiplist.h:58-59, 66-67 [bfdev_skiplist_for_each], [.._reverse]: the nodes visited *)
Definition skip_each (m : mem) (h : skip) (level : Z) : option (list Z) :=
  let* l := for_each fuel m (hcell (s_head h) level) in Some (map (fun c => c - 8 - 16 * level) l).
Definition skip_each_reverse (m : mem) (h : skip) (level : Z) : option (list Z) :=
  let* l := for_each_reverse fuel m (hcell (s_head h) level) in Some (map (fun c => c - 8 - 16 * level) l).

(** What a client does, and what it sees *)
Inductive sop := SInsert (key : Z) (rand : nat -> Z) | SFind (find : Z -> Z) | SDel (find : Z -> Z) | SEach (level : Z) | SBack (level : Z) | SReset.
Inductive sres := RCode (r : Z) | RNode (n : Z) | RList (l : list Z) | RUnit.
Definition apply_sop (m : mem) (h : skip) (o : sop) : option (mem * skip * sres) :=
  match o with
  | SInsert k r => let* (x, c) := skip_insert m h k r in Some (x, RCode c)
  | SFind f => let* n := skip_find m h f in Some (m, h, RNode n)
  | SDel f => let* x := skip_delete m h f in Some (x, RUnit)
  | SEach i => let* l := skip_each m h i in Some (m, h, RList l)
  | SBack i => let* l := skip_each_reverse m h i in Some (m, h, RList l)
  | SReset => let* (x, log) := skip_reset m h in Some (x, RList log)
  end.
(** [prog] chooses the next operation from what it did and saw *)
Fixpoint run_sops (n : nat) (prog : list (sop * sres) -> sop) (m : mem) (h : skip) (past : list (sop * sres)) : option (mem * skip * list (sop * sres)) :=
  match n with
  | O => Some (m, h, past)
  | S n => let o := prog past in let* (x, r) := apply_sop m h o in run_sops n prog (fst x) (snd x) (past ++ [(o, r)])
  end.
End Skip.
