(** * Model of src/cache/cache.c, src/cache/lru.c and src/cache/lfu.c
    A cache node is an address. Its members live in four memories, one per member, so that the address of the node
    stands for the address of each member (container_of is the identity): [k_hash] for node->hash and the array
    head->taghash, [k_list] for node->list and the three list heads of the cache, [k_algo] for the part that belongs to
    the replacement algorithm, [k_node] for the scalar fields below. Tags and data are words. Not modelled: allocation,
    the registry of algorithms, and node->index (it is only written). *)
From Verif Require Import Lib Ptr ListModel SlistModel BitsModel BloomModel Tree HeapModel HashmapModel.

(** cache.h:44-49 *)
Definition FREED : Z := 0.
Definition PENDING : Z := 1.
Definition USING : Z := 2.
Definition MANAGED : Z := 3.
(** cache.h:51-60 struct bfdev_cache_node: the scalar fields in [k_node] *)
Definition STATUS : Z := 0.
Definition REFCNT : Z := 1.
Definition TAG : Z := 2.
Definition DATA : Z := 3.
(** cache.h:27-42 the bits of flags and of the request *)
Definition DIRTY : Z := 0.
Definition STARVING : Z := 1.
Definition CHANGE : Z := 0.
Definition UNCOMMITTED : Z := 1.
(** errno-base.h *)
Definition EINVAL : Z := 22.
Definition EBUSY : Z := 16.

(** cache.h:62-88 struct bfdev_cache_head, the part that does not change; the list heads are their addresses *)
Record conf := { c_using : Z; c_freed : Z; c_changing : Z; c_taghash : Z; c_size : Z; c_maxpend : Z; c_nodes : list Z;
                 c_hash : Z -> Z; c_find : Z -> Z -> Z }.
(** ... and the part that does *)
Record cache := { k_hash : mem; k_list : mem; k_algo : mem; k_node : mem;
                  k_flags : Z; k_used : Z; k_pending : Z; k_changed : Z; k_starve : Z; k_hits : Z; k_misses : Z }.
(** cache.h:90-104 struct bfdev_cache_algo *)
Record algo := { a_starving : mem -> option bool; a_obtain : mem -> option (mem * Z); a_get : mem -> Z -> option mem; a_put : mem -> Z -> option mem;
                 a_update : option (mem -> Z -> option mem); a_clear : option (mem -> Z -> option mem); a_reset : mem -> option mem }.

(** record updates *)
Definition with_hash (k : cache) (m : mem) := {| k_hash := m; k_list := k_list k; k_algo := k_algo k; k_node := k_node k; k_flags := k_flags k; k_used := k_used k; k_pending := k_pending k; k_changed := k_changed k; k_starve := k_starve k; k_hits := k_hits k; k_misses := k_misses k |}.
Definition with_list (k : cache) (m : mem) := {| k_hash := k_hash k; k_list := m; k_algo := k_algo k; k_node := k_node k; k_flags := k_flags k; k_used := k_used k; k_pending := k_pending k; k_changed := k_changed k; k_starve := k_starve k; k_hits := k_hits k; k_misses := k_misses k |}.
Definition with_algo (k : cache) (m : mem) := {| k_hash := k_hash k; k_list := k_list k; k_algo := m; k_node := k_node k; k_flags := k_flags k; k_used := k_used k; k_pending := k_pending k; k_changed := k_changed k; k_starve := k_starve k; k_hits := k_hits k; k_misses := k_misses k |}.
Definition with_node (k : cache) (m : mem) := {| k_hash := k_hash k; k_list := k_list k; k_algo := k_algo k; k_node := m; k_flags := k_flags k; k_used := k_used k; k_pending := k_pending k; k_changed := k_changed k; k_starve := k_starve k; k_hits := k_hits k; k_misses := k_misses k |}.
Definition with_counts (k : cache) (flags used pending changed starve hits misses : Z) := {| k_hash := k_hash k; k_list := k_list k; k_algo := k_algo k; k_node := k_node k; k_flags := flags; k_used := used; k_pending := pending; k_changed := changed; k_starve := starve; k_hits := hits; k_misses := misses |}.
Definition with_flags (k : cache) (v : Z) := with_counts k v (k_used k) (k_pending k) (k_changed k) (k_starve k) (k_hits k) (k_misses k).
Definition with_used (k : cache) (v : Z) := with_counts k (k_flags k) v (k_pending k) (k_changed k) (k_starve k) (k_hits k) (k_misses k).
Definition with_pending (k : cache) (v : Z) := with_counts k (k_flags k) (k_used k) v (k_changed k) (k_starve k) (k_hits k) (k_misses k).
Definition with_changed (k : cache) (v : Z) := with_counts k (k_flags k) (k_used k) (k_pending k) v (k_starve k) (k_hits k) (k_misses k).
Definition with_starve (k : cache) (v : Z) := with_counts k (k_flags k) (k_used k) (k_pending k) (k_changed k) v (k_hits k) (k_misses k).
Definition with_hits (k : cache) (v : Z) := with_counts k (k_flags k) (k_used k) (k_pending k) (k_changed k) (k_starve k) v (k_misses k).
Definition with_misses (k : cache) (v : Z) := with_counts k (k_flags k) (k_used k) (k_pending k) (k_changed k) (k_starve k) (k_hits k) v.
(** a store to a scalar field of a node, a call of an algorithm's function, an optional one *)
Definition nst (k : cache) (n f v : Z) : option cache := let* m := st (k_node k) n f v in Some (with_node k m).
Definition acall (k : cache) (g : mem -> Z -> option mem) (n : Z) : option cache := let* m := g (k_algo k) n in Some (with_algo k m).
Definition ocall (k : cache) (g : option (mem -> Z -> option mem)) (n : Z) : option cache := match g with Some g => acall k g n | None => Some k end.

Section Cache.
Variable cf : conf.
Variable al : algo.
(** bounds the walks along one bucket and along the list of changes *)
Variable fuel : nat.

(** cache.c:40-44 *)
Definition cache_starving (k : cache) : option bool :=
  let* e := list_check_empty (k_list k) (c_freed cf) in
  if e then a_starving al (k_algo k) else Some false.
(** cache.c:78-87 the loop of [cache_lookup], from [walk] on; the comparison (cache.c:58-68) reads node->data *)
Fixpoint lookup_from (n : nat) (k : cache) (tag : Z) (change : bool) (walk : Z) : option Z :=
  if walk =? NULL then Some NULL else
  match n with
  | O => None
  | S n =>
    let* d := ld (k_node k) walk DATA in
    if negb (c_find cf d tag =? 0) then let* next := ld (k_hash k) walk LINK in lookup_from n k tag change next else
    let* status := ld (k_node k) walk STATUS in
    if negb (status =? PENDING) || change then Some walk else Some NULL
  end.
(** cache.c:70-90 [cache_lookup] *)
Definition cache_lookup (k : cache) (tag : Z) (change : bool) : option Z :=
  let* i := hashtbl_index (c_size cf) (c_hash cf tag) in
  let* walk := ld (k_hash k) (idx_head (c_taghash cf) (c_size cf) i) LINK in
  lookup_from fuel k tag change walk.
(** cache.c:92-100 [cache_insert] *)
Definition cache_insert (k : cache) (node : Z) : option cache :=
  let* tag := ld (k_node k) node TAG in
  let* m := hashtbl_add (k_hash k) (c_taghash cf) (c_size cf) node (c_hash cf tag) in
  Some (with_hash k m).
(** cache.c:102-133 [cache_obtain] *)
Definition cache_obtain (k : cache) (tag : Z) : option (cache * Z) :=
  let* e := list_check_empty (k_list k) (c_freed cf) in
  let* (k, node) :=
    (if e then
       let* (m, node) := a_obtain al (k_algo k) in
       let k := with_algo k m in
       let* m := hashtbl_del (k_hash k) node in
       Some (with_hash k m, node)
     else let* node := ld (k_list k) (c_freed cf) NEXT in Some (k, node)) in
  let* k := ocall k (a_clear al) node in
  let* k := nst k node TAG tag in
  let* k := nst k node STATUS PENDING in
  let* m := list_move (k_list k) (c_changing cf) node in
  let k := with_list k m in
  let* k := cache_insert k node in
  Some (k, node).
(** cache.c:135-139 [bfdev_cache_find] *)
Definition find (k : cache) (tag : Z) : option Z := cache_lookup k tag false.
(** cache.c:151-176, a hit of [bfdev_cache_obtain] *)
Definition obtain_hit (k : cache) (node flags : Z) : option (cache * Z) :=
  let k := with_hits k (w64 (k_hits k + 1)) in
  let* status := ld (k_node k) node STATUS in
  if status =? PENDING then
    if negb (Z.testbit flags UNCOMMITTED) then Some (k, NULL) else
    let* r := ld (k_node k) node REFCNT in
    let* k := nst k node REFCNT (w64 (r + 1)) in Some (k, node)
  else
    let* k := (if status =? MANAGED then acall k (a_get al) node else Some k) in
    let* k := ocall k (a_update al) node in
    let* r := ld (k_node k) node REFCNT in
    let* k := nst k node REFCNT (w64 (r + 1)) in
    let k := if r =? 0 then with_used k (w64 (k_used k + 1)) else k in
    let* m := list_move (k_list k) (c_using cf) node in
    let k := with_list k m in
    let* k := nst k node STATUS USING in
    Some (k, node).
(** cache.c:178-199, a miss *)
Definition obtain_miss (k : cache) (tag flags : Z) : option (cache * Z) :=
  let k := with_misses k (w64 (k_misses k + 1)) in
  if negb (Z.testbit flags CHANGE) then Some (k, NULL) else
  let k := with_flags k (Z.setbit (k_flags k) DIRTY) in
  let* s := cache_starving k in
  if s then Some (with_flags k (Z.setbit (k_flags k) STARVING), NULL) else
  if k_pending k >=? c_maxpend cf then Some (k, NULL) else
  let* (k, node) := cache_obtain k tag in
  if node =? NULL then None else
  let k := with_flags k (Z.clearbit (k_flags k) STARVING) in
  let* r := ld (k_node k) node REFCNT in
  let* k := nst k node REFCNT (w64 (r + 1)) in
  let k := with_pending k (w64 (k_pending k + 1)) in
  let k := with_used k (w64 (k_used k + 1)) in
  Some (k, node).
(** cache.c:141-200 [bfdev_cache_obtain] *)
Definition obtain (k : cache) (tag flags : Z) : option (cache * Z) :=
  if Z.testbit (k_flags k) STARVING then Some (with_starve k (w64 (k_starve k + 1)), NULL) else
  let* node := cache_lookup k tag true in
  if negb (node =? NULL) then obtain_hit k node flags else obtain_miss k tag flags.
(** cache.c:202-219 [bfdev_cache_put] *)
Definition put (k : cache) (node : Z) : option (cache * Z) :=
  let* status := ld (k_node k) node STATUS in
  if negb (status =? USING) then Some (k, w64 (- EINVAL)) else
  let* r := ld (k_node k) node REFCNT in
  let r := w64 (r - 1) in
  let* k := nst k node REFCNT r in
  let* k :=
    (if r =? 0 then
       let k := with_flags k (Z.clearbit (k_flags k) STARVING) in
       let* m := list_del_init (k_list k) node in
       let k := with_list k m in
       let* k := acall k (a_put al) node in
       let* k := nst k node STATUS MANAGED in
       Some (with_used k (w64 (k_used k - 1)))
     else Some k) in
  let* r := ld (k_node k) node REFCNT in
  Some (k, r).
(** cache.c:221-243 [bfdev_cache_set] *)
Definition set (k : cache) (node tag : Z) : option (cache * Z) :=
  let* status := ld (k_node k) node STATUS in
  if negb (status =? MANAGED) then Some (k, - EBUSY) else
  let* k := nst k node TAG tag in
  let* k := acall k (a_get al) node in
  let* m := hashtbl_del (k_hash k) node in
  let* k := cache_insert (with_hash k m) node in
  let* k := ocall k (a_update al) node in
  let* k := acall k (a_put al) node in
  Some (k, 0).
(** cache.c:245-261 [bfdev_cache_del] *)
Definition del (k : cache) (node : Z) : option (cache * Z) :=
  let* status := ld (k_node k) node STATUS in
  if negb (status =? MANAGED) then Some (k, - EBUSY) else
  let* k := nst k node STATUS FREED in
  let* k := acall k (a_get al) node in
  let* m := hashtbl_del (k_hash k) node in
  let k := with_hash k m in
  let* m := list_move (k_list k) (c_freed cf) node in
  Some (with_list k m, 0).
(** cache.c:268-272 the loop of [bfdev_cache_committed]; [tmp] is the successor of [node] before the body (list.h:622-626) *)
Fixpoint commit_from (n : nat) (k : cache) (node tmp : Z) : option cache :=
  if node =? c_changing cf then Some k else
  match n with
  | O => None
  | S n =>
    let* m := list_move (k_list k) (c_using cf) node in
    let* k := nst (with_list k m) node STATUS USING in
    let k := with_changed k (w64 (k_changed k + 1)) in
    let node := tmp in
    let* tmp := ld (k_list k) node NEXT in
    commit_from n k node tmp
  end.
(** cache.c:263-275 [bfdev_cache_committed] *)
Definition committed (k : cache) : option cache :=
  let* node := ld (k_list k) (c_changing cf) NEXT in
  let* tmp := ld (k_list k) node NEXT in
  let* k := commit_from fuel k node tmp in
  Some (with_pending k 0).
(** cache.c:297-300 and 346-352: all nodes are added to the list of free ones *)
Fixpoint add_nodes (m : mem) (l : list Z) : option mem :=
  match l with [] => Some m | n :: l => let* m := list_add m (c_freed cf) n in add_nodes m l end.
(** cache.c:290-292 and 342-344 *)
Definition init_heads (m : mem) : option mem :=
  let* m := list_head_init m (c_using cf) in
  let* m := list_head_init m (c_freed cf) in
  list_head_init m (c_changing cf).
(** cache.c:277-301 [bfdev_cache_reset] *)
Definition reset (k : cache) : option cache :=
  let k := with_counts k 0 0 0 (k_changed k) 0 0 0 in
  let* m := init_heads (k_list k) in
  let k := with_list k m in
  let* m := a_reset al (k_algo k) in
  let k := with_algo k m in
  let* m := hashtbl_init (Z.to_nat (c_size cf)) (k_hash k) (c_taghash cf) 0 in
  let k := with_hash k m in
  let* m := add_nodes (k_list k) (c_nodes cf) in
  Some (with_list k m).
(** cache.c:303-355 [bfdev_cache_create], once the memories are there: they come from bfdev_zalloc. The algorithm's
    create (lru.c:90, lfu.c:128) does to its own memory what its reset does. *)
Definition create (hm lm am nm : mem) : option cache :=
  let* am := a_reset al am in
  let* lm := init_heads lm in
  let* lm := add_nodes lm (c_nodes cf) in
  Some {| k_hash := hm; k_list := lm; k_algo := am; k_node := nm; k_flags := 0; k_used := 0; k_pending := 0; k_changed := 0; k_starve := 0; k_hits := 0; k_misses := 0 |}.

(** What a client does, and what it sees. The client keeps node->data in step with the tag, as examples/cache/simple.c
    does: after a successful request that left the node pending, and after renaming, it stores [dat tag]. [CStat]
    reads the fields flags, used, pending, changed, starve, hits and misses. *)
Variable dat : Z -> Z.
Inductive cop := CFind (tag : Z) | CObtain (tag flags : Z) | CPut (n : Z) | CSet (n tag : Z) | CDel (n : Z) | CCommit | CReset | CStat.
Inductive cres := RNode (n : Z) | RInt (v : Z) | RUnit | RStat (l : list Z).
Definition apply_cop (k : cache) (o : cop) : option (cache * cres) :=
  match o with
  | CFind t => let* n := find k t in Some (k, RNode n)
  | CObtain t fl =>
      let* (k, n) := obtain k t fl in
      if n =? NULL then Some (k, RNode n) else
      let* status := ld (k_node k) n STATUS in
      if status =? PENDING then let* k := nst k n DATA (dat t) in Some (k, RNode n) else Some (k, RNode n)
  | CPut n => let* (k, r) := put k n in Some (k, RInt r)
  | CSet n t => let* (k, r) := set k n t in if r =? 0 then let* k := nst k n DATA (dat t) in Some (k, RInt r) else Some (k, RInt r)
  | CDel n => let* (k, r) := del k n in Some (k, RInt r)
  | CCommit => let* k := committed k in Some (k, RUnit)
  | CReset => let* k := reset k in Some (k, RUnit)
  | CStat => Some (k, RStat [k_flags k; k_used k; k_pending k; k_changed k; k_starve k; k_hits k; k_misses k])
  end.
(** [prog] chooses the next operation from what it did and saw *)
Fixpoint run_cops (n : nat) (prog : list (cop * cres) -> cop) (k : cache) (past : list (cop * cres)) : option (cache * list (cop * cres)) :=
  match n with
  | O => Some (k, past)
  | S n => let o := prog past in let* (k, r) := apply_cop k o in run_cops n prog k (past ++ [(o, r)])
  end.
(** ... from a new cache on *)
Definition session (n : nat) (prog : list (cop * cres) -> cop) (hm lm am nm : mem) : option (cache * list (cop * cres)) :=
  let* k := create hm lm am nm in run_cops n prog k [].
End Cache.

(** ** lru.c: [h] is the address of lru_head->lru, a node's link is lru_node->node *)
(** lru.c:26-34, 36-47, 49-57, 59-69, 71-79, 143-153 *)
Definition lru_algo (h : Z) : algo := {|
  a_starving := fun m => list_check_empty m h;
  a_obtain := fun m => let* n := ld m h PREV in let* m := list_del m n in Some (m, n);
  a_get := list_del;
  a_put := fun m n => list_add m h n;
  a_update := None;
  a_clear := None;
  a_reset := fun m => list_head_init m h |}.

(** ** lfu.c: [rt] is the address of lfu_head->lfu; a node has the fields of a heap node and [FREQ], lfu_node->count *)
Definition FREQ : Z := 3.
(** lfu.c:31-45 [lfu_compare] with bfdev_cmp (macro.h:31-33); the nodes in the heap have a count *)
Definition lfu_count (m : mem) (a : Z) : Z := match m a FREQ with Some x => x | None => 0 end.
Definition lfu_compare (m : mem) (a b : Z) : Z :=
  let x := lfu_count m a in let y := lfu_count m b in if x =? y then 0 else if x >? y then 1 else -1.
(** lfu.c:121-126 the loop of [lfu_reset] *)
Fixpoint lfu_zero (m : mem) (l : list Z) : option mem :=
  match l with [] => Some m | n :: l => let* m := st m n FREQ 0 in lfu_zero m l end.
(** lfu.c:47-55, 57-68, 70-80, 82-92, 94-101, 103-110, 112-127, 197-209; heap.h:41-42, 79-89 *)
Definition lfu_algo (rt : Z) (nodes : list Z) (fuel : nat) : algo := {|
  a_starving := fun m => let* p := ld m rt NODE in Some (p =? NULL);
  a_obtain := fun m => let* n := ld m rt NODE in let* m := hp_delete (lfu_compare m) fuel m rt n in Some (m, n);
  a_get := fun m n => hp_delete (lfu_compare m) fuel m rt n;
  a_put := fun m n => hp_insert (lfu_compare m) fuel m rt n;
  a_update := Some (fun m n => let* c := ld m n FREQ in st m n FREQ (w64 (c + 1)));
  a_clear := Some (fun m n => st m n FREQ 0);
  a_reset := fun m => let* m := st m rt NODE NULL in let* m := st m rt COUNT 0 in lfu_zero m nodes |}.
