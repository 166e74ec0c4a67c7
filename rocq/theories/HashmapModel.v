(** * Model of src/hashmap.c and include/bfdev/hashtbl.h
    Nodes are addresses with hlist links; bucket [i] of the array at [b] is the head at [b + 8 * i]. Keys are numbers. *)
From Verif Require Import Lib Ptr SlistModel BitsModel BloomModel.

(** hashmap.h:37-46 struct bfdev_hashmap (without the allocator and the operations, below) *)
Record hmap := { h_buckets : Z; h_bits : Z; h_capacity : Z; h_used : Z }.
Definition head_at (b i : Z) : Z := b + 8 * i.
(** hashmap.h:17 *)
Definition MIN_BITS : Z := 4.
(** the cells of an array of [n] heads at [p] *)
Definition in_array (p n q : Z) : bool := (p <=? q) && (q <? p + 8 * n) && ((q - p) mod 8 =? 0).
(** memory that comes (contents unspecified, here 7) and goes *)
Definition alloc_array (m : mem) (p n : Z) : mem := fun q g => if in_array p n q && (g =? LINK) then Some 7 else m q g.
Definition free_array (m : mem) (p n : Z) : mem := fun q g => if negb (p =? NULL) && in_array p n q then None else m q g.

(** hashmap.h:48-56 struct bfdev_hashmap_ops: pure functions, except that [extend] and [shrink] see the counts *)
Record hops := { hash_key : Z -> Z; hash_node : Z -> Z; equal : Z -> Z -> Z; find : Z -> Z -> Z;
                 extend : option (hmap -> bool); shrink : option (hmap -> bool) }.
Section Map.
Variable ops : hops.
(** the allocator's answer to a request for [size] bytes, given the memory *)
Variable al : mem -> Z -> Z.
(** bounds the walks along one bucket *)
Variable fuel : nat.

(** hashtbl.h:46-53 [bfdev_hashtbl_init]; [n] heads are left *)
Fixpoint hashtbl_init (n : nat) (m : mem) (b i : Z) : option mem :=
  match n with O => Some m | S n => let* m := hlist_head_init m (head_at b i) in hashtbl_init n m b (i + 1) end.
(** hashtbl.h:76-85 [bfdev_hashtbl_add] *)
Definition hashtbl_add (m : mem) (b size node key : Z) : option mem :=
  let* i := hashtbl_index size key in hlist_head_add m (head_at b i) node.
(** hashtbl.h:91-95 [bfdev_hashtbl_del] *)
Definition hashtbl_del (m : mem) (node : Z) : option mem := hlist_del_init m node.
(** hashtbl.h:104-105, the head of [bfdev_hashtbl_for_each_idx] *)
Definition idx_head (b size i : Z) : Z := head_at b (Z.land i (LOW_MASK (ilog2 size))).

(** hashmap.c:62-76 *)
Definition need_extend (h : hmap) : bool :=
  if h_capacity h =? 0 then true else
  match extend ops with
  | Some f => f h
  | None => w64 (h_used h * 4) / 3 >? h_capacity h
  end.
(** hashmap.c:78-89 *)
Definition need_shrink (h : hmap) : bool :=
  match shrink ops with
  | Some f => f h
  | None => w64 (h_used h * 4) <? h_capacity h
  end.
(** the loops of hashmap.c:102-105, 122-125: the first node that passes, NULL if none *)
Fixpoint search (n : nat) (m : mem) (test : Z -> bool) (walk : Z) : option Z :=
  if walk =? NULL then Some NULL else
  match n with
  | O => None
  | S n => if test walk then Some walk else let* next := ld m walk LINK in search n m test next
  end.
(** hashmap.c:91-108 *)
Definition find_node (m : mem) (h : hmap) (node hash : Z) : option Z :=
  if h_buckets h =? NULL then Some NULL else
  let* i := hashtbl_index (h_capacity h) hash in
  let* walk := ld m (idx_head (h_buckets h) (h_capacity h) i) LINK in
  search fuel m (fun w => equal ops node w =? 0) walk.
(** hashmap.c:110-127 *)
Definition find_key (m : mem) (h : hmap) (key hash : Z) : option Z :=
  if h_buckets h =? NULL then Some NULL else
  let* i := hashtbl_index (h_capacity h) hash in
  let* walk := ld m (idx_head (h_buckets h) (h_capacity h) i) LINK in
  search fuel m (fun w => find ops w key =? 0) walk.
(** hashmap.c:145-149, one bucket of the loop of [hashmap_rehash] *)
Fixpoint move_from (n : nat) (m : mem) (nb ncap walk tmp : Z) : option mem :=
  if walk =? NULL then Some m else
  match n with
  | O => None
  | S n =>
    let value := hash_node ops walk in
    let* m := hlist_del m walk in
    let* m := hashtbl_add m nb ncap walk value in
    let walk := tmp in
    let* tmp := (if walk =? NULL then Some tmp else ld m walk LINK) in
    move_from n m nb ncap walk tmp
  end.
(** all buckets from [i] on; [n] are left. [tmp] is not initialised for an empty bucket (and not used): 0 here *)
Fixpoint move_all (n : nat) (m : mem) (h : hmap) (nb ncap i : Z) : option mem :=
  match n with
  | O => Some m
  | S n =>
    let* walk := ld m (idx_head (h_buckets h) (h_capacity h) i) LINK in
    let* tmp := (if walk =? NULL then Some 0 else ld m walk LINK) in
    let* m := move_from fuel m nb ncap walk tmp in
    move_all n m h nb ncap (i + 1)
  end.
(** hashmap.c:129-157 [hashmap_rehash] with bfdev_malloc_array (allocator.h:95-103, allocator.c:40-56: a request for no
    bytes answers NULL); BFDEV_BIT of 64 or more is undefined *)
Definition rehash (m : mem) (h : hmap) (nbits : Z) : option (mem * hmap * Z) :=
  if 64 <=? nbits then None else
  let ncap := 2 ^ nbits in
  let size := w64 (8 * ncap) in
  let nb := if size =? 0 then NULL else al m size in
  if nb =? NULL then Some (m, h, - ENOMEM) else
  let m := alloc_array m nb ncap in
  let* m := hashtbl_init (Z.to_nat ncap) m nb 0 in
  let* m := move_all (Z.to_nat (h_capacity h)) m h nb ncap 0 in
  let m := free_array m (h_buckets h) (h_capacity h) in
  Some (m, {| h_buckets := nb; h_bits := nbits; h_capacity := ncap; h_used := h_used h |}, 0).
(** hashmap.c:159-169 [hashmap_extend] *)
Definition hm_extend (m : mem) (h : hmap) : option (mem * hmap * Z) :=
  let nbits := w32 (h_bits h + 1) in
  let nbits := if nbits <? MIN_BITS then MIN_BITS else nbits in rehash m h nbits.
(** hashmap.c:171-181 [hashmap_shrink] *)
Definition hm_shrink (m : mem) (h : hmap) : option (mem * hmap * Z) :=
  let nbits := w32 (h_bits h - 1) in
  let nbits := if nbits <? MIN_BITS then MIN_BITS else nbits in rehash m h nbits.

(** hashmap.h:30-35 *)
Inductive strategy := ADD | SET | UPDATE | APPEND.
Definition is_append (s : strategy) : bool := match s with APPEND => true | _ => false end.
Definition is_update (s : strategy) : bool := match s with UPDATE => true | _ => false end.
Definition is_add (s : strategy) : bool := match s with ADD => true | _ => false end.
(** hashmap.c:208-218, the second half of [bfdev_hashmap_insert] *)
Definition insert_new (m : mem) (h : hmap) (node : Z) : option (mem * hmap * Z) :=
  let* (x, r) := (if need_extend h then hm_extend m h else Some (m, h, 0)) in
  let (m, h) := x in
  if negb (r =? 0) then Some (m, h, r) else
  let* m := hashtbl_add m (h_buckets h) (h_capacity h) node (hash_node ops node) in
  Some (m, {| h_buckets := h_buckets h; h_bits := h_bits h; h_capacity := h_capacity h; h_used := w64 (h_used h + 1) |}, 0).
(** hashmap.c:183-219 [bfdev_hashmap_insert]; the result is (return value, *old); *old is left alone (here NULL) unless
    a node is found *)
Definition insert (m : mem) (h : hmap) (node : Z) (s : strategy) : option (mem * hmap * (Z * Z)) :=
  let value := hash_node ops node in
  let* found := (if is_append s then Some NULL else find_node m h node value) in
  if negb (found =? NULL) then
    if is_add s then Some (m, h, (- EEXIST, found))
    else let* m := hlist_replace m found node in Some (m, h, (0, found))
  else if is_update s then Some (m, h, (- ENOENT, NULL))
  else let* (x, r) := insert_new m h node in Some (x, (r, NULL)).
(** hashmap.c:221-242 [bfdev_hashmap_del]; the result is (return value, *node) *)
Definition del (m : mem) (h : hmap) (key : Z) : option (mem * hmap * (Z * Z)) :=
  let value := hash_key ops key in
  let* found := find_key m h key value in
  if found =? NULL then Some (m, h, (- ENOENT, NULL)) else
  let* m := hashtbl_del m found in
  let h := {| h_buckets := h_buckets h; h_bits := h_bits h; h_capacity := h_capacity h; h_used := w64 (h_used h - 1) |} in
  let* (x, r) := (if need_shrink h then hm_shrink m h else Some (m, h, 0)) in
  Some (x, (0, found)).
(** hashmap.c:244-254 [bfdev_hashmap_find] *)
Definition lookup (m : mem) (h : hmap) (key : Z) : option Z := find_key m h key (hash_key ops key).
(** hashmap.c:256-268 [bfdev_hashmap_release] *)
Definition release (m : mem) (h : hmap) : mem * hmap :=
  (free_array m (h_buckets h) (h_capacity h), {| h_buckets := NULL; h_bits := 0; h_capacity := 0; h_used := 0 |}).
(** hashmap.h:59-64 BFDEV_HASHMAP_INIT *)
Definition hm_init : hmap := {| h_buckets := NULL; h_bits := 0; h_capacity := 0; h_used := 0 |}.
(** hashtbl.h:139-141 with hashmap.h:151-153 [bfdev_hashmap_for_each]: the nodes visited *)
Fixpoint visit_all (n : nat) (m : mem) (h : hmap) (i : Z) : option (list Z) :=
  match n with
  | O => Some []
  | S n => let* l := each fuel m (idx_head (h_buckets h) (h_capacity h) i) in let* r := visit_all n m h (i + 1) in Some (l ++ r)
  end.
Definition for_each (m : mem) (h : hmap) : option (list Z) := visit_all (Z.to_nat (h_capacity h)) m h 0.

(** What a client does, and what it sees *)
Inductive hop := HInsert (n : Z) (s : strategy) | HDel (key : Z) | HFind (key : Z) | HEach | HRelease.
Inductive hres := RPair (r old : Z) | RNode (n : Z) | RList (l : list Z) | RUnit.
Definition apply_hop (m : mem) (h : hmap) (o : hop) : option (mem * hmap * hres) :=
  match o with
  | HInsert n s => let* (x, r) := insert m h n s in Some (x, RPair (fst r) (snd r))
  | HDel k => let* (x, r) := del m h k in Some (x, RPair (fst r) (snd r))
  | HFind k => let* n := lookup m h k in Some (m, h, RNode n)
  | HEach => let* l := for_each m h in Some (m, h, RList l)
  | HRelease => Some (release m h, RUnit)
  end.
(** [prog] chooses the next operation from what it did and saw *)
Fixpoint run_hops (n : nat) (prog : list (hop * hres) -> hop) (m : mem) (h : hmap) (past : list (hop * hres)) : option (mem * hmap * list (hop * hres)) :=
  match n with
  | O => Some (m, h, past)
  | S n => let o := prog past in let* (x, r) := apply_hop m h o in run_hops n prog (fst x) (snd x) (past ++ [(o, r)])
  end.
End Map.
