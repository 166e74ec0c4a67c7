(** * Creation and destruction of caches over an explicit set of live blocks.
    Models bfdev_cache_create / bfdev_cache_destroy (src/cache/cache.c:303-367) with the creation and destruction functions
    of both algorithms (src/cache/lru.c:80-137, src/cache/lfu.c:127-184).  Memory is a set of live blocks and 8-byte cells;
    every access must lie in a live block and every release must name the start of one, [None] otherwise.  Fields that only
    occupy part of a cell (the status of a node) are not written by these functions. *)
From Verif Require Import Lib BitsModel.

Record rmem := { live : list (Z * Z); cell : Z -> Z; tick : nat }.
Definition inside (l : list (Z * Z)) (a : Z) : bool := existsb (fun x => (fst x <=? a) && (a + 8 <=? fst x + snd x)) l.
Definition get (m : rmem) (a : Z) : option Z := if inside (live m) a then Some (cell m a) else None.
Definition put (m : rmem) (a v : Z) : option rmem :=
  if inside (live m) a then Some {| live := live m; cell := fun x => if x =? a then v else cell m x; tick := tick m |} else None.

Section Create.
(** The allocator: its answer to the n-th request, which may depend on everything. *)
Variable ask : nat -> rmem -> Z -> option Z.

(** src/allocator.c:58-74 [bfdev_zalloc]: no call for size 0 *)
Definition zalloc (m : rmem) (size : Z) : Z * rmem :=
  if size =? 0 then (0, m) else
  match ask (tick m) m size with
  | None => (0, {| live := live m; cell := cell m; tick := S (tick m) |})
  | Some p => (p, {| live := (p, size) :: live m; cell := fun a => if (p <=? a) && (a <? p + size) then 0 else cell m a; tick := S (tick m) |})
  end.
(** allocator.h:105-109 [bfdev_zalloc_array] *)
Definition zalloc_array (m : rmem) (nr size : Z) : Z * rmem := zalloc m (w64 (size * nr)).
Fixpoint drop_block (p : Z) (l : list (Z * Z)) : option (list (Z * Z)) :=
  match l with
  | [] => None
  | (b, s) :: r => if b =? p then Some r else let* r := drop_block p r in Some ((b, s) :: r)
  end.
(** src/allocator.c:99-113 [bfdev_free] *)
Definition free (m : rmem) (p : Z) : option rmem :=
  if p =? 0 then Some m else
  let* l := drop_block p (live m) in Some {| live := l; cell := cell m; tick := tick m |}.

(** cache.h:59-91 struct bfdev_cache_head *)
Definition TAGHASH : Z := 16.
Definition NODES : Z := 24.
Definition OPS : Z := 32.
Definition PDATA : Z := 40.
Definition USING : Z := 48.
Definition FREED : Z := 64.
Definition CHANGING : Z := 80.
Definition SIZE : Z := 96.
Definition MAXPEND : Z := 104.
Definition OWN : Z := 168.
(** cache.h:48-57 struct bfdev_cache_node *)
Definition N_LIST : Z := 16.
Definition N_INDEX : Z := 40.
(** lru.c:9-17, lfu.c:10-19: sizes of the heads and nodes of the two algorithms *)
Inductive algo := LRU | LFU.
Definition head_size (k : algo) : Z := match k with LRU => 184 | LFU => 184 end.
Definition node_size (k : algo) : Z := match k with LRU => 88 | LFU => 104 end.

(** list.h:71-75 [bfdev_list_head_init] *)
Definition init_list (m : rmem) (p : Z) : option rmem := let* m := put m p p in put m (p + 8) p.
(** list.h:52-65, 82-86 [bfdev_list_add] *)
Definition add_list (m : rmem) (node newn : Z) : option rmem :=
  let* next := get m (node + 8) in
  let* m := put m (node + 8) newn in
  let* m := put m next newn in
  let* m := put m newn node in
  put m (newn + 8) next.

(** lru.c:99-105, lfu.c:146-152: the loop that allocates the nodes; the count at which it stopped *)
Fixpoint create_nodes (k : algo) (n : nat) (m : rmem) (head count : Z) : option (Z * rmem) :=
  match n with
  | O => Some (count, m)
  | S n' =>
    let (p, m) := zalloc m (node_size k) in
    if p =? 0 then Some (count, m)
    else let* arr := get m (head + NODES) in
         let* m := put m (arr + 8 * count) p in
         create_nodes k n' m head (count + 1)
  end.
(** lru.c:110-113, lfu.c:157-160: while (count--) *)
Fixpoint free_down (n : nat) (m : rmem) (head : Z) : option rmem :=
  match n with
  | O => Some m
  | S n' =>
    let* arr := get m (head + NODES) in
    let* p := get m (arr + 8 * Z.of_nat n') in
    let* m := free m p in
    free_down n' m head
  end.
(** lru.c:80-119, lfu.c:127-166 *)
Definition algo_create (k : algo) (m : rmem) (size : Z) : option (Z * rmem) :=
  let (head, m) := zalloc m (head_size k) in
  if head =? 0 then Some (0, m)
  else
    let* m := (match k with
               | LRU => init_list m (head + OWN)
               | LFU => let* m := put m (head + OWN) 0 in put m (head + OWN + 8) 0
               end) in
    let (arr, m) := zalloc_array m size 8 in
    let* m := put m (head + NODES) arr in
    if arr =? 0 then let* m := free m head in Some (0, m)
    else
      let* (count, m) := create_nodes k (Z.to_nat size) m head 0 in
      if count =? size then Some (head, m)
      else
        let* m := free_down (Z.to_nat count) m head in
        let* arr := get m (head + NODES) in
        let* m := free m arr in
        let* m := free m head in
        Some (0, m).
(** lru.c:130-133, lfu.c:176-179: for (count = 0; count < head->size; ++count); [n] bounds the number of rounds *)
Fixpoint free_up (n : nat) (m : rmem) (head count : Z) : option rmem :=
  let* size := get m (head + SIZE) in
  if count <? size then
    match n with
    | O => None
    | S n' =>
      let* arr := get m (head + NODES) in
      let* p := get m (arr + 8 * count) in
      let* m := free m p in
      free_up n' m head (count + 1)
    end
  else Some m.
(** lru.c:121-137, lfu.c:168-184 *)
Definition algo_destroy (n : nat) (m : rmem) (head : Z) : option rmem :=
  let* m := free_up n m head 0 in
  let* arr := get m (head + NODES) in
  let* m := free m arr in
  free m head.

(** cache.c:345-352: the nodes are numbered and put on the free list *)
Fixpoint link_nodes (n : nat) (m : rmem) (head count : Z) : option rmem :=
  match n with
  | O => Some m
  | S n' =>
    let* arr := get m (head + NODES) in
    let* node := get m (arr + 8 * count) in
    let* m := put m (node + N_INDEX) count in
    let* m := add_list m (head + FREED) (node + N_LIST) in
    link_nodes n' m head (count + 1)
  end.
(** cache.c:303-355 [bfdev_cache_create]; [algorithm] is the result of cache_algorithm_find, [ops_ok] whether both callbacks
    are given; the pointers stored in alloc, algo, ops and pdata are [vals] *)
Definition cache_create (ops_ok : bool) (algorithm : option algo) (vals : Z * Z * Z * Z) (m : rmem) (size maxpend : Z) : option (Z * rmem) :=
  if negb ops_ok then Some (0, m) else
  let* size := pow2_roundup_dynamic size in
  if size <? 2 then Some (0, m) else
  match algorithm with
  | None => Some (0, m)
  | Some k =>
    let* (head, m) := algo_create k m size in
    if head =? 0 then Some (0, m)
    else
      let '(va, vg, vo, vp) := vals in
      let* m := put m (head + 8) vg in
      let* m := put m head va in
      let* m := put m (head + SIZE) size in
      let* m := put m (head + MAXPEND) maxpend in
      let* m := put m (head + OPS) vo in
      let* m := put m (head + PDATA) vp in
      let (tag, m) := zalloc_array m size 8 in
      let* m := put m (head + TAGHASH) tag in
      if tag =? 0 then let* m := algo_destroy (Z.to_nat size) m head in Some (0, m)
      else
        let* m := init_list m (head + USING) in
        let* m := init_list m (head + FREED) in
        let* m := init_list m (head + CHANGING) in
        let* m := link_nodes (Z.to_nat size) m head 0 in
        Some (head, m)
  end.
(** cache.c:356-367 [bfdev_cache_destroy] *)
Definition cache_destroy (n : nat) (m : rmem) (head : Z) : option rmem :=
  let* tag := get m (head + TAGHASH) in
  let* m := free m tag in
  algo_destroy n m head.
End Create.
