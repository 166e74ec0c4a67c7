(** * Model of src/radix.c and include/bfdev/radix.h (64-bit, BFDEV_RADIX_SHIFT 8)
    A node is 256 bytes ([child] of a branch, [block] of a leaf) and then 32 bytes (the bitmap of a leaf, whose first
    four bytes are the [refcount] of a branch). [None] is undefined behaviour: an access to a node that is not
    allocated, outside an array, to an array element never written, a failed BFDEV_BUG_ON, or a double free. *)
From Verif Require Import Lib BitsModel BitwalkModel.

Definition NULL : Z := 0.
(** radix.h:31-42; the 256 bytes as 32 words, the 32 bytes as 4 words *)
Record rnode := { n_child : list Z; n_bits : list Z }.
Definition heap := Z -> option rnode.
Definition hset (h : heap) (n : Z) (nd : rnode) : heap := fun m => if m =? n then Some nd else h m.
Definition hdel (h : heap) (n : Z) : heap := fun m => if m =? n then None else h m.
(** sizeof(bfdev_radix_node_t) *)
Definition NODE : Z := 288.
(** radix.h:25-29; [r_clock] counts the requests made to the allocator *)
Record root := { r_heap : heap; r_node : Z; r_level : Z; r_clock : nat }.
Definition with_heap (s : root) (h : heap) : root := {| r_heap := h; r_node := r_node s; r_level := r_level s; r_clock := r_clock s |}.
(** radix.h:57-62 *)
Definition radix_init : root := {| r_heap := fun _ => None; r_node := NULL; r_level := 0; r_clock := 0 |}.

(** radix.h:21-22, radix.c:11-15 *)
Definition BLOCK : Z := 256.
Definition ARY : Z := 32.
Definition LEVEL_MAX : Z := 12.
(** radix.c:22-26 *)
Definition depth_shift (level : Z) : Z := 5 * level + 8.
(** radix.c:28-32; a shift by 64 or more is undefined *)
Definition depth_index (level offset : Z) : option Z :=
  if 64 <=? depth_shift level then None else Some (Z.land (Z.shiftr offset (depth_shift level)) (ARY - 1)).

(** fields of the node at [n] *)
Definition get_child (h : heap) (n i : Z) : option Z := let* nd := h n in rd (n_child nd) i.
Definition set_child (h : heap) (n i v : Z) : option heap :=
  let* nd := h n in let* c := wr (n_child nd) i v in Some (hset h n {| n_child := c; n_bits := n_bits nd |}).
Definition set_bits (h : heap) (n : Z) (b : list Z) : option heap :=
  let* nd := h n in Some (hset h n {| n_child := n_child nd; n_bits := b |}).
(** [refcount]: 32 bits at the start of the second part (little endian) *)
Definition get_ref (h : heap) (n : Z) : option Z := let* nd := h n in let* w := rd (n_bits nd) 0 in Some (w32 w).
Definition set_ref (h : heap) (n v : Z) : option heap :=
  let* nd := h n in let* w := rd (n_bits nd) 0 in
  let* b := wr (n_bits nd) 0 (w - w32 w + w32 v) in set_bits h n b.

(** radix.c:17-20: struct radix_parent parents[RADIX_LEVEL_MAX] *)
Record parents := { p_node : list (option Z); p_index : list (option Z) }.
Definition no_parents : parents := {| p_node := repeat None 12; p_index := repeat None 12 |}.
Definition put_node (ps : parents) (i n : Z) : option parents := let* l := wr (p_node ps) i (Some n) in Some {| p_node := l; p_index := p_index ps |}.
Definition put_index (ps : parents) (i x : Z) : option parents := let* l := wr (p_index ps) i (Some (w32 x)) in Some {| p_node := p_node ps; p_index := l |}.
Definition parent_node (ps : parents) (i : Z) : option Z := let* x := rd (p_node ps) i in x.
Definition parent_index (ps : parents) (i : Z) : option Z := let* x := rd (p_index ps) i in x.

(** radix.c:54-67 *)
Fixpoint parent_walk (n : nat) (h : heap) (node offset : Z) (ps : parents) : option (bool * parents) :=
  match n with
  | O => let* ps := put_index ps 0 offset in Some (true, ps)
  | S n =>
    let level := Z.of_nat n in
    let* index := depth_index level offset in
    let* node := get_child h node index in
    let offset := Z.land offset (LOW_MASK (depth_shift level)) in
    if node =? NULL then Some (false, ps) else
    let* ps := put_node ps level node in
    let* ps := put_index ps (level + 1) index in
    parent_walk n h node offset ps
  end.
(** radix.c:34-68 [radix_parent] *)
Definition radix_parent (s : root) (offset : Z) : option (bool * parents) :=
  let level := r_level s in
  if LEVEL_MAX <? level then None else
  if depth_shift level <? ilog2 offset then Some (false, no_parents) else
  let* ps := put_node no_parents level (r_node s) in
  if r_node s =? NULL then Some (false, ps) else
  parent_walk (Z.to_nat level) (r_heap s) (r_node s) offset ps.

(** radix.c:70-90 [bfdev_radix_root_find]: the address of the cell *)
Definition radix_find (s : root) (offset : Z) : option Z :=
  let* (contain, ps) := radix_parent s offset in
  if negb contain then Some NULL else
  let* node := parent_node ps 0 in
  let* index := parent_index ps 0 in
  let* nd := r_heap s node in
  let* contain := bit_test (n_bits nd) index in
  if negb contain then Some NULL else Some (node + index).

(** allocator.h [bfdev_zalloc] of a node, [bfdev_free] *)
Definition zeros : rnode := {| n_child := repeat 0 32; n_bits := repeat 0 4 |}.
Definition free_node (h : heap) (n : Z) : option heap :=
  if n =? NULL then Some h else let* _ := h n in Some (hdel h n).

Section Alloc.
(** the allocator's answer to its [k]-th request, given the nodes that are allocated *)
Variable al : nat -> heap -> Z.
Definition zalloc (s : root) : root * Z :=
  let n := al (r_clock s) (r_heap s) in
  ({| r_heap := if n =? NULL then r_heap s else hset (r_heap s) n zeros; r_node := r_node s; r_level := r_level s; r_clock := S (r_clock s) |}, n).

(** radix.c:92-121 [radix_extend]; the loop ends within 14 rounds *)
Fixpoint extend_from (n : nat) (s : root) (offset : Z) : option (root * Z) :=
  match n with
  | O => None
  | S n =>
    let node := r_node s in
    if negb (node =? NULL) && (ilog2 offset <? depth_shift (r_level s)) then Some (s, node) else
    let (s, successor) := zalloc s in
    if successor =? NULL then Some (s, NULL) else
    let* (h, level) := (if node =? NULL then Some (r_heap s, r_level s) else
      let* c := get_ref (r_heap s) successor in
      let* h := set_ref (r_heap s) successor (c + 1) in Some (h, w32 (r_level s + 1))) in
    let* h := set_child h successor 0 node in
    extend_from n {| r_heap := h; r_node := successor; r_level := level; r_clock := r_clock s |} offset
  end.
Definition radix_extend (s : root) (offset : Z) : option (root * Z) := extend_from 16 s offset.

(** radix.c:156-175, [n] levels left *)
Fixpoint alloc_down (n : nat) (s : root) (node offset : Z) : option (root * Z) :=
  match n with
  | O =>
    let* nd := r_heap s node in
    let* b := bit_set (n_bits nd) offset in
    let* h := set_bits (r_heap s) node b in
    Some (with_heap s h, node + offset)
  | S n =>
    let level := Z.of_nat n in
    let* index := depth_index level offset in
    let offset := Z.land offset (LOW_MASK (depth_shift level)) in
    let* slot := get_child (r_heap s) node index in
    if slot =? NULL then
      let (s, newn) := zalloc s in
      if newn =? NULL then Some (s, NULL) else
      let* h := set_child (r_heap s) node index newn in
      let* c := get_ref h node in
      let* h := set_ref h node (c + 1) in
      alloc_down n (with_heap s h) newn offset
    else alloc_down n s slot offset
  end.
(** radix.c:144-176 [bfdev_radix_root_alloc] *)
Definition radix_alloc (s : root) (offset : Z) : option (root * Z) :=
  let* (s, node) := radix_extend s offset in
  if node =? NULL then Some (s, NULL) else alloc_down (Z.to_nat (r_level s)) s node offset.

(** radix.c:236-241; every round allocates a cell [BLOCK] further on *)
Fixpoint charge_from (n : nat) (s : root) (offset last : Z) : option (root * Z) :=
  if offset <? last then
    match n with
    | O => None
    | S n =>
      let* (s, p) := radix_alloc s offset in
      if p =? NULL then Some (s, - ENOMEM) else charge_from n s (w64 (offset + BLOCK)) last
    end
  else Some (s, - ENOERR).
(** radix.c:225-244 [bfdev_radix_root_charge]; [fuel] bounds the rounds *)
Definition radix_charge (fuel : nat) (s : root) (offset size : Z) : option (root * Z) :=
  if 2 ^ 64 <=? offset + size then Some (s, - EOVERFLOW) else charge_from fuel s offset (offset + size).
End Alloc.

(** radix.c:123-142 [radix_shrink], [n] levels left *)
Fixpoint radix_shrink (n : nat) (s : root) : option root :=
  match n with
  | O => Some s
  | S n =>
    let node := r_node s in
    let* c := get_ref (r_heap s) node in
    let* successor := get_child (r_heap s) node 0 in
    if (1 <? c) || (successor =? NULL) then Some s else
    let* h := free_node (r_heap s) node in
    radix_shrink n {| r_heap := h; r_node := successor; r_level := r_level s - 1; r_clock := r_clock s |}
  end.
(** radix.c:199-216; the result is the heap and [level] after the loop, [n] levels are left *)
Fixpoint prune_from (n : nat) (h : heap) (ps : parents) (node level offset : Z) : option (heap * Z) :=
  match n with
  | O => Some (h, level)
  | S n =>
    let* (h, used) := (if level =? 0 then Some (h, false) else
      let* c := get_ref h node in
      let* h := set_ref h node (c - 1) in Some (h, negb (w32 (c - 1) =? 0))) in
    if used then Some (h, level) else
    let offset := Z.land offset (HIGH_MASK (depth_shift level)) in
    if offset <? BLOCK then Some (h, level) else
    let* parent := parent_node ps (level + 1) in
    let* index := parent_index ps (level + 1) in
    let* h := set_child h parent index NULL in
    let* h := free_node h node in
    prune_from n h ps parent (level + 1) offset
  end.
(** radix.c:178-223 [bfdev_radix_root_free]; bfdev_bitmap_empty compares the four words with zero (bitmap.h:39-49) *)
Definition radix_free (s : root) (offset : Z) : option (root * Z) :=
  let* (contain, ps) := radix_parent s offset in
  if negb contain then Some (s, - ENOENT) else
  let* node := parent_node ps 0 in
  let* index := parent_index ps 0 in
  let* nd := r_heap s node in
  let* b := bit_clr (n_bits nd) index in
  let* h := set_bits (r_heap s) node b in
  if negb (forallb (fun w => w =? 0) b) then Some (with_heap s h, - ENOERR) else
  let* (h, level) := prune_from (S (Z.to_nat (r_level s))) h ps node 0 offset in
  let s := with_heap s h in
  if level =? r_level s then let* s := radix_shrink (Z.to_nat (r_level s)) s in Some (s, - ENOERR)
  else Some (s, - ENOERR).

(** radix.c:246-262 [radix_destroy_recurse]; [index] counts the children that are left *)
Fixpoint destroy (level : nat) (h : heap) (node : Z) : option heap :=
  let* h := match level with
    | O => Some h
    | S level =>
      (fix each (index : nat) (h : heap) : option heap :=
        match index with
        | O => Some h
        | S index =>
          let* child := get_child h node (31 - Z.of_nat index) in
          let* h := (if child =? NULL then Some h else destroy level h child) in each index h
        end) 32%nat h
    end in
  free_node h node.
(** radix.c:264-274 [bfdev_radix_root_release] *)
Definition radix_release (s : root) : option root :=
  let* h := destroy (Z.to_nat (r_level s)) (r_heap s) (r_node s) in
  Some {| r_heap := h; r_node := NULL; r_level := 0; r_clock := r_clock s |}.

(** radix.c:283-290, 307-314: the first child that is not NULL, upwards and downwards; [n] are left *)
Fixpoint child_up (n : nat) (h : heap) (node walk : Z) : option (option (Z * Z)) :=
  match n with
  | O => Some None
  | S n => let* c := get_child h node walk in if c =? NULL then child_up n h node (walk + 1) else Some (Some (walk, c))
  end.
Fixpoint child_down (n : nat) (h : heap) (node : Z) : option (option (Z * Z)) :=
  match n with
  | O => Some None
  | S n => let* c := get_child h node (Z.of_nat n) in if c =? NULL then child_down n h node else Some (Some (Z.of_nat n, c))
  end.
(** radix.c:276-321 [radix_left_most], [radix_right_most]: (node, offset), [n] levels left *)
Fixpoint most (right_ : bool) (n : nat) (h : heap) (node offset : Z) : option (Z * Z) :=
  match n with
  | O => Some (node, offset)
  | S n =>
    let* r := (if right_ then child_down 32 h node else child_up 32 h node 0) in
    match r with
    | None => Some (NULL, offset)
    | Some (walk, c) => most right_ n h c (Z.lor offset (w64 (Z.shiftl walk (depth_shift (Z.of_nat n)))))
    end
  end.
Definition find_first (b : list Z) : option Z := comp_find_first b BLOCK 0 false 0.
Definition find_last (b : list Z) : option Z := comp_find_last b BLOCK 0 false 0.
(** radix.c:323-375 [bfdev_radix_root_first], [bfdev_radix_root_last]: the cell and the offset, nothing for NULL
    ( *offsetp is not written then) *)
Definition radix_end (right_ : bool) (s : root) : option (option (Z * Z)) :=
  if r_node s =? NULL then Some None else
  let* (node, offset) := most right_ (Z.to_nat (r_level s)) (r_heap s) (r_node s) 0 in
  if node =? NULL then None else
  let* nd := r_heap s node in
  let* count := (if right_ then find_last (n_bits nd) else find_first (n_bits nd)) in
  if count =? BLOCK then Some None else Some (Some (node + count, Z.lor offset count)).
Definition radix_first (s : root) := radix_end false s.
Definition radix_last (s : root) := radix_end true s.
(** radix.c:401-416, 456-471: (level, child, offset), [n] levels left *)
Fixpoint climb (back : bool) (n : nat) (h : heap) (ps : parents) (level offset : Z) : option (option (Z * Z * Z)) :=
  match n with
  | O => Some None
  | S n =>
    let* node := parent_node ps level in
    let* index := parent_index ps level in
    let* r := (if back then child_down (Z.to_nat index) h node else child_up (Z.to_nat (ARY - (index + 1))) h node (index + 1)) in
    match r with
    | Some (index, c) =>
      let count := depth_shift (level - 1) in
      let offset := Z.land offset (not64 (w64 (Z.shiftl (ARY - 1) count))) in
      Some (Some (level, c, Z.lor offset (w64 (Z.shiftl index count))))
    | None => climb back n h ps (level + 1) offset
    end
  end.
(** radix.c:425-429, 480-484 *)
Definition finish (node count offset : Z) : option (option (Z * Z)) :=
  Some (Some (node + count, Z.lor (Z.land offset (not64 (BLOCK - 1))) count)).
(** radix.c:377-485 [bfdev_radix_root_next], [bfdev_radix_root_prev] *)
Definition radix_step (back : bool) (s : root) (offset : Z) : option (option (Z * Z)) :=
  let* (contain, ps) := radix_parent s offset in
  if negb contain then Some None else
  let* node := parent_node ps 0 in
  let* index := parent_index ps 0 in
  let* nd := r_heap s node in
  let* contain := bit_test (n_bits nd) index in
  if negb contain then Some None else
  let* count := (if back then comp_find_prev (n_bits nd) BLOCK 0 false 0 None (w32 (index - 1)) else comp_find_next (n_bits nd) BLOCK 0 false 0 None (w32 (index + 1))) in
  if count <? BLOCK then finish node count offset else
  let* r := climb back (Z.to_nat (r_level s)) (r_heap s) ps 1 offset in
  match r with
  | None => Some None
  | Some (level, c, offset) =>
    let* (node, offset) := most back (Z.to_nat (level - 1)) (r_heap s) c offset in
    if node =? NULL then None else
    let* nd := r_heap s node in
    let* count := (if back then find_last (n_bits nd) else find_first (n_bits nd)) in
    finish node count offset
  end.
Definition radix_next (s : root) (offset : Z) := radix_step false s offset.
Definition radix_prev (s : root) (offset : Z) := radix_step true s offset.

(** radix.h:71-97 [bfdev_radix_offset], [bfdev_radix_index] *)
Definition radix_offset (index cells : Z) : Z :=
  if pow2_check cells then w64 (index * cells) else
  let num := BLOCK / cells in w64 (index / num * BLOCK + index mod num * cells).
Definition radix_index (offset cells : Z) : Z :=
  if pow2_check cells then offset / cells else
  let num := BLOCK / cells in w64 (offset / num / BLOCK + offset mod num / cells).

(** the client's own accesses to the cell of an offset that is a multiple of 8, through the address found *)
Definition cell_load (h : heap) (base i : Z) : option Z := get_child h base (i / 8).
Definition cell_store (h : heap) (base i v : Z) : option heap := set_child h base (i / 8) v.

(** ** Sessions *)
Inductive rop := RAlloc (o : Z) | RFree (o : Z) | RFind (o : Z) | RCharge (o size : Z) | RRelease
  | RStore (o v : Z) | RLoad (o : Z) | RFirst | RLast | RNext (o : Z) | RPrev (o : Z).
Inductive rres := RPtr (p : Z) | RCode (c : Z) | RAt (r : option (Z * Z)) | RUnit.
Section Run.
Variable al : nat -> heap -> Z.
Definition radix_exec (s : root) (o : rop) : option (root * rres) :=
  match o with
  | RAlloc o => let* (s, p) := radix_alloc al s o in Some (s, RPtr p)
  | RFree o => let* (s, c) := radix_free s o in Some (s, RCode c)
  | RFind o => let* p := radix_find s o in Some (s, RPtr p)
  | RCharge o size => let* (s, c) := radix_charge al (Z.to_nat (size / BLOCK + 1)) s o size in Some (s, RCode c)
  | RRelease => let* s := radix_release s in Some (s, RUnit)
  | RStore o v => let* p := radix_find s o in let* h := cell_store (r_heap s) (p - o mod BLOCK) (o mod BLOCK) v in Some (with_heap s h, RUnit)
  | RLoad o => let* p := radix_find s o in let* v := cell_load (r_heap s) (p - o mod BLOCK) (o mod BLOCK) in Some (s, RPtr v)
  | RFirst => let* r := radix_first s in Some (s, RAt r)
  | RLast => let* r := radix_last s in Some (s, RAt r)
  | RNext o => let* r := radix_next s o in Some (s, RAt r)
  | RPrev o => let* r := radix_prev s o in Some (s, RAt r)
  end.
Fixpoint run_ops (n : nat) (s : root) (prog : list (rop * rres) -> rop) (h : list (rop * rres)) : option (root * list (rop * rres)) :=
  match n with
  | O => Some (s, h)
  | S n => let* (s, r) := radix_exec s (prog h) in run_ops n s prog (h ++ [(prog h, r)])
  end.
End Run.
