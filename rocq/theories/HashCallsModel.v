(** * Model of src/hashmap.c with operations of the user's that answer as they like
    The functions of HashmapModel.v again, but every call of one of the user's functions (hashmap.h:48-56) is recorded and
    answered by an oracle that sees all calls made before: answers need not be functions of the arguments. The functions
    are assumed to return and to leave the map and its nodes alone. Memory, lists and the parts that call nothing are those
    of HashmapModel.v. *)
From Verif Require Import Lib Ptr SlistModel BitsModel BloomModel HashmapModel.

(** hashmap.h:48-56, a call of one of the user's functions; [extend] and [shrink] see the map *)
Inductive hcall := CHashKey (k : Z) | CHashNode (n : Z) | CEqual (a b : Z) | CFind (n k : Z) | CExtend (h : hmap) | CShrink (h : hmap).
Section Map.
(** the answer to a call, given the earlier ones (the newest first) *)
Variable orc : list hcall -> hcall -> Z.
(** whether [ops->extend] and [ops->shrink] are set *)
Variables has_extend has_shrink : bool.
(** the allocator's answer to a request for [size] bytes, given the memory *)
Variable al : mem -> Z -> Z.
(** bounds the walks along one bucket *)
Variable fuel : nat.

(** hashmap.c:62-76 *)
Definition need_extend_o (h : hmap) (tr : list hcall) : bool * list hcall :=
  if h_capacity h =? 0 then (true, tr) else
  if has_extend then (negb (orc tr (CExtend h) =? 0), CExtend h :: tr)
  else (w64 (h_used h * 4) / 3 >? h_capacity h, tr).
(** hashmap.c:78-89 *)
Definition need_shrink_o (h : hmap) (tr : list hcall) : bool * list hcall :=
  if has_shrink then (negb (orc tr (CShrink h) =? 0), CShrink h :: tr)
  else (w64 (h_used h * 4) <? h_capacity h, tr).
(** the loops of hashmap.c:102-105, 122-125, where [ask] is the call about a node *)
Fixpoint search_o (n : nat) (m : mem) (ask : Z -> hcall) (walk : Z) (tr : list hcall) : option (Z * list hcall) :=
  if walk =? NULL then Some (NULL, tr) else
  match n with
  | O => None
  | S n =>
    let c := ask walk in
    if orc tr c =? 0 then Some (walk, c :: tr) else let* next := ld m walk LINK in search_o n m ask next (c :: tr)
  end.
(** hashmap.c:91-108, 110-127 after the choice of the function to call *)
Definition find_in_o (m : mem) (h : hmap) (ask : Z -> hcall) (hash : Z) (tr : list hcall) : option (Z * list hcall) :=
  if h_buckets h =? NULL then Some (NULL, tr) else
  let* i := hashtbl_index (h_capacity h) hash in
  let* walk := ld m (idx_head (h_buckets h) (h_capacity h) i) LINK in
  search_o fuel m ask walk tr.
(** hashmap.c:91-108 *)
Definition find_node_o (m : mem) (h : hmap) (node hash : Z) (tr : list hcall) : option (Z * list hcall) :=
  find_in_o m h (fun walk => CEqual node walk) hash tr.
(** hashmap.c:110-127 *)
Definition find_key_o (m : mem) (h : hmap) (key hash : Z) (tr : list hcall) : option (Z * list hcall) :=
  find_in_o m h (fun walk => CFind walk key) hash tr.
(** hashmap.c:145-149, one bucket of the loop of [hashmap_rehash] *)
Fixpoint move_from_o (n : nat) (m : mem) (nb ncap walk tmp : Z) (tr : list hcall) : option (mem * list hcall) :=
  if walk =? NULL then Some (m, tr) else
  match n with
  | O => None
  | S n =>
    let value := orc tr (CHashNode walk) in
    let tr := CHashNode walk :: tr in
    let* m := hlist_del m walk in
    let* m := hashtbl_add m nb ncap walk value in
    let walk := tmp in
    let* tmp := (if walk =? NULL then Some tmp else ld m walk LINK) in
    move_from_o n m nb ncap walk tmp tr
  end.
(** all buckets from [i] on; [n] are left *)
Fixpoint move_all_o (n : nat) (m : mem) (h : hmap) (nb ncap i : Z) (tr : list hcall) : option (mem * list hcall) :=
  match n with
  | O => Some (m, tr)
  | S n =>
    let* walk := ld m (idx_head (h_buckets h) (h_capacity h) i) LINK in
    let* tmp := (if walk =? NULL then Some 0 else ld m walk LINK) in
    let* (m, tr) := move_from_o fuel m nb ncap walk tmp tr in
    move_all_o n m h nb ncap (i + 1) tr
  end.
(** hashmap.c:129-157 [hashmap_rehash] *)
Definition rehash_o (m : mem) (h : hmap) (nbits : Z) (tr : list hcall) : option (mem * hmap * Z * list hcall) :=
  if 64 <=? nbits then None else
  let ncap := 2 ^ nbits in
  let size := w64 (8 * ncap) in
  let nb := if size =? 0 then NULL else al m size in
  if nb =? NULL then Some (m, h, - ENOMEM, tr) else
  let m := alloc_array m nb ncap in
  let* m := hashtbl_init (Z.to_nat ncap) m nb 0 in
  let* (m, tr) := move_all_o (Z.to_nat (h_capacity h)) m h nb ncap 0 tr in
  let m := free_array m (h_buckets h) (h_capacity h) in
  Some (m, {| h_buckets := nb; h_bits := nbits; h_capacity := ncap; h_used := h_used h |}, 0, tr).
(** hashmap.c:159-169 [hashmap_extend] *)
Definition hm_extend_o (m : mem) (h : hmap) (tr : list hcall) : option (mem * hmap * Z * list hcall) :=
  let nbits := w32 (h_bits h + 1) in
  let nbits := if nbits <? MIN_BITS then MIN_BITS else nbits in rehash_o m h nbits tr.
(** hashmap.c:171-181 [hashmap_shrink] *)
Definition hm_shrink_o (m : mem) (h : hmap) (tr : list hcall) : option (mem * hmap * Z * list hcall) :=
  let nbits := w32 (h_bits h - 1) in
  let nbits := if nbits <? MIN_BITS then MIN_BITS else nbits in rehash_o m h nbits tr.
(** hashmap.c:215-218 *)
Definition put_o (m : mem) (h : hmap) (node value : Z) (tr : list hcall) : option (mem * hmap * Z * list hcall) :=
  let* m := hashtbl_add m (h_buckets h) (h_capacity h) node value in
  Some (m, {| h_buckets := h_buckets h; h_bits := h_bits h; h_capacity := h_capacity h; h_used := w64 (h_used h + 1) |}, 0, tr).
(** hashmap.c:208-218, the second half of [bfdev_hashmap_insert]: the hash is asked for again if the table was extended *)
Definition insert_new_o (m : mem) (h : hmap) (node value : Z) (tr : list hcall) : option (mem * hmap * Z * list hcall) :=
  let (need, tr) := need_extend_o h tr in
  if need then
    let* (x, tr) := hm_extend_o m h tr in
    let '(m, h, r) := x in
    if negb (r =? 0) then Some (m, h, r, tr)
    else put_o m h node (orc tr (CHashNode node)) (CHashNode node :: tr)
  else put_o m h node value tr.
(** hashmap.c:183-219 [bfdev_hashmap_insert]; the result is (return value, *old) as in HashmapModel.v *)
Definition insert_o (m : mem) (h : hmap) (node : Z) (s : strategy) (tr : list hcall) : option (mem * hmap * (Z * Z) * list hcall) :=
  let value := orc tr (CHashNode node) in
  let tr := CHashNode node :: tr in
  let* (found, tr) := (if is_append s then Some (NULL, tr) else find_node_o m h node value tr) in
  if negb (found =? NULL) then
    if is_add s then Some (m, h, (- EEXIST, found), tr)
    else let* m := hlist_replace m found node in Some (m, h, (0, found), tr)
  else if is_update s then Some (m, h, (- ENOENT, NULL), tr)
  else let* (x, tr) := insert_new_o m h node value tr in
    let '(m, h, r) := x in Some (m, h, (r, NULL), tr).
(** hashmap.c:221-242 [bfdev_hashmap_del]; the result is (return value, *node) *)
Definition del_o (m : mem) (h : hmap) (key : Z) (tr : list hcall) : option (mem * hmap * (Z * Z) * list hcall) :=
  let value := orc tr (CHashKey key) in
  let tr := CHashKey key :: tr in
  let* (found, tr) := find_key_o m h key value tr in
  if found =? NULL then Some (m, h, (- ENOENT, NULL), tr) else
  let* m := hashtbl_del m found in
  let h := {| h_buckets := h_buckets h; h_bits := h_bits h; h_capacity := h_capacity h; h_used := w64 (h_used h - 1) |} in
  let (need, tr) := need_shrink_o h tr in
  let* (x, tr) := (if need then hm_shrink_o m h tr else Some (m, h, 0, tr)) in
  let '(m, h, _) := x in Some (m, h, (0, found), tr).
(** hashmap.c:244-254 [bfdev_hashmap_find] *)
Definition lookup_o (m : mem) (h : hmap) (key : Z) (tr : list hcall) : option (Z * list hcall) :=
  find_key_o m h key (orc tr (CHashKey key)) (CHashKey key :: tr).

(** hashmap.c:183-268 and hashmap.h:151-153, one operation of a client's *)
Definition apply_o (m : mem) (h : hmap) (o : hop) (tr : list hcall) : option (mem * hmap * hres * list hcall) :=
  match o with
  | HInsert n s => let* (x, tr) := insert_o m h n s tr in let '(m, h, r) := x in Some (m, h, RPair (fst r) (snd r), tr)
  | HDel k => let* (x, tr) := del_o m h k tr in let '(m, h, r) := x in Some (m, h, RPair (fst r) (snd r), tr)
  | HFind k => let* (n, tr) := lookup_o m h k tr in Some (m, h, RNode n, tr)
  | HEach => let* l := for_each fuel m h in Some (m, h, RList l, tr)
  | HRelease => Some (release m h, RUnit, tr)
  end.
(** [prog] chooses the next operation from what it did and saw, and from the calls its functions received *)
Fixpoint run_o (n : nat) (prog : list (hop * hres) -> list hcall -> hop) (m : mem) (h : hmap) (past : list (hop * hres)) (tr : list hcall) :
    option (mem * hmap * list (hop * hres) * list hcall) :=
  match n with
  | O => Some (m, h, past, tr)
  | S n => let o := prog past tr in
    let* (x, tr) := apply_o m h o tr in let '(m, h, r) := x in run_o n prog m h (past ++ [(o, r)]) tr
  end.
End Map.
(** hashmap.h:48-56, functions that answer as those of HashmapModel.v *)
Definition orc_of (ops : hops) (_ : list hcall) (c : hcall) : Z :=
  match c with
  | CHashKey k => hash_key ops k
  | CHashNode n => hash_node ops n
  | CEqual a b => equal ops a b
  | CFind n k => find ops n k
  | CExtend h => match extend ops with Some f => if f h then 1 else 0 | None => 0 end
  | CShrink h => match shrink ops with Some f => if f h then 1 else 0 | None => 0 end
  end.
Definition given {A} (f : option A) : bool := match f with Some _ => true | None => false end.
