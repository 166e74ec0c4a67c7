(** * Model of src/memalloc.c (allocator over a pool of memory)
    The two intrusive lists of the head are represented by the sequences of the addresses of their chunks; insertion,
    removal and neighbours are those of sequences, which is what C58 proves of list.h.  Removing a chunk that is not in
    the list, or inserting beside such a chunk, is None.  The word [usize] of a chunk lives in the pool: an access to a
    header that does not lie inside the pool is None.  BFDEV_DEBUG_MEMALLOC is not defined. *)
From Verif Require Import Lib.

(** memalloc.h:15, and sizeof(struct bfdev_memalloc_chunk), memalloc.h:31-36: two list heads and a word *)
Definition ALIGN : Z := 32.
Definition HDR : Z := 40.
(** memalloc.h:24-29: the head; [base] and [psize] describe the pool; [usz] are the header words, [dat] the bytes of the users *)
Record heap := { base : Z; psize : Z; blocks : list Z; frees : list Z; avail : Z; usz : Z -> Z; dat : Z -> Z }.
Definition set_blocks h x := {| base := base h; psize := psize h; blocks := x; frees := frees h; avail := avail h; usz := usz h; dat := dat h |}.
Definition set_frees h x := {| base := base h; psize := psize h; blocks := blocks h; frees := x; avail := avail h; usz := usz h; dat := dat h |}.
Definition set_avail h x := {| base := base h; psize := psize h; blocks := blocks h; frees := frees h; avail := x; usz := usz h; dat := dat h |}.
Definition set_usz h x := {| base := base h; psize := psize h; blocks := blocks h; frees := frees h; avail := avail h; usz := x; dat := dat h |}.
Definition set_dat h x := {| base := base h; psize := psize h; blocks := blocks h; frees := frees h; avail := avail h; usz := usz h; dat := x |}.
(** a header inside the pool *)
Definition in_pool (h : heap) (a : Z) : bool := (base h <=? a) && (a + HDR <=? base h + psize h).
Definition get_hdr (h : heap) (a : Z) : option Z := if in_pool h a then Some (usz h a) else None.
Definition put_hdr (h : heap) (a v : Z) : option heap :=
  if in_pool h a then Some (set_usz h (fun b => if b =? a then v else usz h b)) else None.

(** memalloc.c:15-45 *)
Definition MASK : Z := 2 ^ 64 - 2.
Definition get_used (u : Z) : bool := negb (Z.land u 1 =? 0).
Definition get_size (u : Z) : Z := Z.land u MASK.
Definition set_used (u : Z) (used : bool) : Z := Z.lor (Z.land u MASK) (Z.b2z used).
Definition set_size (u size : Z) : Z := Z.lor (Z.land u 1) (Z.land size MASK).
Definition pnode (size : Z) (used : bool) : Z := Z.lor (Z.land size MASK) (Z.b2z used).

(** list.h on sequences: del, add after a node, next and previous entry or NULL *)
Fixpoint ldel (x : Z) (l : list Z) : option (list Z) :=
  match l with
  | [] => None
  | y :: l => if y =? x then Some l else let* l := ldel x l in Some (y :: l)
  end.
Fixpoint ladd (x new : Z) (l : list Z) : option (list Z) :=
  match l with
  | [] => None
  | y :: l => if y =? x then Some (y :: new :: l) else let* l := ladd x new l in Some (y :: l)
  end.
Fixpoint lnext (x : Z) (l : list Z) : option (option Z) :=
  match l with
  | [] => None
  | y :: l => if y =? x then Some (match l with [] => None | z :: _ => Some z end) else lnext x l
  end.
Fixpoint lprev (prev : option Z) (x : Z) (l : list Z) : option (option Z) :=
  match l with
  | [] => None
  | y :: l => if y =? x then Some prev else lprev (Some y) x l
  end.

(** memalloc.c:65-76 [bfdev_memalloc_first_fit] *)
Fixpoint first_from (h : heap) (l : list Z) (size : Z) : option (option Z) :=
  match l with
  | [] => Some None
  | n :: l => let* u := get_hdr h n in if size <=? get_size u then Some (Some n) else first_from h l size
  end.
Definition first_fit (h : heap) (size : Z) := first_from h (frees h) size.
(** memalloc.c:78-100 [bfdev_memalloc_best_fit] *)
Fixpoint best_from (h : heap) (l : list Z) (size : Z) (best : option Z) (bsize : Z) : option (option Z) :=
  match l with
  | [] => Some best
  | n :: l =>
    let* u := get_hdr h n in
    let walk := get_size u in
    if size <=? walk then
      if walk =? size then Some (Some n) else
      if bsize <=? walk then best_from h l size best bsize else best_from h l size (Some n) walk
    else best_from h l size best bsize
  end.
Definition best_fit (h : heap) (size : Z) := best_from h (frees h) size None (2 ^ 64 - 1).
(** memalloc.c:102-124 [bfdev_memalloc_worst_fit] *)
Fixpoint worst_from (h : heap) (l : list Z) (size : Z) (worst : option Z) (bsize : Z) : option (option Z) :=
  match l with
  | [] => Some worst
  | n :: l =>
    let* u := get_hdr h n in
    let walk := get_size u in
    if size <=? walk then
      if walk =? avail h then Some (Some n) else
      if walk <=? bsize then worst_from h l size worst bsize else worst_from h l size (Some n) walk
    else worst_from h l size worst bsize
  end.
Definition worst_fit (h : heap) (size : Z) := worst_from h (frees h) size None 0.

(** bfdev_align_high, align.h:49-52, with BFDEV_MEMALLOC_ALIGN *)
Definition align_up (v : Z) : Z := Z.land (w64 (v + (ALIGN - 1))) (2 ^ 64 - ALIGN).
Section Find.
(** head->find *)
Variable find : heap -> Z -> option (option Z).
(** memalloc.c:126-165 [bfdev_memalloc_alloc] *)
Definition alloc (h : heap) (size : Z) : option (heap * Z) :=
  let size := align_up size in
  if avail h <? size then Some (h, 0) else
  let* r := find h size in
  match r with
  | None => Some (h, 0)
  | Some node =>
    let* u := get_hdr h node in
    let nsize := get_size u in
    let h := set_avail h (w64 (avail h - nsize)) in
    let bsize := w64 (nsize - size) in
    let* h :=
      (if bsize <? HDR + ALIGN then Some h else
       let free := w64 (node + HDR + size) in
       let fsize := w64 (bsize - HDR) in
       let* h := put_hdr h free (pnode fsize false) in
       let h := set_avail h (w64 (avail h + fsize)) in
       let* b := ladd node free (blocks h) in
       let h := set_frees (set_blocks h b) (free :: frees h) in
       let* u := get_hdr h node in
       put_hdr h node (set_size u size)) in
    let* u := get_hdr h node in
    let* h := put_hdr h node (set_used u true) in
    let* f := ldel node (frees h) in
    Some (set_frees h f, node + HDR)
  end.
(** memalloc.c:233-274 [bfdev_memalloc_free] *)
Definition free (h : heap) (block : Z) : option heap :=
  let node := block - HDR in
  let* u := get_hdr h node in
  let* h := put_hdr h node (set_used u false) in
  let h := set_frees h (node :: frees h) in
  let* u := get_hdr h node in
  let nsize := get_size u in
  let h := set_avail h (w64 (avail h + nsize)) in
  let* side := lnext node (blocks h) in
  let* h :=
    match side with
    | None => Some h
    | Some side =>
      let* us := get_hdr h side in
      if get_used us then Some h else
      let* f := ldel side (frees h) in
      let* b := ldel side (blocks h) in
      let h := set_frees (set_blocks h b) f in
      let fsize := w64 (HDR + get_size us) in
      let* u := get_hdr h node in
      let* h := put_hdr h node (set_size u (w64 (get_size u + fsize))) in
      Some (set_avail h (w64 (avail h + HDR)))
    end in
  let* side := lprev None node (blocks h) in
  match side with
  | None => Some h
  | Some side =>
    let* us := get_hdr h side in
    if get_used us then Some h else
    let* f := ldel node (frees h) in
    let* b := ldel node (blocks h) in
    let h := set_frees (set_blocks h b) f in
    let* u := get_hdr h node in
    let fsize := w64 (HDR + get_size u) in
    let* h := put_hdr h side (set_size us (w64 (get_size us + fsize))) in
    Some (set_avail h (w64 (avail h + HDR)))
  end.
(** memcpy between blocks *)
Definition copy (d : Z -> Z) (dst src n : Z) : Z -> Z := fun a => if (dst <=? a) && (a <? dst + n) then d (src + (a - dst)) else d a.
(** memalloc.c:167-231 [bfdev_memalloc_realloc] *)
Definition realloc (h : heap) (block resize : Z) : option (heap * Z) :=
  let node := block - HDR in
  let resize := align_up resize in
  if avail h <? resize then Some (h, 0) else
  let* u := get_hdr h node in
  let origin := get_size u in
  if resize <=? origin then Some (h, block) else
  let* expand := lnext node (blocks h) in
  let exsize := w64 (resize - origin) in
  let move :=
    let* (h, newblk) := alloc h resize in
    if newblk =? 0 then Some (h, 0) else
    let h := set_dat h (copy (dat h) newblk block origin) in
    let* h := free h block in
    Some (h, newblk) in
  match expand with
  | None => move
  | Some expand =>
    let* ue := get_hdr h expand in
    if get_used ue || (w64 (HDR + get_size ue) <? exsize) then move else
    let nsize := get_size ue in
    let h := set_avail h (w64 (avail h - nsize)) in
    let* f := ldel expand (frees h) in
    let* b := ldel expand (blocks h) in
    let h := set_frees (set_blocks h b) f in
    let bsize := w64 (HDR + nsize - exsize) in
    let* (h, resize) :=
      (if bsize <? HDR + ALIGN then Some (h, w64 (origin + w64 (HDR + nsize))) else
       let free := w64 (expand + exsize) in
       let fsize := w64 (bsize - HDR) in
       let* h := put_hdr h free (pnode fsize false) in
       let h := set_avail h (w64 (avail h + fsize)) in
       let* b := ladd node free (blocks h) in
       Some (set_frees (set_blocks h b) (free :: frees h), resize)) in
    let* u := get_hdr h node in
    let* h := put_hdr h node (set_size u resize) in
    Some (h, block)
  end.
End Find.
(** memalloc.c:276-292 [bfdev_memalloc_init] on the pool of [size] bytes at [array] *)
Definition init (array size : Z) (usz dat : Z -> Z) : option heap :=
  let h := {| base := array; psize := size; blocks := []; frees := []; avail := 0; usz := usz; dat := dat |} in
  let* h := put_hdr h array (pnode (w64 (size - HDR)) false) in
  Some (set_avail (set_frees (set_blocks h [array]) [array]) (w64 (size - HDR))).
