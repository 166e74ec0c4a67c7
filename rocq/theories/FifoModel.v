(** * Model of src/fifo.c, include/bfdev/fifo.h, src/ringbuf.c

    The element buffer is a byte list of length (mask+1)*esize; all counters are
    64-bit with wrap-around. Every function answers [None] on an access outside the
    element buffer or outside the caller's buffer. *)
From Verif Require Import Lib Mem.

(** include/bfdev/fifo.h:18-25 [struct bfdev_fifo] (without the allocator pointer);
    include/bfdev/ringbuf.h has the same fields. *)
Record fifo := { f_in : Z; f_out : Z; f_mask : Z; f_esize : Z; f_data : list Z }.

Definition set_in (f : fifo) (v : Z) : fifo :=
  {| f_in := v; f_out := f_out f; f_mask := f_mask f; f_esize := f_esize f; f_data := f_data f |}.
Definition set_out (f : fifo) (v : Z) : fifo :=
  {| f_in := f_in f; f_out := v; f_mask := f_mask f; f_esize := f_esize f; f_data := f_data f |}.
Definition set_data (f : fifo) (d : list Z) : fifo :=
  {| f_in := f_in f; f_out := f_out f; f_mask := f_mask f; f_esize := f_esize f; f_data := d |}.

(** fifo.c:12-28 the prologue of FIFO_GENERIC_COPY: (offset, len, llen) in bytes.
    ringbuf.c:12-28 is identical. *)
Definition copy_plan (f : fifo) (len offset : Z) : Z * Z * Z :=
  let size := w64 (f_mask f + 1) in
  let esize := f_esize f in
  let offset := Z.land offset (f_mask f) in
  let '(offset, size, len) :=
    if esize =? 1 then (offset, size, len)
    else (w64 (offset * esize), w64 (size * esize), w64 (len * esize)) in
  let llen := Z.min len (w64 (size - offset)) in
  (offset, len, llen).

(** fifo.c:30-38 [fifo_out_copy], ringbuf.c:30-38: the bytes stored to the caller's
    buffer (the caller's buffer is assumed large enough: [len] elements). *)
Definition out_copy (f : fifo) (len offset : Z) : option (list Z) :=
  let '(offset, len, llen) := copy_plan f len offset in
  let* a := rdn (f_data f) offset llen in
  let* b := rdn (f_data f) 0 (w64 (len - llen)) in
  Some (a ++ b).

(** fifo.c:40-48 [fifo_in_copy], ringbuf.c:40-48: [buff] is the caller's source object. *)
Definition in_copy (f : fifo) (buff : list Z) (len offset : Z) : option fifo :=
  let '(offset, len, llen) := copy_plan f len offset in
  let* a := rdn buff 0 llen in
  let* d := wrn (f_data f) offset a in
  let* b := rdn buff llen (w64 (len - llen)) in
  let* d := wrn d 0 b in
  Some (set_data f d).

(** fifo.c:99-115, ringbuf.c:99-109. *)
Definition fifo_empty (f : fifo) : bool := f_in f =? f_out f.
Definition fifo_valid (f : fifo) : Z := w64 (f_in f - f_out f).
Definition fifo_unused (f : fifo) : Z := w64 (w64 (f_mask f + 1) - fifo_valid f).

(** fifo.c:117-127 [bfdev_fifo_peek_flat]; ringbuf.c:125-135 is identical.
    Result: (return value, bytes stored in the caller's buffer). *)
Definition fifo_peek_flat (f : fifo) (len : Z) : option (Z * list Z) :=
  let len := Z.min len (fifo_valid f) in
  let* b := out_copy f len (f_out f) in
  Some (len, b).

(** fifo.c:129-138 [bfdev_fifo_out_flat]; ringbuf.c:137-146. *)
Definition fifo_out_flat (f : fifo) (len : Z) : option (Z * list Z * fifo) :=
  let* (llen, b) := fifo_peek_flat f len in
  Some (llen, b, set_out f (w64 (f_out f + llen))).

(** fifo.c:140-151 [bfdev_fifo_in_flat]. *)
Definition fifo_in_flat (f : fifo) (buff : list Z) (len : Z) : option (Z * fifo) :=
  let len := Z.min len (fifo_unused f) in
  let* f := in_copy f buff len (f_in f) in
  Some (len, set_in f (w64 (f_in f + len))).

(** fifo.h:243-264 len, check_empty, check_full. *)
Definition fifo_len (f : fifo) : Z := w64 (f_in f - f_out f).
Definition fifo_check_empty (f : fifo) : bool := f_in f =? f_out f.
Definition fifo_check_full (f : fifo) : bool := fifo_len f >? f_mask f.

(** fifo.h:303-323 [bfdev_fifo_peek] without records: array access of element
    [out & mask] (esize bytes). *)
Definition fifo_peek_one (f : fifo) : option (bool * list Z) :=
  if fifo_check_empty f then Some (false, [])
  else
    let* e := rdn (f_data f) (Z.land (f_out f) (f_mask f) * f_esize f) (f_esize f) in
    Some (true, e).

(** fifo.h:330-351 [bfdev_fifo_get] without records. *)
Definition fifo_get (f : fifo) : option (bool * list Z * fifo) :=
  let* (r, e) := fifo_peek_one f in
  Some (r, e, if r then set_out f (w64 (f_out f + 1)) else f).

(** fifo.h:358-379 [bfdev_fifo_put] without records; [e] is the element, esize bytes. *)
Definition fifo_put (f : fifo) (e : list Z) : option (bool * fifo) :=
  if fifo_check_full f then Some (false, f)
  else
    let* d := wrn (f_data f) (Z.land (f_in f) (f_mask f) * f_esize f) e in
    Some (true, set_in (set_data f d) (w64 (f_in f + 1))).

(** fifo.h:225-237 reset and homing. *)
Definition fifo_reset (f : fifo) : fifo := set_out (set_in f 0) 0.
Definition fifo_homing (f : fifo) : fifo := set_out f (f_in f).

(** ** Record mode *)

(** fifo.c:50-74 [fifo_record_peek], ringbuf.c:50-74: the loop. *)
Fixpoint record_peek_loop (n : nat) (data : list Z) (offset mask esize length : Z) : option Z :=
  match n with
  | O => Some length
  | S n' =>
    let length := w64 (Z.shiftl length 8) in
    let* d := rd data (Z.land offset mask) in
    record_peek_loop n' data (w64 (offset + esize)) mask esize (Z.lor length d)
  end.

(** fifo.c:61-65 and 86-90: scaling of offset and mask. *)
Definition record_scale (f : fifo) : Z * Z :=
  if f_esize f =? 1 then (f_out f, f_mask f)
  else (w64 (f_out f * f_esize f), w64 (w64 (f_mask f * f_esize f) + (f_esize f - 1))).

Definition fifo_record_peek (f : fifo) (recsize : Z) : option Z :=
  let (offset, mask) := record_scale f in
  record_peek_loop (Z.to_nat recsize) (f_data f) offset mask (f_esize f) 0.

(** fifo.c:76-97 [fifo_record_poke], ringbuf.c:76-97: the loop. Note the start offset
    is [fifo->out] (line 83). *)
Fixpoint record_poke_loop (n : nat) (data : list Z) (offset mask esize len : Z) : option (list Z) :=
  match n with
  | O => Some data
  | S n' =>
    let* data := wr data (Z.land offset mask) (w8 len) in
    record_poke_loop n' data (w64 (offset + esize)) mask esize (Z.shiftr len 8)
  end.

Definition fifo_record_poke (f : fifo) (len recsize : Z) : option fifo :=
  let (offset, mask) := record_scale f in
  let* d := record_poke_loop (Z.to_nat recsize) (f_data f) offset mask (f_esize f) len in
  Some (set_data f d).

(** fifo.c:153-167 [bfdev_fifo_peek_record]; ringbuf.c:166-180. *)
Definition fifo_peek_record (f : fifo) (len record : Z) : option (Z * list Z) :=
  if fifo_empty f then Some (0, [])
  else
    let* datalen := fifo_record_peek f record in
    let len := Z.min len datalen in
    let* b := out_copy f len (w64 (f_out f + record)) in
    Some (len, b).

(** fifo.c:169-184 [bfdev_fifo_out_record]; ringbuf.c:182-197. *)
Definition fifo_out_record (f : fifo) (len record : Z) : option (Z * list Z * fifo) :=
  if fifo_empty f then Some (0, [], f)
  else
    let* datalen := fifo_record_peek f record in
    let len := Z.min len datalen in
    let* b := out_copy f len (w64 (f_out f + record)) in
    Some (len, b, set_out f (w64 (f_out f + (datalen + record)))).

(** fifo.c:186-198 [bfdev_fifo_in_record]. *)
Definition fifo_in_record (f : fifo) (buff : list Z) (len record : Z) : option (Z * fifo) :=
  if w64 (len + record) >? fifo_unused f then Some (0, f)
  else
    let* f := fifo_record_poke f len record in
    let* f := in_copy f buff len (w64 (f_in f + record)) in
    Some (len, set_in f (w64 (f_in f + (len + record)))).

(** ** Ring buffer *)

(** ringbuf.c:111-123 [ringbuf_overflow]. *)
Definition ringbuf_overflow (f : fifo) : Z :=
  let size := w64 (f_mask f + 1) in
  let used := w64 (f_in f - f_out f) in
  if used >? size then used - size else 0.

(** ringbuf.c:148-164 [bfdev_ringbuf_in_flat]. *)
Definition ringbuf_in_flat (f : fifo) (buff : list Z) (len : Z) : option (Z * fifo) :=
  let size := w64 (f_mask f + 1) in
  let len := Z.min len size in
  let* f := in_copy f buff len (f_in f) in
  let f := set_in f (w64 (f_in f + len)) in
  let overflow := ringbuf_overflow f in
  let f := if overflow =? 0 then f else set_out f (w64 (f_out f + overflow)) in
  Some (len, f).

(** include/bfdev/ringbuf.h:358-379 [bfdev_ringbuf_put] without records: the return value
    is whether an element was dropped. *)
Definition ringbuf_put (f : fifo) (e : list Z) : option (bool * fifo) :=
  let full := fifo_check_full f in
  let f := if full then set_out f (w64 (f_out f + 1)) else f in
  let* d := wrn (f_data f) (Z.land (f_in f) (f_mask f) * f_esize f) e in
  Some (full, set_in (set_data f d) (w64 (f_in f + 1))).

(** ringbuf.c:213-217: the eviction loop of [bfdev_ringbuf_in_record]; fuel [n],
    [None] if exhausted. *)
Fixpoint ringbuf_evict (n : nat) (f : fifo) (overflow record : Z) : option fifo :=
  if overflow =? 0 then Some f
  else match n with
  | O => None
  | S n' =>
    let* l := fifo_record_peek f record in
    let datalen := w64 (record + l) in
    let f := set_out f (w64 (f_out f + datalen)) in
    ringbuf_evict n' f (overflow - Z.min datalen overflow) record
  end.

(** ringbuf.c:199-223 [bfdev_ringbuf_in_record]. *)
Definition ringbuf_in_record (fuel : nat) (f : fifo) (buff : list Z) (len record : Z)
  : option (Z * fifo) :=
  let size := w64 (f_mask f + 1) in
  let len := Z.min len size in
  let offset := w64 (f_in f + record) in
  let f := set_in f (w64 (offset + len)) in
  let* f := ringbuf_evict fuel f (ringbuf_overflow f) record in
  let* f := fifo_record_poke f len record in
  let* f := in_copy f buff len offset in
  Some (len, f).

(** ** Dynamic allocation *)

(** include/bfdev/log2.h:116-123 [bfdev_pow2_roundup_dynamic]; [fls] is the 1-based
    index of the highest set bit (include/bfdev/bitops.h), i.e. log2 + 1; a shift by 64
    (value > 2^63) is undefined behaviour: [None]. *)
Definition pow2_roundup (value : Z) : option Z :=
  if value <? 2 then Some value
  else
    let s := Z.log2 (value - 1) + 1 in
    if s >=? 64 then None else Some (Z.shiftl 1 s).

(** fifo.c:200-219 [bfdev_fifo_dynamic_alloc], ringbuf.c:225-244: the allocator's answer
    for [size * esize] bytes is the parameter [mem] ([None] = allocation failure).
    bfdev_malloc_array (include/bfdev/allocator.h:95-100) multiplies modulo 2^64.
    Result: return code and the new fifo if stored. *)
Definition fifo_dynamic_alloc (mem : Z -> option (list Z)) (esize size : Z)
  : option (Z * option fifo) :=
  let* size := pow2_roundup size in
  if size <? 2 then Some (- EINVAL, None)
  else match mem (w64 (size * esize)) with
  | None => Some (- ENOMEM, None)
  | Some d =>
    Some (- ENOERR, Some {| f_in := 0; f_out := 0; f_mask := size - 1;
                            f_esize := esize; f_data := d |})
  end.
