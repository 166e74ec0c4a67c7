(** * Byte order: conversions, unaligned access and endian bit operations

    include/bfdev/byteorder/little-endian.h, big-endian.h, include/bfdev/byteorder.h,
    include/bfdev/asm-generic/{byteorder,unaligned}.h, the array functions of
    include/bfdev/swab.h and include/bfdev/bitops-endian.h.

    Two machine parameters: [big] is the byte order of the processor, [hdr] says which of
    the two headers the build includes ([true] for big-endian.h).  Memory is a list of
    bytes; a type of [n] bytes may be stored at any offset (the packed struct). *)
From Verif Require Import Lib BitsModel.

(** The object representation of an unsigned value on a little-endian processor: C's byte
    order, not code of the repository. *)
Definition bytes_le (n : nat) (v : Z) : list Z := map (fun k => (v / 2 ^ (8 * k)) mod 256) (zseq 0 n).
Definition value_le (bs : list Z) : Z := fold_right (fun b acc => b + 256 * acc) 0 bs.
(** The same for either processor. *)
Definition host_bytes (big : bool) (n : nat) (v : Z) : list Z := if big then rev (bytes_le n v) else bytes_le n v.
Definition host_value (big : bool) (bs : list Z) : Z := value_le (if big then rev bs else bs).

(** Reading and writing consecutive bytes of memory. *)
Fixpoint mread (m : list Z) (p : Z) (n : nat) : option (list Z) :=
  match n with
  | O => Some []
  | S n => let* b := rd m p in let* bs := mread m (p + 1) n in Some (b :: bs)
  end.
Fixpoint mwrite (m : list Z) (p : Z) (bs : list Z) : option (list Z) :=
  match bs with
  | [] => Some m
  | b :: bs => let* m := wr m p b in mwrite m (p + 1) bs
  end.

(** include/bfdev/asm-generic/unaligned.h:15-21 [bfdev_arch_unaligned_get_type] (also
    [get_u16/u32/u64/uint/ulong], lines 41-57 and 77-102, and their include/bfdev/unaligned.h
    names); [w] is the width of the type in bits. *)
Definition get_type (big : bool) (w : Z) (m : list Z) (p : Z) : option Z :=
  let* bs := mread m p (Z.to_nat (w / 8)) in Some (host_value big bs).
(** unaligned.h:23-29 [bfdev_arch_unaligned_set_type] (also lines 59-75, 104-129). *)
Definition set_type (big : bool) (w : Z) (m : list Z) (p v : Z) : option (list Z) :=
  mwrite m p (host_bytes big (Z.to_nat (w / 8)) (wrap w v)).

(** include/bfdev/swab.h:158-194 [bfdev_swab16], [bfdev_swab32], [bfdev_swab64] by width
    (also the pointer forms [bfdev_swab16p] ... and [bfdev_swab], swab.h:200-313). *)
Definition swabw (w x : Z) : Z :=
  if w =? 16 then swab16 x else if w =? 32 then swab32 x else swab64 x.

(** byteorder/little-endian.h:24-50 and big-endian.h:24-50 [bfdev_cpu_to_le16/32/64] and the
    [_const] forms, also the pointer forms [bfdev_cpu_to_le16p] ... (little-endian.h:66-148). *)
Definition cpu_to_le (hdr : bool) (w x : Z) : Z := if hdr then swabw w (wrap w x) else wrap w x.
(** The same lines, [bfdev_le16/32/64_to_cpu]. *)
Definition le_to_cpu (hdr : bool) (w x : Z) : Z := if hdr then swabw w (wrap w x) else wrap w x.
(** [bfdev_cpu_to_be16/32/64], also [bfdev_htons_const], [bfdev_htonl_const] (lines 19-20). *)
Definition cpu_to_be (hdr : bool) (w x : Z) : Z := if hdr then wrap w x else swabw w (wrap w x).
(** [bfdev_be16/32/64_to_cpu], also [bfdev_ntohs_const], [bfdev_ntohl_const]. *)
Definition be_to_cpu (hdr : bool) (w x : Z) : Z := if hdr then wrap w x else swabw w (wrap w x).

(** asm-generic/unaligned.h:131-156 [bfdev_arch_unaligned_get_le16/32/64]. *)
Definition get_le (big hdr : bool) (w : Z) (m : list Z) (p : Z) : option Z :=
  let* v := get_type big w m p in Some (le_to_cpu hdr w v).
(** unaligned.h:158-183 [bfdev_arch_unaligned_set_le16/32/64]. *)
Definition set_le (big hdr : bool) (w : Z) (m : list Z) (p v : Z) : option (list Z) :=
  set_type big w m p (cpu_to_le hdr w v).
(** unaligned.h:185-210 [bfdev_arch_unaligned_get_be16/32/64]. *)
Definition get_be (big hdr : bool) (w : Z) (m : list Z) (p : Z) : option Z :=
  let* v := get_type big w m p in Some (be_to_cpu hdr w v).
(** unaligned.h:212-237 [bfdev_arch_unaligned_set_be16/32/64]. *)
Definition set_be (big hdr : bool) (w : Z) (m : list Z) (p v : Z) : option (list Z) :=
  set_type big w m p (cpu_to_be hdr w v).

(** asm-generic/byteorder.h:10: without an architecture header the build always includes
    little-endian.h. *)
Definition generic_hdr : bool := false.

(** include/bfdev/swab.h [bfdev_swab16s/32s/64s] (lines 390-426): swap one element of an
    array in place. *)
Definition swab_s (w : Z) (a : list Z) (i : Z) : option (list Z) :=
  let* x := rd a i in wr a i (swabw w x).
(** swab.h:512-546 [bfdev_swab16_array/32/64] (and [bfdev_swab_array]): [while (count--)]
    over consecutive elements.  [count] is an unsigned int. *)
Fixpoint swab_array (w : Z) (a : list Z) (i : Z) (count : nat) : option (list Z) :=
  match count with
  | O => Some a
  | S count => let* a := swab_s w a i in swab_array w a (i + 1) count
  end.

(** asm-generic/byteorder.h:14-22 [BFDEV_GENERIC_BYTEORDER_ARRAY]: [dest] and [src] are
    indices into one memory of [w]-bit elements, so the regions may overlap; [f] is the
    conversion. *)
Fixpoint order_array (f : Z -> Z) (a : list Z) (dest src : Z) (size : nat) : option (list Z) :=
  match size with
  | O => Some a
  | S size => let* x := rd a src in let* a := wr a dest (f x) in order_array f a (dest + 1) (src + 1) size
  end.
(** byteorder.h:24-52 the six instances. *)
Definition cpu_to_le_array (hdr : bool) (w : Z) := order_array (cpu_to_le hdr w).
Definition le_to_cpu_array (hdr : bool) (w : Z) := order_array (le_to_cpu hdr w).

(** include/bfdev/bitops-endian.h:16-24 [BFDEV_BITOPS_LE_SWIZZLE], [BFDEV_BITOPS_BE_SWIZZLE]. *)
Definition le_swizzle (hdr : bool) : Z := if hdr then Z.land (64 - 1) (Z.lnot 7) else 0.
Definition be_swizzle (hdr : bool) : Z := if hdr then 0 else Z.land (64 - 1) (Z.lnot 7).
(** The operand [bit ^ BFDEV_BITOPS_LE_SWIZZLE] ([_BE_]) of bitops-endian.h:26-259. *)
Definition le_bit (hdr : bool) (bit : Z) : Z := Z.lxor bit (le_swizzle hdr).
Definition be_bit (hdr : bool) (bit : Z) : Z := Z.lxor bit (be_swizzle hdr).
(** bitops-endian.h:26-72 (and 128-180 with [be_bit]): the non-atomic operations are those of
    bitops.h at the swizzled position; [pos] is [le_bit hdr] or [be_bit hdr]. *)
Definition bit_clr_at (pos : Z -> Z) (a : list Z) (bit : Z) := bit_clr a (pos bit).
Definition bit_set_at (pos : Z -> Z) (a : list Z) (bit : Z) := bit_set a (pos bit).
Definition bit_flip_at (pos : Z -> Z) (a : list Z) (bit : Z) := bit_flip a (pos bit).
Definition bit_change_at (pos : Z -> Z) (a : list Z) (bit : Z) (val : bool) := bit_change a (pos bit) val.
Definition bit_test_at (pos : Z -> Z) (a : list Z) (bit : Z) := bit_test a (pos bit).
Definition bit_test_clr_at (pos : Z -> Z) (a : list Z) (bit : Z) := bit_test_clr a (pos bit).
Definition bit_test_set_at (pos : Z -> Z) (a : list Z) (bit : Z) := bit_test_set a (pos bit).
Definition bit_test_flip_at (pos : Z -> Z) (a : list Z) (bit : Z) := bit_test_flip a (pos bit).
(** bitops-endian.h:176-180 [bfdev_bit_test_change_be]; there is no [_le] form. *)
Definition bit_test_change_at (pos : Z -> Z) (a : list Z) (bit : Z) (val : bool) := bit_test_change a (pos bit) val.
(** The bytes of an array of unsigned long. *)
Definition word_bytes (big : bool) (a : list Z) : list Z := flat_map (host_bytes big 8) a.
