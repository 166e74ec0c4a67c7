(** * Model of the public bitmap functions, include/bfdev/bitmap.h

    Each function picks one of up to three implementations by what the compiler can prove
    about the length: [kn] is [__builtin_constant_p(bits)] and [ka] is
    [__builtin_constant_p(bits & BFDEV_BITMAP_MASK)] (little-endian: multiples of 8). Both
    are parameters.  Memory is a list of 64-bit words, as in BitmapModel.v; the byte
    functions of the C library see it through [rdb]/[wrb] (little-endian). *)
From Verif Require Import Lib BitsModel BitmapModel BitwalkModel.

(** include/bfdev/asm-generic/bitsperlong.h:21-24 [bfdev_const_small_nbits]. *)
Definition small (kn : bool) (bits : Z) : bool := kn && (bits <=? 64) && (0 <? bits).
(** bitmap.h:34-37 [bfdev_bitmap_const_aligned]. *)
Definition aligned (ka : bool) (bits : Z) : bool := ka && (bits mod 8 =? 0).
(** include/bfdev/bitops.h:38 [BFDEV_BITS_TO_U8], computed in unsigned int. *)
Definition bits_to_u8 (bits : Z) : Z := w32 (bits + 8 - 1) / 8.

(** Byte [k] from address [base]: the processor's view of words, not repository code. *)
Definition rdb (m : list Z) (base k : Z) : option Z :=
  let* w := rd m (base + k / 8) in Some (Z.land (Z.shiftr w (8 * (k mod 8))) 255).
Definition wrb (m : list Z) (base k v : Z) : option (list Z) :=
  let* w := rd m (base + k / 8) in
  wr m (base + k / 8) (Z.lor (Z.land w (not64 (Z.shiftl 255 (8 * (k mod 8))))) (Z.shiftl v (8 * (k mod 8)))).

(** C library functions as their standard describes them: memset, memcpy, memcmp (its
    result is nonzero exactly at a difference). *)
Fixpoint memset (n : nat) (m : list Z) (base k c : Z) : option (list Z) :=
  match n with O => Some m | S n => let* m := wrb m base k c in memset n m base (k + 1) c end.
Fixpoint memcpy (n : nat) (m : list Z) (dest src k : Z) : option (list Z) :=
  match n with
  | O => Some m
  | S n => let* v := rdb m src k in let* m := wrb m dest k v in memcpy n m dest src (k + 1)
  end.
Fixpoint memcmp (n : nat) (m : list Z) (s1 s2 k : Z) : option Z :=
  match n with
  | O => Some 0
  | S n => let* a := rdb m s1 k in let* b := rdb m s2 k in if a =? b then memcmp n m s1 s2 (k + 1) else Some (a - b)
  end.
(** src/libc/string.c:23-36 [bfdev_memdiff]: whether a byte differs from [c] (the pointer to
    it is only tested by the callers here; MiscModel.v has the pointer). *)
Fixpoint memdiffb (n : nat) (m : list Z) (src k c : Z) : option bool :=
  match n with
  | O => Some false
  | S n => let* a := rdb m src k in if negb (a =? c) then Some true else memdiffb n m src (k + 1) c
  end.

(** bitmap.h:39-49 [bfdev_bitmap_empty]. *)
Definition bitmap_empty (kn ka : bool) (m : list Z) (src bits : Z) : option bool :=
  if small kn bits then let* w := rd m src in Some (empty_small w bits)
  else if negb (aligned ka bits) then let* r := comp_find_first m bits 0 false src in Some (bits <=? r)
  else let* d := memdiffb (Z.to_nat (bits / 8)) m src 0 0 in Some (negb d).
(** bitmap.h:51-61 [bfdev_bitmap_full]. *)
Definition bitmap_full (kn ka : bool) (m : list Z) (src bits : Z) : option bool :=
  if small kn bits then let* w := rd m src in Some (full_small w bits)
  else if negb (aligned ka bits) then let* r := comp_find_first m bits (2 ^ 64 - 1) false src in Some (bits <=? r)
  else let* d := memdiffb (Z.to_nat (bits / 8)) m src 0 255 in Some (negb d).
(** bitmap.h:63-74 [bfdev_bitmap_equal]: memcmp's int becomes a bool. *)
Definition bitmap_equal (kn ka : bool) (m : list Z) (src1 src2 bits : Z) : option bool :=
  if small kn bits then let* a := rd m src1 in let* b := rd m src2 in Some (equal_small a b bits)
  else if negb (aligned ka bits) then comp_equal m src1 src2 bits
  else let* r := memcmp (Z.to_nat (bits / 8)) m src1 src2 0 in Some (negb (r =? 0)).
(** bitmap.h:76-87 [bfdev_bitmap_or_equal]. *)
Definition bitmap_or_equal (kn : bool) (m : list Z) (src1 src2 src3 bits : Z) : option bool :=
  if negb (small kn bits) then comp_or_equal m src1 src2 src3 bits
  else let* a := rd m src1 in let* b := rd m src2 in let* c := rd m src3 in Some (or_equal_small a b c bits).
(** bitmap.h:89-100 [bfdev_bitmap_intersects]. *)
Definition bitmap_intersects (kn : bool) (m : list Z) (src1 src2 bits : Z) : option bool :=
  if negb (small kn bits) then comp_intersects m src1 src2 bits
  else let* a := rd m src1 in let* b := rd m src2 in Some (intersects_small a b bits).
(** bitmap.h:102-113 [bfdev_bitmap_and]. *)
Definition bitmap_and (kn : bool) (m : list Z) (dest src1 src2 bits : Z) : option (list Z * bool) :=
  if negb (small kn bits) then comp_and m dest src1 src2 bits
  else let* a := rd m src1 in let* b := rd m src2 in
       let v := and_small a b bits in let* m := wr m dest v in Some (m, negb (v =? 0)).
(** bitmap.h:115-126 [bfdev_bitmap_andnot]. *)
Definition bitmap_andnot (kn : bool) (m : list Z) (dest src1 src2 bits : Z) : option (list Z * bool) :=
  if negb (small kn bits) then comp_andnot m dest src1 src2 bits
  else let* a := rd m src1 in let* b := rd m src2 in
       let v := andnot_small a b bits in let* m := wr m dest v in Some (m, negb (v =? 0)).
(** bitmap.h:128-139 [bfdev_bitmap_or]. *)
Definition bitmap_or (kn : bool) (m : list Z) (dest src1 src2 bits : Z) : option (list Z) :=
  if negb (small kn bits) then comp_or m dest src1 src2 bits
  else let* a := rd m src1 in let* b := rd m src2 in wr m dest (or_small a b bits).
(** bitmap.h:141-152 [bfdev_bitmap_xor]. *)
Definition bitmap_xor (kn : bool) (m : list Z) (dest src1 src2 bits : Z) : option (list Z) :=
  if negb (small kn bits) then comp_xor m dest src1 src2 bits
  else let* a := rd m src1 in let* b := rd m src2 in wr m dest (xor_small a b bits).
(** bitmap.h:154-165 [bfdev_bitmap_shl]. *)
Definition bitmap_shl (kn : bool) (m : list Z) (dest src shift bits : Z) : option (list Z) :=
  if negb (small kn bits) then comp_shl m dest src shift bits
  else let* a := rd m src in let* v := shl_small a shift bits in wr m dest v.
(** bitmap.h:167-178 [bfdev_bitmap_shr]. *)
Definition bitmap_shr (kn : bool) (m : list Z) (dest src shift bits : Z) : option (list Z) :=
  if negb (small kn bits) then comp_shr m dest src shift bits
  else let* a := rd m src in let* v := shr_small a shift bits in wr m dest v.
(** bitmap.h:180-191 [bfdev_bitmap_complement]. *)
Definition bitmap_complement (kn : bool) (m : list Z) (dest src bits : Z) : option (list Z) :=
  if negb (small kn bits) then comp_complement m dest src bits
  else let* a := rd m src in wr m dest (complement_small a bits).

(** Bit operations of asm-generic/bitops.h:17-35 on the bitmap at [map]. *)
Definition bit_set_at (m : list Z) (map bit : Z) : option (list Z) :=
  let* w := rd m (map + bit / 64) in wr m (map + bit / 64) (Z.lor w (BIT bit)).
Definition bit_clr_at (m : list Z) (map bit : Z) : option (list Z) :=
  let* w := rd m (map + bit / 64) in wr m (map + bit / 64) (Z.land w (not64 (BIT bit))).
(** bitmap.h:193-209 [bfdev_bitmap_set]; [kas] is what the compiler knows of [start]. *)
Definition bitmap_set (kn ka kas : bool) (m : list Z) (map start bits : Z) : option (list Z) :=
  if kn && (bits =? 1) then bit_set_at m map start
  else if negb (aligned kas start) || negb (aligned ka bits) then comp_set m map start bits
  else memset (Z.to_nat (bits / 8)) m map (start / 8) 255.
(** bitmap.h:211-227 [bfdev_bitmap_clr]. *)
Definition bitmap_clr (kn ka kas : bool) (m : list Z) (map start bits : Z) : option (list Z) :=
  if kn && (bits =? 1) then bit_clr_at m map start
  else if negb (aligned kas start) || negb (aligned ka bits) then comp_clr m map start bits
  else memset (Z.to_nat (bits / 8)) m map (start / 8) 0.
(** bitmap.h:229-241 [bfdev_bitmap_zero]. *)
Definition bitmap_zero (kn : bool) (m : list Z) (map bits : Z) : option (list Z) :=
  if small kn bits then wr m map 0 else memset (Z.to_nat (bits_to_u8 bits)) m map 0 0.
(** bitmap.h:243-255 [bfdev_bitmap_fill]. *)
Definition bitmap_fill (kn : bool) (m : list Z) (map bits : Z) : option (list Z) :=
  if small kn bits then wr m map ULONG_MAX else memset (Z.to_nat (bits_to_u8 bits)) m map 0 255.
(** bitmap.h:257-269 [bfdev_bitmap_copy]. *)
Definition bitmap_copy (kn : bool) (m : list Z) (dest src bits : Z) : option (list Z) :=
  if small kn bits then let* w := rd m src in wr m dest w
  else memcpy (Z.to_nat (bits_to_u8 bits)) m dest src 0.
