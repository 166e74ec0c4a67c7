(** * Model of the word-level bit operations

    include/bfdev/asm-generic/bitops.h, include/bfdev/bits.h, include/bfdev/log2.h,
    include/bfdev/popcount.h, src/popcount.c, include/bfdev/bitrev.h, src/bitrev.c,
    include/bfdev/swab.h. Words are 64-bit ([BFDEV_BITS_PER_LONG = 64]). *)
From Verif Require Import Lib.

Definition ULONG_MAX : Z := 2 ^ 64 - 1.

(** C's [~] on unsigned long. *)
Definition not64 (v : Z) : Z := w64 (Z.lnot v).

(** include/bfdev/bits.h:61-63 [BFDEV_BIT]. *)
Definition BIT (n : Z) : Z := w64 (Z.shiftl 1 (n mod 64)).
(** include/bfdev/bits.h:40-43 [BFDEV_BIT_LOW_MASK]. *)
Definition LOW_MASK (n : Z) : Z := Z.shiftr ULONG_MAX (Z.land (w64 (- n)) 63).
(** include/bfdev/bits.h:52-55 [BFDEV_BIT_HIGH_MASK]. *)
Definition HIGH_MASK (n : Z) : Z := w64 (Z.shiftl ULONG_MAX (Z.land n 63)).

(** ** Single-bit operations on arrays of words, asm-generic/bitops.h:17-123
    ([BFDEV_BITS_WORD(bit)] is [bit / 64]). *)
Definition bit_clr (a : list Z) (bit : Z) : option (list Z) :=
  let* w := rd a (bit / 64) in wr a (bit / 64) (Z.land w (not64 (BIT bit))).
Definition bit_set (a : list Z) (bit : Z) : option (list Z) :=
  let* w := rd a (bit / 64) in wr a (bit / 64) (Z.lor w (BIT bit)).
Definition bit_flip (a : list Z) (bit : Z) : option (list Z) :=
  let* w := rd a (bit / 64) in wr a (bit / 64) (Z.lxor w (BIT bit)).
Definition bit_change (a : list Z) (bit : Z) (val : bool) : option (list Z) :=
  let* w := rd a (bit / 64) in
  if val then wr a (bit / 64) (Z.lor w (BIT bit))
  else wr a (bit / 64) (Z.land w (not64 (BIT bit))).
Definition bit_test (a : list Z) (bit : Z) : option bool :=
  let* w := rd a (bit / 64) in Some (negb (Z.land w (BIT bit) =? 0)).
Definition bit_test_clr (a : list Z) (bit : Z) : option (bool * list Z) :=
  let* old := rd a (bit / 64) in
  let* a := wr a (bit / 64) (Z.land old (not64 (BIT bit))) in
  Some (negb (Z.land old (BIT bit) =? 0), a).
Definition bit_test_set (a : list Z) (bit : Z) : option (bool * list Z) :=
  let* old := rd a (bit / 64) in
  let* a := wr a (bit / 64) (Z.lor old (BIT bit)) in
  Some (negb (Z.land old (BIT bit) =? 0), a).
Definition bit_test_flip (a : list Z) (bit : Z) : option (bool * list Z) :=
  let* old := rd a (bit / 64) in
  let* a := wr a (bit / 64) (Z.lxor old (BIT bit)) in
  Some (negb (Z.land old (BIT bit) =? 0), a).
Definition bit_test_change (a : list Z) (bit : Z) (val : bool) : option (bool * list Z) :=
  let* old := rd a (bit / 64) in
  let* a := wr a (bit / 64) (if val then Z.lor old (BIT bit) else Z.land old (not64 (BIT bit))) in
  Some (negb (Z.land old (BIT bit) =? 0), a).

(** ** Rotations, asm-generic/bitops.h:237-347; [m] is the width minus one
    (the constants 7, 15, 31, 63). [shift] is an unsigned int, so [-shift] is modulo
    2^32. The result is converted to the width. *)
Definition rol (w m value shift : Z) : Z :=
  wrap w (Z.lor (Z.shiftl value (Z.land shift m)) (Z.shiftr value (Z.land (w32 (- shift)) m))).
Definition ror (w m value shift : Z) : Z :=
  wrap w (Z.lor (Z.shiftr value (Z.land shift m)) (Z.shiftl value (Z.land (w32 (- shift)) m))).
Definition rol8 := rol 8 7.
Definition ror8 := ror 8 7.
Definition rol16 := rol 16 15.
Definition ror16 := ror 16 15.
Definition rol32 := rol 32 31.
Definition ror32 := ror 32 31.
Definition rol64 := rol 64 63.
Definition ror64 := ror 64 63.

(** ** First / last set bit, portable versions *)

(** one [if] of bfdev_arch_ffsuf, asm-generic/bitops.h:362-386. *)
Definition ffs_step (mask k : Z) (p : Z * Z) : Z * Z :=
  let '(shift, value) := p in
  if Z.land value mask =? 0 then (shift + k, Z.shiftr value k) else (shift, value).
(** asm-generic/bitops.h:354-394 [bfdev_arch_ffsuf]. *)
Definition ffsuf (value : Z) : Z :=
  let p := ffs_step 0xffffffff 32 (0, value) in
  let p := ffs_step 0xffff 16 p in
  let p := ffs_step 0xff 8 p in
  let p := ffs_step 0xf 4 p in
  let '(shift, value) := ffs_step 0x3 2 p in
  if Z.land value 0x1 =? 0 then shift + 1 else shift.

(** one [if] of bfdev_arch_flsuf, asm-generic/bitops.h:409-430. *)
Definition fls_step (k : Z) (p : Z * Z) : Z * Z :=
  let '(shift, value) := p in
  if Z.land value (w64 (Z.shiftl ULONG_MAX (64 - k))) =? 0
  then (shift - k, w64 (Z.shiftl value k)) else (shift, value).
(** asm-generic/bitops.h:401-436 [bfdev_arch_flsuf]. *)
Definition flsuf (value : Z) : Z :=
  let p := fls_step 32 (63, value) in
  let p := fls_step 16 p in
  let p := fls_step 8 p in
  let p := fls_step 4 p in
  let '(shift, value) := fls_step 2 p in
  if Z.land value (w64 (Z.shiftl ULONG_MAX 63)) =? 0 then shift - 1 else shift.

(** asm-generic/bitops.h:443-464. *)
Definition ffzuf (value : Z) : Z := ffsuf (not64 value).
Definition flzuf (value : Z) : Z := flsuf (not64 value).
(** asm-generic/bitops.h:470-494. *)
Definition ffs (value : Z) : Z := if value =? 0 then 0 else ffsuf value + 1.
Definition fls (value : Z) : Z := if value =? 0 then 0 else flsuf value + 1.
(** asm-generic/bitops.h:500-524. *)
Definition ffz (value : Z) : Z := if value =? ULONG_MAX then 0 else ffs (not64 value).
Definition flz (value : Z) : Z := if value =? ULONG_MAX then 0 else fls (not64 value).
(** asm-generic/bitops.h:530-558. *)
Definition ctz (value : Z) : Z :=
  if value =? ULONG_MAX then 0 else if value =? 0 then 64 else ffsuf value.
Definition clz (value : Z) : Z :=
  if value =? ULONG_MAX then 0 else if value =? 0 then 64 else 63 - flsuf value.

(** asm-generic/bitops.h:570-575: the loop of ffnsp / flnsp with [find] = ffsuf or flsuf;
    the result is (returned bit, final *nr). Fuel 64 suffices: every iteration clears a
    bit; [None] on exhaustion. *)
Fixpoint fns_loop (fuel : nat) (find : Z -> Z) (word nr : Z) : option (Z * Z) :=
  if word =? 0 then Some (64, nr)
  else match fuel with
  | O => None
  | S fuel' =>
    let bit := find word in
    if nr =? 0 then Some (bit, w32 (nr - 1))
    else fns_loop fuel' find (Z.land word (not64 (BIT bit))) (w32 (nr - 1))
  end.
(** asm-generic/bitops.h:560-579 [bfdev_arch_ffnsp]. *)
Definition ffnsp (word nr : Z) : option (Z * Z) :=
  if word =? ULONG_MAX then Some (nr, nr) else fns_loop 64 ffsuf word nr.
(** asm-generic/bitops.h:581-600 [bfdev_arch_flnsp]. *)
Definition flnsp (word nr : Z) : option (Z * Z) :=
  if word =? ULONG_MAX then Some (nr, nr) else fns_loop 64 flsuf word nr.
(** asm-generic/bitops.h:602-618. *)
Definition ffnzp (word nr : Z) : option (Z * Z) := ffnsp (not64 word) nr.
Definition flnzp (word nr : Z) : option (Z * Z) := flnsp (not64 word) nr.

(** ** include/bfdev/log2.h *)
(** log2.h:90-97 [bfdev_ilog2_dynamic] (and 103-110, identical on 64-bit). *)
Definition ilog2 (value : Z) : Z := if value <? 2 then 0 else fls value - 1.
(** log2.h:18-84 [bfdev_ilog2_const]: the chain of tests from bit 63 down to bit 2. *)
Fixpoint ilog2_chain (n : nat) (value : Z) : Z :=
  match n with
  | O => 1
  | S n' => let b := Z.of_nat n' + 2 in
            if negb (Z.land value (Z.shiftl 1 b) =? 0) then b else ilog2_chain n' value
  end.
Definition ilog2_const (value : Z) : Z := if value <? 2 then 0 else ilog2_chain 62 value.
(** log2.h:116-123 [bfdev_pow2_roundup_dynamic]; a shift by 64 is undefined. *)
Definition pow2_roundup_dynamic (value : Z) : option Z :=
  if value <? 2 then Some value
  else let s := fls (value - 1) in
       if s >=? 64 then None else Some (Z.shiftl 1 s).
(** log2.h:129-136 [bfdev_pow2_rounddown_dynamic]. *)
Definition pow2_rounddown_dynamic (value : Z) : Z :=
  if value <? 2 then value else Z.shiftl 1 (fls value - 1).
(** log2.h:142-146 [bfdev_pow2_check]. *)
Definition pow2_check (value : Z) : bool :=
  negb (value =? 0) && (Z.land value (w64 (value - 1)) =? 0).

(** ** include/bfdev/popcount.h *)
(** one line of the SWAR popcounts (popcount.h:22-57), stored back to the width. *)
Definition pop_step (w mask k value : Z) : Z :=
  wrap w (Z.land value mask + Z.land (Z.shiftr value k) mask).
(** popcount.h:19-59. *)
Definition popcount8_const (v : Z) : Z :=
  let v := pop_step 8 0x55 1 v in
  let v := pop_step 8 0x33 2 v in
  pop_step 8 0x0f 4 v.
Definition popcount16_const (v : Z) : Z :=
  let v := pop_step 16 0x5555 1 v in
  let v := pop_step 16 0x3333 2 v in
  let v := pop_step 16 0x0f0f 4 v in
  pop_step 16 0x00ff 8 v.
Definition popcount32_const (v : Z) : Z :=
  let v := pop_step 32 0x55555555 1 v in
  let v := pop_step 32 0x33333333 2 v in
  let v := pop_step 32 0x0f0f0f0f 4 v in
  let v := pop_step 32 0x00ff00ff 8 v in
  pop_step 32 0x0000ffff 16 v.
Definition popcount64_const (v : Z) : Z :=
  let v := pop_step 64 0x5555555555555555 1 v in
  let v := pop_step 64 0x3333333333333333 2 v in
  let v := pop_step 64 0x0f0f0f0f0f0f0f0f 4 v in
  let v := pop_step 64 0x00ff00ff00ff00ff 8 v in
  let v := pop_step 64 0x0000ffff0000ffff 16 v in
  pop_step 64 0x00000000ffffffff 32 v.

(** popcount.h:61-97: [value ^= value >> k]. *)
Definition xor_step (k v : Z) : Z := Z.lxor v (Z.shiftr v k).
Definition parity_tail (v : Z) : bool := Z.odd (Z.shiftr 0x6996 (Z.land v 0xf)).
Definition popparity8_const (v : Z) : bool := parity_tail (xor_step 4 v).
Definition popparity16_const (v : Z) : bool := parity_tail (xor_step 4 (xor_step 8 v)).
Definition popparity32_const (v : Z) : bool :=
  parity_tail (xor_step 4 (xor_step 8 (xor_step 16 v))).
Definition popparity64_const (v : Z) : bool :=
  parity_tail (xor_step 4 (xor_step 8 (xor_step 16 (xor_step 32 v)))).

(** src/popcount.c:9-75 [bfdev_popcount_table]. *)
Definition popcount_table : list Z := [
  0; 1; 1; 2; 1; 2; 2; 3; 1; 2; 2; 3; 2; 3; 3; 4;
  1; 2; 2; 3; 2; 3; 3; 4; 2; 3; 3; 4; 3; 4; 4; 5;
  1; 2; 2; 3; 2; 3; 3; 4; 2; 3; 3; 4; 3; 4; 4; 5;
  2; 3; 3; 4; 3; 4; 4; 5; 3; 4; 4; 5; 4; 5; 5; 6;
  1; 2; 2; 3; 2; 3; 3; 4; 2; 3; 3; 4; 3; 4; 4; 5;
  2; 3; 3; 4; 3; 4; 4; 5; 3; 4; 4; 5; 4; 5; 5; 6;
  2; 3; 3; 4; 3; 4; 4; 5; 3; 4; 4; 5; 4; 5; 5; 6;
  3; 4; 4; 5; 4; 5; 5; 6; 4; 5; 5; 6; 5; 6; 6; 7;
  1; 2; 2; 3; 2; 3; 3; 4; 2; 3; 3; 4; 3; 4; 4; 5;
  2; 3; 3; 4; 3; 4; 4; 5; 3; 4; 4; 5; 4; 5; 5; 6;
  2; 3; 3; 4; 3; 4; 4; 5; 3; 4; 4; 5; 4; 5; 5; 6;
  3; 4; 4; 5; 4; 5; 5; 6; 4; 5; 5; 6; 5; 6; 6; 7;
  2; 3; 3; 4; 3; 4; 4; 5; 3; 4; 4; 5; 4; 5; 5; 6;
  3; 4; 4; 5; 4; 5; 5; 6; 4; 5; 5; 6; 5; 6; 6; 7;
  3; 4; 4; 5; 4; 5; 5; 6; 4; 5; 5; 6; 5; 6; 6; 7;
  4; 5; 5; 6; 5; 6; 6; 7; 5; 6; 6; 7; 6; 7; 7; 8
].
(** src/popcount.c:77-143 [bfdev_popparity_table]. *)
Definition popparity_table : list bool := [
  false; true; true; false; true; false; false; true; true; false; false; true; false; true; true; false;
  true; false; false; true; false; true; true; false; false; true; true; false; true; false; false; true;
  true; false; false; true; false; true; true; false; false; true; true; false; true; false; false; true;
  false; true; true; false; true; false; false; true; true; false; false; true; false; true; true; false;
  true; false; false; true; false; true; true; false; false; true; true; false; true; false; false; true;
  false; true; true; false; true; false; false; true; true; false; false; true; false; true; true; false;
  false; true; true; false; true; false; false; true; true; false; false; true; false; true; true; false;
  true; false; false; true; false; true; true; false; false; true; true; false; true; false; false; true;
  true; false; false; true; false; true; true; false; false; true; true; false; true; false; false; true;
  false; true; true; false; true; false; false; true; true; false; false; true; false; true; true; false;
  false; true; true; false; true; false; false; true; true; false; false; true; false; true; true; false;
  true; false; false; true; false; true; true; false; false; true; true; false; true; false; false; true;
  false; true; true; false; true; false; false; true; true; false; false; true; false; true; true; false;
  true; false; false; true; false; true; true; false; false; true; true; false; true; false; false; true;
  true; false; false; true; false; true; true; false; false; true; true; false; true; false; false; true;
  false; true; true; false; true; false; false; true; true; false; false; true; false; true; true; false
].

(** popcount.h:109-137. *)
Definition popcount8_dynamic (v : Z) : option Z := rd popcount_table v.
Definition popcount16_dynamic (v : Z) : option Z :=
  let high := w8 (Z.shiftr v 8) in
  let* a := popcount8_dynamic high in
  let* b := popcount8_dynamic (w8 v) in Some (a + b).
Definition popcount32_dynamic (v : Z) : option Z :=
  let high := w16 (Z.shiftr v 16) in
  let* a := popcount16_dynamic high in
  let* b := popcount16_dynamic (w16 v) in Some (a + b).
Definition popcount64_dynamic (v : Z) : option Z :=
  let high := w32 (Z.shiftr v 32) in
  let* a := popcount32_dynamic high in
  let* b := popcount32_dynamic (w32 v) in Some (a + b).
(** popcount.h:139-167; [(a + b) & 1] on booleans is exclusive or. *)
Definition add_parity (a b : bool) : bool := Z.odd (Z.b2z a + Z.b2z b).
Definition popparity8_dynamic (v : Z) : option bool := rd popparity_table v.
Definition popparity16_dynamic (v : Z) : option bool :=
  let high := w8 (Z.shiftr v 8) in
  let* a := popparity8_dynamic (w8 v) in
  let* b := popparity8_dynamic high in Some (add_parity a b).
Definition popparity32_dynamic (v : Z) : option bool :=
  let high := w16 (Z.shiftr v 16) in
  let* a := popparity16_dynamic (w16 v) in
  let* b := popparity16_dynamic high in Some (add_parity a b).
Definition popparity64_dynamic (v : Z) : option bool :=
  let high := w32 (Z.shiftr v 32) in
  let* a := popparity32_dynamic (w32 v) in
  let* b := popparity32_dynamic high in Some (add_parity a b).

(** ** Shuffles: disjunctions of masked shifts, written as lists of (mask, left shift);
    a right shift is a negative amount; the result is converted to width [w]. *)
Definition shuffle (w : Z) (ps : list (Z * Z)) (v : Z) : Z :=
  wrap w (fold_right (fun p acc => Z.lor (Z.shiftl (Z.land v (fst p)) (snd p)) acc) 0 ps).

(** include/bfdev/bitrev.h:18-26 [bfdev_bitrev8_const]. *)
Definition bitrev8_pairs : list (Z * Z) := [
  (0x1, 7); (0x2, 5); (0x4, 3); (0x8, 1);
  (0x10, (-1)); (0x20, (-3)); (0x40, (-5)); (0x80, (-7))
].
Definition bitrev8_const := shuffle 8 bitrev8_pairs.

(** include/bfdev/bitrev.h:28-44 [bfdev_bitrev16_const]. *)
Definition bitrev16_pairs : list (Z * Z) := [
  (0x1, 15); (0x2, 13); (0x4, 11); (0x8, 9);
  (0x10, 7); (0x20, 5); (0x40, 3); (0x80, 1);
  (0x100, (-1)); (0x200, (-3)); (0x400, (-5)); (0x800, (-7));
  (0x1000, (-9)); (0x2000, (-11)); (0x4000, (-13)); (0x8000, (-15))
].
Definition bitrev16_const := shuffle 16 bitrev16_pairs.

(** include/bfdev/bitrev.h:46-78 [bfdev_bitrev32_const]. *)
Definition bitrev32_pairs : list (Z * Z) := [
  (0x1, 31); (0x2, 29); (0x4, 27); (0x8, 25);
  (0x10, 23); (0x20, 21); (0x40, 19); (0x80, 17);
  (0x100, 15); (0x200, 13); (0x400, 11); (0x800, 9);
  (0x1000, 7); (0x2000, 5); (0x4000, 3); (0x8000, 1);
  (0x10000, (-1)); (0x20000, (-3)); (0x40000, (-5)); (0x80000, (-7));
  (0x100000, (-9)); (0x200000, (-11)); (0x400000, (-13)); (0x800000, (-15));
  (0x1000000, (-17)); (0x2000000, (-19)); (0x4000000, (-21)); (0x8000000, (-25));
  (0x10000000, (-23)); (0x20000000, (-27)); (0x40000000, (-29)); (0x80000000, (-31))
].
Definition bitrev32_const := shuffle 32 bitrev32_pairs.

(** include/bfdev/bitrev.h:80-144 [bfdev_bitrev64_const]. *)
Definition bitrev64_pairs : list (Z * Z) := [
  (0x1, 63); (0x2, 61); (0x4, 59); (0x8, 57);
  (0x10, 55); (0x20, 53); (0x40, 51); (0x80, 49);
  (0x100, 47); (0x200, 45); (0x400, 43); (0x800, 41);
  (0x1000, 39); (0x2000, 37); (0x4000, 35); (0x8000, 33);
  (0x10000, 31); (0x20000, 29); (0x40000, 27); (0x80000, 25);
  (0x100000, 23); (0x200000, 21); (0x400000, 19); (0x800000, 17);
  (0x1000000, 15); (0x2000000, 13); (0x4000000, 11); (0x8000000, 9);
  (0x10000000, 7); (0x20000000, 5); (0x40000000, 3); (0x80000000, 1);
  (0x100000000, (-1)); (0x200000000, (-3)); (0x400000000, (-5)); (0x800000000, (-7));
  (0x1000000000, (-9)); (0x2000000000, (-11)); (0x4000000000, (-13)); (0x8000000000, (-15));
  (0x10000000000, (-17)); (0x20000000000, (-19)); (0x40000000000, (-21)); (0x80000000000, (-25));
  (0x100000000000, (-23)); (0x200000000000, (-27)); (0x400000000000, (-29)); (0x800000000000, (-31));
  (0x1000000000000, (-33)); (0x2000000000000, (-35)); (0x4000000000000, (-37)); (0x8000000000000, (-39));
  (0x10000000000000, (-41)); (0x20000000000000, (-43)); (0x40000000000000, (-45)); (0x80000000000000, (-47));
  (0x100000000000000, (-49)); (0x200000000000000, (-51)); (0x400000000000000, (-53)); (0x800000000000000, (-55));
  (0x1000000000000000, (-57)); (0x2000000000000000, (-59)); (0x4000000000000000, (-61)); (0x8000000000000000, (-63))
].
Definition bitrev64_const := shuffle 64 bitrev64_pairs.

(** src/bitrev.c:9-43 [bfdev_bitrev_byte_table]. *)
Definition bitrev_table : list Z := [
  0; 128; 64; 192; 32; 160; 96; 224; 16; 144; 80; 208; 48; 176; 112; 240;
  8; 136; 72; 200; 40; 168; 104; 232; 24; 152; 88; 216; 56; 184; 120; 248;
  4; 132; 68; 196; 36; 164; 100; 228; 20; 148; 84; 212; 52; 180; 116; 244;
  12; 140; 76; 204; 44; 172; 108; 236; 28; 156; 92; 220; 60; 188; 124; 252;
  2; 130; 66; 194; 34; 162; 98; 226; 18; 146; 82; 210; 50; 178; 114; 242;
  10; 138; 74; 202; 42; 170; 106; 234; 26; 154; 90; 218; 58; 186; 122; 250;
  6; 134; 70; 198; 38; 166; 102; 230; 22; 150; 86; 214; 54; 182; 118; 246;
  14; 142; 78; 206; 46; 174; 110; 238; 30; 158; 94; 222; 62; 190; 126; 254;
  1; 129; 65; 193; 33; 161; 97; 225; 17; 145; 81; 209; 49; 177; 113; 241;
  9; 137; 73; 201; 41; 169; 105; 233; 25; 153; 89; 217; 57; 185; 121; 249;
  5; 133; 69; 197; 37; 165; 101; 229; 21; 149; 85; 213; 53; 181; 117; 245;
  13; 141; 77; 205; 45; 173; 109; 237; 29; 157; 93; 221; 61; 189; 125; 253;
  3; 131; 67; 195; 35; 163; 99; 227; 19; 147; 83; 211; 51; 179; 115; 243;
  11; 139; 75; 203; 43; 171; 107; 235; 27; 155; 91; 219; 59; 187; 123; 251;
  7; 135; 71; 199; 39; 167; 103; 231; 23; 151; 87; 215; 55; 183; 119; 247;
  15; 143; 79; 207; 47; 175; 111; 239; 31; 159; 95; 223; 63; 191; 127; 255
].

(** include/bfdev/bitrev.h:153-178. *)
Definition bitrev8_dynamic (v : Z) : option Z := rd bitrev_table v.
Definition bitrev16_dynamic (v : Z) : option Z :=
  let* a := bitrev8_dynamic (Z.land v 0xff) in
  let* b := bitrev8_dynamic (w8 (Z.shiftr v 8)) in Some (w16 (Z.lor (Z.shiftl a 8) b)).
Definition bitrev32_dynamic (v : Z) : option Z :=
  let* a := bitrev16_dynamic (Z.land v 0xffff) in
  let* b := bitrev16_dynamic (w16 (Z.shiftr v 16)) in Some (w32 (Z.lor (Z.shiftl a 16) b)).
Definition bitrev64_dynamic (v : Z) : option Z :=
  let* a := bitrev32_dynamic (Z.land v 0xffffffff) in
  let* b := bitrev32_dynamic (w32 (Z.shiftr v 32)) in Some (w64 (Z.lor (Z.shiftl a 32) b)).

(** include/bfdev/swab.h:20-23 [bfdev_swab16_const] (also the dynamic version, swab.h:74-152). *)
Definition swab16_pairs : list (Z * Z) := [
  (0xff, 8); (0xff00, (-8))
].
Definition swab16 := shuffle 16 swab16_pairs.

(** include/bfdev/swab.h:25-30 [bfdev_swab32_const] (also the dynamic version, swab.h:74-152). *)
Definition swab32_pairs : list (Z * Z) := [
  (0xff, 24); (0xff00, 8); (0xff0000, (-8)); (0xff000000, (-24))
].
Definition swab32 := shuffle 32 swab32_pairs.

(** include/bfdev/swab.h:32-41 [bfdev_swab64_const] (also the dynamic version, swab.h:74-152). *)
Definition swab64_pairs : list (Z * Z) := [
  (0xff, 56); (0xff00, 40); (0xff0000, 24); (0xff000000, 8);
  (0xff00000000, (-8)); (0xff0000000000, (-24)); (0xff000000000000, (-40)); (0xff00000000000000, (-56))
].
Definition swab64 := shuffle 64 swab64_pairs.

(** include/bfdev/swab.h:43-46 [bfdev_swahb32_const] (also the dynamic version, swab.h:74-152). *)
Definition swahb32_pairs : list (Z * Z) := [
  (0xff00ff, 8); (0xff00ff00, (-8))
].
Definition swahb32 := shuffle 32 swahb32_pairs.

(** include/bfdev/swab.h:48-51 [bfdev_swahw32_const] (also the dynamic version, swab.h:74-152). *)
Definition swahw32_pairs : list (Z * Z) := [
  (0xffff, 16); (0xffff0000, (-16))
].
Definition swahw32 := shuffle 32 swahw32_pairs.

(** include/bfdev/swab.h:53-56 [bfdev_swahb64_const] (also the dynamic version, swab.h:74-152). *)
Definition swahb64_pairs : list (Z * Z) := [
  (0xff00ff00ff00ff, 8); (0xff00ff00ff00ff00, (-8))
].
Definition swahb64 := shuffle 64 swahb64_pairs.

(** include/bfdev/swab.h:58-61 [bfdev_swahw64_const] (also the dynamic version, swab.h:74-152). *)
Definition swahw64_pairs : list (Z * Z) := [
  (0xffff0000ffff, 16); (0xffff0000ffff0000, (-16))
].
Definition swahw64 := shuffle 64 swahw64_pairs.

(** include/bfdev/swab.h:63-66 [bfdev_swahl64_const] (also the dynamic version, swab.h:74-152). *)
Definition swahl64_pairs : list (Z * Z) := [
  (0xffffffff, 32); (0xffffffff00000000, (-32))
].
Definition swahl64 := shuffle 64 swahl64_pairs.

