(** * Model of src/bitmap.c and the inline wrappers of include/bfdev/bitmap.h

    Memory is one list of 64-bit words and a bitmap is the index of its first word, so
    that destination and sources may be the same bitmap. Lengths and bit numbers are
    [unsigned int] (32 bits). *)
From Verif Require Import Lib BitsModel.

(** include/bfdev/bits.h / math.h:46-48 BFDEV_BITS_TO_LONG: the sum is 32-bit unsigned. *)
Definition bits_to_long (bits : Z) : Z := w32 (bits + 63) / 64.

(** ** Comparisons *)
(** The [for] loop shared by comp_equal (bitmap.c:18-21), comp_or_equal (40-43) and
    comp_intersects (62-65): leave at the first index whose test holds. *)
Fixpoint scan_loop (n : nat) (index : Z) (hit : Z -> option bool) : option bool :=
  match n with
  | O => Some false
  | S n' => let* h := hit index in
            if h then Some true else scan_loop n' (index + 1) hit
  end.

(** bitmap.c:10-30 [bfdev_bitmap_comp_equal]. *)
Definition comp_equal (m : list Z) (src1 src2 bits : Z) : option bool :=
  let length := bits / 64 in
  let* hit := scan_loop (Z.to_nat length) 0 (fun i =>
    let* a := rd m (src1 + i) in let* b := rd m (src2 + i) in Some (negb (a =? b))) in
  if hit then Some false
  else if bits mod 64 =? 0 then Some true
  else let* a := rd m (src1 + length) in
       let* b := rd m (src2 + length) in
       let value := Z.lxor a b in
       if negb (Z.land value (LOW_MASK bits) =? 0) then Some false else Some true.

(** bitmap.c:32-52 [bfdev_bitmap_comp_or_equal]. *)
Definition comp_or_equal (m : list Z) (src1 src2 src3 bits : Z) : option bool :=
  let length := bits / 64 in
  let* hit := scan_loop (Z.to_nat length) 0 (fun i =>
    let* a := rd m (src1 + i) in let* b := rd m (src2 + i) in let* c := rd m (src3 + i) in
    Some (negb (Z.lor a b =? c))) in
  if hit then Some false
  else if bits mod 64 =? 0 then Some true
  else let* a := rd m (src1 + length) in
       let* b := rd m (src2 + length) in
       let* c := rd m (src3 + length) in
       let value := Z.lxor (Z.lor a b) c in
       if negb (Z.land value (LOW_MASK bits) =? 0) then Some false else Some true.

(** bitmap.c:54-74 [bfdev_bitmap_comp_intersects]. *)
Definition comp_intersects (m : list Z) (src1 src2 bits : Z) : option bool :=
  let length := bits / 64 in
  let* hit := scan_loop (Z.to_nat length) 0 (fun i =>
    let* a := rd m (src1 + i) in let* b := rd m (src2 + i) in Some (negb (Z.land a b =? 0))) in
  if hit then Some true
  else if bits mod 64 =? 0 then Some false
  else let* a := rd m (src1 + length) in
       let* b := rd m (src2 + length) in
       let value := Z.land a b in
       if negb (Z.land value (LOW_MASK bits) =? 0) then Some true else Some false.

(** ** Word-wise operations *)
(** The [for] loop of comp_and (86-89), comp_andnot (109-112), comp_or (130-133),
    comp_xor (149-152), comp_complement (262-265), comp_replace (282-285): store a value
    computed from the sources, accumulating [result] (which the last four do not have;
    they drop it below). *)
Fixpoint store_loop (n : nat) (index : Z) (value : list Z -> Z -> option Z) (dest : Z)
    (m : list Z) (result : Z) : option (list Z * Z) :=
  match n with
  | O => Some (m, result)
  | S n' => let* v := value m index in
            let* m := wr m (dest + index) v in
            store_loop n' (index + 1) value dest m (Z.lor result v)
  end.
(** The loop followed by the masked last word. *)
Definition store_all (value : list Z -> Z -> option Z) (m : list Z) (dest bits : Z) : option (list Z * Z) :=
  let length := bits / 64 in
  let* p := store_loop (Z.to_nat length) 0 value dest m 0 in
  let '(m, result) := p in
  if bits mod 64 =? 0 then Some (m, result)
  else let* v := value m length in
       let v := Z.land v (LOW_MASK bits) in
       let* m := wr m (dest + length) v in
       Some (m, Z.lor result v).

(** bitmap.c:76-97 [bfdev_bitmap_comp_and]. *)
Definition comp_and (m : list Z) (dest src1 src2 bits : Z) : option (list Z * bool) :=
  let* p := store_all (fun m i => let* a := rd m (src1 + i) in let* b := rd m (src2 + i) in
                                  Some (Z.land a b)) m dest bits in
  Some (fst p, negb (snd p =? 0)).
(** bitmap.c:99-120 [bfdev_bitmap_comp_andnot]. *)
Definition comp_andnot (m : list Z) (dest src1 src2 bits : Z) : option (list Z * bool) :=
  let* p := store_all (fun m i => let* a := rd m (src1 + i) in let* b := rd m (src2 + i) in
                                  Some (Z.land a (not64 b))) m dest bits in
  Some (fst p, negb (snd p =? 0)).
(** bitmap.c:122-139 [bfdev_bitmap_comp_or]. *)
Definition comp_or (m : list Z) (dest src1 src2 bits : Z) : option (list Z) :=
  let* p := store_all (fun m i => let* a := rd m (src1 + i) in let* b := rd m (src2 + i) in
                                  Some (Z.lor a b)) m dest bits in
  Some (fst p).
(** bitmap.c:141-158 [bfdev_bitmap_comp_xor]. *)
Definition comp_xor (m : list Z) (dest src1 src2 bits : Z) : option (list Z) :=
  let* p := store_all (fun m i => let* a := rd m (src1 + i) in let* b := rd m (src2 + i) in
                                  Some (Z.lxor a b)) m dest bits in
  Some (fst p).
(** bitmap.c:254-271 [bfdev_bitmap_comp_complement]. *)
Definition comp_complement (m : list Z) (dest src bits : Z) : option (list Z) :=
  let* p := store_all (fun m i => let* a := rd m (src + i) in Some (not64 a)) m dest bits in
  Some (fst p).
(** bitmap.c:273-291 [bfdev_bitmap_comp_replace]. *)
Definition comp_replace (m : list Z) (dest oldp newp mask bits : Z) : option (list Z) :=
  let* p := store_all (fun m i => let* o := rd m (oldp + i) in let* k := rd m (mask + i) in
                                  let* n := rd m (newp + i) in
                                  Some (Z.lor (Z.land o (not64 k)) (Z.land n k))) m dest bits in
  Some (fst p).

(** ** Shifts *)
(** memset to zero of [n] words. *)
Fixpoint zero_words (n : nat) (dest : Z) (m : list Z) : option (list Z) :=
  match n with
  | O => Some m
  | S n' => let* m := wr m dest 0 in zero_words n' (dest + 1) m
  end.

(** one stored word of the left shift, bitmap.c:180-187 and 192-199. *)
Definition shl_word (m : list Z) (src index rem : Z) : option Z :=
  let* h := rd m (src + index) in
  let vhigh := w64 (Z.shiftl h rem) in
  let* vlow := (if negb (rem =? 0) && negb (index =? 0)
                then let* l := rd m (src + (index - 1)) in Some (Z.shiftr l (64 - rem))
                else Some 0) in
  Some (Z.lor vhigh vlow).
(** bitmap.c:191-201. *)
Fixpoint shl_loop (index : nat) (dest src offset rem : Z) (m : list Z) : option (list Z) :=
  match index with
  | O => Some m
  | S i => let* v := shl_word m src (Z.of_nat i) rem in
           let* m := wr m (dest + (Z.of_nat i + offset)) v in
           shl_loop i dest src offset rem m
  end.
(** bitmap.c:160-205 [bfdev_bitmap_comp_shl]. *)
Definition comp_shl (m : list Z) (dest src shift bits : Z) : option (list Z) :=
  let length := bits_to_long bits in
  let offset := shift / 64 in
  if length <=? offset then zero_words (Z.to_nat length) dest m
  else
    let rem := shift mod 64 in
    let index := length - offset in
    let* p := (if negb (bits mod 64 =? 0) then
                 let index := index - 1 in
                 let* v := shl_word m src index rem in
                 let* m := wr m (dest + (index + offset)) (Z.land v (LOW_MASK bits)) in
                 Some (m, index)
               else Some (m, index)) in
    let '(m, index) := p in
    let* m := shl_loop (Z.to_nat index) dest src offset rem m in
    if negb (offset =? 0) then zero_words (Z.to_nat offset) dest m else Some m.

(** bitmap.c:226-236; [n] is the number of iterations. *)
Fixpoint shr_loop (n : nat) (index : Z) (dest src offset rem length : Z) (m : list Z) : option (list Z) :=
  match n with
  | O => Some m
  | S n' =>
    let* l := rd m (src + (index + offset)) in
    let vlow := Z.shiftr l rem in
    let* vhigh := (if negb (rem =? 0) && (index + offset + 1 <? length)
                   then let* h := rd m (src + (index + offset + 1)) in Some (w64 (Z.shiftl h (64 - rem)))
                   else Some 0) in
    let* m := wr m (dest + index) (Z.lor vhigh vlow) in
    shr_loop n' (index + 1) dest src offset rem length m
  end.
(** bitmap.c:207-252 [bfdev_bitmap_comp_shr]. *)
Definition comp_shr (m : list Z) (dest src shift bits : Z) : option (list Z) :=
  let length := bits_to_long bits in
  let offset := shift / 64 in
  if length <=? offset then zero_words (Z.to_nat length) dest m
  else
    let rem := shift mod 64 in
    let n := bits / 64 - offset in
    let* m := shr_loop (Z.to_nat n) 0 dest src offset rem length m in
    let index := n in
    let* m := (if negb (bits mod 64 =? 0) then
                 let* l := rd m (src + index) in
                 let vlow := w64 (Z.shiftl l rem) in
                 let* vhigh := (if negb (rem =? 0) && (index + offset + 1 <? length)
                                then let* h := rd m (src + (index + offset + 1)) in Some (w64 (Z.shiftl h (64 - rem)))
                                else Some 0) in
                 wr m (dest + (index + offset)) (Z.land (Z.lor vhigh vlow) (LOW_MASK bits))
               else Some m) in
    if negb (offset =? 0) then zero_words (Z.to_nat offset) (dest + length - offset) m else Some m.

(** ** Ranges *)
(** The [while] loop of comp_set (305-310) / comp_clr (330-335), with [apply] the update
    of a word by a mask. Every iteration accesses the next word, so with fuel the number
    of words of the memory an access out of bounds ([None]) comes before exhaustion. *)
Fixpoint range_loop (fuel : nat) (apply : Z -> Z -> Z) (m : list Z) (curr bits btos mask : Z)
    : option (list Z * Z * Z * Z) :=
  if w32 (bits - btos) =? 0 then Some (m, curr, bits, mask)
  else match fuel with
  | O => None
  | S fuel' =>
    let* w := rd m curr in
    let* m := wr m curr (apply w mask) in
    range_loop fuel' apply m (curr + 1) (w32 (bits - btos)) 64 ULONG_MAX
  end.
Definition comp_range (apply : Z -> Z -> Z) (m : list Z) (map start bits : Z) : option (list Z) :=
  let size := w32 (start + bits) in
  let* p := range_loop (S (length m)) apply m (map + start / 64) bits (64 - start mod 64) (HIGH_MASK start) in
  let '(m, curr, bits, mask) := p in
  if negb (bits =? 0) then
    let mask := Z.land mask (LOW_MASK size) in
    let* w := rd m curr in
    wr m curr (apply w mask)
  else Some m.
(** bitmap.c:293-316 [bfdev_bitmap_comp_set]. *)
Definition comp_set := comp_range (fun w mask => Z.lor w mask).
(** bitmap.c:318-341 [bfdev_bitmap_comp_clr]. *)
Definition comp_clr := comp_range (fun w mask => Z.land w (not64 mask)).

(** ** Inline variants used when the length is a small constant, include/bfdev/bitmap.h *)
(** bitmap.h:67-68 [bfdev_bitmap_equal]. *)
Definition equal_small (a b bits : Z) : bool := negb (Z.land (Z.lxor a b) (LOW_MASK bits) =? 0).
(** bitmap.h:85-86 [bfdev_bitmap_or_equal]. *)
Definition or_equal_small (a b c bits : Z) : bool :=
  negb (Z.land (Z.lxor (Z.lor a b) c) (LOW_MASK bits) =? 0).
(** bitmap.h:98-99. *)
Definition intersects_small (a b bits : Z) : bool := negb (Z.land (Z.land a b) (LOW_MASK bits) =? 0).
(** bitmap.h:111-112, 124-125, 137-138, 150-151, 189-190: the stored word. *)
Definition and_small (a b bits : Z) : Z := Z.land (Z.land a b) (LOW_MASK bits).
Definition andnot_small (a b bits : Z) : Z := Z.land (Z.land a (not64 b)) (LOW_MASK bits).
Definition or_small (a b bits : Z) : Z := Z.land (Z.lor a b) (LOW_MASK bits).
Definition xor_small (a b bits : Z) : Z := Z.land (Z.lxor a b) (LOW_MASK bits).
Definition complement_small (a bits : Z) : Z := Z.land (not64 a) (LOW_MASK bits).
(** bitmap.h:163-164 and 176-177; a shift of 64 or more is undefined. *)
Definition shl_small (a shift bits : Z) : option Z :=
  if shift <? 64 then Some (Z.land (w64 (Z.shiftl a shift)) (LOW_MASK bits)) else None.
Definition shr_small (a shift bits : Z) : option Z :=
  if shift <? 64 then Some (Z.shiftr (Z.land a (LOW_MASK bits)) shift) else None.
(** bitmap.h:42-43 and 54-55. *)
Definition empty_small (a bits : Z) : bool := Z.land a (LOW_MASK bits) =? 0.
Definition full_small (a bits : Z) : bool := Z.land (not64 a) (LOW_MASK bits) =? 0.
