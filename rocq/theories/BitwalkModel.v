(** * Model of src/bitwalk.c and include/bfdev/bitwalk.h
    Memory is one array of 64-bit words, a bitmap is the index of its first word; an
    access outside memory is [None]. Loops take fuel; running out of it is also [None]
    (the theorems show it does not happen). [invert] is 0 or all ones. *)
From Verif Require Import Lib BitsModel.

Section Walk.
Variable (m : list Z) (bits invert : Z) (swap : bool).

(** [if (swap) value = bfdev_swab(value)] *)
Definition sw (v : Z) : Z := if swap then swab64 v else v.

(** bitwalk.c:18-37 *)
Fixpoint first_loop (fuel : nat) (block base : Z) : option Z :=
  if base <? bits then
    match fuel with
    | O => None
    | S fuel' =>
      let* w := rd m block in
      let value := Z.lxor (sw w) invert in
      if value =? 0 then first_loop fuel' (block + 1) (w32 (base + 64))
      else
        let offset := w32 (base + ffsuf value) in
        if bits <=? offset then Some bits else Some offset
    end
  else Some bits.
(** bitwalk.c:11-38 [bfdev_comp_find_first_bit] *)
Definition comp_find_first (block : Z) : option Z := first_loop (S (length m)) block 0.

(** bitwalk.c:53-71; [base] counts down. *)
Fixpoint last_loop (base : nat) (block mask : Z) : option Z :=
  let* w := rd m (block + Z.of_nat base) in
  let value := Z.land (Z.lxor (sw w) invert) mask in
  if value =? 0 then
    match base with
    | O => Some bits
    | S base' => last_loop base' block ULONG_MAX
    end
  else Some (w32 (w32 (Z.of_nat base * 64) + flsuf value)).
(** bitwalk.c:40-72 [bfdev_comp_find_last_bit] *)
Definition comp_find_last (block : Z) : option Z :=
  if bits =? 0 then Some 0
  else last_loop (Z.to_nat ((bits - 1) / 64)) block (LOW_MASK bits).

(** bitwalk.c:84-87, 101-104, 123-126, 140-143: the word tested, [addr2] may be NULL. *)
Definition getw (addr1 : Z) (addr2 : option Z) (k : Z) : option Z :=
  let* a := rd m (addr1 + k) in
  match addr2 with
  | None => Some (Z.lxor a invert)
  | Some a2 => let* b := rd m (a2 + k) in Some (Z.lxor (Z.land a b) invert)
  end.

(** bitwalk.c:96-110 *)
Fixpoint next_loop (fuel : nat) (addr1 : Z) (addr2 : option Z) (start value : Z) : option Z :=
  if value =? 0 then
    match fuel with
    | O => None
    | S fuel' =>
      let start := w32 (start + 64) in
      if bits <=? start then Some bits
      else let* value := getw addr1 addr2 (start / 64) in next_loop fuel' addr1 addr2 start value
    end
  else Some (Z.min (w32 (start + ffsuf (sw value))) bits).
(** bitwalk.c:74-111 [bfdev_comp_find_next_bit]; the rounding is [start & ~63]. *)
Definition comp_find_next (addr1 : Z) (addr2 : option Z) (start : Z) : option Z :=
  if bits <=? start then Some bits
  else
    let* value := getw addr1 addr2 (start / 64) in
    next_loop (S (length m)) addr1 addr2 (start - start mod 64) (Z.land value (sw (HIGH_MASK start))).

(** bitwalk.c:135-149 *)
Fixpoint prev_loop (fuel : nat) (addr1 : Z) (addr2 : option Z) (start value : Z) : option Z :=
  if value =? 0 then
    match fuel with
    | O => None
    | S fuel' =>
      let start := w32 (start - 64) in
      if bits <=? start then Some bits
      else let* value := getw addr1 addr2 (start / 64) in prev_loop fuel' addr1 addr2 start value
    end
  else Some (Z.min (w32 (start + flsuf (sw value))) bits).
(** bitwalk.c:113-150 [bfdev_comp_find_prev_bit] *)
Definition comp_find_prev (addr1 : Z) (addr2 : option Z) (start : Z) : option Z :=
  if bits <=? start then Some bits
  else
    let* value := getw addr1 addr2 (start / 64) in
    prev_loop (S (length m)) addr1 addr2 (start - start mod 64) (Z.land value (sw (LOW_MASK (w32 (start + 1))))).
End Walk.

(** include/bfdev/bits.h:96-99 [BFDEV_BIT_RANGE] *)
Definition BIT_RANGE (hi lo : Z) : Z :=
  Z.land (w64 (ULONG_MAX - w64 (Z.shiftl 1 lo) + 1)) (Z.shiftr ULONG_MAX (63 - hi)).

(** ** Inline variants, used when [bits] is a constant in 1..64; [w] is the only word *)
(** bitwalk.h:26-41 *)
Definition find_first_small (w bits : Z) : Z :=
  let v := Z.land w (LOW_MASK bits) in if v =? 0 then bits else ffsuf v.
(** bitwalk.h:43-58 *)
Definition find_last_small (w bits : Z) : Z :=
  let v := Z.land w (LOW_MASK bits) in if v =? 0 then bits else flsuf v.
(** bitwalk.h:68-83 *)
Definition find_first_zero_small (w bits : Z) : Z :=
  let v := Z.lor w (HIGH_MASK bits) in if v =? ULONG_MAX then bits else ffzuf v.
(** bitwalk.h:85-100 *)
Definition find_last_zero_small (w bits : Z) : Z :=
  let v := Z.lor w (HIGH_MASK bits) in if v =? ULONG_MAX then bits else flzuf v.
(** bitwalk.h:111-130 *)
Definition find_next_small (w bits offset : Z) : Z :=
  if bits <=? offset then bits
  else let v := Z.land w (BIT_RANGE (bits - 1) offset) in if v =? 0 then bits else ffsuf v.
(** bitwalk.h:132-151 *)
Definition find_prev_small (w bits offset : Z) : Z :=
  if bits <=? offset then bits
  else let v := Z.land w (LOW_MASK (offset + 1)) in if v =? 0 then bits else flsuf v.
(** bitwalk.h:162-181 *)
Definition find_next_zero_small (w bits offset : Z) : Z :=
  if bits <=? offset then bits
  else let v := Z.lor w (not64 (BIT_RANGE (bits - 1) offset)) in if v =? ULONG_MAX then bits else ffzuf v.
(** bitwalk.h:183-202 *)
Definition find_prev_zero_small (w bits offset : Z) : Z :=
  if bits <=? offset then bits
  else let v := Z.lor w (HIGH_MASK (offset + 1)) in if v =? ULONG_MAX then bits else flzuf v.

(** ** Iteration macros, bitwalk.h:255-309
    bitwalk.h:255-258 [bfdev_for_each_bit], 260-263 [bfdev_for_each_zero]: the sequence of
    [index] values for which the body runs, with the out-of-line search functions. *)
Fixpoint walk (fuel : nat) (next : Z -> option Z) (bits index : Z) : option (list Z) :=
  if index <? bits then
    match fuel with
    | O => None
    | S fuel' => let* i := next index in let* l := walk fuel' next bits i in Some (index :: l)
    end
  else Some [].
Definition for_each (m : list Z) (bits invert bitmap : Z) : option (list Z) :=
  let* i := comp_find_first m bits invert false bitmap in
  walk (S (Z.to_nat bits)) (fun index => comp_find_next m bits invert false bitmap None (w32 (index + 1))) bits i.
(** bitwalk.h:265-268 [bfdev_for_each_bit_reverse], 270-273 [bfdev_for_each_zero_reverse] *)
Definition for_each_reverse (m : list Z) (bits invert bitmap : Z) : option (list Z) :=
  let* i := comp_find_last m bits invert false bitmap in
  walk (S (Z.to_nat bits)) (fun index => comp_find_prev m bits invert false bitmap None (w32 (index - 1))) bits i.
