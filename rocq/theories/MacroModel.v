(** The arithmetic macros of include/bfdev: math.h, align.h, minmax.h, bits.h,
    bitfield.h, overflow.h.  A macro argument is a C value with its type
    (see CArith); every argument is taken to have no side effect, so evaluating
    it twice is evaluating it once. *)
From Coq Require Import ZArith Bool.
From Verif Require Import CArith BitsModel.
Local Open Scope Z_scope.

Definition bind {A B} (x : option A) (f : A -> option B) : option B :=
  match x with Some a => f a | None => None end.
Local Notation "'do' x <- e ;; f" := (bind e (fun x => f))
  (at level 200, x name, e at level 100, f at level 200).

(* ---- math.h ---- *)

(** math.h:19-21: bfdev_round_mask. *)
Definition round_mask (x y : cval) : option cval :=
  do m <- csub y one ;; Some (cast (fst x) m).

(** math.h:28-30: bfdev_round_up. *)
Definition round_up (x y : cval) : option cval :=
  do p <- csub x one ;;
  do m <- round_mask x y ;;
  cadd (cor p m) one.

(** math.h:37-39: bfdev_round_down. *)
Definition round_down (x y : cval) : option cval :=
  do m <- round_mask x y ;; Some (cand x (cnot m)).

(** math.h:46-48: BFDEV_DIV_ROUND_UP. *)
Definition div_round_up (n d : cval) : option cval :=
  do s <- cadd n d ;;
  do p <- csub s one ;;
  cdiv p d.

(* ---- align.h ---- *)

(** align.h:22-24: bfdev_align_check. *)
Definition align_check (value align : cval) : option bool :=
  do m <- csub align one ;; Some (czero (cand value m)).

(** align.h:40-42: bfdev_align_low. *)
Definition align_low (value align : cval) : option cval :=
  do m <- csub align one ;; Some (cand value (cnot m)).

(** align.h:49-52: bfdev_align_high. *)
Definition align_high (value align : cval) : option cval :=
  do m <- csub align one ;;
  do s <- cadd value m ;;
  Some (cand s (cnot m)).

(** align.h:31-33, 59-70: bfdev_align_ptr_check, bfdev_align_ptr_low,
    bfdev_align_ptr_high: the pointer is cast to uintptr_t, and the result back
    to a pointer (64 bits). *)
Definition align_ptr_check (ptr : Z) (align : cval) : option bool :=
  align_check (u64, ptr) align.
Definition align_ptr_low (ptr : Z) (align : cval) : option Z :=
  do r <- align_low (u64, ptr) align ;; Some (snd (cast u64 r)).
Definition align_ptr_high (ptr : Z) (align : cval) : option Z :=
  do r <- align_high (u64, ptr) align ;; Some (snd (cast u64 r)).

(** align.h:72-86: the _adj forms assign the result back to the argument, so
    convert it to the argument's type. *)
Definition align_low_adj (value align : cval) : option cval :=
  do r <- align_low value align ;; Some (cast (fst value) r).
Definition align_high_adj (value align : cval) : option cval :=
  do r <- align_high value align ;; Some (cast (fst value) r).

(* ---- minmax.h ---- *)

(** minmax.h:18-22: bfdev_min. *)
Definition cmin (a b : cval) : cval :=
  let b := cast (fst a) b in if clt a b then a else b.

(** minmax.h:29-33: bfdev_max. *)
Definition cmax (a b : cval) : cval :=
  let b := cast (fst a) b in if clt b a then a else b.

(** minmax.h:41-43: bfdev_clamp. *)
Definition cclamp (val lo hi : cval) : cval := cmin (cmax val lo) hi.

(** minmax.h:50-52: bfdev_min_adj: the new value of [val]. *)
Definition cmin_adj (val lo : cval) : cval := cast (fst val) (cmin val lo).

(** minmax.h:59-61: bfdev_max_adj. *)
Definition cmax_adj (val hi : cval) : cval := cast (fst val) (cmax val hi).

(** minmax.h:69-71: bfdev_clamp_adj. *)
Definition cclamp_adj (val lo hi : cval) : cval := cast (fst val) (cclamp val lo hi).

(* ---- bits.h ---- *)

(** bits.h:78-80: BFDEV_BIT_SHIFT, whose value keeps its own type. *)
Definition bit_shift (shift : Z) (val : cval) : option cval := cshl val (Z.rem shift 64).

(** bits.h:96-99, 106-109: BFDEV_BIT_RANGE and BFDEV_BIT_RANGE_ULL, the same on a
    64-bit target.  [hi] and [lo] are ints; a shift count out of 0..63 is
    undefined. *)
Definition bit_range (hi lo : Z) : option cval :=
  do b <- cshl (u64, 1) lo ;;
  do d <- csub (u64, 2 ^ 64 - 1) b ;;
  do l <- cadd d one ;;
  do h <- cshr (u64, 2 ^ 64 - 1) (64 - 1 - hi) ;;
  Some (cand l h).

(* ---- bitfield.h ---- *)

(** bfdev_ffsuf (bitops.h:256-262) of a mask converted to unsigned long.  The
    function is undefined for 0. *)
Definition field_pos (mask : cval) : option Z :=
  let m := snd (cast u64 mask) in if m =? 0 then None else Some (ffsuf m).

(** bitfield.h:19-22: BFDEV_FIELD_GET. *)
Definition field_get (mask reg : cval) : option cval :=
  do n <- field_pos mask ;;
  do r <- cshr (cand reg mask) n ;;
  Some (cast (fst mask) r).

(** bitfield.h:29-32: BFDEV_FIELD_PREP. *)
Definition field_prep (mask val : cval) : option cval :=
  do n <- field_pos mask ;;
  do r <- cshl (cast (fst mask) val) n ;;
  Some (cand r mask).

(** bitfield.h:39-42: BFDEV_FIELD_FIT. *)
Definition field_fit (mask val : cval) : option bool :=
  do n <- field_pos mask ;;
  do r <- cshl (cast (fst mask) val) n ;;
  Some (czero (cand r (cnot mask))).

(** bitfield.h:48-51: BFDEV_FIELD_MAX. *)
Definition field_max (mask : cval) : option cval :=
  do n <- field_pos mask ;;
  do r <- cshr mask n ;;
  Some (cast (fst mask) r).

(* ---- overflow.h ---- *)

(** overflow.h:23-31, 41-49, 59-67: bfdev_overflow_check_add/sub/mul: the
    result of the compiler's __builtin_*_overflow, which computes without bounds,
    stores the converted result and tells whether it differs.  The macros
    insist on one type for all three. *)
Definition overflow_check (op : Z -> Z -> Z) (t : ity) (a b : Z) : bool * Z :=
  (negb (fitsb t (op a b)), wrap t (op a b)).

(** overflow.h:69-92: bfdev_overflow_add_type/sub_type/mul_type. *)
Definition overflow_type (op : Z -> Z -> Z) (t : ity) (a b : cval) : cval :=
  let '(o, d) := overflow_check op t (snd (cast t a)) (snd (cast t b)) in
  if o then cast t (u64, 2 ^ 64 - 1) else (t, d).

(** overflow.h:106-107, 116-117, 126-127: bfdev_overflow_add/sub/mul. *)
Definition overflow_add (a b : cval) : cval := overflow_type Z.add (fst a) a b.
Definition overflow_sub (a b : cval) : cval := overflow_type Z.sub (fst a) a b.
Definition overflow_mul (a b : cval) : cval := overflow_type Z.mul (fst a) a b.

(** overflow.h:129-157: bfdev_overflow_add_u8 and so on: the arguments are
    converted to the type when they are passed. *)
Definition overflow_fn (op : Z -> Z -> Z) (t : ity) (a b : cval) : cval :=
  overflow_type op t (cast t a) (cast t b).
