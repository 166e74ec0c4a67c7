(** Integer expressions of C on a 64-bit target (ISO C11 6.3.1 and 6.5), as far
    as the macros of include/bfdev/math.h, align.h, minmax.h, bits.h, bitfield.h
    and overflow.h need them.  This file is a semantics, not a model of a file
    of /repo.

    A value is a type and a number in its range.  [None] is undefined behaviour.
    Conversion to a signed type that cannot hold the value is modulo 2^width, as
    gcc and clang define it. *)
From Coq Require Import ZArith Bool.
Local Open Scope Z_scope.

Inductive width := W8 | W16 | W32 | W64.
Definition bits (w : width) : Z := match w with W8 => 8 | W16 => 16 | W32 => 32 | W64 => 64 end.

Record ity := T { sgn : bool; wid : width }.
Definition s8 := T true W8.   Definition u8 := T false W8.
Definition s16 := T true W16. Definition u16 := T false W16.
Definition s32 := T true W32. Definition u32 := T false W32.
Definition s64 := T true W64. Definition u64 := T false W64.

Definition tmin (t : ity) : Z := if sgn t then - 2 ^ (bits (wid t) - 1) else 0.
Definition tmax (t : ity) : Z := if sgn t then 2 ^ (bits (wid t) - 1) - 1 else 2 ^ bits (wid t) - 1.
Definition fits (t : ity) (v : Z) : Prop := tmin t <= v <= tmax t.
Definition fitsb (t : ity) (v : Z) : bool := (tmin t <=? v) && (v <=? tmax t).

(** Conversion to a type, 6.3.1.3. *)
Definition wrap (t : ity) (v : Z) : Z :=
  if sgn t then (v + 2 ^ (bits (wid t) - 1)) mod 2 ^ bits (wid t) - 2 ^ (bits (wid t) - 1)
  else v mod 2 ^ bits (wid t).

(** Integer promotions, 6.3.1.1. *)
Definition promote (t : ity) : ity :=
  match wid t with W8 | W16 => s32 | _ => t end.

(** Usual arithmetic conversions, 6.3.1.8. *)
Definition usual (a b : ity) : ity :=
  let a := promote a in let b := promote b in
  match wid a, wid b with
  | W64, W64 => T (sgn a && sgn b) W64
  | W64, _ => a
  | _, W64 => b
  | _, _ => T (sgn a && sgn b) W32
  end.

Definition cval := (ity * Z)%type.

Definition cast (t : ity) (v : cval) : cval := (t, wrap t (snd v)).

(** + - *: 6.5.5, 6.5.6. *)
Definition arith (op : Z -> Z -> Z) (a b : cval) : option cval :=
  let t := usual (fst a) (fst b) in
  let r := op (wrap t (snd a)) (wrap t (snd b)) in
  if sgn t then if fitsb t r then Some (t, r) else None
  else Some (t, wrap t r).
Definition cadd := arith Z.add.
Definition csub := arith Z.sub.

(** /: 6.5.5. *)
Definition cdiv (a b : cval) : option cval :=
  let t := usual (fst a) (fst b) in
  let x := wrap t (snd a) in let y := wrap t (snd b) in
  if y =? 0 then None
  else let r := Z.quot x y in if fitsb t r then Some (t, r) else None.

(** & |: 6.5.10, 6.5.12, on two's complement. *)
Definition bitop (op : Z -> Z -> Z) (a b : cval) : cval :=
  let t := usual (fst a) (fst b) in
  (t, wrap t (op (wrap t (snd a)) (wrap t (snd b)))).
Definition cand := bitop Z.land.
Definition cor := bitop Z.lor.

(** ~: 6.5.3.3. *)
Definition cnot (a : cval) : cval :=
  let t := promote (fst a) in (t, wrap t (Z.lnot (wrap t (snd a)))).

(** <<: 6.5.7; the count is a number. *)
Definition cshl (a : cval) (n : Z) : option cval :=
  let t := promote (fst a) in
  let x := wrap t (snd a) in
  if (n <? 0) || (bits (wid t) <=? n) then None
  else if sgn t then
    if (x <? 0) || (tmax t <? Z.shiftl x n) then None else Some (t, Z.shiftl x n)
  else Some (t, wrap t (Z.shiftl x n)).

(** >>: 6.5.7; a negative left operand shifts arithmetically, as gcc defines. *)
Definition cshr (a : cval) (n : Z) : option cval :=
  let t := promote (fst a) in
  if (n <? 0) || (bits (wid t) <=? n) then None
  else Some (t, Z.shiftr (wrap t (snd a)) n).

(** <: 6.5.8. *)
Definition clt (a b : cval) : bool :=
  let t := usual (fst a) (fst b) in wrap t (snd a) <? wrap t (snd b).

(** !: 6.5.3.3. *)
Definition czero (a : cval) : bool := snd a =? 0.

(** The constants 1 and 2 of the macros. *)
Definition one : cval := (s32, 1).
