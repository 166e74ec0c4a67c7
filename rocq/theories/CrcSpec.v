(** * Cyclic redundancy checks, one bit at a time *)
From Verif Require Import Lib CrcModel.

Fixpoint iter (n : nat) (f : Z -> Z) (x : Z) : Z := match n with O => x | S n' => iter n' f (f x) end.
(** Division step, least significant bit first (reflected polynomial). *)
Definition bit_le (p crc : Z) : Z := Z.lxor (crc / 2) (if Z.odd crc then p else 0).
(** Division step in a [w] bit register, most significant bit first. *)
Definition bit_be (w p crc : Z) : Z := Z.lxor ((2 * crc) mod 2 ^ w) (if Z.testbit crc (w - 1) then p else 0).
Definition byte_spec (a : alg) (crc b : Z) : Z :=
  if be a then iter 8 (bit_be (width a) (poly a)) (Z.lxor crc (b * 2 ^ (width a - 8)))
  else iter 8 (bit_le (poly a)) (Z.lxor crc b).
Definition crc_spec (a : alg) (src : list Z) (crc : Z) : Z := fold_left (byte_spec a) src crc.

(** Polynomials over GF(2) as numbers: bit [i] is the coefficient of x^i. [times q p] is the product
    of [q], given by its coefficients from x^0 on, with [p]. *)
Fixpoint times (q : list bool) (p : Z) : Z :=
  match q with [] => 0 | b :: q' => Z.lxor (if b then p else 0) (2 * times q' p) end.
(** Equal modulo the polynomial [p]. *)
Definition congruent (p x y : Z) : Prop := exists q, Z.lxor x y = times q p.
(** The message as a polynomial, first byte most significant. *)
Definition message (src : list Z) : Z := fold_left (fun m b => m * 256 + b) src 0.
(** The lowest [n] bits in the opposite order. *)
Fixpoint reflect (n : nat) (x : Z) : Z :=
  match n with O => 0 | S n' => 2 ^ Z.of_nat n' * (x mod 2) + reflect n' (x / 2) end.

(** CRC-4 in a four bit register, polynomial x^4 + x^2 + x + 1, byte at a time, high bit first. *)
Definition crc4_spec_byte (crc b : Z) : Z :=
  iter 4 (bit_be 4 7) (Z.lxor (iter 4 (bit_be 4 7) (Z.lxor crc (b / 16))) (b mod 16)).
Definition crc4_spec (src : list Z) (crc : Z) : Z := fold_left crc4_spec_byte src crc.
