(** * Specification of the Jenkins hash (lookup3, "hashlittle") over whole keys *)
From Verif Require Import Lib DigestSpec.
(** the key cut into blocks of twelve bytes, the last one of one to twelve bytes *)
Fixpoint cut12 (n : nat) (l : list Z) : list (list Z) :=
  match n with O => [] | S n => match l with [] => [] | _ => firstn 12 l :: cut12 n (skipn 12 l) end end.
Definition blocks12 (key : list Z) : list (list Z) := cut12 (length key) key.
(** a block as three little-endian words, missing bytes being zero *)
Definition le_word (l : list Z) (i : nat) : Z := nth i l 0 + 256 * nth (i + 1) l 0 + 65536 * nth (i + 2) l 0 + 16777216 * nth (i + 3) l 0.
Definition add3 (st : Z * Z * Z) (blk : list Z) : Z * Z * Z :=
  let '(a, b, c) := st in ((a + le_word blk 0) mod 2 ^ 32, (b + le_word blk 4) mod 2 ^ 32, (c + le_word blk 8) mod 2 ^ 32).
(** the mixing functions of lookup3 as iterated steps on a rotating triple; [rotl] is the 32-bit rotation of DigestSpec *)
Definition mix_step (t : Z * Z * Z) (r : Z) : Z * Z * Z :=
  let '(x, z, y) := t in (y, Z.lxor ((x - z) mod 2 ^ 32) (rotl z r), (z + y) mod 2 ^ 32).
Definition lookup3_mix (st : Z * Z * Z) : Z * Z * Z :=
  let '(a, b, c) := st in let '(x, z, y) := fold_left mix_step [4; 6; 8; 16; 19; 4] (a, c, b) in (x, y, z).
Definition final_step (t : Z * Z * Z) (r : Z) : Z * Z * Z :=
  let '(x, z, y) := t in (y, (Z.lxor x z - rotl z r) mod 2 ^ 32, z).
Definition lookup3_final (st : Z * Z * Z) : Z * Z * Z :=
  let '(a, b, c) := st in let '(x, z, y) := fold_left final_step [14; 11; 25; 16; 4; 14; 24] (c, b, a) in (x, y, z).
(** every block is added to the state; all but the last are followed by mix, the last by final *)
Fixpoint absorb (st : Z * Z * Z) (bs : list (list Z)) : Z * Z * Z :=
  match bs with
  | [] => st
  | [b] => lookup3_final (add3 st b)
  | b :: bs => absorb (lookup3_mix (add3 st b)) bs
  end.
Definition lookup3 (key : list Z) (seed : Z) : Z * Z * Z :=
  let v := (0xdeadbeef + zlen key + seed) mod 2 ^ 32 in absorb (v, v, v) (blocks12 key).
Definition hashlittle (key : list Z) (seed : Z) : Z := let '(a, b, c) := lookup3 key seed in c.
(** what "reversibly" means *)
Definition word3 (st : Z * Z * Z) : Prop := let '(a, b, c) := st in u32 a /\ u32 b /\ u32 c.
Definition bijective3 (f : Z * Z * Z -> Z * Z * Z) : Prop :=
  (forall x, word3 x -> word3 (f x)) /\ exists g, (forall x, word3 x -> word3 (g x)) /\ (forall x, word3 x -> g (f x) = x) /\ (forall x, word3 x -> f (g x) = x).
