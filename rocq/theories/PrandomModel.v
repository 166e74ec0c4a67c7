(** * Model of the pseudo random number generator: include/bfdev/prandom.h, src/prandom.c *)
From Verif Require Import Lib.

(** prandom.h:26-29 [struct bfdev_prandom] *)
Record prandom := { s1 : Z; s2 : Z; s3 : Z; s4 : Z }.
(** prandom.h:31-34, 47-51 [bfdev_prandom_init] *)
Definition prandom_init : prandom := {| s1 := 0x408c3c09; s2 := 0x408c3c09; s3 := 0x408c3c09; s4 := 0x408c3c09 |}.
(** prandom.h:43-46 BFDEV_TAUSWORTHE, on uint32_t operands *)
Definition tausworthe (seed a b c d : Z) : Z :=
  Z.lxor (w32 (Z.shiftl (Z.land seed c) d)) (Z.shiftr (Z.lxor (w32 (Z.shiftl seed a)) seed) b).
(** prandom.c:10-14 *)
Definition seed_minimum (x m : Z) : Z := if x <? m then w32 (x + m) else x.
(** prandom.c:16-31 *)
Definition prandom_setup (seed : Z) : prandom :=
  let seed := w32 (Z.lxor (Z.lxor (Z.shiftr seed 32) (w64 (Z.shiftl seed 10))) seed) in
  {| s1 := seed_minimum seed 2; s2 := seed_minimum seed 8; s3 := seed_minimum seed 16; s4 := seed_minimum seed 128 |}.
(** prandom.c:33-45: the new state, which is also the content of [buff] *)
Definition prandom_step (p : prandom) : prandom :=
  {| s1 := tausworthe (s1 p) 6 13 4294967294 18;
     s2 := tausworthe (s2 p) 2 27 4294967288 2;
     s3 := tausworthe (s3 p) 13 21 4294967280 7;
     s4 := tausworthe (s4 p) 3 12 4294967168 13 |}.
(** prandom.c:47-55, BFDEV_PRANDOM_WARMUP is 10 *)
Definition prandom_warmup (p : prandom) : prandom := Nat.iter 10 prandom_step p.
(** prandom.c:57-66 *)
Definition prandom_value (p : prandom) : prandom * Z :=
  let p := prandom_step p in (p, Z.lxor (Z.lxor (Z.lxor (s1 p) (s2 p)) (s3 p)) (s4 p)).
(** prandom.c:68-73 *)
Definition prandom_seed (seed : Z) : prandom := prandom_warmup (prandom_setup seed).
(** prandom.h:69-78 *)
Definition prandom_u64 (p : prandom) : prandom * Z :=
  let '(p, high) := prandom_value p in
  let '(p, low) := prandom_value p in
  (p, Z.lor (w64 (Z.shiftl high 32)) low).
