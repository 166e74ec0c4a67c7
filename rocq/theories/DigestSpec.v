(** * Specification of the message digests: RFC 1321 and FIPS 180-4 on whole messages *)
From Verif Require Import Lib.

(** ** Padding and blocks (RFC 1321, 3.1 and 3.2; FIPS 180-4, 5.1.1) *)
Fixpoint le_bytes (n : nat) (v : Z) : list Z := match n with O => [] | S n => v mod 256 :: le_bytes n (v / 256) end.
Definition be_bytes (n : nat) (v : Z) : list Z := List.rev (le_bytes n v).
Definition padded (enc : nat -> Z -> list Z) (msg : list Z) : list Z :=
  msg ++ [0x80] ++ repeat 0 (Z.to_nat ((55 - zlen msg) mod 64)) ++ enc 8%nat (8 * zlen msg).
Fixpoint blocks (n : nat) (l : list Z) : list (list Z) := match n with O => [] | S n => firstn 64 l :: blocks n (skipn 64 l) end.
Definition digest (enc : nat -> Z -> list Z) (compress : list Z -> list Z -> list Z) (iv msg : list Z) : list Z :=
  let p := padded enc msg in fold_left compress (blocks (length p / 64) p) iv.

(** ** Words *)
Definition add32 (a b : Z) : Z := (a + b) mod 2 ^ 32.
Definition rotl (x n : Z) : Z := (x * 2 ^ n) mod 2 ^ 32 + x / 2 ^ (32 - n).
Definition rotr (x n : Z) : Z := rotl x (32 - n).
Definition cpl (x : Z) : Z := 2 ^ 32 - 1 - x.
Definition addl (a b : list Z) : list Z := map (fun p => add32 (fst p) (snd p)) (combine a b).

(** ** MD5 (RFC 1321, 3.4) *)
Definition md5_fun (i : nat) (x y z : Z) : Z :=
  match (i / 16)%nat with
  | O => Z.lor (Z.land x y) (Z.land (cpl x) z)
  | 1%nat => Z.lor (Z.land x z) (Z.land y (cpl z))
  | 2%nat => Z.lxor (Z.lxor x y) z
  | _ => Z.lxor y (Z.lor x (cpl z))
  end.
Definition md5_index (i : nat) : nat := match (i / 16)%nat with O => i mod 16 | 1%nat => (5 * i + 1) mod 16 | 2%nat => (3 * i + 5) mod 16 | _ => (7 * i) mod 16 end.
Definition md5_shift (i : nat) : Z :=
  nth (i mod 4) (match (i / 16)%nat with O => [7; 12; 17; 22] | 1%nat => [5; 9; 14; 20] | 2%nat => [4; 11; 16; 23] | _ => [6; 10; 15; 21] end) 0.
(** T[i] = floor(2^32 |sin i|), from the power series with 120 terms and 400 fractional bits *)
Fixpoint sin_terms (n : nat) (k x2 term acc : Z) : Z :=
  match n with O => acc | S n => sin_terms n (k + 2) x2 (- (term * x2 / ((k + 1) * (k + 2)))) (acc + term) end.
Definition md5_T (i : Z) : Z := Z.abs (sin_terms 120 1 (i * i) (i * 2 ^ 400) 0) / 2 ^ (400 - 32).
Definition md5_step (X : list Z) (r : Z * Z * Z * Z) (i : nat) : Z * Z * Z * Z :=
  let '(a, b, c, d) := r in
  (d, add32 b (rotl ((a + md5_fun i b c d + nth (md5_index i) X 0 + md5_T (Z.of_nat i + 1)) mod 2 ^ 32) (md5_shift i)), b, c).
Fixpoint words (val : list Z -> Z) (n : nat) (l : list Z) : list Z := match n with O => [] | S n => val (firstn 4 l) :: words val n (skipn 4 l) end.
Definition le_val (l : list Z) : Z := fold_right (fun b v => b + 256 * v) 0 l.
Definition be_val (l : list Z) : Z := fold_left (fun v b => 256 * v + b) l 0.
Definition md5_compress (h block : list Z) : list Z :=
  let '(a, b, c, d) := fold_left (md5_step (words le_val 16 block)) (seq 0 64) (nth 0 h 0, nth 1 h 0, nth 2 h 0, nth 3 h 0) in
  addl h [a; b; c; d].
Definition md5_iv : list Z := [0x67452301; 0xefcdab89; 0x98badcfe; 0x10325476].
Definition MD5 (msg : list Z) : list Z := flat_map (le_bytes 4) (digest le_bytes md5_compress md5_iv msg).

(** ** SHA-1 (FIPS 180-4, 6.1) *)
(** message schedules: [n] further words, each computed from the words so far *)
Fixpoint schedule (next : list Z -> Z) (n : nat) (w : list Z) : list Z := match n with O => w | S n => schedule next n (w ++ [next w]) end.
Definition back (w : list Z) (k : nat) : Z := nth (length w - k) w 0.
Definition sha1_next (w : list Z) : Z := rotl (Z.lxor (Z.lxor (Z.lxor (back w 3) (back w 8)) (back w 14)) (back w 16)) 1.
Definition Ch (x y z : Z) : Z := Z.lxor (Z.land x y) (Z.land (cpl x) z).
Definition Maj (x y z : Z) : Z := Z.lxor (Z.lxor (Z.land x y) (Z.land x z)) (Z.land y z).
Definition Parity (x y z : Z) : Z := Z.lxor (Z.lxor x y) z.
Definition sha1_f (t : nat) : Z -> Z -> Z -> Z := match (t / 20)%nat with O => Ch | 1%nat => Parity | 2%nat => Maj | _ => Parity end.
(** the integer parts of 2^30 times the square roots of 2, 3, 5 and 10 *)
Definition sha1_K (t : nat) : Z := Z.sqrt (match (t / 20)%nat with O => 2 | 1%nat => 3 | 2%nat => 5 | _ => 10 end * 2 ^ 60).
Definition sha1_step (W : list Z) (r : Z * Z * Z * Z * Z) (t : nat) : Z * Z * Z * Z * Z :=
  let '(a, b, c, d, e) := r in
  ((rotl a 5 + sha1_f t b c d + e + sha1_K t + nth t W 0) mod 2 ^ 32, a, rotl b 30, c, d).
Definition sha1_compress (h block : list Z) : list Z :=
  let W := schedule sha1_next 64 (words be_val 16 block) in
  let '(a, b, c, d, e) := fold_left (sha1_step W) (seq 0 80) (nth 0 h 0, nth 1 h 0, nth 2 h 0, nth 3 h 0, nth 4 h 0) in
  addl h [a; b; c; d; e].
Definition sha1_iv : list Z := [0x67452301; 0xefcdab89; 0x98badcfe; 0x10325476; 0xc3d2e1f0].
Definition SHA1 (msg : list Z) : list Z := flat_map (be_bytes 4) (digest be_bytes sha1_compress sha1_iv msg).

(** ** SHA-224 and SHA-256 (FIPS 180-4, 6.2 and 6.3) *)
Definition is_prime (p : Z) : bool := (2 <=? p) && forallb (fun d => negb (p mod d =? 0)) (zseq 2 (Z.to_nat (p - 2))).
Definition primes : list Z := filter is_prime (zseq 2 400).
Fixpoint root3 (n : nat) (acc x : Z) : Z :=
  match n with O => acc | S n => let c := acc + 2 ^ Z.of_nat n in root3 n (if c * c * c <=? x then c else acc) x end.
(** first 32 bits of the fractional part of the cube root of the t-th prime *)
Definition sha2_K (t : nat) : Z := root3 40 0 (nth t primes 0 * 2 ^ 96) mod 2 ^ 32.
Definition Sigma0 (x : Z) : Z := Z.lxor (Z.lxor (rotr x 2) (rotr x 13)) (rotr x 22).
Definition Sigma1 (x : Z) : Z := Z.lxor (Z.lxor (rotr x 6) (rotr x 11)) (rotr x 25).
Definition sigma0 (x : Z) : Z := Z.lxor (Z.lxor (rotr x 7) (rotr x 18)) (x / 2 ^ 3).
Definition sigma1 (x : Z) : Z := Z.lxor (Z.lxor (rotr x 17) (rotr x 19)) (x / 2 ^ 10).
Definition sha2_next (w : list Z) : Z := (sigma1 (back w 2) + back w 7 + sigma0 (back w 15) + back w 16) mod 2 ^ 32.
Definition sha2_step (W : list Z) (r : Z * Z * Z * Z * Z * Z * Z * Z) (t : nat) : Z * Z * Z * Z * Z * Z * Z * Z :=
  let '(a, b, c, d, e, f, g, h) := r in
  let T1 := (h + Sigma1 e + Ch e f g + sha2_K t + nth t W 0) mod 2 ^ 32 in
  let T2 := (Sigma0 a + Maj a b c) mod 2 ^ 32 in
  (add32 T1 T2, a, b, c, add32 d T1, e, f, g).
Definition sha2_compress (h block : list Z) : list Z :=
  let W := schedule sha2_next 48 (words be_val 16 block) in
  let '(r1, r2, r3, r4, r5, r6, r7, r8) := fold_left (sha2_step W) (seq 0 64) (nth 0 h 0, nth 1 h 0, nth 2 h 0, nth 3 h 0, nth 4 h 0, nth 5 h 0, nth 6 h 0, nth 7 h 0) in
  addl h [r1; r2; r3; r4; r5; r6; r7; r8].
(** first 32 bits of the fractional parts of the square roots of the first eight primes;
    second 32 bits of those of the ninth to sixteenth primes *)
Definition sha256_iv : list Z := map (fun p => Z.sqrt (p * 2 ^ 64) mod 2 ^ 32) (firstn 8 primes).
Definition sha224_iv : list Z := map (fun p => Z.sqrt (p * 2 ^ 128) mod 2 ^ 32) (firstn 8 (skipn 8 primes)).
Definition SHA256 (msg : list Z) : list Z := flat_map (be_bytes 4) (digest be_bytes sha2_compress sha256_iv msg).
Definition SHA224 (msg : list Z) : list Z := flat_map (be_bytes 4) (firstn 7 (digest be_bytes sha2_compress sha224_iv msg)).
