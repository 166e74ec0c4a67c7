(** * Model of the message digests: include/bfdev/crypto/{md5,sha1,sha2}{,-base}.h, src/crypto/{md5,sha1,sha2}.c
    A context is its state words, its 64-byte block buffer and its byte counter.  Little-endian 64-bit machine. *)
From Verif Require Import Lib BitsModel.

Record ctx := { dg : list Z; blk : list Z; cnt : Z }.
(** memcpy to [dst + off], memset to zero; [None] outside the destination or for a negative size *)
Definition mcpy (dst : list Z) (off : Z) (src : list Z) : option (list Z) :=
  if (0 <=? off) && (off + zlen src <=? zlen dst)
  then Some (firstn (Z.to_nat off) dst ++ src ++ skipn (Z.to_nat off + length src) dst) else None.
Definition mzero (dst : list Z) (off n : Z) : option (list Z) := if n <? 0 then None else mcpy dst off (repeat 0 (Z.to_nat n)).
(** reading the first [n] bytes of [src] *)
Definition take (src : list Z) (n : Z) : option (list Z) := if (0 <=? n) && (n <=? zlen src) then Some (firstn (Z.to_nat n) src) else None.
Definition drop (src : list Z) (n : Z) : list Z := skipn (Z.to_nat n) src.
Definition le32_of (l : list Z) (i : nat) : Z := nth (4 * i) l 0 + 256 * nth (4 * i + 1) l 0 + 65536 * nth (4 * i + 2) l 0 + 16777216 * nth (4 * i + 3) l 0.
Definition be32_of (l : list Z) (i : nat) : Z := 16777216 * nth (4 * i) l 0 + 65536 * nth (4 * i + 1) l 0 + 256 * nth (4 * i + 2) l 0 + nth (4 * i + 3) l 0.
Definition le32_bytes (v : Z) : list Z := [v mod 256; (v / 256) mod 256; (v / 65536) mod 256; (v / 16777216) mod 256].
(** unaligned.h:174-179, 182-187: the bytes stored by [bfdev_unaligned_set_be32] and [set_be64] *)
Definition be32_bytes (v : Z) : list Z := [(v / 16777216) mod 256; (v / 65536) mod 256; (v / 256) mod 256; v mod 256].
Definition be64_bytes (v : Z) : list Z := be32_bytes (v / 2 ^ 32) ++ be32_bytes (v mod 2 ^ 32).

(** ** MD5, crypto/md5.h *)
Definition not32 (x : Z) : Z := Z.lxor x (2 ^ 32 - 1).
(** md5.h:15-18 *)
Definition md5_F1 (x y z : Z) : Z := Z.lxor z (Z.land x (Z.lxor y z)).
Definition md5_F2 (x y z : Z) : Z := md5_F1 z x y.
Definition md5_F3 (x y z : Z) : Z := Z.lxor (Z.lxor x y) z.
Definition md5_F4 (x y z : Z) : Z := Z.lxor y (Z.lor x (not32 z)).
Definition md5_F (n : nat) : Z -> Z -> Z -> Z := match n with 1 => md5_F1 | 2 => md5_F2 | 3 => md5_F3 | _ => md5_F4 end%nat.
(** md5.h:20-23 BFDEV_MD5_STEP, the new value of [w] *)
Definition md5_STEP (f : Z -> Z -> Z -> Z) (w x y z data s : Z) : Z :=
  let w := w32 (w + w32 (f x y z + data)) in
  w32 (Z.lor (w32 (Z.shiftl w s)) (Z.shiftr w (32 - s)) + x).
Inductive reg := RA | RB | RC | RD.
Record regs := { rA : Z; rB : Z; rC : Z; rD : Z }.
Definition get (r : regs) (x : reg) : Z := match x with RA => rA r | RB => rB r | RC => rC r | RD => rD r end.
Definition put (r : regs) (x : reg) (v : Z) : regs :=
  match x with
  | RA => {| rA := v; rB := rB r; rC := rC r; rD := rD r |}
  | RB => {| rA := rA r; rB := v; rC := rC r; rD := rD r |}
  | RC => {| rA := rA r; rB := rB r; rC := v; rD := rD r |}
  | RD => {| rA := rA r; rB := rB r; rC := rC r; rD := v |}
  end.
(** md5.h:36-105, the macro calls in order: F, w, x, y, z, index of data, constant, s *)
Definition md5_calls : list (nat * reg * reg * reg * reg * nat * Z * Z) :=
  [(1%nat, RA, RB, RC, RD, 0%nat, 0xd76aa478, 7); (1%nat, RD, RA, RB, RC, 1%nat, 0xe8c7b756, 12);
   (1%nat, RC, RD, RA, RB, 2%nat, 0x242070db, 17); (1%nat, RB, RC, RD, RA, 3%nat, 0xc1bdceee, 22);
   (1%nat, RA, RB, RC, RD, 4%nat, 0xf57c0faf, 7); (1%nat, RD, RA, RB, RC, 5%nat, 0x4787c62a, 12);
   (1%nat, RC, RD, RA, RB, 6%nat, 0xa8304613, 17); (1%nat, RB, RC, RD, RA, 7%nat, 0xfd469501, 22);
   (1%nat, RA, RB, RC, RD, 8%nat, 0x698098d8, 7); (1%nat, RD, RA, RB, RC, 9%nat, 0x8b44f7af, 12);
   (1%nat, RC, RD, RA, RB, 10%nat, 0xffff5bb1, 17); (1%nat, RB, RC, RD, RA, 11%nat, 0x895cd7be, 22);
   (1%nat, RA, RB, RC, RD, 12%nat, 0x6b901122, 7); (1%nat, RD, RA, RB, RC, 13%nat, 0xfd987193, 12);
   (1%nat, RC, RD, RA, RB, 14%nat, 0xa679438e, 17); (1%nat, RB, RC, RD, RA, 15%nat, 0x49b40821, 22);
   (2%nat, RA, RB, RC, RD, 1%nat, 0xf61e2562, 5); (2%nat, RD, RA, RB, RC, 6%nat, 0xc040b340, 9);
   (2%nat, RC, RD, RA, RB, 11%nat, 0x265e5a51, 14); (2%nat, RB, RC, RD, RA, 0%nat, 0xe9b6c7aa, 20);
   (2%nat, RA, RB, RC, RD, 5%nat, 0xd62f105d, 5); (2%nat, RD, RA, RB, RC, 10%nat, 0x02441453, 9);
   (2%nat, RC, RD, RA, RB, 15%nat, 0xd8a1e681, 14); (2%nat, RB, RC, RD, RA, 4%nat, 0xe7d3fbc8, 20);
   (2%nat, RA, RB, RC, RD, 9%nat, 0x21e1cde6, 5); (2%nat, RD, RA, RB, RC, 14%nat, 0xc33707d6, 9);
   (2%nat, RC, RD, RA, RB, 3%nat, 0xf4d50d87, 14); (2%nat, RB, RC, RD, RA, 8%nat, 0x455a14ed, 20);
   (2%nat, RA, RB, RC, RD, 13%nat, 0xa9e3e905, 5); (2%nat, RD, RA, RB, RC, 2%nat, 0xfcefa3f8, 9);
   (2%nat, RC, RD, RA, RB, 7%nat, 0x676f02d9, 14); (2%nat, RB, RC, RD, RA, 12%nat, 0x8d2a4c8a, 20);
   (3%nat, RA, RB, RC, RD, 5%nat, 0xfffa3942, 4); (3%nat, RD, RA, RB, RC, 8%nat, 0x8771f681, 11);
   (3%nat, RC, RD, RA, RB, 11%nat, 0x6d9d6122, 16); (3%nat, RB, RC, RD, RA, 14%nat, 0xfde5380c, 23);
   (3%nat, RA, RB, RC, RD, 1%nat, 0xa4beea44, 4); (3%nat, RD, RA, RB, RC, 4%nat, 0x4bdecfa9, 11);
   (3%nat, RC, RD, RA, RB, 7%nat, 0xf6bb4b60, 16); (3%nat, RB, RC, RD, RA, 10%nat, 0xbebfbc70, 23);
   (3%nat, RA, RB, RC, RD, 13%nat, 0x289b7ec6, 4); (3%nat, RD, RA, RB, RC, 0%nat, 0xeaa127fa, 11);
   (3%nat, RC, RD, RA, RB, 3%nat, 0xd4ef3085, 16); (3%nat, RB, RC, RD, RA, 6%nat, 0x04881d05, 23);
   (3%nat, RA, RB, RC, RD, 9%nat, 0xd9d4d039, 4); (3%nat, RD, RA, RB, RC, 12%nat, 0xe6db99e5, 11);
   (3%nat, RC, RD, RA, RB, 15%nat, 0x1fa27cf8, 16); (3%nat, RB, RC, RD, RA, 2%nat, 0xc4ac5665, 23);
   (4%nat, RA, RB, RC, RD, 0%nat, 0xf4292244, 6); (4%nat, RD, RA, RB, RC, 7%nat, 0x432aff97, 10);
   (4%nat, RC, RD, RA, RB, 14%nat, 0xab9423a7, 15); (4%nat, RB, RC, RD, RA, 5%nat, 0xfc93a039, 21);
   (4%nat, RA, RB, RC, RD, 12%nat, 0x655b59c3, 6); (4%nat, RD, RA, RB, RC, 3%nat, 0x8f0ccc92, 10);
   (4%nat, RC, RD, RA, RB, 10%nat, 0xffeff47d, 15); (4%nat, RB, RC, RD, RA, 1%nat, 0x85845dd1, 21);
   (4%nat, RA, RB, RC, RD, 8%nat, 0x6fa87e4f, 6); (4%nat, RD, RA, RB, RC, 15%nat, 0xfe2ce6e0, 10);
   (4%nat, RC, RD, RA, RB, 6%nat, 0xa3014314, 15); (4%nat, RB, RC, RD, RA, 13%nat, 0x4e0811a1, 21);
   (4%nat, RA, RB, RC, RD, 4%nat, 0xf7537e82, 6); (4%nat, RD, RA, RB, RC, 11%nat, 0xbd3af235, 10);
   (4%nat, RC, RD, RA, RB, 2%nat, 0x2ad7d2bb, 15); (4%nat, RB, RC, RD, RA, 9%nat, 0xeb86d391, 21)].
Definition md5_call (data : list Z) (r : regs) (c : nat * reg * reg * reg * reg * nat * Z * Z) : regs :=
  let '(f, w, x, y, z, k, c, s) := c in
  put r w (md5_STEP (md5_F f) (get r w) (get r x) (get r y) (get r z) (w32 (nth k data 0 + c)) s).
(** md5.h:25-111 *)
Definition md5_transform (hash data : list Z) : list Z :=
  let r := {| rA := nth 0 hash 0; rB := nth 1 hash 0; rC := nth 2 hash 0; rD := nth 3 hash 0 |} in
  let r := fold_left (md5_call data) md5_calls r in
  [w32 (nth 0 hash 0 + rA r); w32 (nth 1 hash 0 + rB r); w32 (nth 2 hash 0 + rC r); w32 (nth 3 hash 0 + rD r)].
(** src/crypto/md5.c:12-18 (the words of the block, little endian) *)
Definition md5_transform_block (dg blk : list Z) : list Z := md5_transform dg (map (le32_of blk) (seq 0 16)).
(** md5-base.h:42-49 *)
Fixpoint md5_blocks (fuel : nat) (dg blk data : list Z) : option (list Z * list Z) :=
  if 64 <=? zlen data then
    match fuel with
    | O => None
    | S fuel =>
      let* src := take data 64 in
      let* blk := mcpy blk 0 src in
      md5_blocks fuel (md5_transform_block dg blk) blk (drop data 64)
    end
  else let* blk := mcpy blk 0 data in Some (dg, blk).
(** md5-base.h:21-50, src/crypto/md5.c:20-24 *)
Definition md5_update (c : ctx) (data : list Z) : option ctx :=
  let size := zlen data in
  let avail := 64 - Z.land (cnt c) 0x3f in
  let count := w64 (cnt c + size) in
  if avail >? size then
    let* blk := mcpy (blk c) (64 - avail) data in
    Some {| dg := dg c; blk := blk; cnt := count |}
  else
    let* src := take data avail in
    let* blk := mcpy (blk c) (64 - avail) src in
    let* (dg, blk) := md5_blocks (length data) (md5_transform_block (dg c) blk) blk (drop data avail) in
    Some {| dg := dg; blk := blk; cnt := count |}.
(** md5-base.h:52-77 *)
Definition md5_finalize (c : ctx) : option (list Z) :=
  let offset := Z.land (cnt c) 0x3f in
  let* blk := mcpy (blk c) offset [0x80] in
  let ptr := offset + 1 in
  let padding := 56 - (offset + 1) in
  let* (dg, blk, ptr, padding) :=
    if padding <? 0 then
      let* blk := mzero blk ptr (padding + 8) in
      Some (md5_transform_block (dg c) blk, blk, 0, 56)
    else Some (dg c, blk, ptr, padding) in
  let* blk := mzero blk ptr padding in
  let* blk := mcpy blk 56 (le32_bytes (w32 (Z.shiftl (cnt c) 3))) in
  let* blk := mcpy blk 60 (le32_bytes (w32 (Z.shiftr (cnt c) 29))) in
  Some (md5_transform_block dg blk).
(** md5-base.h:79-85, src/crypto/md5.c:26-31 *)
Definition md5_finish (c : ctx) : option (list Z) :=
  let* dg := md5_finalize c in Some (flat_map le32_bytes dg).
(** md5-base.h:87-94, md5.h:19-22, src/crypto/md5.c:33-38; the block buffer keeps what it had *)
Definition md5_init (garbage : list Z) : ctx := {| dg := [0x67452301; 0xefcdab89; 0x98badcfe; 0x10325476]; blk := garbage; cnt := 0 |}.

(** ** SHA-1, crypto/sha1.h.  The work area is a local array, not initialised before the first use. *)
Definition fset (b : Z -> Z) (i v : Z) : Z -> Z := fun j => if j =? i then v else b j.
(** sha1.h:16-21 *)
Definition sha1_W (c : Z) (b : Z -> Z) : Z := b (Z.land c 0x0f).
Definition sha1_SRC (c : Z) (d : list Z) : Z := be32_of d (Z.to_nat c).
Definition sha1_MIX (c : Z) (b : Z -> Z) : Z :=
  rol32 (Z.lxor (Z.lxor (Z.lxor (sha1_W (c + 13) b) (sha1_W (c + 8) b)) (sha1_W (c + 2) b)) (sha1_W c b)) 1.
Record five := { v1 : Z; v2 : Z; v3 : Z; v4 : Z; v5 : Z }.
(** sha1.h:23-50: the round macro, [value] being func(c, b, d), [exp] the expression of the round *)
Definition sha1_ROUND (c : Z) (st : (Z -> Z) * five) (value const exp : Z) : (Z -> Z) * five :=
  let '(b, r) := st in
  let b := fset b (Z.land c 0x0f) value in
  let e := w32 (v5 r + (value + rol32 (v1 r) 5 + exp + const)) in
  (b, {| v1 := e; v2 := v1 r; v3 := ror32 (v2 r) 2; v4 := v3 r; v5 := v4 r |}).
Definition sha1_00_15 (d : list Z) (st : (Z -> Z) * five) (c : Z) :=
  let r := snd st in sha1_ROUND c st (sha1_SRC c d) 0x5a827999 (Z.lxor (Z.land (Z.lxor (v3 r) (v4 r)) (v2 r)) (v4 r)).
Definition sha1_16_19 (st : (Z -> Z) * five) (c : Z) :=
  let r := snd st in sha1_ROUND c st (sha1_MIX c (fst st)) 0x5a827999 (Z.lxor (Z.land (Z.lxor (v3 r) (v4 r)) (v2 r)) (v4 r)).
Definition sha1_20_39 (st : (Z -> Z) * five) (c : Z) :=
  let r := snd st in sha1_ROUND c st (sha1_MIX c (fst st)) 0x6ed9eba1 (Z.lxor (Z.lxor (v2 r) (v3 r)) (v4 r)).
Definition sha1_40_59 (st : (Z -> Z) * five) (c : Z) :=
  let r := snd st in sha1_ROUND c st (sha1_MIX c (fst st)) 0x8f1bbcdc (Z.land (v2 r) (v3 r) + Z.land (v4 r) (Z.lxor (v2 r) (v3 r))).
Definition sha1_60_79 (st : (Z -> Z) * five) (c : Z) :=
  let r := snd st in sha1_ROUND c st (sha1_MIX c (fst st)) 0xca62c1d6 (Z.lxor (Z.lxor (v2 r) (v3 r)) (v4 r)).
(** sha1.h:52-92 *)
Definition sha1_transform (digest : list Z) (block : Z -> Z) (data : list Z) : list Z * (Z -> Z) :=
  let n i := nth i digest 0 in
  let st := (block, {| v1 := n 0%nat; v2 := n 1%nat; v3 := n 2%nat; v4 := n 3%nat; v5 := n 4%nat |}) in
  let st := fold_left (sha1_00_15 data) (zseq 0 16) st in
  let st := fold_left sha1_16_19 (zseq 16 4) st in
  let st := fold_left sha1_20_39 (zseq 20 20) st in
  let st := fold_left sha1_40_59 (zseq 40 20) st in
  let st := fold_left sha1_60_79 (zseq 60 20) st in
  let r := snd st in
  ([w32 (n 0%nat + v1 r); w32 (n 1%nat + v2 r); w32 (n 2%nat + v3 r); w32 (n 3%nat + v4 r); w32 (n 4%nat + v5 r)], fst st).

(** ** SHA-2, crypto/sha2.h *)
(** sha2.h:16-34 *)
Definition sha2_k : list Z :=
  [0x428a2f98; 0x71374491; 0xb5c0fbcf; 0xe9b5dba5; 0x3956c25b; 0x59f111f1; 0x923f82a4; 0xab1c5ed5;
   0xd807aa98; 0x12835b01; 0x243185be; 0x550c7dc3; 0x72be5d74; 0x80deb1fe; 0x9bdc06a7; 0xc19bf174;
   0xe49b69c1; 0xefbe4786; 0x0fc19dc6; 0x240ca1cc; 0x2de92c6f; 0x4a7484aa; 0x5cb0a9dc; 0x76f988da;
   0x983e5152; 0xa831c66d; 0xb00327c8; 0xbf597fc7; 0xc6e00bf3; 0xd5a79147; 0x06ca6351; 0x14292967;
   0x27b70a85; 0x2e1b2138; 0x4d2c6dfc; 0x53380d13; 0x650a7354; 0x766a0abb; 0x81c2c92e; 0x92722c85;
   0xa2bfe8a1; 0xa81a664b; 0xc24b8b70; 0xc76c51a3; 0xd192e819; 0xd6990624; 0xf40e3585; 0x106aa070;
   0x19a4c116; 0x1e376c08; 0x2748774c; 0x34b0bcb5; 0x391c0cb3; 0x4ed8aa4a; 0x5b9cca4f; 0x682e6ff3;
   0x748f82ee; 0x78a5636f; 0x84c87814; 0x8cc70208; 0x90befffa; 0xa4506ceb; 0xbef9a3f7; 0xc67178f2].
(** sha2.h:36-53 *)
Definition sha2_S0 (x : Z) : Z := Z.lxor (Z.lxor (ror32 x 7) (ror32 x 18)) (Z.shiftr x 3).
Definition sha2_S1 (x : Z) : Z := Z.lxor (Z.lxor (ror32 x 17) (ror32 x 19)) (Z.shiftr x 10).
Definition sha2_E0 (x : Z) : Z := Z.lxor (Z.lxor (ror32 x 2) (ror32 x 13)) (ror32 x 22).
Definition sha2_E1 (x : Z) : Z := Z.lxor (Z.lxor (ror32 x 6) (ror32 x 11)) (ror32 x 25).
Definition sha2_CH (x y z : Z) : Z := Z.lxor z (Z.land x (Z.lxor y z)).
Definition sha2_MAJ (x y z : Z) : Z := Z.lor (Z.land x y) (Z.land z (Z.lor x y)).
(** sha2.h:55-62; the eight-fold unrolling of the loops (88-110) does nothing else than the loop over all indexes *)
Definition sha2_LOAD (d : list Z) (b : Z -> Z) (c : Z) : Z -> Z := fset b c (be32_of d (Z.to_nat c)).
Definition sha2_BLEND (b : Z -> Z) (c : Z) : Z -> Z := fset b c (w32 (sha2_S1 (b (c - 2)) + b (c - 7) + sha2_S0 (b (c - 15)) + b (c - 16))).
(** sha2.h:64-70, the new values of D and H *)
Definition sha2_ROUND (c : Z) (b : Z -> Z) (A B C D E F G H : Z) : Z * Z :=
  let tmp1 := w32 (H + sha2_E1 E + sha2_CH E F G + nth (Z.to_nat c) sha2_k 0 + b c) in
  let tmp2 := w32 (sha2_E0 A + sha2_MAJ A B C) in
  (w32 (D + tmp1), w32 (tmp1 + tmp2)).
Record eight := { e1 : Z; e2 : Z; e3 : Z; e4 : Z; e5 : Z; e6 : Z; e7 : Z; e8 : Z }.
(** sha2.h:113-122, the body of the loop *)
Definition sha2_eight (b : Z -> Z) (r : eight) (c : Z) : eight :=
  let '{| e1 := A; e2 := B; e3 := C; e4 := D; e5 := E; e6 := F; e7 := G; e8 := H |} := r in
  let '(D, H) := sha2_ROUND (c + 0) b A B C D E F G H in
  let '(C, G) := sha2_ROUND (c + 1) b H A B C D E F G in
  let '(B, F) := sha2_ROUND (c + 2) b G H A B C D E F in
  let '(A, E) := sha2_ROUND (c + 3) b F G H A B C D E in
  let '(H, D) := sha2_ROUND (c + 4) b E F G H A B C D in
  let '(G, C) := sha2_ROUND (c + 5) b D E F G H A B C in
  let '(F, B) := sha2_ROUND (c + 6) b C D E F G H A B in
  let '(E, A) := sha2_ROUND (c + 7) b B C D E F G H A in
  {| e1 := A; e2 := B; e3 := C; e4 := D; e5 := E; e6 := F; e7 := G; e8 := H |}.
(** sha2.h:72-133 *)
Definition sha2_transform (digest : list Z) (block : Z -> Z) (data : list Z) : list Z * (Z -> Z) :=
  let n i := nth i digest 0 in
  let r := {| e1 := n 0%nat; e2 := n 1%nat; e3 := n 2%nat; e4 := n 3%nat; e5 := n 4%nat; e6 := n 5%nat; e7 := n 6%nat; e8 := n 7%nat |} in
  let b := fold_left (sha2_LOAD data) (zseq 0 16) block in
  let b := fold_left sha2_BLEND (zseq 16 48) b in
  let r := fold_left (sha2_eight b) [0; 8; 16; 24; 32; 40; 48; 56] r in
  ([w32 (n 0%nat + e1 r); w32 (n 1%nat + e2 r); w32 (n 2%nat + e3 r); w32 (n 3%nat + e4 r);
    w32 (n 4%nat + e5 r); w32 (n 5%nat + e6 r); w32 (n 6%nat + e7 r); w32 (n 7%nat + e8 r)], b).

(** ** The common frame of SHA-1 and SHA-2: sha1-base.h and sha2-base.h are the same up to the names *)
Section Sha.
Variable transform : list Z -> (Z -> Z) -> list Z -> list Z * (Z -> Z).
(** what the local work area happens to contain *)
Variable stack : Z -> Z.
(** src/crypto/sha1.c:12-21, src/crypto/sha2.c:12-21 *)
Fixpoint sha_blocks (n : nat) (dg : list Z) (buffer : Z -> Z) (src : list Z) : option (list Z) :=
  match n with
  | O => Some dg
  | S n =>
    let* block := take src 64 in
    let '(dg, buffer) := transform dg buffer block in
    sha_blocks n dg buffer (drop src 64)
  end.
Definition sha_func (dg : list Z) (src : list Z) (blocks : Z) : option (list Z) := sha_blocks (Z.to_nat blocks) dg stack src.
(** sha1-base.h:20-53, sha2-base.h:20-53 *)
Definition sha_update (c : ctx) (data : list Z) : option ctx :=
  let size := zlen data in
  let partial := cnt c mod 64 in
  let count := w64 (cnt c + size) in
  let* (dg, blk, data, size, partial) :=
    if 64 <=? w64 (partial + size) then
      let* (dg, blk, data, size) :=
        if negb (partial =? 0) then
          let length := 64 - partial in
          let* src := take data length in
          let* blk := mcpy (blk c) partial src in
          let* dg := sha_func (dg c) blk 1 in
          Some (dg, blk, drop data length, size - length)
        else Some (dg c, blk c, data, size) in
      let blocks := size / 64 in
      let size := size mod 64 in
      let* (dg, data) :=
        if negb (blocks =? 0) then let* dg := sha_func dg data blocks in Some (dg, drop data (blocks * 64)) else Some (dg, data) in
      Some (dg, blk, data, size, 0)
    else Some (dg c, blk c, data, size, partial) in
  if negb (size =? 0) then
    let* src := take data size in
    let* blk := mcpy blk partial src in
    Some {| dg := dg; blk := blk; cnt := count |}
  else Some {| dg := dg; blk := blk; cnt := count |}.
(** sha1-base.h:55-76, sha2-base.h:55-76 *)
Definition sha_finalize (c : ctx) : option (list Z) :=
  let offset := 64 - 8 in
  let partial := cnt c mod 64 in
  let* blk := mcpy (blk c) partial [0x80] in
  let partial := partial + 1 in
  let* (dg, blk, partial) :=
    if offset <? partial then
      let* blk := mzero blk partial (64 - partial) in
      let* dg := sha_func (dg c) blk 1 in
      Some (dg, blk, 0)
    else Some (dg c, blk, partial) in
  let* blk := mzero blk partial (offset - partial) in
  let* blk := mcpy blk offset (be64_bytes (w64 (Z.shiftl (cnt c) 3))) in
  sha_func dg blk 1.
(** sha1-base.h:78-87, sha2-base.h:78-87 *)
Definition sha_finish (c : ctx) (words : nat) : option (list Z) :=
  let* dg := sha_finalize c in Some (flat_map be32_bytes (firstn words dg)).
End Sha.
(** src/crypto/sha1.c:23-41 with sha1.h (include/bfdev):14-18, 24 *)
Definition sha1_init (garbage : list Z) : ctx := {| dg := [0x67452301; 0xefcdab89; 0x98badcfe; 0x10325476; 0xc3d2e1f0]; blk := garbage; cnt := 0 |}.
Definition sha1_update := sha_update sha1_transform.
Definition sha1_finish (stack : Z -> Z) (c : ctx) := sha_finish sha1_transform stack c 5.
(** src/crypto/sha2.c:23-55 with sha2.h (include/bfdev):14-39 *)
Definition sha224_init (garbage : list Z) : ctx :=
  {| dg := [0xc1059ed8; 0x367cd507; 0x3070dd17; 0xf70e5939; 0xffc00b31; 0x68581511; 0x64f98fa7; 0xbefa4fa4]; blk := garbage; cnt := 0 |}.
Definition sha256_init (garbage : list Z) : ctx :=
  {| dg := [0x6a09e667; 0xbb67ae85; 0x3c6ef372; 0xa54ff53a; 0x510e527f; 0x9b05688c; 0x1f83d9ab; 0x5be0cd19]; blk := garbage; cnt := 0 |}.
Definition sha2_update := sha_update sha2_transform.
Definition sha224_finish (stack : Z -> Z) (c : ctx) := sha_finish sha2_transform stack c 7.
Definition sha256_finish (stack : Z -> Z) (c : ctx) := sha_finish sha2_transform stack c 8.
(** The client: a sequence of update calls. *)
Fixpoint updates (update : ctx -> list Z -> option ctx) (c : ctx) (l : list (list Z)) : option ctx :=
  match l with [] => Some c | d :: l => let* c := update c d in updates update c l end.
