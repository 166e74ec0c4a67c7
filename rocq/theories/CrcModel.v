(** * Model of the CRC table generator (scripts/gen-crc.c) and of the CRC functions
    (include/bfdev/crypto/crc-inline.h, crc4-inline.h). The host is little endian. *)
From Verif Require Import Lib BitsModel.

(** One generated algorithm: register width GENCRC_BITS, polynomial and whether the table is
    built most significant bit first (GENCRC_BELE = 0). *)
Record alg := Alg { width : Z; poly : Z; be : bool }.
(** scripts/CMakeLists.txt:41-102 with scripts/gen-crc8.c:6-11 .. gen-crc64be.c:6-11 *)
Definition crc7 := Alg 8 0x12 true.
Definition crc8 := Alg 8 0x07 true.
Definition crc16 := Alg 16 0xa001 false.
Definition crc_ccitt := Alg 16 0x8408 false.
Definition crc_itut := Alg 16 0x1021 true.
Definition crc_t10dif := Alg 16 0x8bb7 true.
Definition crc32 := Alg 32 0xedb88320 false.
Definition crc64 := Alg 64 0x42f0e1eba9ea3693 true.
Definition crc_rocksoft := Alg 64 0x9a6c9329ac4bc9b5 false.
Definition algs : list alg := [crc7; crc8; crc16; crc_ccitt; crc_itut; crc_t10dif; crc32; crc64; crc_rocksoft].

(** ** scripts/gen-crc.c *)

(** gen-crc.c:39-40, the inner loop of the little endian table *)
Fixpoint le_fill (fuel : nat) (table : list Z) (count index crc : Z) : option (list Z) :=
  match fuel with
  | O => None
  | S fuel' =>
    if index <? 256 then
      let* x := rd table index in
      let* table := wr table (count + index) (Z.lxor crc x) in
      le_fill fuel' table count (index + 2 * count) crc
    else Some table
  end.
(** gen-crc.c:37-41, the outer loop; [None] if the fuel runs out *)
Fixpoint le_row0 (fuel : nat) (p : Z) (table : list Z) (count crc : Z) : option (list Z) :=
  match fuel with
  | O => None
  | S fuel' =>
    if count =? 0 then Some table
    else
      let crc := Z.lxor (Z.shiftr crc 1) (if Z.odd crc then p else 0) in
      let* table := le_fill 257 table count 0 crc in
      le_row0 fuel' p table (Z.shiftr count 1) crc
  end.
(** gen-crc.c:62-63 *)
Fixpoint be_fill (n : nat) (table : list Z) (count index crc : Z) : option (list Z) :=
  match n with
  | O => Some table
  | S n' =>
    let* x := rd table index in
    let* table := wr table (count + index) (Z.lxor crc x) in
    be_fill n' table count (index + 1) crc
  end.
(** gen-crc.c:60-64 *)
Fixpoint be_row0 (fuel : nat) (w p : Z) (table : list Z) (count crc : Z) : option (list Z) :=
  match fuel with
  | O => None
  | S fuel' =>
    if count <? 256 then
      let crc := Z.lxor (wrap w (Z.shiftl crc 1)) (if Z.testbit crc (w - 1) then p else 0) in
      let* table := be_fill (Z.to_nat count) table count 0 crc in
      be_row0 fuel' w p table (2 * count) crc
    else Some table
  end.
(** gen-crc.c:29-64: row 0, in a zeroed table (129) *)
Definition gen_row0 (a : alg) : option (list Z) :=
  if be a then be_row0 9 (width a) (poly a) (repeat 0 256) 1 (2 ^ (width a - 1))
  else le_row0 9 (poly a) (repeat 0 256) 128 1.
(** gen-crc.c:46 and 69: the entry of the next row below [crc] *)
Definition gen_next (a : alg) (row0 : list Z) (crc : Z) : option Z :=
  if be a then
    let* x := rd row0 (Z.land (Z.shiftr crc (width a - 8)) 255) in
    Some (Z.lxor x (wrap (width a) (Z.shiftl crc 8)))
  else
    let* x := rd row0 (Z.land crc 255) in
    Some (Z.lxor x (Z.shiftr crc 8)).
Fixpoint omap {A B} (f : A -> option B) (l : list A) : option (list B) :=
  match l with
  | [] => Some []
  | x :: t => let* y := f x in let* t := omap f t in Some (y :: t)
  end.
(** gen-crc.c:43-49, 66-72: the following rows. The code fills them column by column; each entry
    depends only on the one above it, so they are built row by row here. *)
Fixpoint gen_rows (a : alg) (row0 : list Z) (n : nat) (row : list Z) : option (list (list Z)) :=
  match n with
  | O => Some []
  | S n' =>
    let* rest := (let* row' := omap (gen_next a row0) row in gen_rows a row0 n' row') in
    Some (row :: rest)
  end.
(** include/bfdev/byteorder.h cpu_to_be16/32/64 on a little endian machine; nothing for bytes *)
Definition bswap (w v : Z) : Z :=
  if w =? 16 then swab16 v else if w =? 32 then swab32 v else if w =? 64 then swab64 v else v.
Definition trans (a : alg) (v : Z) : Z := if be a then bswap (width a) v else v.
(** gen-crc.c:102-161 (main): the generated table of [rows] rows, each entry passed through the
    conversion of the fifth argument (gen-crc.c:88-91) *)
Definition crc_table (a : alg) (rows : nat) : option (list (list Z)) :=
  let* row0 := gen_row0 a in
  let* t := gen_rows a row0 rows row0 in
  Some (map (map (trans a)) t).

(** ** include/bfdev/crypto/crc-inline.h *)

(** table[r][i] *)
Definition look (table : list (list Z)) (r i : Z) : option Z := let* row := rd table r in rd row i.
(** crc-inline.h:17-23 [name##_byte] *)
Definition crc_byte (table : list (list Z)) (crc data : Z) : option Z :=
  let* x := look table 0 (Z.land (Z.lxor crc data) 255) in
  Some (Z.lxor x (Z.shiftr crc 8)).
(** crc-inline.h:32-33, 70-71: one byte at a time *)
Fixpoint crc_bytes (table : list (list Z)) (src : list Z) (crc : Z) : option Z :=
  match src with
  | [] => Some crc
  | b :: src' => let* crc := crc_byte table crc b in crc_bytes table src' crc
  end.
(** crc-inline.h:25-36, built without BFDEV_CRC_EXTEND *)
Definition crc_plain (a : alg) (table : list (list Z)) (src : list Z) (crc : Z) : option Z :=
  let* crc := crc_bytes table src (trans a crc) in Some (trans a crc).

(** crc-inline.h:47-50: bytes up to a four byte boundary; [addr] is the address of [src] *)
Fixpoint crc_head (table : list (list Z)) (addr : Z) (src : list Z) (crc : Z) : option (list Z * Z) :=
  match src with
  | [] => Some ([], crc)
  | b :: src' =>
    if Z.land addr 3 =? 0 then Some (src, crc)
    else let* crc := crc_byte table crc b in crc_head table (addr + 1) src' crc
  end.
(** [bfdev_cpu_to_le32p] of four bytes *)
Definition le32 (b0 b1 b2 b3 : Z) : Z := b0 + 2 ^ 8 * b1 + 2 ^ 16 * b2 + 2 ^ 24 * b3.
(** crc-inline.h:53-67: one eight byte step; value[0] is a uint32_t *)
Definition crc_slice (table : list (list Z)) (crc b0 b1 b2 b3 b4 b5 b6 b7 : Z) : option Z :=
  let v0 := w32 (Z.lxor (le32 b0 b1 b2 b3) crc) in
  let v1 := le32 b4 b5 b6 b7 in
  let* t7 := look table 7 (Z.land v0 255) in
  let* t6 := look table 6 (Z.land (Z.shiftr v0 8) 255) in
  let* t5 := look table 5 (Z.land (Z.shiftr v0 16) 255) in
  let* t4 := look table 4 (Z.land (Z.shiftr v0 24) 255) in
  let* t3 := look table 3 (Z.land v1 255) in
  let* t2 := look table 2 (Z.land (Z.shiftr v1 8) 255) in
  let* t1 := look table 1 (Z.land (Z.shiftr v1 16) 255) in
  let* t0 := look table 0 (Z.land (Z.shiftr v1 24) 255) in
  Some (Z.lxor t7 (Z.lxor t6 (Z.lxor t5 (Z.lxor t4 (Z.lxor t3 (Z.lxor t2 (Z.lxor t1 t0))))))).
(** crc-inline.h:52-71: eight bytes at a time, then the rest one by one *)
Fixpoint crc_body (table : list (list Z)) (src : list Z) (crc : Z) : option Z :=
  match src with
  | b0 :: b1 :: b2 :: b3 :: b4 :: b5 :: b6 :: b7 :: src' =>
    let* crc := crc_slice table crc b0 b1 b2 b3 b4 b5 b6 b7 in crc_body table src' crc
  | _ => crc_bytes table src crc
  end.
(** crc-inline.h:37-75, built with BFDEV_CRC_EXTEND (the default, CMakeLists.txt:66) *)
Definition crc_extend (a : alg) (table : list (list Z)) (addr : Z) (src : list Z) (crc : Z) : option Z :=
  let* p := crc_head table addr src (trans a crc) in
  let* crc := crc_body table (fst p) (snd p) in
  Some (trans a crc).

(** ** include/bfdev/crypto/crc4-inline.h *)

(** crc4-inline.h:17-23 *)
Definition crc4_table : list Z :=
  [0x00; 0x07; 0x0e; 0x09; 0x0b; 0x0c; 0x05; 0x02; 0x01; 0x06; 0x0f; 0x08; 0x0a; 0x0d; 0x04; 0x03].
(** crc4-inline.h:25-37 *)
Definition crc4_byte (crc data : Z) : option Z :=
  let* crc := rd crc4_table (Z.land (Z.lxor crc (Z.shiftr data 4)) 15) in
  rd crc4_table (Z.land (Z.lxor crc (Z.land data 15)) 15).
(** crc4-inline.h:52-55, at most 31 bits are left *)
Fixpoint crc4_tail (fuel : nat) (src : list Z) (bits crc : Z) : option Z :=
  match fuel with
  | O => None
  | S fuel' =>
    let count := Z.min bits 8 in
    if count =? 0 then Some crc
    else match src with
         | [] => None
         | b :: src' =>
           let* crc := crc4_byte crc (w8 (Z.land (LOW_MASK bits) b)) in
           crc4_tail fuel' src' (bits - count) crc
         end
  end.
(** crc4-inline.h:39-58 [bfdev_crc4_inline]: the length is in bits *)
Fixpoint crc4_inline (src : list Z) (bits crc : Z) : option Z :=
  match src with
  | b0 :: b1 :: b2 :: b3 :: src' =>
    if 32 <=? bits then
      let* crc := crc4_byte crc b0 in let* crc := crc4_byte crc b1 in
      let* crc := crc4_byte crc b2 in let* crc := crc4_byte crc b3 in
      crc4_inline src' (bits - 32) crc
    else crc4_tail 5 src bits crc
  | _ => if 32 <=? bits then None else crc4_tail 5 src bits crc
  end.
