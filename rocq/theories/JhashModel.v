(** * Model of the Jenkins hash: include/bfdev/jhash.h, src/jhash.c *)
From Verif Require Import Lib BitsModel.

(** jhash.h:19-26 [bfdev_jhash_mix]: the new values of a, b and c *)
Definition mix (st : Z * Z * Z) : Z * Z * Z :=
  let '(a, b, c) := st in
  let a := w32 (a - c) in let a := Z.lxor a (rol32 c 4) in let c := w32 (c + b) in
  let b := w32 (b - a) in let b := Z.lxor b (rol32 a 6) in let a := w32 (a + c) in
  let c := w32 (c - b) in let c := Z.lxor c (rol32 b 8) in let b := w32 (b + a) in
  let a := w32 (a - c) in let a := Z.lxor a (rol32 c 16) in let c := w32 (c + b) in
  let b := w32 (b - a) in let b := Z.lxor b (rol32 a 19) in let a := w32 (a + c) in
  let c := w32 (c - b) in let c := Z.lxor c (rol32 b 4) in let b := w32 (b + a) in
  (a, b, c).
(** jhash.h:29-37 [bfdev_jhash_final] *)
Definition final (st : Z * Z * Z) : Z * Z * Z :=
  let '(a, b, c) := st in
  let c := Z.lxor c b in let c := w32 (c - rol32 b 14) in
  let a := Z.lxor a c in let a := w32 (a - rol32 c 11) in
  let b := Z.lxor b a in let b := w32 (b - rol32 a 25) in
  let c := Z.lxor c b in let c := w32 (c - rol32 b 16) in
  let a := Z.lxor a c in let a := w32 (a - rol32 c 4) in
  let b := Z.lxor b a in let b := w32 (b - rol32 a 14) in
  let c := Z.lxor c b in let c := w32 (c - rol32 b 24) in
  (a, b, c).
(** unaligned.h: [bfdev_unaligned_get_u32] on a little-endian machine; None outside the object *)
Definition get_u32 (data : list Z) (i : Z) : option Z :=
  let* b0 := rd data i in let* b1 := rd data (i + 1) in let* b2 := rd data (i + 2) in let* b3 := rd data (i + 3) in
  Some (b0 + 256 * b1 + 65536 * b2 + 16777216 * b3).
(** jhash.c:20-25: the loop over all blocks but the last; [off] is how far [data] has advanced *)
Fixpoint jhash_loop (fuel : nat) (data : list Z) (off length : Z) (st : Z * Z * Z) : option (Z * Z * (Z * Z * Z)) :=
  if 12 <? length then
    match fuel with
    | O => None
    | S fuel =>
      let '(a, b, c) := st in
      let* x := get_u32 data off in
      let* y := get_u32 data (off + 4) in
      let* z := get_u32 data (off + 8) in
      jhash_loop fuel data (off + 12) (length - 12) (mix (w32 (a + x), w32 (b + y), w32 (c + z)))
    end
  else Some (off, length, st).
(** one arm of the switch, jhash.c:29-40: byte [k] of the rest goes to word [w], shifted *)
Definition jhash_arm (data : list Z) (off : Z) (st : Z * Z * Z) (k : Z) : option (Z * Z * Z) :=
  let* v := rd data (off + k) in
  let v := w32 (Z.shiftl v (8 * (k mod 4))) in
  let '(a, b, c) := st in
  Some (if 8 <=? k then (a, b, w32 (c + v)) else if 4 <=? k then (a, w32 (b + v), c) else (w32 (a + v), b, c)).
Fixpoint jhash_arms (data : list Z) (off : Z) (ks : list Z) (st : Z * Z * Z) : option (Z * Z * Z) :=
  match ks with [] => Some st | k :: ks => let* st := jhash_arm data off st k in jhash_arms data off ks st end.
(** jhash.c:28-47: the switch falls through from byte [length - 1] down to byte 0 *)
Definition jhash_tail (data : list Z) (off length : Z) (st : Z * Z * Z) : option (Z * Z * Z) :=
  if (1 <=? length) && (length <=? 12) then
    let* st := jhash_arms data off (List.rev (zseq 0 (Z.to_nat length))) st in
    Some (final st)
  else Some st.
(** jhash.c:11-50 before the projection [return c] *)
Definition jhash_state (data : list Z) (length initval : Z) : option (Z * Z * Z) :=
  let a := w32 (0xdeadbeef + length + initval) in
  let* (off, length, st) := jhash_loop (Z.to_nat length) data 0 length (a, a, a) in
  jhash_tail data off length st.
(** jhash.c:52-56 [bfdev_jhash] *)
Definition jhash (data : list Z) (length initval : Z) : option Z :=
  let* (a, b, c) := jhash_state data length initval in Some c.
