(** * Model of include/bfdev/asm-generic/dword.h and src/dword.c
    Words are [Z] in [0, 2^64), half words in [0, 2^32). The macros copy their arguments
    first, so aliasing of operands and results is harmless and not modelled. *)
From Verif Require Import Lib BitsModel.

(** asm-generic/dword.h:21-25 *)
Definition LOWER (v : Z) : Z := Z.land v (2 ^ 32 - 1).
Definition HIGHER (v : Z) : Z := Z.shiftr v 32.

(** asm-generic/dword.h:27-41 [bfdev_dword_addd]: (high, low) *)
Definition dw_addd (ah al bh bl : Z) : Z * Z :=
  let x := w64 (al + bl) in
  (w64 (ah + bh + (if x <? al then 1 else 0)), x).

(** asm-generic/dword.h:43-57 [bfdev_sub_ddmmss] *)
Definition sub_ddmmss (ah al bh bl : Z) : Z * Z :=
  let x := w64 (al - bl) in
  (w64 (ah - bh - (if al <? x then 1 else 0)), x).

(** asm-generic/dword.h:59-87 [bfdev_umul_ppmm] *)
Definition umul_ppmm (va vb : Z) : Z * Z :=
  let ul := LOWER va in let vl := LOWER vb in
  let uh := HIGHER va in let vh := HIGHER vb in
  let x0 := w64 (ul * vl) in
  let x1 := w64 (ul * vh) in
  let x2 := w64 (uh * vl) in
  let x3 := w64 (uh * vh) in
  let x1 := w64 (x1 + HIGHER x0) in
  let x1 := w64 (x1 + x2) in
  let x3 := if x1 <? x2 then w64 (x3 + 2 ^ 32) else x3 in
  let x2 := w64 (Z.shiftl (LOWER x1) 32) in
  (w64 (x3 + HIGHER x1), w64 (x2 + LOWER x0)).

(** asm-generic/dword.h:102-119 and 120-137: one quotient digit; [digit] is the next half
    word of the dividend. A division by a zero upper half is undefined ([None]). *)
Definition qr_half (r digit div d1 d0 : Z) : option (Z * Z) :=
  if d1 =? 0 then None
  else
    let q := r / d1 in
    let m := w64 (q * d0) in
    let r1 := Z.lor (w64 (r mod d1 * 2 ^ 32)) digit in
    let '(q, r1) :=
      if r1 <? m then
        let q := w64 (q - 1) in
        let r1 := w64 (r1 + div) in
        if div <=? r1 then
          if r1 <? m then (w64 (q - 1), w64 (r1 + div)) else (q, r1)
        else (q, r1)
      else (q, r1) in
    Some (q, w64 (r1 - m)).
(** asm-generic/dword.h:89-141 [bfdev_udiv_qrnnd]: (quotient, remainder) *)
Definition udiv_qrnnd (sh sl div : Z) : option (Z * Z) :=
  let d1 := HIGHER div in let d0 := LOWER div in
  let* p := qr_half sh (HIGHER sl) div d1 d0 in
  let '(q1, r1) := p in
  let* p := qr_half r1 (LOWER sl) div d1 d0 in
  let '(q0, r0) := p in
  Some (Z.lor (w64 (q1 * 2 ^ 32)) q0, r0).

(** src/dword.c:14-64 [bfdev_dword_generic_udiv]: ((quot[1], quot[0]), *rem); [BFDEV_BUG_ON]
    on a zero divisor is [None]. The NULL tests on the result pointers only select what is
    stored. *)
Definition dw_udiv (n1 n0 div : Z) : option (Z * Z * Z) :=
  if n1 <? div then
    let bm := clz div in
    let '(div, n1, n0) :=
      if negb (bm =? 0) then
        (w64 (Z.shiftl div bm), Z.lor (w64 (Z.shiftl n1 bm)) (Z.shiftr n0 (64 - bm)), w64 (Z.shiftl n0 bm))
      else (div, n1, n0) in
    let* p := udiv_qrnnd n1 n0 div in
    let '(q0, n0) := p in
    Some (0, q0, Z.shiftr n0 bm)
  else if div =? 0 then None
  else
    let bm := clz div in
    if bm =? 0 then
      let* p := udiv_qrnnd (w64 (n1 - div)) n0 div in
      let '(q0, n0) := p in
      Some (1, q0, Z.shiftr n0 bm)
    else
      let b := 64 - bm in
      let div := w64 (Z.shiftl div bm) in
      let n2 := Z.shiftr n1 b in
      let n1 := Z.lor (w64 (Z.shiftl n1 bm)) (Z.shiftr n0 b) in
      let n0 := w64 (Z.shiftl n0 bm) in
      let* p := udiv_qrnnd n2 n1 div in
      let '(q1, n1) := p in
      let* p := udiv_qrnnd n1 n0 div in
      let '(q0, n0) := p in
      Some (q1, q0, Z.shiftr n0 bm).

(** src/dword.c:66-128 [bfdev_dword_generic_udivd]: ((quot[1], quot[0]), (rem[1], rem[0]));
    [rem1] is what rem[1] holds before the call. *)
Definition dw_udivd (rem1 n1 n0 d1 d0 : Z) : option (Z * Z * (Z * Z)) :=
  if d1 =? 0 then
    let* p := dw_udiv n1 n0 d0 in
    let '(q1, q0, r) := p in Some (q1, q0, (rem1, r))
  else
    let bm := clz d1 in
    if bm =? 0 then
      if (n1 <=? d1) && (n0 <? d0) then Some (0, 0, (n1, n0))
      else Some (0, 1, sub_ddmmss n1 n0 d1 d0)
    else
      let b := 64 - bm in
      let d1 := Z.lor (w64 (Z.shiftl d1 bm)) (Z.shiftr d0 b) in
      let d0 := w64 (Z.shiftl d0 bm) in
      let n2 := Z.shiftr n1 b in
      let n1 := Z.lor (w64 (Z.shiftl n1 bm)) (Z.shiftr n0 b) in
      let n0 := w64 (Z.shiftl n0 bm) in
      let* p := udiv_qrnnd n2 n1 d1 in
      let '(q0, n1) := p in
      let '(m1, m0) := umul_ppmm q0 d0 in
      let '(q0, m1, m0) :=
        if (n1 <? m1) || ((m1 =? n1) && (n0 <? m0)) then
          let '(m1, m0) := sub_ddmmss m1 m0 d1 d0 in (w64 (q0 - 1), m1, m0)
        else (q0, m1, m0) in
      let '(n1, n0) := sub_ddmmss n1 n0 m1 m0 in
      Some (0, q0, (Z.shiftr n1 bm, Z.lor (w64 (Z.shiftl n1 b)) (Z.shiftr n0 bm))).
