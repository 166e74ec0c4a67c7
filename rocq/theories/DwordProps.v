(** * C22, C23: double-word arithmetic *)
From Verif Require Import Lib BitsModel DwordModel DwordSpec DwordProofs.

(** ** C22 *)
Theorem C22_add_sub : forall ah al bh bl, u64 ah -> u64 al -> u64 bh -> u64 bl ->
  (dword (dw_addd ah al bh bl) /\ dval (dw_addd ah al bh bl) = (dval (ah, al) + dval (bh, bl)) mod 2 ^ 128) /\
  (dword (sub_ddmmss ah al bh bl) /\ dval (sub_ddmmss ah al bh bl) = (dval (ah, al) - dval (bh, bl)) mod 2 ^ 128).
Proof. intros. split; [apply dw_addd_ok|apply sub_ok]; assumption. Qed.
Theorem C22_mul : forall a b, u64 a -> u64 b -> dword (umul_ppmm a b) /\ dval (umul_ppmm a b) = a * b.
Proof. exact umul_ok. Qed.
(** Division of a double word by a normalised word, quotient fitting a word. *)
Theorem C22_qrnnd : forall sh sl div, 2 ^ 63 <= div < 2 ^ 64 -> 0 <= sh < div -> u64 sl ->
  udiv_qrnnd sh sl div = Some (dval (sh, sl) / div, dval (sh, sl) mod div).
Proof. exact udiv_qrnnd_ok. Qed.
(** Division of any double word by any non-zero word, with a double-word quotient. *)
Theorem C22_udiv : forall n1 n0 d, u64 n1 -> u64 n0 -> 0 < d < 2 ^ 64 ->
  exists q1 q0 r, dw_udiv n1 n0 d = Some (q1, q0, r) /\ dword (q1, q0) /\ dval (q1, q0) = dval (n1, n0) / d /\
    r = dval (n1, n0) mod d.
Proof. exact dw_udiv_ok. Qed.
Example C22_ex : (* digit corrections in both halves *)
  udiv_qrnnd 0x8000000000000000 0 0x80000000ffffffff = Some (0xfffffffe00000005, 0x7ffffff900000005) /\
  dw_udiv 0xfffffffffffffffe 0xffffffffffffffff 0xffffffff = Some (0x100000000, 0xffffffffffffffff, 0xfffffffe).
Proof. vm_compute. auto. Qed.

(** ** C23. For every divisor above 2^64 except when its top bit is set and the dividend is
    smaller with a larger-or-equal low word. *)
Theorem C23_udivd_partial : forall rem1 n1 n0 d1 d0, u64 n1 -> u64 n0 -> 0 < d1 < 2 ^ 64 -> u64 d0 ->
  (2 ^ 63 <= d1 -> n1 < d1 -> n0 < d0) ->
  exists q1 q0 r1 r0, dw_udivd rem1 n1 n0 d1 d0 = Some (q1, q0, (r1, r0)) /\ dword (q1, q0) /\ dword (r1, r0) /\
    dval (q1, q0) = dval (n1, n0) / dval (d1, d0) /\ dval (r1, r0) = dval (n1, n0) mod dval (d1, d0).
Proof. exact dw_udivd_ok. Qed.
(** A divisor below 2^64: the quotient and the low word of the remainder are right, the
    high word of the remainder is left as it was. *)
Theorem C23_udivd_word_partial : forall rem1 n1 n0 d0, u64 n1 -> u64 n0 -> 0 < d0 < 2 ^ 64 ->
  exists q1 q0 r0, dw_udivd rem1 n1 n0 0 d0 = Some (q1, q0, (rem1, r0)) /\ dword (q1, q0) /\
    dval (q1, q0) = dval (n1, n0) / d0 /\ r0 = dval (n1, n0) mod d0.
Proof.
  intros rem1 n1 n0 d0 H1 H0 Hd. destruct (dw_udiv_ok n1 n0 d0 H1 H0 Hd) as (q1 & q0 & r & E & A).
  unfold dw_udivd. cbn [Z.eqb]. rewrite E. exists q1, q0, r. auto.
Qed.
(** The excluded case is wrong: 2^127 / (2^127 + 2^64) answers 1. *)
Theorem C23_udivd_refuted : exists n1 n0 d1 d0 q1 q0 r1 r0, u64 n1 /\ u64 n0 /\ u64 d1 /\ u64 d0 /\ d1 <> 0 /\
  dw_udivd 0 n1 n0 d1 d0 = Some (q1, q0, (r1, r0)) /\ dval (q1, q0) <> dval (n1, n0) / dval (d1, d0).
Proof.
  exists (2 ^ 63), 7, (2 ^ 63 + 1), 0, 0, 1, (2 ^ 64 - 1), 7. unfold u64. repeat split; try lia; vm_compute; try reflexivity; discriminate.
Qed.
(** ... on every input it covers. *)
Theorem C23_udivd_wrong : forall rem1 n1 n0 d1 d0, u64 n1 -> u64 n0 -> u64 d1 -> u64 d0 ->
  2 ^ 63 <= d1 -> n1 < d1 -> d0 <= n0 -> exists r, dw_udivd rem1 n1 n0 d1 d0 = Some (0, 1, r) /\
    dval (n1, n0) / dval (d1, d0) = 0.
Proof.
  intros rem1 n1 n0 d1 d0 H1 H0 Hd1 Hd0 A B C. unfold u64 in *. unfold dw_udivd.
  replace (d1 =? 0) with false by (symmetry; apply Z.eqb_neq; lia).
  destruct (clz_ok d1 ltac:(lia)) as [C1 C2].
  assert (Z0 : clz d1 = 0).
  { destruct (Z.eq_dec (clz d1) 0); [assumption|]. assert (2 ^ 1 <= 2 ^ clz d1) by (apply Z.pow_le_mono_r; lia). nia. }
  rewrite Z0, Z.eqb_refl. replace (n0 <? d0) with false by (symmetry; apply Z.ltb_ge; lia). rewrite andb_false_r.
  eexists. split; [reflexivity|]. apply Z.div_small. unfold dval. cbn [fst snd]. lia.
Qed.
Theorem C23_rem_stale_refuted : exists rem1 n1 n0 d0 q1 q0 r1 r0, u64 rem1 /\ u64 n1 /\ u64 n0 /\ 0 < d0 < 2 ^ 64 /\
  dw_udivd rem1 n1 n0 0 d0 = Some (q1, q0, (r1, r0)) /\ dval (r1, r0) <> dval (n1, n0) mod d0.
Proof. exists 9, 0, 10, 3, 0, 3, 9, 1. unfold u64. repeat split; try lia; vm_compute; try reflexivity; discriminate. Qed.
Example C23_ex : dw_udivd 0 0xffffffffffffffff 5 3 0xffffffffffffffff = Some (0, 0x3fffffffffffffff, (3, 0x4000000000000004)).
Proof. vm_compute. reflexivity. Qed.

Print Assumptions C22_add_sub.
Print Assumptions C22_mul.
Print Assumptions C22_qrnnd.
Print Assumptions C22_udiv.
Print Assumptions C23_udivd_partial.
Print Assumptions C23_udivd_wrong.
