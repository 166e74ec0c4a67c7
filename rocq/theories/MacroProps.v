(** The arithmetic macros: C92 (align.h, math.h), C93 (minmax.h), C94 (bits.h,
    bitfield.h), C95 (overflow.h). *)
From Coq Require Import ZArith Bool Lia.
From Verif Require Import CArith CArithProofs BitsModel BitsSpec BitmapProofs MacroModel MacroSpec MacroProofs MacroProofs2.
Local Open Scope Z_scope.

(* ---- C92 ---- *)

(** bfdev_align_check, for all types of both arguments. *)
Theorem C92_align_check tv v ta k : 0 <= k -> fits ta (2 ^ k) ->
  exists b, align_check (tv, v) (ta, 2 ^ k) = Some b /\ (b = true <-> (2 ^ k | v)).
Proof.
  intros K F. eexists. split; [now apply align_check_ok |].
  rewrite Z.eqb_eq. apply Z.mod_divide. apply Z.pow_nonzero; lia.
Qed.

Example C92_align_check_ex : fits u8 (2 ^ 3) /\ align_check (s64, -24) (u8, 2 ^ 3) = Some true /\
  align_check (s64, -23) (u8, 2 ^ 3) = Some false.
Proof. vm_compute. intuition congruence. Qed.

Print Assumptions C92_align_check.

(** bfdev_align_low, for the types where the mask reaches every bit: the
    multiple at or below the value, converted to the common type; the multiple
    itself if the common type can hold the value. *)
Theorem C92_align_low tv v ta k : 0 <= k -> fits ta (2 ^ k) -> mask_safe tv ta ->
  exists r, is_down v (2 ^ k) r /\
    align_low (tv, v) (ta, 2 ^ k) = Some (usual tv ta, wrap (usual tv ta) r) /\
    (fits (usual tv ta) v -> wrap (usual tv ta) r = r).
Proof.
  intros K F S. exists (v / 2 ^ k * 2 ^ k). split; [now apply down_div |]. split; [now apply align_low_ok |].
  intros V. apply wrap_id, fits_down; auto. pose proof (pow_fits_usual tv ta k K F). lia.
Qed.

Example C92_align_low_ex : fits s32 (2 ^ 4) /\ mask_safe u64 s32 /\
  align_low (u64, 2 ^ 40 + 21) (s32, 2 ^ 4) = Some (u64, 2 ^ 40 + 16).
Proof. vm_compute. intuition congruence. Qed.

Print Assumptions C92_align_low.

(** An unsigned 32-bit alignment clears the upper half of a 64-bit value. *)
Theorem C92_align_low_refuted : exists v k, fits u64 v /\ fits u32 (2 ^ k) /\
  exists r, is_down v (2 ^ k) r /\ align_low (u64, v) (u32, 2 ^ k) <> Some (u64, r).
Proof.
  exists (2 ^ 32 + 5), 3. split; [vm_compute; split; congruence |]. split; [vm_compute; split; congruence |].
  exists (2 ^ 32). split.
  - split; [now exists (2 ^ 29) | vm_compute; split; congruence].
  - vm_compute. congruence.
Qed.

Print Assumptions C92_align_low_refuted.

(** bfdev_align_high, for the same types, whenever the result can be
    represented at all. *)
Theorem C92_align_high tv v ta k r : 0 <= k -> fits ta (2 ^ k) -> mask_safe tv ta ->
  fits (usual tv ta) v -> is_up v (2 ^ k) r -> r <= tmax (usual tv ta) ->
  align_high (tv, v) (ta, 2 ^ k) = Some (usual tv ta, r).
Proof. intros. now apply align_high_ok. Qed.

Example C92_align_high_ex : fits (usual u64 s32) (2 ^ 40 + 21) /\ is_up (2 ^ 40 + 21) (2 ^ 4) (2 ^ 40 + 32) /\
  align_high (u64, 2 ^ 40 + 21) (s32, 2 ^ 4) = Some (u64, 2 ^ 40 + 32).
Proof.
  split; [vm_compute; split; congruence |]. split; [| reflexivity].
  split; [now exists (2 ^ 36 + 2) | vm_compute; split; congruence].
Qed.

Print Assumptions C92_align_high.

(** Near the top an unsigned value aligns "up" to 0, a signed one is undefined;
    and an unsigned 32-bit alignment loses the upper half of a 64-bit value. *)
Theorem C92_align_high_refuted :
  align_high (u32, 2 ^ 32 - 1) (u32, 8) = Some (u32, 0) /\
  align_high (s32, 2 ^ 31 - 1) (s32, 8) = None /\
  exists v r, is_up v 8 r /\ r <= tmax u64 /\ align_high (u64, v) (u32, 8) <> Some (u64, r).
Proof.
  split; [reflexivity |]. split; [reflexivity |].
  exists (2 ^ 32 + 5), (2 ^ 32 + 8). split.
  - split; [now exists (2 ^ 29 + 1) | vm_compute; split; congruence].
  - split; vm_compute; congruence.
Qed.

Print Assumptions C92_align_high_refuted.

(** The pointer forms with the int alignments people write. *)
Theorem C92_align_ptr p k : 0 <= p < 2 ^ 64 -> 0 <= k < 31 ->
  (exists r, is_down p (2 ^ k) r /\ align_ptr_low p (s32, 2 ^ k) = Some r) /\
  (forall r, is_up p (2 ^ k) r -> r < 2 ^ 64 -> align_ptr_high p (s32, 2 ^ k) = Some r) /\
  (exists b, align_ptr_check p (s32, 2 ^ k) = Some b /\ (b = true <-> (2 ^ k | p))).
Proof.
  intros P K.
  assert (F : fits s32 (2 ^ k)).
  { pose proof (pow_pos k ltac:(lia)). pose proof (Z.pow_le_mono_r 2 k 30 ltac:(lia) ltac:(lia)).
    unfold fits, tmin, tmax. simpl. lia. }
  assert (S : mask_safe u64 s32) by (left; reflexivity).
  assert (FP : fits u64 p) by (apply u64_fits; auto).
  split; [| split].
  - destruct (C92_align_low u64 p s32 k ltac:(lia) F S) as (r & D & E & W).
    exists r. split; auto. unfold align_ptr_low. rewrite E. simpl bind. unfold cast. cbn [snd].
    change (usual u64 s32) with u64 in *. now rewrite wrap_wrap, W.
  - intros r U R. unfold align_ptr_high.
    rewrite (C92_align_high u64 p s32 k r ltac:(lia) F S FP U).
    2:{ change (usual u64 s32) with u64. unfold tmax. simpl. lia. }
    simpl bind. unfold cast. cbn [snd]. rewrite wrap_id; auto. apply u64_fits.
    destruct U. lia.
  - apply C92_align_check; auto. lia.
Qed.

Example C92_align_ptr_ex : align_ptr_low 0x7fff12345679 (s32, 2 ^ 12) = Some 0x7fff12345000 /\
  align_ptr_high 0x7fff12345679 (s32, 2 ^ 12) = Some 0x7fff12346000.
Proof. vm_compute. auto. Qed.

Print Assumptions C92_align_ptr.

(** bfdev_round_down: right for all types of both arguments as long as the mask
    fits the type of the value. *)
Theorem C92_round_down tx x ty k : 0 <= k -> fits ty (2 ^ k) -> fits tx x -> 2 ^ k - 1 <= tmax tx ->
  exists r, round_down (tx, x) (ty, 2 ^ k) = Some (promote tx, r) /\ is_down x (2 ^ k) r.
Proof.
  intros K F X M. eexists. split; [now apply round_down_ok | now apply down_div].
Qed.

Example C92_round_down_ex : 2 ^ 3 - 1 <= tmax u64 /\
  round_down (u64, 2 ^ 32 + 5) (u32, 2 ^ 3) = Some (u64, 2 ^ 32).
Proof. vm_compute. intuition congruence. Qed.

Print Assumptions C92_round_down.

Theorem C92_round_down_refuted : exists x k r, fits s8 x /\ fits s32 (2 ^ k) /\ is_down x (2 ^ k) r /\
  round_down (s8, x) (s32, 2 ^ k) <> Some (s32, r).
Proof.
  exists (-5), 8, (-256). repeat split; try (vm_compute; congruence). now exists (-1).
Qed.

Print Assumptions C92_round_down_refuted.

(** bfdev_round_up, whenever the result can be represented; the smallest
    value of a signed type is excluded (x - 1 is undefined). *)
Theorem C92_round_up tx x ty k r : 0 <= k -> fits ty (2 ^ k) -> fits tx x -> 2 ^ k - 1 <= tmax tx ->
  (sgn (promote tx) = true -> tmin (promote tx) < x) ->
  is_up x (2 ^ k) r -> r <= tmax (promote tx) ->
  round_up (tx, x) (ty, 2 ^ k) = Some (promote tx, r).
Proof. intros. now apply round_up_ok. Qed.

Example C92_round_up_ex : is_up 250 (2 ^ 4) 256 /\ round_up (u8, 250) (s32, 2 ^ 4) = Some (s32, 256) /\
  round_up (u64, 0) (s32, 2 ^ 4) = Some (u64, 0).
Proof.
  split; [| vm_compute; auto]. split; [now exists 16 | vm_compute; split; congruence].
Qed.

Print Assumptions C92_round_up.

Theorem C92_round_up_refuted :
  round_up (u32, 2 ^ 32 - 1) (u32, 8) = Some (u32, 0) /\
  round_up (s32, 2 ^ 31 - 1) (s32, 8) = None /\
  round_up (s32, - 2 ^ 31) (s32, 8) = None.
Proof. vm_compute. auto. Qed.

Print Assumptions C92_round_up_refuted.

(** BFDEV_DIV_ROUND_UP, for all types, without overflow of the sum. *)
Theorem C92_div_round_up tn n td d : fits tn n -> fits td d -> 0 <= n -> 0 < d ->
  n + d <= tmax (usual tn td) ->
  exists q, div_round_up (tn, n) (td, d) = Some (usual tn td, q) /\ is_ceil n d q.
Proof. apply div_round_up_ok. Qed.

Example C92_div_round_up_ex : 17 + 8 <= tmax (usual u8 s16) /\ div_round_up (u8, 17) (s16, 8) = Some (s32, 3).
Proof. vm_compute. intuition congruence. Qed.

Print Assumptions C92_div_round_up.

(** Large unsigned and negative dividends are not rounded up. *)
Theorem C92_div_round_up_refuted :
  (exists n d q, fits u32 n /\ fits u32 d /\ 0 < d /\
     div_round_up (u32, n) (u32, d) = Some (u32, q) /\ ~ is_ceil n d q) /\
  (exists n d q, fits s32 n /\ fits s32 d /\ 0 < d /\
     div_round_up (s32, n) (s32, d) = Some (s32, q) /\ ~ is_ceil n d q).
Proof.
  split.
  - exists (2 ^ 32 - 1), 2, 0. repeat split; try (vm_compute; congruence).
    intros [_ H]. vm_compute in H. congruence.
  - exists (-4), 2, (-1). repeat split; try (vm_compute; congruence).
    intros [H _]. vm_compute in H. congruence.
Qed.

Print Assumptions C92_div_round_up_refuted.

(* ---- C93 ---- *)

(** Whenever the type of the first argument can hold the others. *)
Theorem C93_minmax ta a tb b : fits ta a -> fits ta b ->
  cmin (ta, a) (tb, b) = (ta, Z.min a b) /\ cmax (ta, a) (tb, b) = (ta, Z.max a b).
Proof. intros. split; [now apply cmin_ok | now apply cmax_ok]. Qed.

Example C93_minmax_ex : cmin (u32, 7) (s64, 2 ^ 31) = (u32, 7) /\ cmax (s8, -3) (u8, 5) = (s8, 5).
Proof. vm_compute. auto. Qed.

Print Assumptions C93_minmax.

Theorem C93_clamp tv v tl lo th hi : fits tv v -> fits tv lo -> fits tv hi -> lo <= hi ->
  exists r, cclamp (tv, v) (tl, lo) (th, hi) = (tv, r) /\ lo <= r <= hi /\ (lo <= v <= hi -> r = v) /\
    (v < lo -> r = lo) /\ (hi < v -> r = hi) /\
    cclamp_adj (tv, v) (tl, lo) (th, hi) = (tv, r).
Proof.
  intros V L H LH. eexists. unfold cclamp_adj. rewrite cclamp_ok by auto.
  split; [reflexivity |]. split; [lia |]. split; [lia |]. split; [lia |]. split; [lia |].
  unfold cast. cbn [fst snd]. rewrite wrap_id; auto. unfold fits in *. lia.
Qed.

Example C93_clamp_ex : cclamp (s32, 12) (s32, 3) (s64, 9) = (s32, 9).
Proof. reflexivity. Qed.

Print Assumptions C93_clamp.

(** Otherwise the second argument is truncated first, and the "minimum" and
    "maximum" can be neither of the two, on the wrong side of both. *)
Theorem C93_minmax_refuted :
  (exists a b r, fits u8 a /\ fits s32 b /\ cmin (u8, a) (s32, b) = (u8, r) /\ r <> Z.min a b) /\
  (exists a b r, fits s32 a /\ fits u32 b /\ cmax (s32, a) (u32, b) = (s32, r) /\ r <> Z.max a b).
Proof.
  split.
  - exists 200, 256, 0. repeat split; vm_compute; congruence.
  - exists 5, (2 ^ 32 - 1), 5. repeat split; vm_compute; congruence.
Qed.

Print Assumptions C93_minmax_refuted.

(** bfdev_min_adj is documented to raise [val] to the lowest allowable value
    [lo]; it does the opposite, and so does bfdev_max_adj. *)
Theorem C93_adj_refuted :
  (exists val lo r, cmin_adj (s32, val) (s32, lo) = (s32, r) /\ r < lo) /\
  (exists val hi r, cmax_adj (s32, val) (s32, hi) = (s32, r) /\ hi < r).
Proof.
  split; [exists 5, 10, 5 | exists 10, 5, 10]; vm_compute; auto.
Qed.

Print Assumptions C93_adj_refuted.

(** What the two do. *)
Theorem C93_adj_partial ta a tb b : fits ta a -> fits ta b ->
  cmin_adj (ta, a) (tb, b) = (ta, Z.min a b) /\ cmax_adj (ta, a) (tb, b) = (ta, Z.max a b).
Proof.
  intros A B. unfold cmin_adj, cmax_adj. destruct (C93_minmax ta a tb b A B) as [-> ->].
  unfold cast. cbn [fst snd]. rewrite !wrap_id; auto; unfold fits in *; lia.
Qed.

Example C93_adj_ex : cmin_adj (u16, 9) (s32, 4) = (u16, 4).
Proof. reflexivity. Qed.

Print Assumptions C93_adj_partial.

(* ---- C94 ---- *)

(** The mask macros, bit by bit. *)
Theorem C94_masks n j : 0 <= n -> 0 <= j < 64 ->
  Z.testbit (LOW_MASK n) j = (j <? (if n mod 64 =? 0 then 64 else n mod 64)) /\
  Z.testbit (HIGH_MASK n) j = (n mod 64 <=? j) /\
  Z.testbit (BIT n) j = (n mod 64 =? j).
Proof.
  intros N J. split; [| split].
  - destruct (Z.eqb_spec (n mod 64) 0) as [E | E].
    + rewrite LOW_MASK_full by auto. unfold ULONG_MAX. change (2 ^ 64 - 1) with (Z.ones 64).
      rewrite Z.ones_spec_low by lia. symmetry. apply Z.ltb_lt. lia.
    + apply LOW_MASK_bits; auto; lia.
  - apply HIGH_MASK_bits; auto.
  - unfold BIT, Lib.w64. pose proof (Z.mod_pos_bound n 64 eq_refl).
    rewrite Z.mod_pow2_bits_low by lia. rewrite Z.shiftl_1_l.
    rewrite Z.pow2_bits_eqb by lia. reflexivity.
Qed.

Example C94_masks_ex : LOW_MASK 8 = 0xff /\ LOW_MASK 64 = ULONG_MAX /\ HIGH_MASK 60 = 0xf000000000000000.
Proof. vm_compute. auto. Qed.

Print Assumptions C94_masks.

(** BFDEV_BIT_RANGE has exactly the bits from [lo] to [hi]. *)
Theorem C94_range hi lo : 0 <= lo < 64 -> 0 <= hi < 64 ->
  exists m, bit_range hi lo = Some (u64, m) /\ 0 <= m < 2 ^ 64 /\
    forall j, 0 <= j -> Z.testbit m j = (lo <=? j) && (j <=? hi).
Proof. apply bit_range_ok. Qed.

Example C94_range_ex : bit_range 7 4 = Some (u64, 0xf0) /\ bit_range 63 0 = Some (u64, 2 ^ 64 - 1).
Proof. vm_compute. auto. Qed.

Print Assumptions C94_range.

(** BFDEV_BIT_SHIFT shifts an unsigned long; an int value keeps its type, and
    shifting it by 32 or more is undefined. *)
Theorem C94_shift shift v : 0 <= shift < 64 -> 0 <= v < 2 ^ 64 ->
  bit_shift shift (u64, v) = Some (u64, v * 2 ^ shift mod 2 ^ 64).
Proof.
  intros S V. unfold bit_shift, cshl. cbn [fst snd]. rewrite Z.rem_small by lia.
  change (promote u64) with u64. change (bits (wid u64)) with 64. change (sgn u64) with false.
  destruct (Z.ltb_spec shift 0); [lia |]. destruct (Z.leb_spec 64 shift); [lia |]. simpl orb. cbv iota.
  rewrite (wrap_id u64 v) by (apply u64_fits; auto). rewrite Z.shiftl_mul_pow2 by lia. reflexivity.
Qed.

Example C94_shift_ex : bit_shift 40 (u64, 3) = Some (u64, 3 * 2 ^ 40).
Proof. reflexivity. Qed.

Print Assumptions C94_shift.

Theorem C94_shift_refuted : exists shift v, 0 <= shift < 64 /\ fits s32 v /\ 0 <= v * 2 ^ shift < 2 ^ 64 /\
  bit_shift shift (s32, v) = None.
Proof. exists 40, 1. repeat split; vm_compute; congruence. Qed.

Print Assumptions C94_shift_refuted.

(** Bit fields of every unsigned type: FIELD_GET reads exactly the field,
    FIELD_PREP puts a value into it and nothing elsewhere, FIELD_MAX is its
    largest value. *)
Theorem C94_field w n s tr reg tv v : 0 < n -> 0 <= s -> s + n <= bits w ->
  let m := (T false w, field_mask n s) in
  field_get m (tr, reg) = Some (T false w, (reg / 2 ^ s) mod 2 ^ n) /\
  field_prep m (tv, v) = Some (promote (T false w), (v mod 2 ^ n) * 2 ^ s) /\
  field_max m = Some (T false w, 2 ^ n - 1).
Proof.
  intros N S L m. split; [now apply field_get_ok |]. split; [now apply field_prep_ok | now apply field_max_ok].
Qed.

Example C94_field_ex : field_mask 4 8 = 0xf00 /\
  field_get (u16, 0xf00) (u32, 0xdeadbeef) = Some (u16, 0xe) /\
  field_prep (u16, 0xf00) (s32, 0x15) = Some (s32, 0x500).
Proof. vm_compute. auto. Qed.

Print Assumptions C94_field.

(** What is put into a field is read back exactly if it fits. *)
Theorem C94_roundtrip w n s tv v : 0 < n -> 0 <= s -> s + n <= bits w ->
  exists p r, field_prep (T false w, field_mask n s) (tv, v) = Some p /\
    field_get (T false w, field_mask n s) p = Some (T false w, r) /\
    (r = v <-> 0 <= v <= 2 ^ n - 1).
Proof.
  intros N S L. do 2 eexists. split; [now apply field_prep_ok |]. split; [now apply field_get_ok |].
  pose proof (pow_pos n ltac:(lia)) as PN.
  rewrite Z.div_mul by (apply Z.pow_nonzero; lia). rewrite Z.mod_mod by lia.
  pose proof (Z.mod_pos_bound v (2 ^ n) PN). split; [intros; lia |].
  intros. apply Z.mod_small. lia.
Qed.

Example C94_roundtrip_ex : field_prep (u64, field_mask 8 56) (s32, 200) = Some (u64, 200 * 2 ^ 56) /\
  field_get (u64, field_mask 8 56) (u64, 200 * 2 ^ 56) = Some (u64, 200).
Proof. vm_compute. auto. Qed.

Print Assumptions C94_roundtrip.

(** Updating a field of a register: reg & ~mask | FIELD_PREP(mask, v). *)
Theorem C94_update w n s reg v : 0 < n -> 0 <= s -> s + n <= bits w ->
  (w = W32 \/ w = W64) -> fits (T false w) reg -> 0 <= v < 2 ^ n ->
  let m := (T false w, field_mask n s) in
  exists p reg', field_prep m (T false w, v) = Some p /\
    cor (cand (T false w, reg) (cnot m)) p = (T false w, reg') /\
    field_get m (T false w, reg') = Some (T false w, v) /\
    (forall n' s', 0 < n' -> 0 <= s' -> s' + n' <= bits w -> (s' + n' <= s \/ s + n <= s') ->
       field_get (T false w, field_mask n' s') (T false w, reg') =
       field_get (T false w, field_mask n' s') (T false w, reg)).
Proof.
  intros N S L W R V m. set (t := T false w) in *.
  assert (P : promote t = t) by (destruct W; subst w; reflexivity).
  assert (UU : usual t t = t) by (destruct W; subst w; reflexivity).
  pose proof (pow_pos n ltac:(lia)) as PN. pose proof (pow_pos s S) as PS.
  assert (BW : 0 <= bits (wid t)) by (pose proof (bits_pos (wid t)); lia).
  exists (promote t, (v mod 2 ^ n) * 2 ^ s).
  exists (wrap t (Z.lor (Z.ldiff reg (field_mask n s)) (v * 2 ^ s))).
  assert (EQ : eqm (bits w) (wrap t (Z.lor (Z.ldiff reg (field_mask n s)) (v * 2 ^ s)))
                 (Z.lor (Z.ldiff reg (field_mask n s)) (v * 2 ^ s))) by apply eqm_wrap.
  assert (GET : forall n' s' x y, 0 < n' -> 0 <= s' -> s' + n' <= bits w -> eqm (bits w) x y ->
            (x / 2 ^ s') mod 2 ^ n' = (y / 2 ^ s') mod 2 ^ n').
  { intros n' s' x y N' S' L' E. apply (eqm_le _ (s' + n')) in E; [| lia].
    unfold eqm in E. pose proof (pow_pos n' ltac:(lia)) as Q. pose proof (pow_pos s' S') as Q'.
    rewrite <- (shiftr_field x n' s'), <- (shiftr_field y n' s') by lia.
    f_equal. apply Z.bits_inj'. intros j J. rewrite !Z.land_spec, field_mask_bits by lia.
    destruct (Z.ltb_spec j (s' + n')); [| now rewrite !andb_false_r].
    rewrite <- (Z.mod_pow2_bits_low x (s' + n') j), <- (Z.mod_pow2_bits_low y (s' + n') j) by lia.
    now rewrite E. }
  split; [now apply field_prep_ok |]. split; [| split].
  - unfold m. rewrite cnot_eq, cand_eq, cor_eq. cbn [fst snd]. rewrite !P, !UU. f_equal.
    rewrite (Z.mod_small v) by lia.
    apply eqm_wrap_eq, eqm_lor; auto; [| apply eqm_refl].
    eapply eqm_trans; [apply eqm_wrap |].
    rewrite Z.ldiff_land. apply eqm_land; auto; [apply eqm_refl | apply eqm_wrap].
  - unfold m, t. rewrite field_get_ok by auto. fold t. f_equal. f_equal.
    rewrite (GET n s _ _ N S L EQ). rewrite <- shiftr_field by lia.
    apply Z.bits_inj'. intros j J.
    rewrite Z.shiftr_spec, Z.land_spec, Z.lor_spec, Z.ldiff_spec, field_mask_bits by lia.
    rewrite <- Z.shiftl_mul_pow2, Z.shiftl_spec by lia.
    replace (j + s - s) with j by lia.
    destruct (Z.leb_spec s (j + s)); [| lia]. simpl.
    destruct (Z.ltb_spec (j + s) (s + n)); simpl.
    + rewrite !andb_false_r. simpl. apply andb_true_r.
    + rewrite andb_false_r. symmetry. rewrite <- (Z.mod_small v (2 ^ n)) by lia.
      apply Z.mod_pow2_bits_high. lia.
  - intros n' s' N' S' L' D. unfold t. rewrite !field_get_ok by auto. fold t. f_equal. f_equal.
    rewrite (GET n' s' _ _ N' S' L' EQ). rewrite <- !shiftr_field by lia. f_equal.
    apply Z.bits_inj'. intros j J.
    rewrite !Z.land_spec, Z.lor_spec, Z.ldiff_spec, !field_mask_bits by lia.
    rewrite <- Z.shiftl_mul_pow2, Z.shiftl_spec by lia.
    destruct (Z.leb_spec s' j), (Z.ltb_spec j (s' + n')); simpl; rewrite ?andb_false_r; auto.
    rewrite !andb_true_r.
    destruct D as [D | D].
    + destruct (Z.leb_spec s j); [lia |]. simpl. rewrite andb_true_r.
      rewrite (Z.testbit_neg_r v) by lia. apply orb_false_r.
    + destruct (Z.leb_spec s j); [| lia]. destruct (Z.ltb_spec j (s + n)); [lia |]. simpl. rewrite andb_true_r.
      replace (Z.testbit v (j - s)) with false; [apply orb_false_r |].
      symmetry. rewrite <- (Z.mod_small v (2 ^ n)) by lia. apply Z.mod_pow2_bits_high. lia.
Qed.

Example C94_update_ex :
  cor (cand (u32, 0xdeadbeef) (cnot (u32, field_mask 8 8))) (u32, 0x12 * 2 ^ 8) = (u32, 0xdead12ef).
Proof. reflexivity. Qed.

Print Assumptions C94_update.

(** BFDEV_FIELD_FIT forgets the bits that the shift pushes out at the top, so it
    is right only for values below 2^(width - position). *)
Theorem C94_fit_partial w n s tv v : 0 < n -> 0 <= s -> s + n <= bits w -> (w = W32 \/ w = W64) ->
  0 <= v < 2 ^ (bits w - s) ->
  exists b, field_fit (T false w, field_mask n s) (tv, v) = Some b /\ (b = true <-> v <= 2 ^ n - 1).
Proof.
  intros N S L W V. eexists. split; [now apply field_fit_ok |].
  rewrite Z.ltb_lt, Z.mod_small by lia. lia.
Qed.

Example C94_fit_ex : field_fit (u32, field_mask 4 8) (s32, 16) = Some false /\
  field_fit (u32, field_mask 4 8) (s32, 15) = Some true.
Proof. vm_compute. auto. Qed.

Print Assumptions C94_fit_partial.

Theorem C94_fit_refuted : exists n s v, 0 < n /\ 0 <= s /\ s + n <= 64 /\ 2 ^ n - 1 < v /\
  field_fit (u64, field_mask n s) (s32, v) = Some true.
Proof. exists 8, 56, 256. repeat split; vm_compute; congruence. Qed.

Print Assumptions C94_fit_refuted.

(* ---- C95 ---- *)

(** The checks tell exactly whether the result fits, and store it if so. *)
Theorem C95_check op t a b : fits t a -> fits t b ->
  exists o d, overflow_check op t a b = (o, d) /\ (o = true <-> ~ fits t (op a b)) /\
    (o = false -> d = op a b) /\ fits t d.
Proof.
  intros A B. do 2 eexists. split; [reflexivity |]. split; [| split].
  - rewrite negb_true_iff, <- not_true_iff_false, fitsb_iff. tauto.
  - rewrite negb_false_iff, fitsb_iff. intros. now apply wrap_id.
  - apply wrap_fits.
Qed.

Example C95_check_ex : overflow_check Z.add s8 100 100 = (true, -56) /\ overflow_check Z.mul u8 15 17 = (false, 255).
Proof. vm_compute. auto. Qed.

Print Assumptions C95_check.

(** Addition and multiplication of unsigned types saturate. *)
Theorem C95_saturate w ta a tb b : fits (T false w) a -> fits (T false w) b ->
  overflow_type Z.add (T false w) (ta, a) (tb, b) = (T false w, Z.min (a + b) (tmax (T false w))) /\
  overflow_type Z.mul (T false w) (ta, a) (tb, b) = (T false w, Z.min (a * b) (tmax (T false w))).
Proof.
  intros A B. rewrite !overflow_type_fits by auto. cbn [sgn].
  assert (0 <= a /\ 0 <= b) by (unfold fits, tmin in *; simpl in *; lia).
  split; f_equal.
  - destruct (fitsb (T false w) (a + b)) eqn:E.
    + apply fitsb_iff in E. unfold fits in E. lia.
    + apply not_true_iff_false in E. rewrite fitsb_iff in E. unfold fits in E.
      change (tmin (T false w)) with 0 in *. lia.
  - destruct (fitsb (T false w) (a * b)) eqn:E.
    + apply fitsb_iff in E. unfold fits in E. lia.
    + apply not_true_iff_false in E. rewrite fitsb_iff in E. unfold fits in E.
      change (tmin (T false w)) with 0 in *. nia.
Qed.

Example C95_saturate_ex : overflow_type Z.add u8 (u8, 200) (u8, 100) = (u8, 255) /\
  overflow_type Z.mul u16 (u16, 200) (u8, 100) = (u16, 20000).
Proof. vm_compute. auto. Qed.

Print Assumptions C95_saturate.

(** Subtraction below zero gives the largest value, not 0, and on signed types
    every overflow gives -1: neither saturates. *)
Theorem C95_saturate_refuted :
  (exists a b, fits u32 a /\ fits u32 b /\ a < b /\
     overflow_sub (u32, a) (u32, b) = (u32, 2 ^ 32 - 1)) /\
  (exists a b, fits s32 a /\ fits s32 b /\ tmax s32 < a + b /\ overflow_add (s32, a) (s32, b) = (s32, -1)) /\
  (exists a b c d, fits s32 a /\ fits s32 b /\ fits s32 (c + d) /\ ~ fits s32 (a + b) /\
     overflow_add (s32, a) (s32, b) = overflow_add (s32, c) (s32, d)).
Proof.
  split; [exists 1, 2; repeat split; vm_compute; congruence |].
  split; [exists (2 ^ 31 - 1), 1; repeat split; vm_compute; congruence |].
  exists (2 ^ 31 - 1), 1, 0, (-1). repeat split; try (vm_compute; congruence).
  intros [_ H]. vm_compute in H. congruence.
Qed.

Print Assumptions C95_saturate_refuted.

(** The exact outcome, for all types and all three operations. *)
Theorem C95_exact op t ta a tb b : fits t a -> fits t b ->
  (fits t (op a b) -> overflow_type op t (ta, a) (tb, b) = (t, op a b)) /\
  (~ fits t (op a b) -> overflow_type op t (ta, a) (tb, b) = (t, if sgn t then -1 else tmax t)) /\
  overflow_fn op t (ta, a) (tb, b) = overflow_type op t (ta, a) (tb, b).
Proof.
  intros A B. unfold overflow_fn, cast. cbn [snd]. rewrite !(wrap_id t) by auto. rewrite !overflow_type_fits by auto.
  split; [| split]; auto.
  - intros F. now rewrite (fitsb_true _ _ F).
  - intros F. destruct (fitsb t (op a b)) eqn:E; auto. apply fitsb_iff in E. tauto.
Qed.

Example C95_exact_ex : overflow_fn Z.sub s8 (s32, -100) (s32, 100) = (s8, -1) /\
  overflow_fn Z.sub u8 (s32, 100) (s32, 30) = (u8, 70).
Proof. vm_compute. auto. Qed.

Print Assumptions C95_exact.
