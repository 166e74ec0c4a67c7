(** * C12 - C17, C77: word-level bit operations *)
From Coq Require Import Znumtheory.
From Verif Require Import Lib BitsModel BitsSpec BitsProofs.
Ltac Zify.zify_post_hook ::= Z.div_mod_to_equations.

(** ** C12 *)
Theorem C12_find_first_last : forall v, u64 v ->
  (v <> 0 -> lowest_set v (ffsuf v) /\ highest_set v (flsuf v) /\
             lowest_set v (ffs v - 1) /\ highest_set v (fls v - 1) /\ ctz v = ffs v - 1 /\ clz v = 64 - fls v) /\
  (v = 0 -> ffs v = 0 /\ fls v = 0 /\ ctz v = 64 /\ clz v = 64).
Proof.
  intros v Hv. unfold u64 in Hv. split.
  - intros Hz. destruct (ffsuf_spec v ltac:(lia)) as [A Ab]. destruct (flsuf_spec v ltac:(lia)) as [B Bb].
    unfold ffs, fls, ctz, clz. replace (v =? 0) with false by (symmetry; apply Z.eqb_neq; lia).
    rewrite !Z.add_simpl_r. repeat (split; [assumption|]).
    destruct (Z.eqb_spec v ULONG_MAX) as [->|]; [vm_compute; auto|]. split; [reflexivity|]. ring.
  - intros ->. vm_compute. auto.
Qed.

(** zero-bit versions: position of the least / most significant zero bit among the 64. *)
Theorem C12_find_zero : forall v, u64 v ->
  (v <> 2 ^ 64 - 1 ->
     (0 <= ffzuf v < 64 /\ Z.testbit v (ffzuf v) = false /\ forall j, 0 <= j < ffzuf v -> Z.testbit v j = true) /\
     (0 <= flzuf v < 64 /\ Z.testbit v (flzuf v) = false /\ forall j, flzuf v < j < 64 -> Z.testbit v j = true) /\
     ffz v = ffzuf v + 1 /\ flz v = flzuf v + 1) /\
  (v = 2 ^ 64 - 1 -> ffz v = 0 /\ flz v = 0).
Proof.
  intros v Hv. unfold u64 in Hv. split.
  - intros Hm. pose proof (not64_val v Hv) as N. unfold ULONG_MAX in N.
    assert (R : 0 < not64 v < 2 ^ 64) by lia. clear N.
    destruct (ffsuf_spec _ R) as [(A0 & A1 & A2) Ab]. destruct (flsuf_spec _ R) as [(B0 & B1 & B2) Bb].
    unfold ffzuf, flzuf, ffz, flz, ffs, fls.
    replace (v =? ULONG_MAX) with false by (symmetry; apply Z.eqb_neq; unfold ULONG_MAX; lia).
    replace (not64 v =? 0) with false by (symmetry; apply Z.eqb_neq; lia).
    rewrite not64_bits in A1, B1 by assumption.
    split; [|split; [|split; reflexivity]].
    + split; [lia|]. split. { apply andb_prop in A1. destruct A1 as [_ A1]. apply negb_true_iff in A1. exact A1. }
      intros j Hj. specialize (A2 j Hj). rewrite not64_bits in A2 by lia.
      replace (j <? 64) with true in A2 by (symmetry; apply Z.ltb_lt; lia). apply negb_false_iff in A2. exact A2.
    + split; [lia|]. split. { apply andb_prop in B1. destruct B1 as [_ B1]. apply negb_true_iff in B1. exact B1. }
      intros j Hj. specialize (B2 j ltac:(lia)). rewrite not64_bits in B2 by lia.
      replace (j <? 64) with true in B2 by (symmetry; apply Z.ltb_lt; lia). apply negb_false_iff in B2. exact B2.
  - intros ->. vm_compute. auto.
Qed.
Example C12_ex : u64 0x8000000000100000 /\ ffsuf 0x8000000000100000 = 20 /\ flsuf 0x8000000000100000 = 63 /\
  ffz 0xff = 9 /\ clz 1 = 63.
Proof. unfold u64. vm_compute. intuition congruence. Qed.

(** ** C13. The position of the [n]-th set bit from the low end, 64 if there is none; and
    *nr is left holding how many more bits have to be found in the words that follow. *)
Theorem C13_ffnsp : forall w n, u64 w -> 0 <= n < 2 ^ 32 -> w <> 2 ^ 64 - 1 ->
  match rd (set_positions 64 w) n with
  | Some p => exists nr', ffnsp w n = Some (p, nr')
  | None => ffnsp w n = Some (64, n - count_ones 64 w)
  end.
Proof.
  intros w n Hw Hn Hm. unfold ffnsp.
  replace (w =? ULONG_MAX) with false by (symmetry; apply Z.eqb_neq; unfold ULONG_MAX; lia).
  rewrite fns_loop_ff by (auto; apply positions_length). unfold nth_pos.
  destruct (rd (set_positions 64 w) n); [eexists; reflexivity|]. unfold count_ones. reflexivity.
Qed.
(** For the all-ones word: correct when the bit exists... *)
Theorem C13_ffnsp_full : forall n, 0 <= n < 64 ->
  exists nr', ffnsp (2 ^ 64 - 1) n = Some (n, nr') /\ rd (set_positions 64 (2 ^ 64 - 1)) n = Some n.
Proof.
  intros n Hn.
  assert (H : all_below 64 (fun n => match ffnsp (2 ^ 64 - 1) n, rd (set_positions 64 (2 ^ 64 - 1)) n with
    | Some (p, _), Some q => (p =? n) && (q =? n) | _, _ => false end) = true) by (vm_compute; reflexivity).
  pose proof (all_below_spec _ _ H n Hn) as Q. cbv beta in Q. clear H.
  destruct (ffnsp (2 ^ 64 - 1) n) as [[p nr]|]; [|discriminate].
  destruct (rd _ n) as [q|]; [|discriminate]. apply andb_prop in Q. destruct Q as [Q1 Q2].
  apply Z.eqb_eq in Q1, Q2. subst. eauto.
Qed.
(** ... but a full word that is exhausted does not consume the count or answer 64. *)
Theorem C13_ffnsp_full_refuted : exists n, 0 <= n < 2 ^ 32 /\
  rd (set_positions 64 (2 ^ 64 - 1)) n = None /\
  ffnsp (2 ^ 64 - 1) n <> Some (64, n - count_ones 64 (2 ^ 64 - 1)).
Proof. exists 70. vm_compute. intuition congruence. Qed.

Theorem C13_flnsp_partial : forall w n, u64 w -> 0 <= n < 2 ^ 32 -> w <> 2 ^ 64 - 1 ->
  match rd (rev (set_positions 64 w)) n with
  | Some p => exists nr', flnsp w n = Some (p, nr')
  | None => flnsp w n = Some (64, n - count_ones 64 w)
  end.
Proof.
  intros w n Hw Hn Hm. unfold flnsp.
  replace (w =? ULONG_MAX) with false by (symmetry; apply Z.eqb_neq; unfold ULONG_MAX; lia).
  rewrite fns_loop_fl by (auto; rewrite rev_length; apply positions_length). unfold nth_pos.
  destruct (rd (rev (set_positions 64 w)) n); [eexists; reflexivity|].
  unfold count_ones, zlen. rewrite rev_length. reflexivity.
Qed.
(** The full statement (without [w <> 2^64-1]) is false: the last set bit of the full word
    is 63, the code answers 0. *)
Theorem C13_flnsp_refuted : exists w n p, u64 w /\ 0 <= n < 2 ^ 32 /\
  rd (rev (set_positions 64 w)) n = Some p /\ forall nr', flnsp w n <> Some (p, nr').
Proof. exists (2 ^ 64 - 1), 0, 63. unfold u64. vm_compute. repeat split; congruence. Qed.

(** zero bits *)
Theorem C13_ffnzp_partial : forall w n, u64 w -> 0 <= n < 2 ^ 32 -> w <> 0 ->
  match rd (filter (fun i => negb (Z.testbit w i)) (zseq 0 64)) n with
  | Some p => exists nr', ffnzp w n = Some (p, nr')
  | None => ffnzp w n = Some (64, n - (64 - count_ones 64 w))
  end.
Proof.
  intros w n Hw Hn Hm. unfold u64 in Hw. unfold ffnzp. pose proof (not64_val w Hw) as N. unfold ULONG_MAX in N.
  pose proof (C13_ffnsp (not64 w) n ltac:(unfold u64; lia) Hn ltac:(lia)) as Q.
  assert (E : set_positions 64 (not64 w) = filter (fun i => negb (Z.testbit w i)) (zseq 0 64)).
  { unfold set_positions. apply filter_ext_in'. intros x Hx. apply zseq_in in Hx.
    rewrite not64_bits by lia. replace (x <? 64) with true by (symmetry; apply Z.ltb_lt; lia). reflexivity. }
  rewrite E in Q. destruct (rd _ n); [exact Q|]. rewrite Q. f_equal. f_equal. f_equal.
  unfold count_ones at 1. rewrite E. unfold count_ones, set_positions, zlen.
  assert (L : forall l, Z.of_nat (length (filter (fun i => negb (Z.testbit w i)) l)) =
                        Z.of_nat (length l) - Z.of_nat (length (filter (Z.testbit w) l))).
  { induction l as [|h t IH]; [reflexivity|]. cbn [filter length]. destruct (Z.testbit w h); cbn [negb length]; lia. }
  rewrite L. reflexivity.
Qed.
Example C13_ex : rd (set_positions 64 0xb4) 2 = Some 5 /\ ffnsp 0xb4 2 = Some (5, 2 ^ 32 - 1) /\
  flnsp 0xb4 1 = Some (5, 2 ^ 32 - 1) /\ ffnsp 0xb4 9 = Some (64, 5) /\ ffnzp 0xb 0 = Some (2, 2 ^ 32 - 1).
Proof. vm_compute. repeat split. Qed.

(** ** C14 *)
Lemma rot_amounts : forall k w m n, 0 <= k <= 32 -> w = 2 ^ k -> m = Z.ones k -> 
  Z.land n m = n mod w /\ Z.land (w32 (- n)) m = (- n) mod w.
Proof.
  intros k w m n Hk Hw ->. rewrite !Z.land_ones by lia. subst w. split; [reflexivity|].
  unfold w32. symmetry. apply Zmod_div_mod; try (apply Z.pow_pos_nonneg; lia).
  exists (2 ^ (32 - k)). rewrite <- Z.pow_add_r by lia. f_equal. lia.
Qed.

Lemma neg_mod : forall n w, 0 < w -> (- n) mod w = if n mod w =? 0 then 0 else w - n mod w.
Proof.
  intros n w Hw. destruct (Z.eqb_spec (n mod w) 0) as [E|E].
  - apply Z_mod_zero_opp_full. assumption.
  - apply Z_mod_nz_opp_full. assumption.
Qed.

Lemma sub_mod_cases : forall i n w, 0 < w -> 0 <= i < w ->
  (i - n) mod w = if i <? n mod w then i - n mod w + w else i - n mod w.
Proof.
  intros i n w Hw Hi. rewrite Zminus_mod, (Z.mod_small i) by lia.
  pose proof (Z.mod_pos_bound n w Hw). destruct (Z.ltb_spec i (n mod w)).
  - symmetry. apply Z.mod_unique with (q := -1); lia.
  - apply Z.mod_small. lia.
Qed.

Lemma rol_bits : forall k w m v n i, 0 <= k <= 32 -> w = 2 ^ k -> m = Z.ones k ->
  0 <= v < 2 ^ w -> 0 <= i < w -> Z.testbit (rol w m v n) i = Z.testbit v ((i - n) mod w).
Proof.
  intros k w m v n i Hk Hw Hm Hv Hi. unfold rol.
  destruct (rot_amounts k w m n Hk Hw Hm) as [-> ->].
  rewrite wrap_bits by lia. replace (i <? w) with true by (symmetry; apply Z.ltb_lt; lia). cbn [andb].
  pose proof (Z.mod_pos_bound n w ltac:(lia)) as B.
  rewrite neg_mod, sub_mod_cases by lia. clear Hk Hm Hw.
  rewrite Z.lor_spec, Z.shiftl_spec by lia.
  set (s := n mod w) in *. clearbody s.
  destruct (Z.eqb_spec s 0) as [->|].
  - rewrite Z.shiftr_spec, Z.add_0_r, Z.sub_0_r by lia. replace (i <? 0) with false by (symmetry; apply Z.ltb_ge; lia).
    apply orb_diag.
  - rewrite Z.shiftr_spec by lia. destruct (Z.ltb_spec i s).
    + rewrite (Z.testbit_neg_r _ (i - s)) by lia. cbn [orb]. f_equal. lia.
    + rewrite (testbit_small v w (i + (w - s))) by (auto; lia). apply orb_false_r.
Qed.

Lemma ror_bits : forall k w m v n i, 0 <= k <= 32 -> w = 2 ^ k -> m = Z.ones k ->
  0 <= v < 2 ^ w -> 0 <= i < w -> Z.testbit (ror w m v n) i = Z.testbit v ((i + n) mod w).
Proof.
  intros k w m v n i Hk Hw Hm Hv Hi. unfold ror.
  destruct (rot_amounts k w m n Hk Hw Hm) as [-> ->].
  rewrite wrap_bits by lia. replace (i <? w) with true by (symmetry; apply Z.ltb_lt; lia). cbn [andb].
  pose proof (Z.mod_pos_bound n w ltac:(lia)) as B.
  replace (i + n) with (i - - n) by lia. rewrite (sub_mod_cases i (- n)) by lia. rewrite neg_mod by lia. clear Hk Hm Hw.
  set (s := n mod w) in *. clearbody s.
  rewrite Z.lor_spec, Z.shiftr_spec by lia.
  destruct (Z.eqb_spec s 0) as [->|].
  - rewrite Z.shiftl_spec, Z.add_0_r, Z.sub_0_r by lia. replace (i <? 0) with false by (symmetry; apply Z.ltb_ge; lia).
    apply orb_diag.
  - rewrite Z.shiftl_spec by lia. destruct (Z.ltb_spec i (w - s)).
    + rewrite (Z.testbit_neg_r _ (i - (w - s))) by lia. rewrite orb_false_r. f_equal. lia.
    + rewrite (testbit_small v w (i + s)) by (auto; lia). reflexivity.
Qed.

(** For each width [w] (8, 16, 32, 64) and every amount (also those at or above the width):
    bit [i] of the input is bit [(i + n) mod w] of the result, and [ror] undoes [rol] and
    conversely. *)
Definition rotation_pair (w : Z) (rl rr : Z -> Z -> Z) : Prop :=
  forall v n, 0 <= v < 2 ^ w ->
    0 <= rl v n < 2 ^ w /\ 0 <= rr v n < 2 ^ w /\
    (forall i, 0 <= i < w -> Z.testbit (rl v n) ((i + n) mod w) = Z.testbit v i) /\
    (forall i, 0 <= i < w -> Z.testbit (rr v n) i = Z.testbit v ((i + n) mod w)) /\
    rr (rl v n) n = v /\ rl (rr v n) n = v.

Lemma rotation_pair_ok : forall k w m, 0 <= k <= 32 -> w = 2 ^ k -> m = Z.ones k ->
  rotation_pair w (rol w m) (ror w m).
Proof.
  intros k w m Hk Hw Hm v n Hv.
  assert (Pw : 0 < w) by (subst w; apply Z.pow_pos_nonneg; lia).
  assert (R1 : forall v n, 0 <= rol w m v n < 2 ^ w) by (intros; apply wrap_range; lia).
  assert (R2 : forall v n, 0 <= ror w m v n < 2 ^ w) by (intros; apply wrap_range; lia).
  split; [apply R1|]. split; [apply R2|]. split; [|split; [|split]].
  - intros i Hi. rewrite (rol_bits k) by (auto; apply Z.mod_pos_bound; lia).
    rewrite Zminus_mod_idemp_l. rewrite Z.add_simpl_r, Z.mod_small by lia. reflexivity.
  - intros i Hi. apply (ror_bits k); auto.
  - apply (word_ext w); auto. intros i Hi. rewrite (ror_bits k), (rol_bits k) by (auto; apply Z.mod_pos_bound; lia).
    rewrite Zminus_mod_idemp_l. rewrite Z.add_simpl_r, Z.mod_small by lia. reflexivity.
  - apply (word_ext w); auto. intros i Hi. rewrite (rol_bits k), (ror_bits k) by (auto; apply Z.mod_pos_bound; lia).
    rewrite Zplus_mod_idemp_l. rewrite Z.sub_simpl_r, Z.mod_small by lia. reflexivity.
Qed.

Theorem C14_rotations : rotation_pair 8 rol8 ror8 /\ rotation_pair 16 rol16 ror16 /\
  rotation_pair 32 rol32 ror32 /\ rotation_pair 64 rol64 ror64.
Proof.
  split; [apply (rotation_pair_ok 3); auto; lia|]. split; [apply (rotation_pair_ok 4); auto; lia|].
  split; [apply (rotation_pair_ok 5); auto; lia|]. apply (rotation_pair_ok 6); auto; lia.
Qed.
Example C14_ex : rol8 0x81 1 = 0x03 /\ ror8 0x03 1 = 0x81 /\ rol64 0x8000000000000001 4 = 0x18 /\ rol32 5 0 = 5.
Proof. vm_compute. repeat split. Qed.

(** ** C15 *)
Definition byte_rev (w i : Z) : Z := 8 * (w / 8 - 1 - i / 8) + i mod 8.

Theorem C15_swab : permutes 16 (byte_rev 16) swab16 /\ permutes 32 (byte_rev 32) swab32 /\
  permutes 64 (byte_rev 64) swab64.
Proof.
  split; [apply shuffle_permutes; [lia|vm_compute; reflexivity]|].
  split; apply shuffle_permutes; try lia; vm_compute; reflexivity.
Qed.

Theorem C15_swab_involutive : (forall v, 0 <= v < 2 ^ 16 -> swab16 (swab16 v) = v) /\
  (forall v, 0 <= v < 2 ^ 32 -> swab32 (swab32 v) = v) /\ (forall v, 0 <= v < 2 ^ 64 -> swab64 (swab64 v) = v).
Proof.
  destruct C15_swab as (A & B & C).
  assert (G : forall w f, permutes w (byte_rev w) f -> (0 < w) -> (w mod 8 = 0) -> forall v, 0 <= v < 2 ^ w -> f (f v) = v).
  { intros w f P Hw Hw8 v Hv. destruct (P v Hv) as [R1 B1]. destruct (P (f v) R1) as [R2 B2].
    apply (word_ext w); auto. intros i Hi. unfold byte_rev in *. rewrite B2 by assumption. rewrite B1 by lia. f_equal. lia. }
  split; [apply (G 16); auto; lia|]. split; [apply (G 32); auto; lia|]. apply (G 64); auto; lia.
Qed.

(** half-word/byte swaps within wider words *)
Theorem C15_swah : 
  permutes 32 (fun i => 16 * (i / 16) + byte_rev 16 (i mod 16)) swahb32 /\
  permutes 32 (fun i => (i + 16) mod 32) swahw32 /\
  permutes 64 (fun i => 16 * (i / 16) + byte_rev 16 (i mod 16)) swahb64 /\
  permutes 64 (fun i => 32 * (i / 32) + (i + 16) mod 32) swahw64 /\
  permutes 64 (fun i => (i + 32) mod 64) swahl64.
Proof.
  split; [apply shuffle_permutes; [lia|vm_compute; reflexivity]|].
  split; [apply shuffle_permutes; [lia|vm_compute; reflexivity]|].
  split; [apply shuffle_permutes; [lia|vm_compute; reflexivity]|].
  split; [apply shuffle_permutes; [lia|vm_compute; reflexivity]|].
  apply shuffle_permutes; [lia|vm_compute; reflexivity].
Qed.

(** The table-driven bit reversal never leaves the table and reverses all widths. *)
Theorem C15_bitrev_dynamic : reverses 8 bitrev8_dynamic /\ reverses 16 bitrev16_dynamic /\
  reverses 32 bitrev32_dynamic /\ reverses 64 bitrev64_dynamic.
Proof. exact (conj rev8_dyn (conj rev16_dyn (conj rev32_dyn rev64_dyn))). Qed.

Theorem C15_bitrev_const_partial : permutes 8 (fun i => 7 - i) bitrev8_const /\
  permutes 16 (fun i => 15 - i) bitrev16_const.
Proof. split; apply shuffle_permutes; try lia; vm_compute; reflexivity. Qed.
(** The constant-expression versions for 32 and 64 bits are wrong (two shift amounts are
    exchanged): *)
Theorem C15_bitrev_const_refuted :
  ~ permutes 32 (fun i => 31 - i) bitrev32_const /\ ~ permutes 64 (fun i => 63 - i) bitrev64_const.
Proof.
  split; intros H.
  - destruct (H (2 ^ 27) ltac:(lia)) as [_ B]. specialize (B 4 ltac:(lia)). vm_compute in B. discriminate.
  - destruct (H (2 ^ 43) ltac:(lia)) as [_ B]. specialize (B 20 ltac:(lia)). vm_compute in B. discriminate.
Qed.
(** They are right on all other bits: *)
Theorem C15_bitrev_const_other_bits :
  (forall v i, 0 <= v < 2 ^ 32 -> 0 <= i < 32 -> i <> 2 -> i <> 3 -> i <> 4 -> i <> 5 ->
     Z.testbit (bitrev32_const v) i = Z.testbit v (31 - i)) /\
  (forall v i, 0 <= v < 2 ^ 64 -> 0 <= i < 64 -> ~ (18 <= i <= 21) ->
     Z.testbit (bitrev64_const v) i = Z.testbit v (63 - i)).
Proof.
  assert (G : forall w ps (ex : Z -> bool), 0 <= w ->
    all_below w (fun i => ex i ||
      match filter (fun p => (0 <=? i - snd p) && Z.testbit (fst p) (i - snd p)) ps with
      | [p] => i - snd p =? w - 1 - i | _ => false end) = true ->
    forall v i, 0 <= i < w -> ex i = false -> Z.testbit (shuffle w ps v) i = Z.testbit v (w - 1 - i)).
  { intros w ps ex Hw H v i Hi Hx. unfold shuffle. rewrite wrap_bits by lia.
    replace (i <? w) with true by (symmetry; apply Z.ltb_lt; lia). cbn [andb].
    rewrite shuffle_bits by lia. pose proof (all_below_spec w _ H i Hi) as Q. cbv beta in Q. clear H.
    rewrite Hx in Q. cbn [orb] in Q. destruct (filter _ ps) as [|p [|q r]]; try discriminate.
    cbn [existsb]. apply Z.eqb_eq in Q. rewrite Q. apply orb_false_r. }
  split; intros.
  - apply (G 32 bitrev32_pairs (fun i => (2 <=? i) && (i <=? 5))); try lia. vm_compute. reflexivity.
  - apply (G 64 bitrev64_pairs (fun i => (18 <=? i) && (i <=? 21))); try lia. vm_compute. reflexivity.
Qed.
Example C15_ex : swab32 0x12345678 = 0x78563412 /\ bitrev16_dynamic 0x1 = Some 0x8000 /\ swahw32 0x12345678 = 0x56781234.
Proof. vm_compute. repeat split. Qed.

(** ** C16 *)
Theorem C16_popcount :
  (forall v, 0 <= v < 2 ^ 8 -> popcount8_dynamic v = Some (count_ones 8 v) /\ popcount8_const v = count_ones 8 v) /\
  (forall v, 0 <= v < 2 ^ 16 -> popcount16_dynamic v = Some (count_ones 16 v) /\ popcount16_const v = count_ones 16 v) /\
  (forall v, 0 <= v < 2 ^ 32 -> popcount32_dynamic v = Some (count_ones 32 v) /\ popcount32_const v = count_ones 32 v) /\
  (forall v, 0 <= v < 2 ^ 64 -> popcount64_dynamic v = Some (count_ones 64 v) /\ popcount64_const v = count_ones 64 v).
Proof.
  split; [intros; split; [apply pop8_table|apply pop8_const]; assumption|].
  split; [intros; split; [apply pop16_dyn|apply pop16_const]; assumption|].
  split; [intros; split; [apply pop32_dyn|apply pop32_const]; assumption|].
  intros; split; [apply pop64_dyn|apply pop64_const]; assumption.
Qed.
Theorem C16_popparity :
  (forall v, 0 <= v < 2 ^ 8 -> popparity8_dynamic v = Some (Z.odd (count_ones 8 v)) /\ popparity8_const v = Z.odd (count_ones 8 v)) /\
  (forall v, 0 <= v < 2 ^ 16 -> popparity16_dynamic v = Some (Z.odd (count_ones 16 v)) /\ popparity16_const v = Z.odd (count_ones 16 v)) /\
  (forall v, 0 <= v < 2 ^ 32 -> popparity32_dynamic v = Some (Z.odd (count_ones 32 v)) /\ popparity32_const v = Z.odd (count_ones 32 v)) /\
  (forall v, 0 <= v < 2 ^ 64 -> popparity64_dynamic v = Some (Z.odd (count_ones 64 v)) /\ popparity64_const v = Z.odd (count_ones 64 v)).
Proof.
  split; [intros v Hv; pose proof (parity8_dyn v Hv) as A; pose proof (parity8_const v ltac:(lia)) as B; exact (conj A B)|].
  split; [intros v Hv; pose proof (parity16_dyn v Hv) as A; pose proof (parity16_const v ltac:(lia)) as B; exact (conj A B)|].
  split; [intros v Hv; pose proof (parity32_dyn v Hv) as A; pose proof (parity32_const v ltac:(lia)) as B; exact (conj A B)|].
  intros v Hv; pose proof (parity64_dyn v Hv) as A; pose proof (parity64_const v ltac:(lia)) as B; exact (conj A B).
Qed.
Example C16_ex : popcount64_const 0xf0f0000000000001 = 9 /\ popparity64_dynamic 0xf0f0000000000001 = Some true.
Proof. vm_compute. split; reflexivity. Qed.

(** ** C17 *)
Lemma ilog2_chain_spec : forall n v, 2 <= v -> Z.log2 v < Z.of_nat n + 2 -> ilog2_chain n v = Z.log2 v.
Proof.
  induction n as [|n IH]; intros v Hv Hl; cbn [ilog2_chain].
  - assert (1 <= Z.log2 v) by (apply Z.log2_le_pow2; lia). lia.
  - rewrite Z.shiftl_mul_pow2, Z.mul_1_l by lia.
    destruct (land_bit_zero v (Z.of_nat n + 2)) as [->|]; [|lia]. rewrite negb_involutive.
    destruct (Z.eq_dec (Z.log2 v) (Z.of_nat n + 2)) as [E|E].
    + rewrite <- E, Z.bit_log2 by lia. reflexivity.
    + rewrite Z.bits_above_log2 by lia. apply IH; lia.
Qed.

Theorem C17_ilog2 : forall v, 1 <= v < 2 ^ 64 ->
  ilog2 v = ilog2_const v /\ 2 ^ ilog2 v <= v < 2 ^ (ilog2 v + 1).
Proof.
  intros v Hv. assert (E : ilog2 v = Z.log2 v).
  { unfold ilog2. destruct (Z.ltb_spec v 2).
    - replace v with 1 by lia. reflexivity.
    - unfold fls. replace (v =? 0) with false by (symmetry; apply Z.eqb_neq; lia).
      rewrite flsuf_log2 by lia. lia. }
  assert (E2 : ilog2_const v = Z.log2 v).
  { unfold ilog2_const. destruct (Z.ltb_spec v 2).
    - replace v with 1 by lia. reflexivity.
    - apply ilog2_chain_spec; [lia|]. change (Z.of_nat 62 + 2) with 64. apply Z.log2_lt_pow2; lia. }
  rewrite E, E2. split; [reflexivity|]. apply Z.log2_spec. lia.
Qed.

Theorem C17_roundup : forall v, 1 <= v <= 2 ^ 63 ->
  exists r, pow2_roundup_dynamic v = Some r /\ is_pow2 r /\ v <= r /\ forall p, is_pow2 p -> v <= p -> r <= p.
Proof.
  intros v Hv. unfold pow2_roundup_dynamic. destruct (Z.ltb_spec v 2).
  - replace v with 1 by lia. exists 1. split; [reflexivity|]. split; [exists 0; lia|]. split; [lia|]. intros p _ Hp; exact Hp.
  - unfold fls. replace (v - 1 =? 0) with false by (symmetry; apply Z.eqb_neq; lia).
    rewrite flsuf_log2 by lia. cbv zeta.
    pose proof (Z.log2_spec (v - 1) ltac:(lia)) as L. pose proof (Z.log2_nonneg (v - 1)).
    rewrite <- Z.add_1_r in L. set (k := Z.log2 (v - 1)) in *.
    assert (k < 63). { apply Z.log2_lt_pow2; lia. }
    rewrite Z.geb_leb. replace (64 <=? k + 1) with false by (symmetry; apply Z.leb_gt; lia).
    exists (2 ^ (k + 1)). rewrite Z.shiftl_mul_pow2, Z.mul_1_l by lia. split; [reflexivity|].
    split; [exists (k + 1); lia|]. split; [lia|]. intros p (j & Hj & ->) Hp.
    apply Z.pow_le_mono_r; [lia|]. destruct (Z_le_dec (k + 1) j); [assumption|].
    assert (2 ^ j <= 2 ^ k) by (apply Z.pow_le_mono_r; lia). lia.
Qed.
(** Above 2^63 there is no such 64-bit power of two; the code shifts by 64 (undefined). *)
Theorem C17_roundup_domain : forall v, 2 ^ 63 < v < 2 ^ 64 -> pow2_roundup_dynamic v = None.
Proof.
  intros v Hv. unfold pow2_roundup_dynamic. replace (v <? 2) with false by (symmetry; apply Z.ltb_ge; lia).
  unfold fls. replace (v - 1 =? 0) with false by (symmetry; apply Z.eqb_neq; lia).
  rewrite flsuf_log2 by lia. cbv zeta. replace (Z.log2 (v - 1)) with 63; [reflexivity|].
  symmetry. apply Z.log2_unique; lia.
Qed.

Theorem C17_rounddown : forall v, 1 <= v < 2 ^ 64 ->
  is_pow2 (pow2_rounddown_dynamic v) /\ pow2_rounddown_dynamic v <= v /\
  forall p, is_pow2 p -> p <= v -> p <= pow2_rounddown_dynamic v.
Proof.
  intros v Hv. unfold pow2_rounddown_dynamic. destruct (Z.ltb_spec v 2).
  - replace v with 1 by lia. split; [exists 0; lia|]. split; [lia|]. intros p _ Hp; exact Hp.
  - unfold fls. replace (v =? 0) with false by (symmetry; apply Z.eqb_neq; lia).
    rewrite flsuf_log2 by lia. rewrite Z.add_simpl_r. rewrite Z.shiftl_mul_pow2, Z.mul_1_l by apply Z.log2_nonneg.
    pose proof (Z.log2_spec v ltac:(lia)) as L. pose proof (Z.log2_nonneg v).
    split; [exists (Z.log2 v); lia|]. split; [lia|]. intros p (j & Hj & ->) Hp.
    apply Z.pow_le_mono_r; [lia|]. apply Z.log2_le_pow2; lia.
Qed.

Theorem C17_check : forall v, u64 v -> pow2_check v = true <-> is_pow2 v.
Proof.
  intros v Hv. unfold u64 in Hv. unfold pow2_check, w64. split.
  - intros H. apply andb_prop in H. destruct H as [H1 H2]. apply negb_true_iff, Z.eqb_neq in H1.
    apply Z.eqb_eq in H2. rewrite Z.mod_small in H2 by lia.
    exists (Z.log2 v). split; [apply Z.log2_nonneg|].
    pose proof (Z.log2_spec v ltac:(lia)) as [L1 L2]. pose proof (Z.log2_nonneg v).
    destruct (Z.eq_dec v (2 ^ Z.log2 v)); [assumption|exfalso].
    assert (B : Z.testbit (Z.land v (v - 1)) (Z.log2 v) = true).
    { rewrite Z.land_spec, Z.bit_log2 by lia. cbn [andb].
      replace (Z.log2 v) with (Z.log2 (v - 1)); [apply Z.bit_log2; lia|]. apply Z.log2_unique; lia. }
    rewrite H2, Z.bits_0 in B. discriminate.
  - intros (k & Hk & ->). assert (0 < 2 ^ k) by (apply Z.pow_pos_nonneg; lia).
    replace (2 ^ k =? 0) with false by (symmetry; apply Z.eqb_neq; lia). cbn [negb andb].
    rewrite Z.mod_small by lia. apply Z.eqb_eq. rewrite Z.sub_1_r, <- Z.ones_equiv.
    rewrite Z.land_ones by lia. apply Z.mod_same. lia.
Qed.
Example C17_ex : ilog2 1000 = 9 /\ pow2_roundup_dynamic 1000 = Some 1024 /\ pow2_rounddown_dynamic 1000 = 512 /\
  pow2_check 1024 = true /\ pow2_check 1000 = false /\ pow2_check 0 = false.
Proof. vm_compute. repeat split. Qed.

(** ** C77. Single-bit operations on arrays of words *)
(** Specification: the array is a sequence of bits. *)
Definition abit (a : list Z) (i : Z) : bool :=
  match rd a (i / 64) with Some w => Z.testbit w (i mod 64) | None => false end.
(** [a'] is [a] with bit [b] replaced by [x]. *)
Definition bit_updated (a : list Z) (b : Z) (x : bool) (a' : list Z) : Prop :=
  zlen a' = zlen a /\ Forall u64 a' /\
  forall i, 0 <= i -> abit a' i = if i =? b then x else abit a i.

Lemma upd_word : forall a b w w' x, Forall u64 a -> 0 <= b -> rd a (b / 64) = Some w -> u64 w' ->
  (forall j, 0 <= j < 64 -> Z.testbit w' j = if j =? b mod 64 then x else Z.testbit w j) ->
  exists a', wr a (b / 64) w' = Some a' /\ bit_updated a b x a'.
Proof.
  intros a b w w' x Ha Hb Hr Hw H.
  destruct (rd_range _ _ _ _ Hr) as [R1 R2].
  destruct (wr_spec _ a (b / 64) w' ltac:(lia)) as (a' & E & L & RR).
  exists a'. split; [exact E|]. split; [exact L|]. split.
  - apply Forall_forall. intros y Hy. apply In_nth_error in Hy. destruct Hy as [n Hn].
    specialize (RR (Z.of_nat n)).
    assert (RD : rd a' (Z.of_nat n) = Some y).
    { unfold rd. replace (Z.of_nat n <? 0) with false by (symmetry; apply Z.ltb_ge; lia). rewrite Nat2Z.id. exact Hn. }
    rewrite RD in RR. destruct (Z.of_nat n =? b / 64).
    + injection RR as ->. exact Hw.
    + symmetry in RR. apply rd_in in RR. rewrite Forall_forall in Ha. auto.
  - intros i Hi. unfold abit. rewrite RR. destruct (Z.eqb_spec (i / 64) (b / 64)) as [Q|Q].
    + rewrite Q, Hr, H by lia. destruct (Z.eqb_spec i b) as [->|N].
      * rewrite Z.eqb_refl. reflexivity.
      * replace (i mod 64 =? b mod 64) with false by (symmetry; apply Z.eqb_neq; lia). reflexivity.
    + replace (i =? b) with false by (symmetry; apply Z.eqb_neq; intros ->; lia). reflexivity.
Qed.

Theorem C77_bit_ops : forall a b, Forall u64 a -> 0 <= b < 64 * zlen a ->
  bit_test a b = Some (abit a b) /\
  (exists a', bit_set a b = Some a' /\ bit_updated a b true a' /\ bit_test_set a b = Some (abit a b, a')) /\
  (exists a', bit_clr a b = Some a' /\ bit_updated a b false a' /\ bit_test_clr a b = Some (abit a b, a')) /\
  (exists a', bit_flip a b = Some a' /\ bit_updated a b (negb (abit a b)) a' /\ bit_test_flip a b = Some (abit a b, a')) /\
  (forall x, exists a', bit_change a b x = Some a' /\ bit_updated a b x a' /\ bit_test_change a b x = Some (abit a b, a')).
Proof.
  intros a b Ha Hb.
  assert (X : exists w, rd a (b / 64) = Some w) by (apply rd_some; lia). destruct X as [w Hw].
  assert (U : u64 w) by (apply rd_in in Hw; rewrite Forall_forall in Ha; auto). unfold u64 in U.
  assert (T : abit a b = Z.testbit w (b mod 64)) by (unfold abit; rewrite Hw; reflexivity).
  assert (BR : 0 <= BIT b < 2 ^ 64) by (unfold BIT, w64; apply Z.mod_pos_bound; lia).
  assert (N : forall j, 0 <= j < 64 -> Z.testbit (not64 (BIT b)) j = negb (j =? b mod 64)).
  { intros j Hj. rewrite not64_bits, BIT_bits by lia. replace (j <? 64) with true by (symmetry; apply Z.ltb_lt; lia). reflexivity. }
  assert (SET : exists a', wr a (b / 64) (Z.lor w (BIT b)) = Some a' /\ bit_updated a b true a').
  { apply (upd_word a b w); auto; [lia|apply lor_range; lia|]. intros j Hj. rewrite Z.lor_spec, BIT_bits by lia.
    destruct (j =? b mod 64); [apply orb_true_r|apply orb_false_r]. }
  assert (CLR : exists a', wr a (b / 64) (Z.land w (not64 (BIT b))) = Some a' /\ bit_updated a b false a').
  { apply (upd_word a b w); auto; [lia|apply land_range_l; lia|]. intros j Hj. rewrite Z.land_spec, N by lia.
    destruct (j =? b mod 64); [apply andb_false_r|apply andb_true_r]. }
  assert (FLIP : exists a', wr a (b / 64) (Z.lxor w (BIT b)) = Some a' /\ bit_updated a b (negb (abit a b)) a').
  { apply (upd_word a b w); auto; [lia|apply lxor_range; lia|]. intros j Hj. rewrite Z.lxor_spec, BIT_bits, T by lia.
    destruct (Z.eqb_spec j (b mod 64)) as [->|]; [apply xorb_true_r|apply xorb_false_r]. }
  unfold bit_test, bit_set, bit_clr, bit_flip, bit_change, bit_test_set, bit_test_clr, bit_test_flip, bit_test_change.
  rewrite Hw. rewrite BIT_test, <- T.
  split; [reflexivity|]. split; [|split; [|split]].
  - destruct SET as (a' & -> & S). eauto.
  - destruct CLR as (a' & -> & S). eauto.
  - destruct FLIP as (a' & -> & S). eauto.
  - intros [|].
    + destruct SET as (a' & -> & S). eauto.
    + destruct CLR as (a' & -> & S). eauto.
Qed.
Example C77_ex : Forall u64 [0; 5] /\ bit_test_set [0; 5] 65 = Some (false, [0; 7]) /\ abit [0; 5] 66 = true.
Proof. repeat split; try (repeat constructor; unfold u64; lia). Qed.

Print Assumptions C12_find_first_last.
Print Assumptions C13_ffnsp.
Print Assumptions C14_rotations.
Print Assumptions C15_swab.
Print Assumptions C15_bitrev_dynamic.
Print Assumptions C16_popcount.
Print Assumptions C17_check.
Print Assumptions C77_bit_ops.
