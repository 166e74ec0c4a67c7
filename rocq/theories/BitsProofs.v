From Coq Require Import Zdiv.
From Verif Require Import Lib BitsModel BitsSpec.
Ltac Zify.zify_post_hook ::= Z.div_mod_to_equations.

(** ** General facts *)
Lemma testbit_small : forall v n i, 0 <= v < 2 ^ n -> n <= i -> Z.testbit v i = false.
Proof.
  intros v n i Hv Hi.
  destruct (Z_lt_dec n 0). { rewrite Z.pow_neg_r in Hv by assumption. lia. }
  destruct (Z.eq_dec v 0) as [->|]; [apply Z.bits_0|].
  apply Z.bits_above_log2; [lia|].
  apply Z.lt_le_trans with n; [|assumption]. apply Z.log2_lt_pow2; lia.
Qed.

Lemma word_ext : forall n a b, 0 <= a < 2 ^ n -> 0 <= b < 2 ^ n ->
  (forall i, 0 <= i < n -> Z.testbit a i = Z.testbit b i) -> a = b.
Proof.
  intros n a b Ha Hb H. apply Z.bits_inj'. intros i Hi.
  destruct (Z_lt_dec i n); [apply H; lia|].
  rewrite !(testbit_small _ n) by (auto; lia). reflexivity.
Qed.

Lemma wrap_bits : forall w v i, 0 <= w -> 0 <= i -> Z.testbit (wrap w v) i = (i <? w) && Z.testbit v i.
Proof.
  intros w v i Hw Hi. unfold wrap. destruct (Z.ltb_spec i w).
  - rewrite Z.mod_pow2_bits_low by lia. reflexivity.
  - rewrite Z.mod_pow2_bits_high by lia. reflexivity.
Qed.
Lemma w64_bits : forall v i, 0 <= i -> Z.testbit (w64 v) i = (i <? 64) && Z.testbit v i.
Proof. intros. apply (wrap_bits 64); lia. Qed.

Lemma wrap_range : forall w v, 0 <= w -> 0 <= wrap w v < 2 ^ w.
Proof. intros. unfold wrap. apply Z.mod_pos_bound. apply Z.pow_pos_nonneg; lia. Qed.

Lemma bits_range : forall v n, 0 <= n -> 0 <= v -> (forall i, n <= i -> Z.testbit v i = false) -> v < 2 ^ n.
Proof.
  intros v n Hn Hv H. destruct (Z.eq_dec v 0) as [->|]; [apply Z.pow_pos_nonneg; lia|].
  apply Z.log2_lt_pow2; [lia|]. destruct (Z_lt_dec (Z.log2 v) n); [assumption|].
  pose proof (Z.bit_log2 v ltac:(lia)). rewrite H in H0 by lia. discriminate.
Qed.

Lemma lor_range : forall n a b, 0 <= n -> 0 <= a < 2 ^ n -> 0 <= b < 2 ^ n -> 0 <= Z.lor a b < 2 ^ n.
Proof.
  intros n a b Hn Ha Hb. assert (0 <= Z.lor a b) by (apply Z.lor_nonneg; lia). split; [assumption|].
  apply bits_range; auto. intros i Hi. rewrite Z.lor_spec, !(testbit_small _ n) by (auto; lia). reflexivity.
Qed.
Lemma land_range_r : forall n a b, 0 <= n -> 0 <= b < 2 ^ n -> 0 <= Z.land a b < 2 ^ n.
Proof.
  intros n a b Hn Hb. assert (0 <= Z.land a b) by (apply Z.land_nonneg; lia). split; [assumption|].
  apply bits_range; auto. intros i Hi. rewrite Z.land_spec, (testbit_small b n) by (auto; lia). apply andb_false_r.
Qed.
Lemma land_range_l : forall n a b, 0 <= n -> 0 <= a < 2 ^ n -> 0 <= Z.land a b < 2 ^ n.
Proof. intros. rewrite Z.land_comm. apply land_range_r; assumption. Qed.
Lemma lxor_range : forall n a b, 0 <= n -> 0 <= a < 2 ^ n -> 0 <= b < 2 ^ n -> 0 <= Z.lxor a b < 2 ^ n.
Proof.
  intros n a b Hn Ha Hb. assert (0 <= Z.lxor a b) by (apply Z.lxor_nonneg; lia). split; [assumption|].
  apply bits_range; auto. intros i Hi. rewrite Z.lxor_spec, !(testbit_small _ n) by (auto; lia). reflexivity.
Qed.

Lemma not64_bits : forall v i, 0 <= i -> Z.testbit (not64 v) i = (i <? 64) && negb (Z.testbit v i).
Proof. intros. unfold not64. rewrite w64_bits, Z.lnot_spec by assumption. reflexivity. Qed.

Lemma not64_val : forall v, 0 <= v < 2 ^ 64 -> not64 v = ULONG_MAX - v.
Proof.
  intros v Hv. unfold not64, w64, ULONG_MAX. unfold Z.lnot.
  symmetry. apply Z.mod_unique with (q := -1); lia.
Qed.

Lemma ulong_max_bits : forall i, 0 <= i -> Z.testbit ULONG_MAX i = (i <? 64).
Proof.
  intros i Hi. change ULONG_MAX with (Z.ones 64). destruct (Z.ltb_spec i 64).
  - apply Z.ones_spec_low. lia.
  - apply Z.ones_spec_high. lia.
Qed.

Lemma BIT_eq : forall n, BIT n = 2 ^ (n mod 64).
Proof.
  intros n. unfold BIT, w64. rewrite Z.shiftl_mul_pow2, Z.mul_1_l by lia.
  apply Z.mod_small. split; [apply Z.pow_nonneg; lia|]. apply Z.pow_lt_mono_r; lia.
Qed.
Lemma BIT_bits : forall n i, 0 <= i -> Z.testbit (BIT n) i = (i =? n mod 64).
Proof.
  intros n i Hi. rewrite BIT_eq. rewrite Z.pow2_bits_eqb by lia. apply Z.eqb_sym.
Qed.

Lemma land_bit_zero : forall w n, (Z.land w (2 ^ n) =? 0) = negb (Z.testbit w n) \/ n < 0.
Proof.
  intros w n. destruct (Z_lt_dec n 0); [auto|left].
  destruct (Z.testbit w n) eqn:E; cbn [negb].
  - apply Z.eqb_neq. intros H. assert (Z.testbit (Z.land w (2 ^ n)) n = false) by (rewrite H; apply Z.bits_0).
    rewrite Z.land_spec, E, Z.pow2_bits_true in H0 by lia. discriminate.
  - apply Z.eqb_eq. apply Z.bits_inj'. intros i Hi. rewrite Z.land_spec, Z.pow2_bits_eqb, Z.bits_0 by lia.
    destruct (Z.eqb_spec n i) as [<-|]; [rewrite E; reflexivity|apply andb_false_r].
Qed.
Lemma BIT_test : forall w n, negb (Z.land w (BIT n) =? 0) = Z.testbit w (n mod 64).
Proof.
  intros w n. rewrite BIT_eq. destruct (land_bit_zero w (n mod 64)) as [->|]; [apply negb_involutive|lia].
Qed.

(** ** ffsuf *)
Lemma land_ones' : forall v m k, 0 <= k -> m = Z.ones k -> Z.land v m = v mod 2 ^ k.
Proof. intros v m k Hk ->. apply Z.land_ones. assumption. Qed.

(** State (shift, value) for the original word v: value is v shifted right, and no one
    bit was dropped. *)
Definition ffs_inv (v : Z) (n : Z) (p : Z * Z) : Prop :=
  0 <= fst p /\ 0 <= snd p /\ v = snd p * 2 ^ fst p /\ snd p mod 2 ^ n <> 0.

Lemma ffs_step_inv : forall v k m p, 0 < k -> m = Z.ones k -> ffs_inv v (2 * k) p ->
  ffs_inv v k (ffs_step m k p).
Proof.
  intros v k m [s x] Hk Hm (H1 & H2 & H3 & H4). cbn [fst snd] in *. unfold ffs_step.
  rewrite (land_ones' _ _ k) by (auto; lia). destruct (Z.eqb_spec (x mod 2 ^ k) 0) as [E|E].
  - assert (P : 0 < 2 ^ k) by (apply Z.pow_pos_nonneg; lia).
    rewrite Z.shiftr_div_pow2 by lia. unfold ffs_inv. cbn [fst snd].
    assert (X : x = 2 ^ k * (x / 2 ^ k)) by (apply Z.div_exact; lia).
    split; [lia|]. split; [apply Z.div_pos; lia|]. split.
    + rewrite H3, Z.pow_add_r by lia. rewrite X at 1. ring.
    + intros Q. apply H4. replace (2 * k) with (k + k) by lia. rewrite Z.pow_add_r by lia.
      rewrite X. rewrite Z.mul_mod_distr_l by lia. rewrite Q. lia.
  - unfold ffs_inv. cbn [fst snd]. repeat split; auto.
Qed.

Lemma ffsuf_spec : forall v, 0 < v < 2 ^ 64 -> lowest_set v (ffsuf v) /\ ffsuf v < 64.
Proof.
  intros v Hv. unfold ffsuf.
  assert (I0 : ffs_inv v 64 (0, v)).
  { unfold ffs_inv. cbn [fst snd]. rewrite Z.pow_0_r, Z.mod_small by lia. repeat split; lia. }
  apply (ffs_step_inv v 32 0xffffffff) in I0; [|lia|reflexivity].
  set (p1 := ffs_step 0xffffffff 32 (0, v)) in *. clearbody p1.
  apply (ffs_step_inv v 16 0xffff) in I0; [|lia|reflexivity].
  set (p2 := ffs_step 0xffff 16 p1) in *. clearbody p2.
  apply (ffs_step_inv v 8 0xff) in I0; [|lia|reflexivity].
  set (p3 := ffs_step 0xff 8 p2) in *. clearbody p3.
  apply (ffs_step_inv v 4 0xf) in I0; [|lia|reflexivity].
  set (p4 := ffs_step 0xf 4 p3) in *. clearbody p4.
  apply (ffs_step_inv v 2 0x3) in I0; [|lia|reflexivity].
  destruct (ffs_step 0x3 2 p4) as [s x].
  pose proof (ffs_step_inv v 1 0x1 (s, x) ltac:(lia) eq_refl I0) as I1.
  unfold ffs_step in I1.
  assert (R : forall s x, ffs_inv v 1 (s, x) -> lowest_set v s /\ s < 64).
  { clear - Hv. intros s x (H1 & H2 & H3 & H4). cbn [fst snd] in *.
    assert (L : Z.testbit x 0 = true).
    { rewrite Z.bit0_odd. change (2 ^ 1) with 2 in H4. rewrite Zmod_odd in H4. destruct (Z.odd x); [reflexivity|congruence]. }
    assert (B : lowest_set v s).
    { split; [assumption|]. rewrite H3, <- Z.shiftl_mul_pow2 by lia. split.
      - rewrite Z.shiftl_spec, Z.sub_diag by lia. exact L.
      - intros j Hj. rewrite Z.shiftl_spec_low by lia. reflexivity. }
    split; [exact B|]. destruct (Z_lt_dec s 64); [assumption|].
    destruct B as (_ & B & _). rewrite (testbit_small v 64) in B by lia. discriminate. }
  destruct (Z.land x 1 =? 0); eapply R; exact I1.
Qed.

(** ** flsuf *)
Lemma land_high_zero : forall x k, 0 <= x < 2 ^ 64 -> 0 <= k <= 64 ->
  (Z.land x (w64 (Z.shiftl ULONG_MAX (64 - k))) =? 0) = (x <? 2 ^ (64 - k)).
Proof.
  intros x k Hx Hk.
  assert (E : Z.land x (w64 (Z.shiftl ULONG_MAX (64 - k))) = Z.shiftl (Z.shiftr x (64 - k)) (64 - k)).
  { apply Z.bits_inj'. intros i Hi. rewrite Z.land_spec, w64_bits, Z.shiftl_spec, Z.shiftl_spec by lia.
    destruct (Z_lt_dec i (64 - k)).
    - rewrite !(Z.testbit_neg_r _ (i - (64 - k))) by lia. rewrite !andb_false_r. reflexivity.
    - rewrite ulong_max_bits, Z.shiftr_spec by lia.
      replace (i - (64 - k) + (64 - k)) with i by lia.
      destruct (Z.ltb_spec i 64).
      + replace (i - (64 - k) <? 64) with true by (symmetry; apply Z.ltb_lt; lia). rewrite andb_true_r. reflexivity.
      + rewrite (testbit_small x 64) by lia. reflexivity. }
  rewrite E. rewrite Z.shiftl_mul_pow2, Z.shiftr_div_pow2 by lia.
  assert (P : 0 < 2 ^ (64 - k)) by (apply Z.pow_pos_nonneg; lia).
  destruct (Z.ltb_spec x (2 ^ (64 - k))).
  - rewrite Z.div_small by lia. reflexivity.
  - apply Z.eqb_neq. assert (0 < x / 2 ^ (64 - k)) by (apply Z.div_str_pos; lia). nia.
Qed.

Definition fls_inv (v : Z) (n : Z) (p : Z * Z) : Prop :=
  0 <= 63 - fst p /\ snd p = v * 2 ^ (63 - fst p) /\ 2 ^ (64 - n) <= snd p < 2 ^ 64.

Lemma fls_step_inv : forall v k p, 0 < k -> 2 * k <= 64 -> fls_inv v (2 * k) p -> fls_inv v k (fls_step k p).
Proof.
  intros v k [s x] Hk Hk2 (H1 & H2 & H3). cbn [fst snd] in *. unfold fls_step.
  assert (0 < 2 ^ (64 - 2 * k)) by (apply Z.pow_pos_nonneg; lia).
  rewrite land_high_zero by lia. destruct (Z.ltb_spec x (2 ^ (64 - k))) as [L|L].
  - assert (P : 0 < 2 ^ k) by (apply Z.pow_pos_nonneg; lia).
    assert (Q : 2 ^ 64 = 2 ^ (64 - k) * 2 ^ k) by (rewrite <- Z.pow_add_r by lia; f_equal; lia).
    assert (Q2 : 2 ^ (64 - k) = 2 ^ (64 - 2 * k) * 2 ^ k) by (rewrite <- Z.pow_add_r by lia; f_equal; lia).
    rewrite Z.shiftl_mul_pow2 by lia. unfold w64. rewrite Z.mod_small by nia.
    unfold fls_inv. cbn [fst snd]. split; [lia|]. split.
    + rewrite H2. replace (63 - (s - k)) with (63 - s + k) by lia. rewrite Z.pow_add_r by lia. ring.
    + nia.
  - unfold fls_inv. cbn [fst snd]. split; [lia|]. split; [assumption|lia].
Qed.

Lemma flsuf_log2 : forall v, 0 < v < 2 ^ 64 -> flsuf v = Z.log2 v.
Proof.
  intros v Hv. unfold flsuf.
  assert (I0 : fls_inv v 64 (63, v)).
  { unfold fls_inv. cbn [fst snd]. change (63 - 63) with 0. change (64 - 64) with 0. rewrite Z.pow_0_r. lia. }
  apply (fls_step_inv v 32) in I0; [|lia|lia]. set (p1 := fls_step 32 (63, v)) in *. clearbody p1.
  apply (fls_step_inv v 16) in I0; [|lia|lia]. set (p2 := fls_step 16 p1) in *. clearbody p2.
  apply (fls_step_inv v 8) in I0; [|lia|lia]. set (p3 := fls_step 8 p2) in *. clearbody p3.
  apply (fls_step_inv v 4) in I0; [|lia|lia]. set (p4 := fls_step 4 p3) in *. clearbody p4.
  apply (fls_step_inv v 2) in I0; [|lia|lia].
  destruct (fls_step 2 p4) as [s x].
  pose proof (fls_step_inv v 1 (s, x) ltac:(lia) ltac:(lia) I0) as I1. unfold fls_step in I1.
  change (64 - 1) with 63 in I1.
  assert (R : forall s x, fls_inv v 1 (s, x) -> s = Z.log2 v).
  { clear - Hv. intros s x (H1 & H2 & H3). cbn [fst snd] in *. change (64 - 1) with 63 in H3.
    assert (0 <= s).
    { destruct (Z_lt_dec s 0); [exfalso|lia].
      assert (2 ^ 64 <= 2 ^ (63 - s)) by (apply Z.pow_le_mono_r; lia). nia. }
    assert (Q : 2 ^ 63 = 2 ^ (63 - s) * 2 ^ s) by (rewrite <- Z.pow_add_r by lia; f_equal; lia).
    assert (0 < 2 ^ (63 - s)) by (apply Z.pow_pos_nonneg; lia).
    symmetry. apply Z.log2_unique; [assumption|]. rewrite Z.pow_succ_r by lia. nia. }
  destruct (Z.land x (w64 (Z.shiftl ULONG_MAX 63)) =? 0); eapply R; exact I1.
Qed.

Lemma log2_highest : forall v, 0 < v -> highest_set v (Z.log2 v).
Proof.
  intros v Hv. split; [apply Z.log2_nonneg|]. split; [apply Z.bit_log2; assumption|].
  intros j Hj. apply Z.bits_above_log2; lia.
Qed.
Lemma flsuf_spec : forall v, 0 < v < 2 ^ 64 -> highest_set v (flsuf v) /\ flsuf v < 64.
Proof.
  intros v Hv. rewrite flsuf_log2 by assumption. split; [apply log2_highest; lia|].
  apply Z.log2_lt_pow2; lia.
Qed.

(** ** n-th set bit *)
Lemma filter_ext_in' : forall A (f g : A -> bool) l, (forall x, In x l -> f x = g x) -> filter f l = filter g l.
Proof.
  intros A f g l. induction l as [|h t IH]; intros H; [reflexivity|]. cbn.
  rewrite (H h) by (left; reflexivity). rewrite IH by (intros; apply H; right; assumption). reflexivity.
Qed.

Lemma zseq_split : forall a n m, zseq a (n + m) = zseq a n ++ zseq (a + Z.of_nat n) m.
Proof.
  intros a n. revert a. induction n as [|n IH]; intros a m.
  - cbn [Nat.add zseq app]. f_equal. lia.
  - cbn [Nat.add zseq app]. f_equal. rewrite IH. f_equal. f_equal. lia.
Qed.

Lemma filter_none : forall A (f : A -> bool) l, (forall x, In x l -> f x = false) -> filter f l = [].
Proof.
  intros A f l H. induction l as [|h t IH]; [reflexivity|]. cbn. rewrite H by (left; reflexivity).
  apply IH. intros. apply H. right. assumption.
Qed.

Lemma positions_first : forall v i, lowest_set v i -> i < 64 ->
  set_positions 64 v = i :: set_positions 64 (Z.land v (not64 (BIT i))).
Proof.
  intros v i (H0 & H1 & H2) Hi. unfold set_positions.
  replace 64%nat with (Z.to_nat i + S (63 - Z.to_nat i))%nat by lia.
  rewrite zseq_split. rewrite !filter_app. rewrite Z2Nat.id by lia. cbn [zseq filter Z.add].
  rewrite H1.
  assert (B : forall j, 0 <= j -> j < 64 -> Z.testbit (Z.land v (not64 (BIT i))) j = Z.testbit v j && negb (j =? i)).
  { intros j Hj Hj2. rewrite Z.land_spec, not64_bits, BIT_bits, Z.mod_small by lia.
    replace (j <? 64) with true by (symmetry; apply Z.ltb_lt; lia). reflexivity. }
  rewrite (B i) by lia. rewrite Z.eqb_refl, andb_false_r. cbn [app].
  rewrite !(filter_none _ _ (zseq 0 _)); cbn [app]. f_equal.
  - apply filter_ext_in'. intros x Hx. apply zseq_in in Hx. rewrite B by lia.
    replace (x =? i) with false by (symmetry; apply Z.eqb_neq; lia). rewrite andb_true_r. reflexivity.
  - intros x Hx. apply zseq_in in Hx. rewrite B by lia. rewrite H2 by lia. reflexivity.
  - intros x Hx. apply zseq_in in Hx. apply H2. lia.
Qed.

Lemma positions_last : forall v i, 0 <= v < 2 ^ 64 -> highest_set v i -> i < 64 ->
  set_positions 64 v = set_positions 64 (Z.land v (not64 (BIT i))) ++ [i].
Proof.
  intros v i Hv (H0 & H1 & H2) Hi. unfold set_positions.
  replace 64%nat with (Z.to_nat i + S (63 - Z.to_nat i))%nat by lia.
  rewrite zseq_split. rewrite !filter_app. rewrite Z2Nat.id by lia. cbn [zseq filter Z.add].
  rewrite H1.
  assert (B : forall j, 0 <= j -> j < 64 -> Z.testbit (Z.land v (not64 (BIT i))) j = Z.testbit v j && negb (j =? i)).
  { intros j Hj Hj2. rewrite Z.land_spec, not64_bits, BIT_bits, Z.mod_small by lia.
    replace (j <? 64) with true by (symmetry; apply Z.ltb_lt; lia). reflexivity. }
  rewrite (B i) by lia. rewrite Z.eqb_refl, andb_false_r.
  rewrite (filter_none _ _ (zseq (i + 1) _)).
  2:{ intros x Hx. apply zseq_in in Hx. apply H2. lia. }
  rewrite (filter_none _ _ (zseq (i + 1) _)).
  2:{ intros x Hx. apply zseq_in in Hx. rewrite B by lia. rewrite H2 by lia. reflexivity. }
  rewrite app_nil_r. f_equal.
  apply filter_ext_in'. intros x Hx. apply zseq_in in Hx. rewrite B by lia.
  replace (x =? i) with false by (symmetry; apply Z.eqb_neq; lia). rewrite andb_true_r. reflexivity.
Qed.

Lemma positions_zero : forall v, 0 <= v < 2 ^ 64 -> set_positions 64 v = [] -> v = 0.
Proof.
  intros v Hv H. destruct (Z.eq_dec v 0); [assumption|].
  destruct (flsuf_spec v ltac:(lia)) as [(A & B & C) D].
  assert (I : In (flsuf v) (set_positions 64 v)).
  { apply filter_In. split; [apply zseq_in; lia|assumption]. }
  rewrite H in I. destruct I.
Qed.

(** What the search answers: the [n]-th entry of a list of positions, or (64, what is
    left of the count). *)
Definition nth_pos (l : list Z) (n : Z) : Z * Z :=
  match rd l n with Some p => (p, 2 ^ 32 - 1) | None => (64, n - zlen l) end.

Lemma nth_pos_nil : forall n, 0 <= n -> nth_pos [] n = (64, n).
Proof.
  intros n Hn. unfold nth_pos, rd. destruct (n <? 0).
  - f_equal. unfold zlen. cbn [length Z.of_nat]. apply Z.sub_0_r.
  - destruct (Z.to_nat n); cbn [nth_error]; f_equal; unfold zlen; cbn [length Z.of_nat]; apply Z.sub_0_r.
Qed.
Lemma nth_pos_zero : forall i l, nth_pos (i :: l) 0 = (i, 2 ^ 32 - 1).
Proof. reflexivity. Qed.
Lemma nth_pos_cons : forall i l n, 0 < n -> nth_pos (i :: l) n = nth_pos l (n - 1).
Proof.
  intros i l n Hn. unfold nth_pos, rd.
  replace (n <? 0) with false by (symmetry; apply Z.ltb_ge; lia).
  replace (n - 1 <? 0) with false by (symmetry; apply Z.ltb_ge; lia).
  replace (Z.to_nat n) with (S (Z.to_nat (n - 1))) by lia. cbn [nth_error].
  destruct (nth_error l (Z.to_nat (n - 1))); [reflexivity|].
  f_equal. unfold zlen. cbn [length]. lia.
Qed.

Lemma fns_loop_gen : forall (find : Z -> Z) (pos : Z -> list Z) (ok : Z -> Prop),
  (pos 0 = []) ->
  (forall v, ok v -> v <> 0 -> pos v = find v :: pos (Z.land v (not64 (BIT (find v)))) /\
                               ok (Z.land v (not64 (BIT (find v))))) ->
  forall fuel v n, ok v -> 0 <= n < 2 ^ 32 -> (length (pos v) <= fuel)%nat ->
  fns_loop fuel find v n = Some (nth_pos (pos v) n).
Proof.
  intros find pos ok H0 HS. induction fuel as [|fuel IH]; intros v n Hv Hn Hf.
  - destruct (Z.eq_dec v 0) as [->|Hz].
    + rewrite H0, nth_pos_nil by lia. reflexivity.
    + destruct (HS v Hv Hz) as [E _]. rewrite E in Hf. cbn [length] in Hf. lia.
  - cbn [fns_loop]. destruct (Z.eqb_spec v 0) as [->|Hz].
    + rewrite H0, nth_pos_nil by lia. reflexivity.
    + destruct (HS v Hv Hz) as [E K]. rewrite E in *. cbn [length] in Hf.
      destruct (Z.eqb_spec n 0) as [->|Hnz].
      * rewrite nth_pos_zero. reflexivity.
      * rewrite nth_pos_cons by lia. unfold w32. rewrite Z.mod_small by lia. apply IH; [exact K|lia|lia].
Qed.

Lemma fns_loop_ff : forall fuel v n, 0 <= v < 2 ^ 64 -> 0 <= n < 2 ^ 32 ->
  (length (set_positions 64 v) <= fuel)%nat ->
  fns_loop fuel ffsuf v n = Some (nth_pos (set_positions 64 v) n).
Proof.
  apply (fns_loop_gen ffsuf (set_positions 64) (fun v => 0 <= v < 2 ^ 64)).
  - vm_compute. reflexivity.
  - intros v Hv Hz. destruct (ffsuf_spec v ltac:(lia)) as [L Lb].
    split; [exact (positions_first v (ffsuf v) L Lb)|]. apply land_range_l; lia.
Qed.

Lemma fns_loop_fl : forall fuel v n, 0 <= v < 2 ^ 64 -> 0 <= n < 2 ^ 32 ->
  (length (rev (set_positions 64 v)) <= fuel)%nat ->
  fns_loop fuel flsuf v n = Some (nth_pos (rev (set_positions 64 v)) n).
Proof.
  apply (fns_loop_gen flsuf (fun v => rev (set_positions 64 v)) (fun v => 0 <= v < 2 ^ 64)).
  - vm_compute. reflexivity.
  - intros v Hv Hz. destruct (flsuf_spec v ltac:(lia)) as [L Lb].
    split; [|apply land_range_l; lia].
    rewrite (positions_last v (flsuf v) Hv L Lb) at 1. rewrite rev_app_distr. reflexivity.
Qed.

Lemma positions_length : forall n v, (length (set_positions n v) <= n)%nat.
Proof.
  intros n v. unfold set_positions.
  assert (H : forall l : list Z, (length (filter (Z.testbit v) l) <= length l)%nat).
  { induction l as [|h t IH]; cbn; [lia|]. destruct (Z.testbit v h); cbn; lia. }
  etransitivity; [apply H|]. generalize 0. induction n as [|n IH]; intros a; cbn; [lia|]. specialize (IH (a+1)). lia.
Qed.

(** ** Shuffles *)
Definition shuffle_ok (w : Z) (ps : list (Z * Z)) (sigma : Z -> Z) : bool :=
  all_below w (fun i =>
    match filter (fun p => (0 <=? i - snd p) && Z.testbit (fst p) (i - snd p)) ps with
    | [p] => i - snd p =? sigma i
    | _ => false
    end).

Lemma shuffle_bits : forall ps v i, 0 <= i ->
  Z.testbit (fold_right (fun p acc => Z.lor (Z.shiftl (Z.land v (fst p)) (snd p)) acc) 0 ps) i =
  existsb (fun p => Z.testbit v (i - snd p))
    (filter (fun p => (0 <=? i - snd p) && Z.testbit (fst p) (i - snd p)) ps).
Proof.
  intros ps v i Hi. induction ps as [|[m s] ps IH]; cbn [fold_right filter existsb fst snd].
  - apply Z.bits_0.
  - rewrite Z.lor_spec, IH, Z.shiftl_spec, Z.land_spec by lia.
    destruct (Z.leb_spec 0 (i - s)); cbn [andb].
    + destruct (Z.testbit m (i - s)); cbn [existsb fst snd]; [rewrite andb_true_r; reflexivity|].
      rewrite andb_false_r. reflexivity.
    + rewrite !Z.testbit_neg_r by lia. reflexivity.
Qed.

Lemma shuffle_permutes : forall w ps sigma, 0 <= w -> shuffle_ok w ps sigma = true ->
  permutes w sigma (shuffle w ps).
Proof.
  intros w ps sigma Hw H v Hv. split; [apply wrap_range; assumption|].
  intros i Hi. unfold shuffle. rewrite wrap_bits by lia.
  replace (i <? w) with true by (symmetry; apply Z.ltb_lt; lia). cbn [andb].
  rewrite shuffle_bits by lia.
  pose proof (all_below_spec w _ H i Hi) as Q. cbv beta in Q. clear H.
  destruct (filter _ ps) as [|p [|q r]]; try discriminate.
  cbn [existsb]. apply Z.eqb_eq in Q. rewrite Q. apply orb_false_r.
Qed.

(** ** Halving: words as two half words *)
Lemma half_bits : forall n v i, 0 <= n -> 0 <= i ->
  Z.testbit (v mod 2 ^ n) i = (i <? n) && Z.testbit v i.
Proof. intros. apply (wrap_bits n); assumption. Qed.

(** Count of ones. *)
Lemma count_split : forall n m v,
  count_ones (n + m) v = count_ones n v + count_ones m (Z.shiftr v (Z.of_nat n)).
Proof.
  intros n m v. unfold count_ones, set_positions. rewrite zseq_split, filter_app, zlen_app. f_equal.
  unfold zlen. f_equal. rewrite Z.add_0_l.
  assert (H : forall m a b, a = b + Z.of_nat n -> 0 <= b ->
    length (filter (Z.testbit v) (zseq a m)) = length (filter (Z.testbit (Z.shiftr v (Z.of_nat n))) (zseq b m))).
  { clear. induction m as [|m IH]; intros a b E Hb; [reflexivity|]. cbn [zseq filter].
    rewrite Z.shiftr_spec by lia. rewrite E.
    specialize (IH (b + Z.of_nat n + 1) (b + 1) ltac:(lia) ltac:(lia)).
    destruct (Z.testbit v (b + Z.of_nat n)); cbn [length]; rewrite IH; reflexivity. }
  apply H; lia.
Qed.

Lemma count_low : forall n v w, (forall i, 0 <= i < Z.of_nat n -> Z.testbit v i = Z.testbit w i) ->
  count_ones n v = count_ones n w.
Proof.
  intros n v w H. unfold count_ones, set_positions. f_equal.
  apply filter_ext_in'. intros x Hx. apply zseq_in in Hx. apply H. lia.
Qed.

Lemma count_halves : forall n v, 0 <= v ->
  count_ones (n + n) v = count_ones n (v mod 2 ^ Z.of_nat n) + count_ones n (Z.shiftr v (Z.of_nat n)).
Proof.
  intros n v Hv. rewrite count_split. f_equal. apply count_low. intros i Hi.
  rewrite half_bits by lia. replace (i <? Z.of_nat n) with true by (symmetry; apply Z.ltb_lt; lia). reflexivity.
Qed.

Lemma pop8_table : forall v, 0 <= v < 256 -> popcount8_dynamic v = Some (count_ones 8 v).
Proof.
  intros v Hv.
  assert (H : all_below 256 (fun v => match popcount8_dynamic v with Some c => c =? count_ones 8 v | None => false end) = true)
    by (vm_compute; reflexivity).
  pose proof (all_below_spec _ _ H v Hv) as Q. cbv beta in Q. clear H.
  destruct (popcount8_dynamic v); [|discriminate]. apply Z.eqb_eq in Q. congruence.
Qed.

Lemma shiftr_half_range : forall n v, 0 <= n -> 0 <= v < 2 ^ (n + n) -> 0 <= Z.shiftr v n < 2 ^ n.
Proof.
  intros n v Hn Hv. rewrite Z.shiftr_div_pow2 by lia. rewrite Z.pow_add_r in Hv by lia.
  assert (0 < 2 ^ n) by (apply Z.pow_pos_nonneg; lia). split; [apply Z.div_pos; lia|].
  apply Z.div_lt_upper_bound; lia.
Qed.

Lemma pop16_dyn : forall v, 0 <= v < 2 ^ 16 -> popcount16_dynamic v = Some (count_ones 16 v).
Proof.
  intros v Hv. unfold popcount16_dynamic.
  pose proof (shiftr_half_range 8 v ltac:(lia) Hv) as S.
  unfold w8. rewrite (Z.mod_small (Z.shiftr v 8)) by assumption.
  rewrite !pop8_table by (change 256 with (2 ^ 8); lia).
  change 16%nat with (8 + 8)%nat. rewrite count_halves by lia. change (Z.of_nat 8) with 8. f_equal. lia.
Qed.
Lemma pop32_dyn : forall v, 0 <= v < 2 ^ 32 -> popcount32_dynamic v = Some (count_ones 32 v).
Proof.
  intros v Hv. unfold popcount32_dynamic.
  pose proof (shiftr_half_range 16 v ltac:(lia) Hv) as S.
  unfold w16. rewrite (Z.mod_small (Z.shiftr v 16)) by assumption.
  rewrite !pop16_dyn by lia.
  change 32%nat with (16 + 16)%nat. rewrite count_halves by lia. change (Z.of_nat 16) with 16. f_equal. lia.
Qed.
Lemma pop64_dyn : forall v, 0 <= v < 2 ^ 64 -> popcount64_dynamic v = Some (count_ones 64 v).
Proof.
  intros v Hv. unfold popcount64_dynamic.
  pose proof (shiftr_half_range 32 v ltac:(lia) Hv) as S.
  unfold w32. rewrite (Z.mod_small (Z.shiftr v 32)) by assumption.
  rewrite !pop32_dyn by lia.
  change 64%nat with (32 + 32)%nat. rewrite count_halves by lia. change (Z.of_nat 32) with 32. f_equal. lia.
Qed.

(** SWAR versions: a step on a double word is the step on both halves. *)
Definition cat (n a b : Z) : Z := a + 2 ^ n * b.

Lemma cat_bits : forall n a b i, 0 <= n -> 0 <= a < 2 ^ n -> 0 <= i ->
  Z.testbit (cat n a b) i = if i <? n then Z.testbit a i else Z.testbit b (i - n).
Proof.
  intros n a b i Hn Ha Hi. unfold cat.
  assert (P : 0 < 2 ^ n) by (apply Z.pow_pos_nonneg; lia).
  destruct (Z.ltb_spec i n).
  - rewrite <- (Z.mod_pow2_bits_low (a + 2 ^ n * b) n) by lia.
    rewrite Z.mul_comm, Z.mod_add, Z.mod_small by lia. reflexivity.
  - replace (Z.testbit b (i - n)) with (Z.testbit ((a + 2 ^ n * b) / 2 ^ n) (i - n)).
    + rewrite <- Z.shiftr_div_pow2, Z.shiftr_spec by lia. f_equal. lia.
    + f_equal. rewrite Z.mul_comm, Z.div_add, Z.div_small by lia. lia.
Qed.

Lemma land_cat : forall n a b c d, 0 <= n -> 0 <= a < 2 ^ n -> 0 <= c < 2 ^ n ->
  Z.land (cat n a b) (cat n c d) = cat n (Z.land a c) (Z.land b d).
Proof.
  intros n a b c d Hn Ha Hc. apply Z.bits_inj'. intros i Hi.
  rewrite Z.land_spec, !cat_bits by (auto; apply land_range_l; auto).
  destruct (i <? n); rewrite Z.land_spec; reflexivity.
Qed.

Lemma land_shiftr_cat : forall n k a b c d, 0 <= k <= n -> 0 <= a < 2 ^ n -> 0 <= c < 2 ^ (n - k) ->
  Z.land (Z.shiftr (cat n a b) k) (cat n c d) = cat n (Z.land (Z.shiftr a k) c) (Z.land (Z.shiftr b k) d).
Proof.
  intros n k a b c d Hk Ha Hc.
  assert (Hc' : 0 <= c < 2 ^ n).
  { split; [lia|]. apply Z.lt_le_trans with (2 ^ (n - k)); [lia|]. apply Z.pow_le_mono_r; lia. }
  apply Z.bits_inj'. intros i Hi.
  rewrite Z.land_spec, Z.shiftr_spec, !cat_bits by (auto; try lia; apply land_range_r; lia).
  destruct (Z.ltb_spec i n).
  - rewrite Z.land_spec, Z.shiftr_spec by lia. destruct (Z.ltb_spec (i + k) n); [reflexivity|].
    rewrite (testbit_small c (n - k)) by (auto; lia). rewrite !andb_false_r. reflexivity.
  - rewrite Z.land_spec, Z.shiftr_spec by lia.
    destruct (Z.ltb_spec (i + k) n); [lia|]. f_equal. f_equal. lia.
Qed.

Lemma pop_step_plain : forall w m k v, 0 <= w -> 0 <= m -> 2 * m < 2 ^ w ->
  pop_step w m k v = Z.land v m + Z.land (Z.shiftr v k) m /\ 0 <= pop_step w m k v <= 2 * m.
Proof.
  intros w m k v Hw Hm Hm2.
  assert (L : forall x, 0 <= Z.land x m <= m).
  { intros x. split; [apply Z.land_nonneg; lia|].
    assert (D : m - Z.land x m = Z.ldiff m (Z.land x m)).
    { apply Z.sub_nocarry_ldiff. apply Z.bits_inj'. intros i Hi.
      rewrite Z.ldiff_spec, Z.land_spec, Z.bits_0. destruct (Z.testbit x i), (Z.testbit m i); reflexivity. }
    assert (0 <= Z.ldiff m (Z.land x m)) by (apply Z.ldiff_nonneg; lia). lia. }
  unfold pop_step, wrap. pose proof (L v). pose proof (L (Z.shiftr v k)).
  rewrite Z.mod_small by lia. lia.
Qed.

Lemma pop_step_cat : forall n k m m2 w, 0 < k <= n -> w = n + n -> 0 <= m < 2 ^ (n - k) -> m2 = cat n m m ->
  forall a b, 0 <= a < 2 ^ n -> 0 <= b < 2 ^ n ->
  pop_step w m2 k (cat n a b) = cat n (pop_step n m k a) (pop_step n m k b) /\
  0 <= pop_step n m k a < 2 ^ n.
Proof.
  intros n k m m2 w Hk Hw Hm Hm2 a b Ha Hb.
  assert (P : 2 ^ n = 2 ^ (n - k) * 2 ^ k) by (rewrite <- Z.pow_add_r by lia; f_equal; lia).
  assert (Pk : 2 <= 2 ^ k) by (replace k with (1 + (k - 1)) by lia; rewrite Z.pow_add_r by lia;
    assert (0 < 2 ^ (k - 1)) by (apply Z.pow_pos_nonneg; lia); lia).
  assert (M2 : 2 * m < 2 ^ n) by nia.
  assert (PW : 2 ^ w = 2 ^ n * 2 ^ n) by (subst w; apply Z.pow_add_r; lia).
  assert (Q : 2 * m2 < 2 ^ w) by (rewrite PW, Hm2; unfold cat; nia).
  destruct (pop_step_plain n m k a ltac:(lia) ltac:(lia) M2) as [Ea Ba].
  destruct (pop_step_plain n m k b ltac:(lia) ltac:(lia) M2) as [Eb Bb].
  destruct (pop_step_plain w m2 k (cat n a b) ltac:(lia) ltac:(subst m2; unfold cat; nia) Q) as [E _].
  split; [|lia]. rewrite E, Ea, Eb, Hm2.
  rewrite land_cat by lia. rewrite land_shiftr_cat by lia. unfold cat. ring.
Qed.

Lemma cat_split : forall n v, 0 <= n -> 0 <= v -> v = cat n (v mod 2 ^ n) (Z.shiftr v n).
Proof.
  intros n v Hn Hv. unfold cat. rewrite Z.shiftr_div_pow2 by lia.
  pose proof (Z.div_mod v (2 ^ n) ltac:(apply Z.pow_nonzero; lia)). lia.
Qed.

Lemma pop_last : forall n w a b m, 0 < n -> w = n + n -> m = 2 ^ n - 1 ->
  0 <= a < 2 ^ n -> 0 <= b < 2 ^ n -> pop_step w m n (cat n a b) = a + b.
Proof.
  intros n w a b m Hn Hw Hm Ha Hb.
  assert (PW : 2 ^ w = 2 ^ n * 2 ^ n) by (subst w; apply Z.pow_add_r; lia).
  assert (2 <= 2 ^ n) by (replace n with (1 + (n - 1)) by lia; rewrite Z.pow_add_r by lia;
    assert (0 < 2 ^ (n - 1)) by (apply Z.pow_pos_nonneg; lia); lia).
  destruct (pop_step_plain w m n (cat n a b) ltac:(lia) ltac:(lia)) as [-> _]; [nia|].
  rewrite !(land_ones' _ _ n) by (try lia; rewrite Z.ones_equiv; lia).
  unfold cat. rewrite Z.shiftr_div_pow2 by lia.
  rewrite (Z.mul_comm (2 ^ n)). rewrite Z.div_add, Z.mod_add by lia.
  rewrite Z.div_small by lia. rewrite Z.add_0_l, !Z.mod_small by lia. reflexivity.
Qed.

Lemma pop8_const : forall v, 0 <= v < 2 ^ 8 -> popcount8_const v = count_ones 8 v.
Proof.
  intros v Hv. change (2 ^ 8) with 256 in Hv.
  assert (H : all_below 256 (fun v => popcount8_const v =? count_ones 8 v) = true) by (vm_compute; reflexivity).
  apply Z.eqb_eq. exact (all_below_spec _ _ H v Hv).
Qed.

Lemma count_le : forall n v, 0 <= count_ones n v <= Z.of_nat n.
Proof. intros. unfold count_ones, zlen. pose proof (positions_length n v). lia. Qed.

Lemma pop16_const : forall v, 0 <= v < 2 ^ 16 -> popcount16_const v = count_ones 16 v.
Proof.
  intros v Hv. change 16%nat with (8 + 8)%nat. rewrite count_halves by lia. change (Z.of_nat 8) with 8.
  pose proof (shiftr_half_range 8 v ltac:(lia) Hv) as S.
  pose proof (Z.mod_pos_bound v (2 ^ 8) ltac:(lia)) as M.
  rewrite (cat_split 8 v) at 1 by lia. set (a := v mod 2 ^ 8) in *. set (b := Z.shiftr v 8) in *.
  rewrite <- !pop8_const by assumption. unfold popcount16_const, popcount8_const. clearbody a b. cbv zeta.
  destruct (pop_step_cat 8 1 0x55 0x5555 16 ltac:(lia) eq_refl ltac:(lia) eq_refl a b M S) as [-> R1].
  destruct (pop_step_cat 8 1 0x55 0x5555 16 ltac:(lia) eq_refl ltac:(lia) eq_refl b a S M) as [_ R2].
  set (a1 := pop_step 8 0x55 1 a) in *. set (b1 := pop_step 8 0x55 1 b) in *. clearbody a1 b1.
  destruct (pop_step_cat 8 2 0x33 0x3333 16 ltac:(lia) eq_refl ltac:(lia) eq_refl a1 b1 R1 R2) as [-> R3].
  destruct (pop_step_cat 8 2 0x33 0x3333 16 ltac:(lia) eq_refl ltac:(lia) eq_refl b1 a1 R2 R1) as [_ R4].
  set (a2 := pop_step 8 0x33 2 a1) in *. set (b2 := pop_step 8 0x33 2 b1) in *. clearbody a2 b2.
  destruct (pop_step_cat 8 4 0x0f 0x0f0f 16 ltac:(lia) eq_refl ltac:(lia) eq_refl a2 b2 R3 R4) as [-> R5].
  destruct (pop_step_cat 8 4 0x0f 0x0f0f 16 ltac:(lia) eq_refl ltac:(lia) eq_refl b2 a2 R4 R3) as [_ R6].
  apply pop_last; auto; lia.
Qed.

Lemma pop32_const : forall v, 0 <= v < 2 ^ 32 -> popcount32_const v = count_ones 32 v.
Proof.
  intros v Hv. change 32%nat with (16 + 16)%nat. rewrite count_halves by lia. change (Z.of_nat 16) with 16.
  pose proof (shiftr_half_range 16 v ltac:(lia) Hv) as S.
  pose proof (Z.mod_pos_bound v (2 ^ 16) ltac:(lia)) as M.
  rewrite (cat_split 16 v) at 1 by lia. set (a := v mod 2 ^ 16) in *. set (b := Z.shiftr v 16) in *.
  rewrite <- !pop16_const by assumption. unfold popcount32_const, popcount16_const. clearbody a b. cbv zeta.
  destruct (pop_step_cat 16 1 0x5555 0x55555555 32 ltac:(lia) eq_refl ltac:(lia) eq_refl a b M S) as [-> R1].
  destruct (pop_step_cat 16 1 0x5555 0x55555555 32 ltac:(lia) eq_refl ltac:(lia) eq_refl b a S M) as [_ R2].
  set (a1 := pop_step 16 0x5555 1 a) in *. set (b1 := pop_step 16 0x5555 1 b) in *. clearbody a1 b1.
  destruct (pop_step_cat 16 2 0x3333 0x33333333 32 ltac:(lia) eq_refl ltac:(lia) eq_refl a1 b1 R1 R2) as [-> R3].
  destruct (pop_step_cat 16 2 0x3333 0x33333333 32 ltac:(lia) eq_refl ltac:(lia) eq_refl b1 a1 R2 R1) as [_ R4].
  set (a2 := pop_step 16 0x3333 2 a1) in *. set (b2 := pop_step 16 0x3333 2 b1) in *. clearbody a2 b2.
  destruct (pop_step_cat 16 4 0x0f0f 0x0f0f0f0f 32 ltac:(lia) eq_refl ltac:(lia) eq_refl a2 b2 R3 R4) as [-> R5].
  destruct (pop_step_cat 16 4 0x0f0f 0x0f0f0f0f 32 ltac:(lia) eq_refl ltac:(lia) eq_refl b2 a2 R4 R3) as [_ R6].
  set (a3 := pop_step 16 0x0f0f 4 a2) in *. set (b3 := pop_step 16 0x0f0f 4 b2) in *. clearbody a3 b3.
  destruct (pop_step_cat 16 8 0x00ff 0x00ff00ff 32 ltac:(lia) eq_refl ltac:(lia) eq_refl a3 b3 R5 R6) as [-> R7].
  destruct (pop_step_cat 16 8 0x00ff 0x00ff00ff 32 ltac:(lia) eq_refl ltac:(lia) eq_refl b3 a3 R6 R5) as [_ R8].
  apply pop_last; auto; lia.
Qed.

Lemma pop64_const : forall v, 0 <= v < 2 ^ 64 -> popcount64_const v = count_ones 64 v.
Proof.
  intros v Hv. change 64%nat with (32 + 32)%nat. rewrite count_halves by lia. change (Z.of_nat 32) with 32.
  pose proof (shiftr_half_range 32 v ltac:(lia) Hv) as S.
  pose proof (Z.mod_pos_bound v (2 ^ 32) ltac:(lia)) as M.
  rewrite (cat_split 32 v) at 1 by lia. set (a := v mod 2 ^ 32) in *. set (b := Z.shiftr v 32) in *.
  rewrite <- !pop32_const by assumption. unfold popcount64_const, popcount32_const. clearbody a b. cbv zeta.
  destruct (pop_step_cat 32 1 0x55555555 0x5555555555555555 64 ltac:(lia) eq_refl ltac:(lia) eq_refl a b M S) as [-> R1].
  destruct (pop_step_cat 32 1 0x55555555 0x5555555555555555 64 ltac:(lia) eq_refl ltac:(lia) eq_refl b a S M) as [_ R2].
  set (a1 := pop_step 32 0x55555555 1 a) in *. set (b1 := pop_step 32 0x55555555 1 b) in *. clearbody a1 b1.
  destruct (pop_step_cat 32 2 0x33333333 0x3333333333333333 64 ltac:(lia) eq_refl ltac:(lia) eq_refl a1 b1 R1 R2) as [-> R3].
  destruct (pop_step_cat 32 2 0x33333333 0x3333333333333333 64 ltac:(lia) eq_refl ltac:(lia) eq_refl b1 a1 R2 R1) as [_ R4].
  set (a2 := pop_step 32 0x33333333 2 a1) in *. set (b2 := pop_step 32 0x33333333 2 b1) in *. clearbody a2 b2.
  destruct (pop_step_cat 32 4 0x0f0f0f0f 0x0f0f0f0f0f0f0f0f 64 ltac:(lia) eq_refl ltac:(lia) eq_refl a2 b2 R3 R4) as [-> R5].
  destruct (pop_step_cat 32 4 0x0f0f0f0f 0x0f0f0f0f0f0f0f0f 64 ltac:(lia) eq_refl ltac:(lia) eq_refl b2 a2 R4 R3) as [_ R6].
  set (a3 := pop_step 32 0x0f0f0f0f 4 a2) in *. set (b3 := pop_step 32 0x0f0f0f0f 4 b2) in *. clearbody a3 b3.
  destruct (pop_step_cat 32 8 0x00ff00ff 0x00ff00ff00ff00ff 64 ltac:(lia) eq_refl ltac:(lia) eq_refl a3 b3 R5 R6) as [-> R7].
  destruct (pop_step_cat 32 8 0x00ff00ff 0x00ff00ff00ff00ff 64 ltac:(lia) eq_refl ltac:(lia) eq_refl b3 a3 R6 R5) as [_ R8].
  set (a4 := pop_step 32 0x00ff00ff 8 a3) in *. set (b4 := pop_step 32 0x00ff00ff 8 b3) in *. clearbody a4 b4.
  destruct (pop_step_cat 32 16 0x0000ffff 0x0000ffff0000ffff 64 ltac:(lia) eq_refl ltac:(lia) eq_refl a4 b4 R7 R8) as [-> R9].
  destruct (pop_step_cat 32 16 0x0000ffff 0x0000ffff0000ffff 64 ltac:(lia) eq_refl ltac:(lia) eq_refl b4 a4 R8 R7) as [_ R10].
  apply pop_last; auto; lia.
Qed.

(** ** Parity *)
Notation parity n v := (Z.odd (count_ones n v)) (only parsing).

Lemma parity_split : forall n m v, parity (n + m) v = xorb (parity n v) (parity m (Z.shiftr v (Z.of_nat n))).
Proof. intros. rewrite count_split. apply Z.odd_add. Qed.

Lemma count_succ : forall n v, count_ones (S n) v = count_ones n v + Z.b2z (Z.testbit v (Z.of_nat n)).
Proof.
  intros n v. replace (S n) with (n + 1)%nat by lia. rewrite count_split. f_equal.
  unfold count_ones, set_positions. cbn [zseq filter]. rewrite Z.shiftr_spec by lia. rewrite Z.add_0_l.
  destruct (Z.testbit v (Z.of_nat n)); reflexivity.
Qed.

Lemma parity_lxor : forall n a b, parity n (Z.lxor a b) = xorb (parity n a) (parity n b).
Proof.
  induction n as [|n IH]; intros a b; [reflexivity|].
  rewrite !count_succ, !Z.odd_add, IH, Z.lxor_spec.
  destruct (Z.odd (count_ones n a)), (Z.odd (count_ones n b)), (Z.testbit a (Z.of_nat n)), (Z.testbit b (Z.of_nat n)); reflexivity.
Qed.

Lemma parity_fold : forall n v, parity (n + n) v = parity n (xor_step (Z.of_nat n) v).
Proof. intros. rewrite parity_split. unfold xor_step. rewrite parity_lxor. reflexivity. Qed.

Lemma parity_tail_ok : forall v, 0 <= v -> parity_tail v = parity 4 v.
Proof.
  intros v Hv. unfold parity_tail. rewrite (land_ones' _ _ 4) by (auto; lia).
  assert (M : 0 <= v mod 2 ^ 4 < 16) by (apply Z.mod_pos_bound; lia).
  assert (E : parity 4 v = parity 4 (v mod 2 ^ 4)).
  { f_equal. apply count_low. intros i Hi. rewrite half_bits by lia.
    replace (i <? 4) with true by (symmetry; apply Z.ltb_lt; lia). reflexivity. }
  rewrite E. set (x := v mod 2 ^ 4) in *. clearbody x.
  assert (H : all_below 16 (fun x => Bool.eqb (Z.odd (Z.shiftr 0x6996 x)) (parity 4 x)) = true) by (vm_compute; reflexivity).
  apply Bool.eqb_prop. exact (all_below_spec _ _ H x M).
Qed.

Lemma xor_step_nonneg : forall k v, 0 <= v -> 0 <= xor_step k v.
Proof.
  intros. unfold xor_step. apply Z.lxor_nonneg. assert (0 <= Z.shiftr v k) by (apply Z.shiftr_nonneg; lia). lia.
Qed.

Lemma parity8_const : forall v, 0 <= v -> popparity8_const v = parity 8 v.
Proof.
  intros v Hv. unfold popparity8_const. rewrite parity_tail_ok by (apply xor_step_nonneg; lia).
  symmetry. apply (parity_fold 4).
Qed.
Lemma parity16_const : forall v, 0 <= v -> popparity16_const v = parity 16 v.
Proof.
  intros v Hv. change (popparity16_const v) with (popparity8_const (xor_step 8 v)).
  rewrite parity8_const by (apply xor_step_nonneg; lia). symmetry. apply (parity_fold 8).
Qed.
Lemma parity32_const : forall v, 0 <= v -> popparity32_const v = parity 32 v.
Proof.
  intros v Hv. change (popparity32_const v) with (popparity16_const (xor_step 16 v)).
  rewrite parity16_const by (apply xor_step_nonneg; lia). symmetry. apply (parity_fold 16).
Qed.
Lemma parity64_const : forall v, 0 <= v -> popparity64_const v = parity 64 v.
Proof.
  intros v Hv. change (popparity64_const v) with (popparity32_const (xor_step 32 v)).
  rewrite parity32_const by (apply xor_step_nonneg; lia). symmetry. apply (parity_fold 32).
Qed.

Lemma add_parity_xor : forall a b, add_parity a b = xorb a b.
Proof. destruct a, b; reflexivity. Qed.
Lemma parity_halves : forall n v, 0 <= v ->
  parity (n + n) v = xorb (parity n (v mod 2 ^ Z.of_nat n)) (parity n (Z.shiftr v (Z.of_nat n))).
Proof. intros. rewrite count_halves by assumption. apply Z.odd_add. Qed.

Lemma parity8_dyn : forall v, 0 <= v < 256 -> popparity8_dynamic v = Some (parity 8 v).
Proof.
  intros v Hv.
  assert (H : all_below 256 (fun v => match popparity8_dynamic v with Some c => Bool.eqb c (parity 8 v) | None => false end) = true)
    by (vm_compute; reflexivity).
  pose proof (all_below_spec _ _ H v Hv) as Q. cbv beta in Q. clear H.
  destruct (popparity8_dynamic v); [|discriminate]. apply Bool.eqb_prop in Q. congruence.
Qed.
Lemma parity16_dyn : forall v, 0 <= v < 2 ^ 16 -> popparity16_dynamic v = Some (parity 16 v).
Proof.
  intros v Hv. unfold popparity16_dynamic.
  pose proof (shiftr_half_range 8 v ltac:(lia) Hv) as S.
  unfold w8. rewrite (Z.mod_small (Z.shiftr v 8)) by assumption.
  rewrite !parity8_dyn by (change 256 with (2 ^ 8); lia). rewrite add_parity_xor.
  change 16%nat with (8 + 8)%nat. rewrite parity_halves by lia. reflexivity.
Qed.
Lemma parity32_dyn : forall v, 0 <= v < 2 ^ 32 -> popparity32_dynamic v = Some (parity 32 v).
Proof.
  intros v Hv. unfold popparity32_dynamic.
  pose proof (shiftr_half_range 16 v ltac:(lia) Hv) as S.
  unfold w16. rewrite (Z.mod_small (Z.shiftr v 16)) by assumption.
  rewrite !parity16_dyn by lia. rewrite add_parity_xor.
  change 32%nat with (16 + 16)%nat. rewrite parity_halves by lia. reflexivity.
Qed.
Lemma parity64_dyn : forall v, 0 <= v < 2 ^ 64 -> popparity64_dynamic v = Some (parity 64 v).
Proof.
  intros v Hv. unfold popparity64_dynamic.
  pose proof (shiftr_half_range 32 v ltac:(lia) Hv) as S.
  unfold w32. rewrite (Z.mod_small (Z.shiftr v 32)) by assumption.
  rewrite !parity32_dyn by lia. rewrite add_parity_xor.
  change 64%nat with (32 + 32)%nat. rewrite parity_halves by lia. reflexivity.
Qed.

(** ** Dynamic bit reversal *)
Definition reverses (w : Z) (f : Z -> option Z) : Prop :=
  forall v, 0 <= v < 2 ^ w -> exists r, f v = Some r /\ 0 <= r < 2 ^ w /\
    forall i, 0 <= i < w -> Z.testbit r i = Z.testbit v (w - 1 - i).

Lemma rev8_dyn : reverses 8 bitrev8_dynamic.
Proof.
  intros v Hv. change (2 ^ 8) with 256 in *.
  assert (H : all_below 256 (fun v => match bitrev8_dynamic v with
     | Some r => (0 <=? r) && (r <? 256) && all_below 8 (fun i => Bool.eqb (Z.testbit r i) (Z.testbit v (7 - i)))
     | None => false end) = true) by (vm_compute; reflexivity).
  pose proof (all_below_spec _ _ H v Hv) as Q. cbv beta in Q. clear H.
  destruct (bitrev8_dynamic v) as [r|]; [|discriminate].
  apply andb_prop in Q. destruct Q as [Q Q3]. apply andb_prop in Q. destruct Q as [Q1 Q2].
  exists r. split; [reflexivity|]. split; [lia|].
  intros i Hi. apply Bool.eqb_prop. exact (all_below_spec _ _ Q3 i Hi).
Qed.

Lemma rev_double : forall n f, 0 < n -> reverses n f ->
  reverses (n + n) (fun v => let* a := f (v mod 2 ^ n) in
                             let* b := f (Z.shiftr v n mod 2 ^ n) in
                             Some (Z.lor (Z.shiftl a n) b mod 2 ^ (n + n))).
Proof.
  intros n f Hn R v Hv.
  pose proof (shiftr_half_range n v ltac:(lia) Hv) as S.
  assert (P : 0 < 2 ^ n) by (apply Z.pow_pos_nonneg; lia).
  pose proof (Z.mod_pos_bound v (2 ^ n) P) as M.
  rewrite (Z.mod_small (Z.shiftr v n)) by assumption.
  destruct (R _ M) as (a & -> & Ra & Ba). destruct (R _ S) as (b & -> & Rb & Bb).
  eexists. split; [reflexivity|]. split; [apply wrap_range; lia|].
  intros i Hi. rewrite half_bits by lia. replace (i <? n + n) with true by (symmetry; apply Z.ltb_lt; lia).
  cbn [andb]. rewrite Z.lor_spec, Z.shiftl_spec by lia. destruct (Z_lt_dec i n).
  - rewrite (Z.testbit_neg_r a) by lia. cbn [orb]. rewrite Bb by lia. rewrite Z.shiftr_spec by lia. f_equal. lia.
  - rewrite (testbit_small b n) by (auto; lia). rewrite orb_false_r. rewrite Ba by lia.
    rewrite half_bits by lia. replace (n - 1 - (i - n) <? n) with true by (symmetry; apply Z.ltb_lt; lia).
    cbn [andb]. f_equal. lia.
Qed.

Lemma rev16_dyn : reverses 16 bitrev16_dynamic.
Proof.
  intros v Hv. destruct (rev_double 8 _ ltac:(lia) rev8_dyn v Hv) as (r & E & R).
  exists r. split; [|exact R]. rewrite <- E. unfold bitrev16_dynamic.
  rewrite (land_ones' _ _ 8) by (auto; lia). reflexivity.
Qed.
Lemma rev32_dyn : reverses 32 bitrev32_dynamic.
Proof.
  intros v Hv. destruct (rev_double 16 _ ltac:(lia) rev16_dyn v Hv) as (r & E & R).
  exists r. split; [|exact R]. rewrite <- E. unfold bitrev32_dynamic.
  rewrite (land_ones' _ _ 16) by (auto; lia). reflexivity.
Qed.
Lemma rev64_dyn : reverses 64 bitrev64_dynamic.
Proof.
  intros v Hv. destruct (rev_double 32 _ ltac:(lia) rev32_dyn v Hv) as (r & E & R).
  exists r. split; [|exact R]. rewrite <- E. unfold bitrev64_dynamic.
  rewrite (land_ones' _ _ 32) by (auto; lia). reflexivity.
Qed.
