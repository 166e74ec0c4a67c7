From Verif Require Import Lib BitsModel BitsSpec BitsProofs BitmapModel BitmapSpec.
Ltac Zify.zify_post_hook ::= Z.div_mod_to_equations.

Definition nmax : Z := 2 ^ 32 - 64.

Lemma to_long_nwords : forall bits, 0 <= bits <= nmax -> bits_to_long bits = nwords bits.
Proof. intros bits H. unfold nmax in H. unfold bits_to_long, nwords. rewrite w32_small by lia. reflexivity. Qed.

Lemma LOW_MASK_bits : forall n j, 0 <= n -> n mod 64 <> 0 -> 0 <= j -> Z.testbit (LOW_MASK n) j = (j <? n mod 64).
Proof.
  intros n j Hn Hm Hj. unfold LOW_MASK.
  rewrite (land_ones' _ 63 6) by (auto; lia). change (2 ^ 6) with 64.
  assert (E : w64 (- n) mod 64 = 64 - n mod 64).
  { unfold w64. rewrite <- (Znumtheory.Zmod_div_mod 64 (2 ^ 64) (- n)); [|lia|lia|exists (2 ^ 58); reflexivity].
    apply Z_mod_nz_opp_full. assumption. }
  rewrite E. pose proof (Z.mod_pos_bound n 64 ltac:(lia)). rewrite Z.shiftr_spec by lia.
  rewrite ulong_max_bits by lia. destruct (Z.ltb_spec j (n mod 64)); [apply Z.ltb_lt|apply Z.ltb_ge]; lia.
Qed.
Lemma LOW_MASK_full : forall n, n mod 64 = 0 -> LOW_MASK n = ULONG_MAX.
Proof.
  intros n Hm. unfold LOW_MASK.
  rewrite (land_ones' _ 63 6) by (auto; lia). change (2 ^ 6) with 64.
  assert (E : w64 (- n) mod 64 = 0).
  { unfold w64. rewrite <- (Znumtheory.Zmod_div_mod 64 (2 ^ 64) (- n)); [|lia|lia|exists (2 ^ 58); reflexivity].
    apply Z_mod_zero_opp_full. assumption. }
  rewrite E. reflexivity.
Qed.
Lemma LOW_MASK_range : forall n, 0 <= LOW_MASK n < 2 ^ 64.
Proof.
  intros n. unfold LOW_MASK. set (k := Z.land (w64 (- n)) 63).
  assert (0 <= k) by (apply Z.land_nonneg; lia). rewrite Z.shiftr_div_pow2 by lia.
  assert (0 < 2 ^ k) by (apply Z.pow_pos_nonneg; lia). unfold ULONG_MAX.
  split; [apply Z.div_pos; lia|]. apply Z.div_lt_upper_bound; nia.
Qed.
Lemma HIGH_MASK_bits : forall n j, 0 <= j < 64 -> Z.testbit (HIGH_MASK n) j = (n mod 64 <=? j).
Proof.
  intros n j Hj. unfold HIGH_MASK. rewrite (land_ones' _ 63 6) by (auto; lia). change (2 ^ 6) with 64.
  rewrite w64_bits by lia. replace (j <? 64) with true by (symmetry; apply Z.ltb_lt; lia). cbn [andb].
  pose proof (Z.mod_pos_bound n 64 ltac:(lia)).
  rewrite Z.shiftl_spec by lia. destruct (Z.leb_spec (n mod 64) j).
  - rewrite ulong_max_bits by lia. apply Z.ltb_lt. lia.
  - apply Z.testbit_neg_r. lia.
Qed.
Lemma HIGH_MASK_range : forall n, 0 <= HIGH_MASK n < 2 ^ 64.
Proof. intros. apply w64_range. Qed.

Lemma rd_u64 : forall m i w, Forall u64 m -> rd m i = Some w -> 0 <= w < 2 ^ 64.
Proof. intros m i w H E. apply rd_in in E. rewrite Forall_forall in H. exact (H _ E). Qed.

Lemma wr_u64 : forall m i w m', Forall u64 m -> u64 w -> wr m i w = Some m' -> Forall u64 m'.
Proof.
  intros m i w m' H Hw E. destruct (wr_inv _ _ _ _ _ E) as (R & L & RR).
  apply Forall_forall. intros y Hy. apply In_nth_error in Hy. destruct Hy as [n Hn].
  assert (RD : rd m' (Z.of_nat n) = Some y).
  { unfold rd. replace (Z.of_nat n <? 0) with false by (symmetry; apply Z.ltb_ge; lia). rewrite Nat2Z.id. exact Hn. }
  rewrite RR in RD. destruct (Z.of_nat n =? i).
  - injection RD as <-. exact Hw.
  - eapply rd_u64; eauto.
Qed.

(** Bits of memory after a word has been written. *)
Lemma mbit_wr : forall m d i w m' k, wr m (d + i) w = Some m' ->
  mbit m' d k = if k / 64 =? i then Z.testbit w (k mod 64) else mbit m d k.
Proof.
  intros m d i w m' k E. destruct (wr_inv _ _ _ _ _ E) as (R & L & RR).
  unfold mbit. rewrite RR. destruct (Z.eqb_spec (k / 64) i) as [->|N].
  - rewrite Z.eqb_refl. reflexivity.
  - replace (d + k / 64 =? d + i) with false by (symmetry; apply Z.eqb_neq; lia). reflexivity.
Qed.

(** ** store_all *)
Definition agrees_outside (m m' : list Z) (lo hi : Z) : Prop :=
  zlen m' = zlen m /\ forall a, ~ (lo <= a < hi) -> rd m' a = rd m a.

Definition value_ok (value : list Z -> Z -> option Z) (m : list Z) (d bits : Z) (G : Z -> bool) : Prop :=
  forall i m', 0 <= i < nwords bits -> agrees_outside m m' d (d + i) ->
    exists w, value m' i = Some w /\ u64 w /\ forall j, 0 <= j < 64 -> Z.testbit w j = G (64 * i + j).

Lemma word_zero : forall w, u64 w -> (w = 0 <-> forall j, 0 <= j < 64 -> Z.testbit w j = false).
Proof.
  intros w Hw. split.
  - intros -> j _. apply Z.bits_0.
  - intros H. apply (word_ext 64); auto; [lia|]. intros i Hi. rewrite Z.bits_0. auto.
Qed.

Lemma store_loop_spec : forall value m d bits G, value_ok value m d bits G ->
  forall n index m1 r, 0 <= index -> 0 <= d -> index + Z.of_nat n <= nwords bits -> d + nwords bits <= zlen m ->
  Forall u64 m1 -> agrees_outside m m1 d (d + index) ->
  (forall i, 0 <= i < 64 * index -> mbit m1 d i = G i) ->
  exists m2 r2, store_loop n index value d m1 r = Some (m2, r2) /\ Forall u64 m2 /\
    agrees_outside m m2 d (d + index + Z.of_nat n) /\
    (forall i, 0 <= i < 64 * (index + Z.of_nat n) -> mbit m2 d i = G i) /\
    (r2 = 0 <-> r = 0 /\ forall i, 64 * index <= i < 64 * (index + Z.of_nat n) -> G i = false).
Proof.
  intros value m d bits G V. induction n as [|n IH]; intros index m1 r Hi Hd Hn Hl U A B; cbn [store_loop].
  - exists m1, r. split; [reflexivity|]. split; [assumption|]. rewrite !Z.add_0_r in *.
    split; [assumption|]. split; [assumption|]. split; [|tauto]. intros ->. split; [reflexivity|]. intros i Hi2. lia.
  - destruct (V index m1 ltac:(lia) A) as (w & -> & Uw & Bw). destruct A as [A1 A2].
    destruct (wr_spec _ m1 (d + index) w ltac:(lia)) as (m' & E & L & R). rewrite E.
    destruct (IH (index + 1) m' (Z.lor r w)) as (m2 & r2 & E2 & U2 & AO & B2 & RZ); auto; try lia.
    + eapply wr_u64; eauto.
    + split; [lia|]. intros a Ha. rewrite R. replace (a =? d + index) with false by (symmetry; apply Z.eqb_neq; lia).
      apply A2. lia.
    + intros i Hi2. rewrite (mbit_wr _ _ _ _ _ _ E). destruct (Z.eqb_spec (i / 64) index) as [Q|Q].
      * rewrite Bw by lia. f_equal. lia.
      * apply B. lia.
    + exists m2, r2. split; [exact E2|]. split; [exact U2|].
      replace (d + index + Z.of_nat (S n)) with (d + (index + 1) + Z.of_nat n) by lia.
      split; [exact AO|]. replace (index + Z.of_nat (S n)) with (index + 1 + Z.of_nat n) by lia.
      split; [exact B2|]. rewrite RZ, Z.lor_eq_0_iff, (word_zero w Uw). split.
      * intros [[Hr Hw] H]. split; [exact Hr|]. intros i Hi2. destruct (Z_lt_dec i (64 * (index + 1))).
        -- specialize (Hw (i - 64 * index) ltac:(lia)). rewrite Bw in Hw by lia. rewrite <- Hw. f_equal. lia.
        -- apply H. lia.
      * intros [Hr H]. split; [split; [exact Hr|]|].
        -- intros j Hj. rewrite Bw by lia. apply H. lia.
        -- intros i Hi2. apply H. lia.
Qed.

Lemma store_all_spec : forall value m d bits G, value_ok value m d bits G ->
  0 <= bits <= nmax -> Forall u64 m -> in_mem m d bits ->
  exists m' r, store_all value m d bits = Some (m', r) /\ bitmap_is m d bits G m' /\
    (r = 0 <-> forall i, 0 <= i < bits -> G i = false).
Proof.
  intros value m d bits G V Hb U [I1 I2]. unfold store_all.
  assert (NW : nwords bits = bits / 64 + (if bits mod 64 =? 0 then 0 else 1)).
  { unfold nwords. destruct (Z.eqb_spec (bits mod 64) 0); lia. }
  assert (0 <= bits / 64 <= nwords bits) by (destruct (bits mod 64 =? 0); lia).
  destruct (store_loop_spec value m d bits G V (Z.to_nat (bits / 64)) 0 m 0) as (m2 & r2 & E & U2 & AO & B2 & RZ);
    auto; try lia.
  { split; auto. }
  rewrite E. rewrite Z2Nat.id, ?Z.add_0_l, ?Z.add_0_r in * by lia.
  destruct (Z.eqb_spec (bits mod 64) 0) as [M|M].
  - exists m2, r2. split; [reflexivity|]. destruct AO as [L R].
    split.
    + split; [exact L|]. split; [exact U2|]. split; [intros i Hi; apply B2; lia|]. split; [intros i Hi; lia|].
      intros a Ha. apply R. lia.
    + rewrite RZ. split; [intros [_ H2] i Hi; apply H2; lia|]. intros H2. split; [reflexivity|]. intros i Hi. apply H2. lia.
  - destruct (V (bits / 64) m2 ltac:(lia) AO) as (w & -> & Uw & Bw). destruct AO as [L R].
    set (v := Z.land w (LOW_MASK bits)).
    assert (Uv : u64 v) by (apply land_range_l; [lia|exact Uw]).
    assert (Bv : forall j, 0 <= j < 64 -> Z.testbit v j = G (64 * (bits / 64) + j) && (j <? bits mod 64)).
    { intros j Hj. unfold v. rewrite Z.land_spec, LOW_MASK_bits, Bw by lia. reflexivity. }
    clearbody v.
    destruct (wr_spec _ m2 (d + bits / 64) v ltac:(lia)) as (m' & E2 & L' & R'). rewrite E2.
    exists m', (Z.lor r2 v). split; [reflexivity|]. split.
    + split; [lia|]. split; [eapply wr_u64; eauto|]. split; [|split].
      * intros i Hi. rewrite (mbit_wr _ _ _ _ _ _ E2). destruct (Z.eqb_spec (i / 64) (bits / 64)) as [Q|Q].
        -- rewrite Bv by lia. replace (i mod 64 <? bits mod 64) with true by (symmetry; apply Z.ltb_lt; lia).
           rewrite andb_true_r. f_equal. lia.
        -- apply B2. lia.
      * intros i Hi. rewrite (mbit_wr _ _ _ _ _ _ E2). replace (i / 64 =? bits / 64) with true by (symmetry; apply Z.eqb_eq; lia).
        rewrite Bv by lia. replace (i mod 64 <? bits mod 64) with false by (symmetry; apply Z.ltb_ge; lia).
        apply andb_false_r.
      * intros a Ha. rewrite R'. replace (a =? d + bits / 64) with false by (symmetry; apply Z.eqb_neq; lia).
        apply R. lia.
    + rewrite Z.lor_eq_0_iff, RZ, (word_zero v Uv). split.
      * intros [[_ H1] H2] i Hi. destruct (Z_lt_dec i (64 * (bits / 64))); [apply H1; lia|].
        specialize (H2 (i mod 64) ltac:(lia)). rewrite Bv in H2 by lia.
        replace (i mod 64 <? bits mod 64) with true in H2 by (symmetry; apply Z.ltb_lt; lia).
        rewrite andb_true_r in H2. rewrite <- H2. f_equal. lia.
      * intros H1. split; [split; [reflexivity|]|].
        -- intros i Hi. apply H1. lia.
        -- intros j Hj. rewrite Bv by lia. destruct (Z.ltb_spec j (bits mod 64)); [|apply andb_false_r].
           rewrite H1 by lia. reflexivity.
Qed.

(** Sources that are the destination or disjoint from it are still intact when read. *)
Lemma src_word : forall m m' d s bits i, Forall u64 m -> in_mem m s bits -> same_or_disjoint d s bits ->
  0 <= i < nwords bits -> agrees_outside m m' d (d + i) ->
  exists w, rd m' (s + i) = Some w /\ u64 w /\ forall j, 0 <= j < 64 -> Z.testbit w j = mbit m s (64 * i + j).
Proof.
  intros m m' d s bits i U [I1 I2] SD Hi [L R].
  rewrite R by (destruct SD as [->|[|]]; lia).
  destruct (rd_some _ m (s + i) ltac:(lia)) as [w E]. exists w. split; [exact E|].
  split; [eapply rd_u64; eauto|]. intros j Hj. unfold mbit.
  replace ((64 * i + j) / 64) with i by lia. rewrite E. f_equal. lia.
Qed.

(** ** scan_loop *)
Lemma scan_loop_spec : forall (G : Z -> bool) hit n index,
  (forall i, index <= i < index + Z.of_nat n -> exists h, hit i = Some h /\
     (h = true <-> exists j, 0 <= j < 64 /\ G (64 * i + j) = true)) ->
  exists r, scan_loop n index hit = Some r /\
    (r = true <-> exists k, 64 * index <= k < 64 * (index + Z.of_nat n) /\ G k = true).
Proof.
  intros G hit. induction n as [|n IH]; intros index H; cbn [scan_loop].
  - exists false. split; [reflexivity|]. split; [discriminate|]. intros (k & Hk & _). lia.
  - destruct (H index ltac:(lia)) as (h & -> & Hh). destruct h.
    + exists true. split; [reflexivity|]. split; [|reflexivity]. intros _.
      destruct (proj1 Hh eq_refl) as (j & Hj & E). exists (64 * index + j). split; [lia|exact E].
    + destruct (IH (index + 1)) as (r & E & Hr). { intros i Hi. apply H. lia. }
      exists r. split; [exact E|]. rewrite Hr. split.
      * intros (k & Hk & E2). exists k. split; [lia|exact E2].
      * intros (k & Hk & E2). destruct (Z_lt_dec k (64 * (index + 1))).
        -- exfalso. assert (false = true) by (apply Hh; exists (k - 64 * index); split; [lia|]; rewrite <- E2; f_equal; lia).
           discriminate.
        -- exists k. split; [lia|exact E2].
Qed.

Lemma nonzero_bits : forall w, u64 w -> (negb (w =? 0) = true <-> exists j, 0 <= j < 64 /\ Z.testbit w j = true).
Proof.
  intros w Hw. rewrite negb_true_iff, Z.eqb_neq. split.
  - intros Hz. destruct (flsuf_spec w ltac:(unfold u64 in Hw; lia)) as [(A & B & _) C]. exists (flsuf w). auto with zarith.
  - intros (j & Hj & E) ->. rewrite Z.bits_0 in E. discriminate.
Qed.

(** Whole comparison: [hit] looks at full words, [tail] is the word of the partial end. *)
Lemma scan_all : forall (G : Z -> bool) hit bits (tailv : option Z),
  0 <= bits ->
  (forall i, 0 <= i < bits / 64 -> exists h, hit i = Some h /\
     (h = true <-> exists j, 0 <= j < 64 /\ G (64 * i + j) = true)) ->
  (bits mod 64 <> 0 -> exists w, tailv = Some w /\ u64 w /\ forall j, 0 <= j < 64 -> Z.testbit w j = G (64 * (bits / 64) + j)) ->
  exists r, (let* h := scan_loop (Z.to_nat (bits / 64)) 0 hit in
             if h then Some true else if bits mod 64 =? 0 then Some false
             else let* v := tailv in Some (negb (Z.land v (LOW_MASK bits) =? 0))) = Some r /\
    (r = true <-> exists k, 0 <= k < bits /\ G k = true).
Proof.
  intros G hit bits tailv Hb H T.
  destruct (scan_loop_spec G hit (Z.to_nat (bits / 64)) 0) as (r & -> & Hr).
  { intros i Hi. apply H. lia. }
  rewrite Z2Nat.id in Hr by lia. destruct r.
  - exists true. split; [reflexivity|]. split; [|reflexivity]. intros _. destruct (proj1 Hr eq_refl) as (k & Hk & E).
    exists k. split; [lia|exact E].
  - assert (F : forall k, 0 <= k < 64 * (bits / 64) -> G k = false).
    { intros k Hk. destruct (G k) eqn:E; [|reflexivity]. assert (false = true) by (apply Hr; exists k; split; [lia|exact E]). discriminate. }
    destruct (Z.eqb_spec (bits mod 64) 0) as [M|M].
    + exists false. split; [reflexivity|]. split; [discriminate|]. intros (k & Hk & E). rewrite F in E by lia. discriminate.
    + destruct (T M) as (w & -> & Uw & Bw). eexists. split; [reflexivity|].
      rewrite nonzero_bits by (apply land_range_l; [lia|exact Uw]). split.
      * intros (j & Hj & E). rewrite Z.land_spec, LOW_MASK_bits, Bw in E by lia. apply andb_prop in E. destruct E as [E1 E2].
        apply Z.ltb_lt in E2. exists (64 * (bits / 64) + j). split; [lia|exact E1].
      * intros (k & Hk & E). destruct (Z_lt_dec k (64 * (bits / 64))); [rewrite F in E by lia; discriminate|].
        exists (k mod 64). split; [lia|]. rewrite Z.land_spec, LOW_MASK_bits, Bw by lia.
        apply andb_true_intro. split; [rewrite <- E; f_equal; lia|apply Z.ltb_lt; lia].
Qed.

(** ** Shifts *)
Lemma zero_words_spec : forall n d m, Forall u64 m -> 0 <= d -> d + Z.of_nat n <= zlen m ->
  exists m', zero_words n d m = Some m' /\ zlen m' = zlen m /\ Forall u64 m' /\
    forall a, rd m' a = if (d <=? a) && (a <? d + Z.of_nat n) then Some 0 else rd m a.
Proof.
  induction n as [|n IH]; intros d m U Hd Hl; cbn [zero_words].
  - exists m. repeat split; auto. intros a. destruct (Z.leb_spec d a), (Z.ltb_spec a (d + Z.of_nat 0)); auto; lia.
  - destruct (wr_spec _ m d 0 ltac:(lia)) as (m1 & E & L & R). rewrite E.
    destruct (IH (d + 1) m1) as (m' & E' & L' & U' & R'); [eapply wr_u64; eauto; unfold u64; lia|lia|lia|].
    exists m'. split; [exact E'|]. split; [lia|]. split; [exact U'|]. intros a. rewrite R', R.
    destruct (Z.leb_spec (d + 1) a), (Z.ltb_spec a (d + 1 + Z.of_nat n)), (Z.leb_spec d a), (Z.ltb_spec a (d + Z.of_nat (S n)));
      cbn [andb]; try lia; destruct (Z.eqb_spec a d); try lia; reflexivity.
Qed.

(** The word computed by the left shift. *)
Lemma shl_word_spec : forall m s index shift, Forall u64 m -> 0 <= shift ->
  0 <= s -> 0 <= index -> s + index < zlen m ->
  exists w, shl_word m s index (shift mod 64) = Some w /\ u64 w /\
    forall j, 0 <= j < 64 -> Z.testbit w j =
      (let k := 64 * index + j - shift mod 64 in if k <? 0 then false else mbit m s k).
Proof.
  intros m s index shift U Hs Hs0 Hi Hl. unfold shl_word.
  destruct (rd_some _ m (s + index) ltac:(lia)) as [h Eh]. rewrite Eh.
  pose proof (rd_u64 _ _ _ U Eh) as Uh. set (rem := shift mod 64) in *.
  assert (0 <= rem < 64) by (unfold rem; lia). clearbody rem.
  assert (VL : exists l, (if negb (rem =? 0) && negb (index =? 0)
      then let* l := rd m (s + (index - 1)) in Some (Z.shiftr l (64 - rem)) else Some 0) = Some l /\
      0 <= l < 2 ^ 64 /\ forall j, 0 <= j < 64 ->
      Z.testbit l j = if (j <? rem) && (0 <? index) then mbit m s (64 * index + j - rem) else false).
  { destruct (Z.eqb_spec rem 0) as [->|R0]; cbn [negb andb].
    - exists 0. split; [reflexivity|]. split; [lia|]. intros j Hj. rewrite Z.bits_0.
      destruct (Z.ltb_spec j 0); [lia|reflexivity].
    - destruct (Z.eqb_spec index 0) as [->|I0]; cbn [negb].
      + exists 0. split; [reflexivity|]. split; [lia|]. intros j Hj. rewrite Z.bits_0. rewrite andb_false_r. reflexivity.
      + destruct (rd_some _ m (s + (index - 1)) ltac:(lia)) as [l El]. rewrite El.
        pose proof (rd_u64 _ _ _ U El) as Ul.
        exists (Z.shiftr l (64 - rem)). split; [reflexivity|]. split.
        { rewrite Z.shiftr_div_pow2 by lia. assert (0 < 2 ^ (64 - rem)) by (apply Z.pow_pos_nonneg; lia).
          split; [apply Z.div_pos; lia|]. apply Z.div_lt_upper_bound; nia. }
        intros j Hj. rewrite Z.shiftr_spec by lia. replace (0 <? index) with true by (symmetry; apply Z.ltb_lt; lia).
        rewrite andb_true_r. destruct (Z.ltb_spec j rem).
        * unfold mbit. replace ((64 * index + j - rem) / 64) with (index - 1) by lia. rewrite El. f_equal. lia.
        * apply (testbit_small l 64); lia. }
  destruct VL as (l & -> & Ul & Bl). eexists. split; [reflexivity|]. split.
  { apply lor_range; [lia|apply w64_range|exact Ul]. }
  intros j Hj. cbv zeta. rewrite Z.lor_spec, w64_bits, Bl by lia.
  replace (j <? 64) with true by (symmetry; apply Z.ltb_lt; lia). cbn [andb].
  rewrite Z.shiftl_spec by lia. destruct (Z.ltb_spec j rem); cbn [andb].
  - rewrite Z.testbit_neg_r by lia. cbn [orb]. destruct (Z.ltb_spec 0 index), (Z.ltb_spec (64 * index + j - rem) 0); auto; lia.
  - rewrite orb_false_r. destruct (Z.ltb_spec (64 * index + j - rem) 0); [lia|].
    unfold mbit. replace ((64 * index + j - rem) / 64) with index by lia. rewrite Eh. f_equal. lia.
Qed.

(** Memory read at [s] only below word [index]. *)
Definition low_intact (m m1 : list Z) (s n : Z) : Prop := forall i, 0 <= i < n -> rd m1 (s + i) = rd m (s + i).

Lemma mbit_low : forall m m1 s n k, low_intact m m1 s n -> 0 <= k < 64 * n -> mbit m1 s k = mbit m s k.
Proof. intros m m1 s n k H Hk. unfold mbit. rewrite H by lia. reflexivity. Qed.

Lemma shl_loop_spec : forall m d s bits shift, 0 <= bits -> 0 <= shift -> in_mem m d bits -> in_mem m s bits ->
  same_or_disjoint d s bits ->
  forall index m1, Z.of_nat index + shift / 64 <= nwords bits -> zlen m1 = zlen m -> Forall u64 m1 ->
  low_intact m m1 s (Z.of_nat index) ->
  exists m2, shl_loop index d s (shift / 64) (shift mod 64) m1 = Some m2 /\ zlen m2 = zlen m /\ Forall u64 m2 /\
    (forall a, ~ (d + shift / 64 <= a < d + shift / 64 + Z.of_nat index) -> rd m2 a = rd m1 a) /\
    forall i, 64 * (shift / 64) <= i < 64 * (shift / 64 + Z.of_nat index) ->
      mbit m2 d i = if i <? shift then false else mbit m s (i - shift).
Proof.
  intros m d s bits shift Hb Hs [D1 D2] [S1 S2] SD. set (off := shift / 64) in *.
  assert (SH : shift = 64 * off + shift mod 64) by (unfold off; lia).
  assert (0 <= off) by (unfold off; lia). assert (RB : 0 <= shift mod 64 < 64) by lia.
  induction index as [|n IH]; intros m1 Hn L U LI; cbn [shl_loop].
  - exists m1. repeat split; auto. intros i Hi. lia.
  - destruct (shl_word_spec m1 s (Z.of_nat n) shift U Hs S1 ltac:(lia) ltac:(lia)) as (w & -> & Uw & Bw).
    destruct (wr_spec _ m1 (d + (Z.of_nat n + off)) w ltac:(lia)) as (m1' & E & L' & R'). rewrite E.
    destruct (IH m1') as (m2 & E2 & L2 & U2 & O2 & B2).
    + lia.
    + lia.
    + eapply wr_u64; eauto.
    + intros i Hi. rewrite R'. replace (s + i =? d + (Z.of_nat n + off)) with false
        by (symmetry; apply Z.eqb_neq; destruct SD as [->|[|]]; lia). apply LI. lia.
    + exists m2. split; [exact E2|]. split; [lia|]. split; [exact U2|]. split.
      * intros a Ha. rewrite O2 by lia. rewrite R'. replace (a =? d + (Z.of_nat n + off)) with false by (symmetry; apply Z.eqb_neq; lia). reflexivity.
      * intros i Hi. destruct (Z_lt_dec i (64 * (off + Z.of_nat n))); [apply B2; lia|].
        assert (mbit m2 d i = mbit m1' d i) as -> by (unfold mbit; rewrite O2 by lia; reflexivity).
        rewrite (mbit_wr _ _ _ _ _ _ E). replace (i / 64 =? Z.of_nat n + off) with true by (symmetry; apply Z.eqb_eq; lia).
        rewrite Bw by lia. cbv zeta. replace (64 * Z.of_nat n + i mod 64 - shift mod 64) with (i - shift) by lia.
        destruct (Z.ltb_spec (i - shift) 0), (Z.ltb_spec i shift); try lia; try reflexivity.
        apply (mbit_low m m1 s (Z.of_nat (S n))); [exact LI|lia].
Qed.

Lemma comp_shl_spec : forall m d s shift bits, Forall u64 m -> 0 <= bits <= nmax -> 0 <= shift ->
  in_mem m d bits -> in_mem m s bits -> same_or_disjoint d s bits ->
  exists m', comp_shl m d s shift bits = Some m' /\ zlen m' = zlen m /\ Forall u64 m' /\
    (forall i, 0 <= i < bits -> mbit m' d i = if i <? shift then false else mbit m s (i - shift)) /\
    (forall a, ~ (d <= a < d + nwords bits) -> rd m' a = rd m a).
Proof.
  intros m d s shift bits U Hb Hs I J SD. pose proof I as [D1 D2]. pose proof J as [S1 S2].
  unfold comp_shl. rewrite to_long_nwords by assumption. cbv zeta.
  assert (NW : nwords bits = bits / 64 + (if bits mod 64 =? 0 then 0 else 1)).
  { unfold nwords. destruct (Z.eqb_spec (bits mod 64) 0); lia. }
  assert (N0 : 0 <= nwords bits) by (destruct (bits mod 64 =? 0); lia).
  destruct (Z.leb_spec (nwords bits) (shift / 64)) as [C|C].
  - destruct (zero_words_spec (Z.to_nat (nwords bits)) d m U D1 ltac:(lia)) as (m' & E & L & U' & R).
    rewrite Z2Nat.id in R by lia. exists m'. split; [exact E|]. split; [exact L|]. split; [exact U'|]. split.
    + intros i Hi. assert (i / 64 < nwords bits) by (destruct (Z.eqb_spec (bits mod 64) 0); lia).
      assert (i < shift) by lia. replace (i <? shift) with true by (symmetry; apply Z.ltb_lt; lia).
      unfold mbit. rewrite R. destruct (Z.leb_spec d (d + i / 64)); [|lia].
      destruct (Z.ltb_spec (d + i / 64) (d + nwords bits)); [|lia]. cbn [andb]. apply Z.bits_0.
    + intros a Ha. rewrite R. destruct (Z.leb_spec d a), (Z.ltb_spec a (d + nwords bits)); auto; lia.
  - set (off := shift / 64) in *. assert (O0 : 0 <= off) by (unfold off; lia).
    (* the masked last word *)
    assert (P : exists m1 index,
      (if negb (bits mod 64 =? 0)
       then let* v := shl_word m s (nwords bits - off - 1) (shift mod 64) in
            let* m2 := wr m (d + (nwords bits - off - 1 + off)) (Z.land v (LOW_MASK bits)) in
            Some (m2, nwords bits - off - 1)
       else Some (m, nwords bits - off)) = Some (m1, index) /\ 0 <= index /\ index = bits / 64 - off /\
      zlen m1 = zlen m /\ Forall u64 m1 /\ low_intact m m1 s index /\
      (forall a, ~ (d + off + index <= a < d + nwords bits) -> rd m1 a = rd m a) /\
      (forall i, 64 * (bits / 64) <= i < bits -> mbit m1 d i = if i <? shift then false else mbit m s (i - shift))).
    { destruct (Z.eqb_spec (bits mod 64) 0) as [M|M]; cbn [negb].
      - exists m, (nwords bits - off). split; [reflexivity|]. split; [lia|]. split; [lia|]. split; [reflexivity|].
        split; [exact U|]. split; [intros i Hi; reflexivity|]. split; [intros; reflexivity|]. intros i Hi. lia.
      - destruct (shl_word_spec m s (nwords bits - off - 1) shift U Hs S1 ltac:(lia) ltac:(lia)) as (w & -> & Uw & Bw).
        set (v := Z.land w (LOW_MASK bits)).
        assert (Uv : u64 v) by (apply land_range_l; [lia|exact Uw]).
        destruct (wr_spec _ m (d + (nwords bits - off - 1 + off)) v ltac:(lia)) as (m1 & E & L & R). rewrite E.
        exists m1, (nwords bits - off - 1). split; [reflexivity|]. split; [lia|]. split; [lia|]. split; [exact L|].
        split; [eapply wr_u64; eauto|]. split; [|split].
        + intros i Hi. rewrite R. replace (s + i =? d + (nwords bits - off - 1 + off)) with false; [reflexivity|].
          symmetry. apply Z.eqb_neq. destruct SD as [->|[|]]; lia.
        + intros a Ha. rewrite R. replace (a =? d + (nwords bits - off - 1 + off)) with false; [reflexivity|].
          symmetry. apply Z.eqb_neq. lia.
        + intros i Hi. rewrite (mbit_wr _ _ _ _ _ _ E).
          replace (i / 64 =? nwords bits - off - 1 + off) with true by (symmetry; apply Z.eqb_eq; lia).
          unfold v. rewrite Z.land_spec, LOW_MASK_bits by lia.
          replace (i mod 64 <? bits mod 64) with true by (symmetry; apply Z.ltb_lt; lia). rewrite andb_true_r.
          rewrite Bw by lia. cbv zeta. replace (64 * (nwords bits - off - 1) + i mod 64 - shift mod 64) with (i - shift) by (unfold off; lia).
          destruct (Z.ltb_spec (i - shift) 0), (Z.ltb_spec i shift); try lia; reflexivity. }
    destruct P as (m1 & index & -> & I0 & I1 & L1 & U1 & LI & O1 & B1).
    destruct (shl_loop_spec m d s bits shift ltac:(lia) Hs I J SD (Z.to_nat index) m1) as (m2 & E2 & L2 & U2 & O2 & B2); auto.
    { rewrite Z2Nat.id by lia. unfold off in *. destruct (bits mod 64 =? 0); lia. }
    { rewrite Z2Nat.id by lia. exact LI. }
    rewrite Z2Nat.id in O2, B2 by lia. fold off in E2, O2, B2. rewrite E2.
    assert (BB : forall i, 64 * off <= i < bits -> mbit m2 d i = if i <? shift then false else mbit m s (i - shift)).
    { intros i Hi. destruct (Z_lt_dec i (64 * (bits / 64))); [apply B2; lia|].
      rewrite <- B1 by lia. unfold mbit. rewrite O2 by lia. reflexivity. }
    assert (OO : forall a, ~ (d + off <= a < d + nwords bits) -> rd m2 a = rd m a).
    { intros a Ha. rewrite O2 by (destruct (bits mod 64 =? 0); lia). apply O1. lia. }
    destruct (Z.eqb_spec off 0) as [Z0|Z0]; cbn [negb].
    + exists m2. split; [reflexivity|]. split; [exact L2|]. split; [exact U2|]. split; [intros; apply BB; lia|].
      intros a Ha. apply OO. lia.
    + destruct (zero_words_spec (Z.to_nat off) d m2 U2 D1 ltac:(lia)) as (m3 & E3 & L3 & U3 & R3).
      rewrite Z2Nat.id in R3 by lia. exists m3. split; [exact E3|]. split; [lia|]. split; [exact U3|]. split.
      * intros i Hi. unfold mbit at 1. rewrite R3. destruct (Z.leb_spec d (d + i / 64)); [|lia]. cbn [andb].
        destruct (Z.ltb_spec (d + i / 64) (d + off)).
        -- replace (i <? shift) with true by (symmetry; apply Z.ltb_lt; unfold off in *; lia). apply Z.bits_0.
        -- apply BB. lia.
      * intros a Ha. rewrite R3. destruct (Z.leb_spec d a), (Z.ltb_spec a (d + off)); cbn [andb]; try lia; apply OO; lia.
Qed.

(** ** Right shift, whole words *)
Lemma shr_loop_spec : forall m d s bits shift, 0 <= bits -> bits mod 64 = 0 -> 0 <= shift -> in_mem m d bits -> in_mem m s bits ->
  same_or_disjoint d s bits ->
  forall n index m1, 0 <= index -> index + Z.of_nat n + shift / 64 = nwords bits -> zlen m1 = zlen m -> Forall u64 m1 ->
  (forall a, ~ (d <= a < d + index) -> rd m1 a = rd m a) ->
  exists m2, shr_loop n index d s (shift / 64) (shift mod 64) (nwords bits) m1 = Some m2 /\ zlen m2 = zlen m /\ Forall u64 m2 /\
    (forall a, ~ (d + index <= a < d + index + Z.of_nat n) -> rd m2 a = rd m1 a) /\
    forall i, 64 * index <= i < 64 * (index + Z.of_nat n) ->
      mbit m2 d i = if i + shift <? bits then mbit m s (i + shift) else false.
Proof.
  intros m d s bits shift Hb Hb64 Hs [D1 D2] [S1 S2] SD. set (off := shift / 64) in *.
  assert (SH : shift = 64 * off + shift mod 64) by (unfold off; lia).
  assert (O0 : 0 <= off) by (unfold off; lia). assert (RB : 0 <= shift mod 64 < 64) by lia.
  assert (NB : bits = 64 * nwords bits) by (unfold nwords; lia).
  set (rem := shift mod 64) in *. clearbody rem off.
  induction n as [|n IH]; intros index m1 Hi Hn L U O; cbn [shr_loop].
  - exists m1. repeat split; auto. intros i Hi2. lia.
  - assert (RS : forall k, index + off <= k < nwords bits -> rd m1 (s + k) = rd m (s + k)).
    { intros k Hk. apply O. destruct SD as [->|[|]]; lia. }
    destruct (rd_some _ m (s + (index + off)) ltac:(lia)) as [l El]. rewrite RS, El by lia.
    assert (HH : exists h, (if negb (rem =? 0) && (index + off + 1 <? nwords bits)
       then let* h := rd m1 (s + (index + off + 1)) in Some (w64 (Z.shiftl h (64 - rem))) else Some 0) = Some h /\
       0 <= h < 2 ^ 64 /\ forall j, 0 <= j < 64 ->
         Z.testbit h j = if (64 <=? j + rem) && (index + off + 1 <? nwords bits)
                         then mbit m s (64 * (index + off) + j + rem) else false).
    { destruct (Z.eqb_spec rem 0) as [->|R0]; cbn [negb andb].
      - exists 0. split; [reflexivity|]. split; [lia|]. intros j Hj. rewrite Z.bits_0.
        destruct (Z.leb_spec 64 (j + 0)); [lia|reflexivity].
      - destruct (Z.ltb_spec (index + off + 1) (nwords bits)).
        + destruct (rd_some _ m (s + (index + off + 1)) ltac:(lia)) as [h Eh]. rewrite RS, Eh by lia.
          eexists. split; [reflexivity|]. split; [apply w64_range|]. intros j Hj. rewrite w64_bits by lia.
          replace (j <? 64) with true by (symmetry; apply Z.ltb_lt; lia). cbn [andb]. rewrite andb_true_r.
          rewrite Z.shiftl_spec by lia. destruct (Z.leb_spec 64 (j + rem)).
          * unfold mbit. replace ((64 * (index + off) + j + rem) / 64) with (index + off + 1) by lia.
            rewrite Eh. f_equal. lia.
          * apply Z.testbit_neg_r. lia.
        + exists 0. split; [reflexivity|]. split; [lia|]. intros j Hj. rewrite Z.bits_0, andb_false_r. reflexivity. }
    destruct HH as (h & -> & Uh & Bh).
    assert (Ul : 0 <= l < 2 ^ 64). { rewrite <- RS in El by lia. exact (rd_u64 _ _ _ U El). }
    assert (Uw : u64 (Z.lor h (Z.shiftr l rem))).
    { apply lor_range; [lia|exact Uh|]. rewrite Z.shiftr_div_pow2 by lia. assert (0 < 2 ^ rem) by (apply Z.pow_pos_nonneg; lia).
      split; [apply Z.div_pos; lia|]. apply Z.div_lt_upper_bound; nia. }
    destruct (wr_spec _ m1 (d + index) (Z.lor h (Z.shiftr l rem)) ltac:(lia)) as (m1' & E & L' & R'). rewrite E.
    destruct (IH (index + 1) m1') as (m2 & E2 & L2 & U2 & O2 & B2).
    + lia.
    + lia.
    + lia.
    + eapply wr_u64; eauto.
    + intros a Ha. rewrite R'. replace (a =? d + index) with false by (symmetry; apply Z.eqb_neq; lia). apply O. lia.
    + exists m2. split; [exact E2|]. split; [lia|]. split; [exact U2|]. split.
      * intros a Ha. rewrite O2 by lia. rewrite R'. replace (a =? d + index) with false by (symmetry; apply Z.eqb_neq; lia). reflexivity.
      * intros i Hi2. destruct (Z_lt_dec i (64 * (index + 1))); [|apply B2; lia].
        assert (mbit m2 d i = mbit m1' d i) as -> by (unfold mbit; rewrite O2 by lia; reflexivity).
        rewrite (mbit_wr _ _ _ _ _ _ E). replace (i / 64 =? index) with true by (symmetry; apply Z.eqb_eq; lia).
        rewrite Z.lor_spec, Z.shiftr_spec, Bh by lia.
        destruct (Z.leb_spec 64 (i mod 64 + rem)); cbn [andb].
        -- rewrite (testbit_small l 64 (i mod 64 + rem)) by lia. rewrite orb_false_r.
           replace (64 * (index + off) + i mod 64 + rem) with (i + shift) by lia.
           destruct (Z.ltb_spec (index + off + 1) (nwords bits)), (Z.ltb_spec (i + shift) bits); auto; lia.
        -- cbn [orb]. replace (i + shift <? bits) with true by (symmetry; apply Z.ltb_lt; lia).
           unfold mbit. replace ((i + shift) / 64) with (index + off) by lia. rewrite El. f_equal. lia.
Qed.

Lemma comp_shr_spec : forall m d s shift bits, Forall u64 m -> 0 <= bits <= nmax -> bits mod 64 = 0 -> 0 <= shift ->
  in_mem m d bits -> in_mem m s bits -> same_or_disjoint d s bits ->
  exists m', comp_shr m d s shift bits = Some m' /\ zlen m' = zlen m /\ Forall u64 m' /\
    (forall i, 0 <= i < bits -> mbit m' d i = if i + shift <? bits then mbit m s (i + shift) else false) /\
    (forall a, ~ (d <= a < d + nwords bits) -> rd m' a = rd m a).
Proof.
  intros m d s shift bits U Hb Hb64 Hs I J SD. pose proof I as [D1 D2]. pose proof J as [S1 S2].
  unfold comp_shr. rewrite to_long_nwords by assumption. cbv zeta.
  assert (NB : bits = 64 * nwords bits) by (unfold nwords; lia).
  destruct (Z.leb_spec (nwords bits) (shift / 64)) as [C|C].
  - destruct (zero_words_spec (Z.to_nat (nwords bits)) d m U D1 ltac:(lia)) as (m' & E & L & U' & R).
    rewrite Z2Nat.id in R by lia. exists m'. split; [exact E|]. split; [exact L|]. split; [exact U'|]. split.
    + intros i Hi. replace (i + shift <? bits) with false by (symmetry; apply Z.ltb_ge; lia).
      unfold mbit. rewrite R. destruct (Z.leb_spec d (d + i / 64)); [|lia].
      destruct (Z.ltb_spec (d + i / 64) (d + nwords bits)); [|lia]. cbn [andb]. apply Z.bits_0.
    + intros a Ha. rewrite R. destruct (Z.leb_spec d a), (Z.ltb_spec a (d + nwords bits)); auto; lia.
  - assert (BD : bits / 64 = nwords bits) by lia. rewrite BD.
    destruct (shr_loop_spec m d s bits shift ltac:(lia) Hb64 Hs I J SD (Z.to_nat (nwords bits - shift / 64)) 0 m) as (m2 & E2 & L2 & U2 & O2 & B2);
      auto; try lia.
    rewrite E2. rewrite Hb64. cbn [Z.eqb negb]. rewrite Z2Nat.id, Z.add_0_l, Z.add_0_r in * by lia.
    destruct (Z.eqb_spec (shift / 64) 0) as [Z0|Z0]; cbn [negb].
    + exists m2. split; [reflexivity|]. split; [exact L2|]. split; [exact U2|]. split; [intros; apply B2; lia|].
      intros a Ha. apply O2. lia.
    + destruct (zero_words_spec (Z.to_nat (shift / 64)) (d + nwords bits - shift / 64) m2 U2 ltac:(lia) ltac:(lia)) as (m3 & E3 & L3 & U3 & R3).
      rewrite Z2Nat.id in R3 by lia. exists m3. split; [exact E3|]. split; [lia|]. split; [exact U3|]. split.
      * intros i Hi. unfold mbit at 1. rewrite R3.
        destruct (Z.leb_spec (d + nwords bits - shift / 64) (d + i / 64)), (Z.ltb_spec (d + i / 64) (d + nwords bits - shift / 64 + shift / 64)); cbn [andb]; try lia.
        -- replace (i + shift <? bits) with false by (symmetry; apply Z.ltb_ge; lia). apply Z.bits_0.
        -- apply B2. lia.
      * intros a Ha. rewrite R3. destruct (Z.leb_spec (d + nwords bits - shift / 64) a), (Z.ltb_spec a (d + nwords bits - shift / 64 + shift / 64)); cbn [andb]; try lia; apply O2; lia.
Qed.
