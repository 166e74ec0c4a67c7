(** * Byte access to bitmaps *)
From Verif Require Import Lib BitsModel BitsSpec BitsProofs BitmapModel BitmapSpec BitmapProofs BitmapProps
  BitwalkModel BitwalkSpec BitwalkProofs BitwalkProps BitmapApiModel.
Ltac Zify.zify_post_hook ::= Z.div_mod_to_equations.

Lemma byte_mask : forall r j, 0 <= r < 8 -> 0 <= j < 64 -> Z.testbit (Z.shiftl 255 (8 * r)) j = (j / 8 =? r).
Proof.
  intros r j Hr Hj. rewrite Z.shiftl_spec by lia. destruct (Z.eqb_spec (j / 8) r) as [E|E].
  - change 255 with (Z.ones 8). rewrite Z.ones_spec_low by lia. reflexivity.
  - destruct (Z_lt_dec (j - 8 * r) 0); [apply Z.testbit_neg_r; assumption|].
    change 255 with (Z.ones 8). rewrite Z.ones_spec_high by lia. reflexivity.
Qed.
Lemma byte_hi : forall v j, byte v -> 8 <= j -> Z.testbit v j = false.
Proof. intros v j H Hj. unfold byte in H. apply (testbit_small v 8); [change (2 ^ 8) with 256; lia|lia]. Qed.

Lemma rdb_ok : forall m base k, Forall u64 m -> 0 <= base -> 0 <= k -> base + k / 8 < zlen m ->
  exists v, rdb m base k = Some v /\ byte v /\ forall j, 0 <= j < 8 -> Z.testbit v j = mbit m base (8 * k + j).
Proof.
  intros m base k U Hb Hk Hl. destruct (rd_some _ m (base + k / 8) ltac:(lia)) as [w Hw].
  unfold rdb. rewrite Hw. eexists. split; [reflexivity|]. split.
  - change 255 with (Z.ones 8). rewrite Z.land_ones by lia. unfold byte. change (2 ^ 8) with 256. lia.
  - intros j Hj. change 255 with (Z.ones 8). rewrite Z.land_spec, Z.ones_spec_low, andb_true_r, Z.shiftr_spec by lia.
    unfold mbit. replace ((8 * k + j) / 64) with (k / 8) by lia. rewrite Hw. f_equal. lia.
Qed.

Lemma wrb_ok : forall m base k v, Forall u64 m -> byte v -> 0 <= base -> 0 <= k -> base + k / 8 < zlen m ->
  exists m', wrb m base k v = Some m' /\ zlen m' = zlen m /\ Forall u64 m' /\
    (forall i, 0 <= i -> mbit m' base i = if i / 8 =? k then Z.testbit v (i mod 8) else mbit m base i) /\
    (forall a, a <> base + k / 8 -> rd m' a = rd m a).
Proof.
  intros m base k v U B Hb Hk Hl. destruct (rd_some _ m (base + k / 8) ltac:(lia)) as [w Hw].
  pose proof (rd_u64 m _ w U Hw) as Uw. unfold wrb. rewrite Hw.
  set (r := k mod 8). assert (Hr : 0 <= r < 8) by (unfold r; lia).
  assert (VR : 0 <= Z.shiftl v (8 * r) < 2 ^ 64).
  { rewrite Z.shiftl_mul_pow2 by lia. unfold byte in B. split; [apply Z.mul_nonneg_nonneg; [lia|apply Z.pow_nonneg; lia]|].
    apply Z.lt_le_trans with (2 ^ 8 * 2 ^ (8 * r)); [apply Z.mul_lt_mono_pos_r; [apply Z.pow_pos_nonneg; lia|change (2 ^ 8) with 256; lia]|].
    rewrite <- Z.pow_add_r by lia. apply Z.pow_le_mono_r; lia. }
  set (x := Z.lor (Z.land w (not64 (Z.shiftl 255 (8 * r)))) (Z.shiftl v (8 * r))).
  assert (Ux : u64 x). { apply lor_range; [lia| |exact VR]. apply land_range_l; [lia|exact Uw]. }
  assert (XB : forall j, 0 <= j < 64 -> Z.testbit x j = if j / 8 =? r then Z.testbit v (j - 8 * r) else Z.testbit w j).
  { intros j Hj. unfold x. rewrite Z.lor_spec, Z.land_spec, not64_bits, byte_mask, (Z.shiftl_spec v) by lia.
    replace (j <? 64) with true by (symmetry; apply Z.ltb_lt; lia). destruct (Z.eqb_spec (j / 8) r) as [E|E]; cbn [negb andb].
    - rewrite andb_false_r. reflexivity.
    - rewrite andb_true_r. destruct (Z_lt_dec (j - 8 * r) 0); [rewrite (Z.testbit_neg_r v) by lia; apply orb_false_r|].
      rewrite (byte_hi v) by (auto; lia). apply orb_false_r. }
  destruct (wr_spec _ m (base + k / 8) x ltac:(lia)) as (m' & E & L & R).
  exists m'. split; [exact E|]. split; [exact L|]. split; [exact (wr_u64 _ _ _ _ U Ux E)|]. split.
  - intros i Hi. rewrite (mbit_wr m base (k / 8) x m' i E). destruct (Z.eqb_spec (i / 64) (k / 8)) as [Q|Q].
    + rewrite XB by lia. unfold mbit. rewrite Q, Hw.
      destruct (Z.eqb_spec (i mod 64 / 8) r) as [A|A].
      * replace (i / 8 =? k) with true by (symmetry; apply Z.eqb_eq; unfold r in A; lia). f_equal. lia.
      * replace (i / 8 =? k) with false by (symmetry; apply Z.eqb_neq; unfold r in A; lia). reflexivity.
    + replace (i / 8 =? k) with false by (symmetry; apply Z.eqb_neq; lia). reflexivity.
  - intros a Ha. rewrite R. replace (a =? base + k / 8) with false by (symmetry; apply Z.eqb_neq; lia). reflexivity.
Qed.

(** [c] is a byte of equal bits *)
Lemma memset_ok : forall n m base k (x : bool), Forall u64 m -> 0 <= base -> 0 <= k -> 8 * (base + (k + Z.of_nat n + 7) / 8) <= 8 * zlen m ->
  exists m', memset n m base k (if x then 255 else 0) = Some m' /\ zlen m' = zlen m /\ Forall u64 m' /\
    (forall i, 0 <= i -> mbit m' base i = if (8 * k <=? i) && (i <? 8 * (k + Z.of_nat n)) then x else mbit m base i) /\
    (forall a, ~ (base + k / 8 <= a < base + (k + Z.of_nat n + 7) / 8) -> rd m' a = rd m a).
Proof.
  induction n as [|n IH]; intros m base k x U Hb Hk Hl; cbn [memset].
  - exists m. repeat split; auto. intros i Hi.
    destruct (Z.leb_spec (8 * k) i), (Z.ltb_spec i (8 * (k + Z.of_nat 0))); cbn [andb]; auto; lia.
  - assert (BX : byte (if x then 255 else 0)) by (unfold byte; destruct x; lia).
    destruct (wrb_ok m base k (if x then 255 else 0) U BX Hb Hk ltac:(lia)) as (m1 & E1 & L1 & U1 & B1 & O1).
    destruct (IH m1 base (k + 1) x U1 Hb ltac:(lia) ltac:(lia)) as (m' & E & L & U' & B & O).
    exists m'. rewrite E1. split; [exact E|]. split; [lia|]. split; [exact U'|]. split.
    + intros i Hi. rewrite B, B1 by lia.
      assert (TX : forall j, 0 <= j < 8 -> Z.testbit (if x then 255 else 0) j = x).
      { intros j Hj. destruct x; [|apply Z.bits_0]. change 255 with (Z.ones 8). apply Z.ones_spec_low. lia. }
      destruct (Z.eqb_spec (i / 8) k) as [Q|Q].
      * rewrite TX by lia. replace ((8 * k <=? i) && (i <? 8 * (k + Z.of_nat (S n)))) with true; [destruct (_ && _); reflexivity|].
        symmetry. apply andb_true_intro. split; [apply Z.leb_le; lia|apply Z.ltb_lt; lia].
      * replace (8 * (k + 1) <=? i) with (8 * k <=? i) by (destruct (Z.leb_spec (8 * k) i), (Z.leb_spec (8 * (k + 1)) i); auto; lia).
        replace (k + 1 + Z.of_nat n) with (k + Z.of_nat (S n)) by lia. reflexivity.
    + intros a Ha. rewrite O, O1 by lia. reflexivity.
Qed.

Lemma rd_mbit : forall m m' base j, rd m' (base + j / 64) = rd m (base + j / 64) -> mbit m' base j = mbit m base j.
Proof. intros m m' base j H. unfold mbit. rewrite H. reflexivity. Qed.

(** copying bytes between bitmaps that are the same or disjoint in the words concerned *)
Lemma memcpy_ok : forall n m d s k W, Forall u64 m -> 0 <= d -> 0 <= s -> 0 <= k ->
  (k + Z.of_nat n + 7) / 8 <= W -> d + W <= zlen m -> s + W <= zlen m -> d = s \/ d + W <= s \/ s + W <= d ->
  exists m', memcpy n m d s k = Some m' /\ zlen m' = zlen m /\ Forall u64 m' /\
    (forall i, 0 <= i -> mbit m' d i = if (8 * k <=? i) && (i <? 8 * (k + Z.of_nat n)) then mbit m s i else mbit m d i) /\
    (forall a, ~ (d + k / 8 <= a < d + (k + Z.of_nat n + 7) / 8) -> rd m' a = rd m a).
Proof.
  induction n as [|n IH]; intros m d s k W U Hd Hs Hk HW Ld Ls O; cbn [memcpy].
  - exists m. repeat split; auto. intros i Hi.
    destruct (Z.leb_spec (8 * k) i), (Z.ltb_spec i (8 * (k + Z.of_nat 0))); cbn [andb]; auto; lia.
  - destruct (rdb_ok m s k U Hs Hk ltac:(lia)) as (v & Ev & Bv & Tv). rewrite Ev.
    destruct (wrb_ok m d k v U Bv Hd Hk ltac:(lia)) as (m1 & E1 & L1 & U1 & B1 & O1). rewrite E1.
    destruct (IH m1 d s (k + 1) W U1 Hd Hs ltac:(lia) ltac:(lia) ltac:(lia) ltac:(lia) O) as (m' & E & L & U' & B & OO).
    exists m'. split; [exact E|]. split; [lia|]. split; [exact U'|].
    assert (S1 : forall i, 0 <= i < 64 * W -> mbit m1 s i = mbit m s i).
    { intros i Hi. destruct O as [->|O].
      - rewrite B1 by lia. destruct (Z.eqb_spec (i / 8) k) as [Q|Q]; [|reflexivity]. rewrite Tv by lia. f_equal. lia.
      - apply rd_mbit. apply O1. lia. }
    split.
    + intros i Hi. rewrite B, B1 by lia. destruct (Z.eqb_spec (i / 8) k) as [Q|Q].
      * replace (8 * (k + 1) <=? i) with false by (symmetry; apply Z.leb_gt; lia).
        replace ((8 * k <=? i) && (i <? 8 * (k + Z.of_nat (S n)))) with true.
        2:{ symmetry. apply andb_true_intro. split; [apply Z.leb_le; lia|apply Z.ltb_lt; lia]. }
        cbn [andb]. rewrite Tv by lia. f_equal. lia.
      * replace (8 * (k + 1) <=? i) with (8 * k <=? i) by (destruct (Z.leb_spec (8 * k) i), (Z.leb_spec (8 * (k + 1)) i); auto; lia).
        replace (k + 1 + Z.of_nat n) with (k + Z.of_nat (S n)) by lia.
        destruct (Z.leb_spec (8 * k) i); cbn [andb]; [|reflexivity].
        destruct (Z.ltb_spec i (8 * (k + Z.of_nat (S n)))); [|reflexivity]. apply S1. lia.
    + intros a Ha. rewrite OO, O1 by lia. reflexivity.
Qed.

Lemma byte_eq_bits : forall a b, byte a -> byte b -> (a = b <-> forall j, 0 <= j < 8 -> Z.testbit a j = Z.testbit b j).
Proof.
  intros a b A B. unfold byte in *. split; [intros ->; auto|]. intros H. apply (word_ext 8); auto; change (2 ^ 8) with 256; lia.
Qed.

Lemma memcmp_ok : forall n m s1 s2 k, Forall u64 m -> 0 <= s1 -> 0 <= s2 -> 0 <= k ->
  s1 + (k + Z.of_nat n + 7) / 8 <= zlen m -> s2 + (k + Z.of_nat n + 7) / 8 <= zlen m ->
  exists r, memcmp n m s1 s2 k = Some r /\
    (r = 0 <-> forall i, 8 * k <= i < 8 * (k + Z.of_nat n) -> mbit m s1 i = mbit m s2 i).
Proof.
  induction n as [|n IH]; intros m s1 s2 k U H1 H2 Hk L1 L2; cbn [memcmp].
  - exists 0. split; [reflexivity|]. split; [intros; lia|reflexivity].
  - destruct (rdb_ok m s1 k U H1 Hk ltac:(lia)) as (a & -> & Ba & Ta). destruct (rdb_ok m s2 k U H2 Hk ltac:(lia)) as (b & -> & Bb & Tb).
    destruct (Z.eqb_spec a b) as [Q|Q].
    + destruct (IH m s1 s2 (k + 1) U H1 H2 ltac:(lia) ltac:(lia) ltac:(lia)) as (r & E & R). exists r. split; [exact E|].
      rewrite R. pose proof (proj1 (byte_eq_bits a b Ba Bb) Q) as W. split; intros H i Hi.
      * destruct (Z_lt_dec i (8 * (k + 1))); [|apply H; lia].
        specialize (W (i - 8 * k) ltac:(lia)). rewrite Ta, Tb in W by lia. replace (8 * k + (i - 8 * k)) with i in W by lia. exact W.
      * apply H. lia.
    + exists (a - b). split; [reflexivity|]. split; [lia|]. intros H. exfalso. apply Q. apply (byte_eq_bits a b Ba Bb).
      intros j Hj. rewrite Ta, Tb by lia. apply H. lia.
Qed.

Lemma memdiffb_ok : forall n m s k (x : bool), Forall u64 m -> 0 <= s -> 0 <= k -> s + (k + Z.of_nat n + 7) / 8 <= zlen m ->
  exists r, memdiffb n m s k (if x then 255 else 0) = Some r /\
    (r = false <-> forall i, 8 * k <= i < 8 * (k + Z.of_nat n) -> mbit m s i = x).
Proof.
  induction n as [|n IH]; intros m s k x U Hs Hk L; cbn [memdiffb].
  - exists false. split; [reflexivity|]. split; [intros; lia|reflexivity].
  - destruct (rdb_ok m s k U Hs Hk ltac:(lia)) as (a & -> & Ba & Ta).
    assert (BX : byte (if x then 255 else 0)) by (unfold byte; destruct x; lia).
    assert (TX : forall j, 0 <= j < 8 -> Z.testbit (if x then 255 else 0) j = x).
    { intros j Hj. destruct x; [|apply Z.bits_0]. change 255 with (Z.ones 8). apply Z.ones_spec_low. lia. }
    destruct (Z.eqb_spec a (if x then 255 else 0)) as [Q|Q]; cbn [negb].
    + destruct (IH m s (k + 1) x U Hs ltac:(lia) ltac:(lia)) as (r & E & R). exists r. split; [exact E|].
      rewrite R. pose proof (proj1 (byte_eq_bits a _ Ba BX) Q) as W. split; intros H i Hi.
      * destruct (Z_lt_dec i (8 * (k + 1))); [|apply H; lia].
        specialize (W (i - 8 * k) ltac:(lia)). rewrite Ta, TX in W by lia. replace (8 * k + (i - 8 * k)) with i in W by lia. exact W.
      * apply H. lia.
    + exists true. split; [reflexivity|]. split; [discriminate|]. intros H. exfalso. apply Q. apply (byte_eq_bits a _ Ba BX).
      intros j Hj. rewrite Ta, TX by lia. apply H. lia.
Qed.
