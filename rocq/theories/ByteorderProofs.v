(** * Proofs about byte order *)
From Verif Require Import Lib BitsModel BitsSpec BitsProofs BitsProps ByteorderModel ByteorderSpec.

Ltac Zify.zify_post_hook ::= Z.div_mod_to_equations.

Lemma zseq_nth : forall n a k, (k < n)%nat -> nth_error (zseq a n) k = Some (a + Z.of_nat k).
Proof.
  induction n as [|n IH]; intros a k Hk; [lia|]. destruct k as [|k]; cbn [zseq nth_error]; [f_equal; lia|].
  rewrite IH by lia. f_equal; lia.
Qed.
Lemma zseq_len : forall n a, length (zseq a n) = n.
Proof. induction n; intros; cbn [zseq length]; auto. Qed.

Lemma bytes_le_len : forall n v, length (bytes_le n v) = n.
Proof. intros. unfold bytes_le. rewrite map_length. apply zseq_len. Qed.
Lemma bytes_le_nth : forall n v k, (k < n)%nat -> nth_error (bytes_le n v) k = Some (byte_of v (Z.of_nat k)).
Proof.
  intros n v k Hk. unfold bytes_le. rewrite nth_error_map, zseq_nth by lia. cbn [option_map]. unfold byte_of.
  rewrite Z.add_0_l. replace (2 ^ (8 * Z.of_nat k)) with (256 ^ Z.of_nat k); [reflexivity|].
  change 256 with (2 ^ 8). rewrite <- Z.pow_mul_r by lia. reflexivity.
Qed.

Lemma rev_nth_error : forall A (l : list A) k, (k < length l)%nat -> nth_error (rev l) k = nth_error l (length l - 1 - k).
Proof.
  intros A l k Hk. destruct l as [|d l0] eqn:E; [cbn in Hk; lia|]. rewrite <- E in *.
  rewrite (nth_error_nth' (rev l) d) by (rewrite rev_length; lia).
  rewrite (nth_error_nth' l d) by lia. rewrite rev_nth by lia. f_equal. f_equal. lia.
Qed.

Lemma nth_ext_err : forall A (l l' : list A), length l = length l' ->
  (forall k, (k < length l)%nat -> nth_error l k = nth_error l' k) -> l = l'.
Proof.
  intros A l l' L H. apply nth_error_ext'. intros k. destruct (Nat.lt_ge_cases k (length l)); auto.
  rewrite (proj2 (nth_error_None l k)), (proj2 (nth_error_None l' k)) by lia. reflexivity.
Qed.

(** bits of a byte *)
Lemma byte_of_bit : forall v k j, 0 <= v -> 0 <= k -> 0 <= j < 8 -> Z.testbit (byte_of v k) j = Z.testbit v (8 * k + j).
Proof.
  intros v k j Hv Hk Hj. unfold byte_of. change 256 with (2 ^ 8). rewrite Z.mod_pow2_bits_low by lia.
  rewrite <- Z.pow_mul_r, Z.div_pow2_bits by lia. f_equal. lia.
Qed.
Lemma byte_of_range : forall v k, 0 <= byte_of v k < 2 ^ 8.
Proof. intros. unfold byte_of. change (2 ^ 8) with 256. apply Z.mod_pos_bound. lia. Qed.

Lemma swabw_perm : forall w, width w -> permutes w (byte_rev w) (swabw w).
Proof. destruct C15_swab as (A & B & C). intros w [-> | [-> | ->]]; unfold swabw; cbn [Z.eqb Pos.eqb]; assumption. Qed.
Lemma swabw_invol : forall w v, width w -> 0 <= v < 2 ^ w -> swabw w (swabw w v) = v.
Proof. destruct C15_swab_involutive as (A & B & C). intros w v [-> | [-> | ->]] Hv; unfold swabw; cbn [Z.eqb Pos.eqb]; auto. Qed.
Lemma swabw_range : forall w v, width w -> 0 <= v < 2 ^ w -> 0 <= swabw w v < 2 ^ w.
Proof. intros w v W H. exact (proj1 (swabw_perm w W v H)). Qed.

Lemma swabw_byte : forall w v k, width w -> 0 <= v < 2 ^ w -> 0 <= k < w / 8 ->
  byte_of (swabw w v) k = byte_of v (w / 8 - 1 - k).
Proof.
  intros w v k W Hv Hk. destruct (swabw_perm w W v Hv) as [R P].
  apply (word_ext 8); try apply byte_of_range. intros j Hj.
  rewrite !byte_of_bit by lia. rewrite P by (destruct W as [-> | [-> | ->]]; lia). f_equal. unfold byte_rev.
  destruct W as [-> | [-> | ->]]; lia.
Qed.

Lemma wrap_range : forall w v, width w -> 0 <= wrap w v < 2 ^ w.
Proof. intros w v W. unfold wrap. apply Z.mod_pos_bound. destruct W as [-> | [-> | ->]]; lia. Qed.
Lemma wrap_small : forall w v, width w -> 0 <= v < 2 ^ w -> wrap w v = v.
Proof. intros w v W H. unfold wrap. apply Z.mod_small. exact H. Qed.

Lemma bytes_le_swab : forall w v, width w -> 0 <= v < 2 ^ w ->
  bytes_le (Z.to_nat (w / 8)) (swabw w v) = rev (bytes_le (Z.to_nat (w / 8)) v).
Proof.
  intros w v W Hv. apply nth_ext_err; [rewrite rev_length, !bytes_le_len; reflexivity|]. rewrite bytes_le_len. intros k Hk.
  rewrite rev_nth_error by (rewrite bytes_le_len; lia). rewrite bytes_le_len, !bytes_le_nth by lia.
  rewrite swabw_byte by (auto; lia). f_equal. f_equal. lia.
Qed.

(** ** Memory *)
Lemma mwrite_ok : forall bs m p, 0 <= p -> p + zlen bs <= zlen m ->
  exists m', mwrite m p bs = Some m' /\ length m' = length m /\
    forall i, rd m' i = if (p <=? i) && (i <? p + zlen bs) then nth_error bs (Z.to_nat (i - p)) else rd m i.
Proof.
  induction bs as [|b bs IH]; intros m p Hp Hl.
  - exists m. split; [reflexivity|]. split; [reflexivity|]. intros i.
    replace ((p <=? i) && (i <? p + zlen (@nil Z))) with false; [reflexivity|].
    symmetry. apply andb_false_iff. rewrite zlen_nil. destruct (Z.leb_spec p i); [right; apply Z.ltb_ge; lia|auto].
  - rewrite zlen_cons in Hl. pose proof (zlen_nonneg _ bs).
    destruct (wr_spec _ m p b ltac:(lia)) as (m1 & E1 & L1 & R1).
    destruct (IH m1 (p + 1) ltac:(lia)) as (m' & E & L & R). { unfold zlen in *. lia. }
    exists m'. cbn [mwrite]. rewrite E1. split; [exact E|]. split; [unfold zlen in *; lia|]. intros i. rewrite R, R1, zlen_cons.
    destruct (Z.eqb_spec i p) as [->|N].
    + replace (p + 1 <=? p) with false by (symmetry; apply Z.leb_gt; lia).
      replace (p <=? p) with true by (symmetry; apply Z.leb_le; lia).
      replace (p <? p + (zlen bs + 1)) with true by (symmetry; apply Z.ltb_lt; lia).
      cbn [andb]. replace (p - p) with 0 by lia. reflexivity.
    + destruct (Z.leb_spec (p + 1) i) as [A|A].
      * replace (p <=? i) with true by (symmetry; apply Z.leb_le; lia). cbn [andb].
        replace (p + 1 + zlen bs) with (p + (zlen bs + 1)) by lia.
        destruct (i <? p + (zlen bs + 1)); [|reflexivity].
        replace (Z.to_nat (i - p)) with (S (Z.to_nat (i - (p + 1)))) by lia. reflexivity.
      * replace (p <=? i) with false by (symmetry; apply Z.leb_gt; lia). reflexivity.
Qed.

Lemma mread_ok : forall bs m p, (forall k, (k < length bs)%nat -> rd m (p + Z.of_nat k) = nth_error bs k) ->
  mread m p (length bs) = Some bs.
Proof.
  induction bs as [|b bs IH]; intros m p H; [reflexivity|]. cbn [length mread].
  pose proof (H 0%nat ltac:(cbn; lia)) as H0. rewrite Z.add_0_r in H0. rewrite H0. cbn [nth_error].
  rewrite IH; [reflexivity|]. intros k Hk. pose proof (H (S k) ltac:(cbn [length]; lia)) as HS.
  replace (p + 1 + Z.of_nat k) with (p + Z.of_nat (S k)) by lia. exact HS.
Qed.

Lemma mread_some : forall n m p, 0 <= p -> p + Z.of_nat n <= zlen m ->
  exists bs, mread m p n = Some bs /\ length bs = n /\
    forall k, (k < n)%nat -> nth_error bs k = rd m (p + Z.of_nat k).
Proof.
  induction n as [|n IH]; intros m p Hp Hl.
  - exists []. split; [reflexivity|]. split; [reflexivity|]. intros; lia.
  - destruct (rd_some _ m p ltac:(lia)) as [b Hb]. destruct (IH m (p + 1) ltac:(lia) ltac:(lia)) as (bs & E & L & N).
    exists (b :: bs). cbn [mread]. rewrite Hb, E. split; [reflexivity|]. split; [cbn; congruence|].
    intros [|k] Hk; [rewrite Z.add_0_r, Hb; reflexivity|]. cbn [nth_error]. rewrite N by lia. f_equal. lia.
Qed.

(** value of a list of bytes *)
Lemma value_range : forall bs, bytes bs -> 0 <= value_le bs < 256 ^ zlen bs.
Proof.
  induction 1 as [|b bs Hb Hbs IH]; [cbn; lia|]. cbn [value_le fold_right]. fold (value_le bs).
  rewrite zlen_cons, Z.pow_add_r by (try apply zlen_nonneg; lia). unfold byte in Hb. rewrite Z.pow_1_r. nia.
Qed.
Lemma value_byte : forall bs k, bytes bs -> (k < length bs)%nat -> nth_error bs k = Some (byte_of (value_le bs) (Z.of_nat k)).
Proof.
  intros bs k H. revert k. induction H as [|b bs Hb Hbs IH]; intros k Hk; [cbn in Hk; lia|].
  pose proof (value_range bs Hbs) as VR.
  cbn [value_le fold_right]. fold (value_le bs). unfold byte in Hb. destruct k as [|k]; cbn [nth_error].
  - unfold byte_of. change (256 ^ Z.of_nat 0) with 1. rewrite Z.div_1_r. f_equal.
    rewrite (Z.mul_comm 256), Z.mod_add, Z.mod_small by lia. reflexivity.
  - cbn [length] in Hk. rewrite IH by lia. f_equal. unfold byte_of. rewrite Nat2Z.inj_succ, <- Z.add_1_r, Z.pow_add_r by lia.
    rewrite Z.pow_1_r, (Z.mul_comm (256 ^ Z.of_nat k)), <- Z.div_div by (try apply Z.pow_pos_nonneg; lia).
    f_equal. f_equal. lia.
Qed.
Lemma bytes_le_bytes : forall n v, bytes (bytes_le n v).
Proof.
  intros. unfold bytes, bytes_le. apply Forall_forall. intros x Hx. apply in_map_iff in Hx. destruct Hx as (k & <- & _).
  unfold byte. apply Z.mod_pos_bound. lia.
Qed.

(** two values below [256 ^ n] with the same bytes are equal *)
Lemma byte_inj : forall n a b, 0 <= a < 256 ^ Z.of_nat n -> 0 <= b < 256 ^ Z.of_nat n ->
  (forall k, 0 <= k < Z.of_nat n -> byte_of a k = byte_of b k) -> a = b.
Proof.
  intros n a b Ha Hb H. apply (word_ext (8 * Z.of_nat n)); try (rewrite Z.pow_mul_r by lia; change (2 ^ 8) with 256; lia).
  intros i Hi. pose proof (byte_of_bit a (i / 8) (i mod 8) ltac:(lia) ltac:(lia) ltac:(lia)) as A.
  pose proof (byte_of_bit b (i / 8) (i mod 8) ltac:(lia) ltac:(lia) ltac:(lia)) as B.
  replace (8 * (i / 8) + i mod 8) with i in A, B by lia. rewrite <- A, <- B, H by lia. reflexivity.
Qed.
Lemma value_bytes : forall n v, 0 <= v < 256 ^ Z.of_nat n -> value_le (bytes_le n v) = v.
Proof.
  intros n v Hv. pose proof (value_range _ (bytes_le_bytes n v)) as R. unfold zlen in R. rewrite bytes_le_len in R.
  apply (byte_inj n); auto. intros k Hk.
  pose proof (value_byte (bytes_le n v) (Z.to_nat k) (bytes_le_bytes n v) ltac:(rewrite bytes_le_len; lia)) as V.
  rewrite bytes_le_nth, Z2Nat.id in V by lia. congruence.
Qed.
Lemma bytes_value : forall bs, bytes bs -> bytes_le (length bs) (value_le bs) = bs.
Proof.
  intros bs H. apply nth_ext_err; rewrite bytes_le_len; [reflexivity|]. intros k Hk.
  rewrite bytes_le_nth by lia. symmetry. apply value_byte; auto.
Qed.
Lemma bytes_rev : forall bs, bytes bs -> bytes (rev bs).
Proof. intros bs H. unfold bytes in *. apply Forall_rev. exact H. Qed.
