(** * C104-C106: the public bitmap functions, whatever the compiler knows about the length *)
From Verif Require Import Lib BitsModel BitsSpec BitsProofs BitmapModel BitmapSpec BitmapProofs BitmapProps
  BitwalkModel BitwalkSpec BitwalkProofs BitwalkProps BitmapApiModel BitmapApiProofs.
Ltac Zify.zify_post_hook ::= Z.div_mod_to_equations.

Lemma small_case : forall kn bits, small kn bits = true -> 1 <= bits <= 64.
Proof.
  intros kn bits H. unfold small in H. apply andb_prop in H. destruct H as [H A]. apply andb_prop in H. destruct H as [_ B].
  apply Z.ltb_lt in A. apply Z.leb_le in B. lia.
Qed.
Lemma aligned_case : forall ka bits, aligned ka bits = true -> bits mod 8 = 0.
Proof. intros ka bits H. unfold aligned in H. apply andb_prop in H. destruct H as [_ A]. apply Z.eqb_eq in A. exact A. Qed.
Lemma small_nw : forall bits, 1 <= bits <= 64 -> nwords bits = 1.
Proof. intros. unfold nwords. lia. Qed.

Lemma small_src : forall m s bits, Forall u64 m -> in_mem m s bits -> 1 <= bits <= 64 ->
  exists w, rd m s = Some w /\ u64 w /\ forall j, 0 <= j < 64 -> Z.testbit w j = mbit m s j.
Proof.
  intros m s bits U I Hb. destruct (src_word0 m s bits 0 U I) as (w & E & Uw & B). { rewrite small_nw by assumption. lia. }
  rewrite Z.add_0_r in E. exists w. split; [exact E|]. split; [exact Uw|]. intros j Hj. rewrite B by assumption. f_equal; lia.
Qed.

Lemma small_store : forall m d bits v G, Forall u64 m -> in_mem m d bits -> 1 <= bits <= 64 -> u64 v ->
  (forall j, 0 <= j < 64 -> Z.testbit v j = (j <? bits) && G j) ->
  exists m', wr m d v = Some m' /\ bitmap_is m d bits G m'.
Proof.
  intros m d bits v G U [I1 I2] Hb Uv B. rewrite small_nw in I2 by assumption.
  destruct (wr_spec _ m d v ltac:(lia)) as (m' & E & L & R). exists m'. split; [exact E|].
  assert (E0 : wr m (d + 0) v = Some m') by (rewrite Z.add_0_r; exact E).
  split; [exact L|]. split; [exact (wr_u64 _ _ _ _ U Uv E)|]. rewrite small_nw by assumption. split; [|split].
  - intros i Hi. rewrite (mbit_wr m d 0 v m' i E0). replace (i / 64 =? 0) with true by (symmetry; apply Z.eqb_eq; lia).
    rewrite B by lia. replace (i mod 64) with i by lia. replace (i <? bits) with true by (symmetry; apply Z.ltb_lt; lia). reflexivity.
  - intros i Hi. rewrite (mbit_wr m d 0 v m' i E0). replace (i / 64 =? 0) with true by (symmetry; apply Z.eqb_eq; lia).
    rewrite B by lia. replace (i mod 64) with i by lia. replace (i <? bits) with false by (symmetry; apply Z.ltb_ge; lia). reflexivity.
  - intros a Ha. rewrite R. replace (a =? d) with false by (symmetry; apply Z.eqb_neq; lia). reflexivity.
Qed.

Lemma land_low_range : forall x bits, u64 (Z.land x (LOW_MASK bits)).
Proof. intros. apply land_range_r; [lia|apply LOW_MASK_range]. Qed.

Lemma flag_small : forall v bits (G : Z -> bool), u64 v -> 1 <= bits <= 64 ->
  (forall j, 0 <= j < 64 -> Z.testbit v j = (j <? bits) && G j) ->
  (negb (v =? 0) = true <-> exists i, 0 <= i < bits /\ G i = true).
Proof.
  intros v bits G Uv Hb B. rewrite nonzero_bits by exact Uv. split; intros (j & Hj & Q).
  - rewrite B in Q by lia. apply andb_prop in Q. destruct Q as [A Q]. apply Z.ltb_lt in A. exists j. split; [lia|exact Q].
  - exists j. split; [lia|]. rewrite B, Q by lia. replace (j <? bits) with true by (symmetry; apply Z.ltb_lt; lia). reflexivity.
Qed.

(** ** C104: queries *)
Theorem C104_empty : forall kn ka m s bits, cmp_pre m [s] bits ->
  exists r, bitmap_empty kn ka m s bits = Some r /\ (r = true <-> forall i, 0 <= i < bits -> mbit m s i = false).
Proof.
  intros kn ka m s bits (U & Hb & SS). apply Forall_cons_iff in SS. destruct SS as [I _]. unfold bitmap_empty.
  destruct (small kn bits) eqn:S.
  - apply small_case in S. destruct (small_src m s bits U I S) as (w & -> & Uw & Bw). eexists. split; [reflexivity|].
    destruct (C18_small_partial w w bits Uw Uw S) as (_ & E & _). rewrite E.
    split; intros H i Hi; [rewrite <- Bw by lia|rewrite Bw by lia]; apply H; lia.
  - destruct (aligned ka bits) eqn:A; cbn [negb].
    + apply aligned_case in A. destruct I as [I1 I2]. unfold nwords in I2.
      destruct (memdiffb_ok (Z.to_nat (bits / 8)) m s 0 false U I1 ltac:(lia) ltac:(lia)) as (r & E & R).
      rewrite E. eexists. split; [reflexivity|]. rewrite negb_true_iff, R. split; intros H i Hi; apply H; lia.
    + destruct (C21_find_first m bits s false false) as (r & E & L). { split; [exact U|]. split; [exact Hb|]. split; [exact I|exact Logic.I]. }
      rewrite E. eexists. split; [reflexivity|]. rewrite Z.leb_le. split.
      * intros Q i Hi. destruct (least_none _ _ _ _ L Q) as [_ N]. specialize (N i Hi). unfold wanted, bit_place in N.
        rewrite andb_true_r, xorb_false_l in N. exact N.
      * intros H. destruct L as [[-> _]|[L1 [L2 _]]]; [lia|]. unfold wanted, bit_place in L2. rewrite andb_true_r, H in L2 by lia. discriminate.
Qed.
Theorem C104_full : forall kn ka m s bits, cmp_pre m [s] bits ->
  exists r, bitmap_full kn ka m s bits = Some r /\ (r = true <-> forall i, 0 <= i < bits -> mbit m s i = true).
Proof.
  intros kn ka m s bits (U & Hb & SS). apply Forall_cons_iff in SS. destruct SS as [I _]. unfold bitmap_full.
  destruct (small kn bits) eqn:S.
  - apply small_case in S. destruct (small_src m s bits U I S) as (w & -> & Uw & Bw). eexists. split; [reflexivity|].
    destruct (C18_small_partial w w bits Uw Uw S) as (_ & _ & E & _). rewrite E.
    split; intros H i Hi; [rewrite <- Bw by lia|rewrite Bw by lia]; apply H; lia.
  - destruct (aligned ka bits) eqn:A; cbn [negb].
    + apply aligned_case in A. destruct I as [I1 I2]. unfold nwords in I2.
      destruct (memdiffb_ok (Z.to_nat (bits / 8)) m s 0 true U I1 ltac:(lia) ltac:(lia)) as (r & E & R).
      rewrite E. eexists. split; [reflexivity|]. rewrite negb_true_iff, R. split; intros H i Hi; apply H; lia.
    + destruct (C21_find_first m bits s true false) as (r & E & L). { split; [exact U|]. split; [exact Hb|]. split; [exact I|exact Logic.I]. }
      rewrite E. eexists. split; [reflexivity|]. rewrite Z.leb_le. split.
      * intros Q i Hi. destruct (least_none _ _ _ _ L Q) as [_ N]. specialize (N i Hi). unfold wanted, bit_place in N.
        rewrite andb_true_r, xorb_true_l in N. apply negb_false_iff. exact N.
      * intros H. destruct L as [[-> _]|[L1 [L2 _]]]; [lia|]. unfold wanted, bit_place in L2. rewrite andb_true_r, H in L2 by lia. discriminate.
Qed.
Theorem C104_intersects : forall kn m s1 s2 bits, cmp_pre m [s1; s2] bits ->
  exists r, bitmap_intersects kn m s1 s2 bits = Some r /\
    (r = true <-> exists i, 0 <= i < bits /\ mbit m s1 i = true /\ mbit m s2 i = true).
Proof.
  intros kn m s1 s2 bits H. unfold bitmap_intersects. destruct (small kn bits) eqn:S; cbn [negb]; [|apply C18_intersects; exact H].
  apply small_case in S. destruct H as (U & Hb & SS). apply Forall_cons_iff in SS. destruct SS as [I1 SS]. apply Forall_cons_iff in SS. destruct SS as [I2 _].
  destruct (small_src m s1 bits U I1 S) as (a & -> & Ua & Ba). destruct (small_src m s2 bits U I2 S) as (b & -> & Ub & Bb).
  eexists. split; [reflexivity|]. destruct (C18_small_partial a b bits Ua Ub S) as (E & _). rewrite E.
  split; intros (i & Hi & Q); exists i; (split; [exact Hi|]).
  - rewrite Ba, Bb in Q by lia. apply andb_prop. exact Q.
  - rewrite Ba, Bb by lia. apply andb_true_intro. exact Q.
Qed.

(** Comparison: right only if the compiler knows neither the length (1..64) nor that it is a
    multiple of eight; otherwise the answer is the opposite, on every input. *)
Theorem C104_equal_exact : forall kn ka m s1 s2 bits, cmp_pre m [s1; s2] bits ->
  exists r, bitmap_equal kn ka m s1 s2 bits = Some r /\
    (if small kn bits || aligned ka bits
     then r = false <-> forall i, 0 <= i < bits -> mbit m s1 i = mbit m s2 i
     else r = true <-> forall i, 0 <= i < bits -> mbit m s1 i = mbit m s2 i).
Proof.
  intros kn ka m s1 s2 bits H. unfold bitmap_equal. destruct (small kn bits) eqn:S; cbn [orb].
  - apply small_case in S. destruct H as (U & Hb & SS). apply Forall_cons_iff in SS. destruct SS as [I1 SS]. apply Forall_cons_iff in SS. destruct SS as [I2 _].
    destruct (small_src m s1 bits U I1 S) as (a & -> & Ua & Ba). destruct (small_src m s2 bits U I2 S) as (b & -> & Ub & Bb).
    eexists. split; [reflexivity|]. rewrite C18_small_equal_inverted by auto.
    split; intros H i Hi; specialize (H i Hi); rewrite Ba, Bb in * by lia; exact H.
  - destruct (aligned ka bits) eqn:A; cbn [negb].
    + apply aligned_case in A. destruct H as (U & Hb & SS). apply Forall_cons_iff in SS. destruct SS as [[I1 J1] SS].
      apply Forall_cons_iff in SS. destruct SS as [[I2 J2] _]. unfold nwords in *.
      destruct (memcmp_ok (Z.to_nat (bits / 8)) m s1 s2 0 U I1 I2 ltac:(lia) ltac:(lia) ltac:(lia)) as (r & E & R).
      rewrite E. eexists. split; [reflexivity|]. rewrite negb_false_iff, Z.eqb_eq, R. split; intros H i Hi; apply H; lia.
    + apply C18_equal. exact H.
Qed.
Theorem C104_equal_partial : forall kn ka m s1 s2 bits, cmp_pre m [s1; s2] bits -> small kn bits = false -> aligned ka bits = false ->
  exists r, bitmap_equal kn ka m s1 s2 bits = Some r /\ (r = true <-> forall i, 0 <= i < bits -> mbit m s1 i = mbit m s2 i).
Proof.
  intros kn ka m s1 s2 bits H S A. destruct (C104_equal_exact kn ka m s1 s2 bits H) as (r & E & R). exists r. split; [exact E|].
  rewrite S, A in R. exact R.
Qed.
Theorem C104_or_equal_exact : forall kn m s1 s2 s3 bits, cmp_pre m [s1; s2; s3] bits ->
  exists r, bitmap_or_equal kn m s1 s2 s3 bits = Some r /\
    (if small kn bits
     then r = false <-> forall i, 0 <= i < bits -> mbit m s1 i || mbit m s2 i = mbit m s3 i
     else r = true <-> forall i, 0 <= i < bits -> mbit m s1 i || mbit m s2 i = mbit m s3 i).
Proof.
  intros kn m s1 s2 s3 bits H. unfold bitmap_or_equal. destruct (small kn bits) eqn:S; cbn [negb]; [|apply C18_or_equal; exact H].
  apply small_case in S. destruct H as (U & Hb & SS). apply Forall_cons_iff in SS. destruct SS as [I1 SS]. apply Forall_cons_iff in SS. destruct SS as [I2 SS].
  apply Forall_cons_iff in SS. destruct SS as [I3 _].
  destruct (small_src m s1 bits U I1 S) as (a & -> & Ua & Ba). destruct (small_src m s2 bits U I2 S) as (b & -> & Ub & Bb).
  destruct (small_src m s3 bits U I3 S) as (c & -> & Uc & Bc).
  eexists. split; [reflexivity|].
  change (or_equal_small a b c bits) with (equal_small (Z.lor a b) c bits).
  rewrite C18_small_equal_inverted by (auto; apply lor_range; auto; lia).
  split; intros H i Hi; specialize (H i Hi); rewrite Z.lor_spec, Ba, Bb, Bc in * by lia; exact H.
Qed.
Theorem C104_equal_refuted : exists m s1 s2 bits, cmp_pre m [s1; s2] bits /\
  (forall i, 0 <= i < bits -> mbit m s1 i = mbit m s2 i) /\
  bitmap_equal false false m s1 s2 bits = Some true /\ bitmap_equal true true m s1 s2 bits = Some false /\
  bitmap_equal false true m s1 s2 bits = Some false /\ bitmap_or_equal true m s1 s1 s2 bits = Some false.
Proof.
  exists [7; 7], 0, 1, 16. split.
  - split; [repeat constructor; unfold u64; lia|]. split; [lia|]. repeat constructor; unfold nwords, zlen; cbn; lia.
  - split; [intros i Hi; unfold mbit; replace (i / 64) with 0 by lia; reflexivity|]. vm_compute. auto.
Qed.
Example C104_ex : cmp_pre [0; 0x100; 5; 0x300] [0; 2] 72 /\ bitmap_empty false true [0; 0x100; 5; 0x300] 0 72 = Some true /\
  bitmap_empty false false [0; 0x100; 5; 0x300] 0 73 = Some false /\ bitmap_full true false [31] 0 5 = Some true /\
  bitmap_equal false false [0; 0x100; 0; 0x300] 0 2 73 = Some true.
Proof.
  split; [|vm_compute; auto]. split; [repeat constructor; unfold u64; lia|]. split; [lia|].
  repeat constructor; unfold nwords, zlen; cbn; lia.
Qed.

(** ** C105: operations *)
Ltac sm := rewrite ?Z.add_0_r; match goal with
  | |- context [small ?k ?b] => destruct (small k b) eqn:S; cbn [negb]; [apply small_case in S| ] end.

Theorem C105_and : forall kn m d s1 s2 bits, bm_pre m d [s1; s2] bits ->
  exists m' r, bitmap_and kn m d s1 s2 bits = Some (m', r) /\
    bitmap_is m d bits (fun i => mbit m s1 i && mbit m s2 i) m' /\
    (r = true <-> exists i, 0 <= i < bits /\ mbit m s1 i && mbit m s2 i = true).
Proof.
  intros kn m d s1 s2 bits H. unfold bitmap_and. sm; [|apply C18_and; exact H]. pre H.
  destruct (small_src m s1 bits U J S) as (a & -> & Ua & Ba). destruct (small_src m s2 bits U J0 S) as (b & -> & Ub & Bb).
  assert (B : forall j, 0 <= j < 64 -> Z.testbit (and_small a b bits) j = (j <? bits) && (mbit m s1 j && mbit m s2 j)).
  { intros j Hj. destruct (C18_small_partial a b bits Ua Ub S) as (_ & _ & _ & X). rewrite (proj1 (X j Hj)), Ba, Bb by lia. reflexivity. }
  destruct (small_store m d bits (and_small a b bits) (fun i => mbit m s1 i && mbit m s2 i) U I S (land_low_range _ _) B) as (m' & -> & BI).
  do 2 eexists. split; [reflexivity|]. split; [exact BI|].
  apply (flag_small _ bits (fun i => mbit m s1 i && mbit m s2 i)); auto. apply land_low_range.
Qed.
Theorem C105_andnot : forall kn m d s1 s2 bits, bm_pre m d [s1; s2] bits ->
  exists m' r, bitmap_andnot kn m d s1 s2 bits = Some (m', r) /\
    bitmap_is m d bits (fun i => mbit m s1 i && negb (mbit m s2 i)) m' /\
    (r = true <-> exists i, 0 <= i < bits /\ mbit m s1 i && negb (mbit m s2 i) = true).
Proof.
  intros kn m d s1 s2 bits H. unfold bitmap_andnot. sm; [|apply C18_andnot; exact H]. pre H.
  destruct (small_src m s1 bits U J S) as (a & -> & Ua & Ba). destruct (small_src m s2 bits U J0 S) as (b & -> & Ub & Bb).
  assert (B : forall j, 0 <= j < 64 -> Z.testbit (andnot_small a b bits) j = (j <? bits) && (mbit m s1 j && negb (mbit m s2 j))).
  { intros j Hj. destruct (C18_small_partial a b bits Ua Ub S) as (_ & _ & _ & X). rewrite (proj1 (proj2 (X j Hj))), Ba, Bb by lia. reflexivity. }
  destruct (small_store m d bits (andnot_small a b bits) (fun i => mbit m s1 i && negb (mbit m s2 i)) U I S (land_low_range _ _) B) as (m' & -> & BI).
  do 2 eexists. split; [reflexivity|]. split; [exact BI|].
  apply (flag_small _ bits (fun i => mbit m s1 i && negb (mbit m s2 i))); auto. apply land_low_range.
Qed.
Theorem C105_or : forall kn m d s1 s2 bits, bm_pre m d [s1; s2] bits ->
  exists m', bitmap_or kn m d s1 s2 bits = Some m' /\ bitmap_is m d bits (fun i => mbit m s1 i || mbit m s2 i) m'.
Proof.
  intros kn m d s1 s2 bits H. unfold bitmap_or. sm; [|apply C18_or; exact H]. pre H.
  destruct (small_src m s1 bits U J S) as (a & -> & Ua & Ba). destruct (small_src m s2 bits U J0 S) as (b & -> & Ub & Bb).
  apply small_store; auto; [apply land_low_range|]. intros j Hj.
  destruct (C18_small_partial a b bits Ua Ub S) as (_ & _ & _ & X). rewrite (proj1 (proj2 (proj2 (X j Hj)))), Ba, Bb by lia. reflexivity.
Qed.
Theorem C105_xor : forall kn m d s1 s2 bits, bm_pre m d [s1; s2] bits ->
  exists m', bitmap_xor kn m d s1 s2 bits = Some m' /\ bitmap_is m d bits (fun i => xorb (mbit m s1 i) (mbit m s2 i)) m'.
Proof.
  intros kn m d s1 s2 bits H. unfold bitmap_xor. sm; [|apply C18_xor; exact H]. pre H.
  destruct (small_src m s1 bits U J S) as (a & -> & Ua & Ba). destruct (small_src m s2 bits U J0 S) as (b & -> & Ub & Bb).
  apply small_store; auto; [apply land_low_range|]. intros j Hj.
  destruct (C18_small_partial a b bits Ua Ub S) as (_ & _ & _ & X). rewrite (proj1 (proj2 (proj2 (proj2 (X j Hj))))), Ba, Bb by lia. reflexivity.
Qed.
Theorem C105_complement : forall kn m d s bits, bm_pre m d [s] bits ->
  exists m', bitmap_complement kn m d s bits = Some m' /\ bitmap_is m d bits (fun i => negb (mbit m s i)) m'.
Proof.
  intros kn m d s bits H. unfold bitmap_complement. sm; [|apply C18_complement; exact H]. pre H.
  destruct (small_src m s bits U J S) as (a & -> & Ua & Ba).
  apply small_store; auto; [apply land_low_range|]. intros j Hj.
  destruct (C18_small_partial a a bits Ua Ua S) as (_ & _ & _ & X). rewrite (proj2 (proj2 (proj2 (proj2 (X j Hj))))), Ba by lia. reflexivity.
Qed.
(** shifts; a known length of at most 64 with a count of 64 or more is undefined in C *)
Theorem C105_shl : forall kn m d s shift bits, bm_pre m d [s] bits -> 0 <= shift < 2 ^ 32 -> (small kn bits = true -> shift < 64) ->
  exists m', bitmap_shl kn m d s shift bits = Some m' /\ zlen m' = zlen m /\
    (forall i, 0 <= i < bits -> mbit m' d i = if i <? shift then false else mbit m s (i - shift)) /\
    (forall a, ~ (d <= a < d + nwords bits) -> rd m' a = rd m a).
Proof.
  intros kn m d s shift bits H Hs Hd. unfold bitmap_shl. destruct (small kn bits) eqn:S; cbn [negb]; [|apply C19_shl; auto].
  specialize (Hd eq_refl). apply small_case in S. pre H. destruct (small_src m s bits U J S) as (a & -> & Ua & Ba).
  destruct (C19_small a shift bits Ua S ltac:(lia)) as [(w & -> & B) _].
  destruct (wr_spec _ m d w) as (m' & E & L & R). { destruct I. rewrite small_nw in * by assumption. lia. }
  exists m'. split; [exact E|]. split; [exact L|]. assert (E0 : wr m (d + 0) w = Some m') by (rewrite Z.add_0_r; exact E). split.
  - intros i Hi. rewrite (mbit_wr m d 0 w m' i E0). replace (i / 64 =? 0) with true by (symmetry; apply Z.eqb_eq; lia).
    rewrite B by lia. replace (i mod 64) with i by lia. replace (i <? bits) with true by (symmetry; apply Z.ltb_lt; lia). cbn [andb].
    destruct (Z.ltb_spec i shift); [replace (shift <=? i) with false by (symmetry; apply Z.leb_gt; lia); reflexivity|].
    replace (shift <=? i) with true by (symmetry; apply Z.leb_le; lia). rewrite Ba by lia. reflexivity.
  - rewrite small_nw by assumption. intros x Hx. rewrite R. replace (x =? d) with false by (symmetry; apply Z.eqb_neq; lia). reflexivity.
Qed.
(** The full statement covers every length; out of line it is false for lengths that are not a
    multiple of 64 (C19_shr_refuted). *)
Theorem C105_shr_partial : forall kn m d s shift bits, bm_pre m d [s] bits -> 0 <= shift < 2 ^ 32 ->
  (if small kn bits then shift < 64 else bits mod 64 = 0) ->
  exists m', bitmap_shr kn m d s shift bits = Some m' /\ zlen m' = zlen m /\
    (forall i, 0 <= i < bits -> mbit m' d i = if i + shift <? bits then mbit m s (i + shift) else false) /\
    (forall a, ~ (d <= a < d + nwords bits) -> rd m' a = rd m a).
Proof.
  intros kn m d s shift bits H Hs Hd. unfold bitmap_shr. destruct (small kn bits) eqn:S; cbn [negb]; [|apply C19_shr_partial; auto].
  apply small_case in S. pre H. destruct (small_src m s bits U J S) as (a & -> & Ua & Ba).
  destruct (C19_small a shift bits Ua S ltac:(lia)) as [_ (w & -> & B)].
  destruct (wr_spec _ m d w) as (m' & E & L & R). { destruct I. rewrite small_nw in * by assumption. lia. }
  exists m'. split; [exact E|]. split; [exact L|]. assert (E0 : wr m (d + 0) w = Some m') by (rewrite Z.add_0_r; exact E). split.
  - intros i Hi. rewrite (mbit_wr m d 0 w m' i E0). replace (i / 64 =? 0) with true by (symmetry; apply Z.eqb_eq; lia).
    rewrite B by lia. replace (i mod 64) with i by lia.
    destruct (Z.ltb_spec (i + shift) bits); [|reflexivity]. cbn [andb]. rewrite Ba by lia. reflexivity.
  - rewrite small_nw by assumption. intros x Hx. rewrite R. replace (x =? d) with false by (symmetry; apply Z.eqb_neq; lia). reflexivity.
Qed.
Example C105_ex : bm_pre [7; 255; 5; 258] 0 [0; 2] 6 /\ bitmap_and true [7; 255; 5; 258] 0 0 2 6 = Some ([5; 255; 5; 258], true) /\
  bitmap_shl true [7; 255] 0 0 3 5 = Some [24; 255] /\ bitmap_complement true [7; 255] 0 0 5 = Some [24; 255].
Proof.
  split; [|vm_compute; auto]. split; [repeat constructor; unfold u64; lia|]. split; [lia|].
  split; [split; unfold nwords, zlen; cbn; lia|].
  apply Forall_cons; [|apply Forall_cons; [|constructor]]; split; try (split; unfold nwords, zlen; cbn; lia);
    unfold same_or_disjoint, nwords; cbn; lia.
Qed.

(** ** C106: ranges *)
(** The first [bits] bits become [G]; the rest of the last word is left alone or also becomes
    [G]; no other word changes. *)
Definition filled (m : list Z) (d bits : Z) (G : Z -> bool) (m' : list Z) : Prop :=
  zlen m' = zlen m /\ Forall u64 m' /\
  (forall i, 0 <= i < bits -> mbit m' d i = G i) /\
  (forall i, bits <= i < 64 * nwords bits -> mbit m' d i = G i \/ mbit m' d i = mbit m d i) /\
  (forall a, ~ (d <= a < d + nwords bits) -> rd m' a = rd m a).

Lemma to_u8 : forall bits, 0 <= bits <= 2 ^ 32 - 64 -> bits_to_u8 bits = (bits + 7) / 8.
Proof. intros bits H. unfold bits_to_u8. rewrite w32_small by lia. f_equal. lia. Qed.

Lemma word_filled : forall m d bits v G, Forall u64 m -> in_mem m d bits -> 1 <= bits <= 64 -> u64 v ->
  (forall j, 0 <= j < 64 -> Z.testbit v j = G j) -> exists m', wr m d v = Some m' /\ filled m d bits G m'.
Proof.
  intros m d bits v G U [I1 I2] Hb Uv B. rewrite small_nw in I2 by assumption.
  destruct (wr_spec _ m d v ltac:(lia)) as (m' & E & L & R). exists m'. split; [exact E|].
  assert (E0 : wr m (d + 0) v = Some m') by (rewrite Z.add_0_r; exact E).
  assert (X : forall i, 0 <= i < 64 -> mbit m' d i = G i).
  { intros i Hi. rewrite (mbit_wr m d 0 v m' i E0). replace (i / 64 =? 0) with true by (symmetry; apply Z.eqb_eq; lia).
    rewrite B by lia. f_equal. lia. }
  split; [exact L|]. split; [exact (wr_u64 _ _ _ _ U Uv E)|]. rewrite small_nw by assumption. split; [|split].
  - intros i Hi. apply X. lia.
  - intros i Hi. left. apply X. lia.
  - intros a Ha. rewrite R. replace (a =? d) with false by (symmetry; apply Z.eqb_neq; lia). reflexivity.
Qed.

Lemma memset_filled : forall m d bits (x : bool), Forall u64 m -> 0 <= bits <= 2 ^ 32 - 64 -> in_mem m d bits ->
  exists m', memset (Z.to_nat (bits_to_u8 bits)) m d 0 (if x then 255 else 0) = Some m' /\ filled m d bits (fun _ => x) m'.
Proof.
  intros m d bits x U Hb [I1 I2]. rewrite to_u8 by assumption. unfold nwords in *.
  destruct (memset_ok (Z.to_nat ((bits + 7) / 8)) m d 0 x U I1 ltac:(lia) ltac:(lia)) as (m' & E & L & U' & B & O).
  exists m'. split; [exact E|]. split; [exact L|]. split; [exact U'|]. unfold nwords. split; [|split].
  - intros i Hi. rewrite B by lia. replace (8 * 0 <=? i) with true by (symmetry; apply Z.leb_le; lia).
    replace (i <? 8 * (0 + Z.of_nat (Z.to_nat ((bits + 7) / 8)))) with true by (symmetry; apply Z.ltb_lt; lia). reflexivity.
  - intros i Hi. rewrite B by lia. destruct (_ && _); auto.
  - intros a Ha. apply O. lia.
Qed.

Theorem C106_zero_fill : forall kn m d bits, Forall u64 m -> 0 <= bits <= 2 ^ 32 - 64 -> in_mem m d bits ->
  (exists m', bitmap_zero kn m d bits = Some m' /\ filled m d bits (fun _ => false) m') /\
  (exists m', bitmap_fill kn m d bits = Some m' /\ filled m d bits (fun _ => true) m').
Proof.
  intros kn m d bits U Hb I. unfold bitmap_zero, bitmap_fill. destruct (small kn bits) eqn:S.
  - apply small_case in S. split; apply word_filled; auto.
    + unfold u64; lia.
    + intros. apply Z.bits_0.
    + unfold u64, ULONG_MAX; lia.
    + intros j Hj. rewrite ulong_max_bits by lia. apply Z.ltb_lt. lia.
  - split; [exact (memset_filled m d bits false U Hb I)|exact (memset_filled m d bits true U Hb I)].
Qed.
Theorem C106_copy : forall kn m d s bits, bm_pre m d [s] bits ->
  exists m', bitmap_copy kn m d s bits = Some m' /\ filled m d bits (mbit m s) m'.
Proof.
  intros kn m d s bits H. pre H. unfold nmax in Hb. unfold bitmap_copy. destruct (small kn bits) eqn:S.
  - apply small_case in S. destruct (small_src m s bits U J S) as (w & -> & Uw & Bw). apply word_filled; auto.
  - destruct I as [I1 I2], J as [J1 J2]. rewrite to_u8 by lia.
    destruct (memcpy_ok (Z.to_nat ((bits + 7) / 8)) m d s 0 (nwords bits) U I1 J1 ltac:(lia) ltac:(unfold nwords; lia) I2 J2 D)
      as (m' & E & L & U' & B & O).
    exists m'. split; [exact E|]. split; [exact L|]. split; [exact U'|]. split; [|split].
    + intros i Hi. rewrite B by lia. replace (8 * 0 <=? i) with true by (symmetry; apply Z.leb_le; lia).
      replace (i <? 8 * (0 + Z.of_nat (Z.to_nat ((bits + 7) / 8)))) with true by (symmetry; apply Z.ltb_lt; lia). reflexivity.
    + intros i Hi. rewrite B by lia. destruct (_ && _); auto.
    + intros a Ha. apply O. unfold nwords in Ha. lia.
Qed.

(** Setting and clearing a range: exactly for single bits known to be single, for ranges known
    to start and end on byte boundaries, and out of line for ranges that end on a word boundary. *)
Definition range_known (kn ka kas : bool) (start bits : Z) : Prop :=
  if kn && (bits =? 1) then True
  else if aligned kas start && aligned ka bits then True
  else (start + bits) mod 64 = 0.

Lemma bit_at_ok : forall m map b (x : bool), Forall u64 m -> 0 <= map -> 0 <= b -> map + b / 64 < zlen m ->
  exists m', (if x then bit_set_at m map b else bit_clr_at m map b) = Some m' /\ range_ok m map b 1 x m'.
Proof.
  intros m map b x U Hm Hb Hl. destruct (rd_some _ m (map + b / 64) ltac:(lia)) as [w Hw].
  pose proof (rd_u64 m _ w U Hw) as Uw.
  assert (G : forall v, (forall j, 0 <= j < 64 -> Z.testbit v j = if j =? b mod 64 then x else Z.testbit w j) ->
    exists m', wr m (map + b / 64) v = Some m' /\ range_ok m map b 1 x m').
  { intros v B. destruct (wr_spec _ m (map + b / 64) v ltac:(lia)) as (m' & E & L & R). exists m'. split; [exact E|].
    split; [exact L|]. split.
    - intros i Hi. rewrite (mbit_wr m map (b / 64) v m' i E). destruct (Z.eqb_spec (i / 64) (b / 64)) as [Q|Q].
      + rewrite B by lia. unfold mbit. rewrite Q, Hw. destruct (Z.eqb_spec (i mod 64) (b mod 64)) as [A|A].
        * replace i with b by lia. replace (b <=? b) with true by (symmetry; apply Z.leb_le; lia).
          replace (b <? b + 1) with true by (symmetry; apply Z.ltb_lt; lia). reflexivity.
        * destruct (Z.leb_spec b i), (Z.ltb_spec i (b + 1)); cbn [andb]; auto. assert (i = b) by lia. subst i. lia.
      + destruct (Z.leb_spec b i), (Z.ltb_spec i (b + 1)); cbn [andb]; auto. assert (i = b) by lia. subst i. lia.
    - intros a Ha. rewrite R. replace (a =? map + b / 64) with false by (symmetry; apply Z.eqb_neq; lia). reflexivity. }
  unfold bit_set_at, bit_clr_at. rewrite Hw. destruct x; apply G; intros j Hj.
  - rewrite Z.lor_spec, BIT_bits by lia. destruct (j =? b mod 64); [apply orb_true_r|apply orb_false_r].
  - rewrite Z.land_spec, not64_bits, BIT_bits by lia. replace (j <? 64) with true by (symmetry; apply Z.ltb_lt; lia).
    destruct (j =? b mod 64); [apply andb_false_r|apply andb_true_r].
Qed.

Lemma range_case : forall m map start bits (x : bool), Forall u64 m -> 0 <= map -> 0 <= start -> 0 < bits ->
  start mod 8 = 0 -> bits mod 8 = 0 -> map + (start + bits + 63) / 64 <= zlen m ->
  exists m', memset (Z.to_nat (bits / 8)) m map (start / 8) (if x then 255 else 0) = Some m' /\ range_ok m map start bits x m'.
Proof.
  intros m map start bits x U Hm Hs Hb A1 A2 Hl.
  destruct (memset_ok (Z.to_nat (bits / 8)) m map (start / 8) x U Hm ltac:(lia) ltac:(lia)) as (m' & E & L & U' & B & O).
  exists m'. split; [exact E|]. split; [exact L|]. split.
  - intros i Hi. rewrite B by lia. replace (8 * (start / 8)) with start by lia.
    replace (8 * (start / 8 + Z.of_nat (Z.to_nat (bits / 8)))) with (start + bits) by lia. reflexivity.
  - intros a Ha. apply O. lia.
Qed.

Theorem C106_set_clr_partial : forall kn ka kas m map start bits, Forall u64 m -> 0 <= map -> 0 <= start -> 0 < bits ->
  start + bits < 2 ^ 32 -> map + (start + bits + 63) / 64 <= zlen m -> range_known kn ka kas start bits ->
  (exists m', bitmap_set kn ka kas m map start bits = Some m' /\ range_ok m map start bits true m') /\
  (exists m', bitmap_clr kn ka kas m map start bits = Some m' /\ range_ok m map start bits false m').
Proof.
  intros kn ka kas m map start bits U Hm Hs Hb Hsz Hl K. unfold bitmap_set, bitmap_clr, range_known in *.
  destruct (kn && (bits =? 1)) eqn:One.
  - apply andb_prop in One. destruct One as [_ One]. apply Z.eqb_eq in One. subst bits.
    split; [exact (bit_at_ok m map start true U Hm Hs ltac:(lia))|exact (bit_at_ok m map start false U Hm Hs ltac:(lia))].
  - destruct (aligned kas start) eqn:A1; cbn [negb orb andb] in *.
    + destruct (aligned ka bits) eqn:A2; cbn [negb orb andb] in *.
      * apply aligned_case in A1, A2.
        split; [exact (range_case m map start bits true U Hm Hs Hb A1 A2 Hl)|exact (range_case m map start bits false U Hm Hs Hb A1 A2 Hl)].
      * split; [apply C20_set_partial|apply C20_clr_partial]; auto; lia.
    + split; [apply C20_set_partial|apply C20_clr_partial]; auto; lia.
Qed.
(** The same call is right or runs off the end of memory depending on what the compiler knows. *)
Theorem C106_set_refuted : exists m map start bits m', Forall u64 m /\ 0 < bits /\ map + (start + bits + 63) / 64 <= zlen m /\
  bitmap_set true true true m map start bits = Some m' /\ bitmap_set false false false m map start bits = None.
Proof.
  exists [0; 0], 0, 8, 16, [0xffff00; 0]. split; [repeat constructor; unfold u64; lia|]. repeat (split; [unfold zlen; cbn; lia|]).
  vm_compute. auto.
Qed.
(** Lengths within 7 of 2^32 round to zero bytes: nothing is cleared. *)
Theorem C106_wrap_refuted : forall m d, bitmap_zero false m d (2 ^ 32 - 7) = Some m /\ bitmap_zero true m d (2 ^ 32 - 7) = Some m.
Proof. intros m d. split; reflexivity. Qed.
Example C106_ex : bitmap_zero false [-1 + 2 ^ 64; -1 + 2 ^ 64; 5] 0 70 = Some [0; 2 ^ 64 - 2 ^ 8; 5] /\
  bitmap_fill true [0; 5] 0 3 = Some [2 ^ 64 - 1; 5] /\ bitmap_copy false [0x12345; 0; 0x6789] 1 0 9 = Some [0x12345; 0x2345; 0x6789] /\
  bitmap_clr true false false [7; 7] 0 65 1 = Some [7; 5] /\ range_known false true true 8 16.
Proof. vm_compute. auto. Qed.

Print Assumptions C104_empty.
Print Assumptions C104_full.
Print Assumptions C104_intersects.
Print Assumptions C104_equal_exact.
Print Assumptions C104_equal_partial.
Print Assumptions C104_or_equal_exact.
Print Assumptions C104_equal_refuted.
Print Assumptions C105_and.
Print Assumptions C105_andnot.
Print Assumptions C105_or.
Print Assumptions C105_xor.
Print Assumptions C105_complement.
Print Assumptions C105_shl.
Print Assumptions C105_shr_partial.
Print Assumptions C106_zero_fill.
Print Assumptions C106_copy.
Print Assumptions C106_set_clr_partial.
Print Assumptions C106_set_refuted.
Print Assumptions C106_wrap_refuted.
