(** * C21: bitmap searches *)
From Verif Require Import Lib BitsModel BitsSpec BitsProofs BitmapModel BitmapSpec BitmapProofs BitwalkModel BitwalkSpec BitwalkProofs.
Ltac Zify.zify_post_hook ::= Z.div_mod_to_equations.

(** Both bitmaps (the second optional) lie in memory; lengths up to 2^32 - 64 (beyond that
    the 32-bit counters of the code wrap). *)
Definition search_pre (m : list Z) (bits a1 : Z) (a2 : option Z) : Prop :=
  Forall u64 m /\ 0 <= bits <= 2 ^ 32 - 64 /\ in_mem m a1 bits /\
  match a2 with None => True | Some a => in_mem m a bits end.

Theorem C21_find_next : forall m bits a1 a2 (inv swap : bool) start, search_pre m bits a1 a2 -> 0 <= start < 2 ^ 32 ->
  exists r, comp_find_next m bits (if inv then 2 ^ 64 - 1 else 0) swap a1 a2 start = Some r /\
    least (wanted m a1 a2 inv swap) start bits bits r.
Proof.
  intros m bits a1 a2 inv swap start (U & Hb & I1 & I2) Hs.
  apply (comp_find_next_ok m bits inv swap a1 a2 U Hb (conj I1 I2)). lia.
Qed.

Theorem C21_find_prev : forall m bits a1 a2 (inv swap : bool) start, search_pre m bits a1 a2 -> 0 <= start < 2 ^ 32 ->
  exists r, comp_find_prev m bits (if inv then 2 ^ 64 - 1 else 0) swap a1 a2 start = Some r /\
    if start <? bits then greatest (wanted m a1 a2 inv swap) 0 (start + 1) bits r else r = bits.
Proof.
  intros m bits a1 a2 inv swap start (U & Hb & I1 & I2) Hs.
  destruct (comp_find_prev_ok m bits inv swap a1 a2 U Hb (conj I1 I2) start) as (r & E & G); [lia|].
  exists r. split; [exact E|]. destruct (Z.ltb_spec start bits); destruct G as [[A G]|[A G]]; auto; lia.
Qed.

Theorem C21_find_first : forall m bits a (inv swap : bool), search_pre m bits a None ->
  exists r, comp_find_first m bits (if inv then 2 ^ 64 - 1 else 0) swap a = Some r /\
    least (wanted m a None inv swap) 0 bits bits r.
Proof. intros m bits a inv swap (U & Hb & I1 & _). apply (comp_find_first_ok m bits inv swap a U Hb I1). Qed.

Theorem C21_find_last : forall m bits a (inv swap : bool), search_pre m bits a None ->
  exists r, comp_find_last m bits (if inv then 2 ^ 64 - 1 else 0) swap a = Some r /\
    greatest (wanted m a None inv swap) 0 bits bits r.
Proof. intros m bits a inv swap (U & Hb & I1 & _). apply (comp_find_last_ok m bits inv swap a U Hb I1). Qed.

Example C21_ex : search_pre [0; 0x8000000000000001; 0xf0; 0xffffffffffffffff; 0xffffffffffffffff; 0x80] 140 0 (Some 3) /\
  comp_find_next [0; 0x8000000000000001; 0xf0; 0xffffffffffffffff; 0xffffffffffffffff; 0x80] 140 0 false 0 (Some 3) 65 = Some 127 /\
  comp_find_next [0; 0x8000000000000001; 0xf0; 0xffffffffffffffff; 0xffffffffffffffff; 0x80] 140 0 false 0 (Some 3) 128 = Some 135 /\
  comp_find_prev [0; 0x8000000000000001; 0xf0] 140 0 false 0 None 126 = Some 64 /\
  comp_find_first [0; 0x8000000000000001; 0xf0] 140 0 true 0 = Some 71 /\
  comp_find_last [0xff; 0xffffffffffffffff; 0xfff] 140 (2 ^ 64 - 1) false 0 = Some 63.
Proof.
  split; [|vm_compute; tauto]. split; [repeat constructor; unfold u64; lia|]. split; [lia|].
  unfold in_mem, nwords, zlen. cbn. lia.
Qed.

(** ** The iteration macros visit exactly the matching indices, in order *)
Lemma least_none : forall (P : Z -> bool) lo hi r, least P lo hi hi r -> hi <= r -> r = hi /\ forall i, lo <= i < hi -> P i = false.
Proof. intros P lo hi r [[A B]|[A _]] H; [auto|lia]. Qed.

Lemma walk_up : forall (P : Z -> bool) next bits, (forall i, 0 <= i < bits -> exists r, next i = Some r /\ least P (i + 1) bits bits r) ->
  forall fuel lo i, 0 <= lo -> least P lo bits bits i -> Z.of_nat fuel > bits - lo ->
  walk fuel next bits i = Some (filter P (zseq lo (Z.to_nat (bits - lo)))).
Proof.
  intros P next bits N. induction fuel as [|fuel IH]; intros lo i Hlo L Hf; cbn [walk].
  - destruct L as [[-> L]|[L _]]; [|lia]. rewrite Z.ltb_irrefl. replace (Z.to_nat (bits - lo)) with O by lia. reflexivity.
  - destruct L as [[-> L]|(L1 & L2 & L3)].
    + rewrite Z.ltb_irrefl. rewrite filter_none; [reflexivity|]. intros j Hj. apply zseq_in in Hj. apply L. lia.
    + replace (i <? bits) with true by (symmetry; apply Z.ltb_lt; lia).
      destruct (N i) as (r & -> & Lr); [lia|]. rewrite (IH (i + 1) r) by (auto; lia).
      f_equal. replace (Z.to_nat (bits - lo)) with (Z.to_nat (i - lo) + S (Z.to_nat (bits - (i + 1))))%nat by lia.
      rewrite zseq_split.
      rewrite filter_app, (filter_none _ P (zseq lo (Z.to_nat (i - lo)))) by (intros j Hj; apply zseq_in in Hj; apply L3; lia).
      replace (lo + Z.of_nat (Z.to_nat (i - lo))) with i by lia.
      cbn [zseq filter app]. rewrite L2. reflexivity.
Qed.

Lemma walk_down : forall (P : Z -> bool) next bits,
  (forall i, 0 <= i < bits -> exists r, next i = Some r /\ greatest P 0 i bits r) ->
  forall fuel hi i, 0 <= hi <= bits -> greatest P 0 hi bits i -> Z.of_nat fuel > hi ->
  walk fuel next bits i = Some (rev (filter P (zseq 0 (Z.to_nat hi)))).
Proof.
  intros P next bits N. induction fuel as [|fuel IH]; intros hi i Hhi L Hf; cbn [walk]; [lia|].
  destruct L as [[-> L]|(L1 & L2 & L3)].
  - rewrite Z.ltb_irrefl. rewrite filter_none; [reflexivity|]. intros j Hj. apply zseq_in in Hj. apply L. lia.
  - replace (i <? bits) with true by (symmetry; apply Z.ltb_lt; lia).
    destruct (N i) as (r & -> & Lr); [lia|]. rewrite (IH i r) by (auto; lia).
    f_equal. replace (Z.to_nat hi) with (Z.to_nat i + S (Z.to_nat (hi - (i + 1))))%nat by lia.
    rewrite zseq_split.
    rewrite filter_app, rev_app_distr. replace (0 + Z.of_nat (Z.to_nat i)) with i by lia.
    cbn [zseq filter]. rewrite L2, (filter_none _ P (zseq (i + 1) _)) by (intros j Hj; apply zseq_in in Hj; apply L3; lia). reflexivity.
Qed.

Theorem C21_for_each : forall m bits a (inv : bool), search_pre m bits a None ->
  let matching := filter (fun i => xorb inv (mbit m a i)) (zseq 0 (Z.to_nat bits)) in
  for_each m bits (if inv then 2 ^ 64 - 1 else 0) a = Some matching /\
  for_each_reverse m bits (if inv then 2 ^ 64 - 1 else 0) a = Some (rev matching).
Proof.
  intros m bits a inv H. pose proof H as (U & Hb & I1 & _).
  assert (E : forall n, filter (fun i => xorb inv (mbit m a i)) (zseq 0 n) = filter (wanted m a None inv false) (zseq 0 n)).
  { intros n. apply filter_ext. intros i. unfold wanted, bit_place. rewrite andb_true_r. reflexivity. }
  cbv zeta. rewrite E. split.
  - unfold for_each. destruct (C21_find_first m bits a inv false H) as (r & -> & L).
    rewrite (walk_up (wanted m a None inv false)) with (lo := 0); auto; try lia.
    + do 3 f_equal. lia.
    + intros i Hi. rewrite w32_small by lia. apply C21_find_next; [exact H|lia].
  - unfold for_each_reverse. destruct (C21_find_last m bits a inv false H) as (r & -> & L).
    rewrite (walk_down (wanted m a None inv false)) with (hi := bits); auto; try lia.
    intros i Hi. destruct (Z.eq_dec i 0) as [->|N].
    + destruct (C21_find_prev m bits a None inv false (w32 (0 - 1)) H) as (q & -> & G); [apply w32_range|].
      replace (w32 (0 - 1) <? bits) with false in G by (symmetry; apply Z.ltb_ge; change (w32 (0 - 1)) with (2 ^ 32 - 1); lia).
      exists q. split; [reflexivity|]. left. split; [exact G|]. intros; lia.
    + rewrite w32_small by lia. destruct (C21_find_prev m bits a None inv false (i - 1) H) as (q & -> & G); [lia|].
      replace (i - 1 <? bits) with true in G by (symmetry; apply Z.ltb_lt; lia).
      exists q. split; [reflexivity|]. replace (i - 1 + 1) with i in G by lia. exact G.
Qed.

Example C21_for_each_ex : for_each [0x8000000000000005; 0x3] 65 0 0 = Some [0; 2; 63; 64] /\
  for_each_reverse [0x8000000000000005; 0x3] 65 0 0 = Some [64; 63; 2; 0].
Proof. vm_compute. auto. Qed.

(** ** Inline versions for constant lengths 1..64 *)
Lemma small_ffs : forall (Q : Z -> bool) v lo bits, u64 v -> 0 <= lo -> lo < bits <= 64 ->
  (forall j, 0 <= j < 64 -> Z.testbit v j = (lo <=? j) && (j <? bits) && Q j) ->
  least Q lo bits bits (if v =? 0 then bits else ffsuf v).
Proof.
  intros Q v lo bits Uv Hlo Hb B. destruct (Z.eqb_spec v 0) as [E|E].
  - left. split; [reflexivity|]. intros i Hi. specialize (B i ltac:(lia)). rewrite E, Z.bits_0 in B.
    replace (lo <=? i) with true in B by (symmetry; apply Z.leb_le; lia). replace (i <? bits) with true in B by (symmetry; apply Z.ltb_lt; lia). auto.
  - destruct (ffsuf_spec v ltac:(unfold u64 in Uv; lia)) as [(F1 & F2 & F3) F4]. rewrite B in F2 by lia.
    apply andb_prop in F2. destruct F2 as [F2 F5]. apply andb_prop in F2. destruct F2 as [F2 F6]. apply Z.leb_le in F2. apply Z.ltb_lt in F6.
    right. split; [lia|]. split; [exact F5|]. intros i Hi. specialize (F3 i ltac:(lia)). rewrite B in F3 by lia.
    replace (lo <=? i) with true in F3 by (symmetry; apply Z.leb_le; lia). replace (i <? bits) with true in F3 by (symmetry; apply Z.ltb_lt; lia). auto.
Qed.
Lemma small_fls : forall (Q : Z -> bool) v hi bits, u64 v -> 0 < hi <= 64 ->
  (forall j, 0 <= j < 64 -> Z.testbit v j = (j <? hi) && Q j) ->
  greatest Q 0 hi bits (if v =? 0 then bits else flsuf v).
Proof.
  intros Q v hi bits Uv Hb B. destruct (Z.eqb_spec v 0) as [E|E].
  - left. split; [reflexivity|]. intros i Hi. specialize (B i ltac:(lia)). rewrite E, Z.bits_0 in B.
    replace (i <? hi) with true in B by (symmetry; apply Z.ltb_lt; lia). auto.
  - destruct (flsuf_spec v ltac:(unfold u64 in Uv; lia)) as [(F1 & F2 & F3) F4]. rewrite B in F2 by lia.
    apply andb_prop in F2. destruct F2 as [F6 F5]. apply Z.ltb_lt in F6.
    right. split; [lia|]. split; [exact F5|]. intros i Hi. specialize (F3 i ltac:(lia)). rewrite B in F3 by lia.
    replace (i <? hi) with true in F3 by (symmetry; apply Z.ltb_lt; lia). auto.
Qed.
Lemma not64_max : forall v, u64 v -> (v =? ULONG_MAX) = (not64 v =? 0).
Proof.
  intros v H. unfold u64 in H. rewrite not64_val by assumption. unfold ULONG_MAX.
  destruct (Z.eqb_spec v (2 ^ 64 - 1)), (Z.eqb_spec (2 ^ 64 - 1 - v) 0); auto; lia.
Qed.
Lemma range_bits : forall hi lo j, 0 <= lo <= hi -> hi < 64 -> 0 <= j < 64 -> Z.testbit (BIT_RANGE hi lo) j = (lo <=? j) && (j <? hi + 1).
Proof.
  intros hi lo j Hl Hh Hj. unfold BIT_RANGE. rewrite Z.land_spec, Z.shiftr_spec, ulong_max_bits by lia.
  assert (E : w64 (ULONG_MAX - w64 (Z.shiftl 1 lo) + 1) = HIGH_MASK lo).
  { unfold HIGH_MASK. rewrite (land_ones' _ 63 6), Z.mod_small by (auto; lia). rewrite !Z.shiftl_mul_pow2 by lia.
    unfold w64, ULONG_MAX. rewrite Z.mul_1_l.
    rewrite <- (Z.mod_add (2 ^ 64 - 1 - 2 ^ lo mod 2 ^ 64 + 1) (2 ^ lo - 1) (2 ^ 64)) by lia.
    rewrite (Z.mod_small (2 ^ lo)) by (split; [apply Z.pow_nonneg; lia|apply Z.pow_lt_mono_r; lia]). f_equal. lia. }
  rewrite E, HIGH_MASK_bits, Z.mod_small by lia. f_equal.
  destruct (Z.ltb_spec (j + (63 - hi)) 64), (Z.ltb_spec j (hi + 1)); auto; lia.
Qed.
Lemma range_range : forall hi lo, 0 <= lo <= hi -> hi < 64 -> u64 (BIT_RANGE hi lo).
Proof. intros. apply land_range_l; [lia|apply w64_range]. Qed.
Lemma low_small : forall n j, 1 <= n <= 64 -> 0 <= j < 64 -> Z.testbit (LOW_MASK n) j = (j <? n).
Proof.
  intros n j Hn Hj. rewrite low_mask_at by lia. destruct (Z.eqb_spec (n mod 64) 0); [replace n with 64 by lia; reflexivity|].
  rewrite Z.mod_small by lia. reflexivity.
Qed.
Lemma neg_at : forall v j, 0 <= j < 64 -> Z.testbit (not64 v) j = negb (Z.testbit v j).
Proof. intros. rewrite not64_bits by lia. replace (j <? 64) with true by (symmetry; apply Z.ltb_lt; lia). reflexivity. Qed.

(** Full statement minus the cases excluded by [bits < 64] / [offset < 63] below, which are false. *)
Theorem C21_small_partial : forall w bits offset, u64 w -> 1 <= bits <= 64 -> 0 <= offset < bits ->
  let one := Z.testbit w in let zero := fun i => negb (Z.testbit w i) in
  least one 0 bits bits (find_first_small w bits) /\ greatest one 0 bits bits (find_last_small w bits) /\
  least one offset bits bits (find_next_small w bits offset) /\
  greatest one 0 (offset + 1) bits (find_prev_small w bits offset) /\
  least zero offset bits bits (find_next_zero_small w bits offset) /\
  (bits < 64 -> least zero 0 bits bits (find_first_zero_small w bits) /\ greatest zero 0 bits bits (find_last_zero_small w bits)) /\
  (offset < 63 -> greatest zero 0 (offset + 1) bits (find_prev_zero_small w bits offset)).
Proof.
  intros w bits offset Uw Hb Ho one zero.
  assert (OB : (bits <=? offset) = false) by (apply Z.leb_gt; lia).
  unfold find_first_small, find_last_small, find_next_small, find_prev_small, find_next_zero_small,
    find_first_zero_small, find_last_zero_small, find_prev_zero_small. rewrite OB. cbv zeta.
  assert (LW : forall k, u64 (Z.land w k)) by (intros; apply land_range_l; [lia|exact Uw]).
  assert (OR : forall k, u64 k -> u64 (Z.lor w k)) by (intros; apply lor_range; [lia|exact Uw|assumption]).
  assert (NW : forall k, u64 (not64 k)) by (intros; apply w64_range).
  split; [|split; [|split; [|split; [|split; [|split]]]]].
  - apply small_ffs; auto; try lia. intros j Hj. rewrite Z.land_spec, low_small by lia.
    replace (0 <=? j) with true by (symmetry; apply Z.leb_le; lia). apply andb_comm.
  - apply small_fls; auto; try lia. intros j Hj. rewrite Z.land_spec, low_small by lia. apply andb_comm.
  - apply small_ffs; auto; try lia. intros j Hj. rewrite Z.land_spec, range_bits by lia. replace (bits - 1 + 1) with bits by lia. apply andb_comm.
  - apply small_fls; auto; try lia. intros j Hj. rewrite Z.land_spec, low_small by lia. apply andb_comm.
  - rewrite not64_max by (apply OR, NW). unfold ffzuf. apply small_ffs; auto; try lia.
    intros j Hj. rewrite neg_at, Z.lor_spec, neg_at, range_bits by lia. replace (bits - 1 + 1) with bits by lia.
    unfold zero. destruct (Z.testbit w j), ((offset <=? j) && (j <? bits)); reflexivity.
  - intros Hlt. rewrite !not64_max by (apply OR, HIGH_MASK_range). unfold ffzuf, flzuf.
    assert (HM : forall j, 0 <= j < 64 -> Z.testbit (not64 (Z.lor w (HIGH_MASK bits))) j = (j <? bits) && zero j).
    { intros j Hj. rewrite neg_at, Z.lor_spec, HIGH_MASK_bits, Z.mod_small by lia. unfold zero.
      destruct (Z.testbit w j), (Z.leb_spec bits j), (Z.ltb_spec j bits); auto; lia. }
    split.
    + apply small_ffs; auto; try lia. intros j Hj. rewrite HM by lia.
      replace (0 <=? j) with true by (symmetry; apply Z.leb_le; lia). reflexivity.
    + apply small_fls; auto; try lia.
  - intros Hlt. rewrite not64_max by (apply OR, HIGH_MASK_range). unfold flzuf. apply small_fls; auto; try lia.
    intros j Hj. rewrite neg_at, Z.lor_spec, HIGH_MASK_bits, Z.mod_small by lia. unfold zero.
    destruct (Z.testbit w j), (Z.leb_spec (offset + 1) j), (Z.ltb_spec j (offset + 1)); auto; lia.
Qed.

(** With a constant length of exactly 64 the zero searches see the whole word masked off. *)
Theorem C21_small_refuted : exists w, u64 w /\ Z.testbit w 0 = false /\
  find_first_zero_small w 64 = 64 /\ find_last_zero_small w 64 = 64 /\ find_prev_zero_small w 64 63 = 64.
Proof. exists 6. unfold u64. split; [lia|]. vm_compute. auto. Qed.
Theorem C21_small_64_always_none : forall w, u64 w ->
  find_first_zero_small w 64 = 64 /\ find_last_zero_small w 64 = 64 /\ find_prev_zero_small w 64 63 = 64.
Proof.
  intros w H. unfold find_first_zero_small, find_last_zero_small, find_prev_zero_small.
  change (HIGH_MASK 64) with ULONG_MAX. change (HIGH_MASK (63 + 1)) with ULONG_MAX.
  assert (E : Z.lor w ULONG_MAX = ULONG_MAX).
  { apply (word_ext 64); [apply lor_range; [lia|exact H|unfold ULONG_MAX; lia]|unfold ULONG_MAX; lia|].
    intros i Hi. rewrite Z.lor_spec, ulong_max_bits by lia. replace (i <? 64) with true by (symmetry; apply Z.ltb_lt; lia). apply orb_true_r. }
  rewrite E, Z.eqb_refl. auto.
Qed.
Example C21_small_ex : find_next_small 0xb0 8 6 = 7 /\ find_prev_zero_small 0xb0 8 5 = 3 + 0 /\ find_first_zero_small 0xff 8 = 8.
Proof. vm_compute. auto. Qed.

Print Assumptions C21_find_next.
Print Assumptions C21_find_prev.
Print Assumptions C21_find_first.
Print Assumptions C21_find_last.
Print Assumptions C21_for_each.
Print Assumptions C21_small_partial.
