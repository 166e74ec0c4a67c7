(** * Proofs about the radix array: first, last, next and previous cells *)
From Verif Require Import Lib BitsModel BitsProofs BitmapSpec BitmapProofs BitwalkModel BitwalkSpec BitwalkProps DwordProofs RadixModel RadixSpec RadixProofs RadixOps.
Ltac Zify.zify_post_hook ::= Z.div_mod_to_equations.

Lemma wanted_plain : forall b i, wanted b 0 None false false i = mbit b 0 i.
Proof. intros. unfold wanted, bit_place. rewrite andb_true_r. apply xorb_false_l. Qed.
Lemma bits_search : forall b, zlen b = 4 -> Forall u64 b -> search_pre b BLOCK 0 None.
Proof. intros b L U. split; [exact U|]. unfold BLOCK. split; [lia|]. split; [|exact I]. split; [lia|]. unfold nwords. rewrite L. cbn. lia. Qed.
Lemma least_plain : forall b lo r, least (wanted b 0 None false false) lo BLOCK BLOCK r -> least (mbit b 0) lo 256 256 r.
Proof.
  intros b lo r [[A B]|(A & B & C)]; [left|right]; unfold BLOCK in *.
  - split; [exact A|]. intros i Hi. rewrite <- wanted_plain. auto.
  - split; [exact A|]. rewrite <- wanted_plain. split; [exact B|]. intros i Hi. rewrite <- wanted_plain. auto.
Qed.
Lemma greatest_plain : forall b lo hi r, greatest (wanted b 0 None false false) lo hi BLOCK r -> greatest (mbit b 0) lo hi 256 r.
Proof.
  intros b lo hi r [[A B]|(A & B & C)]; [left|right]; unfold BLOCK in *.
  - split; [exact A|]. intros i Hi. rewrite <- wanted_plain. auto.
  - split; [exact A|]. rewrite <- wanted_plain. split; [exact B|]. intros i Hi. rewrite <- wanted_plain. auto.
Qed.
Lemma first_bit : forall b, zlen b = 4 -> Forall u64 b -> exists r, find_first b = Some r /\ least (mbit b 0) 0 256 256 r.
Proof. intros b L U. destruct (C21_find_first b BLOCK 0 false false (bits_search b L U)) as (r & A & B). exists r. split; [exact A|]. apply least_plain, B. Qed.
Lemma last_bit : forall b, zlen b = 4 -> Forall u64 b -> exists r, find_last b = Some r /\ greatest (mbit b 0) 0 256 256 r.
Proof. intros b L U. destruct (C21_find_last b BLOCK 0 false false (bits_search b L U)) as (r & A & B). exists r. split; [exact A|]. apply greatest_plain, B. Qed.
Lemma next_bit : forall b i, zlen b = 4 -> Forall u64 b -> 0 <= i < 256 -> exists r, comp_find_next b BLOCK 0 false 0 None (w32 (i + 1)) = Some r /\ least (mbit b 0) (i + 1) 256 256 r.
Proof.
  intros b i L U Hi. rewrite w32_small by lia. destruct (C21_find_next b BLOCK 0 None false false (i + 1) (bits_search b L U) ltac:(lia)) as (r & A & B). exists r. split; [exact A|]. apply least_plain, B.
Qed.
Lemma prev_bit : forall b i, zlen b = 4 -> Forall u64 b -> 0 <= i < 256 -> exists r, comp_find_prev b BLOCK 0 false 0 None (w32 (i - 1)) = Some r /\ greatest (mbit b 0) 0 i 256 r.
Proof.
  intros b i L U Hi. destruct (Z.eq_dec i 0) as [->|N].
  - destruct (C21_find_prev b BLOCK 0 None false false (w32 (0 - 1)) (bits_search b L U) ltac:(unfold w32; lia)) as (r & A & B). exists r. split; [exact A|].
    change (w32 (0 - 1) <? BLOCK) with false in B. left. split; [exact B|]. intros; lia.
  - rewrite w32_small by lia. destruct (C21_find_prev b BLOCK 0 None false false (i - 1) (bits_search b L U) ltac:(lia)) as (r & A & B). exists r. split; [exact A|].
    unfold BLOCK at 1 in B. destruct (Z.ltb_spec (i - 1) 256); [|lia]. replace (i - 1 + 1) with i in B by lia. apply greatest_plain, B.
Qed.

Lemma shift_small : forall a k, 0 <= a -> 0 <= k -> a * 2 ^ k < 2 ^ 64 -> w64 (Z.shiftl a k) = a * 2 ^ k.
Proof. intros a k Ha Hk H. rewrite Z.shiftl_mul_pow2 by lia. apply w64_small. pose proof (pow_pos k Hk). nia. Qed.
Lemma pre_div : forall k o, 0 <= k -> pre k o = o / 256 / 2 ^ (5 * k).
Proof. intros k o Hk. unfold pre. replace (5 * k + 8) with (8 + 5 * k) by lia. rewrite Z.pow_add_r by lia. rewrite Z.div_div by (try lia; apply pow_pos; lia). reflexivity. Qed.
Lemma up5 : forall k q, 0 <= k -> q / 2 ^ (5 * (k + 1)) = q / 2 ^ (5 * k) / 32.
Proof. intros k q Hk. replace (5 * (k + 1)) with (5 * k + 5) by lia. rewrite Z.pow_add_r by lia. rewrite Z.div_div by (try lia; apply pow_pos; lia). reflexivity. Qed.
Lemma div_up : forall a b k, 0 <= k -> a <= b -> a / 2 ^ (5 * k) <= b / 2 ^ (5 * k).
Proof. intros a b k Hk H. apply Z.div_le_mono; [apply pow_pos; lia|exact H]. Qed.
Lemma finish_ok : forall o count, 0 <= o < 2 ^ 64 -> 0 <= count < 256 -> Z.lor (Z.land o (not64 (BLOCK - 1))) count = o / 256 * 256 + count.
Proof.
  intros o count Ho Hc. change (not64 (BLOCK - 1)) with (HIGH_MASK 8). rewrite high_mask by lia. change 256 with (2 ^ 8). apply lor_add; lia.
Qed.
Lemma block_swap : forall o j, 0 <= o < 2 ^ 63 -> 0 <= j < 32 ->
  Z.lor (Z.land o (not64 (w64 (Z.shiftl (ARY - 1) 8)))) (w64 (Z.shiftl j 8)) = (o / 2 ^ 13 * 32 + j) * 256 + o mod 256.
Proof.
  intros o j Ho Hj. rewrite (shift_small j 8) by lia. change (not64 (w64 (Z.shiftl (ARY - 1) 8))) with (Z.lor (HIGH_MASK 13) (Z.ones 8)).
  rewrite Z.land_lor_distr_r, high_mask by lia. rewrite Z.land_ones by lia. change (2 ^ 8) with 256.
  rewrite <- Z.lor_assoc, (Z.lor_comm (o mod 256)). change (j * 256) with (j * 2 ^ 8). rewrite (lor_add j 8) by lia. change (2 ^ 8) with 256.
  rewrite lor_add by lia. change (2 ^ 13) with (32 * 256). lia.
Qed.

Section Inv.
Context {X : Z -> Z -> Prop} {E : Z -> Z -> Z} {h : heap} {r L : Z} {loc : Z -> Z -> Z}.
Hypothesis I : inv X E h r L loc.

Lemma child_up_ok : forall n l p walk, 0 < l -> loc l p <> 0 -> 0 <= walk -> walk + Z.of_nat n = 32 ->
  exists a, child_up n h (loc l p) walk = Some a /\
    match a with
    | None => forall j, walk <= j < 32 -> loc (l - 1) (32 * p + j) = 0
    | Some (j, c) => walk <= j < 32 /\ c = loc (l - 1) (32 * p + j) /\ c <> 0 /\ forall i, walk <= i < j -> loc (l - 1) (32 * p + i) = 0
    end.
Proof.
  induction n as [|n IH]; intros l p walk Hl Hp Hw Hn; cbn [child_up].
  - eexists. split; [reflexivity|]. cbv beta iota. intros; lia.
  - rewrite (branch_child I l p Hl Hp) by lia. unfold NULL. destruct (Z.eqb_spec (loc (l - 1) (32 * p + walk)) 0) as [Z0|NZ].
    + destruct (IH l p (walk + 1) Hl Hp ltac:(lia) ltac:(lia)) as (a & A & B). exists a. split; [exact A|]. destruct a as [[j c]|].
      * destruct B as (B1 & B2 & B3 & B4). split; [lia|]. split; [exact B2|]. split; [exact B3|]. intros i Hi. destruct (Z.eq_dec i walk) as [->|]; [exact Z0|apply B4; lia].
      * intros j Hj. destruct (Z.eq_dec j walk) as [->|]; [exact Z0|apply B; lia].
    + eexists. split; [reflexivity|]. cbv beta iota. split; [lia|]. split; [reflexivity|]. split; [exact NZ|]. intros; lia.
Qed.
Lemma child_down_ok : forall n l p, 0 < l -> loc l p <> 0 -> Z.of_nat n <= 32 ->
  exists a, child_down n h (loc l p) = Some a /\
    match a with
    | None => forall j, 0 <= j < Z.of_nat n -> loc (l - 1) (32 * p + j) = 0
    | Some (j, c) => 0 <= j < Z.of_nat n /\ c = loc (l - 1) (32 * p + j) /\ c <> 0 /\ forall i, j < i < Z.of_nat n -> loc (l - 1) (32 * p + i) = 0
    end.
Proof.
  induction n as [|n IH]; intros l p Hl Hp Hn; cbn [child_down].
  - eexists. split; [reflexivity|]. cbv beta iota. intros; lia.
  - rewrite (branch_child I l p Hl Hp) by lia. unfold NULL. destruct (Z.eqb_spec (loc (l - 1) (32 * p + Z.of_nat n)) 0) as [Z0|NZ].
    + destruct (IH l p Hl Hp ltac:(lia)) as (a & A & B). exists a. split; [exact A|]. destruct a as [[j c]|].
      * destruct B as (B1 & B2 & B3 & B4). split; [lia|]. split; [exact B2|]. split; [exact B3|]. intros i Hi. destruct (Z.eq_dec i (Z.of_nat n)) as [->|]; [exact Z0|apply B4; lia].
      * intros j Hj. destruct (Z.eq_dec j (Z.of_nat n)) as [->|]; [exact Z0|apply B; lia].
    + eexists. split; [reflexivity|]. cbv beta iota. split; [lia|]. split; [reflexivity|]. split; [exact NZ|]. intros; lia.
Qed.
Definition ahead (back : bool) (a b : Z) : Prop := if back then b <= a else a <= b.
(** no branch without children *)
Definition fed : Prop := forall l p, 0 < l -> loc l p <> 0 -> exists j, 0 <= j < 32 /\ loc (l - 1) (32 * p + j) <> 0.
Lemma leaf_under : forall k q, 0 <= k <= L -> loc 0 q <> 0 -> loc k (q / 2 ^ (5 * k)) <> 0.
Proof. intros k q Hk H. pose proof (loc_up I k 0 q H ltac:(lia) ltac:(lia)) as G. rewrite Z.add_0_l in G. exact G. Qed.
Lemma most_ok : forall back n p off, fed -> Z.of_nat n <= L -> loc (Z.of_nat n) p <> 0 ->
  exists q off', most back n h (loc (Z.of_nat n) p) off = Some (loc 0 q, off') /\ loc 0 q <> 0 /\ q / 2 ^ (5 * Z.of_nat n) = p /\
    (forall q', loc 0 q' <> 0 -> q' / 2 ^ (5 * Z.of_nat n) = p -> ahead back q q') /\ (off = p * 2 ^ (5 * Z.of_nat n + 8) -> off' = q * 256).
Proof.
  intros back n p off FD. revert p off. induction n as [|n IH]; intros p off Hn Hp.
  - cbn [most Z.of_nat] in *. exists p, off. split; [reflexivity|]. split; [exact Hp|]. change (2 ^ (5 * 0)) with 1. split; [apply Z.div_1_r|]. split; [|intros ->; reflexivity].
    intros q' _ H. rewrite Z.div_1_r in H. subst. unfold ahead. destruct back; lia.
  - set (l := Z.of_nat n) in *. assert (Hl : Z.of_nat (S n) = l + 1) by (unfold l; lia). rewrite Hl in *. pose proof (i_level _ _ _ _ _ _ I) as HL. assert (Hl0 : 0 <= l) by (unfold l; clear; lia). assert (HlL : 0 <= l <= L) by (clear - Hl0 Hn; lia).
    assert (CH : exists j, 0 <= j < 32 /\ (if back then child_down 32 h (loc (l + 1) p) else child_up 32 h (loc (l + 1) p) 0) = Some (Some (j, loc l (32 * p + j))) /\ loc l (32 * p + j) <> 0 /\
      forall i, 0 <= i < 32 -> loc l (32 * p + i) <> 0 -> ahead back j i).
    { destruct (FD (l + 1) p ltac:(lia) Hp) as (j0 & Hj0 & C0). replace (l + 1 - 1) with l in C0 by lia. destruct back.
      - destruct (child_down_ok 32 (l + 1) p ltac:(lia) Hp ltac:(lia)) as (a & A & B). replace (l + 1 - 1) with l in B by lia. change (Z.of_nat 32) with 32 in B. destruct a as [[j c]|]; [|exfalso; apply C0, B; lia].
        destruct B as (B1 & -> & B3 & B4). exists j. split; [lia|]. split; [exact A|]. split; [exact B3|]. intros i Hi Ci. unfold ahead. destruct (Z_le_dec i j); [lia|]. exfalso. apply Ci, B4. lia.
      - destruct (child_up_ok 32 (l + 1) p 0 ltac:(lia) Hp ltac:(lia) ltac:(lia)) as (a & A & B). replace (l + 1 - 1) with l in B by lia. destruct a as [[j c]|]; [|exfalso; apply C0, B; lia].
        destruct B as (B1 & -> & B3 & B4). exists j. split; [lia|]. split; [exact A|]. split; [exact B3|]. intros i Hi Ci. unfold ahead. destruct (Z_le_dec j i); [lia|]. exfalso. apply Ci, B4. lia. }
    destruct CH as (j & Hj & A & C & F). cbn [most]. rewrite A. fold l.
    destruct (IH (32 * p + j) (Z.lor off (w64 (Z.shiftl j (depth_shift l)))) ltac:(lia) C) as (q & off' & M & Q1 & Q2 & Q3 & Q4).
    exists q, off'. split; [exact M|]. split; [exact Q1|]. split; [rewrite up5 by exact Hl0; rewrite Q2; clear - Hj; lia|]. split.
    + intros q' Lq Hq'. rewrite up5 in Hq' by exact Hl0. set (a := q' / 2 ^ (5 * l)) in *.
      assert (La : loc l a <> 0) by (apply leaf_under; [exact HlL|exact Lq]).
      assert (AH : ahead back j (a mod 32)). { apply F; [clear; lia|]. replace (32 * p + a mod 32) with a by (clear - Hq'; lia). exact La. }
      destruct (Z.eq_dec (a mod 32) j) as [Ej|Nj].
      * apply Q3; [exact Lq|]. fold a. clear - Ej Hq'. lia.
      * unfold ahead in *. unfold a in *. destruct back.
        -- destruct (Z_le_dec q' q) as [|G]; [assumption|exfalso]. pose proof (div_up q q' l Hl0 ltac:(clear - G; lia)) as H. rewrite Q2 in H. clear - H AH Nj Hq'. lia.
        -- destruct (Z_le_dec q q') as [|G]; [assumption|exfalso]. pose proof (div_up q' q l Hl0 ltac:(clear - G; lia)) as H. rewrite Q2 in H. clear - H AH Nj Hq'. lia.
    + intros ->. apply Q4. unfold depth_shift. pose proof (pow_pos (5 * l + 8) ltac:(clear - Hl0; lia)) as PP.
      assert (RG : 2 ^ (5 * l + 8) <= 2 ^ 58) by (apply Z.pow_le_mono_r; clear - HlL HL Hn; lia).
      rewrite shift_small by (clear - PP RG Hj Hl0; nia).
      rewrite lor_add.
      * replace (5 * (l + 1) + 8) with (5 + (5 * l + 8)) by (clear; lia). rewrite Z.pow_add_r by (clear - Hl0; lia). change (2 ^ 5) with 32. ring.
      * clear - Hl0. lia.
      * replace (5 * (l + 1) + 8) with (5 + (5 * l + 8)) by (clear; lia). rewrite (Z.pow_add_r 2 5) by (clear - Hl0; lia). change (2 ^ 5) with 32. clear - PP Hj. nia.
Qed.
Lemma left_most : forall n, r <> 0 -> Z.of_nat n <= L -> most false n h (loc (Z.of_nat n) 0) 0 = Some (loc 0 0, 0).
Proof.
  intros n R. induction n as [|n IH]; intros Hn; [reflexivity|]. set (l := Z.of_nat n) in *. assert (Hl : Z.of_nat (S n) = l + 1) by (unfold l; lia). rewrite Hl in *. pose proof (i_level _ _ _ _ _ _ I) as HL.
  destruct (child_up_ok 32 (l + 1) 0 0 ltac:(lia) (i_left _ _ _ _ _ _ I R (l + 1) ltac:(lia)) ltac:(lia) ltac:(lia)) as (a & A & B). replace (l + 1 - 1) with l in B by lia.
  pose proof (i_left _ _ _ _ _ _ I R l ltac:(lia)) as C. cbn [most]. rewrite A. destruct a as [[j c]|]; [|exfalso; apply C; apply (B 0); lia].
  destruct B as (B1 & -> & B3 & B4). destruct (Z.eq_dec j 0) as [->|N]; [|exfalso; apply C; apply (B4 0); lia].
  change (32 * 0 + 0) with 0. rewrite Z.shiftl_0_l. change (Z.lor 0 (w64 0)) with 0. apply IH. lia.
Qed.

Definition beyond (back : bool) (a b : Z) : Prop := if back then b < a else a < b.
Lemma climb_ok : forall back ps o, 0 <= o < 2 ^ 63 -> o < 2 ^ (5 * L + 8) -> loc 0 (o / 256) <> 0 -> path ps loc L o ->
  forall n k, 1 <= k -> Z.of_nat n = L - k + 1 ->
  (forall q, loc 0 q <> 0 -> q / 2 ^ (5 * (k - 1)) = pre (k - 1) o -> ahead back q (o / 256)) ->
  exists a, climb back n h ps k o = Some a /\
    match a with
    | None => forall q, loc 0 q <> 0 -> ahead back q (o / 256)
    | Some (lv, c, off) => k <= lv <= L /\ exists q', c = loc (lv - 1) q' /\ c <> 0 /\ beyond back (pre (lv - 1) o) q' /\
        (forall q, loc 0 q <> 0 -> beyond back (o / 256) q -> ahead back q' (q / 2 ^ (5 * (lv - 1)))) /\ (lv = 1 -> q' / 32 = o / 2 ^ 13 /\ off = q' * 256 + o mod 256)
    end.
Proof.
  intros back ps o Ho Hc Hleaf (P1 & P2 & P3). pose proof (i_level _ _ _ _ _ _ I) as HL. induction n as [|n IH]; intros k Hk Hn Hle; cbn [climb].
  - eexists. split; [reflexivity|]. cbv beta iota. intros q Hq. apply Hle; [exact Hq|]. replace (k - 1) with L by lia. rewrite pre_top by lia. apply Z.div_small. destruct (i_range _ _ _ _ _ _ I 0 q Hq) as [_ B]. rewrite Z.sub_0_r in B. exact B.
  - rewrite P1 by lia. pose proof (P3 (k - 1) ltac:(lia)) as P3k. replace (k - 1 + 1) with k in P3k by lia. rewrite P3k. set (index := pre (k - 1) o mod 32). assert (Hi : 0 <= index < 32) by (unfold index; lia).
    assert (Hkn : loc k (pre k o) <> 0). { rewrite pre_div by lia. apply leaf_under; [lia|exact Hleaf]. }
    assert (PS : pre k o = pre (k - 1) o / 32). { replace k with (k - 1 + 1) at 1 by lia. apply pre_succ. lia. }
    assert (SPLIT : forall q, loc 0 q <> 0 -> beyond back (o / 256) q -> let a := q / 2 ^ (5 * (k - 1)) in loc (k - 1) a <> 0 /\ beyond back (pre (k - 1) o) a).
    { intros q Lq Bq a. split; [apply leaf_under; [lia|exact Lq]|]. assert (N : a <> pre (k - 1) o). { intros Q. pose proof (Hle q Lq Q) as A. unfold ahead, beyond in *. destruct back; lia. }
      rewrite pre_div in * by lia. fold a. unfold beyond in *. destruct back.
      - pose proof (div_up q (o / 256) (k - 1) ltac:(clear - Hk; lia) ltac:(clear - Bq; lia)) as H. fold a in H. revert H N. generalize (o / 256 / 2 ^ (5 * (k - 1))). clear. intros; lia.
      - pose proof (div_up (o / 256) q (k - 1) ltac:(clear - Hk; lia) ltac:(clear - Bq; lia)) as H. fold a in H. revert H N. generalize (o / 256 / 2 ^ (5 * (k - 1))). clear. intros; lia. }
    assert (CH : exists a, (if back then child_down (Z.to_nat index) h (loc k (pre k o)) else child_up (Z.to_nat (ARY - (index + 1))) h (loc k (pre k o)) (index + 1)) = Some a /\
      match a with
      | None => forall i, 0 <= i < 32 -> beyond back index i -> loc (k - 1) (32 * pre k o + i) = 0
      | Some (j, c) => 0 <= j < 32 /\ c = loc (k - 1) (32 * pre k o + j) /\ c <> 0 /\ beyond back index j /\ forall i, 0 <= i < 32 -> beyond back index i -> loc (k - 1) (32 * pre k o + i) <> 0 -> ahead back j i
      end).
    { destruct back.
      - destruct (child_down_ok (Z.to_nat index) k (pre k o) ltac:(lia) Hkn ltac:(lia)) as (a & A & B). rewrite Z2Nat.id in B by lia. exists a. split; [exact A|]. destruct a as [[j c]|].
        + destruct B as (B1 & B2 & B3 & B4). split; [lia|]. split; [exact B2|]. split; [exact B3|]. split; [exact (proj2 B1)|]. intros i Hi1 Hi2 Hi3. unfold ahead, beyond in *. destruct (Z_le_dec i j); [assumption|]. exfalso. apply Hi3, B4. lia.
        + intros i Hi1 Hi2. apply B. unfold beyond in Hi2. lia.
      - unfold ARY. destruct (child_up_ok (Z.to_nat (32 - (index + 1))) k (pre k o) (index + 1) ltac:(lia) Hkn ltac:(lia) ltac:(lia)) as (a & A & B). exists a. split; [exact A|]. destruct a as [[j c]|].
        + destruct B as (B1 & B2 & B3 & B4). split; [lia|]. split; [exact B2|]. split; [exact B3|]. split; [unfold beyond; lia|]. intros i Hi1 Hi2 Hi3. unfold ahead, beyond in *. destruct (Z_le_dec j i); [assumption|]. exfalso. apply Hi3, B4. lia.
        + intros i Hi1 Hi2. apply B. unfold beyond in Hi2. lia. }
    destruct CH as (a & A & B). rewrite A. destruct a as [[j c]|].
    + eexists. split; [reflexivity|]. cbv beta iota. split; [lia|]. destruct B as (B1 & B2 & B3 & B4 & B5). exists (32 * pre k o + j). split; [exact B2|]. split; [exact B3|]. split; [|split].
      * unfold index in B4. clear - B4 PS. unfold beyond in *. rewrite PS. destruct back; lia.
      * intros q Lq Bq. destruct (SPLIT q Lq Bq) as [S1 S2]. set (b := q / 2 ^ (5 * (k - 1))) in *.
        destruct (Z.eq_dec (b / 32) (pre k o)) as [Eq|Ne].
        -- assert (AH : ahead back j (b mod 32)). { apply B5; [clear; lia| |]. - unfold index. clear - S2 Eq PS. unfold beyond in *. destruct back; lia. - replace (32 * pre k o + b mod 32) with b by (clear - Eq; lia). exact S1. }
           clear - AH Eq. unfold ahead in *. destruct back; lia.
        -- clear - S2 Ne PS B1. unfold ahead, beyond in *. destruct back; lia.
      * intros ->. change (1 - 1) with 0 in *. change (depth_shift 0) with 8. split.
        -- change (pre 1 o) with (o / 2 ^ 13). clear - B1. lia.
        -- rewrite block_swap by assumption. change (pre 1 o) with (o / 2 ^ 13). clear. lia.
    + destruct (IH (k + 1) ltac:(lia) ltac:(lia)) as (a & A' & B').
      * intros q Lq Hq. replace (k + 1 - 1) with (k - 1 + 1) in Hq by lia. rewrite up5 in Hq by lia. replace (k - 1 + 1) with k in Hq by lia.
        assert (D : ahead back q (o / 256) \/ beyond back (o / 256) q) by (unfold ahead, beyond; destruct back; lia). destruct D as [D|D]; [exact D|exfalso].
        destruct (SPLIT q Lq D) as [S1 S2]. set (b := q / 2 ^ (5 * (k - 1))) in *. apply S1. replace b with (32 * pre k o + b mod 32) by (clear - Hq; lia). apply B; [clear; lia|]. unfold index. clear - S2 Hq PS. unfold beyond in *. destruct back; lia.
      * exists a. split; [exact A'|]. destruct a as [[[lv c] off]|]; [|exact B']. destruct B' as [B1 B2]. split; [lia|exact B2].
Qed.
End Inv.
