(** * Proofs about the radix array: the operations *)
From Verif Require Import Lib BitsModel BitsProofs BitmapSpec BitmapProofs RadixModel RadixSpec RadixProofs.
Ltac Zify.zify_post_hook ::= Z.div_mod_to_equations.

(** ** Arithmetic of offsets *)
Definition pre (l o : Z) : Z := o / 2 ^ (5 * l + 8).
Lemma pow_pos : forall k, 0 <= k -> 0 < 2 ^ k.
Proof. intros. apply Z.pow_pos_nonneg; lia. Qed.
Lemma pre_0 : forall o, pre 0 o = o / 256.
Proof. reflexivity. Qed.
Lemma pre_succ : forall l o, 0 <= l -> pre (l + 1) o = pre l o / 32.
Proof.
  intros l o Hl. unfold pre. rewrite Z.div_div by (try lia; apply pow_pos; lia). f_equal. replace (5 * (l + 1) + 8) with (5 * l + 8 + 5) by lia. rewrite Z.pow_add_r by lia. reflexivity.
Qed.
Lemma pre_child : forall l o, 0 < l -> 32 * pre l o + pre (l - 1) o mod 32 = pre (l - 1) o.
Proof. intros l o Hl. pose proof (pre_succ (l - 1) o ltac:(lia)) as H. replace (l - 1 + 1) with l in H by lia. rewrite H. lia. Qed.
Lemma pre_nonneg : forall l o, 0 <= o -> 0 <= l -> 0 <= pre l o.
Proof. intros. unfold pre. apply Z.div_pos; [lia|apply pow_pos; lia]. Qed.
Lemma pre_top : forall L o, 0 <= L -> 0 <= o < 2 ^ (5 * L + 8) -> pre L o = 0.
Proof. intros. unfold pre. apply Z.div_small. lia. Qed.
Lemma low_mask : forall s, 0 < s < 64 -> LOW_MASK s = Z.ones s.
Proof.
  intros s Hs. assert (A : all_below 64 (fun s => (s =? 0) || (LOW_MASK s =? Z.ones s)) = true) by (vm_compute; reflexivity).
  pose proof (all_below_spec _ _ A s ltac:(lia)) as B. cbv beta in B. destruct (Z.eqb_spec s 0); [lia|]. cbn in B. apply Z.eqb_eq, B.
Qed.
Lemma mod_split : forall l o, 0 <= l -> o mod 2 ^ (5 * (l + 1) + 8) = o mod 2 ^ (5 * l + 8) + 2 ^ (5 * l + 8) * (pre l o mod 32).
Proof.
  intros l o Hl. pose proof (pow_pos (5 * l + 8) ltac:(lia)). replace (5 * (l + 1) + 8) with (5 * l + 8 + 5) by lia. rewrite Z.pow_add_r by lia.
  apply Z.rem_mul_r; lia.
Qed.
Lemma depth_index_ok : forall l o, 0 <= l <= 10 -> depth_index l (o mod 2 ^ (5 * (l + 1) + 8)) = Some (pre l o mod 32).
Proof.
  intros l o Hl. unfold depth_index, depth_shift. destruct (Z.leb_spec 64 (5 * l + 8)); [lia|]. f_equal. change (ARY - 1) with (Z.ones 5). rewrite Z.land_ones, Z.shiftr_div_pow2 by lia.
  rewrite mod_split by lia. pose proof (pow_pos (5 * l + 8) ltac:(lia)).
  rewrite (Z.mul_comm (2 ^ (5 * l + 8))), Z.div_add by lia. rewrite (Z.div_small (o mod 2 ^ (5 * l + 8))) by (apply Z.mod_pos_bound; lia). rewrite Z.add_0_l. apply Z.mod_mod. lia.
Qed.
Lemma mask_ok : forall l o, 0 <= l <= 10 -> Z.land (o mod 2 ^ (5 * (l + 1) + 8)) (LOW_MASK (depth_shift l)) = o mod 2 ^ (5 * l + 8).
Proof.
  intros l o Hl. unfold depth_shift. rewrite low_mask, Z.land_ones by lia. rewrite mod_split by lia. pose proof (pow_pos (5 * l + 8) ltac:(lia)).
  rewrite (Z.mul_comm (2 ^ (5 * l + 8))), Z.mod_add by lia. apply Z.mod_mod. lia.
Qed.
Lemma high_mask : forall s y, 0 < s < 64 -> 0 <= y < 2 ^ 64 -> Z.land y (HIGH_MASK s) = y / 2 ^ s * 2 ^ s.
Proof.
  intros s y Hs Hy. rewrite <- Z.shiftr_div_pow2, <- Z.shiftl_mul_pow2 by lia. apply Z.bits_inj'. intros j Hj. rewrite Z.land_spec, Z.shiftl_spec by lia.
  destruct (Z_lt_dec j 64) as [H|H].
  - rewrite HIGH_MASK_bits by lia. rewrite Z.mod_small by lia. destruct (Z.leb_spec s j).
    + rewrite Z.shiftr_spec by lia. rewrite andb_true_r. f_equal. lia.
    + rewrite andb_false_r. symmetry. apply Z.testbit_neg_r. lia.
  - rewrite (testbit_small y 64) by lia. cbn. rewrite Z.shiftr_spec by lia. symmetry. apply (testbit_small y 64); lia.
Qed.
Lemma ilog2_log2 : forall v, 0 <= v < 2 ^ 64 -> ilog2 v = Z.log2 v.
Proof.
  intros v Hv. unfold ilog2. destruct (Z.ltb_spec v 2).
  - assert (v = 0 \/ v = 1) as [-> | ->] by lia; reflexivity.
  - unfold fls. destruct (Z.eqb_spec v 0); [lia|]. rewrite flsuf_log2 by lia. lia.
Qed.
Lemma log2_lt : forall o k, 0 <= o -> 0 < k -> (Z.log2 o < k <-> o < 2 ^ k).
Proof.
  intros o k Ho Hk. destruct (Z.eq_dec o 0) as [->|N]; [|symmetry; apply Z.log2_lt_pow2; lia].
  change (Z.log2 0) with 0. pose proof (pow_pos k ltac:(lia)). lia.
Qed.

(** ** The fields of nodes *)
Lemma hset_same : forall h n nd, hset h n nd n = Some nd.
Proof. intros. unfold hset. rewrite Z.eqb_refl. reflexivity. Qed.
Lemma get_child_ok : forall h n nd i, h n = Some nd -> get_child h n i = rd (n_child nd) i.
Proof. intros h n nd i H. unfold get_child. rewrite H. reflexivity. Qed.
Lemma get_ref_ok : forall h n nd c, h n = Some nd -> n_bits nd = [c; 0; 0; 0] -> 0 <= c < 2 ^ 32 -> get_ref h n = Some c.
Proof. intros h n nd c H B Hc. unfold get_ref. rewrite H, B. cbn. rewrite w32_small by lia. reflexivity. Qed.
Lemma set_ref_ok : forall h n nd c v, h n = Some nd -> n_bits nd = [c; 0; 0; 0] -> 0 <= c < 2 ^ 32 -> 0 <= v < 2 ^ 32 ->
  set_ref h n v = Some (hset h n {| n_child := n_child nd; n_bits := [v; 0; 0; 0] |}).
Proof.
  intros h n nd c v H B Hc Hv. unfold set_ref, set_bits. rewrite H, B. cbn [rd wr wr_nat nth_error Z.to_nat Z.ltb Z.compare]. rewrite (w32_small c), (w32_small v) by lia.
  replace (c - c + v) with v by lia. reflexivity.
Qed.

(** ** Leaves as the client sees them *)
Definition view (h : heap) (loc : Z -> Z -> Z) (p : Z) : option (Z * rnode) :=
  if loc 0 p =? 0 then None else match h (loc 0 p) with Some nd => Some (loc 0 p, nd) | None => None end.
Definition cell_of (v : Z -> option (Z * rnode)) (o : Z) : option Z :=
  match v (o / 256) with Some (n, nd) => if mbit (n_bits nd) 0 (o mod 256) then Some (n + o mod 256) else None | None => None end.
Definition data_of (v : Z -> option (Z * rnode)) (o : Z) : option Z :=
  match v (o / 256) with Some (_, nd) => rd (n_child nd) (o mod 256 / 8) | None => None end.
Lemma mbit_zeros : forall i, mbit (n_bits zeros) 0 i = false.
Proof.
  intros i. unfold mbit. destruct (rd (n_bits zeros) (0 + i / 64)) as [w|] eqn:R; [|reflexivity]. apply rd_in in R. cbn in R.
  replace w with 0 by intuition. apply Z.bits_0.
Qed.
(** new leaves may appear, without cells *)
Definition grow (v v' : Z -> option (Z * rnode)) : Prop := forall p, v' p = v p \/ v p = None /\ exists n, v' p = Some (n, zeros).
Lemma grow_refl : forall v, grow v v.
Proof. intros v p. auto. Qed.
Lemma grow_trans : forall a b c, grow a b -> grow b c -> grow a c.
Proof.
  intros a b c H1 H2 p. destruct (H1 p) as [E1|[E1 (n & F1)]], (H2 p) as [E2|[E2 (m & F2)]].
  - left. congruence.
  - right. split; [congruence|eauto].
  - right. split; [exact E1|]. exists n. congruence.
  - congruence.
Qed.
Lemma grow_ext : forall a b, (forall p, b p = a p) -> grow a b.
Proof. intros a b H p. auto. Qed.
Lemma grow_cell : forall a b o, grow a b -> cell_of b o = cell_of a o.
Proof.
  intros a b o H. unfold cell_of. destruct (H (o / 256)) as [->|[-> (n & ->)]]; [reflexivity|]. rewrite mbit_zeros. reflexivity.
Qed.
Lemma grow_data : forall a b o x, grow a b -> data_of a o = Some x -> data_of b o = Some x.
Proof. intros a b o x H. unfold data_of. destruct (H (o / 256)) as [->|[-> _]]; [auto|discriminate]. Qed.

Section Ops.
Variable al : nat -> heap -> Z.
Hypothesis AL : allocator al.
Definition born (s : root) : Prop := forall n, r_heap s n <> None -> exists j h', (j < r_clock s)%nat /\ n = al j h'.
Definition good (X : Z -> Z -> Prop) (E : Z -> Z -> Z) (s : root) (loc : Z -> Z -> Z) : Prop := inv X E (r_heap s) (r_node s) (r_level s) loc /\ born s.
Definition view_of (s : root) (loc : Z -> Z -> Z) := view (r_heap s) loc.

(** ** radix_parent *)
Definition path (ps : parents) (loc : Z -> Z -> Z) (L o : Z) : Prop :=
  (forall k, 0 <= k <= L -> parent_node ps k = Some (loc k (pre k o))) /\ parent_index ps 0 = Some (o mod 256) /\
  (forall k, 0 <= k < L -> parent_index ps (k + 1) = Some (pre k o mod 32)).
Section Inv.
Context {X : Z -> Z -> Prop} {E : Z -> Z -> Z} {h : heap} {r L : Z} {loc : Z -> Z -> Z}.
Hypothesis I : inv X E h r L loc.

Lemma branch_child : forall l q, 0 < l -> loc l q <> 0 -> forall j, 0 <= j < 32 -> get_child h (loc l q) j = Some (loc (l - 1) (32 * q + j)).
Proof. intros l q Hl H j Hj. destruct (i_branch _ _ _ _ _ _ I l q Hl H) as (nd & H1 & _ & H3 & _). rewrite (get_child_ok _ _ _ _ H1). auto. Qed.
Lemma path_child : forall l o, 0 < l -> loc l (pre l o) <> 0 -> get_child h (loc l (pre l o)) (pre (l - 1) o mod 32) = Some (loc (l - 1) (pre (l - 1) o)).
Proof. intros l o Hl H. rewrite branch_child by (try assumption; lia). rewrite pre_child by lia. reflexivity. Qed.
Lemma path_gap : forall l o, 0 <= l <= L -> loc l (pre l o) = 0 -> loc 0 (o / 256) = 0.
Proof.
  intros l o Hl H. destruct (Z.eq_dec (loc 0 (o / 256)) 0) as [|N]; [assumption|exfalso].
  pose proof (loc_up I l 0 (o / 256) N ltac:(lia) ltac:(lia)) as G. rewrite Z.add_0_l in G. apply G. unfold pre in H.
  replace (5 * l + 8) with (8 + 5 * l) in H by lia. rewrite Z.pow_add_r, <- Z.div_div in H by (try lia; apply pow_pos; lia). exact H.
Qed.
Lemma walk_ok : forall n node x ps o, (n <= 11)%nat -> Z.of_nat n <= L -> node = loc (Z.of_nat n) (pre (Z.of_nat n) o) -> node <> 0 -> x = o mod 2 ^ (5 * Z.of_nat n + 8) ->
  zlen (p_node ps) = 12 -> zlen (p_index ps) = 12 ->
  exists b ps', parent_walk n h node x ps = Some (b, ps') /\
    (b = true -> loc 0 (o / 256) <> 0 /\ (forall k, 0 <= k < Z.of_nat n -> parent_node ps' k = Some (loc k (pre k o))) /\ (forall k, Z.of_nat n <= k -> parent_node ps' k = parent_node ps k) /\
       parent_index ps' 0 = Some (o mod 256) /\ (forall k, 0 <= k < Z.of_nat n -> parent_index ps' (k + 1) = Some (pre k o mod 32)) /\
       (forall k, Z.of_nat n < k -> parent_index ps' k = parent_index ps k)) /\
    (b = false -> loc 0 (o / 256) = 0).
Proof.
  induction n as [|n IH]; intros node x ps o Hn HL Hnode Hnz Hx L1 L2; cbn [parent_walk].
  - destruct (wr_spec _ (p_index ps) 0 (Some (w32 x)) ltac:(lia)) as (l' & W & _ & RR). unfold put_index. rewrite W.
    exists true. eexists. split; [reflexivity|]. split; [|discriminate]. intros _. cbn [Z.of_nat] in *. rewrite Hnode in Hnz. split; [exact Hnz|]. split; [intros; lia|]. split; [reflexivity|].
    split; [|split; [intros; lia|]].
    + unfold parent_index. cbn [p_index]. rewrite RR, Z.eqb_refl. rewrite w32_small; [subst x; reflexivity|]. subst x. change (2 ^ (5 * 0 + 8)) with 256. lia.
    + intros k Hk. unfold parent_index. cbn [p_index]. rewrite RR. destruct (Z.eqb_spec k 0); [lia|reflexivity].
  - set (l := Z.of_nat n) in *. assert (Hl : Z.of_nat (S n) = l + 1) by (unfold l; lia). rewrite Hl in *.
    rewrite Hx, depth_index_ok by lia. pose proof (path_child (l + 1) o ltac:(lia) ltac:(congruence)) as PC. replace (l + 1 - 1) with l in PC by lia.
    rewrite <- Hnode in PC. rewrite PC. rewrite mask_ok by lia. unfold NULL. destruct (Z.eqb_spec (loc l (pre l o)) 0) as [Z0|NZ].
    + exists false, ps. split; [reflexivity|]. split; [discriminate|]. intros _. apply (path_gap l); [lia|exact Z0].
    + destruct (wr_spec _ (p_node ps) l (Some (loc l (pre l o))) ltac:(lia)) as (ln & W1 & Q1 & R1). unfold put_node. rewrite W1.
      destruct (wr_spec _ (p_index ps) (l + 1) (Some (w32 (pre l o mod 32))) ltac:(lia)) as (li & W2 & Q2 & R2). unfold put_index. cbn [p_index p_node]. rewrite W2.
      destruct (IH (loc l (pre l o)) (o mod 2 ^ (5 * l + 8)) {| p_node := ln; p_index := li |} o) as (b & ps' & PW & T & F); cbn [p_node p_index]; try lia; try reflexivity; try assumption.
      exists b, ps'. split; [exact PW|]. split; [|exact F]. intros Hb. destruct (T Hb) as (T0 & T1 & T2 & T3 & T4 & T5). split; [exact T0|]. split; [|split; [|split; [exact T3|split]]].
      * intros k Hk. destruct (Z.eq_dec k l) as [->|]; [|apply T1; lia]. rewrite T2 by lia. unfold parent_node. cbn [p_node]. rewrite R1, Z.eqb_refl. reflexivity.
      * intros k Hk. rewrite T2 by lia. unfold parent_node. cbn [p_node]. rewrite R1. destruct (Z.eqb_spec k l); [lia|reflexivity].
      * intros k Hk. destruct (Z.eq_dec k l) as [->|]; [|apply T4; lia]. rewrite T5 by lia. unfold parent_index. cbn [p_index]. rewrite R2, Z.eqb_refl. f_equal. apply w32_small. lia.
      * intros k Hk. rewrite T5 by lia. unfold parent_index. cbn [p_index]. rewrite R2. destruct (Z.eqb_spec k (l + 1)); [lia|reflexivity].
Qed.
End Inv.
(** offsets the capacity test decides correctly *)
Definition inside (s : root) (o : Z) : Prop := 0 <= o < 2 ^ 63 /\ (o < 2 ^ (5 * r_level s + 8) \/ 2 ^ (5 * r_level s + 9) <= o).
Lemma parent_ok : forall X E s loc o, good X E s loc -> inside s o ->
  exists b ps, radix_parent s o = Some (b, ps) /\
    (b = true -> loc 0 (o / 256) <> 0 /\ r_node s <> 0 /\ o < 2 ^ (5 * r_level s + 8) /\ path ps loc (r_level s) o) /\ (b = false -> loc 0 (o / 256) = 0).
Proof.
  intros X E s loc o [I _] (Ho & C). unfold radix_parent. pose proof (i_level _ _ _ _ _ _ I) as HL. set (L := r_level s) in *. unfold LEVEL_MAX. destruct (Z.ltb_spec 12 L); [lia|].
  rewrite ilog2_log2 by lia. unfold depth_shift. pose proof (log2_lt o (5 * L + 9) ltac:(lia) ltac:(lia)) as LG.
  destruct (Z.ltb_spec (5 * L + 8) (Z.log2 o)) as [G|G].
  - exists false. eexists. split; [reflexivity|]. split; [discriminate|]. intros _.
    destruct (Z.eq_dec (loc 0 (o / 256)) 0) as [|N]; [assumption|exfalso]. destruct (i_range _ _ _ _ _ _ I 0 (o / 256) N) as [_ B].
    assert (o < 2 ^ (5 * L + 9)); [|lia]. replace (5 * L + 9) with (5 * (L - 0) + 9) by lia. rewrite Z.pow_add_r by lia. change (2 ^ 9) with 512. lia.
  - destruct C as [C|C]; [|lia]. pose proof (pre_top L o ltac:(lia) ltac:(lia)) as PT.
    destruct (wr_spec _ (p_node no_parents) L (Some (r_node s)) ltac:(cbn; lia)) as (ln & W & Q & R). unfold put_node. rewrite W. unfold NULL.
    destruct (Z.eqb_spec (r_node s) 0) as [Z0|NZ].
    + exists false. eexists. split; [reflexivity|]. split; [discriminate|]. intros _. exact (loc_none I Z0 0 (o / 256)).
    + destruct (walk_ok I (Z.to_nat L) (r_node s) o {| p_node := ln; p_index := p_index no_parents |} o) as (b & ps & PW & T & F); rewrite ?Z2Nat.id by lia; cbn [p_node p_index]; try lia; try assumption; try reflexivity.
      * rewrite PT. symmetry. apply (i_root _ _ _ _ _ _ I).
      * symmetry. apply Z.mod_small. lia.
      * exists b, ps. split; [exact PW|]. split; [|exact F]. intros Hb. destruct (T Hb) as (T0 & T1 & T2 & T3 & T4 & T5). split; [exact T0|]. split; [exact NZ|]. split; [exact C|]. rewrite Z2Nat.id in * by lia. split; [|split; [exact T3|exact T4]].
        intros k Hk. destruct (Z.eq_dec k L) as [->|]; [|apply T1; lia]. rewrite T2 by lia. unfold parent_node. cbn [p_node]. rewrite R, Z.eqb_refl. rewrite PT. rewrite (i_root _ _ _ _ _ _ I). reflexivity.
Qed.

Lemma bit_word : forall b i, zlen b = 4 -> 0 <= i < 256 -> exists w, rd b (i / 64) = Some w /\ forall j, 0 <= j < 64 -> mbit b 0 (64 * (i / 64) + j) = Z.testbit w j.
Proof.
  intros b i L Hi. destruct (rd_some _ b (i / 64) ltac:(lia)) as [w R]. exists w. split; [exact R|]. intros j Hj. unfold mbit.
  replace ((64 * (i / 64) + j) / 64) with (i / 64) by lia. rewrite Z.add_0_l, R. f_equal. lia.
Qed.
Lemma bit_test_ok : forall b i, zlen b = 4 -> 0 <= i < 256 -> bit_test b i = Some (mbit b 0 i).
Proof.
  intros b i L Hi. destruct (bit_word b i L Hi) as (w & R & B). unfold bit_test. rewrite R, BIT_test. f_equal. rewrite <- B by lia. f_equal. lia.
Qed.
Lemma bit_set_ok : forall b i, zlen b = 4 -> Forall u64 b -> 0 <= i < 256 -> exists b', bit_set b i = Some b' /\ zlen b' = 4 /\ Forall u64 b' /\ forall k, 0 <= k -> mbit b' 0 k = (k =? i) || mbit b 0 k.
Proof.
  intros b i L U Hi. destruct (bit_word b i L Hi) as (w & R & B). unfold bit_set. rewrite R.
  assert (Uw : u64 w) by (eapply rd_u64; eauto). assert (Ub : 0 <= BIT i < 2 ^ 64). { rewrite BIT_eq. split; [apply Z.pow_nonneg; lia|]. apply Z.pow_lt_mono_r; lia. }
  destruct (wr_spec _ b (i / 64) (Z.lor w (BIT i)) ltac:(lia)) as (b' & W & Lb & _). exists b'. split; [exact W|]. split; [lia|]. split.
  - eapply wr_u64; [exact U| |exact W]. apply lor_range; [lia|exact Uw|exact Ub].
  - intros k Hk. rewrite (mbit_wr b 0 (i / 64) _ b' k) by exact W. destruct (Z.eqb_spec (k / 64) (i / 64)) as [Ek|Nk].
    + rewrite Z.lor_spec, BIT_bits by lia. rewrite <- B by lia. rewrite orb_comm. f_equal; [|f_equal; lia].
      destruct (Z.eqb_spec (k mod 64) (i mod 64)), (Z.eqb_spec k i); try reflexivity; lia.
    + destruct (Z.eqb_spec k i); [lia|reflexivity].
Qed.
Lemma bit_clr_ok : forall b i, zlen b = 4 -> Forall u64 b -> 0 <= i < 256 -> exists b', bit_clr b i = Some b' /\ zlen b' = 4 /\ Forall u64 b' /\ forall k, 0 <= k -> mbit b' 0 k = negb (k =? i) && mbit b 0 k.
Proof.
  intros b i L U Hi. destruct (bit_word b i L Hi) as (w & R & B). unfold bit_clr. rewrite R.
  assert (Uw : u64 w) by (eapply rd_u64; eauto).
  destruct (wr_spec _ b (i / 64) (Z.land w (not64 (BIT i))) ltac:(lia)) as (b' & W & Lb & _). exists b'. split; [exact W|]. split; [lia|]. split.
  - eapply wr_u64; [exact U| |exact W]. apply land_range_l; [lia|exact Uw].
  - intros k Hk. rewrite (mbit_wr b 0 (i / 64) _ b' k) by exact W. destruct (Z.eqb_spec (k / 64) (i / 64)) as [Ek|Nk].
    + rewrite Z.land_spec, not64_bits, BIT_bits by lia. rewrite <- B by lia. replace (k mod 64 <? 64) with true by (symmetry; apply Z.ltb_lt; lia). cbn [andb].
      rewrite andb_comm. f_equal; [|f_equal; lia].
      destruct (Z.eqb_spec (k mod 64) (i mod 64)), (Z.eqb_spec k i); try reflexivity; lia.
    + destruct (Z.eqb_spec k i); [lia|reflexivity].
Qed.
Lemma bits_empty : forall b, zlen b = 4 -> Forall u64 b -> (forallb (fun w => w =? 0) b = true <-> forall k, 0 <= k < 256 -> mbit b 0 k = false).
Proof.
  intros b L U. rewrite forallb_forall. split.
  - intros H k Hk. destruct (bit_word b k L Hk) as (w & R & B). replace k with (64 * (k / 64) + k mod 64) by lia. rewrite B by lia. apply rd_in in R. apply H in R. apply Z.eqb_eq in R. subst w. apply Z.bits_0.
  - intros H w Hw. apply Z.eqb_eq. destruct (In_nth_error _ _ Hw) as [n Hn].
    assert (R : rd b (Z.of_nat n) = Some w). { unfold rd. destruct (Z.ltb_spec (Z.of_nat n) 0); [lia|]. rewrite Nat2Z.id. exact Hn. }
    pose proof (rd_range _ _ _ _ R). apply word_zero; [eapply rd_u64; eauto|]. intros j Hj. specialize (H (64 * Z.of_nat n + j) ltac:(lia)). unfold mbit in H.
    replace ((64 * Z.of_nat n + j) / 64) with (Z.of_nat n) in H by lia. rewrite Z.add_0_l, R in H. replace ((64 * Z.of_nat n + j) mod 64) with j in H by lia. exact H.
Qed.

(** ** Finding *)
Lemma view_some : forall X E h r L loc p, inv X E h r L loc -> loc 0 p <> 0 -> exists nd, view h loc p = Some (loc 0 p, nd) /\ h (loc 0 p) = Some nd /\ zlen (n_child nd) = 32 /\ zlen (n_bits nd) = 4 /\ Forall u64 (n_bits nd).
Proof.
  intros X E h r L loc p I H. destruct (i_leaf _ _ _ _ _ _ I p H) as (nd & A). exists nd. split; [|exact A]. destruct A as [A _]. unfold view. destruct (Z.eqb_spec (loc 0 p) 0); [contradiction|]. rewrite A. reflexivity.
Qed.
Lemma view_none : forall h loc p, loc 0 p = 0 -> view h loc p = None.
Proof. intros h loc p H. unfold view. rewrite H. reflexivity. Qed.
Definition ptr (c : option Z) : Z := match c with Some c => c | None => NULL end.
Lemma find_ok : forall X E s loc o, good X E s loc -> inside s o -> radix_find s o = Some (ptr (cell_of (view_of s loc) o)).
Proof.
  intros X E s loc o G IN. destruct (parent_ok _ _ _ _ _ G IN) as (b & ps & RP & T & F). unfold radix_find. rewrite RP. unfold cell_of, view_of. destruct b; cbn [negb].
  - destruct (T eq_refl) as (T0 & _ & _ & P1 & P2 & _). destruct G as [I _]. rewrite P1 by (pose proof (i_level _ _ _ _ _ _ I); lia). rewrite P2, pre_0. destruct (view_some _ _ _ _ _ _ _ I T0) as (nd & V & Hn & C1 & C2 & C3).
    rewrite Hn, V. rewrite bit_test_ok by (try assumption; lia). destruct (mbit (n_bits nd) 0 (o mod 256)); reflexivity.
  - rewrite view_none by auto. reflexivity.
Qed.
End Ops.
