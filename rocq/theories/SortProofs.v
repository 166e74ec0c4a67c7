(** * Heap sort *)
From Verif Require Import Lib BitsProofs SortModel SortSpec.
From Coq Require Import Sorting.Permutation Sorting.Sorted.
Ltac Zify.zify_post_hook ::= Z.div_mod_to_equations.

(** ** Lists and indices *)
Lemma swap_perm A (l l1 l2 : list A) i j x y :
  rd l i = Some x -> rd l j = Some y -> wr l i y = Some l1 -> wr l1 j x = Some l2 -> Permutation l l2.
Proof.
  intros Ri Rj W1 W2. apply wr_inv in W1. destruct W1 as (Hi & L1 & G1). apply wr_inv in W2. destruct W2 as (Hj & L2 & G2).
  apply Permutation_nth_error. split; [unfold zlen in *; lia|].
  exists (fun n => if Nat.eqb n (Z.to_nat j) then Z.to_nat i else if Nat.eqb n (Z.to_nat i) then Z.to_nat j else n).
  assert (Q : forall n, nth_error l2 n = rd l2 (Z.of_nat n)) by (intro n; unfold rd; destruct (Z.ltb_spec (Z.of_nat n) 0); [lia|]; rewrite Nat2Z.id; reflexivity).
  assert (Q' : forall n, nth_error l n = rd l (Z.of_nat n)) by (intro n; unfold rd; destruct (Z.ltb_spec (Z.of_nat n) 0); [lia|]; rewrite Nat2Z.id; reflexivity).
  split.
  - intros a b. destruct (Nat.eqb_spec a (Z.to_nat j)), (Nat.eqb_spec b (Z.to_nat j)), (Nat.eqb_spec a (Z.to_nat i)), (Nat.eqb_spec b (Z.to_nat i)); lia.
  - intro n. rewrite Q, Q', G2. destruct (Nat.eqb_spec n (Z.to_nat j)).
    + replace (Z.of_nat n =? j) with true by lia. rewrite Z2Nat.id by lia. auto.
    + replace (Z.of_nat n =? j) with false by lia. rewrite G1. destruct (Nat.eqb_spec n (Z.to_nat i)).
      * replace (Z.of_nat n =? i) with true by lia. rewrite Z2Nat.id by lia. auto.
      * replace (Z.of_nat n =? i) with false by lia. reflexivity.
Qed.
Lemma ss_index A (R : A -> A -> Prop) l : (forall i j x y, 0 <= i < j -> rd l i = Some x -> rd l j = Some y -> R x y) -> StronglySorted R l.
Proof.
  induction l as [|a l IH]; intros H; constructor.
  - apply IH. intros i j x y Hij Ri Rj. apply (H (i + 1) (j + 1)); [lia| |].
    + unfold rd in *. destruct (Z.ltb_spec i 0); [lia|]. destruct (Z.ltb_spec (i + 1) 0); [lia|]. replace (Z.to_nat (i + 1)) with (S (Z.to_nat i)) by lia. exact Ri.
    + unfold rd in *. destruct (Z.ltb_spec j 0); [lia|]. destruct (Z.ltb_spec (j + 1) 0); [lia|]. replace (Z.to_nat (j + 1)) with (S (Z.to_nat j)) by lia. exact Rj.
  - apply Forall_forall. intros y Hy. destruct (In_nth_error _ _ Hy) as [n En].
    apply (H 0 (Z.of_nat (S n))); [lia|reflexivity|].
    unfold rd. destruct (Z.ltb_spec (Z.of_nat (S n)) 0); [lia|]. rewrite Nat2Z.id. exact En.
Qed.
Lemma ss_at A (R : A -> A -> Prop) l : StronglySorted R l -> forall i j x y, 0 <= i < j -> rd l i = Some x -> rd l j = Some y -> R x y.
Proof.
  induction 1 as [|a l Hl IH Ha]; intros i j x y Hij Ri Rj.
  - unfold rd in Ri. destruct (Z.ltb_spec i 0); [lia|]. destruct (Z.to_nat i); discriminate.
  - unfold rd in Rj. destruct (Z.ltb_spec j 0); [lia|]. replace (Z.to_nat j) with (S (Z.to_nat (j - 1))) in Rj by lia. cbn [nth_error] in Rj.
    destruct (Z.eq_dec i 0).
    + subst i. injection Ri as <-. rewrite Forall_forall in Ha. apply Ha. eapply nth_error_In, Rj.
    + apply (IH (i - 1) (j - 1)); [lia| |].
      * unfold rd in *. destruct (Z.ltb_spec i 0); [lia|]. destruct (Z.ltb_spec (i - 1) 0); [lia|]. replace (Z.to_nat i) with (S (Z.to_nat (i - 1))) in Ri by lia. exact Ri.
      * unfold rd. destruct (Z.ltb_spec (j - 1) 0); [lia|]. exact Rj.
Qed.

(** ** The lowest set bit *)
Lemma low_bit c : 0 < c -> exists t o, 0 <= t /\ 0 < o /\ Z.odd o = true /\ c = 2 ^ t * o.
Proof.
  intros H. pattern c. apply (Zlt_0_rec (fun c => 0 < c -> exists t o, 0 <= t /\ 0 < o /\ Z.odd o = true /\ c = 2 ^ t * o)); [|lia|exact H].
  clear c H. intros c IH _ Hc. destruct (Z.odd c) eqn:E.
  - exists 0, c. rewrite Z.pow_0_r. split; [lia|]. split; [lia|]. split; [exact E|lia].
  - rewrite <- Z.negb_even in E. apply negb_false_iff in E. apply Z.even_spec in E. destruct E as [k ->].
    destruct (IH k) as (t & o & Ht & Ho & Oo & ->); [lia|lia|]. exists (t + 1), o. rewrite Z.pow_add_r by lia. split; [lia|]. split; [lia|]. split; [exact Oo|lia].
Qed.
Lemma lsbit_pow t o : 0 <= t -> 0 < o -> Z.odd o = true -> 2 ^ t * o < 2 ^ 64 -> Z.land (2 ^ t * o) (w64 (- (2 ^ t * o))) = 2 ^ t.
Proof.
  intros Ht Ho Oo Hs. pose proof (Z.pow_pos_nonneg 2 t ltac:(lia) Ht).
  assert (H64 : t < 64).
  { destruct (Z.lt_ge_cases t 64); [assumption|]. pose proof (Z.pow_le_mono_r 2 64 t). nia. }
  apply Z.bits_inj'. intros j Hj. rewrite Z.land_spec.
  destruct (Z.lt_ge_cases j 64) as [H1|H1].
  - unfold w64. rewrite Z.mod_pow2_bits_low by lia. replace (- (2 ^ t * o)) with (2 ^ t * - o) by lia.
    rewrite !(Z.mul_comm (2 ^ t)). destruct (Z.lt_ge_cases j t).
    + rewrite Z.mul_pow2_bits_low, Z.pow2_bits_false by lia. reflexivity.
    + rewrite !Z.mul_pow2_bits by lia. destruct (Z.eq_dec j t).
      * subst j. rewrite Z.sub_diag, !Z.bit0_odd, Z.odd_opp, Oo, Z.pow2_bits_true by lia. reflexivity.
      * rewrite Z.pow2_bits_false by lia. apply Z.odd_spec in Oo. destruct Oo as [q ->].
        replace (- (2 * q + 1)) with (2 * Z.lnot q + 1) by (unfold Z.lnot; lia).
        replace (j - t) with (Z.succ (j - t - 1)) by lia. rewrite !Z.testbit_odd_succ by lia. rewrite Z.lnot_spec by lia. apply andb_negb_r.
  - rewrite (testbit_small (2 ^ t * o) 64) by (try lia; nia). rewrite Z.pow2_bits_false by lia. reflexivity.
Qed.
Lemma land_bit k o t : 0 <= t -> Z.odd o = true -> Z.land (k * (2 ^ t * o)) (2 ^ t) = if Z.odd k then 2 ^ t else 0.
Proof.
  intros Ht Oo. replace (k * (2 ^ t * o)) with ((k * o) * 2 ^ t) by lia.
  apply Z.bits_inj'. intros j Hj. rewrite Z.land_spec. destruct (Z.eq_dec j t).
  - subst j. rewrite Z.mul_pow2_bits, Z.sub_diag, Z.bit0_odd, Z.odd_mul, Oo, Z.pow2_bits_true, !andb_true_r by lia.
    destruct (Z.odd k); [rewrite Z.pow2_bits_true by lia|rewrite Z.bits_0]; reflexivity.
  - rewrite Z.pow2_bits_false, andb_false_r by lia. destruct (Z.odd k); [rewrite Z.pow2_bits_false by lia|rewrite Z.bits_0]; reflexivity.
Qed.
Lemma land_high t o : 0 <= t -> 0 < o -> 2 ^ t * o < 2 ^ 64 -> Z.land (2 ^ t * o) (w64 (- 2 ^ t)) = 2 ^ t * o.
Proof.
  intros Ht Ho Hs. apply Z.bits_inj'. intros j Hj. rewrite Z.land_spec.
  destruct (Z.lt_ge_cases j 64) as [H1|H1].
  - unfold w64. rewrite Z.mod_pow2_bits_low by lia. destruct (Z.lt_ge_cases j t).
    + rewrite (Z.mul_comm (2 ^ t)), Z.mul_pow2_bits_low by lia. reflexivity.
    + replace (- 2 ^ t) with (-1 * 2 ^ t) by lia. rewrite (Z.mul_pow2_bits (-1)) by lia. rewrite Z.bits_m1 by lia. apply andb_true_r.
  - rewrite (testbit_small (2 ^ t * o) 64) by lia. reflexivity.
Qed.
Lemma parent_at cells k : 0 < cells < 2 ^ 64 -> cells mod 2 ^ 32 <> 0 -> 0 < k -> k * cells < 2 ^ 64 ->
  parent cells (Z.land cells (w64 (- cells))) (k * cells) = (k - 1) / 2 * cells.
Proof.
  intros Hc Hm Hk Hs. destruct (low_bit cells) as (t & o & Ht & Ho & Oo & Ec); [lia|].
  unfold parent. rewrite Ec, lsbit_pow by (try assumption; lia).
  assert (T32 : t < 32).
  { destruct (Z.lt_ge_cases t 32); [assumption|]. exfalso. apply Hm. rewrite Ec. replace t with (t - 32 + 32) by lia.
    rewrite Z.pow_add_r by lia. replace (2 ^ (t - 32) * 2 ^ 32 * o) with (2 ^ (t - 32) * o * 2 ^ 32) by lia. apply Z.mod_mul. lia. }
  assert (P32 : 0 < 2 ^ t < 2 ^ 32) by (split; [lia|apply Z.pow_lt_mono_r; lia]).
  rewrite w32_small by lia.
  replace (k * (2 ^ t * o) - 2 ^ t * o) with ((k - 1) * (2 ^ t * o)) by lia.
  rewrite (w64_small ((k - 1) * (2 ^ t * o))) by nia.
  rewrite land_bit by (try assumption; lia).
  rewrite Z.shiftr_div_pow2 by lia. change (2 ^ 1) with 2.
  destruct (Z.odd (k - 1)) eqn:E.
  - rewrite land_high by lia. apply Z.odd_spec in E. destruct E as [q E]. rewrite E.
    rewrite Ec in Hs. set (C := 2 ^ t * o) in *. clearbody C. assert (k = 2 * q + 2) by lia. subst k.
    assert (0 <= q * C) by (apply Z.mul_nonneg_nonneg; lia).
    replace ((2 * q + 1) * C - C) with (2 * (q * C)) by ring.
    rewrite w64_small by lia. rewrite (Z.mul_comm 2 (q * C)), Z.div_mul by lia.
    replace ((2 * q + 1) / 2) with q by lia. reflexivity.
  - change (w64 (- 0)) with 0. rewrite Z.land_0_r, Z.sub_0_r.
    rewrite <- Z.negb_even in E. apply negb_false_iff in E. apply Z.even_spec in E. destruct E as [q E]. rewrite E.
    rewrite Ec in Hs. set (C := 2 ^ t * o) in *. clearbody C. assert (k = 2 * q + 1) by lia. subst k.
    assert (0 <= q * C) by (apply Z.mul_nonneg_nonneg; lia).
    replace (2 * q * C) with (2 * (q * C)) by ring.
    rewrite w64_small by lia. rewrite (Z.mul_comm 2 (q * C)), Z.div_mul by lia. replace (2 * q / 2) with q by lia. reflexivity.
Qed.

Section Heap.
Context {A : Type}.
Variable cmp : A -> A -> Z.
Variable cells : Z.
Hypothesis Hc : 0 < cells.
Hypothesis Hm : cells mod 2 ^ 32 <> 0.

Definition rep (arr : list A) (N : Z) (h : Z -> A) : Prop := zlen arr = N /\ forall x, 0 <= x < N -> rd arr x = Some (h x).
Lemma at_off (arr : list A) k : at_ cells arr (k * cells) = rd arr k.
Proof. unfold at_. rewrite Z.mod_mul, Z.div_mul by lia. reflexivity. Qed.
Lemma rep_get (arr : list A) N h x : rep arr N h -> 0 <= x < N -> at_ cells arr (x * cells) = Some (h x).
Proof. intros [L R] Hx. rewrite at_off. auto. Qed.
Lemma rep_swap (arr : list A) N h a b : rep arr N h -> 0 <= a < N -> 0 <= b < N ->
  exists arr', sort_swap cells arr (a * cells) (b * cells) = Some arr' /\ Permutation arr arr' /\
    rep arr' N (fun x => if x =? b then h a else if x =? a then h b else h x).
Proof.
  intros Hr Ha Hb. unfold sort_swap. rewrite (rep_get _ _ _ _ Hr Ha), (rep_get _ _ _ _ Hr Hb). rewrite !Z.div_mul by lia.
  destruct Hr as [L R]. destruct (wr_spec A arr a (h b)) as (l1 & W1 & L1 & G1); [lia|]. rewrite W1.
  destruct (wr_spec A l1 b (h a)) as (l2 & W2 & L2 & G2); [lia|]. rewrite W2.
  exists l2. split; [reflexivity|]. split; [apply (swap_perm A arr l1 l2 a b (h a) (h b)); auto|].
  split; [lia|]. intros x Hx. rewrite G2. destruct (Z.eqb_spec x b); [reflexivity|]. rewrite G1. destruct (Z.eqb_spec x a); auto.
Qed.

Section Sift.
Variables (N sz i : Z) (arr : list A) (h : Z -> A).
Hypothesis Hr : rep arr N h.
Hypothesis HN : N * cells < 2 ^ 63.
Hypothesis Hsz : sz <= N.
Hypothesis Hi : 0 <= i < sz.
Let lsbit := Z.land cells (w64 (- cells)).

Definition best (x : Z) : Z :=
  if 2 * x + 2 <? sz then (if 0 <=? cmp (h (2 * x + 1)) (h (2 * x + 2)) then 2 * x + 1 else 2 * x + 2) else 2 * x + 1.
Definition p (j : nat) : Z := Nat.iter j best i.
Lemma best_child x : best x = 2 * x + 1 \/ best x = 2 * x + 2.
Proof. unfold best. destruct (_ <? _); [destruct (_ <=? _)|]; auto. Qed.
Lemma p_S j : p (S j) = best (p j).
Proof. reflexivity. Qed.
Lemma p_ge j : i <= p j.
Proof. induction j; [cbn; lia|]. rewrite p_S. destruct (best_child (p j)); lia. Qed.
Lemma p_lt j k : (j < k)%nat -> p j < p k.
Proof. induction 1; rewrite p_S; [destruct (best_child (p j)); pose proof (p_ge j); lia|]. destruct (best_child (p m)); pose proof (p_ge m); lia. Qed.
Lemma p_inj j k : p j = p k -> j = k.
Proof. intros E. destruct (Nat.lt_trichotomy j k) as [H|[H|H]]; [apply p_lt in H; lia|exact H|apply p_lt in H; lia]. Qed.
Lemma p_parent j : (p (S j) - 1) / 2 = p j.
Proof. rewrite p_S. destruct (best_child (p j)) as [-> | ->]; lia. Qed.

Lemma descend_ok : forall fuel j, p j < sz -> sz - p j < Z.of_nat fuel ->
  exists m, (j <= m)%nat /\ descend cmp cells fuel arr (sz * cells) (p j * cells) = Some (p m * cells) /\
    p m < sz /\ sz <= 2 * p m + 1 /\ forall t, (j <= t < m)%nat -> 2 * p t + 1 < sz.
Proof.
  induction fuel as [|fuel IH]; intros j Hj Hf; [lia|]. cbn [descend]. pose proof (p_ge j).
  assert (E3 : w64 (2 * (p j * cells) + cells) = (2 * p j + 1) * cells) by (rewrite w64_small; nia).
  rewrite E3. assert (E4 : w64 ((2 * p j + 1) * cells + cells) = (2 * p j + 2) * cells) by (rewrite w64_small; nia).
  rewrite E4. destruct (Z.ltb_spec ((2 * p j + 2) * cells) (sz * cells)) as [L|L].
  - assert (L' : 2 * p j + 2 < sz) by nia. rewrite !(rep_get _ _ _ _ Hr) by lia.
    assert (Eb : (if 0 <=? cmp (h (2 * p j + 1)) (h (2 * p j + 2)) then (2 * p j + 1) * cells else (2 * p j + 2) * cells) = p (S j) * cells).
    { rewrite p_S. unfold best. destruct (Z.ltb_spec (2 * p j + 2) sz); [|lia]. destruct (0 <=? _); reflexivity. }
    rewrite Eb. destruct (IH (S j)) as (m & Hm1 & D & M1 & M2 & M3).
    + rewrite p_S. destruct (best_child (p j)); lia.
    + rewrite p_S. destruct (best_child (p j)); lia.
    + exists m. split; [lia|]. split; [exact D|]. split; [exact M1|]. split; [exact M2|]. intros t Ht.
      destruct (Nat.eq_dec t j); [subst t; lia|apply M3; lia].
  - assert (L' : sz <= 2 * p j + 2) by nia. destruct (Z.eqb_spec ((2 * p j + 2) * cells) (sz * cells)) as [E|E].
    + assert (Es : sz = 2 * p j + 2) by nia. exists (S j).
      assert (Ep : p (S j) = 2 * p j + 1) by (rewrite p_S; unfold best; destruct (Z.ltb_spec (2 * p j + 2) sz); [lia|reflexivity]).
      rewrite Ep. split; [lia|]. split; [reflexivity|]. split; [lia|]. split; [lia|]. intros t Ht. replace t with j by lia. lia.
    + exists j. split; [lia|]. split; [reflexivity|]. split; [lia|]. split; [nia|]. intros t Ht. lia.
Qed.
Lemma climb_ok : forall j fuel, p j < sz -> (j < fuel)%nat ->
  exists k, (k <= j)%nat /\ climb cmp cells fuel arr lsbit (i * cells) (p j * cells) = Some (p k * cells) /\
    (k = O \/ cmp (h i) (h (p k)) < 0) /\ forall t, (k < t <= j)%nat -> 0 <= cmp (h i) (h (p t)).
Proof.
  induction j as [|j IH]; intros fuel Hj Hf; (destruct fuel as [|fuel]; [lia|]); cbn [climb].
  - exists O. change (p 0) with i. rewrite Z.eqb_refl. split; [lia|]. split; [reflexivity|]. split; [auto|]. intros; lia.
  - pose proof (p_lt 0 (S j) ltac:(lia)) as L0. change (p 0) with i in L0.
    destruct (Z.eqb_spec (i * cells) (p (S j) * cells)); [nia|].
    rewrite !(rep_get _ _ _ _ Hr) by lia. destruct (Z.leb_spec 0 (cmp (h i) (h (p (S j))))) as [C|C].
    + unfold lsbit. rewrite parent_at; [|nia|exact Hm|lia|nia]. rewrite p_parent. fold lsbit.
      pose proof (p_lt j (S j) ltac:(lia)). destruct (IH fuel) as (k & K1 & K2 & K3 & K4); [lia|lia|].
      exists k. split; [lia|]. split; [exact K2|]. split; [exact K3|]. intros t Ht. destruct (Nat.eq_dec t (S j)); [subst t; exact C|apply K4; lia].
    + exists (S j). split; [lia|]. split; [reflexivity|]. split; [auto|]. intros; lia.
Qed.
Definition st (k j : nat) (g : Z -> A) : Prop :=
  g (p k) = h (p j) /\ (forall t, (j <= t < k)%nat -> g (p t) = h (p (S t))) /\
  (forall x, (forall t, (j <= t <= k)%nat -> x <> p t) -> g x = h x).
Lemma rotate_ok k : p k < sz -> forall j fuel ar g, (j <= k)%nat -> (j < fuel)%nat -> rep ar N g -> st k j g ->
  exists ar' g', rotate cells fuel ar lsbit (i * cells) (p j * cells) (p k * cells) = Some ar' /\ Permutation ar ar' /\ rep ar' N g' /\ st k 0 g'.
Proof.
  intros Hk. induction j as [|j IH]; intros fuel ar g Hj Hf Hg Hst; (destruct fuel as [|fuel]; [lia|]); cbn [rotate].
  - change (p 0) with i. rewrite Z.eqb_refl. exists ar, g. auto.
  - pose proof (p_lt 0 (S j) ltac:(lia)) as L0. change (p 0) with i in L0.
    assert (L1 : p (S j) <= p k) by (destruct (Nat.eq_dec (S j) k); [subst k; lia|pose proof (p_lt (S j) k ltac:(lia)); lia]).
    destruct (Z.eqb_spec (i * cells) (p (S j) * cells)); [nia|].
    unfold lsbit. rewrite parent_at; [|nia|exact Hm|lia|nia]. rewrite p_parent. fold lsbit.
    pose proof (p_ge j). pose proof (p_lt j k ltac:(lia)).
    destruct (rep_swap ar N g (p j) (p k) Hg) as (ar1 & S1 & P1 & R1); [lia|lia|]. rewrite S1.
    destruct (IH fuel ar1 _ ltac:(lia) ltac:(lia) R1) as (ar' & g' & E & P' & R' & S').
    { destruct Hst as (T1 & T2 & T3). split; [|split].
      - rewrite Z.eqb_refl. apply T3. intros t Ht E. apply p_inj in E. lia.
      - intros t Ht. destruct (Z.eqb_spec (p t) (p k)) as [E|E]; [apply p_inj in E; lia|].
        destruct (Z.eqb_spec (p t) (p j)) as [E'|E'].
        + apply p_inj in E'. subst t. exact T1.
        + apply T2. assert (t <> j) by congruence. lia.
      - intros x Hx. destruct (Z.eqb_spec x (p k)) as [E|E]; [exfalso; apply (Hx k); [lia|exact E]|].
        destruct (Z.eqb_spec x (p j)) as [E'|E']; [exfalso; apply (Hx j); [lia|exact E']|].
        apply T3. intros t Ht. apply Hx. lia. }
    exists ar', g'. split; [exact E|]. split; [eapply Permutation_trans; eassumption|]. auto.
Qed.
Definition heapfrom (f : Z -> A) (from : Z) : Prop := forall x c, from <= x -> (c = 2 * x + 1 \/ c = 2 * x + 2) -> c < sz -> cmp (f c) (f x) <= 0.
Lemma sift_ok : forall fuel, sz < Z.of_nat fuel -> exists ar g,
  sift cmp cells fuel arr lsbit (sz * cells) (i * cells) = Some ar /\ Permutation arr ar /\ rep ar N g /\
  (forall x, x < i \/ sz <= x -> g x = h x) /\ (forall x, 0 <= x < sz -> exists y, 0 <= y < sz /\ g x = h y) /\
  (preorder cmp -> heapfrom h (i + 1) -> heapfrom g i).
Proof.
  intros fuel Hf. unfold sift.
  destruct (descend_ok fuel 0) as (m & _ & D & M1 & M2 & M3); [exact (proj2 Hi)|change (p 0) with i; lia|].
  change (p 0) with i in D. rewrite D.
  assert (Lm : forall j, Z.of_nat j <= p j).
  { induction j; [cbn; lia|]. pose proof (p_lt j (S j) ltac:(lia)). lia. }
  destruct (climb_ok m fuel M1) as (k & K1 & K2 & K3 & K4); [specialize (Lm m); lia|]. rewrite K2.
  assert (Lk : p k <= p m) by (destruct (Nat.eq_dec k m); [subst k; lia|pose proof (p_lt k m ltac:(lia)); lia]).
  destruct (rotate_ok k ltac:(lia) k fuel arr h ltac:(lia) ltac:(specialize (Lm k); lia) Hr) as (ar & g & E & P' & R' & S').
  { split; [reflexivity|]. split; [intros; lia|reflexivity]. }
  exists ar, g. split; [exact E|]. split; [exact P'|]. split; [exact R'|].
  destruct S' as (S1 & S2 & S3).
  assert (Lt : forall t, (t <= k)%nat -> i <= p t < sz).
  { intros t Ht. split; [apply p_ge|]. destruct (Nat.eq_dec t k); [subst t; lia|pose proof (p_lt t k ltac:(lia)); lia]. }
  assert (Dec : forall x, (exists t, (t <= k)%nat /\ x = p t) \/ (forall t, (0 <= t <= k)%nat -> x <> p t)).
  { intros x. clear - k. induction k as [|k IH].
    - destruct (Z.eq_dec x (p 0)); [left; exists O; split; [lia|assumption]|right; intros t Ht; replace t with O by lia; assumption].
    - destruct IH as [(t & Ht & E)|IH]; [left; exists t; split; [lia|exact E]|].
      destruct (Z.eq_dec x (p (S k))); [left; exists (S k); split; [lia|assumption]|].
      right. intros t Ht. destruct (Nat.eq_dec t (S k)); [subst t; assumption|apply IH; lia]. }
  split; [|split].
  - intros x Hx. apply S3. intros t Ht Ex. specialize (Lt t ltac:(lia)). lia.
  - intros x Hx. destruct (Dec x) as [(t & Ht & Ex)|Hn].
    + subst x. destruct (Nat.eq_dec t k).
      * subst t. exists i. split; [lia|exact S1].
      * exists (p (S t)). specialize (Lt (S t) ltac:(lia)). split; [lia|]. apply S2. lia.
    + exists x. split; [exact Hx|]. apply S3. exact Hn.
  - intros [Hrev Htr] Hh.
    assert (Max : forall t c, (2 * p t + 1 < sz) -> (c = 2 * p t + 1 \/ c = 2 * p t + 2) -> c < sz -> cmp (h c) (h (p (S t))) <= 0).
    { assert (Refl : forall a, cmp a a <= 0).
      { intros a. destruct (Z.le_gt_cases 0 (cmp a a)) as [C|C]; [apply Hrev in C; exact C|lia]. }
      intros t c H1 H2 H3. rewrite p_S. unfold best. destruct (Z.ltb_spec (2 * p t + 2) sz).
      - destruct (Z.leb_spec 0 (cmp (h (2 * p t + 1)) (h (2 * p t + 2)))) as [C|C]; destruct H2 as [-> | ->]; try apply Refl.
        + apply Hrev. exact C.
        + lia.
      - replace c with (2 * p t + 1) by lia. apply Refl. }
    (* the climbed part has nothing greater than the sifted element *)
    assert (Low : forall c, (c = 2 * p k + 1 \/ c = 2 * p k + 2) -> c < sz -> cmp (h c) (h i) <= 0).
    { intros c H1 H2. destruct (Nat.eq_dec k m) as [Ekm|Nkm]; [subst k; lia|].
      specialize (Max k c (M3 k ltac:(lia)) H1 H2). specialize (K4 (S k) ltac:(lia)). apply Hrev in K4. eapply Htr; eassumption. }
    intros x c Hx Hch Hcs.
    assert (Nc : forall t, c = p (S t) -> x = p t) by (intros t Ec; rewrite <- (p_parent t), <- Ec; lia).
    destruct (Dec x) as [(t & Ht & Ex)|Hn].
    + subst x. destruct (Nat.eq_dec t k).
      * subst t. rewrite S1. change (p 0) with i. rewrite S3; [apply Low; assumption|].
        intros t Ht2 Ec. destruct t as [|t]; [change (p 0) with i in Ec; pose proof (p_ge k); lia|].
        apply Nc in Ec. apply p_inj in Ec. lia.
      * rewrite (S2 t) by lia. destruct (Z.eq_dec c (p (S t))) as [Ec|Ec].
        -- subst c. destruct (Nat.eq_dec (S t) k).
           ++ subst k. rewrite S1. change (p 0) with i. destruct K3 as [K3|K3]; [lia|]. lia.
           ++ rewrite (S2 (S t)) by lia. apply (Hh (p (S t))); [pose proof (p_ge t); pose proof (p_lt t (S t)); lia| |specialize (Lt (S (S t)) ltac:(lia)); lia].
              rewrite (p_S (S t)). destruct (best_child (p (S t))); auto.
        -- rewrite S3; [apply Max; [|assumption|assumption]|].
           ++ apply M3. lia.
           ++ intros u Hu Eu. destruct u as [|u]; [change (p 0) with i in Eu; pose proof (p_ge t); lia|].
              pose proof (Nc u Eu) as E2. apply p_inj in E2. subst u. contradiction.
    + rewrite (S3 x Hn). destruct (Dec c) as [(t & Ht & Ec)|Hcn].
      * exfalso. destruct t as [|t]; [change (p 0) with i in Ec; lia|]. apply (Hn t); [lia|]. apply Nc. exact Ec.
      * rewrite (S3 c Hcn). apply (Hh x c); [|assumption|assumption]. specialize (Hn O ltac:(lia)). change (p 0) with i in Hn. lia.
Qed.
End Sift.

(** ** The main loop *)
Lemma heap_root sz h : preorder cmp -> heapfrom sz h 0 -> forall x, 0 <= x < sz -> cmp (h x) (h 0) <= 0.
Proof.
  intros [Hrev Htr] Hh x Hx. assert (G : forall n x, 0 <= x < sz -> x < Z.of_nat n -> cmp (h x) (h 0) <= 0).
  { induction n as [|n IH]; intros y Hy Hn; [lia|]. destruct (Z.eq_dec y 0).
    - subst y. destruct (Z.le_gt_cases 0 (cmp (h 0) (h 0))) as [C|C]; [apply Hrev in C; exact C|lia].
    - apply (Htr _ (h ((y - 1) / 2))); [apply Hh; lia|]. apply IH; lia. }
  apply (G (S (Z.to_nat x))); lia.
Qed.

Section Loop.
Variable N : Z.
Variable fuel : nat.
Hypothesis HN : N * cells < 2 ^ 63.
Hypothesis Hf : N < Z.of_nat fuel.
Let lsbit := Z.land cells (w64 (- cells)).
Definition inv2 (sz : Z) (g : Z -> A) : Prop :=
  heapfrom sz g 0 /\ (forall x y, 0 <= x < sz -> sz <= y < N -> cmp (g x) (g y) <= 0) /\
  (forall x y, sz <= x -> x < y -> y < N -> cmp (g x) (g y) <= 0).
Lemma phase2 : forall s n arr g, (1 <= s)%nat -> (s <= n)%nat -> Z.of_nat s <= N -> rep arr N g ->
  exists arr' g', sort_loop cmp cells fuel n arr lsbit (Z.of_nat s * cells) 0 = Some arr' /\ Permutation arr arr' /\ rep arr' N g' /\
    (preorder cmp -> inv2 (Z.of_nat s) g -> forall x y, 0 <= x -> x < y -> y < N -> cmp (g' x) (g' y) <= 0).
Proof.
  induction s as [|s IH]; intros n arr g Hs Hn HsN Hr; [lia|]. destruct n as [|n]; [lia|]. cbn [sort_loop Z.eqb negb].
  replace (w64 (Z.of_nat (S s) * cells - cells)) with (Z.of_nat s * cells) by (rewrite w64_small; nia).
  destruct (Z.eqb_spec (Z.of_nat s * cells) 0) as [E|E]; cbn [negb].
  - assert (s = O) by nia. subst s. exists arr, g. split; [reflexivity|]. split; [apply Permutation_refl|]. split; [exact Hr|].
    intros _ (I1 & I2 & I3) x y Hx Hxy Hy. destruct (Z.eq_dec x 0); [apply I2; lia|apply I3; lia].
  - assert (1 <= s)%nat by nia. assert (HS : Z.of_nat (S s) = Z.of_nat s + 1) by lia.
    destruct (rep_swap arr N g 0 (Z.of_nat s) Hr) as (a1 & S1 & P1 & R1); [lia|lia|]. rewrite Z.mul_0_l in S1. rewrite S1.
    set (g1 := fun x : Z => if x =? Z.of_nat s then g 0 else if x =? 0 then g (Z.of_nat s) else g x) in *.
    destruct (sift_ok N (Z.of_nat s) 0 a1 g1 R1 HN ltac:(lia) ltac:(lia) fuel ltac:(lia)) as (a2 & g2 & E2 & P2 & R2 & K1 & K2 & K3).
    rewrite Z.mul_0_l in E2. fold lsbit in E2. rewrite E2.
    destruct (IH n a2 g2 ltac:(lia) ltac:(lia) ltac:(lia) R2) as (a3 & g3 & E3 & P3 & R3 & I3'). rewrite E3.
    exists a3, g3. split; [reflexivity|]. split; [eapply Permutation_trans; [exact P1|eapply Permutation_trans; eassumption]|]. split; [exact R3|].
    intros Hpre (I1 & I2 & I3). apply I3'; [exact Hpre|]. rewrite HS in *.
    assert (Root := heap_root _ _ Hpre I1).
    split; [|split].
    + apply K3; [exact Hpre|]. intros x c Hx Hch Hcs. unfold g1. destruct (Z.eqb_spec c (Z.of_nat s)); [lia|]. destruct (Z.eqb_spec c 0); [lia|].
      destruct (Z.eqb_spec x (Z.of_nat s)); [lia|]. destruct (Z.eqb_spec x 0); [lia|]. apply I1; lia.
    + intros x y Hx Hy. destruct (K2 x Hx) as (x' & Hx' & ->). rewrite (K1 y) by lia.
      unfold g1. destruct (Z.eqb_spec x' (Z.of_nat s)); [lia|]. destruct (Z.eqb_spec y (Z.of_nat s)).
      * destruct (Z.eqb_spec x' 0); apply Root; lia.
      * destruct (Z.eqb_spec y 0); [lia|]. destruct (Z.eqb_spec x' 0); apply I2; lia.
    + intros x y Hx Hxy Hy. rewrite (K1 x), (K1 y) by lia. unfold g1. destruct (Z.eqb_spec y (Z.of_nat s)); [lia|]. destruct (Z.eqb_spec y 0); [lia|].
      destruct (Z.eqb_spec x (Z.of_nat s)); [apply I2; lia|]. destruct (Z.eqb_spec x 0); [lia|]. apply I3; lia.
Qed.
Lemma phase1 : forall k n arr g, 1 <= N -> Z.of_nat k <= N / 2 -> Z.of_nat k + N <= Z.of_nat n -> rep arr N g ->
  exists arr' g', sort_loop cmp cells fuel n arr lsbit (N * cells) (Z.of_nat k * cells) = Some arr' /\ Permutation arr arr' /\ rep arr' N g' /\
    (preorder cmp -> heapfrom N g (Z.of_nat k) -> forall x y, 0 <= x -> x < y -> y < N -> cmp (g' x) (g' y) <= 0).
Proof.
  induction k as [|k IH]; intros n arr g H1 Hk Hn Hr.
  - change (Z.of_nat 0) with 0. rewrite Z.mul_0_l. replace N with (Z.of_nat (Z.to_nat N)) by lia.
    destruct (phase2 (Z.to_nat N) n arr g) as (a & g' & E & P' & R' & I'); [lia|lia|lia|exact Hr|].
    exists a, g'. rewrite Z2Nat.id in * by lia. split; [exact E|]. split; [exact P'|]. split; [exact R'|].
    intros Hpre Hh. apply I'; [exact Hpre|]. split; [exact Hh|]. split; intros; lia.
  - destruct n as [|n]; [lia|]. cbn [sort_loop]. destruct (Z.eqb_spec (Z.of_nat (S k) * cells) 0); [nia|]. cbn [negb].
    replace (w64 (Z.of_nat (S k) * cells - cells)) with (Z.of_nat k * cells) by (rewrite w64_small; nia).
    destruct (sift_ok N N (Z.of_nat k) arr g Hr HN ltac:(lia) ltac:(lia) fuel ltac:(lia)) as (a2 & g2 & E2 & P2 & R2 & K1 & K2 & K3).
    fold lsbit in E2. rewrite E2. destruct (IH n a2 g2 H1 ltac:(lia) ltac:(lia) R2) as (a3 & g3 & E3 & P3 & R3 & I3). rewrite E3.
    exists a3, g3. split; [reflexivity|]. split; [eapply Permutation_trans; eassumption|]. split; [exact R3|].
    intros Hpre Hh. apply I3; [exact Hpre|]. apply K3; [exact Hpre|]. replace (Z.of_nat k + 1) with (Z.of_nat (S k)) by lia. exact Hh.
Qed.
End Loop.

Theorem sort_ok : forall arr, 2 <= zlen arr -> zlen arr * cells < 2 ^ 63 ->
  exists arr', heap_sort cmp cells arr = Some (- ENOERR, arr') /\ Permutation arr arr' /\ (preorder cmp -> ascending cmp arr').
Proof.
  intros arr H2 HN. unfold heap_sort. rewrite Z.shiftr_div_pow2 by lia. change (2 ^ 1) with 2.
  assert (H0 : 0 < zlen arr / 2) by lia. rewrite (w64_small (zlen arr / 2 * cells)) by nia.
  destruct (Z.eqb_spec (zlen arr / 2 * cells) 0); [nia|]. rewrite (w64_small (zlen arr * cells)) by nia.
  destruct arr as [|d arr0]; [unfold zlen in H2; cbn in H2; lia|]. remember (d :: arr0) as arr eqn:Ea.
  destruct (phase1 (zlen arr) (S (length arr)) HN ltac:(unfold zlen; lia) (Z.to_nat (zlen arr / 2)) (S (length arr) + S (length arr)) arr (fun x => nth (Z.to_nat x) arr d)) as (a & g & E & P' & R' & I').
  - lia.
  - lia.
  - unfold zlen in *. lia.
  - split; [reflexivity|]. intros x Hx. unfold rd. destruct (Z.ltb_spec x 0); [lia|]. apply nth_error_nth'. unfold zlen in Hx. lia.
  - rewrite Z2Nat.id in E by lia. rewrite E. exists a. split; [reflexivity|]. split; [exact P'|].
    intros Hpre. apply ss_index. intros i j x y Hij Ri Rj. destruct R' as [L R'].
    pose proof (rd_range _ _ _ _ Rj) as Hj. rewrite R' in Ri, Rj by lia. injection Ri as <-. injection Rj as <-.
    apply I'; [exact Hpre| |lia|lia|lia]. intros x c Hx Hch Hcs. lia.
Qed.
End Heap.
