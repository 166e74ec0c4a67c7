(** * Pseudo random numbers: theorems (C34) *)
From Verif Require Import Lib BitsModel BitsProofs PrandomModel.

(** ** Specification *)
(** what a client can do with a generator *)
Inductive call := Value | U64 | Reseed (seed : Z).
Definition run1 (p : prandom) (c : call) : prandom := match c with Value => fst (prandom_value p) | U64 => fst (prandom_u64 p) | Reseed s => prandom_seed s end.
(** each component above its minimum: the low 1, 3, 4 and 7 bits take no part in the recurrences *)
Definition healthy (p : prandom) : Prop := 2 <= s1 p < 2 ^ 32 /\ 8 <= s2 p < 2 ^ 32 /\ 16 <= s3 p < 2 ^ 32 /\ 128 <= s4 p < 2 ^ 32.

(** ** Proofs *)
Definition mask (k : Z) : Z := Z.ones 32 - Z.ones k.
Lemma mask_bits k i : 0 <= k <= 32 -> 0 <= i -> Z.testbit (mask k) i = (k <=? i) && (i <? 32).
Proof.
  intros K I. unfold mask. replace (Z.ones 32 - Z.ones k) with (Z.ldiff (Z.ones 32) (Z.ones k)).
  - rewrite Z.ldiff_spec. destruct (Z.ltb_spec i 32); [rewrite (Z.ones_spec_low 32) by lia|rewrite (Z.ones_spec_high 32) by lia; rewrite andb_false_r; reflexivity].
    destruct (Z.leb_spec k i); [rewrite Z.ones_spec_high by lia|rewrite Z.ones_spec_low by lia]; reflexivity.
  - symmetry. apply Z.sub_nocarry_ldiff. apply Z.bits_inj'. intros j J. rewrite Z.ldiff_spec, Z.bits_0.
    destruct (Z.ltb_spec j k); [rewrite (Z.ones_spec_low k), (Z.ones_spec_low 32) by lia; reflexivity|rewrite (Z.ones_spec_high k) by lia; reflexivity].
Qed.
Lemma w32_bits v i : 0 <= i -> Z.testbit (w32 v) i = (i <? 32) && Z.testbit v i.
Proof. apply (wrap_bits 32). lia. Qed.
Lemma taus_u32 s a b c d : u32 s -> 0 <= b -> u32 (tausworthe s a b c d).
Proof.
  intros H B. unfold tausworthe. apply lxor_range; [lia|apply w32_range|]. assert (X : u32 (Z.lxor (w32 (Z.shiftl s a)) s)) by (apply lxor_range; [lia|apply w32_range|exact H]).
  unfold u32 in *. rewrite Z.shiftr_div_pow2 by exact B. split; [apply Z.div_pos; [lia|apply Z.pow_pos_nonneg; lia]|]. apply Z.le_lt_trans with (Z.lxor (w32 (Z.shiftl s a)) s); [|lia]. apply Z.div_le_upper_bound; [apply Z.pow_pos_nonneg; lia|]. assert (1 <= 2 ^ b) by (apply (Z.pow_le_mono_r 2 0 b); lia). nia.
Qed.
Section Taus.
Variables a b k d : Z.
Hypothesis Ha : 0 < a.
Hypothesis Hb : a < b < 32.
Hypothesis Hk : 0 < k.
Hypothesis Hd : 0 < d.
Hypothesis Hsum : k + d + b = 32.
(** bits of the next state *)
Lemma taus_high s i : u32 s -> k + d <= i < 32 -> Z.testbit (tausworthe s a b (mask k) d) i = Z.testbit s (i - d).
Proof.
  intros H I. unfold tausworthe. rewrite Z.lxor_spec, w32_bits, Z.shiftl_spec, Z.land_spec, mask_bits, Z.shiftr_spec by lia. rewrite (testbit_small _ 32 (i + b)); [|apply lxor_range; [lia|apply w32_range|exact H]|lia].
  rewrite (proj2 (Z.ltb_lt i 32)), (proj2 (Z.leb_le k (i - d))), (proj2 (Z.ltb_lt (i - d) 32)) by lia. cbn [andb]. rewrite andb_true_r. apply xorb_false_r.
Qed.
Lemma taus_low s i : u32 s -> 0 <= i < k + d -> k <= i -> Z.testbit (tausworthe s a b (mask k) d) i = xorb (Z.testbit s (i + b - a)) (Z.testbit s (i + b)).
Proof.
  intros H I K. unfold tausworthe. rewrite Z.lxor_spec, w32_bits, Z.shiftl_spec, Z.land_spec, Z.shiftr_spec, Z.lxor_spec, w32_bits, Z.shiftl_spec by lia.
  rewrite (proj2 (Z.ltb_lt i 32)), (proj2 (Z.ltb_lt (i + b) 32)) by lia. cbn [andb].
  destruct (Z_lt_dec i d) as [L|L].
  - rewrite (Z.testbit_neg_r s (i - d)) by lia. apply xorb_false_l.
  - rewrite mask_bits by lia. rewrite (proj2 (Z.leb_gt k (i - d))) by lia. cbn [andb]. rewrite andb_false_r. apply xorb_false_l.
Qed.
(** the bits above [k] of the state can be recovered from those of the next *)
Lemma taus_inj s t : u32 s -> u32 t -> (forall i, k <= i < 32 -> Z.testbit (tausworthe s a b (mask k) d) i = Z.testbit (tausworthe t a b (mask k) d) i) ->
  forall i, k <= i < 32 -> Z.testbit s i = Z.testbit t i.
Proof.
  intros Hs Ht E i I. destruct I as [I1 I2]. assert (I0 : 0 <= i) by lia. revert i I0 I1 I2. apply (Z_lt_induction (fun i => k <= i -> i < 32 -> Z.testbit s i = Z.testbit t i)).
  intros i IH I1 I2. destruct (Z_lt_dec (i + d) 32) as [L|L].
  - specialize (E (i + d) ltac:(lia)). rewrite !taus_high in E by (assumption || lia). replace (i + d - d) with i in E by lia. exact E.
  - specialize (E (i - b) ltac:(lia)). rewrite !taus_low in E by (assumption || lia). replace (i - b + b) with i in E by lia. rewrite (IH (i - a)) in E by lia.
    destruct (Z.testbit t (i - a)), (Z.testbit s i), (Z.testbit t i); cbn in E; congruence.
Qed.
Lemma small_high v : u32 v -> (forall i, k <= i < 32 -> Z.testbit v i = false) -> v < 2 ^ k.
Proof.
  intros H E. apply (bits_range v k); [lia|unfold u32 in H; lia|]. intros i I. destruct (Z_lt_dec i 32); [apply E; lia|]. apply (testbit_small v 32); [exact H|lia].
Qed.
Lemma taus_min s : u32 s -> 2 ^ k <= s -> 2 ^ k <= tausworthe s a b (mask k) d.
Proof.
  intros H M. destruct (Z_lt_dec (tausworthe s a b (mask k) d) (2 ^ k)) as [L|L]; [|lia]. exfalso.
  assert (Hn : u32 (tausworthe s a b (mask k) d)) by (apply taus_u32; [exact H|lia]).
  assert (Z0 : u32 0) by (unfold u32; lia).
  assert (s < 2 ^ k); [|lia]. apply small_high; [exact H|]. intros i I. rewrite <- (Z.bits_0 i). apply (taus_inj s 0 H Z0); [|exact I]. intros j J. rewrite (testbit_small (tausworthe s a b (mask k) d) k j) by (unfold u32 in Hn; lia).
  unfold tausworthe. rewrite Z.land_0_l, !Z.shiftl_0_l. change (w32 0) with 0. rewrite !Z.lxor_0_l, Z.shiftr_0_l, Z.bits_0. reflexivity.
Qed.
End Taus.
Lemma step_healthy p : healthy p -> healthy (prandom_step p).
Proof.
  intros (H1 & H2 & H3 & H4). unfold prandom_step, healthy. cbn [s1 s2 s3 s4].
  change 4294967294 with (mask 1). change 4294967288 with (mask 3). change 4294967280 with (mask 4). change 4294967168 with (mask 7).
  pose proof (taus_min 6 13 1 18 ltac:(lia) ltac:(lia) ltac:(lia) ltac:(lia) ltac:(lia) (s1 p)). pose proof (taus_min 2 27 3 2 ltac:(lia) ltac:(lia) ltac:(lia) ltac:(lia) ltac:(lia) (s2 p)).
  pose proof (taus_min 13 21 4 7 ltac:(lia) ltac:(lia) ltac:(lia) ltac:(lia) ltac:(lia) (s3 p)). pose proof (taus_min 3 12 7 13 ltac:(lia) ltac:(lia) ltac:(lia) ltac:(lia) ltac:(lia) (s4 p)).
  pose proof (taus_u32 (s1 p) 6 13 (mask 1) 18). pose proof (taus_u32 (s2 p) 2 27 (mask 3) 2). pose proof (taus_u32 (s3 p) 13 21 (mask 4) 7). pose proof (taus_u32 (s4 p) 3 12 (mask 7) 13).
  unfold u32 in *. set (t1 := tausworthe (s1 p) _ _ _ _) in *. set (t2 := tausworthe (s2 p) _ _ _ _) in *. set (t3 := tausworthe (s3 p) _ _ _ _) in *. set (t4 := tausworthe (s4 p) _ _ _ _) in *. lia.
Qed.
Lemma iter_healthy n p : healthy p -> healthy (Nat.iter n prandom_step p).
Proof. intros H. induction n as [|n IH]; [exact H|]. cbn [Nat.iter nat_rect]. apply step_healthy, IH. Qed.
Lemma seed_healthy seed : healthy (prandom_seed seed).
Proof.
  unfold prandom_seed, prandom_warmup. apply iter_healthy. unfold prandom_setup, healthy. set (x := w32 _). assert (X : u32 x) by apply w32_range. clearbody x. cbn [s1 s2 s3 s4]. unfold seed_minimum, u32 in *.
  destruct (Z.ltb_spec x 2), (Z.ltb_spec x 8), (Z.ltb_spec x 16), (Z.ltb_spec x 128); rewrite ?w32_small by (unfold u32; lia); lia.
Qed.
(** C34: after seeding with anything (or default initialisation), through any sequence of calls, no component falls below its minimum. *)
Theorem C34_healthy : forall p calls, p = prandom_init \/ (exists seed, p = prandom_seed seed) -> healthy (fold_left run1 calls p).
Proof.
  intros p l H. assert (Hp : healthy p) by (destruct H as [->|[seed ->]]; [unfold healthy; cbn; lia|apply seed_healthy]). clear H. revert p Hp. induction l as [|c l IH]; intros p Hp; [exact Hp|]. cbn [fold_left]. apply IH. destruct c; cbn [run1].
  - apply step_healthy, Hp.
  - unfold prandom_u64, prandom_value. cbn [fst]. apply step_healthy, step_healthy, Hp.
  - apply seed_healthy.
Qed.
(** C34: nothing is lost either: states that agree after a step on the bits above the minima agreed on them before. *)
Definition same_bits (p q : prandom) : Prop :=
  (s1 p / 2 = s1 q / 2 /\ s2 p / 8 = s2 q / 8) /\ (s3 p / 16 = s3 q / 16 /\ s4 p / 128 = s4 q / 128).
Lemma div_bits k x y : 0 <= k <= 32 -> u32 x -> u32 y -> (x / 2 ^ k = y / 2 ^ k <-> forall i, k <= i < 32 -> Z.testbit x i = Z.testbit y i).
Proof.
  intros K X Y. rewrite <- !Z.shiftr_div_pow2 by lia. split.
  - intros E i I. replace i with ((i - k) + k) by lia. rewrite <- !Z.shiftr_spec by lia. rewrite E. reflexivity.
  - intros E. apply Z.bits_inj'. intros i I. rewrite !Z.shiftr_spec by lia. destruct (Z_lt_dec (i + k) 32); [apply E; lia|]. rewrite !(testbit_small _ 32 (i + k)) by (assumption || lia). reflexivity.
Qed.
Theorem C34_injective : forall p q, healthy p -> healthy q -> same_bits (prandom_step p) (prandom_step q) -> same_bits p q.
Proof.
  intros p q (P1 & P2 & P3 & P4) (Q1 & Q2 & Q3 & Q4) ((E1 & E2) & (E3 & E4)). unfold prandom_step in *. cbn [s1 s2 s3 s4] in *.
  change 4294967294 with (mask 1) in *. change 4294967288 with (mask 3) in *. change 4294967280 with (mask 4) in *. change 4294967168 with (mask 7) in *.
  change 2 with (2 ^ 1) in E1. change 8 with (2 ^ 3) in E2. change 16 with (2 ^ 4) in E3. change 128 with (2 ^ 7) in E4.
  assert (V1 : u32 (s1 p)) by (clear - P1; unfold u32; lia). assert (V2 : u32 (s2 p)) by (clear - P2; unfold u32; lia). assert (V3 : u32 (s3 p)) by (clear - P3; unfold u32; lia). assert (V4 : u32 (s4 p)) by (clear - P4; unfold u32; lia). assert (W1 : u32 (s1 q)) by (clear - Q1; unfold u32; lia). assert (W2 : u32 (s2 q)) by (clear - Q2; unfold u32; lia). assert (W3 : u32 (s3 q)) by (clear - Q3; unfold u32; lia). assert (W4 : u32 (s4 q)) by (clear - Q4; unfold u32; lia).
  rewrite div_bits in E1 by (lia || (apply taus_u32; [assumption|lia])). rewrite div_bits in E2 by (lia || (apply taus_u32; [assumption|lia])). rewrite div_bits in E3 by (lia || (apply taus_u32; [assumption|lia])). rewrite div_bits in E4 by (lia || (apply taus_u32; [assumption|lia])).
  unfold same_bits. change (s1 p / 2) with (s1 p / 2 ^ 1). change (s1 q / 2) with (s1 q / 2 ^ 1). change (s2 p / 8) with (s2 p / 2 ^ 3). change (s2 q / 8) with (s2 q / 2 ^ 3).
  change (s3 p / 16) with (s3 p / 2 ^ 4). change (s3 q / 16) with (s3 q / 2 ^ 4). change (s4 p / 128) with (s4 p / 2 ^ 7). change (s4 q / 128) with (s4 q / 2 ^ 7).
  rewrite !div_bits by (assumption || lia).
  split; split; (eapply taus_inj; [..|eassumption]; assumption || lia).
Qed.
(** The results stay in range. *)
Theorem C34_range : forall p, healthy p -> 0 <= snd (prandom_value p) < 2 ^ 32 /\ 0 <= snd (prandom_u64 p) < 2 ^ 64.
Proof.
  assert (V : forall p, healthy p -> u32 (snd (prandom_value p))).
  { intros p H. apply step_healthy in H. destruct H as (H1 & H2 & H3 & H4). unfold prandom_value. cbn [snd]. generalize dependent (prandom_step p). intros q H1 H2 H3 H4. assert (X : forall a b, u32 a -> u32 b -> u32 (Z.lxor a b)) by (intros a b A B; apply lxor_range; [lia|exact A|exact B]). apply X; [apply X; [apply X|]|]; unfold u32; lia. }
  intros p H. split; [apply (V p H)|]. unfold prandom_u64. pose proof (V p H) as A. destruct (prandom_value p) as [q x] eqn:E. assert (Hq : healthy q) by (apply (f_equal fst) in E; cbn in E; subst q; apply step_healthy, H).
  pose proof (V q Hq) as B. destruct (prandom_value q) as [r y]. cbn [snd] in *. apply lor_range; [lia|apply w64_range|unfold u32 in B; lia].
Qed.
Example C34_seed0 : prandom_seed 0 = fold_left run1 [] (prandom_seed 0) /\ fold_left run1 [Value; U64; Reseed 5; Value] (prandom_seed 0) <> prandom_seed 0.
Proof. split; [reflexivity|]. vm_compute. intros H. discriminate H. Qed.
Example C34_healthy_nontrivial : healthy (prandom_seed (2 ^ 63 + 1)) /\ healthy prandom_init /\ ~ healthy {| s1 := 1; s2 := 7; s3 := 15; s4 := 127 |}.
Proof. repeat split; try (vm_compute; congruence). intros (H & _). cbn in H. lia. Qed.
Print Assumptions C34_healthy.
Print Assumptions C34_injective.
Print Assumptions C34_range.
