(** * C51, C53: hash ranges and Bloom filter *)
From Verif Require Import Lib BitsModel BitsSpec BitsProofs BitsProps BloomModel.
Ltac Zify.zify_post_hook ::= Z.div_mod_to_equations.

(** ** C53 *)
Lemma hash_top : forall w v bits, 0 <= v < 2 ^ w -> 1 <= bits <= w -> 0 <= Z.shiftr v (w - bits) < 2 ^ bits.
Proof.
  intros w v bits Hv Hb. rewrite Z.shiftr_div_pow2 by lia. split; [apply Z.div_pos; [lia|apply Z.pow_pos_nonneg; lia]|].
  apply Z.div_lt_upper_bound; [apply Z.pow_pos_nonneg; lia|]. rewrite <- Z.pow_add_r by lia. replace (w - bits + bits) with w by lia. lia.
Qed.
(** the hash is defined and below 2^bits for every value and every width *)
Theorem C53_ranges : forall value bits,
  (1 <= bits <= 32 -> exists h, hash32 value bits = Some h /\ 0 <= h < 2 ^ bits) /\
  (1 <= bits <= 64 -> exists h, hash64 value bits = Some h /\ 0 <= h < 2 ^ bits).
Proof.
  intros value bits. split; intros H.
  - unfold hash32. rewrite w64_small by (unfold u64; lia). destruct (Z.ltb_spec (32 - bits) 32); [|lia]. eexists. split; [reflexivity|]. apply hash_top; [apply w32_range|lia].
  - unfold hash64. rewrite w64_small by (unfold u64; lia). destruct (Z.ltb_spec (64 - bits) 64); [|lia]. eexists. split; [reflexivity|]. apply hash_top; [apply w64_range|lia].
Qed.
(** zero bits are not allowed: the shift is undefined *)
Theorem C53_zero_bits : forall value, hash32 value 0 = None /\ hash64 value 0 = None.
Proof. intros value. split; reflexivity. Qed.
(** no information is lost before the top bits are taken: different values have different full-width hashes *)
Lemma odd_inverse : forall m g inv a b, 0 < m -> (g * inv) mod m = 1 mod m -> 0 <= a < m -> 0 <= b < m -> (a * g) mod m = (b * g) mod m -> a = b.
Proof.
  intros m g inv a b Hm HI Ha Hb E.
  assert (X : forall x, 0 <= x < m -> x = ((x * g) mod m * inv) mod m).
  { intros x Hx. rewrite Zmult_mod_idemp_l, <- Z.mul_assoc, <- Zmult_mod_idemp_r, HI, Zmult_mod_idemp_r, Z.mul_1_r, Z.mod_small by lia. reflexivity. }
  rewrite (X a Ha), (X b Hb), E. reflexivity.
Qed.
Theorem C53_injective : 
  (forall a b, u32 a -> u32 b -> hash32 a 32 = hash32 b 32 -> a = b) /\ (forall a b, u64 a -> u64 b -> hash64 a 64 = hash64 b 64 -> a = b).
Proof.
  split; intros a b Ha Hb E.
  - unfold hash32 in E. change (w64 (32 - 32)) with 0 in E. cbn [Z.ltb Z.compare] in E. rewrite !Z.shiftr_0_r in E. injection E as E. unfold hashv32, w32, w64 in E.
    assert (M : forall x, (x mod 2 ^ 64) mod 2 ^ 32 = x mod 2 ^ 32). { intros x. change (2 ^ 64) with (2 ^ 32 * 2 ^ 32). rewrite Z.rem_mul_r by lia. rewrite Z.mul_comm, Z.mod_add by lia. apply Z.mod_mod. lia. }
    rewrite !M in E. revert E. apply (odd_inverse (2 ^ 32) GOLDEN_RATIO_32 0xebb34377); try assumption; try lia. vm_compute. reflexivity.
  - unfold hash64 in E. change (w64 (64 - 64)) with 0 in E. cbn [Z.ltb Z.compare] in E. rewrite !Z.shiftr_0_r in E. injection E as E. unfold hashv64, w64 in E.
    revert E. apply (odd_inverse (2 ^ 64) GOLDEN_RATIO_64 0xe217c1e66c88cc3); try assumption; try lia. vm_compute. reflexivity.
Qed.
(** table index in bounds, for every table of at least two entries *)
Theorem C53_index : forall size key, 2 <= size < 2 ^ 64 -> exists i, hashtbl_index size key = Some i /\ 0 <= i < size.
Proof.
  intros size key H. unfold hashtbl_index. destruct (C17_ilog2 size) as [_ [A B]]; [lia|].
  assert (L1 : 1 <= ilog2 size). { destruct (Z.le_gt_cases 1 (ilog2 size)); [assumption|]. assert (0 <= ilog2 size). { unfold ilog2. destruct (size <? 2) eqn:E; [lia|]. apply Z.ltb_ge in E. unfold fls. destruct (size =? 0) eqn:E2; [apply Z.eqb_eq in E2; lia|]. rewrite flsuf_log2 by lia. pose proof (Z.log2_nonneg size). lia. } assert (X : ilog2 size = 0) by lia. rewrite X in B. change (2 ^ (0 + 1)) with 2 in B. lia. }
  assert (L2 : ilog2 size < 64). { apply (Z.pow_lt_mono_r_iff 2); lia. }
  destruct (C53_ranges key (ilog2 size)) as [_ R]. destruct R as (h & E & R); [lia|]. exists h. split; [exact E|]. lia.
Qed.
(** a table of one entry: the shift amount is the word size *)
Theorem C53_index_one : forall key, hashtbl_index 1 key = None.
Proof. reflexivity. Qed.
Example C53_ex : hash64 1 10 = Some 391 /\ hash32 7 5 = Some 21 /\ hashtbl_index 1000 12345 = Some 189.
Proof. vm_compute. repeat split. Qed.

(** ** C51 *)
Lemma memset_spec : forall m size, Forall u64 m -> 0 <= size <= 8 * zlen m -> exists m', memset0 m size = Some m' /\ zlen m' = zlen m /\ Forall u64 m' /\
  forall i, 0 <= i -> abit m' i = (8 * size <=? i) && abit m i.
Proof.
  induction m as [|w m IH]; intros size U R.
  - unfold zlen in R; cbn in R. assert (size = 0) by lia. subst. exists []. split; [reflexivity|]. split; [reflexivity|]. split; [constructor|]. intros i Hi. unfold abit. unfold rd. destruct (i / 64 <? 0); [rewrite andb_false_r; reflexivity|]. destruct (Z.to_nat (i / 64)); cbn; rewrite andb_false_r; reflexivity.
  - inversion U as [|? ? Uw Um]; subst. unfold zlen in R. cbn [length] in R.
    assert (AB : forall (x : Z) l i, 0 <= i -> abit (x :: l) i = if i <? 64 then Z.testbit x i else abit l (i - 64)).
    { intros x l i Hi. unfold abit. destruct (Z.ltb_spec i 64).
      - rewrite Z.div_small, Z.mod_small by lia. reflexivity.
      - unfold rd. assert (Q : i / 64 = 1 + (i - 64) / 64) by lia. rewrite Q. assert (0 <= (i - 64) / 64) by lia.
        destruct (Z.ltb_spec (1 + (i - 64) / 64) 0); [lia|]. destruct (Z.ltb_spec ((i - 64) / 64) 0); [lia|]. replace (Z.to_nat (1 + (i - 64) / 64)) with (S (Z.to_nat ((i - 64) / 64))) by lia. cbn [nth_error].
        replace ((i - 64) mod 64) with (i mod 64) by lia. reflexivity. }
    cbn [memset0]. destruct (Z.eqb_spec size 0) as [->|NZ].
    + exists (w :: m). split; [reflexivity|]. split; [reflexivity|]. split; [exact U|]. intros i Hi. destruct (Z.leb_spec (8 * 0) i); [reflexivity|lia].
    + destruct (Z.leb_spec 8 size).
      * destruct (IH (size - 8) Um) as (m' & E & L & U' & B); [unfold zlen; lia|]. rewrite E. exists (0 :: m'). split; [reflexivity|]. unfold zlen in *. cbn [length]. split; [lia|]. split; [constructor; [unfold u64; lia|exact U']|].
        intros i Hi. rewrite !AB by exact Hi. destruct (Z.ltb_spec i 64).
        -- rewrite Z.bits_0. destruct (Z.leb_spec (8 * size) i); [lia|reflexivity].
        -- rewrite B by lia. f_equal. destruct (Z.leb_spec (8 * (size - 8)) (i - 64)); destruct (Z.leb_spec (8 * size) i); try lia; reflexivity.
      * exists (Z.land w (w64 (Z.shiftl ULONG_MAX (8 * size))) :: m). split; [reflexivity|]. split; [reflexivity|]. split; [constructor; [apply land_range_l; [lia|exact Uw]|exact Um]|].
        intros i Hi. rewrite !AB by exact Hi. destruct (Z.ltb_spec i 64).
        -- rewrite Z.land_spec, w64_bits by lia. rewrite Z.shiftl_spec by lia. destruct (Z.ltb_spec i 64); [|lia]. destruct (Z.leb_spec (8 * size) i).
           ++ rewrite (ulong_max_bits (i - 8 * size)) by lia. destruct (Z.ltb_spec (i - 8 * size) 64); [|lia]. cbn [andb]. apply andb_true_r.
           ++ rewrite (Z.testbit_neg_r ULONG_MAX) by lia. cbn [andb]. apply andb_false_r.
        -- destruct (Z.leb_spec (8 * size) i); [reflexivity|lia].
Qed.
Section BLOOM.
Context {K : Type}.
Variable hash : Z -> K -> Z.
Variable funcs : nat.
(** positions of a key *)
Definition positions (b : bloom K) (key : K) : list (option Z) := map (fun f => bloom_index b (Z.of_nat f) key) (seq 0 funcs).
Definition ok (cap : Z) (b : bloom K) : Prop :=
  bl_hash b = hash /\ bl_funcs b = funcs /\ bl_capacity b = cap /\ 64 <= cap < 2 ^ 32 /\ cap = 64 * zlen (bl_map b) /\ Forall u64 (bl_map b).
Lemma index_ok : forall cap b f (key : K), ok cap b -> exists i, bloom_index b f key = Some i /\ 0 <= i < cap.
Proof.
  intros cap b f key (E1 & E2 & E3 & R & L & U). unfold bloom_index. rewrite E3. destruct (C53_index cap (bl_hash b f key)) as (i & -> & I); [lia|].
  exists i. rewrite w32_small by (unfold u32; lia). split; [reflexivity|exact I].
Qed.
Lemma index_same : forall (b b' : bloom K) f (key : K), bl_hash b = bl_hash b' -> bl_capacity b = bl_capacity b' -> bloom_index b f key = bloom_index b' f key.
Proof. intros b b' f key E1 E2. unfold bloom_index. rewrite E1, E2. reflexivity. Qed.
Definition has (b : bloom K) (p : option Z) : bool := match p with Some i => abit (bl_map b) i | None => false end.
Lemma peek_spec : forall cap b key, ok cap b -> forall n f0 r, peek_loop b key n (Z.of_nat f0) r = Some (r && forallb (fun f => has b (bloom_index b (Z.of_nat f) key)) (seq f0 n)).
Proof.
  intros cap b key O n. induction n as [|n IH]; intros f0 r; cbn [peek_loop seq forallb]; [rewrite andb_true_r; reflexivity|].
  destruct (index_ok cap b (Z.of_nat f0) key O) as (i & E & R). rewrite E. destruct O as (E1 & E2 & E3 & R' & L & U).
  destruct (C77_bit_ops (bl_map b) i U) as (T & _); [lia|]. rewrite T. replace (Z.of_nat f0 + 1) with (Z.of_nat (S f0)) by lia. rewrite IH. cbn [has]. destruct (abit (bl_map b) i); [reflexivity|rewrite !andb_false_r; reflexivity].
Qed.
Lemma push_spec : forall cap key n b f0 r, ok cap b -> exists b', push_loop b key n (Z.of_nat f0) r = Some (b', r && forallb (fun f => has b (bloom_index b (Z.of_nat f) key)) (seq f0 n)) /\ ok cap b' /\
  forall i, 0 <= i -> abit (bl_map b') i = abit (bl_map b) i || existsb (fun f => match bloom_index b (Z.of_nat f) key with Some j => i =? j | None => false end) (seq f0 n).
Proof.
  intros cap key n. induction n as [|n IH]; intros b f0 r O; cbn [push_loop seq forallb existsb].
  - exists b. rewrite andb_true_r. split; [reflexivity|]. split; [exact O|]. intros i _. rewrite orb_false_r. reflexivity.
  - destruct (index_ok cap b (Z.of_nat f0) key O) as (j & E & R). rewrite E. pose proof O as (E1 & E2 & E3 & R' & L & U).
    destruct (C77_bit_ops (bl_map b) j U) as (_ & (m & _ & UP & T) & _); [lia|]. rewrite T. destruct UP as (U1 & U2 & U3).
    assert (O1 : ok cap (set_map b m)). { unfold ok, set_map; cbn [bl_hash bl_funcs bl_capacity bl_map]. repeat split; try assumption; lia. }
    replace (Z.of_nat f0 + 1) with (Z.of_nat (S f0)) by lia. destruct (IH (set_map b m) (S f0) (if abit (bl_map b) j then r else false) O1) as (b' & P & O' & B).
    exists b'. assert (IX : forall f, bloom_index (set_map b m) f key = bloom_index b f key) by (intros f; apply index_same; reflexivity).
    split; [|split; [exact O'|]].
    + rewrite P. f_equal. f_equal. cbn [has]. destruct (abit (bl_map b) j) eqn:T0; [|rewrite andb_false_r; reflexivity].
      f_equal. cbn [andb]. assert (X : forall l, forallb (fun f => has (set_map b m) (bloom_index (set_map b m) (Z.of_nat f) key)) l = forallb (fun f => has b (bloom_index b (Z.of_nat f) key)) l).
      { induction l as [|f l IHl]; [reflexivity|]. cbn [forallb]. rewrite IHl. f_equal. rewrite IX. destruct (index_ok cap b (Z.of_nat f) key O) as (k & Ek & Rk). rewrite Ek. cbn [has set_map bl_map]. rewrite U3 by lia. destruct (Z.eqb_spec k j); [subst; symmetry; exact T0|reflexivity]. }
      apply X.
    + intros i Hi. rewrite B by exact Hi. cbn [set_map bl_map]. rewrite U3 by exact Hi.
      assert (X : forall l, existsb (fun f => match bloom_index (set_map b m) (Z.of_nat f) key with Some k => i =? k | None => false end) l = existsb (fun f => match bloom_index b (Z.of_nat f) key with Some k => i =? k | None => false end) l).
      { induction l as [|f l IHl]; [reflexivity|]. cbn [existsb]. rewrite IHl, IX. reflexivity. }
      rewrite X. destruct (Z.eqb_spec i j); [rewrite orb_true_r; reflexivity|reflexivity].
Qed.

End BLOOM.

(** operations of a client *)
Inductive bloom_op (K : Type) := Push (k : K) | Peek (k : K) | Flush.
Arguments Push {K}. Arguments Peek {K}. Arguments Flush {K}.
Fixpoint bloom_run {K} (b : bloom K) (ops : list (bloom_op K)) : option (bloom K * list bool) :=
  match ops with
  | [] => Some (b, [])
  | Push k :: ops' => let* (b', r) := bloom_push b k in let* (b'', rs) := bloom_run b' ops' in Some (b'', r :: rs)
  | Peek k :: ops' => let* r := bloom_peek b k in let* (b'', rs) := bloom_run b ops' in Some (b'', r :: rs)
  | Flush :: ops' => let* b' := bloom_flush b in bloom_run b' ops'
  end.
(** keys pushed since the last flush *)
Fixpoint pushed {K} (s : list K) (ops : list (bloom_op K)) : list K :=
  match ops with
  | [] => s
  | Push k :: ops' => pushed (k :: s) ops'
  | Peek _ :: ops' => pushed s ops'
  | Flush :: ops' => pushed [] ops'
  end.
Definition no_flush {K} (o : bloom_op K) : Prop := match o with Flush => False | _ => True end.

Lemma create_ok : forall K (hash : Z -> K -> Z) funcs capacity, 1 <= capacity <= 2 ^ 32 - 64 ->
  exists cap, ok hash funcs cap (bloom_create capacity hash funcs) /\ capacity <= cap < capacity + 64.
Proof.
  intros K hash funcs capacity H. unfold bloom_create. rewrite w32_small by (unfold u32; lia).
  assert (E : Z.land (capacity + 63) (w32 (Z.lnot 63)) = 64 * ((capacity + 63) / 64)).
  { change (w32 (Z.lnot 63)) with (Z.shiftl (Z.ones 26) 6). apply Z.bits_inj'. intros i Hi. rewrite Z.land_spec, Z.shiftl_spec by lia.
    replace (64 * ((capacity + 63) / 64)) with (Z.shiftl (Z.shiftr (capacity + 63) 6) 6) by (rewrite Z.shiftl_mul_pow2, Z.shiftr_div_pow2 by lia; change (2 ^ 6) with 64; lia).
    rewrite Z.shiftl_spec by lia. destruct (Z.lt_ge_cases i 6).
    - rewrite !(Z.testbit_neg_r _ (i - 6)) by lia. apply andb_false_r.
    - rewrite Z.shiftr_spec by lia. replace (i - 6 + 6) with i by lia. destruct (Z.lt_ge_cases i 32).
      + rewrite Z.ones_spec_low by lia. apply andb_true_r.
      + rewrite Z.ones_spec_high by lia. rewrite andb_false_r. symmetry. apply (testbit_small _ 32); lia. }
  exists (64 * ((capacity + 63) / 64)). rewrite E. split; [|lia]. unfold ok; cbn [bl_hash bl_funcs bl_capacity bl_map]. repeat split; try lia.
  - unfold zlen. rewrite repeat_length. lia.
  - apply Forall_forall. intros x Hx. apply repeat_spec in Hx. subst. unfold u64. lia.
Qed.
Lemma abit_zero : forall n i, abit (repeat 0 n) i = false.
Proof. intros n i. unfold abit. destruct (rd (repeat 0 n) (i / 64)) as [w|] eqn:E; [|reflexivity]. apply rd_in in E. apply repeat_spec in E. subst. apply Z.bits_0. Qed.

Section RUN.
Context {K : Type}.
Variable hash : Z -> K -> Z.
Variable funcs : nat.
Variable cap : Z.
Definition covers (b : bloom K) (k : K) : Prop := forall f, (f < funcs)%nat -> has b (bloom_index b (Z.of_nat f) k) = true.
Lemma peek_eq : forall b k, ok hash funcs cap b -> exists r, bloom_peek b k = Some r /\ (r = true <-> covers b k).
Proof.
  intros b k O. unfold bloom_peek. pose proof O as (_ & E2 & _). rewrite E2. change 0 with (Z.of_nat 0). rewrite (peek_spec hash funcs cap b k O). eexists. split; [reflexivity|].
  cbn [andb]. rewrite forallb_forall. unfold covers. split.
  - intros H f Hf. apply H. apply in_seq. lia.
  - intros H f Hf. apply in_seq in Hf. apply H. lia.
Qed.
Lemma push_eq : forall b k, ok hash funcs cap b -> exists b' r, bloom_push b k = Some (b', r) /\ ok hash funcs cap b' /\ bloom_peek b k = Some r /\ covers b' k /\
  (forall i, 0 <= i -> abit (bl_map b') i = true <-> abit (bl_map b) i = true \/ exists f, (f < funcs)%nat /\ bloom_index b (Z.of_nat f) k = Some i).
Proof.
  intros b k O. unfold bloom_push, bloom_peek. pose proof O as (E1 & E2 & E3 & _). rewrite E2. change 0 with (Z.of_nat 0).
  destruct (push_spec hash funcs cap k funcs b 0 true O) as (b' & P & O' & B). rewrite P, (peek_spec hash funcs cap b k O). do 2 eexists. split; [reflexivity|]. split; [exact O'|]. split; [reflexivity|].
  assert (C : forall i, 0 <= i -> abit (bl_map b') i = true <-> abit (bl_map b) i = true \/ exists f, (f < funcs)%nat /\ bloom_index b (Z.of_nat f) k = Some i).
  { intros i Hi. rewrite B by exact Hi. rewrite orb_true_iff, existsb_exists. split; (intros [H|H]; [left; exact H|right]).
    - destruct H as (f & Hf & H). apply in_seq in Hf. exists f. split; [lia|]. destruct (bloom_index b (Z.of_nat f) k) as [j|]; [|discriminate]. apply Z.eqb_eq in H. subst. reflexivity.
    - destruct H as (f & Hf & H). exists f. split; [apply in_seq; lia|]. rewrite H. apply Z.eqb_refl. }
  split; [|exact C]. intros f Hf. rewrite (index_same b' b); [|destruct O' as (X & _); congruence|destruct O' as (_ & _ & X & _); congruence].
  destruct (index_ok hash funcs cap b (Z.of_nat f) k O) as (i & Ei & Ri). rewrite Ei. cbn [has]. apply C; [lia|]. right. exists f. split; assumption.
Qed.
Lemma flush_eq : forall b, ok hash funcs cap b -> exists b', bloom_flush b = Some b' /\ ok hash funcs cap b' /\ forall i, 0 <= i -> abit (bl_map b') i = (8 * (cap / 64) <=? i) && abit (bl_map b) i.
Proof.
  intros b O. pose proof O as (E1 & E2 & E3 & R & L & U). unfold bloom_flush. rewrite E3. destruct (memset_spec (bl_map b) (cap / 64) U) as (m' & E & L' & U' & B); [lia|].
  rewrite E. eexists. split; [reflexivity|]. split; [|exact B]. unfold ok, set_map; cbn [bl_hash bl_funcs bl_capacity bl_map]. repeat split; try assumption; lia.
Qed.
Lemma covers_mono : forall b b' k, ok hash funcs cap b -> ok hash funcs cap b' -> (forall i, 0 <= i -> abit (bl_map b) i = true -> abit (bl_map b') i = true) -> covers b k -> covers b' k.
Proof.
  intros b b' k O O' M C f Hf. specialize (C f Hf). rewrite (index_same b' b); [|destruct O as (X & _); destruct O' as (Y & _); congruence|destruct O as (_ & _ & X & _); destruct O' as (_ & _ & Y & _); congruence].
  destruct (index_ok hash funcs cap b (Z.of_nat f) k O) as (i & Ei & Ri). rewrite Ei in *. cbn [has] in *. apply M; [lia|exact C].
Qed.
Lemma run_ok : forall ops b s, ok hash funcs cap b -> Forall (covers b) s -> exists b' rs, bloom_run b ops = Some (b', rs) /\ ok hash funcs cap b' /\ Forall (covers b') (pushed s ops).
Proof.
  induction ops as [|o ops IH]; intros b s O C; cbn [bloom_run pushed]. { exists b, []. split; [reflexivity|]. split; assumption. }
  destruct o as [k|k|].
  - destruct (push_eq b k O) as (b1 & r & P & O1 & _ & C1 & B). rewrite P. destruct (IH b1 (k :: s) O1) as (b2 & rs & R & O2 & C2).
    { constructor; [exact C1|]. eapply Forall_impl; [|exact C]. intros x. apply covers_mono; [exact O|exact O1|]. intros i Hi H. apply B; [exact Hi|left; exact H]. }
    rewrite R. eexists. eexists. split; [reflexivity|]. split; assumption.
  - destruct (peek_eq b k O) as (r & P & _). rewrite P. destruct (IH b s O C) as (b2 & rs & R & O2 & C2). rewrite R. eexists. eexists. split; [reflexivity|]. split; assumption.
  - destruct (flush_eq b O) as (b1 & P & O1 & _). rewrite P. destruct (IH b1 [] O1) as (b2 & rs & R & O2 & C2); [constructor|]. rewrite R. eexists. eexists. split; [reflexivity|]. split; assumption.
Qed.
(** the bits set are exactly those of the keys pushed *)
Definition exact (b : bloom K) (s : list K) : Prop := forall i, 0 <= i -> abit (bl_map b) i = true <-> exists k f, In k s /\ (f < funcs)%nat /\ bloom_index b (Z.of_nat f) k = Some i.
Lemma run_exact : forall ops b s, ok hash funcs cap b -> exact b s -> Forall no_flush ops -> exists b' rs, bloom_run b ops = Some (b', rs) /\ ok hash funcs cap b' /\ exact b' (pushed s ops).
Proof.
  induction ops as [|o ops IH]; intros b s O C NF; cbn [bloom_run pushed]. { exists b, []. split; [reflexivity|]. split; assumption. }
  inversion NF as [|? ? N1 N2]; subst. destruct o as [k|k|]; [| |contradiction].
  - destruct (push_eq b k O) as (b1 & r & P & O1 & _ & C1 & B). rewrite P. destruct (IH b1 (k :: s) O1) as (b2 & rs & R & O2 & C2); [|exact N2|].
    { intros i Hi. rewrite B by exact Hi. rewrite (C i Hi). assert (IX : forall f x, bloom_index b1 f x = bloom_index b f x). { intros f x. apply index_same; destruct O as (X & _ & Y & _); destruct O1 as (X' & _ & Y' & _); congruence. }
      split.
      - intros [(k' & f & H1 & H2 & H3)|(f & H2 & H3)]; [exists k', f|exists k, f]; rewrite IX; (split; [cbn; tauto|split; assumption]).
      - intros (k' & f & [->|H1] & H2 & H3); rewrite IX in H3; [right; exists f; split; assumption|left; exists k', f; repeat split; assumption]. }
    rewrite R. eexists. eexists. split; [reflexivity|]. split; assumption.
  - destruct (peek_eq b k O) as (r & P & _). rewrite P. destruct (IH b s O C N2) as (b2 & rs & R & O2 & C2). rewrite R. eexists. eexists. split; [reflexivity|]. split; assumption.
Qed.
End RUN.

(** C51: after any history, every key pushed since the last flush is found *)
Theorem C51_no_false_negative : forall K (hash : Z -> K -> Z) funcs capacity ops k, 1 <= capacity <= 2 ^ 32 - 64 ->
  exists b rs, bloom_run (bloom_create capacity hash funcs) ops = Some (b, rs) /\ (In k (pushed [] ops) -> bloom_peek b k = Some true).
Proof.
  intros K hash funcs capacity ops k H. destruct (create_ok K hash funcs capacity H) as (cap & O & _).
  destruct (run_ok hash funcs cap ops _ [] O (Forall_nil _)) as (b & rs & R & O' & C). exists b, rs. split; [exact R|].
  intros I. rewrite Forall_forall in C. specialize (C k I). destruct (peek_eq hash funcs cap b k O') as (r & P & E). rewrite P. f_equal. apply E. exact C.
Qed.
(** C51: without flush a key is found exactly when each of its positions is a position of a key pushed *)
Theorem C51_exact : forall K (hash : Z -> K -> Z) funcs capacity ops, 1 <= capacity <= 2 ^ 32 - 64 -> Forall no_flush ops ->
  let pos f k := bloom_index (bloom_create capacity hash funcs) (Z.of_nat f) k in
  exists b rs, bloom_run (bloom_create capacity hash funcs) ops = Some (b, rs) /\
    forall k, exists r, bloom_peek b k = Some r /\
      (r = true <-> forall f, (f < funcs)%nat -> exists k' f', In k' (pushed [] ops) /\ (f' < funcs)%nat /\ pos f' k' = pos f k).
Proof.
  intros K hash funcs capacity ops H NF pos. destruct (create_ok K hash funcs capacity H) as (cap & O & _).
  destruct (run_exact hash funcs cap ops _ [] O) as (b & rs & R & O' & C); [|exact NF|].
  { intros i Hi. unfold bloom_create. cbn [bl_map]. rewrite abit_zero. split; [discriminate|]. intros (k & f & [] & _). }
  exists b, rs. split; [exact R|]. intros k. destruct (peek_eq hash funcs cap b k O') as (r & P & E). exists r. split; [exact P|]. rewrite E. unfold covers, pos.
  assert (IX : forall f x, bloom_index (bloom_create capacity hash funcs) f x = bloom_index b f x). { intros f x. apply index_same; destruct O as (X & _ & Y & _); destruct O' as (X' & _ & Y' & _); congruence. }
  split; intros Q f Hf; specialize (Q f Hf).
  - destruct (index_ok hash funcs cap b (Z.of_nat f) k O') as (i & Ei & Ri). rewrite Ei in Q. cbn [has] in Q. apply C in Q; [|lia]. destruct Q as (k' & f' & Q1 & Q2 & Q3). exists k', f'. rewrite !IX, Q3, Ei. repeat split; assumption.
  - destruct Q as (k' & f' & Q1 & Q2 & Q3). rewrite !IX in Q3. destruct (index_ok hash funcs cap b (Z.of_nat f) k O') as (i & Ei & Ri). rewrite Ei in *. cbn [has]. apply C; [lia|]. exists k', f'. repeat split; assumption.
Qed.
(** push answers what peek would have answered before *)
Theorem C51_push_result : forall K (hash : Z -> K -> Z) funcs capacity ops k, 1 <= capacity <= 2 ^ 32 - 64 ->
  exists b rs, bloom_run (bloom_create capacity hash funcs) ops = Some (b, rs) /\ exists r b', bloom_peek b k = Some r /\ bloom_push b k = Some (b', r).
Proof.
  intros K hash funcs capacity ops k H. destruct (create_ok K hash funcs capacity H) as (cap & O & _).
  destruct (run_ok hash funcs cap ops _ [] O (Forall_nil _)) as (b & rs & R & O' & C). exists b, rs. split; [exact R|].
  destruct (push_eq hash funcs cap b k O') as (b' & r & P & _ & Q & _). exists r, b'. split; assumption.
Qed.
(** flush clears exactly the first eighth of the bits: only what lies below them is forgotten *)
Theorem C51_flush_partial : forall K (hash : Z -> K -> Z) funcs capacity ops, 1 <= capacity <= 2 ^ 32 - 64 ->
  exists b rs b', bloom_run (bloom_create capacity hash funcs) ops = Some (b, rs) /\ bloom_flush b = Some b' /\
    forall i, 0 <= i -> abit (bl_map b') i = (bl_capacity b / 8 <=? i) && abit (bl_map b) i.
Proof.
  intros K hash funcs capacity ops H. destruct (create_ok K hash funcs capacity H) as (cap & O & _).
  destruct (run_ok hash funcs cap ops _ [] O (Forall_nil _)) as (b & rs & R & O' & C). destruct (flush_eq hash funcs cap b O') as (b' & P & _ & B).
  exists b, rs, b'. split; [exact R|]. split; [exact P|]. intros i Hi. rewrite B by exact Hi. destruct O' as (_ & _ & E & _ & L & _). rewrite E. f_equal. f_equal. lia.
Qed.
(** so the claim that a flushed filter is empty fails *)
Theorem C51_flush_refuted : exists (hash : Z -> Z -> Z) funcs capacity k b rs, 1 <= capacity <= 2 ^ 32 - 64 /\
  bloom_run (bloom_create capacity hash funcs) [Push k; Flush] = Some (b, rs) /\ (0 < funcs)%nat /\ bloom_peek b k = Some true.
Proof. exists (fun _ k => k), 1%nat, 64, 1. do 2 eexists. split; [lia|]. split; [vm_compute; reflexivity|]. split; [lia|]. vm_compute. reflexivity. Qed.
(** a filter of capacity 0: the first query is undefined behaviour *)
Theorem C51_capacity_refuted : exists (hash : Z -> Z -> Z) funcs k, bloom_peek (bloom_create 0 hash funcs) k = None /\ bloom_peek (bloom_create (2 ^ 32 - 1) hash funcs) k = None.
Proof. exists (fun _ k => k), 1%nat, 5. vm_compute. split; reflexivity. Qed.
(** hypotheses are met *)
Example C51_ex : match bloom_run (bloom_create 100 (fun f k => f * 7919 + k * 31) 3) [Push 5; Peek 5; Peek 6; Push 6; Push 5; Flush; Push 9; Peek 9; Peek 1000] with
  | Some (b, rs) => Some (rs, bl_capacity b, zlen (bl_map b)) | None => None end = Some ([false; true; false; false; true; false; true; false], 128, 2).
Proof. vm_compute. reflexivity. Qed.

Print Assumptions C53_ranges.
Print Assumptions C53_injective.
Print Assumptions C53_index.
Print Assumptions C51_no_false_negative.
Print Assumptions C51_exact.
Print Assumptions C51_push_result.
Print Assumptions C51_flush_partial.
Print Assumptions C51_flush_refuted.
