(** * The generated tables and the CRC functions against bit-at-a-time division *)
From Verif Require Import Lib BitsModel BitsSpec BitsProofs BitsProps CrcModel CrcSpec CrcProofs.
Ltac Zify.zify_post_hook ::= Z.div_mod_to_equations.

Definition okw (w : Z) : Prop := w = 8 \/ w = 16 \/ w = 32 \/ w = 64.
Definition okalg (a : alg) : Prop := okw (width a) /\ 0 <= poly a < 2 ^ width a.
Lemma algs_ok : forall a, In a algs -> okalg a.
Proof.
  intros a H. unfold algs in H. cbn [In] in H.
  repeat (destruct H as [<-|H]; [unfold okalg, okw; cbn; lia|]). contradiction.
Qed.

(** ** Byte swapping *)
Lemma bswap_permutes : forall w, okw w -> permutes w (byte_rev w) (bswap w).
Proof.
  intros w Hw. destruct C15_swab as (A & B & C). unfold bswap.
  destruct Hw as [->|[->|[->| ->]]]; cbn [Z.eqb Pos.eqb].
  - intros v Hv. split; [exact Hv|]. intros i Hi. unfold byte_rev. f_equal. change (8 / 8) with 1. lia.
  - exact A.
  - exact B.
  - exact C.
Qed.
Lemma byte_rev_range : forall w i, okw w -> 0 <= i < w -> 0 <= byte_rev w i < w.
Proof. intros w i Hw Hi. unfold byte_rev. destruct Hw as [->|[->|[->| ->]]]; lia. Qed.
Lemma byte_rev_inv : forall w i, okw w -> 0 <= i < w -> byte_rev w (byte_rev w i) = i.
Proof. intros w i Hw Hi. unfold byte_rev. destruct Hw as [->|[->|[->| ->]]]; lia. Qed.
Lemma bswap_range : forall w v, okw w -> 0 <= v < 2 ^ w -> 0 <= bswap w v < 2 ^ w.
Proof. intros. apply (bswap_permutes w); assumption. Qed.
Lemma okw_pos : forall w, okw w -> 8 <= w.
Proof. intros w [->|[->|[->| ->]]]; lia. Qed.
Lemma bswap_bswap : forall w v, okw w -> 0 <= v < 2 ^ w -> bswap w (bswap w v) = v.
Proof.
  intros w v Hw Hv. pose proof (okw_pos w Hw). pose proof (bswap_permutes w Hw) as P.
  destruct (P v Hv) as [R B]. destruct (P _ R) as [R2 B2]. apply (word_ext w); try assumption.
  intros i Hi. rewrite B2 by lia. rewrite B by (apply byte_rev_range; assumption || lia). rewrite byte_rev_inv by (assumption || lia). reflexivity.
Qed.
Lemma bswap_lxor : forall w x y, okw w -> 0 <= x < 2 ^ w -> 0 <= y < 2 ^ w -> bswap w (Z.lxor x y) = Z.lxor (bswap w x) (bswap w y).
Proof.
  intros w x y Hw Hx Hy. pose proof (okw_pos w Hw). pose proof (bswap_permutes w Hw) as P.
  destruct (P x Hx) as [Rx Bx]. destruct (P y Hy) as [Ry By].
  assert (Hxy : 0 <= Z.lxor x y < 2 ^ w) by (apply lxor_range; lia). destruct (P _ Hxy) as [Rz Bz].
  apply (word_ext w); try assumption; [apply lxor_range; lia|].
  intros i Hi. rewrite Bz, !Z.lxor_spec, Bx, By by lia. reflexivity.
Qed.
(** The first byte of the swapped word is the top byte, and shifting corresponds. *)
Lemma bswap_low : forall w x, okw w -> 0 <= x < 2 ^ w -> Z.land (bswap w x) 255 = Z.shiftr x (w - 8).
Proof.
  intros w x Hw Hx. pose proof (okw_pos w Hw). destruct (bswap_permutes w Hw x Hx) as [R B].
  assert (Rs : 0 <= Z.shiftr x (w - 8) < 2 ^ 8).
  { rewrite Z.shiftr_div_pow2 by lia. split; [apply Z.div_pos; lia|]. apply Z.div_lt_upper_bound; [lia|].
    rewrite <- Z.pow_add_r by lia. replace (w - 8 + 8) with w by lia. lia. }
  apply (word_ext 8); [exact (land255 _)|exact Rs|].
  intros i Hi. rewrite Z.land_spec, B, Z.shiftr_spec by lia.
  replace (Z.testbit 255 i) with true by (symmetry; change 255 with (Z.ones 8); apply Z.ones_spec_low; lia).
  rewrite andb_true_r. f_equal. unfold byte_rev. destruct Hw as [->|[->|[->| ->]]]; lia.
Qed.
Lemma bswap_shift : forall w x, okw w -> 0 <= x < 2 ^ w -> Z.shiftr (bswap w x) 8 = bswap w ((x * 2 ^ 8) mod 2 ^ w).
Proof.
  intros w x Hw Hx. pose proof (okw_pos w Hw). pose proof (bswap_permutes w Hw) as P. destruct (P x Hx) as [R B].
  assert (Hm : 0 <= (x * 2 ^ 8) mod 2 ^ w < 2 ^ w) by (apply Z.mod_pos_bound; lia).
  destruct (P _ Hm) as [R2 B2].
  apply (word_ext w); [|exact R2|].
  { split; [apply Z.shiftr_nonneg; lia|]. rewrite Z.shiftr_div_pow2 by lia. apply Z.le_lt_trans with (bswap w x); [|lia]. apply Z.div_le_upper_bound; lia. }
  intros i Hi. rewrite Z.shiftr_spec by lia. rewrite B2 by lia.
  rewrite Z.mod_pow2_bits_low by (apply byte_rev_range; assumption || lia).
  rewrite <- Z.shiftl_mul_pow2 by lia. rewrite Z.shiftl_spec by (apply byte_rev_range; assumption || lia).
  destruct (Z.lt_ge_cases (i + 8) w).
  - rewrite B by lia. f_equal. unfold byte_rev. destruct Hw as [->|[->|[->| ->]]]; lia.
  - rewrite (testbit_small (bswap w x) w) by lia. symmetry. apply Z.testbit_neg_r.
    unfold byte_rev. destruct Hw as [->|[->|[->| ->]]]; lia.
Qed.
Lemma bswap_byte : forall w b, okw w -> byte b -> bswap w (b * 2 ^ (w - 8)) = b /\ 0 <= b * 2 ^ (w - 8) < 2 ^ w.
Proof.
  intros w b Hw Hb. pose proof (okw_pos w Hw). unfold byte in Hb.
  assert (R : 0 <= b * 2 ^ (w - 8) < 2 ^ w).
  { replace w with (w - 8 + 8) at 3 by lia. rewrite Z.pow_add_r by lia. pose proof (Z.pow_pos_nonneg 2 (w - 8) ltac:(lia) ltac:(lia)). nia. }
  split; [|exact R]. destruct (bswap_permutes w Hw _ R) as [R2 B].
  assert (Hbw : 0 <= b < 2 ^ w).
  { split; [lia|]. apply Z.lt_le_trans with (2 ^ 8); [lia|]. apply Z.pow_le_mono_r; lia. }
  apply (word_ext w); [exact R2|exact Hbw|]. intros i Hi. rewrite B by lia.
  rewrite <- Z.shiftl_mul_pow2, Z.shiftl_spec by (try apply byte_rev_range; assumption || lia).
  destruct (Z.lt_ge_cases i 8).
  - f_equal. unfold byte_rev. destruct Hw as [->|[->|[->| ->]]]; lia.
  - rewrite (testbit_small b 8 i) by lia. apply Z.testbit_neg_r. unfold byte_rev. destruct Hw as [->|[->|[->| ->]]]; lia.
Qed.

(** ** The division steps *)
Lemma bit_le_nonneg : forall p x, 0 <= p -> 0 <= x -> 0 <= bit_le p x.
Proof. intros. unfold bit_le. apply lxor_nonneg'; [lia|]. destruct (Z.odd x); lia. Qed.
Lemma bit_le_linear : forall p, linear (bit_le p).
Proof.
  intros p x y Hx Hy. unfold bit_le. rewrite <- !Z.div2_div, !Z.div2_spec, Z.shiftr_lxor.
  rewrite <- !Z.bit0_odd, Z.lxor_spec.
  apply Z.bits_inj'. intros i Hi. rewrite !Z.lxor_spec.
  destruct (Z.testbit x 0), (Z.testbit y 0); cbn [xorb]; rewrite ?Z.bits_0;
    destruct (Z.testbit (Z.shiftr x 1) i), (Z.testbit (Z.shiftr y 1) i), (Z.testbit p i); reflexivity.
Qed.
Lemma bit_le_range : forall w p x, 0 < w -> 0 <= p < 2 ^ w -> 0 <= x < 2 ^ w -> 0 <= bit_le p x < 2 ^ w.
Proof. intros w p x Hw Hp Hx. unfold bit_le. apply lxor_range; [lia|lia|]. destruct (Z.odd x); lia. Qed.
Lemma bit_le_shift : forall n p x, iter n (bit_le p) (x * 2 ^ Z.of_nat n) = x.
Proof.
  induction n as [|n IH]; intros p x; [cbn; lia|].
  cbn [iter]. rewrite Nat2Z.inj_succ, Z.pow_succ_r by lia.
  replace (bit_le p (x * (2 * 2 ^ Z.of_nat n))) with (x * 2 ^ Z.of_nat n); [apply IH|].
  unfold bit_le. replace (x * (2 * 2 ^ Z.of_nat n)) with (2 * (x * 2 ^ Z.of_nat n)) by lia.
  rewrite Z.odd_mul. cbn [Z.odd andb]. rewrite Z.lxor_0_r, (Z.mul_comm 2), Z.div_mul by lia. reflexivity.
Qed.

Lemma bit_be_bits : forall w p x i, 0 < w -> 0 <= i ->
  Z.testbit (bit_be w p x) i = xorb ((i <? w) && Z.testbit (2 * x) i) (Z.testbit x (w - 1) && Z.testbit p i).
Proof.
  intros w p x i Hw Hi. unfold bit_be. rewrite Z.lxor_spec. f_equal.
  - destruct (Z.ltb_spec i w); [apply Z.mod_pow2_bits_low; lia|apply Z.mod_pow2_bits_high; lia].
  - destruct (Z.testbit x (w - 1)); [reflexivity|apply Z.bits_0].
Qed.
Lemma bit_be_range : forall w p x, 0 < w -> 0 <= p < 2 ^ w -> 0 <= bit_be w p x < 2 ^ w.
Proof.
  intros w p x Hw Hp. unfold bit_be. apply lxor_range; [lia|apply Z.mod_pos_bound; lia|]. destruct (Z.testbit x (w - 1)); lia.
Qed.
Lemma bit_be_linear : forall w p, 0 < w -> 0 <= p -> linear (bit_be w p).
Proof.
  intros w p Hw Hp x y Hx Hy. apply Z.bits_inj'. intros i Hi. rewrite Z.lxor_spec, !bit_be_bits by lia.
  rewrite Z.lxor_spec. replace (2 * Z.lxor x y) with (Z.lxor (2 * x) (2 * y)).
  - rewrite Z.lxor_spec. destruct (i <? w), (Z.testbit (2 * x) i), (Z.testbit (2 * y) i), (Z.testbit x (w - 1)), (Z.testbit y (w - 1)), (Z.testbit p i); reflexivity.
  - change 2 with (2 ^ 1). rewrite (Z.mul_comm _ x), (Z.mul_comm _ y), (Z.mul_comm _ (Z.lxor x y)), <- !Z.shiftl_mul_pow2 by lia. symmetry. apply Z.shiftl_lxor.
Qed.
Lemma bit_be_shift : forall n w p x, 0 < w -> 0 <= x -> x * 2 ^ Z.of_nat n < 2 ^ w -> iter n (bit_be w p) x = x * 2 ^ Z.of_nat n.
Proof.
  induction n as [|n IH]; intros w p x Hw Hx Hn; [cbn; lia|].
  cbn [iter]. rewrite Nat2Z.inj_succ, Z.pow_succ_r in * by lia.
  pose proof (Z.pow_pos_nonneg 2 (Z.of_nat n) ltac:(lia) ltac:(lia)) as Pn.
  assert (E : bit_be w p x = 2 * x).
  { unfold bit_be. assert (2 * x < 2 ^ w) by nia. rewrite Z.mod_small by lia.
    rewrite (testbit_small x (w - 1)); [apply Z.lxor_0_r| |lia].
    replace w with (1 + (w - 1)) in H at 1 by lia. rewrite Z.pow_add_r in H by lia. lia. }
  rewrite E, IH by lia. lia.
Qed.

(** ** The register step of an algorithm, and the table the code uses *)
Definition step8 (a : alg) (x : Z) : Z :=
  if be a then iter 8 (bit_be (width a) (poly a)) x else iter 8 (bit_le (poly a)) x.
Definition place (a : alg) (b : Z) : Z := if be a then b * 2 ^ (width a - 8) else b.
Definition Tof (a : alg) (i : Z) : Z := trans a (step8 a (place a i)).
Definition reg (a : alg) (x : Z) : Prop := 0 <= x < 2 ^ width a.
Lemma byte_spec_step : forall a crc b, byte_spec a crc b = step8 a (Z.lxor crc (place a b)).
Proof. intros. unfold byte_spec, step8, place. destruct (be a); reflexivity. Qed.

Lemma iter_range : forall n f (P : Z -> Prop), (forall x, P x -> P (f x)) -> forall x, P x -> P (iter n f x).
Proof. induction n as [|n IH]; intros f P H x Hx; cbn [iter]; [exact Hx|]. apply IH; auto. Qed.
Lemma step8_reg : forall a x, okalg a -> reg a x -> reg a (step8 a x).
Proof.
  intros a x [Hw Hp] Hx. pose proof (okw_pos _ Hw). unfold step8, reg in *. destruct (be a).
  - apply (iter_range 8 _ (fun y => 0 <= y < 2 ^ width a)); [|exact Hx]. intros. apply bit_be_range; lia.
  - apply (iter_range 8 _ (fun y => 0 <= y < 2 ^ width a)); [|exact Hx]. intros. apply bit_le_range; lia.
Qed.
Lemma step8_linear : forall a, okalg a -> linear (step8 a).
Proof.
  intros a [Hw Hp]. pose proof (okw_pos _ Hw). unfold step8. destruct (be a).
  - apply iter_linear; [apply bit_be_linear; lia|]. intros. apply bit_be_range; lia.
  - apply iter_linear; [apply bit_le_linear|]. intros. apply bit_le_nonneg; lia.
Qed.
Lemma place_reg : forall a b, okalg a -> byte b -> reg a (place a b).
Proof.
  intros a b [Hw Hp] Hb. unfold place, reg. destruct (be a); [apply bswap_byte; assumption|].
  pose proof (okw_pos _ Hw). unfold byte in Hb. split; [lia|]. apply Z.lt_le_trans with (2 ^ 8); [lia|apply Z.pow_le_mono_r; lia].
Qed.
Lemma trans_reg : forall a x, okalg a -> reg a x -> reg a (trans a x).
Proof. intros a x [Hw Hp] H. unfold trans, reg in *. destruct (be a); [apply bswap_range; assumption|exact H]. Qed.
Lemma trans_trans : forall a x, okalg a -> reg a x -> trans a (trans a x) = x.
Proof. intros a x [Hw Hp] H. unfold trans, reg in *. destruct (be a); [apply bswap_bswap; assumption|reflexivity]. Qed.
Lemma trans_lxor : forall a x y, okalg a -> reg a x -> reg a y -> trans a (Z.lxor x y) = Z.lxor (trans a x) (trans a y).
Proof. intros a x y [Hw Hp] Hx Hy. unfold trans, reg in *. destruct (be a); [apply bswap_lxor; assumption|reflexivity]. Qed.
Lemma trans_place : forall a b, okalg a -> byte b -> trans a (place a b) = b.
Proof. intros a b [Hw Hp] Hb. unfold trans, place. destruct (be a); [apply bswap_byte; assumption|reflexivity]. Qed.
Lemma reg_lxor : forall a x y, okalg a -> reg a x -> reg a y -> reg a (Z.lxor x y).
Proof. intros a x y [Hw Hp] Hx Hy. pose proof (okw_pos _ Hw). unfold reg in *. apply lxor_range; lia. Qed.

Lemma place_lxor : forall a x y, okalg a -> byte x -> byte y -> place a (Z.lxor x y) = Z.lxor (place a x) (place a y).
Proof.
  intros a x y [Hw Hp] Hx Hy. pose proof (okw_pos _ Hw). unfold place. destruct (be a); [|reflexivity].
  rewrite <- !Z.shiftl_mul_pow2 by lia. apply Z.shiftl_lxor.
Qed.
Lemma T_linear : forall a x y, okalg a -> byte x -> byte y -> Tof a (Z.lxor x y) = Z.lxor (Tof a x) (Tof a y).
Proof.
  intros a x y H Hx Hy. unfold Tof. pose proof (place_reg a x H Hx) as Px. pose proof (place_reg a y H Hy) as Py.
  rewrite place_lxor by assumption.
  rewrite step8_linear; [|assumption|unfold reg in *; lia|unfold reg in *; lia].
  apply trans_lxor; [assumption| |]; apply step8_reg; assumption.
Qed.
Lemma T_reg : forall a x, okalg a -> byte x -> reg a (Tof a x).
Proof. intros. unfold Tof. apply trans_reg; [assumption|]. apply step8_reg; [assumption|]. apply place_reg; assumption. Qed.

(** The bit-wise step, seen through the byte order conversion, is the code's byte step. *)
Lemma step_conj : forall a x, okalg a -> reg a x -> trans a (step8 a x) = bstep (Tof a) (trans a x).
Proof.
  intros a x H Hx. pose proof H as [Hw Hp]. pose proof (okw_pos _ Hw) as W8. unfold bstep, Tof.
  assert (Split : exists lo, trans a (step8 a lo) = Z.shiftr (trans a x) 8 /\ reg a lo /\ x = Z.lxor (place a (Z.land (trans a x) 255)) lo).
  { unfold trans, place, step8, reg in *. destruct (be a).
    - exists (x mod 2 ^ (width a - 8)).
      pose proof (Z.pow_pos_nonneg 2 (width a - 8) ltac:(lia) ltac:(lia)) as Pw.
      assert (Ew : 2 ^ width a = 2 ^ (width a - 8) * 2 ^ 8) by (rewrite <- Z.pow_add_r by lia; f_equal; lia).
      assert (Rlo : 0 <= x mod 2 ^ (width a - 8) < 2 ^ (width a - 8)) by (apply Z.mod_pos_bound; lia).
      split; [|split].
      + change 8%nat with (Z.to_nat 8). rewrite bit_be_shift by (rewrite ?Z2Nat.id; lia). rewrite bswap_shift by assumption. f_equal.
        rewrite Z2Nat.id by lia. rewrite Ew. rewrite Z.mul_mod_distr_r by lia. reflexivity.
      + lia.
      + rewrite bswap_low by assumption. rewrite <- (Z.shiftl_mul_pow2 _ (width a - 8)) by lia. rewrite Z.lxor_comm.
        rewrite <- add_lxor; [|lia|lia|apply Z.shiftr_nonneg; lia].
        rewrite Z.shiftr_div_pow2 by lia. rewrite Z.add_comm. apply Z.div_mod. lia.
    - exists (Z.shiftl (Z.shiftr x 8) 8).
      assert (0 <= Z.shiftr x 8) by (apply Z.shiftr_nonneg; lia).
      split; [|split].
      + rewrite (Z.shiftl_mul_pow2 _ 8) by lia. change 8 with (Z.of_nat 8) at 3. apply bit_le_shift.
      + rewrite Z.shiftl_mul_pow2, Z.shiftr_div_pow2 by lia. pose proof (Z.mul_div_le x (2 ^ 8) ltac:(lia)). pose proof (Z.div_pos x (2 ^ 8)). lia.
      + rewrite <- add_lxor; [|lia|apply land255|lia]. change 255 with (Z.ones 8). rewrite Z.land_ones, Z.shiftr_div_pow2 by lia.
        rewrite Z.add_comm. apply Z.div_mod. lia. }
  destruct Split as (lo & E & Rl & Ex).
  pose proof (land255 (trans a x)) as Lb. pose proof (place_reg a _ H Lb) as Pl.
  rewrite Ex at 1. rewrite step8_linear; [|exact H|unfold reg in Pl; lia|unfold reg in Rl; lia].
  rewrite trans_lxor; [|exact H|apply step8_reg; assumption|apply step8_reg; assumption].
  rewrite E. reflexivity.
Qed.

(** ** The generated table *)
Definition row0_ok (a : alg) : bool :=
  match gen_row0 a with
  | Some row0 => (zlen row0 =? 256) && forallb (fun i => match rd row0 i with Some v => v =? step8 a (place a i) | None => false end) (zseq 0 256)
  | None => false
  end.
Lemma rows0_checked : forallb row0_ok algs = true.
Proof. vm_compute. reflexivity. Qed.
Lemma row0_spec : forall a, In a algs -> exists row0, gen_row0 a = Some row0 /\ zlen row0 = 256 /\
  forall i, byte i -> rd row0 i = Some (step8 a (place a i)).
Proof.
  intros a H. pose proof rows0_checked as C. rewrite forallb_forall in C. specialize (C a H). unfold row0_ok in C.
  destruct (gen_row0 a) as [row0|]; [|discriminate]. apply andb_prop in C. destruct C as [C1 C2].
  exists row0. split; [reflexivity|]. split; [apply Z.eqb_eq; exact C1|]. intros i Hi.
  rewrite forallb_forall in C2. unfold byte in Hi. specialize (C2 i). rewrite zseq_in in C2. specialize (C2 ltac:(lia)).
  destruct (rd row0 i); [|discriminate]. apply Z.eqb_eq in C2. congruence.
Qed.
Lemma gen_next_ok : forall a row0 x, okalg a -> (forall i, byte i -> rd row0 i = Some (step8 a (place a i))) -> reg a x ->
  gen_next a row0 x = Some (step8 a x).
Proof.
  intros a row0 x H R Hx. pose proof (step_conj a x H Hx) as S. unfold gen_next.
  pose proof H as [Hw Hp]. pose proof (okw_pos _ Hw) as W8.
  assert (Inj : forall u v, reg a u -> reg a v -> trans a u = trans a v -> u = v).
  { intros u v Hu Hv E. rewrite <- (trans_trans a u), <- (trans_trans a v), E by assumption. reflexivity. }
  unfold bstep, Tof in S. destruct (be a) eqn:Eb.
  - assert (Lb : byte (Z.shiftr x (width a - 8))).
    { rewrite <- bswap_low by assumption. apply land255. }
    rewrite land255_id by exact Lb. rewrite R by exact Lb. f_equal.
    apply Inj; [|apply step8_reg; assumption|].
    + apply reg_lxor; [assumption|apply step8_reg; [assumption|apply place_reg; assumption]|]. unfold reg. apply wrap_range. lia.
    + rewrite trans_lxor; [|assumption|apply step8_reg; [assumption|apply place_reg; assumption]|unfold reg; apply wrap_range; lia].
      rewrite S. unfold trans. rewrite Eb. rewrite bswap_low by assumption. f_equal.
      rewrite bswap_shift by assumption. unfold wrap. rewrite Z.shiftl_mul_pow2 by lia. reflexivity.
  - unfold trans in S. rewrite Eb in S. rewrite R by apply land255. rewrite S. reflexivity.
Qed.
Lemma omap_ok : forall (f : Z -> option Z) g l, (forall x, In x l -> f x = Some (g x)) -> omap f l = Some (map g l).
Proof.
  induction l as [|x l IH]; intros H; cbn [omap map]; [reflexivity|].
  rewrite H by (left; reflexivity). rewrite IH; [reflexivity|]. intros. apply H. right. assumption.
Qed.
Lemma gen_rows_ok : forall a row0, okalg a -> (forall i, byte i -> rd row0 i = Some (step8 a (place a i))) ->
  forall n row, Forall (reg a) row ->
  exists t, gen_rows a row0 n row = Some t /\ zlen t = Z.of_nat n /\
    forall r, 0 <= r < Z.of_nat n -> rd t r = Some (map (iter (Z.to_nat r) (step8 a)) row).
Proof.
  intros a row0 H R. induction n as [|n IH]; intros row F; cbn [gen_rows].
  - exists []. split; [reflexivity|]. split; [reflexivity|]. intros; lia.
  - rewrite (omap_ok _ (step8 a)).
    2:{ intros x Hx. apply gen_next_ok; [assumption|assumption|]. rewrite Forall_forall in F. auto. }
    destruct (IH (map (step8 a) row)) as (t & E & L & G).
    { rewrite Forall_forall in *. intros y Hy. apply in_map_iff in Hy. destruct Hy as (x & <- & Hx). apply step8_reg; auto. }
    rewrite E. eexists. split; [reflexivity|]. split; [rewrite zlen_cons; lia|].
    intros r Hr. destruct (Z.eq_dec r 0) as [->|Nz].
    + cbn. rewrite map_id. reflexivity.
    + unfold rd. destruct (Z.ltb_spec r 0); [lia|]. replace (Z.to_nat r) with (S (Z.to_nat (r - 1))) by lia. cbn [nth_error].
      specialize (G (r - 1) ltac:(lia)). unfold rd in G. destruct (Z.ltb_spec (r - 1) 0); [lia|]. rewrite G. f_equal.
      rewrite map_map. apply map_ext. intros x. reflexivity.
Qed.
Lemma rd_map : forall A B (f : A -> B) l i, rd (map f l) i = option_map f (rd l i).
Proof. intros. unfold rd. destruct (i <? 0); [reflexivity|]. rewrite nth_error_map. destruct (nth_error l (Z.to_nat i)); reflexivity. Qed.

Lemma conj_iter : forall a n x, okalg a -> reg a x -> trans a (iter n (step8 a) x) = iter n (bstep (Tof a)) (trans a x).
Proof.
  intros a n. induction n as [|n IH]; intros x H Hx; cbn [iter]; [reflexivity|].
  rewrite IH; [|assumption|apply step8_reg; assumption]. rewrite step_conj by assumption. reflexivity.
Qed.
(** Row [r] of the table, after conversion, applies the byte step [r + 1] times. *)
Lemma table_ok : forall a rows, In a algs -> exists t, crc_table a rows = Some t /\
  forall r i, 0 <= r < Z.of_nat rows -> byte i -> look t r i = Some (iter (S (Z.to_nat r)) (bstep (Tof a)) i).
Proof.
  intros a rows Ha. pose proof (algs_ok a Ha) as H. destruct (row0_spec a Ha) as (row0 & E0 & L0 & R0).
  assert (F : Forall (reg a) row0).
  { rewrite Forall_forall. intros x Hx. destruct (In_nth_error _ _ Hx) as [k Ek].
    assert (Hk : (k < length row0)%nat) by (apply nth_error_Some; congruence).
    assert (Bk : byte (Z.of_nat k)) by (unfold byte, zlen in *; lia).
    specialize (R0 _ Bk). unfold rd in R0. destruct (Z.ltb_spec (Z.of_nat k) 0); [lia|]. rewrite Nat2Z.id, Ek in R0.
    injection R0 as ->. apply step8_reg; [assumption|]. apply place_reg; assumption. }
  destruct (gen_rows_ok a row0 H R0 rows row0 F) as (t & Et & Lt & Gt).
  unfold crc_table. rewrite E0, Et. eexists. split; [reflexivity|].
  intros r i Hr Hi. unfold look. rewrite rd_map, Gt by exact Hr. cbn [option_map]. rewrite !rd_map, R0 by exact Hi. cbn [option_map].
  f_equal. pose proof (place_reg a i H Hi). rewrite conj_iter; [|assumption|apply step8_reg; assumption].
  cbn [iter]. rewrite step_conj by assumption. rewrite trans_place by assumption. reflexivity.
Qed.

(** ** The functions *)
Section Fn.
  Variables (a : alg) (rows : nat) (t : list (list Z)).
  Hypothesis (Ha : In a algs) (Hrows : (1 <= rows)%nat).
  Hypothesis Ht : forall r i, 0 <= r < Z.of_nat rows -> byte i -> look t r i = Some (iter (S (Z.to_nat r)) (bstep (Tof a)) i).
  Let H : okalg a := algs_ok a Ha.

  Definition fstep (c b : Z) : Z := bstep (Tof a) (Z.lxor c b).
  Lemma crc_byte_ok : forall c b, byte b -> crc_byte t c b = Some (fstep c b).
  Proof.
    intros c b Hb. unfold crc_byte, fstep. rewrite Ht by (lia || apply land255). cbn [Z.to_nat iter].
    rewrite bstep_byte by apply land255. unfold bstep. rewrite Z.shiftr_lxor, (shiftr8_byte b), Z.lxor_0_r by exact Hb. reflexivity.
  Qed.
  Lemma crc_bytes_ok : forall l c, bytes l -> crc_bytes t l c = Some (fold_left fstep l c).
  Proof.
    induction l as [|b l IH]; intros c Hl; cbn [crc_bytes fold_left]; [reflexivity|].
    inversion Hl; subst. rewrite crc_byte_ok by assumption. apply IH. assumption.
  Qed.
  Lemma fold_conj : forall l c, bytes l -> reg a c -> trans a (crc_spec a l c) = fold_left fstep l (trans a c) /\ reg a (crc_spec a l c).
  Proof.
    induction l as [|b l IH]; intros c Hl Hc; cbn [crc_spec fold_left]; [auto|].
    inversion Hl; subst. fold (crc_spec a l (byte_spec a c b)).
    pose proof (place_reg a b H H2) as Pb. assert (Rx : reg a (Z.lxor c (place a b))) by (apply reg_lxor; assumption).
    destruct (IH (byte_spec a c b)) as [E R]; [assumption|rewrite byte_spec_step; apply step8_reg; assumption|].
    split; [|exact R]. rewrite E. f_equal. rewrite byte_spec_step. rewrite step_conj by assumption. unfold fstep.
    rewrite trans_lxor, trans_place by assumption. reflexivity.
  Qed.
  Lemma crc_plain_ok : forall l c, bytes l -> reg a c -> crc_plain a t l c = Some (crc_spec a l c).
  Proof.
    intros l c Hl Hc. unfold crc_plain. rewrite crc_bytes_ok by assumption.
    destruct (fold_conj l c Hl Hc) as [E R]. rewrite <- E, trans_trans by assumption. reflexivity.
  Qed.
  Lemma crc_head_ok : forall l addr c, bytes l -> exists l1 l2, l = l1 ++ l2 /\ crc_head t addr l c = Some (l2, fold_left fstep l1 c).
  Proof.
    induction l as [|b l IH]; intros addr c Hl; cbn [crc_head].
    - exists [], []. auto.
    - destruct (Z.land addr 3 =? 0); [exists [], (b :: l); auto|].
      inversion Hl; subst. rewrite crc_byte_ok by assumption.
      destruct (IH (addr + 1) (fstep c b)) as (l1 & l2 & -> & E); [assumption|].
      exists (b :: l1), l2. auto.
  Qed.
  Hypothesis Hrows8 : rows = 8%nat.
  Hypothesis Hnarrow : width a <= 32.
  Lemma crc_slice_ok : forall c b0 b1 b2 b3 b4 b5 b6 b7, bytes [b0; b1; b2; b3; b4; b5; b6; b7] -> 0 <= c < 2 ^ 32 ->
    crc_slice t c b0 b1 b2 b3 b4 b5 b6 b7 = Some (fold_left fstep [b0; b1; b2; b3; b4; b5; b6; b7] c).
  Proof.
    intros c b0 b1 b2 b3 b4 b5 b6 b7 Hb Hc. unfold crc_slice.
    rewrite !Ht by (lia || apply land255). f_equal. symmetry. unfold fstep. apply slice8.
    - intros; apply T_linear; assumption.
    - intros x Hx. apply (T_reg a x H Hx).
    - exact Hb.
    - exact Hc.
  Qed.
  Lemma fstep_reg : forall c b, reg a c -> byte b -> reg a (fstep c b).
  Proof.
    intros c b Hc Hb. pose proof H as [Hw Hp]. pose proof (okw_pos _ Hw). unfold fstep, bstep.
    apply reg_lxor; [exact H|apply T_reg; [exact H|apply land255]|].
    assert (Rb : 0 <= b < 2 ^ width a).
    { unfold byte in Hb. split; [lia|]. apply Z.lt_le_trans with (2 ^ 8); [lia|apply Z.pow_le_mono_r; lia]. }
    assert (R : 0 <= Z.lxor c b < 2 ^ width a) by (apply lxor_range; unfold reg in *; lia).
    unfold reg. rewrite Z.shiftr_div_pow2 by lia. split; [apply Z.div_pos; lia|]. apply Z.le_lt_trans with (Z.lxor c b); [|lia]. apply Z.div_le_upper_bound; lia.
  Qed.
  Lemma fold_reg : forall l c, bytes l -> reg a c -> reg a (fold_left fstep l c).
  Proof.
    induction l as [|b l IH]; intros c Hl Hc; [exact Hc|]. assert (Hb0 := Forall_inv Hl). assert (Hl0 := Forall_inv_tail Hl). cbn [fold_left]. apply IH; [assumption|]. apply fstep_reg; assumption.
  Qed.
  Lemma reg32 : forall c, reg a c -> 0 <= c < 2 ^ 32.
  Proof. intros c Hc. unfold reg in Hc. pose proof (Z.pow_le_mono_r 2 (width a) 32). lia. Qed.
  Lemma crc_body_ok : forall n l c, (length l < n)%nat -> bytes l -> reg a c -> crc_body t l c = Some (fold_left fstep l c).
  Proof.
    induction n as [|n IH]; intros l c Hn Hl Hc; [lia|].
    destruct l as [|b0 [|b1 [|b2 [|b3 [|b4 [|b5 [|b6 [|b7 l]]]]]]]]; try (apply crc_bytes_ok; exact Hl).
    cbn [crc_body].
    assert (F8 : bytes [b0; b1; b2; b3; b4; b5; b6; b7] /\ bytes l).
    { unfold bytes in *. change (b0 :: b1 :: b2 :: b3 :: b4 :: b5 :: b6 :: b7 :: l) with ([b0; b1; b2; b3; b4; b5; b6; b7] ++ l) in Hl.
      apply Forall_app in Hl. exact Hl. }
    destruct F8 as [F8 Fl]. rewrite crc_slice_ok; [|exact F8|apply reg32; exact Hc].
    rewrite IH; [reflexivity|cbn [length] in Hn; lia|exact Fl|apply fold_reg; assumption].
  Qed.
  Lemma crc_extend_ok : forall addr l c, bytes l -> reg a c -> crc_extend a t addr l c = Some (crc_spec a l c).
  Proof.
    intros addr l c Hl Hc. unfold crc_extend.
    destruct (crc_head_ok l addr (trans a c) Hl) as (l1 & l2 & El & E). rewrite E. cbn [fst snd].
    assert (F : bytes l1 /\ bytes l2) by (rewrite El in Hl; apply Forall_app in Hl; exact Hl). destruct F as [F1 F2].
    rewrite (crc_body_ok (S (length l2))); [|lia|exact F2|apply fold_reg; [exact F1|apply trans_reg; assumption]].
    rewrite <- fold_left_app, <- El. destruct (fold_conj l c Hl Hc) as [E2 R]. rewrite <- E2, trans_trans by assumption. reflexivity.
  Qed.
End Fn.
