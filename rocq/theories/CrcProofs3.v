(** * The bit-serial register holds a polynomial remainder *)
From Verif Require Import Lib BitsModel BitsSpec BitsProofs CrcModel CrcSpec CrcProofs CrcProofs2.
Ltac Zify.zify_post_hook ::= Z.div_mod_to_equations.

Lemma shl1 : forall x, 2 * x = Z.shiftl x 1.
Proof. intros. rewrite Z.shiftl_mul_pow2 by lia. lia. Qed.
Lemma lxor_double : forall x y, 2 * Z.lxor x y = Z.lxor (2 * x) (2 * y).
Proof. intros. rewrite !shl1. apply Z.shiftl_lxor. Qed.
Lemma times_lxor : forall q r p, exists s, Z.lxor (times q p) (times r p) = times s p.
Proof.
  induction q as [|b q IH]; intros r p.
  - exists r. cbn [times]. apply Z.lxor_0_l.
  - destruct r as [|c r]; [exists (b :: q); cbn [times]; apply Z.lxor_0_r|].
    destruct (IH r p) as (s & E). exists (xorb b c :: s). cbn [times]. rewrite lxor4, <- lxor_double, E. f_equal.
    destruct b, c; cbn [xorb]; rewrite ?Z.lxor_nilpotent, ?Z.lxor_0_l, ?Z.lxor_0_r; reflexivity.
Qed.
Lemma cong_refl : forall p x, congruent p x x.
Proof. intros. exists []. apply Z.lxor_nilpotent. Qed.
Lemma cong_trans : forall p x y z, congruent p x y -> congruent p y z -> congruent p x z.
Proof.
  intros p x y z [q E] [r F]. destruct (times_lxor q r p) as (s & G). exists s. rewrite <- G, <- E, <- F.
  rewrite Z.lxor_assoc, lxor_self_r. reflexivity.
Qed.
Lemma cong_sym : forall p x y, congruent p x y -> congruent p y x.
Proof. intros p x y [q E]. exists q. rewrite Z.lxor_comm. exact E. Qed.
Lemma cong_double : forall p x y, congruent p x y -> congruent p (2 * x) (2 * y).
Proof. intros p x y [q E]. exists (false :: q). cbn [times]. rewrite <- lxor_double, E, Z.lxor_0_l. reflexivity. Qed.
Lemma cong_pow : forall p n x y, congruent p x y -> congruent p (x * 2 ^ Z.of_nat n) (y * 2 ^ Z.of_nat n).
Proof.
  intros p n x y H. induction n as [|n IH]; [rewrite !Z.mul_1_r; exact H|].
  rewrite Nat2Z.inj_succ, Z.pow_succ_r by lia. apply cong_double in IH.
  replace (x * (2 * 2 ^ Z.of_nat n)) with (2 * (x * 2 ^ Z.of_nat n)) by lia.
  replace (y * (2 * 2 ^ Z.of_nat n)) with (2 * (y * 2 ^ Z.of_nat n)) by lia. exact IH.
Qed.
Lemma cong_lxor : forall p x y z, congruent p x y -> congruent p (Z.lxor x z) (Z.lxor y z).
Proof. intros p x y z [q E]. exists q. rewrite <- E, lxor4, Z.lxor_nilpotent, Z.lxor_0_r. reflexivity. Qed.

(** One step of the register multiplies by x modulo x^w + poly. *)
Lemma bit_be_cong : forall w p r, 0 < w -> 0 <= p < 2 ^ w -> 0 <= r < 2 ^ w -> congruent (2 ^ w + p) (bit_be w p r) (2 * r).
Proof.
  intros w p r Hw Hp Hr. exists [Z.testbit r (w - 1)]. cbn [times]. rewrite Z.mul_0_r, Z.lxor_0_r.
  assert (E : 2 * r = Z.lxor ((2 * r) mod 2 ^ w) (if Z.testbit r (w - 1) then 2 ^ w else 0)).
  { assert (T : Z.testbit r (w - 1) = (2 ^ (w - 1) <=? r)).
    { destruct (Z.leb_spec (2 ^ (w - 1)) r).
      - assert (E : Z.b2z (Z.testbit r (w - 1)) = (r / 2 ^ (w - 1)) mod 2) by (apply Z.testbit_spec'; lia).
        assert (r / 2 ^ (w - 1) = 1).
        { symmetry. apply (Z.div_unique r _ 1 (r - 2 ^ (w - 1))); [|lia]. left. replace w with (1 + (w - 1)) in Hr at 1 by lia. rewrite Z.pow_add_r in Hr by lia. lia. }
        rewrite H0 in E. destruct (Z.testbit r (w - 1)); [reflexivity|discriminate].
      - apply testbit_small with (n := w - 1); lia. }
    rewrite T. assert (Ew : 2 ^ w = 2 * 2 ^ (w - 1)) by (rewrite <- Z.pow_succ_r by lia; f_equal; lia).
    destruct (Z.leb_spec (2 ^ (w - 1)) r).
    - assert (Em : (2 * r) mod 2 ^ w = 2 * r - 2 ^ w) by (symmetry; apply (Z.mod_unique _ _ 1); lia). rewrite Em.
      replace (2 ^ w) with (Z.shiftl 1 w) at 2 by (rewrite Z.shiftl_mul_pow2 by lia; lia). rewrite <- (add_lxor w) by lia. lia.
    - rewrite Z.mod_small by lia. rewrite Z.lxor_0_r. reflexivity. }
  unfold bit_be. rewrite E at 2. destruct (Z.testbit r (w - 1)).
  - rewrite lxor4, Z.lxor_nilpotent, Z.lxor_0_l. rewrite Z.lxor_comm.
    rewrite Z.lxor_comm. replace (2 ^ w) with (Z.shiftl 1 w) at 1 by (rewrite Z.shiftl_mul_pow2 by lia; lia). rewrite <- (add_lxor w) by lia. lia.
  - rewrite !Z.lxor_0_r. apply Z.lxor_nilpotent.
Qed.
Lemma iter_be_cong : forall n w p r, 0 < w -> 0 <= p < 2 ^ w -> 0 <= r < 2 ^ w ->
  congruent (2 ^ w + p) (iter n (bit_be w p) r) (r * 2 ^ Z.of_nat n).
Proof.
  induction n as [|n IH]; intros w p r Hw Hp Hr; cbn [iter]; [rewrite Z.mul_1_r; apply cong_refl|].
  pose proof (bit_be_range w p r Hw Hp) as Rb.
  eapply cong_trans; [apply IH; assumption|]. rewrite Nat2Z.inj_succ, Z.pow_succ_r by lia.
  replace (r * (2 * 2 ^ Z.of_nat n)) with (2 * r * 2 ^ Z.of_nat n) by lia. apply cong_pow. apply bit_be_cong; assumption.
Qed.
Lemma message_app : forall l m, fold_left (fun m b => m * 256 + b) l m = m * 2 ^ (8 * zlen l) + message l.
Proof.
  induction l as [|b l IH]; intros m; cbn [fold_left]; [unfold message; cbn; lia|].
  rewrite IH. unfold message. cbn [fold_left]. rewrite (IH (0 * 256 + b)), zlen_cons. pose proof (zlen_nonneg _ l).
  replace (8 * (zlen l + 1)) with (8 + 8 * zlen l) by lia. rewrite Z.pow_add_r by lia. fold (message l). lia.
Qed.
Lemma message_range : forall l, bytes l -> 0 <= message l < 2 ^ (8 * zlen l).
Proof.
  induction l as [|b l IH]; intros H; [cbn; lia|].
  assert (Hb := Forall_inv H). specialize (IH (Forall_inv_tail H)). unfold byte in Hb.
  unfold message. cbn [fold_left]. rewrite message_app, zlen_cons. pose proof (zlen_nonneg _ l).
  replace (8 * (zlen l + 1)) with (8 + 8 * zlen l) by lia. rewrite Z.pow_add_r by lia. nia.
Qed.
Lemma message_cons : forall b l, bytes (b :: l) -> message (b :: l) = Z.lxor (b * 2 ^ (8 * zlen l)) (message l).
Proof.
  intros b l H. assert (Hb := Forall_inv H). pose proof (message_range l (Forall_inv_tail H)). unfold byte in Hb. pose proof (zlen_nonneg _ l).
  unfold message at 1. cbn [fold_left]. rewrite message_app. rewrite (Z.lxor_comm (b * _)). change (0 * 256 + b) with b. rewrite <- !(Z.shiftl_mul_pow2 b) by lia. rewrite <- add_lxor by lia. rewrite Z.shiftl_mul_pow2 by lia. lia.
Qed.
Lemma shl_lxor : forall n x y, 0 <= n -> Z.lxor x y * 2 ^ n = Z.lxor (x * 2 ^ n) (y * 2 ^ n).
Proof. intros. rewrite <- !Z.shiftl_mul_pow2 by lia. apply Z.shiftl_lxor. Qed.

Lemma be_remainder : forall a, be a = true -> okalg a -> forall l c, bytes l -> reg a c ->
  reg a (crc_spec a l c) /\
  congruent (2 ^ width a + poly a) (crc_spec a l c) (Z.lxor (c * 2 ^ (8 * zlen l)) (message l * 2 ^ width a)).
Proof.
  intros a Eb H l. pose proof H as [Hw Hp]. pose proof (okw_pos _ Hw) as W8.
  induction l as [|b l IH]; intros c Hl Hc.
  - cbn [crc_spec fold_left]. split; [exact Hc|]. cbn. rewrite Z.mul_1_r, Z.lxor_0_r. apply cong_refl.
  - assert (Hb := Forall_inv Hl). assert (Hl' := Forall_inv_tail Hl).
    pose proof (place_reg a b H Hb) as Pb. assert (Rx : reg a (Z.lxor c (place a b))) by (apply reg_lxor; assumption).
    assert (Rs : reg a (byte_spec a c b)) by (rewrite byte_spec_step; apply step8_reg; assumption).
    destruct (IH (byte_spec a c b) Hl' Rs) as [R E]. split; [exact R|].
    change (crc_spec a (b :: l) c) with (crc_spec a l (byte_spec a c b)).
    eapply cong_trans; [exact E|]. pose proof (zlen_nonneg _ l).
    assert (S8 : congruent (2 ^ width a + poly a) (byte_spec a c b) (Z.lxor c (place a b) * 2 ^ 8)).
    { rewrite byte_spec_step. unfold step8. rewrite Eb. apply (iter_be_cong 8); [lia|assumption|exact Rx]. }
    apply (cong_pow _ (Z.to_nat (8 * zlen l))) in S8. rewrite Z2Nat.id in S8 by lia.
    eapply cong_trans; [apply cong_lxor; exact S8|].
    rewrite message_cons, !shl_lxor by (assumption || lia). rewrite zlen_cons.
    replace (c * 2 ^ 8 * 2 ^ (8 * zlen l)) with (c * 2 ^ (8 * (zlen l + 1))).
    2:{ rewrite <- Z.mul_assoc, <- Z.pow_add_r by lia. f_equal. f_equal. lia. }
    replace (place a b * 2 ^ 8 * 2 ^ (8 * zlen l)) with (b * 2 ^ (8 * zlen l) * 2 ^ width a).
    2:{ unfold place. rewrite Eb. rewrite <- !Z.mul_assoc, <- !Z.pow_add_r by lia. f_equal. f_equal. lia. }
    rewrite Z.lxor_assoc. apply cong_refl.
Qed.

(** ** Reflected algorithms *)
Lemma reflect_bits : forall n x i, 0 <= i -> Z.testbit (reflect n x) i = (i <? Z.of_nat n) && Z.testbit x (Z.of_nat n - 1 - i)
  /\ 0 <= reflect n x < 2 ^ Z.of_nat n.
Proof.
  induction n as [|n IH]; intros x i Hi.
  - cbn [reflect]. rewrite Z.bits_0. destruct (Z.ltb_spec i (Z.of_nat 0)); [lia|]. split; [reflexivity|]. cbn. lia.
  - cbn [reflect]. destruct (IH (x / 2) i Hi) as [B R].
    pose proof (Z.pow_pos_nonneg 2 (Z.of_nat n) ltac:(lia) ltac:(lia)).
    assert (M : 0 <= x mod 2 < 2) by (apply Z.mod_pos_bound; lia).
    split; [|rewrite Nat2Z.inj_succ, Z.pow_succ_r by lia; nia].
    rewrite Z.add_comm, add_lxor by lia. rewrite Z.lxor_spec, B, Z.shiftl_spec by lia.
    destruct (Z.ltb_spec i (Z.of_nat n)), (Z.ltb_spec i (Z.of_nat (S n))); try lia; cbn [andb].
    + rewrite (Z.testbit_neg_r (x mod 2)) by lia. rewrite xorb_false_r. rewrite <- Z.div2_div, Z.div2_spec, Z.shiftr_spec by lia. f_equal. lia.
    + replace i with (Z.of_nat n) by lia. replace (Z.of_nat (S n) - 1 - Z.of_nat n) with 0 by lia. rewrite Z.sub_diag.
      rewrite xorb_false_l. change 2 with (2 ^ 1). rewrite Z.mod_pow2_bits_low by lia. reflexivity.
    + rewrite xorb_false_l. destruct (Z.eq_dec i (Z.of_nat n)); [lia|].
      apply testbit_small with (n := 1); lia.
Qed.
Lemma reflect_range : forall n x, 0 <= reflect n x < 2 ^ Z.of_nat n.
Proof. intros. apply (reflect_bits n x 0). lia. Qed.
Lemma reflect_tb : forall n x i, 0 <= i < Z.of_nat n -> Z.testbit (reflect n x) i = Z.testbit x (Z.of_nat n - 1 - i).
Proof. intros n x i Hi. destruct (reflect_bits n x i ltac:(lia)) as [-> _]. destruct (Z.ltb_spec i (Z.of_nat n)); [reflexivity|lia]. Qed.
Lemma reflect_lxor : forall n x y, reflect n (Z.lxor x y) = Z.lxor (reflect n x) (reflect n y).
Proof.
  intros. pose proof (reflect_range n x). pose proof (reflect_range n y).
  apply (word_ext (Z.of_nat n)); [apply reflect_range|apply lxor_range; lia|]. intros i Hi.
  rewrite Z.lxor_spec, !reflect_tb, Z.lxor_spec by lia. reflexivity.
Qed.
Lemma reflect_twice : forall n x, 0 <= x < 2 ^ Z.of_nat n -> reflect n (reflect n x) = x.
Proof.
  intros n x Hx. apply (word_ext (Z.of_nat n)); [apply reflect_range|exact Hx|]. intros i Hi. rewrite !reflect_tb by lia. f_equal. lia.
Qed.
Lemma reflect_step : forall w p x, (0 < w)%nat -> 0 <= p < 2 ^ Z.of_nat w -> 0 <= x < 2 ^ Z.of_nat w ->
  reflect w (bit_le p x) = bit_be (Z.of_nat w) (reflect w p) (reflect w x).
Proof.
  intros w p x Hw Hp Hx. pose proof (bit_le_range (Z.of_nat w) p x ltac:(lia) Hp Hx).
  apply (word_ext (Z.of_nat w)); [apply reflect_range|apply bit_be_range; [lia|apply reflect_range]|].
  intros i Hi. rewrite reflect_tb, bit_be_bits by lia.
  destruct (Z.ltb_spec i (Z.of_nat w)); [|lia]. cbn [andb].
  rewrite (reflect_tb w x (Z.of_nat w - 1)) by lia. replace (Z.of_nat w - 1 - (Z.of_nat w - 1)) with 0 by lia.
  rewrite (reflect_tb w p i) by lia. unfold bit_le. rewrite Z.lxor_spec. f_equal.
  - rewrite <- Z.div2_div, Z.div2_spec, Z.shiftr_spec by lia. rewrite shl1, Z.shiftl_spec by lia.
    destruct (Z.eq_dec i 0) as [->|Nz].
    + rewrite (Z.testbit_neg_r _ (0 - 1)) by lia. apply testbit_small with (n := Z.of_nat w); lia.
    + rewrite reflect_tb by lia. f_equal. lia.
  - rewrite <- Z.bit0_odd. destruct (Z.testbit x 0); [reflexivity|apply Z.bits_0].
Qed.
Lemma reflect_iter : forall n w p x, (0 < w)%nat -> 0 <= p < 2 ^ Z.of_nat w -> 0 <= x < 2 ^ Z.of_nat w ->
  reflect w (iter n (bit_le p) x) = iter n (bit_be (Z.of_nat w) (reflect w p)) (reflect w x).
Proof.
  induction n as [|n IH]; intros w p x Hw Hp Hx; cbn [iter]; [reflexivity|].
  rewrite IH; [|assumption|assumption|apply bit_le_range; assumption || lia]. rewrite reflect_step by assumption. reflexivity.
Qed.
Lemma reflect_byte : forall w b, (8 <= w)%nat -> byte b -> reflect w b = reflect 8 b * 2 ^ (Z.of_nat w - 8).
Proof.
  intros w b Hw Hb. pose proof (reflect_range 8 b) as R8. change (Z.of_nat 8) with 8 in R8. unfold byte in Hb.
  assert (R : 0 <= reflect 8 b * 2 ^ (Z.of_nat w - 8) < 2 ^ Z.of_nat w).
  { pose proof (Z.pow_pos_nonneg 2 (Z.of_nat w - 8) ltac:(lia) ltac:(lia)).
    replace (Z.of_nat w) with (8 + (Z.of_nat w - 8)) at 3 by lia. rewrite Z.pow_add_r by lia. nia. }
  apply (word_ext (Z.of_nat w)); [apply reflect_range|exact R|]. intros i Hi.
  rewrite reflect_tb by lia. rewrite <- Z.shiftl_mul_pow2, Z.shiftl_spec by lia.
  destruct (Z.lt_ge_cases i (Z.of_nat w - 8)).
  - rewrite (Z.testbit_neg_r _ (i - _)) by lia. apply testbit_small with (n := 8); lia.
  - rewrite reflect_tb by lia. f_equal. lia.
Qed.
Lemma crc_spec_cons : forall a b l c, crc_spec a (b :: l) c = crc_spec a l (byte_spec a c b).
Proof. reflexivity. Qed.
Definition mirror (a : alg) : alg := Alg (width a) (reflect (Z.to_nat (width a)) (poly a)) true.
Lemma le_mirror : forall a, be a = false -> okalg a -> forall l c, bytes l -> reg a c ->
  reflect (Z.to_nat (width a)) (crc_spec a l c) = crc_spec (mirror a) (map (reflect 8) l) (reflect (Z.to_nat (width a)) c).
Proof.
  intros a Eb H l. pose proof H as [Hw Hp]. pose proof (okw_pos _ Hw) as W8.
  set (w := Z.to_nat (width a)). assert (Ew : Z.of_nat w = width a) by (unfold w; lia).
  induction l as [|b l IH]; intros c Hl Hc; [reflexivity|].
  assert (Hb := Forall_inv Hl). assert (Hl' := Forall_inv_tail Hl).
  pose proof (place_reg a b H Hb) as Pb. assert (Rx : reg a (Z.lxor c (place a b))) by (apply reg_lxor; assumption).
  change (crc_spec a (b :: l) c) with (crc_spec a l (byte_spec a c b)).
  rewrite IH; [|assumption|rewrite byte_spec_step; apply step8_reg; assumption].
  cbn [map]. rewrite crc_spec_cons.
  f_equal. unfold byte_spec, mirror. cbn [be width poly]. rewrite Eb. unfold place in *. rewrite Eb in *.
  rewrite <- Ew. rewrite reflect_iter; [|lia|rewrite Ew; exact Hp|rewrite Ew; exact Rx].
  rewrite reflect_lxor, (reflect_byte w b) by (lia || assumption). fold w. rewrite Ew. fold w. reflexivity.
Qed.
