(** * C96 - C98: bitwise operations, shifts and single bits of multi precision integers *)
From Verif Require Import Lib MpiModel MpiSpec MpiProofs MpiProofs2 BitmapSpec MpiBitsModel MpiBitsProofs MpiBitsProofs2.
Ltac Zify.zify_post_hook ::= Z.div_mod_to_equations.

(** Limbs of the smaller operand up to which the bit count fits an unsigned int. *)
Definition bits_fit (a b : list Z) : Prop := Z.min (zlen a) (zlen b) < 2 ^ 26.

(** ** C96. The destination may be either operand, both or neither; its former content [d] and the
    content [junk] of fresh memory do not matter. *)
Theorem C96_and_partial : forall junk al d va vb, u64 junk -> Forall u64 d -> wf va -> wf vb -> (al = DestAB -> va = vb) ->
  bits_fit (limbs va) (limbs vb) ->
  exists r, bfdev_mpi_and junk al d va vb = Some r /\ canonical r /\ ival r = Z.land (val (limbs va)) (val (limbs vb)).
Proof.
  intros junk al d va vb Uj Ud [Ua _] [Ub _] AB F. unfold bfdev_mpi_and.
  destruct (mpi_and_ok junk al d (limbs va) (limbs vb)) as (r & -> & V & N); auto.
  { intros E. rewrite (AB E). reflexivity. }
  eexists. split; [reflexivity|]. split; [split; [exact N|reflexivity]|exact V].
Qed.
Theorem C96_or_partial : forall junk al d va vb, u64 junk -> Forall u64 d -> wf va -> wf vb -> (al = DestAB -> va = vb) ->
  bits_fit (limbs va) (limbs vb) ->
  exists r, bfdev_mpi_or junk al d va vb = Some r /\ canonical r /\ ival r = Z.lor (val (limbs va)) (val (limbs vb)).
Proof.
  intros junk al d va vb Uj Ud Na Nb AB F. unfold bfdev_mpi_or.
  destruct (mpi_or_ok junk al d (limbs va) (limbs vb)) as (r & -> & V & N); auto.
  { intros E. rewrite (AB E). reflexivity. }
  eexists. split; [reflexivity|]. split; [split; [exact N|reflexivity]|exact V].
Qed.
Theorem C96_xor_partial : forall junk al d va vb, u64 junk -> Forall u64 d -> wf va -> wf vb -> (al = DestAB -> va = vb) ->
  bits_fit (limbs va) (limbs vb) ->
  exists r, bfdev_mpi_xor junk al d va vb = Some r /\ canonical r /\ ival r = Z.lxor (val (limbs va)) (val (limbs vb)).
Proof.
  intros junk al d va vb Uj Ud [Ua _] [Ub _] AB F. unfold bfdev_mpi_xor.
  destruct (mpi_xor_ok junk al d (limbs va) (limbs vb)) as (r & -> & V & N); auto.
  { intros E. rewrite (AB E). reflexivity. }
  eexists. split; [reflexivity|]. split; [split; [exact N|reflexivity]|exact V].
Qed.
(** The bit operations are not those of the integers when an operand is negative: the sign is
    dropped (-1 and 2 is 0 here, 2 in two's complement). *)
Theorem C96_negative_refuted : exists va vb r, canonical va /\ canonical vb /\
  bfdev_mpi_and 0 Distinct [] va vb = Some r /\ ival r <> Z.land (ival va) (ival vb).
Proof.
  exists (Mpi [1] false), (Mpi [2] true), (Mpi [] true).
  repeat split; try (repeat constructor; unfold u64; lia); cbn; try lia; try discriminate.
Qed.
Example C96_ex : u64 7 /\ Forall u64 [9; 9] /\ wf (Mpi [6; 1] true) /\ wf (Mpi [10; 3; 5] true) /\ bits_fit [6; 1] [10; 3; 5] /\
  bfdev_mpi_and 7 Distinct [9; 9] (Mpi [6; 1] true) (Mpi [10; 3; 5] true) = Some (Mpi [2; 1] true) /\
  bfdev_mpi_and 7 DestB [9; 9] (Mpi [6; 1] true) (Mpi [9; 2; 5] true) = Some (Mpi [] true) /\
  bfdev_mpi_or 7 DestA [9; 9] (Mpi [6; 1] true) (Mpi [10; 3; 5] true) = Some (Mpi [14; 3; 5] true) /\
  bfdev_mpi_xor 7 DestB [9; 9] (Mpi [6; 3; 5] true) (Mpi [10; 3; 5] true) = Some (Mpi [12] true).
Proof.
  split; [unfold u64; lia|]. split; [repeat constructor; unfold u64; lia|].
  split; [split; [repeat constructor; unfold u64; lia|cbn; lia]|].
  split; [split; [repeat constructor; unfold u64; lia|cbn; lia]|].
  split; [unfold bits_fit, zlen; cbn; lia|]. vm_compute. auto.
Qed.

(** ** C97. Shifts, in place or into another object. *)
Theorem C97_shli_partial : forall junk own d va shift, wf va -> 0 <= shift -> zlen (limbs va) + (shift + 63) / 64 < 2 ^ 26 ->
  exists r, bfdev_mpi_shli junk own d va shift = Some r /\ wf r /\ ival r = ival va * 2 ^ shift /\
    (canonical va -> canonical r).
Proof.
  intros junk own d va shift Na Hs Hl. unfold bfdev_mpi_shli.
  destruct (mpi_shli_ok junk own d (limbs va) shift Na Hs Hl) as (r & -> & V & N).
  eexists. split; [reflexivity|]. split; [exact N|]. split.
  - unfold ival. cbn [limbs plus]. rewrite V. destruct (plus va); ring.
  - intros [_ C]. split; [exact N|]. cbn [limbs plus]. intros ->. apply C. apply normal_zero; [exact Na|].
    cbn [val] in V. pose proof (Z.pow_pos_nonneg 2 shift ltac:(lia) Hs). nia.
Qed.
(** To the right: division that truncates towards zero. *)
Theorem C97_shri_partial : forall junk own d va shift, u64 junk -> Forall u64 d -> wf va -> 0 <= shift < 2 ^ 32 -> zlen (limbs va) < 2 ^ 26 ->
  exists r, bfdev_mpi_shri junk own d va shift = Some r /\ wf r /\ ival r = Z.quot (ival va) (2 ^ shift).
Proof.
  intros junk own d va shift Uj Ud Na Hs Hl. unfold bfdev_mpi_shri.
  destruct (mpi_shri_ok junk own d (limbs va) shift Uj Ud Na Hs Hl) as (r & -> & V & N).
  eexists. split; [reflexivity|]. split; [exact N|].
  unfold ival. cbn [limbs plus]. rewrite V. pose proof (val_range _ (proj1 Na)) as R.
  pose proof (Z.pow_pos_nonneg 2 shift ltac:(lia) ltac:(lia)).
  destruct (plus va); [|rewrite Z.quot_opp_l by lia]; rewrite Z.quot_div_nonneg by lia; reflexivity.
Qed.
(** Shifting there and back gives the same object. *)
Theorem C97_roundtrip_partial : forall j1 j2 o1 o2 d1 d2 va shift, u64 j2 -> Forall u64 d2 -> wf va -> 0 <= shift ->
  zlen (limbs va) + (shift + 63) / 64 < 2 ^ 26 ->
  exists r, bfdev_mpi_shli j1 o1 d1 va shift = Some r /\ bfdev_mpi_shri j2 o2 d2 r shift = Some va.
Proof.
  intros j1 j2 o1 o2 d1 d2 va shift Uj Ud Na Hs Hl. assert (Z0 : 0 <= zlen (limbs va)) by (unfold zlen; lia).
  unfold bfdev_mpi_shli, bfdev_mpi_shri.
  destruct (mpi_shli_ok j1 o1 d1 (limbs va) shift Na Hs Hl) as (r & E & V & N). rewrite E.
  eexists. split; [reflexivity|]. cbn [limbs plus].
  assert (Lr : zlen r < 2 ^ 26).
  { destruct (Z_lt_dec (zlen r) (2 ^ 26)) as [|Q]; [assumption|exfalso].
    destruct r as [|x r']; [unfold zlen in Q; cbn in Q; lia|]. set (r := x :: r') in *.
    pose proof (normal_low r N ltac:(discriminate)) as Low. pose proof (val_range (limbs va) (proj1 Na)) as R.
    assert (BP : forall n, Bp n = 2 ^ (64 * Z.of_nat n)).
    { clear. induction n as [|n IH]; [reflexivity|]. cbn [Bp]. rewrite IH, <- Z.pow_add_r by lia. f_equal. lia. }
    rewrite BP in Low, R. rewrite V in Low.
    assert (Up : val (limbs va) * 2 ^ shift < 2 ^ (64 * zlen (limbs va)) * 2 ^ shift).
    { apply Z.mul_lt_mono_pos_r; [apply Z.pow_pos_nonneg; lia|]. apply R. }
    rewrite <- Z.pow_add_r in Up by lia.
    assert (H : 2 ^ (64 * Z.of_nat (length r - 1)) < 2 ^ (64 * zlen (limbs va) + shift)) by lia.
    apply Z.pow_lt_mono_r_iff in H; [|lia|lia]. unfold zlen in *. clear - H Q Hl Hs. lia. }
  destruct (mpi_shri_ok j2 o2 d2 r shift Uj Ud N ltac:(lia) Lr) as (q & -> & Vq & Nq).
  f_equal. destruct va as [l p]. cbn [limbs plus] in *. f_equal. apply normal_inj; [exact Nq|exact Na|].
  rewrite Vq, V. apply Z.div_mul. apply Z.pow_nonzero; lia.
Qed.
(** Large shift counts: to the right the count loses its upper half; to the left the number of
    limbs to add overflows and the result is zero. *)
Theorem C97_shri_refuted : exists va shift r, canonical va /\ u64 shift /\
  bfdev_mpi_shri 0 false [] va shift = Some r /\ ival r = ival va /\ ival va <> 0 /\ Z.quot (ival va) (2 ^ shift) = 0.
Proof.
  exists (Mpi [5] true), (2 ^ 32), (Mpi [5] true).
  split; [split; [split; [repeat constructor; unfold u64; lia|cbn; lia]|discriminate]|].
  split; [unfold u64; lia|]. split; [vm_compute; reflexivity|]. split; [reflexivity|]. split; [cbn; lia|].
  assert (Q : 2 ^ 3 <= 2 ^ (2 ^ 32)) by (apply Z.pow_le_mono_r; lia).
  replace (ival (Mpi [5] true)) with 5 by reflexivity. revert Q. generalize (2 ^ (2 ^ 32)). intros z Q.
  apply Z.quot_small. lia.
Qed.
Theorem C97_shli_refuted : exists va shift r, canonical va /\ u64 shift /\
  bfdev_mpi_shli 0 false [] va shift = Some r /\ ival r = 0 /\ ival va <> 0.
Proof.
  exists (Mpi [1] true), (2 ^ 64 - 1), (Mpi [] true).
  split; [split; [split; [repeat constructor; unfold u64; lia|cbn; lia]|discriminate]|].
  split; [unfold u64; lia|]. split; [vm_compute; reflexivity|]. split; [reflexivity|]. cbn. lia.
Qed.
(** Shifting a small negative number to the right leaves a negative zero. *)
Theorem C97_negative_zero_refuted : exists va r, canonical va /\
  bfdev_mpi_shri 0 false [] va 1 = Some r /\ ~ canonical r.
Proof.
  exists (Mpi [1] false), (Mpi [] false).
  split; [split; [split; [repeat constructor; unfold u64; lia|cbn; lia]|discriminate]|].
  split; [vm_compute; reflexivity|]. intros [_ C]. specialize (C eq_refl). discriminate.
Qed.
Example C97_ex : wf (Mpi [3; 4] false) /\ zlen [3; 4] + (130 + 63) / 64 < 2 ^ 26 /\
  bfdev_mpi_shli 7 true [] (Mpi [3; 4] false) 130 = Some (Mpi [0; 0; 12; 16] false) /\
  bfdev_mpi_shri 7 false [9] (Mpi [0; 0; 12; 16] false) 131 = Some (Mpi [1; 2] false).
Proof.
  split; [split; [repeat constructor; unfold u64; lia|cbn; lia]|]. split; [unfold zlen; cbn [length]; lia|]. vm_compute. auto.
Qed.

(** ** C98. Testing, setting and clearing one bit of the magnitude. *)
Theorem C98_btesti_partial : forall a bit, wf a -> 0 <= bit -> bit < 2 ^ 32 \/ zlen (limbs a) <= 2 ^ 26 ->
  bfdev_mpi_btesti a bit = Some (Z.testbit (val (limbs a)) bit).
Proof. intros a bit [U _]. apply btesti_ok. exact U. Qed.
Theorem C98_bseti_partial : forall a bit, wf a -> 0 <= bit < 2 ^ 32 ->
  exists r, bfdev_mpi_bseti a bit = Some r /\ wf r /\ plus r = plus a /\
    forall i, 0 <= i -> Z.testbit (val (limbs r)) i = (i =? bit) || Z.testbit (val (limbs a)) i.
Proof.
  intros a bit Na Hb. destruct (bseti_ok a bit Na Hb) as (r & E & V & P & N). exists r. split; [exact E|].
  split; [exact N|]. split; [exact P|]. intros i Hi. rewrite V, Z.setbit_eqb by lia. rewrite Z.eqb_sym. reflexivity.
Qed.
Theorem C98_bclri_partial : forall a bit, wf a -> 0 <= bit -> bit < 2 ^ 32 \/ zlen (limbs a) <= 2 ^ 26 ->
  exists r, bfdev_mpi_bclri a bit = Some r /\ wf r /\ plus r = plus a /\
    forall i, 0 <= i -> Z.testbit (val (limbs r)) i = negb (i =? bit) && Z.testbit (val (limbs a)) i.
Proof.
  intros a bit Na Hb Hl. destruct (bclri_ok a bit Na Hb Hl) as (r & E & V & P & N). exists r. split; [exact E|].
  split; [exact N|]. split; [exact P|]. intros i Hi. rewrite V, Z.clearbit_eqb. rewrite Z.eqb_sym, andb_comm. reflexivity.
Qed.
(** Setting the same bit brings the old number back when it was set, clearing it when it was not. *)
Theorem C98_restore_partial : forall a bit, wf a -> 0 <= bit < 2 ^ 32 ->
  exists r, (if Z.testbit (val (limbs a)) bit then bfdev_mpi_bclri a bit else bfdev_mpi_bseti a bit) = Some r /\
    (zlen (limbs r) <= 2 ^ 26 -> (if Z.testbit (val (limbs a)) bit then bfdev_mpi_bseti r bit else bfdev_mpi_bclri r bit) = Some a).
Proof.
  intros a bit Na Hb. destruct (Z.testbit (val (limbs a)) bit) eqn:T.
  - destruct (bclri_ok a bit Na ltac:(lia) ltac:(lia)) as (r & E & V & P & N). exists r. split; [exact E|]. intros _.
    destruct (bseti_ok r bit N Hb) as (q & Eq & Vq & Pq & Nq). rewrite Eq. f_equal.
    destruct a as [l p], q as [l' p']. cbn [limbs plus] in *. f_equal; [|congruence]. apply normal_inj; [exact Nq|exact Na|].
    rewrite Vq, V. apply Z.bits_inj'. intros i Hi. rewrite Z.setbit_eqb, Z.clearbit_eqb by lia.
    destruct (Z.eqb_spec bit i) as [-> |]; [rewrite T; reflexivity|]. rewrite andb_true_r. reflexivity.
  - destruct (bseti_ok a bit Na Hb) as (r & E & V & P & N). exists r. split; [exact E|]. intros L.
    destruct (bclri_ok r bit N ltac:(lia) ltac:(lia)) as (q & Eq & Vq & Pq & Nq). rewrite Eq. f_equal.
    destruct a as [l p], q as [l' p']. cbn [limbs plus] in *. f_equal; [|congruence]. apply normal_inj; [exact Nq|exact Na|].
    rewrite Vq, V. apply Z.bits_inj'. intros i Hi. rewrite Z.clearbit_eqb, Z.setbit_eqb by lia.
    destruct (Z.eqb_spec bit i) as [-> |]; [rewrite T; reflexivity|]. rewrite andb_true_r. reflexivity.
Qed.
Lemma bseti_wraps : forall n, (Z.to_nat (2 ^ 32 / 64 + 1) = S n)%nat -> n <> O ->
  bfdev_mpi_bseti (Mpi [] true) (2 ^ 32) = Some (Mpi (1 :: repeat 0 n) true) /\
  val (1 :: repeat 0 n) = 1 /\ ~ wf (Mpi (1 :: repeat 0 n) true).
Proof.
  intros n E Nn. unfold bfdev_mpi_bseti. cbn [limbs plus length]. rewrite E.
  assert (W : w32 (2 ^ 32) / 64 = 0) by reflexivity. rewrite W. cbn [app repeat Nat.sub]. clear E.
  split; [reflexivity|]. split.
  - cbn [val]. replace (val (repeat 0 n)) with 0; [lia|]. clear. induction n as [|n IH]; cbn [repeat val]; lia.
  - unfold wf. cbn [limbs]. intros [_ H]. apply H. destruct n as [|k]; [congruence|]. clear.
    replace (repeat 0 (S k)) with (repeat 0 k ++ [0]) by (symmetry; apply repeat_cons). rewrite app_comm_cons. apply last_last.
Qed.
(** A bit number of 2^32 or more sets another bit. *)
Theorem C98_bseti_refuted : exists a bit r, canonical a /\ u64 bit /\
  bfdev_mpi_bseti a bit = Some r /\ Z.testbit (val (limbs r)) bit = false /\ Z.testbit (val (limbs r)) 0 = true /\ ~ wf r.
Proof.
  assert (X : exists n, Z.to_nat (2 ^ 32 / 64 + 1) = S n /\ n <> O).
  { exists (Z.to_nat (2 ^ 32 / 64)). lia. }
  destruct X as (n & En & Nn). destruct (bseti_wraps n En Nn) as (E & V & W).
  exists (Mpi [] true), (2 ^ 32), (Mpi (1 :: repeat 0 n) true).
  split; [split; [split; [constructor|cbn; lia]|reflexivity]|]. split; [unfold u64; lia|].
  split; [exact E|]. change (limbs (Mpi (1 :: repeat 0 n) true)) with (1 :: repeat 0 n). rewrite V.
  split; [change 1 with (2 ^ 0); rewrite Z.pow2_bits_eqb by lia; apply Z.eqb_neq; lia|].
  split; [reflexivity|exact W].
Qed.
Example C98_ex : wf (Mpi [3; 4] false) /\
  bfdev_mpi_btesti (Mpi [3; 4] false) 66 = Some true /\
  bfdev_mpi_bseti (Mpi [3; 4] false) 200 = Some (Mpi [3; 4; 0; 256] false) /\
  bfdev_mpi_bclri (Mpi [3; 4; 0; 256] false) 200 = Some (Mpi [3; 4] false) /\
  bfdev_mpi_bclri (Mpi [3; 4] false) 66 = Some (Mpi [3] false).
Proof. split; [split; [repeat constructor; unfold u64; lia|cbn; lia]|]. vm_compute. auto. Qed.

Print Assumptions C96_and_partial.
Print Assumptions C96_or_partial.
Print Assumptions C96_xor_partial.
Print Assumptions C96_negative_refuted.
Print Assumptions C97_shli_partial.
Print Assumptions C97_shri_partial.
Print Assumptions C97_roundtrip_partial.
Print Assumptions C97_shri_refuted.
Print Assumptions C97_shli_refuted.
Print Assumptions C97_negative_zero_refuted.
Print Assumptions C98_btesti_partial.
Print Assumptions C98_bseti_partial.
Print Assumptions C98_bclri_partial.
Print Assumptions C98_restore_partial.
Print Assumptions C98_bseti_refuted.
