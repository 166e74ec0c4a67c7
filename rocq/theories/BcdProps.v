(** * Properties of the BCD conversions (C05)

    The quantifier ranges over all bytes; the proofs check every one of them. *)
From Verif Require Import Lib BcdModel.

(** Specification: the BCD byte of a two-digit number. *)
Definition bcd_of (tens units : Z) : Z := 16 * tens + units.
Definition valid_bcd (b : Z) : Prop := exists t u, 0 <= t <= 9 /\ 0 <= u <= 9 /\ b = bcd_of t u.

Lemma digits : forall v, 0 <= v < 100 -> 0 <= v / 10 <= 9 /\ 0 <= v mod 10 <= 9 /\ v = 10 * (v / 10) + v mod 10.
Proof.
  intros v H. pose proof (Z.div_mod v 10 ltac:(lia)). pose proof (Z.mod_pos_bound v 10 ltac:(lia)).
  lia.
Qed.

(** C05. Both implementations of bin2bcd give tens and units, for every value below 100. *)
Theorem bin2bcd_correct : forall t u, 0 <= t <= 9 -> 0 <= u <= 9 ->
  bin2bcd_dynamic (10 * t + u) = bcd_of t u /\ bin2bcd_const (10 * t + u) = bcd_of t u.
Proof.
  assert (H : all_below 10 (fun t => all_below 10 (fun u =>
     (bin2bcd_dynamic (10 * t + u) =? bcd_of t u) && (bin2bcd_const (10 * t + u) =? bcd_of t u))) = true)
    by (vm_compute; reflexivity).
  intros t u Ht Hu.
  pose proof (all_below2_spec 10 10 _ H t u ltac:(lia) ltac:(lia)) as E.
  apply andb_true_iff in E as [E1 E2]. apply Z.eqb_eq in E1, E2. auto.
Qed.
Print Assumptions bin2bcd_correct.
Example bin2bcd_correct_ex : bin2bcd_dynamic 42 = 66 /\ bin2bcd_const 42 = 66.
Proof. split; vm_compute; reflexivity. Qed.

(** C05. Both implementations of bcd2bin invert it. *)
Theorem bcd2bin_correct : forall t u, 0 <= t <= 9 -> 0 <= u <= 9 ->
  bcd2bin_dynamic (bcd_of t u) = 10 * t + u /\ bcd2bin_const (bcd_of t u) = 10 * t + u.
Proof.
  assert (H : all_below 10 (fun t => all_below 10 (fun u =>
     (bcd2bin_dynamic (bcd_of t u) =? 10 * t + u) && (bcd2bin_const (bcd_of t u) =? 10 * t + u))) = true)
    by (vm_compute; reflexivity).
  intros t u Ht Hu.
  pose proof (all_below2_spec 10 10 _ H t u ltac:(lia) ltac:(lia)) as E.
  apply andb_true_iff in E as [E1 E2]. apply Z.eqb_eq in E1, E2. auto.
Qed.
Print Assumptions bcd2bin_correct.
Example bcd2bin_correct_ex : bcd2bin_dynamic 66 = 42 /\ bcd2bin_const 66 = 42.
Proof. split; vm_compute; reflexivity. Qed.

(** C05. Round trip in both directions. *)
Theorem bcd_roundtrip : forall v, 0 <= v < 100 ->
  bcd2bin_dynamic (bin2bcd_dynamic v) = v /\ bcd2bin_const (bin2bcd_const v) = v.
Proof.
  intros v Hv. destruct (digits v Hv) as (Ht & Hu & Ev).
  destruct (bin2bcd_correct _ _ Ht Hu) as [A B].
  destruct (bcd2bin_correct _ _ Ht Hu) as [C D].
  rewrite <- Ev in A, B, C, D. rewrite A, B. auto.
Qed.
Print Assumptions bcd_roundtrip.

(** C05. Table lookup flags exactly the bytes outside the domain with 0xff. *)
Theorem bcd_tables_flag_invalid : forall b, 0 <= b < 256 ->
  (bcd2bin_dynamic b = 255 <-> ~ valid_bcd b) /\ (bin2bcd_dynamic b = 255 <-> ~ b < 100).
Proof.
  assert (H : all_below 256 (fun b =>
     eqb (bcd2bin_dynamic b =? 255) (negb ((b / 16 <? 10) && (b mod 16 <? 10))) &&
     eqb (bin2bcd_dynamic b =? 255) (negb (b <? 100))) = true) by (vm_compute; reflexivity).
  intros b Hb. pose proof (all_below_spec 256 _ H b Hb) as E. cbv beta in E. clear H.
  apply andb_true_iff in E as [E1 E2]. apply eqb_prop in E1, E2.
  pose proof (Z.div_mod b 16 ltac:(lia)) as DM. pose proof (Z.mod_pos_bound b 16 ltac:(lia)) as MB.
  assert (V : valid_bcd b <-> b / 16 < 10 /\ b mod 16 < 10).
  { split.
    - intros (t & u & Ht & Hu & ->). unfold bcd_of.
      replace (16 * t + u) with (u + t * 16) by lia.
      rewrite Z.div_add, Z.mod_add, Z.div_small, Z.mod_small by lia. lia.
    - intros [A B]. exists (b / 16), (b mod 16). unfold bcd_of.
      pose proof (Z.div_pos b 16). lia. }
  rewrite V. destruct (Z.eqb_spec (bcd2bin_dynamic b) 255), (Z.eqb_spec (bin2bcd_dynamic b) 255),
    (Z.ltb_spec (b / 16) 10), (Z.ltb_spec (b mod 16) 10), (Z.ltb_spec b 100); cbn in E1, E2;
    try discriminate; split; split; intros; lia.
Qed.
Print Assumptions bcd_tables_flag_invalid.
Example bcd_tables_flag_invalid_ex : bcd2bin_dynamic 26 = 255 /\ bin2bcd_dynamic 100 = 255 /\ bcd2bin_dynamic 25 = 19.
Proof. repeat split; vm_compute; reflexivity. Qed.
