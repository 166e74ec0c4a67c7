(** * In-place swaps: the claims *)
From Verif Require Import Lib BitsModel BitsSpec BitsProofs BitsProps ByteorderModel ByteorderSpec ByteorderProofs ByteorderProps SwabMemModel SwabMemSpec.

Ltac Zify.zify_post_hook ::= Z.div_mod_to_equations.

Lemma op_width_ok : forall op, width (op_width op) /\ op_width op / 8 = op_bytes op.
Proof. intros []; split; unfold width, op_width, op_bytes; try reflexivity; lia. Qed.

Lemma even_mod : forall k, Z.even k = (k mod 2 =? 0).
Proof. intros k. rewrite Zmod_even. destruct (Z.even k); reflexivity. Qed.

Ltac cases_below k n :=
  match n with
  | 0 => exfalso; lia
  | _ => let n' := eval compute in (n - 1) in
         destruct (Z.eq_dec k n') as [->|]; [|cases_below k n']
  end.

(** bytes of the value, from the bit permutations of C15 *)
Lemma value_byte : forall w sigma f tau n, w = 8 * n -> permutes w sigma f ->
  (forall k j, 0 <= k < n -> 0 <= j < 8 -> sigma (8 * k + j) = 8 * tau k + j /\ 0 <= tau k) ->
  forall v k, 0 <= v < 2 ^ w -> 0 <= k < n -> byte_of (f v) k = byte_of v (tau k).
Proof.
  intros w sigma f tau n Hw P T v k Hv Hk. destruct (P v Hv) as [R B].
  apply (word_ext 8); try apply byte_of_range. intros j Hj.
  destruct (T k j Hk Hj) as [E N]. rewrite !byte_of_bit by lia. rewrite B by lia. rewrite E. reflexivity.
Qed.

Lemma op_value_ok : forall op v, 0 <= v < 2 ^ op_width op ->
  0 <= op_value op v < 2 ^ op_width op /\
  forall k, 0 <= k < op_bytes op -> byte_of (op_value op v) k = byte_of v (origin op k).
Proof.
  intros op v Hv. destruct C15_swab as (P1 & P2 & P3). destruct C15_swah as (Q1 & Q2 & Q3 & Q4 & Q5).
  destruct op; cbn [op_width op_value] in *; (split; [match goal with P : permutes _ _ ?f |- 0 <= ?f _ < _ => exact (proj1 (P v Hv)) end|]);
  intros k Hk; cbn [op_bytes] in Hk;
  (match goal with P : permutes ?w ?s ?f |- byte_of (?f _) _ = byte_of _ (origin ?o _) =>
     apply (value_byte w s f (origin o) (w / 8) eq_refl P); [|exact Hv|cbv; exact Hk || (change (w / 8) with (op_bytes o); exact Hk)] end);
  clear; intros k j Hk Hj; unfold byte_rev, origin; try rewrite even_mod; try destruct (Z.eqb_spec (k mod 2) 0); lia.
Qed.

Lemma origin_ok : forall op k, 0 <= k < op_bytes op ->
  0 <= origin op k < op_bytes op /\ origin op (origin op k) = k /\
  origin op (op_bytes op - 1 - k) = op_bytes op - 1 - origin op k.
Proof.
  intros op k Hk. destruct op; cbn [op_bytes] in *.
  1: cases_below k 2; repeat split; vm_compute; congruence.
  1,3,4: cases_below k 4; repeat split; vm_compute; congruence.
  all: cases_below k 8; repeat split; vm_compute; congruence.
Qed.

Definition good_arch (arch : option hook) : Prop := match arch with None => True | Some h => word_swap_hook h end.

Lemma swap_generic : forall big op m p, bytes m -> 0 <= p -> p + op_bytes op <= zlen m ->
  exists m', (let* v := swap_p big op m p in set_type big (op_width op) m p v) = Some m' /\ rearranged op m m' p.
Proof.
  intros big op m p B Hp Hl. destruct (op_width_ok op) as [W N].
  destruct (get_type_some big (op_width op) m p W B Hp ltac:(lia)) as (v & G & Rv & H).
  destruct (op_value_ok op v Rv) as [Ro Bo].
  destruct (set_type_ok big (op_width op) m p (op_value op v) W Hp ltac:(lia)) as (m' & E & H' & L & O').
  rewrite Z.mod_small in H' by exact Ro. rewrite N in *.
  exists m'. unfold swap_p. rewrite G. split; [exact E|]. split; [exact L|]. split; [|exact O'].
  intros k Hk. destruct (origin_ok op k Hk) as (R0 & _ & C).
  destruct big; cbn [holds_host] in *.
  - rewrite (H' k Hk), (H (origin op k) R0). rewrite Bo by lia. rewrite C. reflexivity.
  - rewrite (H' k Hk), (H (origin op k) R0). rewrite Bo by lia. reflexivity.
Qed.

(** ** C137 *)
(** Whatever the byte order of the processor, an in-place swap rearranges the bytes of the
    object the way its name says and touches no other byte. *)
Theorem C137_in_place_partial : forall arch big op m p, good_arch arch -> arch = None \/ op <> Swahl64 ->
  bytes m -> 0 <= p -> p + op_bytes op <= zlen m ->
  exists m', swap_s arch big op m p = Some m' /\ rearranged op m m' p.
Proof.
  intros arch big op m p A X B Hp Hl. destruct (swap_generic big op m p B Hp Hl) as (m' & E & R).
  destruct arch as [h|].
  - destruct op; try (exists m'; split; [exact E|exact R]).
    + exact (A m p B Hp Hl).
    + exfalso. destruct X as [X|X]; [discriminate|congruence].
  - exists m'. split; [|exact R]. unfold swap_s. destruct op; exact E.
Qed.

(** An architecture that supplies [bfdev_arch_swahw64s], correctly, turns [bfdev_swahl64s] into
    a word swap (swab.h:505 tests the wrong name). *)
Theorem C137_hook_refuted : exists h big m p m', word_swap_hook h /\ bytes m /\ 0 <= p /\ p + 8 <= zlen m /\
  swap_s (Some h) big Swahl64 m p = Some m' /\ ~ rearranged Swahl64 m m' p.
Proof.
  exists (swap_s None false Swahw64), false, [0; 1; 2; 3; 4; 5; 6; 7], 0, [2; 3; 0; 1; 6; 7; 4; 5].
  split. { intros m p B Hp Hl. exact (swap_generic false Swahw64 m p B Hp Hl). }
  split. { repeat constructor; unfold byte; lia. }
  split; [lia|]. split; [vm_compute; congruence|]. split; [vm_compute; reflexivity|].
  intros (_ & K & _). specialize (K 0 ltac:(cbn [op_bytes]; lia)). vm_compute in K. discriminate.
Qed.

Lemma rearranged_bytes : forall op m m' p, bytes m -> 0 <= p -> p + op_bytes op <= zlen m -> rearranged op m m' p ->
  bytes m' /\ zlen m' = zlen m.
Proof.
  intros op m m' p B Hp Hl (L & K & F). split; [|unfold zlen; lia].
  unfold bytes in *. rewrite Forall_forall in *. intros x Hx. apply In_nth_error in Hx. destruct Hx as [i Hi].
  assert (Hr : rd m' (Z.of_nat i) = Some x).
  { unfold rd. replace (Z.of_nat i <? 0) with false by (symmetry; apply Z.ltb_ge; lia). rewrite Nat2Z.id. exact Hi. }
  destruct (Z_le_dec p (Z.of_nat i)) as [C1|C1]; [destruct (Z_lt_dec (Z.of_nat i) (p + op_bytes op)) as [C2|C2]|].
  - replace (Z.of_nat i) with (p + (Z.of_nat i - p)) in Hr by lia. rewrite K in Hr by lia. apply rd_in in Hr. auto.
  - rewrite F in Hr by lia. apply rd_in in Hr. auto.
  - rewrite F in Hr by lia. apply rd_in in Hr. auto.
Qed.

(** The same operation again restores the memory. *)
Theorem C137_twice : forall big op m p, bytes m -> 0 <= p -> p + op_bytes op <= zlen m ->
  swap_all None big [op; op] m p = Some m.
Proof.
  intros big op m p B Hp Hl.
  destruct (C137_in_place_partial None big op m p Logic.I (or_introl eq_refl) B Hp Hl) as (m1 & E1 & R1).
  destruct (rearranged_bytes op m m1 p B Hp Hl R1) as [B1 Z1].
  destruct (C137_in_place_partial None big op m1 p Logic.I (or_introl eq_refl) B1 Hp ltac:(lia)) as (m2 & E2 & R2).
  cbn [swap_all]. rewrite E1, E2. f_equal. apply rd_ext. intros i.
  destruct R1 as (L1 & K1 & F1), R2 as (L2 & K2 & F2).
  destruct (Z_le_dec p i) as [C1|C1]; [destruct (Z_lt_dec i (p + op_bytes op)) as [C2|C2]|].
  - destruct (origin_ok op (i - p) ltac:(lia)) as (R0 & I0 & _).
    replace i with (p + (i - p)) by lia. rewrite K2 by lia. rewrite K1 by lia. rewrite I0. reflexivity.
  - rewrite F2, F1 by lia. reflexivity.
  - rewrite F2, F1 by lia. reflexivity.
Qed.

(** The pointer forms return what the in-place forms store, and leave memory alone. *)
Theorem C137_pointer : forall big op m p, bytes m -> 0 <= p -> p + op_bytes op <= zlen m ->
  exists v m', swap_p big op m p = Some v /\ swap_s None big op m p = Some m' /\
    get_type big (op_width op) m' p = Some v.
Proof.
  intros big op m p B Hp Hl. destruct (op_width_ok op) as [W N].
  destruct (get_type_some big (op_width op) m p W B Hp ltac:(lia)) as (v & G & Rv & H).
  destruct (op_value_ok op v Rv) as [Ro _].
  destruct (C101_native big (op_width op) m p (op_value op v) W Hp ltac:(lia)) as (m' & E & G' & _).
  rewrite Z.mod_small in G' by exact Ro.
  assert (P : swap_p big op m p = Some (op_value op v)) by (unfold swap_p; rewrite G; reflexivity).
  exists (op_value op v), m'. split; [exact P|]. split; [|exact G'].
  unfold swap_s. rewrite P. destruct op; exact E.
Qed.

(** Swapping bytes, words and longs one after the other is the byte swap. *)
Lemma all_one : forall big op ops m p, bytes m -> 0 <= p -> p + op_bytes op <= zlen m ->
  exists m', swap_all None big (op :: ops) m p = swap_all None big ops m' p /\ rearranged op m m' p /\
    bytes m' /\ zlen m' = zlen m.
Proof.
  intros big op ops m p B Hp Hl.
  destruct (C137_in_place_partial None big op m p Logic.I (or_introl eq_refl) B Hp Hl) as (m1 & E1 & R1).
  destruct (rearranged_bytes op m m1 p B Hp Hl R1) as [B1 Z1].
  exists m1. split; [cbn [swap_all]; rewrite E1; reflexivity|]. split; [exact R1|]. split; assumption.
Qed.

Theorem C137_compose32 : forall big m p, bytes m -> 0 <= p -> p + 4 <= zlen m ->
  exists m', swap_s None big Swab32 m p = Some m' /\
    swap_all None big [Swahb32; Swahw32] m p = Some m' /\ swap_all None big [Swahw32; Swahb32] m p = Some m'.
Proof.
  intros big m p B Hp Hl.
  destruct (C137_in_place_partial None big Swab32 m p Logic.I (or_introl eq_refl) B Hp Hl) as (m' & E & L & K & F).
  exists m'. split; [exact E|].
  destruct (all_one big Swahb32 [Swahw32] m p B Hp Hl) as (m1 & E1 & R1 & B1 & Z1).
  destruct (all_one big Swahw32 [] m1 p B1 Hp ltac:(cbn [op_bytes]; lia)) as (m2 & E2 & R2 & B2 & Z2).
  destruct (all_one big Swahw32 [Swahb32] m p B Hp Hl) as (n1 & E3 & R3 & B3 & Z3).
  destruct (all_one big Swahb32 [] n1 p B3 Hp ltac:(cbn [op_bytes]; lia)) as (n2 & E4 & R4 & B4 & Z4).
  rewrite E1, E2, E3, E4. cbn [swap_all].
  destruct R1 as (_ & K1 & F1), R2 as (_ & K2 & F2), R3 as (_ & K3 & F3), R4 as (_ & K4 & F4).
  cbn [op_bytes] in *.
  split; f_equal; apply rd_ext; intros i;
    (destruct (Z_le_dec p i) as [C1|C1]; [destruct (Z_lt_dec i (p + 4)) as [C2|C2]|]).
  - pose proof (origin_ok Swahw32 (i - p)) as T. cbn [op_bytes] in T. specialize (T ltac:(lia)).
    replace i with (p + (i - p)) by lia. rewrite K, K2 by lia. rewrite K1 by lia. f_equal. f_equal.
    assert (Q : 0 <= i - p < 4) by lia. remember (i - p) as k. clear - Q. cases_below k 4; reflexivity.
  - rewrite F2, F1, F by lia. reflexivity.
  - rewrite F2, F1, F by lia. reflexivity.
  - pose proof (origin_ok Swahb32 (i - p)) as T. cbn [op_bytes] in T. specialize (T ltac:(lia)).
    replace i with (p + (i - p)) by lia. rewrite K, K4 by lia. rewrite K3 by lia. f_equal. f_equal.
    assert (Q : 0 <= i - p < 4) by lia. remember (i - p) as k. clear - Q. cases_below k 4; reflexivity.
  - rewrite F4, F3, F by lia. reflexivity.
  - rewrite F4, F3, F by lia. reflexivity.
Qed.

Theorem C137_compose64 : forall big m p, bytes m -> 0 <= p -> p + 8 <= zlen m ->
  exists m', swap_s None big Swab64 m p = Some m' /\ swap_all None big [Swahb64; Swahw64; Swahl64] m p = Some m'.
Proof.
  intros big m p B Hp Hl.
  destruct (C137_in_place_partial None big Swab64 m p Logic.I (or_introl eq_refl) B Hp Hl) as (m' & E & L & K & F).
  exists m'. split; [exact E|].
  destruct (all_one big Swahb64 [Swahw64; Swahl64] m p B Hp Hl) as (m1 & E1 & R1 & B1 & Z1).
  destruct (all_one big Swahw64 [Swahl64] m1 p B1 Hp ltac:(cbn [op_bytes]; lia)) as (m2 & E2 & R2 & B2 & Z2).
  destruct (all_one big Swahl64 [] m2 p B2 Hp ltac:(cbn [op_bytes]; lia)) as (m3 & E3 & R3 & B3 & Z3).
  rewrite E1, E2, E3. cbn [swap_all].
  destruct R1 as (_ & K1 & F1), R2 as (_ & K2 & F2), R3 as (_ & K3 & F3). cbn [op_bytes] in *.
  f_equal. apply rd_ext. intros i.
  destruct (Z_le_dec p i) as [C1|C1]; [destruct (Z_lt_dec i (p + 8)) as [C2|C2]|].
  - pose proof (origin_ok Swahl64 (i - p)) as T. cbn [op_bytes] in T. specialize (T ltac:(lia)).
    pose proof (origin_ok Swahw64 (origin Swahl64 (i - p))) as T2. cbn [op_bytes] in T2. specialize (T2 ltac:(lia)).
    replace i with (p + (i - p)) by lia. rewrite K, K3 by lia. rewrite K2 by lia. rewrite K1 by lia. f_equal. f_equal.
    assert (Q : 0 <= i - p < 8) by lia. remember (i - p) as k. clear - Q. cases_below k 8; reflexivity.
  - rewrite F3, F2, F1, F by lia. reflexivity.
  - rewrite F3, F2, F1, F by lia. reflexivity.
Qed.

(** An array of objects: each object is rearranged in its own place. *)
Theorem C137_array : forall big op n m p, bytes m -> 0 <= p -> p + op_bytes op * Z.of_nat n <= zlen m ->
  exists m', swap_run big op m p n = Some m' /\ length m' = length m /\
    (forall q k, 0 <= q < Z.of_nat n -> 0 <= k < op_bytes op ->
      rd m' (p + op_bytes op * q + k) = rd m (p + op_bytes op * q + origin op k)) /\
    (forall i, ~ (p <= i < p + op_bytes op * Z.of_nat n) -> rd m' i = rd m i).
Proof.
  intros big op. assert (S8 : 2 <= op_bytes op) by (destruct op; cbn [op_bytes]; lia).
  destruct (op_width_ok op) as [_ N].
  induction n as [|n IH]; intros m p B Hp Hl.
  - exists m. split; [reflexivity|]. split; [reflexivity|]. split; [intros; lia|reflexivity].
  - assert (Hl1 : p + op_bytes op <= zlen m) by nia.
    destruct (C137_in_place_partial None big op m p Logic.I (or_introl eq_refl) B Hp Hl1) as (m1 & E1 & R1).
    destruct (rearranged_bytes op m m1 p B Hp Hl1 R1) as [B1 Z1].
    destruct (IH m1 (p + op_bytes op) B1 ltac:(lia) ltac:(nia)) as (m' & E & L & K & F).
    destruct R1 as (L1 & K1 & F1).
    exists m'. cbn [swap_run]. rewrite E1, N. split; [exact E|]. split; [congruence|]. split.
    + intros q k Hq Hk. destruct (origin_ok op k Hk) as (R0 & _).
      destruct (Z.eq_dec q 0) as [->|Q].
      * rewrite Z.mul_0_r, Z.add_0_r. rewrite F by lia. apply K1; lia.
      * replace (p + op_bytes op * q + k) with (p + op_bytes op + op_bytes op * (q - 1) + k) by ring.
        rewrite K by lia. rewrite F1 by nia. f_equal. ring.
    + intros i Hi. rewrite F by nia. rewrite F1 by nia. reflexivity.
Qed.

(** an object with memory around it, on both processors *)
Example C137_ex : bytes [9; 1; 2; 3; 4; 5; 6; 7; 8; 9] /\
  swap_s None false Swahb64 [9; 1; 2; 3; 4; 5; 6; 7; 8; 9] 1 = Some [9; 2; 1; 4; 3; 6; 5; 8; 7; 9] /\
  swap_s None true Swahl64 [9; 1; 2; 3; 4; 5; 6; 7; 8; 9] 1 = Some [9; 5; 6; 7; 8; 1; 2; 3; 4; 9] /\
  swap_p true Swab32 [9; 1; 2; 3; 4; 5] 1 = Some 0x04030201 /\
  swap_run true Swahw32 [9; 1; 2; 3; 4; 5; 6; 7; 8; 9] 1 2 = Some [9; 3; 4; 1; 2; 7; 8; 5; 6; 9] /\
  good_arch (Some (swap_s None true Swahw64)).
Proof.
  split. { repeat constructor; unfold byte; lia. }
  do 4 (split; [vm_compute; reflexivity|]).
  intros m p B Hp Hl. exact (swap_generic true Swahw64 m p B Hp Hl).
Qed.

Print Assumptions C137_in_place_partial.
Print Assumptions C137_hook_refuted.
Print Assumptions C137_twice.
Print Assumptions C137_pointer.
Print Assumptions C137_compose32.
Print Assumptions C137_compose64.
Print Assumptions C137_array.
