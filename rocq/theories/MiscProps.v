(** * C71, C72, C73, C74: error pointers, circular buffer arithmetic, string hash, string difference *)
From Verif Require Import Lib BitsModel BitsProofs MiscModel.
Ltac Zify.zify_post_hook ::= Z.div_mod_to_equations.

(** ** C71 *)
(** every int survives the trip through a pointer *)
Theorem C71_roundtrip : forall e, - 2 ^ 31 <= e < 2 ^ 31 -> u64 (err_ptr e) /\ ptr_err (err_ptr e) = e.
Proof.
  intros e H. split; [apply w64_range|]. unfold ptr_err, err_ptr, to_int, w64.
  assert (E : (e mod 2 ^ 64) mod 2 ^ 32 = if e <? 0 then e + 2 ^ 32 else e). { destruct (Z.ltb_spec e 0); lia. }
  rewrite E. destruct (Z.ltb_spec e 0).
  - destruct (Z.ltb_spec (e + 2 ^ 32) (2 ^ 31)); lia.
  - destruct (Z.ltb_spec e (2 ^ 31)); lia.
Qed.
(** a pointer is recognised exactly when it encodes a number in -4096..-1; no other pointer is, in particular not NULL *)
Theorem C71_is_err : forall p, u64 p -> (is_err p = true <-> exists e, - ERRNO_MAX <= e <= -1 /\ p = err_ptr e).
Proof.
  intros p H. unfold u64 in H. unfold is_err. rewrite Z.leb_le. unfold err_ptr, w64, ERRNO_MAX. change ((- (4096)) mod 2 ^ 64) with (2 ^ 64 - 4096). split.
  - intros L. exists (p - 2 ^ 64). split; [lia|]. symmetry. rewrite <- (Z.mod_add _ 1) by lia. replace (p - 2 ^ 64 + 1 * 2 ^ 64) with p by lia. apply Z.mod_small. lia.
  - intros (e & R & ->). lia.
Qed.
Theorem C71_zero_forms : forall p, u64 p ->
  (forall e, - ERRNO_MAX <= e <= -1 -> p = err_ptr e -> ptr_err_zero p = e /\ ptr_inval_zero p = e /\ is_inval p = true) /\
  (p = 0 -> ptr_err_zero p = 0 /\ ptr_inval_zero p = -1 /\ is_err p = false /\ is_inval p = true) /\
  (0 < p < 2 ^ 64 - ERRNO_MAX -> ptr_err_zero p = 0 /\ ptr_inval_zero p = 0 /\ is_err p = false /\ is_inval p = false).
Proof.
  intros p H. split; [|split].
  - intros e R E. assert (I : is_err p = true) by (apply C71_is_err; [exact H|exists e; split; assumption]). unfold ERRNO_MAX in R. destruct (C71_roundtrip e) as [_ X]; [lia|]. rewrite <- E in X.
    unfold ptr_err_zero, ptr_inval_zero, is_inval, ptr_inval. rewrite I, X, orb_true_r. destruct (Z.eqb_spec e 0); [lia|]. repeat split.
  - intros ->. repeat split.
  - intros R. unfold ERRNO_MAX in R. assert (I : is_err p = false). { unfold is_err, w64, ERRNO_MAX. apply Z.leb_gt. change ((- (4096)) mod 2 ^ 64) with (2 ^ 64 - 4096). lia. }
    unfold ptr_err_zero, ptr_inval_zero, is_inval. rewrite I. destruct (Z.eqb_spec p 0); [lia|]. repeat split.
Qed.
Example C71_ex : err_ptr (-12) = 2 ^ 64 - 12 /\ is_err (err_ptr (-12)) = true /\ is_err (2 ^ 64 - 4097) = false /\ is_err (err_ptr (-4096)) = true /\ ptr_err (err_ptr (-12)) = -12.
Proof. vm_compute. repeat split. Qed.

(** ** C72 *)
(** a ring of 2^k slots holds [cnt] elements: [head] is [cnt] ahead of [tail], counters run freely and wrap at 2^64 *)
Lemma mask_mod : forall x k, 0 <= k < 64 -> Z.land (w64 x) (w64 (2 ^ k - 1)) = x mod 2 ^ k.
Proof.
  intros x k H. assert (0 < 2 ^ k) by (apply Z.pow_pos_nonneg; lia). assert (2 ^ k < 2 ^ 64) by (apply Z.pow_lt_mono_r; lia). rewrite (w64_small (2 ^ k - 1)) by (unfold u64; lia). rewrite (land_ones' _ _ k) by (rewrite ?Z.ones_equiv; lia).
  unfold w64. replace (2 ^ 64) with (2 ^ k * 2 ^ (64 - k)). 2:{ rewrite <- Z.pow_add_r by lia. f_equal. lia. }
  assert (0 < 2 ^ (64 - k)) by (apply Z.pow_pos_nonneg; lia). rewrite Z.rem_mul_r by lia. rewrite Z.mul_comm, Z.mod_add by lia. apply Z.mod_mod. lia.
Qed.
Theorem C72_count_space : forall k tail cnt, 0 <= k < 64 -> 0 <= cnt < 2 ^ k -> u64 tail ->
  let head := w64 (tail + cnt) in
  circle_cnt head tail (2 ^ k) = cnt /\ circle_space head tail (2 ^ k) = 2 ^ k - 1 - cnt.
Proof.
  intros k tail cnt Hk Hc Ht head. unfold circle_cnt, circle_space, head. rewrite !mask_mod by lia.
  assert (D : exists q, 2 ^ 64 = 2 ^ k * q). { exists (2 ^ (64 - k)). rewrite <- Z.pow_add_r by lia. f_equal. lia. }
  destruct D as [q D]. assert (P : 0 < 2 ^ k) by lia.
  assert (M : forall x, exists z, w64 x = x + 2 ^ k * z). { intros x. exists (- (q * (x / 2 ^ 64))). unfold w64. rewrite Z.mod_eq by lia. generalize (x / 2 ^ 64). intros y. rewrite D. ring. }
  destruct (M (tail + cnt)) as (z1 & E1). rewrite E1. destruct (M (tail + cnt + 2 ^ k * z1 + 1)) as (z2 & E2). rewrite E2. split.
  - replace (tail + cnt + 2 ^ k * z1 - tail) with (cnt + z1 * 2 ^ k) by lia. rewrite Z.mod_add by lia. apply Z.mod_small. lia.
  - replace (tail - (tail + cnt + 2 ^ k * z1 + 1 + 2 ^ k * z2)) with ((2 ^ k - 1 - cnt) + (- z1 - z2 - 1) * 2 ^ k) by lia. rewrite Z.mod_add by lia. apply Z.mod_small. lia.
Qed.
(** with both counters inside the ring, the count up to the end is the number of elements before the end of the array *)
Theorem C72_count_end_partial : forall k tail cnt, 0 <= k < 64 -> 0 <= cnt < 2 ^ k -> 0 <= tail < 2 ^ k ->
  circle_cnt_end ((tail + cnt) mod 2 ^ k) tail (2 ^ k) = Z.min cnt (2 ^ k - tail).
Proof.
  intros k tail cnt Hk Hc Ht. unfold circle_cnt_end. assert (2 ^ k < 2 ^ 64) by (apply Z.pow_lt_mono_r; lia). rewrite (w64_small (2 ^ k - tail)) by (unfold u64; lia). rewrite mask_mod by lia.
  assert (E : ((tail + cnt) mod 2 ^ k + (2 ^ k - tail)) mod 2 ^ k = cnt). { rewrite Zplus_mod_idemp_l. replace (tail + cnt + (2 ^ k - tail)) with (cnt + 1 * 2 ^ k) by lia. rewrite Z.mod_add by lia. apply Z.mod_small. lia. }
  rewrite E. destruct (Z.ltb_spec cnt (2 ^ k - tail)); lia.
Qed.
(** for counters that run freely, as count and space allow, the count up to the end is wrong *)
Theorem C72_count_end_refuted : exists k tail cnt, 0 <= k < 64 /\ 0 <= cnt < 2 ^ k /\ u64 tail /\
  circle_cnt_end (w64 (tail + cnt)) tail (2 ^ k) <> Z.min cnt (2 ^ k - tail mod 2 ^ k).
Proof. exists 4, 30, 5. split; [lia|]. split; [lia|]. split; [unfold u64; lia|]. vm_compute. discriminate. Qed.
Example C72_ex : circle_cnt 3 (2 ^ 64 - 2) 16 = 5 /\ circle_space 3 (2 ^ 64 - 2) 16 = 10 /\ circle_cnt_end 3 14 16 = 2.
Proof. vm_compute. repeat split. Qed.

(** ** C73 *)
Definition terminated (s : list Z) : Prop := In 0 s.
Lemma nibble_mask : w64 (Z.shiftl 0xf (32 - 4)) = Z.shiftl (Z.ones 4) 28.
Proof. reflexivity. Qed.
Lemma pjw_step_u64 : forall h c, u64 (pjw_step h c).
Proof.
  intros h c. unfold pjw_step. set (x := w64 (w64 (Z.shiftl h 4) + c)). assert (U : 0 <= x < 2 ^ 64) by apply w64_range. set (v := Z.land x (w64 (Z.shiftl 15 (32 - 4)))).
  assert (V : 0 <= v < 2 ^ 32). { apply land_range_r; [lia|]. vm_compute. split; [discriminate|reflexivity]. }
  destruct (v =? 0); [exact U|]. apply lxor_range; [lia| |]; [apply lxor_range; [lia|exact U|]|lia].
  rewrite Z.shiftr_div_pow2 by lia. split; [apply Z.div_pos; lia|]. apply Z.div_lt_upper_bound; lia.
Qed.
Lemma pjw_step_nibble : forall h c i, 28 <= i < 32 -> Z.testbit (pjw_step h c) i = false.
Proof.
  intros h c i Hi. unfold pjw_step. set (x := w64 (w64 (Z.shiftl h 4) + c)). rewrite nibble_mask.
  assert (B : forall j, 0 <= j -> Z.testbit (Z.land x (Z.shiftl (Z.ones 4) 28)) j = Z.testbit x j && ((28 <=? j) && (j <? 32))).
  { intros j Hj. rewrite Z.land_spec, Z.shiftl_spec by lia. f_equal. destruct (Z.leb_spec 28 j); [|rewrite Z.testbit_neg_r by lia; reflexivity].
    destruct (Z.ltb_spec j 32); [rewrite Z.ones_spec_low by lia; reflexivity|rewrite Z.ones_spec_high by lia; reflexivity]. }
  destruct (Z.eqb_spec (Z.land x (Z.shiftl (Z.ones 4) 28)) 0) as [E|E].
  - specialize (B i). rewrite E, Z.bits_0 in B. specialize (B ltac:(lia)). destruct (Z.leb_spec 28 i); [|lia]. destruct (Z.ltb_spec i 32); [|lia]. cbn [andb] in B. rewrite andb_true_r in B. symmetry. exact B.
  - rewrite !Z.lxor_spec, Z.shiftr_spec, !B by lia. destruct (Z.leb_spec 28 i); [|lia]. destruct (Z.ltb_spec i 32); [|lia]. destruct (Z.ltb_spec (i + (32 - 8)) 32); [lia|]. rewrite !andb_false_r, andb_true_r, xorb_false_r. apply xorb_nilpotent.
Qed.
(** for every string: the hash is a 64-bit word whose bits 28..31 are clear, and it depends on the characters before the terminating 0 only *)
Theorem C73_nibble : forall s rest, ~ In 0 s -> exists h, pjwhash (s ++ 0 :: rest) = Some h /\ u64 h /\ forall i, 28 <= i < 32 -> Z.testbit h i = false.
Proof.
  intros s rest. unfold pjwhash.
  assert (G : forall s h, u64 h /\ (forall i, 28 <= i < 32 -> Z.testbit h i = false) -> ~ In 0 s -> exists h', pjw_loop (s ++ 0 :: rest) h = Some h' /\ u64 h' /\ forall i, 28 <= i < 32 -> Z.testbit h' i = false).
  { clear s. induction s as [|c s IH]; intros h H N; cbn [app pjw_loop].
    - exists h. split; [reflexivity|exact H].
    - destruct (Z.eqb_spec c 0) as [->|NZ]; [exfalso; apply N; left; reflexivity|]. apply IH; [split; [apply pjw_step_u64|apply pjw_step_nibble]|intros X; apply N; right; exact X]. }
  intros N. apply G; [|exact N]. split; [unfold u64; lia|]. intros i _. apply Z.bits_0.
Qed.
Theorem C73_local : forall s rest rest', ~ In 0 s -> pjwhash (s ++ 0 :: rest) = pjwhash (s ++ 0 :: rest').
Proof.
  intros s rest rest'. unfold pjwhash. assert (G : forall s h, ~ In 0 s -> pjw_loop (s ++ 0 :: rest) h = pjw_loop (s ++ 0 :: rest') h); [clear s|apply G]. induction s as [|c s IH]; intros h N; cbn [app pjw_loop]; [reflexivity|].
  destruct (Z.eqb_spec c 0) as [->|NZ]; [exfalso; apply N; left; reflexivity|]. apply IH. intros X; apply N; right; exact X.
Qed.
(** strings of at most six 7-bit characters: the hash is the number with these "digits" to the base 16, so it is below 2^28 *)
Theorem C73_short_partial : forall s rest, Forall (fun c => 0 < c < 128) s -> (length s <= 6)%nat ->
  pjwhash (s ++ 0 :: rest) = Some (fold_left (fun h c => 16 * h + c) s 0) /\ 0 <= fold_left (fun h c => 16 * h + c) s 0 < 2 ^ 28.
Proof.
  intros s rest. unfold pjwhash.
  assert (G : forall s k h, Forall (fun c => 0 < c < 128) s -> (length s <= k)%nat -> (k <= 6)%nat -> 0 <= h <= 127 * ((16 ^ (6 - Z.of_nat k) - 1) / 15) ->
    pjw_loop (s ++ 0 :: rest) h = Some (fold_left (fun h c => 16 * h + c) s h) /\ 0 <= fold_left (fun h c => 16 * h + c) s h < 2 ^ 28).
  { clear s. induction s as [|c s IH]; intros k h F L K6 H; cbn [app pjw_loop fold_left].
    - split; [reflexivity|]. assert (X : 16 ^ (6 - Z.of_nat k) <= 16 ^ 6) by (apply Z.pow_le_mono_r; lia). assert (Y : (16 ^ (6 - Z.of_nat k) - 1) / 15 <= (16 ^ 6 - 1) / 15) by (apply Z.div_le_mono; lia).
      change ((16 ^ 6 - 1) / 15) with 1118481 in Y. lia.
    - inversion F as [|? ? F1 F2]; subst. cbn [length] in L. destruct k as [|k]; [lia|]. destruct (Z.eqb_spec c 0); [lia|].
      assert (P : 16 ^ (6 - Z.of_nat k) = 16 * 16 ^ (6 - Z.of_nat (S k))). { replace (6 - Z.of_nat k) with (Z.succ (6 - Z.of_nat (S k))) by lia. apply Z.pow_succ_r. lia. }
      assert (P1 : 16 ^ (6 - Z.of_nat (S k)) mod 15 = 1). { assert (C : 6 - Z.of_nat (S k) = 0 \/ 6 - Z.of_nat (S k) = 1 \/ 6 - Z.of_nat (S k) = 2 \/ 6 - Z.of_nat (S k) = 3 \/ 6 - Z.of_nat (S k) = 4 \/ 6 - Z.of_nat (S k) = 5) by lia. repeat destruct C as [C|C]; rewrite C; reflexivity. }
      assert (Q : (16 ^ (6 - Z.of_nat k) - 1) / 15 = 16 * ((16 ^ (6 - Z.of_nat (S k)) - 1) / 15) + 1). { rewrite P. lia. }
      assert (X : 16 ^ (6 - Z.of_nat k) <= 16 ^ 6) by (apply Z.pow_le_mono_r; lia). assert (Y : (16 ^ (6 - Z.of_nat k) - 1) / 15 <= (16 ^ 6 - 1) / 15) by (apply Z.div_le_mono; lia). change ((16 ^ 6 - 1) / 15) with 1118481 in Y.
      assert (ST : pjw_step h c = 16 * h + c).
      { unfold pjw_step. rewrite Z.shiftl_mul_pow2 by lia. change (2 ^ 4) with 16. rewrite (w64_small (h * 16)) by (unfold u64; lia). rewrite w64_small by (unfold u64; lia). rewrite nibble_mask.
        assert (Z0 : Z.land (h * 16 + c) (Z.shiftl (Z.ones 4) 28) = 0).
        { apply Z.bits_inj'. intros i Hi. rewrite Z.bits_0, Z.land_spec. destruct (Z.lt_ge_cases i 28).
          - rewrite Z.shiftl_spec, (Z.testbit_neg_r _ (i - 28)) by lia. apply andb_false_r.
          - rewrite (testbit_small (h * 16 + c) 28) by lia. reflexivity. }
        rewrite Z0. cbn [Z.eqb]. lia. }
      rewrite ST. apply (IH k); [exact F2|lia|lia|]. rewrite Q. lia. }
  intros F L. apply (G s 6%nat 0); [exact F|exact L|lia|]. change ((16 ^ (6 - Z.of_nat 6) - 1) / 15) with 0. lia.
Qed.
(** the claim is false in general: 7-bit characters suffice to reach 2^32 and more, and so does one character outside ASCII (its value is negative) *)
Theorem C73_refuted : exists s h, Forall (fun c => 0 < c < 128) s /\ pjwhash (s ++ [0]) = Some h /\ 2 ^ 32 <= h.
Proof. exists [8; 120; 120; 120; 120; 120; 127; 127]. eexists. split; [repeat constructor; lia|]. split; [vm_compute; reflexivity|]. vm_compute. discriminate. Qed.
Theorem C73_signed_refuted : exists s h, Forall (fun c => -128 <= c < 128) s /\ length s = 1%nat /\ pjwhash (s ++ [0]) = Some h /\ 2 ^ 32 <= h.
Proof. exists [-61]. eexists. split; [repeat constructor; lia|]. split; [reflexivity|]. split; [vm_compute; reflexivity|]. vm_compute. discriminate. Qed.
Example C73_ex : pjwhash [104; 101; 108; 108; 111; 0] = Some 7258927 /\ pjwhash [104; 101; 108; 108; 111; 32; 119; 111; 114; 108; 100; 0] = Some 18131988.
Proof. vm_compute. repeat split. Qed.

(** ** C74 *)
(** [memdiff] over [size] bytes: NULL exactly when all bytes equal c, else the first byte that differs *)
Theorem C74_memdiff : forall a c size, bytes a -> (size <= length a)%nat ->
  exists r, memdiff a c size = Some r /\
    match r with
    | None => forall i x, 0 <= i < Z.of_nat size -> rd a i = Some x -> x = w8 c
    | Some p => 0 <= p < Z.of_nat size /\ (exists x, rd a p = Some x /\ x <> w8 c) /\ forall i x, 0 <= i < p -> rd a i = Some x -> x = w8 c
    end.
Proof.
  intros a c size B L. unfold memdiff.
  assert (G : forall n a pos, (n <= length a)%nat -> 0 <= pos -> exists r, memdiff_loop a (w8 c) n pos = Some r /\
    match r with
    | None => forall i x, 0 <= i < Z.of_nat n -> rd a i = Some x -> x = w8 c
    | Some p => 0 <= p - pos < Z.of_nat n /\ (exists x, rd a (p - pos) = Some x /\ x <> w8 c) /\ forall i x, 0 <= i < p - pos -> rd a i = Some x -> x = w8 c
    end).
  { clear. induction n as [|n IH]; intros a pos L P; cbn [memdiff_loop]. { exists None. split; [reflexivity|]. intros i x H. lia. }
    destruct a as [|y a]; [cbn in L; lia|]. cbn [length] in L.
    assert (RS : forall i, 0 < i -> rd (y :: a) i = rd a (i - 1)). { intros i Hi. unfold rd. destruct (Z.ltb_spec i 0); [lia|]. destruct (Z.ltb_spec (i - 1) 0); [lia|]. replace (Z.to_nat i) with (S (Z.to_nat (i - 1))) by lia. reflexivity. }
    destruct (Z.eqb_spec y (w8 c)) as [E|E]; cbn [negb].
    - destruct (IH a (pos + 1)) as (r & R & S1); [lia|lia|]. exists r. split; [exact R|]. destruct r as [p|].
      + destruct S1 as (H1 & (x & H2 & H3) & H4). split; [lia|]. split.
        * exists x. rewrite RS by lia. replace (p - pos - 1) with (p - (pos + 1)) by lia. split; assumption.
        * intros i z Hi Ez. destruct (Z.eq_dec i 0) as [->|]; [cbn in Ez; injection Ez as <-; exact E|]. rewrite RS in Ez by lia. apply (H4 (i - 1)); [lia|exact Ez].
      + intros i z Hi Ez. destruct (Z.eq_dec i 0) as [->|]; [cbn in Ez; injection Ez as <-; exact E|]. rewrite RS in Ez by lia. apply (S1 (i - 1)); [lia|exact Ez].
    - exists (Some pos). split; [reflexivity|]. replace (pos - pos) with 0 by lia. split; [lia|]. split; [exists y; split; [reflexivity|exact E]|]. intros i x Hi. lia. }
  destruct (G size a 0 L) as (r & R & S1); [lia|]. exists r. split; [exact R|]. destruct r as [p|]; [|exact S1]. rewrite Z.sub_0_r in S1. exact S1.
Qed.
(** [strdiff] on a terminated string: NULL exactly when all characters equal c, else the first that differs *)
Theorem C74_strdiff : forall s rest c, ~ In 0 s ->
  exists r, strdiff (s ++ 0 :: rest) c = Some r /\
    match r with
    | None => Forall (fun x => x = w8 c) s
    | Some p => exists pre x post, s = pre ++ x :: post /\ p = zlen pre /\ x <> w8 c /\ Forall (fun x => x = w8 c) pre
    end.
Proof.
  intros s rest c. unfold strdiff.
  assert (G : forall s pos, ~ In 0 s -> exists r, strdiff_loop (s ++ 0 :: rest) (w8 c) pos = Some r /\
    match r with
    | None => Forall (fun x => x = w8 c) s
    | Some p => exists pre x post, s = pre ++ x :: post /\ p = pos + zlen pre /\ x <> w8 c /\ Forall (fun x => x = w8 c) pre
    end).
  { clear s. induction s as [|y s IH]; intros pos N; cbn [app strdiff_loop]. { exists None. split; [reflexivity|constructor]. }
    destruct (Z.eqb_spec y 0) as [->|NZ]; [exfalso; apply N; left; reflexivity|]. destruct (Z.eqb_spec y (w8 c)) as [E|E]; cbn [negb].
    - destruct (IH (pos + 1)) as (r & R & S1); [intros X; apply N; right; exact X|]. exists r. split; [exact R|]. destruct r as [p|].
      + destruct S1 as (pre & x & post & -> & -> & H1 & H2). exists (y :: pre), x, post. split; [reflexivity|]. split; [unfold zlen; cbn [length]; lia|]. split; [exact H1|constructor; assumption].
      + constructor; assumption.
    - exists (Some pos). split; [reflexivity|]. exists [], y, s. split; [reflexivity|]. split; [unfold zlen; cbn; lia|]. split; [exact E|constructor]. }
  intros N. destruct (G s 0 N) as (r & R & S1). exists r. split; [exact R|]. destruct r; [|exact S1]. exact S1.
Qed.
Example C74_ex : memdiff [7; 7; 9; 7] 7 4 = Some (Some 2) /\ memdiff [7; 7; 9] 263 2 = Some None /\ strdiff [5; 5; 6; 0] 5 = Some (Some 2) /\ strdiff [5; 5; 0; 6] 5 = Some None.
Proof. vm_compute. repeat split. Qed.

Print Assumptions C71_roundtrip.
Print Assumptions C71_is_err.
Print Assumptions C71_zero_forms.
Print Assumptions C72_count_space.
Print Assumptions C72_count_end_partial.
Print Assumptions C72_count_end_refuted.
Print Assumptions C73_nibble.
Print Assumptions C73_short_partial.
Print Assumptions C73_refuted.
Print Assumptions C74_memdiff.
Print Assumptions C74_strdiff.
