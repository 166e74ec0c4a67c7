(** * Message digests: the compression functions *)
From Verif Require Import Lib BitsModel BitsProofs DigestModel DigestSpec DigestProofs.

Ltac Zify.zify_post_hook ::= idtac.
(** ** Words *)
Lemma lor_plus a b : Z.land a b = 0 -> a + b = Z.lor a b.
Proof. intros H. rewrite Z.add_nocarry_lxor by exact H. apply Z.lxor_lor, H. Qed.
Lemma w32_bits v i : 0 <= i -> Z.testbit (w32 v) i = (i <? 32) && Z.testbit v i.
Proof. apply (wrap_bits 32). lia. Qed.
Lemma rotl_lor x n : u32 x -> 0 < n < 32 -> rotl x n = Z.lor (w32 (Z.shiftl x n)) (Z.shiftr x (32 - n)).
Proof.
  intros H N. unfold rotl. rewrite <- Z.shiftl_mul_pow2, <- Z.shiftr_div_pow2 by lia. fold (w32 (Z.shiftl x n)). apply lor_plus. apply Z.bits_inj'. intros i Hi. rewrite Z.land_spec, Z.bits_0, w32_bits, Z.shiftl_spec, Z.shiftr_spec by lia.
  destruct (Z_lt_dec i n) as [L|L]; [rewrite (Z.testbit_neg_r x (i - n)) by lia; rewrite andb_false_r; reflexivity|]. rewrite (testbit_small x 32 (i + (32 - n))) by (exact H || lia). apply andb_false_r.
Qed.
Lemma u32_w32 v : u32 (w32 v).
Proof. apply w32_range. Qed.
Lemma u32_xor a b : u32 a -> u32 b -> u32 (Z.lxor a b).
Proof. intros A B. apply lxor_range; [lia|exact A|exact B]. Qed.
Lemma u32_xor4 a b c d : u32 a -> u32 b -> u32 c -> u32 d -> u32 (Z.lxor (Z.lxor (Z.lxor a b) c) d).
Proof. auto using u32_xor. Qed.
Lemma u32_shr x k : u32 x -> 0 <= k -> u32 (Z.shiftr x k).
Proof. unfold u32. intros H K. rewrite Z.shiftr_div_pow2 by exact K. split; [apply Z.div_pos; [lia|apply Z.pow_pos_nonneg; lia]|]. apply Z.le_lt_trans with x; [|lia]. apply Z.div_le_upper_bound; [apply Z.pow_pos_nonneg; lia|]. assert (1 <= 2 ^ k) by (apply (Z.pow_le_mono_r 2 0 k); lia). nia. Qed.
Lemma rotl_u32 x n : u32 x -> 0 < n < 32 -> u32 (rotl x n).
Proof. intros H N. rewrite rotl_lor by assumption. apply lor_range; [lia|apply u32_w32|apply u32_shr; [exact H|lia]]. Qed.
Lemma shifts n : 0 < n < 32 -> Z.land n 31 = n /\ Z.land (w32 (- n)) 31 = 32 - n.
Proof.
  intros H. assert (X : all_below 32 (fun n => (n =? 0) || ((Z.land n 31 =? n) && (Z.land (w32 (- n)) 31 =? 32 - n))) = true) by (vm_compute; reflexivity).
  pose proof (all_below_spec _ _ X n ltac:(lia)) as E. cbv beta in E. rewrite (proj2 (Z.eqb_neq n 0)) in E by lia. cbn [orb] in E. apply andb_prop in E. rewrite !Z.eqb_eq in E. exact E.
Qed.
Lemma w32_lor a b : w32 (Z.lor a b) = Z.lor (w32 a) (w32 b).
Proof. apply Z.bits_inj'. intros i Hi. rewrite Z.lor_spec, !w32_bits, Z.lor_spec by exact Hi. destruct (i <? 32); reflexivity. Qed.
Lemma rol32_ok x n : u32 x -> 0 < n < 32 -> rol32 x n = rotl x n.
Proof.
  intros H N. unfold rol32, rol, wrap. destruct (shifts n N) as [-> ->]. change (?a mod 2 ^ 32) with (w32 a). rewrite w32_lor, rotl_lor by assumption. f_equal. apply w32_small. apply u32_shr; [exact H|lia].
Qed.
Lemma ror32_ok x n : u32 x -> 0 < n < 32 -> ror32 x n = rotr x n.
Proof.
  intros H N. unfold ror32, ror, wrap, rotr. destruct (shifts n N) as [-> ->]. change (?a mod 2 ^ 32) with (w32 a). rewrite w32_lor, rotl_lor by (assumption || lia). rewrite Z.lor_comm. f_equal. replace (32 - (32 - n)) with n by lia. apply w32_small. apply u32_shr; [exact H|lia].
Qed.
Lemma cpl_bits x i : u32 x -> 0 <= i -> Z.testbit (cpl x) i = (i <? 32) && negb (Z.testbit x i).
Proof.
  intros H Hi. unfold cpl. destruct (Z.ltb_spec i 32) as [L|L]; cbn [andb].
  - replace (2 ^ 32 - 1 - x) with (2 ^ 32 + Z.lnot x) by (unfold Z.lnot; lia). rewrite <- (Z.lnot_spec x i Hi). rewrite <- (Z.mod_pow2_bits_low _ 32 i) by lia. rewrite Z.add_comm, <- (Z.mul_1_l (2 ^ 32)), Z_mod_plus_full. rewrite Z.mul_1_l. apply Z.mod_pow2_bits_low. lia.
  - apply (testbit_small _ 32); [unfold u32 in H; lia|exact L].
Qed.
Lemma not32_bits x i : 0 <= i -> Z.testbit (not32 x) i = xorb (Z.testbit x i) (i <? 32).
Proof.
  intros Hi. unfold not32. rewrite Z.lxor_spec. f_equal. change (2 ^ 32 - 1) with (Z.ones 32). destruct (Z.ltb_spec i 32); [apply Z.ones_spec_low; lia|apply Z.ones_spec_high; lia].
Qed.
Ltac bitwise := apply Z.bits_inj'; let i := fresh "i" in let Hi := fresh "Hi" in intros i Hi;
  rewrite ?Z.lxor_spec, ?Z.lor_spec, ?Z.land_spec, ?Z.lxor_spec, ?Z.lor_spec, ?Z.land_spec, ?Z.lxor_spec.
Ltac high x i H L := rewrite ?(testbit_small x 32 i H L).
Lemma ch_ok x y z : u32 x -> u32 z -> Z.lxor z (Z.land x (Z.lxor y z)) = Ch x y z.
Proof.
  intros Hx Hz. unfold Ch. apply Z.bits_inj'. intros i Hi. rewrite !Z.lxor_spec, !Z.land_spec, Z.lxor_spec, cpl_bits by assumption. destruct (Z.ltb_spec i 32) as [L|L].
  - destruct (Z.testbit x i), (Z.testbit y i), (Z.testbit z i); reflexivity.
  - rewrite (testbit_small x 32 i Hx L), (testbit_small z 32 i Hz L). destruct (Z.testbit y i); reflexivity.
Qed.
Lemma ch_lor x y z : u32 x -> Z.lor (Z.land x y) (Z.land (cpl x) z) = Ch x y z.
Proof.
  intros Hx. unfold Ch. apply Z.bits_inj'. intros i Hi. rewrite Z.lor_spec, Z.lxor_spec, !Z.land_spec, cpl_bits by assumption. destruct (i <? 32), (Z.testbit x i), (Z.testbit y i), (Z.testbit z i); reflexivity.
Qed.
Lemma ch_u32 x y z : u32 x -> u32 y -> u32 z -> u32 (Ch x y z).
Proof. intros. rewrite <- ch_ok by assumption. apply lxor_range; [lia|assumption|]. apply land_range_l; [lia|assumption]. Qed.

(** ** Words of a block *)
Lemma first4 : forall k (l : list Z), (k + 4 <= length l)%nat -> firstn 4 (skipn k l) = [nth k l 0; nth (k + 1) l 0; nth (k + 2) l 0; nth (k + 3) l 0].
Proof.
  induction k as [|k IH]; intros l H.
  - destruct l as [|a [|b [|c [|d l]]]]; cbn [length] in H; try lia. reflexivity.
  - destruct l as [|a l]; cbn [length] in H; [lia|]. cbn [skipn]. rewrite IH by lia. reflexivity.
Qed.
Lemma words_map val : forall n k l, words val n (skipn (4 * k) l) = map (fun i => val (firstn 4 (skipn (4 * i) l))) (seq k n).
Proof.
  induction n as [|n IH]; intros k l; [reflexivity|]. cbn [words seq map]. f_equal. rewrite <- IH. f_equal. replace (4 * S k)%nat with (4 + 4 * k)%nat by lia. generalize (4 * k)%nat. clear. intros m. revert l. induction m as [|m IH]; intros l; [reflexivity|]. destruct l as [|a l]; [reflexivity|]. cbn [skipn Nat.add]. apply IH.
Qed.
Lemma words_nth val l i : length l = 64%nat -> (i < 16)%nat -> nth i (words val 16 l) 0 = val [nth (4 * i) l 0; nth (4 * i + 1) l 0; nth (4 * i + 2) l 0; nth (4 * i + 3) l 0].
Proof.
  intros H I. pose proof (words_map val 16 0 l) as E. change (skipn (4 * 0) l) with l in E. rewrite E. rewrite (nth_indep _ 0 (val (firstn 4 (skipn (4 * 0) l)))) by (rewrite map_length, seq_length; exact I).
  rewrite (map_nth (fun i => val (firstn 4 (skipn (4 * i) l)))). rewrite seq_nth by exact I. rewrite first4 by lia. reflexivity.
Qed.
Lemma words_len val n l : length (words val n l) = n.
Proof. revert l. induction n; intros l; cbn [words length]; auto. Qed.
Lemma be_words l i : length l = 64%nat -> (i < 16)%nat -> nth i (words be_val 16 l) 0 = be32_of l i.
Proof. intros H I. rewrite words_nth by assumption. unfold be_val, be32_of. cbn [fold_left]. lia. Qed.
Lemma le_words l : length l = 64%nat -> words le_val 16 l = map (le32_of l) (seq 0 16).
Proof.
  intros H. pose proof (words_map le_val 16 0 l) as E. change (skipn (4 * 0) l) with l in E. rewrite E. apply map_ext_in. intros i Hi. apply in_seq in Hi. rewrite first4 by lia. unfold le_val, le32_of. cbn [fold_right]. lia.
Qed.
Lemma be_u32 l i : bytes l -> length l = 64%nat -> (i < 16)%nat -> u32 (be32_of l i).
Proof.
  intros H L I. unfold be32_of, u32. assert (X : forall k, (k < 64)%nat -> 0 <= nth k l 0 < 256) by (intros k Hk; apply (proj1 (Forall_forall _ _) H); apply nth_In; lia).
  pose proof (X (4 * i)%nat ltac:(lia)). pose proof (X (4 * i + 1)%nat ltac:(lia)). pose proof (X (4 * i + 2)%nat ltac:(lia)). pose proof (X (4 * i + 3)%nat ltac:(lia)). lia.
Qed.
Definition okd (n : nat) (h : list Z) : Prop := length h = n /\ Forall u32 h.
Lemma okd_nth n h i : okd n h -> (i < n)%nat -> u32 (nth i h 0).
Proof. intros [L F] I. apply (proj1 (Forall_forall _ _) F). apply nth_In. lia. Qed.

(** ** MD5 *)
Definition roles (i : nat) : reg * reg * reg * reg :=
  match (i mod 4)%nat with O => (RA, RB, RC, RD) | 1%nat => (RD, RA, RB, RC) | 2%nat => (RC, RD, RA, RB) | _ => (RB, RC, RD, RA) end.
Definition call_of (i : nat) : nat * reg * reg * reg * reg * nat * Z * Z :=
  let '(w, x, y, z) := roles i in (S (i / 16), w, x, y, z, md5_index i, md5_T (Z.of_nat i + 1), md5_shift i).
Lemma calls_ok : md5_calls = map call_of (seq 0 64).
Proof. vm_compute. reflexivity. Qed.
Lemma shift_ok i : (i < 64)%nat -> 0 < md5_shift i < 32.
Proof.
  intros H. assert (X : forallb (fun i => (0 <? md5_shift i) && (md5_shift i <? 32)) (seq 0 64) = true) by (vm_compute; reflexivity). rewrite forallb_forall in X.
  specialize (X i (proj2 (in_seq 64 0 i) ltac:(lia))). apply andb_prop in X. rewrite !Z.ltb_lt in X. exact X.
Qed.
Lemma fun_ok i x y z : (i < 64)%nat -> u32 x -> u32 y -> u32 z -> md5_F (S (i / 16)) x y z = md5_fun i x y z.
Proof.
  intros H Hx Hy Hz. unfold md5_fun. destruct (i / 16)%nat as [|[|[|k]]]; cbn [md5_F].
  - unfold md5_F1. rewrite ch_ok by assumption. symmetry. apply ch_lor, Hx.
  - unfold md5_F2, md5_F1. apply Z.bits_inj'. intros j Hj. rewrite Z.lor_spec, Z.lxor_spec, !Z.land_spec, Z.lxor_spec, cpl_bits by assumption. destruct (Z.ltb_spec j 32) as [L|L].
    + destruct (Z.testbit x j), (Z.testbit y j), (Z.testbit z j); reflexivity.
    + rewrite (testbit_small x 32 j Hx L), (testbit_small y 32 j Hy L), (testbit_small z 32 j Hz L). reflexivity.
  - reflexivity.
  - assert (E : md5_F4 x y z = Z.lxor y (Z.lor x (cpl z))); [|destruct k; exact E]. unfold md5_F4. f_equal. f_equal. apply Z.bits_inj'. intros j Hj. rewrite not32_bits, cpl_bits by assumption. destruct (Z.ltb_spec j 32) as [L|L]; [apply xorb_true_r|]. rewrite (testbit_small z 32 j Hz L). reflexivity.
Qed.
Lemma step_val f w x y z k T s : u32 w -> 0 < s < 32 ->
  md5_STEP f w x y z (w32 (k + T)) s = add32 x (rotl ((w + f x y z + k + T) mod 2 ^ 32) s).
Proof.
  intros Hw Hs. unfold md5_STEP. assert (E : w32 (w + w32 (f x y z + w32 (k + T))) = (w + f x y z + k + T) mod 2 ^ 32).
  { unfold w32. rewrite Zplus_mod_idemp_r, Z.add_assoc, Zplus_mod_idemp_r. f_equal. lia. }
  rewrite E. clear E. set (v := (w + f x y z + k + T) mod 2 ^ 32). assert (Hv : u32 v) by apply u32_w32. rewrite rotl_lor by assumption. unfold add32. rewrite Z.add_comm. reflexivity.
Qed.
Opaque md5_calls.
Definition all32 (t : Z * Z * Z * Z) : Prop := let '(a, b, c, d) := t in u32 a /\ u32 b /\ u32 c /\ u32 d.
Definition rel (r : regs) (i : nat) (t : Z * Z * Z * Z) : Prop := (let '(w, x, y, z) := roles i in t = (get r w, get r x, get r y, get r z)) /\ all32 t.
Lemma md5_step_ok X r i t : (i < 64)%nat -> rel r i t -> rel (md5_call X r (call_of i)) (S i) (md5_step X t i).
Proof.
  intros Hi [R U]. destruct t as [[[a b] c] d]. cbn [all32] in U. destruct U as (Ua & Ub & Uc & Ud).
  assert (E : md5_call X r (call_of i) = (let '(w, x, y, z) := roles i in put r w (add32 b (rotl ((a + md5_fun i b c d + nth (md5_index i) X 0 + md5_T (Z.of_nat i + 1)) mod 2 ^ 32) (md5_shift i))))).
  { unfold call_of. destruct (roles i) as [[[w x] y] z] eqn:Er. injection R as Ra Rb Rc Rd. unfold md5_call. rewrite <- Ra, <- Rb, <- Rc, <- Rd. rewrite step_val by (assumption || apply shift_ok, Hi). rewrite fun_ok by assumption. reflexivity. }
  rewrite E. cbn [md5_step]. set (v := add32 b _). assert (Uv : u32 v) by apply u32_w32. clearbody v. clear E. unfold rel. split; [|cbn [all32]; auto].
  unfold roles in *. replace (S i mod 4)%nat with ((S (i mod 4)) mod 4)%nat by (rewrite <- (Nat.add_1_l (i mod 4)), <- (Nat.add_1_l i); rewrite Nat.add_mod_idemp_r by lia; reflexivity).
  assert (M : (i mod 4 < 4)%nat) by (apply Nat.mod_upper_bound; lia). destruct (i mod 4)%nat as [|[|[|[|k]]]]; [| | | |lia]; cbn [Nat.modulo Nat.divmod fst snd Nat.sub]; injection R as Ra Rb Rc Rd; cbn [put get rA rB rC rD] in *; congruence.
Qed.
Lemma md5_fold X : forall n i r t, (i + n <= 64)%nat -> rel r i t -> rel (fold_left (md5_call X) (map call_of (seq i n)) r) (i + n) (fold_left (md5_step X) (seq i n) t).
Proof.
  induction n as [|n IH]; intros i r t H R; [rewrite Nat.add_0_r; exact R|]. cbn [seq map fold_left]. replace (i + S n)%nat with (S i + n)%nat by lia. apply IH; [lia|]. apply md5_step_ok; [lia|exact R].
Qed.
Lemma md5_fold' X n m i r t calls : calls = map call_of (seq i n) -> m = (i + n)%nat -> (m <= 64)%nat -> rel r i t -> rel (fold_left (md5_call X) calls r) m (fold_left (md5_step X) (seq i n) t).
Proof. intros -> -> H R. apply md5_fold; assumption. Qed.
Lemma rel64 r t : rel r 64 t -> t = (rA r, rB r, rC r, rD r).
Proof. intros [R _]. exact R. Qed.
Lemma md5_fold64 X r t : rel r 0 t -> rel (fold_left (md5_call X) md5_calls r) 64 (fold_left (md5_step X) (seq 0 64) t).
Proof. intros R. apply md5_fold'; [exact calls_ok|reflexivity|lia|exact R]. Qed.
Lemma addl4 h a b c d : length h = 4%nat -> addl h [a; b; c; d] = [w32 (nth 0 h 0 + a); w32 (nth 1 h 0 + b); w32 (nth 2 h 0 + c); w32 (nth 3 h 0 + d)].
Proof. intros L. destruct h as [|h0 [|h1 [|h2 [|h3 [|]]]]]; try discriminate L. reflexivity. Qed.
Lemma md5_block_ok h b : okd 4 h -> length b = 64%nat -> md5_transform_block h b = md5_compress h b /\ okd 4 (md5_compress h b).
Proof.
  intros O L. assert (E : md5_transform_block h b = md5_compress h b).
  { unfold md5_transform_block, md5_compress. rewrite le_words by exact L.
    assert (R0 : rel {| rA := nth 0 h 0; rB := nth 1 h 0; rC := nth 2 h 0; rD := nth 3 h 0 |} 0 (nth 0 h 0, nth 1 h 0, nth 2 h 0, nth 3 h 0)) by (split; [reflexivity|cbn [all32]; repeat split; eapply okd_nth; try exact O; lia]).
    rewrite (rel64 _ _ (md5_fold64 _ {| rA := nth 0 h 0; rB := nth 1 h 0; rC := nth 2 h 0; rD := nth 3 h 0 |} _ R0)).
    rewrite addl4 by apply O. reflexivity. }
  split; [exact E|]. rewrite <- E. unfold md5_transform_block, md5_transform. cbv zeta. split; [reflexivity|]. repeat constructor; apply u32_w32.
Qed.

(** ** Message schedules *)
Lemma schedule_len next : forall n w, length (schedule next n w) = (n + length w)%nat.
Proof. induction n as [|n IH]; intros w; cbn [schedule]; [reflexivity|]. rewrite IH, app_length. cbn [length]. lia. Qed.
Lemma schedule_pre next : forall n w, firstn (length w) (schedule next n w) = w.
Proof.
  induction n as [|n IH]; intros w; cbn [schedule]; [apply firstn_all|]. specialize (IH (w ++ [next w])). rewrite app_length in IH. cbn [length] in IH.
  assert (E : firstn (length w) (firstn (length w + 1) (schedule next n (w ++ [next w]))) = firstn (length w) (w ++ [next w])) by (rewrite IH; reflexivity).
  rewrite firstn_firstn, Nat.min_l in E by lia. rewrite E, firstn_app, Nat.sub_diag, firstn_all, firstn_O, app_nil_r. reflexivity.
Qed.
Lemma firstn_nth A (l : list A) n i d : (i < n)%nat -> nth i (firstn n l) d = nth i l d.
Proof. revert l i. induction n as [|n IH]; intros l i H; [lia|]. destruct l as [|x l]; [destruct i; reflexivity|]. destruct i as [|i]; [reflexivity|]. cbn [firstn nth]. apply IH. lia. Qed.
Lemma schedule_low next n w t : (t < length w)%nat -> nth t (schedule next n w) 0 = nth t w 0.
Proof. intros H. rewrite <- (schedule_pre next n w) at 2. rewrite firstn_nth by exact H. reflexivity. Qed.
Lemma schedule_next next : forall n w t, (length w <= t < n + length w)%nat -> nth t (schedule next n w) 0 = next (firstn t (schedule next n w)).
Proof.
  induction n as [|n IH]; intros w t H; [lia|]. cbn [schedule]. destruct (Nat.eq_dec t (length w)) as [->|Ht].
  - rewrite schedule_low by (rewrite app_length; cbn [length]; lia). rewrite app_nth2, Nat.sub_diag by lia. cbn [nth]. f_equal.
    pose proof (schedule_pre next n (w ++ [next w])) as E. rewrite app_length in E. cbn [length] in E.
    assert (E2 : firstn (length w) (firstn (length w + 1) (schedule next n (w ++ [next w]))) = w) by (rewrite E, firstn_app, Nat.sub_diag, firstn_all, firstn_O, app_nil_r; reflexivity).
    rewrite firstn_firstn, Nat.min_l in E2 by lia. symmetry. exact E2.
  - apply IH. rewrite app_length. cbn [length]. lia.
Qed.
Lemma back_nth l t k : (t <= length l)%nat -> (1 <= k <= t)%nat -> back (firstn t l) k = nth (t - k) l 0.
Proof. intros H K. unfold back. rewrite firstn_length, Nat.min_l by exact H. apply firstn_nth. lia. Qed.
Lemma zseq_seq : forall n a, zseq (Z.of_nat a) n = map Z.of_nat (seq a n).
Proof. induction n as [|n IH]; intros a; cbn [zseq seq map]; [reflexivity|]. f_equal. rewrite <- IH. f_equal. lia. Qed.

(** ** SHA-1 *)
Lemma land15 j : 0 <= j -> Z.land j 0x0f = j mod 16.
Proof. intros H. change 0x0f with (Z.ones 4). apply Z.land_ones. lia. Qed.
Section Sha1.
Variable d : list Z.
Hypothesis Hd : bytes d.
Hypothesis Ld : length d = 64%nat.
Let W := schedule sha1_next 64 (words be_val 16 d).
Lemma W_len : length W = 80%nat.
Proof. unfold W. rewrite schedule_len, words_len. reflexivity. Qed.
Lemma W_low t : (t < 16)%nat -> nth t W 0 = be32_of d t.
Proof. intros H. unfold W. rewrite schedule_low by (rewrite words_len; exact H). apply be_words; assumption. Qed.
Lemma W_high t : (16 <= t < 80)%nat -> nth t W 0 = rotl (Z.lxor (Z.lxor (Z.lxor (nth (t - 3) W 0) (nth (t - 8) W 0)) (nth (t - 14) W 0)) (nth (t - 16) W 0)) 1.
Proof.
  intros H. unfold W at 1. rewrite schedule_next by (rewrite words_len; lia). fold W. unfold sha1_next. pose proof W_len. rewrite !back_nth by lia. reflexivity.
Qed.
Lemma W_u32 t : (t < 80)%nat -> u32 (nth t W 0).
Proof.
  induction t as [t IH] using (well_founded_induction lt_wf). intros H. destruct (le_lt_dec 16 t) as [L|L].
  - rewrite W_high by lia. apply rotl_u32; [|lia]. apply u32_xor4; apply IH; lia.
  - rewrite W_low by exact L. apply be_u32; assumption.
Qed.
Definition tup (r : five) : Z * Z * Z * Z * Z := (v1 r, v2 r, v3 r, v4 r, v5 r).
Definition sim (st : (Z -> Z) * five) (t : nat) (q : Z * Z * Z * Z * Z) : Prop :=
  tup (snd st) = q /\ (u32 (v1 (snd st)) /\ u32 (v2 (snd st)) /\ u32 (v3 (snd st)) /\ u32 (v4 (snd st)) /\ u32 (v5 (snd st))) /\
  forall j, (j < t)%nat -> (t <= j + 16)%nat -> fst st (Z.of_nat j mod 16) = nth j W 0.
Lemma round_ok st t q value const exp : (t < 80)%nat -> sim st t q -> value = nth t W 0 -> const = sha1_K t -> exp = sha1_f t (v2 (snd st)) (v3 (snd st)) (v4 (snd st)) ->
  sim (sha1_ROUND (Z.of_nat t) st value const exp) (S t) (sha1_step W q t).
Proof.
  intros Ht (<- & (U1 & U2 & U3 & U4 & U5) & B) -> -> ->. destruct st as [b r]. cbn [snd fst] in *. unfold sha1_ROUND. rewrite land15 by lia. rewrite rol32_ok by (assumption || lia). rewrite ror32_ok by (assumption || lia). unfold rotr. change (32 - 2) with 30.
  split; [|split]; cbn [fst snd v1 v2 v3 v4 v5].
  - unfold tup, sha1_step. cbn [v1 v2 v3 v4 v5]. repeat f_equal. unfold w32. f_equal. lia.
  - refine (conj _ (conj _ (conj _ (conj _ _)))); try assumption; [apply u32_w32|apply rotl_u32; [assumption|lia]].
  - intros j J1 J2. unfold fset. destruct (Nat.eq_dec j t) as [->|Ne]; [rewrite Z.eqb_refl; reflexivity|]. rewrite (proj2 (Z.eqb_neq _ _)); [apply B; lia|]. intros C.
    assert (Z.of_nat t - Z.of_nat j = 16 * (Z.of_nat t / 16 - Z.of_nat j / 16)) by (rewrite (Z.div_mod (Z.of_nat t) 16) at 1 by lia; rewrite (Z.div_mod (Z.of_nat j) 16) at 1 by lia; lia). lia.
Qed.
Lemma mix_ok st t q : (16 <= t < 80)%nat -> sim st t q -> sha1_MIX (Z.of_nat t) (fst st) = nth t W 0.
Proof.
  intros Ht (_ & _ & B). unfold sha1_MIX, sha1_W. rewrite !land15 by lia.
  assert (X : forall k, (1 <= k <= 16)%nat -> fst st ((Z.of_nat t + 16 - Z.of_nat k) mod 16) = nth (t - k) W 0).
  { intros k K. rewrite <- (B (t - k)%nat) by lia. f_equal. replace (Z.of_nat t + 16 - Z.of_nat k) with (Z.of_nat (t - k) + 1 * 16) by lia. apply Z_mod_plus_full. }
  replace (Z.of_nat t + 13) with (Z.of_nat t + 16 - Z.of_nat 3) by lia. replace (Z.of_nat t + 8) with (Z.of_nat t + 16 - Z.of_nat 8) by lia. replace (Z.of_nat t + 2) with (Z.of_nat t + 16 - Z.of_nat 14) by lia.
  replace (Z.of_nat t mod 16) with ((Z.of_nat t + 16 - Z.of_nat 16) mod 16) by (f_equal; lia). rewrite !X by lia. rewrite rol32_ok; [symmetry; apply W_high; lia| |lia]. apply u32_xor4; apply W_u32; lia.
Qed.
Lemma ch1_ok x y z : u32 x -> u32 z -> Z.lxor (Z.land (Z.lxor y z) x) z = Ch x y z.
Proof. intros Hx Hz. rewrite <- ch_ok by assumption. rewrite Z.lxor_comm, (Z.land_comm x). reflexivity. Qed.
Lemma maj1_ok x y z : Z.land x y + Z.land z (Z.lxor x y) = Maj x y z.
Proof.
  rewrite Z.add_nocarry_lxor.
  - unfold Maj. apply Z.bits_inj'. intros i Hi. rewrite !Z.lxor_spec, !Z.land_spec, Z.lxor_spec. destruct (Z.testbit x i), (Z.testbit y i), (Z.testbit z i); reflexivity.
  - apply Z.bits_inj'. intros i Hi. rewrite !Z.land_spec, Z.lxor_spec, Z.bits_0. destruct (Z.testbit x i), (Z.testbit y i), (Z.testbit z i); reflexivity.
Qed.
Lemma loop_ok rnd : forall n a st q, (forall t st q, (a <= t < a + n)%nat -> sim st t q -> sim (rnd st (Z.of_nat t)) (S t) (sha1_step W q t)) -> sim st a q ->
  sim (fold_left rnd (zseq (Z.of_nat a) n) st) (a + n) (fold_left (sha1_step W) (seq a n) q).
Proof.
  induction n as [|n IH]; intros a st q H Sm; [rewrite Nat.add_0_r; exact Sm|]. rewrite zseq_seq. cbn [seq map fold_left]. rewrite <- zseq_seq. replace (a + S n)%nat with (S a + n)%nat by lia. apply IH; [intros t st' q' Ht; apply H; lia|]. apply H; [lia|exact Sm].
Qed.
Ltac quot k := unfold sha1_K, sha1_f; replace (_ / 20)%nat with k by (match goal with |- _ = (?t / 20)%nat => apply (Nat.div_unique t 20 k (t - 20 * k)); lia end).
Lemma sha1_ok h g : okd 5 h -> fst (sha1_transform h g d) = sha1_compress h d /\ okd 5 (sha1_compress h d).
Proof.
  intros O. unfold sha1_transform, sha1_compress. fold W. set (q := (nth 0 h 0, nth 1 h 0, nth 2 h 0, nth 3 h 0, nth 4 h 0)).
  set (st0 := (g, {| v1 := nth 0 h 0; v2 := nth 1 h 0; v3 := nth 2 h 0; v4 := nth 3 h 0; v5 := nth 4 h 0 |})).
  assert (S0 : sim st0 0 q). { split; [reflexivity|]. split; [cbn; repeat split; eapply okd_nth; try exact O; lia|]. intros j J. lia. }
  assert (S1 := loop_ok (sha1_00_15 d) 16 0 st0 q).
  lapply S1; [clear S1; intros S1; specialize (S1 S0)|].
  2: { intros t st q' Ht S. unfold sha1_00_15. pose proof S as (_ & (_ & U2 & U3 & U4 & _) & _). apply round_ok; [lia|exact S| | |].
    - unfold sha1_SRC. rewrite Nat2Z.id. symmetry. apply W_low. lia.
    - quot 0%nat. vm_compute. reflexivity.
    - quot 0%nat. apply ch1_ok; assumption. }
  set (st1 := fold_left (sha1_00_15 d) _ st0) in *. clearbody st1. set (q1 := fold_left (sha1_step W) (seq 0 16) q) in *.
  assert (S2 := loop_ok sha1_16_19 4 16 st1 q1). lapply S2; [clear S2; intros S2; specialize (S2 S1)|].
  2: { intros t st q' Ht S. unfold sha1_16_19. pose proof S as (_ & (_ & U2 & U3 & U4 & _) & _). apply round_ok; [lia|exact S|apply (mix_ok _ _ q'); [lia|exact S]| |].
    - quot 0%nat. vm_compute. reflexivity.
    - quot 0%nat. apply ch1_ok; assumption. }
  set (st2 := fold_left sha1_16_19 _ st1) in *. clearbody st2. set (q2 := fold_left (sha1_step W) (seq 16 4) q1) in *.
  assert (S3 := loop_ok sha1_20_39 20 20 st2 q2). lapply S3; [clear S3; intros S3; specialize (S3 S2)|].
  2: { intros t st q' Ht S. unfold sha1_20_39. apply round_ok; [lia|exact S|apply (mix_ok _ _ q'); [lia|exact S]| |].
    - quot 1%nat. vm_compute. reflexivity.
    - quot 1%nat. reflexivity. }
  set (st3 := fold_left sha1_20_39 _ st2) in *. clearbody st3. set (q3 := fold_left (sha1_step W) (seq 20 20) q2) in *.
  assert (S4 := loop_ok sha1_40_59 20 40 st3 q3). lapply S4; [clear S4; intros S4; specialize (S4 S3)|].
  2: { intros t st q' Ht S. unfold sha1_40_59. apply round_ok; [lia|exact S|apply (mix_ok _ _ q'); [lia|exact S]| |].
    - quot 2%nat. vm_compute. reflexivity.
    - quot 2%nat. apply maj1_ok. }
  set (st4 := fold_left sha1_40_59 _ st3) in *. clearbody st4. set (q4 := fold_left (sha1_step W) (seq 40 20) q3) in *.
  assert (S5 := loop_ok sha1_60_79 20 60 st4 q4). lapply S5; [clear S5; intros S5; specialize (S5 S4)|].
  2: { intros t st q' Ht S. unfold sha1_60_79. apply round_ok; [lia|exact S|apply (mix_ok _ _ q'); [lia|exact S]| |].
    - quot 3%nat. vm_compute. reflexivity.
    - quot 3%nat. reflexivity. }
  set (st5 := fold_left sha1_60_79 _ st4) in *. clearbody st5.
  assert (EQ : fold_left (sha1_step W) (seq 0 80) q = fold_left (sha1_step W) (seq 60 20) q4).
  { unfold q4, q3, q2, q1. rewrite <- !fold_left_app. reflexivity. }
  rewrite EQ. destruct S5 as [S5 _]. rewrite <- S5. unfold tup. destruct O as [Lh _]. destruct h as [|h0 [|h1 [|h2 [|h3 [|h4 [|]]]]]]; try discriminate Lh. cbn [addl combine map fst snd nth]. unfold add32. split; [reflexivity|]. split; [reflexivity|]. repeat constructor; apply u32_w32.
Qed.
End Sha1.

(** ** SHA-2 *)
Lemma k_ok : sha2_k = map sha2_K (seq 0 64).
Proof. vm_compute. reflexivity. Qed.
Lemma k_nth t : (t < 64)%nat -> nth t sha2_k 0 = sha2_K t.
Proof. intros Ht. rewrite k_ok. rewrite (nth_indep _ 0 (sha2_K 0)) by (rewrite map_length, seq_length; exact Ht). rewrite map_nth, seq_nth by exact Ht. reflexivity. Qed.
Opaque sha2_K sha2_k schedule.
Lemma pair_inv (a b c d : Z) : (a, b) = (c, d) -> a = c /\ b = d.
Proof. intros E. injection E. auto. Qed.
Lemma maj2_ok x y z : sha2_MAJ x y z = Maj x y z.
Proof. unfold sha2_MAJ, Maj. apply Z.bits_inj'. intros i Hi. rewrite Z.lor_spec, !Z.lxor_spec, !Z.land_spec, Z.lor_spec. destruct (Z.testbit x i), (Z.testbit y i), (Z.testbit z i); reflexivity. Qed.
Lemma S0_ok x : u32 x -> sha2_S0 x = sigma0 x /\ sha2_S1 x = sigma1 x /\ sha2_E0 x = Sigma0 x /\ sha2_E1 x = Sigma1 x.
Proof. intros H. unfold sha2_S0, sha2_S1, sha2_E0, sha2_E1, sigma0, sigma1, Sigma0, Sigma1. rewrite !ror32_ok by (assumption || lia). rewrite !Z.shiftr_div_pow2 by lia. auto. Qed.
Section Sha2.
Variable d : list Z.
Hypothesis Hd : bytes d.
Hypothesis Ld : length d = 64%nat.
Let W := schedule sha2_next 48 (words be_val 16 d).
Lemma V_len : length W = 64%nat.
Proof. unfold W. rewrite schedule_len, words_len. reflexivity. Qed.
Lemma V_low t : (t < 16)%nat -> nth t W 0 = be32_of d t.
Proof. intros H. unfold W. rewrite schedule_low by (rewrite words_len; exact H). apply be_words; assumption. Qed.
Lemma V_high t : (16 <= t < 64)%nat -> nth t W 0 = (sigma1 (nth (t - 2) W 0) + nth (t - 7) W 0 + sigma0 (nth (t - 15) W 0) + nth (t - 16) W 0) mod 2 ^ 32.
Proof. intros H. unfold W at 1. rewrite schedule_next by (rewrite words_len; lia). fold W. unfold sha2_next. pose proof V_len. rewrite !back_nth by lia. reflexivity. Qed.
Lemma V_u32 t : (t < 64)%nat -> u32 (nth t W 0).
Proof. intros H. destruct (le_lt_dec 16 t) as [L|L]; [rewrite V_high by lia; apply Z.mod_pos_bound; lia|]. rewrite V_low by exact L. apply be_u32; assumption. Qed.
Definition filled (b : Z -> Z) (t : nat) : Prop := forall j, (j < t)%nat -> b (Z.of_nat j) = nth j W 0.
Lemma filled_set b t v : filled b t -> v = nth t W 0 -> filled (fset b (Z.of_nat t) v) (S t).
Proof. intros F -> j J. unfold fset. destruct (Z.eqb_spec (Z.of_nat j) (Z.of_nat t)) as [E|E]; [f_equal; lia|]. apply F. lia. Qed.
Lemma load_ok : forall n a b, (a + n <= 16)%nat -> filled b a -> filled (fold_left (sha2_LOAD d) (zseq (Z.of_nat a) n) b) (a + n).
Proof.
  induction n as [|n IH]; intros a b H F; [rewrite Nat.add_0_r; exact F|]. rewrite zseq_seq. cbn [seq map fold_left]. rewrite <- zseq_seq. replace (a + S n)%nat with (S a + n)%nat by lia. apply IH; [lia|]. unfold sha2_LOAD. rewrite Nat2Z.id. apply filled_set; [exact F|]. symmetry. apply V_low. lia.
Qed.
Lemma blend_ok : forall n a b, (16 <= a)%nat -> (a + n <= 64)%nat -> filled b a -> filled (fold_left sha2_BLEND (zseq (Z.of_nat a) n) b) (a + n).
Proof.
  induction n as [|n IH]; intros a b L H F; [rewrite Nat.add_0_r; exact F|]. rewrite zseq_seq. cbn [seq map fold_left]. rewrite <- zseq_seq. replace (a + S n)%nat with (S a + n)%nat by lia. apply IH; [lia|lia|]. unfold sha2_BLEND. apply filled_set; [exact F|]. rewrite V_high by lia.
  replace (Z.of_nat a - 2) with (Z.of_nat (a - 2)) by lia. replace (Z.of_nat a - 7) with (Z.of_nat (a - 7)) by lia. replace (Z.of_nat a - 15) with (Z.of_nat (a - 15)) by lia. replace (Z.of_nat a - 16) with (Z.of_nat (a - 16)) by lia. rewrite !F by lia.
  destruct (S0_ok (nth (a - 2) W 0)) as (_ & -> & _); [apply V_u32; lia|]. destruct (S0_ok (nth (a - 15) W 0)) as (-> & _); [apply V_u32; lia|]. reflexivity.
Qed.
Lemma round2_ok b c t A B C D E F G H x y : filled b 64 -> c = Z.of_nat t -> (t < 64)%nat -> u32 A -> u32 B -> u32 C -> u32 D -> u32 E -> u32 F -> u32 G -> u32 H ->
  sha2_ROUND c b A B C D E F G H = (x, y) -> sha2_step W (A, B, C, D, E, F, G, H) t = (y, A, B, C, x, E, F, G) /\ u32 x /\ u32 y.
Proof.
  intros Fb -> Ht UA UB UC UD UE UF UG UH R. unfold sha2_ROUND in R. rewrite Nat2Z.id, Fb, maj2_ok in R by exact Ht. destruct (S0_ok A UA) as (_ & _ & EA & _). destruct (S0_ok E UE) as (_ & _ & _ & EE). rewrite EA, EE in R.
  unfold sha2_CH in R. rewrite ch_ok in R by assumption. rewrite k_nth in R by exact Ht. apply pair_inv in R. destruct R as [<- <-]. split; [|split; apply u32_w32]. reflexivity.
Qed.
Definition tup8 (r : eight) := (e1 r, e2 r, e3 r, e4 r, e5 r, e6 r, e7 r, e8 r).
Definition u8 (r : eight) : Prop := u32 (e1 r) /\ u32 (e2 r) /\ u32 (e3 r) /\ u32 (e4 r) /\ u32 (e5 r) /\ u32 (e6 r) /\ u32 (e7 r) /\ u32 (e8 r).
Lemma eight_ok b r t : filled b 64 -> (t + 8 <= 64)%nat -> u8 r -> u8 (sha2_eight b r (Z.of_nat t)) /\ tup8 (sha2_eight b r (Z.of_nat t)) = fold_left (sha2_step W) (seq t 8) (tup8 r).
Proof.
  intros Fb Ht (UA & UB & UC & UD & UE & UF & UG & UH). destruct r as [A B C D E F G H]. cbn [e1 e2 e3 e4 e5 e6 e7 e8] in *. unfold sha2_eight.
  destruct (sha2_ROUND (Z.of_nat t + 0) b A B C D E F G H) as [D1 H1] eqn:R0. apply (round2_ok b _ t) in R0; [|assumption || lia..]. destruct R0 as (R0 & UD1 & UH1).
  destruct (sha2_ROUND (Z.of_nat t + 1) b H1 A B C D1 E F G) as [C1 G1] eqn:R1. apply (round2_ok b _ (S t)) in R1; [|assumption || lia..]. destruct R1 as (R1 & UC1 & UG1).
  destruct (sha2_ROUND (Z.of_nat t + 2) b G1 H1 A B C1 D1 E F) as [B1 F1] eqn:R2. apply (round2_ok b _ (S (S t))) in R2; [|assumption || lia..]. destruct R2 as (R2 & UB1 & UF1).
  destruct (sha2_ROUND (Z.of_nat t + 3) b F1 G1 H1 A B1 C1 D1 E) as [A1 E1] eqn:R3. apply (round2_ok b _ (S (S (S t)))) in R3; [|assumption || lia..]. destruct R3 as (R3 & UA1 & UE1).
  destruct (sha2_ROUND (Z.of_nat t + 4) b E1 F1 G1 H1 A1 B1 C1 D1) as [H2 D2] eqn:R4. apply (round2_ok b _ (S (S (S (S t))))) in R4; [|assumption || lia..]. destruct R4 as (R4 & UH2 & UD2).
  destruct (sha2_ROUND (Z.of_nat t + 5) b D2 E1 F1 G1 H2 A1 B1 C1) as [G2 C2] eqn:R5. apply (round2_ok b _ (S (S (S (S (S t)))))) in R5; [|assumption || lia..]. destruct R5 as (R5 & UG2 & UC2).
  destruct (sha2_ROUND (Z.of_nat t + 6) b C2 D2 E1 F1 G2 H2 A1 B1) as [F2 B2] eqn:R6. apply (round2_ok b _ (S (S (S (S (S (S t))))))) in R6; [|assumption || lia..]. destruct R6 as (R6 & UF2 & UB2).
  destruct (sha2_ROUND (Z.of_nat t + 7) b B2 C2 D2 E1 F2 G2 H2 A1) as [E2 A2] eqn:R7. apply (round2_ok b _ (S (S (S (S (S (S (S t)))))))) in R7; [|assumption || lia..]. destruct R7 as (R7 & UE2 & UA2).
  split; [unfold u8; cbn [e1 e2 e3 e4 e5 e6 e7 e8]; auto 10|]. unfold tup8. cbn [e1 e2 e3 e4 e5 e6 e7 e8 seq fold_left]. rewrite R0, R1, R2, R3, R4, R5, R6, R7. reflexivity.
Qed.
Lemma sha2_ok h g : okd 8 h -> fst (sha2_transform h g d) = sha2_compress h d /\ okd 8 (sha2_compress h d).
Proof.
  intros O. unfold sha2_transform, sha2_compress. fold W.
  assert (Fb : filled (fold_left sha2_BLEND (zseq 16 48) (fold_left (sha2_LOAD d) (zseq 0 16) g)) 64).
  { apply (blend_ok 48 16); [lia|lia|]. apply (load_ok 16 0); [lia|]. intros j J. lia. }
  set (b := fold_left sha2_BLEND _ _) in *. clearbody b.
  set (r0 := {| e1 := nth 0 h 0; e2 := nth 1 h 0; e3 := nth 2 h 0; e4 := nth 3 h 0; e5 := nth 4 h 0; e6 := nth 5 h 0; e7 := nth 6 h 0; e8 := nth 7 h 0 |}).
  assert (U0 : u8 r0) by (unfold u8, r0; cbn [e1 e2 e3 e4 e5 e6 e7 e8]; repeat split; eapply okd_nth; try exact O; lia).
  change (nth 0 h 0, nth 1 h 0, nth 2 h 0, nth 3 h 0, nth 4 h 0, nth 5 h 0, nth 6 h 0, nth 7 h 0) with (tup8 r0). clearbody r0.
  assert (X : forall n t r, (t + 8 * n <= 64)%nat -> u8 r -> tup8 (fold_left (sha2_eight b) (map (fun k => Z.of_nat (t + 8 * k)) (seq 0 n)) r) = fold_left (sha2_step W) (seq t (8 * n)) (tup8 r)).
  { induction n as [|n IH]; intros t r Hn U; [reflexivity|]. cbn [seq map fold_left]. destruct (eight_ok b r t Fb ltac:(lia) U) as [U1 E1]. replace (t + 8 * 0)%nat with t by lia. rewrite <- seq_shift, map_map. rewrite (map_ext _ (fun k => Z.of_nat (t + 8 + 8 * k))) by (intros k; f_equal; lia). rewrite IH; [|lia|exact U1]. rewrite E1, <- fold_left_app. f_equal. replace (8 * S n)%nat with (8 + 8 * n)%nat by lia. rewrite seq_app. reflexivity. }
  specialize (X 8%nat 0%nat r0 ltac:(lia) U0). change (map (fun k => Z.of_nat (0 + 8 * k)) (seq 0 8)) with [0; 8; 16; 24; 32; 40; 48; 56] in X. change (8 * 8)%nat with 64%nat in X. rewrite <- X. set (r := fold_left (sha2_eight b) _ r0) in *. clearbody r. unfold tup8.
  destruct O as [Lh _]. destruct h as [|h0 [|h1 [|h2 [|h3 [|h4 [|h5 [|h6 [|h7 [|]]]]]]]]]; try discriminate Lh. cbn [addl combine map fst snd nth]. unfold add32. split; [reflexivity|]. split; [reflexivity|]. repeat constructor; apply u32_w32.
Qed.
End Sha2.
