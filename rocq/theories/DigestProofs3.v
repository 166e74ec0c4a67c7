(** * Message digests: the work area does not matter; whole messages *)
From Verif Require Import Lib BitsModel BitsProofs DigestModel DigestSpec DigestProofs DigestProofs2.

Definition agree (t : nat) (b1 b2 : Z -> Z) : Prop := forall j, 0 <= j < Z.of_nat t -> b1 j = b2 j.
Lemma agree_set t b1 b2 v : agree t b1 b2 -> agree (S t) (fset b1 (Z.of_nat t) v) (fset b2 (Z.of_nat t) v).
Proof. intros H j J. unfold fset. destruct (Z.eqb_spec j (Z.of_nat t)); [reflexivity|]. apply H. lia. Qed.
Lemma agree_set' t k b1 b2 v : agree t b1 b2 -> agree t (fset b1 k v) (fset b2 k v).
Proof. intros H j J. unfold fset. destruct (Z.eqb_spec j k); [reflexivity|]. apply H. lia. Qed.
Definition same (t : nat) (s1 s2 : (Z -> Z) * five) : Prop := agree t (fst s1) (fst s2) /\ snd s1 = snd s2.
Lemma low_ok d : forall n a s1 s2, (a + n <= 16)%nat -> same a s1 s2 -> same (a + n) (fold_left (sha1_00_15 d) (zseq (Z.of_nat a) n) s1) (fold_left (sha1_00_15 d) (zseq (Z.of_nat a) n) s2).
Proof.
  induction n as [|n IH]; intros a s1 s2 H S; [rewrite Nat.add_0_r; exact S|]. rewrite zseq_seq. cbn [seq map fold_left]. rewrite <- zseq_seq. rewrite <- Nat.add_succ_comm. apply IH; [lia|].
  destruct s1 as [b1 r], s2 as [b2 r2]. destruct S as [Sb Sr]. cbn [fst snd] in *. subst r2. unfold sha1_00_15, sha1_ROUND. cbn [fst snd]. rewrite land15 by lia. rewrite Z.mod_small by lia. split; cbn [fst snd]; [|reflexivity]. apply agree_set, Sb.
Qed.
Lemma mix_same b1 b2 t : 0 <= t -> agree 16 b1 b2 -> sha1_MIX t b1 = sha1_MIX t b2.
Proof.
  intros Ht H. unfold sha1_MIX, sha1_W. assert (X : forall k, 0 <= k -> b1 (Z.land k 0x0f) = b2 (Z.land k 0x0f)) by (intros k K; apply H; rewrite land15 by lia; change (Z.of_nat 16) with 16; apply Z.mod_pos_bound; lia). rewrite !X by lia. reflexivity.
Qed.
Lemma high_ok rnd : (forall t s1 s2, 0 <= t -> same 16 s1 s2 -> same 16 (rnd s1 t) (rnd s2 t)) ->
  forall n a s1 s2, 0 <= a -> same 16 s1 s2 -> same 16 (fold_left rnd (zseq a n) s1) (fold_left rnd (zseq a n) s2).
Proof. intros R. induction n as [|n IH]; intros a s1 s2 Ha S; [exact S|]. cbn [zseq fold_left]. apply IH; [lia|]. apply R; assumption. Qed.
Ltac same_round := let t := fresh "t" in let Ht := fresh in let Sb := fresh in intros t [b1 r] [b2 r2] Ht [Sb Sr]; cbn [fst snd] in *; subst r2;
  unfold sha1_16_19, sha1_20_39, sha1_40_59, sha1_60_79; cbn [fst snd]; rewrite (mix_same b1 b2 t Ht Sb); unfold sha1_ROUND; cbn [fst snd]; split; cbn [fst snd]; [apply agree_set', Sb|reflexivity].
Lemma sha1_indep h g1 g2 d : fst (sha1_transform h g1 d) = fst (sha1_transform h g2 d).
Proof.
  unfold sha1_transform. set (r0 := {| v1 := nth 0 h 0; v2 := nth 1 h 0; v3 := nth 2 h 0; v4 := nth 3 h 0; v5 := nth 4 h 0 |}).
  assert (S0 : same 0 (g1, r0) (g2, r0)) by (split; [intros j J; lia|reflexivity]).
  apply (low_ok d 16 0) in S0; [|lia]. cbn [Nat.add] in S0. change (Z.of_nat 0) with 0 in S0.
  apply (high_ok sha1_16_19 ltac:(same_round) 4 16) in S0; [|lia]. apply (high_ok sha1_20_39 ltac:(same_round) 20 20) in S0; [|lia].
  apply (high_ok sha1_40_59 ltac:(same_round) 20 40) in S0; [|lia]. apply (high_ok sha1_60_79 ltac:(same_round) 20 60) in S0; [|lia].
  destruct S0 as [_ E]. cbv zeta.
  repeat match type of E with snd ?a = snd ?b => set (s1 := a) in *; set (s2 := b) in * end. clearbody s1 s2. destruct s1 as [b1 r1], s2 as [b2 r2]. cbn [snd] in E. subst r2. reflexivity.
Qed.
Lemma load_same d : forall n a b1 b2, (a + n <= 16)%nat -> agree a b1 b2 -> agree (a + n) (fold_left (sha2_LOAD d) (zseq (Z.of_nat a) n) b1) (fold_left (sha2_LOAD d) (zseq (Z.of_nat a) n) b2).
Proof. induction n as [|n IH]; intros a b1 b2 H S; [rewrite Nat.add_0_r; exact S|]. rewrite zseq_seq. cbn [seq map fold_left]. rewrite <- zseq_seq. rewrite <- Nat.add_succ_comm. apply IH; [lia|]. apply agree_set, S. Qed.
Lemma blend_same : forall n a b1 b2, (16 <= a)%nat -> agree a b1 b2 -> agree (a + n) (fold_left sha2_BLEND (zseq (Z.of_nat a) n) b1) (fold_left sha2_BLEND (zseq (Z.of_nat a) n) b2).
Proof.
  induction n as [|n IH]; intros a b1 b2 H S; [rewrite Nat.add_0_r; exact S|]. rewrite zseq_seq. cbn [seq map fold_left]. rewrite <- zseq_seq. rewrite <- Nat.add_succ_comm. apply IH; [lia|]. unfold sha2_BLEND.
  rewrite (S (Z.of_nat a - 2)), (S (Z.of_nat a - 7)), (S (Z.of_nat a - 15)), (S (Z.of_nat a - 16)) by lia. apply agree_set, S.
Qed.
Lemma round_same c b1 b2 A B C D E F G H : b1 c = b2 c -> sha2_ROUND c b1 A B C D E F G H = sha2_ROUND c b2 A B C D E F G H.
Proof. intros X. unfold sha2_ROUND. rewrite X. reflexivity. Qed.
Lemma eight_same b1 b2 r c : agree 64 b1 b2 -> 0 <= c <= 56 -> sha2_eight b1 r c = sha2_eight b2 r c.
Proof.
  intros A C. assert (X : forall k, 0 <= k < 8 -> b1 (c + k) = b2 (c + k)) by (intros k K; apply A; change (Z.of_nat 64) with 64; lia). clear A C. destruct r. unfold sha2_eight.
  repeat match goal with |- context [sha2_ROUND (c + ?k) b1 ?A ?B ?C ?D ?E ?F ?G ?H] => rewrite (round_same (c + k) b1 b2 A B C D E F G H) by (apply X; lia); destruct (sha2_ROUND (c + k) b2 A B C D E F G H) end. reflexivity.
Qed.
Lemma sha2_indep h g1 g2 d : fst (sha2_transform h g1 d) = fst (sha2_transform h g2 d).
Proof.
  unfold sha2_transform.
  assert (A : agree 64 (fold_left sha2_BLEND (zseq 16 48) (fold_left (sha2_LOAD d) (zseq 0 16) g1)) (fold_left sha2_BLEND (zseq 16 48) (fold_left (sha2_LOAD d) (zseq 0 16) g2))).
  { apply (blend_same 48 16); [lia|]. apply (load_same d 16 0); [lia|]. intros j J. lia. }
  cbv zeta. revert A. generalize (fold_left sha2_BLEND (zseq 16 48) (fold_left (sha2_LOAD d) (zseq 0 16) g1)) (fold_left sha2_BLEND (zseq 16 48) (fold_left (sha2_LOAD d) (zseq 0 16) g2)). intros b1 b2 A. cbn [fst].
  assert (E : forall l r, Forall (fun c => 0 <= c <= 56) l -> fold_left (sha2_eight b1) l r = fold_left (sha2_eight b2) l r).
  { induction l as [|c l IH]; intros r F; [reflexivity|]. cbn [fold_left]. rewrite (eight_same b1 b2) by (assumption || exact (Forall_inv F)). apply IH, (Forall_inv_tail F). }
  rewrite E by (repeat constructor; lia). reflexivity.
Qed.

(** ** From the code's compression function to the standard's *)
Definition byte64 (b : list Z) : Prop := bytes b /\ length b = 64%nat.
Lemma blocks_ok : forall n l, bytes l -> (64 * n <= length l)%nat -> Forall byte64 (blocks n l).
Proof.
  induction n as [|n IH]; intros l B L; [constructor|]. cbn [blocks]. rewrite <- (firstn_skipn 64 l) in B. apply Forall_app in B. constructor.
  - split; [apply B|]. rewrite firstn_length. lia.
  - apply IH; [apply B|]. rewrite skipn_length. lia.
Qed.
Lemma le_bytes_ok : forall n v, bytes (le_bytes n v).
Proof. induction n as [|n IH]; intros v; [constructor|]. cbn [le_bytes]. constructor; [apply Z.mod_pos_bound; lia|apply IH]. Qed.
Lemma be_bytes_ok n v : bytes (be_bytes n v).
Proof. unfold be_bytes. apply Forall_rev, le_bytes_ok. Qed.
Lemma padded_bytes enc msg : (forall n v, bytes (enc n v)) -> bytes msg -> bytes (padded enc msg).
Proof.
  intros E B. unfold padded. apply Forall_app. split; [exact B|]. apply Forall_app. split; [constructor; [unfold byte; lia|constructor]|]. apply Forall_app. split; [|apply E]. apply Forall_forall. intros x X. apply repeat_spec in X. subst. unfold byte. lia.
Qed.
Lemma digest_ext enc f g iv msg n : (forall n v, bytes (enc n v)) -> bytes msg -> okd n iv -> (forall h b, okd n h -> byte64 b -> f h b = g h b /\ okd n (g h b)) ->
  digest enc f iv msg = digest enc g iv msg /\ okd n (digest enc g iv msg).
Proof.
  intros E B O X. unfold digest. set (p := padded enc msg).
  assert (F : Forall byte64 (blocks (length p / 64) p)) by (apply blocks_ok; [apply padded_bytes; assumption|apply Nat.mul_div_le; lia]).
  revert iv O F. generalize (blocks (length p / 64) p). induction l as [|b l IH]; intros iv O F; [auto|]. cbn [fold_left]. destruct (X iv b O (Forall_inv F)) as [-> O2]. apply IH; [exact O2|apply (Forall_inv_tail F)].
Qed.
Lemma le32_bytes_ok v : le32_bytes v = le_bytes 4 v.
Proof. unfold le32_bytes. cbn [le_bytes]. rewrite !Z.div_div by lia. reflexivity. Qed.
Lemma be32_bytes_ok v : be32_bytes v = be_bytes 4 v.
Proof. unfold be32_bytes, be_bytes. cbn [le_bytes List.rev app]. rewrite !Z.div_div by lia. reflexivity. Qed.
