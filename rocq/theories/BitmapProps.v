(** * C18 - C20: bitmaps *)
From Verif Require Import Lib BitsModel BitsSpec BitsProofs BitmapModel BitmapSpec BitmapProofs.
Ltac Zify.zify_post_hook ::= Z.div_mod_to_equations.

(** ** C18. Destination and sources may be the same bitmap or must not overlap. *)
Definition bm_pre (m : list Z) (d : Z) (ss : list Z) (bits : Z) : Prop :=
  Forall u64 m /\ 0 <= bits <= 2 ^ 32 - 64 /\ in_mem m d bits /\
  Forall (fun s => in_mem m s bits /\ same_or_disjoint d s bits) ss.

Ltac pre H := destruct H as (U & Hb & I & SS); fold nmax in Hb;
  repeat match goal with SS : Forall _ (_ :: _) |- _ => let a := fresh "J" in let b := fresh "D" in
    apply Forall_cons_iff in SS; destruct SS as [[a b] SS] end.

Lemma flag_iff : forall r (P : Prop) (Q : Prop), (r = 0 <-> P) -> (P <-> ~ Q) -> (Q \/ ~ Q) -> (negb (r =? 0) = true <-> Q).
Proof.
  intros r P Q H1 H2 H3. rewrite negb_true_iff, Z.eqb_neq. rewrite H1, H2. tauto.
Qed.
Lemma some_bit_dec : forall (G : Z -> bool) n, (exists i, 0 <= i < n /\ G i = true) \/ ~ (exists i, 0 <= i < n /\ G i = true).
Proof.
  intros G n. destruct (existsb G (zseq 0 (Z.to_nat n))) eqn:E.
  - left. apply existsb_exists in E. destruct E as (x & Hx & Gx). apply zseq_in in Hx. exists x. split; [lia|exact Gx].
  - right. intros (i & Hi & Gi). assert (existsb G (zseq 0 (Z.to_nat n)) = true).
    { apply existsb_exists. exists i. split; [apply zseq_in; lia|exact Gi]. } congruence.
Qed.
Lemma no_bit : forall (G : Z -> bool) n, (forall i, 0 <= i < n -> G i = false) <-> ~ (exists i, 0 <= i < n /\ G i = true).
Proof.
  intros G n. split.
  - intros H (i & Hi & E). rewrite H in E by assumption. discriminate.
  - intros H i Hi. destruct (G i) eqn:E; [|reflexivity]. exfalso. apply H. eauto.
Qed.

Theorem C18_and : forall m d s1 s2 bits, bm_pre m d [s1; s2] bits ->
  exists m' r, comp_and m d s1 s2 bits = Some (m', r) /\
    bitmap_is m d bits (fun i => mbit m s1 i && mbit m s2 i) m' /\
    (r = true <-> exists i, 0 <= i < bits /\ mbit m s1 i && mbit m s2 i = true).
Proof.
  intros m d s1 s2 bits H. pre H. unfold comp_and.
  edestruct (store_all_spec (fun m i => let* a := rd m (s1 + i) in let* b := rd m (s2 + i) in Some (Z.land a b))
    m d bits (fun i => mbit m s1 i && mbit m s2 i)) as (m' & r & -> & B & R); auto.
  - intros i m' Hi A. destruct (src_word m m' d s1 bits i U J D Hi A) as (a & -> & Ua & Ba).
    destruct (src_word m m' d s2 bits i U J0 D0 Hi A) as (b & -> & Ub & Bb).
    eexists. split; [reflexivity|]. split; [apply land_range_l; [lia|exact Ua]|].
    intros j Hj. rewrite Z.land_spec, Ba, Bb by assumption. reflexivity.
  - cbn [fst snd]. eexists _, _. split; [reflexivity|]. split; [exact B|].
    eapply flag_iff; [exact R|apply no_bit|apply (some_bit_dec (fun i => mbit m s1 i && mbit m s2 i))].
Qed.

Theorem C18_andnot : forall m d s1 s2 bits, bm_pre m d [s1; s2] bits ->
  exists m' r, comp_andnot m d s1 s2 bits = Some (m', r) /\
    bitmap_is m d bits (fun i => mbit m s1 i && negb (mbit m s2 i)) m' /\
    (r = true <-> exists i, 0 <= i < bits /\ mbit m s1 i && negb (mbit m s2 i) = true).
Proof.
  intros m d s1 s2 bits H. pre H. unfold comp_andnot.
  edestruct (store_all_spec (fun m i => let* a := rd m (s1 + i) in let* b := rd m (s2 + i) in Some (Z.land a (not64 b)))
    m d bits (fun i => mbit m s1 i && negb (mbit m s2 i))) as (m' & r & -> & B & R); auto.
  - intros i m' Hi A. destruct (src_word m m' d s1 bits i U J D Hi A) as (a & -> & Ua & Ba).
    destruct (src_word m m' d s2 bits i U J0 D0 Hi A) as (b & -> & Ub & Bb).
    eexists. split; [reflexivity|]. split; [apply land_range_l; [lia|exact Ua]|].
    intros j Hj. rewrite Z.land_spec, not64_bits, Ba, Bb by lia.
    replace (j <? 64) with true by (symmetry; apply Z.ltb_lt; lia). reflexivity.
  - cbn [fst snd]. eexists _, _. split; [reflexivity|]. split; [exact B|].
    eapply flag_iff; [exact R|apply no_bit|apply (some_bit_dec (fun i => mbit m s1 i && negb (mbit m s2 i)))].
Qed.

Theorem C18_or : forall m d s1 s2 bits, bm_pre m d [s1; s2] bits ->
  exists m', comp_or m d s1 s2 bits = Some m' /\ bitmap_is m d bits (fun i => mbit m s1 i || mbit m s2 i) m'.
Proof.
  intros m d s1 s2 bits H. pre H. unfold comp_or.
  edestruct (store_all_spec (fun m i => let* a := rd m (s1 + i) in let* b := rd m (s2 + i) in Some (Z.lor a b))
    m d bits (fun i => mbit m s1 i || mbit m s2 i)) as (m' & r & -> & B & R); auto.
  - intros i m' Hi A. destruct (src_word m m' d s1 bits i U J D Hi A) as (a & -> & Ua & Ba).
    destruct (src_word m m' d s2 bits i U J0 D0 Hi A) as (b & -> & Ub & Bb).
    eexists. split; [reflexivity|]. split; [apply lor_range; [lia|exact Ua|exact Ub]|].
    intros j Hj. rewrite Z.lor_spec, Ba, Bb by assumption. reflexivity.
  - eexists. split; [reflexivity|exact B].
Qed.

Theorem C18_xor : forall m d s1 s2 bits, bm_pre m d [s1; s2] bits ->
  exists m', comp_xor m d s1 s2 bits = Some m' /\ bitmap_is m d bits (fun i => xorb (mbit m s1 i) (mbit m s2 i)) m'.
Proof.
  intros m d s1 s2 bits H. pre H. unfold comp_xor.
  edestruct (store_all_spec (fun m i => let* a := rd m (s1 + i) in let* b := rd m (s2 + i) in Some (Z.lxor a b))
    m d bits (fun i => xorb (mbit m s1 i) (mbit m s2 i))) as (m' & r & -> & B & R); auto.
  - intros i m' Hi A. destruct (src_word m m' d s1 bits i U J D Hi A) as (a & -> & Ua & Ba).
    destruct (src_word m m' d s2 bits i U J0 D0 Hi A) as (b & -> & Ub & Bb).
    eexists. split; [reflexivity|]. split; [apply lxor_range; [lia|exact Ua|exact Ub]|].
    intros j Hj. rewrite Z.lxor_spec, Ba, Bb by assumption. reflexivity.
  - eexists. split; [reflexivity|exact B].
Qed.

Theorem C18_complement : forall m d s bits, bm_pre m d [s] bits ->
  exists m', comp_complement m d s bits = Some m' /\ bitmap_is m d bits (fun i => negb (mbit m s i)) m'.
Proof.
  intros m d s bits H. pre H. unfold comp_complement.
  edestruct (store_all_spec (fun m i => let* a := rd m (s + i) in Some (not64 a))
    m d bits (fun i => negb (mbit m s i))) as (m' & r & -> & B & R); auto.
  - intros i m' Hi A. destruct (src_word m m' d s bits i U J D Hi A) as (a & -> & Ua & Ba).
    eexists. split; [reflexivity|]. split; [apply w64_range|].
    intros j Hj. rewrite not64_bits, Ba by lia. replace (j <? 64) with true by (symmetry; apply Z.ltb_lt; lia). reflexivity.
  - eexists. split; [reflexivity|exact B].
Qed.

Theorem C18_replace : forall m d o n k bits, bm_pre m d [o; n; k] bits ->
  exists m', comp_replace m d o n k bits = Some m' /\
    bitmap_is m d bits (fun i => if mbit m k i then mbit m n i else mbit m o i) m'.
Proof.
  intros m d o n k bits H. pre H. unfold comp_replace.
  edestruct (store_all_spec (fun m i => let* a := rd m (o + i) in let* c := rd m (k + i) in let* b := rd m (n + i) in
       Some (Z.lor (Z.land a (not64 c)) (Z.land b c)))
    m d bits (fun i => if mbit m k i then mbit m n i else mbit m o i)) as (m' & r & -> & B & R); auto.
  - intros i m' Hi A. destruct (src_word m m' d o bits i U J D Hi A) as (a & -> & Ua & Ba).
    destruct (src_word m m' d n bits i U J0 D0 Hi A) as (b & -> & Ub & Bb).
    destruct (src_word m m' d k bits i U J1 D1 Hi A) as (c & -> & Uc & Bc).
    eexists. split; [reflexivity|]. split; [apply lor_range; [lia|apply land_range_l; [lia|exact Ua]|apply land_range_l; [lia|exact Ub]]|].
    intros j Hj. rewrite Z.lor_spec, !Z.land_spec, not64_bits, Ba, Bb, Bc by lia.
    replace (j <? 64) with true by (symmetry; apply Z.ltb_lt; lia).
    destruct (mbit m k (64 * i + j)), (mbit m n (64 * i + j)), (mbit m o (64 * i + j)); reflexivity.
  - eexists. split; [reflexivity|exact B].
Qed.

(** Comparisons look at exactly the first [bits] bits. *)
Definition cmp_pre (m : list Z) (ss : list Z) (bits : Z) : Prop :=
  Forall u64 m /\ 0 <= bits <= 2 ^ 32 - 64 /\ Forall (fun s => in_mem m s bits) ss.

Lemma src_word0 : forall m s bits i, Forall u64 m -> in_mem m s bits -> 0 <= i < nwords bits ->
  exists w, rd m (s + i) = Some w /\ u64 w /\ forall j, 0 <= j < 64 -> Z.testbit w j = mbit m s (64 * i + j).
Proof.
  intros m s bits i U I Hi. apply (src_word m m s s bits i); auto; [left; reflexivity|split; auto].
Qed.

Lemma eq_words : forall a b (f g : Z -> bool), u64 a -> u64 b ->
  (forall j, 0 <= j < 64 -> Z.testbit a j = f j) -> (forall j, 0 <= j < 64 -> Z.testbit b j = g j) ->
  (negb (a =? b) = true <-> exists j, 0 <= j < 64 /\ xorb (f j) (g j) = true).
Proof.
  intros a b f g Ua Ub Ha Hb.
  assert (E : (a =? b) = (Z.lxor a b =? 0)).
  { destruct (Z.eqb_spec a b) as [->|N]; [rewrite Z.lxor_nilpotent; reflexivity|].
    symmetry. apply Z.eqb_neq. intros Q. apply Z.lxor_eq in Q. contradiction. }
  rewrite E. rewrite nonzero_bits by (apply lxor_range; [lia|exact Ua|exact Ub]).
  split; intros (j & Hj & Q); exists j; (split; [exact Hj|]); rewrite Z.lxor_spec, Ha, Hb in * by assumption; exact Q.
Qed.

Lemma nw_cases : forall bits, 0 <= bits -> bits / 64 <= nwords bits /\ (bits mod 64 <> 0 -> bits / 64 < nwords bits).
Proof. intros. unfold nwords. lia. Qed.

Theorem C18_equal : forall m s1 s2 bits, cmp_pre m [s1; s2] bits ->
  exists r, comp_equal m s1 s2 bits = Some r /\ (r = true <-> forall i, 0 <= i < bits -> mbit m s1 i = mbit m s2 i).
Proof.
  intros m s1 s2 bits (U & Hb & SS). apply Forall_cons_iff in SS. destruct SS as [I1 SS]. apply Forall_cons_iff in SS. destruct SS as [I2 _].
  destruct (nw_cases bits ltac:(lia)) as [N1 N2].
  destruct (scan_all (fun i => xorb (mbit m s1 i) (mbit m s2 i))
    (fun i => let* a := rd m (s1 + i) in let* b := rd m (s2 + i) in Some (negb (a =? b))) bits
    (let* a := rd m (s1 + bits / 64) in let* b := rd m (s2 + bits / 64) in Some (Z.lxor a b))) as (r & E & Hr); [lia| | |].
  - intros i Hi. destruct (src_word0 m s1 bits i U I1 ltac:(lia)) as (a & -> & Ua & Ba).
    destruct (src_word0 m s2 bits i U I2 ltac:(lia)) as (b & -> & Ub & Bb).
    eexists. split; [reflexivity|]. apply (eq_words a b (fun j => mbit m s1 (64*i+j)) (fun j => mbit m s2 (64*i+j))); assumption.
  - intros M. destruct (src_word0 m s1 bits (bits / 64) U I1 ltac:(lia)) as (a & -> & Ua & Ba).
    destruct (src_word0 m s2 bits (bits / 64) U I2 ltac:(lia)) as (b & -> & Ub & Bb).
    eexists. split; [reflexivity|]. split; [apply lxor_range; [lia|exact Ua|exact Ub]|].
    intros j Hj. rewrite Z.lxor_spec, Ba, Bb by assumption. reflexivity.
  - exists (negb r). split.
    + unfold comp_equal. cbv zeta in *. destruct (scan_loop _ 0 _) as [[|]|]; [injection E as <-; reflexivity| |discriminate].
      destruct (bits mod 64 =? 0); [injection E as <-; reflexivity|].
      destruct (rd m (s1 + bits / 64)); [|discriminate]. destruct (rd m (s2 + bits / 64)); [|discriminate].
      injection E as <-. destruct (Z.land (Z.lxor z z0) (LOW_MASK bits) =? 0); reflexivity.
    + rewrite negb_true_iff. split.
      * intros -> i Hi. destruct (xorb (mbit m s1 i) (mbit m s2 i)) eqn:X; [|apply xorb_eq; exact X].
        exfalso. assert (false = true) by (apply Hr; eauto). discriminate.
      * intros H. destruct r; [|reflexivity]. destruct (proj1 Hr eq_refl) as (k & Hk & X). rewrite H, xorb_nilpotent in X by assumption. discriminate.
Qed.

Theorem C18_or_equal : forall m s1 s2 s3 bits, cmp_pre m [s1; s2; s3] bits ->
  exists r, comp_or_equal m s1 s2 s3 bits = Some r /\
    (r = true <-> forall i, 0 <= i < bits -> mbit m s1 i || mbit m s2 i = mbit m s3 i).
Proof.
  intros m s1 s2 s3 bits (U & Hb & SS). apply Forall_cons_iff in SS. destruct SS as [I1 SS]. apply Forall_cons_iff in SS. destruct SS as [I2 SS].
  apply Forall_cons_iff in SS. destruct SS as [I3 _].
  destruct (nw_cases bits ltac:(lia)) as [N1 N2].
  destruct (scan_all (fun i => xorb (mbit m s1 i || mbit m s2 i) (mbit m s3 i))
    (fun i => let* a := rd m (s1 + i) in let* b := rd m (s2 + i) in let* c := rd m (s3 + i) in Some (negb (Z.lor a b =? c))) bits
    (let* a := rd m (s1 + bits / 64) in let* b := rd m (s2 + bits / 64) in let* c := rd m (s3 + bits / 64) in Some (Z.lxor (Z.lor a b) c))) as (r & E & Hr); [lia| | |].
  - intros i Hi. destruct (src_word0 m s1 bits i U I1 ltac:(lia)) as (a & -> & Ua & Ba).
    destruct (src_word0 m s2 bits i U I2 ltac:(lia)) as (b & -> & Ub & Bb).
    destruct (src_word0 m s3 bits i U I3 ltac:(lia)) as (c & -> & Uc & Bc).
    eexists. split; [reflexivity|].
    apply (eq_words (Z.lor a b) c (fun j => mbit m s1 (64*i+j) || mbit m s2 (64*i+j)) (fun j => mbit m s3 (64*i+j))); auto.
    + apply lor_range; [lia|exact Ua|exact Ub].
    + intros j Hj. rewrite Z.lor_spec, Ba, Bb by assumption. reflexivity.
  - intros M. destruct (src_word0 m s1 bits (bits / 64) U I1 ltac:(lia)) as (a & -> & Ua & Ba).
    destruct (src_word0 m s2 bits (bits / 64) U I2 ltac:(lia)) as (b & -> & Ub & Bb).
    destruct (src_word0 m s3 bits (bits / 64) U I3 ltac:(lia)) as (c & -> & Uc & Bc).
    eexists. split; [reflexivity|]. split; [apply lxor_range; [lia|apply lor_range; [lia|exact Ua|exact Ub]|exact Uc]|].
    intros j Hj. rewrite Z.lxor_spec, Z.lor_spec, Ba, Bb, Bc by assumption. reflexivity.
  - exists (negb r). split.
    + unfold comp_or_equal. cbv zeta in *. destruct (scan_loop _ 0 _) as [[|]|]; [injection E as <-; reflexivity| |discriminate].
      destruct (bits mod 64 =? 0); [injection E as <-; reflexivity|].
      destruct (rd m (s1 + bits / 64)); [|discriminate]. destruct (rd m (s2 + bits / 64)); [|discriminate].
      destruct (rd m (s3 + bits / 64)); [|discriminate].
      injection E as <-. destruct (Z.land _ (LOW_MASK bits) =? 0); reflexivity.
    + rewrite negb_true_iff. split.
      * intros -> i Hi. destruct (xorb (mbit m s1 i || mbit m s2 i) (mbit m s3 i)) eqn:X; [|apply xorb_eq; exact X].
        exfalso. assert (false = true) by (apply Hr; eauto). discriminate.
      * intros H. destruct r; [|reflexivity]. destruct (proj1 Hr eq_refl) as (k & Hk & X). rewrite H, xorb_nilpotent in X by assumption. discriminate.
Qed.

Theorem C18_intersects : forall m s1 s2 bits, cmp_pre m [s1; s2] bits ->
  exists r, comp_intersects m s1 s2 bits = Some r /\
    (r = true <-> exists i, 0 <= i < bits /\ mbit m s1 i = true /\ mbit m s2 i = true).
Proof.
  intros m s1 s2 bits (U & Hb & SS). apply Forall_cons_iff in SS. destruct SS as [I1 SS]. apply Forall_cons_iff in SS. destruct SS as [I2 _].
  destruct (nw_cases bits ltac:(lia)) as [N1 N2].
  destruct (scan_all (fun i => mbit m s1 i && mbit m s2 i)
    (fun i => let* a := rd m (s1 + i) in let* b := rd m (s2 + i) in Some (negb (Z.land a b =? 0))) bits
    (let* a := rd m (s1 + bits / 64) in let* b := rd m (s2 + bits / 64) in Some (Z.land a b))) as (r & E & Hr); [lia| | |].
  - intros i Hi. destruct (src_word0 m s1 bits i U I1 ltac:(lia)) as (a & -> & Ua & Ba).
    destruct (src_word0 m s2 bits i U I2 ltac:(lia)) as (b & -> & Ub & Bb).
    eexists. split; [reflexivity|]. rewrite nonzero_bits by (apply land_range_l; [lia|exact Ua]).
    split; intros (j & Hj & Q); exists j; (split; [exact Hj|]); rewrite Z.land_spec, Ba, Bb in * by assumption; exact Q.
  - intros M. destruct (src_word0 m s1 bits (bits / 64) U I1 ltac:(lia)) as (a & -> & Ua & Ba).
    destruct (src_word0 m s2 bits (bits / 64) U I2 ltac:(lia)) as (b & -> & Ub & Bb).
    eexists. split; [reflexivity|]. split; [apply land_range_l; [lia|exact Ua]|].
    intros j Hj. rewrite Z.land_spec, Ba, Bb by assumption. reflexivity.
  - exists r. split.
    + unfold comp_intersects. cbv zeta in *. destruct (scan_loop _ 0 _) as [[|]|]; [exact E| |discriminate].
      destruct (bits mod 64 =? 0); [exact E|].
      destruct (rd m (s1 + bits / 64)); [|discriminate]. destruct (rd m (s2 + bits / 64)); [|discriminate].
      rewrite <- E. destruct (Z.land (Z.land z z0) (LOW_MASK bits) =? 0); reflexivity.
    + rewrite Hr. split; intros (i & Hi & Q); exists i; (split; [exact Hi|]); [apply andb_prop; exact Q|apply andb_true_intro; exact Q].
Qed.

(** The inline versions used for constant lengths up to 64 (bits = 1..64). *)
Theorem C18_small_partial : forall a b bits, u64 a -> u64 b -> 1 <= bits <= 64 ->
  let inr := fun i => i <? bits in
  (intersects_small a b bits = true <-> exists i, 0 <= i < bits /\ Z.testbit a i && Z.testbit b i = true) /\
  (empty_small a bits = true <-> forall i, 0 <= i < bits -> Z.testbit a i = false) /\
  (full_small a bits = true <-> forall i, 0 <= i < bits -> Z.testbit a i = true) /\
  (forall i, 0 <= i < 64 ->
     Z.testbit (and_small a b bits) i = inr i && (Z.testbit a i && Z.testbit b i) /\
     Z.testbit (andnot_small a b bits) i = inr i && (Z.testbit a i && negb (Z.testbit b i)) /\
     Z.testbit (or_small a b bits) i = inr i && (Z.testbit a i || Z.testbit b i) /\
     Z.testbit (xor_small a b bits) i = inr i && xorb (Z.testbit a i) (Z.testbit b i) /\
     Z.testbit (complement_small a bits) i = inr i && negb (Z.testbit a i)).
Proof.
  intros a b bits Ua Ub Hb inr.
  assert (LM : forall j, 0 <= j < 64 -> Z.testbit (LOW_MASK bits) j = inr j).
  { intros j Hj. unfold inr. destruct (Z.eq_dec bits 64) as [->|N].
    - rewrite LOW_MASK_full, ulong_max_bits by (reflexivity || lia). reflexivity.
    - rewrite LOW_MASK_bits by lia. rewrite Z.mod_small by lia. reflexivity. }
  assert (LR := LOW_MASK_range bits).
  assert (NB : forall j, 0 <= j < 64 -> forall v, Z.testbit (not64 v) j = negb (Z.testbit v j)).
  { intros j Hj v. rewrite not64_bits by lia. replace (j <? 64) with true by (symmetry; apply Z.ltb_lt; lia). reflexivity. }
  split; [|split; [|split]].
  - unfold intersects_small. rewrite nonzero_bits by (apply land_range_r; [lia|exact LR]). split.
    + intros (j & Hj & Q). rewrite !Z.land_spec, LM in Q by assumption. apply andb_prop in Q. destruct Q as [Q1 Q2].
      apply Z.ltb_lt in Q2. exists j. split; [lia|exact Q1].
    + intros (j & Hj & Q). exists j. split; [lia|]. rewrite !Z.land_spec, LM by lia. rewrite Q. cbn [andb]. unfold inr. apply Z.ltb_lt. lia.
  - unfold empty_small. rewrite Z.eqb_eq, (word_zero _) by (apply land_range_r; [lia|exact LR]). split.
    + intros H i Hi. specialize (H i ltac:(lia)). rewrite Z.land_spec, LM in H by lia. unfold inr in H.
      replace (i <? bits) with true in H by (symmetry; apply Z.ltb_lt; lia). rewrite andb_true_r in H. exact H.
    + intros H j Hj. rewrite Z.land_spec, LM by lia. unfold inr. destruct (Z.ltb_spec j bits); [rewrite H by lia; reflexivity|apply andb_false_r].
  - unfold full_small. rewrite Z.eqb_eq, (word_zero _) by (apply land_range_r; [lia|exact LR]). split.
    + intros H i Hi. specialize (H i ltac:(lia)). rewrite Z.land_spec, LM, NB in H by lia. unfold inr in H.
      replace (i <? bits) with true in H by (symmetry; apply Z.ltb_lt; lia). rewrite andb_true_r in H. apply negb_false_iff. exact H.
    + intros H j Hj. rewrite Z.land_spec, LM, NB by lia. unfold inr. destruct (Z.ltb_spec j bits); [rewrite H by lia; reflexivity|apply andb_false_r].
  - intros i Hi. unfold and_small, andnot_small, or_small, xor_small, complement_small.
    rewrite !Z.land_spec, Z.lor_spec, Z.lxor_spec, LM, !NB by assumption.
    repeat split; apply andb_comm.
Qed.

(** The full statement also covers the inline [bfdev_bitmap_equal] and
    [bfdev_bitmap_or_equal]; these answer the opposite: *)
Theorem C18_small_equal_refuted : exists a b bits, u64 a /\ u64 b /\ 1 <= bits <= 64 /\
  (forall i, 0 <= i < bits -> Z.testbit a i = Z.testbit b i) /\ equal_small a b bits = false /\
  or_equal_small a b b bits = false.
Proof. exists 5, 5, 8. unfold u64. repeat split; lia || (vm_compute; reflexivity). Qed.
(** in fact on every input: *)
Theorem C18_small_equal_inverted : forall a b bits, u64 a -> u64 b -> 1 <= bits <= 64 ->
  (equal_small a b bits = false <-> forall i, 0 <= i < bits -> Z.testbit a i = Z.testbit b i).
Proof.
  intros a b bits Ua Ub Hb. unfold equal_small. rewrite negb_false_iff, Z.eqb_eq.
  rewrite word_zero by (apply land_range_r; [lia|apply LOW_MASK_range]).
  assert (LM : forall j, 0 <= j < 64 -> Z.testbit (LOW_MASK bits) j = (j <? bits)).
  { intros j Hj. destruct (Z.eq_dec bits 64) as [->|N].
    - rewrite LOW_MASK_full, ulong_max_bits by (reflexivity || lia). reflexivity.
    - rewrite LOW_MASK_bits by lia. rewrite Z.mod_small by lia. reflexivity. }
  split.
  - intros H i Hi. specialize (H i ltac:(lia)). rewrite Z.land_spec, Z.lxor_spec, LM in H by lia.
    replace (i <? bits) with true in H by (symmetry; apply Z.ltb_lt; lia). rewrite andb_true_r in H. apply xorb_eq. exact H.
  - intros H j Hj. rewrite Z.land_spec, Z.lxor_spec, LM by lia. destruct (Z.ltb_spec j bits); [|apply andb_false_r].
    rewrite H, xorb_nilpotent by lia. reflexivity.
Qed.

Example C18_ex : bm_pre [7; 255; 5; 258] 0 [0; 2] 70 /\ comp_and [7; 255; 5; 258] 0 0 2 70 = Some ([5; 2; 5; 258], true) /\
  comp_equal [7; 255; 7; 255 + 64] 0 2 70 = Some true.
Proof.
  split; [|vm_compute; auto]. split; [repeat constructor; unfold u64; lia|]. split; [lia|].
  split; [split; unfold nwords, zlen; cbn; lia|].
  apply Forall_cons; [|apply Forall_cons; [|constructor]]; split; try (split; unfold nwords, zlen; cbn; lia);
    unfold same_or_disjoint, nwords; cbn; lia.
Qed.

(** ** C19 *)
(** Left shift, in place or between disjoint bitmaps. *)
Theorem C19_shl : forall m d s shift bits, bm_pre m d [s] bits -> 0 <= shift < 2 ^ 32 ->
  exists m', comp_shl m d s shift bits = Some m' /\ zlen m' = zlen m /\
    (forall i, 0 <= i < bits -> mbit m' d i = if i <? shift then false else mbit m s (i - shift)) /\
    (forall a, ~ (d <= a < d + nwords bits) -> rd m' a = rd m a).
Proof.
  intros m d s shift bits H Hs. pre H.
  destruct (comp_shl_spec m d s shift bits U Hb ltac:(lia) I J D) as (m' & E & L & _ & B & O). eauto 6.
Qed.
(** Right shift: only for lengths that are a multiple of 64. *)
Theorem C19_shr_partial : forall m d s shift bits, bm_pre m d [s] bits -> 0 <= shift < 2 ^ 32 -> bits mod 64 = 0 ->
  exists m', comp_shr m d s shift bits = Some m' /\ zlen m' = zlen m /\
    (forall i, 0 <= i < bits -> mbit m' d i = if i + shift <? bits then mbit m s (i + shift) else false) /\
    (forall a, ~ (d <= a < d + nwords bits) -> rd m' a = rd m a).
Proof.
  intros m d s shift bits H Hs M. pre H.
  destruct (comp_shr_spec m d s shift bits U Hb M ltac:(lia) I J D) as (m' & E & L & _ & B & O). eauto 6.
Qed.
(** For other lengths it is wrong: the partial word is shifted left. *)
Theorem C19_shr_refuted : exists m d s shift bits m' i, bm_pre m d [s] bits /\ 0 <= shift < 2 ^ 32 /\
  comp_shr m d s shift bits = Some m' /\ 0 <= i < bits /\
  mbit m' d i <> (if i + shift <? bits then mbit m s (i + shift) else false).
Proof.
  exists [4], 0, 0, 1, 10, [8], 3.
  split; [|split; [lia|split; [vm_compute; reflexivity|split; [lia|vm_compute; discriminate]]]].
  split; [repeat constructor; unfold u64; lia|]. split; [lia|].
  split; [split; unfold nwords, zlen; cbn; lia|].
  repeat constructor; unfold nwords, zlen; cbn; try lia.
Qed.
Example C19_ex : comp_shl [0x8000000000000001; 1] 0 0 4 70 = Some [16; 0x18] /\
  comp_shr [0x10; 0x18] 0 0 4 128 = Some [0x8000000000000001; 1].
Proof. vm_compute. auto. Qed.

(** Inline right/left shift for constant lengths. *)
Theorem C19_small : forall a shift bits, u64 a -> 1 <= bits <= 64 -> 0 <= shift < 64 ->
  (exists w, shl_small a shift bits = Some w /\ forall i, 0 <= i < 64 ->
     Z.testbit w i = (i <? bits) && (shift <=? i) && Z.testbit a (i - shift)) /\
  (exists w, shr_small a shift bits = Some w /\ forall i, 0 <= i < 64 ->
     Z.testbit w i = (i + shift <? bits) && Z.testbit a (i + shift)).
Proof.
  intros a shift bits Ua Hb Hs.
  assert (LM : forall j, 0 <= j < 64 -> Z.testbit (LOW_MASK bits) j = (j <? bits)).
  { intros j Hj. destruct (Z.eq_dec bits 64) as [->|N].
    - rewrite LOW_MASK_full, ulong_max_bits by (reflexivity || lia). reflexivity.
    - rewrite LOW_MASK_bits by lia. rewrite Z.mod_small by lia. reflexivity. }
  unfold shl_small, shr_small. replace (shift <? 64) with true by (symmetry; apply Z.ltb_lt; lia).
  split; eexists; (split; [reflexivity|]); intros i Hi.
  - rewrite Z.land_spec, LM, w64_bits, Z.shiftl_spec by lia.
    replace (i <? 64) with true by (symmetry; apply Z.ltb_lt; lia). cbn [andb].
    destruct (Z.leb_spec shift i).
    + rewrite andb_true_r. apply andb_comm.
    + rewrite Z.testbit_neg_r by lia. rewrite andb_false_r. reflexivity.
  - rewrite Z.shiftr_spec, Z.land_spec by lia. destruct (Z_lt_dec (i + shift) 64).
    + rewrite LM by lia. apply andb_comm.
    + rewrite (testbit_small a 64) by (exact Ua || lia). rewrite andb_false_r. reflexivity.
Qed.

(** ** C20 *)
Definition range_ok (m : list Z) (map start bits : Z) (x : bool) (m' : list Z) : Prop :=
  zlen m' = zlen m /\
  (forall i, 0 <= i -> mbit m' map i = if (start <=? i) && (i <? start + bits) then x else mbit m map i) /\
  (forall a, a < map -> rd m' a = rd m a).

Lemma range_loop_ok : forall apply x,
  (forall w mask, u64 w -> u64 mask -> u64 (apply w mask) /\
     forall j, 0 <= j < 64 -> Z.testbit (apply w mask) j = if Z.testbit mask j then x else Z.testbit w j) ->
  forall m map start bits, 0 <= map -> 0 <= start -> 0 < bits -> start + bits < 2 ^ 32 -> (start + bits) mod 64 = 0 ->
  map + (start + bits) / 64 <= zlen m ->
  forall fuel m1 b mask,
  0 < b <= bits -> Z.of_nat fuel >= (start + bits) / 64 - (start + bits - b) / 64 ->
  let p := start + bits - b in
  mask = HIGH_MASK p -> zlen m1 = zlen m -> Forall u64 m1 ->
  (forall i, 0 <= i -> mbit m1 map i = if (start <=? i) && (i <? p) then x else mbit m map i) ->
  (forall a, a < map -> rd m1 a = rd m a) ->
  exists m2 curr b2 mask2, range_loop fuel apply m1 (map + p / 64) b (64 - p mod 64) mask = Some (m2, curr, b2, mask2) /\
    let p2 := start + bits - b2 in
    0 < b2 <= bits /\ b2 = 64 - p2 mod 64 /\ curr = map + p2 / 64 /\ mask2 = HIGH_MASK p2 /\
    zlen m2 = zlen m /\ Forall u64 m2 /\
    (forall i, 0 <= i -> mbit m2 map i = if (start <=? i) && (i <? p2) then x else mbit m map i) /\
    (forall a, a < map -> rd m2 a = rd m a).
Proof.
  intros apply x AP m map start bits Hm Hs Hb Hsz Hmod Hl.
  induction fuel as [|fuel IH]; intros m1 b mask Hbb Hf p Hmask L U B O; cbn [range_loop].
  - exfalso. unfold p in *. lia.
  - assert (GE : 64 - p mod 64 <= b) by (unfold p; lia).
    assert (P0 : 0 <= p mod 64 < 64) by lia.
    rewrite w32_small by lia. destruct (Z.eqb_spec (b - (64 - p mod 64)) 0) as [E|E].
    + exists m1, (map + p / 64), b, mask. split; [reflexivity|]. fold p. cbv zeta. repeat split; auto; lia.
    + assert (PR : 0 <= map + p / 64 < zlen m1) by (unfold p in *; lia).
      destruct (rd_some _ m1 _ PR) as [w Ew]. rewrite Ew.
      destruct (AP w mask) as [Uw Bw]; [eapply rd_u64; eauto|subst mask; apply HIGH_MASK_range|].
      destruct (wr_spec _ m1 (map + p / 64) (apply w mask) PR) as (m1' & E1 & L1 & R1). rewrite E1.
      specialize (IH m1' (b - (64 - p mod 64)) ULONG_MAX ltac:(lia)). cbv zeta in IH.
      set (p' := start + bits - (b - (64 - p mod 64))) in *.
      assert (PP : p' = 64 * (p / 64 + 1)) by (unfold p', p; lia).
      replace (map + p / 64 + 1) with (map + p' / 64) by lia.
      replace (64 - p' mod 64) with 64 in IH by lia.
      apply IH; clear IH.
      * unfold p in *; lia.
      * unfold HIGH_MASK. rewrite (land_ones' _ 63 6) by (auto; lia). replace (p' mod 2 ^ 6) with 0 by (change (2 ^ 6) with 64; lia). reflexivity.
      * lia.
      * eapply wr_u64; eauto.
      * intros i Hi. rewrite (mbit_wr _ _ _ _ _ _ E1). destruct (Z.eqb_spec (i / 64) (p / 64)) as [Q|Q].
        -- rewrite Bw by lia. rewrite Hmask, HIGH_MASK_bits by lia.
           assert (W : Z.testbit w (i mod 64) = mbit m1 map i) by (unfold mbit; rewrite Q, Ew; reflexivity).
           rewrite W, B by lia.
           destruct (Z.leb_spec (p mod 64) (i mod 64)), (Z.leb_spec start i), (Z.ltb_spec i p), (Z.ltb_spec i p'); cbn [andb]; try reflexivity; unfold p in *; lia.
        -- rewrite B by lia. destruct (Z.leb_spec start i), (Z.ltb_spec i p), (Z.ltb_spec i p'); cbn [andb]; try reflexivity; lia.
      * intros a Ha. rewrite R1. replace (a =? map + p / 64) with false by (symmetry; apply Z.eqb_neq; unfold p in *; lia). apply O. lia.
Qed.

Lemma comp_range_ok : forall apply x,
  (forall w mask, u64 w -> u64 mask -> u64 (apply w mask) /\
     forall j, 0 <= j < 64 -> Z.testbit (apply w mask) j = if Z.testbit mask j then x else Z.testbit w j) ->
  forall m map start bits, Forall u64 m -> 0 <= map -> 0 <= start -> 0 < bits -> start + bits < 2 ^ 32 ->
  (start + bits) mod 64 = 0 -> map + (start + bits) / 64 <= zlen m ->
  exists m', comp_range apply m map start bits = Some m' /\ range_ok m map start bits x m'.
Proof.
  intros apply x AP m map start bits U Hm Hs Hb Hsz Hmod Hl. unfold comp_range.
  destruct (range_loop_ok apply x AP m map start bits Hm Hs Hb Hsz Hmod Hl (S (length m)) m bits (HIGH_MASK start))
    as (m2 & curr & b2 & mask2 & E & P); auto.
  - lia.
  - unfold zlen in Hl. lia.
  - f_equal. lia.
  - intros i Hi. replace (start + bits - bits) with start by lia. destruct (Z.leb_spec start i), (Z.ltb_spec i start); cbn [andb]; auto; lia.
  - replace (start + bits - bits) with start in E by lia. rewrite E. cbv zeta in P.
    set (p2 := start + bits - b2) in *. destruct P as (P1 & P2 & P3 & P4 & P5 & P6 & P7 & P8).
    replace (b2 =? 0) with false by (symmetry; apply Z.eqb_neq; lia). cbn [negb].
    rewrite w32_small by lia. rewrite LOW_MASK_full by lia.
    assert (MM : Z.land mask2 ULONG_MAX = mask2).
    { subst mask2. apply (word_ext 64); [apply land_range_l; [lia|apply HIGH_MASK_range]|apply HIGH_MASK_range|].
      intros i Hi. rewrite Z.land_spec, ulong_max_bits by lia. replace (i <? 64) with true by (symmetry; apply Z.ltb_lt; lia). apply andb_true_r. }
    rewrite MM. assert (PR : 0 <= curr < zlen m2) by (unfold p2 in *; lia).
    destruct (rd_some _ m2 _ PR) as [w Ew]. rewrite Ew.
    destruct (AP w mask2) as [Uw Bw]; [eapply rd_u64; eauto|subst mask2; apply HIGH_MASK_range|].
    destruct (wr_spec _ m2 curr (apply w mask2) PR) as (m' & E' & L' & R'). rewrite E'.
    exists m'. split; [reflexivity|]. split; [lia|]. split.
    + intros i Hi. rewrite P3 in E', Ew. rewrite (mbit_wr _ _ _ _ _ _ E'). destruct (Z.eqb_spec (i / 64) (p2 / 64)) as [Q|Q].
      * rewrite Bw by lia. rewrite P4, HIGH_MASK_bits by lia.
        assert (W : Z.testbit w (i mod 64) = mbit m2 map i) by (unfold mbit; rewrite Q, Ew; reflexivity).
        rewrite W, P7 by lia.
        destruct (Z.leb_spec (p2 mod 64) (i mod 64)), (Z.leb_spec start i), (Z.ltb_spec i p2), (Z.ltb_spec i (start + bits)); cbn [andb]; try reflexivity; unfold p2 in *; lia.
      * rewrite P7 by lia. destruct (Z.leb_spec start i), (Z.ltb_spec i p2), (Z.ltb_spec i (start + bits)); cbn [andb]; try reflexivity; unfold p2 in *; lia.
    + intros a Ha. rewrite R'. replace (a =? curr) with false by (symmetry; apply Z.eqb_neq; unfold p2 in *; lia). apply P8. lia.
Qed.

Lemma set_apply : forall w mask, u64 w -> u64 mask -> u64 (Z.lor w mask) /\
  forall j, 0 <= j < 64 -> Z.testbit (Z.lor w mask) j = if Z.testbit mask j then true else Z.testbit w j.
Proof.
  intros w mask H1 H2. split; [apply lor_range; [lia|exact H1|exact H2]|]. intros j Hj. rewrite Z.lor_spec.
  destruct (Z.testbit mask j); [apply orb_true_r|apply orb_false_r].
Qed.
Lemma clr_apply : forall w mask, u64 w -> u64 mask -> u64 (Z.land w (not64 mask)) /\
  forall j, 0 <= j < 64 -> Z.testbit (Z.land w (not64 mask)) j = if Z.testbit mask j then false else Z.testbit w j.
Proof.
  intros w mask H1 H2. split; [apply land_range_l; [lia|exact H1]|]. intros j Hj. rewrite Z.land_spec, not64_bits by lia.
  replace (j <? 64) with true by (symmetry; apply Z.ltb_lt; lia).
  destruct (Z.testbit mask j); [apply andb_false_r|apply andb_true_r].
Qed.

(** Ranges that end at a word boundary. Missing from the full statement: every other range,
    for which it is false, see below. *)
Theorem C20_set_partial : forall m map start bits, Forall u64 m -> 0 <= map -> 0 <= start -> 0 < bits ->
  start + bits < 2 ^ 32 -> (start + bits) mod 64 = 0 -> map + (start + bits) / 64 <= zlen m ->
  exists m', comp_set m map start bits = Some m' /\ range_ok m map start bits true m'.
Proof. exact (comp_range_ok _ true set_apply). Qed.
Theorem C20_clr_partial : forall m map start bits, Forall u64 m -> 0 <= map -> 0 <= start -> 0 < bits ->
  start + bits < 2 ^ 32 -> (start + bits) mod 64 = 0 -> map + (start + bits) / 64 <= zlen m ->
  exists m', comp_clr m map start bits = Some m' /\ range_ok m map start bits false m'.
Proof. exact (comp_range_ok _ false clr_apply). Qed.

(** A range that ends inside a word makes the loop run off the end of memory, whatever
    its size: the loop condition [bits - bits_to_set] is never zero. *)
Lemma range_loop_never : forall apply fuel m curr b btos mask,
  (b - btos) mod 64 <> 0 -> range_loop fuel apply m curr b btos mask = None.
Proof.
  intros apply. induction fuel as [|fuel IH]; intros m curr b btos mask H; cbn [range_loop].
  - assert (w32 (b - btos) <> 0) by (unfold w32; intros E; apply H; rewrite (Znumtheory.Zmod_div_mod 64 (2 ^ 32)); [rewrite E; reflexivity|lia|lia|exists (2 ^ 26); reflexivity]).
    destruct (Z.eqb_spec (w32 (b - btos)) 0); [contradiction|reflexivity].
  - assert (w32 (b - btos) <> 0) by (unfold w32; intros E; apply H; rewrite (Znumtheory.Zmod_div_mod 64 (2 ^ 32)); [rewrite E; reflexivity|lia|lia|exists (2 ^ 26); reflexivity]).
    destruct (Z.eqb_spec (w32 (b - btos)) 0); [contradiction|].
    destruct (rd m curr); [|reflexivity]. destruct (wr m curr (apply z mask)); [|reflexivity].
    apply IH. unfold w32. rewrite <- Zminus_mod_idemp_l. rewrite <- Znumtheory.Zmod_div_mod; [|lia|lia|exists (2 ^ 26); reflexivity].
    rewrite Zminus_mod_idemp_l. lia.
Qed.
Theorem C20_unaligned_end_out_of_bounds : forall m map start bits,
  0 <= start -> 0 <= bits -> (start + bits) mod 64 <> 0 ->
  comp_set m map start bits = None /\ comp_clr m map start bits = None.
Proof.
  intros m map start bits Hs Hb H.
  assert (Q : (bits - (64 - start mod 64)) mod 64 <> 0) by lia.
  unfold comp_set, comp_clr, comp_range. rewrite !range_loop_never by exact Q. split; reflexivity.
Qed.
Theorem C20_set_refuted : exists m map start bits, Forall u64 m /\ 0 <= map /\ 0 <= start /\ 0 < bits /\
  start + bits < 2 ^ 32 /\ map + (start + bits + 63) / 64 <= zlen m /\ comp_set m map start bits = None.
Proof.
  exists [0; 0], 0, 3, 5. split; [repeat constructor; unfold u64; lia|]. repeat (split; [unfold zlen; cbn; lia|]). vm_compute. reflexivity.
Qed.
Example C20_ex : comp_set [0; 0; 0] 0 60 68 = Some [0xf000000000000000; 0xffffffffffffffff; 0].
Proof. vm_compute. reflexivity. Qed.

Print Assumptions C18_and.
Print Assumptions C18_replace.
Print Assumptions C18_or_equal.
Print Assumptions C18_small_partial.
Print Assumptions C19_shl.
Print Assumptions C19_shr_partial.
Print Assumptions C20_set_partial.
Print Assumptions C20_unaligned_end_out_of_bounds.
