(** * Proofs about the unsigned operations *)
From Verif Require Import Lib BitsModel DwordModel DwordSpec DwordProofs MpiModel MpiSpec MpiProofs.
Ltac Zify.zify_post_hook ::= Z.div_mod_to_equations.

(** ** Normal forms *)
Lemma relocation_val : forall l, val (relocation l) = val l.
Proof.
  induction l as [|x l IH]; cbn [relocation val]; [reflexivity|].
  destruct (relocation l) as [|y t] eqn:E; cbn [val] in *.
  - destruct (Z.eqb_spec x 0); cbn [val]; lia.
  - lia.
Qed.
Lemma relocation_words : forall l, Forall u64 l -> Forall u64 (relocation l).
Proof.
  induction 1 as [|x l Hx Hl IH]; cbn [relocation]; [constructor|].
  destruct (relocation l) as [|y t]; [|constructor; assumption].
  destruct (x =? 0); repeat constructor; apply Hx.
Qed.
Lemma relocation_last : forall l, last (relocation l) 1 <> 0.
Proof.
  induction l as [|x l IH]; cbn [relocation last]; [lia|].
  destruct (relocation l) as [|y t].
  - destruct (Z.eqb_spec x 0); cbn [last]; lia.
  - exact IH.
Qed.
Lemma relocation_normal : forall l, Forall u64 l -> normal (relocation l).
Proof. intros. split; [apply relocation_words; assumption|apply relocation_last]. Qed.
Lemma normal_relocation : forall l, last l 1 <> 0 -> relocation l = l.
Proof.
  induction l as [|x l IH]; intros H; [reflexivity|]. cbn [relocation].
  destruct l as [|y t].
  - cbn in *. destruct (Z.eqb_spec x 0); [lia|reflexivity].
  - rewrite IH by exact H. reflexivity.
Qed.
Lemma normal_low : forall l, normal l -> l <> [] -> Bp (length l - 1) <= val l.
Proof.
  induction l as [|x l IH]; intros [U H] N; [contradiction|]. apply Forall_cons_iff in U. destruct U as [Ux U].
  cbn [val length]. destruct l as [|y t].
  - cbn in *. unfold u64 in Ux. lia.
  - assert (B : Bp (length (y :: t) - 1) <= val (y :: t)) by (apply IH; [split; [exact U|exact H]|discriminate]).
    replace (S (length (y :: t)) - 1)%nat with (S (length (y :: t) - 1)) by (cbn [length]; lia).
    cbn [Bp]. unfold u64 in Ux. lia.
Qed.
Lemma normal_pos : forall l, normal l -> l <> [] -> 0 < val l.
Proof. intros l H N. pose proof (normal_low l H N). pose proof (Bp_pos (length l - 1)). lia. Qed.
Lemma normal_zero : forall l, normal l -> val l = 0 -> l = [].
Proof. intros [|x l] H E; [reflexivity|]. pose proof (normal_pos _ H). assert (x :: l <> []) by discriminate. specialize (H0 H1). lia. Qed.
Lemma Bp_le : forall n m, (n <= m)%nat -> Bp n <= Bp m.
Proof.
  intros n m H. replace m with (n + (m - n))%nat by lia. rewrite Bp_add. pose proof (Bp_pos n). pose proof (Bp_pos (m - n)). nia.
Qed.
Lemma normal_shorter : forall a b, normal a -> normal b -> (length a < length b)%nat -> val a < val b.
Proof.
  intros a b Ha Hb L. pose proof (val_range a (proj1 Ha)).
  assert (b <> []) by (destruct b; cbn in L; [lia|discriminate]).
  pose proof (normal_low b Hb H0). pose proof (Bp_le (length a) (length b - 1)). lia.
Qed.
Lemma normal_inj : forall a b, normal a -> normal b -> val a = val b -> a = b.
Proof.
  intros a b Ha Hb E.
  assert (length a = length b).
  { destruct (Nat.lt_trichotomy (length a) (length b)) as [H|[H|H]]; [|exact H|].
    - pose proof (normal_shorter _ _ Ha Hb H). lia.
    - pose proof (normal_shorter _ _ Hb Ha H). lia. }
  apply val_inj; [assumption|apply Ha|apply Hb|assumption].
Qed.

(** ** Comparison *)
Lemma cmp_down_ok : forall n p a q p2 b q2, length a = n -> length b = n -> Forall u64 a -> Forall u64 b ->
  cmp_down n (p ++ a ++ q) (p2 ++ b ++ q2) (zlen p + Z.of_nat n - 1) (zlen p2 + Z.of_nat n - 1)
  = Some (zcmp (val a) (val b)).
Proof.
  induction n as [|n IH]; intros p a q p2 b q2 La Lb Ua Ub; cbn [cmp_down].
  - rewrite (app_nil_len _ _ La), (app_nil_len _ _ Lb). reflexivity.
  - destruct (split_at _ n a) as (a1 & a2 & -> & La1 & La2); [lia|].
    destruct (split_at _ n b) as (b1 & b2 & -> & Lb1 & Lb2); [lia|].
    destruct a2 as [|x [|]]; cbn [length] in La2; try lia.
    destruct b2 as [|y [|]]; cbn [length] in Lb2; try lia.
    rewrite <- !app_assoc. cbn [app].
    replace (rd (p ++ a1 ++ x :: q) (zlen p + Z.of_nat (S n) - 1)) with (Some x).
    2:{ rewrite app_assoc. symmetry. apply rd_app_len. rewrite zlen_app. unfold zlen at 3. lia. }
    replace (rd (p2 ++ b1 ++ y :: q2) (zlen p2 + Z.of_nat (S n) - 1)) with (Some y).
    2:{ rewrite app_assoc. symmetry. apply rd_app_len. rewrite zlen_app. unfold zlen at 3. lia. }
    apply Forall_app in Ua, Ub. destruct Ua as [Ua1 Ua], Ub as [Ub1 Ub].
    pose proof (val_range a1 Ua1) as Ra. pose proof (val_range b1 Ub1) as Rb.
    rewrite !val_app, La1, Lb1 in *. cbn [val].
    destruct (Z.eqb_spec x y) as [->|N]; cbn [negb].
    + replace (zlen p + Z.of_nat (S n) - 1 - 1) with (zlen p + Z.of_nat n - 1) by lia.
      replace (zlen p2 + Z.of_nat (S n) - 1 - 1) with (zlen p2 + Z.of_nat n - 1) by lia.
      rewrite (IH p a1 (y :: q) p2 b1 (y :: q2)) by assumption. f_equal. unfold zcmp.
      destruct (Z.ltb_spec (val a1) (val b1)), (Z.ltb_spec (val a1 + Bp n * (y + 2 ^ 64 * 0)) (val b1 + Bp n * (y + 2 ^ 64 * 0))); try lia.
      destruct (Z.eqb_spec (val a1) (val b1)), (Z.eqb_spec (val a1 + Bp n * (y + 2 ^ 64 * 0)) (val b1 + Bp n * (y + 2 ^ 64 * 0))); lia.
    + f_equal. unfold bcmp, zcmp.
      assert (x < y -> val a1 + Bp n * (x + 2 ^ 64 * 0) < val b1 + Bp n * (y + 2 ^ 64 * 0)).
      { intros. assert (Bp n * x + Bp n <= Bp n * y) by nia. lia. }
      assert (y < x -> val b1 + Bp n * (y + 2 ^ 64 * 0) < val a1 + Bp n * (x + 2 ^ 64 * 0)).
      { intros. assert (Bp n * y + Bp n <= Bp n * x) by nia. lia. }
      destruct (Z.ltb_spec y x), (Z.ltb_spec (val a1 + Bp n * (x + 2 ^ 64 * 0)) (val b1 + Bp n * (y + 2 ^ 64 * 0))); try lia.
      destruct (Z.eqb_spec (val a1 + Bp n * (x + 2 ^ 64 * 0)) (val b1 + Bp n * (y + 2 ^ 64 * 0))); lia.
Qed.
Lemma zlen_zero : forall A (l : list A), zlen l = 0 -> l = [].
Proof. intros. apply app_nil_len. unfold zlen in *. lia. Qed.
Lemma mpi_cmp_ok : forall a b, normal a -> normal b -> mpi_cmp a b = Some (zcmp (val a) (val b)).
Proof.
  intros a b Ha Hb. unfold mpi_cmp.
  destruct (Z.eqb_spec (zlen a) 0) as [E|E].
  - rewrite (zlen_zero _ _ E). destruct (Z.eqb_spec (zlen b) 0) as [F|F].
    + rewrite (zlen_zero _ _ F). reflexivity.
    + assert (b <> []) by (intros ->; apply F; reflexivity).
      pose proof (normal_pos b Hb H). unfold zcmp. cbn [val]. destruct (Z.ltb_spec 0 (val b)); [reflexivity|lia].
  - assert (Na : a <> []) by (intros ->; apply E; reflexivity). pose proof (normal_pos a Ha Na).
    destruct (Z.eqb_spec (zlen b) 0) as [F|F].
    + rewrite (zlen_zero _ _ F). unfold zcmp. cbn [val]. destruct (Z.ltb_spec (val a) 0); [lia|].
      destruct (Z.eqb_spec (val a) 0); [lia|reflexivity].
    + unfold mpa_cmp. destruct (Z.eqb_spec (zlen a) (zlen b)) as [G|G]; cbn [negb].
      * pose proof (cmp_down_ok (length a) [] a [] [] b []) as C. cbn [app] in C. rewrite !app_nil_r in C.
        change (zlen (@nil Z)) with 0 in C. unfold zlen in *. rewrite Nat2Z.id.
        rewrite <- G. apply C; [reflexivity|lia|apply Ha|apply Hb].
      * unfold bcmp, zcmp, zlen in *. destruct (Z.ltb_spec (Z.of_nat (length b)) (Z.of_nat (length a))).
        -- pose proof (normal_shorter b a Hb Ha). destruct (Z.ltb_spec (val a) (val b)); [lia|].
           destruct (Z.eqb_spec (val a) (val b)); [lia|reflexivity].
        -- pose proof (normal_shorter a b Ha Hb). destruct (Z.ltb_spec (val a) (val b)); [reflexivity|lia].
Qed.
Lemma mpi_cmpi_ok : forall a vi, normal a -> u64 vi -> mpi_cmpi a vi = Some (zcmp (val a) vi).
Proof.
  intros a vi Ha Hv. unfold mpi_cmpi, u64 in *. destruct a as [|x [|y t]].
  - cbn. unfold zcmp. destruct (Z.eqb_spec vi 0), (Z.ltb_spec 0 vi); try lia; [|reflexivity]. subst. reflexivity.
  - change (zlen [x] =? 0) with false. unfold mpa_cmpi. change (1 <? zlen [x]) with false. cbv iota. rewrite rd_cons0. cbn [val].
    unfold bcmp, zcmp. replace (x + 2 ^ 64 * 0) with x by lia.
    destruct (Z.eqb_spec x vi); cbn [negb]; destruct (Z.ltb_spec vi x), (Z.ltb_spec x vi); try lia; reflexivity.
  - pose proof (zlen_nonneg _ t). unfold mpa_cmpi. rewrite !zlen_cons.
    destruct (Z.eqb_spec (zlen t + 1 + 1) 0); [lia|]. destruct (Z.ltb_spec 1 (zlen t + 1 + 1)); [|lia].
    assert (N : x :: y :: t <> []) by discriminate.
    pose proof (normal_low _ Ha N). cbn [length Nat.sub Bp] in H1. pose proof (Bp_pos (length t)).
    unfold zcmp. destruct (Z.ltb_spec (val (x :: y :: t)) vi); [lia|].
    destruct (Z.eqb_spec (val (x :: y :: t)) vi); [lia|reflexivity].
Qed.

(** ** Division by one word *)
Lemma divmodi_loop_ok : forall n a m q s vi r,
  length a = n -> length m = n -> Forall u64 a -> 0 < vi < 2 ^ 64 -> 0 <= r < vi ->
  (forall i, 0 <= i < Z.of_nat n -> rds s (m ++ q) i = rd a i) ->
  exists t r', divmodi_loop n (m ++ q) s vi r = Some (t ++ q, r') /\ length t = n /\ Forall u64 t /\
    0 <= r' < vi /\ val t * vi + r' = r * Bp n + val a.
Proof.
  induction n as [|n IH]; intros a m q s vi r La Lm Ua Hv Hr S; cbn [divmodi_loop].
  - rewrite (app_nil_len _ _ La), (app_nil_len _ _ Lm). exists [], r. cbn [val Bp app]. repeat split; auto; lia.
  - destruct (split_at _ n a) as (a1 & a2 & -> & La1 & La2); [lia|].
    destruct (split_at _ n m) as (m1 & m2 & -> & Lm1 & Lm2); [lia|].
    destruct a2 as [|x [|]]; cbn [length] in La2; try lia.
    destruct m2 as [|z [|]]; cbn [length] in Lm2; try lia.
    apply Forall_app in Ua. destruct Ua as [Ua1 Ua]. conses.
    rewrite S by lia. replace (rd (a1 ++ [x]) (Z.of_nat n)) with (Some x) by (symmetry; apply rd_app_len; unfold zlen; lia).
    destruct (dw_udiv_ok r x vi) as (q1 & q0 & r1 & -> & [U1 U0] & D & R); [unfold u64; lia|assumption|assumption|].
    rewrite <- app_assoc. cbn [app]. unfold dval in *. cbn [fst snd] in *.
    rewrite wr_app_len by (unfold zlen; lia).
    assert (E1 : q1 = 0 /\ q0 * vi + r1 = r * 2 ^ 64 + x /\ 0 <= r1 < vi).
    { pose proof (Z.div_mod (r * 2 ^ 64 + x) vi ltac:(lia)) as DM. pose proof (Z.mod_pos_bound (r * 2 ^ 64 + x) vi ltac:(lia)) as MB.
      assert ((r * 2 ^ 64 + x) / vi < 2 ^ 64) by (apply Z.div_lt_upper_bound; unfold u64 in *; [lia|nia]).
      assert (q1 = 0) by (unfold u64 in *; lia). subst q1. unfold u64 in *. rewrite R. split; [reflexivity|]. split; [nia|exact MB]. }
    destruct E1 as (-> & E1 & E2).
    destruct (IH a1 m1 (q0 :: q) s vi r1) as (t & r' & -> & Lt & Ut & Hr' & V); try assumption.
    { intros i Hi. specialize (S i ltac:(lia)). rewrite rd_app1 in S by (unfold zlen; lia). rewrite <- S.
      destruct s; [reflexivity|]. cbn [rds]. rewrite !rd_app1; try (unfold zlen; rewrite ?app_length; cbn [length]; lia). reflexivity. }
    exists (t ++ [q0]), r'. rewrite <- app_assoc. cbn [app]. split; [reflexivity|].
    split; [rewrite app_length; cbn [length]; lia|]. split; [apply Forall_app; auto|]. split; [exact Hr'|].
    rewrite !val_app, La1, Lt. cbn [val Bp].
    replace ((val t + Bp n * (q0 + 2 ^ 64 * 0)) * vi + r') with (val t * vi + r' + Bp n * (q0 * vi)) by ring.
    rewrite V. replace (q0 * vi) with (r * 2 ^ 64 + x - r1) by lia. ring.
Qed.
Lemma modi_loop_ok : forall n a q vi r, length a = n -> Forall u64 a -> 0 < vi < 2 ^ 64 -> 0 <= r < vi ->
  modi_loop n (a ++ q) vi r = Some ((r * Bp n + val a) mod vi).
Proof.
  induction n as [|n IH]; intros a q vi r La Ua Hv Hr; cbn [modi_loop].
  - rewrite (app_nil_len _ _ La). cbn [val Bp]. f_equal. rewrite Z.mod_small; lia.
  - destruct (split_at _ n a) as (a1 & a2 & -> & La1 & La2); [lia|].
    destruct a2 as [|x [|]]; cbn [length] in La2; try lia.
    apply Forall_app in Ua. destruct Ua as [Ua1 Ua]. conses.
    rewrite <- app_assoc. cbn [app].
    replace (rd (a1 ++ x :: q) (Z.of_nat n)) with (Some x) by (symmetry; apply rd_app_len; unfold zlen; lia).
    destruct (dw_udiv_ok r x vi) as (q1 & q0 & r1 & -> & [U1 U0] & D & R); [unfold u64; lia|assumption|assumption|].
    unfold dval in *. cbn [fst snd] in *.
    rewrite IH; try assumption; [|rewrite R; apply Z.mod_pos_bound; lia].
    f_equal. rewrite val_app, La1. cbn [val Bp]. rewrite R.
    replace (r * (2 ^ 64 * Bp n) + (val a1 + Bp n * (x + 2 ^ 64 * 0))) with ((r * 2 ^ 64 + x) * Bp n + val a1) by ring.
    rewrite <- (Zplus_mod_idemp_l (_ mod vi * Bp n)), Zmult_mod_idemp_l, Zplus_mod_idemp_l. reflexivity.
Qed.
