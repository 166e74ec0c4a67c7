(** * C63: reference counting under concurrency *)
From Verif Require Import Lib RefcntModel RefcntSpec.

Lemma rset_same A (f : nat -> A) t v : rset f t v t = v.
Proof. unfold rset. rewrite Nat.eqb_refl. reflexivity. Qed.
Lemma rset_other A (f : nat -> A) t v u : u <> t -> rset f t v u = f u.
Proof. intros H. unfold rset. rewrite (proj2 (Nat.eqb_neq _ _) H). reflexivity. Qed.
Lemma sum_ext f g : forall n s, (forall t, (s <= t < s + n)%nat -> f t = g t) -> fold_right Z.add 0 (map f (seq s n)) = fold_right Z.add 0 (map g (seq s n)).
Proof. induction n as [|n IH]; intros s H; [reflexivity|]. cbn [seq map fold_right]. rewrite (H s) by lia. f_equal. apply IH. intros t Ht. apply H. lia. Qed.
Lemma sum_app l m : fold_right Z.add 0 (l ++ m) = fold_right Z.add 0 l + fold_right Z.add 0 m.
Proof. induction l as [|x l IH]; cbn [fold_right app]; lia. Qed.
Lemma total_set f t v n : (t < n)%nat -> total (rset f t v) n = total f n - f t + v.
Proof.
  intros Ht. unfold total. assert (E : seq 0 n = seq 0 t ++ t :: seq (S t) (n - t - 1)).
  { replace n with (t + (1 + (n - t - 1)))%nat at 1 by lia. rewrite !seq_app. cbn [seq app]. replace (0 + t + 1)%nat with (S t) by lia. reflexivity. }
  rewrite E, !map_app, !sum_app. cbn [map fold_right]. rewrite rset_same.
  rewrite (sum_ext (rset f t v) f t 0) by (intros u Hu; apply rset_other; lia).
  rewrite (sum_ext (rset f t v) f (n - t - 1) (S t)) by (intros u Hu; apply rset_other; lia). lia.
Qed.
Lemma total_ge f t n : (forall u, 0 <= f u) -> (t < n)%nat -> f t <= total f n.
Proof.
  intros P Ht. assert (0 <= total (rset f t 0) n).
  { unfold total. induction (seq 0 n) as [|u l IH]; cbn [map fold_right]; [lia|]. unfold rset at 1. destruct (Nat.eqb u t); [lia|]. specialize (P u). lia. }
  rewrite total_set in H by exact Ht. lia.
Qed.
Definition good (n : nat) (refs : nat -> Z) (c : rcfg) : Prop := (forall t, 0 <= refs t) /\ rc c = total refs n /\ total refs n < 2 ^ 64.
Lemma good_step n refs c a : good n refs c -> legal n refs a -> good n (refs_step refs a) (rstep c a) /\ rlog (rstep c a) = rlog c ++ report n refs a.
Proof.
  intros (P & E & B) L. destruct a as [t k|t k|t u k|t k|t]; cbn [legal refs_step rstep report] in *; try contradiction.
  - destruct L as (Ht & H1 & H2 & H3). rewrite E. split; [|reflexivity]. pose proof (total_ge refs t n P Ht). unfold good. cbn [rc]. rewrite total_set by exact Ht. split.
    + intros u. destruct (Nat.eq_dec u t) as [->|Hu]; [rewrite rset_same; lia|rewrite rset_other by exact Hu; apply P].
    + rewrite w64_small by lia. lia.
  - destruct L as (Ht & H1). rewrite E. split; [|reflexivity]. pose proof (total_ge refs t n P Ht). unfold good. cbn [rc]. rewrite total_set by exact Ht. split.
    + intros u. destruct (Nat.eq_dec u t) as [->|Hu]; [rewrite rset_same; lia|rewrite rset_other by exact Hu; apply P].
    + rewrite w64_small by lia. lia.
  - destruct L as (Ht & Hu & Ne & H1). split; [|rewrite app_nil_r; reflexivity]. unfold good. rewrite total_set by exact Hu. rewrite total_set by exact Ht. rewrite rset_other by lia. split; [|split; lia].
    intros v. specialize (P v). pose proof (P u) as Pu || pose proof P as Pu. destruct (Nat.eq_dec v u) as [->|Hv]; [rewrite rset_same; lia|rewrite rset_other by exact Hv]. destruct (Nat.eq_dec v t) as [->|Hv']; [rewrite rset_same; lia|rewrite rset_other by exact Hv'; lia].
Qed.
Lemma good_run n : forall s refs c, good n refs c -> legal_run n refs s -> good n (refs_run refs s) (rrun c s) /\ rlog (rrun c s) = rlog c ++ reports n refs s.
Proof.
  induction s as [|a s IH]; intros refs c G L; [split; [exact G|symmetry; apply app_nil_r]|]. cbn [legal_run] in L. destruct L as [L1 L2]. destruct (good_step n refs c a G L1) as [G' E'].
  destruct (IH _ _ G' L2) as [G2 E2]. split; [exact G2|]. cbn [reports]. unfold rrun in *. cbn [fold_left]. rewrite E2, E', app_assoc. reflexivity.
Qed.
Lemma total_ref0 n : (1 <= n)%nat -> total ref0 n = 1.
Proof.
  intros H. destruct n as [|n]; [lia|]. unfold total. cbn [seq map fold_right]. change (ref0 0%nat) with 1. enough (forall k s, (1 <= s)%nat -> fold_right Z.add 0 (map ref0 (seq s k)) = 0) by (rewrite H0 by lia; reflexivity).
  induction k as [|k IH]; intros s Hs; [reflexivity|]. cbn [seq map fold_right]. rewrite IH by lia. unfold ref0. destruct (Nat.eqb_spec s 0); lia.
Qed.
Lemma good_init n : (1 <= n)%nat -> good n ref0 rinit.
Proof. intros H. split; [intros t; unfold ref0; destruct (Nat.eqb t 0); lia|]. rewrite total_ref0 by exact H. cbn. lia. Qed.

(** The counter is the number of references held, and every call reports it. *)
Theorem C63_counts : forall n s, (1 <= n)%nat -> legal_run n ref0 s ->
  rc (rrun rinit s) = total (refs_run ref0 s) n /\ rlog (rrun rinit s) = reports n ref0 s.
Proof. intros n s H L. destruct (good_run n s ref0 rinit (good_init n H) L) as [(_ & E & _) El]. auto. Qed.

Lemma legal_zero n refs a : (forall t, 0 <= refs t) -> total refs n = 0 -> ~ legal n refs a.
Proof.
  intros P T L. destruct a as [t k|t k|t u k|t k|t]; cbn [legal] in L; [| | |exact L|exact L].
  - destruct L as (Ht & H1 & _). pose proof (total_ge refs t n P Ht). lia.
  - destruct L as (Ht & H1). pose proof (total_ge refs t n P Ht). lia.
  - destruct L as (Ht & _ & _ & H1). pose proof (total_ge refs t n P Ht). lia.
Qed.
Lemma reports_zero n : forall s refs, (forall t, 0 <= refs t) -> total refs n < 2 ^ 64 -> 0 < total refs n -> legal_run n refs s ->
  (total (refs_run refs s) n = 0 /\ exists l t k, reports n refs s = l ++ [RPut t k k true] /\ Forall (fun e => is_last_put e = false) l) \/
  (0 < total (refs_run refs s) n /\ Forall (fun e => is_last_put e = false) (reports n refs s)).
Proof.
  induction s as [|a s IH]; intros refs P B T L; [right; split; [exact T|constructor]|]. cbn [legal_run] in L. destruct L as [L1 L2].
  pose (c := {| rc := total refs n; rpcs := fun _ => RIdle; rlog := [] |}). assert (G : good n refs c) by (unfold good; auto).
  destruct (good_step n refs c a G L1) as [(P' & _ & B') _]. cbn [reports]. change (refs_run refs (a :: s)) with (refs_run (refs_step refs a) s).
  destruct (Z.eq_dec (total (refs_step refs a) n) 0) as [Z0|NZ].
  - destruct s as [|b s]; [|exfalso; destruct L2 as [L2 _]; apply (legal_zero n _ _ P' Z0 L2)]. left. cbn [refs_run fold_left reports]. split; [exact Z0|]. rewrite app_nil_r.
    destruct a as [t k|t k|t u k|t k|t]; cbn [legal refs_step report] in *; try contradiction.
    + rewrite total_set in Z0 by apply L1. lia.
    + rewrite total_set in Z0 by apply L1. exists [], t, k. replace (total refs n) with k by lia. rewrite Z.eqb_refl. split; [reflexivity|constructor].
    + destruct L1 as (Ht & Hu & Ne & H1). rewrite total_set in Z0 by exact Hu. rewrite total_set in Z0 by exact Ht. rewrite rset_other in Z0 by lia. lia.
  - assert (T' : 0 < total (refs_step refs a) n).
    { assert (0 <= total (refs_step refs a) n); [|lia]. unfold total. clear -P'. induction (seq 0 n) as [|u l IHl]; cbn [map fold_right]; [lia|]. specialize (P' u). lia. }
    assert (R0 : Forall (fun e => is_last_put e = false) (report n refs a)).
    { destruct a as [t k|t k|t u k|t k|t]; cbn [legal refs_step report] in *; try contradiction; repeat constructor. cbn. rewrite total_set in NZ by apply L1. destruct (Z.eqb_spec (total refs n) k); [lia|reflexivity]. }
    destruct (IH _ P' B' T' L2) as [(Z1 & l & t & k & E & F)|(Z1 & F)].
    + left. split; [exact Z1|]. exists (report n refs a ++ l), t, k. rewrite E, app_assoc. split; [reflexivity|]. apply Forall_app. auto.
    + right. split; [exact Z1|]. apply Forall_app. auto.
Qed.
(** Exactly one put observes the drop to zero: the one after which nobody holds a reference, and it is the last call. *)
Theorem C63_one_zero : forall n s, (1 <= n)%nat -> legal_run n ref0 s ->
  (total (refs_run ref0 s) n = 0 /\ rc (rrun rinit s) = 0 /\ exists l t k, rlog (rrun rinit s) = l ++ [RPut t k k true] /\ Forall (fun e => is_last_put e = false) l) \/
  (0 < total (refs_run ref0 s) n /\ Forall (fun e => is_last_put e = false) (rlog (rrun rinit s))).
Proof.
  intros n s H L. destruct (C63_counts n s H L) as [E1 E2]. destruct (good_init n H) as (P & _ & B). pose proof (total_ref0 n H) as T0.
  destruct (reports_zero n s ref0 P B ltac:(lia) L) as [(Z1 & Z2)|Z1].
  - left. split; [exact Z1|]. split; [congruence|]. rewrite E2. exact Z2.
  - right. rewrite E2. exact Z1.
Qed.
Example C63_case : legal_run 3 ref0 [AGet 0 2; AGive 0 1 1; APut 0 1; AGet 1 1; AGive 1 2 2; APut 0 1; APut 2 2] /\
  rlog (rrun rinit [AGet 0 2; AGive 0 1 1; APut 0 1; AGet 1 1; AGive 1 2 2; APut 0 1; APut 2 2]) = [RGet 0 2 1; RPut 0 1 3 false; RGet 1 1 2; RPut 0 1 3 false; RPut 2 2 2 true].
Proof. split; [cbn; unfold total, ref0, rset; cbn; lia|vm_compute; reflexivity]. Qed.

Lemma step_idle c t : rpcs c t = RIdle -> rstep c (AStep t) = c.
Proof. intros H. cbn [rstep]. rewrite H. reflexivity. Qed.
Lemma step_start c t n : rpcs c t = RIdle -> rstep c (AAddnz t n) = addnz_loop c t n (rc c) true.
Proof. intros H. cbn [rstep]. rewrite H. reflexivity. Qed.
Lemma step_cas c t n p : rpcs c t = NCas n p -> rstep c (AStep t) =
  let '(v, prev', ok) := try_cmpxchg (rc c) p (w64 (p + n)) in addnz_loop {| rc := v; rpcs := rpcs c; rlog := rlog c |} t n prev' ok.
Proof. intros H. cbn [rstep]. rewrite H. reflexivity. Qed.
(** The conditional increment.  Undisturbed it adds once and reports success, or leaves a zero count alone and
    reports failure; the old value it stores is however the new one. *)
Theorem C63_addnz_alone_partial : forall c t n, rpcs c t = RIdle -> 0 <= rc c < 2 ^ 64 -> 0 < n < 2 ^ 64 -> rc c + n < 2 ^ 64 ->
  let c' := rrun c [AAddnz t n; AStep t; AStep t] in
  rpcs c' t = RIdle /\
  (rc c = 0 -> rc c' = 0 /\ rlog c' = rlog c ++ [RAddnz t n 0 true]) /\
  (rc c <> 0 -> rc c' = rc c + n /\ rlog c' = rlog c ++ [RAddnz t n (rc c + n) false]).
Proof.
  intros c t n I R N B. unfold rrun. cbn [fold_left]. rewrite step_start by exact I. unfold addnz_loop at 1 2 3 4 5. cbn [andb].
  destruct (Z.eqb_spec (rc c) 0) as [E|E]; cbn [negb].
  - match goal with |- context [rstep (rstep ?x _) _] => set (c1 := x) end. assert (I1 : rpcs c1 t = RIdle) by (cbn [c1 rpcs]; apply rset_same). rewrite !(step_idle c1 t I1). subst c1. cbn [rc rpcs rlog]. rewrite rset_same, E. split; [reflexivity|]. split; [auto|contradiction].
  - match goal with |- context [rstep (rstep ?x _) _] => set (c1 := x) end. assert (I1 : rpcs c1 t = NCas n (rc c)) by (cbn [c1 rpcs]; apply rset_same).
    rewrite (step_cas c1 t n (rc c) I1). subst c1. clear I1. unfold try_cmpxchg. cbn [rc rpcs rlog]. rewrite Z.eqb_refl. rewrite (w64_small (rc c + n)) by lia.
    match goal with |- context [rstep ?x _] => set (c2 := x) end.
    assert (I2 : rpcs c2 t = NCas n (rc c)) by (subst c2; unfold addnz_loop; rewrite (proj2 (Z.eqb_neq _ _) E); cbn [andb negb rpcs]; apply rset_same).
    assert (R2 : rc c2 = rc c + n) by (subst c2; unfold addnz_loop; rewrite (proj2 (Z.eqb_neq _ _) E); reflexivity).
    assert (L2 : rlog c2 = rlog c) by (subst c2; unfold addnz_loop; rewrite (proj2 (Z.eqb_neq _ _) E); reflexivity). clearbody c2.
    rewrite (step_cas c2 t n (rc c) I2). rewrite R2, L2. unfold try_cmpxchg. rewrite (proj2 (Z.eqb_neq (rc c + n) (rc c))) by lia.
    unfold addnz_loop. cbn [andb rc rpcs rlog]. rewrite (proj2 (Z.eqb_neq (rc c + n) 0)) by lia. rewrite rset_same. split; [reflexivity|]. split; [contradiction|auto].
Qed.
Example C63_alone_case : rlog (rrun {| rc := 5; rpcs := fun _ => RIdle; rlog := [] |} [AAddnz 3 2; AStep 3; AStep 3]) = [RAddnz 3 2 7 false].
Proof. reflexivity. Qed.
(** Whatever the interleaving, conditional increments never raise a zero count. *)
Definition awake (c : rcfg) : Prop := forall t n p, rpcs c t = NCas n p -> p <> 0.
Lemma awake_loop c t n p b : awake c -> awake (addnz_loop c t n p b).
Proof.
  intros A u k q. unfold addnz_loop. destruct (b && negb (p =? 0)) eqn:E; cbn [rpcs]; unfold rset; destruct (Nat.eqb u t); try apply A.
  - intros X. injection X as -> ->. apply andb_prop in E. destruct E as [_ E]. apply negb_true_iff, Z.eqb_neq in E. exact E.
  - discriminate.
Qed.
Theorem C63_addnz_zero : forall s c, awake c -> rc c = 0 -> Forall only_addnz s -> rc (rrun c s) = 0 /\ awake (rrun c s).
Proof.
  induction s as [|a s IH]; intros c A Z0 F; [auto|]. inversion_clear F. unfold rrun. cbn [fold_left]. apply IH; [| |assumption]; destruct a as [t k|t k|t u k|t k|t]; cbn [only_addnz rstep] in *; try contradiction.
  - destruct (rpcs c t); [apply awake_loop, A|exact A].
  - destruct (rpcs c t) as [|n p]; [exact A|]. unfold try_cmpxchg. apply awake_loop. exact A.
  - destruct (rpcs c t); [|exact Z0]. unfold addnz_loop. destruct (_ && _); exact Z0.
  - destruct (rpcs c t) as [|n p] eqn:E; [exact Z0|]. specialize (A _ _ _ E). unfold try_cmpxchg. rewrite (proj2 (Z.eqb_neq (rc c) p)) by lia. unfold addnz_loop. destruct (_ && _); exact Z0.
Qed.
Example C63_zero_case : awake {| rc := 0; rpcs := fun t => if Nat.eqb t 1 then NCas 1 4 else RIdle; rlog := [] |} /\
  rlog (rrun {| rc := 0; rpcs := fun t => if Nat.eqb t 1 then NCas 1 4 else RIdle; rlog := [] |} [AAddnz 2 1; AStep 1]) = [RAddnz 2 1 0 true; RAddnz 1 1 0 true].
Proof. split; [|reflexivity]. intros t n p. cbn. destruct (Nat.eqb t 1); intros E; [injection E as <- <-; lia|discriminate]. Qed.
(** With another thread active it can report success without adding: here the counter drops to zero, and a put
    reports it, although thread 1 was told it had got a reference ... *)
Theorem C63_addnz_lost_refuted : exists s, let c := rrun rinit s in
  rlog c = [RGet 0 1 1; RAddnz 1 1 2 false; RPut 0 2 2 true] /\ rc c = 0 /\ rpcs c 1%nat = RIdle.
Proof. exists [AAddnz 1 1; AGet 0 1; AStep 1; APut 0 2]. vm_compute. auto. Qed.
(** ... or add twice: here one reference was taken and the only other one dropped, and the counter is 2. *)
Theorem C63_addnz_twice_refuted : exists s, let c := rrun rinit s in
  rlog c = [RPut 0 1 2 false; RAddnz 1 1 2 false] /\ rc c = 2 /\ rpcs c 1%nat = RIdle.
Proof. exists [AAddnz 1 1; AStep 1; APut 0 1; AStep 1; AStep 1]. vm_compute. auto. Qed.
(** Adding 0 to a non-zero count never ends, however long the call runs alone. *)
Theorem C63_addnz_zero_loops : forall k c t, rpcs c t = RIdle -> 0 < rc c < 2 ^ 64 ->
  rpcs (rrun c (AAddnz t 0 :: repeat (AStep t) k)) t = NCas 0 (rc c) /\ rlog (rrun c (AAddnz t 0 :: repeat (AStep t) k)) = rlog c.
Proof.
  intros k c t I R. unfold rrun. cbn [fold_left]. assert (E1 : rstep c (AAddnz t 0) = addnz_loop c t 0 (rc c) true) by (cbn [rstep]; rewrite I; reflexivity). rewrite E1. clear E1. unfold addnz_loop. rewrite (proj2 (Z.eqb_neq (rc c) 0)) by lia. cbn [andb negb].
  set (c1 := {| rc := rc c; rpcs := rset (rpcs c) t (NCas 0 (rc c)); rlog := rlog c |}).
  assert (X : forall k c1, rc c1 = rc c -> rpcs c1 t = NCas 0 (rc c) -> rlog c1 = rlog c -> rpcs (fold_left rstep (repeat (AStep t) k) c1) t = NCas 0 (rc c) /\ rlog (fold_left rstep (repeat (AStep t) k) c1) = rlog c).
  { clear c1 k. induction k as [|k IH]; intros c1 A B C; [auto|]. cbn [repeat fold_left]. apply IH; cbn [rstep]; rewrite B; unfold try_cmpxchg; rewrite A, Z.eqb_refl; unfold addnz_loop; rewrite (proj2 (Z.eqb_neq (rc c) 0)) by lia; cbn [andb negb rc rpcs rlog];
    [rewrite Z.add_0_r; apply w64_small; lia|apply rset_same|exact C]. }
  apply X; subst c1; cbn [rc rpcs rlog]; [reflexivity|apply rset_same|reflexivity].
Qed.
Print Assumptions C63_counts.
Print Assumptions C63_one_zero.
Print Assumptions C63_addnz_alone_partial.
Print Assumptions C63_addnz_zero.
Print Assumptions C63_addnz_lost_refuted.
Print Assumptions C63_addnz_twice_refuted.
Print Assumptions C63_addnz_zero_loops.
