(** * C107-C109: atomic operations under interleaving *)
From Coq Require Import Lia.
From Verif Require Import Lib AtomicModel AtomicSpec AtomicProofs.

(** ** C107.  Any number of threads, any adaptive clients, any interleaving of their accesses: no access leaves the memory; the calls that
    completed, in the order of their completion, report and do what they would report and do one after the other; every
    thread sees its own calls in order; a call that completed earlier comes earlier. *)
Theorem C107_linearizable : forall c m f sched,
  client_ok (zlen m) c -> Forall u64v m -> agrees m f ->
  exists s f', srun c sched (sinit m) = Some s /\ explains f (slog s) f' /\ agrees (smem s) f' /\ zlen (smem s) = zlen m /\
    issued c (slog s) /\ (forall t, shist s t = proj t (slog s)) /\
    forall sched', exists s' l, srun c (sched ++ sched') (sinit m) = Some s' /\ slog s' = slog s ++ l.
Proof.
  intros c m f sched CO W A. destruct (srun_ok c _ f CO sched _ (sinit_inv c m f W A)) as (s & E & I & _).
  pose proof I as (_ & L & (f' & X & A') & H & IS). exists s, f'. split; [exact E|]. split; [exact X|]. split; [exact A'|]. split; [exact L|]. split; [exact IS|]. split; [exact H|].
  intros sched'. destruct (srun_ok c _ f CO sched' s I) as (s' & E' & _ & l & EL). exists s', l. rewrite srun_app, E. split; [exact E'|exact EL].
Qed.
Definition xclient : client := fun t h =>
  match t, length h with
  | O, O => Some (BTestSet 70) | O, 1%nat => Some (BTestFlip 3) | O, 2%nat => Some (AXchg 1 5)
  | 1%nat, O => Some (AXchg 1 9) | 1%nat, 1%nat => Some (BTestClr 0) | _, _ => None
  end.
Example C107_case : client_ok 2 xclient /\ Forall u64v [1; 0] /\
  match srun xclient [0; 1; 0; 1; 1; 1; 1; 0; 1; 0; 0]%nat (sinit [1; 0]) with
  | Some s => smem s = [8; 5] /\ slog s = [(0, BTestSet 70, RBool false); (1, AXchg 1 9, RVal 64); (0, BTestFlip 3, RBool false); (1, BTestClr 0, RBool true); (0, AXchg 1 5, RVal 9)]%nat
  | None => False
  end.
Proof.
  split; [|split; [repeat constructor; unfold u64v; lia|vm_compute; split; reflexivity]].
  intros t h op E. unfold xclient in E. destruct t as [|[|t]]; destruct h as [|x [|y [|z h]]]; cbn [length] in E; try discriminate E; injection E as <-; cbn [op_ok]; unfold u64v; lia.
Qed.

(** ** C108.  One bit as a lock: at any point of any interleaving at most one thread holds it, and the bit is set exactly while one does. *)
Theorem C108_mutual_exclusion : forall c m f sched b s,
  client_ok (zlen m) c -> Forall u64v m -> agrees m f -> polite b c -> 0 <= b < 64 * zlen m -> bitv f b = false ->
  srun c sched (sinit m) = Some s ->
  (forall t u, holds b (shist s t) = true -> holds b (shist s u) = true -> t = u) /\
  forall f', agrees (smem s) f' -> (bitv f' b = true <-> exists t, holds b (shist s t) = true).
Proof.
  intros c m f sched b s CO W A PO Hb B0 E. destruct (srun_ok c _ f CO sched _ (sinit_inv c m f W A)) as (s1 & E1 & I & _). assert (s1 = s) by congruence. subst s1.
  destruct I as (_ & L & (f1 & X & A1) & H & IS). destruct (lock_ok c _ b f CO PO ltac:(lia) B0 _ _ IS X) as (o & Ho & Bo). split.
  - intros t u Ht Hu. rewrite H in Ht, Hu. apply Ho in Ht, Hu. congruence.
  - intros f' A'. assert (EB : bitv f' b = bitv f1 b). { unfold bitv. assert (R : 0 <= b / 64 < zlen (smem s)) by (rewrite L; split; [apply Z.div_pos; lia|apply Z.div_lt_upper_bound; lia]). pose proof (A' _ R) as R1. pose proof (A1 _ R) as R2. congruence. }
    rewrite EB, Bo. destruct o as [t|]; split; intros Q; try discriminate Q; try reflexivity.
    + exists t. rewrite H. apply Ho. reflexivity.
    + destruct Q as [t Ht]. rewrite H in Ht. apply Ho in Ht. discriminate Ht.
Qed.
(** a free lock is taken by whoever goes for it undisturbed *)
Theorem C108_progress : forall c m f sched b s t,
  client_ok (zlen m) c -> Forall u64v m -> agrees m f -> polite b c -> 0 <= b < 64 * zlen m -> bitv f b = false ->
  srun c sched (sinit m) = Some s -> (forall u, holds b (shist s u) = false) -> c t (shist s t) = Some (BTestSet b) ->
  exists k s', (k = 1 \/ k = 2)%nat /\ srun c (sched ++ repeat t k) (sinit m) = Some s' /\ holds b (shist s' t) = true.
Proof.
  intros c m f sched b s t CO W A PO Hb B0 E NH Ec. destruct (srun_ok c _ f CO sched _ (sinit_inv c m f W A)) as (s1 & E1 & I & _). assert (s1 = s) by congruence. subst s1.
  destruct (take_ok c _ f s b t CO PO ltac:(lia) B0 I NH Ec) as (k & s' & Hk & Er & Hh). exists k, s'. split; [exact Hk|]. rewrite srun_app, E. split; [exact Er|exact Hh].
Qed.
(** threads that take the lock, flip another bit of the same word and give the lock back, for ever *)
Definition locker : client := fun t h =>
  if holds 5 h then match rev h with (BTestFlip _, _) :: _ => Some (if Nat.even t then BClr 5 else BTestClr 5) | _ => Some (BTestFlip 6) end
  else Some (BTestSet 5).
Example C108_case : client_ok 1 locker /\ polite 5 locker /\
  match srun locker [0; 1; 0; 1; 1; 1; 0; 1]%nat (sinit [0]) with
  | Some s => holds 5 (shist s 0) = true /\ holds 5 (shist s 1) = false /\ (length (shist s 1) > 1)%nat
  | None => False
  end.
Proof.
  split; [|split].
  - intros t h op E. unfold locker in E. destruct (holds 5 h); [|injection E as <-; cbn; lia]. destruct (List.rev h) as [|[[] r] l]; try (injection E as <-; cbn; lia). destruct (Nat.even t); injection E as <-; cbn; lia.
  - intros t h op E. unfold locker in E. destruct (holds 5 h) eqn:Hh; [|injection E as <-; exact Logic.I]. destruct (List.rev h) as [|[[] r] l]; try (injection E as <-; cbn; lia). destruct (Nat.even t); injection E as <-; cbn; reflexivity.
  - vm_compute. repeat split; lia.
Qed.

(** ** C109.  No update is lost. *)
Theorem C109_counter : forall c m f sched s w,
  client_ok (zlen m) c -> Forall u64v m -> agrees m f -> 0 <= w < zlen m -> (forall t h op, c t h = Some op -> count_op w op) ->
  srun c sched (sinit m) = Some s -> rd (smem s) w = Some (w64 (f w + total w (slog s))).
Proof.
  intros c m f sched s w CO W A Hw C E. destruct (srun_ok c _ f CO sched _ (sinit_inv c m f W A)) as (s1 & E1 & I & _). assert (s1 = s) by congruence. subst s1.
  destruct I as (_ & L & (f1 & X & A1) & _ & IS). rewrite <- (total_ok w _ (issued_ok c _ _ IS C) f f1); [apply A1; lia|apply (word_ok m f W A); exact Hw|exact X].
Qed.
(** tickets: threads that draw with fetch_add get consecutive numbers, so nobody the same (before 2^64 are drawn) *)
Theorem C109_tickets : forall c m f sched s w,
  client_ok (zlen m) c -> Forall u64v m -> agrees m f -> 0 <= w < zlen m -> (forall t h op, c t h = Some op -> ticket_op w op) ->
  srun c sched (sinit m) = Some s ->
  reports w (slog s) = map (fun i => w64 (f w + i)) (zseq 0 (length (reports w (slog s)))) /\
  (zlen (reports w (slog s)) <= 2 ^ 64 -> NoDup (reports w (slog s))).
Proof.
  intros c m f sched s w CO W A Hw C E. destruct (srun_ok c _ f CO sched _ (sinit_inv c m f W A)) as (s1 & E1 & I & _). assert (s1 = s) by congruence. subst s1.
  destruct I as (_ & L & (f1 & X & A1) & _ & IS). pose proof (word_ok m f W A w Hw) as [_ U].
  assert (T : reports w (slog s) = map (fun i => w64 (f w + i)) (zseq 0 (length (reports w (slog s))))) by (apply (tickets_ok w _ (issued_ok c _ _ IS C) f f1); [exact U|exact X]).
  split; [exact T|]. intros N. rewrite T. unfold zlen in N. revert N. generalize (length (reports w (slog s))) as n. intros n N.
  assert (G : forall k a, 0 <= a -> a + Z.of_nat k <= 2 ^ 64 -> NoDup (map (fun i => w64 (f w + i)) (zseq a k))).
  { induction k as [|k IH]; intros a Ha B; [constructor|]. cbn [zseq map]. constructor; [|apply IH; lia].
    intros I. apply in_map_iff in I. destruct I as (j & Eq & I). apply zseq_in in I. unfold w64 in Eq. clear - Ha B I Eq. Z.div_mod_to_equations. lia. }
  apply G; lia.
Qed.
(** exchange: every value given is handed to exactly one later exchange, or is still there *)
Theorem C109_exchange : forall c m f sched s w,
  client_ok (zlen m) c -> Forall u64v m -> agrees m f -> 0 <= w < zlen m -> (forall t h op, c t h = Some op -> xchg_op w op) ->
  srun c sched (sinit m) = Some s ->
  exists x, rd (smem s) w = Some x /\ reports w (slog s) ++ [x] = f w :: given w (slog s).
Proof.
  intros c m f sched s w CO W A Hw C E. destruct (srun_ok c _ f CO sched _ (sinit_inv c m f W A)) as (s1 & E1 & I & _). assert (s1 = s) by congruence. subst s1.
  destruct I as (_ & L & (f1 & X & A1) & _ & IS). exists (f1 w). split; [apply A1; lia|]. apply (xchg_ok w _ (issued_ok c _ _ IS C) f f1 X).
Qed.
Definition adder : client := fun t h => if (length h <? 3)%nat then Some (if Nat.even t then ARmw KAdd MOld 0 1 else ARmw KSub MNew 0 3) else None.
Example C109_case : client_ok 1 adder /\ (forall t h op, adder t h = Some op -> count_op 0 op) /\
  match srun adder [0; 1; 1; 2; 0; 2]%nat (sinit [1]) with Some s => total 0 (slog s) = -2 /\ smem s = [2 ^ 64 - 1] | None => False end.
Proof.
  split; [|split; [|vm_compute; split; reflexivity]]; intros t h op E; unfold adder in E; destruct (length h <? 3)%nat; try discriminate E; injection E as <-; destruct (Nat.even t); cbn; unfold u64v; lia.
Qed.
Definition drawer : client := fun _ h => if (length h <? 2)%nat then Some (ARmw KAdd MOld 0 1) else Some (AXchg 1 (zlen h mod 8)).
Example C109_case_tickets : client_ok 2 drawer /\
  (forall t h op, drawer t h = Some op -> ticket_op 0 op) /\ (forall t h op, drawer t h = Some op -> xchg_op 1 op) /\
  match srun drawer [0; 1; 1; 2; 0; 2; 1; 0; 1; 0; 0; 1; 1]%nat (sinit [1; 7]) with Some s => reports 0 (slog s) = [1; 2; 3; 4; 5; 6] /\ reports 1 (slog s) = [7; 2] | None => False end.
Proof.
  split; [|split; [|split; [|vm_compute; split; reflexivity]]]; intros t h op E; unfold drawer in E; destruct (length h <? 2)%nat; try discriminate E; injection E as <-; cbn [op_ok ticket_op xchg_op]; unfold u64v; try (pose proof (Z.mod_pos_bound (zlen h) 8 ltac:(lia))); try lia; auto.
Qed.
Print Assumptions C107_linearizable.
Print Assumptions C108_mutual_exclusion.
Print Assumptions C108_progress.
Print Assumptions C109_counter.
Print Assumptions C109_tickets.
Print Assumptions C109_exchange.
