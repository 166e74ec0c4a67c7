(** * C126: the atomic operations are lock-free, and all but the exchange are wait-free *)
From Verif Require Import Lib AtomicModel AtomicSpec.

(** the accesses thread [t] makes during a schedule, and the calls that return to a thread *)
Fixpoint accesses (c : client) (sched : list nat) (s : sys) (t : nat) : nat :=
  match sched with
  | [] => 0
  | u :: r =>
    match sstep c s u with
    | Some s' => ((if Nat.eqb u t then match c t (shist s t) with Some _ => 1 | None => 0 end else 0) + accesses c r s' t)%nat
    | None => 0
    end
  end.
Definition calls_of (t : nat) (l : list (nat * aop * ret)) : nat := length (proj t l).

(** accesses made since the call began or last failed; whether an exchange is bound to fail *)
Definition place (o : option aop) (p : pc) : nat :=
  match o, p with Some (AXchg _ _), PXchg _ => 1 | Some (BTestClr _), PFetch | Some (BTestSet _), PFetch => 1 | _, _ => 0 end.
Definition missed (m : list Z) (o : option aop) (p : pc) : nat :=
  match o, p with Some (AXchg w _), PXchg v => match rd m w with Some x => if x =? v then 0 else 1 | None => 1 end | _, _ => 0 end.
Lemma missed_place m o p : (missed m o p <= place o p <= 1)%nat.
Proof. unfold missed, place. destruct o as [[]|]; try lia; destruct p; try lia. destruct (rd m w); try destruct (_ =? _); lia. Qed.
Lemma place_idle o : place o PIdle = 0%nat.
Proof. destruct o as [[]|]; reflexivity. Qed.
Lemma missed_idle m o : missed m o PIdle = 0%nat.
Proof. destruct o as [[]|]; reflexivity. Qed.
(** an access that does not end the call leaves the memory alone *)
Lemma astep_inl m op p m' p' : astep m op p = Some (m', inl p') ->
  m' = m /\ (1 + place (Some op) p + 2 * missed m (Some op) p' <= place (Some op) p' + 2 * missed m (Some op) p)%nat /\
  ((forall w v, op <> AXchg w v) -> (1 + place (Some op) p <= place (Some op) p')%nat).
Proof.
  assert (F : forall k w v r, fetch m k w v r = Some (m', inl p') -> False) by (intros k w v r; unfold fetch; destruct (rd m w); [|discriminate]; destruct (wr m w _); discriminate).
  destruct op; cbn [astep]; intros E; try (exfalso; exact (F _ _ _ _ E)).
  - destruct (rd m w); discriminate.
  - destruct (wr m w v); discriminate.
  - destruct (cas m w old v) as [[? ?]|]; discriminate.
  - destruct (cas m w old v) as [[? ?]|]; discriminate.
  - destruct p as [| |q].
    + destruct (rd m w) as [x|] eqn:R; [|discriminate]. injection E as <- <-. split; [reflexivity|]. split; [cbn; rewrite R, Z.eqb_refl; lia|]. intros N. exfalso. apply (N w v). reflexivity.
    + destruct (rd m w) as [x|] eqn:R; [|discriminate]. injection E as <- <-. split; [reflexivity|]. split; [cbn; rewrite R, Z.eqb_refl; lia|]. intros N. exfalso. apply (N w v). reflexivity.
    + unfold cas in E. destruct (rd m w) as [x|] eqn:R; [|discriminate]. destruct (x =? q) eqn:Eq.
      * destruct (wr m w v); [|discriminate]. rewrite Eq in E. discriminate.
      * rewrite Eq in E. injection E as <- <-. split; [reflexivity|]. split; [cbn; rewrite R, Eq; lia|]. intros N. exfalso. apply (N w v). reflexivity.
  - destruct val; exfalso; exact (F _ _ _ _ E).
  - destruct (rd m (wordof b)); discriminate.
  - destruct p as [| |q]; [| exfalso; exact (F _ _ _ _ E)|]; (destruct (rd m (wordof b)); [|discriminate]; destruct (Z.land _ _ =? 0); [discriminate|]; injection E as <- <-; (split; [reflexivity|]); (split; [|intros _]); cbn; lia).
  - destruct p as [| |q]; [| exfalso; exact (F _ _ _ _ E)|]; (destruct (rd m (wordof b)); [|discriminate]; destruct (negb _); [discriminate|]; injection E as <- <-; (split; [reflexivity|]); (split; [|intros _]); cbn; lia).
  - destruct val; exfalso; exact (F _ _ _ _ E).
Qed.
(** an access that ends it was not bound to fail *)
Lemma astep_inr m op p m' r : astep m op p = Some (m', inr r) -> missed m (Some op) p = 0%nat.
Proof.
  unfold missed. destruct op; try reflexivity. destruct p; try reflexivity. cbn [astep]. unfold cas. destruct (rd m w) as [x|]; [|discriminate]. destruct (x =? prev) eqn:E; [reflexivity|]. rewrite E. discriminate.
Qed.
Definition wants (c : client) (s : sys) (t : nat) : option aop := c t (shist s t).
Lemma step_price c s u s' t : sstep c s u = Some s' ->
  exists l, slog s' = slog s ++ l /\
  ((if Nat.eqb u t then match c t (shist s t) with Some _ => 1 | None => 0 end else 0) + place (wants c s t) (spc s t) + 2 * missed (smem s') (wants c s' t) (spc s' t)
   <= 2 * length l + place (wants c s' t) (spc s' t) + 2 * missed (smem s) (wants c s t) (spc s t))%nat /\
  ((forall w v, wants c s t <> Some (AXchg w v)) ->
   ((if Nat.eqb u t then match c t (shist s t) with Some _ => 1 | None => 0 end else 0) + place (wants c s t) (spc s t) <= 2 * calls_of t l + place (wants c s' t) (spc s' t))%nat).
Proof.
  unfold sstep, wants. intros E. destruct (c u (shist s u)) as [op|] eqn:C.
  2:{ injection E as <-. exists []. split; [symmetry; apply app_nil_r|]. destruct (Nat.eqb_spec u t) as [->|]; [rewrite C|]; cbn; split; intros; lia. }
  destruct (astep (smem s) op (spc s u)) as [[m [p|r]]|] eqn:A; [| |discriminate]; injection E as <-; cbn [smem shist spc slog].
  - destruct (astep_inl _ _ _ _ _ A) as (-> & P & Q). exists []. split; [symmetry; apply app_nil_r|]. unfold tset. destruct (Nat.eqb_spec u t) as [->|N].
    + rewrite Nat.eqb_refl, C. split; [cbn [length]; lia|]. intros X. specialize (Q ltac:(intros w v ->; exact (X w v eq_refl))). unfold calls_of. cbn [proj length]. lia.
    + rewrite (proj2 (Nat.eqb_neq t u)) by congruence. cbn [length]. split; [lia|]. intros _. unfold calls_of. cbn [proj length]. lia.
  - exists [(u, op, r)]. split; [reflexivity|]. unfold tset. destruct (Nat.eqb_spec u t) as [->|N].
    + rewrite Nat.eqb_refl, place_idle, missed_idle, C. pose proof (missed_place (smem s) (Some op) (spc s t)). split; [cbn [length]; lia|]. intros _. unfold calls_of. cbn [proj]. rewrite Nat.eqb_refl. cbn [length]. lia.
    + rewrite (proj2 (Nat.eqb_neq t u)) by congruence. pose proof (missed_place m (c t (shist s t)) (spc s t)). cbn [length]. split; [lia|]. intros _. lia.
Qed.
(** Any stretch of any schedule, from any state: the accesses of one thread are at most twice the calls that return, plus two. *)
Theorem C126_atomic_lock_free : forall c sched s s' t, srun c sched s = Some s' ->
  exists l, slog s' = slog s ++ l /\ (accesses c sched s t <= 2 * length l + 2)%nat.
Proof.
  intros c sched s s' t R.
  assert (G : exists l, slog s' = slog s ++ l /\ (accesses c sched s t + place (wants c s t) (spc s t) <= 2 * length l + place (wants c s' t) (spc s' t) + 2 * missed (smem s) (wants c s t) (spc s t))%nat).
  { revert s R. induction sched as [|u sched IH]; intros s R; [injection R as <-; exists []; split; [symmetry; apply app_nil_r|cbn; lia]|].
    cbn [srun accesses] in R |- *. destruct (sstep c s u) as [s1|] eqn:E; [|discriminate]. destruct (IH s1 R) as (l2 & L2 & C2). destruct (step_price c s u s1 t E) as (l1 & L1 & C1 & _).
    exists (l1 ++ l2). split; [rewrite L2, L1; symmetry; apply app_assoc|]. rewrite app_length. clear - C1 C2. lia. }
  destruct G as (l & L & C). exists l. split; [exact L|]. pose proof (missed_place (smem s) (wants c s t) (spc s t)). pose proof (missed_place (smem s') (wants c s' t) (spc s' t)). lia.
Qed.
(** A thread that does no exchange is not held up at all: at most two accesses for each of its own calls, whatever the others do. *)
Theorem C126_atomic_wait_free : forall c sched s s' t, (forall h w v, c t h <> Some (AXchg w v)) -> srun c sched s = Some s' ->
  exists l, slog s' = slog s ++ l /\ (accesses c sched s t <= 2 * calls_of t l + 1)%nat.
Proof.
  intros c sched s s' t Nx R.
  assert (G : exists l, slog s' = slog s ++ l /\ (accesses c sched s t + place (wants c s t) (spc s t) <= 2 * calls_of t l + place (wants c s' t) (spc s' t))%nat).
  { revert s R. induction sched as [|u sched IH]; intros s R; [injection R as <-; exists []; split; [symmetry; apply app_nil_r|cbn; lia]|].
    cbn [srun accesses] in R |- *. destruct (sstep c s u) as [s1|] eqn:E; [|discriminate]. destruct (IH s1 R) as (l2 & L2 & C2). destruct (step_price c s u s1 t E) as (l1 & L1 & _ & C1).
    exists (l1 ++ l2). split; [rewrite L2, L1; symmetry; apply app_assoc|]. specialize (C1 (fun w v => Nx _ w v)).
    assert (Pa : calls_of t (l1 ++ l2) = (calls_of t l1 + calls_of t l2)%nat).
    { unfold calls_of. clear. induction l1 as [|[[u op] r] l IH]; [reflexivity|]. cbn [app proj]. destruct (Nat.eqb u t); cbn [length]; lia. }
    rewrite Pa. clear - C1 C2. lia. }
  destruct G as (l & L & C). exists l. split; [exact L|]. pose proof (missed_place (smem s') (wants c s' t) (spc s' t)). lia.
Qed.
(** One exchange can be kept from finishing for ever by a thread that keeps adding. *)
Definition rival : client := fun t _ => match t with 0%nat => Some (AXchg 0 7) | 1%nat => Some (ARmw KAdd MVoid 0 1) | _ => None end.
Theorem C126_xchg_wait_free_refuted : exists c m, forall n : nat, exists sched s', srun c sched (sinit m) = Some s' /\ (n <= accesses c sched (sinit m) 0)%nat /\ calls_of 0 (slog s') = 0%nat.
Proof.
  exists rival, [0].
  assert (G : forall n k s, 0 <= k < 2 ^ 64 -> smem s = [k] -> spc s 0%nat = PIdle -> spc s 1%nat = PIdle -> calls_of 0 (slog s) = 0%nat ->
    exists s', srun rival (concat (repeat [0; 1; 0]%nat n)) s = Some s' /\ (n <= accesses rival (concat (repeat [0; 1; 0]%nat n)) s 0)%nat /\ calls_of 0 (slog s') = 0%nat).
  { induction n as [|n IH]; intros k s K M P0 P1 L; [exists s; cbn; auto|].
    destruct s as [m hi p l]. cbn [smem spc slog] in *. subst m. cbn [repeat concat app srun accesses].
    assert (E1 : sstep rival {| smem := [k]; shist := hi; spc := p; slog := l |} 0 = Some {| smem := [k]; shist := hi; spc := tset p 0 (PXchg k); slog := l |}) by (unfold sstep; cbn; rewrite P0; reflexivity).
    rewrite E1.
    assert (E2 : sstep rival {| smem := [k]; shist := hi; spc := tset p 0 (PXchg k); slog := l |} 1 =
      Some {| smem := [w64 (k + 1)]; shist := tset hi 1 (hi 1%nat ++ [(ARmw KAdd MVoid 0 1, RVoid)]); spc := tset (tset p 0 (PXchg k)) 1 PIdle; slog := l ++ [(1%nat, ARmw KAdd MVoid 0 1, RVoid)] |}) by reflexivity.
    rewrite E2.
    assert (Ne : (w64 (k + 1) =? k) = false).
    { apply Z.eqb_neq. change (w64 (k + 1)) with ((k + 1) mod 2 ^ 64). destruct (Z.eq_dec k (2 ^ 64 - 1)) as [->|N]; [discriminate|]. rewrite Z.mod_small; lia. }
    assert (E3 : sstep rival {| smem := [w64 (k + 1)]; shist := tset hi 1 (hi 1%nat ++ [(ARmw KAdd MVoid 0 1, RVoid)]); spc := tset (tset p 0 (PXchg k)) 1 PIdle; slog := l ++ [(1%nat, ARmw KAdd MVoid 0 1, RVoid)] |} 0 =
      Some {| smem := [w64 (k + 1)]; shist := tset hi 1 (hi 1%nat ++ [(ARmw KAdd MVoid 0 1, RVoid)]); spc := tset (tset (tset p 0 (PXchg k)) 1 PIdle) 0 PIdle; slog := l ++ [(1%nat, ARmw KAdd MVoid 0 1, RVoid)] |}).
    { unfold sstep. cbn [rival shist spc smem slog tset Nat.eqb astep]. unfold cas. cbn [rd]. change (rd [w64 (k + 1)] 0) with (Some (w64 (k + 1))). cbv iota beta. rewrite Ne. cbv iota beta. rewrite Ne. reflexivity. }
    rewrite E3. destruct (IH (w64 (k + 1)) {| smem := [w64 (k + 1)]; shist := tset hi 1 (hi 1%nat ++ [(ARmw KAdd MVoid 0 1, RVoid)]); spc := tset (tset (tset p 0 (PXchg k)) 1 PIdle) 0 PIdle; slog := l ++ [(1%nat, ARmw KAdd MVoid 0 1, RVoid)] |}) as (s' & R & W & C).
    - change (w64 (k + 1)) with ((k + 1) mod 2 ^ 64). apply Z.mod_pos_bound. lia.
    - reflexivity.
    - reflexivity.
    - reflexivity.
    - cbn [slog]. revert L. unfold calls_of. clear. induction l as [|[[u op] r] l IH]; [reflexivity|]. cbn [app proj]. destruct (Nat.eqb u 0); [discriminate|exact IH].
    - exists s'. split; [exact R|]. split; [|exact C]. cbn [Nat.eqb rival]. clear - W. lia. }
  intros n. destruct (G n 0 (sinit [0])) as (s' & R & W & C); try reflexivity; [lia|]. exists (concat (repeat [0; 1; 0]%nat n)), s'. auto.
Qed.
(** A case: one round of that chase, with a thread that takes a lock in two accesses beside it. *)
Definition trio : client := fun t h => match t with 2%nat => match h with [] => Some (BTestSet 64) | _ => None end | _ => rival t h end.
Example C126_atomic_case : option_map slog (srun trio [0; 1; 2; 0; 2; 0; 0]%nat (sinit [0; 0])) = Some [(1%nat, ARmw KAdd MVoid 0 1, RVoid); (2%nat, BTestSet 64, RBool false); (0%nat, AXchg 0 7, RVal 1)] /\
  accesses trio [0; 1; 2; 0; 2; 0; 0]%nat (sinit [0; 0]) 0 = 4%nat /\ accesses trio [0; 1; 2; 0; 2; 0; 0]%nat (sinit [0; 0]) 2 = 2%nat /\ forall h w v, trio 2%nat h <> Some (AXchg w v).
Proof. split; [vm_compute; reflexivity|]. split; [vm_compute; reflexivity|]. split; [vm_compute; reflexivity|]. intros [|? ?] w v; discriminate. Qed.
Print Assumptions C126_atomic_lock_free.
Print Assumptions C126_atomic_wait_free.
Print Assumptions C126_xchg_wait_free_refuted.
