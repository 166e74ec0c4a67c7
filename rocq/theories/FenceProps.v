(** * C118: data behind a bit lock; C119: the last reference *)
From Coq Require Import Lia.
From Verif Require Import Lib AtomicModel AtomicSpec AtomicProofs FenceModel FenceSpec FenceProofs.

(** ** In general: plain loads and stores of words that pass from one thread to another at barriers.  On a machine whose stores wait in
    buffers and may even overtake each other, the calls of all threads in order of their completion still give the replies they
    would give one after the other; the owner of a word sees its right value, and one that nobody owns has it in memory. *)
Theorem C118_ownership : forall weak sync own c m f sched,
  client_ok (zlen m) c -> Forall u64v m -> agrees m f -> respects sync own c f ->
  exists s f', brun weak c sched (binit m) = Some s /\ explains f (blog s) f' /\ issued c (blog s) /\ (forall t, bhist s t = proj t (blog s)) /\
    forall w, 0 <= w < zlen m ->
      if sync w then rd (bmem s) w = Some (f' w)
      else match own (blog s) w with Some t => rd (view (bmem s) (bbuf s t)) w = Some (f' w) | None => rd (bmem s) w = Some (f' w) end.
Proof.
  intros weak sync own c m f sched CO W A RE. destruct (brun_inv c (zlen m) f sync own (fun l g t op _ _ => CO t (proj t l) op) RE weak sched _ (binit_inv c m f sync own W A)) as (s & E & I).
  destruct I as (_ & L & R & H & IS & f' & X & BS & BO & BN & BP). exists s, f'. split; [exact E|]. split; [exact X|]. split; [exact IS|]. split; [exact H|].
  intros w Hw. destruct (sync w) eqn:Sw; [apply BS; assumption|]. destruct (own (blog s) w) as [t|] eqn:Eo; [apply BO; assumption|apply BN; assumption].
Qed.

(** ** Locks *)
Definition owner_step (b : Z) (o : option nat) (e : nat * aop * ret) : option nat :=
  match e with
  | (t, BTestSet b', RBool false) => if b' =? b then Some t else o
  | (_, BClr b', _) | (_, BTestClr b', _) => if b' =? b then None else o
  | _ => o
  end.
Definition owner_of (b : Z) (l : log) : option nat := fold_left (owner_step b) l None.
Lemma owner_snoc : forall b l e, owner_of b (l ++ [e]) = owner_step b (owner_of b l) e.
Proof. intros. unfold owner_of. rewrite fold_left_app. reflexivity. Qed.
Lemma owner_holds : forall c n b f0, client_ok n c -> polite b c -> 0 <= b -> bitv f0 b = false -> forall l f, issued c l -> explains f0 l f ->
  (forall t, holds b (proj t l) = true <-> owner_of b l = Some t) /\ bitv f b = (match owner_of b l with Some _ => true | None => false end).
Proof.
  intros c n b f0 CO PO Hb B0 l f IS X.
  assert (OW : forall l, issued c l -> forall f, explains f0 l f -> forall t, holds b (proj t l) = true <-> owner_of b l = Some t).
  { clear l f IS X. intros l IS. induction IS as [|l t op r IS IH Ec]; intros f X u; [cbn; split; discriminate|].
    destruct (explains_app _ _ _ _ X) as (f1 & X1 & X2). specialize (IH _ X1). destruct (lock_ok c n b f0 CO PO Hb B0 l f1 IS X1) as (o & Ho & Bo).
    assert (EO : o = owner_of b l).
    { destruct o as [x|]; [symmetry; apply IH, Ho; reflexivity|]. destruct (owner_of b l) as [y|] eqn:Ey; [|reflexivity]. pose proof (proj2 (IH y) eq_refl) as P. apply Ho in P. discriminate P. }
    subst o. rewrite owner_snoc, proj_snoc. pose proof (PO _ _ _ Ec) as LO. inversion X2 as [|? ? ? ? ? f' ? E X3]; subst. inversion X3; subst.
    destruct (Nat.eqb_spec t u) as [->|N].
    - unfold holds. rewrite holds_from_snoc. fold (holds b (proj u l)).
      destruct op as [w|w v|k md w v|w old v|w old v|w v|b'|b'|b'|b' val|b'|b'|b'|b'|b' val]; cbn [owner_step]; try apply IH.
      + destruct (b' =? b); [split; discriminate|apply IH].
      + destruct (b' =? b); [split; discriminate|apply IH].
      + destruct r as [|v|[]|]; try apply IH. destruct (b' =? b); [split; reflexivity|apply IH].
    - rewrite app_nil_r. specialize (IH u). destruct op as [w|w v|k md w v|w old v|w old v|w v|b'|b'|b'|b' val|b'|b'|b'|b'|b' val]; cbn [owner_step]; try exact IH.
      + destruct (Z.eqb_spec b' b) as [->|]; [|exact IH]. cbn [lock_op] in LO. specialize (LO eq_refl). apply Ho in LO. rewrite LO in IH. split; [intros Q; apply IH in Q; congruence|discriminate].
      + destruct (Z.eqb_spec b' b) as [->|]; [|exact IH]. cbn [lock_op] in LO. specialize (LO eq_refl). apply Ho in LO. rewrite LO in IH. split; [intros Q; apply IH in Q; congruence|discriminate].
      + destruct r as [|v|[]|]; try exact IH. destruct (Z.eqb_spec b' b) as [->|]; [|exact IH]. cbn [atspec] in E. injection E as _ E. rewrite E in Bo.
        destruct (owner_of b l); [discriminate Bo|]. split; [intros Q; apply IH in Q; discriminate Q|intros Q; congruence]. }
  specialize (OW l IS f X). split; [exact OW|]. destruct (lock_ok c n b f0 CO PO Hb B0 l f IS X) as (o & Ho & Bo). rewrite Bo. destruct o as [x|].
  - rewrite (proj1 (OW x) (proj2 (Ho x) eq_refl)). reflexivity.
  - destruct (owner_of b l) as [y|]; [|reflexivity]. pose proof (proj2 (OW y) eq_refl) as P. apply Ho in P. discriminate P.
Qed.
Definition lock_own (sync : Z -> bool) (guard : Z -> Z) : ownership := fun l w => if sync w then None else owner_of (guard w) l.
Lemma lock_respects : forall sync guard c n f, client_ok n c -> disciplined sync guard c -> (forall w, sync w = false -> 0 <= guard w /\ bitv f (guard w) = false) ->
  respects sync (lock_own sync guard) c f.
Proof.
  intros sync guard c n f0 CO (PO & DI) G l f t op IS X Ec. split.
  - specialize (DI _ _ _ Ec). destruct (sync (opw op)) eqn:Es; [exact DI|]. unfold lock_own. rewrite Es. destruct (G _ Es) as (G1 & G2).
    apply (owner_holds c n _ f0 CO (PO _ Es) G1 G2 l f IS X). exact DI.
  - intros w. unfold lock_own. destruct (sync w) eqn:Sw; [left; reflexivity|]. destruct (G _ Sw) as (G1 & G2). specialize (PO _ Sw). set (b := guard w) in *.
    destruct (owner_holds c n b f0 CO PO G1 G2 l f IS X) as (OH & OB). rewrite owner_snoc. pose proof (PO _ _ _ Ec) as LO.
    destruct op as [w'|w' v|k md w' v|w' old v|w' old v|w' v|b'|b'|b'|b' val|b'|b'|b'|b'|b' val]; cbn [owner_step atspec snd fence]; try (left; reflexivity).
    + destruct (Z.eqb_spec b' b) as [->|]; [|left; reflexivity]. cbn [lock_op] in LO. right. right. split; [apply OH, LO; reflexivity|exact Logic.I].
    + destruct (Z.eqb_spec b' b) as [->|]; [|left; reflexivity]. cbn [lock_op] in LO. right. right. specialize (LO eq_refl). apply OH in LO. split; [exact LO|]. rewrite OB, LO. reflexivity.
    + destruct (bitv f b') eqn:Bv; [left; reflexivity|]. destruct (Z.eqb_spec b' b) as [->|]; [|left; reflexivity]. right. left. rewrite OB in Bv. destruct (owner_of b l); [discriminate Bv|reflexivity].
Qed.

(** ** C118.  Words each guarded by a bit: touched, with plain loads and stores or otherwise, only by threads that hold the bit, which they take with
    bfdev_bit_atomic_test_set and give back with bit_atomic_clr or test_clr.  Any number of locks and words, any other atomic
    operations on the words of the locks.  At most one thread holds a lock, every load gives the value stored last, and after the
    lock was given back the data is in memory. *)
Theorem C118_locks : forall weak sync guard c m f sched,
  client_ok (zlen m) c -> Forall u64v m -> agrees m f -> disciplined sync guard c ->
  (forall w, sync w = false -> 0 <= guard w /\ bitv f (guard w) = false) ->
  exists s f', brun weak c sched (binit m) = Some s /\ explains f (blog s) f' /\ issued c (blog s) /\ (forall t, bhist s t = proj t (blog s)) /\
    (forall w t u, sync w = false -> holds (guard w) (bhist s t) = true -> holds (guard w) (bhist s u) = true -> t = u) /\
    (forall w t, 0 <= w < zlen m -> sync w = false -> holds (guard w) (bhist s t) = true -> rd (view (bmem s) (bbuf s t)) w = Some (f' w)) /\
    (forall w, 0 <= w < zlen m -> sync w = false -> (forall t, holds (guard w) (bhist s t) = false) -> rd (bmem s) w = Some (f' w)) /\
    (forall w, 0 <= w < zlen m -> sync w = true -> rd (bmem s) w = Some (f' w)).
Proof.
  intros weak sync guard c m f sched CO W A DI G. destruct (C118_ownership weak sync (lock_own sync guard) c m f sched CO W A (lock_respects _ _ _ _ _ CO DI G)) as (s & f' & E & X & IS & H & V).
  exists s, f'. split; [exact E|]. split; [exact X|]. split; [exact IS|]. split; [exact H|].
  assert (OH : forall w, sync w = false -> forall t, holds (guard w) (bhist s t) = true <-> owner_of (guard w) (blog s) = Some t).
  { intros w Sw t. rewrite H. destruct (G _ Sw) as (G1 & G2). apply (owner_holds c _ _ f CO (proj1 DI _ Sw) G1 G2 _ f' IS X). }
  split; [intros w t u Sw Ht Hu; apply (OH _ Sw) in Ht, Hu; congruence|]. split; [|split].
  - intros w t Hw Sw Ht. specialize (V w Hw). unfold lock_own in V. rewrite Sw in V. apply (OH _ Sw) in Ht. rewrite Ht in V. exact V.
  - intros w Hw Sw N. specialize (V w Hw). unfold lock_own in V. rewrite Sw in V. destruct (owner_of (guard w) (blog s)) as [t|] eqn:Eo; [|exact V].
    apply (OH _ Sw) in Eo. rewrite N in Eo. discriminate Eo.
  - intros w Hw Sw. specialize (V w Hw). rewrite Sw in V. exact V.
Qed.
(** two words behind bit 3 of word 0; a transfer between them leaves their sum alone *)
Definition transfer : client := fun t h =>
  if holds 3 h then
    match rev h with
    | (BTestSet _, _) :: _ => Some (ARead 1)
    | (ARead 1, RVal a) :: _ => Some (AWrite 1 (w64 (a + 1)))
    | (AWrite 1 _, _) :: _ => Some (ARead 2)
    | (ARead 2, RVal a) :: _ => Some (AWrite 2 (w64 (a - 1)))
    | _ => Some (BTestClr 3)
    end
  else Some (BTestSet 3).
Example C118_locks_case : client_ok 3 transfer /\ disciplined (fun w => w =? 0) (fun _ => 3) transfer /\
  match brun true transfer [Go 0; Go 1; Go 0; Go 0; Go 0; Go 0; Go 0; Go 0; Go 0; Drain 0 1; Go 0; Drain 0 0; Go 0; Go 1; Go 1; Go 1; Go 1]%nat (binit [0; 5; 5]) with
  | Some s => bmem s = [8; 6; 4] /\ bbuf s 1%nat = [(1, 7)] /\ bhist s 1%nat = [(BTestSet 3, RBool false); (ARead 1, RVal 6); (AWrite 1 7, RVoid); (ARead 2, RVal 4)]
  | None => False
  end.
Proof.
  assert (T : forall t h op, transfer t h = Some op -> (op = BTestSet 3 \/ (holds 3 h = true /\ (op = BTestClr 3 \/ op = ARead 1 \/ op = ARead 2 \/ exists a, op = AWrite 1 (w64 a) \/ op = AWrite 2 (w64 a))))).
  { intros t h op. unfold transfer. destruct (holds 3 h); [|intros [= <-]; left; reflexivity]. intros E. right. split; [reflexivity|].
    repeat match type of E with context [match ?x with _ => _ end] => is_var x; destruct x | context [match rev h with _ => _ end] => destruct (rev h) end;
      injection E as <-; solve [left; reflexivity|right; left; reflexivity|right; right; left; reflexivity|right; right; right; eexists; left; reflexivity|right; right; right; eexists; right; reflexivity]. }
  assert (U : forall a, u64v (w64 a)) by (intros a; apply Z.mod_pos_bound; reflexivity).
  split; [|split].
  - intros t h op E. destruct (T _ _ _ E) as [-> | (_ & [-> | [-> | [-> | (a & [-> | ->])]]])]; cbn [op_ok]; try split; try apply U; lia.
  - split.
    + intros w _ t h op E. destruct (T _ _ _ E) as [-> | (Hh & [-> | [-> | [-> | (a & [-> | ->])]]])]; cbn [lock_op]; try exact Logic.I; try discriminate. intros _. exact Hh.
    + intros t h op E. destruct (T _ _ _ E) as [-> | (Hh & [-> | [-> | [-> | (a & [-> | ->])]]])]; try exact Hh; intros [].
  - vm_compute. repeat split.
Qed.
Fixpoint replay (f : Z -> Z) (l : log) : Prop := match l with [] => True | (_, op, r) :: l => snd (atspec op f) = r /\ replay (fst (atspec op f)) l end.
Lemma replayed : forall l f f', explains f l f' -> replay f l.
Proof. induction l as [|[[t op] r] l IH]; intros f f' X; [exact Logic.I|]. inversion X as [|? ? ? ? ? g ? E X1]; subst. cbn [replay]. rewrite E. split; [reflexivity|apply (IH _ _ X1)]. Qed.
(** ** Giving the lock back with a plain store is not enough.  When stores may overtake each other, the next holder misses the data, *)
Definition plain_unlock : client := fun t h =>
  match t, h with
  | 0%nat, [] | 1%nat, [] => Some (BTestSet 0)
  | 0%nat, [(BTestSet 0, RBool false)] => Some (AWrite 1 5)
  | 0%nat, [(BTestSet 0, RBool false); (AWrite 1 5, _)] => Some (AWrite 0 0)
  | 1%nat, [(BTestSet 0, RBool false)] => Some (ARead 1)
  | _, _ => None
  end.
Theorem C118_plain_unlock_refuted : exists c m f sched s,
  client_ok (zlen m) c /\ Forall u64v m /\ agrees m f /\ bitv f 0 = false /\ plain_disciplined 0 c /\
  brun true c sched (binit m) = Some s /\ ~ exists f', explains f (blog s) f'.
Proof.
  set (sched := [Go 0; Go 0; Go 0; Go 0; Drain 0 1; Go 1; Go 1; Go 1]%nat).
  assert (E : exists s, brun true plain_unlock sched (binit [0; 0]) = Some s /\
            blog s = [(0%nat, BTestSet 0, RBool false); (0%nat, AWrite 1 5, RVoid); (0%nat, AWrite 0 0, RVoid); (1%nat, BTestSet 0, RBool false); (1%nat, ARead 1, RVal 0)]) by (eexists; vm_compute; split; reflexivity).
  destruct E as (s & E & L). exists plain_unlock, [0; 0], (fun _ => 0), sched, s.
  assert (T : forall t h op, plain_unlock t h = Some op -> op = BTestSet 0 \/ (plain_holds 0 h = true /\ (op = AWrite 0 0 \/ op = AWrite 1 5 \/ op = ARead 1))).
  { intros t h op. unfold plain_unlock. intros Q.
    repeat match type of Q with Some _ = Some _ => fail 1 | context [match ?x with _ => _ end] => is_var x; destruct x; try discriminate Q end;
      injection Q as <-; cbn; auto 6. }
  split; [intros t h op Q; destruct (T _ _ _ Q) as [-> | (_ & [-> | [-> | ->]])]; unfold op_ok, u64v, zlen; cbn [length]; lia|].
  split; [repeat constructor; unfold u64v; lia|].
  split; [intros w Hw; change (zlen [0; 0]) with 2 in Hw; assert (w = 0 \/ w = 1) as [-> | ->] by lia; reflexivity|].
  split; [reflexivity|].
  split; [intros t h op Q; destruct (T _ _ _ Q) as [-> | (Hh & [-> | [-> | ->]])]; [left; reflexivity|right; split; [exact Hh|]; solve [left; reflexivity|right; discriminate] ..]|].
  split; [exact E|]. rewrite L. intros (f' & X). apply replayed in X. destruct X as (_ & _ & _ & _ & X & _). vm_compute in X. discriminate X.
Qed.
(** and even when they may not, a bit of the same word that another thread set meanwhile is lost. *)
Definition plain_unlock_bits : client := fun t h =>
  match t, h with
  | 0%nat, [] => Some (BTestSet 0)
  | 0%nat, [(BTestSet 0, RBool false)] => Some (AWrite 0 0)
  | 1%nat, [] => Some (BSet 1)
  | 1%nat, [_] => Some (BTest 1)
  | _, _ => None
  end.
Theorem C118_plain_unlock_bits_refuted : exists c m f sched s,
  client_ok (zlen m) c /\ Forall u64v m /\ agrees m f /\ (forall t h op, c t h = Some op -> op = AWrite 0 0 -> plain_holds 0 h = true) /\
  brun false c sched (binit m) = Some s /\ (forall t op r, In (t, op, r) (blog s) -> op <> BClr 1 /\ op <> BTestClr 1) /\ In (1%nat, BSet 1, RVoid) (blog s) /\
  (exists l, blog s = l ++ [(1%nat, BTest 1, RBool false)]) /\ ~ exists f', explains f (blog s) f'.
Proof.
  set (sched := [Go 0; Go 0; Go 0; Go 1; Drain 0 0; Go 1]%nat).
  assert (E : exists s, brun false plain_unlock_bits sched (binit [0]) = Some s /\
            blog s = [(0%nat, BTestSet 0, RBool false); (0%nat, AWrite 0 0, RVoid); (1%nat, BSet 1, RVoid); (1%nat, BTest 1, RBool false)]) by (eexists; vm_compute; split; reflexivity).
  destruct E as (s & E & L). exists plain_unlock_bits, [0], (fun _ => 0), sched, s.
  assert (T : forall t h op, plain_unlock_bits t h = Some op -> op = BTestSet 0 \/ op = BSet 1 \/ op = BTest 1 \/ (plain_holds 0 h = true /\ op = AWrite 0 0)).
  { intros t h op. unfold plain_unlock_bits. intros Q.
    repeat match type of Q with Some _ = Some _ => fail 1 | context [match ?x with _ => _ end] => is_var x; destruct x; try discriminate Q end;
      injection Q as <-; cbn; auto 6. }
  split; [intros t h op Q; destruct (T _ _ _ Q) as [-> | [-> | [-> | (_ & ->)]]]; unfold op_ok, u64v, zlen; cbn [length]; lia|].
  split; [repeat constructor; unfold u64v; lia|].
  split; [intros w Hw; change (zlen [0]) with 1 in Hw; assert (w = 0) as -> by lia; reflexivity|].
  split; [intros t h op Q ->; destruct (T _ _ _ Q) as [X | [X | [X | (X & _)]]]; [discriminate X ..|exact X]|].
  split; [exact E|]. rewrite L. split; [intros t op r [[= <- <- <-] | [[= <- <- <-] | [[= <- <- <-] | [[= <- <- <-] | []]]]]; split; discriminate|].
  split; [right; right; left; reflexivity|]. split; [eexists [_; _; _]; reflexivity|].
  intros (f' & X). apply replayed in X. destruct X as (_ & _ & _ & X & _). vm_compute in X. discriminate X.
Qed.
Print Assumptions C118_ownership.
Print Assumptions C118_locks.
Print Assumptions C118_plain_unlock_refuted.
Print Assumptions C118_plain_unlock_bits_refuted.
