(** * C125: locks and data when loads are satisfied early *)
From Coq Require Import Lia.
From Verif Require Import Lib AtomicModel AtomicSpec AtomicProofs FenceModel FenceSpec FenceProofs FenceProps LoadModel LoadSpec LoadProofs.

(** ** In general: words that pass from one thread to another at barriers of both.  Every call gives the reply it would give if the calls were done one after the other, except
    that plain loads of the words used to synchronise may report what they were at some time since the last barrier of the thread ([lex]). *)
Theorem C125_ownership : forall weak sync own c m f sched,
  client_ok (zlen m) c -> Forall u64v m -> agrees m f -> respects_early sync own c f ->
  exists s f' P, erun weak c sched (einit m) = Some s /\ let b := ebase s in lex sync f (blog b) f' P /\ issued c (blog b) /\ (forall t, bhist b t = proj t (blog b)) /\
    forall w, 0 <= w < zlen m ->
      if sync w then rd (bmem b) w = Some (f' w)
      else match own (blog b) w with Some t => rd (view (bmem b) (bbuf b t)) w = Some (f' w) | None => rd (bmem b) w = Some (f' w) end.
Proof.
  intros weak sync own c m f sched CO W A RE. destruct (erun_inv c (zlen m) f sync own (fun l g P t op _ _ => CO t (proj t l) op) RE weak sched _ (einit_inv c m f sync own W A)) as (s & E & I).
  destruct I as (H & IS & f' & P & X & (_ & L & R & BS & BO & BN & BP) & _). exists s, f', P. split; [exact E|]. split; [exact X|]. split; [exact IS|]. split; [exact H|].
  intros w Hw. destruct (sync w) eqn:Sw; [apply BS; assumption|]. destruct (own (blog (ebase s)) w) as [t|] eqn:Eo; [apply BO; assumption|apply BN; assumption].
Qed.

(** ** Locks *)
Definition isset (o : option nat) : bool := match o with Some _ => true | None => false end.
Lemma lock_lex : forall c n b sync f0, client_ok n c -> polite b c -> 0 <= b -> bitv f0 b = false -> forall l f P, issued c l -> lex sync f0 l f P ->
  (forall t, holds b (proj t l) = true <-> owner_of b l = Some t) /\ bitv f b = isset (owner_of b l) /\ (forall t g, owner_of b l = Some t -> P t g -> bitv g b = true).
Proof.
  intros c n b sync f0 CO PO Hb B0 l f P IS. revert f P. induction IS as [|l t op r IS IH Ec]; intros f P X.
  - destruct (lex_empty _ _ _ _ X) as (-> & ->). split; [intros t; cbn; split; discriminate|]. split; [exact B0|discriminate].
  - destruct (lex_snoc _ _ _ _ _ _ _ _ X) as (f1 & P1 & X1 & D). destruct (IH _ _ X1) as (OH & OB & OP). clear IH. pose proof (CO _ _ _ Ec) as OK. pose proof (PO _ _ _ Ec) as LO. rewrite owner_snoc.
    set (o := owner_of b l) in *. set (o' := owner_step b o (t, op, r)).
    (* who holds the lock afterwards *)
    assert (HS : (forall u, t <> u -> o' = Some u <-> o = Some u) -> (holds_from b (proj t l ++ [(op, r)]) false = true <-> o' = Some t) -> forall u, holds b (proj u (l ++ [(t, op, r)])) = true <-> o' = Some u).
    { intros Q1 Q2 u. rewrite proj_snoc. destruct (Nat.eqb_spec t u) as [<-|N]; [exact Q2|]. rewrite app_nil_r, OH. symmetry. apply Q1, N. }
    assert (SAME : o' = o -> holds_from b (proj t l ++ [(op, r)]) false = holds b (proj t l) -> forall u, holds b (proj u (l ++ [(t, op, r)])) = true <-> o' = Some u).
    { intros Q1 Q2. apply HS; [intros u _; rewrite Q1; reflexivity|rewrite Q1, Q2; apply OH]. }
    destruct D as [(-> & -> & ->)|(-> & -> & Sy & PK & g & G1 & ->)].
    + (* done now *)
      assert (K : (forall u, holds b (proj u (l ++ [(t, op, snd (atspec op f1))])) = true <-> o' = Some u) /\ bitv (fst (atspec op f1)) b = isset o' /\ (forall u, o' = Some u -> o = Some u \/ (u = t /\ fence op (snd (atspec op f1))))).
      { assert (KEEP : o' = o -> holds_from b (proj t l ++ [(op, snd (atspec op f1))]) false = holds b (proj t l) -> bitv (fst (atspec op f1)) b = bitv f1 b ->
          (forall u, holds b (proj u (l ++ [(t, op, snd (atspec op f1))])) = true <-> o' = Some u) /\ bitv (fst (atspec op f1)) b = isset o' /\ (forall u, o' = Some u -> o = Some u \/ (u = t /\ fence op (snd (atspec op f1))))).
        { intros Q1 Q2 Q3. split; [apply SAME; assumption|]. rewrite Q1, Q3. split; [exact OB|]. intros u Q. left. exact Q. }
        destruct op as [w|w v|k md w v|w old v|w old v|w v|b'|b'|b'|b' val|b'|b'|b'|b'|b' val]; cbn [atspec fst snd] in *; cbn [lock_op] in LO; cbn [op_ok] in OK; unfold o' in *; cbn [owner_step] in *;
          try (apply KEEP; [reflexivity|rewrite holds_from_snoc; reflexivity|first [reflexivity|apply upd_other; exact LO|apply setb_other; [lia|lia|exact LO]]]; fail).
        - apply KEEP; [reflexivity|rewrite holds_from_snoc; reflexivity|]. destruct (f1 w =? old); [apply upd_other; exact LO|reflexivity].
        - apply KEEP; [reflexivity|rewrite holds_from_snoc; reflexivity|]. destruct (f1 w =? old); [apply upd_other; exact LO|reflexivity].
        - destruct (Z.eqb_spec b' b) as [->|N]; [|apply KEEP; [reflexivity|rewrite holds_from_snoc; rewrite (proj2 (Z.eqb_neq _ _)) by exact N; reflexivity|apply setb_other; [lia|lia|exact N]]].
          specialize (LO eq_refl). apply OH in LO. split; [|split; [apply setb_same|discriminate]]. apply HS; [intros u Nu; rewrite LO; split; [discriminate|intros Q; congruence]|rewrite holds_from_snoc, Z.eqb_refl; split; discriminate].
        - destruct (Z.eqb_spec b' b) as [->|N]; [|apply KEEP; [reflexivity|rewrite holds_from_snoc; rewrite (proj2 (Z.eqb_neq _ _)) by exact N; reflexivity|apply setb_other; [lia|lia|exact N]]].
          specialize (LO eq_refl). apply OH in LO. split; [|split; [apply setb_same|discriminate]]. apply HS; [intros u Nu; rewrite LO; split; [discriminate|intros Q; congruence]|rewrite holds_from_snoc, Z.eqb_refl; split; discriminate].
        - destruct (Z.eqb_spec b' b) as [->|N].
          + destruct (bitv f1 b) eqn:Bf.
            * apply KEEP; [reflexivity|rewrite holds_from_snoc; reflexivity|]. rewrite setb_same. reflexivity.
            * assert (ON : o = None) by (destruct o; [discriminate OB|reflexivity]). split; [|split; [rewrite setb_same; reflexivity|intros u [= <-]; right; split; reflexivity]].
              apply HS; [intros u Nu; rewrite ON; split; [intros Q; congruence|discriminate]|rewrite holds_from_snoc, Z.eqb_refl; split; reflexivity].
          + apply KEEP; [destruct (bitv f1 b'); reflexivity|rewrite holds_from_snoc; rewrite (proj2 (Z.eqb_neq _ _)) by exact N; destruct (bitv f1 b'); reflexivity|apply setb_other; [lia|lia|exact N]]. }
      destruct K as (K1 & K2 & K3). split; [exact K1|]. split; [exact K2|]. intros u g Ou [->|(Pg & NF)]; [rewrite K2, Ou; reflexivity|]. destruct (K3 u Ou) as [Q|(Q & F)]; [exact (OP _ _ Q Pg)|]. contradiction (NF Q F).
    + (* reported by an early load *)
      assert (Q : o' = o /\ holds_from b (proj t l ++ [(op, snd (atspec op g))]) false = holds b (proj t l)).
      { rewrite holds_from_snoc. unfold o'. destruct op as [w|w v|k md w v|w old v|w old v|w v|b'|b'|b'|b' val|b'|b'|b'|b'|b' val]; cbn [peeks atspec snd] in PK; try contradiction; cbn [owner_step atspec snd]; try (split; reflexivity).
        - destruct (Z.eqb_spec b' b) as [->|]; [|split; reflexivity]. exfalso. cbn [lock_op] in LO. specialize (LO eq_refl). apply OH in LO. rewrite (OP _ _ LO G1) in PK. discriminate PK.
        - rewrite PK. split; reflexivity. }
      destruct Q as (Q1 & Q2). split; [apply SAME; assumption|]. rewrite Q1. split; [exact OB|exact OP].
Qed.
Lemma lock_respects_early : forall sync guard c n f, client_ok n c -> disciplined sync guard c -> (forall w, sync w = false -> 0 <= guard w /\ bitv f (guard w) = false) ->
  respects_early sync (lock_own sync guard) c f.
Proof.
  intros sync guard c n f0 CO (PO & DI) G l f P t op IS X Ec. split.
  - specialize (DI _ _ _ Ec). destruct (sync (opw op)) eqn:Es; [exact DI|]. unfold lock_own. rewrite Es. destruct (G _ Es) as (G1 & G2).
    apply (lock_lex c n _ sync f0 CO (PO _ Es) G1 G2 l f P IS X). exact DI.
  - intros r MR w. unfold lock_own. destruct (sync w) eqn:Sw; [left; reflexivity|]. destruct (G _ Sw) as (G1 & G2). specialize (PO _ Sw). set (b := guard w) in *.
    destruct (lock_lex c n b sync f0 CO PO G1 G2 l f P IS X) as (OH & OB & OP). rewrite owner_snoc. pose proof (PO _ _ _ Ec) as LO.
    assert (R : exists g, r = snd (atspec op g) /\ (owner_of b l = Some t -> bitv g b = true) /\ (fence op r -> g = f)).
    { destruct MR as [->|(_ & PK & g & Pg & ->)]; [exists f; split; [reflexivity|]; split; [intros Q; rewrite OB, Q; reflexivity|intros _; reflexivity]|].
      exists g. split; [reflexivity|]. split; [intros Q; exact (OP _ _ Q Pg)|intros F; contradiction (proj1 (peeks_quiet _ _ PK))]. }
    destruct R as (g & -> & GT & GF). clear MR. destruct op as [w'|w' v|k md w' v|w' old v|w' old v|w' v|b'|b'|b'|b' val|b'|b'|b'|b'|b' val]; cbn [owner_step atspec snd fence] in *; try (left; reflexivity).
    + destruct (Z.eqb_spec b' b) as [->|]; [|left; reflexivity]. cbn [lock_op] in LO. right. split; [exact Logic.I|]. right. split; [apply OH, LO; reflexivity|reflexivity].
    + destruct (Z.eqb_spec b' b) as [->|]; [|left; reflexivity]. cbn [lock_op] in LO. right. specialize (LO eq_refl). apply OH in LO. split; [exact (GT LO)|]. right. split; [exact LO|reflexivity].
    + destruct (bitv g b') eqn:Bv; [left; reflexivity|]. destruct (Z.eqb_spec b' b) as [->|]; [|left; reflexivity]. right. split; [reflexivity|]. left. split; [|reflexivity].
      specialize (GF eq_refl). subst g. rewrite OB in Bv. destruct (owner_of b l); [discriminate Bv|reflexivity].
Qed.
(** ** C118's locks: the lock is still exclusive, and a thread that holds it loads the values stored last from the words behind it, never one fetched before it had the lock. *)
Theorem C125_locks : forall weak sync guard c m f sched,
  client_ok (zlen m) c -> Forall u64v m -> agrees m f -> disciplined sync guard c ->
  (forall w, sync w = false -> 0 <= guard w /\ bitv f (guard w) = false) ->
  exists s f' P, erun weak c sched (einit m) = Some s /\ let b := ebase s in lex sync f (blog b) f' P /\ issued c (blog b) /\ (forall t, bhist b t = proj t (blog b)) /\
    (forall w t u, sync w = false -> holds (guard w) (bhist b t) = true -> holds (guard w) (bhist b u) = true -> t = u) /\
    (forall w t, 0 <= w < zlen m -> sync w = false -> holds (guard w) (bhist b t) = true -> rd (view (bmem b) (bbuf b t)) w = Some (f' w)) /\
    (forall w, 0 <= w < zlen m -> sync w = false -> (forall t, holds (guard w) (bhist b t) = false) -> rd (bmem b) w = Some (f' w)) /\
    (forall w, 0 <= w < zlen m -> sync w = true -> rd (bmem b) w = Some (f' w)).
Proof.
  intros weak sync guard c m f sched CO W A DI G. destruct (C125_ownership weak sync (lock_own sync guard) c m f sched CO W A (lock_respects_early _ _ _ _ _ CO DI G)) as (s & f' & P & E & X & IS & H & V).
  exists s, f', P. split; [exact E|]. cbn zeta. set (b := ebase s) in *. split; [exact X|]. split; [exact IS|]. split; [exact H|].
  assert (OH : forall w, sync w = false -> forall t, holds (guard w) (bhist b t) = true <-> owner_of (guard w) (blog b) = Some t).
  { intros w Sw t. rewrite H. destruct (G _ Sw) as (G1 & G2). apply (lock_lex c _ _ sync f CO (proj1 DI _ Sw) G1 G2 _ f' P IS X). }
  split; [intros w t u Sw Ht Hu; apply (OH _ Sw) in Ht, Hu; congruence|]. split; [|split].
  - intros w t Hw Sw Ht. specialize (V w Hw). unfold lock_own in V. rewrite Sw in V. apply (OH _ Sw) in Ht. rewrite Ht in V. exact V.
  - intros w Hw Sw N. specialize (V w Hw). unfold lock_own in V. rewrite Sw in V. destruct (owner_of (guard w) (blog b)) as [t|] eqn:Eo; [|exact V].
    apply (OH _ Sw) in Eo. rewrite N in Eo. discriminate Eo.
  - intros w Hw Sw. specialize (V w Hw). rewrite Sw in V. exact V.
Qed.
(** the loads of data give the values stored last, as far as [lex] goes *)
Theorem C125_data_exact : forall sync f0 l f P t w r, lex sync f0 (l ++ [(t, ARead w, r)]) f P -> sync w = false -> r = RVal (f w).
Proof.
  intros sync f0 l f P t w r X Sw. destruct (lex_snoc _ _ _ _ _ _ _ _ X) as (f1 & P1 & _ & [(-> & -> & _)|(_ & _ & S1 & _)]); [reflexivity|]. cbn [opw] in S1. congruence.
Qed.
(** two transfers, as in C118, by threads that fetch both words before they try to take the lock: the values are not used *)
Example C125_locks_case : client_ok 3 transfer /\ disciplined (fun w => w =? 0) (fun _ => 3) transfer /\
  match erun true transfer [EPeek 1 1; EPeek 1 2; EGo 0; EGo 0; EPeek 0 2; EPeek 1 0; EGo 0; EGo 0; EEarly 0 0; EGo 0; EGo 0; EDrain 0 1; EDrain 0 0; EGo 0; EEarly 1 2; EGo 1; EGo 1; EEarly 1 0; EGo 1; EGo 1]%nat (einit [0; 5; 5]) with
  | Some s => bmem (ebase s) = [8; 6; 4] /\ bhist (ebase s) 0%nat = [(BTestSet 3, RBool false); (ARead 1, RVal 5); (AWrite 1 6, RVoid); (ARead 2, RVal 5); (AWrite 2 4, RVoid); (BTestClr 3, RBool true)] /\
      bhist (ebase s) 1%nat = [(BTestSet 3, RBool true); (BTestSet 3, RBool false); (ARead 1, RVal 6); (AWrite 1 7, RVoid)]
  | None => False
  end.
Proof. destruct C118_locks_case as (A & B & _). split; [exact A|]. split; [exact B|]. vm_compute. repeat split. Qed.
Print Assumptions C125_ownership.
Print Assumptions C125_locks.
Print Assumptions C125_data_exact.
