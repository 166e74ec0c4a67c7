(** * C125: the last reference when loads are satisfied early *)
From Coq Require Import Lia.
From Verif Require Import Lib AtomicModel AtomicSpec AtomicProofs FenceModel FenceSpec FenceProofs FenceProps FenceRefProps LoadModel LoadSpec LoadProofs LoadLockProps.

Section Ref.
Variables (c : client) (rc : Z) (writer : Z -> nat) (start : nat -> Z) (ts : list nat) (f0 : Z -> Z).
Hypothesis CN : counted rc writer start c.
Hypothesis ND : NoDup ts.
Hypothesis S0 : forall t, 0 <= start t.
Hypothesis S1 : forall t, ~ In t ts -> start t = 0.
Hypothesis F0 : f0 rc = total_refs rc start ts [].
Let sync : Z -> bool := fun w => w =? rc.
Hypothesis NO : forall l f P, issued c l -> lex sync f0 l f P -> total_refs rc start ts l < 2 ^ 64.
Lemma peek_rc : forall t h op r, c t h = Some op -> sync (opw op) = true -> peeks op r -> op = ARead rc.
Proof.
  intros t h op r Ec Sy PK. unfold sync in Sy. apply Z.eqb_eq in Sy. destruct (cases c rc writer start CN _ _ _ Ec) as [(N & _)|[->|[(md & k & -> & _)|(k & -> & _)]]]; [contradiction|reflexivity|destruct PK ..].
Qed.
Lemma rinv_lex : forall l f P, issued c l -> lex sync f0 l f P -> rinv rc start ts l f.
Proof.
  intros l f P IS. revert f P. induction IS as [|l t op r IS IH Ec]; intros f P X.
  - destruct (lex_empty _ _ _ _ X) as (-> & _). apply rinv_start; assumption.
  - pose proof (NO _ _ _ (is_snoc _ _ _ _ _ IS Ec) X) as NX. destruct (lex_snoc _ _ _ _ _ _ _ _ X) as (f1 & P1 & X1 & D). specialize (IH _ _ X1). pose proof (NO _ _ _ IS X1) as Lt.
    destruct D as [(-> & -> & _)|(-> & _ & Sy & PK & _)]; [apply (rinv_step c rc writer start ts); assumption|]. rewrite (peek_rc _ _ _ _ Ec Sy PK). apply rinv_read; assumption.
Qed.
Lemma ref_respects_early : respects_early sync (ref_own rc writer start) c f0.
Proof.
  intros l f P t op IS X Ec. destruct (ref_strict c rc writer start ts CN ND l f t op (rinv_lex _ _ _ IS X) Ec) as (A & B). split; [exact A|].
  intros r [->|(Sy & PK & _)] w; [apply B; left; reflexivity|]. apply B. right. apply (peek_rc _ _ _ _ Ec Sy PK).
Qed.
End Ref.
(** ** C119 on this machine: the thread that is told it gave back the last reference sees what all the others stored, never a value it fetched before it was told. *)
Theorem C125_last_sees : forall weak c m f sched rc writer start ts,
  client_ok (zlen m) c -> Forall u64v m -> agrees m f -> counted rc writer start c ->
  NoDup ts -> (forall t, 0 <= start t) -> (forall t, ~ In t ts -> start t = 0) -> f rc = total_refs rc start ts [] ->
  (forall l f' P, issued c l -> lex (fun w => w =? rc) f l f' P -> total_refs rc start ts l < 2 ^ 64) ->
  exists s f' P, erun weak c sched (einit m) = Some s /\ let b := ebase s in lex (fun w => w =? rc) f (blog b) f' P /\ issued c (blog b) /\ (forall t, bhist b t = proj t (blog b)) /\
    f' rc = total_refs rc start ts (blog b) /\
    (forall t u, told_last rc (bhist b t) = true -> told_last rc (bhist b u) = true -> t = u) /\
    (forall t, told_last rc (bhist b t) = true -> (forall u, refs rc (bhist b u) (start u) = 0) /\
      forall w, 0 <= w < zlen m -> w <> rc -> rd (view (bmem b) (bbuf b t)) w = Some (f' w)).
Proof.
  intros weak c m f sched rc writer start ts CO W A CN ND S0 S1 F0 NO.
  destruct (C125_ownership weak _ _ c m f sched CO W A (ref_respects_early c rc writer start ts f CN ND S0 S1 F0 NO)) as (s & f' & P & E & X & IS & H & V).
  destruct (rinv_lex c rc writer start ts f CN ND S0 S1 F0 NO _ f' P IS X) as (I1 & I2 & I3 & I4 & I5).
  exists s, f', P. split; [exact E|]. cbn zeta. set (b := ebase s) in *. split; [exact X|]. split; [exact IS|]. split; [exact H|]. split; [exact I3|]. split.
  - intros t u Ht Hu. rewrite H in Ht, Hu. apply I4 in Ht, Hu. congruence.
  - intros t Ht. rewrite H in Ht. apply I4 in Ht. pose proof (I5 _ Ht) as T0. split.
    + intros u. rewrite H. destruct (in_dec Nat.eq_dec u ts) as [i|n]; [|apply I2; exact n].
      destruct (sum_pos (fun t => refs rc (proj t (blog b)) (start t)) ts I1) as (P1 & P2 & _). specialize (P2 _ i). unfold total_refs in T0. specialize (I1 u). cbv beta in P2. lia.
    + intros w Hw N. specialize (V w Hw). unfold ref_own in V. apply Z.eqb_neq in N. rewrite N, Ht in V. exact V.
Qed.
(** the two owners of C119; the one who turns out to be last has fetched both words before *)
Example C125_last_sees_case :
  match erun true two_owners [EPeek 1 1; EPeek 1 2; EGo 0; EGo 1; EGo 0; EDrain 0 0; EGo 0; EGo 1; EDrain 1 0; EGo 1; EPeek 1 2; EEarly 1 0; EGo 1; EEarly 1 0; EGo 1]%nat (einit [2; 0; 0]) with
  | Some s => bhist (ebase s) 0%nat = [(AWrite 1 7, RVoid); (ARmw KSub MOld 0 1, RVal 2)] /\ bhist (ebase s) 1%nat = [(AWrite 2 7, RVoid); (ARmw KSub MOld 0 1, RVal 1); (ARead 1, RVal 7); (ARead 2, RVal 7)]
  | None => False
  end /\ let start t := if Nat.ltb t 2 then 1 else 0 in forall l, issued two_owners l -> total_refs 0 start [0; 1]%nat l < 2 ^ 64.
Proof. split; [vm_compute; repeat split|]. cbn zeta. destruct C119_last_sees_case as (_ & _ & _ & _ & _ & B & _). exact B. Qed.
Print Assumptions C125_last_sees.
