(** * C125: lock-free lists when loads are satisfied early *)
From Coq Require Import Lia.
From Verif Require Import Lib AtomicModel AtomicSpec AtomicProofs FenceModel FenceSpec FenceProofs LlistFenceModel LlistFenceSpec LlistFenceProofs LlistFenceProofs2 LlistFenceProofs3 LlistFenceProps LoadModel LoadSpec LoadProofs.
From Verif Require LlistModel LlistSpec LlistProofs.

Section All.
Variables (n : Z) (E : env) (f0 : Z -> Z).
Hypothesis EO : env_ok n E f0.
Hypothesis NC : econs E = None.
Variable who0 : Z -> option nat.
Hypothesis W0 : forall t x, In x (emine E t) -> who0 x = Some t.
Let sync : Z -> bool := fun w => w =? ehead E.
(** the only plain load of the head is the one of bfdev_llist_split *)
Lemma peek_head : forall g f t op r, inv E g f -> access E (begin E t (gl g t)) = Some op -> sync (opw op) = true -> peeks op r -> exists b, begin E t (gl g t) = TRead b /\ op = ARead (ehead E).
Proof.
  intros g f t op r J A Sy PK. unfold sync in Sy. apply Z.eqb_eq in Sy. pose proof (ti_begin E t f (gstk g) (gl g t) (gpend g t) (j_task E g f J t)) as T.
  destruct (begin E t (gl g t)) as [|w|w v|b rest|b|b e| b e| |p acc| |e|e nx]; cbn [access] in A; try discriminate A.
  - injection A as <-. cbn [opw] in Sy. destruct T as (_ & I). destruct (own_word n E f0 EO g f t w J) as (_ & N & _); [apply in_or_app; left; exact I|]. rewrite Sy, Z.eqb_refl in N. discriminate N.
  - injection A as <-. destruct PK.
  - destruct rest as [|x [|y rest]]; try discriminate A. injection A as <-. destruct PK.
  - injection A as <-. exists b. split; reflexivity.
  - injection A as <-. destruct PK.
  - injection A as <-. destruct PK.
  - injection A as <-. destruct PK.
  - injection A as <-. cbn [opw] in Sy. destruct T as (rest & I & _). destruct (own_node n E f0 EO g f t p J) as (_ & N & _); [apply in_or_app; right; rewrite I; apply in_or_app; right; left; reflexivity|]. rewrite Sy, Z.eqb_refl in N. discriminate N.
  - destruct T as (_ & M). unfold may_del in M. rewrite NC in M. discriminate M.
  - destruct T as (_ & M & _). unfold may_del in M. rewrite NC in M. discriminate M.
  - injection A as <-. destruct PK.
Qed.
Lemma early_good : forall g f t b e, inv E g f -> begin E t (gl g t) = TRead b -> ptr E e -> inv E (gstep E g (t, ARead (ehead E), RVal e)) f /\ forall x, gwho (gstep E g (t, ARead (ehead E), RVal e)) x = gwho g x.
Proof.
  intros g f t b e J B PE. pose proof (ti_begin E t f (gstk g) (gl g t) (gpend g t) (j_task E g f J t)) as T. unfold gstep. rewrite B in *. cbn [after fst snd gwho]. split; [|reflexivity].
  destruct T as (P & BO & L). apply (step_private E g f f t); try reflexivity; [exact J| |left; reflexivity]. split; [exact P|]. split; [exact BO|]. split; [exact L|exact PE].
Qed.
Lemma ghost_lex : forall l f P, issued (list_client E) l -> lex sync f0 l f P -> inv E (ghost E who0 l) f /\ forall t g, P t g -> ptr E (g (ehead E)).
Proof.
  intros l f P IS. revert f P. induction IS as [|l t op r IS IH EC]; intros f P X.
  - destruct (lex_empty _ _ _ _ X) as (-> & ->). pose proof (init_inv n E f0 EO who0 W0) as J. split; [exact J|]. intros t g ->. apply (head_ptr E _ _ J).
  - destruct (lex_snoc _ _ _ _ _ _ _ _ X) as (f1 & P1 & X1 & D). destruct (IH _ _ X1) as (J & PP). unfold list_client in EC. rewrite <- (ghost_local E who0) in EC. rewrite ghost_snoc.
    destruct D as [(-> & -> & ->)|(-> & -> & Sy & PK & g & G1 & ->)].
    + destruct (gstep_good n E f0 EO _ _ _ _ J EC) as (K & _). split; [exact K|]. intros u g [->|(Q & _)]; [apply (head_ptr E _ _ K)|exact (PP _ _ Q)].
    + destruct (peek_head _ _ _ _ _ J EC Sy PK) as (b & Eb & ->). split; [|exact PP]. apply (early_good _ _ _ _ _ J Eb). apply (PP _ _ G1).
Qed.
Lemma strict_good : forall g f t op, inv E g f -> access E (begin E t (gl g t)) = Some op -> forall x, gwho (gstep E g (t, op, snd (atspec op f))) x = gwho g x \/
  (fence op (snd (atspec op f)) /\ ((gwho g x = None /\ gwho (gstep E g (t, op, snd (atspec op f))) x = Some t) \/ (gwho g x = Some t /\ gwho (gstep E g (t, op, snd (atspec op f))) x = None))).
Proof.
  intros g f t op J A x. pose proof (ti_begin E t f (gstk g) (gl g t) (gpend g t) (j_task E g f J t)) as T. unfold gstep.
  destruct (begin E t (gl g t)) as [|w|w v|b rest|b|b e| b e| |p acc| |e|e nx]; cbn [access] in A; try discriminate A; try (left; destruct (snd (atspec op f)); reflexivity).
  - injection A as <-. cbn [atspec fst snd fence]. destruct (f (ehead E) =? e); cbn [gwho]; [|left; reflexivity]. destruct (LlistModel.mem_z x b) eqn:M; [|left; reflexivity].
    right. split; [exact Logic.I|]. right. split; [|exact NC]. apply (j_who E g f J). apply in_or_app. left. destruct T as (_ & (_ & _ & I) & _). apply I. apply LlistProofs.mem_z_in, M.
  - injection A as <-. cbn [atspec fst snd fence gwho]. destruct (LlistModel.mem_z x (gstk g)) eqn:M; [|left; reflexivity]. right. split; [exact Logic.I|]. left. split; [|reflexivity].
    rewrite <- NC. apply (j_stk E g f J). apply LlistProofs.mem_z_in, M.
  - left. destruct (snd (atspec op f)) as [| | |[|] ?]; reflexivity.
Qed.
Lemma list_respects_early : respects_early sync (node_own E who0) (list_client E) f0.
Proof.
  intros l f P t op IS X EC. destruct (ghost_lex l f P IS X) as (J & PP). unfold list_client in EC. rewrite <- (ghost_local E who0) in EC. destruct (gstep_good n E f0 EO _ _ _ _ J EC) as (_ & _ & OW & _).
  unfold node_own. split; [unfold sync; destruct (opw op =? ehead E); exact OW|]. intros r MR w. rewrite ghost_snoc. destruct (w =? ehead E); [left; reflexivity|].
  destruct MR as [->|(Sy & PK & g & G1 & ->)]; [apply (strict_good _ _ _ _ J EC)|]. destruct (peek_head _ _ _ _ _ J EC Sy PK) as (b & Eb & ->). left. apply (early_good _ f _ b _ J Eb). apply (PP _ _ G1).
Qed.
Lemma list_ok_early : forall l f P t op, issued (list_client E) l -> lex sync f0 l f P -> list_client E t (proj t l) = Some op -> op_ok n op.
Proof. intros l f P t op IS X EC. destruct (ghost_lex l f P IS X) as (J & _). unfold list_client in EC. rewrite <- (ghost_local E who0) in EC. apply (gstep_good n E f0 EO _ _ _ _ J EC). Qed.
End All.

(** ** C124 on this machine, for lists that are only emptied with destroy: one stack, every node on it or with one thread, and whoever takes it sees what was stored in it. *)
Theorem C125_list : forall weak E m f sched, econs E = None -> env_ok (zlen m) E f -> Forall u64v m -> agrees m f ->
  exists s f' P stk pend, erun weak (list_client E) sched (einit m) = Some s /\ let b := ebase s in lex (fun w => w =? ehead E) f (blog b) f' P /\
    LlistSpec.spec_run ([], fun _ => []) (events E (blog b)) (stk, pend) /\
    rd (bmem b) (ehead E) = Some (hd 0 stk) /\ chain f' (hd 0 stk) stk /\ NoDup stk /\
    let hands t := lheld (local_of E t (bhist b t)) ++ pend t in
    (forall t, NoDup (hands t)) /\ (forall t u x, In x (hands t) -> In x (hands u) -> t = u) /\ (forall t x, In x (hands t) -> ~ In x stk) /\
    (forall x, is_node E x <-> In x stk \/ exists t, In x (hands t)) /\
    (forall t w, In (ehome E w) (hands t) -> rd (view (bmem b) (bbuf b t)) w = Some (f' w)) /\
    (forall w, In (ehome E w) stk -> rd (bmem b) w = Some (f' w)).
Proof.
  intros weak E m f sched NC EO W A. destruct (eo_apart _ _ _ EO) as (o & Ho). set (who0 := fun x => Some (o x)).
  assert (W0 : forall t x, In x (emine E t) -> who0 x = Some t) by (intros t x I; unfold who0; f_equal; apply Ho, I).
  destruct (erun_inv (list_client E) (zlen m) f _ (node_own E who0) (list_ok_early (zlen m) E f EO NC who0 W0) (list_respects_early (zlen m) E f EO NC who0 W0) weak sched _ (einit_inv _ m f _ _ W A)) as (s & R & B).
  destruct B as (H & IS & f' & P & X & (_ & L & _ & BS & BO & BN & BP) & _). destruct (ghost_lex (zlen m) E f EO NC who0 W0 _ _ _ IS X) as (J & _). set (g := ghost E who0 (blog (ebase s))) in *.
  assert (LO : forall t, local_of E t (bhist (ebase s) t) = gl g t) by (intros t; unfold g; rewrite ghost_local, H; reflexivity).
  destruct (j_spec E g f' J) as (p & SR & Pp). unfold g in SR at 1. rewrite ghost_events in SR.
  assert (HA : forall t, lheld (local_of E t (bhist (ebase s) t)) ++ p t = lheld (gl g t) ++ gpend g t) by (intros t; rewrite LO, Pp; reflexivity).
  exists s, f', P, (gstk g), p. split; [exact R|]. cbn zeta. split; [exact X|]. split; [exact SR|]. pose proof (j_head E g f' J) as C. pose proof (chain_hd _ _ _ C) as CH.
  split; [rewrite CH; apply BS; [apply EO|apply Z.eqb_refl]|]. split; [rewrite CH; exact C|]. split; [apply (NoDup_app_l _ _ (j_nd E g f' J 0%nat))|].
  split; [intros t; rewrite HA; apply (NoDup_app_r _ _ (j_nd E g f' J t))|].
  split. { intros t u x. rewrite !HA. intros I K. pose proof (j_who E g f' J _ _ I) as Q1. pose proof (j_who E g f' J _ _ K) as Q2. congruence. }
  split; [intros t x; rewrite HA; apply (not_stk E g f' t x J)|].
  split. { intros x. split; [intros Nx; destruct (j_all E g f' J x Nx) as [I|(t & I)]; [left; exact I|right; exists t; rewrite HA; exact I]|]. intros [I|(t & I)]; [apply (j_snode E g f' J x I)|rewrite HA in I; apply (j_node E g f' J t x I)]. }
  split.
  - intros t w. rewrite HA. intros I. destruct (own_word (zlen m) E f EO g f' t w J I) as (Rw & NH & Ow). apply BO; [exact Rw|exact NH|]. unfold node_own. rewrite NH. exact Ow.
  - intros w I. destruct (eo_word _ _ _ EO w (j_snode E g f' J _ I)) as (Rw & NH). apply Z.eqb_neq in NH. pose proof (j_stk E g f' J _ I) as Ow.
    apply BN; try exact Rw; try exact NH; unfold node_own; rewrite NH; fold g; congruence.
Qed.
(** the threads of C124: thread 1 has fetched the words of the node of thread 0 and the head before they were stored to; it reads the right values all the same *)
Definition early_sched : list emove :=
  [EPeek 1 2; EPeek 1 3; EPeek 1 1; EGo 0; EGo 0; EGo 0; EDrain 0 1; EDrain 0 0; EGo 0; EGo 1; EGo 1; EEarly 1 2; EGo 1]%nat ++ repeat (EDrain 1 0) 5 ++ [EGo 1; EGo 1]%nat ++ repeat (EDrain 1 0) 5 ++ [EGo 1; EPeek 1 3; EGo 1; EGo 1; EGo 1; EGo 1; EGo 1; EEarly 1 0; EGo 1]%nat.
Example C125_list_case : exists s, erun true (list_client (demo None demo_prog)) early_sched (einit demo_mem) = Some s /\
  lres (local_of (demo None demo_prog) 0 (bhist (ebase s) 0%nat)) = [LStored; LAdded true] /\
  lres (local_of (demo None demo_prog) 1 (bhist (ebase s) 1%nat)) = [LStored; LAdded false; LGot [4; 6; 2]; LVal 42] /\
  In (ARead 1, RVal 0) (bhist (ebase s) 1%nat) /\
  events (demo None demo_prog) (blog (ebase s)) = [LlistModel.EAdd 0 [2] true; LlistModel.EAdd 1 [4; 6] false; LlistModel.ETake 1 4; LlistModel.EWalk 1 [4; 6; 2]].
Proof. eexists. split; [vm_compute; reflexivity|]. split; [vm_compute; reflexivity|]. split; [vm_compute; reflexivity|]. split; [vm_compute; tauto|vm_compute; reflexivity]. Qed.

(** ** bfdev_llist_del on this machine: it reads entry->next after head->next without a barrier between them.  If the processor may fetch entry->next first, although its address comes from
    the other load, the only consumer cuts the list: node 4 is on no list and in nobody's hands. *)
Definition cut_prog (t : nat) (h : list hres) : option hop :=
  match t, h with
  | 0%nat, [] => Some (HAdd [2])
  | 1%nat, [] => Some (HAdd [4])
  | 1%nat, [_] => Some HDel
  | 1%nat, [_; _] => Some HDel
  | _, _ => None
  end.
Definition cut_sched : list emove := [EGo 1; EGo 1; EDrain 1 0; EGo 1; EPeek 1 2; EGo 0; EGo 0; EDrain 0 0; EGo 0; EGo 1; EEarly 1 0; EGo 1; EGo 1]%nat.
Theorem C125_del_refuted : exists E m f sched s x, econs E = Some 1%nat /\ env_ok (zlen m) E f /\ Forall u64v m /\ agrees m f /\ erun false (list_client E) sched (einit m) = Some s /\
  is_node E x /\ rd (bmem (ebase s)) (ehead E) = Some 0 /\ (forall t, ltask (local_of E t (bhist (ebase s) t)) = TFree /\ ~ In x (lheld (local_of E t (bhist (ebase s) t)))) /\
  lres (local_of E 0%nat (bhist (ebase s) 0%nat)) = [LAdded false] /\ lres (local_of E 1%nat (bhist (ebase s) 1%nat)) = [LAdded true; LDel 2; LDel 0].
Proof.
  assert (R : exists s, erun false (list_client (demo (Some 1%nat) cut_prog)) cut_sched (einit demo_mem) = Some s /\ rd (bmem (ebase s)) 1 = Some 0 /\
    (forall t, bhist (ebase s) (S (S t)) = []) /\ local_of (demo (Some 1%nat) cut_prog) 0%nat (bhist (ebase s) 0%nat) = {| ltask := TFree; lheld := []; lres := [LAdded false] |} /\
    local_of (demo (Some 1%nat) cut_prog) 1%nat (bhist (ebase s) 1%nat) = {| ltask := TFree; lheld := [6; 2]; lres := [LAdded true; LDel 2; LDel 0] |}).
  { eexists. split; [vm_compute; reflexivity|]. split; [vm_compute; reflexivity|]. split; [intros t; vm_compute; reflexivity|]. split; vm_compute; reflexivity. }
  destruct R as (s & R & H & O & L0 & L1). exists (demo (Some 1%nat) cut_prog), demo_mem, (fun _ => 0), cut_sched, s, 4. split; [reflexivity|]. split; [apply demo_ok|].
  split; [repeat constructor; unfold u64v; lia|]. split; [intros w Hw; change (zlen demo_mem) with 8 in Hw; assert (w = 0 \/ w = 1 \/ w = 2 \/ w = 3 \/ w = 4 \/ w = 5 \/ w = 6 \/ w = 7) as Q by lia; repeat (destruct Q as [-> | Q]; [reflexivity|]); rewrite Q; reflexivity|].
  split; [exact R|]. split; [exists 1%nat; left; reflexivity|]. split; [exact H|]. split; [|rewrite L0, L1; split; reflexivity].
  intros [|[|t]]; [rewrite L0; split; [reflexivity|intros []]|rewrite L1; split; [reflexivity|cbn; intuition discriminate]|]. rewrite O. split; [reflexivity|intros []].
Qed.
Print Assumptions C125_list.
Print Assumptions C125_del_refuted.
