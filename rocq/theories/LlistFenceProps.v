(** * C124: a lock-free list hands nodes over with what was stored in them, on machines with store buffers *)
From Coq Require Import Lia.
From Verif Require Import Lib AtomicModel AtomicSpec AtomicProofs FenceModel FenceSpec FenceProofs LlistFenceModel LlistFenceSpec LlistFenceProofs LlistFenceProofs2 LlistFenceProofs3.
From Verif Require LlistModel LlistSpec.

(** Any number of threads, any programs that touch only nodes they hold and in which either nobody calls del or one thread does all the taking.  The links and
    the data are plain words; their stores wait in buffers and may overtake each other.  Still no run faults, all replies are those of the calls done one after the other, the
    events are those of one stack, the head in memory is the top of that stack, and every node is on the stack or with exactly one thread. *)
Theorem C124_list : forall weak E m f sched, env_ok (zlen m) E f -> Forall u64v m -> agrees m f ->
  exists s f' stk pend, brun weak (list_client E) sched (binit m) = Some s /\ explains f (blog s) f' /\
    LlistSpec.spec_run ([], fun _ => []) (events E (blog s)) (stk, pend) /\
    rd (bmem s) (ehead E) = Some (hd 0 stk) /\ chain f' (hd 0 stk) stk /\ NoDup stk /\
    let hands t := lheld (local_of E t (bhist s t)) ++ pend t in
    (forall t, NoDup (hands t)) /\ (forall t u x, In x (hands t) -> In x (hands u) -> t = u) /\ (forall t x, In x (hands t) -> ~ In x stk) /\
    (forall x, is_node E x <-> In x stk \/ exists t, In x (hands t)) /\
    (* what a thread sees of the nodes it has, and what is on the list *)
    (forall t w, In (ehome E w) (hands t) -> rd (view (bmem s) (bbuf s t)) w = Some (f' w)) /\
    (forall w, In (ehome E w) stk -> match econs E with None => rd (bmem s) w | Some k => rd (view (bmem s) (bbuf s k)) w end = Some (f' w)).
Proof.
  intros weak E m f sched EO W A. destruct (eo_apart _ _ _ EO) as (o & Ho). set (who0 := fun x => Some (o x)).
  assert (W0 : forall t x, In x (emine E t) -> who0 x = Some t) by (intros t x I; unfold who0; f_equal; apply Ho, I).
  destruct (brun_inv (list_client E) (zlen m) f _ (node_own E who0) (list_ok (zlen m) E f EO who0 W0) (list_respects (zlen m) E f EO who0 W0) weak sched _ (binit_inv _ m f _ _ W A)) as (s & R & B).
  destruct B as (_ & L & _ & H & IS & f' & X & BS & BO & BN & BP). pose proof (ghost_inv (zlen m) E f EO who0 W0 _ _ IS X) as J. set (g := ghost E who0 (blog s)) in *.
  assert (LO : forall t, local_of E t (bhist s t) = gl g t) by (intros t; unfold g; rewrite ghost_local, H; reflexivity).
  destruct (j_spec E g f' J) as (p & SR & Pp). unfold g in SR at 1. rewrite ghost_events in SR.
  assert (HA : forall t, lheld (local_of E t (bhist s t)) ++ p t = lheld (gl g t) ++ gpend g t) by (intros t; rewrite LO, Pp; reflexivity).
  exists s, f', (gstk g), p. split; [exact R|]. split; [exact X|]. split; [exact SR|]. pose proof (j_head E g f' J) as C. pose proof (chain_hd _ _ _ C) as CH.
  split; [rewrite CH; apply BS; [apply EO|apply Z.eqb_refl]|]. split; [rewrite CH; exact C|]. split; [apply (NoDup_app_l _ _ (j_nd E g f' J 0%nat))|]. cbn zeta.
  split; [intros t; rewrite HA; apply (NoDup_app_r _ _ (j_nd E g f' J t))|].
  split. { intros t u x. rewrite !HA. intros I K. pose proof (j_who E g f' J _ _ I) as Q1. pose proof (j_who E g f' J _ _ K) as Q2. congruence. }
  split; [intros t x; rewrite HA; apply (not_stk E g f' t x J)|].
  split. { intros x. split; [intros Nx; destruct (j_all E g f' J x Nx) as [I|(t & I)]; [left; exact I|right; exists t; rewrite HA; exact I]|]. intros [I|(t & I)]; [apply (j_snode E g f' J x I)|rewrite HA in I; apply (j_node E g f' J t x I)]. }
  split.
  - intros t w. rewrite HA. intros I. destruct (own_word (zlen m) E f EO g f' t w J I) as (Rw & NH & Ow). apply BO; [exact Rw|exact NH|]. unfold node_own. rewrite NH. exact Ow.
  - intros w I. destruct (eo_word _ _ _ EO w (j_snode E g f' J _ I)) as (Rw & NH). apply Z.eqb_neq in NH. pose proof (j_stk E g f' J _ I) as Ow.
    destruct (econs E) as [k|] eqn:Ec; [apply BO|apply BN]; try exact Rw; try exact NH; unfold node_own; rewrite NH; fold g; congruence.
Qed.
(** What was stored in a word last is what is loaded from it, whoever holds the node by then. *)
Lemma untouched_same : forall w l f f', explains f l f' -> untouched w l -> f' w = f w.
Proof.
  intros w l f f' X. induction X as [|f t op r l f1 f2 EA X IH]; intros U; [reflexivity|]. inversion U as [|? ? U1 U2]; subst. rewrite (IH U2). cbn [fst snd] in U1.
  assert (Ef : f1 = fst (atspec op f)) by (rewrite EA; reflexivity). rewrite Ef. clear - U1. destruct op; try reflexivity; cbn [atspec fst]; unfold setb; try (rewrite upd_other by congruence; reflexivity); destruct (f w0 =? old); try reflexivity; rewrite upd_other by congruence; reflexivity.
Qed.
Theorem C124_data_seen : forall weak E m f sched s l1 l2 l3 t u w v r x, env_ok (zlen m) E f -> Forall u64v m -> agrees m f ->
  brun weak (list_client E) sched (binit m) = Some s ->
  blog s = l1 ++ (t, AWrite w v, r) :: l2 ++ (u, ARead w, RVal x) :: l3 -> untouched w l2 -> x = v.
Proof.
  intros weak E m f sched s l1 l2 l3 t u w v r x EO W A R EL U. destruct (C124_list weak E m f sched EO W A) as (s' & f' & stk & pend & R' & X & _). rewrite R in R'. injection R' as <-. rewrite EL in X.
  destruct (explains_app _ _ _ _ X) as (f1 & _ & X1). inversion X1 as [|? ? ? ? ? f2 ? E1 X2]; subst. destruct (explains_app _ _ _ _ X2) as (f3 & X3 & X4). inversion X4 as [|? ? ? ? ? f4 ? E2 X5]; subst.
  cbn [atspec] in E1, E2. injection E1 as E1 _. injection E2 as _ E2. rewrite <- E2. rewrite (untouched_same w _ _ _ X3 U), <- E1. apply upd_same.
Qed.

(** ** A case: thread 0 writes 42 into its node and adds it; thread 1 adds a batch of two, takes everything and reads the 42. *)
Definition demo_prog (t : nat) (h : list hres) : option hop :=
  match t, h with
  | 0%nat, [] => Some (HStore 3 42)
  | 0%nat, [_] => Some (HAdd [2])
  | 1%nat, [] => Some (HStore 7 9)
  | 1%nat, [_] => Some (HAdd [4; 6])
  | 1%nat, [_; _] => Some HDestroy
  | 1%nat, [_; _; LGot l] => if LlistModel.mem_z 2 l then Some (HLoad 3) else None
  | _, _ => None
  end.
Definition demo (cons : option nat) (prog : nat -> list hres -> option hop) : env :=
  {| ehead := 1; ehome := fun w => if (2 <=? w) && (w <? 8) then 2 * (w / 2) else 0; emine := fun t => match t with 0%nat => [2] | 1%nat => [4; 6] | _ => [] end; econs := cons; eprog := prog |}.
Definition demo_mem : list Z := [0; 0; 0; 0; 0; 0; 0; 0].
Lemma demo_ok : forall cons prog, env_ok (zlen demo_mem) (demo cons prog) (fun _ => 0).
Proof.
  intros cons prog. assert (ND : forall x, is_node (demo cons prog) x -> x = 2 \/ x = 4 \/ x = 6). { intros x (t & I). destruct t as [|[|t]]; cbn in I; intuition. }
  constructor.
  - cbn. split; [split; [lia|reflexivity]|reflexivity].
  - intros [|[|t]]; cbn; repeat constructor; cbn; intuition discriminate.
  - exists (fun x => if x =? 2 then 0%nat else 1%nat). intros [|[|t]] x I; cbn in I; [destruct I as [<-|[]]; reflexivity|destruct I as [<-|[<-|[]]]; reflexivity|destruct I].
  - intros x Nx. apply ND in Nx. destruct Nx as [->|[->| ->]]; (split; [discriminate|]); (split; [split; [discriminate|reflexivity]|reflexivity]).
  - intros w Nw. apply ND in Nw. cbn in Nw. destruct (Z.leb_spec 2 w); cbn [andb] in Nw; [|lia]. destruct (Z.ltb_spec w 8); [|lia]. cbn. lia.
Qed.
Definition go0 := Go 0. Definition go1 := Go 1.
(** the second store of thread 0 drains first: its link before its data *)
Definition demo_sched : list move :=
  [go0; go0; go0; Drain 0 1; go1; Drain 0 0; go0] ++ repeat go1 4 ++ repeat (Drain 1 0) 5 ++ repeat go1 4 ++ repeat (Drain 1 0) 5 ++ repeat go1 10.
Example C124_list_case : exists s, brun true (list_client (demo None demo_prog)) demo_sched (binit demo_mem) = Some s /\
  lres (local_of (demo None demo_prog) 0 (bhist s 0%nat)) = [LStored; LAdded true] /\
  lres (local_of (demo None demo_prog) 1 (bhist s 1%nat)) = [LStored; LAdded false; LGot [4; 6; 2]; LVal 42] /\
  events (demo None demo_prog) (blog s) = [LlistModel.EAdd 0 [2] true; LlistModel.EAdd 1 [4; 6] false; LlistModel.ETake 1 4; LlistModel.EWalk 1 [4; 6; 2]].
Proof. eexists. split; [vm_compute; reflexivity|]. split; [vm_compute; reflexivity|]. split; vm_compute; reflexivity. Qed.
(** one consumer that calls del *)
Definition del_prog (t : nat) (h : list hres) : option hop :=
  match t, h with
  | 0%nat, [] => Some (HStore 3 42)
  | 0%nat, [_] => Some (HAdd [2])
  | 1%nat, [] => Some HDel
  | 1%nat, [LDel x] => if x =? 2 then Some (HLoad 3) else Some HDel
  | _, _ => None
  end.
Example C124_del_case : exists s, brun true (list_client (demo (Some 1%nat) del_prog)) ([go0; go1; go0; go0; Drain 0 1; Drain 0 0; go0] ++ repeat go1 4) (binit demo_mem) = Some s /\
  lres (local_of (demo (Some 1%nat) del_prog) 1 (bhist s 1%nat)) = [LDel 0; LDel 2].
Proof. eexists. split; [vm_compute; reflexivity|vm_compute; reflexivity]. Qed.
Example C124_del_case2 : exists s, brun true (list_client (demo (Some 1%nat) del_prog)) ([go0; go0; go0; Drain 0 1; Drain 0 0; go0] ++ repeat go1 4) (binit demo_mem) = Some s /\
  lres (local_of (demo (Some 1%nat) del_prog) 1 (bhist s 1%nat)) = [LDel 2; LVal 42].
Proof. eexists. split; [vm_compute; reflexivity|vm_compute; reflexivity]. Qed.

Print Assumptions C124_list.
Print Assumptions C124_data_seen.
