(** * C62: the lock-free list under any interleaving *)
From Verif Require Import Lib Ptr ListProofs SlistModel SlistSpec SlistProofs LlistModel LlistSpec LlistProofs.

(** Every schedule of any number of threads runs without a fault and is a history of one stack: each add
    pushes its whole batch and reports "was empty" exactly when it was, each destroy takes everything there is,
    each walk over a taken chain (which always ends) finds exactly the nodes that were taken. *)
Theorem C62_linearizable : forall h c s, start h c -> (many_takers s \/ exists k, one_consumer k s) ->
  exists c' st pend, run h c s = Some c' /\ spec_run ([], fun _ => []) (clog c') (st, pend) /\ slist (cm c') h st /\
    (forall t p, cpc c' t = Got p -> forall fuel, (length (pend t) <= fuel)%nat -> each_from fuel (cm c') p = Some (pend t)).
Proof.
  intros h c s St Mo. destruct (mode_allowed s Mo) as [M Al]. destruct (run_ok h M s c [] _ (start_inv h M c St) Al) as (c' & st & pend & R & I).
  exists c', st, pend. pose proof I as (I1 & I2 & _ & _ & _ & I6 & _). split; [exact R|]. split; [exact I1|]. split; [exact I2|]. intros t p E fuel F. specialize (I6 t). rewrite E in I6. cbn [pcok] in I6. destruct I6 as [-> I6]. apply each_from_ok; assumption.
Qed.
(** Exactly once: however the threads interleave, a node was added as often as it was handed out, plus once if it
    is in the list or in a chain taken and not walked yet. *)
Theorem C62_exactly_once : forall h c s, start h c -> (many_takers s \/ exists k, one_consumer k s) ->
  exists c' st pend n, run h c s = Some c' /\ slist (cm c') h st /\
    (forall t, (n <= t)%nat -> (forall e, In e (clog c') -> ev_thread e <> t)) /\
    (forall t, match cpc c' t with Got _ => True | _ => pend t = [] end) /\
    forall x, added x (clog c') = (taken x (clog c') + occ x st + pending x pend n)%nat.
Proof.
  intros h c s St Mo. destruct (mode_allowed s Mo) as [M Al]. destruct (run_ok h M s c [] _ (start_inv h M c St) Al) as (c' & st & pend & R & I).
  destruct (thread_bound (clog c')) as [n Hn]. pose proof I as (I1 & I2 & _ & _ & _ & I6 & _). exists c', st, pend, n. split; [exact R|]. split; [exact I2|].
  split; [intros t Ht e He E; specialize (Hn e He); lia|]. split.
  - intros t. specialize (I6 t). destruct (cpc c' t); cbn [pcok] in I6; tauto.
  - intros x. apply spec_count; assumption.
Qed.
(** No node is ever held by two threads, or held and on the list. *)
Theorem C62_exclusive : forall h c s, start h c -> (many_takers s \/ exists k, one_consumer k s) ->
  exists c' st, run h c s = Some c' /\ slist (cm c') h st /\
    (forall t, NoDup (cown c' t)) /\ (forall t u x, In x (cown c' t) -> In x (cown c' u) -> t = u) /\ (forall t x, In x (cown c' t) -> ~ In x st).
Proof.
  intros h c s St Mo. destruct (mode_allowed s Mo) as [M Al]. destruct (run_ok h M s c [] _ (start_inv h M c St) Al) as (c' & st & pend & R & I).
  pose proof I as (_ & I2 & I3 & I4 & I5 & _ & _). exists c', st. split; [exact R|]. split; [exact I2|].
  assert (O : forall t x, In x (cown c' t) -> In x (hold c' pend t)) by (intros t x Hx; unfold hold; apply in_or_app; auto).
  split; [intros t; specialize (I3 t); unfold hold in I3; apply nodup_l in I3; exact I3|]. split; [intros t u x Ht Hu; apply (I4 t u x); auto|]. intros t x Hx. apply (I5 _ _ (O _ _ Hx)).
Qed.
(** [bfdev_llist_del] is only safe with one consumer: with two, the ABA case hands one node to both. *)
Definition two_mem : mem := fun a f => if f =? LINK then (if (a =? 100) || (a =? 1) || (a =? 2) then Some 0 else None) else None.
Definition two_start : cfg := {| cm := two_mem; cpc := fun _ => Idle; cown := fun t => if Nat.eqb t 1 then [1; 2] else []; clog := [] |}.
Lemma two_start_ok : start 100 two_start.
Proof.
  split; [reflexivity|]. split; [reflexivity|]. split; [reflexivity|]. cbn [two_start cown cm]. split; [intros t; destruct (Nat.eqb t 1); repeat constructor; cbn; intuition congruence|]. split.
  - intros t u x. destruct (Nat.eqb_spec t 1), (Nat.eqb_spec u 1); cbn; intuition congruence.
  - intros t x. destruct (Nat.eqb t 1); cbn; [|tauto]. intros [<-|[<-|[]]]; (split; [discriminate|]; split; [discriminate|]; eexists; reflexivity).
Qed.
Definition r (t : nat) (k : nat) : list action := repeat (Run t 8) k.
Definition aba : list action :=
  (CAdd 1 [2] :: r 1 3) ++ (CAdd 1 [1] :: r 1 3) ++ (CDel 0 :: r 0 2) ++ (CDel 1 :: r 1 3) ++ (CDel 1 :: r 1 3) ++ (CAdd 1 [1] :: r 1 3) ++ r 0 1 ++ (CDel 0 :: r 0 3).
Theorem C62_del_refuted : exists h c s c', start h c /\ run h c s = Some c' /\
  In (EPop 1 2) (clog c') /\ In (EPop 0 2) (clog c') /\ added 2 (clog c') = 1%nat /\ taken 2 (clog c') = 2%nat /\ In 2 (cown c' 0%nat) /\ In 2 (cown c' 1%nat).
Proof.
  assert (B : match run 100 two_start aba with
    | Some c' => existsb (fun e => match e with EPop 1 2 => true | _ => false end) (clog c') && existsb (fun e => match e with EPop 0 2 => true | _ => false end) (clog c') &&
        Nat.eqb (added 2 (clog c')) 1 && Nat.eqb (taken 2 (clog c')) 2 && mem_z 2 (cown c' 0%nat) && mem_z 2 (cown c' 1%nat)
    | None => false end = true) by (vm_compute; reflexivity).
  exists 100, two_start, aba. destruct (run 100 two_start aba) as [c'|]; [|discriminate]. exists c'. split; [exact two_start_ok|]. split; [reflexivity|].
  rewrite !andb_true_iff, !existsb_exists in B. destruct B as (((((( e1 & E1 & F1) & e2 & E2 & F2) & B3) & B4) & B5) & B6).
  split; [|split; [|split; [|split; [|split]]]].
  - destruct e1 as [| | |[|[|]] [|[[]|[]|]|]|]; try discriminate; exact E1.
  - destruct e2 as [| | |[|] [|[[]|[]|]|]|]; try discriminate; exact E2.
  - apply Nat.eqb_eq, B3.
  - apply Nat.eqb_eq, B4.
  - apply mem_z_in, B5.
  - apply mem_z_in, B6.
Qed.
(** Cases: two adders race, then two takers race; and one consumer with del. *)
Definition race : list action :=
  [CWrite 1 1 2; CAdd 1 [1; 2]; Run 1 9; CDestroy 0; Run 1 9; Run 0 9; Run 1 9; Run 0 9; CDestroy 2; Run 2 9; Run 0 9; Run 0 9; Run 2 9; Run 2 9; Run 2 9; Run 0 9; Run 2 9].
Example C62_race : many_takers race /\ start 100 two_start /\ option_map clog (run 100 two_start race) = Some [EAdd 1 [1; 2] true; ETake 0 1; ETake 2 0; EWalk 0 [1; 2]; EWalk 2 []].
Proof. split; [intros t C; cbn in C; intuition discriminate|]. split; [exact two_start_ok|]. vm_compute. reflexivity. Qed.
Definition solo : list action := (CAdd 1 [2] :: r 1 2) ++ (CDel 0 :: r 0 1) ++ r 1 1 ++ (CAdd 1 [1] :: r 1 3) ++ (CDel 0 :: r 0 3) ++ (CDestroy 0 :: r 0 4).
Example C62_solo : one_consumer 0 solo /\ start 100 two_start /\ option_map clog (run 100 two_start solo) = Some [EPopNone 0; EAdd 1 [2] true; EAdd 1 [1] false; EPop 0 1; ETake 0 2; EWalk 0 [2]].
Proof. split; [intros t C; cbn in C; intuition congruence|]. split; [exact two_start_ok|]. vm_compute. reflexivity. Qed.

Print Assumptions C62_linearizable.
Print Assumptions C62_exactly_once.
Print Assumptions C62_exclusive.
Print Assumptions C62_del_refuted.
