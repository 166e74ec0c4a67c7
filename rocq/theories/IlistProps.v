(** * C61: the index list enumerates its nodes in key order, equal keys in insertion order *)
From Verif Require Import Lib Ptr ListModel ListSpec ListProofs ListProofs2 IlistModel IlistSpec IlistProofs IlistProofs2.

Lemma has_node_in s n : has_node s n = true <-> In n s.
Proof.
  unfold has_node. rewrite existsb_exists. split; [intros (y & H & E); apply Z.eqb_eq in E; congruence|]. intros H. exists n. split; [exact H|apply Z.eqb_refl].
Qed.
Section History.
Variable cmp : Z -> Z -> Z.
Hypothesis PO : preorder cmp.
Variables (h : Z) (U : list Z).
Hypothesis AP : apart h U.
Definition inv (m : mem) (s : list Z) : Prop := exists G, grouped cmp G /\ il m h U G /\ stable_sort cmp s (nodes G).
Lemma inv_fresh m : fresh m h U -> inv m [].
Proof.
  intros [R F]. exists []. split; [split; constructor|]. split.
  - split; [exact R|]. split; [intros x []|]. split; [exact I|]. split; intros x Hx _; apply F, Hx.
  - split; [constructor|]. split; [constructor|]. intros k. reflexivity.
Qed.
Lemma old_iff s l x : stable_sort cmp s l -> oldest_of_many cmp l x -> oldest_of_many cmp s x.
Proof.
  intros (_ & P & O) (y & r & z & E & Hz & Nz). exists y, r, z. rewrite (O x). split; [exact E|]. split; [apply (Permutation_in _ (Permutation_sym P)), Hz|exact Nz].
Qed.
Lemma step_add m s n fuel : inv m s -> In n U -> (length U < fuel)%nat -> exists m', ilist_add cmp fuel m h n = Some m' /\ inv m' (alive_step s (IAdd n)).
Proof.
  intros (G & HG & H & S) Hn Hf. cbn [alive_step]. pose proof S as (_ & P & _). destruct (has_node s n) eqn:E.
  - apply has_node_in in E. apply (Permutation_in _ P) in E. exists m. split; [|exists G; auto]. unfold ilist_add. pose proof H as (R & I & _ & RI & _).
    apply in_split in E. destruct E as (A & B & EN). pose proof R as R'. rewrite EN in R'.
    assert (Ex : list_check_empty m n = Some false).
    { unfold list_check_empty, ld. rewrite (next_at _ _ _ _ _ R'). f_equal. apply Z.eqb_neq. pose proof R' as [Hd _]. apply NoDup_cons_iff in Hd. destruct Hd as [Nh Hd]. destruct B as [|b B]; cbn [hd].
      - intros ->. apply Nh, in_or_app. cbn; auto.
      - intros ->. apply nodup_r in Hd. apply NoDup_cons_iff in Hd. apply (proj1 Hd). cbn; auto. }
    rewrite Ex. assert (Ny : exists e, list_check_empty m (IDX n) = Some e).
    { unfold list_check_empty, ld. destruct H as (_ & _ & IR & _ & _). destruct (in_dec Z.eq_dec n (leads G)) as [D|D].
      - apply in_split in D. destruct D as (T & D & EL). rewrite EL in IR. rewrite (iring_next _ _ _ _ IR). eauto.
      - pose proof (RI n Hn D) as R0. rewrite (ring_next _ _ _ R0). eauto. }
    destruct Ny as [e ->]. reflexivity.
  - assert (Ni : ~ In n (nodes G)) by (intros C; apply (Permutation_in _ (Permutation_sym P)), has_node_in in C; congruence).
    destruct (add_ok cmp PO h U AP m G n fuel HG H Hn Ni Hf) as (m' & G' & A & B & E' & H' & HG' & EA & EB & FA & FB). exists m'. split; [exact E'|]. exists G'. split; [exact HG'|]. split; [exact H'|].
    rewrite EB. rewrite EA in S. apply stable_insert; assumption.
Qed.
Lemma step_del m s x : inv m s -> In x U -> ~ oldest_of_many cmp s x -> exists m', ilist_del m h x = Some m' /\ inv m' (alive_step s (IDel x)).
Proof.
  intros (G & HG & H & S) Hx NB. cbn [alive_step]. destruct (in_dec Z.eq_dec x (nodes G)) as [D|D].
  - destruct (del_ok cmp PO h U AP m G x HG H D) as (m' & G' & E & H' & HG' & EN); [intros C; apply NB; revert C; apply old_iff, S|].
    exists m'. split; [exact E|]. exists G'. split; [exact HG'|]. split; [exact H'|]. rewrite EN. apply stable_filter, S.
  - destruct (del_absent h U AP m G x H Hx D) as (m' & E & H'). exists m'. split; [exact E|]. exists G. split; [exact HG|]. split; [exact H'|].
    rewrite filter_all; [exact S|]. intros y Hy. apply negb_true_iff, Z.eqb_neq. intros ->. apply D. apply (Permutation_in _ (proj1 (proj2 S))), Hy.
Qed.
Lemma run_ok fuel : (length U < fuel)%nat -> forall ops m s, inv m s -> Forall (uses U) ops -> harmless cmp s ops -> exists m', ilist_run fuel cmp h m ops = Some m' /\ inv m' (alive s ops).
Proof.
  intros Hf. induction ops as [|op ops IH]; intros m s HI HU HH; [exists m; auto|]. inversion_clear HU. destruct HH as [H1 H2]. cbn [alive fold_left]. fold (alive (alive_step s op) ops). destruct op as [n|n]; cbn [ilist_run uses] in *.
  - destruct (step_add m s n fuel HI H Hf) as (m1 & -> & HI1). apply IH; assumption.
  - destruct (step_del m s n HI H H1) as (m1 & -> & HI1). apply IH; assumption.
Qed.
End History.

(** Every history of adds and dels from a fresh list, provided no del hits the oldest of several nodes with one key
    while other keys are present.  Adding a node twice and deleting an absent one are included (no effect).
    Full statement (false, below): the same without [harmless]. *)
Theorem C61_history_partial : forall cmp h U m fuel ops, preorder cmp -> apart h U -> fresh m h U -> (length U < fuel)%nat ->
  Forall (uses U) ops -> harmless cmp [] ops ->
  exists m' l, ilist_run fuel cmp h m ops = Some m' /\ ring m' h l /\ stable_sort cmp (alive [] ops) l.
Proof.
  intros cmp h U m fuel ops PO AP F Hf HU HH. destruct (run_ok cmp PO h U AP fuel Hf ops m [] (inv_fresh cmp h U m F) HU HH) as (m' & E & G & _ & H & S).
  exists m', (nodes G). split; [exact E|]. split; [apply H|exact S].
Qed.
(** In particular for keys that are all different, and for histories without dels. *)
Theorem C61_distinct_keys : forall cmp h U m fuel ops, preorder cmp -> apart h U -> fresh m h U -> (length U < fuel)%nat ->
  Forall (uses U) ops -> (forall x y, In x U -> In y U -> cmp x y = 0 -> x = y) ->
  exists m' l, ilist_run fuel cmp h m ops = Some m' /\ ring m' h l /\ stable_sort cmp (alive [] ops) l.
Proof.
  intros cmp h U m fuel ops PO AP F Hf HU HD. apply (C61_history_partial cmp h U); auto.
  assert (G : forall ops s, Forall (uses U) ops -> incl s U -> NoDup s -> harmless cmp s ops); [|apply G; [exact HU|intros x []|constructor]]. clear ops HU.
  induction ops as [|op ops IH]; intros s HU Hs Hd; [exact I|]. inversion_clear HU. cbn [harmless]. split.
  - destruct op as [|x]; [exact I|]. intros (y & r & z & E & _). assert (Hx : In x (x :: y :: r)) by (cbn; auto). assert (Hy : In y (x :: y :: r)) by (cbn; auto).
    rewrite <- E in Hx, Hy. apply filter_In in Hx, Hy. destruct Hx as [Hx _], Hy as [Hy Hc]. apply Z.eqb_eq in Hc. pose proof (HD x y (Hs x Hx) (Hs y Hy) Hc). subst y.
    pose proof (NoDup_filter (fun y => cmp x y =? 0) Hd) as Hn. rewrite E in Hn. apply NoDup_cons_iff in Hn. apply (proj1 Hn). cbn; auto.
  - apply IH; [assumption| |].
    + intros y Hy. destruct op as [n|n]; cbn [alive_step] in Hy; [destruct (has_node s n); [auto|apply in_app_iff in Hy; destruct Hy as [Hy|[<-|[]]]; auto]|apply filter_In in Hy; apply Hs, Hy].
    + destruct op as [n|n]; cbn [alive_step]; [destruct (has_node s n) eqn:E; [exact Hd|]|apply NoDup_filter, Hd].
      apply (Permutation_NoDup (Permutation_cons_append s n)). constructor; [|exact Hd]. intros C. apply has_node_in in C. congruence.
Qed.
Theorem C61_adds : forall cmp h U m fuel ops, preorder cmp -> apart h U -> fresh m h U -> (length U < fuel)%nat -> Forall (fun n => In n U) ops -> NoDup ops ->
  exists m' l, ilist_run fuel cmp h m (map IAdd ops) = Some m' /\ ring m' h l /\ stable_sort cmp ops l.
Proof.
  intros cmp h U m fuel ops PO AP F Hf HU Hd. assert (Ea : forall s r, NoDup (s ++ r) -> alive s (map IAdd r) = s ++ r).
  { intros s r. revert s. induction r as [|n r IH]; intros s Hn; [symmetry; apply app_nil_r|]. cbn [map alive fold_left alive_step]. fold (alive (if has_node s n then s else s ++ [n]) (map IAdd r)).
    destruct (has_node s n) eqn:E; [exfalso; apply has_node_in in E; apply (nodup_disj _ _ Hn n E); cbn; auto|]. replace (s ++ n :: r) with ((s ++ [n]) ++ r) in * by (rewrite <- app_assoc; reflexivity). apply IH, Hn. }
  pose proof (Ea [] ops Hd) as E. cbn [app] in E. pattern ops at 2. rewrite <- E. apply (C61_history_partial cmp h U); auto.
  - apply Forall_map. exact HU.
  - generalize (@nil Z). clear. induction ops as [|n r IH]; intros s; cbn; auto.
Qed.

(** Four nodes with keys 5, 5, 7 and 6; a fresh memory. *)
Definition ikey (p : Z) : Z := if p =? 100 then 5 else if p =? 200 then 5 else if p =? 300 then 7 else 6.
Definition icmp (a b : Z) : Z := ikey a - ikey b.
Definition imem : mem := fun p f => if ((f =? NEXT) || (f =? PREV)) && existsb (Z.eqb p) [10; 100; 200; 300; 400; 116; 216; 316; 416] then Some p else None.
Example C61_setup : preorder icmp /\ apart 10 [100; 200; 300; 400] /\ fresh imem 10 [100; 200; 300; 400].
Proof.
  split; [split; unfold icmp; intros; lia|]. split.
  - split; [repeat constructor; cbn; lia|]. split; [cbn; lia|]. split; [cbn; unfold NULL; lia|]. intros p q Hp Hq. unfold IDX. cbn in Hp, Hq. lia.
  - assert (S : forall x, imem x NEXT = Some x -> imem x PREV = Some x -> ring imem x []) by (intros x H1 H2; split; [repeat constructor; cbn; auto|split; assumption]).
    split; [apply S; reflexivity|]. intros x Hx. cbn in Hx. intuition (subst; apply S; reflexivity).
Qed.
(** Deleting the newer of the two equal nodes: the hypotheses of the theorem are met. *)
Example C61_case : exists m' l, ilist_run 10 icmp 10 imem [IAdd 300; IAdd 100; IAdd 200; IDel 200; IAdd 400] = Some m' /\ ring m' 10 l /\ stable_sort icmp [300; 100; 400] l.
Proof.
  destruct C61_setup as (A & B & C). apply (C61_history_partial icmp 10 [100; 200; 300; 400] imem 10 [IAdd 300; IAdd 100; IAdd 200; IDel 200; IAdd 400] A B C); [cbn; lia|repeat (apply Forall_cons; [cbn; auto 6|]); apply Forall_nil|].
  cbn [harmless]. repeat (split; [exact I|]). split; [|repeat split]. intros (y & r & z & E & _). vm_compute in E. discriminate E.
Qed.
(** Deleting the older one leaves the newer outside the index; the next insertion goes to the wrong place:
    keys come out as 5, 7, 6. *)
Theorem C61_refuted : exists cmp h U m fuel ops, preorder cmp /\ apart h U /\ fresh m h U /\ (length U < fuel)%nat /\ Forall (uses U) ops /\
  exists m' l, ilist_run fuel cmp h m ops = Some m' /\ for_each 9 m' h = Some l /\ ~ ascending cmp l.
Proof.
  exists icmp, 10, [100; 200; 300; 400], imem, 10%nat, [IAdd 100; IAdd 200; IAdd 300; IDel 100; IAdd 400]. destruct C61_setup as (A & B & C). split; [exact A|]. split; [exact B|]. split; [exact C|].
  split; [cbn; lia|]. split; [repeat (apply Forall_cons; [cbn; auto 6|]); apply Forall_nil|]. eexists. eexists. split; [vm_compute; reflexivity|]. split; [vm_compute; reflexivity|].
  intros H. apply StronglySorted_inv in H. destruct H as [H _]. apply StronglySorted_inv in H. destruct H as [_ H]. inversion_clear H. vm_compute in H0. apply H0. reflexivity.
Qed.
Print Assumptions C61_history_partial.
Print Assumptions C61_distinct_keys.
Print Assumptions C61_adds.
Print Assumptions C61_refuted.
