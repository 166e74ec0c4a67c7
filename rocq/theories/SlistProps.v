(** * C59, C60: NULL-terminated lists, with and without back pointers.
    [slist m h l]: the list with head [h] holds exactly the distinct nodes [l]; [hlist m h l] says in addition that every
    node points back to the link that holds it.  Positions inside a list are written [l1 ++ x :: l2]; [last l1 h] is the
    node (or the head) in front of position [length l1]. *)
From Verif Require Import Lib Ptr ListProofs SlistModel SlistSpec SlistProofs.

(** ** C60: slist *)
Theorem C60_init : forall m h, has m h LINK -> exists m', slist_head_init m h = Some m' /\ slist m' h [] /\ only [h] m m'.
Proof.
  intros m h H. unfold slist_head_init. rewrite (st_ex _ _ _ _ H). eexists. split; [reflexivity|]. split; [|apply only_upd; cbn; auto].
  split; [constructor; [intros []|constructor]|]. cbn [spath]. apply upd_same.
Qed.
(** Adding behind the head or behind any node inserts at that place. *)
Theorem C60_add : forall m h l1 l2 n, slist m h (l1 ++ l2) -> has m n LINK -> n <> NULL -> ~ In n (h :: l1 ++ l2) ->
  exists m', slist_add m (last l1 h) n = Some m' /\ slist m' h (l1 ++ n :: l2) /\ only [last l1 h; n] m m'.
Proof. exact slist_add_ok. Qed.
Theorem C60_del : forall m h l1 x l2 fuel, slist m h (l1 ++ x :: l2) -> (length l1 <= fuel)%nat ->
  exists m', slist_del fuel m h x = Some m' /\ slist m' h (l1 ++ l2) /\ m' x LINK = Some 0x140 /\ only [last l1 h; x] m m'.
Proof. exact slist_del_ok. Qed.
Theorem C60_replace : forall m h l1 x l2 n fuel, slist m h (l1 ++ x :: l2) -> (length l1 <= fuel)%nat -> has m n LINK -> n <> NULL -> ~ In n (h :: l1 ++ x :: l2) ->
  exists m', slist_replace fuel m h x n = Some m' /\ slist m' h (l1 ++ n :: l2) /\ m' x LINK = m x LINK /\ only [last l1 h; n] m m'.
Proof. exact slist_replace_ok. Qed.
Theorem C60_queries : forall m h l, slist m h l ->
  slist_check_empty m h = Some (match l with [] => true | _ => false end) /\
  (forall l1 x l2, l = l1 ++ x :: l2 ->
     slist_check_first m h x = Some (match l1 with [] => true | _ => false end) /\
     slist_check_end m x = Some (match l2 with [] => true | _ => false end) /\
     slist_check_another m h x = Some (match l with [_] => true | _ => false end)).
Proof.
  intros m h l H. pose proof H as [Hd P]. pose proof (spath_link _ _ _ P) as L. split.
  - unfold slist_check_empty, ld. rewrite L. destruct l as [|y l]; [reflexivity|]. cbn [spath] in P. cbn [hd]. rewrite (proj2 (Z.eqb_neq _ _) (proj1 (proj2 P))). reflexivity.
  - intros l1 x l2 ->. destruct (slist_next _ _ _ _ _ H) as [Nx Lx].
    assert (E2 : (hd NULL l2 =? NULL) = match l2 with [] => true | _ => false end).
    { destruct l2 as [|y l2]; [reflexivity|]. apply Z.eqb_neq. cbn [hd]. replace (l1 ++ x :: y :: l2) with ((l1 ++ [x]) ++ y :: l2) in H by (rewrite <- app_assoc; reflexivity). apply (slist_next _ _ _ _ _ H). }
    assert (E1 : (hd NULL (l1 ++ x :: l2) =? x) = match l1 with [] => true | _ => false end).
    { destruct l1 as [|y l1]; [apply Z.eqb_refl|]. apply Z.eqb_neq. cbn [hd app]. intros ->. apply NoDup_cons_iff in Hd. destruct Hd as [_ Hd]. cbn [app] in Hd. apply NoDup_cons_iff in Hd. apply (proj1 Hd). apply in_or_app. cbn; auto. }
    unfold slist_check_first, slist_check_end, slist_check_another, ld. rewrite L, Lx, E1, E2. split; [reflexivity|]. split; [reflexivity|].
    destruct l1 as [|y l1]; [destruct l2; reflexivity|]. destruct l1; reflexivity.
Qed.
Theorem C60_for_each : forall m h l fuel, slist m h l -> (length l <= fuel)%nat -> each fuel m h = Some l.
Proof. exact slist_each. Qed.
(** Iteration that may remove the current node: every node is visited once, exactly the chosen ones are removed. *)
Theorem C60_for_each_safe : forall drop m h l fuel t0, slist m h l -> (length l <= fuel)%nat ->
  exists m', each_safe fuel (fun m x => slist_del fuel m h x) m drop h t0 = Some (l, m') /\ slist m' h (filter (fun x => negb (drop x)) l).
Proof.
  intros drop m h l fuel t0 H Hf. apply (each_safe_ok slist (fun m x => slist_del fuel m h x) fuel); auto.
  - intros m0 h0 l1 x l2 H0. apply (slist_next _ _ _ _ _ H0).
  - intros m0 h0 l0 [_ H0]. apply spath_link, H0.
  - intros m0 l1 x l2 H0 F0. destruct (slist_del_ok m0 h l1 x l2 fuel H0) as (m' & E & R & _); [rewrite app_length in F0; lia|]. eauto.
Qed.

(** ** C59: hlist *)
Theorem C59_init : forall m h, has m h LINK -> exists m', hlist_head_init m h = Some m' /\ hlist m' h [] /\ only [h] m m'.
Proof.
  intros m h H. unfold hlist_head_init. rewrite (st_ex _ _ _ _ H). eexists. split; [reflexivity|]. split; [|apply only_upd; cbn; auto].
  split; [constructor; [intros []|constructor]|]. cbn [hpath]. apply upd_same.
Qed.
Theorem C59_head_add : forall m h l n, hlist m h l -> has m n LINK -> has m n PPREV -> n <> NULL -> ~ In n (h :: l) ->
  exists m', hlist_head_add m h n = Some m' /\ hlist m' h (n :: l) /\ only (h :: n :: l) m m'.
Proof. exact hlist_head_add_ok. Qed.
Theorem C59_del : forall m h l1 x l2, hlist m h (l1 ++ x :: l2) ->
  (exists m', hlist_del m x = Some m' /\ hlist m' h (l1 ++ l2) /\ m' x LINK = Some 0x120 /\ m' x PPREV = Some 0x130 /\ only (last l1 h :: x :: l2) m m') /\
  (exists m', hlist_del_init m x = Some m' /\ hlist m' h (l1 ++ l2) /\ hlist_check_unhashed m' x = Some true /\ m' x LINK = Some NULL /\ only (last l1 h :: x :: l2) m m').
Proof. intros. split; [apply hlist_del_ok|apply hlist_del_init_ok]; assumption. Qed.
Theorem C59_replace : forall m h l1 x l2 n, hlist m h (l1 ++ x :: l2) -> has m n LINK -> has m n PPREV -> n <> NULL -> ~ In n (h :: l1 ++ x :: l2) ->
  exists m', hlist_replace m x n = Some m' /\ hlist m' h (l1 ++ n :: l2) /\ m' x LINK = m x LINK /\ m' x PPREV = m x PPREV /\ only (last l1 h :: n :: l2) m m'.
Proof. exact hlist_replace_ok. Qed.
Theorem C59_head_replace : forall m h l k, hlist m h l -> has m k LINK -> ~ In k (h :: l) ->
  exists m', hlist_head_replace m h k = Some m' /\ hlist m' k l /\ hlist m' h [] /\ only (h :: k :: l) m m'.
Proof. exact hlist_head_replace_ok. Qed.
(** Back pointers make every traversal fact about slists available, and being unhashed is decided by the back pointer. *)
Theorem C59_traverse : forall m h l, hlist m h l -> slist m h l /\ (h <> NULL -> forall x, In x l -> hlist_check_unhashed m x = Some false).
Proof.
  intros m h l H. split; [apply hlist_slist, H|]. intros Nh x Hx. apply in_split in Hx. destruct Hx as (l1 & l2 & ->).
  apply hlist_split in H. destruct H as (_ & S1 & _ & S3). cbn [hrest] in S3. unfold hlist_check_unhashed, ld. rewrite (proj1 (proj2 S3)).
  f_equal. apply Z.eqb_neq. clear -S1 Nh. revert h S1 Nh. induction l1 as [|y l1 IH]; intros h S Nh; [exact Nh|]. rewrite last_cons. cbn [hpairs] in S. apply IH; tauto.
Qed.
Theorem C59_for_each_safe : forall drop m h l fuel t0, hlist m h l -> (length l <= fuel)%nat ->
  exists m', each_safe fuel hlist_del m drop h t0 = Some (l, m') /\ hlist m' h (filter (fun x => negb (drop x)) l).
Proof.
  intros drop m h l fuel t0 H Hf. apply (each_safe_ok hlist hlist_del fuel); auto.
  - intros m0 h0 l1 x l2 H0. apply (slist_next _ _ _ _ _ (hlist_slist _ _ _ H0)).
  - intros m0 h0 l0 [_ H0]. apply spath_link, hlist_spath, H0.
  - intros m0 l1 x l2 H0 F0. destruct (hlist_del_ok m0 h l1 x l2 H0) as (m' & E & R & _). eauto.
Qed.
(** next_add keeps the back pointers only when it appends behind the last node.  Full statement (false, below): for every
    position, [hlist_next_add m x n] gives [hlist m' h (l1 ++ x :: n :: l2)]. *)
Theorem C59_next_add_partial : forall m h l1 x n, hlist m h (l1 ++ [x]) -> has m n LINK -> has m n PPREV -> n <> NULL -> ~ In n (h :: l1 ++ [x]) ->
  exists m', hlist_next_add m x n = Some m' /\ hlist m' h (l1 ++ [x; n]) /\ only [x; n] m m'.
Proof. exact hlist_next_add_end. Qed.

Definition hdemo : mem := fun p f =>
  if f =? LINK then (if p =? 10 then Some 20 else if p =? 20 then Some 30 else if p =? 30 then Some 40 else if p =? 40 then Some 0
                     else if p =? 50 then Some 0 else if p =? 70 then Some 7 else None)
  else if f =? PPREV then (if p =? 20 then Some 10 else if p =? 30 then Some 20 else if p =? 40 then Some 30 else if p =? 70 then Some 7 else None)
  else None.
Example C59_demo : hlist hdemo 10 [20; 30; 40] /\ hlist hdemo 50 [] /\ has hdemo 70 LINK /\ has hdemo 70 PPREV /\ 70 <> NULL /\ ~ In 70 [10; 20; 30; 40].
Proof.
  repeat split; try (vm_compute; reflexivity); try (vm_compute; discriminate).
  - repeat constructor; cbn; lia.
  - repeat constructor; cbn; lia.
  - eexists; reflexivity.
  - eexists; reflexivity.
  - cbn. lia.
Qed.
(** Anywhere else the node behind the new one keeps pointing back to the wrong link; deleting it afterwards unlinks the
    new node instead: the list [20; 70; 30; 40] without 30 becomes [20; 40]. *)
Theorem C59_next_add_refuted : exists m h l1 x l2 n m', hlist m h (l1 ++ x :: l2) /\ has m n LINK /\ has m n PPREV /\ n <> NULL /\ ~ In n (h :: l1 ++ x :: l2) /\
  hlist_next_add m x n = Some m' /\ ~ hlist m' h (l1 ++ x :: n :: l2) /\
  exists y m'', In y l2 /\ hlist_del m' y = Some m'' /\ each 9 m'' h = Some [20; 40] /\ l1 ++ x :: n :: l2 = [20; 70; 30; 40] /\ y = 30.
Proof.
  exists hdemo, 10, [], 20, [30; 40], 70. eexists. destruct C59_demo as (A & _ & B & C & D & E). split; [exact A|]. split; [exact B|]. split; [exact C|]. split; [exact D|]. split; [exact E|].
  split; [vm_compute; reflexivity|]. split.
  - intros [_ H]. cbn [hpath app] in H. destruct H as (_ & _ & _ & _ & _ & _ & _ & _ & H & _). vm_compute in H. discriminate H.
  - exists 30. eexists. split; [cbn; auto|]. split; [vm_compute; reflexivity|]. split; [vm_compute; reflexivity|]. split; reflexivity.
Qed.
(** prev_add ties the two nodes into a cycle wherever it is used: the new node is never reachable from the head without
    passing the old one, and traversal never ends. *)
Theorem C59_prev_add_cycle : forall m h l1 x l2 n, hlist m h (l1 ++ x :: l2) -> has m n LINK -> has m n PPREV -> n <> NULL -> ~ In n (h :: l1 ++ x :: l2) ->
  exists m', hlist_prev_add m x n = Some m' /\ m' x LINK = Some n /\ m' n LINK = Some x /\ (forall l, In x l -> ~ hlist m' h l) /\
  forall fuel, each_from fuel m' x = None.
Proof.
  intros m h l1 x l2 n H Hn1 Hn2 Nz Ni. destruct (hlist_node_in _ _ _ _ _ H) as [Hx1 Hx2].
  assert (Nnx : n <> x) by (intros ->; apply Ni; right; apply in_or_app; cbn; auto).
  pose proof (proj1 (slist_next _ _ _ _ _ (hlist_slist _ _ _ H))) as Nx.
  destruct Hx2 as [p Hp]. unfold hlist_prev_add, ld. rewrite Hp. rewrite (st_ex _ _ _ _ Hn2). rewrite st_ex by (apply upd_ex, Hn1). rewrite st_ex by (do 2 apply upd_ex; eauto).
  rewrite upd_same. rewrite st_ex by (do 3 apply upd_ex; exact Hx1). set (m' := upd _ x LINK n).
  assert (L1 : m' x LINK = Some n) by apply upd_same.
  assert (L2 : m' n LINK = Some x).
  { unfold m'. rewrite !upd_other by first [left; exact Nnx|right; discriminate]. apply upd_same. }
  exists m'. split; [reflexivity|]. split; [exact L1|]. split; [exact L2|]. split.
  - intros l Hx C. apply hlist_slist in C. apply in_split in Hx. destruct Hx as (a & b & ->). pose proof (slist_next _ _ _ _ _ C) as [_ E1]. rewrite L1 in E1.
    destruct b as [|y b]; [cbn [hd] in E1; congruence|]. cbn [hd] in E1. assert (y = n) by congruence. subst y.
    pose proof C as [Hd _]. replace (a ++ x :: n :: b) with ((a ++ [x]) ++ n :: b) in C by (rewrite <- app_assoc; reflexivity). pose proof (slist_next _ _ _ _ _ C) as [_ E2]. rewrite L2 in E2.
    apply NoDup_cons_iff in Hd. destruct Hd as [_ Hd]. pose proof (nodup_r _ _ Hd) as Hd2. apply NoDup_cons_iff in Hd2. destruct Hd2 as [N2 _]. apply N2.
    destruct b as [|z b]; cbn [hd] in E2; [congruence|]. assert (z = x) by congruence. subst z. cbn; auto.
  - assert (B : forall fuel, each_from fuel m' x = None /\ each_from fuel m' n = None); [|intros; apply B].
    induction fuel as [|fuel [I1 I2]]; cbn [each_from]; rewrite (proj2 (Z.eqb_neq _ _) Nx), (proj2 (Z.eqb_neq _ _) Nz); [auto|]. unfold ld. rewrite L1, L2, I1, I2. auto.
Qed.
Theorem C59_prev_add_refuted : exists m h l1 x l2 n, hlist m h (l1 ++ x :: l2) /\ has m n LINK /\ has m n PPREV /\ n <> NULL /\ ~ In n (h :: l1 ++ x :: l2) /\
  forall m', hlist_prev_add m x n = Some m' -> ~ hlist m' h (l1 ++ n :: x :: l2).
Proof.
  exists hdemo, 10, [20], 30, [40], 70. destruct C59_demo as (A & _ & B & C & D & E). repeat (split; [assumption|]). intros m' E'.
  destruct (C59_prev_add_cycle hdemo 10 [20] 30 [40] 70 A B C D E) as (m1 & E1 & _ & _ & H & _). assert (m' = m1) by congruence. subst. apply H. cbn; auto.
Qed.
Example C59_prev_add_case : exists m', hlist_prev_add hdemo 30 70 = Some m' /\ each 100 m' 10 = None.
Proof. eexists. split; vm_compute; reflexivity. Qed.
Example C60_case : exists m', slist_del 5 hdemo 10 30 = Some m' /\ slist m' 10 [20; 40].
Proof. destruct (C60_del hdemo 10 [20] 30 [40] 5 (hlist_slist _ _ _ (proj1 C59_demo))) as (m' & E & R & _); [cbn; lia|]. exists m'. auto. Qed.
Example C59_case : exists m', hlist_replace hdemo 30 70 = Some m' /\ hlist m' 10 [20; 70; 40].
Proof. destruct C59_demo as (A & _ & B & C & D & E). destruct (C59_replace hdemo 10 [20] 30 [40] 70 A B C D E) as (m' & E' & R & _). exists m'. auto. Qed.
Print Assumptions C60_init.
Print Assumptions C60_add.
Print Assumptions C60_del.
Print Assumptions C60_replace.
Print Assumptions C60_queries.
Print Assumptions C60_for_each.
Print Assumptions C60_for_each_safe.
Print Assumptions C59_init.
Print Assumptions C59_head_add.
Print Assumptions C59_del.
Print Assumptions C59_replace.
Print Assumptions C59_head_replace.
Print Assumptions C59_traverse.
Print Assumptions C59_for_each_safe.
Print Assumptions C59_next_add_partial.
Print Assumptions C59_next_add_refuted.
Print Assumptions C59_prev_add_refuted.
Print Assumptions C59_prev_add_cycle.
