(** * C110: the debug builds of the intrusive lists.
    On a well-formed list the checks are transparent: every operation gives the list the plain operation gives.  Repeated
    deletions, repeated insertions at the same place and insertions next to damaged links are refused and leave memory
    as it was.  A second insertion at another place is not noticed ([C110_elsewhere_refuted]). *)
From Verif Require Import Lib Ptr ListModel ListSpec ListProofs ListProofs2 SlistModel SlistSpec SlistProofs ListDebugModel ListProps SlistProps.

(** No object of the list lies at one of the poison addresses. *)
Definition clean (l : list Z) : Prop := ~ In 0x100 l /\ ~ In 0x110 l.
Definition sclean (l : list Z) : Prop := ~ In 0x120 l /\ ~ In 0x130 l /\ ~ In 0x140 l.

(** ** Neighbours inside a ring *)
Lemma seg_succ m b : forall l a x, seg m a l b -> In x (a :: l) -> exists y, In y (l ++ [b]) /\ linked m x y.
Proof.
  induction l as [|z l IH]; intros a x H Hx; cbn [seg] in H.
  - destruct Hx as [<- | []]. exists b. cbn; auto.
  - destruct H as [L H]. destruct Hx as [<- | Hx]; [exists z; cbn; auto|].
    destruct (IH z x H Hx) as (y & Hy & Ly). exists y. cbn; auto.
Qed.
Lemma seg_pred m b : forall l a x, seg m a l b -> In x (l ++ [b]) -> exists y, In y (a :: l) /\ linked m y x.
Proof.
  induction l as [|z l IH]; intros a x H Hx; cbn [seg] in H.
  - destruct Hx as [<- | []]. exists a. cbn; auto.
  - destruct H as [L H]. destruct Hx as [<- | Hx]; [exists a; cbn; auto|].
    destruct (IH z x H Hx) as (y & Hy & Ly). exists y. cbn in *; tauto.
Qed.
Lemma ring_succ m h l x : ring m h l -> In x (h :: l) -> exists y, In y (h :: l) /\ linked m x y.
Proof.
  intros [_ H] Hx. destruct (seg_succ _ _ _ _ _ H Hx) as (y & Hy & L). exists y. split; [|exact L].
  apply in_app_or in Hy. cbn in *. tauto.
Qed.
Lemma ring_pred m h l x : ring m h l -> In x (h :: l) -> exists y, In y (h :: l) /\ linked m y x.
Proof.
  intros [_ H] Hx. apply (seg_pred _ _ _ _ _ H). apply in_or_app. cbn in *. tauto.
Qed.

Lemma dadd_same m h l x n : ring m h l -> In x (h :: l) -> ~ In n (h :: l) -> dlist_add m x n = list_add m x n.
Proof.
  intros R Hx Hn. destruct (ring_succ _ _ _ _ R Hx) as (y & Hy & L1 & L2).
  unfold dlist_add, list_add, dlist_insert, list_check_add, ld. rewrite L1. cbn beta iota. rewrite ?L1, L2, !Z.eqb_refl. cbn [negb].
  destruct (Z.eqb_spec n x) as [-> | _]; [contradiction|]. destruct (Z.eqb_spec n y) as [-> | _]; [contradiction|]. reflexivity.
Qed.
Lemma dadd_prev_same m h l x n : ring m h l -> In x (h :: l) -> ~ In n (h :: l) -> dlist_add_prev m x n = list_add_prev m x n.
Proof.
  intros R Hx Hn. destruct (ring_pred _ _ _ _ R Hx) as (y & Hy & L1 & L2).
  unfold dlist_add_prev, list_add_prev, dlist_insert, list_check_add, ld. rewrite L2. cbn beta iota. rewrite L1, ?L2, !Z.eqb_refl. cbn [negb].
  destruct (Z.eqb_spec n y) as [-> | _]; [contradiction|]. destruct (Z.eqb_spec n x) as [-> | _]; [contradiction|]. reflexivity.
Qed.
Lemma ddel_same m h l x : ring m h l -> clean (h :: l) -> In x (h :: l) -> dlist_del m x = list_del m x.
Proof.
  intros R [C1 C2] Hx. destruct (ring_succ _ _ _ _ R Hx) as (y & Hy & L1 & _). destruct (ring_pred _ _ _ _ R Hx) as (z & Hz & _ & L2).
  unfold dlist_del, list_del, list_check_del, ld. rewrite L1, L2. unfold POISON_LIST1, POISON_LIST2.
  destruct (Z.eqb_spec y 0x100) as [-> | _]; [contradiction|]. destruct (Z.eqb_spec z 0x110) as [-> | _]; [contradiction|]. reflexivity.
Qed.

Lemma snoc_or (l : list Z) : l = [] \/ exists l' x, l = l' ++ [x].
Proof. destruct l as [|y l]; [left; reflexivity|]. right. destruct (exists_last (l := y :: l)) as (l' & x & E); [discriminate|]. exists l', x. exact E. Qed.

(** ** Circular lists: transparency *)
Theorem C110_list_add : forall m h l1 l2 n, ring m h (l1 ++ l2) -> node m n -> ~ In n (h :: l1 ++ l2) ->
  (exists m', dlist_add m (last l1 h) n = Some m' /\ list_add m (last l1 h) n = Some m' /\ ring m' h (l1 ++ n :: l2)) /\
  (exists m', dlist_add_prev m (hd h l2) n = Some m' /\ list_add_prev m (hd h l2) n = Some m' /\ ring m' h (l1 ++ n :: l2)).
Proof.
  intros m h l1 l2 n R N I. split.
  - rewrite (dadd_same m h (l1 ++ l2)); [|exact R| |exact I].
    + destruct (snoc_or l1) as [-> | (l0 & x & ->)].
      * destruct (add_ring m h l2 n R N I) as (m' & E & R' & _). exists m'. auto.
      * rewrite last_last. rewrite <- app_assoc in *. cbn [app] in *. destruct (add_at m h l0 x l2 n R N I) as (m' & E & R' & _).
        exists m'. auto.
    + destruct (snoc_or l1) as [-> | (l0 & x & ->)]; [cbn; auto|]. rewrite last_last. cbn. right. rewrite !in_app_iff. cbn; auto.
  - rewrite (dadd_prev_same m h (l1 ++ l2)); [|exact R| |exact I].
    + destruct l2 as [|x l2].
      * rewrite app_nil_r in *. destruct (add_prev_ring m h l1 n R N I) as (m' & E & R' & _). exists m'. auto.
      * destruct (add_prev_at m h l1 x l2 n R N I) as (m' & E & R' & _). exists m'. auto.
    + destruct l2 as [|x l2]; [cbn; auto|]. cbn. right. rewrite !in_app_iff. cbn; auto.
Qed.
Theorem C110_list_del : forall m h l1 x l2, ring m h (l1 ++ x :: l2) -> clean (h :: l1 ++ x :: l2) ->
  exists m', dlist_del m x = Some m' /\ list_del m x = Some m' /\ ring m' h (l1 ++ l2) /\ dlist_del m' x = Some m'.
Proof.
  intros m h l1 x l2 R C. destruct (del_at _ _ _ _ _ R) as (m' & E & R' & P1 & P2 & _). exists m'.
  rewrite (ddel_same m h (l1 ++ x :: l2)); [|exact R|exact C|cbn; rewrite in_app_iff; cbn; auto].
  repeat (split; [assumption|]). unfold dlist_del, list_check_del, ld. rewrite P1. reflexivity.
Qed.
Lemma deleted m h l1 x l2 m' : ring m h (l1 ++ x :: l2) -> list_del m x = Some m' -> ring m' h (l1 ++ l2) /\ node m' x /\ ~ In x (h :: l1 ++ l2).
Proof.
  intros R E. destruct (del_at _ _ _ _ _ R) as (m1 & E1 & R' & P1 & P2 & _). rewrite E in E1. injection E1 as <-.
  split; [exact R'|]. split; [split; eauto|]. exact (ring_notin _ _ _ _ _ R).
Qed.
Theorem C110_list_move : forall m h l1 x l2 k, ring m h (l1 ++ x :: l2) -> clean (h :: l1 ++ x :: l2) -> In k (h :: l1 ++ l2) ->
  dlist_move m k x = list_move m k x /\ dlist_move_prev m k x = list_move_prev m k x /\
  (exists m', list_move m k x = Some m') /\ (exists m', list_move_prev m k x = Some m').
Proof.
  intros m h l1 x l2 k R C K. destruct (C110_list_del _ _ _ _ _ R C) as (m1 & E1 & E2 & R1 & _).
  destruct (deleted _ _ _ _ _ _ R E2) as (_ & N1 & I1).
  unfold dlist_move, list_move, dlist_move_prev, list_move_prev. rewrite E1, E2.
  rewrite (dadd_same m1 h (l1 ++ l2) k x R1 K I1), (dadd_prev_same m1 h (l1 ++ l2) k x R1 K I1).
  split; [reflexivity|]. split; [reflexivity|]. destruct K as [<- | K].
  - split; [destruct (add_ring _ _ _ _ R1 N1 I1) as (m' & E & _)|destruct (add_prev_ring _ _ _ _ R1 N1 I1) as (m' & E & _)]; eauto.
  - destruct (in_split _ _ K) as (a & b & E0). rewrite E0 in *.
    split; [destruct (add_at _ _ _ _ _ _ R1 N1 I1) as (m' & E & _)|destruct (add_prev_at _ _ _ _ _ _ R1 N1 I1) as (m' & E & _)]; eauto.
Qed.
Theorem C110_list_swap : forall m h a x b y c, ring m h (a ++ x :: b ++ y :: c) -> clean (h :: a ++ x :: b ++ y :: c) ->
  (exists m', dlist_swap m x y = Some m' /\ list_swap m x y = Some m' /\ ring m' h (a ++ y :: b ++ x :: c)) /\
  (exists m', dlist_swap m y x = Some m' /\ list_swap m y x = Some m' /\ ring m' h (a ++ y :: b ++ x :: c)).
Proof.
  assert (K : forall m h l1 z l2 w p, ring m h (l1 ++ z :: l2) -> clean (h :: l1 ++ z :: l2) -> m z PREV = Some p -> In p (h :: l1 ++ l2) -> In w (l1 ++ l2) ->
    dlist_swap m w z = list_swap m w z).
  { intros m h l1 z l2 w p R C P Ip Iw. unfold dlist_swap, list_swap, ld. rewrite P.
    destruct (C110_list_del _ _ _ _ _ R C) as (m1 & E1 & E2 & R1 & _). rewrite E1, E2.
    destruct (deleted _ _ _ _ _ _ R E2) as (_ & N1 & I1). destruct (in_split _ _ Iw) as (u & v & E0). rewrite E0 in *.
    destruct (replace_at m1 h u w v z R1 N1 I1) as (m2 & E3 & R2 & _). rewrite E3.
    pose proof (ring_notin _ _ _ _ _ R1) as Nw.
    apply (dadd_same m2 h (u ++ z :: v)); [exact R2| |].
    - destruct (Z.eqb_spec p w) as [-> | Np]; [cbn; rewrite in_app_iff; cbn; auto|].
      cbn in Ip |- *. rewrite in_app_iff in *. cbn in *. assert (w <> p) by congruence. tauto.
    - intros [E | E]; [apply Nw; cbn; auto|]. apply in_app_or in E. cbn in E. destruct E as [E | [E | E]].
      + apply Nw. cbn. rewrite in_app_iff. auto.
      + subst z. apply I1. cbn. rewrite in_app_iff. cbn; auto.
      + apply Nw. cbn. rewrite in_app_iff. auto. }
  intros m h a x b y c R C. split.
  - assert (R' : ring m h ((a ++ x :: b) ++ y :: c)) by (rewrite <- app_assoc; exact R).
    assert (C' : clean (h :: (a ++ x :: b) ++ y :: c)) by (rewrite <- app_assoc; exact C).
    rewrite (K _ _ _ _ _ x _ R' C' (prev_at _ _ _ _ _ R')).
    + destruct (swap_forward _ _ _ _ _ _ _ R) as (m' & E & Rm & _). exists m'. auto.
    + rewrite last_app_cons. destruct (snoc_or b) as [-> | (b' & w & ->)]; [cbn; rewrite !in_app_iff; cbn; tauto|].
      rewrite last_last. cbn. right. rewrite !in_app_iff. cbn. rewrite in_app_iff. cbn; tauto.
    + rewrite !in_app_iff. cbn; auto.
  - rewrite (K _ _ _ _ _ y _ R C (prev_at _ _ _ _ _ R)).
    + destruct (swap_backward _ _ _ _ _ _ _ R) as (m' & E & Rm & _). exists m'. auto.
    + destruct (snoc_or a) as [-> | (a' & w & ->)]; [cbn; auto|]. rewrite last_last. cbn. right. rewrite !in_app_iff. cbn; auto.
    + rewrite !in_app_iff. cbn. auto.
Qed.

(** ** Circular lists: what is refused *)
(** Deleting a node that was deleted is refused at any later time, as long as its links still carry either poison. *)
Theorem C110_list_del_poisoned : forall m x a b, m x NEXT = Some a -> m x PREV = Some b -> a = 0x100 \/ b = 0x110 -> dlist_del m x = Some m.
Proof.
  intros m x a b A B H. unfold dlist_del, list_check_del, ld. rewrite A, B. unfold POISON_LIST1, POISON_LIST2.
  destruct H as [-> | ->]; [reflexivity|]. destruct (a =? 0x100); reflexivity.
Qed.
(** Inserting the same node a second time at the same place, or a node next to itself, changes nothing. *)
Theorem C110_list_double_add : forall m h l1 l2 n, ring m h (l1 ++ n :: l2) ->
  dlist_add m (last l1 h) n = Some m /\ dlist_add_prev m (hd h l2) n = Some m /\
  dlist_add m n n = Some m /\ dlist_add_prev m n n = Some m.
Proof.
  intros m h l1 l2 n R. pose proof (prev_at _ _ _ _ _ R) as P. pose proof (next_at _ _ _ _ _ R) as Q.
  assert (Hn : In n (h :: l1 ++ n :: l2)) by (cbn; rewrite in_app_iff; cbn; auto).
  destruct (ring_pred _ _ _ _ R Hn) as (y & _ & Y1 & Y2). destruct (ring_succ _ _ _ _ R Hn) as (z & _ & Z1 & Z2).
  rewrite P in Y2. injection Y2 as <-. rewrite Q in Z1. injection Z1 as <-.
  unfold dlist_add, dlist_add_prev, dlist_insert, list_check_add, ld.
  rewrite Y1, Z2, P, Q. cbn beta iota. rewrite ?Y1, ?Z2, ?P, ?Q, !Z.eqb_refl, ?orb_true_r. cbn. auto.
Qed.
(** Insertion between two objects whose links do not agree is refused, whatever else is in memory. *)
Theorem C110_list_damaged : forall m p q n a b, m p NEXT = Some a -> m q PREV = Some b ->
  (a = q -> b <> p -> dlist_add m p n = Some m) /\ (b = p -> a <> q -> dlist_add_prev m q n = Some m).
Proof.
  intros m p q n a b A B. split.
  - intros -> H. unfold dlist_add, dlist_insert, list_check_add, ld. rewrite A. cbn beta iota. rewrite ?A, B, Z.eqb_refl.
    rewrite (proj2 (Z.eqb_neq _ _) H). reflexivity.
  - intros -> H. unfold dlist_add_prev, dlist_insert, list_check_add, ld. rewrite B. cbn beta iota. rewrite A.
    rewrite (proj2 (Z.eqb_neq _ _) H). reflexivity.
Qed.
(** A node that is in the list and is added again at a place that is not next to it is not noticed, and the list is
    destroyed: the traversal never ends.  Moving a node next to itself still faults. *)
Theorem C110_elsewhere_refuted : exists m h l n m', ring m h l /\ clean (h :: l) /\ In n l /\ dlist_add m h n = Some m' /\
  (forall l', ~ ring m' h l') /\ (forall fuel, for_each fuel m' h = None) /\ dlist_move m n n = None.
Proof.
  exists demo, 10, [20; 30; 40], 40. eexists. split; [apply C58_demo|]. split; [split; cbn; lia|]. split; [cbn; auto|].
  split; [vm_compute; reflexivity|]. split; [|split; [|vm_compute; reflexivity]].
  - intros l' [Hd H]. destruct l' as [|a l']; [destruct H as [H _]; vm_compute in H; discriminate H|].
    destruct H as [[H _] S]. vm_compute in H. injection H as <-.
    destruct l' as [|a l']; [destruct S as [H _]; vm_compute in H; discriminate H|]. destruct S as [[H _] S]. vm_compute in H. injection H as <-.
    destruct l' as [|a l']; [destruct S as [H _]; vm_compute in H; discriminate H|]. destruct S as [[H _] S]. vm_compute in H. injection H as <-.
    destruct l' as [|a l']; [destruct S as [H _]; vm_compute in H; discriminate H|]. destruct S as [[H _] S]. vm_compute in H. injection H as <-.
    apply NoDup_cons_iff in Hd. destruct Hd as [_ Hd]. apply NoDup_cons_iff in Hd. destruct Hd as [Hd _]. apply Hd. cbn; auto.
  - match goal with |- forall _, for_each _ ?X _ = _ => set (mm := X) end.
    assert (N1 : mm 40 NEXT = Some 20) by reflexivity. assert (N2 : mm 20 NEXT = Some 30) by reflexivity. assert (N3 : mm 30 NEXT = Some 40) by reflexivity.
    assert (N0 : mm 10 NEXT = Some 40) by reflexivity. clearbody mm.
    assert (W : forall fuel, walk_from fuel mm NEXT 10 40 = None /\ walk_from fuel mm NEXT 10 20 = None /\ walk_from fuel mm NEXT 10 30 = None).
    { induction fuel as [|fuel (A & B & C)]; [repeat split|]. cbn [walk_from]. unfold ld. cbn. rewrite N1, N2, N3, A, B, C. auto. }
    intros fuel. unfold for_each, ld. rewrite N0. apply W.
Qed.

(** ** NULL-terminated lists *)
Lemma last_in (l : list Z) h : In (last l h) (h :: l).
Proof. destruct (snoc_or l) as [-> | (l' & x & ->)]; [cbn; auto|]. rewrite last_last. cbn. right. rewrite in_app_iff. cbn; auto. Qed.
Lemma hd_ne (l : list Z) (x : Z) : x <> NULL -> ~ In x l -> hd NULL l <> x.
Proof. destruct l; cbn; intros; intuition congruence. Qed.
Theorem C110_slist_add : forall m h l1 l2 n, slist m h (l1 ++ l2) -> has m n LINK -> n <> NULL -> ~ In n (h :: l1 ++ l2) ->
  exists m', dslist_add m (last l1 h) n = Some m' /\ slist_add m (last l1 h) n = Some m' /\ slist m' h (l1 ++ n :: l2) /\
    dslist_add m' (last l1 h) n = Some m' /\ dslist_add m' n n = Some m'.
Proof.
  intros m h l1 l2 n S Hn Nz I. destruct (slist_add_ok _ _ _ _ _ S Hn Nz I) as (m' & E & S' & _). exists m'.
  pose proof (proj1 (slist_split _ _ _ _) S) as (_ & _ & L & _). pose proof (proj1 (slist_split _ _ _ _) S') as (_ & _ & L' & _).
  pose proof (slist_next _ _ _ _ _ S') as [_ Ln]. cbn [hd] in L'.
  assert (A : last l1 h <> n). { intros <-. apply I. pose proof (last_in l1 h) as B. cbn in *. rewrite in_app_iff. tauto. }
  assert (B : hd NULL l2 <> n). { apply hd_ne; [exact Nz|]. intros C. apply I. cbn. rewrite in_app_iff. auto. }
  split. { unfold dslist_add, slist_check_add, ld. rewrite L, (proj2 (Z.eqb_neq _ _) A), (proj2 (Z.eqb_neq _ _) B). exact E. }
  split; [exact E|]. split; [exact S'|]. unfold dslist_add, slist_check_add, ld. rewrite L', Ln, !Z.eqb_refl.
  rewrite (proj2 (Z.eqb_neq _ _) B). auto.
Qed.
Theorem C110_slist_del : forall m h l1 x l2 fuel, slist m h (l1 ++ x :: l2) -> sclean (l1 ++ x :: l2) -> (length l1 <= fuel)%nat ->
  exists m', dslist_del fuel m h x = Some m' /\ slist_del fuel m h x = Some m' /\ slist m' h (l1 ++ l2) /\ (forall k fuel', dslist_del fuel' m' k x = Some m').
Proof.
  intros m h l1 x l2 fuel S (_ & _ & C) F. destruct (slist_del_ok _ _ _ _ _ _ S F) as (m' & E & S' & P & _). exists m'.
  split. { unfold dslist_del, slist_check_del, ld. rewrite (proj2 (slist_next _ _ _ _ _ S)). unfold POISON_SLIST.
    destruct (Z.eqb_spec (hd NULL l2) 0x140) as [H | _]; [|exact E]. exfalso. apply C. destruct l2; [discriminate H|]. cbn in H. subst. rewrite in_app_iff. cbn; auto. }
  split; [exact E|]. split; [exact S'|]. intros k fuel'. unfold dslist_del, slist_check_del, ld. rewrite P. reflexivity.
Qed.
(** Without the check the second deletion runs off the end of the list. *)
Theorem C110_slist_plain_faults : forall m h l x fuel, slist m h l -> ~ In x l -> x <> NULL -> m NULL LINK = None -> slist_del fuel m h x = None.
Proof.
  intros m h l x fuel [_ P] I Nz Z0. unfold slist_del. replace (slist_walk fuel m h x) with (@None Z); [reflexivity|]. symmetry.
  revert h fuel P I. induction l as [|y l IH]; intros h fuel P I; cbn [spath] in P.
  - assert (W : slist_walk fuel m NULL x = None) by (destruct fuel; cbn; unfold ld; rewrite Z0; reflexivity).
    destruct fuel as [|fuel]; cbn [slist_walk]; unfold ld; rewrite P, (proj2 (Z.eqb_neq NULL x)) by congruence; [reflexivity|].
    destruct fuel; cbn; unfold ld; rewrite Z0; reflexivity.
  - destruct P as (P1 & P2 & P3). assert (y <> x) by (intros ->; apply I; cbn; auto).
    destruct fuel as [|fuel]; cbn [slist_walk]; unfold ld; rewrite P1, (proj2 (Z.eqb_neq y x)) by assumption; [reflexivity|].
    apply IH; [exact P3|]. intros C. apply I. cbn; auto.
Qed.
Theorem C110_hlist_head_add : forall m h l n, hlist m h l -> has m n LINK -> has m n PPREV -> n <> NULL -> ~ In n (h :: l) ->
  exists m', dhlist_head_add m h n = Some m' /\ hlist_head_add m h n = Some m' /\ hlist m' h (n :: l) /\ dhlist_head_add m' h n = Some m'.
Proof.
  intros m h l n S A B Nz I. destruct (hlist_head_add_ok _ _ _ _ S A B Nz I) as (m' & E & S' & _). exists m'.
  pose proof (spath_link _ _ _ (hlist_spath _ _ _ (proj2 S))) as L. pose proof (spath_link _ _ _ (hlist_spath _ _ _ (proj2 S'))) as L'. cbn [hd] in L'.
  split. { unfold dhlist_head_add, hlist_check_head_add, ld. rewrite L, (proj2 (Z.eqb_neq _ _) (hd_ne l n Nz (fun C => I (or_intror C)))). exact E. }
  split; [exact E|]. split; [exact S'|]. unfold dhlist_head_add, hlist_check_head_add, ld. rewrite L', Z.eqb_refl. reflexivity.
Qed.
Lemma hlist_links m h l1 x l2 : hlist m h (l1 ++ x :: l2) -> m x LINK = Some (hd NULL l2) /\ m x PPREV = Some (last l1 h).
Proof.
  intros H. split; [apply (slist_next m h l1 x l2), hlist_slist, H|]. apply hlist_split in H. destruct H as (_ & _ & _ & H). cbn [hrest] in H. apply H.
Qed.
(** Insertions next to a node do what the plain functions do (which is itself wrong in the places C59 lists). *)
Theorem C110_hlist_insert : forall m h l1 x l2 n, hlist m h (l1 ++ x :: l2) -> n <> NULL -> ~ In n (h :: l1 ++ x :: l2) ->
  dhlist_next_add m x n = hlist_next_add m x n /\ dhlist_prev_add m x n = hlist_prev_add m x n.
Proof.
  intros m h l1 x l2 n H Nz I. destruct (hlist_links _ _ _ _ _ H) as [L P].
  unfold dhlist_next_add, hlist_check_next_add, dhlist_prev_add, hlist_check_prev_add, ld. rewrite L, P.
  assert (A : last l1 h <> n). { intros <-. apply I. pose proof (last_in l1 h) as B. cbn in *. rewrite in_app_iff. tauto. }
  assert (B : hd NULL l2 <> n). { apply hd_ne; [exact Nz|]. intros C. apply I. cbn. rewrite in_app_iff. cbn; auto. }
  rewrite (proj2 (Z.eqb_neq _ _) A), (proj2 (Z.eqb_neq _ _) B). auto.
Qed.
(** Inserting a node that is already there is refused. *)
Theorem C110_hlist_double_add : forall m h l1 x n l2, hlist m h (l1 ++ x :: n :: l2) -> dhlist_next_add m x n = Some m /\ dhlist_prev_add m n x = Some m.
Proof.
  intros m h l1 x n l2 H. destruct (hlist_links _ _ _ _ _ H) as [L _].
  assert (H' : hlist m h ((l1 ++ [x]) ++ n :: l2)) by (rewrite <- app_assoc; exact H). destruct (hlist_links _ _ _ _ _ H') as [_ P]. rewrite last_last in P.
  unfold dhlist_next_add, hlist_check_next_add, dhlist_prev_add, hlist_check_prev_add, ld. rewrite L, P. cbn [hd]. rewrite !Z.eqb_refl. auto.
Qed.
Theorem C110_hlist_del : forall m h l1 x l2, hlist m h (l1 ++ x :: l2) -> sclean (h :: l1 ++ x :: l2) ->
  exists m', dhlist_del m x = Some m' /\ hlist_del m x = Some m' /\ hlist m' h (l1 ++ l2) /\ dhlist_del m' x = Some m'.
Proof.
  intros m h l1 x l2 H (C1 & C2 & _). destruct (hlist_del_ok _ _ _ _ _ H) as (m' & E & H' & P1 & P2 & _). exists m'.
  destruct (hlist_links _ _ _ _ _ H) as [L P].
  split. { unfold dhlist_del, hlist_check_del, ld. rewrite L, P. unfold POISON_HLIST1, POISON_HLIST2.
    destruct (Z.eqb_spec (hd NULL l2) 0x120) as [K | _]. { exfalso. apply C1. destruct l2; [discriminate K|]. cbn in K. subst. cbn. rewrite in_app_iff. cbn; auto. }
    destruct (Z.eqb_spec (last l1 h) 0x130) as [K | _]; [|exact E]. exfalso. apply C2. rewrite <- K. pose proof (last_in l1 h) as B. cbn in *. rewrite in_app_iff. tauto. }
  split; [exact E|]. split; [exact H'|]. unfold dhlist_del, hlist_check_del, ld. rewrite P1. reflexivity.
Qed.

(** ** Concrete lists meeting the hypotheses *)
Example C110_list_case : (exists m', dlist_add demo 40 70 = Some m' /\ ring m' 10 [20; 30; 40; 70]) /\
  (exists m', dlist_del demo 30 = Some m' /\ ring m' 10 [20; 40] /\ dlist_del m' 30 = Some m') /\
  (exists m', dlist_swap demo 20 40 = Some m' /\ ring m' 10 [40; 30; 20]) /\
  dlist_move demo 40 20 = list_move demo 40 20 /\ dlist_add demo 20 30 = Some demo.
Proof.
  destruct C58_demo as (R & _ & N & I & _). assert (C : clean [10; 20; 30; 40]) by (split; cbn; lia).
  split; [destruct (C110_list_add demo 10 [20; 30; 40] [] 70 R N I) as [(m' & E & _ & R') _]; exists m'; auto|].
  split; [destruct (C110_list_del demo 10 [20] 30 [40] R C) as (m' & E & _ & R' & D); exists m'; auto|].
  split; [destruct (C110_list_swap demo 10 [] 20 [30] 40 [] R C) as [(m' & E & _ & R') _]; exists m'; auto|].
  split; [apply (C110_list_move demo 10 [] 20 [30; 40] 40 R C); cbn; auto|].
  exact (proj1 (C110_list_double_add demo 10 [20] [40] 30 R)).
Qed.
Example C110_damaged_case : dlist_add (upd demo 30 PREV 99) 20 70 = Some (upd demo 30 PREV 99).
Proof. apply (proj1 (C110_list_damaged (upd demo 30 PREV 99) 20 30 70 30 99 eq_refl eq_refl)); [reflexivity|discriminate]. Qed.
Example C110_hlist_case : (exists m', dslist_del 5 hdemo 10 30 = Some m' /\ dslist_del 0 m' 10 30 = Some m' /\ forall fuel, slist_del fuel m' 10 30 = None) /\
  (exists m', dhlist_del hdemo 30 = Some m' /\ dhlist_del m' 30 = Some m') /\ (exists m', dhlist_head_add hdemo 10 70 = Some m' /\ hlist m' 10 [70; 20; 30; 40]) /\
  dhlist_next_add hdemo 20 30 = Some hdemo /\ (exists m', dslist_add hdemo 20 70 = Some m' /\ slist m' 10 [20; 70; 30; 40]).
Proof.
  destruct C59_demo as (A & _ & B & C & D & E). assert (K : sclean [10; 20; 30; 40]) by (repeat split; cbn; lia). assert (K' : sclean [20; 30; 40]) by (repeat split; cbn; lia).
  split. { destruct (C110_slist_del hdemo 10 [20] 30 [40] 5 (hlist_slist _ _ _ A) K') as (m' & F & G & S & H); [cbn; lia|]. exists m'. split; [exact F|]. split; [apply H|].
    intros fuel. apply (C110_slist_plain_faults m' 10 [20; 40]); [exact S|cbn; lia|unfold NULL; lia|]. vm_compute in G. injection G as <-. reflexivity. }
  split; [destruct (C110_hlist_del hdemo 10 [20] 30 [40] A K) as (m' & F & _ & _ & G); exists m'; auto|].
  split; [destruct (C110_hlist_head_add hdemo 10 _ 70 A B C D E) as (m' & F & _ & G & _); exists m'; auto|].
  split; [exact (proj1 (C110_hlist_double_add hdemo 10 [] 20 30 [40] A))|].
  destruct (C110_slist_add hdemo 10 [20] [30; 40] 70 (hlist_slist _ _ _ A) B D E) as (m' & F & _ & G & _). exists m'. auto.
Qed.

Print Assumptions C110_list_add.
Print Assumptions C110_list_del.
Print Assumptions C110_list_move.
Print Assumptions C110_list_swap.
Print Assumptions C110_list_del_poisoned.
Print Assumptions C110_list_double_add.
Print Assumptions C110_list_damaged.
Print Assumptions C110_elsewhere_refuted.
Print Assumptions C110_slist_add.
Print Assumptions C110_slist_del.
Print Assumptions C110_slist_plain_faults.
Print Assumptions C110_hlist_head_add.
Print Assumptions C110_hlist_insert.
Print Assumptions C110_hlist_double_add.
Print Assumptions C110_hlist_del.
