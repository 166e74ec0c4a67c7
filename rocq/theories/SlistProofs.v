(** * NULL-terminated lists *)
From Verif Require Import Lib Ptr ListProofs SlistModel SlistSpec.
From Coq Require Import Sorting.Permutation.

Lemma only_upd S m p f v : In p S -> only S m (upd m p f v).
Proof. intros H q g Hq. apply upd_other. left. intros ->. contradiction. Qed.
Lemma only_refl S m : only S m m.
Proof. intros q g _. reflexivity. Qed.
Lemma only_trans S m1 m2 m3 : only S m1 m2 -> only S m2 m3 -> only S m1 m3.
Proof. intros F G q g H. rewrite (G q g H). apply F, H. Qed.
Lemma only_incl S S' m m' : (forall x, In x S -> In x S') -> only S m m' -> only S' m m'.
Proof. intros I F q g H. apply F. intros C. apply H, I, C. Qed.
Lemma only_upd_trans S m m1 p f v : In p S -> only S m m1 -> only S m (upd m1 p f v).
Proof. intros H F. apply (only_trans _ _ m1); [exact F|apply only_upd, H]. Qed.

(** ** Singly linked *)
Fixpoint spairs (m : mem) (a : Z) (l : list Z) : Prop :=
  match l with [] => True | x :: r => m a LINK = Some x /\ x <> NULL /\ spairs m x r end.
Lemma spath_app m l2 : forall l1 a, spath m a (l1 ++ l2) <-> spairs m a l1 /\ spath m (last l1 a) l2.
Proof.
  induction l1 as [|x l1 IH]; intros a; [cbn; tauto|]. cbn [app spath spairs]. rewrite last_cons, IH. tauto.
Qed.
Lemma spairs_frame m m' : forall l a, (forall x, In x (removelast (a :: l)) -> m' x LINK = m x LINK) -> spairs m a l -> spairs m' a l.
Proof.
  induction l as [|x l IH]; intros a H P; [exact P|]. change (removelast (a :: x :: l)) with (a :: removelast (x :: l)) in H.
  cbn [spairs] in *. destruct P as (P1 & P2 & P3). split; [rewrite H; [exact P1|cbn; auto]|]. split; [exact P2|]. apply IH; [|exact P3]. intros y Hy. apply H. cbn; auto.
Qed.
Lemma spath_frame m m' : forall l a, (forall x, In x (a :: l) -> m' x LINK = m x LINK) -> spath m a l -> spath m' a l.
Proof.
  induction l as [|x l IH]; intros a H P; cbn [spath] in *; [rewrite H; [exact P|cbn; auto]|]. destruct P as (P1 & P2 & P3).
  split; [rewrite H; [exact P1|cbn; auto]|]. split; [exact P2|]. apply IH; [|exact P3]. intros y Hy. apply H. cbn in *; tauto.
Qed.
Lemma spath_link m a l : spath m a l -> m a LINK = Some (hd NULL l).
Proof. destruct l; cbn; tauto. Qed.
(** After the node [p] come the nodes [l]. *)
Definition srest (m : mem) (l : list Z) : Prop := match l with [] => True | y :: r => y <> NULL /\ spath m y r end.
Lemma spath_rest m p l : spath m p l <-> m p LINK = Some (hd NULL l) /\ srest m l.
Proof. destruct l; cbn; tauto. Qed.
Lemma srest_frame m m' l : (forall x, In x l -> m' x LINK = m x LINK) -> srest m l -> srest m' l.
Proof. destruct l as [|y r]; [auto|]. cbn [srest]. intros H [H1 H2]. split; [exact H1|]. revert H2. apply spath_frame. exact H. Qed.

Lemma slist_split m h l1 l2 : slist m h (l1 ++ l2) <-> NoDup ((h :: l1) ++ l2) /\ spairs m h l1 /\ m (last l1 h) LINK = Some (hd NULL l2) /\ srest m l2.
Proof. unfold slist. rewrite spath_app, spath_rest. reflexivity. Qed.
(** Redirecting the link behind the prefix [l1] to another continuation. *)
Lemma slist_redirect m m' h l1 l2 l3 : slist m h (l1 ++ l2) -> NoDup ((h :: l1) ++ l3) ->
  (forall x, In x (h :: l1) -> x <> last l1 h -> m' x LINK = m x LINK) -> m' (last l1 h) LINK = Some (hd NULL l3) -> srest m' l3 -> slist m' h (l1 ++ l3).
Proof.
  intros H Hd F L R. apply slist_split in H. destruct H as (Hd0 & S1 & _ & _). apply slist_split. split; [exact Hd|]. split; [|auto].
  revert S1. apply spairs_frame. intros x Hx. apply F; [apply removelast_in, Hx|]. intros ->. revert Hx. apply last_not_removelast. apply (nodup_l _ _ Hd0).
Qed.
Lemma slist_at_end m h l1 l2 : slist m h (l1 ++ l2) -> exists v, m (last l1 h) LINK = Some v.
Proof. intros H. apply slist_split in H. destruct H as (_ & _ & H & _). eauto. Qed.
Lemma slist_add_ok m h l1 l2 n : slist m h (l1 ++ l2) -> has m n LINK -> n <> NULL -> ~ In n (h :: l1 ++ l2) ->
  exists m', slist_add m (last l1 h) n = Some m' /\ slist m' h (l1 ++ n :: l2) /\ only [last l1 h; n] m m'.
Proof.
  intros H Hn Nz Ni. pose proof H as H0. apply slist_split in H0. destruct H0 as (Hd & S1 & S2 & S3). set (p := last l1 h) in *.
  pose proof (last_in l1 h) as Ip. fold p in Ip. pose proof (nodup_disj _ _ Hd) as D.
  assert (Np : n <> p) by (intros ->; apply Ni; change (h :: l1 ++ l2) with ((h :: l1) ++ l2); apply in_or_app; auto).
  unfold slist_add, ld. rewrite S2. rewrite (st_ex _ _ _ _ Hn). rewrite st_ex by (apply upd_ex; eauto).
  eexists. split; [reflexivity|]. split.
  - apply (slist_redirect m _ h l1 l2 (n :: l2) H).
    + apply (Permutation_NoDup (l := n :: (h :: l1) ++ l2)); [apply Permutation_middle|]. constructor; assumption.
    + intros x Hx Hp. rewrite upd_other by (left; exact Hp). apply upd_other. left. intros ->. apply Ni. change (h :: l1 ++ l2) with ((h :: l1) ++ l2). apply in_or_app; auto.
    + apply upd_same.
    + cbn [srest]. split; [exact Nz|]. apply spath_rest. split; [rewrite upd_other by (left; exact Np); apply upd_same|].
      revert S3. apply srest_frame. intros x Hx. rewrite !upd_other; [reflexivity|left; intros ->; apply Ni; right; apply in_or_app; auto|left; intros ->; apply (D p Ip Hx)].
  - apply only_upd_trans; [cbn; auto|]. apply only_upd. cbn; auto.
Qed.
Lemma slist_walk_ok m : forall l1 x fuel a, spairs m a l1 -> m (last l1 a) LINK = Some x -> ~ In x l1 -> (length l1 <= fuel)%nat ->
  slist_walk fuel m a x = Some (last l1 a).
Proof.
  induction l1 as [|y l1 IH]; intros x fuel a S L N F.
  - cbn [last] in *. destruct fuel; cbn [slist_walk]; unfold ld; rewrite L, Z.eqb_refl; reflexivity.
  - cbn [length] in F. destruct fuel as [|fuel]; [lia|]. cbn [spairs] in S. destruct S as (S1 & S2 & S3). cbn [slist_walk]. unfold ld. rewrite S1.
    destruct (Z.eqb_spec y x) as [->|Hx]; [exfalso; apply N; cbn; auto|]. rewrite last_cons in *. apply IH; auto; [|lia]. intros C. apply N. cbn; auto.
Qed.
Lemma slist_del_ok m h l1 x l2 fuel : slist m h (l1 ++ x :: l2) -> (length l1 <= fuel)%nat ->
  exists m', slist_del fuel m h x = Some m' /\ slist m' h (l1 ++ l2) /\ m' x LINK = Some POISON_SLIST /\ only [last l1 h; x] m m'.
Proof.
  intros H Hf. pose proof H as H0. apply slist_split in H0. destruct H0 as (Hd & S1 & S2 & S3). cbn [hd srest] in *. destruct S3 as [Nx S3].
  pose proof (nodup_disj _ _ Hd) as D. pose proof (last_in l1 h) as Ip. pose proof (nodup_r _ _ Hd) as Hd2.
  assert (Nxp : last l1 h <> x) by (intros E; apply (D x); [rewrite <- E; exact Ip|cbn; auto]).
  unfold slist_del. rewrite (slist_walk_ok m l1 x fuel h S1 S2); [|intros C; apply (D x); cbn; auto|exact Hf].
  unfold ld. apply spath_rest in S3. destruct S3 as [S4 S5]. rewrite S4. rewrite st_ex by eauto. rewrite st_ex by (apply upd_ex; eauto).
  eexists. split; [reflexivity|]. split; [|split].
  - apply (slist_redirect m _ h l1 (x :: l2) l2 H).
    + apply NoDup_remove_1 in Hd. exact Hd.
    + intros y Hy Hp. rewrite !upd_other; [reflexivity|left; exact Hp|left; intros ->; apply (D x Hy); cbn; auto].
    + rewrite upd_other by (left; exact Nxp). apply upd_same.
    + revert S5. apply srest_frame. intros y Hy. apply NoDup_cons_iff in Hd2. rewrite !upd_other; [reflexivity|left; intros ->; apply (D _ Ip); cbn; auto|left; intros ->; apply (proj1 Hd2 Hy)].
  - apply upd_same.
  - apply only_upd_trans; [cbn; auto|]. apply only_upd. cbn; auto.
Qed.
Lemma slist_replace_ok m h l1 x l2 n fuel : slist m h (l1 ++ x :: l2) -> (length l1 <= fuel)%nat -> has m n LINK -> n <> NULL -> ~ In n (h :: l1 ++ x :: l2) ->
  exists m', slist_replace fuel m h x n = Some m' /\ slist m' h (l1 ++ n :: l2) /\ m' x LINK = m x LINK /\ only [last l1 h; n] m m'.
Proof.
  intros H Hf Hn Nz Ni. pose proof H as H0. apply slist_split in H0. destruct H0 as (Hd & S1 & S2 & S3). cbn [hd srest] in *. destruct S3 as [Nx S3].
  pose proof (nodup_disj _ _ Hd) as D. pose proof (last_in l1 h) as Ip. pose proof (nodup_r _ _ Hd) as Hd2.
  assert (Nxp : last l1 h <> x) by (intros E; apply (D x); [rewrite <- E; exact Ip|cbn; auto]).
  assert (Nnx : n <> x) by (intros ->; apply Ni; right; apply in_or_app; cbn; auto).
  assert (Nnp : n <> last l1 h) by (intros E; apply Ni; rewrite E; change (h :: l1 ++ x :: l2) with ((h :: l1) ++ x :: l2); apply in_or_app; auto).
  unfold slist_replace. rewrite (slist_walk_ok m l1 x fuel h S1 S2); [|intros C; apply (D x); cbn; auto|exact Hf].
  rewrite st_ex by eauto. unfold ld. apply spath_rest in S3. destruct S3 as [S4 S5]. rewrite upd_other by (left; congruence). rewrite S4. rewrite st_ex by (apply upd_ex, Hn).
  eexists. split; [reflexivity|]. split; [|split].
  - apply (slist_redirect m _ h l1 (x :: l2) (n :: l2) H).
    + apply (Permutation_NoDup (l := n :: (h :: l1) ++ l2)); [apply Permutation_middle|]. constructor; [|apply NoDup_remove_1 in Hd; exact Hd].
      intros C. apply Ni. change (h :: l1 ++ x :: l2) with ((h :: l1) ++ x :: l2). rewrite in_app_iff in *. cbn in *. tauto.
    + intros y Hy Hp. rewrite !upd_other; [reflexivity|left; exact Hp|left; intros ->; apply Ni; change (h :: l1 ++ x :: l2) with ((h :: l1) ++ x :: l2); apply in_or_app; auto].
    + rewrite upd_other by (left; congruence). apply upd_same.
    + cbn [srest]. split; [exact Nz|]. apply spath_rest. split; [apply upd_same|]. revert S5. apply srest_frame. intros y Hy. rewrite !upd_other; [reflexivity| |].
      * left. intros ->. apply (D _ Ip). cbn; auto.
      * left. intros ->. apply Ni. right. apply in_or_app. cbn; auto.
  - rewrite !upd_other by (left; congruence). congruence.
  - apply only_upd_trans; [cbn; auto|]. apply only_upd. cbn; auto.
Qed.
Lemma each_from_ok m : forall l fuel, srest m l -> (length l <= fuel)%nat -> each_from fuel m (hd NULL l) = Some l.
Proof.
  induction l as [|x l IH]; intros fuel H F; [destruct fuel; reflexivity|]. cbn [length hd srest] in *. destruct fuel as [|fuel]; [lia|]. cbn [each_from].
  destruct H as [Nx H]. rewrite (proj2 (Z.eqb_neq _ _) Nx). unfold ld. apply spath_rest in H. destruct H as [H1 H2]. rewrite H1. rewrite IH; [reflexivity|exact H2|lia].
Qed.
Lemma slist_each m h l fuel : slist m h l -> (length l <= fuel)%nat -> each fuel m h = Some l.
Proof. intros [_ H] F. apply spath_rest in H. destruct H as [H1 H2]. unfold each, ld. rewrite H1. apply each_from_ok; assumption. Qed.
(** Removal during the traversal, for any representation predicate with the two facts below. *)
Section Safe.
Variable R : mem -> Z -> list Z -> Prop.
Variable rm : mem -> Z -> option mem.
Variable bound : nat.
Hypothesis R_next : forall m h l1 x l2, R m h (l1 ++ x :: l2) -> x <> NULL /\ m x LINK = Some (hd NULL l2).
Hypothesis R_head : forall m h l, R m h l -> m h LINK = Some (hd NULL l).
Variable h : Z.
Hypothesis R_rm : forall m l1 x l2, R m h (l1 ++ x :: l2) -> (length (l1 ++ x :: l2) <= bound)%nat -> exists m', rm m x = Some m' /\ R m' h (l1 ++ l2).
Lemma each_safe_from_ok drop : forall l2 l1 m fuel tmp, R m h (l1 ++ l2) -> (length (l1 ++ l2) <= bound)%nat -> (length l2 <= fuel)%nat ->
  (l2 <> [] -> m (hd NULL l2) LINK = Some tmp) ->
  exists m', each_safe_from fuel rm m drop (hd NULL l2) tmp = Some (l2, m') /\ R m' h (l1 ++ filter (fun x => negb (drop x)) l2).
Proof.
  induction l2 as [|x l2 IH]; intros l1 m fuel tmp H Hb Hf Ht.
  - exists m. split; [destruct fuel; reflexivity|exact H].
  - cbn [length hd filter] in *. destruct fuel as [|fuel]; [lia|]. destruct (R_next _ _ _ _ _ H) as [Nx Lx]. rewrite Lx in Ht. assert (tmp = hd NULL l2) by (specialize (Ht ltac:(discriminate)); congruence). subst tmp.
    cbn [each_safe_from]. rewrite (proj2 (Z.eqb_neq _ _) Nx).
    assert (Mid : exists m1 l1', (if drop x then rm m x else Some m) = Some m1 /\ R m1 h (l1' ++ l2) /\ (length (l1' ++ l2) <= bound)%nat /\
      l1' = l1 ++ (if negb (drop x) then [x] else [])).
    { destruct (drop x); cbn [negb].
      - destruct (R_rm m l1 x l2 H Hb) as (m1 & E1 & R1). exists m1, l1. rewrite app_nil_r. split; [exact E1|]. split; [exact R1|]. split; [|reflexivity]. rewrite app_length in *. cbn [length] in *. lia.
      - exists m, (l1 ++ [x]). split; [reflexivity|]. rewrite <- app_assoc. cbn [app]. split; [exact H|]. split; [exact Hb|reflexivity]. }
    destruct Mid as (m1 & l1' & -> & R1 & B1 & ->).
    set (l1' := l1 ++ (if negb (drop x) then [x] else [])) in *.
    destruct l2 as [|y l2].
    + cbn [hd]. rewrite Z.eqb_refl. destruct (IH l1' m1 fuel NULL R1 B1 ltac:(cbn; lia) ltac:(congruence)) as (m2 & E2 & R2). cbn [hd] in E2. rewrite E2. exists m2. split; [reflexivity|].
      cbn [filter] in *. unfold l1' in R2. destruct (negb (drop x)); rewrite ?app_nil_r in *; exact R2.
    + cbn [hd]. destruct (R_next _ _ _ _ _ R1) as [Ny Ly]. rewrite (proj2 (Z.eqb_neq _ _) Ny). unfold ld. rewrite Ly.
      destruct (IH l1' m1 fuel (hd NULL l2) R1 B1 ltac:(cbn in *; lia) ltac:(intros _; exact Ly)) as (m2 & E2 & R2). cbn [hd] in E2. rewrite E2. exists m2. split; [reflexivity|].
      unfold l1' in R2. destruct (negb (drop x)); rewrite <- ?app_assoc, ?app_nil_r in *; exact R2.
Qed.
Lemma each_safe_ok drop m l fuel t0 : R m h l -> (length l <= bound)%nat -> (length l <= fuel)%nat ->
  exists m', each_safe fuel rm m drop h t0 = Some (l, m') /\ R m' h (filter (fun x => negb (drop x)) l).
Proof.
  intros H Hb Hf. unfold each_safe, ld. rewrite (R_head _ _ _ H). destruct l as [|x l].
  - cbn [hd]. rewrite Z.eqb_refl. apply (each_safe_from_ok drop [] [] m fuel t0 H Hb Hf). congruence.
  - cbn [hd]. destruct (R_next _ _ [] _ _ H) as [Nx Lx]. rewrite (proj2 (Z.eqb_neq _ _) Nx), Lx. apply (each_safe_from_ok drop (x :: l) [] m fuel _ H Hb Hf). intros _. exact Lx.
Qed.
End Safe.

(** ** With back pointers *)
Fixpoint hpairs (m : mem) (a : Z) (l : list Z) : Prop :=
  match l with [] => True | x :: r => m a LINK = Some x /\ x <> NULL /\ m x PPREV = Some a /\ hpairs m x r end.
Lemma hpath_app m l2 : forall l1 a, hpath m a (l1 ++ l2) <-> hpairs m a l1 /\ hpath m (last l1 a) l2.
Proof. induction l1 as [|x l1 IH]; intros a; [cbn; tauto|]. cbn [app hpath hpairs]. rewrite last_cons, IH. tauto. Qed.
Lemma hpairs_frame m m' : forall l a, (forall x, In x (removelast (a :: l)) -> m' x LINK = m x LINK) -> (forall x, In x l -> m' x PPREV = m x PPREV) -> hpairs m a l -> hpairs m' a l.
Proof.
  induction l as [|x l IH]; intros a H K P; [exact P|]. change (removelast (a :: x :: l)) with (a :: removelast (x :: l)) in H.
  cbn [hpairs] in *. destruct P as (P1 & P2 & P3 & P4). split; [rewrite H; [exact P1|cbn; auto]|]. split; [exact P2|]. split; [rewrite K; [exact P3|cbn; auto]|].
  apply IH; [| |exact P4]; intros y Hy; [apply H|apply K]; cbn; auto.
Qed.
Lemma hpath_frame m m' : forall l a, (forall x, In x (a :: l) -> m' x LINK = m x LINK) -> (forall x, In x l -> m' x PPREV = m x PPREV) -> hpath m a l -> hpath m' a l.
Proof.
  induction l as [|x l IH]; intros a H K P; cbn [hpath] in *; [rewrite H; [exact P|cbn; auto]|]. destruct P as (P1 & P2 & P3 & P4).
  split; [rewrite H; [exact P1|cbn; auto]|]. split; [exact P2|]. split; [rewrite K; [exact P3|cbn; auto]|]. apply IH; [| |exact P4]; intros y Hy; [apply H|apply K]; cbn in *; tauto.
Qed.
Definition hrest (m : mem) (p : Z) (l : list Z) : Prop := match l with [] => True | y :: r => y <> NULL /\ m y PPREV = Some p /\ hpath m y r end.
Lemma hpath_rest m p l : hpath m p l <-> m p LINK = Some (hd NULL l) /\ hrest m p l.
Proof. destruct l; cbn; tauto. Qed.
Lemma hlist_split m h l1 l2 : hlist m h (l1 ++ l2) <-> NoDup ((h :: l1) ++ l2) /\ hpairs m h l1 /\ m (last l1 h) LINK = Some (hd NULL l2) /\ hrest m (last l1 h) l2.
Proof. unfold hlist. rewrite hpath_app, hpath_rest. reflexivity. Qed.
Lemma hlist_redirect m m' h l1 l2 l3 : hlist m h (l1 ++ l2) -> NoDup ((h :: l1) ++ l3) ->
  (forall x, In x (h :: l1) -> x <> last l1 h -> m' x LINK = m x LINK) -> (forall x, In x l1 -> m' x PPREV = m x PPREV) ->
  m' (last l1 h) LINK = Some (hd NULL l3) -> hrest m' (last l1 h) l3 -> hlist m' h (l1 ++ l3).
Proof.
  intros H Hd F G L R. apply hlist_split in H. destruct H as (Hd0 & S1 & _ & _). apply hlist_split. split; [exact Hd|]. split; [|auto].
  revert S1. apply hpairs_frame; [|exact G]. intros x Hx. apply F; [apply removelast_in, Hx|]. intros ->. revert Hx. apply last_not_removelast. apply (nodup_l _ _ Hd0).
Qed.
Lemma nodup_ins (a b : list Z) n : NoDup (a ++ b) -> ~ In n (a ++ b) -> NoDup (a ++ n :: b).
Proof. intros Hd Ni. apply (Permutation_NoDup (l := n :: a ++ b)); [apply Permutation_middle|]. constructor; assumption. Qed.
(** [next->pprev = p] when there is a next node. *)
Lemma set_back m l p : (hd NULL l <> NULL -> has m (hd NULL l) PPREV) -> exists m',
  (if hd NULL l =? NULL then Some m else st m (hd NULL l) PPREV p) = Some m' /\ (forall q g, (hd NULL l = NULL \/ q <> hd NULL l \/ g <> PPREV) -> m' q g = m q g) /\
  (hd NULL l <> NULL -> m' (hd NULL l) PPREV = Some p).
Proof.
  intros H. destruct (Z.eqb_spec (hd NULL l) NULL) as [E|E].
  - exists m. split; [reflexivity|]. split; [reflexivity|]. intros C. contradiction.
  - destruct (H E) as [v Hv]. rewrite (st_some _ _ _ _ v Hv). eexists. split; [reflexivity|]. split; [intros q g Hq; apply upd_other; tauto|]. intros _. apply upd_same.
Qed.
Lemma hrest_has m p l : hrest m p l -> hd NULL l <> NULL -> has m (hd NULL l) PPREV.
Proof. destruct l; cbn; [contradiction|]. intros (_ & H & _) _. exists p. exact H. Qed.
(** Relinking the continuation [l2] behind another node. *)
Lemma hrest_relink m m' p p' l2 : NoDup l2 -> hrest m p l2 -> (forall x, In x l2 -> m' x LINK = m x LINK) -> (forall x, In x (tl l2) -> m' x PPREV = m x PPREV) ->
  (l2 <> [] -> m' (hd NULL l2) PPREV = Some p') -> hrest m' p' l2.
Proof.
  destruct l2 as [|y r]; cbn [hrest hd tl]; [auto|]. intros Hd (H1 & H2 & H3) F G L. split; [exact H1|]. split; [apply L; discriminate|]. revert H3. apply hpath_frame; assumption.
Qed.
Lemma hd_in_nz (l : list Z) : hd NULL l <> NULL -> In (hd NULL l) l.
Proof. destruct l; cbn; auto. Qed.
Lemma hd_tl (l : list Z) x : NoDup l -> In x (tl l) -> x <> hd NULL l.
Proof. destruct l; cbn; [intros _ []|]. intros Hd Hx ->. inversion_clear Hd. contradiction. Qed.
Lemma tl_in (l : list Z) x : In x (tl l) -> In x l.
Proof. destruct l; cbn; auto. Qed.
Lemma hd_nz m p l : hrest m p l -> l <> [] -> hd NULL l <> NULL.
Proof. destruct l; cbn; [contradiction|]. tauto. Qed.
Lemma has_upd m p f v q g : has m q g -> has (upd m p f v) q g.
Proof. apply upd_ex. Qed.
Lemma hlist_head_add_ok m h l n : hlist m h l -> has m n LINK -> has m n PPREV -> n <> NULL -> ~ In n (h :: l) ->
  exists m', hlist_head_add m h n = Some m' /\ hlist m' h (n :: l) /\ only (h :: n :: l) m m'.
Proof.
  intros H Hn1 Hn2 Nz Ni. pose proof (proj1 (hlist_split m h [] l) H) as (Hd & _ & S2 & S3). cbn [last app] in *.
  apply NoDup_cons_iff in Hd as Hd'. destruct Hd' as [Hh Hdl].
  assert (Nnh : n <> h) by (intros ->; apply Ni; cbn; auto).
  assert (Nl : forall x, In x l -> x <> n /\ x <> h) by (intros x Hx; split; intros ->; [apply Ni; cbn; auto|contradiction]).
  unfold hlist_head_add, ld. rewrite S2. rewrite (st_ex _ _ _ _ Hn1). rewrite st_ex by (apply upd_ex, Hn2).
  set (m1 := upd (upd m n LINK (hd NULL l)) n PPREV h).
  assert (F1 : forall q g, q <> n -> m1 q g = m q g) by (intros; unfold m1; rewrite !upd_other by auto; reflexivity).
  assert (V1 : m1 n LINK = Some (hd NULL l) /\ m1 n PPREV = Some h) by (unfold m1; split; [rewrite upd_other by (right; discriminate); apply upd_same|apply upd_same]).
  rewrite F1 by congruence. rewrite S2.
  destruct (set_back m1 l n) as (m2 & E2 & F2 & V2).
  { intros C. destruct (hrest_has _ _ _ S3 C) as [v Hv]. exists v. rewrite F1; [exact Hv|]. apply Nl, hd_in_nz, C. }
  rewrite E2.
  assert (Gn : forall x g, ~ In x l -> m2 x g = m1 x g).
  { intros x g Hx. apply F2. destruct (Z.eq_dec (hd NULL l) NULL) as [|E]; [auto|]. right. left. intros ->. apply Hx, hd_in_nz, E. }
  assert (GL : forall x, m2 x LINK = m1 x LINK) by (intros x; apply F2; right; right; discriminate).
  rewrite st_ex by (rewrite GL, F1 by congruence; eauto). eexists. split; [reflexivity|].
  assert (Nln : ~ In n l) by (intros C; apply Ni; cbn; auto).
  split.
  - apply (hlist_split _ h [] (n :: l)). cbn [app last hd hpairs]. split; [constructor; [intros [C|C]; [congruence|contradiction]|constructor; assumption]|]. split; [exact I|]. split; [apply upd_same|].
    cbn [hrest]. split; [exact Nz|]. split; [rewrite upd_other by (right; discriminate); rewrite Gn by exact Nln; apply V1|].
    apply hpath_rest. split; [rewrite upd_other by (left; exact Nnh); rewrite GL; apply V1|].
    apply (hrest_relink m _ h n l Hdl S3).
    + intros x Hx. rewrite upd_other by (left; apply Nl, Hx). rewrite GL. apply F1, Nl, Hx.
    + intros x Hx. rewrite upd_other by (right; discriminate). rewrite F2 by (right; left; apply hd_tl; assumption). apply F1, Nl, tl_in, Hx.
    + intros Nn. rewrite upd_other by (right; discriminate). apply V2. apply (hd_nz _ _ _ S3 Nn).
  - intros q g Hq. rewrite upd_other by (left; intros ->; apply Hq; cbn; auto). rewrite Gn by (intros C; apply Hq; cbn; auto). apply F1. intros ->. apply Hq. cbn; auto.
Qed.
Lemma hlist_deluf_ok m h l1 x l2 : hlist m h (l1 ++ x :: l2) -> exists m', hlist_deluf m x = Some m' /\ hlist m' h (l1 ++ l2) /\
  m' x LINK = m x LINK /\ m' x PPREV = m x PPREV /\ only (last l1 h :: l2) m m'.
Proof.
  intros H. pose proof H as H0. apply hlist_split in H0. destruct H0 as (Hd & S1 & S2 & S3). cbn [hd hrest] in *. destruct S3 as (Nx & Px & S3).
  pose proof (nodup_disj _ _ Hd) as D. pose proof (last_in l1 h) as Ip. pose proof (nodup_r _ _ Hd) as Hd2. apply NoDup_cons_iff in Hd2. destruct Hd2 as [Dx Hd2].
  apply hpath_rest in S3. destruct S3 as [S4 S5]. set (p := last l1 h) in *.
  assert (Nxp : p <> x) by (intros E; apply (D x); [rewrite <- E; exact Ip|cbn; auto]).
  assert (Np2 : ~ In p l2) by (intros C; apply (D p Ip); cbn; auto).
  unfold hlist_deluf, ld. rewrite Px, S4.
  destruct (set_back m l2 p) as (m1 & E1 & F1 & V1); [intros C; apply (hrest_has _ _ _ S5 C)|]. rewrite E1.
  assert (GL : forall y, m1 y LINK = m y LINK) by (intros y; apply F1; right; right; discriminate).
  assert (Gn : forall y g, ~ In y l2 -> m1 y g = m y g).
  { intros y g Hy. apply F1. destruct (Z.eq_dec (hd NULL l2) NULL) as [|E]; [auto|]. right. left. intros ->. apply Hy, hd_in_nz, E. }
  rewrite st_ex by (rewrite GL; eauto). eexists. split; [reflexivity|]. split; [|split; [|split]].
  - apply (hlist_redirect m _ h l1 (x :: l2) l2 H).
    + apply NoDup_remove_1 in Hd. exact Hd.
    + intros y Hy Hp. rewrite upd_other by (left; exact Hp). apply GL.
    + intros y Hy. rewrite upd_other by (right; discriminate). apply Gn. intros C. apply (D y); cbn; auto.
    + apply upd_same.
    + fold p. apply (hrest_relink m _ x p l2 Hd2 S5).
      * intros y Hy. rewrite upd_other by (left; intros ->; contradiction). apply GL.
      * intros y Hy. rewrite upd_other by (right; discriminate). apply F1. right. left. apply hd_tl; assumption.
      * intros Nn. rewrite upd_other by (right; discriminate). apply V1, (hd_nz _ _ _ S5 Nn).
  - rewrite upd_other by (left; congruence). rewrite GL. congruence.
  - rewrite upd_other by (right; discriminate). rewrite Gn by exact Dx. congruence.
  - intros q g Hq. rewrite upd_other by (left; intros ->; apply Hq; cbn; auto). apply Gn. intros C. apply Hq. cbn; auto.
Qed.
Lemma hlist_node_in m h l1 x l2 : hlist m h (l1 ++ x :: l2) -> has m x LINK /\ has m x PPREV.
Proof. intros H. apply hlist_split in H. destruct H as (_ & _ & _ & H). cbn [hrest] in H. destruct H as (_ & H1 & H2). apply hpath_rest in H2. destruct H2 as [H2 _]. split; eexists; eassumption. Qed.
Lemma hlist_other m m' h l S : only S m m' -> (forall x, In x (h :: l) -> ~ In x S) -> hlist m h l -> hlist m' h l.
Proof. intros F N [Hd H]. split; [exact Hd|]. revert H. apply hpath_frame; intros x Hx; apply F, N; [exact Hx|cbn; auto]. Qed.
Lemma hlist_notin m h l1 x l2 : hlist m h (l1 ++ x :: l2) -> ~ In x (h :: l1 ++ l2).
Proof. intros [Hd _] C. change (h :: l1 ++ x :: l2) with ((h :: l1) ++ x :: l2) in Hd. apply NoDup_remove_2 in Hd. apply Hd. exact C. Qed.
Lemma hlist_del_ok m h l1 x l2 : hlist m h (l1 ++ x :: l2) -> exists m', hlist_del m x = Some m' /\ hlist m' h (l1 ++ l2) /\
  m' x LINK = Some POISON_HLIST1 /\ m' x PPREV = Some POISON_HLIST2 /\ only (last l1 h :: x :: l2) m m'.
Proof.
  intros H. destruct (hlist_deluf_ok _ _ _ _ _ H) as (m1 & E & R & G1 & G2 & F). destruct (hlist_node_in _ _ _ _ _ H) as [H1 H2].
  unfold hlist_del. rewrite E. rewrite st_ex by (rewrite G1; exact H1). rewrite st_ex by (apply upd_ex; rewrite G2; exact H2).
  eexists. split; [reflexivity|]. split; [|split; [|split]].
  - apply (hlist_other m1 _ h _ [x]); [|intros y Hy [<-|[]]; apply (hlist_notin _ _ _ _ _ H Hy)|exact R]. apply only_upd_trans; [cbn; auto|]. apply only_upd. cbn; auto.
  - rewrite upd_other by (right; discriminate). apply upd_same.
  - apply upd_same.
  - apply only_upd_trans; [cbn; auto|]. apply only_upd_trans; [cbn; auto|]. revert F. apply only_incl. intros y Hy. cbn in *. tauto.
Qed.
Lemma hlist_del_init_ok m h l1 x l2 : hlist m h (l1 ++ x :: l2) -> exists m', hlist_del_init m x = Some m' /\ hlist m' h (l1 ++ l2) /\
  hlist_check_unhashed m' x = Some true /\ m' x LINK = Some NULL /\ only (last l1 h :: x :: l2) m m'.
Proof.
  intros H. destruct (hlist_deluf_ok _ _ _ _ _ H) as (m1 & E & R & G1 & G2 & F). destruct (hlist_node_in _ _ _ _ _ H) as [H1 H2].
  unfold hlist_del_init, hlist_node_init. rewrite E. rewrite st_ex by (rewrite G2; exact H2). rewrite st_ex by (apply upd_ex; rewrite G1; exact H1).
  eexists. split; [reflexivity|]. split; [|split; [|split]].
  - apply (hlist_other m1 _ h _ [x]); [|intros y Hy [<-|[]]; apply (hlist_notin _ _ _ _ _ H Hy)|exact R]. apply only_upd_trans; [cbn; auto|]. apply only_upd. cbn; auto.
  - unfold hlist_check_unhashed, ld. rewrite upd_other by (right; discriminate). rewrite upd_same. reflexivity.
  - apply upd_same.
  - apply only_upd_trans; [cbn; auto|]. apply only_upd_trans; [cbn; auto|]. revert F. apply only_incl. intros y Hy. cbn in *. tauto.
Qed.
Lemma hlist_replace_ok m h l1 x l2 n : hlist m h (l1 ++ x :: l2) -> has m n LINK -> has m n PPREV -> n <> NULL -> ~ In n (h :: l1 ++ x :: l2) ->
  exists m', hlist_replace m x n = Some m' /\ hlist m' h (l1 ++ n :: l2) /\ m' x LINK = m x LINK /\ m' x PPREV = m x PPREV /\ only (last l1 h :: n :: l2) m m'.
Proof.
  intros H Hn1 Hn2 Nz Ni. pose proof H as H0. apply hlist_split in H0. destruct H0 as (Hd & S1 & S2 & S3). cbn [hd hrest] in *. destruct S3 as (Nx & Px & S3).
  pose proof (nodup_disj _ _ Hd) as D. pose proof (last_in l1 h) as Ip. pose proof (nodup_r _ _ Hd) as Hd2. apply NoDup_cons_iff in Hd2. destruct Hd2 as [Dx Hd2].
  apply hpath_rest in S3. destruct S3 as [S4 S5]. set (p := last l1 h) in *.
  change (h :: l1 ++ x :: l2) with ((h :: l1) ++ x :: l2) in Ni.
  assert (Nxp : p <> x) by (intros E; apply (D x); [rewrite <- E; exact Ip|cbn; auto]).
  assert (Np2 : ~ In p l2) by (intros C; apply (D p Ip); cbn; auto).
  assert (Nnx : n <> x) by (intros ->; apply Ni; apply in_or_app; cbn; auto).
  assert (Nnp : n <> p) by (intros E; apply Ni; rewrite E; apply in_or_app; auto).
  assert (Nn2 : ~ In n l2) by (intros C; apply Ni; apply in_or_app; cbn; auto).
  assert (Nn1 : ~ In n (h :: l1)) by (intros C; apply Ni; apply in_or_app; auto).
  unfold hlist_replace, ld. rewrite S4. rewrite (st_ex _ _ _ _ Hn1). rewrite (upd_other m n LINK _ x PPREV) by (right; discriminate). rewrite Px.
  rewrite st_ex by (apply upd_ex, Hn2). set (m1 := upd (upd m n LINK (hd NULL l2)) n PPREV p).
  assert (F1 : forall q g, q <> n -> m1 q g = m q g) by (intros; unfold m1; rewrite !upd_other by auto; reflexivity).
  assert (V1 : m1 n LINK = Some (hd NULL l2) /\ m1 n PPREV = Some p) by (unfold m1; split; [rewrite upd_other by (right; discriminate); apply upd_same|apply upd_same]).
  rewrite (proj1 V1).
  assert (Nl : forall y, In y l2 -> y <> n) by (intros y Hy ->; contradiction).
  destruct (set_back m1 l2 n) as (m2 & E2 & F2 & V2).
  { intros C. destruct (hrest_has _ _ _ S5 C) as [v Hv]. exists v. rewrite F1; [exact Hv|]. apply Nl, hd_in_nz, C. }
  rewrite E2.
  assert (GL : forall y, m2 y LINK = m1 y LINK) by (intros y; apply F2; right; right; discriminate).
  assert (Gn : forall y g, ~ In y l2 -> m2 y g = m1 y g).
  { intros y g Hy. apply F2. destruct (Z.eq_dec (hd NULL l2) NULL) as [|E]; [auto|]. right. left. intros ->. apply Hy, hd_in_nz, E. }
  rewrite Gn by exact Nn2. rewrite (proj2 V1). rewrite st_ex by (rewrite GL, F1 by congruence; eauto).
  eexists. split; [reflexivity|]. split; [|split; [|split]].
  - apply (hlist_redirect m _ h l1 (x :: l2) (n :: l2) H).
    + apply nodup_ins; [apply NoDup_remove_1 in Hd; exact Hd|]. intros C. apply Ni. rewrite in_app_iff in *. cbn in *. tauto.
    + intros y Hy Hp. rewrite upd_other by (left; exact Hp). rewrite GL. apply F1. intros ->. contradiction.
    + intros y Hy. rewrite upd_other by (right; discriminate). rewrite Gn by (intros C; apply (D y); cbn; auto). apply F1. intros ->. apply Nn1. cbn; auto.
    + apply upd_same.
    + fold p. cbn [hrest]. split; [exact Nz|]. split; [rewrite upd_other by (right; discriminate); rewrite Gn by exact Nn2; apply V1|].
      apply hpath_rest. split; [rewrite upd_other by (left; exact Nnp); rewrite GL; apply V1|].
      apply (hrest_relink m _ x n l2 Hd2 S5).
      * intros y Hy. rewrite upd_other by (left; intros ->; contradiction). rewrite GL. apply F1, Nl, Hy.
      * intros y Hy. rewrite upd_other by (right; discriminate). rewrite F2 by (right; left; apply hd_tl; assumption). apply F1, Nl, tl_in, Hy.
      * intros Nn. rewrite upd_other by (right; discriminate). apply V2, (hd_nz _ _ _ S5 Nn).
  - rewrite upd_other by (left; congruence). rewrite GL, F1 by congruence. congruence.
  - rewrite upd_other by (right; discriminate). rewrite Gn by exact Dx. rewrite F1 by congruence. congruence.
  - intros q g Hq. rewrite upd_other by (left; intros ->; apply Hq; cbn; auto). rewrite Gn by (intros C; apply Hq; cbn; auto). apply F1. intros ->. apply Hq. cbn; auto.
Qed.
Lemma hlist_head_replace_ok m h l k : hlist m h l -> has m k LINK -> ~ In k (h :: l) ->
  exists m', hlist_head_replace m h k = Some m' /\ hlist m' k l /\ hlist m' h [] /\ only (h :: k :: l) m m'.
Proof.
  intros H Hk Nk. pose proof (proj1 (hlist_split m h [] l) H) as (Hd & _ & S2 & S3). cbn [last app] in *.
  apply NoDup_cons_iff in Hd. destruct Hd as [Hh Hdl].
  assert (Nkh : k <> h) by (intros ->; apply Nk; cbn; auto). assert (Nkl : ~ In k l) by (intros C; apply Nk; cbn; auto).
  unfold hlist_head_replace, ld. rewrite S2. rewrite (st_ex _ _ _ _ Hk). rewrite st_ex by (apply upd_ex; eauto).
  set (m1 := upd (upd m k LINK (hd NULL l)) h LINK NULL).
  assert (F1 : forall q g, (q <> k /\ q <> h) \/ g <> LINK -> m1 q g = m q g) by (intros; unfold m1; rewrite !upd_other by tauto; reflexivity).
  assert (V1 : m1 k LINK = Some (hd NULL l) /\ m1 h LINK = Some NULL) by (unfold m1; split; [rewrite upd_other by (left; exact Nkh); apply upd_same|apply upd_same]).
  rewrite (proj1 V1).
  assert (Nl : forall y, In y l -> y <> k /\ y <> h) by (intros y Hy; split; intros ->; contradiction).
  destruct (set_back m1 l k) as (m2 & E2 & F2 & V2).
  { intros C. destruct (hrest_has _ _ _ S3 C) as [v Hv]. exists v. rewrite F1; [exact Hv|]. right. discriminate. }
  rewrite E2. exists m2. split; [reflexivity|].
  assert (GL : forall y, m2 y LINK = m1 y LINK) by (intros y; apply F2; right; right; discriminate).
  assert (Gn : forall y g, ~ In y l -> m2 y g = m1 y g).
  { intros y g Hy. apply F2. destruct (Z.eq_dec (hd NULL l) NULL) as [|E]; [auto|]. right. left. intros ->. apply Hy, hd_in_nz, E. }
  split; [|split].
  - split; [constructor; assumption|]. apply hpath_rest. split; [rewrite GL; apply V1|]. apply (hrest_relink m _ h k l Hdl S3).
    + intros y Hy. rewrite GL. apply F1. left. apply Nl, Hy.
    + intros y Hy. rewrite F2 by (right; left; apply hd_tl; assumption). apply F1. right. discriminate.
    + intros Nn. apply V2, (hd_nz _ _ _ S3 Nn).
  - split; [constructor; [intros []|constructor]|]. cbn [hpath]. rewrite GL. apply V1.
  - intros q g Hq. rewrite Gn by (intros C; apply Hq; cbn; auto). apply F1. left. split; intros ->; apply Hq; cbn; auto.
Qed.
(** Adding behind the last node, where the code is right. *)
Lemma hlist_next_add_end m h l1 x n : hlist m h (l1 ++ [x]) -> has m n LINK -> has m n PPREV -> n <> NULL -> ~ In n (h :: l1 ++ [x]) ->
  exists m', hlist_next_add m x n = Some m' /\ hlist m' h (l1 ++ [x; n]) /\ only [x; n] m m'.
Proof.
  intros H Hn1 Hn2 Nz Ni. pose proof H as H0. apply hlist_split in H0. destruct H0 as (Hd & S1 & S2 & S3). cbn [hd hrest hpath] in *. destruct S3 as (Nx & Px & S3).
  assert (Nnx : n <> x) by (intros ->; apply Ni; right; apply in_or_app; cbn; auto).
  unfold hlist_next_add, ld. rewrite (st_ex _ _ _ _ Hn2). rewrite (upd_other m n PPREV x x LINK) by (right; discriminate). rewrite S3. rewrite st_ex by (apply upd_ex, Hn1).
  rewrite upd_same. change (NULL =? NULL) with true. cbv iota. rewrite st_ex by (repeat apply upd_ex; eauto). eexists. split; [reflexivity|]. split.
  - replace (l1 ++ [x; n]) with ((l1 ++ [x]) ++ [n]) by (rewrite <- app_assoc; reflexivity).
    apply (hlist_redirect m _ h (l1 ++ [x]) [] [n]).
    + rewrite app_nil_r. exact H.
    + change ((h :: l1 ++ [x]) ++ [n]) with (((h :: l1 ++ [x])) ++ n :: []). apply nodup_ins; rewrite app_nil_r; [exact Hd|exact Ni].
    + intros y Hy Hp. rewrite last_snoc in Hp. rewrite !upd_other; [reflexivity| | |]; left; try assumption; intros ->; contradiction.
    + intros y Hy. rewrite !upd_other; [reflexivity|left; intros ->; apply Ni; cbn; auto|right; discriminate|right; discriminate].
    + rewrite last_snoc. apply upd_same.
    + rewrite last_snoc. cbn [hrest hpath]. split; [exact Nz|]. split; [rewrite !upd_other by (right; discriminate); apply upd_same|]. rewrite upd_other by (left; exact Nnx). apply upd_same.
  - do 3 (apply only_upd_trans; [cbn; auto|]). apply only_refl.
Qed.
Lemma hlist_spath m : forall l a, hpath m a l -> spath m a l.
Proof. induction l as [|x l IH]; intros a H; cbn in *; [exact H|]. destruct H as (H1 & H2 & _ & H3). auto. Qed.
Lemma hlist_slist m h l : hlist m h l -> slist m h l.
Proof. intros [Hd H]. split; [exact Hd|apply hlist_spath, H]. Qed.
Lemma slist_next m h l1 x l2 : slist m h (l1 ++ x :: l2) -> x <> NULL /\ m x LINK = Some (hd NULL l2).
Proof. intros H. apply slist_split in H. destruct H as (_ & _ & _ & H). cbn [srest] in H. destruct H as [H1 H2]. split; [exact H1|]. apply spath_link, H2. Qed.
