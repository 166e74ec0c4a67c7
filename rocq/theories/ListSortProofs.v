(** * Bottom-up merge sort of linked lists *)
From Verif Require Import Lib Ptr ListModel ListSpec ListProofs ListProofs2 ListSortModel ListSortSpec.

(** ** Merging sequences *)
Section Merge.
Variable cmp : Z -> Z -> Z.
Fixpoint merge (l1 : list Z) : list Z -> list Z :=
  fix go l2 := match l1, l2 with
  | [], _ => l2
  | _, [] => l1
  | a :: r1, b :: r2 => if cmp a b <=? 0 then a :: merge r1 l2 else b :: go r2
  end.
Lemma merge_nil_l l : merge [] l = l.
Proof. destruct l; reflexivity. Qed.
Lemma merge_nil_r l : merge l [] = l.
Proof. destruct l; reflexivity. Qed.
Lemma merge_cons a r1 b r2 : merge (a :: r1) (b :: r2) = if cmp a b <=? 0 then a :: merge r1 (b :: r2) else b :: merge (a :: r1) r2.
Proof. reflexivity. Qed.
Lemma merge_perm l1 : forall l2, Permutation (l1 ++ l2) (merge l1 l2).
Proof.
  induction l1 as [|a l1 IH]; intros l2; [rewrite merge_nil_l; apply Permutation_refl|].
  induction l2 as [|b l2 IH2]; [rewrite merge_nil_r, app_nil_r; apply Permutation_refl|].
  rewrite merge_cons. destruct (cmp a b <=? 0).
  - cbn [app]. apply perm_skip, IH.
  - apply Permutation_trans with (b :: (a :: l1) ++ l2); [apply Permutation_sym, Permutation_middle|]. apply perm_skip, IH2.
Qed.
Hypothesis PO : preorder cmp.
Let refl a : cmp a a = 0.
Proof. destruct PO as [H _]. specialize (H a a). lia. Qed.
Let lt_ge a b : ~ cmp a b <= 0 -> cmp b a <= 0.
Proof. destruct PO as [H _]. specialize (H a b). lia. Qed.
Let trans a b c : cmp a b <= 0 -> cmp b c <= 0 -> cmp a c <= 0.
Proof. apply PO. Qed.
Lemma merge_asc l1 : forall l2, ascending cmp l1 -> ascending cmp l2 -> ascending cmp (merge l1 l2).
Proof.
  unfold ascending. induction l1 as [|a l1 IH]; intros l2 H1 H2; [rewrite merge_nil_l; exact H2|].
  induction l2 as [|b l2 IH2]; [rewrite merge_nil_r; exact H1|].
  rewrite merge_cons. destruct (Z.leb_spec (cmp a b) 0) as [L|L].
  - apply StronglySorted_inv in H1. destruct H1 as [H1 F1]. constructor; [apply IH; assumption|].
    apply (Permutation_Forall (merge_perm l1 (b :: l2))). apply Forall_app. split; [exact F1|].
    apply StronglySorted_inv in H2. destruct H2 as [_ F2]. constructor; [exact L|]. revert F2. apply Forall_impl. intros c. apply trans, L.
  - apply StronglySorted_inv in H2. destruct H2 as [H2 F2]. constructor; [apply IH2; assumption|].
    apply (Permutation_Forall (merge_perm (a :: l1) l2)). apply Forall_app. assert (L' : cmp b a <= 0) by (apply lt_ge; lia). split; [|exact F2].
    apply StronglySorted_inv in H1. destruct H1 as [_ F1]. constructor; [exact L'|]. revert F1. apply Forall_impl. intros c. apply trans, L'.
Qed.
Lemma filter_none {A} (f : A -> bool) l : Forall (fun x => f x = false) l -> filter f l = [].
Proof. induction 1 as [|x l H _ IH]; [reflexivity|]. cbn. rewrite H. exact IH. Qed.
Lemma merge_order l1 : forall l2, ascending cmp l1 -> forall k,
  filter (fun y => cmp k y =? 0) (merge l1 l2) = filter (fun y => cmp k y =? 0) (l1 ++ l2).
Proof.
  unfold ascending. induction l1 as [|a l1 IH]; intros l2 H1 k; [rewrite merge_nil_l; reflexivity|].
  induction l2 as [|b l2 IH2]; [rewrite merge_nil_r, app_nil_r; reflexivity|].
  rewrite merge_cons. destruct (Z.leb_spec (cmp a b) 0) as [L|L].
  - apply StronglySorted_inv in H1. destruct H1 as [H1 F1]. cbn [app filter]. rewrite IH by assumption. reflexivity.
  - cbn [filter]. rewrite IH2. destruct (Z.eqb_spec (cmp k b) 0) as [E|E].
    + (* nothing in l1 is equal to b *)
      rewrite !filter_app. cbn [filter]. assert (X : filter (fun y => cmp k y =? 0) (a :: l1) = []).
      { apply filter_none. pose proof PO as [Q _]. assert (G : forall c, cmp a c <= 0 -> (cmp k c =? 0) = false).
        { intros c Hc. apply Z.eqb_neq. intros Ek. assert (cmp a b <= 0); [|lia]. apply (trans a c b Hc). apply (trans c k b); [|lia].
          apply (Q k c). lia. }
        apply StronglySorted_inv in H1. destruct H1 as [_ F1]. constructor; [apply G; rewrite refl; lia|]. revert F1. apply Forall_impl. exact G. }
      cbn [filter] in X. rewrite X. rewrite (proj2 (Z.eqb_eq _ _) E). reflexivity.
    + rewrite !filter_app. cbn [filter]. rewrite (proj2 (Z.eqb_neq _ _) E). reflexivity.
Qed.
Lemma stable_merge s1 s2 l1 l2 : stable_sort cmp s1 l1 -> stable_sort cmp s2 l2 -> stable_sort cmp (s1 ++ s2) (merge l1 l2).
Proof.
  intros (A1 & P1 & O1) (A2 & P2 & O2). split; [apply merge_asc; assumption|]. split.
  - apply Permutation_trans with (l1 ++ l2); [apply Permutation_app; assumption|apply merge_perm].
  - intros k. rewrite merge_order by assumption. rewrite !filter_app, O1, O2. reflexivity.
Qed.
Lemma stable_single x : stable_sort cmp [x] [x].
Proof. split; [constructor; constructor|]. split; [apply Permutation_refl|]. intros k. reflexivity. Qed.
End Merge.
Lemma merge_len cmp l1 l2 : length (merge cmp l1 l2) = (length l1 + length l2)%nat.
Proof. rewrite <- (Permutation_length (merge_perm cmp l1 l2)). apply app_length. Qed.
Lemma merge_in cmp l1 l2 x : In x (merge cmp l1 l2) <-> In x l1 \/ In x l2.
Proof. rewrite <- in_app_iff. split; apply Permutation_in; [apply Permutation_sym|]; apply merge_perm. Qed.
Lemma merge_nodup cmp l1 l2 : NoDup (l1 ++ l2) -> NoDup (merge cmp l1 l2).
Proof. apply Permutation_NoDup, merge_perm. Qed.

(** ** Chains: NULL-terminated forward links *)
Fixpoint chain (m : mem) (p : Z) (l : list Z) : Prop :=
  match l with
  | [] => p = NULL
  | x :: r => p = x /\ x <> NULL /\ exists q, m x NEXT = Some q /\ chain m q r
  end.
Lemma chain_hd m p l : chain m p l -> p = hd NULL l.
Proof. destruct l; cbn; intros H; [exact H|apply H]. Qed.
Lemma chain_frame m m' l : forall p, (forall x, In x l -> m' x NEXT = m x NEXT) -> chain m p l -> chain m' p l.
Proof.
  induction l as [|x r IH]; intros p H C; cbn in *; [exact C|]. destruct C as (C1 & C2 & q & C3 & C4). split; [exact C1|]. split; [exact C2|].
  exists q. split; [rewrite H; auto|]. apply IH; auto.
Qed.
Lemma chain_cons m x y r : x <> NULL -> m x NEXT = Some y -> chain m y r -> chain m x (x :: r).
Proof. intros. cbn. split; [reflexivity|]. split; [assumption|]. exists y. auto. Qed.
Lemma chain_nz m p x r : chain m p (x :: r) -> x <> NULL.
Proof. cbn. tauto. Qed.
(** Only the [NEXT] links of the nodes [S] may differ. *)
Definition nframe (S : list Z) (m m' : mem) : Prop := forall q g, ~ In q S \/ g <> NEXT -> m' q g = m q g.
Definition topt (t : option Z) : list Z := match t with None => [] | Some p => [p] end.
Lemma nframe_upd m p v : nframe [p] m (upd m p NEXT v).
Proof. intros q g H. apply upd_other. destruct H as [H|H]; [left; intros ->; apply H; cbn; auto|right; exact H]. Qed.
Lemma nframe_refl m S : nframe S m m.
Proof. intros q g _. reflexivity. Qed.
Lemma nframe_incl S S' m m' : incl S S' -> nframe S m m' -> nframe S' m m'.
Proof. intros I F q g H. apply F. destruct H as [H|H]; [left; intros C; apply H, I, C|auto]. Qed.
Lemma nframe_trans S m1 m2 m3 : nframe S m1 m2 -> nframe S m2 m3 -> nframe S m1 m3.
Proof. intros F G q g H. rewrite (G q g H). apply F, H. Qed.
Definition present (m : mem) (x f : Z) : Prop := exists v, m x f = Some v.

Lemma tail_store_ok m first t v : (forall p, t = Some p -> present m p NEXT) ->
  exists m' f', tail_store m first t v = Some (m', f') /\ nframe (topt t) m m' /\ match t with None => f' = v | Some p => f' = first /\ m' p NEXT = Some v end.
Proof.
  intros H. destruct t as [p|]; cbn [tail_store topt].
  - destruct (H p eq_refl) as [x E]. rewrite (st_some _ _ _ _ x E). exists (upd m p NEXT v), first. split; [reflexivity|]. split; [apply nframe_upd|]. split; [reflexivity|apply upd_same].
  - exists m, v. split; [reflexivity|]. split; [apply nframe_refl|reflexivity].
Qed.
Lemma chain_present m p l x : chain m p l -> In x l -> present m x NEXT.
Proof.
  revert p. induction l as [|y r IH]; intros p H []; cbn in H; destruct H as (-> & _ & q & E & H).
  - subst. exists q. exact E.
  - eapply IH; eassumption.
Qed.
(** Advancing one operand of the merge loop. *)
Lemma merge_loop_ok cmp : forall fuel l1 l2 m first t a b, (length l1 + length l2 < fuel)%nat -> NoDup (topt t ++ (a :: l1) ++ b :: l2) ->
  (forall p, t = Some p -> present m p NEXT) -> chain m a (a :: l1) -> chain m b (b :: l2) ->
  exists m' f', list_merge_loop fuel cmp m first t a b = Some (m', f') /\ chain m' (hd NULL (merge cmp (a :: l1) (b :: l2))) (merge cmp (a :: l1) (b :: l2)) /\
  nframe (topt t ++ (a :: l1) ++ b :: l2) m m' /\
  match t with None => f' = hd NULL (merge cmp (a :: l1) (b :: l2)) | Some p => f' = first /\ m' p NEXT = Some (hd NULL (merge cmp (a :: l1) (b :: l2))) end.
Proof.
  induction fuel as [|fuel IH]; intros l1 l2 m first t a b Hf Hd Ht C1 C2; [lia|].
  assert (Dt : forall x, In x (topt t) -> In x ((a :: l1) ++ b :: l2) -> False) by (apply nodup_disj, Hd).
  pose proof (nodup_r _ _ Hd) as Hd2. pose proof (nodup_disj _ _ Hd2) as D12.
  pose proof (chain_nz _ _ _ _ C1) as Na. pose proof (chain_nz _ _ _ _ C2) as Nb.
  cbn [list_merge_loop]. rewrite merge_cons. destruct (cmp a b <=? 0) eqn:Ec; cbn [hd].
  - destruct (tail_store_ok m first t a Ht) as (m1 & f1 & E1 & F1 & V1). rewrite E1.
    assert (C1' : chain m1 a (a :: l1)) by (revert C1; apply chain_frame; intros x Hx; apply F1; left; intros C; apply (Dt x C); apply in_or_app; auto).
    assert (C2' : chain m1 b (b :: l2)) by (revert C2; apply chain_frame; intros x Hx; apply F1; left; intros C; apply (Dt x C); apply in_or_app; auto).
    destruct C1' as (_ & _ & q & Eq & C1'). unfold ld. rewrite Eq.
    assert (Pa : present m1 a NEXT) by (exists q; exact Eq).
    destruct l1 as [|a' l1].
    + cbn in C1'. subst q. rewrite Z.eqb_refl. rewrite merge_nil_l.
      destruct (tail_store_ok m1 f1 (Some a) b) as (m2 & f2 & E2 & F2 & V2 & W2); [intros p Hp; injection Hp as <-; exact Pa|]. rewrite E2.
      assert (C2'' : chain m2 b (b :: l2)).
      { revert C2'. apply chain_frame. intros x Hx. apply F2. left. intros [<-|[]]. apply (D12 a); cbn; auto. }
      exists m2, f2. split; [reflexivity|]. split; [apply (chain_cons _ _ b); assumption|]. split.
      * apply (nframe_trans _ m m1 m2); [revert F1|revert F2]; apply nframe_incl; intros x Hx; apply in_or_app; [auto|]. right. destruct Hx as [<-|[]]. cbn; auto.
      * subst f2. destruct t as [p|]; [|exact V1]. destruct V1 as [-> V1]. split; [reflexivity|]. rewrite F2; [exact V1|]. left. intros [<-|[]]. apply (Dt a); cbn; auto.
    + pose proof (chain_hd _ _ _ C1') as Hq. cbn [hd] in Hq. subst q. pose proof (chain_nz _ _ _ _ C1') as Na'.
      rewrite (proj2 (Z.eqb_neq _ _) Na').
      destruct (IH l1 l2 m1 f1 (Some a) a' b) as (m2 & f2 & E2 & G2 & F2 & V2 & W2).
      * cbn [length] in Hf. lia.
      * exact Hd2.
      * intros p Hp; injection Hp as <-; exact Pa.
      * exact C1'.
      * exact C2'.
      * rewrite E2. exists m2, f2. split; [reflexivity|]. split; [apply (chain_cons _ _ _ _ Na W2 G2)|]. split.
        -- apply (nframe_trans _ m m1 m2); [revert F1|revert F2]; apply nframe_incl; intros x Hx; apply in_or_app; [auto|right; exact Hx].
        -- subst f2. destruct t as [p|]; [|exact V1]. destruct V1 as [-> V1]. split; [reflexivity|]. rewrite F2; [exact V1|]. left. intros C. apply (Dt p); [cbn; auto|exact C].
  - destruct (tail_store_ok m first t b Ht) as (m1 & f1 & E1 & F1 & V1). rewrite E1.
    assert (C1' : chain m1 a (a :: l1)) by (revert C1; apply chain_frame; intros x Hx; apply F1; left; intros C; apply (Dt x C); apply in_or_app; auto).
    assert (C2' : chain m1 b (b :: l2)) by (revert C2; apply chain_frame; intros x Hx; apply F1; left; intros C; apply (Dt x C); apply in_or_app; auto).
    destruct C2' as (_ & _ & q & Eq & C2'). unfold ld. rewrite Eq.
    assert (Pb : present m1 b NEXT) by (exists q; exact Eq).
    destruct l2 as [|b' l2].
    + cbn in C2'. subst q. rewrite Z.eqb_refl. rewrite merge_nil_r.
      destruct (tail_store_ok m1 f1 (Some b) a) as (m2 & f2 & E2 & F2 & V2 & W2); [intros p Hp; injection Hp as <-; exact Pb|]. rewrite E2.
      assert (C1'' : chain m2 a (a :: l1)).
      { revert C1'. apply chain_frame. intros x Hx. apply F2. left. intros [<-|[]]. apply (D12 b); cbn; auto. }
      exists m2, f2. split; [reflexivity|]. split; [apply (chain_cons _ _ a); assumption|]. split.
      * apply (nframe_trans _ m m1 m2); [revert F1|revert F2]; apply nframe_incl; intros x Hx; apply in_or_app; [auto|]. right. destruct Hx as [<-|[]]. apply in_or_app. cbn; auto.
      * subst f2. destruct t as [p|]; [|exact V1]. destruct V1 as [-> V1]. split; [reflexivity|]. rewrite F2; [exact V1|]. left. intros [<-|[]]. apply (Dt b); [cbn; auto|apply in_or_app; cbn; auto].
    + pose proof (chain_hd _ _ _ C2') as Hq. cbn [hd] in Hq. subst q. pose proof (chain_nz _ _ _ _ C2') as Nb'.
      rewrite (proj2 (Z.eqb_neq _ _) Nb').
      destruct (IH l1 l2 m1 f1 (Some b) a b') as (m2 & f2 & E2 & G2 & F2 & V2 & W2).
      * cbn [length] in Hf. lia.
      * cbn [topt app]. apply (Permutation_NoDup (l := (a :: l1) ++ b :: b' :: l2)); [apply Permutation_sym, (Permutation_middle (a :: l1))|exact Hd2].
      * intros p Hp; injection Hp as <-; exact Pb.
      * exact C1'.
      * exact C2'.
      * rewrite E2. exists m2, f2. split; [reflexivity|]. split; [apply (chain_cons _ _ _ _ Nb W2 G2)|].
        assert (Hin : forall x, In x (topt (Some b) ++ (a :: l1) ++ b' :: l2) -> In x ((a :: l1) ++ b :: b' :: l2)).
        { intros x Hx. cbn [topt] in Hx. repeat (rewrite ?in_app_iff in *; cbn in * ). tauto. }
        split.
        -- apply (nframe_trans _ m m1 m2); [revert F1|revert F2]; apply nframe_incl; intros x Hx; apply in_or_app; [auto|right; apply Hin, Hx].
        -- subst f2. destruct t as [p|]; [|exact V1]. destruct V1 as [-> V1]. split; [reflexivity|]. rewrite F2; [exact V1|]. left. intros C. apply (Dt p); [cbn; auto|apply Hin, C].
Qed.
Lemma merge_ok cmp fuel l1 l2 m a b : (length l1 + length l2 < fuel)%nat -> NoDup ((a :: l1) ++ b :: l2) -> chain m a (a :: l1) -> chain m b (b :: l2) ->
  exists m' p, list_merge fuel cmp m a b = Some (m', p) /\ p = hd NULL (merge cmp (a :: l1) (b :: l2)) /\ chain m' p (merge cmp (a :: l1) (b :: l2)) /\ nframe ((a :: l1) ++ b :: l2) m m'.
Proof.
  intros Hf Hd C1 C2. destruct (merge_loop_ok cmp fuel l1 l2 m NULL None a b Hf Hd) as (m' & p & E & C & F & V); try assumption; [discriminate|].
  exists m', p. subst p. auto.
Qed.
