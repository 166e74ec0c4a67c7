(** * Binary heaps: fixup and erase restore the order *)
From Coq Require Import Sorting.Permutation.
From Verif Require Import Lib Ptr Tree RbProofs RbInsert RbFrame HeapModel HeapProofs HeapSpec HeapPath.

Section Ops.
Variable cmp : Z -> Z -> Z.
Hypothesis HC : preorder_cmp cmp.
Variable rt : Z.
Notation tree_at := (tree_at U rt).

Definition below (a : Z) (X : list Z) : Prop := forall y, In y X -> cmp a y <= 0.
Fixpoint hp (t : utree) : Prop := match t with E => True | T _ l a r => below a (inorder l ++ inorder r) /\ hp l /\ hp r end.
(** Every node on the path is before everything below it; [X] is what hangs at the end of the path. *)
Fixpoint hk (k : uctx) (X : list Z) : Prop := match k with [] => True | F _ _ a s :: k => below a (inorder s ++ X) /\ hp s /\ hk k (a :: inorder s ++ X) end.
Lemma cmp_total x y : cmp x y <= 0 \/ cmp y x < 0.
Proof. destruct HC as [H _]. destruct (Z_le_gt_dec (cmp x y) 0); [left; assumption|right]. apply H. lia. Qed.
Lemma cmp_flip x y : cmp x y >= 0 -> cmp y x <= 0.
Proof. destruct HC as [H _]. intros H1. destruct (Z_le_gt_dec (cmp y x) 0) as [H2|H2]; [exact H2|]. apply H in H2. lia. Qed.
Lemma cmp_trans x y z : cmp x y <= 0 -> cmp y z <= 0 -> cmp x z <= 0.
Proof. apply HC. Qed.
Lemma cmp_refl x : cmp x x <= 0.
Proof. destruct (cmp_total x x) as [H|H]; lia. Qed.
Lemma below_incl a X Y : incl X Y -> below a Y -> below a X.
Proof. intros H1 H2 y Hy. apply H2, H1, Hy. Qed.
Lemma below_trans a b X : cmp a b <= 0 -> below b X -> below a X.
Proof. intros H1 H2 y Hy. apply (cmp_trans a b y H1), H2, Hy. Qed.
Lemma hk_incl k : forall X Y, incl X Y -> hk k Y -> hk k X.
Proof.
  induction k as [|[d x a s] k IH]; intros X Y HI; cbn [hk]; [auto|]. intros (H1 & H2 & H3). assert (I1 : incl (inorder s ++ X) (inorder s ++ Y)) by (apply incl_app; [apply incl_appl, incl_refl|apply incl_appr, HI]).
  repeat split; [apply (below_incl a _ _ I1 H1)|exact H2|]. revert H3. apply IH. intros y [<-|Hy]; [left; reflexivity|right; apply I1, Hy].
Qed.
(** All ancestors are before anything that the last of them is before. *)
Lemma hk_add k : forall X n, match k with [] => True | F _ _ a _ :: _ => cmp a n <= 0 end -> hk k X -> hk k (n :: X).
Proof.
  induction k as [|[d x a s] k IH]; intros X n Hn; cbn [hk]; [auto|]. intros (H1 & H2 & H3). repeat split; [|exact H2|].
  - intros y Hy. apply in_app_or in Hy. destruct Hy as [Hy|[<-|Hy]]; [apply H1, in_or_app; left; exact Hy|exact Hn|apply H1, in_or_app; right; exact Hy].
  - apply (hk_incl k _ (n :: a :: inorder s ++ X)).
    + intros y [<-|Hy]; [right; left; reflexivity|]. apply in_app_or in Hy. destruct Hy as [Hy|[<-|Hy]]; [right; right; apply in_or_app; tauto|left; reflexivity|right; right; apply in_or_app; tauto].
    + apply IH; [|exact H3]. destruct k as [|[d' x' a' s'] k]; [exact I|]. cbn [hk] in H3. destruct H3 as (H3 & _). apply (cmp_trans a' a n); [|exact Hn]. apply H3, in_or_app. right. left. reflexivity.
Qed.
Lemma hp_plug k : forall t, hp (plug k t) <-> hp t /\ hk k (inorder t).
Proof.
  induction k as [|[d x a s] k IH]; intros t; cbn [plug hk]; [tauto|]. rewrite IH. destruct d; cbn [up hp inorder].
  - split.
    + intros ((H1 & H2 & H3) & H4). repeat split; try assumption; [intros y Hy; apply H1; apply in_app_or in Hy; apply in_or_app; tauto|]. revert H4. apply hk_incl. intros y [<-|Hy]; [apply in_or_app; right; left; reflexivity|]. apply in_app_or in Hy. apply in_or_app. cbn [In]. tauto.
    + intros (H1 & H2 & H3 & H4). repeat split; try assumption; [intros y Hy; apply H2; apply in_app_or in Hy; apply in_or_app; tauto|]. revert H4. apply hk_incl. intros y Hy. apply in_app_or in Hy. cbn [In] in *. rewrite in_app_iff. tauto.
  - split.
    + intros ((H1 & H2 & H3) & H4). repeat split; try assumption. revert H4. apply hk_incl. intros y [<-|Hy]; [apply in_or_app; right; left; reflexivity|]. apply in_app_or in Hy. apply in_or_app. cbn [In]. tauto.
    + intros (H1 & H2 & H3 & H4). repeat split; try assumption. revert H4. apply hk_incl. intros y Hy. apply in_app_or in Hy. cbn [In] in *. rewrite in_app_iff. tauto.
Qed.
Lemma cnt_perm (t t' : utree) : (forall z, cnt z t = cnt z t') -> Permutation (inorder t) (inorder t').
Proof. intros H. apply (Permutation_count_occ Z.eq_dec). intros z. rewrite <- !cnt_inorder. apply H. Qed.
(** What rebalancing does: the same places, the same nodes. *)
Definition moved (t t' : utree) : Prop := (forall q, occ t' q <-> occ t q) /\ Permutation (inorder t) (inorder t').
Lemma moved_refl t : moved t t.
Proof. split; [tauto|apply Permutation_refl]. Qed.
Lemma moved_trans t1 t2 t3 : moved t1 t2 -> moved t2 t3 -> moved t1 t3.
Proof. intros [A B] [C D]. split; [intros q; rewrite C; apply A|eapply Permutation_trans; eassumption]. Qed.
Definition swapped (d : dir) (x y : unit) l n r a s : utree := match d with L => T y (T x l a r) n s | R => T y s n (T x l a r) end.
Lemma moved_swap (k : uctx) d x y l n r a s : moved (plug (F d x a s :: k) (T y l n r)) (plug k (swapped d x y l n r a s)).
Proof.
  cbn [plug]. split.
  - apply occ_plug. intros q. destruct d; cbn [up swapped]; destruct q as [|[|] [|[|] q]]; unfold occ; cbn [at_path]; split; intros H; exact H || discriminate.
  - apply cnt_perm. intros z. rewrite !cnt_plug. destruct d; cbn [up swapped cnt]; lia.
Qed.
Lemma swap_ok m (k : uctx) d x y l n r a s : tree_at m (plug (F d x a s :: k) (T y l n r)) ->
  exists m', parent_swap m rt a n = Some m' /\ tree_at m' (plug k (swapped d x y l n r a s)) /\ m' rt COUNT = m rt COUNT.
Proof. destruct d; [apply swap_l|apply swap_r]. Qed.
Lemma hp_below t a : hp t -> In a (inorder t) -> t <> E -> cmp (addr t) a <= 0.
Proof.
  destruct t as [|x l b r]; [congruence|]. cbn [hp inorder addr]. intros (H1 & _) Ha _. apply in_app_or in Ha. destruct Ha as [Ha|[<-|Ha]]; [|apply cmp_refl|]; apply H1, in_or_app; tauto.
Qed.

Theorem fixup_ok fuel : forall m (k : uctx) y l n r, (length k < fuel)%nat -> tree_at m (plug k (T y l n r)) -> hp (T y l n r) -> hk k (inorder l ++ inorder r) ->
  exists m' t', hp_fixup cmp fuel m rt n = Some m' /\ tree_at m' t' /\ hp t' /\ moved (plug k (T y l n r)) t' /\ m' rt COUNT = m rt COUNT.
Proof.
  induction fuel as [|fuel IH]; intros m k y l n r Hf HT Hn Hk; [lia|]. cbn [hp_fixup]. pose proof HT as HF. apply tree_at_focus in HF. destruct HF as (Hc & Hr & D). cbn [Tree.rep] in Hr. destruct Hr as (R1 & _). unfold ld. rewrite R1.
  assert (Done : match k with [] => True | F _ _ a _ :: _ => cmp a n <= 0 end -> hp (plug k (T y l n r))).
  { intros H. apply hp_plug. split; [exact Hn|]. apply (hk_incl k _ (n :: inorder l ++ inorder r)); [|apply hk_add; assumption]. intros z Hz. cbn [inorder] in Hz. apply in_app_or in Hz. cbn [In] in *. rewrite in_app_iff. tauto. }
  destruct k as [|[d x a s] k]; cbn [cpar].
  - change (0 =? NULL) with true. cbn iota. exists m, (T y l n r). conj; try assumption; try reflexivity; apply moved_refl.
  - assert (Na : a <> NULL) by (intros ->; specialize (D 0); cbn [cntk] in D; unfold NULL in D; rewrite !ind_refl in D; lia). rewrite (proj2 (Z.eqb_neq _ _) Na). rewrite Z.geb_leb. destruct (Z.leb_spec 0 (cmp n a)) as [B|B].
    + exists m, (plug (F d x a s :: k) (T y l n r)). conj; try assumption; try reflexivity; [|apply moved_refl]. apply Done, cmp_flip. lia.
    + destruct (swap_ok m k d x y l n r a s HT) as (m1 & E1 & T1 & C1). rewrite E1. cbn [hk] in Hk. destruct Hk as (K1 & K2 & K3). cbn [hp] in Hn. destruct Hn as (Hn1 & Hn2 & Hn3).
      assert (Ha : hp (T x l a r)). { cbn [hp]. conj; try assumption. intros z Hz. apply K1, in_or_app. right. exact Hz. }
      assert (Hna : below n (a :: inorder s ++ inorder l ++ inorder r)).
      { intros z [<-|Hz]; [lia|]. apply (cmp_trans n a z); [lia|]. apply K1, Hz. }
      destruct d; cbn [swapped] in T1; cbn [length] in Hf.
      * destruct (IH m1 k y (T x l a r) n s) as (m' & t' & A1 & A2 & A3 & A4 & A5); [lia|exact T1| | |].
        -- cbn [hp]. split; [|split; [exact Ha|exact K2]]. intros z Hz. apply Hna. cbn [inorder] in Hz. rewrite !in_app_iff in Hz. cbn [In] in *. rewrite !in_app_iff. tauto.
        -- revert K3. apply hk_incl. intros z Hz. cbn [inorder] in Hz. rewrite !in_app_iff in Hz. cbn [In] in *. rewrite !in_app_iff. tauto.
        -- exists m', t'. conj; try assumption; [|congruence]. apply (moved_trans _ _ _ (moved_swap k L x y l n r a s) A4).
      * destruct (IH m1 k y s n (T x l a r)) as (m' & t' & A1 & A2 & A3 & A4 & A5); [lia|exact T1| | |].
        -- cbn [hp]. split; [|split; [exact K2|exact Ha]]. intros z Hz. apply Hna. cbn [inorder] in Hz. rewrite !in_app_iff in Hz. cbn [In] in *. rewrite !in_app_iff in *. cbn [In] in *. tauto.
        -- revert K3. apply hk_incl. intros z Hz. cbn [inorder] in Hz. rewrite !in_app_iff in Hz. cbn [In] in *. rewrite !in_app_iff in *. cbn [In] in *. tauto.
        -- exists m', t'. conj; try assumption; [|congruence]. apply (moved_trans _ _ _ (moved_swap k R x y l n r a s) A4).
Qed.

Theorem sink_ok fuel : forall m (k : uctx) x l n r, (size (T x l n r) <= fuel)%nat -> tree_at m (plug k (T x l n r)) -> lefty (T x l n r) -> hp l -> hp r -> hk k (n :: inorder l ++ inorder r) ->
  exists m' t', hp_sink cmp fuel m rt n = Some m' /\ tree_at m' t' /\ hp t' /\ moved (plug k (T x l n r)) t' /\ m' rt COUNT = m rt COUNT.
Proof.
  induction fuel as [|fuel IH]; intros m k x l n r Hf HT HL Hl Hr Hk; [cbn [size] in Hf; lia|]. cbn [hp_sink size] in *. pose proof HT as HF. apply tree_at_focus in HF. destruct HF as (Hc & Hrep & D). cbn [Tree.rep] in Hrep. destruct Hrep as (R1 & R2 & R3 & _). unfold ld. rewrite R2, R3.
  assert (Done : below n (inorder l ++ inorder r) -> hp (plug k (T x l n r))).
  { intros H. apply hp_plug. split; [cbn [hp]; conj; assumption|]. revert Hk. apply hk_incl. intros z Hz. cbn [inorder] in Hz. apply in_app_or in Hz. cbn [In] in *. rewrite in_app_iff. tauto. }
  assert (Dl : apart rt (F L x n r :: k) l) by (intros z; specialize (D z); cbn [cntk cnt] in *; lia). assert (Dr : apart rt (F R x n l :: k) r) by (intros z; specialize (D z); cbn [cntk cnt] in *; lia).
  rewrite (uaddr_null rt _ l Dl), (uaddr_null rt _ r Dr). destruct HL as (HL & Ll & Lr).
  assert (Step : forall d s (u : utree), u <> E -> (d = L /\ u = l /\ s = r \/ d = R /\ u = r /\ s = l) -> (s = E \/ cmp (addr u) (addr s) <= 0) ->
    exists m' t', (if addr u =? NULL then None else if cmp n (addr u) <? 0 then Some m else let* m := parent_swap m rt n (addr u) in hp_sink cmp fuel m rt n) = Some m' /\ tree_at m' t' /\ hp t' /\ moved (plug k (T x l n r)) t' /\ m' rt COUNT = m rt COUNT).
  { intros d s u Nu Hd Hle. destruct u as [|y ul c ur]; [congruence|]. cbn [addr] in *.
    assert (Nc : (c =? NULL) = false). { destruct Hd as [(_ & <- & _)|(_ & <- & _)]; [apply (uaddr_null rt _ _ Dl)|apply (uaddr_null rt _ _ Dr)]. } rewrite Nc.
    assert (Hu : hp (T y ul c ur)) by (destruct Hd as [(_ & -> & _)|(_ & -> & _)]; assumption). assert (Hs : hp s) by (destruct Hd as [(_ & _ & ->)|(_ & _ & ->)]; assumption).
    assert (Hcs : below c (inorder s)). { destruct s as [|z sl b sr]; [intros w []|]. destruct Hle as [Hle|Hle]; [discriminate|]. cbn [addr] in Hle. intros w Hw. apply (cmp_trans c b w Hle). apply (hp_below (T z sl b sr)); [exact Hs|exact Hw|discriminate]. }
    assert (Hcu : below c (inorder (T y ul c ur))). { intros w Hw. apply (hp_below (T y ul c ur) w Hu Hw). discriminate. }
    assert (Hin : forall z, In z (inorder l ++ inorder r) <-> In z (inorder (T y ul c ur)) \/ In z (inorder s)). { intros z. rewrite in_app_iff. destruct Hd as [(_ & -> & ->)|(_ & -> & ->)]; tauto. }
    destruct (Z.ltb_spec (cmp n c) 0) as [B|B].
    - exists m, (plug k (T x l n r)). conj; try assumption; try reflexivity; [|apply moved_refl]. apply Done. intros z Hz. apply Hin in Hz. apply (cmp_trans n c z); [lia|]. destruct Hz as [Hz|Hz]; [apply Hcu, Hz|apply Hcs, Hz].
    - assert (Hplug : plug k (T x l n r) = plug (F d x n s :: k) (T y ul c ur)) by (destruct Hd as [(-> & -> & ->)|(-> & -> & ->)]; reflexivity).
      rewrite Hplug in *. destruct (swap_ok m k d x y ul c ur n s HT) as (m1 & E1 & T1 & C1). rewrite E1.
      cbn [hp] in Hu. destruct Hu as (U1 & U2 & U3).
      assert (Lu : lefty (T y ul c ur)) by (destruct Hd as [(_ & -> & _)|(_ & -> & _)]; assumption). cbn [lefty] in Lu.
      assert (HszU : (size (T x ul n ur) <= fuel)%nat). { destruct Hd as [(_ & <- & _)|(_ & <- & _)]; cbn [size] in *; lia. }
      assert (Eq2 : plug k (swapped d x y ul c ur n s) = plug (F d y c s :: k) (T x ul n ur)) by (destruct d; reflexivity). rewrite Eq2 in T1.
      destruct (IH m1 (F d y c s :: k) x ul n ur HszU T1) as (m' & t' & A1 & A2 & A3 & A4 & A5); [exact Lu|exact U2|exact U3| |].
      + cbn [hk]. split; [|split; [exact Hs|]].
        * intros z Hz. apply in_app_or in Hz. destruct Hz as [Hz|[<-|Hz]]; [apply Hcs, Hz|apply cmp_flip; lia|apply U1, Hz].
        * revert Hk. apply hk_incl. intros z Hz. rewrite ?in_app_iff in Hz. cbn [In] in *. rewrite Hin. cbn [inorder]. rewrite ?in_app_iff in *. cbn [In] in *. rewrite in_app_iff in Hz. tauto.
      + exists m', t'. conj; try assumption; [|congruence]. refine (moved_trans _ _ _ (moved_swap k d x y ul c ur n s) _). rewrite Eq2. exact A4. }
  destruct l as [|y1 l1 c1 r1], r as [|y2 l2 c2 r2]; cbn [andb] in *.
  - exists m, (plug k (T x E n E)). conj; try assumption; try reflexivity; [|apply moved_refl]. apply Done. intros z [].
  - exfalso. apply HL; congruence.
  - apply (Step L E); [discriminate|left; repeat split|left; reflexivity].
  - cbn [addr]. destruct (Z.ltb_spec (cmp c1 c2) 0) as [B|B].
    + apply (Step L (T y2 l2 c2 r2) (T y1 l1 c1 r1)); [discriminate|left; repeat split|right; cbn [addr]; lia].
    + apply (Step R (T y1 l1 c1 r1) (T y2 l2 c2 r2)); [discriminate|right; repeat split|right; cbn [addr]; apply cmp_flip; lia].
Qed.
Theorem erase_ok fuel m (k : uctx) x l n r : (size (plug k (T x l n r)) <= fuel)%nat -> tree_at m (plug k (T x l n r)) -> lefty (T x l n r) -> hp l -> hp r -> hk k (inorder l ++ inorder r) ->
  exists m' t', hp_erase cmp fuel m rt n = Some m' /\ tree_at m' t' /\ hp t' /\ moved (plug k (T x l n r)) t' /\ m' rt COUNT = m rt COUNT.
Proof.
  intros Hf HT HL Hl Hr Hk. pose proof (size_plug k (T x l n r)) as Hs. pose proof HT as HF. apply tree_at_focus in HF. destruct HF as (Hc & Hrep & D). cbn [Tree.rep] in Hrep. destruct Hrep as (R1 & _). unfold hp_erase, ld. rewrite R1.
  destruct k as [|[d y a s] k]; cbn [cpar].
  - change (0 =? NULL) with true. cbn [negb andb]. apply sink_ok; try assumption.
  - assert (Na : a <> NULL) by (intros ->; specialize (D 0); cbn [cntk] in D; unfold NULL in D; rewrite !ind_refl in D; lia). rewrite (proj2 (Z.eqb_neq _ _) Na). cbn [negb andb].
    destruct (Z.ltb_spec (cmp n a) 0) as [B|B].
    + apply fixup_ok; try assumption; [cbn [size] in Hs; lia|]. cbn [hp]. conj; try assumption. cbn [hk] in Hk. destruct Hk as (K1 & _). intros z Hz. apply (cmp_trans n a z); [lia|]. apply K1, in_or_app. right. exact Hz.
    + apply sink_ok; try assumption; [lia|]. apply hk_add; [|exact Hk]. apply cmp_flip. lia.
Qed.
End Ops.
