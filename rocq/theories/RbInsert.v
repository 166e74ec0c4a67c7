(** * Red-black trees: insertion restores the invariants *)
From Verif Require Import Lib Ptr Tree TiterModel RbModel RbProofs RbRotate RbSpec.

Fixpoint shapek (k : bctx) : ctx unit := match k with [] => [] | F d _ a s :: k => F d tt a (shape s) :: shapek k end.
Lemma shape_plug k t : shape (plug k t) = plug (shapek k) (shape t).
Proof. revert t. induction k as [|[[|] x a s] k IH]; intros t; cbn [plug shapek up]; [reflexivity| |]; rewrite IH; reflexivity. Qed.
Lemma shape_paint o t : shape (paint o t) = shape t.
Proof. destruct o, t; reflexivity. Qed.
Lemma cnt_shape z t : cnt z (shape t) = cnt z t.
Proof. induction t as [|x l IHl a r IHr]; [reflexivity|]. cbn [shape cnt]. rewrite IHl, IHr. reflexivity. Qed.
Lemma inorder_shape t : inorder (shape t) = inorder t.
Proof. induction t as [|x l IHl a r IHr]; [reflexivity|]. cbn [shape inorder]. rewrite IHl, IHr. reflexivity. Qed.

(** ** The invariants along a path *)
Fixpoint cbal (k : bctx) (n : nat) : Prop :=
  match k with [] => True | F _ c _ s :: k => bal s n /\ cbal k ((if c then 1 else 0) + n) end.
Definition pblack (k : bctx) : Prop := match k with [] => False | F _ c _ _ :: _ => c = true end.
Fixpoint cgood (k : bctx) : Prop :=
  match k with [] => True | F _ c _ s :: k => nored2 s /\ (c = false -> black s /\ pblack k) /\ cgood k end.
Lemma bal_inj t n n' : bal t n -> bal t n' -> n = n'.
Proof. revert n n'. induction t as [|c l IHl a r IHr]; intros n n'; cbn [bal]; [congruence|]. intros (x & H1 & H2 & ->) (y & H3 & H4 & ->). rewrite (IHl _ _ H1 H3). reflexivity. Qed.
Lemma plug_bal k t : (exists n, bal (plug k t) n) <-> exists n, bal t n /\ cbal k n.
Proof.
  revert t. induction k as [|[[|] c a s] k IH]; intros t; cbn [plug cbal up].
  - split; intros [n H]; exists n; tauto.
  - rewrite IH. split.
    + intros (n & (n' & H1 & H2 & ->) & H3). exists n'. tauto.
    + intros (n & H1 & H2 & H3). exists ((if c then 1 else 0) + n)%nat. split; [|exact H3]. exists n. tauto.
  - rewrite IH. split.
    + intros (n & (n' & H1 & H2 & ->) & H3). exists n'. tauto.
    + intros (n & H1 & H2 & H3). exists ((if c then 1 else 0) + n)%nat. split; [|exact H3]. exists n. tauto.
Qed.
Lemma plug_nored k t : nored2 (plug k t) /\ black (plug k t) <-> nored2 t /\ cgood k /\ (black t \/ pblack k).
Proof.
  revert t. induction k as [|[[|] c a s] k IH]; intros t; cbn [plug cgood up pblack].
  - tauto.
  - rewrite IH. cbn [nored2 black]. destruct c; [|intuition congruence]. split; intros; repeat split; try discriminate; tauto.
  - rewrite IH. cbn [nored2 black]. destruct c; [|intuition congruence]. split; intros; repeat split; try discriminate; tauto.
Qed.
Lemma redblack_plug k t : redblack (plug k t) <-> nored2 t /\ cgood k /\ (black t \/ pblack k) /\ exists n, bal t n /\ cbal k n.
Proof. unfold redblack. rewrite plug_bal. pose proof (plug_nored k t). tauto. Qed.
Lemma paint_black t : black t -> paint (Some true) t = t.
Proof. destruct t; cbn; [reflexivity|]. intros ->. reflexivity. Qed.

Ltac conj := repeat match goal with |- _ /\ _ => split end.
Ltac apps := cbn [inorder]; repeat (rewrite <- app_assoc || rewrite <- app_comm_cons); cbn [app].
Section Rt.
Variable rt : Z.
Variable cb : callbacks.
Variable Q : mem -> tree unit -> Prop.
Hypothesis ok : cb_ok rt cb Q.
Notation rep := (rep V).
Notation crep := (crep V rt).
Notation apart := (apart rt).
Notation tree_at := (tree_at V rt).
Definition St (m : mem) (t : btree) : Prop := tree_at m t /\ Q m (shape t).

Lemma rotl m (k : bctx) cx l n cy b s c oc occ : St m (plug k (T cx l n (T cy b s c))) ->
  exists m', left_rotate cb m rt n (zo oc) (zo occ) = Some (m', addr b) /\
    St m' (plug k (T (top oc cx cy) (T (ocol oc cx) l n (paint occ b)) s c)).
Proof.
  intros [H HQ]. destruct (left_rotate_ok rt cb m k cx l n cy b s c oc occ H) as (m1 & H1 & R & ->).
  destruct (rot_l _ _ _ ok m1 _ (shapek k) (shape l) n (shape b) s (shape c) H1) as (m2 & -> & S4 & HQ2).
  - rewrite shape_plug. cbn [shape]. rewrite shape_paint. reflexivity.
  - apply (q_rest _ _ _ ok m m1 _ R). rewrite shape_plug in HQ. exact HQ.
  - exists m2. split; [reflexivity|]. split; [apply (tree_at_same4 rt m1), H1; exact S4|exact HQ2].
Qed.
Lemma rotr m (k : bctx) cx l n cy b s c oc occ : St m (plug k (T cx (T cy l s b) n c)) ->
  exists m', right_rotate cb m rt n (zo oc) (zo occ) = Some (m', addr b) /\
    St m' (plug k (T (top oc cx cy) l s (T (ocol oc cx) (paint occ b) n c))).
Proof.
  intros [H HQ]. destruct (right_rotate_ok rt cb m k cx n c cy l s b oc occ H) as (m1 & H1 & R & ->).
  destruct (rot_r _ _ _ ok m1 _ (shapek k) (shape l) n (shape b) s (shape c) H1) as (m2 & -> & S4 & HQ2).
  - rewrite shape_plug. cbn [shape]. rewrite shape_paint. reflexivity.
  - apply (q_rest _ _ _ ok m m1 _ R). rewrite shape_plug in HQ. exact HQ.
  - exists m2. split; [reflexivity|]. split; [apply (tree_at_same4 rt m1), H1; exact S4|exact HQ2].
Qed.
Lemma stc m (k : bctx) c l a r c' : St m (plug k (T c l a r)) -> exists m', st m a COLOR (zc c') = Some m' /\ St m' (plug k (T c' l a r)).
Proof.
  intros [H HQ]. destruct (st_color rt m k c l a r c' H) as (m' & H1 & H2 & R). exists m'. split; [exact H1|]. split; [exact H2|].
  rewrite shape_plug in *. cbn [shape] in *. apply (q_rest _ _ _ ok m); assumption.
Qed.
Lemma ld_parent m k c l a r : St m (plug k (T c l a r)) -> ld m a PARENT = Some (cpar k).
Proof. intros [H _]. apply tree_at_focus in H. apply H. Qed.
Lemma ld_left m k c l a r : St m (plug k (T c l a r)) -> ld m a LEFT = Some (addr l).
Proof. intros [H _]. apply tree_at_focus in H. apply H. Qed.
Lemma ld_right m k c l a r : St m (plug k (T c l a r)) -> ld m a RIGHT = Some (addr r).
Proof. intros [H _]. apply tree_at_focus in H. apply H. Qed.
Lemma ld_color m k c l a r : St m (plug k (T c l a r)) -> ld m a COLOR = Some (zc c).
Proof. intros [H _]. apply tree_at_focus in H. apply H. Qed.
Lemma st_apart m k t : St m (plug k t) -> apart k t.
Proof. intros [H _]. apply tree_at_focus in H. apply H. Qed.
Definition blackb (t : btree) : bool := match t with E => true | T c _ _ _ => c end.
Lemma blackb_spec t : blackb t = true <-> black t.
Proof. destruct t; cbn; tauto. Qed.
Lemma is_black_ok m k t : St m (plug k t) -> is_black m (addr t) = Some (blackb t).
Proof.
  intros H. unfold is_black. rewrite (addr_null rt k t (st_apart _ _ _ H)). destruct t as [|c l a r]; [reflexivity|]. cbn [addr].
  rewrite (ld_color _ _ _ _ _ _ H). destruct c; reflexivity.
Qed.
Lemma is_red_ok m k t : St m (plug k t) -> is_red m (addr t) = Some (negb (blackb t)).
Proof.
  intros H. unfold is_red. rewrite (addr_null rt k t (st_apart _ _ _ H)). destruct t as [|c l a r]; [reflexivity|]. cbn [addr].
  rewrite (ld_color _ _ _ _ _ _ H). destruct c; reflexivity.
Qed.
(** Moving the focus one step. *)
Lemma St_up m k f t : St m (plug (f :: k) t) = St m (plug k (up f t)).
Proof. reflexivity. Qed.
Lemma zc_black c : (zc c =? BLACK) = c.
Proof. destruct c; reflexivity. Qed.
Lemma zc_red c : (zc c =? RED) = negb c.
Proof. destruct c; reflexivity. Qed.

Lemma sub_ne (k : bctx) c l a r (t : btree) : apart k (T c l a r) -> (t = l \/ t = r) -> addr t <> a.
Proof.
  intros D H E0. destruct t as [|c' l' b r']; cbn [addr] in E0.
  - subst a. pose proof (D 0) as H0. cbn [cnt] in H0. rewrite ind_refl in H0. lia.
  - subst b. pose proof (D a) as H0. cbn [cnt] in H0. rewrite ind_refl in H0. assert (H1 : cnt a (T c' l' a r') = 0%nat) by (destruct H; subst; lia).
    cbn [cnt] in H1. rewrite ind_refl in H1. lia.
Qed.
Lemma lr_ne (k : bctx) c (l : btree) a r : apart k (T c l a r) -> l <> E -> addr l <> addr r.
Proof.
  intros D H E0. destruct l as [|c' l' b r']; [congruence|]. cbn [addr] in E0. destruct r as [|c2 l2 b2 r2]; cbn [addr] in E0.
  - subst b. pose proof (D 0) as H0. cbn [cnt] in H0. rewrite ?ind_refl in H0. lia.
  - subst b2. pose proof (D b) as H0. cbn [cnt] in H0. rewrite ?ind_refl in H0. lia.
Qed.

Lemma lr_ne' (k : bctx) c (l : btree) a r : apart k (T c l a r) -> r <> E -> addr l <> addr r.
Proof.
  intros D H. apply not_eq_sym. apply (lr_ne k c r a l); [|exact H]. intros z. specialize (D z). cbn [cnt] in *. lia.
Qed.
End Rt.
Section Fix.
Variable rt z : Z.
Variable cb : callbacks.
Variable Q : mem -> tree unit -> Prop.
Hypothesis ok : rot_ok rt z cb Q.
Notation St := (St rt Q).
Notation apart := (apart rt).
Lemma addr_shape (t : btree) : addr (shape t) = addr t.
Proof. destruct t; reflexivity. Qed.
Lemma rotlz m (k : bctx) cx l n cy b s c oc occ : St m (plug k (T cx l n (T cy b s c))) -> n <> z -> addr l <> z -> addr b <> z ->
  exists m', left_rotate cb m rt n (zo oc) (zo occ) = Some (m', addr b) /\
    St m' (plug k (T (top oc cx cy) (T (ocol oc cx) l n (paint occ b)) s c)).
Proof.
  intros [H HQ] Z0 Z1 Z2. destruct (left_rotate_ok rt cb m k cx l n cy b s c oc occ H) as (m1 & H1 & R & ->).
  destruct (z_rot_l _ _ _ _ ok m1 _ (shapek k) (shape l) n (shape b) s (shape c) H1) as (m2 & -> & S4 & HQ2).
  - rewrite shape_plug. cbn [shape]. rewrite shape_paint. reflexivity.
  - apply (z_rest _ _ _ _ ok m m1 _ R). rewrite shape_plug in HQ. exact HQ.
  - exact Z0.
  - rewrite addr_shape. exact Z1.
  - rewrite addr_shape. exact Z2.
  - exists m2. split; [reflexivity|]. split; [apply (tree_at_same4 rt m1), H1; exact S4|exact HQ2].
Qed.
Lemma rotrz m (k : bctx) cx l n cy b s c oc occ : St m (plug k (T cx (T cy l s b) n c)) -> n <> z -> addr b <> z -> addr c <> z ->
  exists m', right_rotate cb m rt n (zo oc) (zo occ) = Some (m', addr b) /\
    St m' (plug k (T (top oc cx cy) l s (T (ocol oc cx) (paint occ b) n c))).
Proof.
  intros [H HQ] Z0 Z1 Z2. destruct (right_rotate_ok rt cb m k cx n c cy l s b oc occ H) as (m1 & H1 & R & ->).
  destruct (z_rot_r _ _ _ _ ok m1 _ (shapek k) (shape l) n (shape b) s (shape c) H1) as (m2 & -> & S4 & HQ2).
  - rewrite shape_plug. cbn [shape]. rewrite shape_paint. reflexivity.
  - apply (z_rest _ _ _ _ ok m m1 _ R). rewrite shape_plug in HQ. exact HQ.
  - exact Z0.
  - rewrite addr_shape. exact Z1.
  - rewrite addr_shape. exact Z2.
  - exists m2. split; [reflexivity|]. split; [apply (tree_at_same4 rt m1), H1; exact S4|exact HQ2].
Qed.
Lemma stcz m (k : bctx) c l a r c' : St m (plug k (T c l a r)) -> exists m', st m a COLOR (zc c') = Some m' /\ St m' (plug k (T c' l a r)).
Proof.
  intros [H HQ]. destruct (st_color rt m k c l a r c' H) as (m' & H1 & H2 & R). exists m'. split; [exact H1|]. split; [exact H2|].
  rewrite shape_plug in *. cbn [shape] in *. apply (z_rest _ _ _ _ ok m); assumption.
Qed.
Lemma addr_out (t : btree) : z <> 0 -> cnt z t = 0%nat -> addr t <> z.
Proof. intros N H E0. destruct t as [|x l a r]; cbn [addr cnt] in *; [congruence|]. subst z. rewrite ind_refl in H. lia. Qed.
(** rbtree.c:118-226: starting at a red node whose parent may be red, the loop ends with a red-black tree. *)
Theorem fixup_z fuel : forall m (k : bctx) l a r n, (length k < fuel)%nat -> St m (plug k (T false l a r)) -> (cnt z (T false l a r) > 0)%nat -> addr l <> z -> addr r <> z ->
  nored2 (T false l a r) -> cgood k -> bal (T false l a r) n -> cbal k n ->
  exists m' t, fixup cb fuel m rt a = Some m' /\ St m' t /\ redblack t /\ inorder t = inorder (plug k (T false l a r)).
Proof.
  induction fuel as [fuel IH] using lt_wf_ind. intros m k l a r n Hf HS Hz Hzl Hzr Hn Hg Hb Hc. destruct fuel as [|fuel]; [lia|].
  cbn [fixup]. pose proof (st_apart rt Q _ _ _ HS) as D. change a with (addr (T false l a r)) at 1. rewrite (addr_null rt k _ D).
  rewrite (ld_parent rt Q _ _ _ _ _ _ HS). rewrite (cpar_null rt k _ D). destruct k as [|[d c p s] k].
  { destruct (stcz m [] false l a r true HS) as (m' & E1 & HS'). cbn [zc] in E1. rewrite E1. exists m', (T true l a r). split; [reflexivity|]. split; [exact HS'|]. split; [|reflexivity].
    cbn [nored2] in Hn. destruct Hb as (n' & Hb1 & Hb2 & _). split; [reflexivity|]. split; [cbn [nored2]; split; [discriminate|tauto]|].
    exists (S n'), n'. tauto. }
  cbn [cpar]. assert (HSp : exists lp rp, up (F d c p s) (T false l a r) = T c lp p rp) by (destruct d; cbn [up]; eauto).
  destruct HSp as (lp & rp & Hup). assert (HS1 := HS). rewrite (St_up rt Q), Hup in HS1. rewrite (ld_color rt Q _ _ _ _ _ _ HS1). rewrite zc_black.
  destruct c.
  { exists m, (plug (F d true p s :: k) (T false l a r)). split; [reflexivity|]. split; [exact HS|]. split; [|reflexivity].
    apply redblack_plug. split; [exact Hn|]. split; [exact Hg|]. split; [right; reflexivity|]. eauto. }
  rewrite (ld_parent rt Q _ _ _ _ _ _ HS1). cbn [cgood] in Hg. destruct Hg as (Hs & Hg1 & Hg). destruct (Hg1 eq_refl) as [Bs Pk].
  destruct k as [|[d2 c2 g u] k]; [contradiction|]. cbn [pblack] in Pk. subst c2. cbn [cpar cgood cbal] in *.
  destruct Hg as (Hu & _ & Hg). destruct Hc as (Hs1 & Hu1 & Hc). cbn [nored2] in Hn. destruct Hn as (Hn0 & Hnl & Hnr). destruct (Hn0 eq_refl) as [Bl Br].
  destruct Hb as (n' & Hbl & Hbr & ->). cbn [Nat.add] in *. rename n' into n. cbn [length] in Hf.
  assert (Zz : z <> 0) by (intros ->; specialize (D 0); rewrite ind_refl in D; lia).
  assert (Zs : addr s <> z) by (apply addr_out; [exact Zz|]; specialize (D z); cbn [cntk] in D; lia).
  assert (Zu : addr u <> z) by (apply addr_out; [exact Zz|]; specialize (D z); cbn [cntk] in D; lia).
  assert (Zg : g <> z) by (intros ->; specialize (D z); cbn [cntk] in D; rewrite ind_refl in D; lia).
  assert (Zp : p <> z) by (intros ->; specialize (D z); cbn [cntk] in D; rewrite ind_refl in D; lia).
  assert (HSg := HS1). rewrite (St_up rt Q) in HSg. destruct d2; cbn [up] in HSg.
  - (* the parent is a left child *)
    rewrite (ld_right rt Q _ _ _ _ _ _ HSg). pose proof (st_apart rt Q _ _ _ HSg) as Dg.
    assert (N : addr u <> p) by (intros E0; apply (lr_ne rt _ _ _ _ _ Dg); [discriminate|cbn [addr]; congruence]).
    rewrite (proj2 (Z.eqb_neq _ _) N). cbn [negb].
    assert (HSu : St m (plug (F R true g (T false lp p rp) :: k) u)) by exact HSg.
    rewrite (is_red_ok rt Q _ _ _ HSu). destruct (blackb u) eqn:Bu; cbn [negb].
    + (* black uncle *)
      apply blackb_spec in Bu. rewrite (ld_right rt Q _ _ _ _ _ _ HS1). destruct d; cbn [up] in Hup; injection Hup as <- <-.
      * assert (N2 : a <> addr s) by (apply (lr_ne rt _ _ (T false l a r) _ _ (st_apart rt Q _ _ _ HS1)); discriminate).
        rewrite (proj2 (Z.eqb_neq _ _) N2).
        destruct (rotrz m k true _ g false _ p _ (Some false) (Some true) HSg ltac:(assumption) ltac:(assumption) ltac:(assumption)) as (m1 & E1 & HS2). cbn [zo zc] in E1. rewrite E1. cbn [fst].
        cbn [top ocol] in HS2. rewrite (paint_black _ Bs) in HS2. eexists _, _. split; [reflexivity|]. split; [exact HS2|]. split.
        -- apply redblack_plug. cbn [nored2]. repeat split; try tauto; try discriminate. exists (S n). split; [|exact Hc]. exists n.
           split; [exists n; tauto|]. split; [exists n; tauto|reflexivity].
        -- cbn [plug up]. rewrite !inorder_plug. apps; reflexivity.
      * cbn [addr]. rewrite Z.eqb_refl.
        destruct (rotlz m (F L true g u :: k) false s p false l a r None (Some true) HS1 ltac:(assumption) ltac:(assumption) ltac:(assumption)) as (m1 & E1 & HS2). cbn [zo zc] in E1. rewrite E1. cbn [fst].
        cbn [top ocol] in HS2. rewrite (paint_black _ Bl) in HS2.
        destruct (rotrz m1 k true _ g false _ a _ (Some false) (Some true) HS2 ltac:(assumption) ltac:(assumption) ltac:(assumption)) as (m2 & E2 & HS3). cbn [zo zc] in E2. rewrite E2. cbn [fst].
        cbn [top ocol] in HS3. rewrite (paint_black _ Br) in HS3. eexists _, _. split; [reflexivity|]. split; [exact HS3|]. split.
        -- apply redblack_plug. cbn [nored2]. repeat split; try tauto; try discriminate. exists (S n). split; [|exact Hc]. exists n.
           split; [exists n; tauto|]. split; [exists n; tauto|reflexivity].
        -- cbn [plug up]. rewrite !inorder_plug. apps; reflexivity.
    + (* red uncle *)
      destruct u as [|cu lu q ru]; cbn [blackb] in Bu; [discriminate|]. subst cu. cbn [addr]. destruct (stcz _ _ _ _ _ _ true HSu) as (m1 & E1 & HS2). cbn [zc] in E1. rewrite E1.
      assert (HS2' : St m1 (plug (F L true g (T true lu q ru) :: k) (T false lp p rp))) by exact HS2.
      destruct (stcz _ _ _ _ _ _ true HS2') as (m2 & E2 & HS3). cbn [zc] in E2. rewrite E2.
      assert (HS3' : St m2 (plug k (T true (T true lp p rp) g (T true lu q ru)))) by exact HS3.
      destruct (stcz _ _ _ _ _ _ false HS3') as (m3 & E3 & HS4). cbn [zc] in E3. rewrite E3.
      destruct (IH fuel ltac:(lia) m3 k _ _ _ (S n) ltac:(lia) HS4 ltac:(destruct d; cbn [up] in Hup; injection Hup as <- <-; cbn [cnt] in *; lia) ltac:(assumption) ltac:(assumption)) as (m' & t & H1 & H2 & H3 & H4).
      * cbn [nored2]. split; [cbn; tauto|]. cbn [nored2] in Hu. destruct d; cbn [up] in Hup; injection Hup as <- <-; cbn [nored2]; intuition discriminate.
      * exact Hg.
      * destruct Hu1 as (nu & Hu1 & Hu2 & Eu). cbn [Nat.add] in Eu. subst nu. cbn [bal]. exists (S n). split; [|split; [|reflexivity]].
        -- exists n. destruct d; cbn [up] in Hup; injection Hup as <- <-; cbn [bal]; eauto 10.
        -- exists n. tauto.
      * exact Hc.
      * exists m', t. split; [exact H1|]. split; [exact H2|]. split; [exact H3|]. rewrite H4. cbn [plug]. rewrite Hup. cbn [up].
        rewrite !inorder_plug. reflexivity.
  - (* the parent is a right child *)
    rewrite (ld_right rt Q _ _ _ _ _ _ HSg). pose proof (st_apart rt Q _ _ _ HSg) as Dg. cbn [addr]. rewrite Z.eqb_refl. cbn [negb].
    rewrite (ld_left rt Q _ _ _ _ _ _ HSg).
    assert (HSu : St m (plug (F L true g (T false lp p rp) :: k) u)) by exact HSg.
    rewrite (is_red_ok rt Q _ _ _ HSu). destruct (blackb u) eqn:Bu; cbn [negb].
    + (* black uncle *)
      apply blackb_spec in Bu. rewrite (ld_left rt Q _ _ _ _ _ _ HS1). destruct d; cbn [up] in Hup; injection Hup as <- <-.
      * cbn [addr]. rewrite Z.eqb_refl.
        destruct (rotrz m (F R true g u :: k) false l p false r a s None (Some true) HS1 ltac:(assumption) ltac:(assumption) ltac:(assumption)) as (m1 & E1 & HS2). cbn [zo zc] in E1. rewrite E1. cbn [fst].
        cbn [top ocol] in HS2. rewrite (paint_black _ Br) in HS2.
        destruct (rotlz m1 k true _ g false _ a _ (Some false) (Some true) HS2 ltac:(assumption) ltac:(assumption) ltac:(assumption)) as (m2 & E2 & HS3). cbn [zo zc] in E2. rewrite E2. cbn [fst].
        cbn [top ocol] in HS3. rewrite (paint_black _ Bl) in HS3. eexists _, _. split; [reflexivity|]. split; [exact HS3|]. split.
        -- apply redblack_plug. cbn [nored2]. repeat split; try tauto; try discriminate. exists (S n). split; [|exact Hc]. exists n.
           split; [exists n; tauto|]. split; [exists n; tauto|reflexivity].
        -- cbn [plug up]. rewrite !inorder_plug. apps; reflexivity.
      * assert (N2 : a <> addr s) by (apply not_eq_sym, (lr_ne' rt _ _ _ _ (T false l a r) (st_apart rt Q _ _ _ HS1)); discriminate).
        rewrite (proj2 (Z.eqb_neq _ _) N2).
        destruct (rotlz m k true _ g false _ p _ (Some false) (Some true) HSg ltac:(assumption) ltac:(assumption) ltac:(assumption)) as (m1 & E1 & HS2). cbn [zo zc] in E1. rewrite E1. cbn [fst].
        cbn [top ocol] in HS2. rewrite (paint_black _ Bs) in HS2. eexists _, _. split; [reflexivity|]. split; [exact HS2|]. split.
        -- apply redblack_plug. cbn [nored2]. repeat split; try tauto; try discriminate. exists (S n). split; [|exact Hc]. exists n.
           split; [exists n; tauto|]. split; [exists n; tauto|reflexivity].
        -- cbn [plug up]. rewrite !inorder_plug. apps; reflexivity.
    + (* red uncle *)
      destruct u as [|cu lu q ru]; cbn [blackb] in Bu; [discriminate|]. subst cu. cbn [addr]. destruct (stcz _ _ _ _ _ _ true HSu) as (m1 & E1 & HS2). cbn [zc] in E1. rewrite E1.
      assert (HS2' : St m1 (plug (F R true g (T true lu q ru) :: k) (T false lp p rp))) by exact HS2.
      destruct (stcz _ _ _ _ _ _ true HS2') as (m2 & E2 & HS3). cbn [zc] in E2. rewrite E2.
      assert (HS3' : St m2 (plug k (T true (T true lu q ru) g (T true lp p rp)))) by exact HS3.
      destruct (stcz _ _ _ _ _ _ false HS3') as (m3 & E3 & HS4). cbn [zc] in E3. rewrite E3.
      destruct (IH fuel ltac:(lia) m3 k _ _ _ (S n) ltac:(lia) HS4 ltac:(destruct d; cbn [up] in Hup; injection Hup as <- <-; cbn [cnt] in *; lia) ltac:(assumption) ltac:(assumption)) as (m' & t & H1 & H2 & H3 & H4).
      * cbn [nored2]. split; [cbn; tauto|]. cbn [nored2] in Hu. destruct d; cbn [up] in Hup; injection Hup as <- <-; cbn [nored2]; intuition discriminate.
      * exact Hg.
      * destruct Hu1 as (nu & Hu1 & Hu2 & Eu). cbn [Nat.add] in Eu. subst nu. cbn [bal]. exists (S n). split; [|split; [|reflexivity]].
        -- exists n. tauto.
        -- exists n. destruct d; cbn [up] in Hup; injection Hup as <- <-; cbn [bal]; eauto 10.
      * exact Hc.
      * exists m', t. split; [exact H1|]. split; [exact H2|]. split; [exact H3|]. rewrite H4. cbn [plug]. rewrite Hup. cbn [up].
        rewrite !inorder_plug. reflexivity.
Qed.
End Fix.
(** Under the whole contract. *)
Theorem fixup_ok rt cb Q (ok : cb_ok rt cb Q) fuel m (k : bctx) l a r n : (length k < fuel)%nat -> St rt Q m (plug k (T false l a r)) ->
  nored2 (T false l a r) -> cgood k -> bal (T false l a r) n -> cbal k n ->
  exists m' t, fixup cb fuel m rt a = Some m' /\ St rt Q m' t /\ redblack t /\ inorder t = inorder (plug k (T false l a r)).
Proof.
  intros H1 H2. pose proof (st_apart rt Q m k _ H2) as D. apply (fixup_z rt a cb Q (cb_rot rt a cb Q ok)); try assumption.
  - cbn [cnt]. rewrite ind_refl. lia.
  - apply (sub_ne rt k _ _ _ _ l D). left. reflexivity.
  - apply (sub_ne rt k _ _ _ _ r D). right. reflexivity.
Qed.
