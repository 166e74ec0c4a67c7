(** * Red-black trees: unlinking a node *)
From Verif Require Import Lib Ptr Tree TiterModel RbModel RbProofs RbRotate RbSpec RbInsert RbErase.

Lemma rep_focus m par fr kr (u : btree) : rep V m par (plug (fr :: kr) u) ->
  rep V m (cpar (fr :: kr)) u /\ m (cpar (fr :: kr)) (lfield (fr :: kr)) = Some (addr u).
Proof.
  revert par u. induction kr as [|g kr IH] using rev_ind; intros par u Hr.
  - destruct fr as [[|] y b v]; cbn [plug up addr cpar lfield side Tree.rep] in *; tauto.
  - assert (HP : exists par2, rep V m par2 (plug (fr :: kr) u)).
    { change (fr :: kr ++ [g]) with ((fr :: kr) ++ [g]) in Hr. rewrite plug_app in Hr. destruct g as [[|] y b v]; cbn [plug up Tree.rep] in Hr; eexists; apply Hr. }
    destruct HP as [par2 HP]. assert (E1 : cpar (fr :: kr ++ [g]) = cpar (fr :: kr)) by (destruct fr; reflexivity).
    assert (E2 : lfield (fr :: kr ++ [g]) = lfield (fr :: kr)) by (destruct fr; reflexivity). rewrite E1, E2. apply (IH par2 u HP).
Qed.
(** Replacing the subtree at the bottom of a path, and the parent at its top. *)
Lemma rep_plug_change m M par par' kr : forall t t' : btree,
  kr <> [] -> (forall z, (cntk z kr + cnt z t <= 1)%nat) -> rep V m par (plug kr t) ->
  (forall a f, (cntk a kr > 0)%nat -> ~ (a = cpar kr /\ f = lfield kr) -> ~ (a = addr (plug kr t) /\ f = PARENT) -> M a f = m a f) ->
  M (cpar kr) (lfield kr) = Some (addr t') -> M (addr (plug kr t)) PARENT = Some par' -> rep V M (cpar kr) t' ->
  rep V M par' (plug kr t') /\ addr (plug kr t') = addr (plug kr t).
Proof.
  induction kr as [|[d x a s] kr IH]; intros t t' Hne D Hr HM H1 H2 H3; [congruence|]. cbn [cpar lfield] in *. destruct kr as [|fr kr].
  - cbn [plug] in *. assert (D1 := D a). cbn [cntk] in D1. rewrite ind_refl in D1.
    assert (HMs : forall b f, (cnt b s > 0)%nat -> M b f = m b f).
    { intros b f Hb. assert (b <> a) by (intros ->; lia). apply HM; [cbn [cntk]; lia|intros [-> _]; lia|intros [E0 _]; destruct d; cbn [up addr] in E0; lia]. }
    assert (HMa : M a (side (opp d)) = m a (side (opp d))).
    { apply HM; [cbn [cntk]; rewrite ind_refl; lia|intros [_ E0]; destruct d; discriminate E0|intros [_ E0]; destruct d; discriminate E0]. }
    assert (HMc : M a COLOR = m a COLOR).
    { apply HM; [cbn [cntk]; rewrite ind_refl; lia|intros [_ E0]; destruct d; discriminate E0|intros [_ E0]; discriminate E0]. }
    destruct d; cbn [up addr side opp Tree.rep] in *; destruct Hr as (R1 & R2 & R3 & R4 & R5 & R6); unfold V in *.
    + split; [|reflexivity]. rewrite HMa, HMc. conj; try assumption. revert R6. apply rep_ext; [exact V_frame|exact HMs].
    + split; [|reflexivity]. rewrite HMa, HMc. conj; try assumption. revert R5. apply rep_ext; [exact V_frame|exact HMs].
  - assert (Hroot : addr (plug (fr :: kr) (up (F d x a s) t)) = addr (plug (F d x a s :: fr :: kr) t)) by reflexivity.
    assert (Hrin : (cntk (addr (plug (F d x a s :: fr :: kr) t)) (fr :: kr) > 0)%nat).
    { rewrite <- Hroot. clear. generalize (up (F d x a s) t). induction kr as [|g kr IH] in fr |- *; intros u.
      - destruct fr as [[|] y b v]; cbn [plug up addr cntk]; rewrite ind_refl; lia.
      - specialize (IH g (up fr u)). cbn [plug] in *. destruct fr as [e y b v]. cbn [cntk] in *. lia. }
    assert (D1 := D a). cbn [cntk] in D1. rewrite ind_refl in D1.
    assert (Nra : a <> addr (plug (F d x a s :: fr :: kr) t)) by (intros E0; rewrite <- E0 in Hrin; cbn [cntk] in *; lia).
    assert (HMs : forall b f, (cnt b s > 0)%nat -> M b f = m b f).
    { intros b f Hb. assert (b <> a) by (intros ->; lia). apply HM; [cbn [cntk]; lia|intros [-> _]; lia|].
      intros [-> _]. pose proof (D (addr (plug (F d x a s :: fr :: kr) t))) as D2. cbn [cntk] in *. lia. }
    assert (HMa : M a (side (opp d)) = m a (side (opp d))).
    { apply HM; [cbn [cntk]; rewrite ind_refl; lia|intros [_ E0]; destruct d; discriminate E0|intros [_ E0]; destruct d; discriminate E0]. }
    assert (HMc : M a COLOR = m a COLOR).
    { apply HM; [cbn [cntk]; rewrite ind_refl; lia|intros [_ E0]; destruct d; discriminate E0|intros [_ E0]; discriminate E0]. }
    assert (HMp : M a PARENT = m a PARENT).
    { apply HM; [cbn [cntk]; rewrite ind_refl; lia|intros [_ E0]; destruct d; discriminate E0|intros [E0 _]; congruence]. }
    assert (Hfoc : rep V m (cpar (fr :: kr)) (up (F d x a s) t) /\ m (cpar (fr :: kr)) (lfield (fr :: kr)) = Some a).
    { destruct (rep_focus m par fr kr (up (F d x a s) t) Hr) as [X Y]. split; [exact X|]. rewrite Y. destruct d; reflexivity. }
    destruct Hfoc as [Hf1 Hf2].
    destruct (IH (up (F d x a s) t) (up (F d x a s) t')) as [I1 I2].
    + discriminate.
    + intros z. specialize (D z). destruct d, fr; cbn [up cnt cntk] in *; lia.
    + exact Hr.
    + intros b f Hb N1 N2. destruct (Z.eq_dec b a) as [->|Nb].
      * exfalso. destruct fr. cbn [cntk] in *. lia.
      * apply HM; [destruct fr; cbn [cntk] in *; lia|tauto|exact N2].
    + assert (Ha : forall u, addr (up (F d x a s) u) = a) by (destruct d; reflexivity). rewrite Ha.
      rewrite HM; [exact Hf2|destruct fr; cbn [cpar cntk]; rewrite ind_refl; lia| |].
      * intros [E0 _]. destruct fr as [e y b v]. cbn [cpar] in E0. subst b. cbn [cntk] in D1. rewrite ind_refl in D1. lia.
      * intros [_ E0]. destruct fr as [[|] y b v]; discriminate E0.
    + rewrite Hroot. exact H2.
    + destruct d; cbn [up Tree.rep side opp] in *; destruct Hf1 as (R1 & R2 & R3 & R4 & R5 & R6); unfold V in *; rewrite HMp, HMa, HMc; conj; try assumption.
      * revert R6. apply rep_ext; [exact V_frame|exact HMs].
      * revert R5. apply rep_ext; [exact V_frame|exact HMs].
    + split; [exact I1|exact I2].
Qed.

Lemma cgood_addr kr d c a a' (s : btree) k : cgood (kr ++ F d c a s :: k) <-> cgood (kr ++ F d c a' s :: k).
Proof.
  induction kr as [|[d0 x b v] kr IH]; cbn [app cgood]; [tauto|].
  assert (pblack (kr ++ F d c a s :: k) <-> pblack (kr ++ F d c a' s :: k)) by (destruct kr as [|[? ? ? ?] ?]; cbn [app pblack]; tauto). tauto.
Qed.
Lemma cbal_addr kr d c a a' (s : btree) k n : cbal (kr ++ F d c a s :: k) n <-> cbal (kr ++ F d c a' s :: k) n.
Proof. revert n. induction kr as [|[d0 x b v] kr IH]; intros n; cbn [app cbal]; [tauto|]. rewrite IH. tauto. Qed.
Lemma pblack_addr kr d c a a' (s : btree) k : pblack (kr ++ F d c a s :: k) <-> pblack (kr ++ F d c a' s :: k).
Proof. destruct kr as [|[d0 x b v] kr]; cbn [app pblack]; tauto. Qed.

(** What unlinking a node with at most one child does to the invariants. *)
Definition short (k : bctx) : Prop := k <> [] /\ cgood k /\ cbal k 1.
Lemma cut_leaf k c a : redblack (plug k (T c E a E)) -> if c then k = [] \/ short k else redblack (plug k E).
Proof.
  intros H. apply redblack_plug in H. destruct H as (H1 & H2 & H3 & n & (n' & E0 & _ & ->) & H5). cbn [bal] in E0. subst n'. destruct c; cbn [Nat.add] in *.
  - destruct k; [left; reflexivity|right]. split; [discriminate|]. tauto.
  - apply redblack_plug. cbn [nored2 black bal]. conj; try tauto. exists 0%nat. tauto.
Qed.
Lemma cut_left k c a (l : btree) : l <> E -> redblack (plug k (T c l a E)) -> c = true /\ redblack (plug k (paint (Some true) l)).
Proof.
  intros Hl H. apply redblack_plug in H. destruct H as (H1 & H2 & H3 & n & (n' & E1 & E0 & ->) & H5). cbn [bal] in E0. subst n'.
  destruct l as [|cl ll q lr]; [congruence|]. destruct E1 as (n' & B1 & B2 & E1). destruct cl; [discriminate|]. cbn [Nat.add] in E1. subst n'.
  destruct c; [|cbn [nored2 black] in H1; destruct (proj1 H1 eq_refl); discriminate]. split; [reflexivity|]. cbn [paint]. apply redblack_plug.
  cbn [nored2 black] in *. conj; try tauto; try discriminate. exists 1%nat. split; [exists 0%nat; tauto|exact H5].
Qed.
Lemma cut_right k c a (r : btree) : r <> E -> redblack (plug k (T c E a r)) -> c = true /\ redblack (plug k (paint (Some true) r)).
Proof.
  intros Hl H. apply redblack_plug in H. destruct H as (H1 & H2 & H3 & n & (n' & E0 & E1 & ->) & H5). cbn [bal] in E0. subst n'.
  destruct r as [|cl ll q lr]; [congruence|]. destruct E1 as (n' & B1 & B2 & E1). destruct cl; [discriminate|]. cbn [Nat.add] in E1. subst n'.
  destruct c; [|cbn [nored2 black] in H1; destruct (proj1 H1 eq_refl); discriminate]. split; [reflexivity|]. cbn [paint]. apply redblack_plug.
  cbn [nored2 black] in *. conj; try tauto; try discriminate. exists 1%nat. split; [exists 0%nat; tauto|exact H5].
Qed.

Section Rt.
Variable rt : Z.
Variable cb : callbacks.
Variable Q : mem -> tree unit -> Prop.
Hypothesis ok : cb_ok rt cb Q.
Notation tree_at := (tree_at V rt).
Notation St := (St rt Q).
Notation rep := (rep V).
Notation crep := (crep V rt).
Notation apart := (apart rt).

Lemma rest4_link m m' (k : bctx) v : rest4 m m' -> rest4 m (upd m' (loc rt k) (lfield k) v).
Proof. apply rest4_upd. destruct k as [|[[|] ? ? ?] ?]; reflexivity. Qed.
Lemma shape_nil t : shape t = E -> t = E.
Proof. destruct t; [reflexivity|discriminate]. Qed.
Lemma cpar_shapek k : cpar (shapek k) = cpar k.
Proof. destruct k as [|[? ? ? ?] ?]; reflexivity. Qed.

(** No child: rbtree.c:389-401 *)
Lemma remove_leaf fuel m k c n : St m (plug k (T c E n E)) ->
  exists m', remove cb fuel m rt n = Some (m', if c then cpar k else NULL) /\ St m' (plug k E).
Proof.
  intros [H HQ]. assert (H' := H). apply tree_at_focus in H. destruct H as (Hk & Ht & D). cbn [addr Tree.rep] in *.
  destruct Ht as (H1 & H2 & H3 & H4 & _). unfold V in H4. unfold Tree.apart in D.
  assert (Dk : forall z, (ind z 0 + ind z rt + cntk z k <= 1)%nat) by (intros z; specialize (D z); lia).
  unfold remove, ld. rewrite H1, H2, H3. cbn [NULL Z.eqb andb]. rewrite H4, zc_black.
  rewrite (child_change_ok rt m k n NULL Dk); [|apz rt D|apz rt D|exact Hk].
  assert (HT : tree_at (upd m (loc rt k) (lfield k) NULL) (plug k E)).
  { apply tree_at_focus. split; [apply (crep_relink V V_frame rt m k n); [intros z; specialize (Dk z); lia|exact Hk]|].
    split; [exact I|]. intros z. specialize (D z). cbn [cnt] in *. lia. }
  destruct (prop_one _ _ _ ok _ _ (shapek k) (T tt E n E) E n HT) as (m' & E1 & S4 & HQ').
  - apply shape_plug.
  - left. reflexivity.
  - rewrite shape_plug in HQ. apply (q_rest _ _ _ ok m); [apply rest4_link, rest4_refl|exact HQ].
  - rewrite cpar_shapek in E1. rewrite E1. exists m'. split; [destruct c; reflexivity|]. split; [apply (tree_at_same4 _ _ _ _ S4 HT)|exact HQ'].
Qed.
(** Only a left child: rbtree.c:402-416 *)
Lemma remove_left fuel m k c l n : l <> E -> St m (plug k (T c l n E)) ->
  exists m', remove cb fuel m rt n = Some (m', NULL) /\ St m' (plug k (paint (Some c) l)).
Proof.
  intros Hl [H HQ]. apply tree_at_focus in H. destruct H as (Hk & Ht & D). destruct l as [|cl ll q lr]; [congruence|]. cbn [addr Tree.rep] in *.
  destruct Ht as (H1 & H2 & H3 & H4 & (L1 & L2 & L3 & L4 & L5 & L6) & _). unfold V in H4, L4. unfold Tree.apart in D.
  assert (Dk : forall z, (ind z 0 + ind z rt + cntk z k <= 1)%nat) by (intros z; specialize (D z); lia).
  assert (q <> n) by apz rt D. assert (loc rt k <> q) by apz rt D. assert (loc rt k <> n) by apz rt D.
  unfold remove, ld. rewrite H1, H2, H3. replace (q =? NULL) with false by (symmetry; apply Z.eqb_neq; apz rt D). cbn [NULL Z.eqb andb].
  rewrite H4. stz. upz rt D. rewrite H1. stz.
  set (m1 := upd (upd m q COLOR (zc c)) q PARENT (cpar k)).
  assert (Hk1 : crep m1 k n) by (unfold m1; frame rt D).
  rewrite (child_change_ok rt m1 k n q Dk); [|apz rt D|apz rt D|exact Hk1].
  assert (HT : tree_at (upd m1 (loc rt k) (lfield k) q) (plug k (T c ll q lr))).
  { apply tree_at_focus. split; [apply (crep_relink V V_frame rt m1 k n); [intros z; specialize (Dk z); lia|exact Hk1]|].
    split; [|intros z; specialize (D z); cbn [cnt] in *; lia]. unfold m1. cbn [Tree.rep]. conj; unfold V; upz rt D; frame rt D; reflexivity. }
  destruct (prop_one _ _ _ ok _ _ (shapek k) (T tt (shape (T c ll q lr)) n E) (shape (T c ll q lr)) n HT) as (m' & E1 & S4 & HQ').
  - apply shape_plug.
  - left. reflexivity.
  - rewrite shape_plug in HQ. apply (q_rest _ _ _ ok m); [apply rest4_link; unfold m1; repeat (apply rest4_upd; [reflexivity|]); apply rest4_refl|exact HQ].
  - rewrite cpar_shapek in E1. rewrite E1. exists m'. split; [reflexivity|]. split; [apply (tree_at_same4 _ _ _ _ S4 HT)|exact HQ'].
Qed.
(** Only a right child: rbtree.c:417-430 *)
Lemma remove_right fuel m k c r n : r <> E -> St m (plug k (T c E n r)) ->
  exists m', remove cb fuel m rt n = Some (m', NULL) /\ St m' (plug k (paint (Some c) r)).
Proof.
  intros Hl [H HQ]. apply tree_at_focus in H. destruct H as (Hk & Ht & D). destruct r as [|cl ll q lr]; [congruence|]. cbn [addr Tree.rep] in *.
  destruct Ht as (H1 & H2 & H3 & H4 & _ & (L1 & L2 & L3 & L4 & L5 & L6)). unfold V in H4, L4. unfold Tree.apart in D.
  assert (Dk : forall z, (ind z 0 + ind z rt + cntk z k <= 1)%nat) by (intros z; specialize (D z); lia).
  assert (q <> n) by apz rt D. assert (loc rt k <> q) by apz rt D. assert (loc rt k <> n) by apz rt D.
  unfold remove, ld. rewrite H1, H2, H3. replace (q =? NULL) with false by (symmetry; apply Z.eqb_neq; apz rt D). cbn [NULL Z.eqb andb].
  rewrite H4. stz. upz rt D. rewrite H1. stz.
  set (m1 := upd (upd m q COLOR (zc c)) q PARENT (cpar k)).
  assert (Hk1 : crep m1 k n) by (unfold m1; frame rt D).
  rewrite (child_change_ok rt m1 k n q Dk); [|apz rt D|apz rt D|exact Hk1].
  assert (HT : tree_at (upd m1 (loc rt k) (lfield k) q) (plug k (T c ll q lr))).
  { apply tree_at_focus. split; [apply (crep_relink V V_frame rt m1 k n); [intros z; specialize (Dk z); lia|exact Hk1]|].
    split; [|intros z; specialize (D z); cbn [cnt] in *; lia]. unfold m1. cbn [Tree.rep]. conj; unfold V; upz rt D; frame rt D; reflexivity. }
  destruct (prop_one _ _ _ ok _ _ (shapek k) (T tt E n (shape (T c ll q lr))) (shape (T c ll q lr)) n HT) as (m' & E1 & S4 & HQ').
  - apply shape_plug.
  - right. reflexivity.
  - rewrite shape_plug in HQ. apply (q_rest _ _ _ ok m); [apply rest4_link; unfold m1; repeat (apply rest4_upd; [reflexivity|]); apply rest4_refl|exact HQ].
  - rewrite cpar_shapek in E1. rewrite E1. exists m'. split; [reflexivity|]. split; [apply (tree_at_same4 _ _ _ _ S4 HT)|exact HQ'].
Qed.
Definition nilb (t : btree) : bool := match t with E => true | _ => false end.
(** The right child takes the place of the node: rbtree.c:431-448, 480-496 *)
Lemma remove_child fuel m k c l n cs s b : l <> E -> St m (plug k (T c l n (T cs E s b))) ->
  exists m', remove cb fuel m rt n = Some (m', if nilb b && cs then s else NULL) /\ St m' (plug k (T c l s (paint (Some true) b))).
Proof.
  intros Hl [H HQ]. destruct (copy_child _ _ _ ok m _ (shapek k) (shape l) n s (shape b) H) as (m1 & Ec & S4 & Hp); [apply shape_plug|exact HQ|].
  pose proof (tree_at_same4 _ _ _ _ S4 H) as HT1. apply tree_at_focus in H. destruct H as (_ & Ht & _). cbn [addr Tree.rep] in Ht.
  destruct Ht as (A1 & A2 & A3 & _ & _ & _ & A4 & A5 & _).
  apply tree_at_focus in HT1. destruct HT1 as (Hk & Ht & D). destruct l as [|cl ll q lr]; [congruence|]. cbn [addr Tree.rep] in *.
  destruct Ht as (H1 & H2 & H3 & H4 & (L1 & L2 & L3 & L4 & L5 & L6) & H5 & H6 & H7 & H8 & _ & Hb). unfold V in H4, L4, H8. unfold Tree.apart in D.
  assert (Dk : forall z, (ind z 0 + ind z rt + cntk z k <= 1)%nat) by (intros z; specialize (D z); lia).
  assert (q <> n) by apz rt D. assert (loc rt k <> q) by apz rt D. assert (loc rt k <> n) by apz rt D. assert (loc rt k <> s) by apz rt D.
  assert (n <> s) by apz rt D. assert (q <> s) by apz rt D.
  unfold remove, ld. rewrite A1, A2, A3. replace (q =? NULL) with false by (symmetry; apply Z.eqb_neq; apz rt D).
  replace (s =? NULL) with false by (symmetry; apply Z.eqb_neq; apz rt D). cbn [andb]. rewrite A4. cbn [NULL Z.eqb]. rewrite A5. rewrite Ec.
  rewrite H2. stz. stz. upz rt D. rewrite H1. set (m2 := upd (upd m1 s LEFT q) q PARENT s).
  assert (Hk2 : crep m2 k n) by (unfold m2; frame rt D).
  rewrite (child_change_ok rt m2 k n s Dk); [|apz rt D|apz rt D|exact Hk2].
  set (m3 := upd m2 (loc rt k) (lfield k) s). assert (Hk3 : crep m3 k s) by (apply (crep_relink V V_frame rt m2 k n); [intros z; specialize (Dk z); lia|exact Hk2]).
  assert (X : m3 s COLOR = Some (zc cs)) by (unfold m3, m2; upz rt D; assumption). rewrite X. rewrite zc_black.
  assert (P1 : exists x, m3 s PARENT = Some x) by (unfold m3, m2; repeat apply upd_ex; eauto).
  pose (m4 := match b with E => m3 | T _ _ p _ => upd (upd m3 p PARENT s) p COLOR BLACK end).
  assert (Eb : (if negb (addr b =? 0) then let* m' := st m3 (addr b) PARENT s in let* m' := st m' (addr b) COLOR BLACK in Some (m', 0) else Some (m3, if cs then s else 0)) =
    Some (m4, if nilb b && cs then s else NULL)).
  { unfold m4. destruct b as [|cbb bl p br]; cbn [addr negb nilb andb Z.eqb]; [reflexivity|].
    assert (Np : p <> 0) by apz rt D. rewrite (proj2 (Z.eqb_neq _ _) Np). cbn [negb]. cbn [Tree.rep] in Hb. destruct Hb as (B1 & B2 & B3 & B4 & _). unfold V in B4. unfold m3, m2. stz. stz. reflexivity. }
  unfold NULL in *. rewrite Eb.
  assert (N4 : m4 n COLOR = Some (zc c)) by (unfold m4, m3, m2; destruct b as [|cbb bl p br]; [|assert (p <> n) by apz rt D]; upz rt D; assumption).
  rewrite st_ex by (unfold m4; destruct b; repeat apply upd_ex; eauto). upz rt D. rewrite N4.
  rewrite st_ex by (repeat apply upd_ex; unfold m4; destruct b; repeat apply upd_ex; eauto).
  assert (HT : tree_at (upd (upd m4 s PARENT (cpar k)) s COLOR (zc c)) (plug k (T c (T cl ll q lr) s (paint (Some true) b)))).
  { apply tree_at_focus. split; [|split].
    - cbn [addr]. unfold m4. destruct b as [|cbb bl p br]; frame rt D.
    - cbn [Tree.rep addr]. unfold V, m4, m3, m2. destruct b as [|cbb bl p br]; cbn [paint addr Tree.rep].
      + conj; unfold V; upz rt D; frame rt D; reflexivity.
      + cbn [Tree.rep] in Hb. destruct Hb as (B1 & B2 & B3 & B4 & B5 & B6). unfold V in B4.
        assert (p <> n) by apz rt D. assert (p <> s) by apz rt D. assert (p <> q) by apz rt D. assert (loc rt k <> p) by apz rt D.
        conj; unfold V; upz rt D; frame rt D; reflexivity.
    - intros z. specialize (D z). cbn [cnt] in *. rewrite cnt_paint. lia. }
  destruct (Hp _ _ HT) as (m5 & E5 & S5 & HQ5).
  - rewrite shape_plug. cbn [shape]. rewrite shape_paint. reflexivity.
  - unfold m4, m3, m2. repeat (apply rest4_upd; [reflexivity|]). destruct b; repeat (apply rest4_upd; [reflexivity|]); apply rest4_link; repeat (apply rest4_upd; [reflexivity|]); apply rest4_refl.
  - unfold NULL in E5. rewrite E5. exists m5. split; [reflexivity|]. split; [apply (tree_at_same4 _ _ _ _ S5 HT)|exact HQ5].
Qed.
End Rt.
