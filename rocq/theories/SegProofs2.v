(** * Interval trees: deletion keeps the maxima *)
From Verif Require Import Lib Ptr Tree TiterModel TiterProofs RbModel RbProofs RbRotate RbSpec RbInsert RbRemove RbRemove2 RbFrame SegModel SegProofs.

Section Max.
Variable sta en : Z -> Z.
Variable rt : Z.
Notation aug := (aug sta en).
Notation augk := (augk sta en).
Notation stale := (stale sta en).
Notation top := (top en).
Variable fuel : nat.
(** All maxima are right; the tree is small enough for the loops. *)
Definition Qd (m : mem) (t : utree) : Prop := aug 0 m t /\ (size t < fuel)%nat.

Lemma size_plug_add (k : uctx) : forall t, size (plug k t) = (size (plug k E) + size t)%nat.
Proof. induction k as [|[[|] x a s] k IH]; intros t; cbn [plug size]; [reflexivity| |]; rewrite IH, (IH (up _ E)); cbn [up size]; lia. Qed.
Lemma addr_plug_in (k : uctx) : forall u, k <> [] -> (cntk (addr (plug k u)) k > 0)%nat.
Proof.
  induction k as [|[d x a s] k IH]; intros u N; [congruence|]. cbn [plug cntk]. destruct k as [|f k].
  - destruct d; cbn [plug up addr]; rewrite ind_refl; lia.
  - assert (H : f :: k <> []) by discriminate. specialize (IH (up (F d x a s) u) H). lia.
Qed.
Lemma chain_par m k h stop a v : cntk a k = 0%nat -> chain m k h stop -> chain (upd m a PARENT v) k h stop.
Proof.
  revert h. induction k as [|[d x b s] k IH]; intros h Ha; cbn [chain cntk] in *; [auto|]. intros (H1 & H2 & H3 & H4 & H5 & H6).
  assert (b <> a) by (intros ->; rewrite ind_refl in Ha; lia). rewrite !upd_other by (left; assumption). conj; auto. apply IH; [lia|assumption].
Qed.
Lemma chain_far m (K : uctx) s kr : forall h u, kr <> [] -> crep U rt m (kr ++ K) h -> (forall z, ind z 0 + cntk z kr <= 1)%nat -> cntk s kr = 0%nat ->
  chain (upd m (addr (plug kr u)) PARENT s) kr h s.
Proof.
  induction kr as [|[d x a t] kr IH]; intros h u N HC D Hs; [congruence|]. cbn [app crep] in HC. destruct HC as (H1 & H2 & H3 & _ & H5 & H6). cbn [chain]. cbn [cntk] in Hs.
  assert (Nas : a <> s) by (intros ->; rewrite ind_refl in Hs; lia). assert (D0 := D 0). cbn [cntk] in D0. rewrite ind_refl in D0. destruct kr as [|f kr].
  - assert (Ea : addr (plug [F d x a t] u) = a) by (destruct d; reflexivity). rewrite Ea. rewrite upd_same. rewrite !upd_other by (right; destruct d; discriminate). cbn [start chain]. conj; auto. lia.
  - assert (Hin : (cntk (addr (plug (F d x a t :: f :: kr) u)) (f :: kr) > 0)%nat) by (change (plug (F d x a t :: f :: kr) u) with (plug (f :: kr) (up (F d x a t) u)); apply addr_plug_in; discriminate).
    assert (Na : a <> addr (plug (F d x a t :: f :: kr) u)) by (intros E0; specialize (D a); cbn [cntk] in D; rewrite <- E0 in Hin; rewrite ind_refl in D; cbn [cntk] in Hin; lia).
    rewrite !upd_other by (left; exact Na). conj; try assumption; try lia.
    change (plug (F d x a t :: f :: kr) u) with (plug (f :: kr) (up (F d x a t) u)). apply IH; [discriminate|exact H6| |lia]. intros z. specialize (D z). cbn [cntk] in *. lia.
Qed.
Lemma chain_ext m m' k h stop : (forall a f, (cntk a k > 0)%nat -> f < 4 -> m' a f = m a f) -> chain m k h stop -> chain m' k h stop.
Proof.
  revert h. induction k as [|[d x b s] k IH]; intros h H; cbn [chain cntk] in *; [auto|]. intros (H1 & H2 & H3 & H4 & H5 & H6).
  rewrite !H by (rewrite ?ind_refl; try lia; destruct d; reflexivity). conj; auto. apply IH; [|assumption]. intros a f Ha. apply H. lia.
Qed.

Lemma chain_link m d x a t (k : uctx) h h' stop : cntk a k = 0%nat -> chain m (F d x a t :: k) h stop -> chain (upd m a (side d) h') (F d x a t :: k) h' stop.
Proof.
  intros Ha. cbn [chain]. intros (H1 & H2 & H3 & H4 & H5 & H6). rewrite upd_same. rewrite !upd_other by (right; destruct d; discriminate). conj; auto.
  revert H6. apply chain_ext. intros b f Hb _. apply upd_other. left. intros ->. lia.
Qed.
Lemma seg_cb_ok : cb_ok rt (seg_callbacks fuel) Qd.
Proof.
  split; cbn [rotate copy propagate seg_callbacks].
  - intros m m' t H [H1 H2]. split; [apply (aug_rest sta en 0 m m' t H H1)|exact H2].
  - intros m t k l n b s c HT Hs [HQ Hf].
    assert (D := shape_at rt m t HT). destruct D as (_ & _ & D). rewrite Hs in D. apply apart_plug in D. pose proof (uzero rt k _ D) as H0. cbn [cnt] in H0.
    destruct (rotl_aug sta en rt 0 m t k l n b s c HT Hs HQ) as (m' & E1 & E2 & E3).
    + intros ->. rewrite ind_refl in H0. lia.
    + apply seen0. lia.
    + apply seen0. lia.
    + exists m'. conj; try assumption. split; [exact E3|]. rewrite Hs. rewrite (size_plug_eq k (T tt (T tt l n b) s c) (T tt l n (T tt b s c))); [exact Hf|cbn [size]; lia].
  - intros m t k l n b s c HT Hs [HQ Hf].
    assert (D := shape_at rt m t HT). destruct D as (_ & _ & D). rewrite Hs in D. apply apart_plug in D. pose proof (uzero rt k _ D) as H0. cbn [cnt] in H0.
    destruct (rotr_aug sta en rt 0 m t k l n b s c HT Hs HQ) as (m' & E1 & E2 & E3).
    + intros ->. rewrite ind_refl in H0. lia.
    + apply seen0. lia.
    + apply seen0. lia.
    + exists m'. conj; try assumption. split; [exact E3|]. rewrite Hs. rewrite (size_plug_eq k (T tt l s (T tt b n c)) (T tt (T tt l s b) n c)); [exact Hf|cbn [size]; lia].
  - intros m t k old new a HT Hs Ho [HQ Hf].
    assert (D := shape_at rt m t HT). destruct D as (_ & _ & D). rewrite Hs in D. apply apart_plug in D. assert (D0 := D 0). rewrite ind_refl in D0.
    assert (Hsz : (size t < fuel)%nat).
    { rewrite <- size_shape, Hs. rewrite size_plug_add in *. assert (size old = S (size new)) by (destruct Ho as [->| ->]; cbn [size]; lia). lia. }
    apply aug_plug in HQ. destruct HQ as [HA HK]. destruct (prop_root sta en rt fuel m t k new Hsz HT Hs) as (m' & E1 & E2 & E3).
    + apply (augk_stale sta en m k _ ltac:(lia) HK).
    + destruct Ho as [->| ->]; cbn [SegProofs.aug] in HA; tauto.
    + exists m'. conj; try assumption. split; [exact E3|]. rewrite size_shape. exact Hsz.
  - intros m t k l n s b HT Hs [HQ Hf]. rewrite Hs in HQ, Hf. assert (D := shape_at rt m t HT). destruct D as (_ & _ & D). rewrite Hs in D. apply apart_plug in D.
    apply aug_plug in HQ. destruct HQ as [(A1 & A2 & A3 & (w & A4 & A5) & Al & (B1 & B2 & B3 & (w' & B4 & B5) & _ & Ab)) HK].
    assert (Ds := D s). assert (D0 := D 0). cbn [cnt] in Ds, D0. rewrite ?ind_refl in Ds, D0. assert (Nn : n <> 0) by (intros ->; rewrite ind_refl in D0; lia).
    unfold seg_copy, ld. rewrite A4. rewrite (st_some _ _ _ _ _ B4). exists (upd m s SUBTREE w). conj; [reflexivity|apply same4_sub|].
    intros m2 t2 HT2 Hs2 R2. assert (Hsz : (size t2 < fuel)%nat).
    { rewrite <- size_shape, Hs2. rewrite size_plug_add in *. cbn [size] in *. lia. }
    assert (Hs2' : shape t2 = plug (F R tt s l :: k) b) by exact Hs2.
    destruct (prop_root sta en rt fuel m2 t2 (F R tt s l :: k) b Hsz HT2 Hs2') as (m3 & E1 & E2 & E3).
    + cbn [SegProofs.stale]. rewrite !R2 by (unfold START, END, SUBTREE; lia). rewrite upd_same. rewrite !upd_other by (right; discriminate). conj; try assumption.
      * apply (aug_rest sta en 0 _ m2 l R2). apply aug_upd; [lia|exact Al].
      * exists w. split; [reflexivity|]. apply (augk_rest sta en 0 _ m2 k w R2). apply augk_upd; [lia|]. rewrite (A5 Nn). exact HK.
    + apply (aug_rest sta en 0 _ m2 b R2). apply aug_upd; [lia|exact Ab].
    + exists m3. conj; try assumption. split; [exact E3|]. rewrite size_shape. exact Hsz.
  - intros m t k l n kr s b y HT Hs [HQ Hf] Nkr Hall Hy. rewrite Hs in HQ, Hf. assert (HU := shape_at rt m t HT). rewrite Hs in HU. pose proof HU as HU'. apply (tree_at_focus U rt m k) in HU'. destruct HU' as (_ & _ & D).
    apply aug_plug in HQ. destruct HQ as [HT0 HK]. cbn [SegProofs.aug] in HT0. destruct HT0 as (A1 & A2 & A3 & (w & A4 & A5) & Al & HR). apply aug_plug in HR. destruct HR as [(B1 & B2 & B3 & (w' & B4 & B5) & _ & Ab) HKR].
    assert (Ds := D s). assert (D0 := D 0). cbn [cnt] in Ds, D0. rewrite ?cnt_plug in Ds, D0. cbn [cnt] in Ds, D0. rewrite ?ind_refl in Ds, D0. assert (Nn : n <> 0) by (intros ->; rewrite ind_refl in D0; lia).
    assert (HU2 : tree_at U rt m (plug (kr ++ F R tt n l :: k) (T tt E s b))) by (rewrite plug_app; exact HU). apply tree_at_focus in HU2. destruct HU2 as (HC & _ & _). cbn [addr] in HC.
    pose (M := upd (upd (upd m (cpar kr) LEFT (addr b)) s RIGHT y) y PARENT s). fold M.
    assert (R0 : rest4 m M). { unfold M. intros a f Hf4. rewrite !upd_other by (right; unfold PARENT, RIGHT, LEFT; lia). reflexivity. }
    assert (Nsub : M n SUBTREE = Some w) by (rewrite R0 by (unfold SUBTREE; lia); exact A4). assert (Ssub : M s SUBTREE = Some w') by (rewrite R0 by (unfold SUBTREE; lia); exact B4).
    unfold seg_copy, ld. rewrite Nsub, (st_some _ _ _ _ _ Ssub). set (m2 := upd M s SUBTREE w).
    assert (Hyk : (cntk y kr > 0)%nat) by (rewrite Hy; apply addr_plug_in, Nkr).
    assert (HC2 : chain m2 kr (addr b) s).
    { apply chain_upd. destruct kr as [|[d x p t'] kr]; [congruence|]. assert (Hd : d = L) by (inversion Hall; assumption). subst d. cbn [cpar] in M.
      apply (chain_ext (upd (upd m y PARENT s) p LEFT (addr b))).
      - intros a f Ha _. unfold M. assert (Nas : a <> s) by (intros ->; lia). unfold upd. destruct (Z.eqb_spec a s); [congruence|]. cbn [andb]. destruct (Z.eqb_spec a p), (Z.eqb_spec a y), (Z.eqb_spec f PARENT), (Z.eqb_spec f LEFT); subst; cbn [andb]; try reflexivity; discriminate.
      - assert (Dp := D p). cbn [cnt] in Dp. rewrite cnt_plug in Dp. cbn [cntk] in Dp. rewrite ind_refl in Dp. apply (chain_link _ L x p t' kr s); [lia|]. rewrite Hy. apply (chain_far m (F R tt n l :: k) s (F L x p t' :: kr) s); [discriminate| |intros z|].
        + exact HC.
        + specialize (D z). cbn [cnt] in D. rewrite cnt_plug in D. cbn [cntk] in *. lia.
        + lia. }
    destruct (prop_ok sta en kr fuel m2 b s) as (m3 & E1 & E2 & E3).
    + pose proof (size_plug k (T tt l n (plug kr (T tt E s b)))) as Z1. cbn [size] in Z1. pose proof (size_plug kr (T tt E s b)) as Z2. cbn [size] in Z2. lia.
    + exact HC2.
    + intros z. specialize (D z). cbn [cnt] in D. rewrite cnt_plug in D. cbn [cnt] in D. lia.
    + apply (augk_stale sta en m2 kr (top (T tt E s b))); [lia|]. apply augk_upd; [lia|]. apply (augk_rest sta en 0 m M kr _ R0 HKR).
    + apply aug_upd; [lia|]. apply (aug_rest sta en 0 m M b R0 Ab).
    + exists m2, m3. assert (Est : start kr s = cpar kr) by (destruct kr as [|[]]; [congruence|reflexivity]). rewrite Est in E1. conj; [reflexivity|exact E1| |].
      * intros a f Hf4. rewrite E3 by (intros [_ ->]; unfold SUBTREE in Hf4; lia). unfold m2. apply upd_other. right. unfold SUBTREE. lia.
      * intros m4 t4 HT4 Hs4 R4. assert (Hsz : (size t4 < fuel)%nat).
        { rewrite <- size_shape, Hs4. rewrite size_plug_add in *. cbn [size] in *. rewrite (size_plug_add kr) in *. cbn [size] in *. lia. }
        assert (Hs4' : shape t4 = plug (F R tt s l :: k) (plug kr b)) by exact Hs4.
        assert (X : forall a, cntk a kr = 0%nat -> forall f, m3 a f = m2 a f) by (intros a Ha f; apply E3; intros [X _]; lia).
        assert (Al3 : aug 0 m3 l).
        { apply (aug_ext sta en 0 m2); [intros a f Ha _; apply X; specialize (D a); cbn [cnt] in D; rewrite cnt_plug in D; lia|]. apply aug_upd; [lia|]. apply (aug_rest sta en 0 m M l R0 Al). }
        destruct (prop_root sta en rt fuel m4 t4 (F R tt s l :: k) (plug kr b) Hsz HT4 Hs4') as (m5 & G1 & G2 & G3).
        -- cbn [SegProofs.stale]. rewrite !R4 by (unfold START, END, SUBTREE; lia). rewrite !X by lia. unfold m2. rewrite upd_same. rewrite !upd_other by (right; discriminate). rewrite !R0 by (unfold START, END; lia). conj; try assumption.
           ++ apply (aug_rest sta en 0 m3 m4 l R4 Al3).
           ++ exists w. split; [reflexivity|]. apply (augk_rest sta en 0 m3 m4 k w R4).
              apply (augk_ext sta en 0 m2); [intros a f Ha _; apply X; specialize (D a); cbn [cnt] in D; rewrite cnt_plug in D; lia|]. apply augk_upd; [lia|]. apply (augk_rest sta en 0 m M k w R0). rewrite (A5 Nn). exact HK.
        -- apply (aug_rest sta en 0 m3 m4 _ R4 E2).
        -- exists m5. conj; try assumption. split; [exact G3|]. rewrite size_shape. exact Hsz.
Qed.
Lemma compute_local n ex : Lx (fun m => compute_max m n ex).
Proof. unfold compute_max, max_child. repeat lstep. Qed.
Lemma seg_cb_local : cb_local (seg_callbacks fuel).
Proof.
  split; [|split]; intros a b; cbn [rotate copy propagate seg_callbacks].
  - unfold seg_rotate. repeat first [apply compute_local | lstep].
  - unfold seg_copy. repeat lstep.
  - clear. revert a. induction fuel as [|f IH]; intros a; cbn [seg_propagate]; repeat first [apply compute_local | apply IH | lstep].
Qed.
End Max.

(** ** The callbacks write nothing but [subtree] members *)
Definition sub_only (m m' : mem) : Prop := forall a f, f <> SUBTREE -> m' a f = m a f.
Lemma st_sub m a v m' : st m a SUBTREE v = Some m' -> sub_only m m'.
Proof. intros H. apply st_inv in H. destruct H as [_ ->]. intros b f Hf. apply upd_other. right. exact Hf. Qed.
Lemma compute_sub m n ex m' b : compute_max m n ex = Some (m', b) -> sub_only m m'.
Proof.
  unfold compute_max. repeat (match goal with |- context [match ?x with Some _ => _ | None => None end] => destruct x eqn:? end; [|discriminate]).
  match goal with |- (if ?c then _ else _) = _ -> _ => destruct c end; [intros H; inversion H; subst; intros ? ? _; reflexivity|].
  match goal with |- context [st ?m ?a ?f ?v] => destruct (st m a f v) eqn:E0 end; [|discriminate]. intros H. inversion H; subst. eapply st_sub; eassumption.
Qed.
Lemma rotate_sub m a b m' : seg_rotate m a b = Some m' -> sub_only m m'.
Proof.
  unfold seg_rotate. destruct (ld m a SUBTREE) as [s|]; [|discriminate]. destruct (st m b SUBTREE s) as [m1|] eqn:E1; [|discriminate]. destruct (compute_max m1 a false) as [[m2 x]|] eqn:E2; [|discriminate].
  intros H. injection H as <-. cbn [fst]. intros c f Hf. rewrite (compute_sub _ _ _ _ _ E2 c f Hf). apply (st_sub _ _ _ _ E1 c f Hf).
Qed.
Lemma copy_sub m a b m' : seg_copy m a b = Some m' -> sub_only m m'.
Proof. unfold seg_copy. destruct (ld m a SUBTREE) as [s|]; [|discriminate]. apply st_sub. Qed.
Lemma propagate_sub fuel : forall m a b m', seg_propagate fuel m a b = Some m' -> sub_only m m'.
Proof.
  induction fuel as [|fuel IH]; intros m a b m'; cbn [seg_propagate]; [discriminate|]. destruct (a =? b); [intros H; injection H as <-; intros ? ? _; reflexivity|].
  destruct (compute_max m a true) as [[m1 x]|] eqn:E1; [|discriminate]. cbn [fst snd]. pose proof (compute_sub _ _ _ _ _ E1) as S1. destruct x; [intros H; injection H as <-; exact S1|].
  destruct (ld m1 a PARENT) as [p|]; [|discriminate]. intros H c f Hf. rewrite (IH _ _ _ _ H c f Hf). apply S1, Hf.
Qed.
(** The other members of the nodes stay as in [m0]. *)
Definition others (m0 m : mem) : Prop := forall a f, 4 <= f -> f <> SUBTREE -> m a f = m0 a f.
Lemma others_sub m0 m m' : sub_only m m' -> others m0 m -> others m0 m'.
Proof. intros H1 H2 a f H3 H4. rewrite H1 by exact H4. apply H2; assumption. Qed.
Lemma others_rest m0 m m' : rest4 m m' -> others m0 m -> others m0 m'.
Proof. intros H1 H2 a f H3 H4. rewrite H1 by exact H3. apply H2; assumption. Qed.
Lemma others_rot rt fuel z Q m0 : rot_ok rt z (seg_callbacks fuel) Q -> rot_ok rt z (seg_callbacks fuel) (fun m t => Q m t /\ others m0 m).
Proof.
  intros ok. split; cbn [rotate seg_callbacks].
  - intros m m' t R [H1 H2]. split; [apply (z_rest _ _ _ _ ok m m' t R H1)|apply (others_rest m0 m m' R H2)].
  - intros m t k l n b s c H1 H2 [H3 H4] N0 N1 N2. destruct (z_rot_l _ _ _ _ ok m t k l n b s c H1 H2 H3 N0 N1 N2) as (m' & E1 & E2 & E3). exists m'. split; [exact E1|]. split; [exact E2|]. split; [exact E3|]. apply (others_sub m0 m); [apply (rotate_sub _ _ _ _ E1)|exact H4].
  - intros m t k l n b s c H1 H2 [H3 H4] N0 N1 N2. destruct (z_rot_r _ _ _ _ ok m t k l n b s c H1 H2 H3 N0 N1 N2) as (m' & E1 & E2 & E3). exists m'. split; [exact E1|]. split; [exact E2|]. split; [exact E3|]. apply (others_sub m0 m); [apply (rotate_sub _ _ _ _ E1)|exact H4].
Qed.
Lemma others_ok rt fuel Q m0 : cb_ok rt (seg_callbacks fuel) Q -> cb_ok rt (seg_callbacks fuel) (fun m t => Q m t /\ others m0 m).
Proof.
  intros ok. split; cbn [rotate copy propagate seg_callbacks].
  - intros m m' t R [H1 H2]. split; [apply (q_rest _ _ _ ok m m' t R H1)|apply (others_rest m0 m m' R H2)].
  - intros m t k l n b s c H1 H2 [H3 H4]. destruct (rot_l _ _ _ ok m t k l n b s c H1 H2 H3) as (m' & E1 & E2 & E3). exists m'. split; [exact E1|]. split; [exact E2|]. split; [exact E3|]. apply (others_sub m0 m); [apply (rotate_sub _ _ _ _ E1)|exact H4].
  - intros m t k l n b s c H1 H2 [H3 H4]. destruct (rot_r _ _ _ ok m t k l n b s c H1 H2 H3) as (m' & E1 & E2 & E3). exists m'. split; [exact E1|]. split; [exact E2|]. split; [exact E3|]. apply (others_sub m0 m); [apply (rotate_sub _ _ _ _ E1)|exact H4].
  - intros m t k old new a H1 H2 H3 [H4 H5]. destruct (prop_one _ _ _ ok m t k old new a H1 H2 H3 H4) as (m' & E1 & E2 & E3). exists m'. split; [exact E1|]. split; [exact E2|]. split; [exact E3|]. apply (others_sub m0 m); [apply (propagate_sub _ _ _ _ _ E1)|exact H5].
  - intros m t k l n s b H1 H2 [H3 H4]. destruct (copy_child _ _ _ ok m t k l n s b H1 H2 H3) as (m1 & E1 & E2 & E3). exists m1. split; [exact E1|]. split; [exact E2|]. intros m2 t2 G1 G2 G3.
    destruct (E3 m2 t2 G1 G2 G3) as (m3 & I1 & I2 & I3). exists m3. split; [exact I1|]. split; [exact I2|]. split; [exact I3|]. apply (others_sub m0 m2); [apply (propagate_sub _ _ _ _ _ I1)|]. apply (others_rest m0 m1 m2 G3). apply (others_sub m0 m); [apply (copy_sub _ _ _ _ E1)|exact H4].
  - intros m t k l n kr s b y H1 H2 [H3 H4] H5 H6 H7. destruct (copy_far _ _ _ ok m t k l n kr s b y H1 H2 H3 H5 H6 H7) as (m2 & m3 & E1 & E2 & E3 & E4). exists m2, m3. split; [exact E1|]. split; [exact E2|]. split; [exact E3|]. intros m4 t4 G1 G2 G3.
    destruct (E4 m4 t4 G1 G2 G3) as (m5 & I1 & I2 & I3). exists m5. split; [exact I1|]. split; [exact I2|]. split; [exact I3|]. apply (others_sub m0 m4); [apply (propagate_sub _ _ _ _ _ I1)|]. apply (others_rest m0 m3 m4 G3).
    apply (others_sub m0 m2); [apply (propagate_sub _ _ _ _ _ E2)|]. eapply (others_sub m0); [apply (copy_sub _ _ _ _ E1)|]. intros a f F1 F2. rewrite !upd_other by (right; unfold LEFT, RIGHT, PARENT; lia). apply H4; assumption.
Qed.
