(** * Augmented red-black trees: the callbacks keep the summaries *)
From Verif Require Import Lib Ptr Tree TiterModel TiterProofs RbModel RbProofs RbRotate RbSpec RbInsert RbRemove RbRemove2 RbFrame SegModel SegProofs SegProofs2 AugModel.

Section Sum.
Variable comb : option Z -> Z -> option Z -> Z.
(** The summary does not depend on how the nodes are put into a tree. *)
Hypothesis Hrot : forall l x b y r, comb (Some (comb l x b)) y r = comb l x (Some (comb b y r)).
(** The value of each node. *)
Variable dat : Z -> Z.
Notation compute := (compute comb).
Notation aug_rotate := (aug_rotate comb).
Notation aug_propagate := (aug_propagate comb).
Fixpoint top (t : utree) : option Z := match t with E => None | T _ l a r => Some (comb (top l) (dat a) (top r)) end.
Fixpoint aug (m : mem) (t : utree) : Prop :=
  match t with
  | E => True
  | T _ l a r => m a DATA = Some (dat a) /\ m a AUG = Some (comb (top l) (dat a) (top r)) /\ aug m l /\ aug m r
  end.
Definition vald (d : dir) (a : Z) (s v : option Z) : Z := match d with L => comb v (dat a) s | R => comb s (dat a) v end.
Fixpoint augk (m : mem) (k : uctx) (v : option Z) : Prop :=
  match k with
  | [] => True
  | F d _ a s :: k => m a DATA = Some (dat a) /\ m a AUG = Some (vald d a (top s) v) /\ aug m s /\ augk m k (Some (vald d a (top s) v))
  end.
Lemma aug_plug m k : forall t, aug m (plug k t) <-> aug m t /\ augk m k (top t).
Proof. induction k as [|[[|] x a s] k IH]; intros t; cbn [plug augk]; [tauto| |]; rewrite IH; cbn [up aug top vald]; tauto. Qed.
(** [aug] reads only the fields of the user. *)
Lemma aug_ext m m' t : (forall a f, (cnt a t > 0)%nat -> 4 <= f -> m' a f = m a f) -> aug m t -> aug m' t.
Proof.
  induction t as [|x l IHl a r IHr]; intros H; cbn [aug cnt] in *; [auto|]. rewrite !H by (rewrite ?ind_refl; unfold DATA, AUG; lia). intros (A1 & A2 & A5 & A6).
  conj; try assumption; [apply IHl|apply IHr]; try assumption; intros; apply H; lia.
Qed.
Lemma augk_ext m m' k v : (forall a f, (cntk a k > 0)%nat -> 4 <= f -> m' a f = m a f) -> augk m k v -> augk m' k v.
Proof.
  revert v. induction k as [|[d x a s] k IH]; intros v H; cbn [augk cntk] in *; [auto|]. rewrite !H by (rewrite ?ind_refl; unfold DATA, AUG; lia). intros (A1 & A2 & A5 & A6).
  conj; try assumption; [apply (aug_ext m); [|assumption]|apply IH; [|assumption]]; intros; apply H; lia.
Qed.
Lemma aug_upd m t a v : cnt a t = 0%nat -> aug m t -> aug (upd m a AUG v) t.
Proof. intros H. apply aug_ext. intros b f Hb _. apply upd_other. left. intros ->. lia. Qed.
Lemma augk_upd m k w a v : cntk a k = 0%nat -> augk m k w -> augk (upd m a AUG v) k w.
Proof. intros H. apply augk_ext. intros b f Hb _. apply upd_other. left. intros ->. lia. Qed.
Lemma aug_rest m m' t : rest4 m m' -> aug m t -> aug m' t.
Proof. intros H. apply aug_ext. intros a f _ Hf. apply H, Hf. Qed.
Lemma augk_rest m m' k v : rest4 m m' -> augk m k v -> augk m' k v.
Proof. intros H. apply augk_ext. intros a f _ Hf. apply H, Hf. Qed.

Lemma child_sum_ok m t : aug m t -> cnt 0 t = 0%nat -> child_sum m (addr t) = Some (top t).
Proof.
  intros HA H0. unfold child_sum. destruct t as [|x l a r]; cbn [addr top]; [reflexivity|].
  cbn [cnt] in H0. assert (Na : (a =? NULL) = false) by (apply Z.eqb_neq; intros ->; unfold NULL in H0; rewrite ind_refl in H0; lia). rewrite Na.
  cbn [aug] in HA. destruct HA as (_ & Hw & _). unfold ld. rewrite Hw. reflexivity.
Qed.
Lemma compute_ok m n ex l r w : m n DATA = Some (dat n) -> m n LEFT = Some (addr l) -> m n RIGHT = Some (addr r) -> m n AUG = Some w ->
  aug m l -> aug m r -> cnt 0 l = 0%nat -> cnt 0 r = 0%nat ->
  compute m n ex = Some (if ex && (w =? comb (top l) (dat n) (top r)) then (m, true) else (upd m n AUG (comb (top l) (dat n) (top r)), false)).
Proof.
  intros H1 H3 H4 H5 Hl Hr L0 R0. unfold AugModel.compute, ld. rewrite H1, H3, (child_sum_ok m l) by assumption. rewrite H4, (child_sum_ok m r) by assumption. rewrite H5.
  destruct (ex && _); [reflexivity|]. rewrite (st_some _ _ _ _ _ H5). reflexivity.
Qed.

Section Rt.
Variable rt : Z.
Lemma same4_aug m a v : same4 m (upd m a AUG v).
Proof. exact (same4_sub m a v). Qed.
Lemma rotl_aug m t k l n b s c : tree_at V rt m t -> shape t = plug k (T tt (T tt l n b) s c) -> aug m (plug k (T tt l n (T tt b s c))) ->
  exists m', aug_rotate m n s = Some m' /\ same4 m m' /\ aug m' (shape t).
Proof.
  intros HT Hs HQ. apply shape_at in HT. rewrite Hs in *. apply (tree_at_focus U rt m k) in HT. destruct HT as (Hk & Ht & D). cbn [rep addr] in Ht. destruct Ht as (S1 & S2 & S3 & _ & (N1 & N2 & N3 & _ & Hl & Hb) & Hc).
  apply aug_plug in HQ. destruct HQ as [(A1 & A4 & Al & (B1 & B4 & Ab & Ac)) HK].
  assert (Dn := D n). assert (Ds := D s). assert (D0 := D 0). cbn [cnt] in Dn, Ds, D0. rewrite ?ind_refl in Dn, Ds, D0.
  assert (Nsn : s <> n) by (intros ->; rewrite ?ind_refl in Ds; lia).
  set (w := comb (top l) (dat n) (top (T tt b s c))) in *.
  unfold AugModel.aug_rotate, ld. rewrite A4. rewrite (st_some _ _ _ _ _ B4).
  assert (Hfr : aug (upd m s AUG w) l /\ aug (upd m s AUG w) b /\ aug (upd m s AUG w) c) by (conj; apply aug_upd; try assumption; lia).
  destruct Hfr as (F1 & F2 & F3).
  rewrite (compute_ok _ n false l b w); rewrite ?upd_other by (left; congruence); try assumption; try lia. cbn [andb fst].
  assert (Ew : w = comb (Some (comb (top l) (dat n) (top b))) (dat s) (top c)) by (unfold w; cbn [top]; symmetry; apply Hrot).
  eexists. split; [reflexivity|]. split; [apply (same4_trans _ (upd m s AUG w)); apply same4_aug|]. apply aug_plug. split.
  - cbn [aug top]. conj; try (apply aug_upd; [lia|assumption]); rewrite ?upd_other by (right; discriminate); rewrite ?(upd_other _ _ _ _ n) by (left; congruence); try assumption.
    + rewrite upd_other by (left; exact Nsn). rewrite upd_same, Ew. reflexivity.
    + apply upd_same.
  - replace (top (T tt (T tt l n b) s c)) with (top (T tt l n (T tt b s c))) by (cbn [top]; f_equal; symmetry; apply Hrot). do 2 (apply augk_upd; [lia|]). exact HK.
Qed.
Lemma rotr_aug m t k l n b s c : tree_at V rt m t -> shape t = plug k (T tt l s (T tt b n c)) -> aug m (plug k (T tt (T tt l s b) n c)) ->
  exists m', aug_rotate m n s = Some m' /\ same4 m m' /\ aug m' (shape t).
Proof.
  intros HT Hs HQ. apply shape_at in HT. rewrite Hs in *. apply (tree_at_focus U rt m k) in HT. destruct HT as (Hk & Ht & D). cbn [rep addr] in Ht. destruct Ht as (S1 & S2 & S3 & _ & Hl & (N1 & N2 & N3 & _ & Hb & Hc)).
  apply aug_plug in HQ. destruct HQ as [(A1 & A4 & (B1 & B4 & Al & Ab) & Ac) HK].
  assert (Dn := D n). assert (Ds := D s). assert (D0 := D 0). cbn [cnt] in Dn, Ds, D0. rewrite ?ind_refl in Dn, Ds, D0.
  assert (Nsn : s <> n) by (intros ->; rewrite ?ind_refl in Ds; lia).
  set (w := comb (top (T tt l s b)) (dat n) (top c)) in *.
  unfold AugModel.aug_rotate, ld. rewrite A4. rewrite (st_some _ _ _ _ _ B4).
  assert (Hfr : aug (upd m s AUG w) l /\ aug (upd m s AUG w) b /\ aug (upd m s AUG w) c) by (conj; apply aug_upd; try assumption; lia).
  destruct Hfr as (F1 & F2 & F3).
  rewrite (compute_ok _ n false b c w); rewrite ?upd_other by (left; congruence); try assumption; try lia. cbn [andb fst].
  assert (Ew : w = comb (top l) (dat s) (Some (comb (top b) (dat n) (top c)))) by (unfold w; cbn [top]; apply Hrot).
  eexists. split; [reflexivity|]. split; [apply (same4_trans _ (upd m s AUG w)); apply same4_aug|]. apply aug_plug. split.
  - cbn [aug top]. conj; try (apply aug_upd; [lia|assumption]); rewrite ?upd_other by (right; discriminate); rewrite ?(upd_other _ _ _ _ n) by (left; congruence); try assumption.
    + rewrite upd_other by (left; exact Nsn). rewrite upd_same, Ew. reflexivity.
    + apply upd_same.
  - replace (top (T tt l s (T tt b n c))) with (top (T tt (T tt l s b) n c)) by (cbn [top]; f_equal; apply Hrot). do 2 (apply augk_upd; [lia|]). exact HK.
Qed.

(** ** Propagation *)
(** The lowest node of the path has some summary, those above agree with it. *)
Definition stale (m : mem) (k : uctx) : Prop :=
  match k with
  | [] => True
  | F _ _ a s :: k => m a DATA = Some (dat a) /\ aug m s /\ exists w, m a AUG = Some w /\ augk m k (Some w)
  end.
Lemma augk_stale m k v : augk m k v -> stale m k.
Proof. destruct k as [|[d x a s] k]; cbn [augk stale]; [auto|]. intros (H1 & H4 & H6 & H7). conj; try assumption. eauto. Qed.
Lemma prop_ok k : forall fuel m u stop, (length k < fuel)%nat -> chain m k (addr u) stop -> (forall z, ind z 0 + cntk z k + cnt z u <= 1)%nat -> stale m k -> aug m u ->
  exists m', aug_propagate fuel m (start k stop) stop = Some m' /\ aug m' (plug k u) /\ forall a f, ~ ((cntk a k > 0)%nat /\ f = AUG) -> m' a f = m a f.
Proof.
  induction k as [|[d x a s] k IH]; intros fuel m u stop Hf HC D HS HA; (destruct fuel as [|fuel]; [cbn [length] in Hf; lia|]); cbn [AugModel.aug_propagate start].
  - rewrite Z.eqb_refl. exists m. conj; [reflexivity|exact HA|reflexivity].
  - cbn [chain stale length] in *. destruct HC as (C1 & C2 & C3 & C4 & C5 & C6). destruct HS as (S1 & S4 & w & S5 & S6). rewrite (proj2 (Z.eqb_neq _ _) C4).
    assert (Da := D a). assert (D0 := D 0). cbn [cntk] in Da, D0. rewrite ind_refl in Da, D0.
    assert (Ec : compute m a true = Some (if w =? vald d a (top s) (top u) then (m, true) else (upd m a AUG (vald d a (top s) (top u)), false))).
    { destruct d; cbn [side opp vald] in *; [rewrite (compute_ok m a true u s w)|rewrite (compute_ok m a true s u w)]; try assumption; try lia; reflexivity. }
    rewrite Ec. destruct (Z.eqb_spec w (vald d a (top s) (top u))) as [Ew|Nw]; cbn [snd fst].
    + exists m. conj; [reflexivity| |reflexivity]. apply aug_plug. split; [exact HA|]. cbn [augk]. rewrite <- Ew. conj; assumption.
    + pose (m1 := upd m a AUG (vald d a (top s) (top u))). fold m1. unfold ld. unfold m1 at 1. rewrite upd_other by (right; discriminate). rewrite C1.
      assert (HA1 : aug m1 (up (F d x a s) u)).
      { unfold m1. assert (B1 : aug (upd m a AUG (vald d a (top s) (top u))) u) by (apply aug_upd; [lia|exact HA]). assert (B2 : aug (upd m a AUG (vald d a (top s) (top u))) s) by (apply aug_upd; [lia|exact S4]).
        destruct d; cbn [up aug top vald] in *; conj; try assumption; rewrite ?upd_other by (right; discriminate); try assumption; apply upd_same. }
      destruct (IH fuel m1 (up (F d x a s) u) stop) as (m' & E1 & E2 & E3).
      * lia.
      * apply chain_upd. destruct d; exact C6.
      * intros z. specialize (D z). cbn [cntk] in D. destruct d; cbn [up cnt]; lia.
      * apply (augk_stale m1 k (Some w)). apply augk_upd; [lia|exact S6].
      * exact HA1.
      * exists m'. conj; [exact E1|exact E2|]. intros b f Hn. cbn [cntk] in Hn. rewrite E3 by (intros [B1 B2]; apply Hn; split; [lia|exact B2]). unfold m1. apply upd_other.
        destruct (Z.eq_dec b a) as [->|Nb]; [|left; exact Nb]. right. intros ->. apply Hn. rewrite ind_refl. split; [lia|reflexivity].
Qed.
Lemma prop_root fuel m t k u : (size t < fuel)%nat -> tree_at V rt m t -> shape t = plug k u -> stale m k -> aug m u ->
  exists m', aug_propagate fuel m (cpar k) NULL = Some m' /\ same4 m m' /\ aug m' (shape t).
Proof.
  intros Hf HT Hs HS HA. apply shape_at in HT. rewrite <- size_shape, Hs in Hf. rewrite Hs in *. apply (tree_at_focus U rt m k) in HT. destruct HT as (Hk & Ht & D).
  destruct (prop_ok k fuel m u NULL) as (m' & E1 & E2 & E3).
  - pose proof (size_plug k u). lia.
  - apply (crep_chain rt); [exact Hk|]. specialize (D 0). lia.
  - intros z. specialize (D z). lia.
  - exact HS.
  - exact HA.
  - exists m'. rewrite start_cpar in E1. conj; [exact E1| |exact E2]. intros a f Hf4. apply E3. intros [_ ->]. unfold AUG in Hf4. lia.
Qed.

(** ** Deletion *)
Variable fuel : nat.
Definition Qa (m : mem) (t : utree) : Prop := aug m t /\ (size t < fuel)%nat.
Lemma aug_cb_ok : cb_ok rt (aug_callbacks comb fuel) Qa.
Proof.
  split; cbn [rotate copy propagate aug_callbacks].
  - intros m m' t H [H1 H2]. split; [apply (aug_rest m m' t H H1)|exact H2].
  - intros m t k l n b s c HT Hs [HQ Hf].
    destruct (rotl_aug m t k l n b s c HT Hs HQ) as (m' & E1 & E2 & E3).
    exists m'. conj; try assumption. split; [exact E3|]. rewrite Hs. rewrite (size_plug_eq k (T tt (T tt l n b) s c) (T tt l n (T tt b s c))); [exact Hf|cbn [size]; lia].
  - intros m t k l n b s c HT Hs [HQ Hf].
    destruct (rotr_aug m t k l n b s c HT Hs HQ) as (m' & E1 & E2 & E3).
    exists m'. conj; try assumption. split; [exact E3|]. rewrite Hs. rewrite (size_plug_eq k (T tt l s (T tt b n c)) (T tt (T tt l s b) n c)); [exact Hf|cbn [size]; lia].
  - intros m t k old new a HT Hs Ho [HQ Hf].
    assert (Hsz : (size t < fuel)%nat).
    { rewrite <- size_shape, Hs. rewrite size_plug_add in *. assert (size old = S (size new)) by (destruct Ho as [->| ->]; cbn [size]; lia). lia. }
    apply aug_plug in HQ. destruct HQ as [HA HK]. destruct (prop_root fuel m t k new Hsz HT Hs) as (m' & E1 & E2 & E3).
    + apply (augk_stale m k _ HK).
    + destruct Ho as [->| ->]; cbn [aug] in HA; tauto.
    + exists m'. conj; try assumption. split; [exact E3|]. rewrite size_shape. exact Hsz.
  - intros m t k l n s b HT Hs [HQ Hf]. rewrite Hs in HQ, Hf. assert (D := shape_at rt m t HT). destruct D as (_ & _ & D). rewrite Hs in D. apply apart_plug in D.
    apply aug_plug in HQ. destruct HQ as [(A1 & A4 & Al & (B1 & B4 & _ & Ab)) HK].
    assert (Ds := D s). assert (D0 := D 0). cbn [cnt] in Ds, D0. rewrite ?ind_refl in Ds, D0.
    set (w := comb (top l) (dat n) (top (T tt E s b))) in *.
    unfold aug_copy, ld. rewrite A4. rewrite (st_some _ _ _ _ _ B4). exists (upd m s AUG w). conj; [reflexivity|apply same4_aug|].
    intros m2 t2 HT2 Hs2 R2. assert (Hsz : (size t2 < fuel)%nat).
    { rewrite <- size_shape, Hs2. rewrite size_plug_add in *. cbn [size] in *. lia. }
    assert (Hs2' : shape t2 = plug (F R tt s l :: k) b) by exact Hs2.
    destruct (prop_root fuel m2 t2 (F R tt s l :: k) b Hsz HT2 Hs2') as (m3 & E1 & E2 & E3).
    + cbn [stale]. rewrite !R2 by (unfold DATA, AUG; lia). rewrite upd_same. rewrite !upd_other by (right; discriminate). conj; try assumption.
      * apply (aug_rest _ m2 l R2). apply aug_upd; [lia|exact Al].
      * exists w. split; [reflexivity|]. apply (augk_rest _ m2 k _ R2). apply augk_upd; [lia|]. exact HK.
    + apply (aug_rest _ m2 b R2). apply aug_upd; [lia|exact Ab].
    + exists m3. conj; try assumption. split; [exact E3|]. rewrite size_shape. exact Hsz.
  - intros m t k l n kr s b y HT Hs [HQ Hf] Nkr Hall Hy. rewrite Hs in HQ, Hf. assert (HU := shape_at rt m t HT). rewrite Hs in HU. pose proof HU as HU'. apply (tree_at_focus U rt m k) in HU'. destruct HU' as (_ & _ & D).
    apply aug_plug in HQ. destruct HQ as [HT0 HK]. cbn [aug] in HT0. destruct HT0 as (A1 & A4 & Al & HR). apply aug_plug in HR. destruct HR as [(B1 & B4 & _ & Ab) HKR].
    cbn [top] in HK. set (w := comb (top l) (dat n) (top (plug kr (T tt E s b)))) in *. set (w' := comb (top E) (dat s) (top b)) in *.
    assert (Ds := D s). assert (D0 := D 0). cbn [cnt] in Ds, D0. rewrite ?cnt_plug in Ds, D0. cbn [cnt] in Ds, D0. rewrite ?ind_refl in Ds, D0.
    assert (HU2 : tree_at U rt m (plug (kr ++ F R tt n l :: k) (T tt E s b))) by (rewrite plug_app; exact HU). apply tree_at_focus in HU2. destruct HU2 as (HC & _ & _). cbn [addr] in HC.
    pose (M := upd (upd (upd m (cpar kr) LEFT (addr b)) s RIGHT y) y PARENT s). fold M.
    assert (R0 : rest4 m M). { unfold M. intros a f Hf4. rewrite !upd_other by (right; unfold PARENT, RIGHT, LEFT; lia). reflexivity. }
    assert (Nsub : M n AUG = Some w) by (rewrite R0 by (unfold AUG; lia); exact A4). assert (Ssub : M s AUG = Some w') by (rewrite R0 by (unfold AUG; lia); exact B4).
    unfold aug_copy, ld. rewrite Nsub, (st_some _ _ _ _ _ Ssub). set (m2 := upd M s AUG w).
    assert (Hyk : (cntk y kr > 0)%nat) by (rewrite Hy; apply addr_plug_in, Nkr).
    assert (HC2 : chain m2 kr (addr b) s).
    { apply chain_upd. destruct kr as [|[d x p t'] kr]; [congruence|]. assert (Hd : d = L) by (inversion Hall; assumption). subst d. cbn [cpar] in M.
      apply (chain_ext (upd (upd m y PARENT s) p LEFT (addr b))).
      - intros a f Ha _. unfold M. assert (Nas : a <> s) by (intros ->; lia). unfold upd. destruct (Z.eqb_spec a s); [congruence|]. cbn [andb]. destruct (Z.eqb_spec a p), (Z.eqb_spec a y), (Z.eqb_spec f PARENT), (Z.eqb_spec f LEFT); subst; cbn [andb]; try reflexivity; discriminate.
      - assert (Dp := D p). cbn [cnt] in Dp. rewrite cnt_plug in Dp. cbn [cntk] in Dp. rewrite ind_refl in Dp. apply (chain_link _ L x p t' kr s); [lia|]. rewrite Hy. apply (chain_far rt m (F R tt n l :: k) s (F L x p t' :: kr) s); [discriminate| |intros z|].
        + exact HC.
        + specialize (D z). cbn [cnt] in D. rewrite cnt_plug in D. cbn [cntk] in *. lia.
        + lia. }
    destruct (prop_ok kr fuel m2 b s) as (m3 & E1 & E2 & E3).
    + pose proof (size_plug k (T tt l n (plug kr (T tt E s b)))) as Z1. cbn [size] in Z1. pose proof (size_plug kr (T tt E s b)) as Z2. cbn [size] in Z2. lia.
    + exact HC2.
    + intros z. specialize (D z). cbn [cnt] in D. rewrite cnt_plug in D. cbn [cnt] in D. lia.
    + apply (augk_stale m2 kr (top (T tt E s b))). apply augk_upd; [lia|]. apply (augk_rest m M kr _ R0 HKR).
    + apply aug_upd; [lia|]. apply (aug_rest m M b R0 Ab).
    + exists m2, m3. assert (Est : start kr s = cpar kr) by (destruct kr as [|[]]; [congruence|reflexivity]). rewrite Est in E1. conj; [reflexivity|exact E1| |].
      * intros a f Hf4. rewrite E3 by (intros [_ ->]; unfold AUG in Hf4; lia). unfold m2. apply upd_other. right. unfold AUG. lia.
      * intros m4 t4 HT4 Hs4 R4. assert (Hsz : (size t4 < fuel)%nat).
        { rewrite <- size_shape, Hs4. rewrite size_plug_add in *. cbn [size] in *. rewrite (size_plug_add kr) in *. cbn [size] in *. lia. }
        assert (Hs4' : shape t4 = plug (F R tt s l :: k) (plug kr b)) by exact Hs4.
        assert (X : forall a, cntk a kr = 0%nat -> forall f, m3 a f = m2 a f) by (intros a Ha f; apply E3; intros [X _]; lia).
        assert (Al3 : aug m3 l).
        { apply (aug_ext m2); [intros a f Ha _; apply X; specialize (D a); cbn [cnt] in D; rewrite cnt_plug in D; lia|]. apply aug_upd; [lia|]. apply (aug_rest m M l R0 Al). }
        destruct (prop_root fuel m4 t4 (F R tt s l :: k) (plug kr b) Hsz HT4 Hs4') as (m5 & G1 & G2 & G3).
        -- cbn [stale]. rewrite !R4 by (unfold DATA, AUG; lia). rewrite !X by lia. unfold m2. rewrite upd_same. rewrite !upd_other by (right; discriminate). rewrite !R0 by (unfold DATA; lia). conj; try assumption.
           ++ apply (aug_rest m3 m4 l R4 Al3).
           ++ exists w. split; [reflexivity|]. apply (augk_rest m3 m4 k _ R4).
              apply (augk_ext m2); [intros a f Ha _; apply X; specialize (D a); cbn [cnt] in D; rewrite cnt_plug in D; lia|]. apply augk_upd; [lia|]. apply (augk_rest m M k _ R0). exact HK.
        -- apply (aug_rest m3 m4 _ R4 E2).
        -- exists m5. conj; try assumption. split; [exact G3|]. rewrite size_shape. exact Hsz.
Qed.
Lemma compute_local n ex : Lx (fun m => compute m n ex).
Proof. unfold AugModel.compute, child_sum. repeat lstep. Qed.
Lemma aug_cb_local : cb_local (aug_callbacks comb fuel).
Proof.
  split; [|split]; intros a b; cbn [rotate copy propagate aug_callbacks].
  - unfold AugModel.aug_rotate. repeat first [apply compute_local | lstep].
  - unfold aug_copy. repeat lstep.
  - clear. revert a. induction fuel as [|f IH]; intros a; cbn [AugModel.aug_propagate]; repeat first [apply compute_local | apply IH | lstep].
Qed.
End Rt.
End Sum.
