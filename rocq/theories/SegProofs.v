(** * Interval trees: the callbacks keep the maxima *)
From Verif Require Import Lib Ptr Tree TiterModel TiterProofs RbModel RbProofs RbRotate RbSpec RbInsert RbRemove RbFrame SegModel.

Definition utree := tree unit.
Definition uctx := ctx unit.
(** Nothing is asked of the payload. *)
Definition U (m : mem) (a : Z) (x : unit) : Prop := True.
Lemma U_frame m m' a x : (forall f, 3 <= f -> m' a f = m a f) -> U m a x -> U m' a x.
Proof. intros _ H. exact H. Qed.
Lemma rep_shape m p t : rep V m p t -> rep U m p (shape t).
Proof.
  revert p. induction t as [|c l IHl a r IHr]; intros p; cbn [rep shape]; [auto|]. intros (H1 & H2 & H3 & H4 & H5 & H6). rewrite !addr_shape. unfold U. conj; auto.
Qed.
Lemma shape_at rt m t : tree_at V rt m t -> tree_at U rt m (shape t).
Proof.
  intros (H1 & H2 & D). split; [rewrite addr_shape; exact H1|]. split; [apply rep_shape, H2|]. intros z. specialize (D z). cbn [cntk] in *. rewrite cnt_shape. exact D.
Qed.
Lemma size_shape t : size (shape t) = size t.
Proof. induction t as [|c l IHl a r IHr]; [reflexivity|]. cbn [size shape]. lia. Qed.

Section Max.
(** The interval of each node. *)
Variable sta en : Z -> Z.
Definition val (a u v : Z) : Z := Z.max (en a) (Z.max u v).
Fixpoint top (t : utree) : Z := match t with E => 0 | T _ l a r => val a (top l) (top r) end.
(** The intervals are in memory and [subtree] is the greatest end of the subtree; for the node [z] it is anything. *)
Fixpoint aug (z : Z) (m : mem) (t : utree) : Prop :=
  match t with
  | E => True
  | T _ l a r => m a START = Some (sta a) /\ m a END = Some (en a) /\ 0 <= en a /\ (exists w, m a SUBTREE = Some w /\ (a <> z -> w = top t)) /\ aug z m l /\ aug z m r
  end.
Fixpoint augk (z : Z) (m : mem) (k : uctx) (v : Z) : Prop :=
  match k with
  | [] => True
  | F _ _ a s :: k => m a START = Some (sta a) /\ m a END = Some (en a) /\ 0 <= en a /\ (exists w, m a SUBTREE = Some w /\ (a <> z -> w = val a (top s) v)) /\ aug z m s /\ augk z m k (val a (top s) v)
  end.
Lemma val_comm a u v : val a u v = val a v u.
Proof. unfold val. lia. Qed.
Lemma aug_plug z m k : forall t, aug z m (plug k t) <-> aug z m t /\ augk z m k (top t).
Proof.
  induction k as [|[[|] x a s] k IH]; intros t; cbn [plug augk]; [tauto| |]; rewrite IH; cbn [up aug top].
  - rewrite (val_comm a (top s)). tauto.
  - tauto.
Qed.
Lemma top_nonneg t : 0 <= top t.
Proof. induction t as [|x l IHl a r IHr]; cbn [top]; [lia|]. unfold val. lia. Qed.
Lemma top_plug k : forall t t', top t = top t' -> top (plug k t) = top (plug k t').
Proof. induction k as [|[[|] x a s] k IH]; intros t t' H; cbn [plug]; [exact H| |]; apply IH; cbn [up top]; rewrite H; reflexivity. Qed.

(** [aug] reads only the fields of the interval. *)
Lemma aug_ext z m m' t : (forall a f, (cnt a t > 0)%nat -> 4 <= f -> m' a f = m a f) -> aug z m t -> aug z m' t.
Proof.
  induction t as [|x l IHl a r IHr]; intros H; cbn [aug cnt] in *; [auto|]. rewrite !H by (rewrite ?ind_refl; unfold START, END, SUBTREE; lia). intros (A1 & A2 & A3 & A4 & A5 & A6).
  conj; try assumption; [apply IHl|apply IHr]; try assumption; intros; apply H; lia.
Qed.
Lemma augk_ext z m m' k v : (forall a f, (cntk a k > 0)%nat -> 4 <= f -> m' a f = m a f) -> augk z m k v -> augk z m' k v.
Proof.
  revert v. induction k as [|[d x a s] k IH]; intros v H; cbn [augk cntk] in *; [auto|]. rewrite !H by (rewrite ?ind_refl; unfold START, END, SUBTREE; lia). intros (A1 & A2 & A3 & A4 & A5 & A6).
  conj; try assumption; [apply (aug_ext z m); [|assumption]|apply IH; [|assumption]]; intros; apply H; lia.
Qed.
Lemma aug_upd z m t a v : cnt a t = 0%nat -> aug z m t -> aug z (upd m a SUBTREE v) t.
Proof. intros H. apply aug_ext. intros b f Hb _. apply upd_other. left. intros ->. lia. Qed.
Lemma augk_upd z m k w a v : cntk a k = 0%nat -> augk z m k w -> augk z (upd m a SUBTREE v) k w.
Proof. intros H. apply augk_ext. intros b f Hb _. apply upd_other. left. intros ->. lia. Qed.
Lemma aug_rest z m m' t : rest4 m m' -> aug z m t -> aug z m' t.
Proof. intros H. apply aug_ext. intros a f _ Hf. apply H, Hf. Qed.
Lemma augk_rest z m m' k v : rest4 m m' -> augk z m k v -> augk z m' k v.
Proof. intros H. apply augk_ext. intros a f _ Hf. apply H, Hf. Qed.

Definition seen (z : Z) (t : utree) : Prop := t <> E -> addr t <> z.
Lemma max_child_ok z m t v : aug z m t -> cnt 0 t = 0%nat -> seen z t -> 0 <= v -> max_child m (addr t) v = Some (Z.max v (top t)).
Proof.
  intros HA H0 Hz Hv. unfold max_child. destruct t as [|x l a r]; cbn [addr top].
  - change (0 =? NULL) with true. cbn [negb]. f_equal. lia.
  - cbn [cnt] in H0. assert (Na : (a =? NULL) = false) by (apply Z.eqb_neq; intros ->; unfold NULL in H0; rewrite ind_refl in H0; lia). rewrite Na.
    cbn [aug] in HA. destruct HA as (_ & _ & _ & (w & Hw & Ew) & _). unfold ld. rewrite Hw, Ew by (apply Hz; discriminate). cbn [top]. f_equal. rewrite Z.gtb_ltb. destruct (Z.ltb_spec v (val a (top l) (top r))); lia.
Qed.
Lemma compute_ok z m n ex l r w : m n END = Some (en n) -> 0 <= en n -> m n LEFT = Some (addr l) -> m n RIGHT = Some (addr r) -> m n SUBTREE = Some w ->
  aug z m l -> aug z m r -> cnt 0 l = 0%nat -> cnt 0 r = 0%nat -> seen z l -> seen z r ->
  compute_max m n ex = Some (if ex && (w =? val n (top l) (top r)) then (m, true) else (upd m n SUBTREE (val n (top l) (top r)), false)).
Proof.
  intros H1 H2 H3 H4 H5 Hl Hr L0 R0 Zl Zr. unfold compute_max, ld. rewrite H1, H3. pose proof (top_nonneg l). rewrite (max_child_ok z m l (en n)) by assumption.
  rewrite H4. rewrite (max_child_ok z m r) by (try assumption; lia). rewrite H5. replace (Z.max (Z.max (en n) (top l)) (top r)) with (val n (top l) (top r)) by (unfold val; lia).
  destruct (ex && _); [reflexivity|]. rewrite (st_some _ _ _ _ _ H5). reflexivity.
Qed.

(** ** Rotations *)
Section Rt.
Variable rt : Z.
Lemma same4_sub m a v : same4 m (upd m a SUBTREE v).
Proof. intros b f Hf. apply upd_other. right. unfold SUBTREE. lia. Qed.
Lemma same4_trans m1 m2 m3 : same4 m1 m2 -> same4 m2 m3 -> same4 m1 m3.
Proof. intros H1 H2 a f Hf. rewrite (H2 a f Hf). apply H1, Hf. Qed.
Lemma uzero k (t : utree) : apart rt k t -> cnt 0 t = 0%nat.
Proof. intros D. specialize (D 0). rewrite ind_refl in D. lia. Qed.
Lemma rotl_aug z m t k l n b s c : tree_at V rt m t -> shape t = plug k (T tt (T tt l n b) s c) -> aug z m (plug k (T tt l n (T tt b s c))) ->
  n <> z -> seen z l -> seen z b -> exists m', seg_rotate m n s = Some m' /\ same4 m m' /\ aug z m' (shape t).
Proof.
  intros HT Hs HQ Nz Zl Zb. apply shape_at in HT. rewrite Hs in *. apply (tree_at_focus U rt m k) in HT. destruct HT as (Hk & Ht & D). cbn [rep addr] in Ht. destruct Ht as (S1 & S2 & S3 & _ & (N1 & N2 & N3 & _ & Hl & Hb) & Hc).
  apply aug_plug in HQ. destruct HQ as [(A1 & A2 & A3 & (w & A4 & A5) & Al & (B1 & B2 & B3 & (w' & B4 & B5) & Ab & Ac)) HK].
  assert (Dn := D n). assert (Ds := D s). assert (D0 := D 0). cbn [cnt] in Dn, Ds, D0. rewrite ?ind_refl in Dn, Ds, D0.
  assert (Nsn : s <> n) by (intros ->; rewrite ?ind_refl in Ds; lia).
  unfold seg_rotate, ld. rewrite A4. rewrite (st_some _ _ _ _ _ B4).
  assert (Hfr : aug z (upd m s SUBTREE w) l /\ aug z (upd m s SUBTREE w) b /\ aug z (upd m s SUBTREE w) c) by (conj; apply aug_upd; try assumption; lia).
  destruct Hfr as (F1 & F2 & F3).
  rewrite (compute_ok z _ n false l b w); rewrite ?upd_other by (left; congruence); try assumption; try lia. cbn [andb fst].
  eexists. split; [reflexivity|]. split; [apply (same4_trans _ (upd m s SUBTREE w)); apply same4_sub|]. apply aug_plug. split.
  - cbn [aug top]. conj; try (apply aug_upd; [lia|assumption]); rewrite ?upd_other by (right; discriminate); rewrite ?(upd_other _ _ _ _ n) by (left; congruence); try assumption.
    + exists w. rewrite upd_other by (left; exact Nsn). rewrite upd_same. split; [reflexivity|]. intros _. rewrite (A5 Nz). cbn [top]. unfold val. lia.
    + rewrite upd_same. eauto.
  - replace (top (T tt (T tt l n b) s c)) with (top (T tt l n (T tt b s c))) by (cbn [top]; unfold val; lia). do 2 (apply augk_upd; [lia|]). exact HK.
Qed.
Lemma rotr_aug z m t k l n b s c : tree_at V rt m t -> shape t = plug k (T tt l s (T tt b n c)) -> aug z m (plug k (T tt (T tt l s b) n c)) ->
  n <> z -> seen z b -> seen z c -> exists m', seg_rotate m n s = Some m' /\ same4 m m' /\ aug z m' (shape t).
Proof.
  intros HT Hs HQ Nz Zb Zc. apply shape_at in HT. rewrite Hs in *. apply (tree_at_focus U rt m k) in HT. destruct HT as (Hk & Ht & D). cbn [rep addr] in Ht. destruct Ht as (S1 & S2 & S3 & _ & Hl & (N1 & N2 & N3 & _ & Hb & Hc)).
  apply aug_plug in HQ. destruct HQ as [(A1 & A2 & A3 & (w & A4 & A5) & (B1 & B2 & B3 & (w' & B4 & B5) & Al & Ab) & Ac) HK].
  assert (Dn := D n). assert (Ds := D s). assert (D0 := D 0). cbn [cnt] in Dn, Ds, D0. rewrite ?ind_refl in Dn, Ds, D0.
  assert (Nsn : s <> n) by (intros ->; rewrite ?ind_refl in Ds; lia).
  unfold seg_rotate, ld. rewrite A4. rewrite (st_some _ _ _ _ _ B4).
  assert (Hfr : aug z (upd m s SUBTREE w) l /\ aug z (upd m s SUBTREE w) b /\ aug z (upd m s SUBTREE w) c) by (conj; apply aug_upd; try assumption; lia).
  destruct Hfr as (F1 & F2 & F3).
  rewrite (compute_ok z _ n false b c w); rewrite ?upd_other by (left; congruence); try assumption; try lia. cbn [andb fst].
  eexists. split; [reflexivity|]. split; [apply (same4_trans _ (upd m s SUBTREE w)); apply same4_sub|]. apply aug_plug. split.
  - cbn [aug top]. conj; try (apply aug_upd; [lia|assumption]); rewrite ?upd_other by (right; discriminate); rewrite ?(upd_other _ _ _ _ n) by (left; congruence); try assumption.
    + exists w. rewrite upd_other by (left; exact Nsn). rewrite upd_same. split; [reflexivity|]. intros _. rewrite (A5 Nz). cbn [top]. unfold val. lia.
    + rewrite upd_same. eauto.
  - replace (top (T tt l s (T tt b n c))) with (top (T tt (T tt l s b) n c)) by (cbn [top]; unfold val; lia). do 2 (apply augk_upd; [lia|]). exact HK.
Qed.
(** Insertion: the maxima of all nodes but the new one. *)
Lemma seg_rot_ok fuel z : rot_ok rt z (seg_callbacks fuel) (aug z).
Proof.
  split; cbn [rotate seg_callbacks].
  - intros m m' t. apply aug_rest.
  - intros m t k l n b s c H1 H2 H3 N0 N1 N2. apply (rotl_aug z m t k l n b s c H1 H2 H3 N0); intros _; assumption.
  - intros m t k l n b s c H1 H2 H3 N0 N1 N2. apply (rotr_aug z m t k l n b s c H1 H2 H3 N0); intros _; assumption.
Qed.

(** ** Propagation *)
Definition start (k : uctx) (stop : Z) : Z := match k with [] => stop | F _ _ a _ :: _ => a end.
(** The links along the path up to [stop]. *)
Fixpoint chain (m : mem) (k : uctx) (h stop : Z) : Prop :=
  match k with
  | [] => True
  | F d _ a s :: k => m a PARENT = Some (start k stop) /\ m a (side d) = Some h /\ m a (side (opp d)) = Some (addr s) /\ a <> stop /\ cnt 0 s = 0%nat /\ chain m k a stop
  end.
(** The lowest node of the path has some maximum, those above agree with it. *)
Definition stale (m : mem) (k : uctx) : Prop :=
  match k with
  | [] => True
  | F _ _ a s :: k => m a START = Some (sta a) /\ m a END = Some (en a) /\ 0 <= en a /\ aug 0 m s /\ exists w, m a SUBTREE = Some w /\ augk 0 m k w
  end.
Lemma augk_stale m k v : cntk 0 k = 0%nat -> augk 0 m k v -> stale m k.
Proof.
  destruct k as [|[d x a s] k]; cbn [augk stale cntk]; [auto|]. intros H0 (H1 & H2 & H3 & (w & H4 & H5) & H6 & H7). conj; try assumption. exists w. split; [exact H4|].
  rewrite H5; [exact H7|]. intros ->. rewrite ind_refl in H0. lia.
Qed.
Lemma chain_upd m k h stop a v : chain m k h stop -> chain (upd m a SUBTREE v) k h stop.
Proof.
  revert h. induction k as [|[d x b s] k IH]; intros h; cbn [chain]; [auto|]. intros (H1 & H2 & H3 & H4 & H5 & H6). rewrite !upd_other by (right; destruct d; discriminate). conj; auto.
Qed.
Lemma seen0 (t : utree) : cnt 0 t = 0%nat -> seen 0 t.
Proof. intros H N. destruct t as [|x l a r]; [congruence|]. cbn [addr cnt] in *. intros ->. rewrite ind_refl in H. lia. Qed.
Lemma prop_ok k : forall fuel m u stop, (length k < fuel)%nat -> chain m k (addr u) stop -> (forall z, ind z 0 + cntk z k + cnt z u <= 1)%nat -> stale m k -> aug 0 m u ->
  exists m', seg_propagate fuel m (start k stop) stop = Some m' /\ aug 0 m' (plug k u) /\ forall a f, ~ ((cntk a k > 0)%nat /\ f = SUBTREE) -> m' a f = m a f.
Proof.
  induction k as [|[d x a s] k IH]; intros fuel m u stop Hf HC D HS HA; (destruct fuel as [|fuel]; [cbn [length] in Hf; lia|]); cbn [seg_propagate start].
  - rewrite Z.eqb_refl. exists m. conj; [reflexivity|exact HA|reflexivity].
  - cbn [chain stale length] in *. destruct HC as (C1 & C2 & C3 & C4 & C5 & C6). destruct HS as (S1 & S2 & S3 & S4 & w & S5 & S6). rewrite (proj2 (Z.eqb_neq _ _) C4).
    assert (Da := D a). assert (D0 := D 0). cbn [cntk] in Da, D0. rewrite ind_refl in Da, D0.
    assert (Na : a <> 0) by (intros ->; rewrite ?ind_refl in D0; lia).
    assert (Ec : compute_max m a true = Some (if w =? val a (top s) (top u) then (m, true) else (upd m a SUBTREE (val a (top s) (top u)), false))).
    { destruct d; cbn [side opp] in *; [rewrite (compute_ok 0 m a true u s w), (val_comm a (top u))|rewrite (compute_ok 0 m a true s u w)]; try assumption; try lia; try (apply seen0; lia); reflexivity. }
    rewrite Ec. destruct (Z.eqb_spec w (val a (top s) (top u))) as [Ew|Nw]; cbn [snd fst].
    + exists m. conj; [reflexivity| |reflexivity]. apply aug_plug. split; [exact HA|]. cbn [augk]. conj; try assumption; [|rewrite <- Ew; exact S6]. exists w. auto.
    + pose (m1 := upd m a SUBTREE (val a (top s) (top u))). fold m1. unfold ld. unfold m1 at 1. rewrite upd_other by (right; discriminate). rewrite C1.
      assert (HA1 : aug 0 m1 (up (F d x a s) u)).
      { unfold m1. assert (B1 : aug 0 (upd m a SUBTREE (val a (top s) (top u))) u) by (apply aug_upd; [lia|exact HA]). assert (B2 : aug 0 (upd m a SUBTREE (val a (top s) (top u))) s) by (apply aug_upd; [lia|exact S4]).
        destruct d; cbn [up aug top]; conj; try assumption; rewrite ?upd_other by (right; discriminate); try assumption; rewrite upd_same; eexists; (split; [reflexivity|]); intros _; [apply val_comm|reflexivity]. }
      destruct (IH fuel m1 (up (F d x a s) u) stop) as (m' & E1 & E2 & E3).
      * lia.
      * apply chain_upd. destruct d; exact C6.
      * intros z. specialize (D z). cbn [cntk] in D. destruct d; cbn [up cnt]; lia.
      * apply (augk_stale m1 k w); [lia|]. apply augk_upd; [lia|exact S6].
      * exact HA1.
      * exists m'. conj; [exact E1|exact E2|]. intros b f Hn. cbn [cntk] in Hn. rewrite E3 by (intros [B1 B2]; apply Hn; split; [lia|exact B2]). unfold m1. apply upd_other.
        destruct (Z.eq_dec b a) as [->|Nb]; [|left; exact Nb]. right. intros ->. apply Hn. rewrite ind_refl. split; [lia|reflexivity].
Qed.
Lemma crep_chain m k h : crep U rt m k h -> (ind 0 0 + cntk 0 k <= 1)%nat -> chain m k h NULL.
Proof.
  revert h. induction k as [|[d x a s] k IH]; intros h; cbn [crep chain]; [auto|]. intros (H1 & H2 & H3 & _ & H5 & H6) D0. cbn [cntk] in D0. rewrite ind_refl in D0.
  conj; try assumption; try lia; [intros ->; unfold NULL in D0; rewrite ind_refl in D0; lia|apply IH; [exact H6|rewrite ind_refl; lia]].
Qed.
Lemma start_cpar k : start k NULL = cpar k.
Proof. destruct k as [|[]]; reflexivity. Qed.
Lemma prop_root fuel m t k u : (size t < fuel)%nat -> tree_at V rt m t -> shape t = plug k u -> stale m k -> aug 0 m u ->
  exists m', seg_propagate fuel m (cpar k) NULL = Some m' /\ same4 m m' /\ aug 0 m' (shape t).
Proof.
  intros Hf HT Hs HS HA. apply shape_at in HT. rewrite <- size_shape, Hs in Hf. rewrite Hs in *. apply (tree_at_focus U rt m k) in HT. destruct HT as (Hk & Ht & D).
  destruct (prop_ok k fuel m u NULL) as (m' & E1 & E2 & E3).
  - pose proof (size_plug k u). lia.
  - apply crep_chain; [exact Hk|]. specialize (D 0). lia.
  - intros z. specialize (D z). lia.
  - exact HS.
  - exact HA.
  - exists m'. rewrite start_cpar in E1. conj; [exact E1| |exact E2]. intros a f Hf4. apply E3. intros [_ ->]. unfold SUBTREE in Hf4. lia.
Qed.
End Rt.
End Max.
