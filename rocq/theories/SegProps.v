(** * C57: interval trees *)
From Coq Require Import Sorting.Sorted.
From Verif Require Import Lib Ptr Tree TiterModel TiterProofs RbModel RbProofs RbRotate RbSpec RbInsert RbRemove RbDelete RbFrame RbOps RbOps2 SegModel SegProofs SegProofs2 SegOps SegSpec.

Section Seg.
Variable sta en : Z -> Z.
Variable rt : Z.
Notation aug := (aug sta en).
Notation augk := (augk sta en).
Notation top := (top en).

(** ** Insertion *)
Lemma aug_weak z m (t : utree) : cnt 0 t = 0%nat -> aug 0 m t -> aug z m t.
Proof.
  induction t as [|x l IHl a r IHr]; cbn [SegProofs.aug cnt]; [auto|]. intros H0 (A1 & A2 & A3 & (w & A4 & A5) & A6 & A7). conj; try assumption; try (apply IHl; [lia|assumption]); try (apply IHr; [lia|assumption]).
  exists w. split; [exact A4|]. intros _. apply A5. intros ->. rewrite ind_refl in H0. lia.
Qed.
Lemma augk_weak z m (k : uctx) v : cntk 0 k = 0%nat -> augk 0 m k v -> augk z m k v.
Proof.
  revert v. induction k as [|[d x a s] k IH]; intros v; cbn [SegProofs.augk cntk]; [auto|]. intros H0 (A1 & A2 & A3 & (w & A4 & A5) & A6 & A7). conj; try assumption; try (apply aug_weak; [lia|assumption]); try (apply IH; [lia|assumption]).
  exists w. split; [exact A4|]. intros _. apply A5. intros ->. rewrite ind_refl in H0. lia.
Qed.
Lemma cntk_shapek z (k : bctx) : cntk z (shapek k) = cntk z k.
Proof. induction k as [|[d x a s] k IH]; [reflexivity|]. cbn [shapek cntk]. rewrite cnt_shape, IH. reflexivity. Qed.
Definition gap (s : Z) (k : bctx) : Prop := Forall (fun x => sta x <= s) (before k) /\ Forall (fun x => s < sta x) (after k).
Lemma seg_loop_ok s e fuel : forall m (k : bctx) u lm, 0 <= e -> (size u < fuel)%nat -> tree_at V rt m (plug k u) -> aug 0 m (shape u) -> augk 0 m (shapek k) (Z.max (top (shape u)) e) ->
  gap s k -> by_start sta (inorder (plug k u)) -> (lm = true <-> before k = []) ->
  exists m' k' lm', seg_loop fuel m s e (loc rt k, lfield k) (cpar k) lm = Some (m', (cpar k', (loc rt k', lfield k'), lm')) /\ plug k' E = plug k u /\ augk 0 m' (shapek k') e /\ gap s k' /\
    (lm' = true <-> before k' = []) /\ dom m m' /\ forall a f, ~ ((cnt a (plug k u) > 0)%nat /\ f = SUBTREE) -> m' a f = m a f.
Proof.
  induction fuel as [|fuel IH]; intros m k u lm He Hf HT HA HK [G1 G2] Hs HL; [lia|]. pose proof HT as HF. apply tree_at_focus in HF. destruct HF as (Hk & Hr & D).
  cbn [seg_loop]. unfold ld. cbn [fst snd]. rewrite (crep_loc V rt m k _ Hk). destruct u as [|c l a r].
  - change (addr E =? NULL) with true. cbn iota. exists m, k, lm. cbn [shape SegProofs.top] in HK. rewrite Z.max_r in HK by lia. conj; try reflexivity; try assumption; try tauto.
    + split; assumption.
    + apply dom_refl.
  - assert (D0 := D 0). assert (Da := D a). cbn [cnt addr] in *. rewrite ind_refl in D0, Da. assert (Na : a <> 0) by (intros ->; rewrite ind_refl in D0; lia). rewrite (proj2 (Z.eqb_neq a NULL) Na).
    cbn [shape SegProofs.aug SegProofs.top] in *. destruct HA as (A1 & A2 & A3 & (w & A4 & A5) & Al & Ar). specialize (A5 Na). rewrite A4.
    pose (w' := Z.max w e). pose (m1 := if w <? e then upd m a SUBTREE e else m).
    assert (E1 : (if w <? e then st m a SUBTREE e else Some m) = Some m1) by (unfold m1; destruct (w <? e); [apply (st_some _ _ _ _ _ A4)|reflexivity]). rewrite E1.
    assert (M1 : forall b f, ~ (b = a /\ f = SUBTREE) -> m1 b f = m b f).
    { intros b f Hn. unfold m1. destruct (w <? e); [|reflexivity]. apply upd_other. destruct (Z.eq_dec b a); [right; tauto|left; assumption]. }
    assert (M2 : m1 a SUBTREE = Some w') by (unfold m1, w'; destruct (Z.ltb_spec w e); [rewrite upd_same; f_equal; lia|rewrite A4; f_equal; lia]).
    rewrite (M1 a START) by (intros [_ X]; discriminate X). rewrite A1.
    assert (HT1 : tree_at V rt m1 (plug k (T c l a r))).
    { apply (tree_at_same4 rt m); [|exact HT]. intros b f Hf4. apply M1. intros [_ ->]. unfold SUBTREE in Hf4. lia. }
    assert (Al1 : aug 0 m1 (shape l)) by (apply (aug_ext sta en 0 m); [|exact Al]; intros b f Hb _; apply M1; intros [-> _]; rewrite cnt_shape in Hb; lia).
    assert (Ar1 : aug 0 m1 (shape r)) by (apply (aug_ext sta en 0 m); [|exact Ar]; intros b f Hb _; apply M1; intros [-> _]; rewrite cnt_shape in Hb; lia).
    assert (HK1 : augk 0 m1 (shapek k) (Z.max (val en a (top (shape l)) (top (shape r))) e)).
    { apply (augk_ext sta en 0 m); [|exact HK]. intros b f Hb _. apply M1. intros [-> _]. rewrite cntk_shapek in Hb. lia. }
    assert (A1' : m1 a START = Some (sta a)) by (rewrite M1 by (intros [_ X]; discriminate X); exact A1). assert (A2' : m1 a END = Some (en a)) by (rewrite M1 by (intros [_ X]; discriminate X); exact A2).
    assert (Hdom : dom m m1). { intros b f. unfold m1. destruct (w <? e); [|tauto]. unfold upd. destruct ((b =? a) && (f =? SUBTREE)) eqn:B; [|tauto]. apply andb_true_iff in B. destruct B as [B1 B2]. apply Z.eqb_eq in B1, B2. subst. rewrite A4. split; discriminate. }
    pose proof Hs as Hs'. rewrite inorder_plug in Hs'. cbn [inorder] in Hs'. rewrite <- app_assoc, <- app_comm_cons in Hs'. rewrite app_assoc in Hs'. destruct (by_start_app sta _ _ Hs') as (_ & S2 & S3). apply StronglySorted_inv in S2. destruct S2 as [_ S2]. rewrite Forall_forall in S2.
    cbn [size] in Hf.
    destruct (Z.ltb_spec s (sta a)) as [B|B].
    + destruct (IH m1 (F L c a r :: k) l lm) as (m' & k' & lm' & H1 & H2 & H3 & H4 & H5 & H6 & H7); try assumption.
      * lia.
      * cbn [shapek SegProofs.augk]. conj; try assumption.
        -- exists w'. split; [exact M2|]. intros _. unfold w'. rewrite A5. unfold val. lia.
        -- replace (val en a (top (shape r)) (Z.max (top (shape l)) e)) with (Z.max (val en a (top (shape l)) (top (shape r))) e) by (unfold val; lia). exact HK1.
      * split; cbn [before after]; [exact G1|]. constructor; [exact B|]. rewrite Forall_forall. intros y Hy. specialize (S2 y Hy). lia.
      * exists m', k', lm'. conj; try assumption; [apply (dom_trans _ m1); assumption|]. intros b f Hn. rewrite H7 by exact Hn. apply M1. intros [-> ->]. apply Hn. split; [|reflexivity]. cbn [plug up]. rewrite cnt_plug. cbn [cnt]. rewrite ind_refl. lia.
    + destruct (IH m1 (F R c a l :: k) r false) as (m' & k' & lm' & H1 & H2 & H3 & H4 & H5 & H6 & H7); try assumption.
      * lia.
      * cbn [shapek SegProofs.augk]. conj; try assumption.
        -- exists w'. split; [exact M2|]. intros _. unfold w'. rewrite A5. unfold val. lia.
        -- replace (val en a (top (shape l)) (Z.max (top (shape r)) e)) with (Z.max (val en a (top (shape l)) (top (shape r))) e) by (unfold val; lia). exact HK1.
      * split; cbn [before after]; [|exact G2]. rewrite app_assoc. apply Forall_app. split; [|constructor; [exact B|constructor]]. rewrite Forall_forall. intros y Hy. specialize (S3 y a Hy (or_introl eq_refl)). lia.
      * cbn [before]. split; [discriminate|]. destruct (before k), (inorder l); discriminate.
      * exists m', k', lm'. conj; try assumption; [apply (dom_trans _ m1); assumption|]. intros b f Hn. rewrite H7 by exact Hn. apply M1. intros [-> ->]. apply Hn. split; [|reflexivity]. cbn [plug up]. rewrite cnt_plug. cbn [cnt]. rewrite ind_refl. lia.
Qed.
Lemma put_split n l1 l2 : Forall (fun x => sta x <= sta n) l1 -> Forall (fun x => sta n < sta x) l2 -> put sta n (l1 ++ l2) = l1 ++ n :: l2.
Proof.
  intros H1 H2. induction H1 as [|x l1 Hx _ IH]; cbn [app put].
  - destruct l2 as [|y l2]; [reflexivity|]. cbn [put]. apply Forall_inv in H2. rewrite (proj2 (Z.ltb_lt _ _) H2). reflexivity.
  - rewrite (proj2 (Z.ltb_ge _ _) Hx). rewrite IH. reflexivity.
Qed.
Lemma put_sorted n l1 l2 : Forall (fun x => sta x <= sta n) l1 -> Forall (fun x => sta n < sta x) l2 -> by_start sta (l1 ++ l2) -> by_start sta (l1 ++ n :: l2).
Proof.
  intros H1 H2 HS. induction H1 as [|x l1 Hx H1 IH]; cbn [app] in *.
  - constructor; [exact HS|]. revert H2. apply Forall_impl. intros; lia.
  - apply StronglySorted_inv in HS. destruct HS as [S1 S2]. constructor; [apply IH, S1|]. apply Forall_app in S2. apply Forall_app. split; [apply S2|]. constructor; [exact Hx|apply S2].
Qed.

(** The memory holds the intervals [l] of the tree [t] and the first of them is cached. *)
Definition held (m : mem) (t : btree) (l : list Z) : Prop :=
  tree_at V rt m t /\ redblack t /\ inorder t = l /\ by_start sta l /\ m rt LEFTMOST = Some (hd 0 l).
(** Every [subtree] member is the greatest end in its subtree. *)
Definition exact (m : mem) (t : btree) : Prop := aug 0 m (shape t).
(** A node object with its interval; the [subtree] member is there but may hold anything. *)
Definition interval_node (m : mem) (n : Z) : Prop :=
  node_at m n /\ n <> 0 /\ n <> rt /\ m n START = Some (sta n) /\ m n END = Some (en n) /\ 0 <= en n /\ m n SUBTREE <> None.
Definition frame (m m' : mem) : Prop := dom m m' /\ forall a f, 4 <= f -> f <> SUBTREE -> m' a f = m a f.
Lemma frame_node m m' n : frame m m' -> interval_node m n -> interval_node m' n.
Proof.
  intros [D K] (H1 & H2 & H3 & H4 & H5 & H6 & H7). unfold interval_node. rewrite (K n START), (K n END) by (unfold START, END, SUBTREE; lia). conj; try assumption.
  - intros f Hf E0. apply D in E0. apply (H1 f Hf E0).
  - intros E0. apply D in E0. apply (H7 E0).
Qed.
Lemma frame_refl m : frame m m.
Proof. split; [apply dom_refl|reflexivity]. Qed.
Lemma frame_trans m1 m2 m3 : frame m1 m2 -> frame m2 m3 -> frame m1 m3.
Proof. intros [A B] [C D]. split; [eapply dom_trans; eassumption|]. intros a f H1 H2. rewrite D, B by assumption. reflexivity. Qed.

(** START and END of tree nodes are as [aug] says, before and after. *)
Lemma aug_fields z m (t : utree) a : aug z m t -> (cnt a t > 0)%nat -> m a START = Some (sta a) /\ m a END = Some (en a).
Proof.
  induction t as [|x l IHl b r IHr]; cbn [SegProofs.aug cnt]; [lia|]. intros (A1 & A2 & _ & _ & A3 & A4) Hc. destruct (Z.eq_dec a b) as [->|N]; [tauto|]. rewrite (ind_ne _ _ N) in Hc. destruct (cnt a l) eqn:C; [apply IHr; [assumption|lia]|apply IHl; [assumption|lia]].
Qed.

(** Insertion: the tree is right, and so are all maxima but perhaps that of the new node, which is its own end. *)
Theorem C57_insert_partial fuel m t l n : (length l < fuel)%nat -> held m t l -> exact m t -> interval_node m n -> ~ In n l ->
  exists m' t', seg_insert fuel m rt n = Some m' /\ held m' t' (put sta n l) /\ aug n m' (shape t') /\ m' n SUBTREE = Some (en n) /\ frame m m'.
Proof.
  intros Hf (HT & Hrb & Hi & Hs & HLm) HA (HN & N0 & N1 & Hst & Hen & He0 & Hsub) Hni. assert (Hsz : size t = length l) by (rewrite size_inorder, Hi; reflexivity).
  assert (Hc : cnt n t = 0%nat) by (apply cnt_zero_in; rewrite Hi; exact Hni).
  unfold seg_insert, ld. rewrite Hst, Hen.
  destruct (seg_loop_ok (sta n) (en n) fuel m [] t true) as (m1 & k & lm & E1 & E2 & HK & [G1 G2] & Hlm & Dm1 & Fr1); try assumption.
  { lia. } { cbn [shapek SegProofs.augk]. exact I. } { split; constructor. } { cbn [plug]. rewrite Hi. exact Hs. } { split; reflexivity. }
  cbn [loc lfield cpar] in E1. change NULL with 0. rewrite E1. cbn [plug] in E2. rewrite <- E2 in *.
  assert (Hl : l = before k ++ after k) by (rewrite <- Hi, inorder_plug; reflexivity).
  assert (HT1 : tree_at V rt m1 (plug k E)) by (apply (tree_at_same4 rt m); [|exact HT]; intros b f Hf4; apply Fr1; intros [_ ->]; unfold SUBTREE in Hf4; lia).
  assert (HN1 : node_at m1 n) by (intros f Hf4 E0; apply Dm1 in E0; apply (HN f Hf4 E0)).
  assert (Drt := proj2 (proj2 HT)). assert (Crt : cnt rt (plug k E) = 0%nat) by (specialize (Drt rt); rewrite ind_refl in Drt; lia).
  assert (Hlm1 : m1 rt LEFTMOST = Some (hd 0 l)) by (rewrite Fr1; [exact HLm|]; intros [X _]; cbn [plug] in X; lia).
  assert (Hns : m1 n START = Some (sta n) /\ m1 n END = Some (en n) /\ m1 n SUBTREE = m n SUBTREE) by (rewrite !Fr1 by (intros [X _]; cbn [plug] in X; lia); tauto). destruct Hns as (Ns1 & Ne1 & Nb1).
  assert (HQ : aug n m1 (plug (shapek k) (T tt E n E))).
  { apply aug_plug. cbn [SegProofs.aug SegProofs.top]. replace (val en n 0 0) with (en n) by (unfold val; lia). conj; try assumption; try exact I.
    - rewrite Nb1. destruct (m n SUBTREE) as [w|]; [|congruence]. exists w. split; [reflexivity|congruence].
    - apply augk_weak; [|exact HK]. rewrite cntk_shapek. specialize (Drt 0). cbn [cntk] in Drt. rewrite cnt_plug, ind_refl in Drt. lia. }
  destruct (link_fixup rt (seg_callbacks fuel) (fun m t => aug n m t /\ others m1 m) (z_rest _ _ _ _ (others_rot rt fuel n _ m1 (seg_rot_ok sta en rt fuel n))) (seg_cb_local fuel) fuel m1 k n ltac:(lia) HT1 Hrb HN1 N0 N1 Hc (others_rot rt fuel n _ m1 (seg_rot_ok sta en rt fuel n)) (conj HQ (fun _ _ _ _ => eq_refl))) as (m2 & L1 & K1 & R2 & Hfx).
  assert (Crt' : cnt rt (plug k (T false E n E)) = 0%nat) by (rewrite cnt_plug in *; cbn [cnt] in *; rewrite (ind_ne rt n) by congruence; lia).
  assert (L2m : m2 rt LEFTMOST = Some (hd 0 l)) by (destruct K1 as [_ K1]; rewrite K1; [exact Hlm1|reflexivity|exact Crt'|intros [_ X]; discriminate X]).
  pose (m3 := if lm then upd m2 rt LEFTMOST n else m2).
  assert (E3 : (if lm then st m2 rt LEFTMOST n else Some m2) = Some m3) by (unfold m3; destruct lm; [apply (st_some _ _ _ _ _ L2m)|reflexivity]).
  destruct (Hfx m3) as (m4 & t' & F1 & [F2 [F2' Fo]] & F3 & F4 & F5).
  { intros a f Hn2. unfold m3. destruct lm; [|reflexivity]. apply upd_other. destruct (Z.eq_dec a rt); [right; tauto|left; assumption]. }
  unfold cached_insert_node. rewrite L1, E3, F1.
  assert (Hd3 : dom m2 m3). { unfold m3. destruct lm; [|apply dom_refl]. intros a f. unfold upd. destruct ((a =? rt) && (f =? LEFTMOST)) eqn:B; [|tauto]. apply andb_true_iff in B. destruct B as [B1 B2]. apply Z.eqb_eq in B1, B2. subst. rewrite L2m. split; discriminate. }
  assert (Hd : dom m m4) by (apply (dom_trans _ m1); [exact Dm1|]; apply (dom_trans _ m2); [apply K1|]; apply (dom_trans _ m3); [exact Hd3|apply F5]).
  assert (Hex : exists w, m4 n SUBTREE = Some w) by (destruct (m4 n SUBTREE) eqn:X; [eauto|]; apply Hd in X; congruence). destruct Hex as [w4 Hw4].
  rewrite (st_some _ _ _ _ _ Hw4). exists (upd m4 n SUBTREE (en n)), t'. split; [reflexivity|]. rewrite Hl, (put_split n _ _ G1 G2). conj.
  - unfold held. conj.
    + apply (tree_at_same4 rt m4); [|exact F2]. apply same4_sub.
    + exact F3.
    + exact F4.
    + apply put_sorted; [exact G1|exact G2|rewrite <- Hl; exact Hs].
    + rewrite upd_other by (right; discriminate). destruct F5 as [_ F5]. rewrite F5; [|reflexivity|exact Crt'|intros [_ X]; discriminate X]. unfold m3.
      destruct (before k) as [|b bs] eqn:Eb; [rewrite (proj2 Hlm eq_refl); apply upd_same|]. destruct lm; [discriminate (proj1 Hlm eq_refl)|]. rewrite L2m, Hl. reflexivity.
  - clear - F2' Hw4. revert F2'. generalize (shape t'). intros u. induction u as [|x ul IHl a ur IHr]; cbn [SegProofs.aug]; [auto|]. intros (A1 & A2 & A3 & (w & A4 & A5) & A6 & A7). rewrite !(upd_other _ n SUBTREE _ a) by (right; discriminate). conj; auto.
    destruct (Z.eq_dec a n) as [->|Na]; [rewrite upd_same; exists (en n); split; [reflexivity|congruence]|]. rewrite upd_other by (left; exact Na). eauto.
  - apply upd_same.
  - split.
    + apply (dom_trans _ m4); [exact Hd|]. intros a f. unfold upd. destruct ((a =? n) && (f =? SUBTREE)) eqn:B; [|tauto]. apply andb_true_iff in B. destruct B as [B1 B2]. apply Z.eqb_eq in B1, B2. subst. rewrite Hw4. split; discriminate.
    + intros a f Hf4 Hn. rewrite upd_other by (right; exact Hn). rewrite Fo by assumption. apply Fr1. tauto.
Qed.
(** When nothing in the tree ends after the new interval, its maximum is right too. *)
Lemma top_bound (t : utree) w : 0 <= w -> (forall x, In x (inorder t) -> en x <= w) -> top t <= w.
Proof.
  intros Hw. induction t as [|x l IHl a r IHr]; cbn [SegProofs.top inorder]; [intros _; exact Hw|]. intros H. unfold val.
  assert (en a <= w) by (apply H, in_or_app; right; left; reflexivity). assert (top l <= w) by (apply IHl; intros; apply H, in_or_app; left; assumption).
  assert (top r <= w) by (apply IHr; intros; apply H, in_or_app; right; right; assumption). lia.
Qed.
Lemma aug_fix z m (t : utree) w : aug z m t -> 0 <= w -> m z SUBTREE = Some w -> en z = w -> (forall x, In x (inorder t) -> en x <= w) -> aug 0 m t.
Proof.
  intros HA Hw Hm Hz. revert HA. induction t as [|x l IHl a r IHr]; cbn [SegProofs.aug inorder]; [auto|]. intros (A1 & A2 & A3 & (v & A4 & A5) & A6 & A7) H. conj; try assumption.
  - exists v. split; [exact A4|]. intros Na. destruct (Z.eq_dec a z) as [->|N]; [|apply A5, N]. assert (v = w) by congruence. subst v. cbn [SegProofs.top]. unfold val.
    assert (top l <= w) by (apply top_bound; [exact Hw|]; intros; apply H, in_or_app; left; assumption). assert (top r <= w) by (apply top_bound; [exact Hw|]; intros; apply H, in_or_app; right; right; assumption). lia.
  - apply IHl; [exact A6|]. intros; apply H, in_or_app; left; assumption.
  - apply IHr; [exact A7|]. intros; apply H, in_or_app; right; right; assumption.
Qed.
Lemma in_put n x l : In x (put sta n l) -> x = n \/ In x l.
Proof. induction l as [|y l IH]; cbn [put]; [intros [<-|[]]; auto|]. destruct (sta n <? sta y); cbn [In]; intuition. Qed.
Theorem C57_insert_longest fuel m t l n : (length l < fuel)%nat -> held m t l -> exact m t -> interval_node m n -> ~ In n l -> (forall x, In x l -> en x <= en n) ->
  exists m' t', seg_insert fuel m rt n = Some m' /\ held m' t' (put sta n l) /\ exact m' t' /\ frame m m'.
Proof.
  intros H1 H2 H3 H4 H5 H6. destruct (C57_insert_partial fuel m t l n H1 H2 H3 H4 H5) as (m' & t' & A1 & A2 & A3 & A4 & A5). exists m', t'. conj; try assumption.
  apply (aug_fix n m' _ (en n)); try assumption; try reflexivity; [apply H4|]. intros x Hx. rewrite inorder_shape in Hx. destruct A2 as (_ & _ & A2 & _). rewrite A2 in Hx. apply in_put in Hx. destruct Hx as [->|Hx]; [lia|apply H6, Hx].
Qed.

(** Deletion of any node of any tree keeps the maxima right. *)
Lemma drop_split n l1 l2 : NoDup (l1 ++ n :: l2) -> drop n (l1 ++ n :: l2) = l1 ++ l2.
Proof.
  intros ND. assert (K : forall l, ~ In n l -> drop n l = l).
  { induction l as [|x l IH]; intros Hn; [reflexivity|]. unfold drop in *. cbn [filter]. destruct (Z.eqb_spec x n) as [->|N]; [destruct Hn; left; reflexivity|]. cbn [negb]. rewrite IH; [reflexivity|]. intros X; apply Hn; right; exact X. }
  apply NoDup_remove in ND. destruct ND as [_ ND]. unfold drop in *. rewrite filter_app. cbn [filter]. rewrite Z.eqb_refl. cbn [negb]. rewrite K, K; [reflexivity| |]; intros X; apply ND, in_or_app; tauto.
Qed.
Theorem C57_delete fuel m t l n : (length l < fuel)%nat -> held m t l -> exact m t -> In n l ->
  exists m' t', seg_delete fuel m rt n = Some m' /\ held m' t' (drop n l) /\ exact m' t' /\ frame m m'.
Proof.
  intros Hf (HT & Hrb & Hi & Hs & HLm) HA Hin. assert (Hsz : size t = length l) by (rewrite size_inorder, Hi; reflexivity).
  assert (ND : NoDup l) by (rewrite <- Hi; apply (at_nodup V rt m t HT)).
  unfold seg_delete, cached_delete, ld. rewrite HLm.
  pose (nx := if hd 0 l =? n then hd 0 (tl l) else 0). pose (m2 := if hd 0 l =? n then upd m rt LEFTMOST nx else m).
  assert (E2 : (if negb (hd 0 l =? n) then Some (m, NULL) else let* leftmost := in_next m fuel n in let* m := st m rt LEFTMOST leftmost in Some (m, leftmost)) = Some (m2, nx)).
  { unfold m2, nx. destruct (Z.eqb_spec (hd 0 l) n) as [Eh|Nh]; cbn [negb]; [|reflexivity]. destruct l as [|a l']; [destruct Hin|]. cbn [hd tl] in *. subst a.
    rewrite (in_next_ok V rt m t HT fuel [] n l' Hi ltac:(cbn [length] in *; lia)). rewrite (st_some _ _ _ _ _ HLm). reflexivity. }
  rewrite E2.
  assert (R2 : forall a f, ~ (a = rt /\ f = LEFTMOST) -> m2 a f = m a f) by (intros a f Hn; unfold m2; destruct (hd 0 l =? n); [|reflexivity]; apply upd_other; destruct (Z.eq_dec a rt); [right; tauto|left; assumption]).
  assert (HT2 : tree_at V rt m2 t).
  { unfold m2. destruct (hd 0 l =? n); [|exact HT]. destruct HT as (A1 & A2 & A3). split; [rewrite upd_other by (right; discriminate); exact A1|]. split; [|exact A3].
    apply rep_upd; [exact V_frame| |exact A2]. specialize (A3 rt). rewrite ind_refl in A3. lia. }
  assert (R4 : rest4 m m2) by (intros a f Hf4; apply R2; intros [_ ->]; unfold LEFTMOST in Hf4; lia).
  pose proof (seg_cb_ok sta en rt fuel) as ok. pose proof (others_ok rt fuel _ m ok) as ok2.
  destruct (delete_ok rt (seg_callbacks fuel) (fun m' t' => Qd sta en fuel m' t' /\ others m m') (q_rest _ _ _ ok2) (seg_cb_local fuel) ok2 fuel m2 t n) as (m' & t' & l1 & l2 & D1 & [D2 [[D2' _] Do]] & D3 & D4 & D5 & D6); try assumption.
  { lia. }
  { split; [exact HT2|]. split; [split|].
    - apply (aug_rest sta en 0 m m2 _ R4 HA).
    - rewrite size_shape. lia.
    - intros a f H1 H2. apply R4, H1. }
  { rewrite Hi. exact Hin. }
  rewrite D1. cbn [fst]. exists m', t'. split; [reflexivity|]. assert (Hl : l = l1 ++ n :: l2) by (rewrite <- Hi; exact D4). rewrite Hl, drop_split by (rewrite <- Hl; exact ND). conj.
  - unfold held. conj; try assumption.
    + rewrite Hl in Hs. clear - Hs. induction l1 as [|a l1 IH]; cbn [app] in *; apply StronglySorted_inv in Hs; destruct Hs as [S1 S2]; [exact S1|]. constructor; [apply IH, S1|]. apply Forall_app in S2. apply Forall_app. split; [apply S2|]. apply (Forall_inv_tail (proj2 S2)).
    + destruct D6 as [_ D6]. rewrite D6; [|reflexivity| |intros [_ X]; discriminate X].
      * unfold m2, nx. rewrite Hl. destruct l1 as [|a l1]; cbn [app hd tl]; [rewrite Z.eqb_refl; apply upd_same|]. destruct (Z.eqb_spec a n) as [->|Na].
        -- exfalso. rewrite Hl in ND. cbn [app] in ND. inversion ND as [|? ? ND1 _]. apply ND1, in_or_app. right. left. reflexivity.
        -- rewrite HLm, Hl. reflexivity.
      * destruct HT as (_ & _ & D). specialize (D rt). rewrite ind_refl in D. lia.
  - exact D2'.
  - split; [|exact Do]. apply (dom_trans _ m2); [|apply D6]. unfold m2. destruct (hd 0 l =? n); [|apply dom_refl].
    intros a f. unfold upd. destruct ((a =? rt) && (f =? LEFTMOST)) eqn:B; [|tauto]. apply andb_true_iff in B. destruct B as [B1 B2]. apply Z.eqb_eq in B1, B2. subst. rewrite HLm. split; discriminate.
Qed.

(** Queries: on a tree with right maxima, [first] and [next] enumerate exactly the intervals that overlap, in the order of their starts. *)
Theorem C57_query fuel m t l qs qe : (2 * length l < fuel)%nat -> held m t l -> exact m t ->
  exists p, seg_first fuel m rt qs qe = Some p /\ visit (seg_next fuel m qs qe) fuel p = Some (overlapping sta en qs qe l).
Proof.
  intros Hf (HT & Hrb & Hi & Hs & HLm) HA. assert (Hsz : size t = length l) by (rewrite size_inorder, Hi; reflexivity).
  destruct (seg_each_ok sta en rt qs qe m (shape t) fuel) as (p & A & B).
  - rewrite size_shape. lia.
  - apply shape_at, HT.
  - rewrite inorder_shape, Hi. exact HLm.
  - exact HA.
  - rewrite inorder_shape, Hi. exact Hs.
  - exists p. split; [exact A|]. rewrite B, inorder_shape, Hi. reflexivity.
Qed.

Definition exec (fuel : nat) (m : mem) (o : op) : option mem := match o with Ins n => seg_insert fuel m rt n | Del n => seg_delete fuel m rt n end.
Fixpoint run (fuel : nat) (m : mem) (ops : list op) : option mem := match ops with [] => Some m | o :: ops => let* m := exec fuel m o in run fuel m ops end.
Lemma put_length n l : length (put sta n l) = S (length l).
Proof. induction l as [|x l IH]; cbn [put length]; [reflexivity|]. destruct (sta n <? sta x); cbn [length]; lia. Qed.
Lemma drop_length n l : (length (drop n l) <= length l)%nat.
Proof. unfold drop. induction l as [|x l IH]; cbn [filter length]; [lia|]. destruct (negb (x =? n)); cbn [length]; lia. Qed.
Theorem run_ok ops : forall fuel m t l, (length l + length ops < fuel)%nat -> held m t l -> exact m t -> history sta (interval_node m) ops l -> history_longest sta en ops l ->
  exists m' t', run fuel m ops = Some m' /\ held m' t' (apply_ops sta ops l) /\ exact m' t' /\ (length (apply_ops sta ops l) <= length l + length ops)%nat.
Proof.
  induction ops as [|o ops IH]; intros fuel m t l Hf H1 H2 H3 H4; cbn [run apply_ops history history_longest length] in *.
  - exists m, t. conj; try reflexivity; try assumption. lia.
  - destruct H3 as [H3 H3'], H4 as [H4 H4'].
    assert (X : exists m1 t1, exec fuel m o = Some m1 /\ held m1 t1 (apply_op sta o l) /\ exact m1 t1 /\ frame m m1).
    { destruct o as [n|n]; cbn [exec apply_op allowed longest] in *; [apply (C57_insert_longest fuel m t l n)|apply (C57_delete fuel m t l n)]; try assumption; try lia; tauto. }
    destruct X as (m1 & t1 & E1 & A1 & A2 & A3). rewrite E1.
    assert (Hl : (length (apply_op sta o l) <= S (length l))%nat) by (destruct o as [n|n]; cbn [apply_op]; [rewrite put_length; lia|pose proof (drop_length n l); lia]).
    destruct (IH fuel m1 t1 (apply_op sta o l)) as (m' & t' & B1 & B2 & B3 & B4); try assumption; [lia| |].
    + clear - H3' A3. revert H3'. generalize (apply_op sta o l). induction ops as [|o' ops IH]; intros l' H; cbn [history] in *; [exact I|]. destruct H as [H H']. split; [|apply IH, H']. destruct o' as [n|n]; cbn [allowed] in *; [|exact H]. split; [apply (frame_node m m1 n A3), H|apply H].
    + exists m', t'. conj; try assumption. lia.
Qed.
(** From an initialised root: after any history in which each new interval ends no sooner than those in the tree,
    every query is answered exactly. *)
Theorem C57_history_partial fuel m ops qs qe : rt <> 0 -> m rt NODE = Some NULL -> m rt LEFTMOST = Some NULL -> (2 * length ops < fuel)%nat ->
  history sta (interval_node m) ops [] -> history_longest sta en ops [] ->
  exists m' p, run fuel m ops = Some m' /\ seg_first fuel m' rt qs qe = Some p /\ visit (seg_next fuel m' qs qe) fuel p = Some (overlapping sta en qs qe (apply_ops sta ops [])).
Proof.
  intros Hr H1 H2 Hf H3 H4. destruct (run_ok ops fuel m E []) as (m' & t & E1 & A1 & A2 & A3); try assumption.
  - cbn [length]. lia.
  - unfold held. conj; try reflexivity; try exact H2.
    + split; [exact H1|]. split; [exact I|]. intros z. cbn [cntk cnt]. destruct (Z.eq_dec z 0) as [->|N]; [rewrite ind_refl, ind_ne by congruence; lia|]. rewrite (ind_ne z 0 N). unfold ind. destruct (z =? rt); lia.
    + unfold redblack. cbn [black nored2 bal]. conj; try exact I. exists 0%nat. reflexivity.
    + constructor.
  - exact I.
  - cbn [length] in A3. assert (Hf2 : (2 * length (apply_ops sta ops []) < fuel)%nat) by lia. destruct (C57_query fuel m' t _ qs qe Hf2 A1 A2) as (p & Q1 & Q2). exists m', p. tauto.
Qed.
End Seg.

(** ** Concrete trees: the root is at 7; the interval of node [a] is as tabulated *)
Definition ex_sta (a : Z) : Z := nth (Z.to_nat (a - 10)) [10; 5; 7; 1; 20; 6] 0.
Definition ex_en (a : Z) : Z := nth (Z.to_nat (a - 10)) [12; 50; 60; 60; 70; 80] 0.
Definition ex_mem (sta en : Z -> Z) : mem := fun a f =>
  if (a =? 7) && ((f =? NODE) || (f =? LEFTMOST)) then Some 0 else
  if (10 <=? a) && (a <? 16) then (if f =? START then Some (sta a) else if f =? END then Some (en a) else if (0 <=? f) && (f <? 7) then Some 99 else None) else None.
Definition ex_ops : list op := [Ins 10; Ins 11; Ins 12; Ins 13; Del 11; Ins 14; Ins 15; Del 10].
Lemma ex_node n : 10 <= n < 16 -> interval_node ex_sta ex_en 7 (ex_mem ex_sta ex_en) n.
Proof.
  intros Hn. assert (n = 10 \/ n = 11 \/ n = 12 \/ n = 13 \/ n = 14 \/ n = 15) as [ -> | [ -> | [ -> | [ -> | [ -> | -> ]]]]] by lia.
  all: unfold interval_node; conj; try reflexivity; try discriminate; unfold node_at; intros f Hf; assert (f = 0 \/ f = 1 \/ f = 2 \/ f = 3) as [ -> | [ -> | [ -> | -> ]]] by lia; discriminate.
Qed.
Example C57_example : history ex_sta (interval_node ex_sta ex_en 7 (ex_mem ex_sta ex_en)) ex_ops [] /\ history_longest ex_sta ex_en ex_ops [] /\
  apply_ops ex_sta ex_ops [] = [13; 15; 12; 14] /\ overlapping ex_sta ex_en 61 100 [13; 15; 12; 14] = [15; 14] /\
  (let* m := run 7 30 (ex_mem ex_sta ex_en) ex_ops in let* p := seg_first 30 m 7 61 100 in visit (seg_next 30 m 61 100) 30 p) = Some [15; 14].
Proof.
  split; [|split].
  - cbn [history ex_ops apply_op]. conj; try exact I; repeat match goal with |- allowed _ (Ins _) _ => split; [apply ex_node; lia|vm_compute; intuition discriminate] | |- allowed _ (Del _) _ => vm_compute; tauto end.
  - cbn [history_longest ex_ops apply_op]. conj; try exact I; cbn [longest]; intros x Hx; vm_compute in Hx; repeat (destruct Hx as [<-|Hx]; [vm_compute; discriminate|]); destruct Hx.
  - vm_compute. repeat split.
Qed.
(** The full statement, without [history_longest], is false: the new node may be rotated above a longer
    interval, and then its [subtree] is overwritten with its own end. Here [10,100], [5,50], [7,8] are
    inserted, and the query [60,70] does not find [10,100]. *)
Definition bug_sta (a : Z) : Z := nth (Z.to_nat (a - 10)) [10; 5; 7] 0.
Definition bug_en (a : Z) : Z := nth (Z.to_nat (a - 10)) [100; 50; 8] 0.
Theorem C57_refuted : exists sta en rt fuel m ops qs qe, rt <> 0 /\ m rt NODE = Some NULL /\ m rt LEFTMOST = Some NULL /\ (2 * length ops < fuel)%nat /\
  history sta (interval_node sta en rt m) ops [] /\
  (let* m' := run rt fuel m ops in seg_first fuel m' rt qs qe) = Some NULL /\ overlapping sta en qs qe (apply_ops sta ops []) <> [].
Proof.
  exists bug_sta, bug_en, 7, 20%nat, (ex_mem bug_sta bug_en), [Ins 10; Ins 11; Ins 12], 60, 70. conj; try reflexivity; try discriminate.
  - cbn. lia.
  - assert (G : forall n, 10 <= n < 13 -> interval_node bug_sta bug_en 7 (ex_mem bug_sta bug_en) n).
    { intros n Hn. assert (n = 10 \/ n = 11 \/ n = 12) as [ -> | [ -> | -> ]] by lia.
      all: unfold interval_node; conj; try reflexivity; try discriminate; unfold node_at; intros f Hf; assert (f = 0 \/ f = 1 \/ f = 2 \/ f = 3) as [ -> | [ -> | [ -> | -> ]]] by lia; discriminate. }
    cbn [history apply_op]. conj; try exact I; split; try (apply G; lia); vm_compute; intuition discriminate.
Qed.
Print Assumptions C57_insert_partial.
Print Assumptions C57_insert_longest.
Print Assumptions C57_delete.
Print Assumptions C57_query.
Print Assumptions C57_history_partial.
Print Assumptions C57_refuted.
