(** * Augmented red-black trees: insertion and histories *)
From Coq Require Import Sorting.Sorted.
From Verif Require Import Lib Ptr Tree TiterModel TiterProofs RbModel RbProofs RbRotate RbSpec RbInsert RbRemove RbRemove2 RbDelete RbFrame RbOps RbOps2 RbHistSpec RbProps SegProofs SegProofs2 AugModel AugSpec AugProofs.
From Verif Require SegProps.

Section Sum.
Variable comb : option Z -> Z -> option Z -> Z.
(** ** The callbacks write nothing but [AUG] members *)
Definition sub_only (m m' : mem) : Prop := forall a f, f <> AUG -> m' a f = m a f.
Lemma st_sub m a v m' : st m a AUG v = Some m' -> sub_only m m'.
Proof. intros H. apply st_inv in H. destruct H as [_ ->]. intros b f Hf. apply upd_other. right. exact Hf. Qed.
Lemma compute_sub m n ex m' b : compute comb m n ex = Some (m', b) -> sub_only m m'.
Proof.
  unfold compute. repeat (match goal with |- context [match ?x with Some _ => _ | None => None end] => destruct x eqn:? end; [|discriminate]).
  match goal with |- (if ?c then _ else _) = _ -> _ => destruct c end; [intros H; inversion H; subst; intros ? ? _; reflexivity|].
  match goal with |- context [st ?m ?a ?f ?v] => destruct (st m a f v) eqn:E0 end; [|discriminate]. intros H. inversion H; subst. eapply st_sub; eassumption.
Qed.
Lemma rotate_sub m a b m' : aug_rotate comb m a b = Some m' -> sub_only m m'.
Proof.
  unfold aug_rotate. destruct (ld m a AUG) as [s|]; [|discriminate]. destruct (st m b AUG s) as [m1|] eqn:E1; [|discriminate]. destruct (compute comb m1 a false) as [[m2 x]|] eqn:E2; [|discriminate].
  intros H. injection H as <-. cbn [fst]. intros c f Hf. rewrite (compute_sub _ _ _ _ _ E2 c f Hf). apply (st_sub _ _ _ _ E1 c f Hf).
Qed.
Lemma copy_sub m a b m' : aug_copy m a b = Some m' -> sub_only m m'.
Proof. unfold aug_copy. destruct (ld m a AUG) as [s|]; [|discriminate]. apply st_sub. Qed.
Lemma propagate_sub fuel : forall m a b m', aug_propagate comb fuel m a b = Some m' -> sub_only m m'.
Proof.
  induction fuel as [|fuel IH]; intros m a b m'; cbn [aug_propagate]; [discriminate|]. destruct (a =? b); [intros H; injection H as <-; intros ? ? _; reflexivity|].
  destruct (compute comb m a true) as [[m1 x]|] eqn:E1; [|discriminate]. cbn [fst snd]. pose proof (compute_sub _ _ _ _ _ E1) as S1. destruct x; [intros H; injection H as <-; exact S1|].
  destruct (ld m1 a PARENT) as [p|]; [|discriminate]. intros H c f Hf. rewrite (IH _ _ _ _ H c f Hf). apply S1, Hf.
Qed.
(** The other members of the nodes stay as in [m0]. *)
Definition others (m0 m : mem) : Prop := forall a f, 4 <= f -> f <> AUG -> m a f = m0 a f.
Lemma others_sub m0 m m' : sub_only m m' -> others m0 m -> others m0 m'.
Proof. intros H1 H2 a f H3 H4. rewrite H1 by exact H4. apply H2; assumption. Qed.
Lemma others_rest m0 m m' : rest4 m m' -> others m0 m -> others m0 m'.
Proof. intros H1 H2 a f H3 H4. rewrite H1 by exact H3. apply H2; assumption. Qed.
Lemma others_ok rt fuel Q m0 : cb_ok rt (aug_callbacks comb fuel) Q -> cb_ok rt (aug_callbacks comb fuel) (fun m t => Q m t /\ others m0 m).
Proof.
  intros ok. split; cbn [rotate copy propagate aug_callbacks].
  - intros m m' t R [H1 H2]. split; [apply (q_rest _ _ _ ok m m' t R H1)|apply (others_rest m0 m m' R H2)].
  - intros m t k l n b s c H1 H2 [H3 H4]. destruct (rot_l _ _ _ ok m t k l n b s c H1 H2 H3) as (m' & E1 & E2 & E3). exists m'. split; [exact E1|]. split; [exact E2|]. split; [exact E3|]. apply (others_sub m0 m); [apply (rotate_sub _ _ _ _ E1)|exact H4].
  - intros m t k l n b s c H1 H2 [H3 H4]. destruct (rot_r _ _ _ ok m t k l n b s c H1 H2 H3) as (m' & E1 & E2 & E3). exists m'. split; [exact E1|]. split; [exact E2|]. split; [exact E3|]. apply (others_sub m0 m); [apply (rotate_sub _ _ _ _ E1)|exact H4].
  - intros m t k old new a H1 H2 H3 [H4 H5]. destruct (prop_one _ _ _ ok m t k old new a H1 H2 H3 H4) as (m' & E1 & E2 & E3). exists m'. split; [exact E1|]. split; [exact E2|]. split; [exact E3|]. apply (others_sub m0 m); [apply (propagate_sub _ _ _ _ _ E1)|exact H5].
  - intros m t k l n s b H1 H2 [H3 H4]. destruct (copy_child _ _ _ ok m t k l n s b H1 H2 H3) as (m1 & E1 & E2 & E3). exists m1. split; [exact E1|]. split; [exact E2|]. intros m2 t2 G1 G2 G3.
    destruct (E3 m2 t2 G1 G2 G3) as (m3 & I1 & I2 & I3). exists m3. split; [exact I1|]. split; [exact I2|]. split; [exact I3|]. apply (others_sub m0 m2); [apply (propagate_sub _ _ _ _ _ I1)|]. apply (others_rest m0 m1 m2 G3). apply (others_sub m0 m); [apply (copy_sub _ _ _ _ E1)|exact H4].
  - intros m t k l n kr s b y H1 H2 [H3 H4] H5 H6 H7. destruct (copy_far _ _ _ ok m t k l n kr s b y H1 H2 H3 H5 H6 H7) as (m2 & m3 & E1 & E2 & E3 & E4). exists m2, m3. split; [exact E1|]. split; [exact E2|]. split; [exact E3|]. intros m4 t4 G1 G2 G3.
    destruct (E4 m4 t4 G1 G2 G3) as (m5 & I1 & I2 & I3). exists m5. split; [exact I1|]. split; [exact I2|]. split; [exact I3|]. apply (others_sub m0 m4); [apply (propagate_sub _ _ _ _ _ I1)|]. apply (others_rest m0 m3 m4 G3).
    apply (others_sub m0 m2); [apply (propagate_sub _ _ _ _ _ E2)|]. eapply (others_sub m0); [apply (copy_sub _ _ _ _ E1)|]. intros a f F1 F2. rewrite !upd_other by (right; unfold LEFT, RIGHT, PARENT; lia). apply H4; assumption.
Qed.

(** ** Insertion *)
Lemma fixup_run rt cb (Q : mem -> utree -> Prop) (Qr : forall m m' t, rest4 m m' -> Q m t -> Q m' t) (HL : cb_local cb) (ok : cb_ok rt cb Q) fuel m (k : bctx) n :
  (size (plug k (@E bool)) < fuel)%nat -> St rt Q m (plug k (T false E n E)) -> redblack (plug k E) ->
  exists m' t', fixup cb fuel m rt n = Some m' /\ St rt Q m' t' /\ redblack t' /\ inorder t' = before k ++ n :: after k /\ keeps rt (plug k (T false E n E)) m m'.
Proof.
  intros Hf HS Hrb. apply redblack_plug in Hrb. destruct Hrb as (_ & Hg & _ & nn & Hb & Hcb). cbn [bal] in Hb. subst nn.
  destruct (run_frame rt Q Qr (fun m => fixup cb fuel m rt n) (plug k (T false E n E)) m (fun t' => redblack t' /\ inorder t' = before k ++ n :: after k) (fixup_local cb HL rt fuel n)) with (2 := HS) as (m' & t' & H1 & H2 & [H3 H4] & H5).
  - intros m0 HS0. destruct (fixup_ok rt cb Q ok fuel m0 k E n E 0%nat) as (m' & t' & H1 & H2 & H3 & H4); try assumption.
    + pose proof (size_plug k (@E bool)). cbn [size] in *. lia.
    + cbn [nored2 black]. tauto.
    + exists 0%nat. cbn [bal]. tauto.
    + exists m', t'. conj; try assumption. rewrite H4, inorder_plug. reflexivity.
  - exists m', t'. tauto.
Qed.
Lemma cpar_shapek (k : bctx) : cpar (shapek k) = cpar k.
Proof. destruct k as [|[d x a s] k]; reflexivity. Qed.

Hypothesis Hrot : forall l x b y r, comb (Some (comb l x b)) y r = comb l x (Some (comb b y r)).
Variable dat : Z -> Z.
Variable cmp : Z -> Z -> Z.
Hypothesis Hcmp : comparison cmp.
Variable rt : Z.
Variable cached : bool.
(** Memory [m] holds the tree with the nodes [l], in order; all summaries are right. *)
Definition aheld (m : mem) (l : list Z) : Prop :=
  (exists t, tree_at V rt m t /\ redblack t /\ inorder t = l /\ aug comb dat m (shape t)) /\ sorted cmp l /\ (cached = true -> m rt LEFTMOST = Some (hd 0 l)).
(** A node object with its value; the summary is there but may hold anything. *)
Definition value_node (m : mem) (n : Z) : Prop := node_at m n /\ n <> 0 /\ n <> rt /\ m n DATA = Some (dat n) /\ m n AUG <> None.
Definition aframe (m m' : mem) : Prop := dom m m' /\ others m m'.
Lemma aframe_node m m' n : aframe m m' -> value_node m n -> value_node m' n.
Proof.
  intros [D K] (H1 & H2 & H3 & H4 & H5). unfold value_node. rewrite (K n DATA) by (unfold DATA, AUG; lia). conj; try assumption.
  - intros f Hf E0. apply D in E0. apply (H1 f Hf E0).
  - intros E0. apply D in E0. apply (H5 E0).
Qed.
Lemma dom_upd m a f v w : m a f = Some w -> dom m (upd m a f v).
Proof. intros H b g. unfold upd. destruct ((b =? a) && (g =? f)) eqn:B; [|tauto]. apply andb_true_iff in B. destruct B as [B1 B2]. apply Z.eqb_eq in B1, B2. subst. rewrite H. split; discriminate. Qed.
Lemma tree_at_left m t v : tree_at V rt m t -> tree_at V rt (upd m rt LEFTMOST v) t.
Proof.
  intros (A1 & A2 & A3). split; [rewrite upd_other by (right; discriminate); exact A1|]. split; [|exact A3].
  apply rep_upd; [exact V_frame| |exact A2]. specialize (A3 rt). rewrite ind_refl in A3. lia.
Qed.
Theorem aug_insert_ok fuel m l n : (S (length l) < fuel)%nat -> aheld m l -> value_node m n -> ~ In n l ->
  exists m', aug_insert comb cached fuel m cmp rt n = Some (m', negb (taken cmp n l)) /\ aheld m' (aspec cmp (AIns n) l) /\ aframe m m'.
Proof.
  intros Hf [(t & HT & Hrb & Hi & HA) [Hs HLm]] (HN & N0 & N1 & Hd & Hw) Hni. assert (Hsz : size t = length l) by (rewrite size_inorder, Hi; reflexivity).
  assert (Hc : cnt n t = 0%nat) by (apply cnt_zero_in; rewrite Hi; exact Hni).
  assert (Hm : mono cmp n (inorder t)) by (rewrite Hi; apply sorted_mono; assumption).
  unfold aug_insert. cbn [aspec]. destruct (rb_parent_ok rt m cmp n fuel t ltac:(lia) HT Hm) as [[E1 (x & Hx & Ex)]|(k & lm & E1 & E2 & [G1 G2] & Hlm)].
  { rewrite Hi in Hx. rewrite (proj2 (taken_true cmp n l)) by (exists x; tauto). rewrite E1. exists m. conj; [reflexivity| |].
    - split; [exists t; tauto|tauto].
    - split; [apply dom_refl|]. intros a f _ _. reflexivity. }
  assert (Hl : l = before k ++ after k) by (rewrite <- Hi, E2, inorder_plug; reflexivity).
  assert (Ht : taken cmp n l = false).
  { destruct (taken cmp n l) eqn:Et; [|reflexivity]. apply taken_true in Et. destruct Et as (x & Hx & Ex). rewrite Forall_forall in G1, G2. rewrite Hl in Hx. apply in_app_or in Hx. destruct Hx as [Hx|Hx]; [specialize (G1 x Hx)|specialize (G2 x Hx)]; lia. }
  rewrite Ht, E1. cbn [negb]. subst t.
  destruct (link_ok rt m k n HT HN N0 N1 Hc) as (m1 & L1 & HT1 & R1 & Dm1 & K1). rewrite L1.
  destruct (m n AUG) as [w|] eqn:Ew; [|congruence].
  assert (Aw : m1 n AUG = Some w) by (rewrite R1 by (unfold AUG; lia); exact Ew).
  pose proof (proj1 (tree_at_focus V rt m1 k _) HT1) as HF. destruct HF as (_ & HF & _). cbn [rep addr] in HF. destruct HF as (P1 & P2 & P3 & _).
  rewrite (compute_ok comb dat m1 n false E E w); try assumption; try reflexivity; try exact I; [|rewrite R1 by (unfold DATA; lia); exact Hd].
  cbn [andb fst top]. set (v := comb None (dat n) None). pose (m2 := upd m1 n AUG v). fold m2.
  assert (HT2 : tree_at V rt m2 (plug k (T false E n E))) by (apply (tree_at_same4 rt m1); [apply same4_aug|exact HT1]).
  rewrite shape_plug in HA. apply aug_plug in HA. destruct HA as [_ HK]. cbn [shape top] in HK.
  assert (Cn : cntk n (shapek k) = 0%nat) by (rewrite SegProps.cntk_shapek; rewrite cnt_plug in Hc; lia).
  assert (HK2 : augk comb dat m2 (shapek k) None) by (apply augk_upd; [exact Cn|]; apply (augk_rest comb dat m m1 _ _ R1 HK)).
  assert (Hz2 : size (plug k (T false E n E)) = S (length l)).
  { rewrite <- Hsz, !size_inorder, !inorder_plug. cbn [inorder app]. rewrite !app_length. cbn [length]. lia. }
  destruct (prop_root comb dat rt fuel m2 (plug k (T false E n E)) (shapek k) (T tt E n E)) as (m3 & E3 & S3 & A3).
  { rewrite Hz2. lia. } { exact HT2. } { rewrite shape_plug. reflexivity. } { apply (augk_stale comb dat m2 _ None HK2). }
  { cbn [aug top]. conj; try exact I; [|apply upd_same]. unfold m2. rewrite upd_other by (right; discriminate). rewrite R1 by (unfold DATA; lia). exact Hd. }
  rewrite cpar_shapek in E3. rewrite E3.
  assert (Dm3 : dom m2 m3) by (destruct (proj2 (proj2 (aug_cb_local comb fuel)) (cpar k) NULL m2 m2 m2 m3 ltac:(intros a f; destruct (m2 a f); reflexivity) E3) as [Dm _]; exact Dm).
  assert (O3 : others m m3).
  { apply (others_sub m m2); [apply (propagate_sub _ _ _ _ _ E3)|]. intros a f F1 F2. unfold m2. rewrite upd_other by (right; exact F2). apply R1, F1. }
  assert (D03 : dom m m3) by (apply (dom_trans _ m1); [exact Dm1|]; apply (dom_trans _ m2); [apply (dom_upd _ _ _ _ _ Aw)|exact Dm3]).
  assert (HT3 : tree_at V rt m3 (plug k (T false E n E))) by (apply (tree_at_same4 rt m2); assumption).
  assert (Crt : cnt rt (plug k (T false E n E)) = 0%nat) by (destruct HT3 as (_ & _ & D); specialize (D rt); rewrite ind_refl in D; lia).
  assert (L3m : m3 rt LEFTMOST = m rt LEFTMOST).
  { rewrite S3 by (unfold LEFTMOST; lia). unfold m2. rewrite upd_other by (right; discriminate). apply K1; [congruence|]. intros [Er Ef]. pose proof (loc_in rt k) as LI. destruct k as [|[d x p s] k]; cbn [loc lfield] in *; [discriminate Ef|].
    rewrite cnt_plug in Crt. cbn [cntk] in Crt. rewrite Er, ind_refl in Crt. lia. }
  pose (m4 := if cached && lm then upd m3 rt LEFTMOST n else m3).
  assert (E4 : (if cached && lm then st m3 rt LEFTMOST n else Some m3) = Some m4).
  { unfold m4. destruct cached; cbn [andb]; [|reflexivity]. destruct lm; [|reflexivity]. rewrite HLm in L3m by reflexivity. apply (st_some _ _ _ _ _ L3m). }
  rewrite E4.
  assert (D4 : dom m3 m4) by (unfold m4; destruct cached; cbn [andb]; [|apply dom_refl]; destruct lm; [|apply dom_refl]; rewrite HLm in L3m by reflexivity; apply (dom_upd _ _ _ _ _ L3m)).
  assert (R4 : rest4 m3 m4) by (unfold m4; destruct (cached && lm); [|intros a f _; reflexivity]; intros a f F4; apply upd_other; right; unfold LEFTMOST; lia).
  assert (HT4 : tree_at V rt m4 (plug k (T false E n E))) by (unfold m4; destruct (cached && lm); [apply tree_at_left|]; exact HT3).
  pose proof (others_ok rt fuel _ m (aug_cb_ok comb Hrot dat rt fuel)) as ok.
  destruct (fixup_run rt _ _ (q_rest _ _ _ ok) (aug_cb_local comb fuel) ok fuel m4 k n) as (m5 & t' & F1 & [F2 [[F2' _] Fo]] & F3 & F4 & F5).
  { lia. }
  { split; [exact HT4|]. split; [split; [apply (aug_rest comb dat m3 m4 _ R4 A3)|rewrite size_shape, Hz2; lia]|apply (others_rest m m3 m4 R4 O3)]. }
  { exact Hrb. }
  rewrite F1. exists m5. conj; [reflexivity| |].
  - rewrite Hl, (ins_split cmp n _ _ G1 G2). split; [exists t'; tauto|]. split; [apply ins_sorted; try assumption; rewrite <- Hl; exact Hs|].
    intros Ec. destruct F5 as [_ F5]. rewrite F5; [|reflexivity|exact Crt|intros [_ X]; discriminate X]. rewrite hd_cons_app. unfold m4. rewrite Ec. cbn [andb].
    destruct (before k) as [|b bs] eqn:Eb; [rewrite (proj2 Hlm eq_refl); apply upd_same|]. destruct lm; [discriminate (proj1 Hlm eq_refl)|]. rewrite L3m, (HLm Ec), Hl. reflexivity.
  - split; [|exact Fo]. apply (dom_trans _ m3); [exact D03|]. apply (dom_trans _ m4); [exact D4|apply F5].
Qed.

(** ** Deletion *)
Theorem aug_delete_ok fuel m l n : (length l < fuel)%nat -> aheld m l -> In n l ->
  exists m', aug_delete comb cached fuel m rt n = Some m' /\ aheld m' (aspec cmp (ADel n) l) /\ aframe m m'.
Proof.
  intros Hf [(t & HT & Hrb & Hi & HA) [Hs HLm]] Hin. assert (Hsz : size t = length l) by (rewrite size_inorder, Hi; reflexivity).
  assert (ND : NoDup l) by (rewrite <- Hi; apply (at_nodup V rt m t HT)).
  pose (nx := if hd 0 l =? n then hd 0 (tl l) else 0). pose (m2 := if cached && (hd 0 l =? n) then upd m rt LEFTMOST nx else m).
  assert (HT2 : tree_at V rt m2 t) by (unfold m2; destruct (cached && _); [apply tree_at_left|]; exact HT).
  assert (R4 : rest4 m m2) by (unfold m2; destruct (cached && _); [|intros a f _; reflexivity]; intros a f F4; apply upd_other; right; unfold LEFTMOST; lia).
  assert (D2 : dom m m2) by (unfold m2; destruct cached; cbn [andb]; [|apply dom_refl]; destruct (hd 0 l =? n); [|apply dom_refl]; apply (dom_upd _ _ _ _ _ (HLm eq_refl))).
  pose proof (others_ok rt fuel _ m (aug_cb_ok comb Hrot dat rt fuel)) as ok.
  destruct (delete_ok rt (aug_callbacks comb fuel) _ (q_rest _ _ _ ok) (aug_cb_local comb fuel) ok fuel m2 t n) as (m' & t' & l1 & l2 & E1 & [G2 [[G2' _] Go]] & G3 & G4 & G5 & G6).
  { lia. }
  { split; [exact HT2|]. split; [split; [apply (aug_rest comb dat m m2 _ R4 HA)|rewrite size_shape; lia]|]. intros a f H1 H2. apply R4, H1. }
  { exact Hrb. } { rewrite Hi. exact Hin. }
  assert (Ed : aug_delete comb cached fuel m rt n = Some m').
  { unfold aug_delete. destruct cached eqn:Ec; cbn [andb] in m2; [|exact E1]. unfold cached_delete, ld. rewrite (HLm eq_refl).
    assert (E2 : (if negb (hd 0 l =? n) then Some (m, NULL) else let* leftmost := in_next m fuel n in let* m := st m rt LEFTMOST leftmost in Some (m, leftmost)) = Some (m2, nx)).
    { unfold m2, nx. destruct (Z.eqb_spec (hd 0 l) n) as [Eh|Nh]; cbn [negb]; [|reflexivity]. destruct l as [|a l']; [destruct Hin|]. cbn [hd tl] in *. subst a.
      rewrite (in_next_ok V rt m t HT fuel [] n l' Hi ltac:(cbn [length] in *; lia)). rewrite (st_some _ _ _ _ _ (HLm eq_refl)). reflexivity. }
    rewrite E2, E1. reflexivity. }
  rewrite Ed. exists m'. assert (Hl : l = l1 ++ n :: l2) by (rewrite <- Hi; exact G4). split; [reflexivity|]. split.
  - cbn [aspec]. rewrite Hl, del_split by (rewrite <- Hl; exact ND). split; [exists t'; tauto|]. split; [apply (del_sorted cmp n); rewrite <- Hl; exact Hs|].
    intros Ec. destruct G6 as [_ G6]. rewrite G6; [|reflexivity| |intros [_ X]; discriminate X].
    + unfold m2, nx. rewrite Ec, Hl. cbn [andb]. destruct l1 as [|a l1]; cbn [app hd tl]; [rewrite Z.eqb_refl; apply upd_same|]. destruct (Z.eqb_spec a n) as [Ea|Na].
      * exfalso. subst a. rewrite Hl in ND. cbn [app] in ND. inversion ND as [|? ? ND1 _]. apply ND1, in_or_app. right. left. reflexivity.
      * rewrite (HLm Ec), Hl. reflexivity.
    + destruct HT as (_ & _ & D). specialize (D rt). rewrite ind_refl in D. lia.
  - split; [|exact Go]. apply (dom_trans _ m2); [exact D2|apply G6].
Qed.

(** ** Histories *)
Lemma aspec_length o l : (length (aspec cmp o l) <= S (length l))%nat.
Proof.
  destruct o as [n|n]; cbn [aspec].
  - destruct (taken cmp n l); [lia|]. induction l as [|x l IH]; cbn [ins length]; [lia|]. destruct (cmp n x <? 0); cbn [length]; lia.
  - unfold del. induction l as [|x l IH]; cbn [filter length]; [lia|]. destruct (negb (x =? n)); cbn [length]; lia.
Qed.
Lemma alegals_frame m m' ops : aframe m m' -> forall l, alegals cmp (value_node m) ops l -> alegals cmp (value_node m') ops l.
Proof.
  intros HF. induction ops as [|o ops IH]; intros l; cbn [alegals]; [auto|]. intros [H1 H2]. split; [|apply IH, H2]. destruct o as [n|n]; cbn [alegal] in *; [|exact H1]. split; [apply (aframe_node m m' n HF), H1|apply H1].
Qed.
Theorem aug_run_ok fuel ops : forall m l, (length l + length ops < fuel)%nat -> aheld m l -> alegals cmp (value_node m) ops l ->
  exists m', aug_run comb cached fuel m cmp rt ops = Some (m', areplies cmp ops l) /\ aheld m' (aspecs cmp ops l).
Proof.
  induction ops as [|o ops IH]; intros m l Hf HH HL; cbn [aug_run areplies aspecs alegals length] in *; [exists m; tauto|]. destruct HL as [HL1 HL2]. pose proof (aspec_length o l) as Hlen.
  destruct o as [n|n]; cbn [alegal] in HL1.
  - destruct (aug_insert_ok fuel m l n) as (m1 & E1 & A1 & A2); try tauto; [lia|]. rewrite E1. cbn [fst snd].
    destruct (IH m1 (aspec cmp (AIns n) l)) as (m' & B1 & B2); try assumption; [lia|apply (alegals_frame m); assumption|]. rewrite B1. exists m'. tauto.
  - destruct (aug_delete_ok fuel m l n) as (m1 & E1 & A1 & A2); try tauto; [lia|]. rewrite E1.
    destruct (IH m1 (aspec cmp (ADel n) l)) as (m' & B1 & B2); try assumption; [lia|apply (alegals_frame m); assumption|]. rewrite B1. exists m'. tauto.
Qed.
End Sum.
