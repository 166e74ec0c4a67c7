(** * Red-black trees: searching, linking, deleting and replacing *)
From Coq Require Import Sorting.Sorted.
From Verif Require Import Lib Ptr Tree TiterModel RbModel RbProofs RbRotate RbSpec RbInsert RbErase RbRemove RbRemove2 RbDelete RbFrame.

Lemma sorted_app {X} (P : X -> X -> Prop) l1 a l2 : StronglySorted P (l1 ++ a :: l2) -> Forall (fun x => P x a) l1 /\ Forall (P a) l2.
Proof.
  induction l1 as [|b l1 IH]; cbn [app]; intros H; apply StronglySorted_inv in H; destruct H as [H1 H2].
  - split; [constructor|exact H2].
  - destruct (IH H1) as [I1 I2]. split; [|exact I2]. constructor; [|exact I1]. rewrite Forall_forall in H2. apply H2, in_or_app. right. left. reflexivity.
Qed.
Lemma crep_loc {A} (W : mem -> Z -> A -> Prop) rt m (k : ctx A) h : crep W rt m k h -> m (loc rt k) (lfield k) = Some h.
Proof. destruct k as [|[d x a s] k]; cbn; tauto. Qed.

Section Search.
Variable rt : Z.
Variable m : mem.
Notation tree_at := (tree_at V rt).
(** What the position of a missing key is: all smaller nodes before, all larger nodes after. *)
Definition gap (neg pos : Z -> Prop) (k : bctx) : Prop := Forall pos (before k) /\ Forall neg (after k).
Lemma before_left_iff (k : bctx) : before k = [] <-> Forall leftf k.
Proof.
  split; [|apply before_left]. induction k as [|[[|] x a s] k IH]; intros H; cbn [before] in H.
  - constructor.
  - constructor; [reflexivity|]. apply IH, H.
  - destruct (before k), (inorder s); discriminate.
Qed.

Section Parent.
Variable cmp : Z -> Z -> Z.
Variable n : Z.
(** The comparison with [n] is monotone along the list. *)
Definition mono (l : list Z) : Prop := StronglySorted (fun x y => Z.sgn (cmp n y) <= Z.sgn (cmp n x)) l.
Lemma parent_loop_ok fuel : forall (k : bctx) u lm, u <> E -> (size u <= fuel)%nat -> tree_at m (plug k u) -> mono (inorder (plug k u)) ->
  gap (fun x => cmp n x < 0) (fun x => cmp n x > 0) k -> (lm = true <-> before k = []) ->
  (parent_loop fuel m cmp n (loc rt k, lfield k) lm = Some None /\ exists x, In x (inorder u) /\ cmp n x = 0) \/
  exists k' lm', parent_loop fuel m cmp n (loc rt k, lfield k) lm = Some (Some (cpar k', (loc rt k', lfield k'), lm')) /\ plug k' E = plug k u /\
    gap (fun x => cmp n x < 0) (fun x => cmp n x > 0) k' /\ (lm' = true <-> before k' = []).
Proof.
  induction fuel as [|fuel IH]; intros k u lm Hu Hf HT Hm [G1 G2] HL; (destruct u as [|x l a r]; [congruence|]); cbn [size] in Hf; [lia|].
  pose proof HT as H0. apply tree_at_focus in H0. destruct H0 as (Hk & Ht & D). cbn [Tree.rep addr] in *. destruct Ht as (T1 & T2 & T3 & T4 & T5 & T6).
  cbn [parent_loop]. unfold ld. cbn [fst snd]. rewrite (crep_loc V rt m k a Hk).
  rewrite inorder_plug in Hm. cbn [inorder] in Hm. replace (before k ++ (inorder l ++ a :: inorder r) ++ after k) with ((before k ++ inorder l) ++ a :: (inorder r ++ after k)) in Hm by (rewrite <- !app_assoc; reflexivity).
  pose proof (sorted_app _ _ _ _ Hm) as [S1 S2]. apply Forall_app in S1, S2. destruct S1 as [_ S1], S2 as [S2 _].
  destruct (Z.eqb_spec (cmp n a) 0) as [E0|E0].
  { left. split; [reflexivity|]. exists a. split; [apply in_or_app; right; left; reflexivity|exact E0]. }
  assert (Hk2 : forall d s, s = match d with L => r | R => l end -> inorder (plug (F d x a s :: k) (match d with L => l | R => r end)) = inorder (plug k (T x l a r))) by (intros [|] s ->; reflexivity).
  destruct (Z.ltb_spec (cmp n a) 0) as [Hlt|Hge]; cbn [fst snd].
  - assert (G : gap (fun x => cmp n x < 0) (fun x => cmp n x > 0) (F L x a r :: k)).
    { split; cbn [before after]; [exact G1|]. constructor; [exact Hlt|]. apply Forall_app. split; [|exact G2].
      revert S2. apply Forall_impl. intros y Hy. rewrite (Z.sgn_neg (cmp n a)) in Hy by lia. destruct (Z.sgn_spec (cmp n y)) as [[? Hs]|[[? Hs]|[? Hs]]]; rewrite Hs in Hy; lia. }
    rewrite T2. destruct l as [|y ll b lr].
    + right. exists (F L x a r :: k), lm. conj; [reflexivity|reflexivity|exact G|exact HL].
    + assert (Nb : (addr (T y ll b lr) =? NULL) = false).
      { apply Z.eqb_neq. cbn [addr]. intros ->. specialize (D NULL). cbn [cnt] in D. unfold NULL in D. rewrite !ind_refl in D. lia. }
      rewrite Nb. cbn [negb]. destruct (IH (F L x a r :: k) (T y ll b lr) lm) as [[I1 [z [I2 I3]]]|(k' & lm' & I1 & I2 & I3)].
      * discriminate.
      * lia.
      * exact HT.
      * rewrite (Hk2 L r eq_refl : inorder (plug (F L x a r :: k) (T y ll b lr)) = _). rewrite inorder_plug. cbn [inorder].
        replace (before k ++ ((inorder ll ++ b :: inorder lr) ++ a :: inorder r) ++ after k) with ((before k ++ inorder (T y ll b lr)) ++ a :: (inorder r ++ after k)) by (cbn [inorder]; repeat (rewrite <- ?app_assoc; cbn [app]); reflexivity). exact Hm.
      * exact G.
      * exact HL.
      * left. split; [exact I1|]. exists z. split; [|exact I3]. cbn [inorder]. apply in_or_app. left. exact I2.
      * right. exists k', lm'. split; [exact I1|]. split; [rewrite I2; reflexivity|exact I3].
  - assert (G : gap (fun x => cmp n x < 0) (fun x => cmp n x > 0) (F R x a l :: k)).
    { split; cbn [before after]; [|exact G2]. apply Forall_app. split; [exact G1|]. apply Forall_app. split; [|constructor; [lia|constructor]].
      revert S1. apply Forall_impl. intros y Hy. rewrite (Z.sgn_pos (cmp n a)) in Hy by lia. destruct (Z.sgn_spec (cmp n y)) as [[? Hs]|[[? Hs]|[? Hs]]]; rewrite Hs in Hy; lia. }
    assert (HL' : false = true <-> before (F R x a l :: k) = []) by (split; [discriminate|]; cbn [before]; destruct (before k), (inorder l); discriminate).
    rewrite T3. destruct r as [|y rl b rr].
    + right. exists (F R x a l :: k), false. conj; [reflexivity|reflexivity|exact G|exact HL'].
    + assert (Nb : (addr (T y rl b rr) =? NULL) = false).
      { apply Z.eqb_neq. cbn [addr]. intros ->. specialize (D NULL). cbn [cnt] in D. unfold NULL in D. rewrite !ind_refl in D. lia. }
      rewrite Nb. cbn [negb]. destruct (IH (F R x a l :: k) (T y rl b rr) false) as [[I1 [z [I2 I3]]]|(k' & lm' & I1 & I2 & I3)].
      * discriminate.
      * lia.
      * exact HT.
      * rewrite (Hk2 R l eq_refl : inorder (plug (F R x a l :: k) (T y rl b rr)) = _). rewrite inorder_plug. cbn [inorder].
        replace (before k ++ (inorder l ++ a :: inorder rl ++ b :: inorder rr) ++ after k) with ((before k ++ inorder l) ++ a :: (inorder (T y rl b rr) ++ after k)) by (cbn [inorder]; repeat (rewrite <- ?app_assoc; cbn [app]); reflexivity). exact Hm.
      * exact G.
      * exact HL'.
      * left. split; [exact I1|]. exists z. split; [|exact I3]. cbn [inorder]. apply in_or_app. right. right. exact I2.
      * right. exists k', lm'. split; [exact I1|]. split; [rewrite I2; reflexivity|exact I3].
Qed.
(** rbtree.c:603-639: the link where a node belongs, or null if an equal one is there *)
Theorem rb_parent_ok fuel t : (size t <= fuel)%nat -> tree_at m t -> mono (inorder t) ->
  (rb_parent fuel m cmp rt n = Some None /\ exists x, In x (inorder t) /\ cmp n x = 0) \/
  exists k lm, rb_parent fuel m cmp rt n = Some (Some (cpar k, (loc rt k, lfield k), lm)) /\ t = plug k E /\
    gap (fun x => cmp n x < 0) (fun x => cmp n x > 0) k /\ (lm = true <-> before k = []).
Proof.
  intros Hf HT Hm. unfold rb_parent, ld. pose proof HT as (H1 & _ & D). rewrite H1. destruct t as [|x l a r].
  - right. exists [], true. conj; [reflexivity|reflexivity|split; constructor|tauto].
  - assert (Na : (addr (T x l a r) =? NULL) = false).
    { apply Z.eqb_neq. cbn [addr]. intros ->. specialize (D NULL). cbn [cnt cntk] in D. unfold NULL in D. rewrite !ind_refl in D. lia. }
    rewrite Na. destruct (parent_loop_ok fuel [] (T x l a r) true) as [H|(k' & lm' & I1 & I2 & I3)]; try assumption; [discriminate|split; constructor|tauto|left; exact H|].
    right. exists k', lm'. split; [exact I1|]. split; [rewrite I2; reflexivity|exact I3].
Qed.
End Parent.

Section Find.
Variable f : Z -> Z.
(** The search function grows along the list. *)
Definition grows (l : list Z) : Prop := StronglySorted (fun x y => Z.sgn (f x) <= Z.sgn (f y)) l.
Lemma grows_neg l1 a l2 : grows (l1 ++ a :: l2) -> f a < 0 -> Forall (fun x => f x < 0) l1.
Proof.
  intros Hm Ha. apply sorted_app in Hm. destruct Hm as [S1 _]. revert S1. apply Forall_impl. intros y Hy. rewrite (Z.sgn_neg (f a)) in Hy by lia.
  destruct (Z.sgn_spec (f y)) as [[? Hs]|[[? Hs]|[? Hs]]]; rewrite Hs in Hy; lia.
Qed.
Lemma grows_pos l1 a l2 : grows (l1 ++ a :: l2) -> f a > 0 -> Forall (fun x => f x > 0) l2.
Proof.
  intros Hm Ha. apply sorted_app in Hm. destruct Hm as [_ S1]. revert S1. apply Forall_impl. intros y Hy. rewrite (Z.sgn_pos (f a)) in Hy by lia.
  destruct (Z.sgn_spec (f y)) as [[? Hs]|[[? Hs]|[? Hs]]]; rewrite Hs in Hy; lia.
Qed.
Lemma sorted_mid {X} (P : X -> X -> Prop) l1 l2 l3 : StronglySorted P (l1 ++ l2 ++ l3) -> StronglySorted P l2.
Proof.
  induction l1 as [|a l1 IH]; cbn [app]; [|intros H; apply StronglySorted_inv in H; apply IH, H].
  induction l2 as [|a l2 IH]; cbn [app]; [constructor|]. intros H. apply StronglySorted_inv in H. destruct H as [H1 H2]. apply Forall_app in H2. constructor; [apply IH, H1|apply H2].
Qed.
Lemma find_loop_ok u : forall fuel par, (size u < fuel)%nat -> cnt 0 u = 0%nat -> rep V m par u -> grows (inorder u) ->
  exists x, find_loop fuel m f (addr u) = Some x /\ (x = NULL /\ (forall y, In y (inorder u) -> f y <> 0) \/ In x (inorder u) /\ f x = 0).
Proof.
  induction u as [|c l IHl a r IHr]; intros fuel par Hf Hz Hr Hm; (destruct fuel as [|fuel]; [lia|]); cbn [find_loop addr size inorder Tree.rep cnt] in *.
  - exists NULL. split; [reflexivity|]. left. split; [reflexivity|]. intros y [].
  - destruct Hr as (T1 & T2 & T3 & T4 & T5 & T6). assert (Na : (a =? NULL) = false) by (apply Z.eqb_neq; intros ->; unfold NULL in Hz; rewrite ind_refl in Hz; lia). rewrite Na.
    destruct (Z.eqb_spec (f a) 0) as [E0|E0]; [exists a; split; [reflexivity|]; right; split; [apply in_or_app; right; left; reflexivity|exact E0]|].
    unfold ld. rewrite Z.gtb_ltb. destruct (Z.ltb_spec 0 (f a)) as [Hp|Hn].
    + rewrite T2. destruct (IHl fuel a) as (x & H1 & H2); [lia|lia|exact T5|apply (sorted_mid _ [] (inorder l) (a :: inorder r)), Hm|]. exists x. split; [exact H1|].
      destruct H2 as [[-> H2]|[H2 H3]]; [left|right]; (split; [try reflexivity|try exact H3]).
      * intros y Hy. apply in_app_or in Hy. destruct Hy as [Hy|[<-|Hy]]; [apply H2, Hy|exact E0|]. pose proof (grows_pos _ _ _ Hm ltac:(lia)) as G. rewrite Forall_forall in G. specialize (G y Hy). lia.
      * apply in_or_app. left. exact H2.
    + rewrite T3. destruct (IHr fuel a) as (x & H1 & H2); [lia|lia|exact T6| |].
      { apply (sorted_mid _ (inorder l ++ [a]) (inorder r) []). rewrite app_nil_r, <- app_assoc. exact Hm. }
      exists x. split; [exact H1|]. destruct H2 as [[-> H2]|[H2 H3]]; [left|right]; (split; [try reflexivity|try exact H3]).
      * intros y Hy. apply in_app_or in Hy. destruct Hy as [Hy|[<-|Hy]]; [|exact E0|apply H2, Hy]. pose proof (grows_neg _ _ _ Hm ltac:(lia)) as G. rewrite Forall_forall in G. specialize (G y Hy). lia.
      * apply in_or_app. right. right. exact H2.
Qed.
(** rbtree.c:544-564 *)
Theorem find_ok fuel t : (size t < fuel)%nat -> tree_at m t -> grows (inorder t) ->
  exists x, find fuel m rt f = Some x /\ (x = NULL /\ (forall y, In y (inorder t) -> f y <> 0) \/ In x (inorder t) /\ f x = 0).
Proof.
  intros Hf (H1 & H2 & D) Hm. unfold find, ld. rewrite H1. apply (find_loop_ok t fuel 0 Hf); [|exact H2|exact Hm]. specialize (D 0). rewrite ind_refl in D. lia.
Qed.
Lemma find_last_loop_ok fuel : forall (k : bctx) u lm, u <> E -> (size u <= fuel)%nat -> tree_at m (plug k u) -> grows (inorder (plug k u)) ->
  gap (fun x => f x > 0) (fun x => f x < 0) k -> (lm = true <-> before k = []) ->
  (exists k' x l a r, find_last_loop fuel m f (loc rt k, lfield k) lm = Some (a, a, (loc rt k', lfield k'), None) /\ plug k u = plug k' (T x l a r) /\ f a = 0) \/
  exists k' lm', find_last_loop fuel m f (loc rt k, lfield k) lm = Some (NULL, cpar k', (loc rt k', lfield k'), Some lm') /\ plug k' E = plug k u /\
    gap (fun x => f x > 0) (fun x => f x < 0) k' /\ (lm' = true <-> before k' = []).
Proof.
  induction fuel as [|fuel IH]; intros k u lm Hu Hf HT Hm [G1 G2] HL; (destruct u as [|x l a r]; [congruence|]); cbn [size] in Hf; [lia|].
  pose proof HT as H0. apply tree_at_focus in H0. destruct H0 as (Hk & Ht & D). cbn [Tree.rep addr] in *. destruct Ht as (T1 & T2 & T3 & T4 & T5 & T6).
  cbn [find_last_loop]. unfold ld. cbn [fst snd]. rewrite (crep_loc V rt m k a Hk).
  assert (Hm' : grows ((before k ++ inorder l) ++ a :: (inorder r ++ after k))).
  { rewrite inorder_plug in Hm. cbn [inorder] in Hm. rewrite <- !app_assoc in *. exact Hm. }
  destruct (Z.eqb_spec (f a) 0) as [E0|E0]; [left; exists k, x, l, a, r; tauto|].
  rewrite Z.gtb_ltb. destruct (Z.ltb_spec 0 (f a)) as [Hlt|Hge]; cbn [fst snd].
  - assert (G : gap (fun x => f x > 0) (fun x => f x < 0) (F L x a r :: k)).
    { split; cbn [before after]; [exact G1|]. constructor; [lia|]. apply (grows_pos _ _ _ Hm'). lia. }
    rewrite T2. destruct l as [|y ll b lr].
    + right. exists (F L x a r :: k), lm. conj; [reflexivity|reflexivity|exact G|exact HL].
    + assert (Nb : (addr (T y ll b lr) =? NULL) = false).
      { apply Z.eqb_neq. cbn [addr]. intros ->. specialize (D NULL). cbn [cnt] in D. unfold NULL in D. rewrite !ind_refl in D. lia. }
      rewrite Nb. cbn [negb]. destruct (IH (F L x a r :: k) (T y ll b lr) lm) as [I1|I1]; [discriminate|lia|exact HT|exact Hm|exact G|exact HL|left; exact I1|right; exact I1].
  - assert (G : gap (fun x => f x > 0) (fun x => f x < 0) (F R x a l :: k)).
    { split; cbn [before after]; [|exact G2]. pose proof (grows_neg _ _ _ Hm' ltac:(lia)) as H. rewrite app_assoc. apply Forall_app. split; [exact H|]. constructor; [lia|constructor]. }
    assert (HL' : false = true <-> before (F R x a l :: k) = []) by (split; [discriminate|]; cbn [before]; destruct (before k), (inorder l); discriminate).
    rewrite T3. destruct r as [|y rl b rr].
    + right. exists (F R x a l :: k), false. conj; [reflexivity|reflexivity|exact G|exact HL'].
    + assert (Nb : (addr (T y rl b rr) =? NULL) = false).
      { apply Z.eqb_neq. cbn [addr]. intros ->. specialize (D NULL). cbn [cnt] in D. unfold NULL in D. rewrite !ind_refl in D. lia. }
      rewrite Nb. cbn [negb]. destruct (IH (F R x a l :: k) (T y rl b rr) false) as [I1|I1]; [discriminate|lia|exact HT|exact Hm|exact G|exact HL'|left; exact I1|right; exact I1].
Qed.
End Find.
End Search.
