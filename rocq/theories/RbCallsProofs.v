(** * The searches of a red-black tree with any comparison function *)
From Verif Require Import Lib Ptr Tree TiterModel TiterProofs RbModel RbProofs RbRotate RbSpec RbInsert RbErase RbRemove RbRemove2 RbDelete RbFrame RbOps RbCallsModel.

(** The nodes on the longest path. *)
Fixpoint height (t : btree) : nat := match t with E => 0 | T _ l _ r => S (Nat.max (height l) (height r)) end.
Lemma height_bal : forall t n, nored2 t -> bal t n -> (height t <= 2 * n + (if match t with T c _ _ _ => c | E => true end then 0 else 1))%nat.
Proof.
  induction t as [|c l IHl a r IHr]; intros n N B; [cbn; lia|]. cbn [nored2 bal height] in *. destruct N as (N0 & N1 & N2), B as (n' & B1 & B2 & ->).
  specialize (IHl n' N1 B1). specialize (IHr n' N2 B2). destruct c.
  - destruct (match l with T c _ _ _ => c | E => true end), (match r with T c _ _ _ => c | E => true end); lia.
  - destruct (N0 eq_refl) as [K1 K2]. assert (F : forall u : btree, black u -> (match u with T c _ _ _ => c | E => true end) = true) by (intros [|[|] ? ? ?] H; cbn in *; congruence).
    rewrite (F l K1) in IHl. rewrite (F r K2) in IHr. lia.
Qed.
Lemma size_bal : forall t n, bal t n -> (2 ^ n <= size t + 1)%nat.
Proof.
  induction t as [|c l IHl a r IHr]; intros n B; cbn [bal size] in *; [subst; cbn; lia|]. destruct B as (n' & B1 & B2 & ->). specialize (IHl n' B1). specialize (IHr n' B2). destruct c; cbn [Nat.add Nat.pow]; lia.
Qed.
Lemma height_log t : redblack t -> Z.of_nat (height t) <= 2 * Z.log2 (Z.of_nat (size t) + 1).
Proof.
  intros (Kb & N & n & B). pose proof (height_bal t n N B) as H. pose proof (size_bal t n B) as Hs.
  assert (Hc : (match t with T c _ _ _ => c | E => true end) = true) by (destruct t as [|[|] ? ? ?]; cbn in *; congruence). rewrite Hc in H.
  assert (Z.of_nat n <= Z.log2 (Z.of_nat (size t) + 1)); [|lia]. apply Z.log2_le_pow2; [lia|]. apply inj_le in Hs. rewrite Nat2Z.inj_pow in Hs. lia.
Qed.

Section Search.
Variable orc : list (Z * Z) -> Z -> Z -> Z.
Variable rt : Z.
Variable m : mem.
Notation tree_at := (tree_at V rt).
Lemma parent_loop_any n fuel : forall tr (k : bctx) u lm, u <> E -> (size u <= fuel)%nat -> tree_at m (plug k u) -> (lm = true <-> before k = []) ->
  exists p tr', parent_loop_o orc fuel tr m n (loc rt k, lfield k) lm = Some (p, tr') /\ (length tr' <= length tr + height u)%nat /\
  match p with
  | None => exists x h, In x (inorder u) /\ orc h n x = 0
  | Some q => exists k' lm', q = (cpar k', (loc rt k', lfield k'), lm') /\ plug k' E = plug k u /\ (lm' = true <-> before k' = [])
  end.
Proof.
  induction fuel as [|fuel IH]; intros tr k u lm Hu Hf HT HL; (destruct u as [|x l a r]; [congruence|]); cbn [size] in Hf; [lia|].
  pose proof HT as H0. apply tree_at_focus in H0. destruct H0 as (Hk & Ht & D). cbn [Tree.rep addr] in *. destruct Ht as (T1 & T2 & T3 & T4 & T5 & T6).
  cbn [parent_loop_o]. unfold ld. cbn [fst snd]. rewrite (crep_loc V rt m k a Hk).
  destruct (Z.eqb_spec (orc tr n a) 0) as [E0|E0].
  { exists None, ((n, a) :: tr). split; [reflexivity|]. split; [cbn [length height]; lia|]. exists a, tr. split; [cbn [inorder]; apply in_or_app; right; left; reflexivity|exact E0]. }
  destruct (Z.ltb_spec (orc tr n a) 0) as [Hlt|Hge]; cbn [fst snd].
  - rewrite T2. destruct l as [|y ll b lr].
    + eexists _, _. split; [reflexivity|]. split; [cbn [length height]; lia|]. exists (F L x a r :: k), lm. conj; [reflexivity|reflexivity|exact HL].
    + assert (Nb : (addr (T y ll b lr) =? NULL) = false).
      { apply Z.eqb_neq. cbn [addr]. intros ->. specialize (D NULL). cbn [cnt] in D. unfold NULL in D. rewrite !ind_refl in D. lia. }
      rewrite Nb. cbn [negb]. destruct (IH ((n, a) :: tr) (F L x a r :: k) (T y ll b lr) lm) as (p & tr' & I1 & I2 & I3); [discriminate|lia|exact HT|exact HL|].
      exists p, tr'. split; [exact I1|]. split; [cbn [length height] in *; lia|]. destruct p as [q|].
      * destruct I3 as (k' & lm' & J1 & J2 & J3). exists k', lm'. split; [exact J1|]. split; [rewrite J2; reflexivity|exact J3].
      * destruct I3 as (z & h & J1 & J2). exists z, h. split; [cbn [inorder] in *; apply in_or_app; left; exact J1|exact J2].
  - assert (HL' : false = true <-> before (F R x a l :: k) = []) by (split; [discriminate|]; cbn [before]; destruct (before k), (inorder l); discriminate).
    rewrite T3. destruct r as [|y rl b rr].
    + eexists _, _. split; [reflexivity|]. split; [cbn [length height]; lia|]. exists (F R x a l :: k), false. conj; [reflexivity|reflexivity|exact HL'].
    + assert (Nb : (addr (T y rl b rr) =? NULL) = false).
      { apply Z.eqb_neq. cbn [addr]. intros ->. specialize (D NULL). cbn [cnt] in D. unfold NULL in D. rewrite !ind_refl in D. lia. }
      rewrite Nb. cbn [negb]. destruct (IH ((n, a) :: tr) (F R x a l :: k) (T y rl b rr) false) as (p & tr' & I1 & I2 & I3); [discriminate|lia|exact HT|exact HL'|].
      exists p, tr'. split; [exact I1|]. split; [cbn [length height] in *; lia|]. destruct p as [q|].
      * destruct I3 as (k' & lm' & J1 & J2 & J3). exists k', lm'. split; [exact J1|]. split; [rewrite J2; reflexivity|exact J3].
      * destruct I3 as (z & h & J1 & J2). exists z, h. split; [cbn [inorder] in *; apply in_or_app; right; right; exact J1|exact J2].
Qed.
Lemma rb_parent_any n fuel tr t : (size t <= fuel)%nat -> tree_at m t ->
  exists p tr', rb_parent_o orc fuel tr m rt n = Some (p, tr') /\ (length tr' <= length tr + height t)%nat /\
  match p with
  | None => exists x h, In x (inorder t) /\ orc h n x = 0
  | Some q => exists k lm, q = (cpar k, (loc rt k, lfield k), lm) /\ t = plug k E /\ (lm = true <-> before k = [])
  end.
Proof.
  intros Hf HT. unfold rb_parent_o, ld. pose proof HT as (H1 & _ & D). rewrite H1. destruct t as [|x l a r].
  - eexists _, _. split; [reflexivity|]. split; [cbn; lia|]. exists [], true. conj; [reflexivity|reflexivity|tauto].
  - assert (Na : (addr (T x l a r) =? NULL) = false).
    { apply Z.eqb_neq. cbn [addr]. intros ->. specialize (D NULL). cbn [cnt cntk] in D. unfold NULL in D. rewrite !ind_refl in D. lia. }
    rewrite Na. destruct (parent_loop_any n fuel tr [] (T x l a r) true) as (p & tr' & I1 & I2 & I3); try assumption; [discriminate|split; reflexivity|].
    exists p, tr'. split; [exact I1|]. split; [exact I2|]. destruct p as [q|]; [|exact I3]. destruct I3 as (k' & lm' & J1 & J2 & J3). exists k', lm'. split; [exact J1|]. split; [symmetry; exact J2|exact J3].
Qed.
Lemma find_loop_any key u : forall fuel tr par, (size u < fuel)%nat -> cnt 0 u = 0%nat -> rep V m par u ->
  exists x tr', find_loop_o orc fuel tr m key (addr u) = Some (x, tr') /\ (length tr' <= length tr + height u)%nat /\ (x = NULL \/ In x (inorder u) /\ exists h, orc h key x = 0).
Proof.
  induction u as [|c l IHl a r IHr]; intros fuel tr par Hf Hz Hr; (destruct fuel as [|fuel]; [lia|]); cbn [find_loop_o addr size inorder Tree.rep cnt height] in *.
  - exists NULL, tr. split; [reflexivity|]. split; [lia|left; reflexivity].
  - destruct Hr as (T1 & T2 & T3 & T4 & T5 & T6). assert (Na : (a =? NULL) = false) by (apply Z.eqb_neq; intros ->; unfold NULL in Hz; rewrite ind_refl in Hz; lia). rewrite Na.
    destruct (Z.eqb_spec (orc tr key a) 0) as [E0|E0]; [exists a, ((key, a) :: tr); split; [reflexivity|]; split; [cbn [length]; lia|]; right; split; [apply in_or_app; right; left; reflexivity|exists tr; exact E0]|].
    unfold ld. destruct (orc tr key a >? 0).
    + rewrite T2. destruct (IHl fuel ((key, a) :: tr) a) as (x & tr' & H1 & H2 & H3); [lia|lia|exact T5|]. exists x, tr'. split; [exact H1|]. split; [cbn [length] in *; lia|].
      destruct H3 as [H3|[H3 H4]]; [left; exact H3|right]. split; [apply in_or_app; left; exact H3|exact H4].
    + rewrite T3. destruct (IHr fuel ((key, a) :: tr) a) as (x & tr' & H1 & H2 & H3); [lia|lia|exact T6|]. exists x, tr'. split; [exact H1|]. split; [cbn [length] in *; lia|].
      destruct H3 as [H3|[H3 H4]]; [left; exact H3|right]. split; [apply in_or_app; right; right; exact H3|exact H4].
Qed.
Lemma find_any key fuel tr t : (size t < fuel)%nat -> tree_at m t ->
  exists x tr', find_o orc fuel tr m rt key = Some (x, tr') /\ (length tr' <= length tr + height t)%nat /\ (x = NULL \/ In x (inorder t) /\ exists h, orc h key x = 0).
Proof. intros Hf (H1 & H2 & D). unfold find_o, ld. rewrite H1. apply (find_loop_any key t fuel tr 0 Hf); [|exact H2]. specialize (D 0). rewrite ind_refl in D. lia. Qed.
Lemma find_last_loop_any key fuel : forall tr (k : bctx) u lm, u <> E -> (size u <= fuel)%nat -> tree_at m (plug k u) -> (lm = true <-> before k = []) ->
  exists tr', (length tr' <= length tr + height u)%nat /\
  ((exists k' x l a r h, find_last_loop_o orc fuel tr m key (loc rt k, lfield k) lm = Some (a, a, (loc rt k', lfield k'), None, tr') /\ plug k u = plug k' (T x l a r) /\ orc h key a = 0) \/
   (exists k' lm', find_last_loop_o orc fuel tr m key (loc rt k, lfield k) lm = Some (NULL, cpar k', (loc rt k', lfield k'), Some lm', tr') /\ plug k' E = plug k u /\ (lm' = true <-> before k' = []))).
Proof.
  induction fuel as [|fuel IH]; intros tr k u lm Hu Hf HT HL; (destruct u as [|x l a r]; [congruence|]); cbn [size] in Hf; [lia|].
  pose proof HT as H0. apply tree_at_focus in H0. destruct H0 as (Hk & Ht & D). cbn [Tree.rep addr] in *. destruct Ht as (T1 & T2 & T3 & T4 & T5 & T6).
  cbn [find_last_loop_o]. unfold ld. cbn [fst snd]. rewrite (crep_loc V rt m k a Hk).
  destruct (Z.eqb_spec (orc tr key a) 0) as [E0|E0].
  { exists ((key, a) :: tr). split; [cbn [length height]; lia|]. left. exists k, x, l, a, r, tr. tauto. }
  destruct (orc tr key a >? 0); cbn [fst snd].
  - rewrite T2. destruct l as [|y ll b lr].
    + eexists. split; [|right; exists (F L x a r :: k), lm; conj; [reflexivity|reflexivity|exact HL]]. cbn [length height]. lia.
    + assert (Nb : (addr (T y ll b lr) =? NULL) = false).
      { apply Z.eqb_neq. cbn [addr]. intros ->. specialize (D NULL). cbn [cnt] in D. unfold NULL in D. rewrite !ind_refl in D. lia. }
      rewrite Nb. cbn [negb]. destruct (IH ((key, a) :: tr) (F L x a r :: k) (T y ll b lr) lm) as (tr' & I1 & I2); [discriminate|lia|exact HT|exact HL|].
      exists tr'. split; [cbn [length height] in *; lia|exact I2].
  - assert (HL' : false = true <-> before (F R x a l :: k) = []) by (split; [discriminate|]; cbn [before]; destruct (before k), (inorder l); discriminate).
    rewrite T3. destruct r as [|y rl b rr].
    + eexists. split; [|right; exists (F R x a l :: k), false; conj; [reflexivity|reflexivity|exact HL']]. cbn [length height]. lia.
    + assert (Nb : (addr (T y rl b rr) =? NULL) = false).
      { apply Z.eqb_neq. cbn [addr]. intros ->. specialize (D NULL). cbn [cnt] in D. unfold NULL in D. rewrite !ind_refl in D. lia. }
      rewrite Nb. cbn [negb]. destruct (IH ((key, a) :: tr) (F R x a l :: k) (T y rl b rr) false) as (tr' & I1 & I2); [discriminate|lia|exact HT|exact HL'|].
      exists tr'. split; [cbn [length height] in *; lia|exact I2].
Qed.
End Search.

(** ** With a function that does not depend on the history these are the functions of RbModel *)
Section Same.
Variable cmp : Z -> Z -> Z.
Variable m : mem.
Lemma find_loop_same key : forall fuel tr node, option_map fst (find_loop_o (fun _ => cmp) fuel tr m key node) = find_loop fuel m (cmp key) node.
Proof.
  induction fuel as [|fuel IH]; intros tr node; [reflexivity|]. cbn [find_loop_o find_loop]. destruct (node =? NULL); [reflexivity|]. destruct (cmp key node =? 0); [reflexivity|].
  destruct (if cmp key node >? 0 then ld m node LEFT else ld m node RIGHT); [apply IH|reflexivity].
Qed.
Lemma find_same fuel tr rt key : option_map fst (find_o (fun _ => cmp) fuel tr m rt key) = find fuel m rt (cmp key).
Proof. unfold find_o, find. destruct (ld m rt NODE); [apply find_loop_same|reflexivity]. Qed.
Lemma parent_loop_same n : forall fuel tr lp lm, option_map fst (parent_loop_o (fun _ => cmp) fuel tr m n lp lm) = parent_loop fuel m cmp n lp lm.
Proof.
  induction fuel as [|fuel IH]; intros tr lp lm; [reflexivity|]. cbn [parent_loop_o parent_loop]. destruct (ld m (fst lp) (snd lp)) as [cur|]; [|reflexivity]. destruct (cmp n cur =? 0); [reflexivity|].
  destruct (if cmp n cur <? 0 then ((cur, LEFT), lm) else ((cur, RIGHT), false)) as [lp' lm']. destruct (ld m (fst lp') (snd lp')) as [next|]; [|reflexivity]. destruct (next =? NULL); cbn [negb]; [reflexivity|apply IH].
Qed.
Lemma rb_parent_same fuel tr rt n : option_map fst (rb_parent_o (fun _ => cmp) fuel tr m rt n) = rb_parent fuel m cmp rt n.
Proof. unfold rb_parent_o, rb_parent. destruct (ld m rt NODE) as [x|]; [|reflexivity]. destruct (x =? NULL); [reflexivity|apply parent_loop_same]. Qed.
Lemma find_last_loop_same key : forall fuel tr lp lm, option_map fst (find_last_loop_o (fun _ => cmp) fuel tr m key lp lm) = find_last_loop fuel m (cmp key) lp lm.
Proof.
  induction fuel as [|fuel IH]; intros tr lp lm; [reflexivity|]. cbn [find_last_loop_o find_last_loop]. destruct (ld m (fst lp) (snd lp)) as [cur|]; [|reflexivity]. destruct (cmp key cur =? 0); [reflexivity|].
  destruct (if cmp key cur >? 0 then ((cur, LEFT), lm) else ((cur, RIGHT), false)) as [lp' lm']. destruct (ld m (fst lp') (snd lp')) as [next|]; [|reflexivity]. destruct (next =? NULL); cbn [negb]; [reflexivity|apply IH].
Qed.
Lemma insert_same fuel tr rt n : option_map fst (insert_o (fun _ => cmp) fuel tr m rt n) = insert dummy_callbacks fuel m cmp rt n.
Proof.
  unfold insert_o, insert. rewrite <- (rb_parent_same fuel tr). destruct (rb_parent_o (fun _ => cmp) fuel tr m rt n) as [[[[[par lp] lm]|] tr']|]; cbn [option_map fst]; try reflexivity.
  destruct (insert_node dummy_callbacks fuel m rt par lp n); reflexivity.
Qed.
Lemma cached_insert_same fuel tr rt n : option_map fst (cached_insert_o (fun _ => cmp) fuel tr m rt n) = cached_insert dummy_callbacks fuel m cmp rt n.
Proof.
  unfold cached_insert_o, cached_insert. rewrite <- (rb_parent_same fuel tr). destruct (rb_parent_o (fun _ => cmp) fuel tr m rt n) as [[[[[par lp] lm]|] tr']|]; cbn [option_map fst]; try reflexivity.
  destruct (cached_insert_node dummy_callbacks fuel m rt par lp n lm); reflexivity.
Qed.
End Same.
