(** * Binary heaps with any comparison function: the tree stays complete and keeps its nodes *)
From Coq Require Import Sorting.Permutation.
From Verif Require Import Lib Ptr Tree BitsModel BitsProofs TiterModel TiterProofs RbProofs RbInsert RbFrame HeapModel HeapProofs HeapSpec HeapPath HeapOps HeapProps HeapCallsModel.
Ltac Zify.zify_post_hook ::= Z.div_mod_to_equations.

(** Every recorded call compares two different nodes of [X]. *)
Definition pairs (X : list Z) (q : list (Z * Z)) : Prop := forall a b, In (a, b) q -> In a X /\ In b X /\ a <> b.
Lemma pairs_nil X : pairs X [].
Proof. intros a b []. Qed.
Lemma pairs_perm X Y q : Permutation X Y -> pairs X q -> pairs Y q.
Proof. intros P H a b Hin. destruct (H a b Hin) as (H1 & H2 & H3). split; [apply (Permutation_in _ P H1)|]. split; [apply (Permutation_in _ P H2)|exact H3]. Qed.
Lemma pairs_app X q1 q2 : pairs X q1 -> pairs X q2 -> pairs X (q1 ++ q2).
Proof. intros H1 H2 a b Hin. apply in_app_or in Hin. destruct Hin as [H|H]; [apply H1, H|apply H2, H]. Qed.
Lemma pairs_one X a b : In a X -> In b X -> a <> b -> pairs X [(a, b)].
Proof. intros H1 H2 H3 x y [E|[]]. injection E as <- <-. repeat split; assumption. Qed.
Lemma in_plug (k : uctx) (t : utree) a : In a (inorder (plug k t)) <-> (cnt a t + cntk a k > 0)%nat.
Proof. rewrite <- cnt_pos_in, cnt_plug. lia. Qed.
(** No node is deeper than [d]. *)
Definition depth_le (d : nat) (t : utree) : Prop := forall q, occ t q -> (length q <= d)%nat.
Lemma depth_moved d t t' : moved t t' -> depth_le d t -> depth_le d t'.
Proof. intros [H _] D q Hq. apply D, H, Hq. Qed.
Lemma kpath_length {A} (k : ctx A) : length (kpath k) = length k.
Proof. induction k as [|[d x a s] k IH]; [reflexivity|]. cbn [kpath length]. rewrite app_length, IH. cbn [length]. lia. Qed.
Lemma depth_focus d (k : uctx) x l a r : depth_le d (plug k (T x l a r)) -> (length k <= d)%nat /\ (l <> E \/ r <> E -> (S (length k) <= d)%nat).
Proof.
  intros D. split.
  - rewrite <- (kpath_length k). apply D. unfold occ. rewrite <- (app_nil_r (kpath k)), at_plug. discriminate.
  - intros [H|H].
    + assert (X : occ (plug k (T x l a r)) (kpath k ++ [L])) by (unfold occ; rewrite at_plug; cbn [at_path]; destruct l; [congruence|discriminate]). apply D in X. rewrite app_length, kpath_length in X. cbn [length] in X. lia.
    + assert (X : occ (plug k (T x l a r)) (kpath k ++ [R])) by (unfold occ; rewrite at_plug; cbn [at_path]; destruct r; [congruence|discriminate]). apply D in X. rewrite app_length, kpath_length in X. cbn [length] in X. lia.
Qed.
Lemma complete_depth (t : utree) c : complete t c -> depth_le (Z.to_nat (Z.log2 c)) t.
Proof.
  intros HP q Hq. destruct (path_surj q) as (i & Hi & <-). apply HP in Hq; [|exact Hi]. unfold path. rewrite bits_length. pose proof (Z.log2_le_mono i c Hq). lia.
Qed.

Section Ops.
Variable orc : list (Z * Z) -> Z -> Z -> Z.
Variable rt : Z.
Notation tree_at := (tree_at U rt).

Theorem fixup_any fuel : forall tr m (k : uctx) y l n r, (length k < fuel)%nat -> tree_at m (plug k (T y l n r)) ->
  exists m' q t', hp_fixup_o orc fuel tr m rt n = Some (m', q ++ tr) /\ tree_at m' t' /\ moved (plug k (T y l n r)) t' /\ m' rt COUNT = m rt COUNT /\ (length q <= length k)%nat /\ pairs (inorder (plug k (T y l n r))) q.
Proof.
  induction fuel as [|fuel IH]; intros tr m k y l n r Hf HT; [lia|]. cbn [hp_fixup_o]. pose proof HT as HF. apply tree_at_focus in HF. destruct HF as (Hc & Hr & D). cbn [Tree.rep] in Hr. destruct Hr as (R1 & _). unfold ld. rewrite R1.
  destruct k as [|[d x a s] k]; cbn [cpar].
  - change (0 =? NULL) with true. cbn iota. exists m, [], (T y l n r). conj; try assumption; try apply moved_refl; try apply pairs_nil; try reflexivity; cbn [length]; lia.
  - assert (Na : a <> NULL) by (intros ->; specialize (D 0); cbn [cntk] in D; unfold NULL in D; rewrite !ind_refl in D; lia). rewrite (proj2 (Z.eqb_neq _ _) Na).
    assert (Hna : n <> a) by (intros ->; specialize (D a); cbn [cntk cnt] in D; rewrite !ind_refl in D; lia).
    assert (P1 : pairs (inorder (plug (F d x a s :: k) (T y l n r))) [(n, a)]).
    { apply pairs_one; [| |exact Hna]; apply in_plug; cbn [cnt cntk]; rewrite ind_refl; lia. }
    destruct (orc tr n a >=? 0).
    + exists m, [(n, a)], (plug (F d x a s :: k) (T y l n r)). conj; try assumption; try reflexivity; [apply moved_refl|cbn [length]; lia].
    + destruct (swap_ok rt m k d x y l n r a s HT) as (m1 & E1 & T1 & C1). rewrite E1. pose proof (moved_swap k d x y l n r a s) as MS.
      destruct d; cbn [swapped] in T1, MS; cbn [length] in Hf.
      * destruct (IH ((n, a) :: tr) m1 k y (T x l a r) n s) as (m' & q & t' & A1 & A2 & A3 & A4 & A5 & A6); [lia|exact T1|]. exists m', (q ++ [(n, a)]), t'. rewrite A1, <- app_assoc. conj; try assumption; try reflexivity; [apply (moved_trans _ _ _ MS A3)|congruence|rewrite app_length; cbn [length]; lia|].
        apply pairs_app; [|exact P1]. apply (pairs_perm _ _ _ (Permutation_sym (proj2 MS)) A6).
      * destruct (IH ((n, a) :: tr) m1 k y s n (T x l a r)) as (m' & q & t' & A1 & A2 & A3 & A4 & A5 & A6); [lia|exact T1|]. exists m', (q ++ [(n, a)]), t'. rewrite A1, <- app_assoc. conj; try assumption; try reflexivity; [apply (moved_trans _ _ _ MS A3)|congruence|rewrite app_length; cbn [length]; lia|].
        apply pairs_app; [|exact P1]. apply (pairs_perm _ _ _ (Permutation_sym (proj2 MS)) A6).
Qed.

Theorem sink_any h fuel : forall tr m (k : uctx) x l n r, (size (T x l n r) <= fuel)%nat -> tree_at m (plug k (T x l n r)) -> lefty (T x l n r) -> depth_le h (plug k (T x l n r)) ->
  exists m' q t', hp_sink_o orc fuel tr m rt n = Some (m', q ++ tr) /\ tree_at m' t' /\ moved (plug k (T x l n r)) t' /\ m' rt COUNT = m rt COUNT /\ (length q <= 2 * (h - length k))%nat /\ pairs (inorder (plug k (T x l n r))) q.
Proof.
  induction fuel as [|fuel IH]; intros tr m k x l n r Hf HT HL Hd0; [cbn [size] in Hf; lia|]. cbn [hp_sink_o size] in *. pose proof HT as HF. apply tree_at_focus in HF. destruct HF as (Hc & Hrep & D). cbn [Tree.rep] in Hrep. destruct Hrep as (R1 & R2 & R3 & _). unfold hp_choose_o, ld. rewrite R2, R3.
  assert (Dl : apart rt (F L x n r :: k) l) by (intros z; specialize (D z); cbn [cntk cnt] in *; lia). assert (Dr : apart rt (F R x n l :: k) r) by (intros z; specialize (D z); cbn [cntk cnt] in *; lia).
  rewrite (uaddr_null rt _ l Dl), (uaddr_null rt _ r Dr). destruct HL as (HL & Ll & Lr).
  destruct (depth_focus _ _ _ _ _ _ Hd0) as [Hd1 Hd2].
  assert (Step : forall q0 d s (u : utree), u <> E -> (d = L /\ u = l /\ s = r \/ d = R /\ u = r /\ s = l) -> (length q0 <= 1)%nat -> pairs (inorder (plug k (T x l n r))) q0 ->
    exists m' q t', (if addr u =? NULL then None else if orc (q0 ++ tr) n (addr u) <? 0 then Some (m, (n, addr u) :: q0 ++ tr) else let* m := parent_swap m rt n (addr u) in hp_sink_o orc fuel ((n, addr u) :: q0 ++ tr) m rt n) = Some (m', q ++ tr) /\ tree_at m' t' /\ moved (plug k (T x l n r)) t' /\ m' rt COUNT = m rt COUNT /\ (length q <= 2 * (h - length k))%nat /\ pairs (inorder (plug k (T x l n r))) q).
  { intros q0 d s u Nu Hd Hq0 Pq0. assert (Hh : (S (length k) <= h)%nat) by (apply Hd2; destruct Hd as [(_ & <- & _)|(_ & <- & _)]; tauto).
    destruct u as [|y ul c ur]; [congruence|]. cbn [addr] in *.
    assert (Nc : (c =? NULL) = false). { destruct Hd as [(_ & <- & _)|(_ & <- & _)]; [apply (uaddr_null rt _ _ Dl)|apply (uaddr_null rt _ _ Dr)]. } rewrite Nc.
    assert (Hplug : plug k (T x l n r) = plug (F d x n s :: k) (T y ul c ur)) by (destruct Hd as [(-> & -> & ->)|(-> & -> & ->)]; reflexivity).
    assert (P1 : pairs (inorder (plug k (T x l n r))) [(n, c)]).
    { apply pairs_one; [apply in_plug; cbn [cnt]; rewrite ind_refl; lia|rewrite Hplug; apply in_plug; cbn [cnt]; rewrite ind_refl; lia|].
      intros ->. pose proof HT as HT'. rewrite Hplug in HT'. apply tree_at_focus in HT'. destruct HT' as (_ & _ & D'). specialize (D' c). cbn [cnt cntk] in D'. rewrite !ind_refl in D'. lia. }
    assert (P2 : pairs (inorder (plug k (T x l n r))) ((n, c) :: q0)) by (apply (pairs_app _ [(n, c)] q0 P1 Pq0)).
    destruct (orc (q0 ++ tr) n c <? 0).
    - exists m, ((n, c) :: q0), (plug k (T x l n r)). conj; try assumption; try reflexivity; [apply moved_refl|cbn [length]; lia].
    - pose proof (moved_swap k d x y ul c ur n s) as MS. rewrite Hplug in *. destruct (swap_ok rt m k d x y ul c ur n s HT) as (m1 & E1 & T1 & C1). rewrite E1.
      assert (Lu : lefty (T y ul c ur)) by (destruct Hd as [(_ & -> & _)|(_ & -> & _)]; assumption). cbn [lefty] in Lu.
      assert (HszU : (size (T x ul n ur) <= fuel)%nat). { destruct Hd as [(_ & <- & _)|(_ & <- & _)]; cbn [size] in *; lia. }
      assert (Eq2 : plug k (swapped d x y ul c ur n s) = plug (F d y c s :: k) (T x ul n ur)) by (destruct d; reflexivity). rewrite Eq2 in T1, MS.
      destruct (IH ((n, c) :: q0 ++ tr) m1 (F d y c s :: k) x ul n ur HszU T1) as (m' & q & t' & A1 & A2 & A3 & A4 & A5 & A6); [exact Lu|apply (depth_moved _ _ _ MS Hd0)|].
      exists m', (q ++ (n, c) :: q0), t'. rewrite A1, <- app_assoc. conj; try assumption; try reflexivity; [apply (moved_trans _ _ _ MS A3)|congruence|rewrite app_length; cbn [length] in *; lia|].
      apply pairs_app; [apply (pairs_perm _ _ _ (Permutation_sym (proj2 MS)) A6)|exact P2]. }
  destruct l as [|y1 l1 c1 r1], r as [|y2 l2 c2 r2]; cbn [andb] in *.
  - exists m, [], (plug k (T x E n E)). conj; try assumption; try apply moved_refl; try apply pairs_nil; try reflexivity; cbn [length]; lia.
  - exfalso. apply HL; congruence.
  - apply (Step [] L E); [discriminate|left; repeat split|cbn; lia|apply pairs_nil].
  - cbn [addr].
    assert (P1 : pairs (inorder (plug k (T x (T y1 l1 c1 r1) n (T y2 l2 c2 r2)))) [(c1, c2)]).
    { apply pairs_one; [apply in_plug; cbn [cnt]; rewrite ind_refl; lia|apply in_plug; cbn [cnt]; rewrite ind_refl; lia|]. intros ->. specialize (D c2). cbn [cnt cntk] in D. rewrite !ind_refl in D. lia. }
    destruct (orc tr c1 c2 <? 0).
    + apply (Step [(c1, c2)] L (T y2 l2 c2 r2) (T y1 l1 c1 r1)); [discriminate|left; repeat split|cbn; lia|exact P1].
    + apply (Step [(c1, c2)] R (T y1 l1 c1 r1) (T y2 l2 c2 r2)); [discriminate|right; repeat split|cbn; lia|exact P1].
Qed.
Theorem erase_any h fuel tr m (k : uctx) x l n r : (size (plug k (T x l n r)) <= fuel)%nat -> tree_at m (plug k (T x l n r)) -> lefty (T x l n r) -> depth_le h (plug k (T x l n r)) ->
  exists m' q t', hp_erase_o orc fuel tr m rt n = Some (m', q ++ tr) /\ tree_at m' t' /\ moved (plug k (T x l n r)) t' /\ m' rt COUNT = m rt COUNT /\ (length q <= 2 * h)%nat /\ pairs (inorder (plug k (T x l n r))) q.
Proof.
  intros Hf HT HL Hd. pose proof (size_plug k (T x l n r)) as Hs. pose proof HT as HF. apply tree_at_focus in HF. destruct HF as (Hc & Hrep & D). cbn [Tree.rep] in Hrep. destruct Hrep as (R1 & _). unfold hp_erase_o, ld. rewrite R1.
  destruct (depth_focus _ _ _ _ _ _ Hd) as [Hd1 _].
  destruct k as [|[d y a s] k]; cbn [cpar].
  - change (0 =? NULL) with true. cbn iota. destruct (sink_any h fuel tr m [] x l n r) as (m' & q & t' & A1 & A2 & A3 & A4 & A5 & A6); try assumption. exists m', q, t'. cbn [length] in A5. conj; try assumption. lia.
  - assert (Na : a <> NULL) by (intros ->; specialize (D 0); cbn [cntk] in D; unfold NULL in D; rewrite !ind_refl in D; lia). rewrite (proj2 (Z.eqb_neq _ _) Na).
    assert (Hna : n <> a) by (intros ->; specialize (D a); cbn [cntk cnt] in D; rewrite !ind_refl in D; lia).
    assert (P1 : pairs (inorder (plug (F d y a s :: k) (T x l n r))) [(n, a)]).
    { apply pairs_one; [| |exact Hna]; apply in_plug; cbn [cnt cntk]; rewrite ind_refl; lia. }
    destruct (orc tr n a <? 0).
    + destruct (fixup_any fuel ((n, a) :: tr) m (F d y a s :: k) x l n r) as (m' & q & t' & A1 & A2 & A3 & A4 & A5 & A6); [cbn [size] in Hs; lia|exact HT|]. exists m', (q ++ [(n, a)]), t'. rewrite A1, <- app_assoc. conj; try assumption; try reflexivity; [rewrite app_length; cbn [length] in *; lia|apply pairs_app; assumption].
    + destruct (sink_any h fuel ((n, a) :: tr) m (F d y a s :: k) x l n r) as (m' & q & t' & A1 & A2 & A3 & A4 & A5 & A6); try assumption; [lia|]. exists m', (q ++ [(n, a)]), t'. rewrite A1, <- app_assoc. conj; try assumption; try reflexivity; [rewrite app_length; cbn [length] in *; lia|apply pairs_app; assumption].
Qed.
Lemma keep3_fixup_o fuel : forall tr m n m' tr', hp_fixup_o orc fuel tr m rt n = Some (m', tr') -> keep3 m m'.
Proof.
  induction fuel as [|fuel IH]; intros tr m n m' tr'; cbn [hp_fixup_o]; [discriminate|]. destruct (ld m n PARENT) as [p|]; [|discriminate]. destruct (p =? NULL); [intros H; injection H as <- _; apply keep3_refl|].
  destruct (orc tr n p >=? 0); [intros H; injection H as <- _; apply keep3_refl|]. destruct (parent_swap m rt p n) as [m1|] eqn:E0; [|discriminate]. intros H. apply (keep3_trans _ m1); [apply (keep3_swap _ _ _ _ _ E0)|apply (IH _ _ _ _ _ H)].
Qed.
Lemma keep3_sink_o fuel : forall tr m n m' tr', hp_sink_o orc fuel tr m rt n = Some (m', tr') -> keep3 m m'.
Proof.
  induction fuel as [|fuel IH]; intros tr m n m' tr'; cbn [hp_sink_o]; [discriminate|]. destruct (ld m n LEFT) as [c1|] eqn:E1; [|discriminate]. destruct (ld m n RIGHT) as [c2|] eqn:E2; [|discriminate].
  destruct ((c1 =? NULL) && (c2 =? NULL)); [intros H; injection H as <- _; apply keep3_refl|]. destruct (hp_choose_o orc tr m n c1 c2) as [[s tr1]|]; [|discriminate]. destruct (s =? NULL); [discriminate|]. destruct (orc tr1 n s <? 0); [intros H; injection H as <- _; apply keep3_refl|].
  destruct (parent_swap m rt n s) as [m1|] eqn:E0; [|discriminate]. intros H. apply (keep3_trans _ m1); [apply (keep3_swap _ _ _ _ _ E0)|apply (IH _ _ _ _ _ H)].
Qed.
Lemma keep3_erase_o fuel tr m n m' tr' : hp_erase_o orc fuel tr m rt n = Some (m', tr') -> keep3 m m'.
Proof. unfold hp_erase_o. destruct (ld m n PARENT) as [p|]; [|discriminate]. destruct (p =? NULL); [apply keep3_sink_o|]. destruct (orc tr n p <? 0); [apply keep3_fixup_o|apply keep3_sink_o]. Qed.

Definition shape_any (m : mem) (t : utree) (c : Z) : Prop := tree_at m t /\ complete t c /\ m rt COUNT = Some c.
Theorem insert_any fuel tr m t c n : 0 <= c < 2 ^ 64 - 1 -> (size t < fuel)%nat -> shape_any m t c -> hnode m n -> n <> 0 -> n <> rt -> ~ In n (inorder t) ->
  exists m' q t', hp_insert_o orc fuel tr m rt n = Some (m', q ++ tr) /\ shape_any m' t' (c + 1) /\ Permutation (inorder t') (n :: inorder t) /\ keep3 m m' /\ Z.of_nat (length q) <= Z.log2 (c + 1) /\ pairs (n :: inorder t) q.
Proof.
  intros Hc Hf (HT & HP & HCt) Hn N0 N1 Hni.
  assert (Hw : w64 (c + 1) = c + 1) by (unfold w64; apply Z.mod_small; lia).
  assert (X : exists k : uctx, hp_parent m rt = Some (cpar k, (loc rt k, lfield k)) /\ plug k E = t /\ kpath k = path (c + 1)).
  { unfold hp_parent, ld. destruct HT as (H1 & H2 & D). rewrite H1. pose proof (uaddr_null rt [] t D) as Hz. rewrite Hz. destruct t as [|x l a r] eqn:Et.
    - exists []. apply complete_E in HP. assert (c = 0) by lia. subst c. repeat split.
    - rewrite HCt. cbn zeta. rewrite Hw. pose proof (complete_ne _ _ HP ltac:(discriminate)) as Hc1. rewrite (proj2 (Z.eqb_neq (c + 1) 0)) by lia.
      rewrite (flsuf_log2 (c + 1)) by lia. destruct (parent_loop_ok rt m (Z.to_nat (Z.log2 (c + 1))) (c + 1) [] (T x l a r)) as (k & u & E1 & E2 & E3).
      + split; [exact H1|split; [exact H2|exact D]].
      + intros p q Hb Hq. destruct (path_prefix (c + 1) ltac:(lia) p q Hb Hq) as (j & Hj & <-). apply HP; lia.
      + exists k. cbn [kpath app] in E3. change (bits (Z.to_nat (Z.log2 (c + 1))) (c + 1)) with (path (c + 1)) in E3. cbn [plug] in E2.
        assert (Hu : u = E). { destruct u as [|y ul b ur]; [reflexivity|]. exfalso. assert (Hx : at_pos (T x l a r) (c + 1) <> None). { unfold at_pos. rewrite <- E2, <- E3. rewrite <- (app_nil_r (kpath k)), at_plug. discriminate. } apply HP in Hx; lia. }
        subst u. split; [|split; [exact E2|exact E3]]. change NULL with 0. cbn [cpar loc lfield] in E1. rewrite <- E1.
        assert (Hl : (0 < Z.to_nat (Z.log2 (c + 1)))%nat) by (pose proof (Z.log2_pos (c + 1) ltac:(lia)); lia). destruct (Z.to_nat (Z.log2 (c + 1))); [lia|reflexivity]. }
  destruct X as (k & E1 & E2 & E3). subst t.
  assert (Hcn : cntk n k = 0%nat). { apply cnt_zero_in in Hni. rewrite cnt_plug in Hni. lia. }
  destruct (link_ok rt m k n c HT Hn N0 N1 Hcn HCt) as (m1 & L1 & L2 & L3). rewrite Hw in L3.
  unfold hp_insert_o. rewrite E1. cbn [fst snd]. rewrite L1.
  pose proof (size_plug k (@E unit)) as Hsz.
  destruct (fixup_any fuel tr m1 k tt E n E) as (m' & q & t' & F1 & F2 & [F4 F4'] & F5 & F6 & F7).
  - lia.
  - exact L2.
  - exists m', q, t'. assert (PP : Permutation (inorder (plug k (T tt E n E))) (n :: inorder (plug k (@E unit)))) by (rewrite !inorder_plug; cbn [inorder app]; apply Permutation_sym, Permutation_middle).
    split; [exact F1|]. split; [|split; [|split; [|split]]].
    + split; [exact F2|]. split; [|rewrite F5; exact L3]. intros i Hi. unfold at_pos. fold (occ t' (path i)). rewrite F4. rewrite (occ_add k E (T tt E n E) [] (leaf_occ tt n)). rewrite app_nil_r, E3. unfold occ. fold (at_pos (plug k E) i). rewrite (HP i Hi). split.
      * intros [H|H]; [lia|]. apply path_inj in H; lia.
      * intros H. destruct (Z.eq_dec i (c + 1)) as [->|N]; [right; reflexivity|left; lia].
    + apply Permutation_sym in F4'. eapply Permutation_trans; [exact F4'|]. rewrite !inorder_plug. cbn [inorder app]. apply Permutation_sym, Permutation_middle.
    + apply (keep3_trans _ m1); [apply (keep3_parent _ _ _ (loc rt k, lfield k) _ _ (lfield_lt k) L1)|apply (keep3_fixup_o _ _ _ _ _ _ F1)].
    + rewrite <- (kpath_length k), E3 in F6. unfold path in F6. rewrite bits_length in F6. pose proof (Z.log2_nonneg (c + 1)). lia.
    + apply (pairs_perm _ _ _ PP F7).
Qed.
Lemma poison_any m t c n : shape_any m t c -> hnode m n -> cnt n t = 0%nat -> n <> rt ->
  exists m', (let* m := st m n LEFT POISON_HPNODE1 in let* m := st m n RIGHT POISON_HPNODE2 in st m n PARENT POISON_HPNODE3) = Some m' /\ shape_any m' t c /\ keep3 m m'.
Proof.
  intros (H1 & H3 & H4) Hn Hc N. rewrite st_ex by (apply Hn; split; [discriminate|reflexivity]). rewrite st_ex by (apply upd_ex, Hn; split; [discriminate|reflexivity]). rewrite st_ex by (do 2 apply upd_ex; apply Hn; split; [discriminate|reflexivity]).
  eexists. split; [reflexivity|]. split.
  - split; [repeat (apply at_upd; [|assumption|assumption]); exact H1|]. split; [exact H3|]. rewrite !upd_other by (left; congruence). exact H4.
  - destruct (Hn LEFT ltac:(split; [discriminate|reflexivity])) as [x1 X1], (Hn RIGHT ltac:(split; [discriminate|reflexivity])) as [x2 X2], (Hn PARENT ltac:(split; [discriminate|reflexivity])) as [x3 X3].
    apply (keep3_trans _ (upd m n LEFT POISON_HPNODE1)); [apply (keep3_st m n LEFT POISON_HPNODE1); [reflexivity|apply (st_some _ _ _ _ _ X1)]|].
    apply (keep3_trans _ (upd (upd m n LEFT POISON_HPNODE1) n RIGHT POISON_HPNODE2)); [eapply (keep3_st _ n RIGHT POISON_HPNODE2); [reflexivity|apply st_ex, upd_ex; eauto]|]. eapply (keep3_st _ n PARENT POISON_HPNODE3); [reflexivity|apply st_ex, upd_ex, upd_ex; eauto].
Qed.
Lemma poisoned (m : mem) n m' (tr : list (Z * Z)) : (let* m := st m n LEFT POISON_HPNODE1 in let* m := st m n RIGHT POISON_HPNODE2 in st m n PARENT POISON_HPNODE3) = Some m' ->
  (let* m := st m n LEFT POISON_HPNODE1 in let* m := st m n RIGHT POISON_HPNODE2 in let* m := st m n PARENT POISON_HPNODE3 in Some (m, tr)) = Some (m', tr).
Proof. destruct (st m n LEFT POISON_HPNODE1) as [m1|]; [|discriminate]. destruct (st m1 n RIGHT POISON_HPNODE2) as [m2|]; [|discriminate]. intros ->. reflexivity. Qed.
Theorem delete_any fuel tr m t c n : 0 <= c < 2 ^ 64 -> (size t <= fuel)%nat -> shape_any m t c -> In n (inorder t) ->
  exists m' q t', hp_delete_o orc fuel tr m rt n = Some (m', q ++ tr) /\ shape_any m' t' (c - 1) /\ Permutation (inorder t) (n :: inorder t') /\ keep3 m m' /\ Z.of_nat (length q) <= 2 * Z.log2 (c - 1) /\ pairs (inorder t') q.
Proof.
  intros Hc Hf (HT & HP & HCt) Hn. assert (Hne : t <> E) by (intros ->; destruct Hn). pose proof (complete_ne _ _ HP Hne) as Hc1.
  destruct (in_node rt m t n HT Hn) as (Nn & Nrt & Nz).
  assert (Hw : w64 (c - 1) = c - 1) by (unfold w64; apply Z.mod_small; lia).
  destruct (at_pos t c) as [s|] eqn:Es; [|exfalso; apply (proj2 (HP c ltac:(lia)) ltac:(lia)); exact Es].
  assert (Ef : hp_find m rt c = Some s).
  { unfold hp_find, ld. rewrite HCt. rewrite (proj2 (Z.eqb_neq c 0)) by lia. destruct HT as (H1 & H2 & D). rewrite H1. rewrite flsuf_log2 by lia. rewrite (walk_ok m _ c t 0); [|specialize (D 0); rewrite ind_refl in D; lia|exact H2].
    fold (path c). fold (at_pos t c). rewrite Es. reflexivity. }
  destruct (find_path (path c) t s Es) as (k1 & x & l1 & r1 & Et & Hk1).
  assert (HE : l1 = E /\ r1 = E).
  { assert (G : forall b : bool, at_path (T x l1 s r1) [if b then R else L] = None).
    { intros b. destruct (at_path (T x l1 s r1) [if b then R else L]) eqn:E0; [|reflexivity]. exfalso. assert (H : at_pos t (2 * c + Z.b2z b) <> None). { unfold at_pos. rewrite path_step by lia. rewrite <- Hk1, Et, at_plug, E0. discriminate. }
      apply HP in H; destruct b; cbn [Z.b2z] in *; lia. }
    split; [specialize (G false)|specialize (G true)]; cbn [at_path] in G; [destruct l1|destruct r1]; try reflexivity; discriminate. }
  destruct HE as [-> ->]. subst t.
  assert (HO : forall q, occ (plug k1 (T x E s E)) q <-> occ (plug k1 E) q \/ q = path c) by (intros q; rewrite <- Hk1, <- (app_nil_r (kpath k1)); apply occ_add; apply leaf_occ).
  assert (HP' : complete (plug k1 (@E unit)) (c - 1)).
  { intros i Hi. assert (Hx := HP i Hi). unfold at_pos in *. unfold occ in HO. rewrite HO in Hx. split.
    - intros H. assert (i <> c). { intros ->. apply H. rewrite <- Hk1, <- (app_nil_r (kpath k1)), at_plug. reflexivity. } assert (i <= c) by (apply Hx; left; exact H). lia.
    - intros H. destruct (proj2 Hx ltac:(lia)) as [H1|H1]; [exact H1|]. apply path_inj in H1; lia. }
  assert (Hsz : (size (plug k1 (T x E s E)) = S (size (plug k1 (@E unit))))%nat).
  { clear. assert (G : forall t t' : utree, size t = S (size t') -> size (plug k1 t) = S (size (plug k1 t'))); [|apply G; reflexivity]. induction k1 as [|[[|] y a sb] k IH]; intros t t' H; cbn [plug]; [exact H| |]; apply IH; cbn [up size]; lia. }
  unfold hp_delete_o, hp_remove. unfold ld at 1. rewrite HCt, Ef. pose proof HT as HF. apply tree_at_focus in HF. destruct HF as (Hk & Hr & D). cbn [Tree.rep] in Hr. destruct Hr as (R1 & R2 & R3 & _). unfold ld at 1. rewrite R1.
  destruct k1 as [|[d y a sb] k].
  - (* the only node *)
    cbn [cpar plug] in *. change (0 =? NULL) with true. cbn iota. cbn [Tree.crep] in Hk. rewrite (st_some _ _ _ _ _ Hk). unfold ld. rewrite upd_other by (right; discriminate). rewrite HCt, Hw. rewrite st_ex by (apply upd_ex; eauto). cbn [fst snd]. change (NULL =? NULL) with true. cbn iota.
    destruct Hn as [<-|[]].
    assert (HS : shape_any (upd (upd m rt NODE NULL) rt COUNT (c - 1)) E (c - 1)).
    { split; [|split; [exact HP'|apply upd_same]]. apply at_count. split; [apply upd_same|]. split; [exact I|]. intros z. specialize (D z). cbn [cnt cntk] in *. lia. }
    destruct (poison_any _ E (c - 1) s HS) as (m' & P1 & P2 & P3); [intros f Hf'; do 2 apply upd_ex; apply Nn, Hf'|reflexivity|exact Nrt|].
    rewrite (poisoned _ _ _ _ P1). exists m', [], E. split; [reflexivity|]. split; [exact P2|]. split; [apply Permutation_refl|]. split; [|split; [pose proof (Z.log2_nonneg (c - 1)); cbn [length]; lia|apply pairs_nil]]. eapply keep3_trans; [|exact P3]. apply (keep3_trans _ (upd m rt NODE NULL)); [apply (keep3_st m rt NODE NULL); [reflexivity|apply (st_some _ _ _ _ _ Hk)]|]. eapply (keep3_st _ rt COUNT); [reflexivity|apply st_ex, upd_ex; eauto].
  - destruct (detach_ok rt m k d y a sb x s HT) as [D1 D2]. set (k1 := F d y a sb :: k) in *. change (cpar k1) with a.
    assert (Na : a <> NULL) by (intros ->; specialize (D 0); unfold k1 in D; cbn [cntk] in D; unfold NULL in D; rewrite !ind_refl in D; lia). rewrite (proj2 (Z.eqb_neq _ _) Na).
    set (m1 := upd m a (side d) NULL) in *.
    assert (K1 : keep3 m m1). { unfold k1 in Hk. cbn [Tree.crep addr] in Hk. apply (keep3_st m a (side d) NULL); [apply side_lt|apply (st_some _ _ _ _ s), Hk]. }
    assert (Nar : a <> rt) by (intros ->; specialize (D rt); unfold k1 in D; cbn [cntk] in D; rewrite !ind_refl in D; lia).
    assert (C1 : m1 rt COUNT = Some c) by (unfold m1; rewrite upd_other by (left; congruence); exact HCt).
    unfold ld in D1. unfold ld at 1. destruct (m a LEFT) as [pl|] eqn:Epl; [|discriminate]. rewrite D1.
    assert (Cs : cnt s (plug k1 (@E unit)) = 0%nat). { specialize (D s). rewrite cnt_plug. cbn [cnt] in *. rewrite ind_refl in D. lia. }
    assert (Ps : Permutation (inorder (plug k1 (T x E s E))) (s :: inorder (plug k1 (@E unit)))). { rewrite !inorder_plug. cbn [inorder app]. apply Permutation_sym, Permutation_middle. }
    assert (Ns : hnode m s /\ s <> rt /\ s <> 0). { apply (in_node rt m _ s HT). apply (Permutation_in _ (Permutation_sym Ps)). left. reflexivity. } destruct Ns as (Ns & Nsr & Nsz).
    destruct (Z.eqb_spec n s) as [->|Nns].
    + (* the last node *)
      unfold ld. rewrite C1, Hw. rewrite (st_some _ _ _ _ _ C1). cbn [fst snd]. change (NULL =? NULL) with true. cbn iota.
      assert (HS : shape_any (upd m1 rt COUNT (c - 1)) (plug k1 E) (c - 1)) by (split; [apply at_count, D2|split; [exact HP'|apply upd_same]]).
      assert (K2 : keep3 m (upd m1 rt COUNT (c - 1))) by (apply (keep3_trans _ m1 _ K1); apply (keep3_st m1 rt COUNT (c - 1)); [reflexivity|apply (st_some _ _ _ _ _ C1)]).
      destruct (poison_any _ _ (c - 1) s HS) as (m' & P1 & P2 & P3); [apply (keep3_hnode _ _ _ K2 Ns)|exact Cs|exact Nsr|].
      rewrite (poisoned _ _ _ _ P1). exists m', [], (plug k1 E). split; [reflexivity|]. split; [exact P2|]. split; [exact Ps|]. split; [apply (keep3_trans _ _ _ K2 P3)|]. split; [pose proof (Z.log2_nonneg (c - 1)); cbn [length]; lia|apply pairs_nil].
    + assert (Hn' : In n (inorder (plug k1 (@E unit)))). { apply (Permutation_in _ Ps) in Hn. destruct Hn as [Hn|Hn]; [congruence|exact Hn]. }
      apply cnt_pos_in in Hn'. destruct (find_ctx n _ Hn') as (k2 & x2 & l2 & r2 & E2).
      assert (D2' := D2). rewrite E2 in D2'.
      destruct (inherit_ok rt m1 k2 x2 l2 n r2 s D2' (keep3_hnode _ _ _ K1 Ns) Nsz Nsr) as (m2 & I1 & I2 & I3); [rewrite <- E2; exact Cs|].
      pose proof (keep3_inherit _ _ _ _ _ I1) as KI. rewrite I1. rewrite C1 in I3. unfold ld at 1. rewrite I3, Hw, (st_some _ _ _ _ _ I3). cbn [fst snd]. rewrite (proj2 (Z.eqb_neq s NULL) Nsz).
      pose (m3 := upd m2 rt COUNT (c - 1)). fold m3.
      assert (K3 : keep3 m m3) by (apply (keep3_trans _ m1 _ K1); apply (keep3_trans _ m2 _ KI); apply (keep3_st m2 rt COUNT (c - 1)); [reflexivity|apply (st_some _ _ _ _ _ I3)]).
      assert (OC : forall q, occ (plug k2 (T x2 l2 s r2)) q <-> occ (plug k1 (@E unit)) q) by (rewrite E2; apply occ_plug; intros [|[|] q]; unfold occ; cbn [at_path]; tauto || (split; discriminate)).
      assert (HPs : complete (plug k2 (T x2 l2 s r2)) (c - 1)) by (intros i Hi; rewrite <- (HP' i Hi); apply OC).
      destruct (erase_any (Z.to_nat (Z.log2 (c - 1))) fuel tr m3 k2 x2 l2 s r2) as (m4 & q & t' & A1 & A2 & [A4 A4'] & A5 & A6 & A7).
      * rewrite (size_plug_eq k2 (T x2 l2 s r2) (T x2 l2 n r2)) by reflexivity. rewrite <- E2. lia.
      * apply at_count. exact I2.
      * apply (lefty_sub k2). apply (complete_lefty _ _ HPs).
      * apply complete_depth, HPs.
      * rewrite A1. assert (Pn : Permutation (inorder (plug k1 (T x E s E))) (n :: inorder t')).
        { eapply Permutation_trans; [exact Ps|]. eapply Permutation_trans; [|apply perm_skip, A4']. rewrite E2, !inorder_plug. cbn [inorder]. rewrite <- !app_assoc. cbn [app].
          rewrite !(app_assoc (before k2)). eapply Permutation_trans; [apply perm_skip, Permutation_sym, Permutation_middle|]. eapply Permutation_trans; [apply perm_swap|]. apply perm_skip, Permutation_middle. }
        assert (HS : shape_any m4 t' (c - 1)).
        { split; [exact A2|]. split; [intros i Hi; unfold at_pos; fold (occ t' (path i)); rewrite A4; apply HPs, Hi|]. rewrite A5. apply upd_same. }
        assert (K4 : keep3 m m4) by (apply (keep3_trans _ m3 _ K3); apply (keep3_erase_o _ _ _ _ _ _ A1)).
        destruct (poison_any m4 t' (c - 1) n HS) as (m' & P1 & P2 & P3); [apply (keep3_hnode _ _ _ K4 Nn)| |exact Nrt|].
        { apply cnt_zero_in. intros Hx. assert (ND : NoDup (n :: inorder t')). { apply (Permutation_NoDup Pn). apply (at_nodup U rt m _ HT). } inversion ND as [|? ? Hx' _]. contradiction. }
        rewrite (poisoned _ _ _ _ P1). exists m', q, t'. split; [reflexivity|]. split; [exact P2|]. split; [exact Pn|]. split; [apply (keep3_trans _ _ _ K4 P3)|]. split; [pose proof (Z.log2_nonneg (c - 1)); lia|apply (pairs_perm _ _ _ A4' A7)].
Qed.
End Ops.

(** With a function that always answers the same these are the functions of HeapModel. *)
Section Same.
Variable cmp : Z -> Z -> Z.
Lemma fixup_same rt n fuel : forall tr m, option_map fst (hp_fixup_o (fun _ => cmp) fuel tr m rt n) = hp_fixup cmp fuel m rt n.
Proof. induction fuel as [|fuel IH]; intros tr m; cbn [hp_fixup_o hp_fixup]; [reflexivity|]. destruct (ld m n PARENT) as [p|]; [|reflexivity]. destruct (p =? NULL); [reflexivity|]. destruct (cmp n p >=? 0); [reflexivity|]. destruct (parent_swap m rt p n); [apply IH|reflexivity]. Qed.
Lemma sink_same rt n fuel : forall tr m, option_map fst (hp_sink_o (fun _ => cmp) fuel tr m rt n) = hp_sink cmp fuel m rt n.
Proof.
  induction fuel as [|fuel IH]; intros tr m; cbn [hp_sink_o hp_sink]; [reflexivity|]. destruct (ld m n LEFT) as [c1|] eqn:E1; [|reflexivity]. destruct (ld m n RIGHT) as [c2|] eqn:E2; [|reflexivity]. destruct ((c1 =? NULL) && (c2 =? NULL)); [reflexivity|].
  unfold hp_choose_o. rewrite ?E1, ?E2. destruct (c2 =? NULL); [|destruct (c1 =? NULL); [|destruct (cmp c1 c2 <? 0)]]; cbn iota.
  - destruct (c1 =? NULL); [reflexivity|]. destruct (cmp n c1 <? 0); [reflexivity|]. destruct (parent_swap m rt n c1); [apply IH|reflexivity].
  - destruct (c1 =? NULL); [reflexivity|]. destruct (cmp n c1 <? 0); [reflexivity|]. destruct (parent_swap m rt n c1); [apply IH|reflexivity].
  - destruct (c1 =? NULL); [reflexivity|]. destruct (cmp n c1 <? 0); [reflexivity|]. destruct (parent_swap m rt n c1); [apply IH|reflexivity].
  - destruct (c2 =? NULL); [reflexivity|]. destruct (cmp n c2 <? 0); [reflexivity|]. destruct (parent_swap m rt n c2); [apply IH|reflexivity].
Qed.
Lemma insert_same fuel tr m rt n : option_map fst (hp_insert_o (fun _ => cmp) fuel tr m rt n) = hp_insert cmp fuel m rt n.
Proof. unfold hp_insert_o, hp_insert. destruct (hp_parent m rt) as [pl|]; [|reflexivity]. destruct (hp_link m rt (fst pl) (snd pl) n); [apply fixup_same|reflexivity]. Qed.
Lemma erase_same fuel tr m rt n : option_map fst (hp_erase_o (fun _ => cmp) fuel tr m rt n) = hp_erase cmp fuel m rt n.
Proof. unfold hp_erase_o, hp_erase. destruct (ld m n PARENT) as [p|]; [|reflexivity]. destruct (p =? NULL); cbn [negb andb]; [apply sink_same|]. destruct (cmp n p <? 0); [apply fixup_same|apply sink_same]. Qed.
Lemma delete_same fuel tr m rt n : option_map fst (hp_delete_o (fun _ => cmp) fuel tr m rt n) = hp_delete cmp fuel m rt n.
Proof.
  unfold hp_delete_o, hp_delete. destruct (hp_remove m rt n) as [[m1 s]|]; [|reflexivity]. cbn [fst snd]. destruct (s =? NULL).
  - destruct (st m1 n LEFT POISON_HPNODE1) as [m2|]; [|reflexivity]. destruct (st m2 n RIGHT POISON_HPNODE2) as [m3|]; [|reflexivity]. destruct (st m3 n PARENT POISON_HPNODE3); reflexivity.
  - rewrite <- (erase_same fuel tr). destruct (hp_erase_o (fun _ => cmp) fuel tr m1 rt s) as [[m2 tr2]|]; [|reflexivity]. cbn [option_map fst].
    destruct (st m2 n LEFT POISON_HPNODE1) as [m3|]; [|reflexivity]. destruct (st m3 n RIGHT POISON_HPNODE2) as [m4|]; [|reflexivity]. destruct (st m4 n PARENT POISON_HPNODE3); reflexivity.
Qed.
End Same.
