(** * C55, C83, C84: binary heaps *)
From Coq Require Import Sorting.Permutation Sorting.Sorted.
From Verif Require Import Lib Ptr Tree BitsModel BitsProofs TiterModel TiterProofs RbProofs RbInsert RbFrame HeapModel HeapProofs HeapSpec HeapPath HeapOps.
Ltac Zify.zify_post_hook ::= Z.div_mod_to_equations.

Lemma keep3_fixup cmp fuel : forall m rt n m', hp_fixup cmp fuel m rt n = Some m' -> keep3 m m'.
Proof.
  induction fuel as [|fuel IH]; intros m rt n m'; cbn [hp_fixup]; [discriminate|]. destruct (ld m n PARENT) as [p|]; [|discriminate]. destruct (p =? NULL); [intros H; injection H as <-; apply keep3_refl|].
  destruct (cmp n p >=? 0); [intros H; injection H as <-; apply keep3_refl|]. destruct (parent_swap m rt p n) as [m1|] eqn:E0; [|discriminate]. intros H. apply (keep3_trans _ m1); [apply (keep3_swap _ _ _ _ _ E0)|apply (IH _ _ _ _ H)].
Qed.
Lemma keep3_sink cmp fuel : forall m rt n m', hp_sink cmp fuel m rt n = Some m' -> keep3 m m'.
Proof.
  induction fuel as [|fuel IH]; intros m rt n m'; cbn [hp_sink]; [discriminate|]. destruct (ld m n LEFT) as [c1|] eqn:E1; [|discriminate]. destruct (ld m n RIGHT) as [c2|] eqn:E2; [|discriminate].
  destruct ((c1 =? NULL) && (c2 =? NULL)); [intros H; injection H as <-; apply keep3_refl|]. rewrite ?E1, ?E2.
  match goal with |- match ?e with Some _ => _ | None => _ end = _ -> _ => destruct e as [s|]; [|discriminate] end. destruct (s =? NULL); [discriminate|]. destruct (cmp n s <? 0); [intros H; injection H as <-; apply keep3_refl|].
  destruct (parent_swap m rt n s) as [m1|] eqn:E0; [|discriminate]. intros H. apply (keep3_trans _ m1); [apply (keep3_swap _ _ _ _ _ E0)|apply (IH _ _ _ _ H)].
Qed.
Lemma keep3_erase cmp fuel m rt n m' : hp_erase cmp fuel m rt n = Some m' -> keep3 m m'.
Proof. unfold hp_erase. destruct (ld m n PARENT) as [p|]; [|discriminate]. destruct (negb (p =? NULL) && (cmp n p <? 0)); [apply keep3_fixup|apply keep3_sink]. Qed.
Lemma keep3_parent m rt p lk n m' : snd lk < 3 -> hp_link m rt p lk n = Some m' -> keep3 m m'.
Proof.
  intros Hl. unfold hp_link. destruct (st m (fst lk) (snd lk) n) as [m1|] eqn:E1; [|discriminate]. apply keep3_st in E1; [|exact Hl]. intros H. repeat kstep. kchain.
Qed.
Lemma keep3_inherit rt m o n m' : hp_inherit rt m o n = Some m' -> keep3 m m'.
Proof. unfold hp_inherit. intros H. repeat kstep; kchain. Qed.

Section Heap.
Variable cmp : Z -> Z -> Z.
Hypothesis HC : preorder_cmp cmp.
Variable rt : Z.
Notation tree_at := (tree_at U rt).
Notation hp := (hp cmp).
Notation hk := (hk cmp).

(** The heap with the nodes [l]. *)
Definition shape_ok (m : mem) (t : utree) (c : Z) : Prop := tree_at m t /\ hp t /\ complete t c /\ m rt COUNT = Some c.
Lemma complete_E c : complete (@E unit) c -> c < 1.
Proof. intros H. destruct (Z_lt_ge_dec c 1); [assumption|]. exfalso. assert (X : at_pos (@E unit) 1 <> None) by (apply H; lia). apply X. reflexivity. Qed.
Lemma complete_ne (t : utree) c : complete t c -> t <> E -> 1 <= c.
Proof. intros H N. apply (H 1); [lia|]. unfold at_pos. change (path 1) with (@nil dir). destruct t; [congruence|discriminate]. Qed.
Lemma lfield_lt (k : uctx) : lfield k < 3.
Proof. destruct k as [|[[|] x a s] k]; reflexivity. Qed.

Theorem insert_ok fuel m t c n : 0 <= c < 2 ^ 64 - 1 -> (size t < fuel)%nat -> shape_ok m t c -> hnode m n -> n <> 0 -> n <> rt -> ~ In n (inorder t) ->
  exists m' t', hp_insert cmp fuel m rt n = Some m' /\ shape_ok m' t' (c + 1) /\ Permutation (inorder t') (n :: inorder t) /\ keep3 m m'.
Proof.
  intros Hc Hf (HT & Hh & HP & HCt) Hn N0 N1 Hni.
  assert (Hw : w64 (c + 1) = c + 1) by (unfold w64; apply Z.mod_small; lia).
  assert (X : exists k : uctx, hp_parent m rt = Some (cpar k, (loc rt k, lfield k)) /\ plug k E = t /\ kpath k = path (c + 1)).
  { unfold hp_parent, ld. destruct HT as (H1 & H2 & D). rewrite H1. pose proof (uaddr_null rt [] t D) as Hz. rewrite Hz. destruct t as [|x l a r] eqn:Et.
    - exists []. apply complete_E in HP. assert (c = 0) by lia. subst c. repeat split.
    - rewrite HCt. cbn zeta. rewrite Hw. pose proof (complete_ne _ _ HP ltac:(discriminate)) as Hc1. rewrite (proj2 (Z.eqb_neq (c + 1) 0)) by lia.
      rewrite (flsuf_log2 (c + 1)) by lia. destruct (parent_loop_ok rt m (Z.to_nat (Z.log2 (c + 1))) (c + 1) [] (T x l a r)) as (k & u & E1 & E2 & E3).
      + split; [exact H1|split; [exact H2|exact D]].
      + intros p q Hb Hq. destruct (path_prefix (c + 1) ltac:(lia) p q Hb Hq) as (j & Hj & <-). apply HP; lia.
      + exists k. cbn [kpath app] in E3. change (bits (Z.to_nat (Z.log2 (c + 1))) (c + 1)) with (path (c + 1)) in E3. cbn [plug] in E2.
        assert (Hu : u = E). { destruct u as [|y ul b ur]; [reflexivity|]. exfalso. assert (Hx : at_pos (T x l a r) (c + 1) <> None). { unfold at_pos. rewrite <- E2, <- E3. rewrite <- (app_nil_r (kpath k)), at_plug. discriminate. } apply HP in Hx; lia. }
        subst u. split; [|split; [exact E2|exact E3]]. change NULL with 0. cbn [cpar loc lfield] in E1. rewrite <- E1.
        assert (Hl : (0 < Z.to_nat (Z.log2 (c + 1)))%nat) by (pose proof (Z.log2_pos (c + 1) ltac:(lia)); lia). destruct (Z.to_nat (Z.log2 (c + 1))); [lia|reflexivity]. }
  destruct X as (k & E1 & E2 & E3). subst t.
  assert (Hcn : cntk n k = 0%nat). { apply cnt_zero_in in Hni. rewrite cnt_plug in Hni. lia. }
  destruct (link_ok rt m k n c HT Hn N0 N1 Hcn HCt) as (m1 & L1 & L2 & L3). rewrite Hw in L3.
  unfold hp_insert. rewrite E1. cbn [fst snd]. rewrite L1. apply hp_plug in Hh. destruct Hh as [_ Hh]. cbn [inorder] in Hh.
  pose proof (size_plug k (@E unit)) as Hsz.
  destruct (fixup_ok cmp HC rt fuel m1 k tt E n E) as (m' & t' & F1 & F2 & F3 & [F4 F4'] & F5).
  - lia.
  - exact L2.
  - cbn. repeat split. intros y [].
  - exact Hh.
  - exists m', t'. split; [exact F1|]. split; [|split].
    + split; [exact F2|]. split; [exact F3|]. split; [|rewrite F5; exact L3]. intros i Hi. unfold at_pos. fold (occ t' (path i)). rewrite F4. rewrite (occ_add k E (T tt E n E) [] (leaf_occ tt n)). rewrite app_nil_r, E3. unfold occ. fold (at_pos (plug k E) i). rewrite (HP i Hi). split.
      * intros [H|H]; [lia|]. apply path_inj in H; lia.
      * intros H. destruct (Z.eq_dec i (c + 1)) as [->|N]; [right; reflexivity|left; lia].
    + apply Permutation_sym in F4'. eapply Permutation_trans; [exact F4'|]. rewrite !inorder_plug. cbn [inorder app]. apply Permutation_sym, Permutation_middle.
    + apply (keep3_trans _ m1); [apply (keep3_parent _ _ _ (loc rt k, lfield k) _ _ (lfield_lt k) L1)|apply (keep3_fixup _ _ _ _ _ _ F1)].
Qed.

Lemma at_upd m t a f v : tree_at m t -> cnt a t = 0%nat -> a <> rt -> tree_at (upd m a f v) t.
Proof. intros (H1 & H2 & D) Hc N. split; [rewrite upd_other by (left; congruence); exact H1|]. split; [apply rep_upd; [exact U_frame|exact Hc|exact H2]|exact D]. Qed.
Lemma poison_ok m t c n : shape_ok m t c -> hnode m n -> cnt n t = 0%nat -> n <> rt ->
  exists m', (let* m := st m n LEFT POISON_HPNODE1 in let* m := st m n RIGHT POISON_HPNODE2 in st m n PARENT POISON_HPNODE3) = Some m' /\ shape_ok m' t c /\ keep3 m m'.
Proof.
  intros (H1 & H2 & H3 & H4) Hn Hc N. rewrite st_ex by (apply Hn; split; [discriminate|reflexivity]). rewrite st_ex by (apply upd_ex, Hn; split; [discriminate|reflexivity]). rewrite st_ex by (do 2 apply upd_ex; apply Hn; split; [discriminate|reflexivity]).
  eexists. split; [reflexivity|]. split.
  - split; [repeat (apply at_upd; [|assumption|assumption]); exact H1|]. split; [exact H2|]. split; [exact H3|]. rewrite !upd_other by (left; congruence). exact H4.
  - destruct (Hn LEFT ltac:(split; [discriminate|reflexivity])) as [x1 X1], (Hn RIGHT ltac:(split; [discriminate|reflexivity])) as [x2 X2], (Hn PARENT ltac:(split; [discriminate|reflexivity])) as [x3 X3].
    apply (keep3_trans _ (upd m n LEFT POISON_HPNODE1)); [apply (keep3_st m n LEFT POISON_HPNODE1); [reflexivity|apply (st_some _ _ _ _ _ X1)]|].
    apply (keep3_trans _ (upd (upd m n LEFT POISON_HPNODE1) n RIGHT POISON_HPNODE2)); [eapply (keep3_st _ n RIGHT POISON_HPNODE2); [reflexivity|apply st_ex, upd_ex; eauto]|]. eapply (keep3_st _ n PARENT POISON_HPNODE3); [reflexivity|apply st_ex, upd_ex, upd_ex; eauto].
Qed.
Lemma in_node m t a : tree_at m t -> In a (inorder t) -> hnode m a /\ a <> rt /\ a <> 0.
Proof.
  intros HT Ha. apply cnt_pos_in in Ha. destruct (find_ctx a t Ha) as (k & x & l & r & ->). apply tree_at_focus in HT. destruct HT as (_ & H & D). cbn [Tree.rep] in H. split; [|split].
  - intros f Hf. assert (f = PARENT \/ f = LEFT \/ f = RIGHT) as [ -> | [ -> | -> ]] by (unfold PARENT, LEFT, RIGHT; lia); eexists; apply H.
  - intros ->. specialize (D rt). cbn [cnt] in D. rewrite !ind_refl in D. lia.
  - intros ->. specialize (D 0). cbn [cnt] in D. rewrite !ind_refl in D. lia.
Qed.
Theorem delete_ok fuel m t c n : 0 <= c < 2 ^ 64 -> (size t <= fuel)%nat -> shape_ok m t c -> In n (inorder t) ->
  exists m' t', hp_delete cmp fuel m rt n = Some m' /\ shape_ok m' t' (c - 1) /\ Permutation (inorder t) (n :: inorder t') /\ keep3 m m'.
Proof.
  intros Hc Hf (HT & Hh & HP & HCt) Hn. assert (Hne : t <> E) by (intros ->; destruct Hn). pose proof (complete_ne _ _ HP Hne) as Hc1.
  destruct (in_node m t n HT Hn) as (Nn & Nrt & Nz).
  assert (Hw : w64 (c - 1) = c - 1) by (unfold w64; apply Z.mod_small; lia).
  destruct (at_pos t c) as [s|] eqn:Es; [|exfalso; apply (proj2 (HP c ltac:(lia)) ltac:(lia)); exact Es].
  assert (Ef : hp_find m rt c = Some s).
  { unfold hp_find, ld. rewrite HCt. rewrite (proj2 (Z.eqb_neq c 0)) by lia. destruct HT as (H1 & H2 & D). rewrite H1. rewrite flsuf_log2 by lia. rewrite (walk_ok m _ c t 0); [|specialize (D 0); rewrite ind_refl in D; lia|exact H2].
    fold (path c). fold (at_pos t c). rewrite Es. reflexivity. }
  destruct (find_path (path c) t s Es) as (k1 & x & l1 & r1 & Et & Hk1).
  assert (HE : l1 = E /\ r1 = E).
  { assert (G : forall b : bool, at_path (T x l1 s r1) [if b then R else L] = None).
    { intros b. destruct (at_path (T x l1 s r1) [if b then R else L]) eqn:E0; [|reflexivity]. exfalso. assert (H : at_pos t (2 * c + Z.b2z b) <> None). { unfold at_pos. rewrite path_step by lia. rewrite <- Hk1, Et, at_plug, E0. discriminate. }
      apply HP in H; destruct b; cbn [Z.b2z] in *; lia. }
    split; [specialize (G false)|specialize (G true)]; cbn [at_path] in G; [destruct l1|destruct r1]; try reflexivity; discriminate. }
  destruct HE as [-> ->]. subst t.
  assert (HO : forall q, occ (plug k1 (T x E s E)) q <-> occ (plug k1 E) q \/ q = path c) by (intros q; rewrite <- Hk1, <- (app_nil_r (kpath k1)); apply occ_add; apply leaf_occ).
  assert (HP' : complete (plug k1 (@E unit)) (c - 1)).
  { intros i Hi. assert (Hx := HP i Hi). unfold at_pos in *. unfold occ in HO. rewrite HO in Hx. split.
    - intros H. assert (i <> c). { intros ->. apply H. rewrite <- Hk1, <- (app_nil_r (kpath k1)), at_plug. reflexivity. } assert (i <= c) by (apply Hx; left; exact H). lia.
    - intros H. destruct (proj2 Hx ltac:(lia)) as [H1|H1]; [exact H1|]. apply path_inj in H1; lia. }
  assert (Hh' : hp (plug k1 E)). { apply hp_plug in Hh. destruct Hh as [_ Hh]. apply hp_plug. split; [exact I|]. revert Hh. apply hk_incl. intros y []. }
  assert (Hsz : (size (plug k1 (T x E s E)) = S (size (plug k1 (@E unit))))%nat).
  { clear. assert (G : forall t t' : utree, size t = S (size t') -> size (plug k1 t) = S (size (plug k1 t'))); [|apply G; reflexivity]. induction k1 as [|[[|] y a sb] k IH]; intros t t' H; cbn [plug]; [exact H| |]; apply IH; cbn [up size]; lia. }
  unfold hp_delete, hp_remove. unfold ld at 1. rewrite HCt, Ef. pose proof HT as HF. apply tree_at_focus in HF. destruct HF as (Hk & Hr & D). cbn [Tree.rep] in Hr. destruct Hr as (R1 & R2 & R3 & _). unfold ld at 1. rewrite R1.
  destruct k1 as [|[d y a sb] k].
  - (* the only node *)
    cbn [cpar plug] in *. change (0 =? NULL) with true. cbn iota. cbn [Tree.crep] in Hk. rewrite (st_some _ _ _ _ _ Hk). unfold ld. rewrite upd_other by (right; discriminate). rewrite HCt, Hw. rewrite st_ex by (apply upd_ex; eauto). cbn [fst snd]. change (NULL =? NULL) with true. cbn iota.
    destruct Hn as [<-|[]].
    assert (HS : shape_ok (upd (upd m rt NODE NULL) rt COUNT (c - 1)) E (c - 1)).
    { split; [|split; [exact I|split; [exact HP'|apply upd_same]]]. apply at_count. split; [apply upd_same|]. split; [exact I|]. intros z. specialize (D z). cbn [cnt cntk] in *. lia. }
    destruct (poison_ok _ E (c - 1) s HS) as (m' & P1 & P2 & P3); [intros f Hf'; do 2 apply upd_ex; apply Nn, Hf'|reflexivity|exact Nrt|].
    rewrite P1. exists m', E. split; [reflexivity|]. split; [exact P2|]. split; [apply Permutation_refl|]. eapply keep3_trans; [|exact P3]. apply (keep3_trans _ (upd m rt NODE NULL)); [apply (keep3_st m rt NODE NULL); [reflexivity|apply (st_some _ _ _ _ _ Hk)]|]. eapply (keep3_st _ rt COUNT); [reflexivity|apply st_ex, upd_ex; eauto].
  - destruct (detach_ok rt m k d y a sb x s HT) as [D1 D2]. set (k1 := F d y a sb :: k) in *. change (cpar k1) with a.
    assert (Na : a <> NULL) by (intros ->; specialize (D 0); unfold k1 in D; cbn [cntk] in D; unfold NULL in D; rewrite !ind_refl in D; lia). rewrite (proj2 (Z.eqb_neq _ _) Na).
    set (m1 := upd m a (side d) NULL) in *.
    assert (K1 : keep3 m m1). { unfold k1 in Hk. cbn [Tree.crep addr] in Hk. apply (keep3_st m a (side d) NULL); [apply side_lt|apply (st_some _ _ _ _ s), Hk]. }
    assert (Nar : a <> rt) by (intros ->; specialize (D rt); unfold k1 in D; cbn [cntk] in D; rewrite !ind_refl in D; lia).
    assert (C1 : m1 rt COUNT = Some c) by (unfold m1; rewrite upd_other by (left; congruence); exact HCt).
    unfold ld in D1. unfold ld at 1. destruct (m a LEFT) as [pl|] eqn:Epl; [|discriminate]. rewrite D1.
    assert (Cs : cnt s (plug k1 (@E unit)) = 0%nat). { specialize (D s). rewrite cnt_plug. cbn [cnt] in *. rewrite ind_refl in D. lia. }
    assert (Ps : Permutation (inorder (plug k1 (T x E s E))) (s :: inorder (plug k1 (@E unit)))). { rewrite !inorder_plug. cbn [inorder app]. apply Permutation_sym, Permutation_middle. }
    assert (Ns : hnode m s /\ s <> rt /\ s <> 0). { apply (in_node m _ s HT). apply (Permutation_in _ (Permutation_sym Ps)). left. reflexivity. } destruct Ns as (Ns & Nsr & Nsz).
    destruct (Z.eqb_spec n s) as [->|Nns].
    + (* the last node *)
      unfold ld. rewrite C1, Hw. rewrite (st_some _ _ _ _ _ C1). cbn [fst snd]. change (NULL =? NULL) with true. cbn iota.
      assert (HS : shape_ok (upd m1 rt COUNT (c - 1)) (plug k1 E) (c - 1)) by (split; [apply at_count, D2|split; [exact Hh'|split; [exact HP'|apply upd_same]]]).
      assert (K2 : keep3 m (upd m1 rt COUNT (c - 1))) by (apply (keep3_trans _ m1 _ K1); apply (keep3_st m1 rt COUNT (c - 1)); [reflexivity|apply (st_some _ _ _ _ _ C1)]).
      destruct (poison_ok _ _ (c - 1) s HS) as (m' & P1 & P2 & P3); [apply (keep3_hnode _ _ _ K2 Ns)|exact Cs|exact Nsr|].
      rewrite P1. exists m', (plug k1 E). split; [reflexivity|]. split; [exact P2|]. split; [exact Ps|apply (keep3_trans _ _ _ K2 P3)].
    + assert (Hn' : In n (inorder (plug k1 (@E unit)))). { apply (Permutation_in _ Ps) in Hn. destruct Hn as [Hn|Hn]; [congruence|exact Hn]. }
      apply cnt_pos_in in Hn'. destruct (find_ctx n _ Hn') as (k2 & x2 & l2 & r2 & E2).
      assert (D2' := D2). rewrite E2 in D2', Hh'.
      destruct (inherit_ok rt m1 k2 x2 l2 n r2 s D2' (keep3_hnode _ _ _ K1 Ns) Nsz Nsr) as (m2 & I1 & I2 & I3); [rewrite <- E2; exact Cs|].
      pose proof (keep3_inherit _ _ _ _ _ I1) as KI. rewrite I1. rewrite C1 in I3. unfold ld at 1. rewrite I3, Hw, (st_some _ _ _ _ _ I3). cbn [fst snd]. rewrite (proj2 (Z.eqb_neq s NULL) Nsz).
      pose (m3 := upd m2 rt COUNT (c - 1)). fold m3.
      assert (K3 : keep3 m m3) by (apply (keep3_trans _ m1 _ K1); apply (keep3_trans _ m2 _ KI); apply (keep3_st m2 rt COUNT (c - 1)); [reflexivity|apply (st_some _ _ _ _ _ I3)]).
      apply hp_plug in Hh'. destruct Hh' as [Hh1 Hh2]. cbn [HeapOps.hp inorder] in Hh1, Hh2.
      assert (OC : forall q, occ (plug k2 (T x2 l2 s r2)) q <-> occ (plug k1 (@E unit)) q) by (rewrite E2; apply occ_plug; intros [|[|] q]; unfold occ; cbn [at_path]; tauto || (split; discriminate)).
      assert (HPs : complete (plug k2 (T x2 l2 s r2)) (c - 1)) by (intros i Hi; rewrite <- (HP' i Hi); apply OC).
      destruct (erase_ok cmp HC rt fuel m3 k2 x2 l2 s r2) as (m4 & t' & A1 & A2 & A3 & [A4 A4'] & A5).
      * rewrite (size_plug_eq k2 (T x2 l2 s r2) (T x2 l2 n r2)) by reflexivity. rewrite <- E2. lia.
      * apply at_count. exact I2.
      * apply (lefty_sub k2). apply (complete_lefty _ _ HPs).
      * apply Hh1.
      * apply Hh1.
      * revert Hh2. apply hk_incl. intros z Hz. rewrite in_app_iff in *. cbn [In]. tauto.
      * rewrite A1. assert (Pn : Permutation (inorder (plug k1 (T x E s E))) (n :: inorder t')).
        { eapply Permutation_trans; [exact Ps|]. eapply Permutation_trans; [|apply perm_skip, A4']. rewrite E2, !inorder_plug. cbn [inorder]. rewrite <- !app_assoc. cbn [app].
          rewrite !(app_assoc (before k2)). eapply Permutation_trans; [apply perm_skip, Permutation_sym, Permutation_middle|]. eapply Permutation_trans; [apply perm_swap|]. apply perm_skip, Permutation_middle. }
        assert (HS : shape_ok m4 t' (c - 1)).
        { split; [exact A2|]. split; [exact A3|]. split; [intros i Hi; unfold at_pos; fold (occ t' (path i)); rewrite A4; apply HPs, Hi|]. rewrite A5. apply upd_same. }
        assert (K4 : keep3 m m4) by (apply (keep3_trans _ m3 _ K3); apply (keep3_erase _ _ _ _ _ _ A1)).
        destruct (poison_ok m4 t' (c - 1) n HS) as (m' & P1 & P2 & P3); [apply (keep3_hnode _ _ _ K4 Nn)| |exact Nrt|].
        { apply cnt_zero_in. intros Hx. assert (ND : NoDup (n :: inorder t')). { apply (Permutation_NoDup Pn). apply (at_nodup U rt m _ HT). } inversion ND as [|? ? Hx' _]. contradiction. }
        rewrite P1. exists m', t'. split; [reflexivity|]. split; [exact P2|]. split; [exact Pn|apply (keep3_trans _ _ _ K4 P3)].
Qed.

(** ** What the client sees of such a tree *)
Lemma hp_heap (t : utree) : hp t -> heap cmp t.
Proof.
  intros Hh i a b Hi Ha Hb. unfold at_pos in *. destruct (path_half i Hi) as (d & _ & E1). rewrite E1 in Hb. destruct (find_path _ t a Ha) as (k & x & l & r & -> & Hk). rewrite <- Hk, at_plug in Hb.
  apply hp_plug in Hh. destruct Hh as [(H1 & _) _]. apply H1, in_or_app. destruct d; cbn [at_path] in Hb; [right|left]; apply in_path; eauto.
Qed.
Lemma root_least m (t : utree) : tree_at m t -> hp t -> exists p, m rt NODE = Some p /\ (inorder t = [] /\ p = NULL \/ least cmp p (inorder t)).
Proof.
  intros (H1 & _) Hh. exists (addr t). split; [exact H1|]. destruct t as [|x l a r]; [left; split; reflexivity|right]. split; [cbn [inorder addr]; apply in_or_app; right; left; reflexivity|]. intros y Hy. apply (hp_below cmp HC _ y Hh Hy). discriminate.
Qed.
(** [bfdev_heap_for_each] visits position after position. *)
Definition level (t : utree) (c : Z) : list Z := map (fun i => oz (at_pos t i)) (zseq 1 (Z.to_nat c)).
Lemma pos_walk m t i : tree_at m t -> 1 <= i < 2 ^ 64 -> (let* node := ld m rt NODE in hp_walk (Z.to_nat (flsuf i)) m node i) = Some (oz (at_pos t i)).
Proof. intros (H1 & H2 & D) Hi. unfold ld. rewrite H1. rewrite flsuf_log2 by lia. apply (walk_ok m _ i t 0); [|exact H2]. specialize (D 0). rewrite ind_refl in D. lia. Qed.
Lemma level_ok fuel m t c : c < 2 ^ 64 - 1 -> tree_at m t -> complete t c -> forall n j, (n < fuel)%nat -> 1 <= j -> c = j + Z.of_nat n - 1 ->
  level_visit fuel m rt (oz (at_pos t j), j - 1) = Some (map (fun i => oz (at_pos t i)) (zseq j n)).
Proof.
  intros Hc HT HP. induction fuel as [|fuel IH]; intros n j Hf Hj Hn; [lia|]. cbn [level_visit fst snd]. destruct n as [|n].
  - destruct (at_pos t j) eqn:E0; [exfalso; assert (X : at_pos t j <> None) by congruence; apply HP in X; lia|]. reflexivity.
  - destruct (at_pos t j) as [a|] eqn:E0; [|exfalso; apply (proj2 (HP j Hj) ltac:(lia)); exact E0]. cbn [oz].
    assert (Na : a <> NULL). { apply (in_node m t a HT). apply in_path. exists (path j). exact E0. } rewrite (proj2 (Z.eqb_neq _ _) Na).
    assert (W1 : w64 (j - 1 + 1) = j) by (unfold w64; rewrite Z.mod_small; lia). assert (W2 : w64 (j + 1) = j + 1) by (unfold w64; rewrite Z.mod_small; lia).
    pose proof (pos_walk m t (j + 1) HT ltac:(lia)) as PW. unfold level_next. cbn zeta. rewrite W1, W2. rewrite (proj2 (Z.eqb_neq (j + 1) 0)) by lia.
    destruct (ld m rt NODE) as [nd|] eqn:En; [|discriminate PW]. rewrite PW. replace j with (j + 1 - 1) at 2 by lia. rewrite (IH n (j + 1)) by lia. cbn [zseq]. cbn [map]. rewrite E0. reflexivity.
Qed.
Lemma level_perm m t c : 0 <= c -> tree_at m t -> complete t c -> Permutation (level t c) (inorder t).
Proof.
  intros Hc HT HP. assert (D := HT). destruct D as (_ & _ & D).
  assert (Hs : forall i, 1 <= i <= c -> exists a, at_pos t i = Some a) by (intros i Hi; destruct (at_pos t i) eqn:E0; [eauto|]; exfalso; apply (proj2 (HP i ltac:(lia)) ltac:(lia)); exact E0).
  apply NoDup_Permutation.
  - unfold level. assert (G : forall n j, 1 <= j -> j + Z.of_nat n - 1 <= c -> NoDup (map (fun i => oz (at_pos t i)) (zseq j n))).
    { induction n as [|n IH]; intros j Hj Hn; [constructor|]. cbn [zseq]. cbn [map]. constructor; [|apply IH; lia]. intros Hin. apply in_map_iff in Hin. destruct Hin as (i & E0 & Hi). apply zseq_in in Hi.
      destruct (Hs i ltac:(lia)) as [a Ha], (Hs j ltac:(lia)) as [b Hb]. rewrite Ha, Hb in E0. cbn [oz] in E0. subst b.
      assert (path i = path j) by (apply (path_unique t a); try assumption; specialize (D a); lia). apply path_inj in H; lia. }
    apply G; lia.
  - apply (at_nodup U rt m t HT).
  - intros a. unfold level. rewrite in_map_iff. split.
    + intros (i & E0 & Hi). apply zseq_in in Hi. destruct (Hs i ltac:(lia)) as [b Hb]. rewrite Hb in E0. cbn [oz] in E0. subst b. apply in_path. exists (path i). exact Hb.
    + intros Ha. apply in_path in Ha. destruct Ha as [p Hp]. destruct (path_surj p) as (i & Hi & <-). exists i. fold (at_pos t i) in Hp. rewrite Hp. split; [reflexivity|]. apply zseq_in. assert (X : at_pos t i <> None) by congruence. apply HP in X; lia.
Qed.

(** ** Histories *)
Definition exec (fuel : nat) (m : mem) (o : op) : option mem := match o with Ins n => hp_insert cmp fuel m rt n | Del n => hp_delete cmp fuel m rt n end.
Fixpoint run (fuel : nat) (m : mem) (ops : list op) : option mem := match ops with [] => Some m | o :: ops => let* m := exec fuel m o in run fuel m ops end.
Definition good_node (m : mem) (n : Z) : Prop := hnode m n /\ n <> 0 /\ n <> rt.
(** The heap at [rt] consists of the nodes [l]. *)
Definition heap_of (m : mem) (l : list Z) : Prop := exists t, shape_ok m t (zlen l) /\ Permutation (inorder t) l.
Lemma filter_out n (l : list Z) : NoDup l -> In n l -> Permutation l (n :: filter (fun x => negb (x =? n)) l).
Proof.
  induction l as [|x l IH]; [intros _ []|]. intros ND Hin. apply NoDup_cons_iff in ND. destruct ND as [N1 N2]. cbn [filter]. destruct (Z.eqb_spec x n) as [->|N]; cbn [negb].
  - apply perm_skip. clear - N1. induction l as [|y l IH]; [apply Permutation_refl|]. cbn [filter]. destruct (Z.eqb_spec y n) as [->|N]; cbn [negb]; [destruct N1; left; reflexivity|]. apply perm_skip, IH. intros H. apply N1. right. exact H.
  - destruct Hin as [->|Hin]; [congruence|]. eapply Permutation_trans; [apply perm_skip, (IH N2 Hin)|apply perm_swap].
Qed.
Lemma zlen_cons' (x : Z) l : zlen (x :: l) = zlen l + 1.
Proof. unfold zlen. cbn [length]. lia. Qed.
Theorem step_ok fuel m l o : zlen l < 2 ^ 64 - 1 -> (length l < fuel)%nat -> heap_of m l -> allowed (good_node m) o l ->
  exists m', exec fuel m o = Some m' /\ heap_of m' (apply_op o l) /\ keep3 m m'.
Proof.
  intros Hc Hf (t & HS & HPm) Ha. assert (Hz : 0 <= zlen l) by (unfold zlen; lia). assert (Hsz : size t = length l) by (rewrite size_inorder; apply Permutation_length, HPm).
  destruct o as [n|n]; cbn [exec allowed apply_op] in *.
  - destruct Ha as ((H1 & H2 & H3) & H4). destruct (insert_ok fuel m t (zlen l) n ltac:(lia) ltac:(lia) HS H1 H2 H3) as (m' & t' & A1 & A2 & A3 & A4).
    + intros H. apply H4. apply (Permutation_in _ HPm H).
    + exists m'. split; [exact A1|]. split; [|exact A4]. exists t'. rewrite zlen_cons'. split; [exact A2|]. apply (Permutation_trans A3). apply perm_skip, HPm.
  - destruct (delete_ok fuel m t (zlen l) n ltac:(lia) ltac:(lia) HS) as (m' & t' & A1 & A2 & A3 & A4).
    + apply (Permutation_in _ (Permutation_sym HPm) Ha).
    + exists m'. split; [exact A1|]. split; [|exact A4]. exists t'. pose proof HS as (HT & _).
      assert (NDl : NoDup l) by (apply (Permutation_NoDup HPm), (at_nodup U rt m t HT)).
      pose proof (filter_out n l NDl Ha) as Pf. assert (El : zlen (filter (fun x => negb (x =? n)) l) = zlen l - 1) by (apply Permutation_length in Pf; unfold zlen; cbn [length] in Pf; lia).
      rewrite El. split; [exact A2|]. apply (Permutation_cons_inv (a := n)). apply (Permutation_trans (Permutation_sym A3)). apply (Permutation_trans HPm Pf).
Qed.
Lemma apply_len o l : (length (apply_op o l) <= S (length l))%nat.
Proof. destruct o as [n|n]; cbn [apply_op length]; [lia|]. induction l as [|x l IH]; cbn [filter length]; [lia|]. destruct (negb (x =? n)); cbn [length]; lia. Qed.
Theorem run_ok ops : forall fuel m l, Z.of_nat (length l + length ops) < 2 ^ 64 - 1 -> (length l + length ops < fuel)%nat -> heap_of m l -> history (good_node m) ops l ->
  exists m', run fuel m ops = Some m' /\ heap_of m' (apply_ops ops l) /\ (length (apply_ops ops l) <= length l + length ops)%nat /\ keep3 m m'.
Proof.
  induction ops as [|o ops IH]; intros fuel m l H64 Hf HH HH'; cbn [run history apply_ops length] in *.
  - exists m. split; [reflexivity|]. split; [exact HH|]. split; [lia|apply keep3_refl].
  - destruct HH' as [Ha Hh]. destruct (step_ok fuel m l o) as (m1 & E1 & A1 & A2); try assumption; [unfold zlen; lia|lia|]. rewrite E1. pose proof (apply_len o l) as Hl.
    destruct (IH fuel m1 (apply_op o l)) as (m' & E2 & B1 & B2 & B3); try assumption; try lia.
    + clear - Hh A2. revert Hh. generalize (apply_op o l). induction ops as [|o' ops IH]; intros l' H; cbn [history] in *; [exact I|]. destruct H as [H H']. split; [|apply IH, H']. destruct o' as [n|n]; cbn [allowed] in *; [|exact H]. destruct H as ((X1 & X2) & X3). repeat split; try tauto. apply (keep3_hnode m m1 n A2 X1).
    + exists m'. split; [exact E2|]. split; [exact B1|]. split; [lia|apply (keep3_trans _ _ _ A2 B3)].
Qed.
(** From an initialised root: any insertions and deletions. The heap is a complete tree holding exactly the nodes
    put in and not taken out, no child is before its parent, the root is a least node, [count] is their number, and
    the level-order loop visits position after position. The client's fields are untouched. *)
Theorem C55_history fuel m ops : rt <> 0 -> m rt NODE = Some NULL -> m rt COUNT = Some 0 -> Z.of_nat (length ops) < 2 ^ 64 - 1 -> (length ops < fuel)%nat ->
  history (good_node m) ops [] ->
  exists m' t l, run fuel m ops = Some m' /\ l = apply_ops ops [] /\ tree_at m' t /\ Permutation (inorder t) l /\ complete t (zlen l) /\ heap cmp t /\
    m' rt COUNT = Some (zlen l) /\ (exists p, m' rt NODE = Some p /\ (l = [] /\ p = NULL \/ least cmp p l)) /\
    (exists p, level_first m' rt = Some p /\ level_visit fuel m' rt p = Some (level t (zlen l)) /\ Permutation (level t (zlen l)) l) /\
    (forall a f, 3 <= f -> m' a f = m a f).
Proof.
  intros Hr H1 H2 H3 H4 H5. destruct (run_ok ops fuel m []) as (m' & E1 & (t & (A1 & A2 & A3 & A4) & A5) & A6 & A7); try assumption.
  - exists E. split; [|apply Permutation_refl]. split; [|split; [exact I|split; [|exact H2]]].
    + split; [exact H1|]. split; [exact I|]. intros z. cbn [cntk cnt]. destruct (Z.eq_dec z 0) as [->|N]; [rewrite ind_refl, ind_ne by congruence; lia|]. rewrite (ind_ne z 0 N). unfold ind. destruct (z =? rt); lia.
    + intros i Hi. unfold at_pos, zlen. cbn [length at_path]. split; [congruence|lia].
  - exists m', t, (apply_ops ops []). cbn [length] in A6. assert (Hz : 0 <= zlen (apply_ops ops []) < 2 ^ 64 - 1) by (unfold zlen; lia). conj; try assumption; try reflexivity.
    + apply hp_heap, A2.
    + destruct (root_least m' t A1 A2) as (p & P1 & P2). exists p. split; [exact P1|]. destruct P2 as [[P2 P3]|[P2 P3]].
      * left. split; [|exact P3]. rewrite P2 in A5. apply Permutation_nil in A5. exact A5.
      * right. split; [apply (Permutation_in _ A5 P2)|]. intros y Hy. apply P3. apply (Permutation_in _ (Permutation_sym A5) Hy).
    + exists (oz (at_pos t 1), 0). split; [|split].
      * unfold level_first, ld. rewrite (proj1 A1). unfold at_pos. change (path 1) with (@nil dir). destruct t; reflexivity.
      * change 0 with (1 - 1) at 1. apply (level_ok fuel m' t (zlen (apply_ops ops []))); try assumption; unfold zlen; lia.
      * apply (Permutation_trans (level_perm m' t _ (proj1 Hz) A1 A3) A5).
    + apply A7.
Qed.
(** Taking the root until nothing is left yields all the nodes in ascending order. *)
Fixpoint drain (fuel n : nat) (m : mem) : option (mem * list Z) :=
  match n with
  | O => None
  | S n => let* p := ld m rt NODE in if p =? NULL then Some (m, []) else let* m := hp_delete cmp fuel m rt p in let* r := drain fuel n m in Some (fst r, p :: snd r)
  end.
Theorem C55_drain fuel : forall n m l, zlen l < 2 ^ 64 - 1 -> (length l < fuel)%nat -> (length l < n)%nat -> heap_of m l ->
  exists m' v, drain fuel n m = Some (m', v) /\ Permutation v l /\ StronglySorted (fun x y => cmp x y <= 0) v.
Proof.
  induction n as [|n IH]; intros m l Hz Hf Hn HH; [lia|]. pose proof HH as (t & (A1 & A2 & A3 & A4) & A5). cbn [drain]. destruct (root_least m t A1 A2) as (p & P1 & P2). unfold ld at 1. rewrite P1. destruct P2 as [[P2 ->]|[P2 P3]].
  - change (NULL =? NULL) with true. cbn iota. exists m, []. rewrite P2 in A5. apply Permutation_nil in A5. subst l. repeat split; constructor.
  - assert (Np : p <> NULL) by (apply (in_node m t p A1 P2)). rewrite (proj2 (Z.eqb_neq _ _) Np). pose proof (Permutation_in _ A5 P2) as Pl.
    destruct (step_ok fuel m l (Del p) Hz Hf HH Pl) as (m1 & E1 & B1 & _). cbn [exec apply_op] in *. rewrite E1.
    assert (NDl : NoDup l) by (apply (Permutation_NoDup A5), (at_nodup U rt m t A1)). pose proof (filter_out p l NDl Pl) as Pf. pose proof (Permutation_length Pf) as Lf. cbn [length] in Lf. unfold zlen in *.
    destruct (IH m1 (filter (fun x => negb (x =? p)) l) ltac:(lia) ltac:(lia) ltac:(lia) B1) as (m' & v & C1 & C2 & C3). rewrite C1. cbn [fst snd]. exists m', (p :: v). split; [reflexivity|]. split.
    + apply Permutation_sym. apply (Permutation_trans Pf). apply perm_skip, Permutation_sym, C2.
    + constructor; [exact C3|]. rewrite Forall_forall. intros y Hy. apply P3. apply (Permutation_in _ (Permutation_sym A5)). apply (Permutation_in _ C2) in Hy. apply filter_In in Hy. tauto.
Qed.
(** [bfdev_heap_find] returns the node at a position of the last level (for any heap, complete with [c] nodes). *)
Theorem C83_find_partial m t c i : c < 2 ^ 64 -> tree_at m t -> complete t c -> m rt COUNT = Some c -> 1 <= i -> Z.log2 i = Z.log2 c -> 1 <= c -> hp_find m rt i = Some (oz (at_pos t i)).
Proof.
  intros Hc HT HP HCt Hi Hl H1. unfold hp_find. unfold ld at 1. rewrite HCt. rewrite (proj2 (Z.eqb_neq c 0)) by lia. rewrite flsuf_log2 by lia. rewrite <- Hl. destruct HT as (A1 & A2 & D). unfold ld. rewrite A1. apply (walk_ok m _ i t 0); [|exact A2]. specialize (D 0). rewrite ind_refl in D. lia.
Qed.
End Heap.

(** ** Concrete runs: keys are addresses divided by 10; the root is at 7 *)
Definition ex_cmp (a b : Z) : Z := a / 10 - b / 10.
Definition ex_mem : mem := fun a f => if (a =? 7) && (f <? 2) && (0 <=? f) then Some 0 else if (10 <=? a) && (0 <=? f) && (f <? 3) then Some 99 else None.
Definition ex_ops : list op := map Ins [50; 40; 41; 60; 70; 20; 10; 80; 90; 55] ++ [Del 40; Del 10; Ins 35; Del 80; Del 90].
Lemma ex_cmp_ok : preorder_cmp ex_cmp.
Proof. unfold ex_cmp. split; intros; lia. Qed.
Lemma ex_good n : 10 <= n -> good_node 7 ex_mem n.
Proof.
  intros Hn. split; [|lia]. intros f Hf. unfold ex_mem. destruct (Z.eqb_spec n 7); [lia|]. cbn [andb]. destruct (Z.leb_spec 10 n), (Z.leb_spec 0 f), (Z.ltb_spec f 3); cbn [andb]; try lia. eauto.
Qed.
Example C55_example : preorder_cmp ex_cmp /\ history (good_node 7 ex_mem) ex_ops [] /\ apply_ops ex_ops [] = [35; 55; 20; 70; 60; 41; 50] /\
  (let* m := run ex_cmp 7 30 ex_mem ex_ops in let* p := level_first m 7 in level_visit 30 m 7 p) = Some [20; 35; 41; 50; 55; 60; 70] /\
  option_map snd (let* m := run ex_cmp 7 30 ex_mem ex_ops in drain ex_cmp 7 30 30 m) = Some [20; 35; 41; 55; 50; 60; 70].
Proof.
  split; [exact ex_cmp_ok|]. split; [|split; [reflexivity|]].
  - cbn [history ex_ops map app apply_op]. conj; try exact I; repeat match goal with |- allowed _ (Ins _) _ => split; [apply ex_good; lia|vm_compute; intuition discriminate] | |- allowed _ (Del _) _ => vm_compute; tauto end.
  - vm_compute. repeat split.
Qed.
(** The full statement, that [bfdev_heap_find] returns the node at position [i] for every [i] up to [count], is
    false: the depth is taken from [count], so positions of upper levels are not found. After seven insertions
    find(1) does not return the root. *)
Theorem C83_refuted : exists cmp rt fuel m ops i, preorder_cmp cmp /\ rt <> 0 /\ m rt NODE = Some NULL /\ m rt COUNT = Some 0 /\ (length ops < fuel)%nat /\ history (good_node rt m) ops [] /\
  1 <= i <= zlen (apply_ops ops []) /\
  exists m' r p, run cmp rt fuel m ops = Some m' /\ m' rt NODE = Some r /\ i = 1 /\ hp_find m' rt i = Some p /\ p <> r.
Proof.
  exists ex_cmp, 7, 30%nat, ex_mem, (map Ins [10; 20; 30; 40; 50; 60; 70]), 1. conj; try reflexivity; try discriminate; try exact ex_cmp_ok.
  - cbn. lia.
  - cbn [history map apply_op]. conj; try exact I; split; try (apply ex_good; lia); vm_compute; intuition discriminate.
  - destruct (run ex_cmp 7 30 ex_mem (map Ins [10; 20; 30; 40; 50; 60; 70])) as [m'|] eqn:E0; [|vm_compute in E0; discriminate]. exists m', 10, 50.
    assert (G : (let* m' := run ex_cmp 7 30 ex_mem (map Ins [10; 20; 30; 40; 50; 60; 70]) in let* r := m' 7 NODE in let* p := hp_find m' 7 1 in Some (r, p)) = Some (10, 50)) by (vm_compute; reflexivity).
    rewrite E0 in G. destruct (m' 7 NODE) as [r|]; [|discriminate]. destruct (hp_find m' 7 1) as [p|]; [|discriminate]. injection G as -> ->. repeat split; discriminate.
Qed.
Print Assumptions C55_history.
Print Assumptions C55_drain.
Print Assumptions C83_find_partial.
Print Assumptions C83_refuted.
