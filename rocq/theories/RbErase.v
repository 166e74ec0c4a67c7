(** * Red-black trees: rebalancing after a removal *)
From Verif Require Import Lib Ptr Tree TiterModel RbModel RbProofs RbRotate RbSpec RbInsert.

Section Rt.
Variable rt : Z.
Variable cb : callbacks.
Variable Q : mem -> tree unit -> Prop.
Hypothesis ok : cb_ok rt cb Q.
Notation tree_at := (tree_at V rt).
Notation St := (St rt Q).

Lemma bal_black t n : bal t (S n) -> blackb t = true -> exists l a r, t = T true l a r /\ bal l n /\ bal r n.
Proof.
  destruct t as [|c l a r]; cbn [bal blackb]; [discriminate|]. intros (n' & H1 & H2 & H3) ->. cbn [Nat.add] in H3. injection H3 as <-. eauto 6.
Qed.
Lemma bal_red t n : bal t n -> blackb t = false -> exists l a r, t = T false l a r /\ bal l n /\ bal r n.
Proof.
  destruct t as [|c l a r]; cbn [bal blackb]; [discriminate|]. intros (n' & H1 & H2 & H3) ->. cbn [Nat.add] in H3. subst n'. eauto 6.
Qed.

Ltac rb := first [assumption | tauto | reflexivity | discriminate].

(** rbtree.c:228-376: the subtree at the end of the path is black and one black node short. *)
Theorem erase_loop_ok fuel : forall m k d cp p s (t : btree) n, (length k < fuel)%nat -> St m (plug (F d cp p s :: k) t) ->
  nored2 t -> black t -> cgood (F d cp p s :: k) -> bal t n -> cbal (F d cp p s :: k) (S n) ->
  exists m' t', erase_loop cb fuel m rt p (addr t) = Some m' /\ St m' t' /\ redblack t' /\ inorder t' = inorder (plug (F d cp p s :: k) t).
Proof.
  induction fuel as [fuel IH] using lt_wf_ind. intros m k d cp p s t n Hf HS Ht Bt Hg Hb Hc. destruct fuel as [|fuel]; [lia|].
  cbn [cgood cbal] in Hg, Hc. destruct Hg as (Hs & Hg1 & Hg). destruct Hc as (Hs1 & Hc).
  pose proof (st_apart _ _ _ _ _ HS) as D0.
  assert (Np : (p =? NULL) = false).
  { apply Z.eqb_neq. intros ->. pose proof (D0 NULL) as D1. cbn [cntk] in D1. rewrite !ind_refl in D1. lia. }
  cbn [erase_loop]. rewrite Np. destruct d.
  - (* left child *)
    change (inorder (plug (F L cp p s :: k) t)) with (inorder (plug k (T cp t p s))).
    assert (HSp : St m (plug k (T cp t p s))) by exact HS. rewrite (ld_right _ _ _ _ _ _ _ _ HSp).
    assert (N : addr t <> addr s).
    { apply (lr_ne' rt k cp t p s (st_apart _ _ _ _ _ HSp)). intros ->. cbn [bal] in Hs1. discriminate. }
    rewrite (proj2 (Z.eqb_neq _ _) N). cbn [negb].
    assert (HC : exists m1 k1 cp1 sl q sr, (let* c := ld m (addr s) COLOR in if c =? RED then left_rotate cb m rt p RED BLACK else Some (m, addr s)) = Some (m1, q) /\
      St m1 (plug k1 (T cp1 t p (T true sl q sr))) /\ inorder (plug k1 (T cp1 t p (T true sl q sr))) = inorder (plug k (T cp t p s)) /\
      nored2 sl /\ nored2 sr /\ bal sl n /\ bal sr n /\ cgood k1 /\ (cp1 = false -> pblack k1) /\ cbal k1 ((if cp1 then 1 else 0) + S n) /\ (cp1 = true -> k1 = k)).
    { destruct (blackb s) eqn:Bs.
      - destruct (bal_black _ _ Hs1 Bs) as (sl & q & sr & -> & B1 & B2). cbn [addr].
        assert (HSs : St m (plug (F R cp p t :: k) (T true sl q sr))) by exact HSp. rewrite (ld_color _ _ _ _ _ _ _ _ HSs). cbn [zc].
        change (BLACK =? RED) with false. cbv iota. exists m, k, cp, sl, q, sr. cbn [nored2] in Hs. conj; try rb.
      - destruct (bal_red _ _ Hs1 Bs) as (sl & q & sr & -> & B1 & B2). cbn [addr].
        assert (Ecp : cp = true) by (destruct cp; [reflexivity|]; destruct (Hg1 eq_refl) as [X _]; discriminate X). subst cp.
        assert (HSs : St m (plug (F R true p t :: k) (T false sl q sr))) by exact HSp. rewrite (ld_color _ _ _ _ _ _ _ _ HSs). cbn [zc].
        change (RED =? RED) with true. cbv iota.
        cbn [nored2] in Hs. destruct Hs as (Hs0 & Hsl & Hsr). destruct (Hs0 eq_refl) as [Bsl Bsr].
        destruct (rotl rt cb Q ok m k true t p false sl q sr (Some false) (Some true) HSp) as (m1 & E1 & HS1). cbn [zo zc] in E1. cbn [top ocol] in HS1.
        rewrite (paint_black _ Bsl) in HS1.
        destruct (bal_black _ _ B1 (proj2 (blackb_spec _) Bsl)) as (sll & x & slr & -> & C1 & C2). cbn [addr] in E1. cbn [nored2] in Hsl.
        exists m1, (F L true q sr :: k), false, sll, x, slr. split; [exact E1|]. split; [exact HS1|]. split; [cbn [plug up]; rewrite !inorder_plug; apps; reflexivity|].
        cbn [cgood cbal pblack]. conj; try rb. }
    destruct HC as (m1 & k1 & cp1 & sl & q & sr & HCe & HS1 & Hin & Hsl & Hsr & Bl & Br & Hg2 & Hp2 & Hc2 & Hk1).
    destruct (ld m (addr s) COLOR) as [c|]; [|discriminate HCe]. rewrite HCe. clear HCe.
    assert (HSs : St m1 (plug (F R cp1 p t :: k1) (T true sl q sr))) by exact HS1.
    rewrite (ld_right _ _ _ _ _ _ _ _ HSs).
    assert (HSr : St m1 (plug (F R true q sl :: F R cp1 p t :: k1) sr)) by exact HSs.
    rewrite (is_black_ok _ _ _ _ _ HSr). destruct (blackb sr) eqn:Bsr.
    + rewrite (ld_left _ _ _ _ _ _ _ _ HSs).
      assert (HSl : St m1 (plug (F L true q sr :: F R cp1 p t :: k1) sl)) by exact HSs.
      rewrite (is_black_ok _ _ _ _ _ HSl). destruct (blackb sl) eqn:Bsl.
      * apply blackb_spec in Bsr, Bsl. destruct (stc rt cb Q ok _ _ _ _ _ _ false HSs) as (m2 & E2 & HS2). cbn [zc] in E2. rewrite E2.
        assert (HS2' : St m2 (plug k1 (T cp1 t p (T false sl q sr)))) by exact HS2. rewrite (ld_color _ _ _ _ _ _ _ _ HS2'), zc_red.
        destruct cp1; cbn [negb].
        -- rewrite (ld_parent _ _ _ _ _ _ _ _ HS2'). rewrite (cpar_null rt k1 _ (st_apart _ _ _ _ _ HS2')). specialize (Hk1 eq_refl). subst k1.
           assert (Bn : bal (T true t p (T false sl q sr)) (S n)) by (exists n; split; [assumption|split; [exists n; tauto|reflexivity]]).
           assert (Nn : nored2 (T true t p (T false sl q sr))) by (cbn [nored2]; conj; rb).
           destruct k as [|[d2 c2 g u] k]; cbn [negb].
           ++ eexists _, _. split; [reflexivity|]. split; [exact HS2'|]. split; [|rewrite <- Hin; reflexivity].
              apply (redblack_plug []). conj; [exact Nn|exact I|left; reflexivity|]. exists (S n). split; [exact Bn|exact I].
           ++ cbn [length] in Hf. destruct (IH fuel ltac:(lia) m2 k d2 c2 g u (T true t p (T false sl q sr)) (S n) ltac:(lia) HS2' Nn eq_refl Hg2 Bn Hc2) as (m' & t' & H1 & H2 & H3 & H4).
              exists m', t'. split; [exact H1|]. split; [exact H2|]. split; [exact H3|]. rewrite H4, <- Hin. rewrite !inorder_plug. reflexivity.
        -- destruct (stc rt cb Q ok _ _ _ _ _ _ true HS2') as (m3 & E3 & HS3). cbn [zc] in E3. rewrite E3.
           eexists _, _. split; [reflexivity|]. split; [exact HS3|]. split; [|rewrite <- Hin; rewrite !inorder_plug; reflexivity].
           apply redblack_plug. cbn [nored2 black]. conj; try rb. exists (S n). split; [|exact Hc2]. exists n.
           split; [assumption|split; [exists n; tauto|reflexivity]].
      * destruct (bal_red _ _ Bl Bsl) as (a & x & b & -> & Ba & Bb). cbn [nored2] in Hsl. destruct Hsl as (Hsl0 & Na & Nb). destruct (Hsl0 eq_refl) as [Bla Blb].
        apply blackb_spec in Bsr.
        destruct (rotr rt cb Q ok m1 _ true a q false b x sr None (Some true) HSs) as (m2 & E2 & HS2). cbn [zo zc] in E2. rewrite E2. cbn [fst].
        cbn [top ocol] in HS2. rewrite (paint_black _ Blb) in HS2.
        destruct (rotl rt cb Q ok m2 k1 cp1 t p false a x (T true b q sr) (Some true) None HS2) as (m3 & E3 & HS3). cbn [zo zc] in E3. rewrite E3. cbn [fst].
        cbn [top ocol] in HS3. change (paint None a) with a in HS3.
        destruct (stc rt cb Q ok m3 (F R cp1 x (T true t p a) :: k1) true b q sr true HS3) as (m4 & E4 & HS4). cbn [zc] in E4. rewrite E4.
        eexists _, _. split; [reflexivity|]. split; [exact HS4|]. split; [|rewrite <- Hin; cbn [plug up]; rewrite !inorder_plug; apps; reflexivity].
        cbn [plug up]. apply redblack_plug. cbn [nored2 black]. conj; try rb; [destruct cp1; [left|right]; tauto|]. eexists. split; [|exact Hc2].
        exists (S n). conj; try reflexivity; exists n; tauto.
    + destruct (bal_red _ _ Br Bsr) as (a & x & b & -> & Ba & Bb). cbn [nored2] in Hsr. destruct Hsr as (Hsr0 & Na & Nb). destruct (Hsr0 eq_refl) as [Bla Blb].
      cbn [addr]. destruct (rotl rt cb Q ok m1 k1 cp1 t p true sl q (T false a x b) (Some true) None HS1) as (m2 & E2 & HS2). cbn [zo zc] in E2. rewrite E2. cbn [fst].
      cbn [top ocol] in HS2. change (paint None sl) with sl in HS2.
      destruct (stc rt cb Q ok m2 (F R cp1 q (T true t p sl) :: k1) false a x b true HS2) as (m3 & E3 & HS3). cbn [zc] in E3. rewrite E3.
      eexists _, _. split; [reflexivity|]. split; [exact HS3|]. split; [|rewrite <- Hin; cbn [plug up]; rewrite !inorder_plug; apps; reflexivity].
      cbn [plug up]. apply redblack_plug. cbn [nored2 black]. conj; try rb; [destruct cp1; [left|right]; tauto|]. eexists. split; [|exact Hc2].
      exists (S n). conj; try reflexivity; exists n; tauto.
  - (* right child *)
    change (inorder (plug (F R cp p s :: k) t)) with (inorder (plug k (T cp s p t))).
    assert (HSp : St m (plug k (T cp s p t))) by exact HS. rewrite (ld_right _ _ _ _ _ _ _ _ HSp). rewrite Z.eqb_refl. cbn [negb].
    rewrite (ld_left _ _ _ _ _ _ _ _ HSp).
    assert (HC : exists m1 k1 cp1 sl q sr, (let* c := ld m (addr s) COLOR in if c =? RED then right_rotate cb m rt p RED BLACK else Some (m, addr s)) = Some (m1, q) /\
      St m1 (plug k1 (T cp1 (T true sl q sr) p t)) /\ inorder (plug k1 (T cp1 (T true sl q sr) p t)) = inorder (plug k (T cp s p t)) /\
      nored2 sl /\ nored2 sr /\ bal sl n /\ bal sr n /\ cgood k1 /\ (cp1 = false -> pblack k1) /\ cbal k1 ((if cp1 then 1 else 0) + S n) /\ (cp1 = true -> k1 = k)).
    { destruct (blackb s) eqn:Bs.
      - destruct (bal_black _ _ Hs1 Bs) as (sl & q & sr & -> & B1 & B2). cbn [addr].
        assert (HSs : St m (plug (F L cp p t :: k) (T true sl q sr))) by exact HSp. rewrite (ld_color _ _ _ _ _ _ _ _ HSs). cbn [zc].
        change (BLACK =? RED) with false. cbv iota. exists m, k, cp, sl, q, sr. cbn [nored2] in Hs. conj; try rb.
      - destruct (bal_red _ _ Hs1 Bs) as (sl & q & sr & -> & B1 & B2). cbn [addr].
        assert (Ecp : cp = true) by (destruct cp; [reflexivity|]; destruct (Hg1 eq_refl) as [X _]; discriminate X). subst cp.
        assert (HSs : St m (plug (F L true p t :: k) (T false sl q sr))) by exact HSp. rewrite (ld_color _ _ _ _ _ _ _ _ HSs). cbn [zc].
        change (RED =? RED) with true. cbv iota.
        cbn [nored2] in Hs. destruct Hs as (Hs0 & Hsl & Hsr). destruct (Hs0 eq_refl) as [Bsl Bsr].
        destruct (rotr rt cb Q ok m k true sl p false sr q t (Some false) (Some true) HSp) as (m1 & E1 & HS1). cbn [zo zc] in E1. cbn [top ocol] in HS1.
        rewrite (paint_black _ Bsr) in HS1.
        destruct (bal_black _ _ B2 (proj2 (blackb_spec _) Bsr)) as (srl & x & srr & -> & C1 & C2). cbn [addr] in E1. cbn [nored2] in Hsr.
        exists m1, (F R true q sl :: k), false, srl, x, srr. split; [exact E1|]. split; [exact HS1|]. split; [cbn [plug up]; rewrite !inorder_plug; apps; reflexivity|].
        cbn [cgood cbal pblack]. conj; try rb. }
    destruct HC as (m1 & k1 & cp1 & sl & q & sr & HCe & HS1 & Hin & Hsl & Hsr & Bl & Br & Hg2 & Hp2 & Hc2 & Hk1).
    destruct (ld m (addr s) COLOR) as [c|]; [|discriminate HCe]. rewrite HCe. clear HCe.
    assert (HSs : St m1 (plug (F L cp1 p t :: k1) (T true sl q sr))) by exact HS1.
    rewrite (ld_left _ _ _ _ _ _ _ _ HSs).
    assert (HSl : St m1 (plug (F L true q sr :: F L cp1 p t :: k1) sl)) by exact HSs.
    rewrite (is_black_ok _ _ _ _ _ HSl). destruct (blackb sl) eqn:Bsl.
    + rewrite (ld_right _ _ _ _ _ _ _ _ HSs).
      assert (HSr : St m1 (plug (F R true q sl :: F L cp1 p t :: k1) sr)) by exact HSs.
      rewrite (is_black_ok _ _ _ _ _ HSr). destruct (blackb sr) eqn:Bsr.
      * apply blackb_spec in Bsr, Bsl. destruct (stc rt cb Q ok _ _ _ _ _ _ false HSs) as (m2 & E2 & HS2). cbn [zc] in E2. rewrite E2.
        assert (HS2' : St m2 (plug k1 (T cp1 (T false sl q sr) p t))) by exact HS2. rewrite (ld_color _ _ _ _ _ _ _ _ HS2'), zc_red.
        destruct cp1; cbn [negb].
        -- rewrite (ld_parent _ _ _ _ _ _ _ _ HS2'). rewrite (cpar_null rt k1 _ (st_apart _ _ _ _ _ HS2')). specialize (Hk1 eq_refl). subst k1.
           assert (Bn : bal (T true (T false sl q sr) p t) (S n)) by (exists n; split; [exists n; tauto|split; [assumption|reflexivity]]).
           assert (Nn : nored2 (T true (T false sl q sr) p t)) by (cbn [nored2]; conj; rb).
           destruct k as [|[d2 c2 g u] k]; cbn [negb].
           ++ eexists _, _. split; [reflexivity|]. split; [exact HS2'|]. split; [|rewrite <- Hin; reflexivity].
              apply (redblack_plug []). conj; [exact Nn|exact I|left; reflexivity|]. exists (S n). split; [exact Bn|exact I].
           ++ cbn [length] in Hf. destruct (IH fuel ltac:(lia) m2 k d2 c2 g u (T true (T false sl q sr) p t) (S n) ltac:(lia) HS2' Nn eq_refl Hg2 Bn Hc2) as (m' & t' & H1 & H2 & H3 & H4).
              exists m', t'. split; [exact H1|]. split; [exact H2|]. split; [exact H3|]. rewrite H4, <- Hin. rewrite !inorder_plug. reflexivity.
        -- destruct (stc rt cb Q ok _ _ _ _ _ _ true HS2') as (m3 & E3 & HS3). cbn [zc] in E3. rewrite E3.
           eexists _, _. split; [reflexivity|]. split; [exact HS3|]. split; [|rewrite <- Hin; rewrite !inorder_plug; reflexivity].
           apply redblack_plug. cbn [nored2 black]. conj; try rb. exists (S n). split; [|exact Hc2]. exists n.
           split; [exists n; tauto|split; [assumption|reflexivity]].
      * destruct (bal_red _ _ Br Bsr) as (a & x & b & -> & Ba & Bb). cbn [nored2] in Hsr. destruct Hsr as (Hsr0 & Na & Nb). destruct (Hsr0 eq_refl) as [Bla Blb].
        apply blackb_spec in Bsl.
        destruct (rotl rt cb Q ok m1 _ true sl q false a x b None (Some true) HSs) as (m2 & E2 & HS2). cbn [zo zc] in E2. rewrite E2. cbn [fst].
        cbn [top ocol] in HS2. rewrite (paint_black _ Bla) in HS2.
        destruct (rotr rt cb Q ok m2 k1 cp1 (T true sl q a) p false b x t (Some true) None HS2) as (m3 & E3 & HS3). cbn [zo zc] in E3. rewrite E3. cbn [fst].
        cbn [top ocol] in HS3. change (paint None b) with b in HS3.
        destruct (stc rt cb Q ok m3 (F L cp1 x (T true b p t) :: k1) true sl q a true HS3) as (m4 & E4 & HS4). cbn [zc] in E4. rewrite E4.
        eexists _, _. split; [reflexivity|]. split; [exact HS4|]. split; [|rewrite <- Hin; cbn [plug up]; rewrite !inorder_plug; apps; reflexivity].
        cbn [plug up]. apply redblack_plug. cbn [nored2 black]. conj; try rb; [destruct cp1; [left|right]; tauto|]. eexists. split; [|exact Hc2].
        exists (S n). conj; try reflexivity; exists n; tauto.
    + destruct (bal_red _ _ Bl Bsl) as (a & x & b & -> & Ba & Bb). cbn [nored2] in Hsl. destruct Hsl as (Hsl0 & Na & Nb). destruct (Hsl0 eq_refl) as [Bla Blb].
      cbn [addr]. destruct (rotr rt cb Q ok m1 k1 cp1 (T false a x b) p true sr q t (Some true) None HS1) as (m2 & E2 & HS2). cbn [zo zc] in E2. rewrite E2. cbn [fst].
      cbn [top ocol] in HS2. change (paint None sr) with sr in HS2.
      destruct (stc rt cb Q ok m2 (F L cp1 q (T true sr p t) :: k1) false a x b true HS2) as (m3 & E3 & HS3). cbn [zc] in E3. rewrite E3.
      eexists _, _. split; [reflexivity|]. split; [exact HS3|]. split; [|rewrite <- Hin; cbn [plug up]; rewrite !inorder_plug; apps; reflexivity].
      cbn [plug up]. apply redblack_plug. cbn [nored2 black]. conj; try rb; [destruct cp1; [left|right]; tauto|]. eexists. split; [|exact Hc2].
      exists (S n). conj; try reflexivity; exists n; tauto.
Qed.
End Rt.
