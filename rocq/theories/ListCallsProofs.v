(** * Bottom-up merge sort of linked lists with any comparison function: merging, and counting the calls *)
From Verif Require Import Lib Ptr ListModel ListSpec ListProofs ListProofs2 ListSortModel ListSortSpec ListSortProofs ListSortProofs2 ListSortProofs3 ListCallsModel.
Ltac Zify.zify_post_hook ::= Z.div_mod_to_equations.

(** [M] has the elements of [L1] and [L2]; the calls made meanwhile compare such elements and are fewer than those. *)
Definition joined (tr tr' : lcalls) (L1 L2 M : list Z) : Prop :=
  Permutation (L1 ++ L2) M /\ (length tr' < length tr + length L1 + length L2)%nat /\
  exists new, tr' = new ++ tr /\ forall x y, In (x, y) new -> In x (L1 ++ L2) /\ In y (L1 ++ L2).
Lemma joined_one tr a b L1 L2 M : In a (L1 ++ L2) -> In b (L1 ++ L2) -> (2 <= length L1 + length L2)%nat -> Permutation (L1 ++ L2) M -> joined tr ((a, b) :: tr) L1 L2 M.
Proof.
  intros Ha Hb Hl P. split; [exact P|]. split; [cbn [length]; lia|]. exists [(a, b)]. split; [reflexivity|]. intros x y [E|[]]. injection E as <- <-. auto.
Qed.
Lemma joined_more tr tr' a b c L1 L2 L1' L2' M : In a (L1 ++ L2) -> In b (L1 ++ L2) -> Permutation (L1 ++ L2) (c :: L1' ++ L2') ->
  joined ((a, b) :: tr) tr' L1' L2' M -> joined tr tr' L1 L2 (c :: M).
Proof.
  intros Ha Hb P (PM & Hl & new & En & Hn). split; [apply (Permutation_trans P), perm_skip, PM|].
  pose proof (Permutation_length P) as Q. rewrite app_length in Q. cbn [length] in Q, Hl. rewrite app_length in Q. split; [lia|].
  exists (new ++ [(a, b)]). split; [rewrite <- app_assoc; exact En|]. intros x y H. apply in_app_or in H. destruct H as [H|[E|[]]].
  - destruct (Hn x y H). split; apply (Permutation_in _ (Permutation_sym P)); cbn; auto.
  - injection E as <- <-. auto.
Qed.
Lemma joined_in tr tr' L1 L2 M : joined tr tr' L1 L2 M -> forall x, In x M <-> In x L1 \/ In x L2.
Proof. intros (P & _) x. rewrite <- in_app_iff. split; apply Permutation_in; [apply Permutation_sym|]; exact P. Qed.
Lemma joined_len tr tr' L1 L2 M : joined tr tr' L1 L2 M -> length M = (length L1 + length L2)%nat.
Proof. intros (P & _). rewrite <- (Permutation_length P). apply app_length. Qed.

Section Calls.
Variable orc : lcalls -> Z -> Z -> Z.
Lemma merge_loop_o_ok : forall fuel tr l1 l2 m first t a b, (length l1 + length l2 < fuel)%nat -> NoDup (topt t ++ (a :: l1) ++ b :: l2) ->
  (forall p, t = Some p -> present m p NEXT) -> chain m a (a :: l1) -> chain m b (b :: l2) ->
  exists m' f' M tr', list_merge_loop_o orc fuel tr m first t a b = Some (m', f', tr') /\ joined tr tr' (a :: l1) (b :: l2) M /\ chain m' (hd NULL M) M /\
  nframe (topt t ++ (a :: l1) ++ b :: l2) m m' /\
  match t with None => f' = hd NULL M | Some p => f' = first /\ m' p NEXT = Some (hd NULL M) end.
Proof.
  induction fuel as [|fuel IH]; intros tr l1 l2 m first t a b Hf Hd Ht C1 C2; [lia|].
  assert (Dt : forall x, In x (topt t) -> In x ((a :: l1) ++ b :: l2) -> False) by (apply nodup_disj, Hd).
  pose proof (nodup_r _ _ Hd) as Hd2. pose proof (nodup_disj _ _ Hd2) as D12.
  pose proof (chain_nz _ _ _ _ C1) as Na. pose proof (chain_nz _ _ _ _ C2) as Nb.
  cbn [list_merge_loop_o]. destruct (orc tr a b <=? 0) eqn:Ec; cbn [hd].
  - destruct (tail_store_ok m first t a Ht) as (m1 & f1 & E1 & F1 & V1). rewrite E1.
    assert (C1' : chain m1 a (a :: l1)) by (revert C1; apply chain_frame; intros x Hx; apply F1; left; intros C; apply (Dt x C); apply in_or_app; auto).
    assert (C2' : chain m1 b (b :: l2)) by (revert C2; apply chain_frame; intros x Hx; apply F1; left; intros C; apply (Dt x C); apply in_or_app; auto).
    destruct C1' as (_ & _ & q & Eq & C1'). unfold ld. rewrite Eq.
    assert (Pa : present m1 a NEXT) by (exists q; exact Eq).
    destruct l1 as [|a' l1].
    + cbn in C1'. subst q. rewrite Z.eqb_refl.
      destruct (tail_store_ok m1 f1 (Some a) b) as (m2 & f2 & E2 & F2 & V2 & W2); [intros p Hp; injection Hp as <-; exact Pa|]. rewrite E2.
      assert (C2'' : chain m2 b (b :: l2)).
      { revert C2'. apply chain_frame. intros x Hx. apply F2. left. intros [<-|[]]. apply (D12 a); cbn; auto. }
      exists m2, f2, (a :: b :: l2), ((a, b) :: tr). split; [reflexivity|]. split; [apply joined_one; [cbn; auto|cbn; auto|cbn; lia|apply Permutation_refl]|]. split; [apply (chain_cons _ _ b); assumption|]. split.
      * apply (nframe_trans _ m m1 m2); [revert F1|revert F2]; apply nframe_incl; intros x Hx; apply in_or_app; [auto|]. right. destruct Hx as [<-|[]]. cbn; auto.
      * subst f2. destruct t as [p|]; [|exact V1]. destruct V1 as [-> V1]. split; [reflexivity|]. rewrite F2; [exact V1|]. left. intros [<-|[]]. apply (Dt a); cbn; auto.
    + pose proof (chain_hd _ _ _ C1') as Hq. cbn [hd] in Hq. subst q. pose proof (chain_nz _ _ _ _ C1') as Na'.
      rewrite (proj2 (Z.eqb_neq _ _) Na').
      destruct (IH ((a, b) :: tr) l1 l2 m1 f1 (Some a) a' b) as (m2 & f2 & M & tr' & E2 & J2 & G2 & F2 & V2 & W2).
      * cbn [length] in Hf. lia.
      * exact Hd2.
      * intros p Hp; injection Hp as <-; exact Pa.
      * exact C1'.
      * exact C2'.
      * rewrite E2. exists m2, f2, (a :: M), tr'. split; [reflexivity|]. split; [eapply joined_more; [| |apply Permutation_refl|exact J2]; [cbn; auto|apply in_or_app; cbn; auto]|]. split; [apply (chain_cons _ _ _ _ Na W2 G2)|]. split.
        -- apply (nframe_trans _ m m1 m2); [revert F1|revert F2]; apply nframe_incl; intros x Hx; apply in_or_app; [auto|right; exact Hx].
        -- subst f2. destruct t as [p|]; [|exact V1]. destruct V1 as [-> V1]. split; [reflexivity|]. rewrite F2; [exact V1|]. left. intros C. apply (Dt p); [cbn; auto|exact C].
  - destruct (tail_store_ok m first t b Ht) as (m1 & f1 & E1 & F1 & V1). rewrite E1.
    assert (C1' : chain m1 a (a :: l1)) by (revert C1; apply chain_frame; intros x Hx; apply F1; left; intros C; apply (Dt x C); apply in_or_app; auto).
    assert (C2' : chain m1 b (b :: l2)) by (revert C2; apply chain_frame; intros x Hx; apply F1; left; intros C; apply (Dt x C); apply in_or_app; auto).
    destruct C2' as (_ & _ & q & Eq & C2'). unfold ld. rewrite Eq.
    assert (Pb : present m1 b NEXT) by (exists q; exact Eq).
    destruct l2 as [|b' l2].
    + cbn in C2'. subst q. rewrite Z.eqb_refl.
      destruct (tail_store_ok m1 f1 (Some b) a) as (m2 & f2 & E2 & F2 & V2 & W2); [intros p Hp; injection Hp as <-; exact Pb|]. rewrite E2.
      assert (C1'' : chain m2 a (a :: l1)).
      { revert C1'. apply chain_frame. intros x Hx. apply F2. left. intros [<-|[]]. apply (D12 b); cbn; auto. }
      exists m2, f2, (b :: a :: l1), ((a, b) :: tr). split; [reflexivity|]. split; [apply joined_one; [cbn; auto|apply in_or_app; cbn; auto|cbn; lia|apply (Permutation_app_comm (a :: l1) [b])]|]. split; [apply (chain_cons _ _ a); assumption|]. split.
      * apply (nframe_trans _ m m1 m2); [revert F1|revert F2]; apply nframe_incl; intros x Hx; apply in_or_app; [auto|]. right. destruct Hx as [<-|[]]. apply in_or_app. cbn; auto.
      * subst f2. destruct t as [p|]; [|exact V1]. destruct V1 as [-> V1]. split; [reflexivity|]. rewrite F2; [exact V1|]. left. intros [<-|[]]. apply (Dt b); [cbn; auto|apply in_or_app; cbn; auto].
    + pose proof (chain_hd _ _ _ C2') as Hq. cbn [hd] in Hq. subst q. pose proof (chain_nz _ _ _ _ C2') as Nb'.
      rewrite (proj2 (Z.eqb_neq _ _) Nb').
      destruct (IH ((a, b) :: tr) l1 l2 m1 f1 (Some b) a b') as (m2 & f2 & M & tr' & E2 & J2 & G2 & F2 & V2 & W2).
      * cbn [length] in Hf. lia.
      * cbn [topt app]. apply (Permutation_NoDup (l := (a :: l1) ++ b :: b' :: l2)); [apply Permutation_sym, (Permutation_middle (a :: l1))|exact Hd2].
      * intros p Hp; injection Hp as <-; exact Pb.
      * exact C1'.
      * exact C2'.
      * rewrite E2. exists m2, f2, (b :: M), tr'. split; [reflexivity|]. split; [eapply joined_more; [| |apply Permutation_sym, (Permutation_middle (a :: l1))|exact J2]; [cbn; auto|apply in_or_app; cbn; auto]|]. split; [apply (chain_cons _ _ _ _ Nb W2 G2)|].
        assert (Hin : forall x, In x (topt (Some b) ++ (a :: l1) ++ b' :: l2) -> In x ((a :: l1) ++ b :: b' :: l2)).
        { intros x Hx. cbn [topt] in Hx. repeat (rewrite ?in_app_iff in *; cbn in * ). tauto. }
        split.
        -- apply (nframe_trans _ m m1 m2); [revert F1|revert F2]; apply nframe_incl; intros x Hx; apply in_or_app; [auto|right; apply Hin, Hx].
        -- subst f2. destruct t as [p|]; [|exact V1]. destruct V1 as [-> V1]. split; [reflexivity|]. rewrite F2; [exact V1|]. left. intros C. apply (Dt p); [cbn; auto|apply Hin, C].
Qed.
Lemma merge_o_ok fuel tr l1 l2 m a b : (length l1 + length l2 < fuel)%nat -> NoDup ((a :: l1) ++ b :: l2) -> chain m a (a :: l1) -> chain m b (b :: l2) ->
  exists m' p M tr', list_merge_o orc fuel tr m a b = Some (m', p, tr') /\ joined tr tr' (a :: l1) (b :: l2) M /\ p = hd NULL M /\ chain m' p M /\ nframe ((a :: l1) ++ b :: l2) m m'.
Proof.
  intros Hf Hd C1 C2. destruct (merge_loop_o_ok fuel tr l1 l2 m NULL None a b Hf Hd) as (m' & p & M & tr' & E & J & C & F & V); try assumption; [discriminate|].
  exists m', p, M, tr'. subst p. auto.
Qed.
Lemma step_merge_o fuel tr m A L2 L1 B'' p node2 : NoDup (concat (A ++ L2 :: L1 :: B'')) -> whole m (concat (A ++ L2 :: L1 :: B'')) ->
  (length (concat (A ++ L2 :: L1 :: B'')) <= fuel)%nat ->
  pend m p (A ++ L2 :: L1 :: B'') -> tail_load m p (slot A None) = Some node2 -> pend m node2 (L2 :: L1 :: B'') ->
  exists m' p' M tr', (let* node1 := ld m node2 PREV in
     let* (m, node2, tr) := list_merge_o orc fuel tr m node1 node2 in
     let* p' := ld m node1 PREV in
     let* m := st m node2 PREV p' in
     match slot A None with
     | None => Some (m, node2, tr)
     | Some t => let* m := st m t PREV node2 in Some (m, p, tr)
     end) = Some (m', p', tr') /\ joined tr tr' L1 L2 M /\ pend m' p' (A ++ M :: B'') /\ whole m' (concat (A ++ L2 :: L1 :: B'')) /\
   frame (concat (A ++ L2 :: L1 :: B'')) m m'.
Proof.
  intros Hd Hw Hf Hp Ht Hp2.
  assert (HinA : forall x, In x (concat A) -> In x (concat (A ++ L2 :: L1 :: B''))) by (intros x Hx; rewrite concat_app; apply in_or_app; auto).
  assert (Hin2 : forall x, In x L2 -> In x (concat (A ++ L2 :: L1 :: B''))) by (intros x Hx; rewrite concat_app; cbn [concat]; rewrite !in_app_iff; auto).
  assert (Hin1 : forall x, In x L1 -> In x (concat (A ++ L2 :: L1 :: B''))) by (intros x Hx; rewrite concat_app; cbn [concat]; rewrite !in_app_iff; auto).
  assert (HinB : forall x, In x (concat B'') -> In x (concat (A ++ L2 :: L1 :: B''))) by (intros x Hx; rewrite concat_app; cbn [concat]; rewrite !in_app_iff; auto).
  rewrite concat_app in Hd, Hf. cbn [concat] in Hd, Hf. pose proof (nodup_r _ _ Hd) as Hd2. pose proof (nodup_l _ _ Hd) as HdA. pose proof (nodup_disj _ _ Hd) as DA.
  pose proof (nodup_disj _ _ Hd2) as D2. pose proof (nodup_r _ _ Hd2) as Hd1. pose proof (nodup_disj _ _ Hd1) as D1.
  destruct Hp2 as (N2 & C2 & node1 & E1 & N1 & C1 & q & Eq & PB).
  pose proof (chain_hd_in _ _ _ N2 C2) as I2. pose proof (chain_hd_in _ _ _ N1 C1) as I1.
  destruct L2 as [|y2 l2]; [contradiction|]. destruct L1 as [|y1 l1]; [contradiction|].
  pose proof (chain_hd _ _ _ C2) as Q. cbn [hd] in Q. subst y2. pose proof (chain_hd _ _ _ C1) as Q. cbn [hd] in Q. subst y1.
  unfold ld. rewrite E1.
  assert (Hd12 : NoDup ((node1 :: l1) ++ node2 :: l2)).
  { rewrite app_assoc in Hd2. apply nodup_l in Hd2. revert Hd2. apply Permutation_NoDup, Permutation_app_comm. }
  destruct (merge_o_ok fuel tr l1 l2 m node1 node2) as (m1 & n & M & tr' & Em & J & En & Cm & Fm); [|exact Hd12|exact C1|exact C2|].
  { rewrite !app_length in Hf. cbn [length] in Hf. lia. }
  rewrite Em.
  assert (HM : forall x, In x M <-> In x (node1 :: l1) \/ In x (node2 :: l2)) by (exact (joined_in _ _ _ _ _ J)).
  assert (NM : M <> []) by (intros C; assert (X : In node1 []) by (rewrite <- C; apply HM; cbn; auto); destruct X).
  assert (In_n : In n M) by (apply (chain_hd_in _ _ _ NM Cm)).
  rewrite (Fm node1 PREV) by (right; discriminate). rewrite Eq.
  assert (W1 : whole m1 (concat (A ++ (node2 :: l2) :: (node1 :: l1) :: B''))).
  { apply (whole_nframe m m1 _ _ Fm); [|exact Hw]. intros x Hx. apply (chain_present _ _ _ _ Cm). apply HM. apply in_app_or in Hx. tauto. }
  assert (HMw : forall x, In x M -> In x (concat (A ++ (node2 :: l2) :: (node1 :: l1) :: B''))) by (intros x Hx; apply HM in Hx; destruct Hx; auto).
  assert (Pn : exists v, m1 n PREV = Some v) by (apply (W1 n), HMw, In_n).
  rewrite (st_ex _ _ _ _ Pn). set (m2 := upd m1 n PREV q).
  assert (W2 : whole m2 (concat (A ++ (node2 :: l2) :: (node1 :: l1) :: B''))) by (apply whole_upd, W1).
  assert (DAM : forall x, In x (concat A) -> In x M -> False).
  { intros x H1 H2. apply (DA x H1). apply HM in H2. rewrite !in_app_iff. tauto. }
  assert (DBM : forall x, In x (concat B'') -> In x M -> False).
  { intros x H1 H2. apply HM in H2. destruct H2 as [H2|H2]; [apply (D1 x H2 H1)|apply (D2 x H2); apply in_or_app; auto]. }
  assert (DAB : forall x, In x (concat A) -> In x (concat B'') -> False).
  { intros x H1 H2. apply (DA x H1). rewrite !in_app_iff. tauto. }
  assert (F1 : forall x f, ~ In x M -> m1 x f = m x f).
  { intros x f Hx. apply Fm. left. intros C. apply Hx, HM. apply in_app_or in C. exact C. }
  assert (F2 : forall x f, ~ In x M -> m2 x f = m x f).
  { intros x f Hx. unfold m2. rewrite upd_other by (left; intros ->; contradiction). apply F1, Hx. }
  assert (F2' : forall x, m2 x NEXT = m1 x NEXT) by (intros x; unfold m2; apply upd_other; right; discriminate).
  (* the final memory *)
  assert (Fin : exists m3 p', match slot A None with None => Some (m2, n, tr') | Some t => let* m := st m2 t PREV n in Some (m, p, tr') end = Some (m3, p', tr') /\
     p' = match A with [] => n | _ => p end /\ (forall x f, ~ (Some x = slot A None /\ f = PREV) -> m3 x f = m2 x f) /\ (forall t, slot A None = Some t -> m3 t PREV = Some n) /\ whole m3 (concat (A ++ (node2 :: l2) :: (node1 :: l1) :: B''))).
  { destruct (slot A None) as [t|] eqn:Es.
    - assert (It : In t (concat A)) by (apply (slot_in _ _ _ _ Hp t Es)).
      destruct (W2 t (HinA t It)) as [_ P]. rewrite (st_ex _ _ _ _ P). exists (upd m2 t PREV n), p. split; [reflexivity|]. split; [destruct A; [discriminate|reflexivity]|].
      split; [|split].
      + intros x f Hx. apply upd_other. destruct (Z.eq_dec x t) as [->|]; [right; intros ->; apply Hx; auto|auto].
      + intros t' Ht'. injection Ht' as <-. apply upd_same.
      + apply whole_upd, W2.
    - exists m2, n. split; [reflexivity|]. split; [destruct A; [reflexivity|discriminate]|]. split; [reflexivity|]. split; [discriminate|exact W2]. }
  destruct Fin as (m3 & p' & E3 & -> & F3 & V3 & W3). rewrite E3. exists m3, (match A with [] => n | _ => p end), M, tr'. split; [reflexivity|]. split; [exact J|]. split; [|split; [exact W3|]].
  - apply (pend_replace m m3 ((node2 :: l2) :: (node1 :: l1) :: B'') (M :: B'') n A p HdA Hp).
    + intros x Hx. rewrite F3 by (intros [_ C]; discriminate C). apply F2. intros C. apply (DAM x Hx C).
    + intros x Hx Hs. rewrite F3 by (intros [C _]; contradiction). apply F2. intros C. apply (DAM x Hx C).
    + exact V3.
    + assert (Hslot : forall x, Some x = slot A None -> In x (concat A)) by (intros x Hx; apply (slot_in _ _ _ _ Hp x); auto).
      cbn [pend]. split; [exact NM|]. split.
      * revert Cm. apply chain_frame. intros x Hx. rewrite F3 by (intros [_ C]; discriminate C). apply F2'.
      * exists q. split.
        -- rewrite F3 by (intros [C _]; apply (DAM n); auto). unfold m2. apply upd_same.
        -- revert PB. apply pend_frame. intros x f Hx. rewrite F3 by (intros [C _]; apply (DAB x); auto). apply F2. intros C. apply (DBM x Hx C).
  - intros x f Hx. assert (NS : ~ (Some x = slot A None /\ f = PREV)).
    { intros [C ->]. destruct Hx as [Hx|[Hx _]]; [|contradiction]. apply Hx, HinA, (slot_in _ _ _ _ Hp x). auto. }
    rewrite F3 by exact NS. destruct Hx as [Hx|[Hx1 Hx2]].
    + apply F2. intros C. apply Hx, HMw, C.
    + unfold m2. rewrite upd_other by auto. apply Fm. auto.
Qed.
End Calls.
