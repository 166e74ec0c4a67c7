(** * Bottom-up merge sort: the loops and the whole function *)
From Verif Require Import Lib Ptr ListModel ListSpec ListProofs ListProofs2 ListSortModel ListSortSpec ListSortProofs ListSortProofs2.

(** ** One round of the main loop *)
Definition whole (m : mem) (S : list Z) : Prop := forall x, In x S -> node m x.
Lemma whole_upd m p f v S : whole m S -> whole (upd m p f v) S.
Proof. intros H x Hx. destruct (H x Hx) as [H1 H2]. split; apply upd_ex; assumption. Qed.
Lemma whole_nframe m m' S T : nframe T m m' -> (forall x, In x T -> present m' x NEXT) -> whole m S -> whole m' S.
Proof.
  intros F P H x Hx. destruct (H x Hx) as [H1 H2]. split.
  - destruct (in_dec Z.eq_dec x T) as [Hi|Hi]; [apply P, Hi|]. rewrite F; auto.
  - rewrite F by (right; discriminate). exact H2.
Qed.
Lemma concat_mid {A} (X Y : list (list A)) : concat (X ++ Y) = concat X ++ concat Y.
Proof. apply concat_app. Qed.
(** Only the links of the nodes in [S] differ. *)
Lemma step_merge cmp fuel m A L2 L1 B'' p node2 : NoDup (concat (A ++ L2 :: L1 :: B'')) -> whole m (concat (A ++ L2 :: L1 :: B'')) ->
  (length (concat (A ++ L2 :: L1 :: B'')) <= fuel)%nat ->
  pend m p (A ++ L2 :: L1 :: B'') -> tail_load m p (slot A None) = Some node2 -> pend m node2 (L2 :: L1 :: B'') ->
  exists m' p', (let* node1 := ld m node2 PREV in
     let* (m, node2) := list_merge fuel cmp m node1 node2 in
     let* p' := ld m node1 PREV in
     let* m := st m node2 PREV p' in
     match slot A None with
     | None => Some (m, node2)
     | Some t => let* m := st m t PREV node2 in Some (m, p)
     end) = Some (m', p') /\ pend m' p' (A ++ merge cmp L1 L2 :: B'') /\ whole m' (concat (A ++ L2 :: L1 :: B'')) /\
   frame (concat (A ++ L2 :: L1 :: B'')) m m'.
Proof.
  intros Hd Hw Hf Hp Ht Hp2.
  assert (HinA : forall x, In x (concat A) -> In x (concat (A ++ L2 :: L1 :: B''))) by (intros x Hx; rewrite concat_app; apply in_or_app; auto).
  assert (Hin2 : forall x, In x L2 -> In x (concat (A ++ L2 :: L1 :: B''))) by (intros x Hx; rewrite concat_app; cbn [concat]; rewrite !in_app_iff; auto).
  assert (Hin1 : forall x, In x L1 -> In x (concat (A ++ L2 :: L1 :: B''))) by (intros x Hx; rewrite concat_app; cbn [concat]; rewrite !in_app_iff; auto).
  assert (HinB : forall x, In x (concat B'') -> In x (concat (A ++ L2 :: L1 :: B''))) by (intros x Hx; rewrite concat_app; cbn [concat]; rewrite !in_app_iff; auto).
  rewrite concat_app in Hd, Hf. cbn [concat] in Hd, Hf. pose proof (nodup_r _ _ Hd) as Hd2. pose proof (nodup_l _ _ Hd) as HdA. pose proof (nodup_disj _ _ Hd) as DA.
  pose proof (nodup_disj _ _ Hd2) as D2. pose proof (nodup_r _ _ Hd2) as Hd1. pose proof (nodup_disj _ _ Hd1) as D1.
  destruct Hp2 as (N2 & C2 & node1 & E1 & N1 & C1 & q & Eq & PB).
  pose proof (chain_hd_in _ _ _ N2 C2) as I2. pose proof (chain_hd_in _ _ _ N1 C1) as I1.
  destruct L2 as [|y2 l2]; [contradiction|]. destruct L1 as [|y1 l1]; [contradiction|].
  pose proof (chain_hd _ _ _ C2) as Q. cbn [hd] in Q. subst y2. pose proof (chain_hd _ _ _ C1) as Q. cbn [hd] in Q. subst y1.
  unfold ld. rewrite E1.
  assert (Hd12 : NoDup ((node1 :: l1) ++ node2 :: l2)).
  { rewrite app_assoc in Hd2. apply nodup_l in Hd2. revert Hd2. apply Permutation_NoDup, Permutation_app_comm. }
  destruct (merge_ok cmp fuel l1 l2 m node1 node2) as (m1 & n & Em & En & Cm & Fm); [|exact Hd12|exact C1|exact C2|].
  { rewrite !app_length in Hf. cbn [length] in Hf. lia. }
  rewrite Em. set (M := merge cmp (node1 :: l1) (node2 :: l2)) in *.
  assert (HM : forall x, In x M <-> In x (node1 :: l1) \/ In x (node2 :: l2)) by (intros x; apply merge_in).
  assert (NM : M <> []) by (intros C; assert (X : In node1 []) by (rewrite <- C; apply HM; cbn; auto); destruct X).
  assert (In_n : In n M) by (apply (chain_hd_in _ _ _ NM Cm)).
  rewrite (Fm node1 PREV) by (right; discriminate). rewrite Eq.
  assert (W1 : whole m1 (concat (A ++ (node2 :: l2) :: (node1 :: l1) :: B''))).
  { apply (whole_nframe m m1 _ _ Fm); [|exact Hw]. intros x Hx. apply (chain_present _ _ _ _ Cm). apply HM. apply in_app_or in Hx. tauto. }
  assert (HMw : forall x, In x M -> In x (concat (A ++ (node2 :: l2) :: (node1 :: l1) :: B''))) by (intros x Hx; apply HM in Hx; destruct Hx; auto).
  assert (Pn : exists v, m1 n PREV = Some v) by (apply (W1 n), HMw, In_n).
  rewrite (st_ex _ _ _ _ Pn). set (m2 := upd m1 n PREV q).
  assert (W2 : whole m2 (concat (A ++ (node2 :: l2) :: (node1 :: l1) :: B''))) by (apply whole_upd, W1).
  assert (DAM : forall x, In x (concat A) -> In x M -> False).
  { intros x H1 H2. apply (DA x H1). apply HM in H2. rewrite !in_app_iff. tauto. }
  assert (DBM : forall x, In x (concat B'') -> In x M -> False).
  { intros x H1 H2. apply HM in H2. destruct H2 as [H2|H2]; [apply (D1 x H2 H1)|apply (D2 x H2); apply in_or_app; auto]. }
  assert (DAB : forall x, In x (concat A) -> In x (concat B'') -> False).
  { intros x H1 H2. apply (DA x H1). rewrite !in_app_iff. tauto. }
  assert (F1 : forall x f, ~ In x M -> m1 x f = m x f).
  { intros x f Hx. apply Fm. left. intros C. apply Hx, HM. apply in_app_or in C. exact C. }
  assert (F2 : forall x f, ~ In x M -> m2 x f = m x f).
  { intros x f Hx. unfold m2. rewrite upd_other by (left; intros ->; contradiction). apply F1, Hx. }
  assert (F2' : forall x, m2 x NEXT = m1 x NEXT) by (intros x; unfold m2; apply upd_other; right; discriminate).
  (* the final memory *)
  assert (Fin : exists m3 p', match slot A None with None => Some (m2, n) | Some t => let* m := st m2 t PREV n in Some (m, p) end = Some (m3, p') /\
     p' = match A with [] => n | _ => p end /\ (forall x f, ~ (Some x = slot A None /\ f = PREV) -> m3 x f = m2 x f) /\ (forall t, slot A None = Some t -> m3 t PREV = Some n) /\ whole m3 (concat (A ++ (node2 :: l2) :: (node1 :: l1) :: B''))).
  { destruct (slot A None) as [t|] eqn:Es.
    - assert (It : In t (concat A)) by (apply (slot_in _ _ _ _ Hp t Es)).
      destruct (W2 t (HinA t It)) as [_ P]. rewrite (st_ex _ _ _ _ P). exists (upd m2 t PREV n), p. split; [reflexivity|]. split; [destruct A; [discriminate|reflexivity]|].
      split; [|split].
      + intros x f Hx. apply upd_other. destruct (Z.eq_dec x t) as [->|]; [right; intros ->; apply Hx; auto|auto].
      + intros t' Ht'. injection Ht' as <-. apply upd_same.
      + apply whole_upd, W2.
    - exists m2, n. split; [reflexivity|]. split; [destruct A; [reflexivity|discriminate]|]. split; [reflexivity|]. split; [discriminate|exact W2]. }
  destruct Fin as (m3 & p' & E3 & -> & F3 & V3 & W3). rewrite E3. exists m3, (match A with [] => n | _ => p end). split; [reflexivity|]. split; [|split; [exact W3|]].
  - apply (pend_replace m m3 ((node2 :: l2) :: (node1 :: l1) :: B'') (M :: B'') n A p HdA Hp).
    + intros x Hx. rewrite F3 by (intros [_ C]; discriminate C). apply F2. intros C. apply (DAM x Hx C).
    + intros x Hx Hs. rewrite F3 by (intros [C _]; contradiction). apply F2. intros C. apply (DAM x Hx C).
    + exact V3.
    + assert (Hslot : forall x, Some x = slot A None -> In x (concat A)) by (intros x Hx; apply (slot_in _ _ _ _ Hp x); auto).
      cbn [pend]. split; [exact NM|]. split.
      * revert Cm. apply chain_frame. intros x Hx. rewrite F3 by (intros [_ C]; discriminate C). apply F2'.
      * exists q. split.
        -- rewrite F3 by (intros [C _]; apply (DAM n); auto). unfold m2. apply upd_same.
        -- revert PB. apply pend_frame. intros x f Hx. rewrite F3 by (intros [C _]; apply (DAB x); auto). apply F2. intros C. apply (DBM x Hx C).
  - intros x f Hx. assert (NS : ~ (Some x = slot A None /\ f = PREV)).
    { intros [C ->]. destruct Hx as [Hx|[Hx _]]; [|contradiction]. apply Hx, HinA, (slot_in _ _ _ _ Hp x). auto. }
    rewrite F3 by exact NS. destruct Hx as [Hx|[Hx1 Hx2]].
    + apply F2. intros C. apply Hx, HMw, C.
    + unfold m2. rewrite upd_other by auto. apply Fm. auto.
Qed.
Lemma perm_concat_merge cmp A L2 L1 B : Permutation (concat (A ++ L2 :: L1 :: B)) (concat (A ++ merge cmp L1 L2 :: B)).
Proof.
  rewrite !concat_app. cbn [concat]. apply Permutation_app_head. rewrite app_assoc. apply Permutation_app_tail.
  apply Permutation_trans with (L1 ++ L2); [apply Permutation_app_comm|apply merge_perm].
Qed.
(** The chains [Ls] are the sorted images of consecutive segments of the processed nodes. *)
Definition sorted_segments (cmp : Z -> Z -> Z) (done : list Z) (Ls : list (list Z)) : Prop :=
  exists Ss, concat (rev Ss) = done /\ Forall2 (stable_sort cmp) Ss Ls.
Lemma segments_perm cmp done Ls : sorted_segments cmp done Ls -> Permutation done (concat Ls).
Proof.
  intros (Ss & <- & F). apply Permutation_trans with (concat Ss).
  - clear F. induction Ss as [|S Ss IH]; [apply Permutation_refl|]. cbn [rev]. rewrite concat_app. cbn [concat]. rewrite app_nil_r.
    apply Permutation_trans with (S ++ concat (rev Ss)); [apply Permutation_app_comm|apply Permutation_app_head, IH].
  - induction F as [|S L Ss Ls (_ & P & _) _ IH]; [apply Permutation_refl|]. cbn [concat]. apply Permutation_app; assumption.
Qed.
Lemma segments_merge cmp done A L2 L1 B : preorder cmp -> sorted_segments cmp done (A ++ L2 :: L1 :: B) -> sorted_segments cmp done (A ++ merge cmp L1 L2 :: B).
Proof.
  intros PO (Ss & E & F). apply Forall2_app_inv_r in F. destruct F as (Sa & Sb & FA & FB & ->). inversion FB as [|S2 ? Sb' ? H2 FB' EE1 EE2]. subst. inversion FB' as [|S1 ? Sb'' ? H1 FB'' EE1 EE2]. subst.
  exists (Sa ++ (S1 ++ S2) :: Sb''). split.
  - rewrite !rev_app_distr. cbn [rev]. rewrite <- !app_assoc. cbn [app]. rewrite !concat_app. cbn [concat]. rewrite <- ?app_assoc. reflexivity.
  - apply Forall2_app; [exact FA|]. constructor; [apply stable_merge; assumption|exact FB''].
Qed.
Lemma segments_push cmp done x Ls : sorted_segments cmp done Ls -> sorted_segments cmp (done ++ [x]) ([x] :: Ls).
Proof.
  intros (Ss & E & F). exists ([x] :: Ss). split; [cbn [rev]; rewrite concat_app, E; reflexivity|]. constructor; [apply stable_single|exact F].
Qed.
Lemma frame_in_incl S S' m m' : (forall x, In x S -> In x S') -> frame S m m' -> frame S' m m'.
Proof. apply frame_incl. Qed.
Lemma step_ok cmp fuel m p count x rest Ls done : preorder cmp -> sorted_segments cmp done Ls ->
  NoDup (concat Ls ++ x :: rest) -> whole m (concat Ls ++ x :: rest) -> (length (concat Ls) <= fuel)%nat ->
  pend m p Ls -> chain m x (x :: rest) -> 0 <= count < 2 ^ 32 -> count < 2 ^ zlen Ls ->
  exists m' Ls', sort_step fuel cmp m p count x = Some (m', x, hd NULL rest) /\ sorted_segments cmp (done ++ [x]) Ls' /\
  pend m' x Ls' /\ chain m' (hd NULL rest) rest /\ whole m' (concat Ls ++ x :: rest) /\ frame (concat Ls ++ [x]) m m' /\
  Permutation (concat Ls ++ [x]) (concat Ls') /\
  count + 1 < 2 ^ zlen Ls' /\ (length Ls <= length Ls')%nat /\ (count <= 1 -> length Ls' = S (length Ls)).
Proof.
  intros PO SS Hd Hw Hf Hp Hc Hcnt Hl. unfold sort_step.
  destruct (walk_tail_ok m p 64 count Ls None p) as (A & B & bits & p' & E1 & E2 & E3 & E4 & E5); [change (2 ^ Z.of_nat 64) with (2 ^ 64); lia|exact Hl|reflexivity|exact Hp|].
  assert (Hsmall : count <= 1 -> bits = 0).
  { intros Hs. assert (count = 0 \/ count = 1) as [->| ->] by lia.
    - change (tail_walk 64 m p None 0) with (Some (@None Z, 0)) in E1. injection E1 as _ <-. reflexivity.
    - change (tail_walk 64 m p None 1) with (Some (Some p, 0)) in E1. injection E1 as _ <-. reflexivity. }
  rewrite E1.
  assert (Hdx : NoDup (x :: rest)) by apply (nodup_r _ _ Hd).
  pose proof (nodup_disj _ _ Hd) as DX.
  assert (Mid : exists m1 p1 Ls1, (if bits =? 0 then Some (m, p) else
     let* node2 := tail_load m p (slot A None) in
     let* node1 := ld m node2 PREV in
     let* (m, node2) := list_merge fuel cmp m node1 node2 in
     let* p' := ld m node1 PREV in
     let* m := st m node2 PREV p' in
     match slot A None with
     | None => Some (m, node2)
     | Some t => let* m := st m t PREV node2 in Some (m, p)
     end) = Some (m1, p1) /\ sorted_segments cmp done Ls1 /\ pend m1 p1 Ls1 /\ whole m1 (concat Ls) /\ frame (concat Ls) m m1 /\ Permutation (concat Ls) (concat Ls1) /\
     count + 1 < 2 ^ (zlen Ls1 + 1) /\ (length Ls <= S (length Ls1))%nat /\ (count <= 1 -> length Ls1 = length Ls)).
  { destruct (Z.eqb_spec bits 0) as [Eb|Eb].
    - exists m, p, Ls. split; [reflexivity|]. split; [exact SS|]. split; [exact Hp|]. split; [intros y Hy; apply Hw; apply in_or_app; auto|]. split; [intros q g _; reflexivity|].
      split; [apply Permutation_refl|]. split; [rewrite Z.pow_add_r; [lia|apply zlen_nonneg|lia]|]. split; [lia|auto].
    - destruct (E5 Eb) as [Hb2 Hb3]. destruct B as [|L2 [|L1 B]]; [cbn in Hb2; lia|cbn in Hb2; lia|]. subst Ls. rewrite E3.
      destruct (step_merge cmp fuel m A L2 L1 B p p') as (m1 & p1 & X1 & X2 & X3 & X4); try assumption; [apply (nodup_l _ _ Hd)|intros y Hy; apply Hw; apply in_or_app; auto|].
      exists m1, p1, (A ++ merge cmp L1 L2 :: B). split; [exact X1|]. split; [apply segments_merge; assumption|]. split; [exact X2|]. split; [exact X3|]. split; [exact X4|].
      split; [apply perm_concat_merge|]. split; [|split].
      + replace (zlen (A ++ merge cmp L1 L2 :: B) + 1) with (zlen (A ++ L2 :: L1 :: B)); [exact Hb3|]. rewrite !zlen_app, !zlen_cons. lia.
      + rewrite !app_length. cbn [length]. lia.
      + intros Hs. specialize (Hsmall Hs). contradiction. }
  destruct Mid as (m1 & p1 & Ls1 & Em & S1 & P1 & W1 & F1 & Pm & N1 & N2 & N3). rewrite Em.
  assert (Dx : ~ In x (concat Ls)) by (intros C; apply (DX x C); cbn; auto).
  assert (Dx1 : ~ In x (concat Ls1)) by (intros C; apply Dx; apply (Permutation_in _ (Permutation_sym Pm)), C).
  assert (Hnx : node m1 x).
  { destruct (Hw x) as [H1 H2]; [apply in_or_app; cbn; auto|]. split; rewrite F1; auto. }
  destruct Hnx as [Hx1 Hx2]. rewrite (st_ex _ _ _ _ Hx2). unfold ld.
  destruct Hc as (_ & Nx & q & Eq & Cq). pose proof (chain_hd _ _ _ Cq) as ->.
  rewrite (upd_other m1 x PREV p1 x NEXT) by (right; discriminate). rewrite F1 by auto. rewrite Eq.
  rewrite st_ex by (apply upd_ex, Hx1). set (m2 := upd (upd m1 x PREV p1) x NEXT NULL).
  assert (F2 : forall y f, y <> x -> m2 y f = m1 y f) by (intros y f Hy; unfold m2; rewrite !upd_other by auto; reflexivity).
  exists m2, ([x] :: Ls1). split; [reflexivity|]. split; [apply segments_push, S1|]. split; [|split; [|split; [|split; [|split; [|split; [|split]]]]]].
  - cbn [pend]. split; [discriminate|]. split; [apply (chain_cons m2 x NULL []); [exact Nx|unfold m2; apply upd_same|reflexivity]|].
    exists p1. split; [unfold m2; rewrite upd_other by (right; discriminate); apply upd_same|]. revert P1. apply pend_frame. intros y f Hy. apply F2. intros ->. contradiction.
  - revert Cq. apply chain_frame. intros y Hy. inversion_clear Hdx. rewrite F2 by (intros ->; contradiction). apply F1. left. intros C. apply (DX y C). cbn; auto.
  - intros y Hy. unfold m2. destruct (in_dec Z.eq_dec y (concat Ls)) as [Hi|Hi].
    + destruct (W1 y Hi). split; repeat apply upd_ex; assumption.
    + destruct (Hw y Hy). split; repeat apply upd_ex; rewrite F1; auto.
  - intros y f Hy. assert (Hyx : y <> x \/ (f <> PREV /\ f <> NEXT)) by (destruct Hy as [Hy|Hy]; [left; intros ->; apply Hy; apply in_or_app; cbn; auto|auto]).
    unfold m2. rewrite !upd_other by tauto. apply F1. destruct Hy as [Hy|Hy]; [left; intros C; apply Hy; apply in_or_app; auto|auto].
  - cbn [concat]. apply Permutation_trans with ([x] ++ concat Ls); [apply Permutation_app_comm|]. apply Permutation_app_head, Pm.
  - rewrite zlen_cons. exact N1.
  - cbn [length]. lia.
  - intros Hs. cbn [length]. rewrite (N3 Hs). reflexivity.
Qed.
Lemma sort_nodes_ok cmp : preorder cmp -> forall rest fuel m p count Ls done, sorted_segments cmp done Ls ->
  NoDup (concat Ls ++ rest) -> whole m (concat Ls ++ rest) -> (length (concat Ls) + 2 * length rest <= fuel)%nat ->
  pend m p Ls -> chain m (hd NULL rest) rest -> 0 <= count < 2 ^ 32 -> count < 2 ^ zlen Ls -> ((2 <= length Ls)%nat \/ count = zlen Ls) ->
  exists m' p' Ls', sort_nodes fuel cmp m p count (hd NULL rest) = Some (m', p') /\ sorted_segments cmp (done ++ rest) Ls' /\
  pend m' p' Ls' /\ whole m' (concat Ls ++ rest) /\ frame (concat Ls ++ rest) m m' /\ ((2 <= length Ls')%nat \/ zlen Ls' = zlen Ls + zlen rest).
Proof.
  intros PO. induction rest as [|x rest IH]; intros fuel m p count Ls done SS Hd Hw Hf Hp Hc Hcnt Hl H2.
  - exists m, p, Ls. rewrite !app_nil_r in *. split; [destruct fuel; reflexivity|]. split; [exact SS|]. split; [exact Hp|]. split; [exact Hw|]. split; [intros q g _; reflexivity|]. right. rewrite zlen_nil. lia.
  - cbn [hd] in *. cbn [length] in Hf. destruct fuel as [|fuel]; [lia|]. cbn [sort_nodes]. rewrite (proj2 (Z.eqb_neq _ _) (chain_nz _ _ _ _ Hc)).
    destruct (step_ok cmp (S fuel) m p count x rest Ls done) as (m1 & Ls1 & E & S1 & P1 & C1 & W1 & F1 & Pm & N1 & N2 & N3); try assumption; [lia|].
    cbv beta iota in E. rewrite E.
    assert (Pm' : Permutation (concat Ls ++ x :: rest) (concat Ls1 ++ rest)).
    { change (x :: rest) with ([x] ++ rest). rewrite app_assoc. apply Permutation_app_tail, Pm. }
    destruct (IH fuel m1 x (w32 (count + 1)) Ls1 (done ++ [x])) as (m2 & p2 & Ls2 & E2 & S2 & P2 & W2 & F2 & N4); try assumption.
    + apply (Permutation_NoDup Pm' Hd).
    + intros y Hy. apply W1. apply (Permutation_in _ (Permutation_sym Pm') Hy).
    + apply Permutation_length in Pm. rewrite app_length in Pm. cbn [length] in Pm. lia.
    + apply w32_range.
    + assert (w32 (count + 1) <= count + 1) by (unfold w32, wrap; apply Z.mod_le; lia). lia.
    + destruct H2 as [H2|H2]; [left; lia|]. destruct (Z_le_gt_dec count 1) as [Hs|Hs].
      * specialize (N3 Hs). right. rewrite w32_small by lia. unfold zlen in *. lia.
      * left. unfold zlen in H2. lia.
    + rewrite E2. exists m2, p2, Ls2. split; [reflexivity|]. rewrite <- app_assoc in S2. split; [exact S2|]. split; [exact P2|].
      split; [intros y Hy; apply W2, (Permutation_in _ Pm' Hy)|]. split.
      * apply (frame_trans _ m m1 m2).
        -- revert F1. apply frame_incl. intros y Hy. apply in_app_or in Hy. apply in_or_app. cbn in *. tauto.
        -- revert F2. apply frame_incl. intros y Hy. apply (Permutation_in _ (Permutation_sym Pm') Hy).
      * destruct N4 as [N4|N4]; [auto|]. destruct (le_lt_dec 2 (length Ls2)) as [|Hlt]; [auto|]. right. rewrite zlen_cons.
        assert (length Ls1 <= 1)%nat by (unfold zlen in *; lia). destruct (Z_le_gt_dec count 1) as [Hs|Hs]; [specialize (N3 Hs); unfold zlen in *; lia|].
        destruct H2 as [H2|H2]; [lia|]. unfold zlen in H2. lia.
Qed.
