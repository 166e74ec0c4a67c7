(** * C56: red-black trees are balanced, sorted, and consistent after any history *)
From Coq Require Import Sorting.Sorted.
From Verif Require Import Lib Ptr Tree TiterModel TiterProofs RbModel RbProofs RbRotate RbSpec RbInsert RbErase RbRemove RbRemove2 RbDelete RbFrame RbOps RbOps2 RbHistSpec.

(** Running a client. *)
Definition exec (cached : bool) (fuel : nat) (cmp : Z -> Z -> Z) (rt : Z) (m : mem) (o : op) : option (mem * Z) :=
  match o with
  | Ins n => let* r := (if cached then cached_insert dummy_callbacks fuel m cmp rt n else insert dummy_callbacks fuel m cmp rt n) in Some (fst r, if snd r then 1 else 0)
  | Del n => if cached then cached_delete dummy_callbacks fuel m rt n else let* m := delete dummy_callbacks fuel m rt n in Some (m, 0)
  | Rep o n => let* m := (if cached then cached_replace m rt o n else replace m rt o n) in Some (m, 0)
  end.
Fixpoint run (cached : bool) (fuel : nat) (cmp : Z -> Z -> Z) (rt : Z) (m : mem) (ops : list op) : option (mem * list Z) :=
  match ops with
  | [] => Some (m, [])
  | o :: ops => let* r := exec cached fuel cmp rt m o in let* r' := run cached fuel cmp rt (fst r) ops in Some (fst r', snd r :: snd r')
  end.

Section Hist.
Variable cmp : Z -> Z -> Z.
Hypothesis Hcmp : comparison cmp.
Variable rt : Z.
Variable cached : bool.
(** Memory [m] holds the tree with the nodes [l], in order. *)
Definition holds (m : mem) (l : list Z) : Prop :=
  (exists t, tree_at V rt m t /\ redblack t /\ inorder t = l) /\ (cached = true -> m rt LEFTMOST = Some (hd 0 l)).
Notation St := (St rt (fun _ _ => True)).

Lemma sorted_mono n l : sorted cmp l -> mono cmp n l.
Proof.
  destruct Hcmp as [HA HT]. unfold sorted, mono. induction 1 as [|x l H1 IH H2]; constructor; [exact IH|]. revert H2. apply Forall_impl. intros y Hxy.
  destruct (Z.sgn_spec (cmp n y)) as [[A B]|[[A B]|[A B]]]; rewrite B.
  - assert (cmp y n < 0) by (apply HA; lia). assert (cmp x n < 0) by (apply (HT x y n); assumption). apply HA in H0. rewrite Z.sgn_pos by lia. lia.
  - destruct (Z.sgn_spec (cmp n x)) as [[C D]|[[C D]|[C D]]]; rewrite D; try lia. exfalso. assert (cmp n y < 0) by (apply (HT n x y); [lia|exact Hxy]). lia.
  - destruct (Z.sgn_spec (cmp n x)) as [[C D]|[[C D]|[C D]]]; rewrite D; lia.
Qed.
Lemma ins_split n l1 l2 : Forall (fun x => cmp n x > 0) l1 -> Forall (fun x => cmp n x < 0) l2 -> ins cmp n (l1 ++ l2) = l1 ++ n :: l2.
Proof.
  intros H1 H2. induction H1 as [|x l1 Hx _ IH]; cbn [app ins].
  - destruct l2 as [|y l2]; [reflexivity|]. cbn [ins]. apply Forall_inv in H2. rewrite (proj2 (Z.ltb_lt _ _) H2). reflexivity.
  - rewrite (proj2 (Z.ltb_ge (cmp n x) 0)) by lia. rewrite IH. reflexivity.
Qed.
Lemma ins_sorted n l1 l2 : Forall (fun x => cmp n x > 0) l1 -> Forall (fun x => cmp n x < 0) l2 -> sorted cmp (l1 ++ l2) -> sorted cmp (l1 ++ n :: l2).
Proof.
  destruct Hcmp as [HA HT]. intros H1 H2 HS. induction H1 as [|x l1 Hx H1 IH]; cbn [app] in *.
  - constructor; assumption.
  - apply StronglySorted_inv in HS. destruct HS as [S1 S2]. constructor; [apply IH, S1|]. apply Forall_app in S2. apply Forall_app. split; [apply S2|]. constructor; [apply HA; exact Hx|apply S2].
Qed.
Lemma del_split n l1 l2 : NoDup (l1 ++ n :: l2) -> del n (l1 ++ n :: l2) = l1 ++ l2.
Proof.
  intros N. unfold del. rewrite filter_app. cbn [filter]. rewrite Z.eqb_refl. cbn [negb]. apply NoDup_remove_2 in N.
  assert (H : forall l, ~ In n l -> filter (fun x => negb (x =? n)) l = l).
  { induction l as [|a l IH]; intros Hn; cbn [filter]; [reflexivity|]. destruct (Z.eqb_spec a n) as [->|Na]; [exfalso; apply Hn; left; reflexivity|]. cbn [negb]. rewrite IH by (intros Hi; apply Hn; right; exact Hi). reflexivity. }
  rewrite !H; [reflexivity| |]; intros Hi; apply N, in_or_app; tauto.
Qed.
Lemma del_sorted n l1 l2 : sorted cmp (l1 ++ n :: l2) -> sorted cmp (l1 ++ l2).
Proof.
  induction l1 as [|x l1 IH]; cbn [app]; intros HS; apply StronglySorted_inv in HS; destruct HS as [S1 S2]; [exact S1|]. constructor; [apply IH, S1|].
  apply Forall_app in S2. destruct S2 as [S2 S3]. apply Forall_app. split; [exact S2|]. apply Forall_inv_tail in S3. exact S3.
Qed.
Lemma sub_split o n l1 l2 : NoDup (l1 ++ o :: l2) -> sub o n (l1 ++ o :: l2) = l1 ++ n :: l2.
Proof.
  intros N. unfold sub. rewrite map_app. cbn [map]. rewrite Z.eqb_refl. apply NoDup_remove_2 in N.
  assert (H : forall l, ~ In o l -> map (fun x => if x =? o then n else x) l = l).
  { induction l as [|a l IH]; intros Hn; cbn [map]; [reflexivity|]. destruct (Z.eqb_spec a o) as [->|Na]; [exfalso; apply Hn; left; reflexivity|]. rewrite IH by (intros Hi; apply Hn; right; exact Hi). reflexivity. }
  rewrite !H; [reflexivity| |]; intros Hi; apply N, in_or_app; tauto.
Qed.
Lemma taken_true n l : taken cmp n l = true <-> exists x, In x l /\ cmp n x = 0.
Proof. unfold taken. rewrite existsb_exists. split; intros (x & H1 & H2); exists x; (split; [exact H1|]); apply Z.eqb_eq, H2. Qed.

Definition good_node (m : mem) (n : Z) : Prop := node_at m n /\ n <> 0 /\ n <> rt.
Lemma good_dom m m' n : dom m m' -> good_node m n -> good_node m' n.
Proof. intros D (H1 & H2). split; [|exact H2]. intros f Hf E0. apply D in E0. apply (H1 f Hf E0). Qed.
Lemma keeps_left t m m' : tree_at V rt m t -> keeps rt t m m' -> m' rt LEFTMOST = m rt LEFTMOST.
Proof.
  intros (_ & _ & D) [_ K]. apply K; [reflexivity| |intros [_ E0]; discriminate E0]. specialize (D rt). rewrite ind_refl in D. lia.
Qed.
Lemma hd_cons_app n l1 l2 : hd 0 (l1 ++ n :: l2) = match l1 with [] => n | x :: _ => x end.
Proof. destruct l1; reflexivity. Qed.

Theorem step_ok fuel m l o : (length l < fuel)%nat -> holds m l -> sorted cmp l -> legal cmp (good_node m) o l ->
  exists m', exec cached fuel cmp rt m o = Some (m', snd (spec cmp cached o l)) /\ holds m' (fst (spec cmp cached o l)) /\ sorted cmp (fst (spec cmp cached o l)) /\ dom m m'.
Proof.
  intros Hf [(t & HT & Hrb & Hi) HLm] Hs Hleg. assert (Hsz : size t = length l) by (rewrite size_inorder, Hi; reflexivity).
  assert (ND : NoDup l) by (rewrite <- Hi; apply (at_nodup V rt m t HT)).
  assert (HSt : St m t) by (split; [exact HT|exact I]).
  destruct o as [n|n|o n]; cbn [exec spec legal] in *.
  - destruct Hleg as ((Hn & N0 & N1) & Hni).
    assert (Hc : cnt n t = 0%nat) by (apply cnt_zero_in; rewrite Hi; exact Hni).
    assert (Hm : mono cmp n (inorder t)) by (rewrite Hi; apply sorted_mono, Hs).
    destruct (rb_parent_ok rt m cmp n fuel t ltac:(lia) HT Hm) as [[E1 (x & Hx & Ex)]|(k & lm & E1 & E2 & [G1 G2] & Hlm)].
    + rewrite Hi in Hx. rewrite (proj2 (taken_true n l)) by (exists x; tauto). exists m. cbn [fst snd].
      assert (Ee : (if cached then cached_insert dummy_callbacks fuel m cmp rt n else insert dummy_callbacks fuel m cmp rt n) = Some (m, false)) by (unfold cached_insert, insert; rewrite E1; destruct cached; reflexivity).
      rewrite Ee. cbn [fst snd]. conj; [reflexivity| |exact Hs|apply dom_refl]. split; [|exact HLm]. exists t. tauto.
    + assert (Hl : l = before k ++ after k) by (rewrite <- Hi, E2, inorder_plug; reflexivity).
      assert (Ht : taken cmp n l = false).
      { destruct (taken cmp n l) eqn:Et; [|reflexivity]. apply taken_true in Et. destruct Et as (x & Hx & Ex). rewrite Forall_forall in G1, G2. rewrite Hl in Hx. apply in_app_or in Hx. destruct Hx as [Hx|Hx]; [specialize (G1 x Hx)|specialize (G2 x Hx)]; lia. }
      rewrite Ht. cbn [fst snd]. rewrite Hl. rewrite (ins_split n (before k) (after k) G1 G2). rewrite E2 in *.
      destruct (link_fixup rt dummy_callbacks (fun _ _ => True) (fun _ _ _ _ H => H) dummy_local fuel m k n ltac:(lia) HT Hrb Hn N0 N1 Hc (cb_rot _ _ _ _ (dummy_ok rt)) I) as (m1 & L1 & K1 & _ & Hfx).
      assert (ND' : cnt rt (plug k (T false E n E)) = 0%nat).
      { destruct HT as (_ & _ & D). specialize (D rt). rewrite ind_refl in D. rewrite cnt_plug in *. cbn [cnt cntk] in *. rewrite (ind_ne rt n) by congruence. lia. }
      destruct cached eqn:Ec.
      * specialize (HLm eq_refl).
        assert (L1m : m1 rt LEFTMOST = Some (hd 0 l)) by (destruct K1 as [_ K1]; rewrite K1; [exact HLm|reflexivity|exact ND'|intros [_ E0]; discriminate E0]).
        pose (m2 := if lm then upd m1 rt LEFTMOST n else m1).
        assert (E2m : (if lm then st m1 rt LEFTMOST n else Some m1) = Some m2) by (unfold m2; destruct lm; [apply (st_some _ _ _ _ _ L1m)|reflexivity]).
        destruct (Hfx m2) as (m' & t' & F1 & F2 & F3 & F4 & F5).
        { intros a f Hn2. unfold m2. destruct lm; [|reflexivity]. apply upd_other. destruct (Z.eq_dec a rt); [right; tauto|left; assumption]. }
        unfold cached_insert. rewrite E1. unfold cached_insert_node. rewrite L1, E2m, F1. exists m'. cbn [fst snd]. conj.
        -- reflexivity.
        -- split; [exists t'; split; [apply F2|tauto]|]. intros _. destruct F5 as [_ F5]. rewrite F5; [|reflexivity|exact ND'|intros [_ E0]; discriminate E0]. rewrite hd_cons_app. unfold m2.
           destruct (before k) as [|b bs] eqn:Eb; [rewrite (proj2 Hlm eq_refl); apply upd_same|]. destruct lm; [discriminate (proj1 Hlm eq_refl)|]. rewrite L1m, Hl. reflexivity.
        -- apply ins_sorted; try assumption. rewrite <- Hl. exact Hs.
        -- apply (dom_trans _ m1); [apply K1|]. apply (dom_trans _ m2); [|apply F5]. unfold m2. destruct lm; [|apply dom_refl].
           intros a f. unfold upd. destruct ((a =? rt) && (f =? LEFTMOST)) eqn:B; [|tauto]. apply andb_true_iff in B. destruct B as [B1 B2]. apply Z.eqb_eq in B1, B2. subst. rewrite L1m. split; discriminate.
      * destruct (Hfx m1) as (m' & t' & F1 & F2 & F3 & F4 & F5); [reflexivity|]. unfold insert. rewrite E1. unfold insert_node. rewrite L1, F1. exists m'. cbn [fst snd]. conj.
        -- reflexivity.
        -- split; [exists t'; split; [apply F2|tauto]|rewrite Ec; discriminate].
        -- apply ins_sorted; try assumption. rewrite <- Hl. exact Hs.
        -- apply (dom_trans _ m1); [apply K1|apply F5].
  - rewrite <- Hi in Hleg. cbn [fst snd]. destruct cached eqn:Ec; cbn [andb].
    + specialize (HLm eq_refl). unfold cached_delete, ld. rewrite HLm.
      pose (nx := if hd 0 l =? n then hd 0 (tl l) else 0). fold nx. pose (m2 := if hd 0 l =? n then upd m rt LEFTMOST nx else m).
      assert (E2 : (if negb (hd 0 l =? n) then Some (m, NULL) else let* leftmost := in_next m fuel n in let* m := st m rt LEFTMOST leftmost in Some (m, leftmost)) = Some (m2, nx)).
      { unfold m2, nx. destruct (Z.eqb_spec (hd 0 l) n) as [Eh|Nh]; cbn [negb]; [|reflexivity]. destruct l as [|a l']; [rewrite Hi in Hleg; destruct Hleg|]. cbn [hd tl] in *. subst a.
        rewrite (in_next_ok V rt m t HT fuel [] n l' Hi ltac:(cbn [length] in *; lia)). rewrite (st_some _ _ _ _ _ HLm). reflexivity. }
      rewrite E2. assert (HS2 : St m2 t).
      { split; [|exact I]. unfold m2. destruct (hd 0 l =? n); [|exact HT]. destruct HT as (A1 & A2 & A3). split; [rewrite upd_other by (right; discriminate); exact A1|]. split; [|exact A3].
        apply rep_upd; [exact V_frame| |exact A2]. specialize (A3 rt). rewrite ind_refl in A3. lia. }
      destruct (delete_ok rt dummy_callbacks (fun _ _ => True) (fun _ _ _ _ H => H) dummy_local (dummy_ok rt) fuel m2 t n ltac:(lia) HS2 Hrb Hleg) as (m' & t' & l1 & l2 & D1 & D2 & D3 & D4 & D5 & D6).
      rewrite D1. exists m'. rewrite <- Hi, D4. rewrite del_split by (rewrite <- D4, Hi; exact ND). conj; [reflexivity| | |].
      * split; [exists t'; split; [apply D2|tauto]|]. intros _. rewrite (keeps_left t m2 m' (proj1 HS2) D6). unfold m2, nx. rewrite <- Hi, D4. destruct l1 as [|a l1]; cbn [app hd tl].
        -- rewrite Z.eqb_refl. apply upd_same.
        -- destruct (Z.eqb_spec a n) as [->|Na].
           ++ exfalso. rewrite <- Hi, D4 in ND. cbn [app] in ND. inversion ND as [|? ? ND1 _]. apply ND1, in_or_app. right. left. reflexivity.
           ++ rewrite HLm, <- Hi, D4. reflexivity.
      * rewrite <- Hi, D4 in Hs. apply (del_sorted n). exact Hs.
      * apply (dom_trans _ m2); [|apply D6]. unfold m2. destruct (hd 0 l =? n); [|apply dom_refl].
        intros a f. unfold upd. destruct ((a =? rt) && (f =? LEFTMOST)) eqn:B; [|tauto]. apply andb_true_iff in B. destruct B as [B1 B2]. apply Z.eqb_eq in B1, B2. subst. rewrite HLm. split; discriminate.
    + destruct (delete_ok rt dummy_callbacks (fun _ _ => True) (fun _ _ _ _ H => H) dummy_local (dummy_ok rt) fuel m t n ltac:(lia) HSt Hrb Hleg) as (m' & t' & l1 & l2 & D1 & D2 & D3 & D4 & D5 & D6).
      rewrite D1. exists m'. rewrite <- Hi, D4. rewrite del_split by (rewrite <- D4, Hi; exact ND). conj; [reflexivity| | |apply D6].
      * split; [exists t'; split; [apply D2|tauto]|rewrite Ec; discriminate].
      * rewrite <- Hi, D4 in Hs. apply (del_sorted n). exact Hs.
  - destruct Hleg as (Ho & (Hn & N0 & N1) & Hni & Hs'). cbn [fst snd]. rewrite <- Hi in Ho. apply cnt_pos_in in Ho. destruct (find_ctx o t Ho) as (k & c & tl' & tr & E0). rewrite E0 in *.
    assert (Hc : cnt n (plug k (T c tl' o tr)) = 0%nat) by (apply cnt_zero_in; rewrite Hi; exact Hni).
    assert (Hl : l = (before k ++ inorder tl') ++ o :: (inorder tr ++ after k)) by (rewrite <- Hi, inorder_plug; cbn [inorder]; rewrite <- !app_assoc; reflexivity).
    assert (Hl' : sub o n l = inorder (plug k (T c tl' n tr))).
    { rewrite Hl, sub_split by (rewrite <- Hl; exact ND). rewrite inorder_plug. cbn [inorder]. rewrite <- !app_assoc. reflexivity. }
    pose (m2 := if cached && (hd 0 l =? o) then upd m rt LEFTMOST n else m).
    assert (HT2 : tree_at V rt m2 (plug k (T c tl' o tr))).
    { unfold m2. destruct (cached && (hd 0 l =? o)); [|exact HT]. destruct HT as (A1 & A2 & A3). split; [rewrite upd_other by (right; discriminate); exact A1|]. split; [|exact A3].
      apply rep_upd; [exact V_frame| |exact A2]. specialize (A3 rt). rewrite ind_refl in A3. lia. }
    assert (Hn2 : node_at m2 n).
    { intros f Hf4. unfold m2. destruct (cached && (hd 0 l =? o)); [|apply Hn, Hf4]. rewrite upd_other by (left; exact N1). apply Hn, Hf4. }
    destruct (replace_ok rt m2 k c tl' o tr n HT2 Hn2 N0 N1 Hc) as (m' & R1 & R2 & R3 & R4 & R5).
    assert (Hex : (if cached then cached_replace m rt o n else replace m rt o n) = Some m').
    { rewrite <- R1. unfold m2. destruct cached; cbn [andb]; [|reflexivity]. unfold cached_replace, ld. rewrite (HLm eq_refl). destruct (hd 0 l =? o); [|reflexivity]. rewrite (st_some _ _ _ _ _ (HLm eq_refl)). reflexivity. }
    rewrite Hex. exists m'. conj; [reflexivity| |exact Hs'|].
    + split.
      * exists (plug k (T c tl' n tr)). split; [exact R2|]. split; [apply (redblack_rename k c tl' o tr n Hrb)|symmetry; exact Hl'].
      * intros Ec. rewrite R5; [| |intros [_ X]; discriminate X].
        -- unfold m2. rewrite Ec. cbn [andb]. rewrite Hl, sub_split by (rewrite <- Hl; exact ND). destruct (before k ++ inorder tl') as [|a l1] eqn:Eb; cbn [app hd].
           ++ rewrite Z.eqb_refl. apply upd_same.
           ++ destruct (Z.eqb_spec a o) as [->|Na]; [|rewrite (HLm Ec), Hl; reflexivity].
              exfalso. rewrite Hl in ND. cbn [app] in ND. inversion ND as [|? ? ND1 _]. apply ND1, in_or_app. right. left. reflexivity.
        -- destruct R2 as (_ & _ & D). specialize (D rt). rewrite ind_refl in D. lia.
    + apply (dom_trans _ m2); [|exact R4]. unfold m2. destruct cached eqn:Ec; cbn [andb]; [|apply dom_refl]. destruct (hd 0 l =? o); [|apply dom_refl].
      intros a f. unfold upd. destruct ((a =? rt) && (f =? LEFTMOST)) eqn:B; [|tauto]. apply andb_true_iff in B. destruct B as [B1 B2]. apply Z.eqb_eq in B1, B2. subst. rewrite (HLm eq_refl). split; discriminate.
Qed.
Lemma spec_length o l : (length (fst (spec cmp cached o l)) <= S (length l))%nat.
Proof.
  destruct o as [n|n|o n]; cbn [spec].
  - destruct (taken cmp n l); cbn [fst]; [lia|]. induction l as [|x l IH]; cbn [ins length]; [lia|]. destruct (cmp n x <? 0); cbn [length]; lia.
  - cbn [fst]. unfold del. induction l as [|x l IH]; cbn [filter length]; [lia|]. destruct (negb (x =? n)); cbn [length]; lia.
  - cbn [fst]. unfold sub. rewrite map_length. lia.
Qed.
Theorem run_ok ops : forall fuel m l, (length l + length ops < fuel)%nat -> holds m l -> sorted cmp l -> legals cmp (good_node m) cached ops l ->
  exists m', run cached fuel cmp rt m ops = Some (m', snd (specs cmp cached ops l)) /\ holds m' (fst (specs cmp cached ops l)) /\ sorted cmp (fst (specs cmp cached ops l)) /\
    (length (fst (specs cmp cached ops l)) <= length l + length ops)%nat.
Proof.
  induction ops as [|o ops IH]; intros fuel m l Hf H1 H2 H3; cbn [run specs legals length] in *.
  - exists m. cbn [fst snd]. conj; try reflexivity; try assumption. lia.
  - destruct H3 as [H3 H4]. destruct (step_ok fuel m l o ltac:(lia) H1 H2 H3) as (m1 & E1 & A1 & A2 & A3). rewrite E1. pose proof (spec_length o l) as Hsl.
    destruct (spec cmp cached o l) as [l1 x] eqn:Es. cbn [fst snd] in *.
    destruct (IH fuel m1 l1) as (m' & E2 & B1 & B2 & B3); [lia|exact A1|exact A2| |].
    { clear - H4 A3. revert l1 H4. induction ops as [|o' ops IH]; intros l1 H4; cbn [legals] in *; [exact I|]. destruct H4 as [H4 H5]. split; [|apply IH, H5].
      destruct o' as [n|n|o'' n]; cbn [legal] in *; [split; [apply (good_dom _ _ _ A3), H4|apply H4]|exact H4|]. destruct H4 as (C1 & C2 & C3). split; [exact C1|]. split; [apply (good_dom _ _ _ A3), C2|exact C3]. }
    rewrite E2. destruct (specs cmp cached ops l1) as [l2 xs]. cbn [fst snd] in *. exists m'. conj; try reflexivity; try assumption. lia.
Qed.
End Hist.

(** The whole: a client starts with an initialised root ([node] null, and [leftmost] null for a cached tree)
    and does any insertions, deletions and replacements. The code does not go wrong, replies as specified,
    and at the end the memory holds a red-black tree (every path has as many black nodes, no red node has a
    red child, parent pointers agree with child pointers) whose nodes are exactly the sorted list; the loops
    over the tree visit that list, forwards and backwards, and the cached first node is its head. *)
Theorem C56_history cmp rt cached fuel m ops :
  comparison cmp -> rt <> 0 -> m rt NODE = Some NULL -> (cached = true -> m rt LEFTMOST = Some NULL) -> (length ops < fuel)%nat ->
  legals cmp (good_node rt m) cached ops [] ->
  exists m' t l, run cached fuel cmp rt m ops = Some (m', snd (specs cmp cached ops [])) /\ l = fst (specs cmp cached ops []) /\
    tree_at V rt m' t /\ redblack t /\ inorder t = l /\ sorted cmp l /\
    (exists p, in_first m' fuel rt = Some p /\ visit (in_next m' fuel) fuel p = Some l) /\
    (exists p, in_last m' fuel rt = Some p /\ visit (in_prev m' fuel) fuel p = Some (rev l)) /\
    (cached = true -> m' rt LEFTMOST = Some (hd 0 l)).
Proof.
  intros Hc Hr H1 H2 Hf H3.
  destruct (run_ok cmp Hc rt cached ops fuel m [] Hf) as (m' & E1 & [(t & A1 & A2 & A3) A4] & A5 & A6); [|constructor|exact H3|].
  - split; [|exact H2]. exists E. split; [|split; [|reflexivity]].
    + split; [exact H1|]. split; [exact I|]. intros z. cbn [cntk cnt]. destruct (Z.eq_dec z 0) as [->|N]; [rewrite ind_refl, ind_ne by congruence; lia|]. rewrite (ind_ne z 0 N). unfold ind. destruct (z =? rt); lia.
    + unfold redblack. cbn [black nored2 bal]. conj; try exact I. exists 0%nat. reflexivity.
  - exists m', t, (fst (specs cmp cached ops [])). cbn [length] in A6.
    assert (Hs : (size t < fuel)%nat) by (rewrite size_inorder, A3; lia).
    conj; try assumption; try reflexivity; rewrite <- A3; [apply (inorder_visit V rt m' t A1 fuel Hs)|apply (reverse_visit V rt m' t A1 fuel Hs)].
Qed.
(** From any tree that was built, the other searches and loops agree with the list as well. *)
Theorem C56_find rt m t fuel f :
  tree_at V rt m t -> (size t < fuel)%nat -> StronglySorted (fun x y => Z.sgn (f x) <= Z.sgn (f y)) (inorder t) ->
  exists x, find fuel m rt f = Some x /\ (x = NULL /\ (forall y, In y (inorder t) -> f y <> 0) \/ In x (inorder t) /\ f x = 0).
Proof. intros H1 H2 H3. apply (find_ok rt m f fuel t H2 H1 H3). Qed.
(** [bfdev_rb_find_last]: a match with its position, or no match with the free link where a match would go. *)
Theorem C56_find_last rt m t fuel f :
  tree_at V rt m t -> (size t < fuel)%nat -> StronglySorted (fun x y => Z.sgn (f x) <= Z.sgn (f y)) (inorder t) ->
  (exists a lk, find_last fuel m rt f = Some (a, a, lk, None) /\ In a (inorder t) /\ f a = 0 /\ ld m (fst lk) (snd lk) = Some a) \/
  (exists (k : bctx) lm, find_last fuel m rt f = Some (NULL, cpar k, (loc rt k, lfield k), Some lm) /\ t = plug k E /\ Forall (fun x => f x < 0) (before k) /\ Forall (fun x => f x > 0) (after k) /\ (lm = true <-> before k = [])).
Proof.
  intros HT Hf Hg. pose proof HT as (H1 & _ & D). unfold find_last, ld. rewrite H1. destruct t as [|x l a r].
  - right. exists [], true. cbn. conj; try reflexivity; try constructor; reflexivity.
  - assert (Na : (addr (T x l a r) =? NULL) = false).
    { apply Z.eqb_neq. cbn [addr]. intros ->. specialize (D NULL). cbn [cnt] in D. unfold NULL in D. rewrite !ind_refl in D. lia. }
    rewrite Na. destruct (find_last_loop_ok rt m f fuel [] (T x l a r) true) as [(k' & y & l' & b & r' & E1 & E2 & E3)|(k' & lm' & E1 & E2 & [E3 E4] & E5)]; try assumption; try discriminate; [lia|split; constructor|split; reflexivity| |].
    + left. exists b, (loc rt k', lfield k'). cbn [loc lfield] in E1. conj; [exact E1| |exact E3|].
      * cbn [plug] in E2. rewrite E2, inorder_plug. cbn [inorder]. apply in_or_app. right. apply in_or_app. left. apply in_or_app. right. left. reflexivity.
      * cbn [fst snd]. cbn [plug] in E2. rewrite E2 in HT. apply tree_at_focus in HT. destruct HT as (Hk & _ & _). apply (crep_loc V rt m k' b Hk).
    + right. exists k', lm'. conj; [exact E1|symmetry; exact E2|exact E3|exact E4|exact E5].
Qed.
Theorem C56_orders rt m t fuel : tree_at V rt m t -> (size t < fuel)%nat ->
  (exists p, pre_first m rt = Some p /\ visit (pre_next m fuel) fuel p = Some (preorder t)) /\
  (exists p, post_first m fuel rt = Some p /\ visit (post_next m fuel) fuel p = Some (postorder t)).
Proof. intros H1 H2. split; [apply (preorder_visit V rt m t H1 fuel H2)|apply (postorder_visit V rt m t H1 fuel H2)]. Qed.

(** ** A concrete run: keys are addresses divided by 10; the root is at 7 *)
Definition ex_cmp (a b : Z) : Z := a / 10 - b / 10.
Definition ex_mem : mem := fun a f => if (a =? 7) && (f <? 2) && (0 <=? f) then Some 0 else if (10 <=? a) && (0 <=? f) && (f <? 4) then Some 99 else None.
Definition ex_ops : list op := map Ins [50; 40; 30; 60; 70; 20; 10; 80; 90; 55; 100; 110; 120] ++ [Del 50; Del 10; Rep 30 35; Del 80; Del 90; Del 20; Ins 41].
Lemma ex_cmp_ok : comparison ex_cmp.
Proof. unfold ex_cmp. split; intros; lia. Qed.
Ltac ex_sorted := unfold sorted; repeat first [apply SSorted_nil | apply SSorted_cons | apply Forall_nil | apply Forall_cons]; reflexivity.
Example C56_example : legals ex_cmp (good_node 7 ex_mem) true ex_ops [] /\ fst (specs ex_cmp true ex_ops []) = [35; 40; 60; 70; 100; 110; 120] /\
  option_map snd (run true 30 ex_cmp 7 ex_mem ex_ops) = Some (snd (specs ex_cmp true ex_ops [])) /\ snd (specs ex_cmp true ex_ops []) = [1; 1; 1; 1; 1; 1; 1; 1; 1; 0; 1; 1; 1; 0; 20; 0; 0; 0; 35; 0].
Proof.
  split; [|vm_compute; repeat split].
  cbv [ex_ops map app legals legal]. repeat match goal with |- context [spec ?c ?b ?o ?l] => let v := eval vm_compute in (spec c b o l) in change (spec c b o l) with v; cbn [fst] end.
  assert (G : forall n, 10 <= n -> good_node 7 ex_mem n).
  { intros n Hn. split; [|lia]. intros f Hf. unfold ex_mem. destruct (Z.eqb_spec n 7); [lia|]. cbn [andb]. destruct (Z.leb_spec 10 n), (Z.leb_spec 0 f), (Z.ltb_spec f 4); cbn [andb]; try lia. discriminate. }
  conj; try (apply G; discriminate); try (cbn; tauto); try exact I; try (intros Hn; cbn in Hn; intuition discriminate). ex_sorted.
Qed.
Print Assumptions C56_history.
Print Assumptions C56_find.
Print Assumptions C56_find_last.
Print Assumptions C56_orders.
