(** * Bottom-up merge sort: collecting the chains and rebuilding the circular list *)
From Verif Require Import Lib Ptr ListModel ListSpec ListProofs ListProofs2 ListSortModel ListSortSpec ListSortProofs ListSortProofs2 ListSortProofs3.

Lemma whole_incl m S S' : (forall x, In x S -> In x S') -> whole m S' -> whole m S.
Proof. intros H W x Hx. apply W, H, Hx. Qed.
Lemma collect_ok cmp : preorder cmp -> forall Ls fuel m p n L N done, sorted_segments cmp done (N :: L :: Ls) ->
  NoDup (concat (N :: L :: Ls)) -> whole m (concat (N :: L :: Ls)) -> (length Ls + length (concat (N :: L :: Ls)) < fuel)%nat ->
  N <> [] -> chain m n N -> pend m p (L :: Ls) ->
  exists m' p' n' L' N', sort_collect fuel cmp m p n = Some (m', p', n') /\ sorted_segments cmp done [N'; L'] /\ N' <> [] /\ L' <> [] /\ chain m' n' N' /\ chain m' p' L' /\
  whole m' (concat (N :: L :: Ls)) /\ frame (concat (N :: L :: Ls)) m m'.
Proof.
  intros PO. induction Ls as [|L2 Ls IH]; intros fuel m p n L N done SS Hd Hw Hf HN Cn Hp; (destruct fuel as [|fuel]; [lia|]); cbn [sort_collect].
  - destruct Hp as (NL & C & q & E & Hq). cbn [pend] in Hq. subst q. unfold ld. rewrite E. rewrite Z.eqb_refl.
    exists m, p, n, L, N. split; [reflexivity|]. split; [exact SS|]. split; [exact HN|]. split; [exact NL|]. split; [exact Cn|]. split; [exact C|]. split; [exact Hw|]. intros q g _. reflexivity.
  - destruct Hp as (NL & C & q & E & Hq). unfold ld. rewrite E. rewrite (proj2 (Z.eqb_neq _ _) (pend_nz _ _ _ _ Hq)).
    destruct L as [|a l1]; [contradiction|]. destruct N as [|b l2]; [contradiction|].
    pose proof (chain_hd _ _ _ C) as Q. cbn [hd] in Q. subst a. pose proof (chain_hd _ _ _ Cn) as Q. cbn [hd] in Q. subst b.
    set (T := concat (L2 :: Ls)) in *. change (concat ((n :: l2) :: (p :: l1) :: L2 :: Ls)) with ((n :: l2) ++ (p :: l1) ++ T) in *.
    pose proof (nodup_disj _ _ Hd) as D1. pose proof (nodup_r _ _ Hd) as Hd2. pose proof (nodup_disj _ _ Hd2) as D2.
    destruct (merge_ok cmp (S fuel) l1 l2 m p n) as (m1 & r & Em & Er & Cm & Fm).
    { rewrite !app_length in Hf. cbn [length] in Hf. lia. }
    { rewrite app_assoc in Hd. apply nodup_l in Hd. revert Hd. apply Permutation_NoDup, Permutation_app_comm. }
    { exact C. } { exact Cn. }
    cbn [sort_collect] in Em |- *. rewrite Em. set (M := merge cmp (p :: l1) (n :: l2)) in *.
    assert (HM : forall x, In x M <-> In x (p :: l1) \/ In x (n :: l2)) by (intros x; apply merge_in).
    assert (NM : M <> []) by (intros X; assert (Y : In p []) by (rewrite <- X; apply HM; cbn; auto); destruct Y).
    assert (Pm : Permutation ((n :: l2) ++ (p :: l1) ++ T) (concat (M :: L2 :: Ls))).
    { change (concat (M :: L2 :: Ls)) with (M ++ T). rewrite app_assoc. apply Permutation_app_tail. apply Permutation_trans with ((p :: l1) ++ n :: l2); [apply Permutation_app_comm|apply merge_perm]. }
    assert (Hw1 : whole m1 ((n :: l2) ++ (p :: l1) ++ T)).
    { apply (whole_nframe m m1 _ _ Fm); [|exact Hw]. intros x Hx. apply (chain_present _ _ _ _ Cm). apply HM. apply in_app_or in Hx. tauto. }
    destruct (IH fuel m1 q r L2 M done) as (m2 & p2 & n2 & L' & N' & E2 & S2 & N2 & N3 & C2 & C3 & W2 & F2).
    + apply (segments_merge cmp done [] (n :: l2) (p :: l1) (L2 :: Ls) PO SS).
    + apply (Permutation_NoDup Pm Hd).
    + intros x Hx. apply Hw1. apply (Permutation_in _ (Permutation_sym Pm) Hx).
    + rewrite <- (Permutation_length Pm). cbn [length] in *. lia.
    + exact NM.
    + exact Cm.
    + revert Hq. apply pend_frame. intros x f Hx. apply Fm. left. intros X. apply in_app_or in X. destruct X as [X|X]; [apply (D2 x X Hx)|apply (D1 x X); apply in_or_app; auto].
    + exists m2, p2, n2, L', N'. split; [exact E2|]. split; [exact S2|]. split; [exact N2|]. split; [exact N3|]. split; [exact C2|]. split; [exact C3|]. split.
      * intros x Hx. apply W2. apply (Permutation_in _ Pm Hx).
      * apply (frame_trans _ m m1 m2).
        -- intros x f Hx. apply Fm. destruct Hx as [Hx|[_ Hx]]; [left; intros X; apply Hx; rewrite !in_app_iff in *; tauto|auto].
        -- revert F2. apply frame_incl. intros x Hx. apply (Permutation_in _ (Permutation_sym Pm) Hx).
Qed.
Lemma finish_loop_ok cmp : forall fuel l1 l2 m tail a b, (length l1 + length l2 < fuel)%nat -> NoDup (tail :: (a :: l1) ++ b :: l2) ->
  whole m (tail :: (a :: l1) ++ b :: l2) -> chain m a (a :: l1) -> chain m b (b :: l2) ->
  exists m' t' r out rest, list_finish_loop fuel cmp m tail a b = Some (m', t', r) /\ merge cmp (a :: l1) (b :: l2) = out ++ rest /\ t' = last out tail /\ rest <> [] /\
  chain m' r rest /\ inner m' (tail :: out) /\ m' tail PREV = m tail PREV /\ frame (tail :: (a :: l1) ++ b :: l2) m m' /\ whole m' (tail :: (a :: l1) ++ b :: l2).
Proof.
  induction fuel as [|fuel IH]; intros l1 l2 m tail a b Hf Hd Hw C1 C2; [lia|].
  apply NoDup_cons_iff in Hd; destruct Hd as [Dt Hd2]. pose proof (nodup_disj _ _ Hd2) as D12.
  assert (Na : tail <> a) by (intros ->; apply Dt; cbn; auto). assert (Nb : tail <> b) by (intros ->; apply Dt; apply in_or_app; cbn; auto).
  pose proof (chain_nz _ _ _ _ C1) as Za. pose proof (chain_nz _ _ _ _ C2) as Zb.
  cbn [list_finish_loop]. rewrite merge_cons.
  assert (Wt : node m tail) by (apply Hw; cbn; auto).
  destruct (cmp a b <=? 0) eqn:Ec.
  - assert (Wa : node m a) by (apply Hw; cbn; auto).
    rewrite st_ex by apply Wt. rewrite st_ex by (apply upd_ex, Wa). set (m2 := upd (upd m tail NEXT a) a PREV tail).
    assert (F2 : forall q g, q <> tail -> q <> a -> m2 q g = m q g) by (intros; unfold m2; rewrite !upd_other by auto; reflexivity).
    assert (Ea : m2 a NEXT = m a NEXT) by (unfold m2; rewrite !upd_other by (first [left; congruence|right; discriminate]); reflexivity).
    assert (Lk : linked m2 tail a) by (split; unfold m2; [rewrite upd_other by (left; exact Na); apply upd_same|apply upd_same]).
    assert (Pt : m2 tail PREV = m tail PREV) by (unfold m2; rewrite !upd_other by (first [left; congruence|right; discriminate]); reflexivity).
    assert (W2 : whole m2 (tail :: (a :: l1) ++ b :: l2)) by (unfold m2; repeat apply whole_upd; exact Hw).
    assert (Fr : frame (tail :: (a :: l1) ++ b :: l2) m m2).
    { intros q g Hq. unfold m2. rewrite !upd_other; [reflexivity| |]; (destruct Hq as [Hq|[Hq1 Hq2]]; [left; intros ->; apply Hq; cbn; auto|right; assumption]). }
    destruct C1 as (_ & _ & q & Eq & C1). unfold ld. rewrite Ea, Eq.
    assert (C2' : chain m2 b (b :: l2)).
    { revert C2. apply chain_frame. intros x Hx. apply F2; intros ->; [apply Dt; apply in_or_app; auto|apply (D12 a); cbn; auto]. }
    destruct l1 as [|a' l1].
    + cbn in C1. subst q. rewrite Z.eqb_refl. exists m2, a, b, [a], (b :: l2). split; [reflexivity|]. rewrite merge_nil_l. split; [reflexivity|]. split; [reflexivity|]. split; [discriminate|].
      split; [exact C2'|]. split; [cbn; auto|]. split; [exact Pt|]. split; [exact Fr|exact W2].
    + pose proof (chain_hd _ _ _ C1) as Q. cbn [hd] in Q. subst q. rewrite (proj2 (Z.eqb_neq _ _) (chain_nz _ _ _ _ C1)).
      assert (C1' : chain m2 a' (a' :: l1)).
      { revert C1. apply chain_frame. intros x Hx. apply F2; intros ->; [apply Dt; right; apply (in_or_app (a' :: l1)); auto|]. apply (proj1 (proj1 (NoDup_cons_iff a ((a' :: l1) ++ b :: l2)) Hd2)). apply in_or_app; auto. }
      destruct (IH l1 l2 m2 a a' b) as (m3 & t & r & out & rest & E3 & Eo & Et & Nr & Cr & Ir & Pr & Fr3 & W3).
      * cbn [length] in Hf; lia.
      * exact Hd2.
      * intros x Hx. apply W2. right. exact Hx.
      * exact C1'.
      * exact C2'.
      * rewrite E3. exists m3, t, r, (a :: out), rest. split; [reflexivity|]. rewrite Eo. split; [reflexivity|]. split; [rewrite last_cons; exact Et|]. split; [exact Nr|].
        split; [exact Cr|]. assert (Gt : forall g, m3 tail g = m2 tail g) by (intros g; apply Fr3; left; exact Dt).
        split; [rewrite inner_cons; split; [|exact Ir]; destruct Lk as [Lk1 Lk2]; split; [rewrite Gt; exact Lk1|rewrite Pr; exact Lk2]|].
        split; [rewrite Gt; exact Pt|]. split; [apply (frame_trans _ m m2 m3); [exact Fr|revert Fr3; apply frame_incl; intros x Hx; right; exact Hx]|].
        intros x [<-|Hx]; [destruct (W2 tail ltac:(cbn; auto)); split; rewrite Gt; assumption|apply W3; exact Hx].
  - assert (Wb : node m b) by (apply Hw; right; apply in_or_app; cbn; auto).
    rewrite st_ex by apply Wt. rewrite st_ex by (apply upd_ex, Wb). set (m2 := upd (upd m tail NEXT b) b PREV tail).
    assert (F2 : forall q g, q <> tail -> q <> b -> m2 q g = m q g) by (intros; unfold m2; rewrite !upd_other by auto; reflexivity).
    assert (Ea : m2 b NEXT = m b NEXT) by (unfold m2; rewrite !upd_other by (first [left; congruence|right; discriminate]); reflexivity).
    assert (Lk : linked m2 tail b) by (split; unfold m2; [rewrite upd_other by (left; exact Nb); apply upd_same|apply upd_same]).
    assert (Pt : m2 tail PREV = m tail PREV) by (unfold m2; rewrite !upd_other by (first [left; congruence|right; discriminate]); reflexivity).
    assert (W2 : whole m2 (tail :: (a :: l1) ++ b :: l2)) by (unfold m2; repeat apply whole_upd; exact Hw).
    assert (Fr : frame (tail :: (a :: l1) ++ b :: l2) m m2).
    { intros q g Hq. unfold m2. rewrite !upd_other; [reflexivity| |]; (destruct Hq as [Hq|[Hq1 Hq2]]; [left; intros ->; apply Hq; cbn; rewrite ?in_app_iff; cbn; auto|right; assumption]). }
    destruct C2 as (_ & _ & q & Eq & C2). unfold ld. rewrite Ea, Eq.
    assert (C1' : chain m2 a (a :: l1)).
    { revert C1. apply chain_frame. intros x Hx. apply F2; intros ->; [apply Dt; apply in_or_app; auto|apply (D12 b); cbn; auto]. }
    assert (Pm : Permutation ((a :: l1) ++ b :: l2) (b :: (a :: l1) ++ l2)) by (apply Permutation_sym, (Permutation_middle (a :: l1))).
    destruct l2 as [|b' l2].
    + cbn in C2. subst q. rewrite Z.eqb_refl. exists m2, b, a, [b], (a :: l1). split; [reflexivity|]. rewrite merge_nil_r. split; [reflexivity|]. split; [reflexivity|]. split; [discriminate|].
      split; [exact C1'|]. split; [cbn; auto|]. split; [exact Pt|]. split; [exact Fr|exact W2].
    + pose proof (chain_hd _ _ _ C2) as Q. cbn [hd] in Q. subst q. rewrite (proj2 (Z.eqb_neq _ _) (chain_nz _ _ _ _ C2)).
      pose proof (Permutation_NoDup Pm Hd2) as Hd3.
      assert (C2' : chain m2 b' (b' :: l2)).
      { revert C2. apply chain_frame. intros x Hx. apply F2; intros ->; [apply Dt; apply in_or_app; right; right; exact Hx|]. apply NoDup_cons_iff in Hd3. apply (proj1 Hd3). apply in_or_app; auto. }
      destruct (IH l1 l2 m2 b a b') as (m3 & t & r & out & rest & E3 & Eo & Et & Nr & Cr & Ir & Pr & Fr3 & W3).
      * cbn [length] in Hf; lia.
      * exact Hd3.
      * intros x Hx. apply W2. right. apply (Permutation_in _ (Permutation_sym Pm) Hx).
      * exact C1'.
      * exact C2'.
      * rewrite E3. exists m3, t, r, (b :: out), rest. split; [reflexivity|]. rewrite Eo. split; [reflexivity|]. split; [rewrite last_cons; exact Et|]. split; [exact Nr|].
        split; [exact Cr|]. assert (Gt : forall g, m3 tail g = m2 tail g) by (intros g; apply Fr3; left; intros X; apply Dt, (Permutation_in _ (Permutation_sym Pm) X)).
        split; [rewrite inner_cons; split; [|exact Ir]; destruct Lk as [Lk1 Lk2]; split; [rewrite Gt; exact Lk1|rewrite Pr; exact Lk2]|].
        split; [rewrite Gt; exact Pt|]. split; [apply (frame_trans _ m m2 m3); [exact Fr|revert Fr3; apply frame_incl; intros x Hx; right; apply (Permutation_in _ (Permutation_sym Pm) Hx)]|].
        intros x [<-|Hx]; [destruct (W2 tail ltac:(cbn; auto)); split; rewrite Gt; assumption|apply W3, (Permutation_in _ Pm Hx)].
Qed.
Lemma finish_rest_ok : forall fuel rest m tail r, (length rest < fuel)%nat -> NoDup (tail :: r :: rest) -> whole m (tail :: r :: rest) -> chain m r (r :: rest) -> m tail NEXT = Some r ->
  exists m', list_finish_rest fuel m tail r = Some (m', last rest r) /\ inner m' (tail :: r :: rest) /\
  (forall q g, ~ (In q (r :: rest) /\ g = PREV) -> m' q g = m q g) /\ whole m' (tail :: r :: rest).
Proof.
  induction fuel as [|fuel IH]; intros rest m tail r Hf Hd Hw C Et; [lia|]. cbn [list_finish_rest].
  assert (Wr : node m r) by (apply Hw; cbn; auto). rewrite st_ex by apply Wr. set (m1 := upd m r PREV tail).
  assert (F1 : forall q g, ~ (q = r /\ g = PREV) -> m1 q g = m q g).
  { intros q g H. unfold m1. apply upd_other. destruct (Z.eq_dec q r); [right; intros ->; tauto|auto]. }
  destruct C as (_ & _ & q & Eq & C). unfold ld. rewrite F1 by (intros [_ X]; discriminate X). rewrite Eq.
  apply NoDup_cons_iff in Hd; destruct Hd as [Dt Hd2].
  assert (Lk : linked m1 tail r) by (split; [rewrite F1 by (intros [_ X]; discriminate X); exact Et|unfold m1; apply upd_same]).
  assert (W1 : whole m1 (tail :: r :: rest)) by (apply whole_upd, Hw).
  destruct rest as [|x rest].
  - cbn in C. subst q. rewrite Z.eqb_refl. exists m1. split; [reflexivity|]. split; [cbn; auto|]. split; [|exact W1]. intros q g H. apply F1. intros [-> ->]. apply H. cbn; auto.
  - pose proof (chain_hd _ _ _ C) as Q. cbn [hd] in Q. subst q. rewrite (proj2 (Z.eqb_neq _ _) (chain_nz _ _ _ _ C)).
    destruct (IH rest m1 r x) as (m2 & E2 & I2 & F2 & W2).
    + cbn [length] in Hf. lia.
    + exact Hd2.
    + intros y Hy. apply W1. right. exact Hy.
    + revert C. apply chain_frame. intros y Hy. apply F1. intros [_ X]; discriminate X.
    + rewrite F1 by (intros [_ X]; discriminate X). exact Eq.
    + rewrite E2. exists m2. split; [rewrite last_cons; reflexivity|].
      assert (Gr : m2 r PREV = m1 r PREV). { apply F2. intros [X _]. inversion_clear Hd2. contradiction. }
      split; [rewrite inner_cons; split; [|exact I2]; destruct Lk as [L1 L2]; split; [rewrite F2 by (intros [_ X]; discriminate X); exact L1|rewrite Gr; exact L2]|]. split.
      * intros y g Hy. rewrite F2 by (intros [X ->]; apply Hy; cbn in *; tauto). apply F1. intros [-> ->]. apply Hy. cbn; auto.
      * intros y [<-|Hy]; [|apply W2, Hy]. destruct (W1 tail ltac:(cbn; auto)) as [X1 X2]. split; rewrite F2; [exact X1|intros [_ X]; discriminate X|exact X2|]. intros [X _]. apply Dt. right. exact X.
Qed.
Lemma finish_ok cmp fuel m head a l1 b l2 : (length l1 + length l2 + 2 <= fuel)%nat -> NoDup (head :: (a :: l1) ++ b :: l2) ->
  whole m (head :: (a :: l1) ++ b :: l2) -> chain m a (a :: l1) -> chain m b (b :: l2) ->
  exists m', list_finish fuel cmp m head a b = Some m' /\ ring m' head (merge cmp (a :: l1) (b :: l2)) /\ frame (head :: (a :: l1) ++ b :: l2) m m'.
Proof.
  intros Hf Hd Hw C1 C2. unfold list_finish. set (M := merge cmp (a :: l1) (b :: l2)).
  assert (HM : forall x, In x M <-> In x ((a :: l1) ++ b :: l2)) by (intros x; rewrite in_app_iff; apply merge_in).
  assert (NDM : NoDup (head :: M)).
  { inversion_clear Hd. constructor; [rewrite HM; assumption|apply merge_nodup; assumption]. }
  destruct (finish_loop_ok cmp fuel l1 l2 m head a b) as (m1 & t & r & out & rest & E1 & Eo & Et & Nr & Cr & Ir & Pr & F1 & W1); try assumption; [lia|].
  fold M in Eo. rewrite E1. destruct rest as [|r' rest]; [contradiction|]. pose proof (chain_hd _ _ _ Cr) as Q. cbn [hd] in Q. subst r'.
  assert (It : In t (head :: out)) by (subst t; apply last_in).
  assert (Hout : forall x, In x out -> In x M) by (intros x Hx; rewrite Eo; apply in_or_app; auto).
  assert (Hrest : forall x, In x (r :: rest) -> In x M) by (intros x Hx; rewrite Eo; apply in_or_app; auto).
  assert (WM : forall m', whole m' (head :: (a :: l1) ++ b :: l2) -> whole m' (head :: M)).
  { intros m' W x [<-|Hx]; [apply W; cbn; auto|]. apply W. right. apply HM, Hx. }
  assert (ItM : In t (head :: M)) by (destruct It as [<-|It]; [cbn; auto|right; auto]).
  assert (Wt : node m1 t) by (apply (WM m1 W1), ItM). rewrite st_ex by apply Wt. set (m2 := upd m1 t NEXT r).
  rewrite Eo in NDM. change (head :: out ++ r :: rest) with ((head :: out) ++ r :: rest) in NDM.
  pose proof (nodup_disj _ _ NDM) as DO. pose proof (nodup_r _ _ NDM) as NDr. pose proof (nodup_l _ _ NDM) as NDo.
  assert (Dtr : ~ In t (r :: rest)) by (intros X; apply (DO t It X)).
  assert (W2 : whole m2 (head :: M)) by (apply whole_upd, WM, W1).
  destruct (finish_rest_ok fuel rest m2 t r) as (m3 & E3 & I3 & F3 & W3).
  { assert (length M = (length out + S (length rest))%nat) by (rewrite Eo, app_length; reflexivity). unfold M in H. rewrite merge_len in H. cbn [length] in H. lia. }
  { constructor; assumption. }
  { intros x [<-|Hx]; apply W2; [exact ItM|right; auto]. }
  { revert Cr. apply chain_frame. intros x Hx. apply upd_other. left. intros ->. contradiction. }
  { apply upd_same. }
  rewrite E3.
  assert (W3' : whole m3 (head :: M)).
  { intros x Hx. destruct (in_dec Z.eq_dec x (t :: r :: rest)) as [Hi|Hi]; [apply W3, Hi|]. destruct (W2 x Hx). split; rewrite F3; try assumption; intros [X _]; apply Hi; cbn in *; tauto. }
  set (t' := last rest r). assert (It' : In t' (r :: rest)) by apply last_in.
  assert (Elast : t' = last M head) by (rewrite Eo, last_app_cons; reflexivity).
  rewrite st_ex by (apply W3'; right; auto). rewrite st_ex by (apply upd_ex, W3'; cbn; auto).
  set (m4 := upd (upd m3 t' NEXT head) head PREV t'). exists m4. split; [reflexivity|].
  assert (I2 : inner m3 (head :: out)).
  { revert Ir. apply inner_frame.
    - intros x Hx. rewrite F3 by (intros [_ X]; discriminate X). unfold m2. apply upd_other. left. intros ->. subst t. revert Hx. apply last_not_removelast, NDo.
    - intros x Hx. cbn [tl] in Hx. rewrite F3 by (intros [X _]; apply (DO x); cbn; auto). unfold m2. apply upd_other. right. discriminate. }
  assert (I4 : inner m3 (head :: M)).
  { rewrite Eo. change (head :: out ++ r :: rest) with ((head :: out) ++ r :: rest). apply inner_app. split; [exact I2|]. rewrite inner_cons in I3. subst t. exact I3. }
  assert (NhM : ~ In head M) by (inversion_clear Hd; rewrite HM; assumption).
  assert (Nht : head <> t') by (intros X; apply NhM; rewrite X; auto).
  split; [split|].
  - rewrite Eo. exact NDM.
  - apply seg_inner. change (head :: M ++ [head]) with ((head :: M) ++ [head]). apply inner_app. split; [|split; [|exact I]].
    + revert I4. apply inner_frame.
      * intros x Hx. unfold m4. rewrite upd_other by (right; discriminate). apply upd_other. left. intros ->. rewrite Elast in Hx. revert Hx. apply last_not_removelast. rewrite Eo. exact NDM.
      * intros x Hx. cbn [tl] in Hx. unfold m4. rewrite upd_other by (left; intros ->; contradiction). apply upd_other. right. discriminate.
    + rewrite <- Elast. split; unfold m4; [rewrite upd_other by (right; discriminate); apply upd_same|apply upd_same].
  - intros x g Hx. assert (Hx' : ~ In x (head :: M) \/ g <> PREV /\ g <> NEXT).
    { destruct Hx as [Hx|Hx]; [left; intros X; apply Hx; destruct X as [<-|X]; [cbn; auto|right; apply HM, X]|auto]. }
    assert (A1 : x <> head \/ g <> PREV) by (destruct Hx' as [Hx'|[? ?]]; [left; intros ->; apply Hx'; cbn; auto|auto]).
    assert (A2 : x <> t' \/ g <> NEXT) by (destruct Hx' as [Hx'|[? ?]]; [left; intros ->; apply Hx'; right; auto|auto]).
    assert (A3 : x <> t \/ g <> NEXT) by (destruct Hx' as [Hx'|[? ?]]; [left; intros ->; contradiction|auto]).
    unfold m4. rewrite upd_other by exact A1. rewrite upd_other by exact A2. rewrite F3.
    + unfold m2. rewrite upd_other by exact A3. apply F1. exact Hx.
    + intros [X ->]. destruct Hx' as [Hx'|[Hx' _]]; [apply Hx'; right; auto|contradiction].
Qed.
(** ** The whole function *)
Lemma cut_chain m h l b : ring m h (l ++ [b]) -> ~ In NULL (l ++ [b]) -> chain (upd m b NEXT NULL) (hd NULL (l ++ [b])) (l ++ [b]).
Proof.
  intros [Hd Hs] Hz. inversion_clear Hd as [|? ? Hh Hd']. apply seg_app in Hs. destruct Hs as [Hs _].
  revert h Hs Hh. induction l as [|x l IH]; intros h Hs Hh.
  - cbn. split; [reflexivity|]. split; [intros E; apply Hz; cbn; auto|]. exists NULL. split; [apply upd_same|reflexivity].
  - cbn [app hd] in *. cbn [seg] in Hs. destruct Hs as [L Hs]. inversion_clear Hd'. assert (Nz : x <> NULL) by (intros E; apply Hz; cbn; auto).
    assert (Nb : x <> b) by (intros ->; apply H; apply in_or_app; cbn; auto).
    split; [reflexivity|]. split; [exact Nz|]. exists (hd NULL (l ++ [b])). split.
    + rewrite upd_other by (left; exact Nb). destruct l; cbn [seg app hd] in *; apply Hs.
    + apply (IH ltac:(intros X; apply Hz; cbn; auto) H0 x Hs H).
Qed.
Lemma list_sort_ok cmp fuel m h l : preorder cmp -> ring m h l -> ~ In NULL l -> (2 * length l + 2 <= fuel)%nat ->
  exists m' l', list_sort fuel cmp m h = Some m' /\ ring m' h l' /\ stable_sort cmp l l' /\ frame (h :: l) m m'.
Proof.
  intros PO Hr Hz Hf. unfold list_sort, ld. rewrite (ring_next _ _ _ Hr), (ring_prev _ _ _ Hr).
  assert (Small : (hd h l =? last l h) = true <-> (length l <= 1)%nat).
  { destruct l as [|x l]; [cbn; rewrite Z.eqb_refl; intuition lia|]. cbn [hd]. rewrite last_cons. rewrite Z.eqb_eq. destruct l as [|y l]; [cbn; intuition lia|]. rewrite last_cons.
    split; [|cbn; lia]. intros E. exfalso. destruct Hr as [Hd _]. inversion_clear Hd. inversion_clear H0. apply H1. rewrite E. apply last_in. }
  destruct (hd h l =? last l h) eqn:Es.
  - exists m, l. split; [reflexivity|]. split; [exact Hr|]. split; [|intros q g _; reflexivity].
    assert (L1 : (length l <= 1)%nat) by (apply Small; reflexivity).
    destruct l as [|x [|y l]]; [|apply stable_single|cbn in L1; lia]. split; [constructor|]. split; [constructor|]. intros k. reflexivity.
  - assert (L2 : (2 <= length l)%nat). { destruct (le_lt_dec 2 (length l)); [assumption|]. assert (false = true) by (apply Small; lia). discriminate. }
    destruct (snoc_cases _ l) as [->|(l0 & b & El)]; [cbn in L2; lia|].
    assert (Eb : last l h = b) by (rewrite El; apply last_snoc). rewrite Eb.
    assert (Wl : whole m (h :: l)) by (exact (ring_nodes _ _ _ Hr)).
    assert (Ib : In b l) by (rewrite El; apply in_or_app; cbn; auto).
    rewrite st_ex by (apply Wl; right; exact Ib). set (m0 := upd m b NEXT NULL).
    assert (C0 : chain m0 (hd NULL l) l) by (unfold m0; rewrite El; apply (cut_chain _ h); rewrite <- El; assumption).
    assert (Hhd : hd h l = hd NULL l) by (destruct l; [cbn in L2; lia|reflexivity]). rewrite Hhd.
    pose proof Hr as [Hd _]. inversion_clear Hd as [|? ? Hh Hd'].
    destruct (sort_nodes_ok cmp PO l fuel m0 NULL 0 [] []) as (m1 & p1 & Ls & E1 & S1 & P1 & W1 & F1 & N1).
    { exists []. split; [reflexivity|constructor]. }
    { exact Hd'. } { apply whole_upd. intros x Hx. apply Wl. right. exact Hx. }
    { cbn [concat length]. lia. } { reflexivity. } { exact C0. } { lia. } { change (2 ^ zlen []) with 1. lia. } { right. reflexivity. }
    rewrite E1. cbn [concat app] in *. rewrite zlen_nil in N1.
    assert (N2 : (2 <= length Ls)%nat) by (destruct N1 as [N1|N1]; [exact N1|unfold zlen in N1; lia]).
    destruct Ls as [|N [|L Ls]]; [cbn in N2; lia|cbn in N2; lia|]. destruct P1 as (NN & CN & q & Eq & PL). rewrite Eq.
    pose proof (segments_perm _ _ _ S1) as Pm.
    destruct (collect_ok cmp PO Ls fuel m1 q p1 L N l) as (m2 & p2 & n2 & L' & N' & E2 & S2 & NN' & NL' & CN' & CL' & W2 & F2).
    { exact S1. } { apply (Permutation_NoDup Pm Hd'). } { intros x Hx. apply W1, (Permutation_in _ (Permutation_sym Pm) Hx). }
    { assert (Q : (length Ls <= length (concat Ls))%nat).
      { destruct PL as (_ & _ & q' & _ & PL). clear - PL. revert q' PL. induction Ls as [|X Ls IH]; intros q' PL; [cbn; lia|]. destruct PL as (NX & _ & q & _ & PL). cbn [concat]. rewrite app_length. destruct X; [contradiction|]. cbn [length]. specialize (IH q PL). lia. }
      assert (QN : (1 <= length N)%nat) by (destruct N; [contradiction|cbn; lia]). apply Permutation_length in Pm. rewrite <- Pm.
      cbn [concat] in Pm. rewrite !app_length in Pm. lia. }
    { exact NN. } { exact CN. } { exact PL. }
    rewrite E2. pose proof (segments_perm _ _ _ S2) as Pm2. cbn [concat] in Pm2. rewrite app_nil_r in Pm2.
    destruct N' as [|b' l2]; [contradiction|]. destruct L' as [|a' l1]; [contradiction|].
    pose proof (chain_hd _ _ _ CN') as Q. cbn [hd] in Q. subst n2. pose proof (chain_hd _ _ _ CL') as Q. cbn [hd] in Q. subst p2.
    assert (Pm3 : Permutation l ((a' :: l1) ++ b' :: l2)) by (apply (Permutation_trans Pm2), Permutation_app_comm).
    assert (Hh3 : ~ In h ((a' :: l1) ++ b' :: l2)) by (intros X; apply Hh, (Permutation_in _ (Permutation_sym Pm3) X)).
    assert (Gh : forall g, m2 h g = m h g).
    { intros g. rewrite F2 by (left; intros X; apply Hh, (Permutation_in _ (Permutation_sym Pm) X)). rewrite F1 by auto. apply upd_other. left. intros ->. contradiction. }
    destruct (finish_ok cmp fuel m2 h a' l1 b' l2) as (m3 & E3 & R3 & F3).
    { apply Permutation_length in Pm3. rewrite app_length in Pm3. cbn [length] in Pm3. lia. }
    { constructor; [exact Hh3|apply (Permutation_NoDup Pm3 Hd')]. }
    { intros x [<-|Hx]; [destruct (Wl h ltac:(cbn; auto)); split; rewrite Gh; assumption|]. apply W2. apply (Permutation_in _ Pm), (Permutation_in _ (Permutation_sym Pm3) Hx). }
    { exact CL'. } { exact CN'. }
    exists m3, (merge cmp (a' :: l1) (b' :: l2)). split; [exact E3|]. split; [exact R3|]. split.
    + destruct (segments_merge cmp l [] (b' :: l2) (a' :: l1) [] PO S2) as (Ss & Ec & Fa). cbn [app] in Fa. inversion Fa as [|S0 y0 Ss' y1 H1 Fa' EE1 EE2]. subst Ss y0 y1. inversion Fa'. subst Ss'. cbn [rev app concat] in Ec. rewrite app_nil_r in Ec. rewrite <- Ec. exact H1.
    + apply (frame_trans _ m m0 m3).
      * intros x g Hx. apply upd_other. destruct Hx as [Hx|[_ Hx]]; [left; intros ->; apply Hx; cbn; auto|auto].
      * apply (frame_trans _ m0 m1 m3); [revert F1; apply frame_incl; intros x Hx; right; exact Hx|].
        apply (frame_trans _ m1 m2 m3); [revert F2|revert F3]; apply frame_incl; intros x Hx.
        -- right. apply (Permutation_in _ (Permutation_sym Pm) Hx).
        -- destruct Hx as [<-|Hx]; [cbn; auto|]. right. apply (Permutation_in _ (Permutation_sym Pm3) Hx).
Qed.
