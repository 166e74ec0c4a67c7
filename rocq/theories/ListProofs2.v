(** * Doubly linked lists: the composed operations and the traversals *)
From Verif Require Import Lib Ptr ListModel ListSpec ListProofs.
From Coq Require Import Sorting.Permutation.

Lemma init_ring m h : node m h -> exists m', list_head_init m h = Some m' /\ ring m' h [] /\ frame [h] m m'.
Proof.
  intros Hn. destruct (init_ok m h Hn) as (m' & E & L & F). exists m'. split; [exact E|]. split.
  - split; [constructor; [intros []|constructor]|exact L].
  - intros q g Hq. apply F. intros [-> Hg]. destruct Hq as [Hq|Hq]; [apply Hq; cbn; auto|tauto].
Qed.
Lemma del_init_at m h l1 x l2 : ring m h (l1 ++ x :: l2) -> exists m', list_del_init m x = Some m' /\ ring m' h (l1 ++ l2) /\ ring m' x [] /\
  frame (h :: l1 ++ x :: l2) m m'.
Proof.
  intros Hr. pose proof (ring_notin _ _ _ _ _ Hr) as Hx. pose proof (ring_node_at _ _ _ _ _ Hr) as Hn.
  destruct (deluf_at m h l1 x l2 Hr) as (m1 & E & R & F1 & F2 & F). unfold list_del_init. rewrite E.
  assert (Hn1 : node m1 x) by (destruct Hn; split; [rewrite F1|rewrite F2]; assumption).
  destruct (init_ring m1 x Hn1) as (m2 & E2 & R2 & G). exists m2. split; [exact E2|]. split; [|split; [exact R2|]].
  - apply (ring_other m1 m2 _ _ [x] G); [|exact R]. intros y Hy [->|[]]. contradiction.
  - apply (frame_trans _ m m1 m2).
    + revert F. apply frame_incl. intros q Hq. cbn in *. rewrite in_app_iff in *. cbn. tauto.
    + revert G. apply frame_incl. intros q [->|[]]. right. apply in_or_app. cbn; auto.
Qed.
Lemma replace_init_at m h l1 x l2 n : ring m h (l1 ++ x :: l2) -> node m n -> ~ In n (h :: l1 ++ x :: l2) ->
  exists m', list_replace_init m x n = Some m' /\ ring m' h (l1 ++ n :: l2) /\ ring m' x [] /\ frame (n :: h :: l1 ++ x :: l2) m m'.
Proof.
  intros Hr Hn Hi. pose proof (ring_notin _ _ _ _ _ Hr) as Hx. pose proof (ring_node_at _ _ _ _ _ Hr) as Hnx.
  destruct (replace_at m h l1 x l2 n Hr Hn Hi) as (m1 & E & R & F1 & F2 & F). unfold list_replace_init. rewrite E.
  assert (Hn1 : node m1 x) by (destruct Hnx; split; [rewrite F1|rewrite F2]; assumption).
  destruct (init_ring m1 x Hn1) as (m2 & E2 & R2 & G). exists m2. split; [exact E2|]. split; [|split; [exact R2|]].
  - apply (ring_other m1 m2 _ _ [x] G); [|exact R]. intros y Hy [->|[]]. cbn in *. rewrite in_app_iff in *. cbn in *.
    destruct Hy as [?|[?|[?|?]]]; try tauto. subst. tauto.
  - apply (frame_trans _ m m1 m2).
    + revert F. apply frame_incl. intros q Hq. cbn in *. rewrite in_app_iff in *. cbn. tauto.
    + revert G. apply frame_incl. intros q [->|[]]. right. right. apply in_or_app. cbn; auto.
Qed.
Lemma check_empty_ok m h l : ring m h l -> list_check_empty m h = Some (match l with [] => true | _ => false end).
Proof.
  intros Hr. unfold list_check_empty, ld. rewrite (ring_next _ _ _ Hr). f_equal. destruct l as [|x l]; cbn [hd]; [apply Z.eqb_refl|].
  apply Z.eqb_neq. intros ->. destruct Hr as [Hd _]. inversion_clear Hd. apply H. cbn; auto.
Qed.
Lemma splice_ok m h l k s : ring m h l -> ring m k s -> (forall x, In x (k :: s) -> In x (h :: l) -> False) ->
  exists m', list_splice m h k = Some m' /\ ring m' h (s ++ l) /\ m' k NEXT = m k NEXT /\ m' k PREV = m k PREV /\ frame (h :: l ++ s) m m'.
Proof.
  intros Hr Hk D. unfold list_splice. rewrite (check_empty_ok _ _ _ Hk). destruct s as [|f s]; cbn [negb].
  - exists m. repeat split; try assumption; apply Hr.
  - unfold ld. rewrite (ring_next _ _ _ Hr). apply (relocate_ring m h [] l k f s Hr Hk D).
Qed.
Lemma splice_prev_ok m h l k s : ring m h l -> ring m k s -> (forall x, In x (k :: s) -> In x (h :: l) -> False) ->
  exists m', list_splice_prev m h k = Some m' /\ ring m' h (l ++ s) /\ m' k NEXT = m k NEXT /\ m' k PREV = m k PREV /\ frame (h :: l ++ s) m m'.
Proof.
  intros Hr Hk D. unfold list_splice_prev. rewrite (check_empty_ok _ _ _ Hk). destruct s as [|f s]; cbn [negb].
  - exists m. rewrite app_nil_r. repeat split; try assumption; apply Hr.
  - unfold ld. rewrite (ring_prev _ _ _ Hr). pose proof (relocate_ring m h l [] k f s) as X. rewrite !app_nil_r in X. exact (X Hr Hk D).
Qed.
Lemma splice_init_ok m h l k s : ring m h l -> ring m k s -> (forall x, In x (k :: s) -> In x (h :: l) -> False) ->
  exists m', list_splice_init m h k = Some m' /\ ring m' h (s ++ l) /\ ring m' k [] /\ frame (h :: k :: l ++ s) m m'.
Proof.
  intros Hr Hk D. unfold list_splice_init. rewrite (check_empty_ok _ _ _ Hk). destruct s as [|f s]; cbn [negb].
  - exists m. split; [reflexivity|]. split; [exact Hr|]. split; [exact Hk|]. intros q g _. reflexivity.
  - destruct (splice_ok m h l k (f :: s) Hr Hk D) as (m1 & E & R & F1 & F2 & F). rewrite E.
    assert (Hn : node m1 k) by (destruct (ring_nodes _ _ _ Hk k (or_introl eq_refl)); split; [rewrite F1|rewrite F2]; assumption).
    destruct (init_ring m1 k Hn) as (m2 & E2 & R2 & G). exists m2. split; [exact E2|]. split; [|split; [exact R2|]].
    + apply (ring_other m1 m2 _ _ [k] G); [|exact R]. intros y Hy [->|[]]. destruct Hk as [Kd _]. inversion_clear Kd as [|? ? Kd1 Kd2].
      destruct Hy as [->|Hy]; [apply (D y); cbn; auto|]. apply in_app_or in Hy. destruct Hy as [Hy|Hy]; [contradiction|]. apply (D y); cbn; auto.
    + apply (frame_trans _ m m1 m2); [revert F|revert G]; apply frame_incl; intros q Hq; cbn in *; tauto.
Qed.
Lemma splice_tail_init_ok m h l k s : ring m h l -> ring m k s -> (forall x, In x (k :: s) -> In x (h :: l) -> False) ->
  exists m', list_splice_tail_init m h k = Some m' /\ ring m' h (l ++ s) /\ ring m' k [] /\ frame (h :: k :: l ++ s) m m'.
Proof.
  intros Hr Hk D. unfold list_splice_tail_init. rewrite (check_empty_ok _ _ _ Hk). destruct s as [|f s]; cbn [negb].
  - exists m. rewrite app_nil_r. split; [reflexivity|]. split; [exact Hr|]. split; [exact Hk|]. intros q g _. reflexivity.
  - destruct (splice_prev_ok m h l k (f :: s) Hr Hk D) as (m1 & E & R & F1 & F2 & F). rewrite E.
    assert (Hn : node m1 k) by (destruct (ring_nodes _ _ _ Hk k (or_introl eq_refl)); split; [rewrite F1|rewrite F2]; assumption).
    destruct (init_ring m1 k Hn) as (m2 & E2 & R2 & G). exists m2. split; [exact E2|]. split; [|split; [exact R2|]].
    + apply (ring_other m1 m2 _ _ [k] G); [|exact R]. intros y Hy [->|[]]. destruct Hk as [Kd _]. inversion_clear Kd as [|? ? Kd1 Kd2].
      destruct Hy as [->|Hy]; [apply (D y); cbn; auto|]. apply in_app_or in Hy. destruct Hy as [Hy|Hy]; [|contradiction]. apply (D y); cbn; auto.
    + apply (frame_trans _ m m1 m2); [revert F|revert G]; apply frame_incl; intros q Hq; cbn in *; tauto.
Qed.
Lemma poisoned_node m x : m x NEXT = Some POISON_LIST1 -> m x PREV = Some POISON_LIST2 -> node m x.
Proof. intros H1 H2. split; eauto. Qed.
Lemma move_same m h l1 x l2 : ring m h (l1 ++ x :: l2) -> exists m', list_move m h x = Some m' /\ ring m' h (x :: l1 ++ l2) /\ frame (h :: l1 ++ x :: l2) m m'.
Proof.
  intros Hr. pose proof (ring_notin _ _ _ _ _ Hr) as Hx. unfold list_move.
  destruct (del_at m h l1 x l2 Hr) as (m1 & E & R & P1 & P2 & F). rewrite E.
  destruct (add_ring m1 h (l1 ++ l2) x R (poisoned_node _ _ P1 P2) Hx) as (m2 & E2 & R2 & G). exists m2. split; [exact E2|]. split; [exact R2|].
  apply (frame_trans _ m m1 m2); [exact F|]. revert G. apply frame_incl. intros q Hq. cbn in *. rewrite in_app_iff in *. cbn. tauto.
Qed.
Lemma move_prev_same m h l1 x l2 : ring m h (l1 ++ x :: l2) -> exists m', list_move_prev m h x = Some m' /\ ring m' h ((l1 ++ l2) ++ [x]) /\ frame (h :: l1 ++ x :: l2) m m'.
Proof.
  intros Hr. pose proof (ring_notin _ _ _ _ _ Hr) as Hx. unfold list_move_prev.
  destruct (del_at m h l1 x l2 Hr) as (m1 & E & R & P1 & P2 & F). rewrite E.
  destruct (add_prev_ring m1 h (l1 ++ l2) x R (poisoned_node _ _ P1 P2) Hx) as (m2 & E2 & R2 & G). exists m2. split; [exact E2|]. split; [exact R2|].
  apply (frame_trans _ m m1 m2); [exact F|]. revert G. apply frame_incl. intros q Hq. cbn in *. rewrite in_app_iff in *. cbn. tauto.
Qed.
Lemma move_across m h l1 x l2 k s : ring m h (l1 ++ x :: l2) -> ring m k s -> (forall y, In y (k :: s) -> In y (h :: l1 ++ x :: l2) -> False) ->
  exists m', list_move m k x = Some m' /\ ring m' h (l1 ++ l2) /\ ring m' k (x :: s) /\ frame (h :: k :: l1 ++ x :: l2 ++ s) m m'.
Proof.
  intros Hr Hk D. pose proof (ring_notin _ _ _ _ _ Hr) as Hx. unfold list_move.
  destruct (del_at m h l1 x l2 Hr) as (m1 & E & R & P1 & P2 & F). rewrite E.
  assert (Hk1 : ring m1 k s) by (apply (ring_other m m1 _ _ _ F); [intros y Hy C; apply (D y Hy C)|exact Hk]).
  assert (Hxk : ~ In x (k :: s)) by (intros C; apply (D x C); right; apply in_or_app; cbn; auto).
  destruct (add_ring m1 k s x Hk1 (poisoned_node _ _ P1 P2) Hxk) as (m2 & E2 & R2 & G). exists m2. split; [exact E2|]. split; [|split; [exact R2|]].
  - apply (ring_other m1 m2 _ _ _ G); [|exact R]. intros y Hy [->|C]; [contradiction|]. apply (D y C). cbn in *. rewrite in_app_iff in *. cbn. tauto.
  - apply (frame_trans _ m m1 m2); [revert F|revert G]; apply frame_incl; intros q Hq; cbn in *; repeat rewrite in_app_iff in *; cbn in *; rewrite ?in_app_iff; tauto.
Qed.
Lemma move_prev_across m h l1 x l2 k s : ring m h (l1 ++ x :: l2) -> ring m k s -> (forall y, In y (k :: s) -> In y (h :: l1 ++ x :: l2) -> False) ->
  exists m', list_move_prev m k x = Some m' /\ ring m' h (l1 ++ l2) /\ ring m' k (s ++ [x]) /\ frame (h :: k :: l1 ++ x :: l2 ++ s) m m'.
Proof.
  intros Hr Hk D. pose proof (ring_notin _ _ _ _ _ Hr) as Hx. unfold list_move_prev.
  destruct (del_at m h l1 x l2 Hr) as (m1 & E & R & P1 & P2 & F). rewrite E.
  assert (Hk1 : ring m1 k s) by (apply (ring_other m m1 _ _ _ F); [intros y Hy C; apply (D y Hy C)|exact Hk]).
  assert (Hxk : ~ In x (k :: s)) by (intros C; apply (D x C); right; apply in_or_app; cbn; auto).
  destruct (add_prev_ring m1 k s x Hk1 (poisoned_node _ _ P1 P2) Hxk) as (m2 & E2 & R2 & G). exists m2. split; [exact E2|]. split; [|split; [exact R2|]].
  - apply (ring_other m1 m2 _ _ _ G); [|exact R]. intros y Hy [->|C]; [contradiction|]. apply (D y C). cbn in *. rewrite in_app_iff in *. cbn. tauto.
  - apply (frame_trans _ m m1 m2); [revert F|revert G]; apply frame_incl; intros q Hq; cbn in *; repeat rewrite in_app_iff in *; cbn in *; rewrite ?in_app_iff; tauto.
Qed.
Lemma prev_at m h l1 x l2 : ring m h (l1 ++ x :: l2) -> m x PREV = Some (last l1 h).
Proof.
  intros Hr. apply rotate in Hr. rewrite (ring_prev _ _ _ Hr). f_equal. destruct (snoc_cases _ l1) as [->|(l0 & p & ->)]; [apply last_snoc|].
  rewrite last_snoc. change (h :: l0 ++ [p]) with ((h :: l0) ++ [p]). rewrite app_assoc. apply last_snoc.
Qed.
Lemma next_at m h l1 x l2 : ring m h (l1 ++ x :: l2) -> m x NEXT = Some (hd h l2).
Proof. intros Hr. apply rotate in Hr. rewrite (ring_next _ _ _ Hr). destruct l2; reflexivity. Qed.
Lemma last_app_cons (a b : list Z) x d : last (a ++ x :: b) d = last b x.
Proof. induction a as [|y a IH]; [apply last_cons|]. cbn [app]. rewrite last_cons. rewrite <- IH. destruct (a ++ x :: b) eqn:E; [destruct a; discriminate|]. rewrite !last_cons. reflexivity. Qed.
Lemma swap_forward m h a x b y c : ring m h (a ++ x :: b ++ y :: c) -> exists m', list_swap m x y = Some m' /\ ring m' h (a ++ y :: b ++ x :: c) /\ frame (h :: a ++ x :: b ++ y :: c) m m'.
Proof.
  intros Hr. assert (Hr' : ring m h ((a ++ x :: b) ++ y :: c)) by (rewrite <- app_assoc; exact Hr).
  unfold list_swap, ld. rewrite (prev_at _ _ _ _ _ Hr'). rewrite last_app_cons.
  pose proof (ring_notin _ _ _ _ _ Hr') as Hy. pose proof (ring_notin _ _ _ _ _ Hr) as Hx.
  destruct (del_at m h (a ++ x :: b) y c Hr') as (m1 & E & R & P1 & P2 & F). rewrite E. rewrite <- !app_assoc in *. cbn [app] in *.
  assert (Nxy : x <> y) by (intros ->; apply Hy; right; apply in_or_app; cbn; auto).
  destruct (replace_at m1 h a x (b ++ c) y R (poisoned_node _ _ P1 P2) Hy) as (m2 & E2 & R2 & G1 & G2 & G). rewrite E2.
  assert (Hn2 : node m2 x) by (destruct (ring_node_at _ _ _ _ _ R); split; [rewrite G1|rewrite G2]; assumption).
  assert (Eq : (if last b x =? x then y else last b x) = last (a ++ y :: b) h).
  { rewrite last_app_cons. destruct (snoc_cases _ b) as [->|(b0 & p & ->)]; [cbn; rewrite Z.eqb_refl; reflexivity|]. rewrite !last_snoc.
    destruct (Z.eqb_spec p x) as [->|]; [|reflexivity]. exfalso. apply Hx. right. repeat (rewrite ?in_app_iff; cbn). tauto. }
  rewrite Eq. assert (R2' : ring m2 h ((a ++ y :: b) ++ c)) by (rewrite <- app_assoc; exact R2).
  destruct (add_last m2 h (a ++ y :: b) c x R2' Hn2) as (m3 & E3 & R3 & G3).
  { intros C. apply Hx. cbn in *. repeat (rewrite ?in_app_iff in *; cbn in * ). intuition congruence. }
  exists m3. split; [exact E3|]. rewrite <- app_assoc in R3. cbn [app] in R3. split; [exact R3|].
  apply (frame_trans _ m m1); [exact F|]. apply (frame_trans _ m1 m2); [revert G|revert G3]; apply frame_incl; intros q Hq; cbn in *; repeat (rewrite ?in_app_iff in *; cbn in * ); tauto.
Qed.
Lemma swap_backward m h a x b y c : ring m h (a ++ x :: b ++ y :: c) -> exists m', list_swap m y x = Some m' /\ ring m' h (a ++ y :: b ++ x :: c) /\ frame (h :: a ++ x :: b ++ y :: c) m m'.
Proof.
  intros Hr. assert (Hr' : ring m h ((a ++ x :: b) ++ y :: c)) by (rewrite <- app_assoc; exact Hr).
  unfold list_swap, ld. rewrite (prev_at _ _ _ _ _ Hr).
  pose proof (ring_notin _ _ _ _ _ Hr') as Hy. pose proof (ring_notin _ _ _ _ _ Hr) as Hx.
  destruct (del_at m h a x (b ++ y :: c) Hr) as (m1 & E & R & P1 & P2 & F). rewrite E.
  assert (Nxy : x <> y) by (intros ->; apply Hy; right; apply in_or_app; left; apply in_or_app; cbn; auto).
  assert (R' : ring m1 h ((a ++ b) ++ y :: c)) by (rewrite <- app_assoc; exact R).
  assert (Hx' : ~ In x (h :: (a ++ b) ++ y :: c)) by (rewrite <- app_assoc; exact Hx).
  destruct (replace_at m1 h (a ++ b) y c x R' (poisoned_node _ _ P1 P2) Hx') as (m2 & E2 & R2 & G1 & G2 & G). rewrite E2.
  assert (Hn2 : node m2 y) by (destruct (ring_node_at _ _ _ _ _ R'); split; [rewrite G1|rewrite G2]; assumption).
  assert (Eq : (if last a h =? y then x else last a h) = last a h).
  { destruct (Z.eqb_spec (last a h) y) as [Ey|]; [|reflexivity]. exfalso. apply Hy. rewrite <- Ey. pose proof (last_in a h) as Q. cbn in *. repeat (rewrite ?in_app_iff in *; cbn in * ). tauto. }
  rewrite Eq. rewrite <- app_assoc in R2.
  destruct (add_last m2 h a (b ++ x :: c) y R2 Hn2) as (m3 & E3 & R3 & G3).
  { intros C. apply Hy. cbn in *. repeat (rewrite ?in_app_iff in *; cbn in * ). intuition congruence. }
  exists m3. split; [exact E3|]. split; [exact R3|].
  apply (frame_trans _ m m1); [exact F|]. apply (frame_trans _ m1 m2); [revert G|revert G3]; apply frame_incl; intros q Hq; cbn in *; repeat (rewrite ?in_app_iff in *; cbn in * ); tauto.
Qed.

(** ** Traversals *)
Lemma walk_ok m h : forall l a fuel, ~ In h l -> seg m a l h -> (length l <= fuel)%nat -> walk_from fuel m NEXT h (hd h l) = Some l.
Proof.
  induction l as [|x l IH]; intros a fuel Hh Hs Hf.
  - cbn [hd]. destruct fuel; cbn [walk_from]; rewrite Z.eqb_refl; reflexivity.
  - cbn [hd length] in *. destruct fuel as [|fuel]; [lia|]. cbn [walk_from]. destruct (Z.eqb_spec h x) as [->|Hx]; [exfalso; apply Hh; cbn; auto|].
    cbn [seg] in Hs. destruct Hs as [_ Hs]. assert (N : m x NEXT = Some (hd h l)) by (destruct l; cbn [seg hd] in *; apply Hs).
    unfold ld. rewrite N. rewrite (IH x fuel); [reflexivity|intros C; apply Hh; cbn; auto|exact Hs|lia].
Qed.
Lemma for_each_ok m h l fuel : ring m h l -> (length l <= fuel)%nat -> for_each fuel m h = Some l.
Proof.
  intros Hr Hf. unfold for_each, ld. rewrite (ring_next _ _ _ Hr). destruct Hr as [Hd Hs]. inversion_clear Hd. apply (walk_ok m h l h); assumption.
Qed.
Lemma walk_back_ok m h : forall l b fuel, ~ In h l -> seg m h l b -> (length l <= fuel)%nat -> walk_from fuel m PREV h (last l h) = Some (rev l).
Proof.
  induction l as [|x l IH] using rev_ind; intros b fuel Hh Hs Hf.
  - destruct fuel; cbn; rewrite Z.eqb_refl; reflexivity.
  - rewrite app_length in Hf. cbn [length] in Hf. rewrite last_snoc, rev_app_distr. cbn [rev app]. destruct fuel as [|fuel]; [lia|]. cbn [walk_from].
    destruct (Z.eqb_spec h x) as [->|Hx]; [exfalso; apply Hh; apply in_or_app; cbn; auto|].
    apply seg_app in Hs. destruct Hs as [Hs _]. assert (N : m x PREV = Some (last l h)).
    { destruct (snoc_cases _ l) as [->|(l0 & p & ->)]; [apply Hs|]. rewrite last_snoc. apply seg_app in Hs. apply Hs. }
    unfold ld. rewrite N. rewrite (IH x fuel); [reflexivity|intros C; apply Hh; apply in_or_app; auto|exact Hs|lia].
Qed.
Lemma for_each_reverse_ok m h l fuel : ring m h l -> (length l <= fuel)%nat -> for_each_reverse fuel m h = Some (rev l).
Proof.
  intros Hr Hf. unfold for_each_reverse, ld. rewrite (ring_prev _ _ _ Hr). destruct Hr as [Hd Hs]. inversion_clear Hd. apply (walk_back_ok m h l h); assumption.
Qed.
Lemma walk_safe_ok h drop : forall l2 l1 m fuel, ring m h (l1 ++ l2) -> (length l2 <= fuel)%nat -> exists m',
  (let* tmp := ld m (hd h l2) NEXT in walk_safe fuel m drop h (hd h l2) tmp) = Some (l2, m') /\ ring m' h (l1 ++ filter (fun x => negb (drop x)) l2) /\ frame (h :: l1 ++ l2) m m'.
Proof.
  induction l2 as [|x l2 IH]; intros l1 m fuel Hr Hf.
  - cbn [hd]. unfold ld. rewrite (ring_next _ _ _ Hr). exists m. split; [destruct fuel; cbn [walk_safe]; rewrite Z.eqb_refl; reflexivity|]. split; [exact Hr|]. intros q g _; reflexivity.
  - cbn [length] in Hf. destruct fuel as [|fuel]; [lia|]. cbn [hd]. unfold ld at 1. rewrite (next_at _ _ _ _ _ Hr). cbn [walk_safe filter].
    destruct (Z.eqb_spec x h) as [->|Hx]; [exfalso; destruct Hr as [Hd _]; inversion_clear Hd; apply H; apply in_or_app; cbn; auto|].
    destruct (drop x) eqn:Ed; cbn [negb].
    + destruct (del_at m h l1 x l2 Hr) as (m1 & E & R & _ & _ & F). rewrite E.
      destruct (IH l1 m1 fuel R ltac:(lia)) as (m2 & E2 & R2 & G). destruct (ld m1 (hd h l2) NEXT) as [t|]; [|discriminate E2].
      rewrite E2. exists m2. split; [reflexivity|]. split; [exact R2|]. apply (frame_trans _ m m1); [exact F|].
      revert G. apply frame_incl. intros q Hq. cbn in *. rewrite in_app_iff in *. cbn. tauto.
    + assert (Hr' : ring m h ((l1 ++ [x]) ++ l2)) by (rewrite <- app_assoc; exact Hr).
      destruct (IH (l1 ++ [x]) m fuel Hr' ltac:(lia)) as (m2 & E2 & R2 & G). destruct (ld m (hd h l2) NEXT) as [t|]; [|discriminate E2].
      rewrite E2. exists m2. split; [reflexivity|]. rewrite <- app_assoc in R2, G. split; [exact R2|exact G].
Qed.
Lemma for_each_safe_ok m h l drop fuel : ring m h l -> (length l <= fuel)%nat -> exists m', for_each_safe fuel m drop h = Some (l, m') /\ ring m' h (filter (fun x => negb (drop x)) l) /\ frame (h :: l) m m'.
Proof.
  intros Hr Hf. unfold for_each_safe. unfold ld at 1. rewrite (ring_next _ _ _ Hr). apply (walk_safe_ok h drop l [] m fuel Hr Hf).
Qed.
