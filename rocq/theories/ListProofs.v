(** * Doubly linked lists *)
From Verif Require Import Lib Ptr ListModel ListSpec.
From Coq Require Import Sorting.Permutation.

Lemma st_ex m p f v : (exists x, m p f = Some x) -> st m p f v = Some (upd m p f v).
Proof. intros [x H]. apply (st_some _ _ _ _ x H). Qed.
Lemma upd_ex m p f v q g : (exists x, m q g = Some x) -> exists x, upd m p f v q g = Some x.
Proof. intros H. unfold upd. destruct ((q =? p) && (g =? f)); eauto. Qed.
Lemma fields : NEXT <> PREV.
Proof. discriminate. Qed.
Ltac ne := first [congruence | (left; congruence) | (right; discriminate) | (right; congruence)].
Ltac ldr := unfold ld; repeat first [rewrite upd_same | rewrite upd_other by ne].
Ltac sts := rewrite st_ex by (repeat apply upd_ex; eauto).
Ltac upds := repeat first [rewrite upd_same | rewrite upd_other by ne]; try reflexivity; try assumption.

Lemma linked_ex m a b : linked m a b -> (exists x, m a NEXT = Some x) /\ (exists x, m b PREV = Some x).
Proof. intros [H1 H2]. eauto. Qed.
Lemma seg_app m a l1 x l2 b : seg m a (l1 ++ x :: l2) b <-> seg m a l1 x /\ seg m x l2 b.
Proof. revert a. induction l1 as [|y l1 IH]; intros a; cbn [seg app]; [tauto|]. rewrite IH. tauto. Qed.
Lemma seg_frame m m' a l b : (forall x, In x (a :: l) -> m' x NEXT = m x NEXT) -> (forall x, In x (l ++ [b]) -> m' x PREV = m x PREV) ->
  seg m a l b -> seg m' a l b.
Proof.
  revert a. induction l as [|y l IH]; intros a Hn Hp H; cbn [seg] in *.
  - destruct H as [H1 H2]. split; [rewrite Hn; [assumption|cbn; auto]|rewrite Hp; [assumption|cbn; auto]].
  - destruct H as [[H1 H2] H3]. split; [split|].
    + rewrite Hn; [assumption|cbn; auto].
    + rewrite Hp; [assumption|cbn; auto].
    + apply IH; [| |exact H3]; intros x Hx; [apply Hn|apply Hp]; cbn in *; tauto.
Qed.
Lemma rotate m h l1 x l2 : ring m h (l1 ++ x :: l2) <-> ring m x (l2 ++ h :: l1).
Proof.
  unfold ring. rewrite !seg_app. assert (P : NoDup (h :: l1 ++ x :: l2) <-> NoDup (x :: l2 ++ h :: l1)).
  { split; intros H; eapply Permutation_NoDup; try eassumption.
    - change (h :: l1 ++ x :: l2) with ((h :: l1) ++ (x :: l2)). change (x :: l2 ++ h :: l1) with ((x :: l2) ++ (h :: l1)). apply Permutation_app_comm.
    - change (h :: l1 ++ x :: l2) with ((h :: l1) ++ (x :: l2)). change (x :: l2 ++ h :: l1) with ((x :: l2) ++ (h :: l1)). apply Permutation_app_comm. }
  rewrite P. tauto.
Qed.
(** Every member is an object with both links, and the first and last nodes are where the head says. *)
Lemma seg_end m a l b : seg m a l b -> (exists x, m a NEXT = Some x) /\ (exists x, m b PREV = Some x).
Proof. revert a. induction l as [|y l IH]; intros a H; cbn [seg] in H; [apply linked_ex, H|]. destruct H as [[H1 H2] H3]. destruct (IH _ H3). eauto. Qed.
Lemma ring_nodes m h l : ring m h l -> forall x, In x (h :: l) -> node m x.
Proof.
  intros H x [<-|Hx].
  - destruct H as [_ H]. apply seg_end in H. exact H.
  - apply in_split in Hx. destruct Hx as (l1 & l2 & ->). apply rotate in H. destruct H as [_ H]. apply seg_end in H. exact H.
Qed.
Lemma ring_next m h l : ring m h l -> m h NEXT = Some (hd h l).
Proof. intros [_ H]. destruct l; cbn [seg hd] in *; [apply H|apply H]. Qed.
Lemma last_snoc A (l : list A) x d : last (l ++ [x]) d = x.
Proof. induction l as [|a l IH]; [reflexivity|]. cbn [app last]. destruct (l ++ [x]) eqn:E; [destruct l; discriminate|]. exact IH. Qed.
Lemma snoc_cases A (l : list A) : l = [] \/ exists l' x, l = l' ++ [x].
Proof. induction l as [|a l IH] using rev_ind; [left; reflexivity|right; eauto]. Qed.
Lemma ring_prev m h l : ring m h l -> m h PREV = Some (last l h).
Proof.
  intros [_ H]. destruct (snoc_cases _ l) as [->|(l' & x & ->)]; [apply H|]. rewrite last_snoc. apply seg_app in H. apply H.
Qed.

(** ** The primitive link operations *)
Lemma insert_ok m a b n : (exists x, m a NEXT = Some x) -> (exists x, m b PREV = Some x) -> node m n -> n <> a -> n <> b ->
  exists m', list_insert m a b n = Some m' /\ linked m' a n /\ linked m' n b /\
  forall q g, ~ (q = a /\ g = NEXT) -> ~ (q = b /\ g = PREV) -> ~ (q = n /\ (g = PREV \/ g = NEXT)) -> m' q g = m q g.
Proof.
  intros Ha Hb [Hn1 Hn2] Na Nb. unfold list_insert. sts. sts. sts. sts. eexists. split; [reflexivity|]. pose proof fields.
  split; [split; upds|]. split; [split; upds|].
  intros q g H1 H2 H3. rewrite !upd_other; try reflexivity; destruct (Z.eq_dec q n), (Z.eq_dec g PREV), (Z.eq_dec g NEXT), (Z.eq_dec q a), (Z.eq_dec q b); tauto.
Qed.
Lemma deluf_ok m a x b : linked m a x -> linked m x b -> x <> a -> x <> b ->
  exists m', list_deluf m x = Some m' /\ linked m' a b /\
  forall q g, ~ (q = a /\ g = NEXT) -> ~ (q = b /\ g = PREV) -> m' q g = m q g.
Proof.
  intros [A1 A2] [B1 B2] Na Nb. unfold list_deluf. unfold ld at 1 2. rewrite A2, B1. sts. ldr. rewrite B1. ldr. rewrite A2. sts.
  eexists. split; [reflexivity|]. pose proof fields. split; [split; upds|].
  intros q g H1 H2. rewrite !upd_other; try reflexivity; destruct (Z.eq_dec g PREV), (Z.eq_dec g NEXT), (Z.eq_dec q a), (Z.eq_dec q b); tauto.
Qed.
Lemma relocate_ok m p n k f t : m k NEXT = Some f -> m k PREV = Some t ->
  (exists x, m f PREV = Some x) -> (exists x, m p NEXT = Some x) -> (exists x, m t NEXT = Some x) -> (exists x, m n PREV = Some x) ->
  p <> t -> f <> n ->
  exists m', list_relocate m p n k = Some m' /\ linked m' p f /\ linked m' t n /\
  forall q g, ~ (q = f /\ g = PREV) -> ~ (q = p /\ g = NEXT) -> ~ (q = t /\ g = NEXT) -> ~ (q = n /\ g = PREV) -> m' q g = m q g.
Proof.
  intros K1 K2 Hf Hp Ht Hn N1 N2. unfold list_relocate. unfold ld at 1 2. rewrite K1, K2. sts. sts. sts. sts.
  eexists. split; [reflexivity|]. pose proof fields. split; [split; upds|]. split; [split; upds|].
  intros q g H1 H2 H3 H4. rewrite !upd_other; try reflexivity; destruct (Z.eq_dec g PREV), (Z.eq_dec g NEXT), (Z.eq_dec q f), (Z.eq_dec q p), (Z.eq_dec q t), (Z.eq_dec q n); tauto.
Qed.
Lemma replace_ok m a o b n : linked m a o -> linked m o b -> node m n -> n <> a -> n <> b -> n <> o -> a <> o -> b <> o ->
  exists m', list_replace m o n = Some m' /\ linked m' a n /\ linked m' n b /\
  forall q g, ~ (q = a /\ g = NEXT) -> ~ (q = b /\ g = PREV) -> ~ (q = n /\ (g = PREV \/ g = NEXT)) -> m' q g = m q g.
Proof.
  intros [A1 A2] [B1 B2] [Hn1 Hn2] Na Nb No Oa Ob. unfold list_replace. unfold ld at 1. rewrite A2. sts. ldr. rewrite B1. sts. ldr. sts. ldr. sts.
  eexists. split; [reflexivity|]. pose proof fields. split; [split; upds|]. split; [split; upds|].
  intros q g H1 H2 H3. rewrite !upd_other; try reflexivity; destruct (Z.eq_dec q n), (Z.eq_dec g PREV), (Z.eq_dec g NEXT), (Z.eq_dec q a), (Z.eq_dec q b); tauto.
Qed.
Lemma init_ok m h : node m h -> exists m', list_head_init m h = Some m' /\ linked m' h h /\
  forall q g, ~ (q = h /\ (g = PREV \/ g = NEXT)) -> m' q g = m q g.
Proof.
  intros [H1 H2]. unfold list_head_init. sts. sts. eexists. split; [reflexivity|]. pose proof fields. split; [split; upds|].
  intros q g Hq. rewrite !upd_other; try reflexivity; destruct (Z.eq_dec q h), (Z.eq_dec g PREV), (Z.eq_dec g NEXT); tauto.
Qed.

(** ** Operations on rings *)
Ltac nd H := repeat (match goal with K : NoDup (_ :: _) |- _ => inversion_clear K end).
Lemma add_ring m h l n : ring m h l -> node m n -> ~ In n (h :: l) ->
  exists m', list_add m h n = Some m' /\ ring m' h (n :: l) /\ frame (n :: h :: l) m m'.
Proof.
  intros Hr Hn Hi. pose proof (ring_next _ _ _ Hr) as E. unfold list_add, ld. rewrite E.
  assert (Hb : In (hd h l) (h :: l)) by (destruct l; cbn; auto).
  destruct (insert_ok m h (hd h l) n) as (m' & E' & L1 & L2 & F).
  - eauto.
  - apply (ring_nodes _ _ _ Hr). exact Hb.
  - exact Hn.
  - intros ->. apply Hi. cbn; auto.
  - intros ->. apply Hi. exact Hb.
  - exists m'. split; [exact E'|]. destruct Hr as [Hd Hs]. split; [split|].
    + constructor; [|constructor].
      * inversion_clear Hd. cbn. intros [->|C]; [apply Hi; cbn; auto|contradiction].
      * intros C. apply Hi. cbn; auto.
      * inversion_clear Hd. assumption.
    + cbn [seg]. split; [exact L1|]. destruct l as [|y l]; cbn [hd] in *; [exact L2|]. cbn [seg] in *. split; [exact L2|].
      destruct Hs as [_ Hs]. revert Hs. apply seg_frame.
      * intros x Hx. apply F.
        -- intros [-> _]. inversion_clear Hd. contradiction.
        -- intros [_ C]. discriminate C.
        -- intros [-> _]. apply Hi. cbn in *; tauto.
      * intros x Hx. apply in_app_or in Hx. apply F.
        -- intros [_ C]. discriminate C.
        -- intros [-> _]. inversion_clear Hd. inversion_clear H0. destruct Hx as [Hx|[<-|[]]]; [contradiction|]. apply H. cbn; auto.
        -- intros [-> _]. apply Hi. cbn in *. tauto.
    + intros q g Hq. apply F.
      * intros [-> ->]. destruct Hq as [Hq|[_ Hq]]; [apply Hq; cbn; auto|contradiction].
      * intros [-> ->]. destruct Hq as [Hq|[Hq _]]; [apply Hq; right; exact Hb|contradiction].
      * intros [-> [-> | ->]]; destruct Hq as [Hq|[Hq1 Hq2]]; try contradiction; apply Hq; cbn; auto.
Qed.
Lemma add_prev_ring m h l n : ring m h l -> node m n -> ~ In n (h :: l) ->
  exists m', list_add_prev m h n = Some m' /\ ring m' h (l ++ [n]) /\ frame (n :: h :: l) m m'.
Proof.
  intros Hr Hn Hi. pose proof (ring_prev _ _ _ Hr) as E.
  (* inserting before the head is inserting after the last node *)
  destruct (snoc_cases _ l) as [->|(l' & x & ->)].
  - cbn [last] in E. unfold list_add_prev, ld. rewrite E. pose proof (ring_next _ _ _ Hr) as E2.
    destruct (add_ring m h [] n Hr Hn Hi) as (m' & A & R & F). unfold list_add, ld in A. rewrite E2 in A. exists m'. auto.
  - rewrite last_snoc in E. unfold list_add_prev, ld. rewrite E.
    assert (Hr' := Hr). apply rotate in Hr'. cbn [app] in Hr'.
    destruct (add_ring m x (h :: l') n Hr' Hn) as (m' & A & R & F).
    { intros C. apply Hi. cbn in C. cbn. rewrite in_app_iff. cbn. tauto. }
    unfold list_add, ld in A. pose proof (ring_next _ _ _ Hr') as E2. rewrite E2 in A. cbn [hd] in A.
    exists m'. split; [exact A|]. split.
    + rewrite <- app_assoc. cbn [app]. apply rotate. cbn [app]. exact R.
    + intros q g Hq. apply F. destruct Hq as [Hq|Hq]; [left|right; exact Hq]. intros C. apply Hq. cbn in C. cbn. rewrite in_app_iff. cbn. tauto.
Qed.
Lemma deluf_ring m h x l : ring m h (x :: l) -> exists m', list_deluf m x = Some m' /\ ring m' h l /\
  m' x NEXT = m x NEXT /\ m' x PREV = m x PREV /\ frame (h :: l) m m'.
Proof.
  intros [Hd Hs]. inversion_clear Hd as [|? ? Hh Hd']. inversion_clear Hd' as [|? ? Hx Hd]. cbn [seg] in Hs. destruct Hs as [L1 Hs].
  assert (Nxh : x <> h) by (intros ->; apply Hh; cbn; auto).
  assert (Hhl : ~ In h l) by (intros C; apply Hh; cbn; auto).
  destruct l as [|y l].
  - destruct (deluf_ok m h x h L1 Hs Nxh Nxh) as (m' & E & L & F). exists m'. split; [exact E|].
    split; [split; [constructor; [auto|constructor]|exact L]|]. split; [apply F; intros [? ?]; congruence|]. split; [apply F; intros [? ?]; congruence|].
    intros q g Hq. apply F; intros [-> ->]; destruct Hq as [Hq|[Hq1 Hq2]]; try contradiction; apply Hq; cbn; auto.
  - cbn [seg] in Hs. destruct Hs as [L2 Hs]. assert (Nxy : x <> y) by (intros ->; apply Hx; cbn; auto).
    destruct (deluf_ok m h x y L1 L2 Nxh Nxy) as (m' & E & L & F). exists m'. split; [exact E|]. split; [split|].
    + constructor; assumption.
    + cbn [seg]. split; [exact L|]. revert Hs. apply seg_frame.
      * intros z Hz. apply F; intros [-> C]; [apply Hhl; exact Hz|discriminate C].
      * intros z Hz. apply in_app_or in Hz. apply F; intros [-> C]; [discriminate C|]. inversion_clear Hd. destruct Hz as [Hz|[<-|[]]]; [contradiction|]. apply Hhl. cbn; auto.
    + split; [apply F; intros [? ?]; congruence|]. split; [apply F; intros [? ?]; congruence|].
      intros q g Hq. apply F; intros [-> ->]; destruct Hq as [Hq|[Hq1 Hq2]]; try contradiction; apply Hq; cbn; auto.
Qed.

Lemma frame_incl S S' m m' : incl S S' -> frame S m m' -> frame S' m m'.
Proof. intros HI F q g Hq. apply F. destruct Hq as [Hq|Hq]; [left; intro C; apply Hq, HI, C|right; exact Hq]. Qed.
Lemma frame_trans S m1 m2 m3 : frame S m1 m2 -> frame S m2 m3 -> frame S m1 m3.
Proof. intros F G q g Hq. rewrite (G q g Hq). apply F, Hq. Qed.
Lemma frame_node S m m' p : frame S m m' -> ~ In p S -> node m p -> node m' p.
Proof. intros F Hp [[x H1] [y H2]]. split; [exists x|exists y]; rewrite F by auto; assumption. Qed.
(** A list read from the node before a position instead of from its head. *)
Lemma shift l1 h : exists p k, p = last l1 h /\ Permutation (p :: k) (h :: l1) /\ forall m r, ring m h (l1 ++ r) <-> ring m p (r ++ k).
Proof.
  destruct (snoc_cases _ l1) as [->|(l0 & p & ->)].
  - exists h, []. split; [reflexivity|]. split; [apply Permutation_refl|]. intros. rewrite app_nil_r. tauto.
  - exists p, (h :: l0). rewrite last_snoc. split; [reflexivity|]. split.
    + change (h :: l0 ++ [p]) with ((h :: l0) ++ [p]). change (p :: h :: l0) with ([p] ++ (h :: l0)). apply Permutation_app_comm.
    + intros. rewrite <- app_assoc. cbn [app]. apply rotate.
Qed.
Lemma deluf_at m h l1 x l2 : ring m h (l1 ++ x :: l2) -> exists m', list_deluf m x = Some m' /\ ring m' h (l1 ++ l2) /\
  m' x NEXT = m x NEXT /\ m' x PREV = m x PREV /\ frame (h :: l1 ++ l2) m m'.
Proof.
  intros Hr. destruct (shift l1 h) as (p & k & _ & Pk & S). apply S in Hr. cbn [app] in Hr.
  destruct (deluf_ring m p x (l2 ++ k) Hr) as (m' & E & R & F1 & F2 & F). exists m'. split; [exact E|]. split; [apply S; exact R|].
  split; [exact F1|]. split; [exact F2|]. revert F. apply frame_incl. intros q Hq.
  assert (Hq' : In q ((h :: l1) ++ l2)); [|exact Hq']. apply in_or_app. destruct Hq as [<-|Hq].
  - left. apply (Permutation_in _ Pk). cbn; auto.
  - apply in_app_or in Hq. destruct Hq as [Hq|Hq]; [auto|left; apply (Permutation_in _ Pk); cbn; auto].
Qed.
Lemma ring_other m m' h l S : frame S m m' -> (forall x, In x (h :: l) -> ~ In x S) -> ring m h l -> ring m' h l.
Proof.
  intros F D [Hd Hs]. split; [exact Hd|]. revert Hs. apply seg_frame; intros x Hx; apply F; left; apply D; [exact Hx|].
  apply in_app_or in Hx. cbn in *. tauto.
Qed.
Lemma ring_notin m h l1 x l2 : ring m h (l1 ++ x :: l2) -> ~ In x (h :: l1 ++ l2).
Proof.
  intros [Hd _] C. change (h :: l1 ++ x :: l2) with ((h :: l1) ++ x :: l2) in Hd. apply NoDup_remove_2 in Hd. apply Hd. exact C.
Qed.
Lemma ring_node_at m h l1 x l2 : ring m h (l1 ++ x :: l2) -> node m x.
Proof. intros H. apply (ring_nodes _ _ _ H). right. apply in_or_app. cbn; auto. Qed.
Lemma del_at m h l1 x l2 : ring m h (l1 ++ x :: l2) -> exists m', list_del m x = Some m' /\ ring m' h (l1 ++ l2) /\
  m' x NEXT = Some POISON_LIST1 /\ m' x PREV = Some POISON_LIST2 /\ frame (h :: l1 ++ x :: l2) m m'.
Proof.
  intros Hr. pose proof (ring_notin _ _ _ _ _ Hr) as Hx. pose proof (ring_node_at _ _ _ _ _ Hr) as Hn.
  destruct (deluf_at m h l1 x l2 Hr) as (m1 & E & R & F1 & F2 & F). unfold list_del. rewrite E.
  destruct Hn as [H1 H2]. rewrite <- F1 in H1. rewrite <- F2 in H2. sts. sts.
  set (m2 := upd (upd m1 x NEXT POISON_LIST1) x PREV POISON_LIST2). exists m2. split; [reflexivity|].
  assert (G : frame [x] m1 m2).
  { intros q g Hq. unfold m2. rewrite !upd_other; [reflexivity|destruct Hq as [Hq|Hq]; [left; intros ->; apply Hq; cbn; auto|right; tauto]|destruct Hq as [Hq|Hq]; [left; intros ->; apply Hq; cbn; auto|right; tauto]]. }
  split; [|split; [|split]].
  - apply (ring_other m1 m2 h (l1 ++ l2) [x] G); [|exact R]. intros y Hy [->|[]]. contradiction.
  - unfold m2. pose proof fields. upds.
  - unfold m2. upds.
  - apply (frame_trans _ m m1 m2).
    + revert F. apply frame_incl. intros q Hq. cbn in *. rewrite in_app_iff in *. cbn. tauto.
    + revert G. apply frame_incl. intros q [->|[]]. right. apply in_or_app. cbn; auto.
Qed.
Lemma add_at m h l1 x l2 n : ring m h (l1 ++ x :: l2) -> node m n -> ~ In n (h :: l1 ++ x :: l2) ->
  exists m', list_add m x n = Some m' /\ ring m' h (l1 ++ x :: n :: l2) /\ frame (n :: h :: l1 ++ x :: l2) m m'.
Proof.
  intros Hr Hn Hi. apply rotate in Hr. destruct (add_ring m x (l2 ++ h :: l1) n Hr Hn) as (m' & E & R & F).
  { intros C. apply Hi. cbn in *. rewrite in_app_iff in *. cbn in *. tauto. }
  exists m'. split; [exact E|]. split; [apply rotate; exact R|]. revert F. apply frame_incl. intros q Hq. cbn in *. rewrite in_app_iff in *. cbn in *. tauto.
Qed.
Lemma add_prev_at m h l1 x l2 n : ring m h (l1 ++ x :: l2) -> node m n -> ~ In n (h :: l1 ++ x :: l2) ->
  exists m', list_add_prev m x n = Some m' /\ ring m' h (l1 ++ n :: x :: l2) /\ frame (n :: h :: l1 ++ x :: l2) m m'.
Proof.
  intros Hr Hn Hi. apply rotate in Hr. destruct (add_prev_ring m x (l2 ++ h :: l1) n Hr Hn) as (m' & E & R & F).
  { intros C. apply Hi. cbn in *. rewrite in_app_iff in *. cbn in *. tauto. }
  exists m'. split; [exact E|]. split.
  - replace (l1 ++ n :: x :: l2) with ((l1 ++ [n]) ++ x :: l2) by (rewrite <- app_assoc; reflexivity). apply rotate. rewrite <- app_assoc in R. exact R.
  - revert F. apply frame_incl. intros q Hq. cbn in *. rewrite in_app_iff in *. cbn in *. tauto.
Qed.
(** Adding behind the node that ends a prefix. *)
Lemma add_last m h l1 l2 n : ring m h (l1 ++ l2) -> node m n -> ~ In n (h :: l1 ++ l2) ->
  exists m', list_add m (last l1 h) n = Some m' /\ ring m' h (l1 ++ n :: l2) /\ frame (n :: h :: l1 ++ l2) m m'.
Proof.
  intros Hr Hn Hi. destruct (snoc_cases _ l1) as [->|(l0 & p & ->)]; [apply add_ring; assumption|].
  rewrite last_snoc. rewrite <- !app_assoc in *. cbn [app] in *. apply add_at; assumption.
Qed.
Lemma replace_at m h l1 x l2 n : ring m h (l1 ++ x :: l2) -> node m n -> ~ In n (h :: l1 ++ x :: l2) ->
  exists m', list_replace m x n = Some m' /\ ring m' h (l1 ++ n :: l2) /\ m' x NEXT = m x NEXT /\ m' x PREV = m x PREV /\ frame (n :: h :: l1 ++ l2) m m'.
Proof.
  intros Hr Hn Hi. destruct (shift l1 h) as (p & k & _ & Pk & S). apply S in Hr. cbn [app] in Hr.
  destruct Hr as [Hd Hs]. cbn [seg] in Hs. destruct Hs as [L1 Hs].
  assert (Pin : forall q, In q (p :: k) <-> In q (h :: l1)) by (intros q; split; apply Permutation_in; [exact Pk|apply Permutation_sym, Pk]).
  assert (Hin : forall q, In q (p :: x :: l2 ++ k) <-> In q (h :: l1 ++ x :: l2)).
  { intros q. specialize (Pin q). cbn in *. rewrite !in_app_iff. cbn. tauto. }
  assert (Hi' : ~ In n (p :: x :: l2 ++ k)) by (rewrite Hin; exact Hi).
  inversion_clear Hd as [|? ? Hp Hd']. inversion_clear Hd' as [|? ? Hx Hd].
  assert (Npx : p <> x) by (intros ->; apply Hp; cbn; auto).
  assert (Nnp : n <> p) by (intros ->; apply Hi'; cbn; auto). assert (Nnx : n <> x) by (intros ->; apply Hi'; cbn; auto).
  set (b := hd p (l2 ++ k)).
  assert (Lb : linked m x b) by (unfold b; destruct (l2 ++ k); cbn [seg hd] in *; [exact Hs|apply Hs]).
  assert (Hb : In b (p :: l2 ++ k)) by (unfold b; destruct (l2 ++ k); cbn; auto).
  assert (Nnb : n <> b) by (intros ->; apply Hi'; cbn in *; tauto).
  assert (Nbx : b <> x) by (intros ->; destruct Hb as [Hb|Hb]; [congruence|contradiction]).
  destruct (replace_ok m p x b n L1 Lb Hn Nnp Nnb Nnx Npx Nbx) as (m' & E & R1 & R2 & F).
  exists m'. split; [exact E|]. split; [|split; [|split]].
  - apply S. cbn [app]. split.
    + constructor; [|constructor].
      * intros [C|C]; [congruence|]. apply Hp. cbn; auto.
      * intros C. apply Hi'. cbn; auto.
      * exact Hd.
    + cbn [seg]. split; [exact R1|]. unfold b in *. destruct (l2 ++ k) as [|y r] eqn:El; cbn [seg hd] in *; [exact R2|]. split; [exact R2|].
      destruct Hs as [_ Hs]. revert Hs. apply seg_frame; intros z Hz; apply F.
      * intros [-> _]. apply Hp. cbn in *; tauto.
      * intros [_ C]. discriminate C.
      * intros [-> _]. apply Hi'. cbn in *; tauto.
      * intros [_ C]. discriminate C.
      * intros [-> _]. apply in_app_or in Hz. inversion_clear Hd. destruct Hz as [Hz|[<-|[]]]; [contradiction|]. apply Hp. cbn; auto.
      * intros [-> _]. apply in_app_or in Hz. apply Hi'. cbn in *; tauto.
  - apply F; intros [C1 C2]; try congruence; discriminate.
  - apply F; intros [C1 C2]; try congruence; discriminate.
  - assert (Hp' : In p (h :: l1)) by (apply Pin; cbn; auto).
    assert (Hb' : In b (h :: l1 ++ l2)).
    { change (h :: l1 ++ l2) with ((h :: l1) ++ l2). apply in_or_app. destruct Hb as [<-|Hb]; [auto|]. apply in_app_or in Hb. destruct Hb as [Hb|Hb]; [auto|left; apply Pin; cbn; auto]. }
    intros q g Hq. apply F.
    + intros [-> ->]. destruct Hq as [Hq|[_ Hq]]; [|contradiction]. apply Hq. right. change (h :: l1 ++ l2) with ((h :: l1) ++ l2). apply in_or_app; auto.
    + intros [-> ->]. destruct Hq as [Hq|[Hq _]]; [|contradiction]. apply Hq. right. exact Hb'.
    + intros [-> [-> | ->]]; destruct Hq as [Hq|[Hq1 Hq2]]; try contradiction; apply Hq; cbn; auto.
Qed.
(** Consecutive nodes of a non-empty sequence are linked. *)
Fixpoint inner (m : mem) (l : list Z) : Prop :=
  match l with x :: ((y :: _) as r) => linked m x y /\ inner m r | _ => True end.
Lemma inner_cons m x y r : inner m (x :: y :: r) <-> linked m x y /\ inner m (y :: r).
Proof. reflexivity. Qed.
Lemma seg_inner m l : forall a b, seg m a l b <-> inner m (a :: l ++ [b]).
Proof.
  induction l as [|x l IH]; intros a b.
  - cbn. tauto.
  - cbn [app]. rewrite inner_cons. cbn [seg]. rewrite IH. reflexivity.
Qed.
Lemma inner_app m y r : forall l x, inner m ((x :: l) ++ y :: r) <-> inner m (x :: l) /\ linked m (last l x) y /\ inner m (y :: r).
Proof.
  induction l as [|z l IH]; intros x.
  - cbn [app last]. rewrite inner_cons. cbn. tauto.
  - change ((x :: z :: l) ++ y :: r) with (x :: z :: (l ++ y :: r)). rewrite !inner_cons.
    change (z :: l ++ y :: r) with ((z :: l) ++ y :: r). rewrite IH.
    replace (last (z :: l) x) with (last l z) by (clear; revert z; induction l as [|w l IH]; intros z; [reflexivity|]; cbn [last]; destruct l; [reflexivity|]; apply IH). tauto.
Qed.
Lemma inner_frame m m' l : (forall x, In x (removelast l) -> m' x NEXT = m x NEXT) -> (forall x, In x (tl l) -> m' x PREV = m x PREV) -> inner m l -> inner m' l.
Proof.
  induction l as [|x [|y r] IH]; intros H1 H2 H; [exact H|exact H|].
  rewrite inner_cons in *. destruct H as [[L1 L2] H]. split.
  - split; [rewrite H1; [exact L1|cbn; auto]|rewrite H2; [exact L2|cbn; auto]].
  - apply IH; [| |exact H].
    + intros z Hz. apply H1. change (removelast (x :: y :: r)) with (x :: removelast (y :: r)). right. exact Hz.
    + intros z Hz. apply H2. cbn in *. auto.
Qed.
Lemma last_not_removelast (l : list Z) x : NoDup (x :: l) -> ~ In (last l x) (removelast (x :: l)).
Proof.
  intros Hd C. destruct (snoc_cases _ l) as [->|(l0 & p & ->)]; [destruct C|].
  rewrite last_snoc in C. change (x :: l0 ++ [p]) with ((x :: l0) ++ [p]) in *. rewrite removelast_last in C.
  apply NoDup_remove_2 in Hd. rewrite app_nil_r in Hd. contradiction.
Qed.
Lemma removelast_in {A} (l : list A) x : In x (removelast l) -> In x l.
Proof.
  induction l as [|a [|b r] IH]; intros H; [exact H|destruct H|]. change (removelast (a :: b :: r)) with (a :: removelast (b :: r)) in H.
  destruct H as [->|H]; [cbn; auto|]. right. apply IH, H.
Qed.
Lemma last_in (l : list Z) x : In (last l x) (x :: l).
Proof. destruct (snoc_cases _ l) as [->|(l' & t & ->)]; [cbn; auto|]. rewrite last_snoc. right. apply in_or_app. cbn; auto. Qed.
Lemma last_cons (l : list Z) x k : last (x :: l) k = last l x.
Proof. revert x k. induction l as [|w l IH]; intros x k; [reflexivity|]. change (last (x :: w :: l) k) with (last (w :: l) k). rewrite !IH. reflexivity. Qed.
Lemma nodup_l (a b : list Z) : NoDup (a ++ b) -> NoDup a.
Proof. induction a as [|x a IH]; intros H; [constructor|]. inversion_clear H. constructor; [intros C; apply H0; apply in_or_app; auto|auto]. Qed.
Lemma nodup_r (a b : list Z) : NoDup (a ++ b) -> NoDup b.
Proof. induction a as [|x a IH]; intros H; [exact H|]. inversion_clear H. auto. Qed.
Lemma nodup_disj (a b : list Z) : NoDup (a ++ b) -> forall x, In x a -> In x b -> False.
Proof.
  induction a as [|y a IH]; cbn; intros Hd x H1 H2; [exact H1|]. inversion_clear Hd. destruct H1 as [->|H1]; [apply H; apply in_or_app; auto|eapply IH; eauto].
Qed.
Lemma nodup_join (a b : list Z) : NoDup a -> NoDup b -> (forall x, In x a -> In x b -> False) -> NoDup (a ++ b).
Proof.
  induction a as [|y a IH]; cbn; intros Ha Hb D; [exact Hb|]. inversion_clear Ha. constructor.
  - intros C. apply in_app_or in C. destruct C as [C|C]; [contradiction|]. apply (D y); auto.
  - apply IH; auto. intros x H1 H2. apply (D x); auto.
Qed.
(** Relocation of all the nodes of the list [k] into the list [h] after the prefix [l1]. *)
Lemma relocate_ring m h l1 l2 k f s : ring m h (l1 ++ l2) -> ring m k (f :: s) ->
  (forall x, In x (k :: f :: s) -> In x (h :: l1 ++ l2) -> False) ->
  exists m', list_relocate m (last l1 h) (hd h l2) k = Some m' /\ ring m' h (l1 ++ (f :: s) ++ l2) /\
  m' k NEXT = m k NEXT /\ m' k PREV = m k PREV /\ frame (h :: (l1 ++ l2) ++ (f :: s)) m m'.
Proof.
  intros Hr Hk D. pose proof (ring_next _ _ _ Hk) as K1. pose proof (ring_prev _ _ _ Hk) as K2. cbn [hd] in K1. rewrite last_cons in K2.
  set (p := last l1 h) in *. set (n := hd h l2) in *. set (t := last s f) in *.
  assert (Ht : In t (f :: s)) by apply last_in.
  assert (Hp : In p (h :: l1)) by apply last_in.
  assert (Hn : In n (h :: l2)) by (unfold n; destruct l2; cbn; auto).
  assert (Hp' : In p (h :: l1 ++ l2)) by (cbn in *; rewrite in_app_iff; tauto).
  assert (Hn' : In n (h :: l1 ++ l2)) by (cbn in *; rewrite in_app_iff; tauto).
  assert (D' : forall x, In x (f :: s) -> In x (h :: l1 ++ l2) -> False) by (intros x Hx; apply D; right; exact Hx).
  destruct (relocate_ok m p n k f t K1 K2) as (m' & E & L1 & L2 & F).
  - apply (ring_nodes _ _ _ Hk). cbn; auto.
  - apply (ring_nodes _ _ _ Hr). exact Hp'.
  - apply (ring_nodes _ _ _ Hk). cbn in *; tauto.
  - apply (ring_nodes _ _ _ Hr). exact Hn'.
  - intros C. apply (D' t); [exact Ht|]. rewrite <- C. exact Hp'.
  - intros C. apply (D' f); [cbn; auto|]. rewrite C. exact Hn'.
  - exists m'. split; [exact E|]. destruct Hr as [Hd Hsg]. destruct Hk as [Kd Ksg].
    assert (FN : forall x, x <> p -> x <> t -> m' x NEXT = m x NEXT) by (intros; apply F; intros [? ?]; try congruence; discriminate).
    assert (FP : forall x, x <> f -> x <> n -> m' x PREV = m x PREV) by (intros; apply F; intros [? ?]; try congruence; discriminate).
    assert (Hks : ~ In k (f :: s)) by (inversion_clear Kd; assumption).
    split; [split|].
    + change (h :: l1 ++ (f :: s) ++ l2) with ((h :: l1) ++ (f :: s) ++ l2). apply (Permutation_NoDup (l := ((f :: s) ++ (h :: l1) ++ l2))).
      * rewrite !app_assoc. apply Permutation_app_tail, Permutation_app_comm.
      * apply nodup_join; [inversion_clear Kd; assumption|exact Hd|exact D'].
    + apply seg_inner. apply seg_inner in Hsg. apply seg_inner in Ksg.
      assert (exists r, l2 ++ [h] = n :: r) as [r Er] by (unfold n; destruct l2; cbn; eauto).
      rewrite <- !app_assoc in *. cbn [app] in Ksg.
      rewrite Er in *. change (h :: l1 ++ n :: r) with ((h :: l1) ++ n :: r) in Hsg. apply inner_app in Hsg. destruct Hsg as (S1 & _ & S3).
      rewrite inner_cons in Ksg. destruct Ksg as [_ Ksg]. change (f :: s ++ [k]) with ((f :: s) ++ [k]) in Ksg. apply inner_app in Ksg. destruct Ksg as (S2 & _ & _).
      cbn [app]. change (h :: l1 ++ f :: s ++ n :: r) with ((h :: l1) ++ f :: s ++ n :: r). apply inner_app.
      change (f :: s ++ n :: r) with ((f :: s) ++ n :: r). 
      assert (Hd1 : NoDup (h :: l1)) by (change (h :: l1 ++ l2) with ((h :: l1) ++ l2) in Hd; apply nodup_l in Hd; exact Hd).
      assert (Hr' : forall x, In x (n :: r) -> In x (h :: l1 ++ l2)).
      { intros x Hx. rewrite <- Er in Hx. apply in_app_or in Hx. cbn. rewrite in_app_iff. cbn in Hx. tauto. }
      assert (NDr : NoDup (n :: r)).
      { rewrite <- Er. apply (Permutation_NoDup (l := h :: l2)); [change (h :: l2) with ([h] ++ l2); apply Permutation_app_comm|].
        inversion_clear Hd as [|? ? Hh Hd']. constructor; [intros C; apply Hh; apply in_or_app; auto|]. apply nodup_r in Hd'. exact Hd'. }
      split; [|split; [exact L1|rewrite inner_app; split; [|split; [exact L2|]]]].
      * revert S1. apply inner_frame; intros x Hx.
        -- apply FN; intros ->; [revert Hx; apply last_not_removelast, Hd1|]. apply removelast_in in Hx. apply (D' t Ht). cbn in *. rewrite in_app_iff. tauto.
        -- cbn [tl] in Hx. apply FP; intros ->.
           ++ apply (D' f); [cbn; auto|]. cbn. rewrite in_app_iff. tauto.
           ++ inversion_clear Hd as [|? ? Hh Hd']. destruct Hn as [<-|Hn]; [apply Hh; apply in_or_app; auto|]. apply (nodup_disj _ _ Hd' n Hx Hn).
      * inversion_clear Kd as [|? ? _ Kd']. revert S2. apply inner_frame; intros x Hx.
        -- apply FN; intros ->; [|revert Hx; apply last_not_removelast, Kd']. apply removelast_in in Hx. apply (D' p Hx Hp').
        -- cbn [tl] in Hx. apply FP; intros ->; [inversion_clear Kd'; contradiction|]. apply (D' n); [cbn; auto|exact Hn'].
      * revert S3. apply inner_frame; intros x Hx.
        -- apply FN; intros ->; [|apply removelast_in in Hx; apply (D' t Ht), Hr', Hx].
           rewrite <- Er in Hx. rewrite removelast_last in Hx. change (h :: l1 ++ l2) with ((h :: l1) ++ l2) in Hd. apply (nodup_disj _ _ Hd p Hp Hx).
        -- cbn [tl] in Hx. apply FP; intros ->; [apply (D' f); [cbn; auto|apply Hr'; cbn; auto]|]. inversion_clear NDr. contradiction.
    + split; [|split].
      * apply FN; intros ->; [apply (D p); [cbn; auto|exact Hp']|contradiction].
      * apply FP; intros ->; [apply Hks; cbn; auto|]. apply (D n); [cbn; auto|exact Hn'].
      * intros q g Hq. apply F; intros [-> ->].
        all: destruct Hq as [Hq|[Hq1 Hq2]]; [apply Hq; cbn in *; rewrite !in_app_iff in *; cbn; tauto|contradiction].
Qed.
