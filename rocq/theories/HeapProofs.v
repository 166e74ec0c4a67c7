(** * Binary heap: what the memory operations do to the tree *)
From Verif Require Import Lib Ptr Tree TiterModel RbProofs RbInsert RbFrame HeapModel.

Notation utree := (tree unit).
Notation uctx := (ctx unit).
(** Nothing is asked of the payload. *)
Definition U (m : mem) (a : Z) (x : unit) : Prop := True.
Lemma U_frame m m' a x : (forall f, 3 <= f -> m' a f = m a f) -> U m a x -> U m' a x.
Proof. intros _ H. exact H. Qed.

(** What every store of the heap code keeps: which fields exist, and all fields after the links. *)
Definition keep3 (m m' : mem) : Prop := dom m m' /\ forall a f, 3 <= f -> m' a f = m a f.
Lemma keep3_refl m : keep3 m m.
Proof. split; [apply dom_refl|reflexivity]. Qed.
Lemma keep3_trans m1 m2 m3 : keep3 m1 m2 -> keep3 m2 m3 -> keep3 m1 m3.
Proof. intros [A B] [C D]. split; [eapply dom_trans; eassumption|]. intros a f H. rewrite D, B by exact H. reflexivity. Qed.
Lemma keep3_st m p f v m' : f < 3 -> st m p f v = Some m' -> keep3 m m'.
Proof.
  intros Hf H. apply st_inv in H. destruct H as [[x Hx] ->]. split.
  - intros a g. unfold upd. destruct ((a =? p) && (g =? f)) eqn:B; [|tauto]. apply andb_true_iff in B. destruct B as [B1 B2]. apply Z.eqb_eq in B1, B2. subst. rewrite Hx. split; discriminate.
  - intros a g Hg. apply upd_other. right. lia.
Qed.
Lemma keep3_adopt m c p m' : adopt m c p = Some m' -> keep3 m m'.
Proof. unfold adopt. destruct (c =? NULL); intros H; [injection H as <-; apply keep3_refl|revert H; apply keep3_st; reflexivity]. Qed.
Lemma keep3_change m rt g o n m' : hp_change m rt g o n = Some m' -> keep3 m m'.
Proof.
  unfold hp_change. destruct (g =? NULL); [apply keep3_st; reflexivity|]. destruct (ld m g LEFT) as [l|]; [|discriminate]. destruct (l =? o); apply keep3_st; reflexivity.
Qed.
Ltac kstep := match goal with
  | H : match ?e with Some _ => _ | None => _ end = Some _ |- _ => let E := fresh "E" in destruct e eqn:E; [|discriminate H]
  | H : st _ _ _ _ = Some _ |- _ => apply keep3_st in H; [|reflexivity]
  | H : adopt _ _ _ = Some _ |- _ => apply keep3_adopt in H
  | H : hp_change _ _ _ _ _ = Some _ |- _ => apply keep3_change in H
  | H : (if ?b then _ else _) = Some _ |- _ => destruct b
  | H : Some _ = Some _ |- _ => injection H as H; try subst
  end.
Ltac kchain := repeat match goal with H : keep3 ?a ?b |- keep3 ?a _ => apply (keep3_trans _ _ _ H); clear H end; apply keep3_refl.
Lemma keep3_swap m rt p n m' : parent_swap m rt p n = Some m' -> keep3 m m'.
Proof. unfold parent_swap. intros H. repeat kstep; kchain. Qed.

Section Rt.
Variable rt : Z.
Notation rep := (rep U).
Notation crep := (crep U rt).
Notation apart := (apart rt).
Notation tree_at := (tree_at U rt).
Notation loc := (@loc unit rt).

Lemma uloc_in (k : uctx) : (ind (loc k) rt + cntk (loc k) k >= 1)%nat.
Proof. destruct k as [|[d x a s] k]; cbn [Tree.loc cntk]; rewrite ind_refl; lia. Qed.
Lemma uaddr_null (k : uctx) (t : utree) : apart k t -> (addr t =? NULL) = match t with E => true | _ => false end.
Proof.
  intros D. destruct t as [|x l a r]; [reflexivity|]. cbn [addr]. apply Z.eqb_neq. intros ->. pose proof (D NULL) as H. cbn [cnt] in H. rewrite ?ind_refl in H. lia.
Qed.
(** The pointer at the end of the path is replaced, whatever happened below. *)
Lemma hp_change_ok m (k : uctx) h h' : (forall z, ind z 0 + ind z rt + cntk z k <= 1)%nat -> h <> 0 -> cntk h k = 0%nat -> crep m k h ->
  hp_change m rt (cpar k) h h' = Some (upd m (loc k) (lfield k) h').
Proof.
  intros D Hh Hk H. unfold hp_change. destruct k as [|[d x a s] k]; cbn [cpar Tree.loc lfield].
  - rewrite Z.eqb_refl. apply (st_some _ _ _ _ h). exact H.
  - cbn [Tree.crep] in H. destruct H as (H1 & H2 & H3 & _). cbn [cntk] in *.
    assert (Ha : a <> NULL) by (intros ->; pose proof (D NULL) as D0; rewrite ?ind_refl in D0; lia).
    rewrite (proj2 (Z.eqb_neq _ _) Ha). destruct d; cbn [side opp] in *; unfold ld.
    + rewrite H2, Z.eqb_refl. apply (st_some _ _ _ _ h). exact H2.
    + rewrite H3. assert (N : addr s <> h).
      { destruct s as [|y l b r]; cbn [addr]; [congruence|]. intros ->. cbn [cnt] in Hk. rewrite ind_refl in Hk. lia. }
      rewrite (proj2 (Z.eqb_neq _ _) N). apply (st_some _ _ _ _ h). exact H2.
Qed.
(** Adopting a subtree changes one field. *)
Definition adopted (m : mem) (t : utree) (p : Z) : mem := match t with E => m | T _ _ b _ => upd m b PARENT p end.
Lemma adopt_ok m (t : utree) par p : addr t <> 0 \/ t = E -> rep m par t -> adopt m (addr t) p = Some (adopted m t p).
Proof.
  intros H0 H. unfold adopt, adopted. destruct t as [|x l b r]; [reflexivity|]. cbn [addr] in *. assert (N : b <> NULL) by (destruct H0; [assumption|discriminate]). rewrite (proj2 (Z.eqb_neq _ _) N). apply st_ex. exists par. apply H.
Qed.
Lemma rep_adopted m (t : utree) par p : cnt (addr t) t = match t with E => 0%nat | _ => 1%nat end -> rep m par t -> rep (adopted m t p) p t.
Proof.
  destruct t as [|x l b r]; [auto|]. cbn [cnt addr adopted Tree.rep]. rewrite ind_refl. intros H (H1 & H2 & H3 & _ & H5 & H6). rewrite upd_same. rewrite !upd_other by (right; discriminate).
  repeat split; try assumption; apply rep_upd; try exact U_frame; try assumption; lia.
Qed.
Lemma adopted_other m (t : utree) p a f : cnt a t = 0%nat \/ f <> PARENT -> adopted m t p a f = m a f.
Proof.
  destruct t as [|x l b r]; [reflexivity|]. cbn [cnt adopted]. intros [H|H]; apply upd_other; [|right; exact H]. left. intros ->. rewrite ind_refl in H. lia.
Qed.
Lemma adopted_rep m (t s : utree) par p : (forall z, cnt z t + cnt z s <= 1)%nat -> rep m par s -> rep (adopted m t p) par s.
Proof.
  destruct t as [|x l b r]; [auto|]. cbn [adopted]. intros D. apply rep_upd; [exact U_frame|]. specialize (D b). cbn [cnt] in D. rewrite ind_refl in D. lia.
Qed.
Lemma adopted_crep m (t : utree) (k : uctx) h p : (forall z, ind z rt + cntk z k + cnt z t <= 1)%nat -> crep m k h -> crep (adopted m t p) k h.
Proof.
  destruct t as [|x l b r]; [auto|]. cbn [adopted]. intros D. specialize (D b). cbn [cnt] in D. rewrite ind_refl in D. apply crep_upd; [exact U_frame|lia|lia].
Qed.
Lemma nz_or (k : uctx) (t : utree) : (forall z, ind z 0 + cnt z t <= 1)%nat -> addr t <> 0 \/ t = E.
Proof. intros D. destruct t as [|x l a r]; [right; reflexivity|left]. cbn [addr]. intros ->. specialize (D 0). cbn [cnt] in D. rewrite !ind_refl in D. lia. Qed.

(** heap.c:11-47 exchanges a node with its parent. *)
Lemma swap_l m (k : uctx) x y l n r a s : tree_at m (plug (F L x a s :: k) (T y l n r)) ->
  exists m', parent_swap m rt a n = Some m' /\ tree_at m' (plug k (T y (T x l a r) n s)) /\ m' rt COUNT = m rt COUNT.
Proof.
  intros H. apply tree_at_focus in H. destruct H as (Hk & Ht & D). cbn [addr Tree.rep Tree.crep side opp cpar cntk cnt] in *.
  destruct Hk as (A1 & A2 & A3 & _ & As & Hk). destruct Ht as (N1 & N2 & N3 & _ & Hl & Hr). unfold Tree.apart in D. cbn [cnt cntk] in D.
  assert (Nan : a <> n) by (intros ->; specialize (D n); rewrite ind_refl in D; lia).
  assert (Cn : cnt n l = 0%nat /\ cnt n r = 0%nat /\ cnt n s = 0%nat /\ cntk n k = 0%nat /\ ind n rt = 0%nat /\ ind n 0 = 0%nat) by (specialize (D n); rewrite ind_refl in D; lia).
  assert (Ca : cnt a l = 0%nat /\ cnt a r = 0%nat /\ cnt a s = 0%nat /\ cntk a k = 0%nat /\ ind a rt = 0%nat /\ ind a 0 = 0%nat) by (specialize (D a); rewrite ind_refl in D; lia).
  destruct Cn as (Cn1 & Cn2 & Cn3 & Cn4 & Cn5 & Cn6), Ca as (Ca1 & Ca2 & Ca3 & Ca4 & Ca5 & Ca6).
  pose (m1 := adopted m l a). pose (m2 := adopted m1 r a).
  assert (F2 : forall f b, b = a \/ b = n -> m2 b f = m b f).
  { intros f b Hb. unfold m2, m1. rewrite !adopted_other; [reflexivity|left; destruct Hb; subst; assumption|left; destruct Hb; subst; assumption]. }
  pose (m3 := upd (upd m2 n LEFT a) n RIGHT (addr s)). pose (m4 := adopted m3 s n).
  assert (F4 : forall f, m4 a f = m a f). { intros f. unfold m4. rewrite adopted_other by (left; exact Ca3). unfold m3. rewrite !upd_other by (left; exact Nan). apply F2. left; reflexivity. }
  pose (m5 := upd m4 n PARENT (cpar k)). pose (m6 := upd m5 (loc k) (lfield k) n).
  pose (m7 := upd (upd (upd (upd m6 a PARENT a) a LEFT (addr l)) a RIGHT (addr r)) a PARENT n).
  assert (Nl : loc k <> n /\ loc k <> a). { pose proof (uloc_in k) as LI. split; intros E0; rewrite E0 in LI; lia. }
  destruct Nl as [Nl1 Nl2].
  assert (Hl1 : rep m1 a l).
  { apply (rep_adopted m l n a); [|exact Hl]. specialize (D (addr l)). destruct l as [|? ? b ?]; [reflexivity|]. cbn [addr cnt] in *. rewrite ind_refl in *. lia. }
  assert (Hr1 : rep m1 n r) by (apply adopted_rep; [intros z; specialize (D z); lia|exact Hr]).
  assert (Hs1 : rep m1 a s) by (apply adopted_rep; [intros z; specialize (D z); lia|exact As]).
  assert (Hk1 : crep m1 k a) by (apply adopted_crep; [intros z; specialize (D z); lia|exact Hk]).
  assert (Hr2 : rep m2 a r).
  { apply (rep_adopted m1 r n a); [|exact Hr1]. specialize (D (addr r)). destruct r as [|? ? b ?]; [reflexivity|]. cbn [addr cnt] in *. rewrite ind_refl in *. lia. }
  assert (Hl2 : rep m2 a l) by (apply adopted_rep; [intros z; specialize (D z); lia|exact Hl1]).
  assert (Hs2 : rep m2 a s) by (apply adopted_rep; [intros z; specialize (D z); lia|exact Hs1]).
  assert (Hk2 : crep m2 k a) by (apply adopted_crep; [intros z; specialize (D z); lia|exact Hk1]).
  assert (G3 : forall t par, cnt n t = 0%nat -> rep m2 par t -> rep m3 par t) by (intros t par Hc H; unfold m3; repeat (apply rep_upd; [exact U_frame|exact Hc|]); exact H).
  assert (Hk3 : crep m3 k a) by (unfold m3; repeat (apply crep_upd; [exact U_frame|assumption|assumption|]); exact Hk2).
  assert (Hs4 : rep m4 n s).
  { apply (rep_adopted m3 s a n); [|apply G3; assumption]. specialize (D (addr s)). destruct s as [|? ? b ?]; [reflexivity|]. cbn [addr cnt] in *. rewrite ind_refl in *. lia. }
  assert (Hl4 : rep m4 a l) by (apply adopted_rep; [intros z; specialize (D z); lia|apply G3; assumption]).
  assert (Hr4 : rep m4 a r) by (apply adopted_rep; [intros z; specialize (D z); lia|apply G3; assumption]).
  assert (Hk4 : crep m4 k a) by (apply adopted_crep; [intros z; specialize (D z); lia|exact Hk3]).
  assert (Hk5 : crep m5 k a) by (apply crep_upd; [exact U_frame|assumption|assumption|exact Hk4]).
  assert (Hk6 : crep m6 k n) by (apply (crep_relink U U_frame rt m5 k a); [intros z; specialize (D z); lia|exact Hk5]).
  assert (LK : forall t : utree, (cnt (loc k) t = 0%nat \/ True) -> (forall z, (ind z rt + cntk z k + cnt z t <= 1)%nat) -> cnt (loc k) t = 0%nat) by (intros t _ H; specialize (H (loc k)); pose proof (uloc_in k); lia).
  assert (G6 : forall t par, cnt n t = 0%nat -> (forall z, (ind z rt + cntk z k + cnt z t <= 1)%nat) -> rep m4 par t -> rep m6 par t).
  { intros t par Hc Hd H. apply rep_upd; [exact U_frame|apply LK; [right; exact I|exact Hd]|]. apply rep_upd; [exact U_frame|exact Hc|exact H]. }
  assert (Hs6 : rep m6 n s) by (apply G6; [assumption|intros z; specialize (D z); lia|assumption]).
  assert (Hl6 : rep m6 a l) by (apply G6; [assumption|intros z; specialize (D z); lia|assumption]).
  assert (Hr6 : rep m6 a r) by (apply G6; [assumption|intros z; specialize (D z); lia|assumption]).
  assert (G7 : forall t par, cnt a t = 0%nat -> rep m6 par t -> rep m7 par t) by (intros t par Hc H; unfold m7; repeat (apply rep_upd; [exact U_frame|exact Hc|]); exact H).
  exists m7. split; [|split].
  - unfold parent_swap, ld. rewrite N2. rewrite (adopt_ok m l n a) by (try assumption; apply (nz_or k); intros z; specialize (D z); lia). fold m1.
    assert (F1 : forall f, m1 n f = m n f) by (intros f; apply adopted_other; left; assumption). rewrite F1, N3.
    rewrite (adopt_ok m1 r n a) by (try assumption; apply (nz_or k); intros z; specialize (D z); lia). fold m2.
    rewrite !F2 by tauto. rewrite N1, N2, N3, A2, Z.eqb_refl.
    rewrite st_ex by (rewrite F2 by tauto; eauto). rewrite upd_other by (left; exact Nan). rewrite F2 by tauto. rewrite A3. rewrite st_ex by (apply upd_ex; rewrite F2 by tauto; eauto). fold m3.
    rewrite (adopt_ok m3 s a n); [|apply (nz_or k); intros z; specialize (D z); lia|apply G3; assumption]. fold m4. rewrite F4, A1.
    assert (X : exists v, m4 n PARENT = Some v). { unfold m4. rewrite adopted_other by (left; exact Cn3). unfold m3. do 2 apply upd_ex. rewrite F2 by tauto. eauto. }
    rewrite (st_ex _ _ _ _ X). fold m5. rewrite (hp_change_ok m5 k a n); [|intros z; specialize (D z); lia|intros ->; rewrite ind_refl in Ca6; lia|assumption|exact Hk5]. fold m6.
    assert (F6 : forall f, m6 a f = m a f) by (intros f; unfold m6, m5; rewrite !upd_other by (left; congruence); apply F4).
    rewrite st_ex by (rewrite F6; eauto). rewrite st_ex by (apply upd_ex; rewrite F6; eauto). rewrite st_ex by (do 2 apply upd_ex; rewrite F6; eauto). rewrite st_ex by (do 3 apply upd_ex; rewrite F6; eauto). reflexivity.
  - apply tree_at_focus. split; [|split].
    + cbn [addr]. unfold m7. repeat (apply crep_upd; [exact U_frame|assumption|assumption|]). exact Hk6.
    + cbn [Tree.rep addr]. repeat split.
      * unfold m7. rewrite !upd_other by (left; congruence). unfold m6. rewrite upd_other by (left; congruence). unfold m5. apply upd_same.
      * unfold m7. rewrite !upd_other by (left; congruence). unfold m6. rewrite upd_other by (left; congruence). unfold m5. rewrite upd_other by (right; discriminate). unfold m4. rewrite adopted_other by (right; discriminate). unfold m3. rewrite upd_other by (right; discriminate). apply upd_same.
      * unfold m7. rewrite !upd_other by (left; congruence). unfold m6. rewrite upd_other by (left; congruence). unfold m5. rewrite upd_other by (right; discriminate). unfold m4. rewrite adopted_other by (right; discriminate). unfold m3. apply upd_same.
      * unfold m7. apply upd_same.
      * unfold m7. rewrite !(upd_other _ _ PARENT), (upd_other _ _ RIGHT) by (right; discriminate). apply upd_same.
      * unfold m7. rewrite (upd_other _ _ PARENT) by (right; discriminate). apply upd_same.
      * apply G7; assumption.
      * apply G7; assumption.
      * apply G7; assumption.
    + intros z. specialize (D z). cbn [cnt]. lia.
  - assert (Cr : cnt rt l = 0%nat /\ cnt rt r = 0%nat /\ cnt rt s = 0%nat) by (specialize (D rt); rewrite ind_refl in D; lia).
    assert (Nrn : rt <> n) by (apply not_eq_sym, ind0_ne; assumption). assert (Nra : rt <> a) by (apply not_eq_sym, ind0_ne; assumption).
    unfold m7. rewrite !upd_other by (left; assumption). unfold m6. rewrite upd_other. 2:{ destruct k as [|[d y' b s'] k]; cbn [Tree.loc lfield]; [right; discriminate|left]. intros <-. specialize (D rt). cbn [cntk] in D. rewrite ind_refl in D. lia. }
    unfold m5. rewrite upd_other by (left; assumption). unfold m4. rewrite adopted_other by (left; tauto). unfold m3. rewrite !upd_other by (left; assumption). unfold m2, m1. rewrite !adopted_other by (left; tauto). reflexivity.
Qed.
Lemma swap_r m (k : uctx) x y l n r a s : tree_at m (plug (F R x a s :: k) (T y l n r)) ->
  exists m', parent_swap m rt a n = Some m' /\ tree_at m' (plug k (T y s n (T x l a r))) /\ m' rt COUNT = m rt COUNT.
Proof.
  intros H. apply tree_at_focus in H. destruct H as (Hk & Ht & D). cbn [addr Tree.rep Tree.crep side opp cpar cntk cnt] in *.
  destruct Hk as (A1 & A2 & A3 & _ & As & Hk). destruct Ht as (N1 & N2 & N3 & _ & Hl & Hr). unfold Tree.apart in D. cbn [cnt cntk] in D.
  assert (Nan : a <> n) by (intros ->; specialize (D n); rewrite ind_refl in D; lia).
  assert (Cn : cnt n l = 0%nat /\ cnt n r = 0%nat /\ cnt n s = 0%nat /\ cntk n k = 0%nat /\ ind n rt = 0%nat /\ ind n 0 = 0%nat) by (specialize (D n); rewrite ind_refl in D; lia).
  assert (Ca : cnt a l = 0%nat /\ cnt a r = 0%nat /\ cnt a s = 0%nat /\ cntk a k = 0%nat /\ ind a rt = 0%nat /\ ind a 0 = 0%nat) by (specialize (D a); rewrite ind_refl in D; lia).
  destruct Cn as (Cn1 & Cn2 & Cn3 & Cn4 & Cn5 & Cn6), Ca as (Ca1 & Ca2 & Ca3 & Ca4 & Ca5 & Ca6).
  pose (m1 := adopted m l a). pose (m2 := adopted m1 r a).
  assert (F2 : forall f b, b = a \/ b = n -> m2 b f = m b f).
  { intros f b Hb. unfold m2, m1. rewrite !adopted_other; [reflexivity|left; destruct Hb; subst; assumption|left; destruct Hb; subst; assumption]. }
  pose (m3 := upd (upd m2 n RIGHT a) n LEFT (addr s)). pose (m4 := adopted m3 s n).
  assert (F4 : forall f, m4 a f = m a f). { intros f. unfold m4. rewrite adopted_other by (left; exact Ca3). unfold m3. rewrite !upd_other by (left; exact Nan). apply F2. left; reflexivity. }
  pose (m5 := upd m4 n PARENT (cpar k)). pose (m6 := upd m5 (loc k) (lfield k) n).
  pose (m7 := upd (upd (upd (upd m6 a PARENT a) a LEFT (addr l)) a RIGHT (addr r)) a PARENT n).
  assert (Nl : loc k <> n /\ loc k <> a). { pose proof (uloc_in k) as LI. split; intros E0; rewrite E0 in LI; lia. }
  destruct Nl as [Nl1 Nl2].
  assert (Hl1 : rep m1 a l).
  { apply (rep_adopted m l n a); [|exact Hl]. specialize (D (addr l)). destruct l as [|? ? b ?]; [reflexivity|]. cbn [addr cnt] in *. rewrite ind_refl in *. lia. }
  assert (Hr1 : rep m1 n r) by (apply adopted_rep; [intros z; specialize (D z); lia|exact Hr]).
  assert (Hs1 : rep m1 a s) by (apply adopted_rep; [intros z; specialize (D z); lia|exact As]).
  assert (Hk1 : crep m1 k a) by (apply adopted_crep; [intros z; specialize (D z); lia|exact Hk]).
  assert (Hr2 : rep m2 a r).
  { apply (rep_adopted m1 r n a); [|exact Hr1]. specialize (D (addr r)). destruct r as [|? ? b ?]; [reflexivity|]. cbn [addr cnt] in *. rewrite ind_refl in *. lia. }
  assert (Hl2 : rep m2 a l) by (apply adopted_rep; [intros z; specialize (D z); lia|exact Hl1]).
  assert (Hs2 : rep m2 a s) by (apply adopted_rep; [intros z; specialize (D z); lia|exact Hs1]).
  assert (Hk2 : crep m2 k a) by (apply adopted_crep; [intros z; specialize (D z); lia|exact Hk1]).
  assert (G3 : forall t par, cnt n t = 0%nat -> rep m2 par t -> rep m3 par t) by (intros t par Hc H; unfold m3; repeat (apply rep_upd; [exact U_frame|exact Hc|]); exact H).
  assert (Hk3 : crep m3 k a) by (unfold m3; repeat (apply crep_upd; [exact U_frame|assumption|assumption|]); exact Hk2).
  assert (Hs4 : rep m4 n s).
  { apply (rep_adopted m3 s a n); [|apply G3; assumption]. specialize (D (addr s)). destruct s as [|? ? b ?]; [reflexivity|]. cbn [addr cnt] in *. rewrite ind_refl in *. lia. }
  assert (Hl4 : rep m4 a l) by (apply adopted_rep; [intros z; specialize (D z); lia|apply G3; assumption]).
  assert (Hr4 : rep m4 a r) by (apply adopted_rep; [intros z; specialize (D z); lia|apply G3; assumption]).
  assert (Hk4 : crep m4 k a) by (apply adopted_crep; [intros z; specialize (D z); lia|exact Hk3]).
  assert (Hk5 : crep m5 k a) by (apply crep_upd; [exact U_frame|assumption|assumption|exact Hk4]).
  assert (Hk6 : crep m6 k n) by (apply (crep_relink U U_frame rt m5 k a); [intros z; specialize (D z); lia|exact Hk5]).
  assert (LK : forall t : utree, (cnt (loc k) t = 0%nat \/ True) -> (forall z, (ind z rt + cntk z k + cnt z t <= 1)%nat) -> cnt (loc k) t = 0%nat) by (intros t _ H; specialize (H (loc k)); pose proof (uloc_in k); lia).
  assert (G6 : forall t par, cnt n t = 0%nat -> (forall z, (ind z rt + cntk z k + cnt z t <= 1)%nat) -> rep m4 par t -> rep m6 par t).
  { intros t par Hc Hd H. apply rep_upd; [exact U_frame|apply LK; [right; exact I|exact Hd]|]. apply rep_upd; [exact U_frame|exact Hc|exact H]. }
  assert (Hs6 : rep m6 n s) by (apply G6; [assumption|intros z; specialize (D z); lia|assumption]).
  assert (Hl6 : rep m6 a l) by (apply G6; [assumption|intros z; specialize (D z); lia|assumption]).
  assert (Hr6 : rep m6 a r) by (apply G6; [assumption|intros z; specialize (D z); lia|assumption]).
  assert (G7 : forall t par, cnt a t = 0%nat -> rep m6 par t -> rep m7 par t) by (intros t par Hc H; unfold m7; repeat (apply rep_upd; [exact U_frame|exact Hc|]); exact H).
  exists m7. split; [|split].
  - unfold parent_swap, ld. rewrite N2. rewrite (adopt_ok m l n a) by (try assumption; apply (nz_or k); intros z; specialize (D z); lia). fold m1.
    assert (F1 : forall f, m1 n f = m n f) by (intros f; apply adopted_other; left; assumption). rewrite F1, N3.
    rewrite (adopt_ok m1 r n a) by (try assumption; apply (nz_or k); intros z; specialize (D z); lia). fold m2.
    rewrite !F2 by tauto. rewrite N1, N2, N3, A3.
    assert (Ns : addr s <> n) by (destruct s as [|? ? b ?]; cbn [addr]; [intros <-; rewrite ind_refl in Cn6; lia|]; intros ->; cbn [cnt] in Cn3; rewrite ind_refl in Cn3; lia). rewrite (proj2 (Z.eqb_neq _ _) Ns).
    rewrite st_ex by (rewrite F2 by tauto; eauto). rewrite upd_other by (left; exact Nan). rewrite F2 by tauto. rewrite A3. rewrite st_ex by (apply upd_ex; rewrite F2 by tauto; eauto). fold m3.
    rewrite (adopt_ok m3 s a n); [|apply (nz_or k); intros z; specialize (D z); lia|apply G3; assumption]. fold m4. rewrite F4, A1.
    assert (X : exists v, m4 n PARENT = Some v). { unfold m4. rewrite adopted_other by (left; exact Cn3). unfold m3. do 2 apply upd_ex. rewrite F2 by tauto. eauto. }
    rewrite (st_ex _ _ _ _ X). fold m5. rewrite (hp_change_ok m5 k a n); [|intros z; specialize (D z); lia|intros ->; rewrite ind_refl in Ca6; lia|assumption|exact Hk5]. fold m6.
    assert (F6 : forall f, m6 a f = m a f) by (intros f; unfold m6, m5; rewrite !upd_other by (left; congruence); apply F4).
    rewrite st_ex by (rewrite F6; eauto). rewrite st_ex by (apply upd_ex; rewrite F6; eauto). rewrite st_ex by (do 2 apply upd_ex; rewrite F6; eauto). rewrite st_ex by (do 3 apply upd_ex; rewrite F6; eauto). reflexivity.
  - apply tree_at_focus. split; [|split].
    + cbn [addr]. unfold m7. repeat (apply crep_upd; [exact U_frame|assumption|assumption|]). exact Hk6.
    + cbn [Tree.rep addr]. repeat split.
      * unfold m7. rewrite !upd_other by (left; congruence). unfold m6. rewrite upd_other by (left; congruence). unfold m5. apply upd_same.
      * unfold m7. rewrite !upd_other by (left; congruence). unfold m6. rewrite upd_other by (left; congruence). unfold m5. rewrite upd_other by (right; discriminate). unfold m4. rewrite adopted_other by (right; discriminate). unfold m3. apply upd_same.
      * unfold m7. rewrite !upd_other by (left; congruence). unfold m6. rewrite upd_other by (left; congruence). unfold m5. rewrite upd_other by (right; discriminate). unfold m4. rewrite adopted_other by (right; discriminate). unfold m3. rewrite upd_other by (right; discriminate). apply upd_same.
      * apply G7; assumption.
      * unfold m7. apply upd_same.
      * unfold m7. rewrite !(upd_other _ _ PARENT), (upd_other _ _ RIGHT) by (right; discriminate). apply upd_same.
      * unfold m7. rewrite (upd_other _ _ PARENT) by (right; discriminate). apply upd_same.
      * apply G7; assumption.
      * apply G7; assumption.
    + intros z. specialize (D z). cbn [cnt]. lia.
  - assert (Cr : cnt rt l = 0%nat /\ cnt rt r = 0%nat /\ cnt rt s = 0%nat) by (specialize (D rt); rewrite ind_refl in D; lia).
    assert (Nrn : rt <> n) by (apply not_eq_sym, ind0_ne; assumption). assert (Nra : rt <> a) by (apply not_eq_sym, ind0_ne; assumption).
    unfold m7. rewrite !upd_other by (left; assumption). unfold m6. rewrite upd_other. 2:{ destruct k as [|[d y' b s'] k]; cbn [Tree.loc lfield]; [right; discriminate|left]. intros <-. specialize (D rt). cbn [cntk] in D. rewrite ind_refl in D. lia. }
    unfold m5. rewrite upd_other by (left; assumption). unfold m4. rewrite adopted_other by (left; tauto). unfold m3. rewrite !upd_other by (left; assumption). unfold m2, m1. rewrite !adopted_other by (left; tauto). reflexivity.
Qed.

Lemma crep_count m (k : uctx) h v : cntk rt k = 0%nat -> crep m k h -> crep (upd m rt COUNT v) k h.
Proof.
  revert h. induction k as [|[d x b s] k IH]; intros h H; cbn [Tree.crep cntk] in *.
  - intros H1. rewrite upd_other; [exact H1|right; discriminate].
  - assert (N : b <> rt) by (intros ->; rewrite ind_refl in H; lia). intros (H1 & H2 & H3 & H4 & H5 & H6).
    rewrite !upd_other by (left; exact N). repeat split; try assumption; [apply rep_upd; [exact U_frame|lia|assumption]|apply IH; [lia|assumption]].
Qed.
Lemma at_count m t v : tree_at m t -> tree_at (upd m rt COUNT v) t.
Proof.
  intros (H1 & H2 & D). split; [rewrite upd_other by (right; discriminate); exact H1|]. split; [|exact D]. apply rep_upd; [exact U_frame| |exact H2]. specialize (D rt). rewrite ind_refl in D. lia.
Qed.
(** A node object: its links are there. *)
Definition hnode (m : mem) (n : Z) : Prop := forall f, 0 <= f < 3 -> exists v, m n f = Some v.
Lemma keep3_hnode m m' n : keep3 m m' -> hnode m n -> hnode m' n.
Proof. intros [D _] H f Hf. destruct (H f Hf) as [v Hv]. destruct (m' n f) eqn:E0; [eauto|]. apply D in E0. congruence. Qed.
(** heap.h:144-158 *)
Lemma link_ok m (k : uctx) n c : tree_at m (plug k E) -> hnode m n -> n <> 0 -> n <> rt -> cntk n k = 0%nat -> m rt COUNT = Some c ->
  exists m', hp_link m rt (cpar k) (loc k, lfield k) n = Some m' /\ tree_at m' (plug k (T tt E n E)) /\ m' rt COUNT = Some (w64 (c + 1)).
Proof.
  intros H HN N0 N1 Hc HC. apply tree_at_focus in H. destruct H as (Hk & _ & D). unfold Tree.apart in D. cbn [addr] in Hk.
  assert (Nl : loc k <> n) by (intros E0; pose proof (uloc_in k) as LI; rewrite E0 in LI; rewrite (ind_ne _ _ N1) in LI; lia).
  pose (m1 := upd m (loc k) (lfield k) n). pose (m2 := upd (upd (upd m1 n PARENT (cpar k)) n RIGHT NULL) n LEFT NULL).
  assert (HL : exists v, m (loc k) (lfield k) = Some v) by (destruct k as [|[d x a s] k]; cbn [Tree.loc lfield Tree.crep] in *; [eauto|exists 0; tauto]).
  assert (C1 : m1 rt COUNT = Some c).
  { unfold m1. rewrite upd_other; [exact HC|]. destruct k as [|[d x a s] k]; cbn [Tree.loc lfield]; [right; discriminate|left]. intros <-. specialize (D rt). cbn [cntk] in D. rewrite ind_refl in D. lia. }
  assert (C2 : m2 rt COUNT = Some c) by (unfold m2; rewrite !upd_other by (left; congruence); exact C1).
  assert (X : forall f, 0 <= f < 3 -> exists v, m1 n f = Some v) by (intros f Hf; unfold m1; apply upd_ex, HN, Hf).
  exists (upd m2 rt COUNT (w64 (c + 1))). split; [|split].
  - unfold hp_link, ld. cbn [fst snd]. rewrite (st_ex _ _ _ _ HL). fold m1. rewrite st_ex by (apply X; split; [discriminate|reflexivity]). rewrite st_ex by (apply upd_ex, X; split; [discriminate|reflexivity]). rewrite st_ex by (do 2 apply upd_ex; apply X; split; [discriminate|reflexivity]).
    fold m2. rewrite C2. apply (st_some _ _ _ _ _ C2).
  - apply at_count. apply tree_at_focus. split; [|split].
    + cbn [addr]. unfold m2. repeat (apply crep_upd; [exact U_frame|apply ind_ne; exact N1|exact Hc|]). apply (crep_relink U U_frame rt m k 0); [intros z; specialize (D z); lia|exact Hk].
    + cbn [Tree.rep addr]. unfold m2. repeat split.
      * rewrite !upd_other by (right; discriminate). apply upd_same.
      * apply upd_same.
      * rewrite upd_other by (right; discriminate). apply upd_same.
    + intros z. specialize (D z). cbn [cnt]. unfold ind at 3. destruct (Z.eqb_spec z n) as [->|N]; [|lia]. rewrite (ind_ne n 0 N0), (ind_ne n rt N1). lia.
  - apply upd_same.
Qed.
(** heap.c:117-121 the last node is unlinked. *)
Lemma detach_ok m (k : uctx) d x a s y n : tree_at m (plug (F d x a s :: k) (T y E n E)) ->
  (let* pl := ld m a LEFT in if pl =? n then st m a LEFT NULL else st m a RIGHT NULL) = Some (upd m a (side d) NULL) /\ tree_at (upd m a (side d) NULL) (plug (F d x a s :: k) E).
Proof.
  intros H. apply tree_at_focus in H. destruct H as (Hk & Ht & D). unfold Tree.apart in D. cbn [addr Tree.crep] in Hk. destruct Hk as (A1 & A2 & A3 & _ & As & Hk). split.
  - unfold ld. destruct d; cbn [side opp] in *.
    + rewrite A2, Z.eqb_refl. apply (st_some _ _ _ _ _ A2).
    + rewrite A3. assert (N : addr s <> n).
      { destruct s as [|z sl b sr]; cbn [addr]; [intros <-; specialize (D 0)|intros ->; specialize (D n)]; cbn [cnt cntk] in D; rewrite !ind_refl in D; lia. }
      rewrite (proj2 (Z.eqb_neq _ _) N). apply (st_some _ _ _ _ _ A2).
  - apply tree_at_focus. split; [|split; [exact I|intros z; specialize (D z); cbn [cnt] in *; lia]]. cbn [addr Tree.crep].
    pose proof (D a) as Da. cbn [cntk cnt] in Da. rewrite ind_refl in Da. rewrite upd_same, !upd_other by (right; pose proof (side_par d); pose proof (side_ne d); congruence).
    repeat split; try assumption; [apply rep_upd; [exact U_frame|lia|exact As]|apply crep_upd; [exact U_frame|lia|lia|exact Hk]].
Qed.
Lemma inherit_ok m (k : uctx) x l o r n : tree_at m (plug k (T x l o r)) -> hnode m n -> n <> 0 -> n <> rt -> cnt n (plug k (T x l o r)) = 0%nat ->
  exists m', hp_inherit rt m o n = Some m' /\ tree_at m' (plug k (T x l n r)) /\ m' rt COUNT = m rt COUNT.
Proof.
  intros H HN N0 N1 Hc. apply tree_at_focus in H. destruct H as (Hk & Ht & D). rewrite cnt_plug in Hc. cbn [addr Tree.rep cnt] in *. destruct Ht as (T1 & T2 & T3 & _ & Hl & Hr). unfold Tree.apart in D. cbn [cnt] in D.
  assert (No : n <> o) by (intros ->; rewrite ind_refl in Hc; lia).
  assert (Co : cnt o l = 0%nat /\ cnt o r = 0%nat /\ cntk o k = 0%nat /\ ind o rt = 0%nat /\ ind o 0 = 0%nat) by (specialize (D o); rewrite ind_refl in D; lia). destruct Co as (Co1 & Co2 & Co3 & Co4 & Co5).
  assert (Cn : cnt n l = 0%nat /\ cnt n r = 0%nat /\ cntk n k = 0%nat) by lia. destruct Cn as (Cn1 & Cn2 & Cn3). pose proof (ind_ne _ _ N1) as Cn4.
  assert (Nl : loc k <> n /\ loc k <> o) by (pose proof (uloc_in k) as LI; split; intros E0; rewrite E0 in LI; lia). destruct Nl as [Nl1 Nl2].
  pose (m1 := upd (upd (upd m n PARENT (cpar k)) n LEFT (addr l)) n RIGHT (addr r)). pose (m2 := adopted m1 l n). pose (m3 := adopted m2 r n). pose (m4 := upd m3 (loc k) (lfield k) n).
  assert (O1 : forall f, m1 o f = m o f) by (intros f; unfold m1; rewrite !upd_other by (left; congruence); reflexivity).
  assert (O2 : forall f, m2 o f = m o f) by (intros f; unfold m2; rewrite adopted_other by (left; assumption); apply O1).
  assert (O3 : forall f, m3 o f = m o f) by (intros f; unfold m3; rewrite adopted_other by (left; assumption); apply O2).
  assert (Hk1 : crep m1 k o) by (unfold m1; repeat (apply crep_upd; [exact U_frame|assumption|assumption|]); exact Hk).
  assert (Hl1 : rep m1 o l) by (unfold m1; repeat (apply rep_upd; [exact U_frame|assumption|]); exact Hl).
  assert (Hr1 : rep m1 o r) by (unfold m1; repeat (apply rep_upd; [exact U_frame|assumption|]); exact Hr).
  assert (Hk2 : crep m2 k o) by (apply adopted_crep; [intros z; specialize (D z); lia|exact Hk1]).
  assert (Hl2 : rep m2 n l). { apply (rep_adopted m1 l o n); [|exact Hl1]. specialize (D (addr l)). destruct l as [|? ? b ?]; [reflexivity|]. cbn [addr cnt] in *. rewrite ind_refl in *. lia. }
  assert (Hr2 : rep m2 o r) by (apply adopted_rep; [intros z; specialize (D z); lia|exact Hr1]).
  assert (Hk3 : crep m3 k o) by (apply adopted_crep; [intros z; specialize (D z); lia|exact Hk2]).
  assert (Hl3 : rep m3 n l) by (apply adopted_rep; [intros z; specialize (D z); lia|exact Hl2]).
  assert (Hr3 : rep m3 n r). { apply (rep_adopted m2 r o n); [|exact Hr2]. specialize (D (addr r)). destruct r as [|? ? b ?]; [reflexivity|]. cbn [addr cnt] in *. rewrite ind_refl in *. lia. }
  assert (Hk4 : crep m4 k n) by (apply (crep_relink U U_frame rt m3 k o); [intros z; specialize (D z); lia|exact Hk3]).
  assert (LK : forall t : utree, (forall z, (ind z rt + cntk z k + cnt z t <= 1)%nat) -> cnt (loc k) t = 0%nat) by (intros t H; specialize (H (loc k)); pose proof (uloc_in k); lia).
  exists m4. split; [|split].
  - unfold hp_inherit, ld. rewrite T1, T2, T3. rewrite st_ex by (apply HN; split; [discriminate|reflexivity]). rewrite st_ex by (apply upd_ex, HN; split; [discriminate|reflexivity]). rewrite st_ex by (do 2 apply upd_ex; apply HN; split; [discriminate|reflexivity]). fold m1.
    rewrite O1, T2. rewrite (adopt_ok m1 l o n) by (try assumption; apply (nz_or k); intros z; specialize (D z); lia). fold m2. rewrite O2, T3. rewrite (adopt_ok m2 r o n) by (try assumption; apply (nz_or k); intros z; specialize (D z); lia). fold m3. rewrite O3, T1.
    destruct k as [|[d y b s] k]; cbn [cpar Tree.loc lfield Tree.crep cntk] in *.
    + change (0 =? NULL) with true. cbn iota. apply (st_some _ _ _ _ _ Hk3).
    + assert (Nb : b <> NULL) by (intros ->; specialize (D 0); unfold NULL in D; rewrite !ind_refl in D; lia). rewrite (proj2 (Z.eqb_neq _ _) Nb). destruct Hk3 as (B1 & B2 & B3 & _). destruct d; cbn [side opp] in *.
      * rewrite B2, Z.eqb_refl. apply (st_some _ _ _ _ _ B2).
      * rewrite B3. assert (N : o <> addr s) by (destruct s as [|? ? c ?]; cbn [addr]; [intros ->; rewrite ind_refl in Co5; lia|]; intros ->; cbn [cnt] in Co3; rewrite ind_refl in Co3; lia).
        rewrite (proj2 (Z.eqb_neq _ _) N). rewrite B2, Z.eqb_refl. apply (st_some _ _ _ _ _ B2).
  - apply tree_at_focus. split; [exact Hk4|]. split.
    + cbn [Tree.rep addr]. assert (M4 : forall f, m4 n f = m3 n f) by (intros f; unfold m4; apply upd_other; left; congruence). assert (M3 : forall f, m3 n f = m1 n f) by (intros f; unfold m3, m2; rewrite !adopted_other by (left; assumption); reflexivity).
      rewrite !M4, !M3. unfold m1. repeat split.
      * rewrite !upd_other by (right; discriminate). apply upd_same.
      * rewrite upd_other by (right; discriminate). apply upd_same.
      * apply upd_same.
      * apply rep_upd; [exact U_frame|apply LK; intros z; specialize (D z); lia|exact Hl3].
      * apply rep_upd; [exact U_frame|apply LK; intros z; specialize (D z); lia|exact Hr3].
    + intros z. specialize (D z). cbn [cnt]. unfold ind at 3. destruct (Z.eqb_spec z n) as [->|N]; [|unfold ind in D at 3; destruct (Z.eqb_spec z o); lia]. rewrite (ind_ne n 0 N0), Cn4. lia.
  - assert (Cr : cnt rt l = 0%nat /\ cnt rt r = 0%nat) by (specialize (D rt); rewrite ind_refl in D; lia).
    unfold m4. rewrite upd_other. 2:{ destruct k as [|[d y b s] k]; cbn [Tree.loc lfield]; [right; discriminate|left]. intros <-. specialize (D rt). cbn [cntk] in D. rewrite ind_refl in D. lia. }
    unfold m3, m2. rewrite !adopted_other by (left; tauto). unfold m1. rewrite !upd_other by (left; congruence). reflexivity.
Qed.
End Rt.
