(** * Red-black trees: the rotations *)
From Verif Require Import Lib Ptr Tree TiterModel RbModel.

Lemma st_ex m p f v : (exists x, m p f = Some x) -> st m p f v = Some (upd m p f v).
Proof. intros [x H]. apply (st_some _ _ _ _ x H). Qed.
Lemma upd_ex m p f v q g : (exists x, m q g = Some x) -> exists x, upd m p f v q g = Some x.
Proof. intros H. unfold upd. destruct ((q =? p) && (g =? f)); eauto. Qed.

Notation btree := (tree bool).
Notation bctx := (ctx bool).
(** A colour is [true] for black. *)
Definition zc (c : bool) : Z := if c then BLACK else RED.
Definition V (m : mem) (a : Z) (c : bool) : Prop := m a COLOR = Some (zc c).
Lemma V_frame : forall m m' a x, (forall f, 3 <= f -> m' a f = m a f) -> V m a x -> V m' a x.
Proof. intros m m' a x H. unfold V. rewrite H by reflexivity. auto. Qed.
Lemma ind0_ne a b : ind a b = 0%nat -> a <> b.
Proof. intros H ->. rewrite ind_refl in H. discriminate. Qed.
Definition same4 (m m' : mem) := forall a f, f < 4 -> m' a f = m a f.
Definition rest4 (m m' : mem) := forall a f, 4 <= f -> m' a f = m a f.
Lemma rest4_refl m : rest4 m m.
Proof. intros a f _. reflexivity. Qed.
Lemma rest4_trans m m' m'' : rest4 m m' -> rest4 m' m'' -> rest4 m m''.
Proof. intros H H' a f Hf. rewrite (H' a f Hf). apply H, Hf. Qed.
Lemma rest4_upd m m' a f v : f < 4 -> rest4 m m' -> rest4 m (upd m' a f v).
Proof. intros Hf H b g Hg. rewrite upd_other by (right; lia). apply H, Hg. Qed.

Definition black (t : btree) : Prop := match t with E => True | T c _ _ _ => c = true end.
(** Change the colour of the root of a subtree, if there is one. *)
Definition paint (o : option bool) (t : btree) : btree :=
  match o, t with Some c, T _ l a r => T c l a r | _, _ => t end.
Definition ocol (o : option bool) (c : bool) : bool := match o with Some c' => c' | None => c end.
Definition zo (o : option bool) : Z := match o with Some c => zc c | None => NSET end.
Lemma zo_nset o : (zo o =? NSET) = match o with None => true | Some _ => false end.
Proof. destruct o as [[|]|]; reflexivity. Qed.
Lemma addr_paint o t : addr (paint o t) = addr t.
Proof. destruct o, t; reflexivity. Qed.
Lemma cnt_paint z o t : cnt z (paint o t) = cnt z t.
Proof. destruct o, t; reflexivity. Qed.
Lemma inorder_paint o t : inorder (paint o t) = inorder t.
Proof. destruct o, t; reflexivity. Qed.

Section Rt.
Variable rt : Z.
Notation rep := (rep V).
Notation crep := (crep V rt).
Notation apart := (apart rt).
Notation tree_at := (tree_at V rt).
Notation loc := (@loc bool rt).

Lemma rep_same4 m m' par t : same4 m m' -> rep m par t -> rep m' par t.
Proof.
  intros S4. revert par. induction t as [|x l IHl b r IHr]; intros par; cbn [Tree.rep]; [auto|]. intros (H1 & H2 & H3 & H4 & H5 & H6).
  unfold V in *. rewrite !S4 by reflexivity. repeat split; auto.
Qed.
Lemma tree_at_same4 m m' t : same4 m m' -> tree_at m t -> tree_at m' t.
Proof. intros S4 (H1 & H2 & H3). split; [rewrite S4 by reflexivity; exact H1|split; [apply (rep_same4 m), H2; exact S4|exact H3]]. Qed.
Lemma loc_in (k : bctx) : (ind (loc k) rt + cntk (loc k) k >= 1)%nat.
Proof. destruct k as [|[d x a s] k]; cbn [Tree.loc cntk]; rewrite ind_refl; lia. Qed.
Lemma loc_par (k : bctx) (t : btree) z : apart k t -> (cnt z t > 0)%nat -> loc k <> z.
Proof. intros D H Hz. pose proof (D z). pose proof (loc_in k). rewrite Hz in *. lia. Qed.
Lemma cpar_null (k : bctx) (t : btree) : apart k t -> (cpar k =? NULL) = match k with [] => true | _ => false end.
Proof.
  intros D. destruct k as [|[d x a s] k]; [reflexivity|]. cbn [cpar]. apply Z.eqb_neq. intros ->. pose proof (D NULL) as H. cbn [cntk] in H.
  rewrite ?ind_refl in H. lia.
Qed.
Lemma addr_null (k : bctx) (t : btree) : apart k t -> (addr t =? NULL) = match t with E => true | _ => false end.
Proof.
  intros D. destruct t as [|x l a r]; [reflexivity|]. cbn [addr]. apply Z.eqb_neq. intros ->. pose proof (D NULL) as H. cbn [cnt] in H.
  rewrite ?ind_refl in H. lia.
Qed.
(** rbtree.c:18-28: the pointer at the end of the path is replaced, whatever happened below. *)
Lemma child_change_ok m (k : bctx) h h' : (forall z, ind z 0 + ind z rt + cntk z k <= 1)%nat -> h <> 0 -> cntk h k = 0%nat -> crep m k h ->
  child_change m rt (cpar k) h h' = Some (upd m (loc k) (lfield k) h').
Proof.
  intros D Hh Hk H. unfold child_change. destruct k as [|[d x a s] k]; cbn [cpar Tree.loc lfield].
  - rewrite Z.eqb_refl. apply (st_some _ _ _ _ h). exact H.
  - cbn [Tree.crep] in H. destruct H as (H1 & H2 & H3 & _). cbn [cntk] in *.
    assert (Ha : a <> NULL) by (intros ->; pose proof (D NULL) as D0; rewrite ?ind_refl in D0; lia).
    rewrite (proj2 (Z.eqb_neq _ _) Ha). destruct d; cbn [side opp] in *; unfold ld.
    + rewrite H2, Z.eqb_refl. apply (st_some _ _ _ _ h). exact H2.
    + rewrite H3. assert (N : addr s <> h).
      { destruct s as [|y l b r]; cbn [addr]; [congruence|]. intros ->. cbn [cnt] in Hk. rewrite ind_refl in Hk. lia. }
      rewrite (proj2 (Z.eqb_neq _ _) N). apply (st_some _ _ _ _ h). exact H2.
Qed.
End Rt.

Ltac apd_fast rt D a :=
  first [match a with loc _ ?k => generalize (loc_in rt k) | _ => idtac end]; generalize (D a); clear; cbn [cnt cntk addr up]; rewrite ?cnt_paint; rewrite ?ind_refl; lia.
Ltac apd_slow rt D a :=
  let H := fresh "Dz" in pose proof (D a) as H; try (match a with loc _ ?k => pose proof (loc_in rt k) end); cbn [cnt cntk addr up] in *; rewrite ?cnt_paint in *; rewrite ?ind_refl in H; lia.
Ltac apd rt D a := first [solve [apd_fast rt D a] | apd_slow rt D a].
Ltac apz rt D :=
  match goal with
  | |- ?a <> ?b => first [solve [apply ind0_ne; apd rt D a] | solve [apply not_eq_sym; apply ind0_ne; apd rt D b]]
  | |- cnt ?a _ = _ => apd rt D a
  | |- ind ?a _ = _ => apd rt D a
  | |- cntk ?a _ = _ => apd rt D a
  end.
(** Discharge frame conditions of a chain of updates. *)
Ltac frame rt D := repeat first [assumption | apply rep_upd; [exact V_frame|apz rt D|] | apply crep_upd; [exact V_frame|apz rt D|apz rt D|]].
Ltac upz rt D := repeat first [rewrite upd_same | rewrite upd_other by first [right; discriminate | left; first [assumption | apply not_eq_sym; assumption | apz rt D]]].
Ltac stz := rewrite st_ex by (repeat apply upd_ex; eauto).
