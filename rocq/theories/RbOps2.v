(** * Red-black trees: inserting, deleting and replacing in a larger memory *)
From Coq Require Import Sorting.Sorted.
From Verif Require Import Lib Ptr Tree TiterModel RbModel RbProofs RbRotate RbSpec RbInsert RbErase RbRemove RbRemove2 RbDelete RbFrame RbOps.

(** Objects outside the tree keep their fields. *)
Definition keeps (rt : Z) (t : btree) (m m' : mem) : Prop :=
  dom m m' /\ forall a f, f < 4 -> cnt a t = 0%nat -> ~ (a = rt /\ f = NODE) -> m' a f = m a f.
(** A node object: its four fields are there. *)
Definition node_at (m : mem) (n : Z) : Prop := forall f, 0 <= f < 4 -> m n f <> None.

(** Disequalities make [lia] split cases. *)
Ltac dl := repeat match goal with H : _ <> _ |- _ => clear H end; lia.
Section Rt.
Variable rt : Z.
Variable cb : callbacks.
Variable Q : mem -> tree unit -> Prop.
Hypothesis Qr : forall m m' t, rest4 m m' -> Q m t -> Q m' t.
Hypothesis HL : cb_local cb.
Notation tree_at := (tree_at V rt).
Notation St := (St rt Q).

Definition restr (t : btree) (m : mem) : mem := fun a f =>
  if (4 <=? f) || negb (cnt a t =? 0)%nat || (a =? rt) && (f =? NODE) then m a f else None.
Lemma restr_rest t m : rest4 m (restr t m).
Proof. intros a f Hf. unfold restr. rewrite (proj2 (Z.leb_le 4 f) Hf). reflexivity. Qed.
Lemma restr_in t m a f : (cnt a t > 0)%nat -> restr t m a f = m a f.
Proof. intros H. unfold restr. destruct (cnt a t =? 0)%nat eqn:E; [apply Nat.eqb_eq in E; lia|]. cbn [negb]. rewrite orb_true_r. reflexivity. Qed.
Lemma restr_St t m : St m t -> St (restr t m) t.
Proof.
  intros [(H1 & H2 & D) HQ]. split; [split; [|split]|].
  - unfold restr. rewrite Z.eqb_refl. change (NODE =? NODE) with true. rewrite orb_true_r. exact H1.
  - apply (rep_ext V V_frame m); [|exact H2]. intros a f Ha. apply restr_in, Ha.
  - exact D.
  - apply (Qr m); [apply restr_rest|exact HQ].
Qed.
Lemma restr_Rel t m : Rel m (restr t m) m.
Proof. intros a f. unfold restr. destruct (_ || _); [|reflexivity]. destruct (m a f); reflexivity. Qed.
Lemma tree_at_ext m M t : (forall a f v, m a f = Some v -> M a f = Some v) -> tree_at m t -> tree_at M t.
Proof.
  intros H (H1 & H2 & D). split; [apply H, H1|]. split; [|exact D]. clear H1 D. revert H2. generalize 0. induction t as [|x l IHl a r IHr]; intros p; cbn [Tree.rep]; [auto|].
  unfold V. intros (A1 & A2 & A3 & A4 & A5 & A6). conj; auto.
Qed.
Lemma run_frame (p : mem -> option mem) t m (P : btree -> Prop) : Lm p ->
  (forall m0, St m0 t -> exists m' t', p m0 = Some m' /\ St m' t' /\ P t') -> St m t ->
  exists m' t', p m = Some m' /\ St m' t' /\ P t' /\ keeps rt t m m'.
Proof.
  intros Hp Hrun HS. destruct (Hrun _ (restr_St _ _ HS)) as (m1 & t' & E1 & [HT HQ] & HP).
  destruct (Hp _ _ _ _ (restr_Rel t m) E1) as (D1 & M' & E2 & R). exists M', t'. split; [exact E2|]. split; [|split; [exact HP|]].
  - split; [apply (tree_at_ext m1); [|exact HT]|apply (Qr m1); [|exact HQ]].
    + intros a f v H. rewrite R, H. reflexivity.
    + intros a f Hf. rewrite R. destruct (m1 a f) eqn:E0; [reflexivity|]. apply D1 in E0. rewrite (restr_rest t m a f Hf) in E0. exact E0.
  - split.
    + intros a f. rewrite R. destruct (m1 a f) eqn:E0.
      * assert (restr t m a f <> None) by (intros E3; apply D1 in E3; congruence). unfold restr in *. destruct (_ || _); split; intros; congruence.
      * tauto.
    + intros a f Hf Ha Hn. rewrite R. assert (E0 : restr t m a f = None).
      { unfold restr. destruct (Z.leb_spec 4 f); [lia|]. rewrite Ha. cbn [Nat.eqb negb orb]. destruct (Z.eqb_spec a rt), (Z.eqb_spec f NODE); cbn [andb]; try reflexivity. tauto. }
      apply D1 in E0. rewrite E0. reflexivity.
Qed.

(** rbtree.h:616-629 *)
Lemma link_ok m (k : bctx) n : tree_at m (plug k E) -> node_at m n -> n <> 0 -> n <> rt -> cnt n (plug k E) = 0%nat ->
  exists m', link m (cpar k) (loc rt k, lfield k) n = Some m' /\ tree_at m' (plug k (T false E n E)) /\ rest4 m m' /\ dom m m' /\
    forall a f, a <> n -> ~ (a = loc rt k /\ f = lfield k) -> m' a f = m a f.
Proof.
  intros HT HN N0 N1 Hc. apply tree_at_focus in HT. destruct HT as (Hk & _ & D). rewrite cnt_plug in Hc. cbn [cnt] in Hc.
  assert (HE : forall f, 0 <= f < 4 -> exists v, m n f = Some v) by (intros f Hf; specialize (HN f Hf); destruct (m n f); [eauto|congruence]).
  assert (Nl : loc rt k <> n). { intros E0. pose proof (loc_in rt k) as LI. rewrite E0 in LI. rewrite (ind_ne _ _ N1) in LI. lia. }
  pose proof (crep_loc V rt m k _ Hk) as Hl.
  assert (Hm' : exists m', link m (cpar k) (loc rt k, lfield k) n = Some m' /\ m' = upd (upd (upd (upd (upd m (loc rt k) (lfield k) n) n PARENT (cpar k)) n COLOR RED) n RIGHT NULL) n LEFT NULL).
  { unfold link. cbn [fst snd]. rewrite st_ex by eauto. rewrite st_ex by (apply upd_ex, HE; split; [discriminate|reflexivity]).
    rewrite st_ex by (do 2 apply upd_ex; apply HE; split; [discriminate|reflexivity]). rewrite st_ex by (do 3 apply upd_ex; apply HE; split; [discriminate|reflexivity]).
    rewrite st_ex by (do 4 apply upd_ex; apply HE; split; [discriminate|reflexivity]). eauto. }
  destruct Hm' as (m' & E1 & E2). exists m'. split; [exact E1|]. split; [|split; [|split]].
  - subst m'. apply tree_at_focus. split; [|split].
    + cbn [addr]. repeat (apply crep_upd; [exact V_frame|rewrite ind_ne by assumption; reflexivity|lia|]). apply (crep_relink V V_frame rt m k 0).
      * intros z. specialize (D z). lia.
      * exact Hk.
    + cbn [Tree.rep addr]. unfold V. conj; try exact I; rewrite ?upd_other by (right; discriminate); try apply upd_same.
      all: rewrite ?upd_same; try reflexivity. all: rewrite ?(upd_other _ _ _ _ n _) by (right; discriminate). all: rewrite ?upd_same; reflexivity.
    + intros z. specialize (D z). cbn [cnt] in *. destruct (Z.eq_dec z n) as [->|Nz]; [rewrite ind_refl, !ind_ne by assumption; lia|rewrite (ind_ne z n) by assumption; lia].
  - subst m'. repeat (apply rest4_upd; [reflexivity|]). apply rest4_link. apply rest4_refl.
  - destruct (link_local (cpar k) (loc rt k, lfield k) n m m m m' ltac:(intros a f; destruct (m a f); reflexivity) E1) as [Dm _]. exact Dm.
  - intros a f Na Hn. subst m'. rewrite !upd_other by (left; assumption). apply upd_other. destruct (Z.eq_dec a (loc rt k)); [right; tauto|left; assumption].
Qed.

(** Linking a node and restoring the balance; [f] may store into the root object in between. *)
Lemma link_fixup fuel m (k : bctx) n : (size (plug k (@E bool)) < fuel)%nat -> tree_at m (plug k E) -> redblack (plug k E) -> node_at m n -> n <> 0 -> n <> rt -> cnt n (plug k E) = 0%nat ->
  rot_ok rt n cb Q -> Q m (plug (shapek k) (T tt E n E)) ->
  exists m1, link m (cpar k) (loc rt k, lfield k) n = Some m1 /\ keeps rt (plug k (T false E n E)) m m1 /\ rest4 m m1 /\
  forall m2, (forall a f, ~ (a = rt /\ f = LEFTMOST) -> m2 a f = m1 a f) ->
  exists m' t', fixup cb fuel m2 rt n = Some m' /\ St m' t' /\ redblack t' /\ inorder t' = before k ++ n :: after k /\ keeps rt (plug k (T false E n E)) m2 m'.
Proof.
  intros Hf HT Hrb HN N0 N1 Hc ok HQ. destruct (link_ok m k n HT HN N0 N1 Hc) as (m1 & E1 & HT1 & R1 & D1 & K1). exists m1. split; [exact E1|]. split; [|split; [exact R1|]].
  { split; [exact D1|]. intros a f Hf4 Ha Hn. rewrite cnt_plug in Ha. cbn [cnt] in Ha. apply K1.
    - intros ->. rewrite ind_refl in Ha. lia.
    - intros [-> ->]. pose proof (loc_in rt k) as LI. destruct k as [|[d x p s] k]; [apply Hn; split; reflexivity|]. cbn [Tree.loc cntk] in Ha. rewrite ind_refl in Ha. lia. }
  intros m2 K2. assert (HS2 : St m2 (plug k (T false E n E))).
  { split.
    - destruct HT1 as (A1 & A2 & A3). split; [rewrite K2 by (intros [_ E0]; discriminate E0); exact A1|]. split; [|exact A3].
      apply (rep_ext V V_frame m1); [|exact A2]. intros a f Ha. apply K2. intros [-> _]. specialize (A3 rt). rewrite ind_refl in A3. lia.
    - rewrite shape_plug. cbn [shape]. apply (Qr m1); [|apply (Qr m); [exact R1|exact HQ]]. intros a f Hf4. apply K2. intros [_ E0]. unfold LEFTMOST in E0. lia. }
  apply redblack_plug in Hrb. destruct Hrb as (_ & Hg & _ & nn & Hb & Hcb). cbn [bal] in Hb. subst nn.
  destruct (run_frame (fun m => fixup cb fuel m rt n) (plug k (T false E n E)) m2 (fun t' => redblack t' /\ inorder t' = before k ++ n :: after k) (fixup_local cb HL rt fuel n)) with (2 := HS2) as (m' & t' & H1 & H2 & [H3 H4] & H5).
  - intros m0 HS0. destruct (fixup_z rt n cb Q ok fuel m0 k E n E 0%nat) as (m' & t' & H1 & H2 & H3 & H4); try assumption; try (cbn [addr]; congruence).
    + pose proof (size_plug k (@E bool)). cbn [size] in *. lia.
    + cbn [cnt]. rewrite ind_refl. lia.
    + cbn [nored2 black]. tauto.
    + exists 0%nat. cbn [bal]. tauto.
    + exists m', t'. conj; try assumption. rewrite H4, inorder_plug. reflexivity.
  - exists m', t'. tauto.
Qed.

(** rbtree.h:671-687 *)
Theorem delete_ok (ok : cb_ok rt cb Q) fuel m t n : (size t < fuel)%nat -> St m t -> redblack t -> In n (inorder t) ->
  exists m' t' l1 l2, delete cb fuel m rt n = Some m' /\ St m' t' /\ redblack t' /\ inorder t = l1 ++ n :: l2 /\ inorder t' = l1 ++ l2 /\ keeps rt t m m'.
Proof.
  intros Hf HS Hrb Hin. destruct (run_frame _ t m (fun t' => redblack t' /\ exists l1 l2, inorder t = l1 ++ n :: l2 /\ inorder t' = l1 ++ l2) (unlink_local cb HL rt fuel n)) with (2 := HS) as (m1 & t' & E1 & [HT HQ] & [H3 (l1 & l2 & H4 & H5)] & [D1 K1]).
  { intros m0 HS0. destruct (unlink_ok rt cb Q ok fuel m0 t n Hf HS0 Hrb Hin) as (m' & t' & l1 & l2 & A & B & C & D & E0). exists m', t'. conj; try assumption. eauto. }
  assert (HN : forall f, 0 <= f < 4 -> exists v, m1 n f = Some v).
  { destruct HS as [(A1 & A2 & A3) _]. apply cnt_pos_in in Hin. destruct (find_ctx n t Hin) as (k & c & l & r & ->).
    assert (B : tree_at m (plug k (T c l n r))) by (split; [exact A1|split; [exact A2|exact A3]]). apply tree_at_focus in B. destruct B as (_ & B & _). cbn [Tree.rep] in B. destruct B as (B1 & B2 & B3 & B4 & _). unfold V in B4.
    intros f Hf4. destruct (m1 n f) as [v|] eqn:E0; [eauto|]. apply D1 in E0. assert (f = PARENT \/ f = LEFT \/ f = RIGHT \/ f = COLOR) as [ -> | [ -> | [ -> | -> ]]] by (unfold PARENT, LEFT, RIGHT, COLOR; lia); congruence. }
  assert (Nn : cnt n t' = 0%nat).
  { rewrite cnt_inorder, H5, count_occ_app. destruct HS as [(_ & _ & A3) _]. specialize (A3 n). cbn [cntk] in A3. rewrite cnt_inorder, H4, count_occ_app in A3. cbn [count_occ] in A3. destruct (Z.eq_dec n n); [lia|congruence]. }
  assert (Nr : n <> rt). { intros ->. destruct HS as [(_ & _ & A3) _]. specialize (A3 rt). apply cnt_pos_in in Hin. rewrite ind_refl in A3. lia. }
  exists (upd (upd (upd m1 n LEFT POISON_RBNODE1) n RIGHT POISON_RBNODE2) n PARENT POISON_RBNODE3), t', l1, l2.
  assert (Ed : delete cb fuel m rt n = Some (upd (upd (upd m1 n LEFT POISON_RBNODE1) n RIGHT POISON_RBNODE2) n PARENT POISON_RBNODE3)).
  { unfold delete. destruct (remove cb fuel m rt n) as [[m0 reb]|]; [|discriminate]. rewrite E1.
    rewrite st_ex by (apply HN; split; [discriminate|reflexivity]). rewrite st_ex by (apply upd_ex, HN; split; [discriminate|reflexivity]). rewrite st_ex by (do 2 apply upd_ex; apply HN; split; [discriminate|reflexivity]). reflexivity. }
  split; [exact Ed|]. conj; try assumption.
  - split.
    + destruct HT as (A1 & A2 & A3). split; [rewrite !upd_other by (left; congruence); exact A1|]. split; [|exact A3]. repeat (apply rep_upd; [exact V_frame|exact Nn|]). exact A2.
    + apply (Qr m1); [|exact HQ]. repeat (apply rest4_upd; [reflexivity|]). apply rest4_refl.
  - split.
    + apply (dom_trans _ m1); [exact D1|]. intros a f. unfold upd.
      destruct ((a =? n) && (f =? PARENT)) eqn:B1; [|destruct ((a =? n) && (f =? RIGHT)) eqn:B2; [|destruct ((a =? n) && (f =? LEFT)) eqn:B3; [|tauto]]];
      match goal with B : _ && _ = true |- _ => apply andb_true_iff in B; destruct B as [C1 C2]; apply Z.eqb_eq in C1, C2; subst a f end;
      match goal with |- context [m1 n ?f] => destruct (HN f) as [v Hv]; [split; [discriminate|reflexivity]|]; rewrite Hv; split; discriminate end.
    + intros a f Hf4 Ha Hn. assert (a <> n) by (intros ->; apply cnt_pos_in in Hin; lia). rewrite !upd_other by (left; assumption). apply K1; assumption.
Qed.

(** rbtree.c:527-542 *)
Theorem replace_ok m (k : bctx) c l o r n : tree_at m (plug k (T c l o r)) -> node_at m n -> n <> 0 -> n <> rt -> cnt n (plug k (T c l o r)) = 0%nat ->
  exists m', replace m rt o n = Some m' /\ tree_at m' (plug k (T c l n r)) /\ rest4 m m' /\ dom m m' /\
    forall a f, cnt a (plug k (T c l n r)) = 0%nat -> ~ (a = rt /\ f = NODE) -> m' a f = m a f.
Proof.
  intros HT HN N0 N1 Hc. apply tree_at_focus in HT. destruct HT as (Hk & Ht & D). rewrite cnt_plug in Hc. cbn [cnt addr Tree.rep] in *. destruct Ht as (T1 & T2 & T3 & T4 & T5 & T6). unfold V in T4.
  assert (HE : forall f, 0 <= f < 4 -> exists v, m n f = Some v) by (intros f Hf; specialize (HN f Hf); destruct (m n f); [eauto|congruence]).
  assert (Dk : forall z, (ind z 0 + ind z rt + cntk z k <= 1)%nat) by (intros z; specialize (D z); dl).
  assert (No : n <> o) by (intros ->; rewrite ind_refl in Hc; dl).
  assert (Nlo : loc rt k <> o). { intros E0. pose proof (loc_in rt k) as LI. rewrite E0 in LI. specialize (D o). cbn [cnt] in D. rewrite ind_refl in D. dl. }
  assert (Nln : loc rt k <> n). { intros E0. pose proof (loc_in rt k) as LI. rewrite E0 in LI. rewrite (ind_ne _ _ N1) in LI. dl. }
  assert (Nz : o <> 0). { intros ->. specialize (D 0). cbn [cnt] in D. rewrite !ind_refl in D. dl. }
  pose (m1 := upd (upd (upd (upd m n PARENT (cpar k)) n LEFT (addr l)) n RIGHT (addr r)) n COLOR (zc c)).
  pose (m2 := match l with E => m1 | T _ _ b _ => upd m1 b PARENT n end).
  pose (m3 := match r with E => m2 | T _ _ b _ => upd m2 b PARENT n end).
  assert (Hlo : match l with E => True | T _ _ b _ => b <> o /\ b <> n /\ b <> 0 /\ loc rt k <> b /\ cntk b k = 0%nat /\ cnt b r = 0%nat /\ b <> rt end).
  { destruct l as [|x ll b lr]; [exact I|]. pose proof (D b) as Db. cbn [cnt] in Db. rewrite ind_refl in Db. conj; try (intros ->; rewrite ?ind_refl in Db; try dl); try dl.
    - cbn [cnt] in Hc. rewrite ind_refl in Hc. dl.
    - intros E0. pose proof (loc_in rt k) as LI. rewrite E0 in LI. dl. }
  assert (Hro : match r with E => True | T _ _ b _ => b <> o /\ b <> n /\ b <> 0 /\ loc rt k <> b /\ cntk b k = 0%nat /\ cnt b l = 0%nat /\ b <> rt end).
  { destruct r as [|x ll b lr]; [exact I|]. pose proof (D b) as Db. cbn [cnt] in Db. rewrite ind_refl in Db. conj; try (intros ->; rewrite ?ind_refl in Db; try dl); try dl.
    - cbn [cnt] in Hc. rewrite ind_refl in Hc. dl.
    - intros E0. pose proof (loc_in rt k) as LI. rewrite E0 in LI. dl. }
  assert (Ho : forall f, m1 o f = m o f /\ m2 o f = m o f /\ m3 o f = m o f).
  { intros f. assert (A1 : m1 o f = m o f) by (unfold m1; rewrite !upd_other by (left; congruence); reflexivity).
    assert (A2 : m2 o f = m o f) by (unfold m2; destruct l as [|? ? b ?]; [exact A1|]; rewrite upd_other by (left; destruct Hlo; congruence); exact A1).
    conj; [exact A1|exact A2|]. unfold m3. destruct r as [|? ? b ?]; [exact A2|]. rewrite upd_other by (left; destruct Hro; congruence). exact A2. }
  assert (Hkk : crep V rt m3 k o).
  { assert (A1 : crep V rt m1 k o). { unfold m1. repeat (apply crep_upd; [exact V_frame|apply ind_ne; assumption|dl|]). exact Hk. }
    assert (A2 : crep V rt m2 k o). { unfold m2. destruct l as [|? ? b ?]; [exact A1|]. destruct Hlo as (B1 & B2 & B3 & B4 & B5 & B6 & B7). apply crep_upd; [exact V_frame|apply ind_ne; assumption|exact B5|exact A1]. }
    unfold m3. destruct r as [|? ? b ?]; [exact A2|]. destruct Hro as (B1 & B2 & B3 & B4 & B5 & B6 & B7). apply crep_upd; [exact V_frame|apply ind_ne; assumption|exact B5|exact A2]. }
  assert (Er : replace m rt o n = Some (upd m3 (loc rt k) (lfield k) n)).
  { unfold replace, ld. rewrite T1, T2, T3, T4.
    rewrite st_ex by (apply HE; split; [discriminate|reflexivity]). rewrite st_ex by (apply upd_ex, HE; split; [discriminate|reflexivity]).
    rewrite st_ex by (do 2 apply upd_ex; apply HE; split; [discriminate|reflexivity]). rewrite st_ex by (do 3 apply upd_ex; apply HE; split; [discriminate|reflexivity]). fold m1.
    rewrite (proj1 (Ho LEFT)), T2. replace (if negb (addr l =? NULL) then st m1 (addr l) PARENT n else Some m1) with (Some m2).
    - rewrite (proj1 (proj2 (Ho RIGHT))), T3. replace (if negb (addr r =? NULL) then st m2 (addr r) PARENT n else Some m2) with (Some m3).
      + apply child_change_ok; try assumption. specialize (D o). cbn [cnt] in D. rewrite ind_refl in D. dl.
      + unfold m3. destruct r as [|x rl b rr]; [reflexivity|]. cbn [addr]. destruct Hro as (B1 & B2 & B3 & B4 & B5 & B6 & B7). rewrite (proj2 (Z.eqb_neq b NULL)) by exact B3. cbn [negb]. symmetry.
        apply st_ex. cbn [Tree.rep] in T6. unfold m2, m1. destruct l; repeat apply upd_ex; exists o; tauto.
    - unfold m2. destruct l as [|x ll b lr]; [reflexivity|]. cbn [addr]. destruct Hlo as (B1 & B2 & B3 & B4 & B5 & B6 & B7). rewrite (proj2 (Z.eqb_neq b NULL)) by exact B3. cbn [negb]. symmetry.
      apply st_ex. cbn [Tree.rep] in T5. unfold m1. repeat apply upd_ex. exists o. tauto. }
  exists (upd m3 (loc rt k) (lfield k) n). split; [exact Er|]. split; [|split; [|split]].
  - apply tree_at_focus. split; [|split].
    + apply (crep_relink V V_frame rt m3 k o); [intros z; specialize (Dk z); lia|exact Hkk].
    + assert (Ln : forall f, m3 n f = m1 n f).
      { intros f. assert (A2 : m2 n f = m1 n f) by (unfold m2; destruct l as [|? ? b ?]; [reflexivity|]; apply upd_other; left; destruct Hlo as (_ & B & _); congruence).
        rewrite <- A2. unfold m3. destruct r as [|? ? b ?]; [reflexivity|]. apply upd_other. left. destruct Hro as (_ & B & _). congruence. }
      assert (Rl : rep V m3 n l).
      { assert (A2 : rep V m2 n l).
        { unfold m2. destruct l as [|x ll b lr]; [exact I|]. destruct Hlo as (B1 & B2 & B3 & B4 & B5 & B6 & B7). cbn [Tree.rep] in *. destruct T5 as (C1 & C2 & C3 & C4 & C5 & C6). unfold V in *.
          rewrite upd_same. rewrite !upd_other by (right; discriminate). unfold m1. rewrite !upd_other by (left; exact B2). cbn [cnt] in Hc.
          assert (Db := D b). cbn [cnt] in Db. rewrite ind_refl in Db. conj; try assumption; try reflexivity; (repeat (apply rep_upd; [exact V_frame|dl|])); assumption. }
        unfold m3. destruct r as [|x rl b rr]; [exact A2|]. destruct Hro as (B1 & B2 & B3 & B4 & B5 & B6 & B7). apply rep_upd; [exact V_frame|exact B6|exact A2]. }
      assert (Rr : rep V m3 n r).
      { unfold m3. destruct r as [|x rl b rr]; [exact I|]. destruct Hro as (B1 & B2 & B3 & B4 & B5 & B6 & B7). cbn [Tree.rep] in *. destruct T6 as (C1 & C2 & C3 & C4 & C5 & C6). unfold V in *.
        assert (Db := D b). cbn [cnt] in Db, Hc. rewrite ind_refl in Db.
        assert (M2 : forall f, m2 b f = m b f).
        { intros f. unfold m2. destruct l as [|? ? b' ?]; [unfold m1; rewrite !upd_other by (left; exact B2); reflexivity|]. assert (b <> b') by (intros ->; cbn [cnt] in B6; rewrite ind_refl in B6; dl).
          rewrite upd_other by (left; assumption). unfold m1. rewrite !upd_other by (left; exact B2). reflexivity. }
        rewrite upd_same. rewrite !upd_other by (right; discriminate). rewrite !M2. conj; try assumption; try reflexivity.
        - apply rep_upd; [exact V_frame|dl|]. unfold m2. destruct l as [|? ? b' ?].
          + unfold m1. repeat (apply rep_upd; [exact V_frame|dl|]). assumption.
          + assert (Db' := D b'). cbn [cnt] in Db'. rewrite ind_refl in Db'. apply rep_upd; [exact V_frame|dl|]. unfold m1. cbn [cnt] in Hc. repeat (apply rep_upd; [exact V_frame|dl|]). assumption.
        - apply rep_upd; [exact V_frame|dl|]. unfold m2. destruct l as [|? ? b' ?].
          + unfold m1. repeat (apply rep_upd; [exact V_frame|dl|]). assumption.
          + assert (Db' := D b'). cbn [cnt] in Db'. rewrite ind_refl in Db'. apply rep_upd; [exact V_frame|dl|]. unfold m1. cbn [cnt] in Hc. repeat (apply rep_upd; [exact V_frame|dl|]). assumption. }
      assert (LI := loc_in rt k). assert (Dl := D (loc rt k)). cbn [cnt] in Dl. cbn [Tree.rep]. unfold V. rewrite !(upd_other _ (loc rt k)) by (left; congruence). rewrite !Ln. unfold m1.
      conj; try (rewrite ?upd_other by (right; discriminate); rewrite ?upd_same; rewrite ?upd_other by (right; discriminate); rewrite ?upd_same; reflexivity).
      * apply rep_upd; [exact V_frame|dl|exact Rl].
      * apply rep_upd; [exact V_frame|dl|exact Rr].
    + intros z. specialize (D z). cbn [cnt] in *. destruct (Z.eq_dec z n) as [->|Nzn]; [rewrite ind_refl, !ind_ne by assumption; lia|rewrite (ind_ne z n) by assumption; lia].
  - apply rest4_link. unfold m3, m2, m1. destruct l, r; repeat (apply rest4_upd; [reflexivity|]); apply rest4_refl.
  - destruct (replace_local rt o n m m m _ ltac:(intros a f; destruct (m a f); reflexivity) Er) as [Dm _]. exact Dm.
  - intros a f Ha Hn. rewrite cnt_plug in Ha. cbn [cnt] in Ha. assert (Nan : a <> n) by (intros ->; rewrite ind_refl in Ha; dl).
    assert (Nal : ~ (a = loc rt k /\ f = lfield k)).
    { intros [-> ->]. pose proof (loc_in rt k) as LI. destruct k as [|[d x p s] k]; [apply Hn; split; reflexivity|]. cbn [Tree.loc cntk] in Ha. rewrite ind_refl in Ha. dl. }
    rewrite upd_other by (destruct (Z.eq_dec a (loc rt k)); [right; tauto|left; assumption]).
    assert (A1 : m1 a f = m a f) by (unfold m1; rewrite !upd_other by (left; exact Nan); reflexivity).
    assert (A2 : m2 a f = m a f). { unfold m2. destruct l as [|? ? b ?]; [exact A1|]. rewrite upd_other by (left; intros ->; cbn [cnt] in Ha; rewrite ind_refl in Ha; dl). exact A1. }
    unfold m3. destruct r as [|? ? b ?]; [exact A2|]. rewrite upd_other by (left; intros ->; cbn [cnt] in Ha; rewrite ind_refl in Ha; dl). exact A2.
Qed.
Lemma redblack_rename (k : bctx) c l o r n : redblack (plug k (T c l o r)) -> redblack (plug k (T c l n r)).
Proof. rewrite !redblack_plug. cbn [nored2 black bal]. tauto. Qed.
End Rt.
(** The plain trees: nothing is asked. *)
Lemma same4_refl m : same4 m m.
Proof. intros a f _. reflexivity. Qed.
Lemma dummy_ok rt : cb_ok rt dummy_callbacks (fun _ _ => True).
Proof.
  split; cbn [rotate copy propagate dummy_callbacks]; intros; try exact I.
  1-3: eexists; split; [reflexivity|]; split; [apply same4_refl|exact I].
  - eexists. split; [reflexivity|]. split; [apply same4_refl|]. intros. eexists. split; [reflexivity|]. split; [apply same4_refl|exact I].
  - eexists _, _. split; [reflexivity|]. split; [reflexivity|]. split; [apply same4_refl|]. intros. eexists. split; [reflexivity|]. split; [apply same4_refl|exact I].
Qed.
