(** * Tree iterators: the nodes are visited in order *)
From Coq Require Import Sorting.Permutation.
From Verif Require Import Lib Ptr Tree TiterModel.

Section Order.
Context {A : Type}.
Implicit Types (t : tree A) (k : ctx A).
Fixpoint pbefore k : list Z := match k with [] => [] | F L _ a _ :: k => pbefore k ++ [a] | F R _ a s :: k => pbefore k ++ a :: preorder s end.
Fixpoint pafter k : list Z := match k with [] => [] | F L _ _ s :: k => preorder s ++ pafter k | F R _ _ _ :: k => pafter k end.
Fixpoint qbefore k : list Z := match k with [] => [] | F L _ _ _ :: k => qbefore k | F R _ _ s :: k => qbefore k ++ postorder s end.
Fixpoint qafter k : list Z := match k with [] => [] | F L _ a s :: k => postorder s ++ a :: qafter k | F R _ a _ :: k => a :: qafter k end.
Lemma preorder_plug k t : preorder (plug k t) = pbefore k ++ preorder t ++ pafter k.
Proof.
  revert t. induction k as [|[[|] x a s] k IH]; intros t; cbn [plug pbefore pafter up]; [rewrite app_nil_r; reflexivity| |]; rewrite IH; cbn [preorder];
    repeat (rewrite <- ?app_assoc; cbn [app]); reflexivity.
Qed.
Lemma postorder_plug k t : postorder (plug k t) = qbefore k ++ postorder t ++ qafter k.
Proof.
  revert t. induction k as [|[[|] x a s] k IH]; intros t; cbn [plug qbefore qafter up]; [rewrite app_nil_r; reflexivity| |]; rewrite IH; cbn [postorder];
    repeat (rewrite <- ?app_assoc; cbn [app]); reflexivity.
Qed.
Lemma preorder_perm t : Permutation (preorder t) (inorder t).
Proof.
  induction t as [|x l IHl a r IHr]; [constructor|]. cbn [preorder inorder]. apply Permutation_cons_app. apply Permutation_app; assumption.
Qed.
Lemma postorder_perm t : Permutation (postorder t) (inorder t).
Proof.
  induction t as [|x l IHl a r IHr]; [constructor|]. cbn [postorder inorder]. apply Permutation_app; [assumption|].
  rewrite <- Permutation_cons_append. constructor. assumption.
Qed.
Lemma addr_hd t : addr t = hd 0 (preorder t).
Proof. destruct t; reflexivity. Qed.
End Order.
Lemma nodup_split {X} (l1 l2 l1' l2' : list X) a : NoDup (l1 ++ a :: l2) -> l1 ++ a :: l2 = l1' ++ a :: l2' -> l1 = l1' /\ l2 = l2'.
Proof.
  revert l1'. induction l1 as [|b l1 IH]; intros [|b' l1'] N E; cbn [app] in *.
  - injection E as ->. auto.
  - injection E as E1 E2. inversion N as [|? ? N1 N2]. exfalso. apply N1. rewrite E2. apply in_or_app. right. left. reflexivity.
  - injection E as E1 E2. inversion N as [|? ? N1 N2]. exfalso. apply N1. rewrite E1. apply in_or_app. right. left. reflexivity.
  - injection E as -> E. inversion N as [|? ? N1 N2]. destruct (IH l1' N2 E) as [-> ->]. auto.
Qed.
Lemma hd_app {X} (d : X) l1 l2 : l1 <> [] -> hd d (l1 ++ l2) = hd d l1.
Proof. destruct l1; [congruence|reflexivity]. Qed.
Lemma last_app {X} (d : X) l1 l2 : l2 <> [] -> last (l1 ++ l2) d = last l2 d.
Proof.
  intros H. induction l1 as [|a l1 IH]; [reflexivity|]. cbn [app]. rewrite <- IH. destruct (l1 ++ l2) eqn:E; [|reflexivity].
  destruct l1; [cbn in E; congruence|discriminate].
Qed.

Section Rep.
Context {A : Type}.
Variable V : mem -> Z -> A -> Prop.
Variable rt : Z.
Notation rep := (rep V).
Notation crep := (crep V rt).
Notation apart := (@apart A rt).
Variable m : mem.
Implicit Types (t : tree A) (k : ctx A).

Definition nz t : Prop := cnt 0 t = 0%nat.
Lemma nz_addr x l a r : nz (T x l a r : tree A) -> (a =? NULL) = false /\ nz l /\ nz r.
Proof. unfold nz. cbn [cnt]. intros H. split; [|lia]. apply Z.eqb_neq. intros ->. unfold NULL in H. rewrite ind_refl in H. lia. Qed.
Lemma inorder_ne t : t <> E -> inorder t <> [].
Proof. destruct t as [|x l a r]; [congruence|]. intros _. cbn [inorder]. destruct (inorder l); discriminate. Qed.
Lemma postorder_ne t : t <> E -> postorder t <> [].
Proof. destruct t as [|x l a r]; [congruence|]. intros _. cbn [postorder]. destruct (postorder l), (postorder r); discriminate. Qed.

Lemma left_far_ok t : forall fuel par, (size t <= fuel)%nat -> t <> E -> nz t -> rep m par t -> left_far m fuel (addr t) = Some (hd 0 (inorder t)).
Proof.
  induction t as [|x l IHl a r _]; intros fuel par Hf N HZ Hr; [congruence|]. cbn [size addr Tree.rep inorder] in *. destruct fuel as [|fuel]; [lia|].
  destruct (nz_addr _ _ _ _ HZ) as (Na & Nl & Nr). destruct Hr as (H1 & H2 & H3 & H4 & H5 & H6). cbn [left_far]. unfold ld. rewrite H2.
  destruct l as [|y ll b lr]; [reflexivity|]. change (addr (T y ll b lr)) with b. rewrite (proj1 (nz_addr _ _ _ _ Nl)).
  rewrite hd_app by (apply inorder_ne; discriminate). apply (IHl fuel a); [lia|discriminate|exact Nl|exact H5].
Qed.
Lemma right_far_ok t : forall fuel par, (size t <= fuel)%nat -> t <> E -> nz t -> rep m par t -> right_far m fuel (addr t) = Some (last (inorder t) 0).
Proof.
  induction t as [|x l _ a r IHr]; intros fuel par Hf N HZ Hr; [congruence|]. cbn [size addr Tree.rep inorder] in *. destruct fuel as [|fuel]; [lia|].
  destruct (nz_addr _ _ _ _ HZ) as (Na & Nl & Nr). destruct Hr as (H1 & H2 & H3 & H4 & H5 & H6). cbn [right_far]. unfold ld. rewrite H3.
  destruct r as [|y rl b rr]; [rewrite last_app by discriminate; reflexivity|]. change (addr (T y rl b rr)) with b. rewrite (proj1 (nz_addr _ _ _ _ Nr)).
  rewrite last_app by discriminate. change (a :: inorder (T y rl b rr)) with ([a] ++ inorder (T y rl b rr)). rewrite last_app by (apply inorder_ne; discriminate).
  apply (IHr fuel a); [lia|discriminate|exact Nr|exact H6].
Qed.
Lemma left_deep_ok t : forall fuel par, (size t <= fuel)%nat -> t <> E -> nz t -> rep m par t -> left_deep m fuel (addr t) = Some (hd 0 (postorder t)).
Proof.
  induction t as [|x l IHl a r IHr]; intros fuel par Hf N HZ Hr; [congruence|]. cbn [size addr Tree.rep postorder] in *. destruct fuel as [|fuel]; [lia|].
  destruct (nz_addr _ _ _ _ HZ) as (Na & Nl & Nr). destruct Hr as (H1 & H2 & H3 & H4 & H5 & H6). cbn [left_deep]. unfold ld. rewrite Na, H2.
  destruct l as [|y ll b lr].
  - change (addr E =? NULL) with true. cbn [negb]. rewrite H3. destruct r as [|y rl b rr]; [reflexivity|]. change (addr (T y rl b rr)) with b. rewrite (proj1 (nz_addr _ _ _ _ Nr)). cbn [negb].
    cbn [postorder app]. rewrite hd_app by (destruct (postorder rl), (postorder rr); discriminate). apply (IHr fuel a); [lia|discriminate|exact Nr|exact H6].
  - change (addr (T y ll b lr)) with b. rewrite (proj1 (nz_addr _ _ _ _ Nl)). cbn [negb]. rewrite hd_app by (apply postorder_ne; discriminate). apply (IHl fuel a); [lia|discriminate|exact Nl|exact H5].
Qed.

Lemma climb_next_ok k : forall fuel t par, t <> E -> (length k < fuel)%nat -> apart k t -> m (addr t) PARENT = Some par -> par = cpar k -> crep m k (addr t) ->
  climb_next m fuel (addr t) = Some (hd 0 (after k)).
Proof.
  induction k as [|[d x a s] k IH]; intros fuel t par Nt Hf D H1 -> H2; (destruct fuel as [|fuel]; [cbn [length] in Hf; lia|]); cbn [climb_next]; unfold ld; rewrite H1; cbn [cpar length Tree.crep] in *.
  - reflexivity.
  - assert (Na : (a =? NULL) = false) by (apply Z.eqb_neq; intros ->; specialize (D NULL); cbn [cntk] in D; unfold NULL in D; rewrite !ind_refl in D; lia). rewrite Na.
    destruct H2 as (C1 & C2 & C3 & C4 & C5 & C6). destruct d; cbn [side opp after] in *.
    + rewrite C2, Z.eqb_refl. reflexivity.
    + rewrite C3. assert (Ns : (addr t =? addr s) = false).
      { apply Z.eqb_neq. intros E0. destruct t as [|y l b r]; [congruence|]. specialize (D b). cbn [addr cnt cntk] in *. rewrite ind_refl in D.
        destruct s; cbn [addr cnt] in *; subst b; rewrite ind_refl in D; lia. }
      rewrite Ns. cbn [negb]. change a with (addr (up (F R x a s) t)). apply (IH fuel (up (F R x a s) t) (cpar k)).
      * discriminate.
      * lia.
      * intros z. specialize (D z). cbn [up cnt cntk] in *. lia.
      * exact C1.
      * reflexivity.
      * exact C6.
Qed.
Lemma climb_prev_ok k : forall fuel t par, t <> E -> (length k < fuel)%nat -> apart k t -> m (addr t) PARENT = Some par -> par = cpar k -> crep m k (addr t) ->
  climb_prev m fuel (addr t) = Some (last (before k) 0).
Proof.
  induction k as [|[d x a s] k IH]; intros fuel t par Nt Hf D H1 -> H2; (destruct fuel as [|fuel]; [cbn [length] in Hf; lia|]); cbn [climb_prev]; unfold ld; rewrite H1; cbn [cpar length Tree.crep] in *.
  - reflexivity.
  - assert (Na : (a =? NULL) = false) by (apply Z.eqb_neq; intros ->; specialize (D NULL); cbn [cntk] in D; unfold NULL in D; rewrite !ind_refl in D; lia). rewrite Na.
    destruct H2 as (C1 & C2 & C3 & C4 & C5 & C6). destruct d; cbn [side opp before] in *.
    + rewrite C3. assert (Ns : (addr t =? addr s) = false).
      { apply Z.eqb_neq. intros E0. destruct t as [|y l b r]; [congruence|]. specialize (D b). cbn [addr cnt cntk] in *. rewrite ind_refl in D.
        destruct s; cbn [addr cnt] in *; subst b; rewrite ind_refl in D; lia. }
      rewrite Ns. cbn [negb]. change a with (addr (up (F L x a s) t)). apply (IH fuel (up (F L x a s) t) (cpar k)).
      * discriminate.
      * lia.
      * intros z. specialize (D z). cbn [up cnt cntk] in *. lia.
      * exact C1.
      * reflexivity.
      * exact C6.
    + rewrite C2, Z.eqb_refl. cbn [negb]. rewrite last_app by (destruct (inorder s); discriminate). rewrite last_app by discriminate. reflexivity.
Qed.
Lemma climb_pre_ok k : forall fuel t par, t <> E -> (length k < fuel)%nat -> apart k t -> m (addr t) PARENT = Some par -> par = cpar k -> crep m k (addr t) ->
  climb_pre m fuel (addr t) = Some (hd 0 (pafter k)).
Proof.
  induction k as [|[d x a s] k IH]; intros fuel t par Nt Hf D H1 -> H2; (destruct fuel as [|fuel]; [cbn [length] in Hf; lia|]); cbn [climb_pre]; unfold ld; rewrite H1; cbn [cpar length Tree.crep] in *.
  - reflexivity.
  - assert (Na : (a =? NULL) = false) by (apply Z.eqb_neq; intros ->; specialize (D NULL); cbn [cntk] in D; unfold NULL in D; rewrite !ind_refl in D; lia). rewrite Na.
    destruct H2 as (C1 & C2 & C3 & C4 & C5 & C6).
    assert (Go : climb_pre m fuel a = Some (hd 0 (pafter k))).
    { replace a with (addr (up (F d x a s) t)) by (destruct d; reflexivity). apply (IH fuel (up (F d x a s) t) (cpar k)).
      * destruct d; discriminate.
      * lia.
      * intros z. specialize (D z). destruct d; cbn [up cnt cntk] in *; lia.
      * destruct d; exact C1.
      * reflexivity.
      * destruct d; exact C6. }
    destruct d; cbn [side opp pafter] in *.
    + rewrite C3. destruct s as [|y sl b sr]; [exact Go|]. change (addr (T y sl b sr)) with b.
      assert (Nb : (b =? NULL) = false) by (apply Z.eqb_neq; intros ->; specialize (D NULL); cbn [cntk cnt] in D; unfold NULL in D; rewrite !ind_refl in D; lia). rewrite Nb.
      assert (Ns : (addr t =? b) = false).
      { apply Z.eqb_neq. intros E0. destruct t as [|z l c r]; [congruence|]. specialize (D b). cbn [addr cnt cntk] in *. subst c. rewrite !ind_refl in D. lia. }
      rewrite Ns. reflexivity.
    + rewrite C2. rewrite Z.eqb_refl, orb_true_r. exact Go.
Qed.

Variable t0 : tree A.
Hypothesis HT : tree_at V rt m t0.
Lemma at_nodup : NoDup (inorder t0).
Proof. apply (NoDup_count_occ Z.eq_dec). intros z. rewrite <- cnt_inorder. destruct HT as (_ & _ & D). specialize (D z). cbn [cntk] in D. lia. Qed.
Lemma at_nz z : In z (inorder t0) -> (z =? NULL) = false.
Proof.
  intros H. apply cnt_pos_in in H. apply Z.eqb_neq. intros ->. destruct HT as (_ & _ & D). specialize (D NULL). cbn [cntk] in D. unfold NULL in *. rewrite ind_refl in D. lia.
Qed.
Lemma focus_nz k t : apart k t -> nz t.
Proof. intros D. specialize (D 0). rewrite ind_refl in D. unfold nz. lia. Qed.

Lemma in_next_focus fuel k x l a r : t0 = plug k (T x l a r) -> (size t0 < fuel)%nat -> in_next m fuel a = Some (hd 0 (inorder r ++ after k)).
Proof.
  intros E0 Hf. rewrite E0 in HT, Hf. pose proof HT as H0. apply tree_at_focus in H0. destruct H0 as (Hk & Ht & D). cbn [Tree.rep addr] in *. destruct Ht as (H1 & H2 & H3 & H4 & H5 & H6).
  pose proof (size_plug k (T x l a r)) as Hs. cbn [size] in Hs.
  destruct (nz_addr _ _ _ _ (focus_nz _ _ D)) as (Na & Nl & Nr). unfold in_next, ld. rewrite Na, H3. destruct r as [|y rl b rr].
  - cbn [addr NULL Z.eqb negb inorder app]. change a with (addr (T x l a E)). apply (climb_next_ok k fuel _ (cpar k)); try assumption; [discriminate|lia|reflexivity].
  - change (addr (T y rl b rr)) with b. rewrite (proj1 (nz_addr _ _ _ _ Nr)). cbn [negb]. rewrite hd_app by (apply inorder_ne; discriminate).
    change b with (addr (T y rl b rr)). apply (left_far_ok _ fuel a); [lia|discriminate|exact Nr|exact H6].
Qed.
Lemma in_prev_focus fuel k x l a r : t0 = plug k (T x l a r) -> (size t0 < fuel)%nat -> in_prev m fuel a = Some (last (before k ++ inorder l) 0).
Proof.
  intros E0 Hf. rewrite E0 in HT, Hf. pose proof HT as H0. apply tree_at_focus in H0. destruct H0 as (Hk & Ht & D). cbn [Tree.rep addr] in *. destruct Ht as (H1 & H2 & H3 & H4 & H5 & H6).
  pose proof (size_plug k (T x l a r)) as Hs. cbn [size] in Hs.
  destruct (nz_addr _ _ _ _ (focus_nz _ _ D)) as (Na & Nl & Nr). unfold in_prev, ld. rewrite Na, H2. destruct l as [|y ll b lr].
  - cbn [addr NULL Z.eqb negb inorder]. rewrite app_nil_r. change a with (addr (T x E a r)). apply (climb_prev_ok k fuel _ (cpar k)); try assumption; [discriminate|lia|reflexivity].
  - change (addr (T y ll b lr)) with b. rewrite (proj1 (nz_addr _ _ _ _ Nl)). cbn [negb]. rewrite last_app by (apply inorder_ne; discriminate).
    change b with (addr (T y ll b lr)). apply (right_far_ok _ fuel a); [lia|discriminate|exact Nl|exact H5].
Qed.
Lemma pre_next_focus fuel k x l a r : t0 = plug k (T x l a r) -> (size t0 < fuel)%nat -> pre_next m fuel a = Some (hd 0 (preorder l ++ preorder r ++ pafter k)).
Proof.
  intros E0 Hf. rewrite E0 in HT, Hf. pose proof HT as H0. apply tree_at_focus in H0. destruct H0 as (Hk & Ht & D). cbn [Tree.rep addr] in *. destruct Ht as (H1 & H2 & H3 & H4 & H5 & H6).
  pose proof (size_plug k (T x l a r)) as Hs. cbn [size] in Hs.
  destruct (nz_addr _ _ _ _ (focus_nz _ _ D)) as (Na & Nl & Nr). unfold pre_next, ld. rewrite Na, H2. destruct l as [|y ll b lr].
  - cbn [addr NULL Z.eqb negb preorder app]. rewrite H3. destruct r as [|y rl b rr].
    + cbn [addr NULL Z.eqb negb preorder app]. change a with (addr (T x E a E)). apply (climb_pre_ok k fuel _ (cpar k)); try assumption; [discriminate|lia|reflexivity].
    + change (addr (T y rl b rr)) with b. rewrite (proj1 (nz_addr _ _ _ _ Nr)). reflexivity.
  - change (addr (T y ll b lr)) with b. rewrite (proj1 (nz_addr _ _ _ _ Nl)). reflexivity.
Qed.
Lemma post_next_focus fuel k x l a r : t0 = plug k (T x l a r) -> (size t0 < fuel)%nat -> post_next m fuel a = Some (hd 0 (qafter k)).
Proof.
  intros E0 Hf. rewrite E0 in HT, Hf. pose proof HT as H0. apply tree_at_focus in H0. destruct H0 as (Hk & Ht & D). cbn [Tree.rep addr] in *. destruct Ht as (H1 & H2 & H3 & H4 & H5 & H6).
  pose proof (size_plug k (T x l a r)) as Hs. cbn [size] in Hs.
  destruct (nz_addr _ _ _ _ (focus_nz _ _ D)) as (Na & Nl & Nr). unfold post_next, ld. rewrite Na, H1. destruct k as [|[d y p s] k]; [reflexivity|]. cbn [cpar Tree.crep] in *.
  assert (Np : (p =? NULL) = false) by (apply Z.eqb_neq; intros ->; specialize (D NULL); cbn [cntk] in D; unfold NULL in D; rewrite !ind_refl in D; lia). rewrite Np.
  destruct Hk as (C1 & C2 & C3 & C4 & C5 & C6). destruct d; cbn [side opp qafter] in *.
  - rewrite C2, Z.eqb_refl, C3. destruct s as [|z sl b sr]; [reflexivity|]. change (addr (T z sl b sr)) with b.
    assert (Nb : nz (T z sl b sr)) by (specialize (D 0); rewrite ind_refl in D; cbn [cntk] in D; unfold nz; lia). rewrite (proj1 (nz_addr _ _ _ _ Nb)). cbn [negb].
    rewrite hd_app by (apply postorder_ne; discriminate). change b with (addr (T z sl b sr)). apply (left_deep_ok _ fuel p); [|discriminate|exact Nb|exact C5].
    pose proof (size_plug k (up (F L y p (T z sl b sr)) (T x l a r))) as Hs2. cbn [size up plug] in *. lia.
  - rewrite C3. assert (Ns : (a =? addr s) = false).
    { apply Z.eqb_neq. intros E1. specialize (D a). cbn [cnt cntk] in D. rewrite ind_refl in D. destruct s as [|z sl b sr]; cbn [addr cnt] in *; subst a; [rewrite ind_refl in D|rewrite ind_refl in D]; lia. }
    rewrite Ns. reflexivity.
Qed.

(** ** Successors and predecessors in the lists *)
Theorem in_next_ok fuel l1 a l2 : inorder t0 = l1 ++ a :: l2 -> (size t0 < fuel)%nat -> in_next m fuel a = Some (hd 0 l2).
Proof.
  intros Hi Hf. assert (Ha : In a (inorder t0)) by (rewrite Hi; apply in_or_app; right; left; reflexivity). destruct (find_ctx a t0) as (k & x & l & r & E0); [apply cnt_pos_in, Ha|].
  rewrite (in_next_focus fuel k x l a r E0 Hf). pose proof at_nodup as N. rewrite Hi in N. destruct (nodup_split l1 l2 (before k ++ inorder l) (inorder r ++ after k) a N) as [_ ->]; [|reflexivity].
  rewrite <- Hi, E0, inorder_plug. cbn [inorder]. repeat (rewrite <- ?app_assoc; cbn [app]). reflexivity.
Qed.
Theorem in_prev_ok fuel l1 a l2 : inorder t0 = l1 ++ a :: l2 -> (size t0 < fuel)%nat -> in_prev m fuel a = Some (last l1 0).
Proof.
  intros Hi Hf. assert (Ha : In a (inorder t0)) by (rewrite Hi; apply in_or_app; right; left; reflexivity). destruct (find_ctx a t0) as (k & x & l & r & E0); [apply cnt_pos_in, Ha|].
  rewrite (in_prev_focus fuel k x l a r E0 Hf). pose proof at_nodup as N. rewrite Hi in N. destruct (nodup_split l1 l2 (before k ++ inorder l) (inorder r ++ after k) a N) as [-> _]; [|reflexivity].
  rewrite <- Hi, E0, inorder_plug. cbn [inorder]. repeat (rewrite <- ?app_assoc; cbn [app]). reflexivity.
Qed.
Theorem pre_next_ok fuel l1 a l2 : preorder t0 = l1 ++ a :: l2 -> (size t0 < fuel)%nat -> pre_next m fuel a = Some (hd 0 l2).
Proof.
  intros Hi Hf. assert (Ha : In a (inorder t0)) by (apply (Permutation_in _ (preorder_perm t0)); rewrite Hi; apply in_or_app; right; left; reflexivity). destruct (find_ctx a t0) as (k & x & l & r & E0); [apply cnt_pos_in, Ha|].
  rewrite (pre_next_focus fuel k x l a r E0 Hf). assert (N : NoDup (preorder t0)) by (apply (Permutation_NoDup (Permutation_sym (preorder_perm t0))), at_nodup). rewrite Hi in N.
  destruct (nodup_split l1 l2 (pbefore k) (preorder l ++ preorder r ++ pafter k) a N) as [_ ->]; [|reflexivity].
  rewrite <- Hi, E0, preorder_plug. cbn [preorder]. repeat (rewrite <- ?app_assoc; cbn [app]). reflexivity.
Qed.
Theorem post_next_ok fuel l1 a l2 : postorder t0 = l1 ++ a :: l2 -> (size t0 < fuel)%nat -> post_next m fuel a = Some (hd 0 l2).
Proof.
  intros Hi Hf. assert (Ha : In a (inorder t0)) by (apply (Permutation_in _ (postorder_perm t0)); rewrite Hi; apply in_or_app; right; left; reflexivity). destruct (find_ctx a t0) as (k & x & l & r & E0); [apply cnt_pos_in, Ha|].
  rewrite (post_next_focus fuel k x l a r E0 Hf). assert (N : NoDup (postorder t0)) by (apply (Permutation_NoDup (Permutation_sym (postorder_perm t0))), at_nodup). rewrite Hi in N.
  destruct (nodup_split l1 l2 (qbefore k ++ postorder l ++ postorder r) (qafter k) a N) as [_ ->]; [|reflexivity].
  rewrite <- Hi, E0, postorder_plug. cbn [postorder]. repeat (rewrite <- ?app_assoc; cbn [app]). reflexivity.
Qed.

(** ** The loops over all nodes *)
Lemma visit_list next (l : list Z) : (forall z, In z l -> (z =? NULL) = false) -> (forall l1 a l2, l = l1 ++ a :: l2 -> next a = Some (hd 0 l2)) ->
  forall fuel, (length l < fuel)%nat -> visit next fuel (hd 0 l) = Some l.
Proof.
  induction l as [|a l IH]; intros Hz Hn fuel Hf; (destruct fuel as [|fuel]; [lia|]); cbn [hd visit].
  - reflexivity.
  - rewrite (Hz a) by (left; reflexivity). rewrite (Hn [] a l eq_refl). rewrite IH; [reflexivity| | |cbn [length] in Hf; lia].
    + intros z H. apply Hz. right. exact H.
    + intros l1 b l2 ->. apply (Hn (a :: l1)). reflexivity.
Qed.
Theorem inorder_visit fuel : (size t0 < fuel)%nat -> exists p, in_first m fuel rt = Some p /\ visit (in_next m fuel) fuel p = Some (inorder t0).
Proof.
  intros Hf. exists (hd 0 (inorder t0)). split.
  - destruct HT as (H1 & H2 & D). unfold in_first, ld. rewrite H1. destruct t0 as [|x l a r] eqn:E0; [reflexivity|]. pose proof (focus_nz _ _ D) as N. change (addr (T x l a r)) with a. rewrite (proj1 (nz_addr _ _ _ _ N)).
    change a with (addr (T x l a r)). apply (left_far_ok _ fuel 0); [lia|discriminate|exact N|exact H2].
  - apply visit_list; [exact at_nz| |rewrite <- size_inorder; exact Hf]. intros l1 a l2 H. apply (in_next_ok fuel l1 a l2 H Hf).
Qed.
Theorem reverse_visit fuel : (size t0 < fuel)%nat -> exists p, in_last m fuel rt = Some p /\ visit (in_prev m fuel) fuel p = Some (rev (inorder t0)).
Proof.
  intros Hf. exists (last (inorder t0) 0). split.
  - destruct HT as (H1 & H2 & D). unfold in_last, ld. rewrite H1. destruct t0 as [|x l a r] eqn:E0; [reflexivity|]. pose proof (focus_nz _ _ D) as N. change (addr (T x l a r)) with a. rewrite (proj1 (nz_addr _ _ _ _ N)).
    change a with (addr (T x l a r)). apply (right_far_ok _ fuel 0); [lia|discriminate|exact N|exact H2].
  - assert (HL : forall l : list Z, last l 0 = hd 0 (rev l)).
    { intros l. induction l as [|a l _] using rev_ind; [reflexivity|]. rewrite last_app by discriminate. rewrite rev_app_distr. reflexivity. }
    rewrite HL. apply visit_list; [| |rewrite rev_length, <- size_inorder; exact Hf].
    + intros z H. apply at_nz, in_rev, H.
    + intros l1 a l2 H. rewrite (in_prev_ok fuel (rev l2) a (rev l1)); [rewrite HL, rev_involutive; reflexivity| |exact Hf].
      rewrite <- (rev_involutive (inorder t0)), H, rev_app_distr. cbn [rev]. rewrite <- app_assoc. reflexivity.
Qed.
Theorem preorder_visit fuel : (size t0 < fuel)%nat -> exists p, pre_first m rt = Some p /\ visit (pre_next m fuel) fuel p = Some (preorder t0).
Proof.
  intros Hf. exists (hd 0 (preorder t0)). split.
  - destruct HT as (H1 & _). unfold pre_first, ld. rewrite H1, addr_hd. reflexivity.
  - apply visit_list; [| |rewrite (Permutation_length (preorder_perm t0)), <- size_inorder; exact Hf].
    + intros z H. apply at_nz. apply (Permutation_in _ (preorder_perm t0) H).
    + intros l1 a l2 H. apply (pre_next_ok fuel l1 a l2 H Hf).
Qed.
Theorem postorder_visit fuel : (size t0 < fuel)%nat -> exists p, post_first m fuel rt = Some p /\ visit (post_next m fuel) fuel p = Some (postorder t0).
Proof.
  intros Hf. exists (hd 0 (postorder t0)). split.
  - destruct HT as (H1 & H2 & D). unfold post_first, ld. rewrite H1. destruct t0 as [|x l a r] eqn:E0; [reflexivity|]. pose proof (focus_nz _ _ D) as N. change (addr (T x l a r)) with a. rewrite (proj1 (nz_addr _ _ _ _ N)).
    change a with (addr (T x l a r)). apply (left_deep_ok _ fuel 0); [lia|discriminate|exact N|exact H2].
  - apply visit_list; [| |rewrite (Permutation_length (postorder_perm t0)), <- size_inorder; exact Hf].
    + intros z H. apply at_nz. apply (Permutation_in _ (postorder_perm t0) H).
    + intros l1 a l2 H. apply (post_next_ok fuel l1 a l2 H Hf).
Qed.
End Rep.
