(** * Safe iteration: destroying visited nodes of a tree; removal from a hash map *)
From Coq Require Import Sorting.Permutation.
From Verif Require Import Lib Ptr Tree TiterModel TiterProofs SafeIterModel SafeIterSpec.

(** ** Trees: the rest of a postorder walk reads only nodes that are still to come *)
Section Post.
Context {A : Type}.
Variable V : mem -> Z -> A -> Prop.
Variable rt : Z.
Implicit Types (t : tree A) (k : ctx A).
Definition any (m : mem) (a : Z) (x : A) : Prop := True.
Lemma rep_any m t : forall par, rep V m par t -> rep any m par t.
Proof. induction t as [|x l IHl a r IHr]; intros par; cbn [rep]; [auto|]. intros (H1 & H2 & H3 & H4 & H5 & H6). repeat split; auto. Qed.
Fixpoint fut (m : mem) (k : ctx A) (h : Z) : Prop :=
  match k with
  | [] => True
  | F L x p s :: k => m p PARENT = Some (cpar k) /\ m p LEFT = Some h /\ m p RIGHT = Some (addr s) /\ rep any m p s /\ fut m k p
  | F R x p s :: k => m p PARENT = Some (cpar k) /\ m p LEFT = Some (addr s) /\ fut m k p
  end.
Lemma crep_fut m k : forall h, crep V rt m k h -> fut m k h.
Proof.
  induction k as [|[[|] x p s] k IH]; intros h; cbn [crep fut side opp]; [auto| |]; intros (H1 & H2 & H3 & H4 & H5 & H6); repeat split; auto. apply rep_any, H5.
Qed.
Lemma rep_agree m m' t : forall par, (forall z f, In z (postorder t) -> m' z f = m z f) -> rep any m par t -> rep any m' par t.
Proof.
  induction t as [|x l IHl a r IHr]; intros par G; cbn [rep postorder] in *; [auto|]. intros (H1 & H2 & H3 & H4 & H5 & H6).
  assert (Ga : forall f, m' a f = m a f) by (intros f; apply G; apply in_or_app; right; apply in_or_app; right; left; reflexivity).
  rewrite !Ga. repeat split; auto; [apply IHl|apply IHr]; auto; intros z f Hz; apply G; apply in_or_app; [left; exact Hz|right; apply in_or_app; left; exact Hz].
Qed.
Lemma fut_agree m m' k : forall h, (forall z f, In z (qafter k) -> m' z f = m z f) -> fut m k h -> fut m' k h.
Proof.
  induction k as [|[[|] x p s] k IH]; intros h G; cbn [fut qafter] in *; [auto| |].
  - intros (H1 & H2 & H3 & H4 & H5). assert (Gp : forall f, m' p f = m p f) by (intros f; apply G; apply in_or_app; right; left; reflexivity). rewrite !Gp. repeat split; auto.
    + apply (rep_agree m); [|exact H4]. intros z f Hz. apply G, in_or_app. left. exact Hz.
    + apply IH; [|exact H5]. intros z f Hz. apply G, in_or_app. right. right. exact Hz.
  - intros (H1 & H2 & H3). assert (Gp : forall f, m' p f = m p f) by (intros f; apply G; left; reflexivity). rewrite !Gp. repeat split; auto. apply IH; [|exact H3]. intros z f Hz. apply G. right. exact Hz.
Qed.

Variables (m : mem) (t0 : tree A).
Hypothesis HT : tree_at V rt m t0.
Lemma post_next_agree fuel m' l1 a l2 : postorder t0 = l1 ++ a :: l2 -> (size t0 < fuel)%nat ->
  (forall z f, In z (a :: l2) -> m' z f = m z f) -> post_next m' fuel a = Some (hd 0 l2).
Proof.
  intros Hi Hf G. assert (Ha : In a (inorder t0)) by (apply (Permutation_in _ (postorder_perm t0)); rewrite Hi; apply in_or_app; right; left; reflexivity). destruct (find_ctx a t0) as (k & x & l & r & E0); [apply cnt_pos_in, Ha|].
  assert (N : NoDup (postorder t0)) by (apply (Permutation_NoDup (Permutation_sym (postorder_perm t0))), (at_nodup V rt m t0 HT)). rewrite Hi in N.
  assert (E2 : l2 = qafter k).
  { destruct (nodup_split l1 l2 (qbefore k ++ postorder l ++ postorder r) (qafter k) a N) as [_ E]; [|exact E]. rewrite <- Hi, E0, postorder_plug. cbn [postorder]. repeat (rewrite <- ?app_assoc; cbn [app]). reflexivity. }
  subst l2. pose proof HT as H0. rewrite E0 in H0. apply tree_at_focus in H0. destruct H0 as (Hk & Ht & D). cbn [Tree.rep addr] in *. destruct Ht as (H1 & _). rewrite E0 in Hf.
  assert (Fk : fut m' k a) by (apply (fut_agree m); [intros z f Hz; apply G; right; exact Hz|apply crep_fut, Hk]).
  assert (Na : (a =? NULL) = false) by (apply (at_nz V rt m t0 HT), Ha).
  unfold post_next, ld. rewrite Na, (G a PARENT) by (left; reflexivity). rewrite H1. destruct k as [|[d y p s] k]; [reflexivity|]. cbn [cpar].
  assert (Np : (p =? NULL) = false) by (apply Z.eqb_neq; intros ->; specialize (D NULL); cbn [cntk] in D; unfold NULL in D; rewrite !ind_refl in D; lia). rewrite Np.
  destruct d; cbn [fut qafter] in *.
  - destruct Fk as (_ & C2 & C3 & C5 & _). rewrite C2, Z.eqb_refl, C3. destruct s as [|z sl b sr]; [reflexivity|]. change (addr (T z sl b sr)) with b.
    assert (Nb : nz (T z sl b sr)) by (specialize (D 0); rewrite ind_refl in D; cbn [cntk] in D; unfold nz; lia). rewrite (proj1 (nz_addr _ _ _ _ Nb)). cbn [negb].
    rewrite hd_app by (apply postorder_ne; discriminate). change b with (addr (T z sl b sr)). apply (left_deep_ok any m' _ fuel p); [|discriminate|exact Nb|exact C5].
    pose proof (size_plug k (up (F L y p (T z sl b sr)) (T x l a r))) as Hs2. cbn [size up plug] in *. lia.
  - destruct Fk as (_ & C2 & _). rewrite C2. assert (Ns : (a =? addr s) = false).
    { apply Z.eqb_neq. intros E1. specialize (D a). cbn [cnt cntk] in D. rewrite ind_refl in D. destruct s as [|z sl b sr]; cbn [addr cnt] in *; subst a; [rewrite ind_refl in D|rewrite ind_refl in D]; lia. }
    rewrite Ns. reflexivity.
Qed.

(** The body may do what it likes to the nodes visited so far (free them, for instance) and to memory outside the tree. *)
Variable body : list Z -> mem -> Z -> option mem.
Hypothesis BODY : destroys (postorder t0) body.
Lemma post_safe_from_ok nf : (size t0 < nf)%nat -> forall l2 l1 m' fuel, postorder t0 = l1 ++ l2 -> (forall z f, In z l2 -> m' z f = m z f) -> (length l2 < fuel)%nat ->
  exists m'', post_safe_from fuel nf body l1 m' (hd 0 l2) = Some (l1 ++ l2, m'') /\ run_bodies body l1 l2 m' = Some m''.
Proof.
  intros Hn. induction l2 as [|a l2 IH]; intros l1 m' fuel Hp G Hf; (destruct fuel as [|fuel]; [lia|]); cbn [hd post_safe_from run_bodies].
  - rewrite Z.eqb_refl, app_nil_r. eauto.
  - assert (Na : (a =? NULL) = false) by (apply (at_nz V rt m t0 HT), (Permutation_in _ (postorder_perm t0)); rewrite Hp; apply in_or_app; right; left; reflexivity). rewrite Na.
    rewrite (post_next_agree nf m' l1 a l2 Hp Hn G). destruct (BODY l1 m' a) as (m1 & E1 & O1). rewrite E1.
    destruct (IH (l1 ++ [a]) m1 fuel) as (m2 & E2 & E3); [rewrite <- app_assoc; exact Hp| |cbn [length] in Hf; lia|].
    + assert (N : NoDup (l1 ++ a :: l2)) by (rewrite <- Hp; apply (Permutation_NoDup (Permutation_sym (postorder_perm t0))), (at_nodup V rt m t0 HT)).
      intros z f Hz. rewrite O1; [apply G; right; exact Hz| | |].
      * rewrite Hp. apply in_or_app. right. right. exact Hz.
      * intros C. apply in_split in C. destruct C as (c1 & c2 & ->). rewrite <- app_assoc in N. cbn [app] in N. apply NoDup_remove_2 in N. apply N. apply in_or_app. right. apply in_or_app. right. right. exact Hz.
      * intros ->. apply NoDup_remove_2 in N. apply N, in_or_app. right. exact Hz.
    + rewrite E2, E3. exists m2. rewrite <- app_assoc. split; reflexivity.
Qed.
Lemma post_safe_ok nf fuel : (size t0 < nf)%nat -> (size t0 < fuel)%nat -> exists m', post_safe fuel nf body m rt = Some (postorder t0, m') /\ run_bodies body [] (postorder t0) m = Some m'.
Proof.
  intros Hn Hf. unfold post_safe. destruct (postorder_visit V rt m t0 HT nf Hn) as (p & E1 & E2). rewrite E1.
  assert (Ep : p = hd 0 (postorder t0)).
  { destruct nf as [|nf]; [lia|]. cbn [visit] in E2. destruct (Z.eqb_spec p NULL) as [->|Np].
    - injection E2 as <-. reflexivity.
    - destruct (post_next m (S nf) p) as [q|]; [|discriminate]. destruct (visit (post_next m (S nf)) nf q) as [rest|]; [|discriminate]. injection E2 as <-. reflexivity. }
  rewrite Ep. apply (post_safe_from_ok nf Hn (postorder t0) [] m fuel); [reflexivity|reflexivity|].
  rewrite (Permutation_length (postorder_perm t0)), <- size_inorder. exact Hf.
Qed.
End Post.
