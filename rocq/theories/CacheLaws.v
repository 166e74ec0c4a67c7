(** * Caches: the two replacement algorithms *)
From Verif Require Import Lib BitsModel RespoolProps Ptr ListModel ListSpec ListProofs ListProofs2 Tree.
From Verif Require HeapSpec HeapOps HeapProps HeapProofs.
From Verif Require Import HeapModel CacheModel CacheSpec CacheProofs CacheOps.

(** ** Least recently used *)
Section Lru.
Variables (h : Z) (U : list Z).
Hypothesis HU : ~ In h U.
Definition lru_mem (m : mem) : Prop := node m h /\ forall n, In n U -> node m n.
Definition lru_rep (m : mem) (l : list Z) (u : Z -> Z) : Prop := ring m h l /\ incl l U /\ lru_mem m.
Lemma lru_keeps m m' : keeps m m' -> lru_mem m -> lru_mem m'.
Proof. intros K [H1 H2]. split; [apply (keeps_node _ _ _ K H1)|]. intros n Hn. apply (keeps_node _ _ _ K), H2, Hn. Qed.
Lemma lru_reset_ok m : lru_mem m -> exists m', a_reset (lru_algo h) m = Some m' /\ lru_rep m' [] (fun _ => 0).
Proof. intros H. destruct (init_ring m h (proj1 H)) as (m' & E & R & _). exists m'. split; [exact E|]. split; [exact R|]. split; [intros x []|]. apply (lru_keeps m m' (keeps_init _ _ _ E) H). Qed.
Theorem lru_laws : laws (lru_algo h) U lru_rep lru.
Proof.
  constructor; cbn [lru_algo a_starving a_obtain a_get a_put a_update a_clear a_reset opt].
  - intros m l u (R & _). apply check_empty_ok, R.
  - intros m l u (R & I & M) N. destruct (snoc_cases _ l) as [->|(l' & v & ->)]; [congruence|]. unfold ld. rewrite (ring_prev _ _ _ R), last_snoc. destruct (del_at m h l' v [] R) as (m' & E & R' & _). rewrite E. exists m', l', v, []. split; [reflexivity|]. split; [reflexivity|]. split.
    + split; [exact R'|]. split; [|apply (lru_keeps m m' (keeps_del _ _ _ E) M)]. intros x Hx. apply I. rewrite app_nil_r in Hx. apply in_or_app. left. exact Hx.
    + exists l'. reflexivity.
  - intros m l1 n l2 u (R & I & M). destruct (del_at m h l1 n l2 R) as (m' & E & R' & _). exists m'. split; [exact E|]. split; [exact R'|]. split; [|apply (lru_keeps m m' (keeps_del _ _ _ E) M)]. intros x Hx. apply I, in_wo, Hx.
  - intros m l n u (R & I & M) Un Nn. destruct (add_ring m h l n R (proj2 M n Un)) as (m' & E & R' & _); [intros [<-|C]; contradiction|]. exists m'. split; [exact E|]. split; [exact R'|]. split; [|apply (lru_keeps m m' (keeps_add _ _ _ _ E) M)]. intros x [<-|Hx]; [exact Un|apply I, Hx].
  - intros m l n u H _ _. exists m. split; [reflexivity|exact H].
  - intros m l n u H _ _. exists m. split; [reflexivity|exact H].
  - intros m l u (_ & _ & M). apply lru_reset_ok, M.
Qed.
End Lru.

(** ** Least frequently used *)
Lemma lfu_preorder m : HeapSpec.preorder_cmp (lfu_compare m).
Proof.
  unfold lfu_compare. split; intros x y; cbv zeta.
  - destruct (Z.eqb_spec (lfu_count m x) (lfu_count m y)), (Z.eqb_spec (lfu_count m y) (lfu_count m x)), (Z.gtb_spec (lfu_count m x) (lfu_count m y)), (Z.gtb_spec (lfu_count m y) (lfu_count m x)); lia.
  - intros z. destruct (Z.eqb_spec (lfu_count m x) (lfu_count m y)), (Z.eqb_spec (lfu_count m y) (lfu_count m z)), (Z.eqb_spec (lfu_count m x) (lfu_count m z)), (Z.gtb_spec (lfu_count m x) (lfu_count m y)), (Z.gtb_spec (lfu_count m y) (lfu_count m z)), (Z.gtb_spec (lfu_count m x) (lfu_count m z)); lia.
Qed.
Lemma lfu_le m x y : lfu_compare m x y <= 0 -> lfu_count m x <= lfu_count m y.
Proof. unfold lfu_compare. cbv zeta. destruct (Z.eqb_spec (lfu_count m x) (lfu_count m y)), (Z.gtb_spec (lfu_count m x) (lfu_count m y)); lia. Qed.
Lemma hp_ext c c' (t : tree unit) : (forall a b, In a (inorder t) -> In b (inorder t) -> c a b = c' a b) -> HeapOps.hp c t -> HeapOps.hp c' t.
Proof.
  induction t as [|x l IHl a r IHr]; cbn [HeapOps.hp inorder]; intros H; [auto|]. intros (H1 & H2 & H3). split; [|split].
  - intros y Hy. rewrite <- (H a y); [apply H1, Hy|apply in_or_app; right; left; reflexivity|]. apply in_app_iff in Hy. apply in_or_app. cbn [In]. tauto.
  - apply IHl; [|exact H2]. intros u v Hu Hv. apply H; apply in_or_app; left; assumption.
  - apply IHr; [|exact H3]. intros u v Hu Hv. apply H; apply in_or_app; right; right; assumption.
Qed.
Section Lfu.
Variables (rt : Z) (U : list Z) (fuel : nat).
Hypothesis HU : ~ In rt U.
Hypothesis NU : ~ In NULL U.
Hypothesis NR : rt <> NULL.
Hypothesis FU : (length U <= fuel)%nat.
Hypothesis LU : zlen U < 2 ^ 60.
Definition lfu_mem (m : mem) : Prop := (forall f, 0 <= f < 2 -> exists v, m rt f = Some v) /\ forall n f, In n U -> 0 <= f < 4 -> exists v, m n f = Some v.
Definition lfu_rep (m : mem) (l : list Z) (u : Z -> Z) : Prop := HeapProps.heap_of (lfu_compare m) rt m l /\ NoDup l /\ incl l U /\ lfu_mem m /\ forall n, In n U -> m n FREQ = Some (u n).
Lemma count_eq m u n : (forall n, In n U -> m n FREQ = Some (u n)) -> In n U -> lfu_count m n = u n.
Proof. intros H Hn. unfold lfu_count. rewrite (H n Hn). reflexivity. Qed.
Lemma cmp_ext m m' u u' a b : (forall n, In n U -> m n FREQ = Some (u n)) -> (forall n, In n U -> m' n FREQ = Some (u' n)) -> In a U -> In b U -> u a = u' a -> u b = u' b -> lfu_compare m a b = lfu_compare m' a b.
Proof. intros H H' Ha Hb E1 E2. unfold lfu_compare. rewrite (count_eq m u a), (count_eq m u b), (count_eq m' u' a), (count_eq m' u' b), E1, E2 by assumption. reflexivity. Qed.
Lemma keep_mem m m' : HeapProofs.keep3 m m' -> lfu_mem m -> lfu_mem m'.
Proof.
  intros [D _] [H1 H2]. assert (Q : forall a f, (exists v, m a f = Some v) -> exists v, m' a f = Some v) by (intros a f [v Hv]; destruct (m' a f) eqn:E0; [eauto|]; apply D in E0; congruence).
  split; [intros f Hf; apply Q, H1, Hf|intros n f Hn Hf; apply Q, H2; assumption].
Qed.
Lemma keep_freq m m' u : HeapProofs.keep3 m m' -> (forall n, In n U -> m n FREQ = Some (u n)) -> forall n, In n U -> m' n FREQ = Some (u n).
Proof. intros [_ K] H n Hn. rewrite K by (unfold FREQ; lia). apply H, Hn. Qed.
Lemma shape_ext m m' u t c : (forall n, In n U -> m n FREQ = Some (u n)) -> (forall n, In n U -> m' n FREQ = Some (u n)) -> incl (inorder t) U -> HeapProps.shape_ok (lfu_compare m) rt m' t c -> HeapProps.shape_ok (lfu_compare m') rt m' t c.
Proof.
  intros H H' I (A & B & C). split; [exact A|]. split; [|exact C]. revert B. apply hp_ext. intros a b Ha Hb. apply (cmp_ext m m' u u); auto.
Qed.
Lemma lfu_delete m l1 n l2 u : lfu_rep m (l1 ++ n :: l2) u -> exists m', hp_delete (lfu_compare m) fuel m rt n = Some m' /\ lfu_rep m' (l1 ++ l2) u.
Proof.
  intros ((t & HS & HP) & D & I & M & F). pose proof (Permutation_length HP) as PL. rewrite <- size_inorder in PL.
  assert (LL : (length (l1 ++ n :: l2) <= length U)%nat) by (apply NoDup_incl_length; assumption).
  destruct (HeapProps.delete_ok (lfu_compare m) (lfu_preorder m) rt fuel m t (zlen (l1 ++ n :: l2)) n) as (m' & t' & E & S' & P' & K); [unfold zlen in *; lia|lia|exact HS|apply (Permutation_in _ (Permutation_sym HP)), in_mid|].
  exists m'. split; [exact E|]. assert (Pt : Permutation (inorder t') (l1 ++ l2)).
  { apply (Permutation_cons_inv (a := n)). apply (Permutation_trans (Permutation_sym P')). apply (Permutation_trans HP). apply Permutation_sym, Permutation_middle. }
  assert (I' : incl (l1 ++ l2) U) by (intros x Hx; apply I, in_wo, Hx). pose proof (keep_freq m m' u K F) as F'. split; [|split; [apply NoDup_remove_1 in D; exact D|split; [exact I'|split; [apply (keep_mem m m' K M)|exact F']]]].
  exists t'. split; [|exact Pt]. apply (shape_ext m m' u); [exact F|exact F'|intros x Hx; apply I', (Permutation_in _ Pt), Hx|]. replace (zlen (l1 ++ l2)) with (zlen (l1 ++ n :: l2) - 1); [exact S'|]. unfold zlen. rewrite !app_length. cbn [length]. lia.
Qed.
Lemma lfu_write m l n u v : lfu_rep m l u -> In n U -> ~ In n l -> exists m', st m n FREQ v = Some m' /\ lfu_rep m' l (put_at u n v).
Proof.
  intros ((t & HS & HP) & D & I & M & F) Un Nn. exists (upd m n FREQ v). split; [apply (st_some _ _ _ _ _ (F n Un))|].
  assert (F' : forall x, In x U -> upd m n FREQ v x FREQ = Some (put_at u n v x)) by (intros x Hx; destruct (Z.eq_dec x n) as [->|N]; [rewrite upd_same, put_at_same; reflexivity|rewrite upd_other, put_at_other by auto; apply F, Hx]).
  assert (Nt : ~ In n (inorder t)) by (intros C; apply Nn, (Permutation_in _ HP), C). assert (Nrt : n <> rt) by (intros ->; contradiction).
  split; [|split; [exact D|split; [exact I|split; [|exact F']]]].
  - exists t. split; [|exact HP]. destruct HS as (A & B & C & E). split; [apply (HeapProps.at_upd rt); [exact A| |exact Nrt]|].
    + rewrite cnt_inorder. apply count_occ_not_In. exact Nt.
    + split; [|split; [exact C|rewrite upd_other by (left; congruence); exact E]]. revert B. apply hp_ext. intros a b Ha Hb. apply (Permutation_in _ HP) in Ha, Hb. assert (a <> n /\ b <> n) as [N1 N2] by (split; intros ->; contradiction). apply (cmp_ext _ _ u (put_at u n v)); auto; rewrite put_at_other by assumption; reflexivity.
  - destruct M as [M1 M2]. split; [intros f Hf; rewrite upd_other by (left; congruence); apply M1, Hf|]. intros x f Hx Hf. unfold upd. destruct ((x =? n) && (f =? FREQ)); [eexists; reflexivity|apply M2; assumption].
Qed.
Lemma lfu_zero_ok : forall l m, (forall n, In n l -> exists v, m n FREQ = Some v) -> exists m', lfu_zero m l = Some m' /\ (forall n, In n l -> m' n FREQ = Some 0) /\ (forall n f, ~ In n l \/ f <> FREQ -> m' n f = m n f).
Proof.
  induction l as [|x l IH]; intros m H; cbn [lfu_zero]; [exists m; split; [reflexivity|]; split; [intros n []|reflexivity]|]. destruct (H x (or_introl eq_refl)) as [v Hv]. rewrite (st_some _ _ _ _ _ Hv). destruct (IH (upd m x FREQ 0)) as (m' & E & H1 & H2).
  - intros n Hn. unfold upd. destruct ((n =? x) && (FREQ =? FREQ)); [eexists; reflexivity|apply H; right; exact Hn].
  - exists m'. split; [exact E|]. split.
    + intros n [<-|Hn]; [|apply H1, Hn]. destruct (in_dec Z.eq_dec x l) as [Hx|Hx]; [apply H1, Hx|]. rewrite H2 by (left; exact Hx). apply upd_same.
    + intros n f Hn. rewrite H2 by (destruct Hn as [Hn|Hn]; [left; intros C; apply Hn; right; exact C|right; exact Hn]). apply upd_other. destruct Hn as [Hn|Hn]; [left; intros ->; apply Hn; left; reflexivity|right; exact Hn].
Qed.
Lemma lfu_reset_ok m : lfu_mem m -> exists m', a_reset (lfu_algo rt U fuel) m = Some m' /\ lfu_rep m' [] (fun _ => 0).
Proof.
  intros [M1 M2]. cbn [lfu_algo a_reset]. destruct (M1 NODE ltac:(unfold NODE; lia)) as [v0 E0]. rewrite (st_some _ _ _ _ _ E0). set (m1 := upd m rt NODE NULL). destruct (M1 COUNT ltac:(unfold COUNT; lia)) as [v1 E1]. assert (E1' : m1 rt COUNT = Some v1) by (unfold m1; rewrite upd_other by (right; discriminate); exact E1). rewrite (st_some _ _ _ _ _ E1'). set (m2 := upd m1 rt COUNT 0).
  assert (O : forall n f, In n U -> m2 n f = m n f) by (intros n f Hn; unfold m2, m1; assert (n <> rt) by (intros ->; contradiction); rewrite !upd_other by auto; reflexivity).
  destruct (lfu_zero_ok U m2) as (m' & EZ & Z1 & Z2); [intros n Hn; rewrite (O n FREQ Hn); apply M2; [exact Hn|unfold FREQ; lia]|]. exists m'. split; [exact EZ|].
  assert (R0 : m' rt NODE = Some NULL) by (rewrite Z2 by (left; exact HU); unfold m2; rewrite upd_other by (right; discriminate); apply upd_same). assert (R1 : m' rt COUNT = Some 0) by (rewrite Z2 by (left; exact HU); apply upd_same).
  split; [|split; [constructor|split; [intros x []|split; [|exact Z1]]]].
  - exists E. split; [|apply Permutation_refl]. split; [|split; [exact I|split; [|exact R1]]].
    + split; [exact R0|]. split; [exact I|]. intros z. cbn [cntk cnt]. destruct (Z.eq_dec z 0) as [->|N]; [rewrite ind_refl, ind_ne by (unfold NULL in NR; congruence); lia|]. rewrite (ind_ne z 0 N). unfold ind. destruct (z =? rt); lia.
    + intros i Hi. unfold HeapSpec.at_pos, zlen. cbn [length HeapSpec.at_path]. split; [congruence|lia].
  - split; [intros f Hf; assert (f = NODE \/ f = COUNT) as [->| ->] by (unfold NODE, COUNT; lia); eexists; eassumption|]. intros n f Hn Hf. destruct (Z.eq_dec f FREQ) as [->|N]; [eexists; apply Z1, Hn|]. rewrite Z2 by (right; exact N). rewrite (O n f Hn). apply M2; assumption.
Qed.
Theorem lfu_laws : laws (lfu_algo rt U fuel) U lfu_rep lfu.
Proof.
  constructor; cbn [lfu_algo a_starving a_obtain a_get a_put a_update a_clear opt].
  - intros m l u ((t & HS & HP) & _ & I & _). destruct HS as (A & B & _). unfold ld. destruct (HeapProps.root_least (lfu_compare m) (lfu_preorder m) rt m t A B) as (p & E & Hp). rewrite E. f_equal. destruct Hp as [[E1 ->]|[H1 H2]].
    + rewrite E1 in HP. apply Permutation_nil in HP. subst l. reflexivity.
    + apply (Permutation_in _ HP) in H1. destruct l as [|x l]; [destruct H1|]. apply Z.eqb_neq. intros ->. apply NU, I, H1.
  - intros m l u R N. pose proof R as ((t & HS & HP) & D & I & M & F). pose proof HS as (A & B & _). unfold ld. destruct (HeapProps.root_least (lfu_compare m) (lfu_preorder m) rt m t A B) as (p & E & Hp). rewrite E. destruct Hp as [[E1 _]|[H1 H2]]; [rewrite E1 in HP; apply Permutation_nil in HP; congruence|].
    apply (Permutation_in _ HP) in H1. pose proof H1 as H1'. apply in_split in H1. destruct H1 as (l1 & l2 & ->). destruct (lfu_delete m l1 p l2 u R) as (m' & E' & R'). rewrite E'. exists m', l1, p, l2. split; [reflexivity|]. split; [reflexivity|]. split; [exact R'|]. split; [exact H1'|].
    intros x Hx. rewrite <- (count_eq m u p F (I p H1')), <- (count_eq m u x F (I x Hx)). apply lfu_le, H2, (Permutation_in _ (Permutation_sym HP)), Hx.
  - intros m l1 n l2 u R. apply lfu_delete, R.
  - intros m l n u ((t & HS & HP) & D & I & M & F) Un Nn. pose proof (Permutation_length HP) as PL. rewrite <- size_inorder in PL.
    assert (LL : (length (n :: l) <= length U)%nat) by (apply NoDup_incl_length; [constructor; assumption|intros x [<-|Hx]; [exact Un|apply I, Hx]]). cbn [length] in LL.
    destruct (HeapProps.insert_ok (lfu_compare m) (lfu_preorder m) rt fuel m t (zlen l) n) as (m' & t' & E & S' & P' & K); [unfold zlen in *; lia|lia|exact HS|intros f Hf; apply (proj2 M); [exact Un|lia]|intros ->; apply NU, Un|intros ->; contradiction|intros C; apply Nn, (Permutation_in _ HP), C|].
    exists m'. split; [exact E|]. assert (Pt : Permutation (inorder t') (n :: l)) by (apply (Permutation_trans P'), perm_skip, HP). assert (I' : incl (n :: l) U) by (intros x [<-|Hx]; [exact Un|apply I, Hx]). pose proof (keep_freq m m' u K F) as F'.
    split; [|split; [constructor; assumption|split; [exact I'|split; [apply (keep_mem m m' K M)|exact F']]]]. exists t'. split; [|exact Pt]. apply (shape_ext m m' u); [exact F|exact F'|intros x Hx; apply I', (Permutation_in _ Pt), Hx|]. rewrite zlen_cons. replace (1 + zlen l) with (zlen l + 1) by lia. exact S'.
  - intros m l n u R Un Nn. pose proof R as (_ & _ & _ & _ & F). unfold ld. rewrite (F n Un). apply lfu_write; assumption.
  - intros m l n u R Un Nn. apply lfu_write; assumption.
  - intros m l u (_ & _ & _ & M & _). apply lfu_reset_ok, M.
Qed.
End Lfu.
