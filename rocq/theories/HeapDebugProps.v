(** * C114: heaps with debug checks *)
From Coq Require Import Sorting.Permutation Sorting.Sorted.
From Verif Require Import Lib Ptr Tree BitsModel BitsProofs TiterModel TiterProofs RbProofs RbInsert RbFrame RbOps RbModel HeapModel HeapProofs HeapSpec HeapPath HeapOps HeapProps TreeDebugModel HeapDebugSpec.
(** ** A member's links are null or members *)
Lemma links_in {A} (W : mem -> Z -> A -> Prop) rt m t n : tree_at W rt m t -> In n (inorder t) ->
  exists l r p, m n LEFT = Some l /\ m n RIGHT = Some r /\ m n PARENT = Some p /\ (l = 0 \/ In l (inorder t)) /\ (r = 0 \/ In r (inorder t)) /\ (p = 0 \/ In p (inorder t)).
Proof.
  intros HT Hn. apply cnt_pos_in in Hn. destruct (find_ctx n t Hn) as (k & x & l & r & ->). apply tree_at_focus in HT. destruct HT as (Hk & (R1 & R2 & R3 & _) & _). exists (addr l), (addr r), (cpar k). conj; try assumption; rewrite inorder_plug; cbn [inorder].
  - destruct l as [|y l1 b l2]; [left; reflexivity|right]. cbn [addr inorder]. rewrite !in_app_iff. cbn [In]. tauto.
  - destruct r as [|y l1 b l2]; [left; reflexivity|right]. cbn [addr inorder]. rewrite !in_app_iff. cbn [In]. rewrite !in_app_iff. cbn [In]. tauto.
  - destruct k as [|[[|] y b s] k]; [left; reflexivity|right|right]; cbn [cpar before after app]; rewrite !in_app_iff; cbn [In]; rewrite ?in_app_iff; cbn [In]; tauto.
Qed.
Lemma check_member {A} (W : mem -> Z -> A -> Prop) rt m t n p1 p2 p3 : tree_at W rt m t -> In n (inorder t) -> (forall x, In x (inorder t) -> x <> p1 /\ x <> p2 /\ x <> p3) -> p1 <> 0 -> p2 <> 0 -> p3 <> 0 ->
  check_delete p1 p2 p3 m n = Some true.
Proof.
  intros HT Hn HP N1 N2 N3. destruct (links_in W rt m t n HT Hn) as (l & r & p & E1 & E2 & E3 & Hl & Hr & Hp). unfold check_delete, ld. rewrite E1, E2, E3.
  destruct (Z.eqb_spec l p1) as [->|_]; [exfalso; destruct Hl as [Hl|Hl]; [congruence|apply HP in Hl; tauto]|]. destruct (Z.eqb_spec r p2) as [->|_]; [exfalso; destruct Hr as [Hl'|Hl']; [congruence|apply HP in Hl'; tauto]|]. destruct (Z.eqb_spec p p3) as [->|_]; [exfalso; destruct Hp as [Hl'|Hl']; [congruence|apply HP in Hl'; tauto]|]. reflexivity.
Qed.
(** ** The heap code is local *)
Lemma hp_change_local rt g o n : Lm (fun m => hp_change m rt g o n).
Proof. unfold hp_change. repeat lstep. Qed.
Lemma adopt_local c p : Lm (fun m => adopt m c p).
Proof. unfold adopt. repeat lstep. Qed.
Lemma parent_swap_local rt p n : Lm (fun m => parent_swap m rt p n).
Proof. unfold parent_swap. repeat first [apply adopt_local | apply hp_change_local | lstep]. Qed.
Section Cmp.
Variable cmp : Z -> Z -> Z.
Lemma hp_fixup_local rt : forall fuel n, Lm (fun m => hp_fixup cmp fuel m rt n).
Proof. induction fuel as [|fuel IH]; intros n; cbn [hp_fixup]; [apply Lm_none|]. repeat first [apply IH | apply parent_swap_local | lstep]. Qed.
Lemma hp_sink_local rt : forall fuel n, Lm (fun m => hp_sink cmp fuel m rt n).
Proof. induction fuel as [|fuel IH]; intros n; cbn [hp_sink]; [apply Lm_none|]. repeat first [apply IH | apply parent_swap_local | lstep]. Qed.
Lemma hp_erase_local rt fuel n : Lm (fun m => hp_erase cmp fuel m rt n).
Proof. unfold hp_erase. repeat first [apply hp_fixup_local | apply hp_sink_local | lstep]. Qed.
Lemma hp_walk_local : forall d n i, Lr (fun m => hp_walk d m n i).
Proof. induction d as [|d IH]; intros n i; cbn [hp_walk]; [apply Lr_ret|]. repeat first [apply IH | lstep]. Qed.
Lemma hp_find_local rt i : Lr (fun m => hp_find m rt i).
Proof. unfold hp_find. repeat first [apply hp_walk_local | lstep]. Qed.
Lemma hp_parent_loop_local : forall d i p l, Lr (fun m => hp_parent_loop d m i p l).
Proof. induction d as [|d IH]; intros i p l; cbn [hp_parent_loop]; [apply Lr_ret|]. repeat first [apply IH | lstep]. Qed.
Lemma hp_parent_local rt : Lr (fun m => hp_parent m rt).
Proof. unfold hp_parent. repeat first [apply hp_parent_loop_local | lstep]. destruct (Z.to_nat (flsuf (w64 (x0 + 1)))); [apply Lr_none|apply hp_parent_loop_local]. Qed.
Lemma hp_link_local rt p lp n : Lm (fun m => hp_link m rt p lp n).
Proof. unfold hp_link. repeat lstep. Qed.
Lemma hp_insert_local rt fuel n : Lm (fun m => hp_insert cmp fuel m rt n).
Proof. unfold hp_insert. apply Lm_bind_r; [apply hp_parent_local|intros pl]. apply Lm_bind; [apply hp_link_local|apply hp_fixup_local]. Qed.
Lemma hp_inherit_local rt o n : Lm (fun m => hp_inherit rt m o n).
Proof. unfold hp_inherit. repeat first [apply adopt_local | lstep]. Qed.
Lemma hp_remove_local rt n : Lx (fun m => hp_remove m rt n).
Proof. unfold hp_remove. repeat first [apply hp_find_local | apply hp_inherit_local | lstep]. Qed.
Lemma hp_delete_local rt fuel n : Lm (fun m => hp_delete cmp fuel m rt n).
Proof. unfold hp_delete. repeat first [apply hp_remove_local | apply hp_erase_local | lstep]. Qed.
Variable rt : Z.
Lemma exec_local fuel o : Lm (fun m => exec cmp rt fuel m o).
Proof. destruct o as [n|n]; cbn [exec]; [apply hp_insert_local|apply hp_delete_local]. Qed.
(** ** Nodes that are neither in the heap nor inserted are left alone *)
Hypothesis HC : preorder_cmp cmp.
Definition on (S : list Z) (m : mem) : mem := fun a f => if existsb (Z.eqb a) S then m a f else None.
Lemma on_in S m a f : In a S -> on S m a f = m a f.
Proof. intros H. unfold on. replace (existsb (Z.eqb a) S) with true; [reflexivity|]. symmetry. apply existsb_exists. exists a. split; [exact H|apply Z.eqb_refl]. Qed.
Lemma on_out S m a f : ~ In a S -> on S m a f = None.
Proof. intros H. unfold on. destruct (existsb (Z.eqb a) S) eqn:E0; [|reflexivity]. apply existsb_exists in E0. destruct E0 as (x & Hx & E0). apply Z.eqb_eq in E0. subst x. contradiction. Qed.
Lemma on_Rel S m : Rel m (on S m) m.
Proof. intros a f. unfold on. destruct (existsb _ _); [|reflexivity]. destruct (m a f); reflexivity. Qed.
Lemma exec_frame fuel m l o S : zlen l < 2 ^ 64 - 1 -> (length l < fuel)%nat -> heap_of cmp rt m l -> allowed (good_node rt m) o l -> incl (rt :: l) S -> match o with Ins n => In n S | Del _ => True end ->
  forall m', exec cmp rt fuel m o = Some m' -> forall a f, ~ In a S -> m' a f = m a f.
Proof.
  intros Hz Hf (t & (HT & Hh & HP & Hc) & Pm) Al HS Ho m' E a f Ha.
  assert (H0 : heap_of cmp rt (on S m) l).
  { exists t. split; [|exact Pm]. split; [|split; [exact Hh|split; [exact HP|rewrite on_in by (apply HS; left; reflexivity); exact Hc]]]. destruct HT as (T1 & T2 & T3). split; [rewrite on_in by (apply HS; left; reflexivity); exact T1|]. split; [|exact T3]. apply (rep_ext U U_frame m); [|exact T2]. intros b g Hb. apply on_in, HS. right. apply (Permutation_in _ Pm), cnt_pos_in, Hb. }
  destruct (step_ok cmp HC rt fuel (on S m) l o Hz Hf H0) as (m0 & E0 & _ & _).
  { destruct o as [n|n]; cbn [allowed] in *; [|exact Al]. destruct Al as ((G1 & G2) & G3). split; [split; [|exact G2]|exact G3]. intros g Hg. rewrite on_in by exact Ho. apply G1, Hg. }
  destruct (exec_local fuel o _ _ _ _ (on_Rel S m) E0) as (D & M' & E1 & R). rewrite E in E1. injection E1 as <-. rewrite R. assert (E2 : m0 a f = None) by (apply D; apply on_out, Ha). rewrite E2. reflexivity.
Qed.
(** ** Histories *)
Definition poison (n : Z) : Prop := n = POISON_HPNODE1 \/ n = POISON_HPNODE2 \/ n = POISON_HPNODE3.
Definition poisoned (m : mem) (n : Z) : Prop := m n LEFT = Some POISON_HPNODE1 /\ m n RIGHT = Some POISON_HPNODE2 /\ m n PARENT = Some POISON_HPNODE3.
Definition exec_dbg (fuel : nat) (m : mem) (o : op) : option mem := match o with Ins n => hp_insert_dbg cmp fuel m rt n | Del n => hp_delete_dbg cmp fuel m rt n end.
Fixpoint run_dbg (fuel : nat) (m : mem) (ops : list op) : option mem := match ops with [] => Some m | o :: ops => let* m := exec_dbg fuel m o in run_dbg fuel m ops end.
Lemma delete_poisons fuel m n m' : hp_delete cmp fuel m rt n = Some m' -> poisoned m' n.
Proof.
  unfold hp_delete. destruct (hp_remove m rt n) as [[m1 s]|]; [|discriminate]. cbn [fst snd]. destruct (if s =? NULL then Some m1 else hp_erase cmp fuel m1 rt s) as [m2|]; [|discriminate].
  intros H. destruct (st m2 n LEFT POISON_HPNODE1) as [m3|] eqn:E1; [|discriminate]. destruct (st m3 n RIGHT POISON_HPNODE2) as [m4|] eqn:E2; [|discriminate]. apply st_inv in E1, E2, H. destruct E1 as [_ ->], E2 as [_ ->], H as [_ ->]. split; [|split].
  - rewrite !upd_other by (right; discriminate). apply upd_same.
  - rewrite upd_other by (right; discriminate). apply upd_same.
  - apply upd_same.
Qed.
Lemma poisoned_check m n : poisoned m n -> check_delete POISON_HPNODE1 POISON_HPNODE2 POISON_HPNODE3 m n = Some false.
Proof. intros (H & _). unfold check_delete, ld. rewrite H. reflexivity. Qed.
(** the link where an insertion goes is free *)
Lemma parent_free m t c : 0 <= c < 2 ^ 64 - 1 -> shape_ok cmp rt m t c -> exists p lp, hp_parent m rt = Some (p, lp) /\ m (fst lp) (snd lp) = Some 0.
Proof.
  intros Hc (HT & Hh & HP & HCt). assert (Hw : w64 (c + 1) = c + 1) by (unfold w64; apply Z.mod_small; lia).
  assert (X : exists k : uctx, hp_parent m rt = Some (cpar k, (loc rt k, lfield k)) /\ plug k E = t).
  { unfold hp_parent, ld. pose proof HT as (H1 & H2 & D). rewrite H1. pose proof (uaddr_null rt [] t D) as Hz. rewrite Hz. destruct t as [|x l a r] eqn:Et.
    - exists []. split; reflexivity.
    - rewrite HCt. cbn zeta. rewrite Hw. pose proof (complete_ne _ _ HP ltac:(discriminate)) as Hc1. rewrite (proj2 (Z.eqb_neq (c + 1) 0)) by lia.
      rewrite (flsuf_log2 (c + 1)) by lia. destruct (parent_loop_ok rt m (Z.to_nat (Z.log2 (c + 1))) (c + 1) [] (T x l a r)) as (k & u & E1 & E2 & E3).
      + exact HT.
      + intros p q Hb Hq. destruct (path_prefix (c + 1) ltac:(lia) p q Hb Hq) as (j & Hj & <-). apply HP; lia.
      + exists k. cbn [kpath app] in E3. change (bits (Z.to_nat (Z.log2 (c + 1))) (c + 1)) with (path (c + 1)) in E3. cbn [plug] in E2.
        assert (Hu : u = E). { destruct u as [|y ul b ur]; [reflexivity|]. exfalso. assert (Hx : at_pos (T x l a r) (c + 1) <> None). { unfold at_pos. rewrite <- E2, <- E3. rewrite <- (app_nil_r (kpath k)), at_plug. discriminate. } apply HP in Hx; lia. }
        subst u. split; [|exact E2]. change NULL with 0. cbn [cpar loc lfield] in E1. rewrite <- E1.
        assert (Hl : (0 < Z.to_nat (Z.log2 (c + 1)))%nat) by (pose proof (Z.log2_pos (c + 1) ltac:(lia)); lia). destruct (Z.to_nat (Z.log2 (c + 1))); [lia|reflexivity]. }
  destruct X as (k & E1 & E2). exists (cpar k), (loc rt k, lfield k). split; [exact E1|]. cbn [fst snd]. rewrite <- E2 in HT. apply tree_at_focus in HT. destruct HT as (Hk & _). apply (crep_loc U rt m k). exact Hk.
Qed.
Lemma exec_same fuel m l o : zlen l < 2 ^ 64 - 1 -> heap_of cmp rt m l -> allowed (good_node rt m) o l -> (forall x, In x l -> ~ poison x) -> exec_dbg fuel m o = exec cmp rt fuel m o.
Proof.
  intros Hz (t & HS & Pm) Al HP. destruct o as [n|n]; cbn [exec_dbg exec allowed] in *.
  - destruct Al as ((_ & N0 & _) & _). destruct (parent_free m t (zlen l)) as (p & lp & E1 & E2); [unfold zlen in *; lia|exact HS|]. unfold hp_insert_dbg, hp_insert, hp_insert_node_dbg, hp_link_dbg, check_link. rewrite E1. cbn [fst snd]. unfold ld. rewrite E2. cbn beta iota. destruct (Z.eqb_spec 0 n); [congruence|]. reflexivity.
  - unfold hp_delete_dbg. rewrite (check_member U rt m t n); try discriminate; [reflexivity|apply HS|apply (Permutation_in _ (Permutation_sym Pm)), Al|]. intros x Hx. apply (Permutation_in _ Pm), HP in Hx. unfold poison in Hx. tauto.
Qed.
Definition good_dbg (m : mem) (n : Z) : Prop := good_node rt m n /\ ~ poison n.
Lemma history_keep ops : forall m m' l g, keep3 m m' -> history_dbg (good_dbg m) ops l g -> history_dbg (good_dbg m') ops l g.
Proof.
  induction ops as [|o ops IH]; intros m m' l g K H; cbn [history_dbg] in *; [exact I|]. destruct H as [H H']. split; [|apply (IH m m'); assumption]. destruct H as [H|H]; [left|right; exact H]. destruct o as [n|n]; cbn [allowed] in *; [|exact H]. destruct H as (((X1 & X2) & X3) & X4). split; [split; [split|]|]; try assumption. apply (keep3_hnode m m' n K X1).
Qed.
Lemma existsb_in n l : existsb (Z.eqb n) l = true <-> In n l.
Proof. rewrite existsb_exists. split; [intros (x & Hx & E0); apply Z.eqb_eq in E0; subst; exact Hx|]. intros H. exists n. split; [exact H|apply Z.eqb_refl]. Qed.
Lemma filter_absent n l : ~ In n l -> filter (fun x => negb (x =? n)) l = l.
Proof. intros H. induction l as [|x l IH]; [reflexivity|]. cbn [filter]. destruct (Z.eqb_spec x n) as [->|N]; cbn [negb]; [exfalso; apply H; left; reflexivity|]. f_equal. apply IH. intros C. apply H. right. exact C. Qed.
Theorem run_same ops : forall fuel m l gone, Z.of_nat (length l + length ops) < 2 ^ 64 - 1 -> (length l + length ops < fuel)%nat -> heap_of cmp rt m l -> (forall x, In x l -> ~ poison x) ->
  (forall x, In x gone -> ~ In x l /\ x <> rt /\ poisoned m x) -> history_dbg (good_dbg m) ops l gone ->
  exists m', run_dbg fuel m ops = Some m' /\ run cmp rt fuel m (useful ops l) = Some m' /\ heap_of cmp rt m' (apply_ops ops l) /\ apply_ops (useful ops l) l = apply_ops ops l.
Proof.
  induction ops as [|o ops IH]; intros fuel m l gone H64 Hf HH HP HG HA; cbn [run_dbg length] in *; [exists m; auto|]. cbn [history_dbg] in HA. destruct HA as [Ha HA].
  assert (Main : allowed (good_dbg m) o l -> exists m', (let* m := exec_dbg fuel m o in run_dbg fuel m ops) = Some m' /\ (let* m := exec cmp rt fuel m o in run cmp rt fuel m (useful ops (apply_op o l))) = Some m' /\ heap_of cmp rt m' (apply_ops ops (apply_op o l)) /\ apply_ops (useful ops (apply_op o l)) (apply_op o l) = apply_ops ops (apply_op o l)).
  { intros Al. assert (Al' : allowed (good_node rt m) o l) by (destruct o as [n|n]; cbn [allowed] in *; [destruct Al as ((G & _) & G'); split; assumption|exact Al]).
    destruct (step_ok cmp HC rt fuel m l o) as (m1 & E1 & A1 & A2); try assumption; [unfold zlen; lia|lia|]. rewrite (exec_same fuel m l o ltac:(unfold zlen; lia) HH Al' HP), E1. pose proof (apply_len o l) as Hl.
    apply (IH fuel m1 (apply_op o l) (gone_after o l gone)); [lia|lia|exact A1| | |apply (history_keep ops m m1 _ _ A2 HA)].
    - intros x Hx. destruct o as [n|n]; cbn [apply_op] in Hx; [destruct Hx as [<-|Hx]; [apply Al|apply HP, Hx]|]. apply filter_In in Hx. apply HP, Hx.
    - intros x Hx. destruct o as [n|n]; cbn [gone_after apply_op allowed] in *.
      + apply filter_In in Hx. destruct Hx as [Hx Nx]. apply negb_true_iff, Z.eqb_neq in Nx. destruct (HG x Hx) as (G1 & G2 & (P1 & P2 & P3)). split; [intros [C|C]; [congruence|contradiction]|]. split; [exact G2|].
        assert (K : forall f, m1 x f = m x f) by (intros f; apply (exec_frame fuel m l (Ins n) (rt :: n :: l) ltac:(unfold zlen; lia) ltac:(lia) HH Al' ltac:(intros y [->|Hy]; [left; reflexivity|right; right; exact Hy]) ltac:(right; left; reflexivity) m1 E1); intros [C|[C|C]]; [congruence|congruence|contradiction]).
        unfold poisoned. rewrite !K. auto.
      + rewrite (proj2 (existsb_in n l) Al) in Hx. destruct Hx as [<-|Hx].
        * split; [intros C; apply filter_In in C; destruct C as [_ C]; rewrite Z.eqb_refl in C; discriminate C|]. split; [|apply (delete_poisons fuel m n m1 E1)]. destruct HH as (t & (HT & _) & Pm). apply (in_node rt m t n HT). apply (Permutation_in _ (Permutation_sym Pm) Al).
        * destruct (HG x Hx) as (G1 & G2 & (P1 & P2 & P3)). split; [intros C; apply filter_In in C; tauto|]. split; [exact G2|].
          assert (K : forall f, m1 x f = m x f) by (intros f; apply (exec_frame fuel m l (Del n) (rt :: l) ltac:(unfold zlen; lia) ltac:(lia) HH Al' (incl_refl _) I m1 E1); intros [C|C]; [congruence|contradiction]). unfold poisoned. rewrite !K. auto. }
  destruct o as [n|n]; cbn [useful].
  - destruct Ha as [Al|(x & C & _)]; [|discriminate C]. destruct (Main Al) as (m' & E1 & E2 & E3 & E4). exists m'. cbn [run apply_ops]. auto.
  - destruct (existsb (Z.eqb n) l) eqn:En.
    + apply existsb_in in En. destruct (Main En) as (m' & E1 & E2 & E3 & E4). exists m'. cbn [run apply_ops]. auto.
    + assert (Nn : ~ In n l) by (rewrite <- existsb_in, En; discriminate). assert (Hg : In n gone) by (destruct Ha as [Al|(x & C & Hx)]; [contradiction|injection C as ->; exact Hx]). destruct (HG n Hg) as (_ & _ & P).
      cbn [exec_dbg gone_after apply_op apply_ops] in *. rewrite En in HA. rewrite (filter_absent n l Nn) in *. unfold hp_delete_dbg. rewrite (poisoned_check m n P). cbn [negb]. apply (IH fuel m l gone); try assumption; lia.
Qed.
(** From an initialised root: any insertions and deletions, where a node that was deleted may be deleted again.  The debug build ends with exactly the memory that the plain
    build reaches without the repeated deletions (for which C55 says what it is). *)
Theorem C114_heap_history fuel m ops : rt <> 0 -> m rt NODE = Some NULL -> m rt COUNT = Some 0 -> Z.of_nat (length ops) < 2 ^ 64 - 1 -> (length ops < fuel)%nat ->
  history_dbg (good_dbg m) ops [] [] ->
  exists m', run_dbg fuel m ops = Some m' /\ run cmp rt fuel m (useful ops []) = Some m' /\ apply_ops (useful ops []) [] = apply_ops ops [].
Proof.
  intros Hr H1 H2 H3 H4 H5. destruct (run_same ops fuel m [] []) as (m' & A & B & _ & D); try assumption; [|intros x []|intros x []|exists m'; auto].
  exists E. split; [|apply Permutation_refl]. split; [|split; [exact I|split; [|exact H2]]].
  - split; [exact H1|]. split; [exact I|]. intros z. cbn [cntk cnt]. destruct (Z.eq_dec z 0) as [->|N]; [rewrite ind_refl, ind_ne by congruence; lia|]. rewrite (ind_ne z 0 N). unfold ind. destruct (z =? rt); lia.
  - intros i Hi. unfold at_pos, zlen. cbn [length at_path]. split; [congruence|lia].
Qed.
Lemma double_link fuel m t c n p lp : shape_ok cmp rt m t c -> In n (inorder t) -> m (fst lp) (snd lp) = Some n -> (0 < fuel)%nat -> hp_insert_node_dbg cmp fuel m rt p lp n = Some m.
Proof.
  intros (HT & Hh & _) Hn El Hf. unfold hp_insert_node_dbg, hp_link_dbg, check_link, ld. rewrite El, Z.eqb_refl. cbn [negb]. destruct fuel as [|fuel]; [lia|]. cbn [hp_fixup]. destruct (links_in U rt m t n HT Hn) as (_ & _ & q & _ & _ & E3 & _ & _ & _). unfold ld. rewrite E3.
  destruct (Z.eqb_spec q NULL) as [->|Nq]; [reflexivity|]. replace (cmp n q >=? 0) with true; [reflexivity|]. symmetry. apply Z.geb_le.
  apply cnt_pos_in in Hn. destruct (find_ctx n t Hn) as (k & x & l & r & ->). apply tree_at_focus in HT. destruct HT as (_ & (R1 & _) & _). rewrite R1 in E3. injection E3 as <-. destruct k as [|[d y b s] k]; [contradiction|]. cbn [cpar] in *.
  assert (G : cmp b n <= 0). { apply hp_plug in Hh. destruct Hh as [_ Hk]. cbn [hk] in Hk. destruct Hk as [Hk _]. apply Hk. cbn [inorder]. rewrite !in_app_iff. cbn [In]. tauto. }
  destruct HC as [Ha _]. specialize (Ha n b). lia.
Qed.
(** Linking a node where it already is changes nothing: neither the tree nor the count. *)
Theorem C114_heap_double_link fuel m ops m' n p lp : rt <> 0 -> m rt NODE = Some NULL -> m rt COUNT = Some 0 -> Z.of_nat (length ops) < 2 ^ 64 - 1 -> (length ops < fuel)%nat ->
  history_dbg (good_dbg m) ops [] [] -> run_dbg fuel m ops = Some m' -> In n (apply_ops ops []) -> m' (fst lp) (snd lp) = Some n -> hp_insert_node_dbg cmp fuel m' rt p lp n = Some m'.
Proof.
  intros Hr H1 H2 H3 H4 H5 E0 Hn El. destruct (run_same ops fuel m [] []) as (m1 & A & B & (t & HS & Pm) & _); try assumption; [|intros x []|intros x []|].
  { exists E. split; [|apply Permutation_refl]. split; [|split; [exact I|split; [|exact H2]]].
    - split; [exact H1|]. split; [exact I|]. intros z. cbn [cntk cnt]. destruct (Z.eq_dec z 0) as [->|N]; [rewrite ind_refl, ind_ne by congruence; lia|]. rewrite (ind_ne z 0 N). unfold ind. destruct (z =? rt); lia.
    - intros i Hi. unfold at_pos, zlen. cbn [length at_path]. split; [congruence|lia]. }
  rewrite A in E0. injection E0 as <-. apply (double_link fuel m1 t _ n p lp HS); [apply (Permutation_in _ (Permutation_sym Pm) Hn)|exact El|lia].
Qed.
End Cmp.
(** ** What is not noticed.  Keys are addresses divided by 10; the root is at 7 *)
(** A node inserted twice: the link that is searched is always a free one, so the check never speaks up.  Three nodes, one inserted again: the count is 4,
    and the node is its own parent. *)
Theorem C114_heap_insert_refuted : exists cmp rt fuel m ops n m1 m2, preorder_cmp cmp /\ m rt NODE = Some NULL /\ m rt COUNT = Some 0 /\ history_dbg (good_dbg rt m) ops [] [] /\
  run_dbg cmp rt fuel m ops = Some m1 /\ In n (apply_ops ops []) /\ hp_insert_dbg cmp fuel m1 rt n = Some m2 /\ m2 rt COUNT = Some (zlen (apply_ops ops []) + 1) /\ m2 n PARENT = Some n.
Proof.
  exists ex_cmp, 7, 30%nat, ex_mem, (map Ins [10; 20; 30]), 20.
  assert (G : option_map (fun r => (fst (fst (fst r)), snd (fst (fst r)), snd (fst r), snd r)) (let* m1 := run_dbg ex_cmp 7 30 ex_mem (map Ins [10; 20; 30]) in let* m2 := hp_insert_dbg ex_cmp 30 m1 7 20 in Some (m2 7 COUNT, m1 20 PARENT, m2 20 PARENT, tt)) = Some (Some 4, Some 10, Some 20, tt)) by (vm_compute; reflexivity).
  destruct (run_dbg ex_cmp 7 30 ex_mem (map Ins [10; 20; 30])) as [m1|]; [|discriminate G]. destruct (hp_insert_dbg ex_cmp 30 m1 7 20) as [m2|] eqn:E2; [|discriminate G]. cbn [option_map fst snd] in G. injection G as G1 G2 G3. exists m1, m2. conj; try reflexivity; try exact ex_cmp_ok.
  - cbn [history_dbg map apply_op gone_after filter]. conj; try exact I; left; (split; [split; [apply ex_good; lia|unfold poison, POISON_HPNODE1, POISON_HPNODE2, POISON_HPNODE3; lia]|vm_compute; intuition discriminate]).
  - right; left; reflexivity.
  - exact E2.
  - rewrite G1. reflexivity.
  - exact G3.
Qed.
(** Without the checks a second deletion is not harmless: it takes another node out of the heap, or runs into the poison. *)
Theorem C114_heap_plain_refuted : exists cmp rt fuel m ops n, preorder_cmp cmp /\ m rt NODE = Some NULL /\ m rt COUNT = Some 0 /\ history_dbg (good_dbg rt m) (ops ++ [Del n]) [] [] /\
  (exists m1, run_dbg cmp rt fuel m (ops ++ [Del n]) = Some m1) /\ run cmp rt fuel m ops <> None /\ run cmp rt fuel m (ops ++ [Del n]) = None.
Proof.
  exists ex_cmp, 7, 30%nat, (fun a f => if a >? 90 then None else ex_mem a f), (map Ins [10; 20; 30] ++ [Del 20]), 20. conj; try reflexivity; try exact ex_cmp_ok.
  - assert (G : forall n, 10 <= n <= 90 -> good_node 7 (fun a f => if a >? 90 then None else ex_mem a f) n). { intros n Hn. destruct (ex_good n ltac:(lia)) as (H1 & H2). split; [|exact H2]. intros f Hf. cbv beta. destruct (Z.gtb_spec n 90); [lia|]. apply H1, Hf. }
    cbn [history_dbg map app apply_op gone_after filter existsb Z.eqb Pos.eqb orb negb]. conj; try exact I; try (left; (split; [split; [apply G; lia|unfold poison, POISON_HPNODE1, POISON_HPNODE2, POISON_HPNODE3; lia]|vm_compute; intuition discriminate])).
    + left. cbn. tauto.
    + right. exists 20. split; [reflexivity|]. left. reflexivity.
  - destruct (run_dbg ex_cmp 7 30 (fun a f => if a >? 90 then None else ex_mem a f) ((map Ins [10; 20; 30] ++ [Del 20]) ++ [Del 20])) as [m1|] eqn:E0; [eauto|vm_compute in E0; discriminate E0].
  - intros C. vm_compute in C. discriminate C.
Qed.
(** Concrete case of the histories: 40 is deleted three times, inserted again in between. *)
Definition dops : list op := map Ins [50; 40; 41; 60] ++ [Del 40; Del 40; Ins 40; Del 60; Del 40; Del 40; Del 60].
Example C114_heap_case : history_dbg (good_dbg 7 ex_mem) dops [] [] /\ useful dops [] = map Ins [50; 40; 41; 60] ++ [Del 40; Ins 40; Del 60; Del 40] /\
  (let* m := run_dbg ex_cmp 7 30 ex_mem dops in let* p := level_first m 7 in level_visit 30 m 7 p) = Some [41; 50].
Proof.
  split; [|vm_compute; split; reflexivity]. cbn [history_dbg dops map app apply_op gone_after filter existsb Z.eqb Pos.eqb orb negb].
  conj; try exact I; first [left; (split; [split; [apply ex_good; lia|unfold poison, POISON_HPNODE1, POISON_HPNODE2, POISON_HPNODE3; lia]|vm_compute; intuition discriminate]) | left; cbn; tauto | right; eexists; split; [reflexivity|cbn; tauto]].
Qed.
Print Assumptions C114_heap_history. Print Assumptions C114_heap_double_link. Print Assumptions C114_heap_insert_refuted. Print Assumptions C114_heap_plain_refuted.
