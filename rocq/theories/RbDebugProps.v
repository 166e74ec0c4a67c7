(** * C114: red-black trees with debug checks *)
From Coq Require Import Sorting.Sorted.
From Verif Require Import Lib Ptr Tree TiterModel TiterProofs RbModel RbProofs RbRotate RbSpec RbInsert RbErase RbRemove RbRemove2 RbDelete RbFrame RbOps RbOps2 RbHistSpec RbProps HeapDebugProps TreeDebugModel RbDebugSpec.
(** ** The client operations are local *)
Lemma parent_loop_local cmp node : forall fuel lp lm, Lr (fun m => parent_loop fuel m cmp node lp lm).
Proof. induction fuel as [|fuel IH]; intros lp lm; cbn [parent_loop]; [apply Lr_none|]. repeat first [apply IH | lstep | destruct (cmp node x <? 0)]. Qed.
Lemma rb_parent_local fuel cmp rt n : Lr (fun m => rb_parent fuel m cmp rt n).
Proof. unfold rb_parent. repeat first [apply parent_loop_local | lstep]. Qed.
Lemma left_far_local : forall fuel n, Lr (fun m => left_far m fuel n).
Proof. induction fuel as [|fuel IH]; intros n; cbn [left_far]; [apply Lr_none|]. repeat first [apply IH | lstep]. Qed.
Lemma climb_next_local : forall fuel n, Lr (fun m => climb_next m fuel n).
Proof. induction fuel as [|fuel IH]; intros n; cbn [climb_next]; [apply Lr_none|]. repeat first [apply IH | lstep]. Qed.
Lemma in_next_local fuel n : Lr (fun m => in_next m fuel n).
Proof. unfold in_next. repeat first [apply left_far_local | apply climb_next_local | lstep]. Qed.
Lemma delete_local cb (HL : cb_local cb) rt fuel n : Lm (fun m => delete cb fuel m rt n).
Proof. unfold delete. repeat first [apply remove_local; exact HL | apply erase_local; exact HL | lstep]. Qed.
Lemma insert_local cb (HL : cb_local cb) fuel cmp rt n : Lx (fun m => insert cb fuel m cmp rt n).
Proof. unfold insert. apply Lx_bind_r; [apply rb_parent_local|]. intros [[[p lp] lm]|]; [|apply Lx_ret]. apply (Lx_bind (fun m => insert_node cb fuel m rt p lp n) (fun m => Some (m, true))); [apply insert_node_local, HL|apply Lx_ret]. Qed.
Lemma cached_insert_local cb (HL : cb_local cb) fuel cmp rt n : Lx (fun m => cached_insert cb fuel m cmp rt n).
Proof.
  unfold cached_insert. apply Lx_bind_r; [apply rb_parent_local|]. intros [[[p lp] lm]|]; [|apply Lx_ret]. apply (Lx_bind (fun m => cached_insert_node cb fuel m rt p lp n lm) (fun m => Some (m, true))); [|apply Lx_ret].
  unfold cached_insert_node. repeat first [apply link_local | apply fixup_local; exact HL | lstep].
Qed.
Lemma cached_delete_local cb (HL : cb_local cb) fuel rt n : Lx (fun m => cached_delete cb fuel m rt n).
Proof. unfold cached_delete. repeat first [apply in_next_local | apply delete_local; exact HL | lstep]. Qed.
Lemma cached_replace_local rt o n : Lm (fun m => cached_replace m rt o n).
Proof. unfold cached_replace. repeat first [apply replace_local | lstep]. Qed.
Lemma exec_local cached fuel cmp rt o : Lx (fun m => exec cached fuel cmp rt m o).
Proof.
  destruct o as [n|n|o n]; cbn [exec].
  - apply (Lx_bind_x (fun m => if cached then cached_insert dummy_callbacks fuel m cmp rt n else insert dummy_callbacks fuel m cmp rt n) (fun r => Some (fst r, if snd r then 1 else 0))).
    + apply Lx_if; [apply cached_insert_local, dummy_local|apply insert_local, dummy_local].
    + intros b. cbn [fst snd]. apply Lx_ret.
  - apply Lx_if; [apply cached_delete_local, dummy_local|]. apply (Lx_bind (fun m => delete dummy_callbacks fuel m rt n) (fun m => Some (m, 0))); [apply delete_local, dummy_local|apply Lx_ret].
  - apply (Lx_bind (fun m => if cached then cached_replace m rt o n else replace m rt o n) (fun m => Some (m, 0))); [|apply Lx_ret]. apply Lm_if; [apply cached_replace_local|apply replace_local].
Qed.
Section Hist.
Variable cmp : Z -> Z -> Z.
Hypothesis Hcmp : comparison cmp.
Variable rt : Z.
Variable cached : bool.
Lemma exec_frame fuel m l o S : (length l < fuel)%nat -> holds rt cached m l -> sorted cmp l -> legal cmp (good_node rt m) o l -> incl (rt :: l) S -> match o with Ins n | Rep _ n => In n S | Del _ => True end ->
  forall m' x, exec cached fuel cmp rt m o = Some (m', x) -> forall a f, ~ In a S -> m' a f = m a f.
Proof.
  intros Hf [(t & (T1 & T2 & T3) & Hrb & Hi) HLm] Hs Al HS Ho m' x E a f Ha.
  assert (H0 : holds rt cached (on S m) l).
  { split; [|intros C; rewrite on_in by (apply HS; left; reflexivity); apply HLm, C]. exists t. split; [|split; assumption]. split; [rewrite on_in by (apply HS; left; reflexivity); exact T1|]. split; [|exact T3]. apply (rep_ext V V_frame m); [|exact T2]. intros b g Hb. apply on_in, HS. right. rewrite <- Hi. apply cnt_pos_in, Hb. }
  assert (GN : forall n, In n S -> good_node rt m n -> good_node rt (on S m) n). { intros n Hn (G1 & G2). split; [|exact G2]. intros g Hg. rewrite on_in by exact Hn. apply G1, Hg. }
  destruct (step_ok cmp Hcmp rt cached fuel (on S m) l o Hf H0 Hs) as (m0 & E0 & _ & _).
  { destruct o as [n|n|o n]; cbn [legal] in *; [split; [apply GN; [exact Ho|apply Al]|apply Al]|exact Al|]. destruct Al as (L1 & L2 & L3). split; [exact L1|]. split; [apply GN; assumption|exact L3]. }
  destruct (exec_local cached fuel cmp rt o _ _ _ _ _ (on_Rel S m) E0) as (D & M' & E1 & R). rewrite E in E1. injection E1 as <- _. rewrite R. assert (E2 : m0 a f = None) by (apply D; apply on_out, Ha). rewrite E2. reflexivity.
Qed.
Definition poison (n : Z) : Prop := n = POISON_RBNODE1 \/ n = POISON_RBNODE2 \/ n = POISON_RBNODE3.
Definition poisoned (m : mem) (n : Z) : Prop := m n LEFT = Some POISON_RBNODE1 /\ m n RIGHT = Some POISON_RBNODE2 /\ m n PARENT = Some POISON_RBNODE3.
Definition exec_dbg (fuel : nat) (m : mem) (o : op) : option (mem * Z) :=
  match o with
  | Ins n => let* r := (if cached then rb_cached_insert_dbg dummy_callbacks fuel m cmp rt n else rb_insert_dbg dummy_callbacks fuel m cmp rt n) in Some (fst r, if snd r then 1 else 0)
  | Del n => if cached then rb_cached_delete_dbg dummy_callbacks fuel m rt n else let* m := rb_delete_dbg dummy_callbacks fuel m rt n in Some (m, 0)
  | Rep o n => let* m := (if cached then cached_replace m rt o n else replace m rt o n) in Some (m, 0)
  end.
Fixpoint run_dbg (fuel : nat) (m : mem) (ops : list op) : option (mem * list Z) :=
  match ops with
  | [] => Some (m, [])
  | o :: ops => let* r := exec_dbg fuel m o in let* r' := run_dbg fuel (fst r) ops in Some (fst r', snd r :: snd r')
  end.
Lemma delete_poisons cb fuel m n m' : delete cb fuel m rt n = Some m' -> poisoned m' n.
Proof.
  unfold delete. destruct (remove cb fuel m rt n) as [[m1 s]|]; [|discriminate]. destruct (if negb (s =? NULL) then erase cb fuel m1 rt s else Some m1) as [m2|]; [|discriminate].
  intros H. destruct (st m2 n LEFT POISON_RBNODE1) as [m3|] eqn:E1; [|discriminate]. destruct (st m3 n RIGHT POISON_RBNODE2) as [m4|] eqn:E2; [|discriminate]. apply st_inv in E1, E2, H. destruct E1 as [_ ->], E2 as [_ ->], H as [_ ->]. split; [|split].
  - rewrite !upd_other by (right; discriminate). apply upd_same.
  - rewrite upd_other by (right; discriminate). apply upd_same.
  - apply upd_same.
Qed.
Lemma exec_poisons fuel m n m' x : exec cached fuel cmp rt m (Del n) = Some (m', x) -> poisoned m' n.
Proof.
  cbn [exec]. destruct cached.
  - unfold cached_delete. destruct (ld m rt LEFTMOST) as [cl|]; [|discriminate]. destruct (if negb (cl =? n) then _ else _) as [[m1 lm]|]; [|discriminate]. destruct (delete dummy_callbacks fuel m1 rt n) as [m2|] eqn:E0; [|discriminate]. intros H. injection H as <- _. apply (delete_poisons _ _ _ _ _ E0).
  - destruct (delete dummy_callbacks fuel m rt n) as [m2|] eqn:E0; [|discriminate]. intros H. injection H as <- _. apply (delete_poisons _ _ _ _ _ E0).
Qed.
Lemma poisoned_check m n : poisoned m n -> check_delete POISON_RBNODE1 POISON_RBNODE2 POISON_RBNODE3 m n = Some false.
Proof. intros (H & _). unfold check_delete, ld. rewrite H. reflexivity. Qed.
Lemma exec_same fuel m l o : (length l < fuel)%nat -> holds rt cached m l -> sorted cmp l -> legal cmp (good_node rt m) o l -> (forall x, In x l -> ~ poison x) -> exec_dbg fuel m o = exec cached fuel cmp rt m o.
Proof.
  intros Hf [(t & HT & Hrb & Hi) HLm] Hs Al HP. assert (Hsz : size t = length l) by (rewrite size_inorder, Hi; reflexivity). destruct o as [n|n|o n]; cbn [exec_dbg exec legal] in *.
  - destruct Al as ((_ & N0 & _) & _). assert (Hm : mono cmp n (inorder t)) by (rewrite Hi; apply sorted_mono; assumption).
    destruct (rb_parent_ok rt m cmp n fuel t ltac:(lia) HT Hm) as [[E1 _]|(k & lm & E1 & E2 & _ & _)].
    + unfold rb_cached_insert_dbg, cached_insert, rb_insert_dbg, insert. rewrite E1. reflexivity.
    + assert (E3 : m (loc rt k) (lfield k) = Some 0). { rewrite E2 in HT. apply tree_at_focus in HT. destruct HT as (Hk & _). apply (crep_loc V rt m k). exact Hk. }
      assert (E4 : rb_link_dbg m (cpar k) (loc rt k, lfield k) n = link m (cpar k) (loc rt k, lfield k) n). { unfold rb_link_dbg, check_link, ld. cbn [fst snd]. rewrite E3. cbn beta iota. destruct (Z.eqb_spec 0 n); [congruence|]. reflexivity. }
      unfold rb_cached_insert_dbg, cached_insert, rb_insert_dbg, insert, rb_insert_node_dbg, insert_node, rb_cached_insert_node_dbg, cached_insert_node. rewrite E1, E4. reflexivity.
  - assert (CK : forall m1, tree_at V rt m1 t -> rb_delete_dbg dummy_callbacks fuel m1 rt n = delete dummy_callbacks fuel m1 rt n).
    { intros m1 HT1. unfold rb_delete_dbg. rewrite (check_member V rt m1 t n); try discriminate; [reflexivity|exact HT1|rewrite Hi; exact Al|]. intros x Hx. rewrite Hi in Hx. apply HP in Hx. unfold poison in Hx. tauto. }
    destruct cached; [|rewrite (CK m HT); reflexivity]. unfold rb_cached_delete_dbg, cached_delete. destruct (ld m rt LEFTMOST) as [cl|]; [|reflexivity]. destruct (cl =? n); cbn [negb].
    + destruct (in_next m fuel n) as [nx|]; [|reflexivity]. destruct (st m rt LEFTMOST nx) as [m1|] eqn:E1; [|reflexivity]. apply st_inv in E1. destruct E1 as [_ ->]. rewrite CK; [reflexivity|]. destruct HT as (A1 & A2 & A3). split; [rewrite upd_other by (right; discriminate); exact A1|]. split; [|exact A3]. apply rep_upd; [exact V_frame| |exact A2]. specialize (A3 rt). rewrite ind_refl in A3. lia.
    + rewrite CK; [reflexivity|exact HT].
  - reflexivity.
Qed.
Definition good_dbg (m : mem) (n : Z) : Prop := good_node rt m n /\ ~ poison n.
Lemma legal_weak m o l : legal cmp (good_dbg m) o l -> legal cmp (good_node rt m) o l.
Proof. destruct o as [n|n|o n]; cbn [legal]; [intros ((G & _) & H); auto|auto|]. intros (H1 & (G & _) & H2). auto. Qed.
Lemma legals_keep ops : forall m m' l g, dom m m' -> legals_dbg cmp cached (good_dbg m) ops l g -> legals_dbg cmp cached (good_dbg m') ops l g.
Proof.
  assert (K : forall m m' n, dom m m' -> good_dbg m n -> good_dbg m' n) by (intros m m' n D [G P]; split; [apply (good_dom rt m m' n D G)|exact P]).
  induction ops as [|o ops IH]; intros m m' l g D H; cbn [legals_dbg] in *; [exact I|]. destruct H as [H H']. split; [|apply (IH m m'); assumption]. destruct H as [H|H]; [left|right; exact H]. destruct o as [n|n|o n]; cbn [legal] in *; [split; [apply (K m m' n D), H|apply H]|exact H|]. destruct H as (H1 & H2 & H3). split; [exact H1|]. split; [apply (K m m' n D H2)|exact H3].
Qed.
Lemma ins_in n l x : In x (ins cmp n l) -> x = n \/ In x l.
Proof. induction l as [|y l IH]; cbn [ins]; [intros [->|[]]; auto|]. destruct (cmp n y <? 0); [intros [->|H]; auto|]. intros [->|H]; [right; left; reflexivity|]. destruct (IH H) as [->|H']; [auto|right; right; exact H']. Qed.
Lemma spec_in o l x : In x (fst (spec cmp cached o l)) -> In x l \/ match o with Ins n | Rep _ n => x = n | Del _ => False end.
Proof.
  destruct o as [n|n|o n]; cbn [spec fst].
  - destruct (taken cmp n l); cbn [fst]; [auto|]. intros H. apply ins_in in H. tauto.
  - intros H. apply filter_In in H. tauto.
  - intros H. apply in_map_iff in H. destruct H as (y & E0 & Hy). destruct (y =? o); subst; auto.
Qed.
Lemma exec_untouched fuel m l n : holds rt cached m l -> ~ In n l -> n <> 0 -> poisoned m n -> exec_dbg fuel m (Del n) = Some (m, 0).
Proof.
  intros [_ HLm] Nn N0 P. cbn [exec_dbg]. unfold rb_cached_delete_dbg, rb_delete_dbg. destruct cached.
  - unfold ld at 1. rewrite (HLm eq_refl). destruct (Z.eqb_spec (hd 0 l) n) as [E0|_]; [exfalso; destruct l as [|a l]; cbn [hd] in E0; [congruence|apply Nn; left; exact E0]|]. cbn [negb]. rewrite (poisoned_check m n P). reflexivity.
  - rewrite (poisoned_check m n P). reflexivity.
Qed.
Theorem run_same ops : forall fuel m l gone, (length l + length ops < fuel)%nat -> holds rt cached m l -> sorted cmp l -> (forall x, In x l -> ~ poison x) ->
  (forall x, In x gone -> ~ In x l /\ x <> rt /\ x <> 0 /\ poisoned m x) -> legals_dbg cmp cached (good_dbg m) ops l gone ->
  exists m', run_dbg fuel m ops = Some (m', snd (specs cmp cached ops l)) /\ run cached fuel cmp rt m (useful cmp cached ops l) = Some (m', snd (specs cmp cached (useful cmp cached ops l) l)) /\
    holds rt cached m' (fst (specs cmp cached ops l)) /\ fst (specs cmp cached (useful cmp cached ops l) l) = fst (specs cmp cached ops l).
Proof.
  induction ops as [|o ops IH]; intros fuel m l gone Hf HH Hs HP HG HA; cbn [run_dbg length] in *; [exists m; auto|]. cbn [legals_dbg] in HA. destruct HA as [Ha HA].
  assert (Main : legal cmp (good_dbg m) o l -> exists m', run_dbg fuel m (o :: ops) = Some (m', snd (specs cmp cached (o :: ops) l)) /\
    run cached fuel cmp rt m (o :: useful cmp cached ops (fst (spec cmp cached o l))) = Some (m', snd (specs cmp cached (o :: useful cmp cached ops (fst (spec cmp cached o l))) l)) /\
    holds rt cached m' (fst (specs cmp cached (o :: ops) l)) /\ fst (specs cmp cached (o :: useful cmp cached ops (fst (spec cmp cached o l))) l) = fst (specs cmp cached (o :: ops) l)).
  { intros Al. pose proof (legal_weak m o l Al) as Al'. destruct (step_ok cmp Hcmp rt cached fuel m l o ltac:(lia) HH Hs Al') as (m1 & E1 & A1 & A2 & A3).
    pose proof (spec_length cmp cached o l) as Hl. cbn [run_dbg run specs]. rewrite (exec_same fuel m l o ltac:(lia) HH Hs Al' HP), E1. cbn [fst snd].
    destruct (IH fuel m1 (fst (spec cmp cached o l)) (gone_after cmp o l gone)) as (m' & R1 & R2 & R3 & R4); [lia|exact A1|exact A2| | |apply (legals_keep ops m m1 _ _ A3 HA)|].
    - intros x Hx. apply spec_in in Hx. destruct Hx as [Hx|Hx]; [apply HP, Hx|]. destruct o as [n|n|o n]; cbn [legal] in Al; [subst; apply Al|contradiction|subst; apply Al].
    - assert (Keep : forall S x, incl (rt :: l) S -> match o with Ins n | Rep _ n => In n S | Del _ => True end -> ~ In x S -> poisoned m x -> poisoned m1 x).
      { intros S x HS Ho Hx (P1 & P2 & P3). assert (K : forall f, m1 x f = m x f) by (intros f; apply (exec_frame fuel m l o S ltac:(lia) HH Hs Al' HS Ho m1 _ E1), Hx). unfold poisoned. rewrite !K. auto. }
      intros x Hx. destruct o as [n|n|o n]; cbn [gone_after spec legal fst] in *.
      + destruct (taken cmp n l) eqn:Et; cbn [fst] in *.
        * destruct (HG x Hx) as (G1 & G2 & G3 & G4). conj; try assumption. assert (E2 : m1 = m).
          { clear - E1 Et HH Hf Hs Al' Hcmp. destruct HH as [(t & HT & Hrb & Hi) HLm]. assert (Hsz : size t = length l) by (rewrite size_inorder, Hi; reflexivity). assert (Hm : mono cmp n (inorder t)) by (rewrite Hi; apply sorted_mono; assumption).
            destruct (rb_parent_ok rt m cmp n fuel t ltac:(lia) HT Hm) as [[E2 _]|(k & lm & E2 & Ek & [G1 G2] & _)].
            - cbn [exec] in E1. unfold cached_insert, insert in E1. rewrite E2 in E1. destruct cached; cbn [fst snd] in E1; congruence.
            - exfalso. apply taken_true in Et. destruct Et as (x & Hx & Ex). rewrite <- Hi, Ek, inorder_plug in Hx. cbn [inorder] in Hx. rewrite Forall_forall in G1, G2. apply in_app_or in Hx. destruct Hx as [Hx|Hx]; [specialize (G1 x Hx)|specialize (G2 x Hx)]; lia. }
          subst m1. exact G4.
        * apply filter_In in Hx. destruct Hx as [Hx Nx]. apply negb_true_iff, Z.eqb_neq in Nx. destruct (HG x Hx) as (G1 & G2 & G3 & G4). split; [intros C; apply ins_in in C; tauto|]. split; [exact G2|]. split; [exact G3|]. apply (Keep (rt :: n :: l)); [intros y [->|Hy]; [left; reflexivity|right; right; exact Hy]|right; left; reflexivity|intros [C|[C|C]]; [congruence|congruence|contradiction]|exact G4].
      + rewrite (proj2 (existsb_in n l) Al) in Hx. destruct Hx as [<-|Hx].
        * split; [unfold del; intros C; apply filter_In in C; destruct C as [_ C]; rewrite Z.eqb_refl in C; discriminate C|]. destruct HH as [(t & (_ & _ & D) & _ & Hi) _]. rewrite <- Hi in Al. apply cnt_pos_in in Al. split; [intros ->; specialize (D rt); rewrite ind_refl in D; lia|]. split; [intros ->; specialize (D 0); rewrite ind_refl in D; lia|]. apply (exec_poisons fuel m n m1 _ E1).
        * destruct (HG x Hx) as (G1 & G2 & G3 & G4). split; [unfold del; intros C; apply filter_In in C; tauto|]. split; [exact G2|]. split; [exact G3|]. apply (Keep (rt :: l)); [apply incl_refl|exact I|intros [C|C]; [congruence|contradiction]|exact G4].
      + apply filter_In in Hx. destruct Hx as [Hx Nx]. apply negb_true_iff, Z.eqb_neq in Nx. destruct (HG x Hx) as (G1 & G2 & G3 & G4). split; [intros C; unfold sub in C; apply in_map_iff in C; destruct C as (y & E0 & Hy); destruct (y =? o); congruence|]. split; [exact G2|]. split; [exact G3|]. apply (Keep (rt :: n :: l)); [intros y [->|Hy]; [left; reflexivity|right; right; exact Hy]|right; left; reflexivity|intros [C|[C|C]]; [congruence|congruence|contradiction]|exact G4].
    - exists m'. destruct (spec cmp cached o l) as [l1 x]. cbn [fst snd] in *. rewrite R1, R2. destruct (specs cmp cached ops l1) as [l2 xs]. destruct (specs cmp cached (useful cmp cached ops l1) l1) as [l3 xs']. cbn [fst snd] in *. auto. }
  destruct o as [n|n|o n]; [apply Main; destruct Ha as [Al|(x & C & _)]; [exact Al|discriminate C]| |apply Main; destruct Ha as [Al|(x & C & _)]; [exact Al|discriminate C]].
  cbn [useful]. destruct (existsb (Z.eqb n) l) eqn:En; [apply Main; apply existsb_in in En; exact En|].
  assert (Nn : ~ In n l) by (rewrite <- existsb_in, En; discriminate). assert (Hg : In n gone) by (destruct Ha as [Al|(x & C & Hx)]; [contradiction|injection C as ->; exact Hx]). destruct (HG n Hg) as (_ & _ & N0 & P).
  pose proof (exec_untouched fuel m l n HH Nn N0 P) as E0. cbn [gone_after] in HA. rewrite En in HA. cbn [spec fst] in HA. unfold del in HA. rewrite (filter_absent n l Nn) in HA.
  assert (Hhd : (cached && (hd 0 l =? n))%bool = false). { apply andb_false_iff. right. apply Z.eqb_neq. intros C. destruct l as [|a l0]; cbn [hd] in C; [congruence|apply Nn; left; exact C]. }
  destruct (IH fuel m l gone ltac:(lia) HH Hs HP HG HA) as (m' & R1 & R2 & R3 & R4). exists m'. cbn [run_dbg]. rewrite E0. cbn [fst snd specs spec]. rewrite R1. cbn [fst snd]. unfold del. rewrite (filter_absent n l Nn), Hhd. destruct (specs cmp cached ops l) as [l2 xs]. cbn [fst snd] in *. auto.
Qed.
Lemma holds_init m : rt <> 0 -> m rt NODE = Some NULL -> (cached = true -> m rt LEFTMOST = Some NULL) -> holds rt cached m [].
Proof.
  intros Hr H1 H2. split; [|exact H2]. exists E. split; [|split; [|reflexivity]].
  - split; [exact H1|]. split; [exact I|]. intros z. cbn [cntk cnt]. destruct (Z.eq_dec z 0) as [->|N]; [rewrite ind_refl, ind_ne by congruence; lia|]. rewrite (ind_ne z 0 N). unfold ind. destruct (z =? rt); lia.
  - unfold redblack. cbn [black nored2 bal]. conj; try exact I. exists 0%nat. reflexivity.
Qed.
End Hist.
(** From an initialised root, plain or cached: any insertions, deletions and replacements, where a node that was deleted may be deleted again.  The debug build replies as
    specified and ends with exactly the memory that the plain build reaches without the repeated deletions (for which C56 says what it is). *)
Theorem C114_rb_history cmp rt cached fuel m ops :
  comparison cmp -> rt <> 0 -> m rt NODE = Some NULL -> (cached = true -> m rt LEFTMOST = Some NULL) -> (length ops < fuel)%nat ->
  legals_dbg cmp cached (good_dbg rt m) ops [] [] ->
  exists m', run_dbg cmp rt cached fuel m ops = Some (m', snd (specs cmp cached ops [])) /\
    run cached fuel cmp rt m (useful cmp cached ops []) = Some (m', snd (specs cmp cached (useful cmp cached ops []) [])) /\
    fst (specs cmp cached (useful cmp cached ops []) []) = fst (specs cmp cached ops []).
Proof.
  intros Hc Hr H1 H2 Hf H3. destruct (run_same cmp Hc rt cached ops fuel m [] [] Hf (holds_init rt cached m Hr H1 H2)) as (m' & A & B & _ & D); [constructor|intros x []|intros x []|exact H3|]. exists m'. auto.
Qed.
(** Linking a node where it already is: if its parent is black, or if it is the root, no field changes. *)
Theorem C114_rb_double_link cmp rt cached fuel m ops m' rs n p lp q c :
  comparison cmp -> rt <> 0 -> m rt NODE = Some NULL -> (cached = true -> m rt LEFTMOST = Some NULL) -> (length ops < fuel)%nat ->
  legals_dbg cmp cached (good_dbg rt m) ops [] [] -> run_dbg cmp rt cached fuel m ops = Some (m', rs) ->
  In n (fst (specs cmp cached ops [])) -> m' (fst lp) (snd lp) = Some n -> m' n PARENT = Some q -> (q = NULL \/ m' q COLOR = Some c /\ c = BLACK) ->
  exists m'', rb_insert_node_dbg dummy_callbacks fuel m' rt p lp n = Some m'' /\ forall a f, m'' a f = m' a f.
Proof.
  intros Hc Hr H1 H2 Hf H3 E0 Hn El Ep Hq. destruct (run_same cmp Hc rt cached ops fuel m [] [] Hf (holds_init rt cached m Hr H1 H2)) as (m1 & A & B & [(t & HT & Hrb & Hi) _] & D); [constructor|intros x []|intros x []|exact H3|]. rewrite A in E0. injection E0 as <- _. rewrite <- Hi in Hn.
  unfold rb_insert_node_dbg, rb_link_dbg, check_link, ld. rewrite El, Z.eqb_refl. cbn [negb]. destruct fuel as [|fuel]; [lia|]. cbn [fixup]. unfold ld. rewrite Ep.
  assert (Nn : n <> 0). { apply cnt_pos_in in Hn. intros ->. destruct HT as (_ & _ & DD). specialize (DD 0). rewrite ind_refl in DD. lia. }
  rewrite (proj2 (Z.eqb_neq n NULL) Nn). destruct (Z.eqb_spec q NULL) as [->|Nq].
  - apply cnt_pos_in in Hn. destruct (find_ctx n t Hn) as (k & x & l & r & Et). pose proof HT as HT'. rewrite Et in HT'. apply tree_at_focus in HT'. destruct HT' as (Hk & (R1 & _ & _ & R4 & _) & DD). rewrite R1 in Ep. injection Ep as Ep.
    assert (Ek : k = []). { destruct k as [|[d y b s] k]; [reflexivity|]. exfalso. cbn [cpar] in Ep. subst b. specialize (DD 0). unfold NULL in DD. cbn [cntk] in DD. rewrite !ind_refl in DD. lia. }
    subst k. cbn [plug] in Et. subst t. destruct Hrb as [Hb _]. cbn [black] in Hb. subst x. unfold V, zc in R4. unfold st. rewrite R4. eexists. split; [reflexivity|]. intros a f. unfold upd. destruct ((a =? n) && (f =? COLOR)) eqn:Eb; [|reflexivity]. apply andb_true_iff in Eb. destruct Eb as [B1 B2]. apply Z.eqb_eq in B1, B2. subst. symmetry. exact R4.
  - destruct Hq as [Hq|[Hq ->]]; [contradiction|]. rewrite Hq. exists m1. split; reflexivity.
Qed.
(** ** What is not noticed.  Keys are addresses divided by 10; the root is at 7 *)
(** A node that was replaced is not poisoned: deleting it passes the check and takes the node that replaced it out of the tree. *)
Theorem C114_rb_replaced_refuted : exists cmp rt fuel m ops o n m1 rs m2, comparison cmp /\ m rt NODE = Some NULL /\ legals_dbg cmp false (good_dbg rt m) (ops ++ [Rep o n]) [] [] /\
  run_dbg cmp rt false fuel m (ops ++ [Rep o n]) = Some (m1, rs) /\ In n (fst (specs cmp false (ops ++ [Rep o n]) [])) /\ ~ In o (fst (specs cmp false (ops ++ [Rep o n]) [])) /\
  rb_delete_dbg dummy_callbacks fuel m1 rt o = Some m2 /\ exists p l, in_first m2 fuel rt = Some p /\ visit (in_next m2 fuel) fuel p = Some l /\ ~ In n l.
Proof.
  exists ex_cmp, 7, 30%nat, ex_mem, (map Ins [10; 20; 30]), 20, 25.
  assert (G : option_map (fun r => (fst (fst (fst r)), snd (fst (fst r)), snd (fst r), snd r)) (let* r := run_dbg ex_cmp 7 false 30 ex_mem (map Ins [10; 20; 30] ++ [Rep 20 25]) in let* m2 := rb_delete_dbg dummy_callbacks 30 (fst r) 7 20 in let* p := in_first m2 30 7 in let* l := visit (in_next m2 30) 30 p in Some (tt, tt, p, l)) = Some (tt, tt, 10, [10; 30])) by (vm_compute; reflexivity).
  destruct (run_dbg ex_cmp 7 false 30 ex_mem (map Ins [10; 20; 30] ++ [Rep 20 25])) as [[m1 rs]|]; [|discriminate G]. cbn [fst] in G. destruct (rb_delete_dbg dummy_callbacks 30 m1 7 20) as [m2|] eqn:E2; [|discriminate G]. destruct (in_first m2 30 7) as [p|] eqn:E3; [|discriminate G]. destruct (visit (in_next m2 30) 30 p) as [l|] eqn:E4; [|discriminate G]. cbn [option_map fst snd] in G. injection G as -> ->.
  exists m1, rs, m2. conj; try reflexivity; try exact ex_cmp_ok.
  - assert (G : forall n, 10 <= n -> n < 1000 -> good_dbg 7 ex_mem n).
    { intros n Hn Hn'. split; [|unfold poison, POISON_RBNODE1, POISON_RBNODE2, POISON_RBNODE3; lia]. split; [|lia]. intros f Hf. unfold ex_mem. destruct (Z.eqb_spec n 7); [lia|]. cbn [andb]. destruct (Z.leb_spec 10 n), (Z.leb_spec 0 f), (Z.ltb_spec f 4); cbn [andb]; try lia. discriminate. }
    cbv [map app legals_dbg legal]. repeat match goal with |- context [spec ?c ?b ?o ?l] => let v := eval vm_compute in (spec c b o l) in change (spec c b o l) with v; cbn [fst] end.
    conj; try exact I; left; conj; try (apply G; lia); try (cbn; tauto); try (intros Hn; cbn in Hn; intuition discriminate). ex_sorted.
  - vm_compute. tauto.
  - vm_compute. intuition discriminate.
  - exact E2.
  - exists 10, [10; 30]. conj; [exact E3|exact E4|]. cbn. intuition discriminate.
Qed.
(** Concrete case: a cached tree; 40 and the first node 30 are deleted again, 40 after a refused insertion of it (45 is equal to it). *)
Definition dops : list op := map Ins [50; 40; 30; 60] ++ [Del 40; Del 40; Ins 45; Ins 40; Del 40; Del 30; Del 30; Rep 60 65].
Example C114_rb_case : legals_dbg ex_cmp true (good_dbg 7 ex_mem) dops [] [] /\ useful ex_cmp true dops [] = map Ins [50; 40; 30; 60] ++ [Del 40; Ins 45; Ins 40; Del 30; Rep 60 65] /\
  option_map snd (run_dbg ex_cmp 7 true 30 ex_mem dops) = Some [1; 1; 1; 1; 0; 0; 1; 0; 0; 45; 0; 0] /\ fst (specs ex_cmp true dops []) = [45; 50; 65].
Proof.
  split; [|vm_compute; repeat split; reflexivity].
  assert (G : forall n, 10 <= n -> n < 1000 -> good_dbg 7 ex_mem n).
  { intros n Hn Hn'. split; [|unfold poison, POISON_RBNODE1, POISON_RBNODE2, POISON_RBNODE3; lia]. split; [|lia]. intros f Hf. unfold ex_mem. destruct (Z.eqb_spec n 7); [lia|]. cbn [andb]. destruct (Z.leb_spec 10 n), (Z.leb_spec 0 f), (Z.ltb_spec f 4); cbn [andb]; try lia. discriminate. }
  cbv [map app dops legals_dbg legal]. repeat match goal with |- context [spec ?c ?b ?o ?l] => let v := eval vm_compute in (spec c b o l) in change (spec c b o l) with v; cbn [fst] end.
  repeat match goal with |- context [gone_after ?c ?o ?l ?g] => let v := eval vm_compute in (gone_after c o l g) in change (gone_after c o l g) with v end.
  conj; try exact I; first [left; cbn; tauto | right; eexists; split; [reflexivity|cbn; tauto] | left; conj; try (apply G; lia); try (cbn; tauto); try (intros Hn; cbn in Hn; intuition discriminate); ex_sorted | left; conj; try (apply G; lia); try (intros Hn; cbn in Hn; intuition discriminate)].
Qed.
Print Assumptions C114_rb_history. Print Assumptions C114_rb_double_link. Print Assumptions C114_rb_replaced_refuted.
