(** * C130: a binary heap survives any comparison function, with few calls *)
From Coq Require Import Sorting.Permutation.
From Verif Require Import Lib Ptr Tree TiterModel TiterProofs RbProofs RbInsert HeapModel HeapProofs HeapSpec HeapPath HeapOps HeapProps HeapCallsModel HeapCallsProofs.

(** ** Specification *)
(** calls that an operation on a heap of [n] nodes may make *)
Definition calls (o : op) (n : Z) : Z := match o with Ins _ => Z.log2 (n + 1) | Del _ => 2 * Z.log2 (n - 1) end.
(** [fair l ops cs]: operation after operation, [cs] has the pairs that were compared: never more than [calls], and always
    two different nodes of the heap *)
Fixpoint fair (l : list Z) (ops : list op) (cs : list (list (Z * Z))) : Prop :=
  match ops, cs with
  | [], [] => True
  | o :: ops, q :: cs => zlen q <= calls o (zlen l) /\ (forall a b, In (a, b) q -> In a (apply_op o l) /\ In b (apply_op o l) /\ a <> b) /\ fair (apply_op o l) ops cs
  | _, _ => False
  end.

(** ** Running a history *)
Section Run.
Variable orc : list (Z * Z) -> Z -> Z -> Z.
Variable rt : Z.
Definition exec_o (fuel : nat) (tr : list (Z * Z)) (m : mem) (o : op) : option (mem * list (Z * Z)) :=
  match o with Ins n => hp_insert_o orc fuel tr m rt n | Del n => hp_delete_o orc fuel tr m rt n end.
(** the memory at the end and the calls of each operation *)
Fixpoint run_o (fuel : nat) (tr : list (Z * Z)) (m : mem) (ops : list op) : option (mem * list (list (Z * Z))) :=
  match ops with
  | [] => Some (m, [])
  | o :: ops =>
    let* (m, tr') := exec_o fuel tr m o in
    let* (m, cs) := run_o fuel tr' m ops in
    Some (m, firstn (length tr' - length tr) tr' :: cs)
  end.
Definition holds (m : mem) (l : list Z) : Prop := exists t, shape_any rt m t (zlen l) /\ Permutation (inorder t) l.
Lemma step_any fuel tr m l o : zlen l < 2 ^ 64 - 1 -> (length l < fuel)%nat -> holds m l -> allowed (good_node rt m) o l ->
  exists m' q, exec_o fuel tr m o = Some (m', q ++ tr) /\ holds m' (apply_op o l) /\ keep3 m m' /\ zlen q <= calls o (zlen l) /\ pairs (apply_op o l) q.
Proof.
  intros Hc Hf (t & HS & HPm) Ha. assert (Hz : 0 <= zlen l) by (unfold zlen; lia). assert (Hsz : size t = length l) by (rewrite size_inorder; apply Permutation_length, HPm).
  destruct o as [n|n]; cbn [exec_o allowed apply_op calls] in *.
  - destruct Ha as ((H1 & H2 & H3) & H4). destruct (insert_any orc rt fuel tr m t (zlen l) n ltac:(lia) ltac:(lia) HS H1 H2 H3) as (m' & q & t' & A1 & A2 & A3 & A4 & A5 & A6).
    + intros H. apply H4. apply (Permutation_in _ HPm H).
    + exists m', q. split; [exact A1|]. split; [|split; [exact A4|split; [exact A5|apply (pairs_perm _ _ _ (perm_skip n HPm) A6)]]]. exists t'. rewrite zlen_cons'. split; [exact A2|]. apply (Permutation_trans A3). apply perm_skip, HPm.
  - destruct (delete_any orc rt fuel tr m t (zlen l) n ltac:(lia) ltac:(lia) HS) as (m' & q & t' & A1 & A2 & A3 & A4 & A5 & A6).
    + apply (Permutation_in _ (Permutation_sym HPm) Ha).
    + pose proof HS as (HT & _).
      assert (NDl : NoDup l) by (apply (Permutation_NoDup HPm), (at_nodup U rt m t HT)).
      pose proof (filter_out n l NDl Ha) as Pf. assert (El : zlen (filter (fun x => negb (x =? n)) l) = zlen l - 1) by (apply Permutation_length in Pf; unfold zlen; cbn [length] in Pf; lia).
      assert (PL : Permutation (inorder t') (filter (fun x => negb (x =? n)) l)) by (apply (Permutation_cons_inv (a := n)); apply (Permutation_trans (Permutation_sym A3)); apply (Permutation_trans HPm Pf)).
      exists m', q. split; [exact A1|]. split; [|split; [exact A4|split; [exact A5|apply (pairs_perm _ _ _ PL A6)]]]. exists t'. rewrite El. split; [exact A2|exact PL].
Qed.
Lemma run_any ops : forall fuel tr m l, Z.of_nat (length l + length ops) < 2 ^ 64 - 1 -> (length l + length ops < fuel)%nat -> holds m l -> history (good_node rt m) ops l ->
  exists m' cs, run_o fuel tr m ops = Some (m', cs) /\ holds m' (apply_ops ops l) /\ (length (apply_ops ops l) <= length l + length ops)%nat /\ keep3 m m' /\ fair l ops cs.
Proof.
  induction ops as [|o ops IH]; intros fuel tr m l H64 Hf HH HH'; cbn [run_o history apply_ops length] in *.
  - exists m, []. split; [reflexivity|]. split; [exact HH|]. split; [lia|]. split; [apply keep3_refl|exact I].
  - destruct HH' as [Ha Hh]. destruct (step_any fuel tr m l o) as (m1 & q & E1 & A1 & A2 & A3 & A4); try assumption; [unfold zlen; lia|lia|]. rewrite E1. pose proof (apply_len o l) as Hl.
    destruct (IH fuel (q ++ tr) m1 (apply_op o l)) as (m' & cs & E2 & B1 & B2 & B3 & B4); try assumption; try lia.
    + clear - Hh A2. revert Hh. generalize (apply_op o l). induction ops as [|o' ops IH]; intros l' H; cbn [history] in *; [exact I|]. destruct H as [H H']. split; [|apply IH, H']. destruct o' as [n|n]; cbn [allowed] in *; [|exact H]. destruct H as ((X1 & X2) & X3). repeat split; try tauto. apply (keep3_hnode m m1 n A2 X1).
    + rewrite E2. exists m', (q :: cs). split; [|split; [exact B1|split; [lia|split; [apply (keep3_trans _ _ _ A2 B3)|cbn [fair]; repeat split; try assumption; apply (A4 _ _ H)]]]].
      rewrite app_length. replace (length q + length tr - length tr)%nat with (length q + 0)%nat by lia. rewrite firstn_app_2. cbn [firstn]. rewrite app_nil_r. reflexivity.
Qed.
End Run.

(** From an initialised root: any insertions of nodes that are not in the heap and deletions of nodes that are, with a
    comparison function that may answer anything at any time. No operation goes wrong; the heap is a complete tree with
    exactly the nodes put in and not taken out; [count] is their number; the level-order loop visits each of them once; the
    client's fields are untouched; inserting into n nodes makes at most log2(n + 1) calls and deleting from n nodes at most
    2 log2(n - 1); every call gets two different nodes of the heap. *)
Theorem C130_any : forall orc rt fuel m ops,
  rt <> 0 -> m rt NODE = Some NULL -> m rt COUNT = Some 0 -> Z.of_nat (length ops) < 2 ^ 64 - 1 -> (length ops < fuel)%nat ->
  history (good_node rt m) ops [] ->
  exists m' cs t l, run_o orc rt fuel [] m ops = Some (m', cs) /\ l = apply_ops ops [] /\ tree_at U rt m' t /\ Permutation (inorder t) l /\ complete t (zlen l) /\
    m' rt COUNT = Some (zlen l) /\
    (exists p v, level_first m' rt = Some p /\ level_visit fuel m' rt p = Some v /\ Permutation v l) /\
    (forall a f, 3 <= f -> m' a f = m a f) /\ fair [] ops cs.
Proof.
  intros orc rt fuel m ops Hr H1 H2 H3 H4 H5. destruct (run_any orc rt ops fuel [] m []) as (m' & cs & E1 & (t & (A1 & A3 & A4) & A5) & A6 & A7 & A8); try assumption.
  - exists E. split; [|apply Permutation_refl]. split; [|split; [|exact H2]].
    + split; [exact H1|]. split; [exact I|]. intros z. cbn [cntk cnt]. destruct (Z.eq_dec z 0) as [->|N]; [rewrite ind_refl, ind_ne by congruence; lia|]. rewrite (ind_ne z 0 N). unfold ind. destruct (z =? rt); lia.
    + intros i Hi. unfold at_pos, zlen. cbn [length at_path]. split; [congruence|lia].
  - exists m', cs, t, (apply_ops ops []). cbn [length] in A6. assert (Hz : 0 <= zlen (apply_ops ops []) < 2 ^ 64 - 1) by (unfold zlen; lia). conj; try assumption; try reflexivity.
    + exists (oz (at_pos t 1), 0), (level t (zlen (apply_ops ops []))). split; [|split].
      * unfold level_first, ld. rewrite (proj1 A1). unfold at_pos. change (path 1) with (@nil dir). destruct t; reflexivity.
      * change 0 with (1 - 1) at 1. apply (level_ok rt fuel m' t (zlen (apply_ops ops []))); try assumption; unfold zlen; lia.
      * apply (Permutation_trans (level_perm rt m' t _ (proj1 Hz) A1 A3) A5).
    + apply A7.
Qed.
(** When the function always answers the same, these are the functions of C55. *)
Theorem C130_same : forall cmp fuel tr m rt n,
  option_map fst (hp_insert_o (fun _ => cmp) fuel tr m rt n) = hp_insert cmp fuel m rt n /\
  option_map fst (hp_delete_o (fun _ => cmp) fuel tr m rt n) = hp_delete cmp fuel m rt n.
Proof. intros. split; [apply insert_same|apply delete_same]. Qed.
Definition tight_hist : list op := map Ins [10; 20; 30; 40; 50; 60; 70; 80] ++ [Del 80].
Definition tight_calls : list (list (Z * Z)) :=
  [[]; [(20, 10)]; [(30, 20)]; [(40, 30); (40, 10)]; [(50, 40); (50, 30)]; [(60, 50); (60, 20)]; [(70, 60); (70, 50)]; [(80, 70); (80, 40); (80, 10)]; [(10, 40); (40, 30); (10, 70); (70, 60)]].
(** The bounds are met: an insertion that makes log2(n + 1) calls, and a deletion that makes 2 log2(n - 1). *)
Theorem C130_tight : exists orc rt fuel m ops m' cs, rt <> 0 /\ m rt NODE = Some NULL /\ m rt COUNT = Some 0 /\ (length ops < fuel)%nat /\ history (good_node rt m) ops [] /\
  run_o orc rt fuel [] m ops = Some (m', cs) /\
  zlen (nth 7 cs []) = calls (Ins 80) 7 /\ calls (Ins 80) 7 = 3 /\ zlen (nth 8 cs []) = calls (Del 80) 8 /\ calls (Del 80) 8 = 4.
Proof.
  exists (fun _ a b => b - a), 7, 30%nat, ex_mem, tight_hist.
  assert (G : option_map snd (run_o (fun _ a b => b - a) 7 30 [] ex_mem tight_hist) = Some tight_calls) by (vm_compute; reflexivity).
  destruct (run_o (fun _ a b => b - a) 7 30 [] ex_mem tight_hist) as [[m' cs]|]; [|discriminate G]. injection G as ->.
  exists m', tight_calls. conj; try reflexivity; try discriminate.
  - cbn. lia.
  - cbn [history tight_hist map app apply_op]. conj; try exact I; repeat match goal with |- allowed _ (Ins _) _ => split; [apply ex_good; lia|vm_compute; intuition discriminate] | |- allowed _ (Del _) _ => vm_compute; tauto end.
Qed.

(** ** A concrete run: the function says "greater" and "less" in turns *)
Definition ex_orc (tr : list (Z * Z)) (_ _ : Z) : Z := if Nat.even (length tr) then -1 else 1.
Definition ex_hist : list op := map Ins [10; 20; 30; 40; 50] ++ [Del 20; Ins 60].
Example C130_example : history (good_node 7 ex_mem) ex_hist [] /\
  option_map snd (run_o ex_orc 7 30 [] ex_mem ex_hist) = Some [[]; [(20, 10)]; [(30, 20)]; [(40, 20); (40, 10)]; [(50, 20); (50, 40)]; [(40, 10); (40, 50); (50, 30)]; [(60, 40)]].
Proof.
  split.
  - cbn [history ex_hist map app apply_op]. conj; try exact I; repeat match goal with |- allowed _ (Ins _) _ => split; [apply ex_good; lia|vm_compute; intuition discriminate] | |- allowed _ (Del _) _ => vm_compute; tauto end.
  - vm_compute. reflexivity.
Qed.
Print Assumptions C130_any.
Print Assumptions C130_same.
Print Assumptions C130_tight.
