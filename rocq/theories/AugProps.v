(** * C123: summaries in augmented red-black trees *)
From Coq Require Import Sorting.Sorted.
From Verif Require Import Lib Ptr Tree TiterModel RbModel RbProofs RbRotate RbSpec RbInsert RbRemove RbFrame RbOps2 RbHistSpec SegProofs AugModel AugSpec AugProofs AugProofs2.

Section Props.
Variable dat one : Z -> Z.
Variable join : Z -> Z -> Z.
Variable comb : option Z -> Z -> option Z -> Z.
Variable cmp : Z -> Z -> Z.
Hypothesis Hj : joins one join comb.
Hypothesis Ha : associative join.
Hypothesis Hcmp : comparison cmp.
Notation summary := (summary dat one join).
Lemma comb_rot l x b y r : comb (Some (comb l x b)) y r = comb l x (Some (comb b y r)).
Proof. rewrite !Hj. cbv zeta. destruct l, b, r; rewrite ?Ha; reflexivity. Qed.
Lemma summary_app l1 l2 : summary (l1 ++ l2) = match summary l1, summary l2 with Some a, Some b => Some (join a b) | Some a, None => Some a | None, s => s end.
Proof.
  induction l1 as [|x l1 IH]; cbn [app AugSpec.summary]; [destruct (summary l2); reflexivity|]. rewrite IH. destruct (summary l1), (summary l2); rewrite ?Ha; reflexivity.
Qed.
Lemma top_summary (t : utree) : top comb dat t = summary (inorder t).
Proof.
  induction t as [|x l IHl a r IHr]; [reflexivity|]. cbn [top inorder]. rewrite summary_app. cbn [AugSpec.summary]. rewrite <- IHl, <- IHr, Hj. cbv zeta. destruct (top comb dat l), (top comb dat r); rewrite ?Ha; reflexivity.
Qed.
Variable rt : Z.
Variable cached : bool.
(** The root object of an empty tree. *)
Definition empty_root (m : mem) : Prop := rt <> 0 /\ m rt NODE = Some NULL /\ (cached = true -> m rt LEFTMOST = Some NULL).
(** Every node of the tree in memory [m] has the summary of the nodes under it, and the nodes are [l], in order. *)
Definition summarised (m : mem) (l : list Z) : Prop :=
  exists t, tree_at V rt m t /\ redblack t /\ inorder t = l /\ forall k u, t = plug k u -> u <> E -> m (addr u) AUG = summary (inorder u).
Lemma aug_sub (m : mem) t : aug comb dat m (shape t) -> forall k u, t = plug k u -> u <> E -> m (addr u) AUG = summary (inorder u).
Proof.
  intros HA k u -> Nu. rewrite shape_plug in HA. apply aug_plug in HA. destruct HA as [HA _]. rewrite <- inorder_shape, <- top_summary. destruct u as [|c l a r]; [congruence|]. cbn [shape aug addr top] in *. tauto.
Qed.
Theorem C123_history fuel m ops : empty_root m -> (length ops < fuel)%nat -> alegals cmp (value_node dat rt m) ops [] ->
  exists m', aug_run comb cached fuel m cmp rt ops = Some (m', areplies cmp ops []) /\ summarised m' (aspecs cmp ops []) /\ root_sum m' rt = Some (summary (aspecs cmp ops [])).
Proof.
  intros (Hr & H1 & H2) Hf HL. destruct (aug_run_ok comb comb_rot dat cmp Hcmp rt cached fuel ops m []) as (m' & E1 & (t & A1 & A2 & A3 & A4) & _); try assumption.
  - split; [|split; [constructor|exact H2]]. exists E. conj; try reflexivity; try exact I.
    + split; [exact H1|]. split; [exact I|]. intros z. cbn [cntk cnt]. destruct (Z.eq_dec z 0) as [->|N]; [rewrite ind_refl, ind_ne by congruence; lia|]. rewrite (ind_ne z 0 N). unfold ind. destruct (z =? rt); lia.
    + unfold redblack. cbn [black nored2 bal]. conj; try exact I. exists 0%nat. reflexivity.
  - exists m'. split; [exact E1|]. split; [exists t; conj; try assumption; apply aug_sub, A4|].
    unfold root_sum, ld. pose proof (shape_at rt m' t A1) as (B1 & _ & D). rewrite B1. rewrite (child_sum_ok comb dat m' (shape t) A4) by (specialize (D 0); rewrite ind_refl in D; lia). rewrite top_summary, inorder_shape, A3. reflexivity.
Qed.
(** Single calls, from any tree with right summaries. *)
Theorem C123_delete fuel m l n : (length l < fuel)%nat -> aheld comb dat cmp rt cached m l -> In n l ->
  exists m', aug_delete comb cached fuel m rt n = Some m' /\ summarised m' (del n l) /\ (forall a f, 4 <= f -> f <> AUG -> m' a f = m a f).
Proof.
  intros H1 H2 H3. destruct (aug_delete_ok comb comb_rot dat cmp rt cached fuel m l n H1 H2 H3) as (m' & E1 & [(t & A1 & A2 & A3 & A4) _] & [_ O]). exists m'. split; [exact E1|]. split; [|exact O].
  exists t. conj; try assumption. apply aug_sub, A4.
Qed.
Theorem C123_insert fuel m l n : (S (length l) < fuel)%nat -> aheld comb dat cmp rt cached m l -> value_node dat rt m n -> ~ In n l -> taken cmp n l = false ->
  exists m', aug_insert comb cached fuel m cmp rt n = Some (m', true) /\ summarised m' (ins cmp n l) /\ (forall a f, 4 <= f -> f <> AUG -> m' a f = m a f).
Proof.
  intros H1 H2 H3 H4 H5. destruct (aug_insert_ok comb comb_rot dat cmp Hcmp rt cached fuel m l n H1 H2 H3 H4) as (m' & E1 & [(t & A1 & A2 & A3 & A4) _] & [_ O]). rewrite H5 in *. exists m'. split; [exact E1|]. split; [|exact O].
  exists t. cbn [aspec] in A3. rewrite H5 in A3. conj; try assumption. apply aug_sub, A4.
Qed.
End Props.

(** ** Concrete trees: the root is at 7, the nodes at 10 to 17, ordered by address; the values are as tabulated, the summaries are uninitialised *)
Definition ex_dat (a : Z) : Z := nth (Z.to_nat (a - 10)) [3; 1; 4; 1; 5; 9; 2; 6] 0.
Definition ex_mem (aug0 : Z -> Z) : mem := fun a f =>
  if (a =? 7) && ((f =? NODE) || (f =? LEFTMOST)) then Some 0 else
  if (10 <=? a) && (a <? 18) then (if f =? DATA then Some (ex_dat a) else if f =? AUG then Some (aug0 a) else if (0 <=? f) && (f <? 7) then Some 99 else None) else None.
(** Sums, and (not commutative) the value of the first node. *)
Definition by_join (one : Z -> Z) (join : Z -> Z -> Z) (l : option Z) (x : Z) (r : option Z) : Z :=
  let y := match l with None => one x | Some s => join s (one x) end in match r with None => y | Some s => join y s end.
Definition ex_ops : list aop := [AIns 10; AIns 11; AIns 12; AIns 13; AIns 14; ADel 11; AIns 15; AIns 16; ADel 13; AIns 17; ADel 10].
Lemma ex_node aug0 n : 10 <= n < 18 -> value_node ex_dat 7 (ex_mem aug0) n.
Proof.
  intros Hn. assert (n = 10 \/ n = 11 \/ n = 12 \/ n = 13 \/ n = 14 \/ n = 15 \/ n = 16 \/ n = 17) as [ -> | [ -> | [ -> | [ -> | [ -> | [ -> | [ -> | -> ]]]]]]] by lia.
  all: unfold value_node; conj; try reflexivity; try discriminate; unfold node_at; intros f Hf; assert (f = 0 \/ f = 1 \/ f = 2 \/ f = 3) as [ -> | [ -> | [ -> | -> ]]] by lia; discriminate.
Qed.
Lemma sub_comparison : comparison Z.sub.
Proof. split; intros; lia. Qed.
Ltac legal_hist := cbn [alegals]; conj; try exact I; cbn [alegal]; try (vm_compute; tauto); split; try (apply ex_node; lia); vm_compute; intuition discriminate.
Example C123_example : joins (fun x => x) Z.add (by_join (fun x => x) Z.add) /\ associative Z.add /\ associative (fun a _ => a) /\ comparison Z.sub /\ empty_root 7 true (ex_mem (fun _ => 99)) /\
  alegals Z.sub (value_node ex_dat 7 (ex_mem (fun _ => 99))) ex_ops [] /\ aspecs Z.sub ex_ops [] = [12; 14; 15; 16; 17] /\
  (let* r := aug_run (by_join (fun x => x) Z.add) true 30 (ex_mem (fun _ => 99)) Z.sub 7 ex_ops in root_sum (fst r) 7) = Some (Some 26) /\
  (let* r := aug_run (by_join (fun x => x) (fun a _ => a)) false 30 (ex_mem (fun _ => 99)) Z.sub 7 ex_ops in root_sum (fst r) 7) = Some (Some 4).
Proof.
  split; [intros l x r; reflexivity|]. split; [intros a b c; lia|]. split; [intros a b c; reflexivity|]. split; [exact sub_comparison|]. split; [split; [discriminate|split; reflexivity]|]. split; [unfold ex_ops; legal_hist|]. vm_compute. auto.
Qed.

(** ** What does not hold *)
Fixpoint run_with (ins1 : mem -> Z -> option (mem * bool)) (m : mem) (ns : list Z) : option mem :=
  match ns with [] => Some m | n :: ns => let* r := ins1 m n in run_with ins1 (fst r) ns end.
(** [bfdev_rb_insert_augmented] gives no summary to the nodes on the path to the new node, although the new node comes with its own right one. *)
Theorem C123_insert_augmented_refuted : exists fuel m rt ns m', empty_root rt false m /\ (length ns < fuel)%nat /\ alegals Z.sub (value_node ex_dat rt m) (map AIns ns) [] /\ (forall n, In n ns -> m n AUG = Some (ex_dat n)) /\
  run_with (fun m n => insert (aug_callbacks (by_join (fun x => x) Z.add) fuel) fuel m Z.sub rt n) m ns = Some m' /\ root_sum m' rt <> Some (summary ex_dat (fun x => x) Z.add (aspecs Z.sub (map AIns ns) [])).
Proof.
  pose (o := run_with (fun m n => insert (aug_callbacks (by_join (fun x => x) Z.add) 20) 20 m Z.sub 7 n) (ex_mem ex_dat) [10; 11]). destruct o as [m'|] eqn:E0; [|exfalso; vm_compute in E0; discriminate E0].
  exists 20%nat, (ex_mem ex_dat), 7, [10; 11], m'. split; [split; [discriminate|split; [reflexivity|discriminate]]|]. split; [cbn; lia|]. split; [cbn [map]; legal_hist|].
  split; [intros n [<- | [<- | []]]; reflexivity|]. split; [exact E0|].
  assert (X : (let* m := o in root_sum m 7) = Some (Some 3)) by (vm_compute; reflexivity). rewrite E0 in X. rewrite X. vm_compute. discriminate.
Qed.
(** Propagating from the new node stops at once if its uninitialised summary happens to be right. *)
Theorem C123_propagate_refuted : exists fuel m rt ns m', empty_root rt false m /\ (length ns < fuel)%nat /\ alegals Z.sub (value_node ex_dat rt m) (map AIns ns) [] /\
  run_with (fun m n => aug_insert_up (by_join (fun x => x) Z.add) fuel m Z.sub rt n) m ns = Some m' /\ root_sum m' rt <> Some (summary ex_dat (fun x => x) Z.add (aspecs Z.sub (map AIns ns) [])).
Proof.
  pose (o := run_with (fun m n => aug_insert_up (by_join (fun x => x) Z.add) 20 m Z.sub 7 n) (ex_mem ex_dat) [10; 11]). destruct o as [m'|] eqn:E0; [|exfalso; vm_compute in E0; discriminate E0].
  exists 20%nat, (ex_mem ex_dat), 7, [10; 11], m'. split; [split; [discriminate|split; [reflexivity|discriminate]]|]. split; [cbn; lia|]. split; [cbn [map]; legal_hist|]. split; [exact E0|].
  assert (X : (let* m := o in root_sum m 7) = Some (Some 3)) by (vm_compute; reflexivity). rewrite E0 in X. rewrite X. vm_compute. discriminate.
Qed.
(** A summary that depends on the form of the tree - here its height - is lost by rotations. *)
Definition height (l : option Z) (x : Z) (r : option Z) : Z := 1 + Z.max (match l with Some h => h | None => 0 end) (match r with Some h => h | None => 0 end).
Theorem C123_height_refuted : exists fuel m rt ops m' reps r x y ls rs w, empty_root rt false m /\ (length ops < fuel)%nat /\ alegals Z.sub (value_node ex_dat rt m) ops [] /\
  aug_run height false fuel m Z.sub rt ops = Some (m', reps) /\ m' rt NODE = Some r /\ m' r LEFT = Some x /\ m' r RIGHT = Some y /\ child_sum m' x = Some ls /\ child_sum m' y = Some rs /\ m' r AUG = Some w /\ w <> height ls (ex_dat r) rs.
Proof.
  pose (o := aug_run height false 20 (ex_mem (fun _ => 99)) Z.sub 7 [AIns 10; AIns 11; AIns 12]). destruct o as [[m' reps]|] eqn:E0; [|exfalso; vm_compute in E0; discriminate E0].
  exists 20%nat, (ex_mem (fun _ => 99)), 7, [AIns 10; AIns 11; AIns 12], m', reps, 11, 10, 12, (Some 1), (Some 1), 3. split; [split; [discriminate|split; [reflexivity|discriminate]]|]. split; [cbn; lia|]. split; [legal_hist|]. split; [exact E0|].
  assert (X : (let* r := o in Some (fst r 7 NODE, fst r 11 LEFT, fst r 11 RIGHT, child_sum (fst r) 10, child_sum (fst r) 12, fst r 11 AUG)) = Some (Some 11, Some 10, Some 12, Some (Some 1), Some (Some 1), Some 3)) by (vm_compute; reflexivity).
  rewrite E0 in X. cbn [fst] in X. injection X as X1 X2 X3 X4 X5 X6. repeat (split; [assumption|]). vm_compute. discriminate.
Qed.
Print Assumptions C123_history.
Print Assumptions C123_delete.
Print Assumptions C123_insert.
Print Assumptions C123_insert_augmented_refuted.
Print Assumptions C123_propagate_refuted.
Print Assumptions C123_height_refuted.
