(** * C37: list sort is a stable sort of the circular list *)
From Verif Require Import Lib Ptr ListModel ListSpec ListProps ListSortModel ListSortSpec ListSortProofs4.

(** Any list of nodes (whose addresses are not NULL), any total preorder; the result is a well formed circular list,
    no other object is touched, and the 32-bit counter may wrap without harm. *)
Theorem C37_list_sort : forall cmp fuel m h l, preorder cmp -> ring m h l -> ~ In NULL l -> (2 * length l + 2 <= fuel)%nat ->
  exists m' l', list_sort fuel cmp m h = Some m' /\ ring m' h l' /\ stable_sort cmp l l' /\ frame (h :: l) m m'.
Proof. exact list_sort_ok. Qed.
(** The result is determined: a stable sort is unique. *)
Theorem C37_unique : forall (A : Type) (cmp : A -> A -> Z) l l1 l2, preorder cmp -> stable_sort cmp l l1 -> stable_sort cmp l l2 -> l1 = l2.
Proof.
  intros A cmp l l1 l2 [PO1 PO2] (A1 & P1 & O1) (A2 & P2 & O2).
  assert (P : Permutation l1 l2) by (apply Permutation_trans with l; [apply Permutation_sym, P1|exact P2]).
  assert (O : same_order cmp l1 l2) by (intros k; rewrite <- O1; apply O2). clear P1 P2 O1 O2 l.
  revert l2 A2 P O. induction l1 as [|a l1 IH]; intros l2 A2 P O; [symmetry; apply Permutation_nil, P|].
  destruct l2 as [|b l2]; [apply Permutation_sym, Permutation_nil in P; discriminate|].
  assert (Rf : forall x, cmp x x = 0) by (intros x; specialize (PO1 x x); lia).
  assert (F1 : Forall (fun y => cmp a y <= 0) (a :: l1)) by (apply StronglySorted_inv in A1; constructor; [rewrite Rf; lia|apply A1]).
  assert (F2 : Forall (fun y => cmp b y <= 0) (b :: l2)) by (apply StronglySorted_inv in A2; constructor; [rewrite Rf; lia|apply A2]).
  assert (Hab : cmp a b <= 0) by (rewrite Forall_forall in F1; apply F1, (Permutation_in _ (Permutation_sym P)); cbn; auto).
  assert (Hba : cmp b a <= 0) by (rewrite Forall_forall in F2; apply F2, (Permutation_in _ P); cbn; auto).
  assert (E : a = b).
  { pose proof (O a) as Oa. cbn [filter] in Oa. rewrite Rf in Oa. cbn [Z.eqb] in Oa.
    assert (cmp a b = 0) by (pose proof (PO1 a b); lia). rewrite H in Oa. cbn [Z.eqb] in Oa. injection Oa as -> _. reflexivity. }
  subst b. f_equal. apply IH.
  - apply StronglySorted_inv in A1. apply A1.
  - apply StronglySorted_inv in A2. apply A2.
  - apply Permutation_cons_inv in P. exact P.
  - intros k. specialize (O k). cbn [filter] in O. destruct (cmp k a =? 0); [injection O as O|]; exact O.
Qed.

(** Nodes 30 and 20 compare equal and keep their order; 40 comes first. *)
Definition demo_key (p : Z) : Z := if p =? 40 then 1 else 2.
Example C37_case : exists m', list_sort 20 (fun a b => demo_key a - demo_key b) demo 10 = Some m' /\ ring m' 10 [40; 20; 30].
Proof.
  assert (PO : preorder (fun a b => demo_key a - demo_key b)) by (split; intros; lia).
  assert (Hz : ~ In NULL [20; 30; 40]) by (unfold NULL; cbn; lia).
  destruct (C37_list_sort (fun a b => demo_key a - demo_key b) 20 demo 10 [20; 30; 40] PO (proj1 C58_demo) Hz ltac:(cbn; lia)) as (m' & l' & E & R & S & _).
  exists m'. split; [exact E|]. replace [40; 20; 30] with l'; [exact R|]. apply (C37_unique _ _ _ _ _ PO S).
  split; [repeat constructor; vm_compute; discriminate|]. split.
  - apply Permutation_sym. apply (Permutation_cons_append [20; 30] 40).
  - intros k. cbn [filter]. change (demo_key 20) with 2. change (demo_key 30) with 2. change (demo_key 40) with 1.
    destruct (Z.eqb_spec (demo_key k - 2) 0), (Z.eqb_spec (demo_key k - 1) 0); try reflexivity. lia.
Qed.
Print Assumptions C37_list_sort.
Print Assumptions C37_unique.
