(** * C58: intrusive circular lists.
    [ring m h l] says that the list with head [h] holds exactly the distinct nodes [l], with forward and
    backward links in agreement.  [C58_rotate] shows that every member may be taken as the head, so a theorem
    about the head covers every position; positions inside a list are written [l1 ++ x :: l2]. *)
From Verif Require Import Lib Ptr ListModel ListSpec ListProofs ListProofs2.

Definition disjoint (a b : list Z) : Prop := forall x, In x a -> In x b -> False.

Theorem C58_rotate : forall m h l1 x l2, ring m h (l1 ++ x :: l2) <-> ring m x (l2 ++ h :: l1).
Proof. exact rotate. Qed.
Theorem C58_init : forall m h, node m h -> exists m', list_head_init m h = Some m' /\ ring m' h [] /\ frame [h] m m'.
Proof. exact init_ring. Qed.
Theorem C58_add : forall m h l n, ring m h l -> node m n -> ~ In n (h :: l) ->
  (exists m', list_add m h n = Some m' /\ ring m' h (n :: l) /\ frame (n :: h :: l) m m') /\
  (exists m', list_add_prev m h n = Some m' /\ ring m' h (l ++ [n]) /\ frame (n :: h :: l) m m').
Proof. intros m h l n H1 H2 H3. split; [apply add_ring|apply add_prev_ring]; assumption. Qed.
Theorem C58_add_inside : forall m h l1 x l2 n, ring m h (l1 ++ x :: l2) -> node m n -> ~ In n (h :: l1 ++ x :: l2) ->
  (exists m', list_add m x n = Some m' /\ ring m' h (l1 ++ x :: n :: l2) /\ frame (n :: h :: l1 ++ x :: l2) m m') /\
  (exists m', list_add_prev m x n = Some m' /\ ring m' h (l1 ++ n :: x :: l2) /\ frame (n :: h :: l1 ++ x :: l2) m m').
Proof. intros m h l1 x l2 n H1 H2 H3. split; [apply add_at|apply add_prev_at]; assumption. Qed.
Theorem C58_del : forall m h l1 x l2, ring m h (l1 ++ x :: l2) ->
  (exists m', list_del m x = Some m' /\ ring m' h (l1 ++ l2) /\ m' x NEXT = Some 0x100 /\ m' x PREV = Some 0x110 /\ frame (h :: l1 ++ x :: l2) m m') /\
  (exists m', list_del_init m x = Some m' /\ ring m' h (l1 ++ l2) /\ ring m' x [] /\ frame (h :: l1 ++ x :: l2) m m').
Proof. intros. split; [apply del_at|apply del_init_at]; assumption. Qed.
Theorem C58_splice : forall m h l k s, ring m h l -> ring m k s -> disjoint (k :: s) (h :: l) ->
  (exists m', list_splice m h k = Some m' /\ ring m' h (s ++ l) /\ m' k NEXT = m k NEXT /\ m' k PREV = m k PREV /\ frame (h :: l ++ s) m m') /\
  (exists m', list_splice_prev m h k = Some m' /\ ring m' h (l ++ s) /\ m' k NEXT = m k NEXT /\ m' k PREV = m k PREV /\ frame (h :: l ++ s) m m') /\
  (exists m', list_splice_init m h k = Some m' /\ ring m' h (s ++ l) /\ ring m' k [] /\ frame (h :: k :: l ++ s) m m') /\
  (exists m', list_splice_tail_init m h k = Some m' /\ ring m' h (l ++ s) /\ ring m' k [] /\ frame (h :: k :: l ++ s) m m').
Proof.
  intros m h l k s H1 H2 H3. split; [|split; [|split]]; [apply splice_ok|apply splice_prev_ok|apply splice_init_ok|apply splice_tail_init_ok]; assumption.
Qed.
Theorem C58_replace : forall m h l1 x l2 n, ring m h (l1 ++ x :: l2) -> node m n -> ~ In n (h :: l1 ++ x :: l2) ->
  (exists m', list_replace m x n = Some m' /\ ring m' h (l1 ++ n :: l2) /\ m' x NEXT = m x NEXT /\ m' x PREV = m x PREV /\ frame (n :: h :: l1 ++ l2) m m') /\
  (exists m', list_replace_init m x n = Some m' /\ ring m' h (l1 ++ n :: l2) /\ ring m' x [] /\ frame (n :: h :: l1 ++ x :: l2) m m').
Proof. intros m h l1 x l2 n H1 H2 H3. split; [apply replace_at|apply replace_init_at]; assumption. Qed.
Theorem C58_move : forall m h l1 x l2, ring m h (l1 ++ x :: l2) ->
  (exists m', list_move m h x = Some m' /\ ring m' h (x :: l1 ++ l2) /\ frame (h :: l1 ++ x :: l2) m m') /\
  (exists m', list_move_prev m h x = Some m' /\ ring m' h ((l1 ++ l2) ++ [x]) /\ frame (h :: l1 ++ x :: l2) m m').
Proof. intros. split; [apply move_same|apply move_prev_same]; assumption. Qed.
Theorem C58_move_across : forall m h l1 x l2 k s, ring m h (l1 ++ x :: l2) -> ring m k s -> disjoint (k :: s) (h :: l1 ++ x :: l2) ->
  (exists m', list_move m k x = Some m' /\ ring m' h (l1 ++ l2) /\ ring m' k (x :: s) /\ frame (h :: k :: l1 ++ x :: l2 ++ s) m m') /\
  (exists m', list_move_prev m k x = Some m' /\ ring m' h (l1 ++ l2) /\ ring m' k (s ++ [x]) /\ frame (h :: k :: l1 ++ x :: l2 ++ s) m m').
Proof. intros m h l1 x l2 k s H1 H2 H3. split; [apply move_across|apply move_prev_across]; assumption. Qed.
(** Two different nodes in either argument order, adjacent ones ([b = []]) included. *)
Theorem C58_swap_partial : forall m h a x b y c, ring m h (a ++ x :: b ++ y :: c) ->
  (exists m', list_swap m x y = Some m' /\ ring m' h (a ++ y :: b ++ x :: c) /\ frame (h :: a ++ x :: b ++ y :: c) m m') /\
  (exists m', list_swap m y x = Some m' /\ ring m' h (a ++ y :: b ++ x :: c) /\ frame (h :: a ++ x :: b ++ y :: c) m m').
Proof. intros. split; [apply swap_forward|apply swap_backward]; assumption. Qed.
Theorem C58_queries : forall m h l, ring m h l ->
  list_check_empty m h = Some (match l with [] => true | _ => false end) /\
  (forall l1 x l2, l = l1 ++ x :: l2 ->
     list_check_first m h x = Some (match l1 with [] => true | _ => false end) /\
     list_check_end m h x = Some (match l2 with [] => true | _ => false end) /\
     list_check_another m h x = Some (match l with [_] => true | _ => false end)).
Proof.
  intros m h l Hr. split; [apply check_empty_ok, Hr|]. intros l1 x l2 ->.
  pose proof (ring_next _ _ _ Hr) as N. pose proof (ring_prev _ _ _ Hr) as P.
  unfold list_check_first, list_check_end, list_check_another, ld. rewrite (prev_at _ _ _ _ _ Hr), (next_at _ _ _ _ _ Hr), N, P.
  pose proof Hr as [Hd _]. change (h :: l1 ++ x :: l2) with ((h :: l1) ++ x :: l2) in Hd.
  pose proof (nodup_disj _ _ Hd) as D. pose proof (nodup_l _ _ Hd) as Hd1. pose proof (nodup_r _ _ Hd) as Hd2.
  assert (A : (last l1 h =? h) = match l1 with [] => true | _ => false end).
  { destruct l1 as [|y l1]; [apply Z.eqb_refl|]. apply Z.eqb_neq. intros E. rewrite last_cons in E. inversion_clear Hd1. apply H. rewrite <- E. apply last_in. }
  assert (B : (hd h l2 =? h) = match l2 with [] => true | _ => false end).
  { destruct l2 as [|y l2]; [apply Z.eqb_refl|]. apply Z.eqb_neq. cbn [hd]. intros ->. apply (D h); cbn; auto. }
  split; [f_equal; exact A|]. split; [f_equal; exact B|].
  destruct l1 as [|y l1]; cbn [app hd].
  - rewrite Z.eqb_refl. cbn [last]. f_equal. destruct l2 as [|z l2]; [apply Z.eqb_refl|]. change (last (x :: z :: l2) h) with (last (z :: l2) h). rewrite last_cons.
    apply Z.eqb_neq. intros E. inversion_clear Hd2. apply H. rewrite <- E. apply last_in.
  - assert (y =? x = false) as ->. { apply Z.eqb_neq. intros ->. apply (D x); cbn; auto. }
    destruct l1; reflexivity.
Qed.
Theorem C58_for_each : forall m h l fuel, ring m h l -> (length l <= fuel)%nat ->
  for_each fuel m h = Some l /\ for_each_reverse fuel m h = Some (rev l).
Proof. intros. split; [apply for_each_ok|apply for_each_reverse_ok]; assumption. Qed.
Theorem C58_for_each_safe : forall m h l drop fuel, ring m h l -> (length l <= fuel)%nat ->
  exists m', for_each_safe fuel m drop h = Some (l, m') /\ ring m' h (filter (fun x => negb (drop x)) l) /\ frame (h :: l) m m'.
Proof. exact (fun m h l drop fuel => for_each_safe_ok m h l drop fuel). Qed.

(** A list of three nodes 20, 30, 40 with head 10, a list of one node 60 with head 50, and a free node 70. *)
Definition demo : mem := fun p f =>
  if f =? NEXT then (if p =? 10 then Some 20 else if p =? 20 then Some 30 else if p =? 30 then Some 40 else if p =? 40 then Some 10
                     else if p =? 50 then Some 60 else if p =? 60 then Some 50 else if p =? 70 then Some 0 else None)
  else if f =? PREV then (if p =? 10 then Some 40 else if p =? 20 then Some 10 else if p =? 30 then Some 20 else if p =? 40 then Some 30
                     else if p =? 50 then Some 60 else if p =? 60 then Some 50 else if p =? 70 then Some 0 else None)
  else None.
Example C58_demo : ring demo 10 [20; 30; 40] /\ ring demo 50 [60] /\ node demo 70 /\ ~ In 70 [10; 20; 30; 40] /\ disjoint [50; 60] [10; 20; 30; 40].
Proof.
  split; [|split; [|split; [|split]]].
  - split; [repeat constructor; cbn; lia|]. cbn [seg]. unfold linked. vm_compute. repeat split.
  - split; [repeat constructor; cbn; lia|]. cbn [seg]. unfold linked. vm_compute. repeat split.
  - split; eexists; reflexivity.
  - cbn. lia.
  - intros x H1 H2. cbn in *. lia.
Qed.

(** Equal nodes: swapping a node with itself or moving a node relative to itself follows the poison values
    that the deletion has just written, and faults; the list would have had to be unchanged. *)
Theorem C58_swap_self_refuted : exists m h l x, ring m h l /\ In x l /\ list_swap m x x = None /\ list_move m x x = None /\ list_move_prev m x x = None.
Proof.
  exists demo, 10, [20; 30; 40], 30. split; [apply C58_demo|]. split; [cbn; auto|]. repeat split; vm_compute; reflexivity.
Qed.
(** Replacing the head of an empty list copies the old head's links to itself: the new head is not an empty list. *)
Theorem C58_replace_empty_refuted : exists m h n, ring m h [] /\ node m n /\ n <> h /\
  exists m', list_replace m h n = Some m' /\ ~ ring m' n [].
Proof.
  exists (fun p f => if (p =? 10) || (p =? 20) then Some p else None), 10, 20.
  split; [split; [repeat constructor; cbn; lia|vm_compute; auto]|]. split; [split; eexists; reflexivity|]. split; [lia|].
  eexists. split; [vm_compute; reflexivity|]. intros [_ [H _]]. vm_compute in H. discriminate H.
Qed.

Example C58_swap_case : exists m', list_swap demo 20 30 = Some m' /\ ring m' 10 [30; 20; 40].
Proof. destruct (proj1 (C58_swap_partial demo 10 [] 20 [] 30 [40] (proj1 C58_demo))) as (m' & E & R & _). exists m'. auto. Qed.
Example C58_splice_case : exists m', list_splice_tail_init demo 10 50 = Some m' /\ ring m' 10 [20; 30; 40; 60].
Proof.
  destruct C58_demo as (A & B & _ & _ & D). destruct (C58_splice demo 10 _ 50 _ A B D) as (_ & _ & _ & m' & E & R & _). exists m'. auto.
Qed.
Example C58_safe_case : exists m', for_each_safe 5 demo (fun x => x =? 30) 10 = Some ([20; 30; 40], m') /\ ring m' 10 [20; 40].
Proof. destruct (C58_for_each_safe demo 10 _ (fun x => x =? 30) 5 (proj1 C58_demo)) as (m' & E & R & _); [cbn; lia|]. exists m'. auto. Qed.

Print Assumptions C58_rotate.
Print Assumptions C58_init.
Print Assumptions C58_add.
Print Assumptions C58_add_inside.
Print Assumptions C58_del.
Print Assumptions C58_splice.
Print Assumptions C58_replace.
Print Assumptions C58_move.
Print Assumptions C58_move_across.
Print Assumptions C58_swap_partial.
Print Assumptions C58_queries.
Print Assumptions C58_for_each.
Print Assumptions C58_for_each_safe.
Print Assumptions C58_swap_self_refuted.
Print Assumptions C58_replace_empty_refuted.
