(** * C116: loops that are "safe against removal" *)
From Coq Require Import Sorting.Permutation.
From Verif Require Import Lib Ptr Tree TiterModel SafeIterModel SafeIterSpec SafeIterProofs.
From Verif Require RbModel RbSpec RbHistSpec RbOps RbProps HeapModel HeapSpec HeapProps SlistModel HashmapModel HashmapSpec HashmapProps SafeMapProofs.

Lemma destroys_perm l l' body : Permutation l l' -> destroys l body -> destroys l' body.
Proof.
  intros P H done m p. destruct (H done m p) as (m' & E & O). exists m'. split; [exact E|]. intros q f Hq. apply O. apply (Permutation_in _ (Permutation_sym P)), Hq.
Qed.
(** Any binary tree with parent pointers: the loop runs the body once on every node, children before parents, although the
    body destroys the nodes that it has been given. *)
Theorem C116_destroy {A} (V : mem -> Z -> A -> Prop) rt m t body fuel nf : tree_at V rt m t -> destroys (postorder t) body -> (size t < fuel)%nat -> (size t < nf)%nat ->
  exists m', post_safe fuel nf body m rt = Some (postorder t, m') /\ run_bodies body [] (postorder t) m = Some m'.
Proof. intros HT HB Hf Hn. apply (post_safe_ok V rt m t HT body HB nf fuel Hn Hf). Qed.
(** After any history of a red-black tree (plain or cached). *)
Theorem C116_rb_destroy cmp rt cached fuel m ops body nf :
  RbHistSpec.comparison cmp -> rt <> 0 -> m rt NODE = Some NULL -> (cached = true -> m rt RbModel.LEFTMOST = Some NULL) -> (length ops < fuel)%nat ->
  RbHistSpec.legals cmp (RbProps.good_node rt m) cached ops [] ->
  let l := fst (RbHistSpec.specs cmp cached ops []) in destroys l body -> (length l < nf)%nat ->
  exists m1 r v m2, RbProps.run cached fuel cmp rt m ops = Some (m1, r) /\ post_safe nf nf body m1 rt = Some (v, m2) /\ Permutation v l /\ run_bodies body [] v m1 = Some m2.
Proof.
  intros H1 H2 H3 H4 H5 H6 l HB Hn. destruct (RbProps.C56_history cmp rt cached fuel m ops H1 H2 H3 H4 H5 H6) as (m1 & t & l0 & E & El & HT & _ & Ei & _). fold l in El. rewrite El in Ei.
  pose proof (TiterProofs.postorder_perm t) as P. rewrite Ei in P. assert (Hs : size t = length l) by (rewrite size_inorder, Ei; reflexivity).
  destruct (C116_destroy _ rt m1 t body nf nf HT (destroys_perm _ _ _ (Permutation_sym P) HB)) as (m2 & E2 & E3); [lia|lia|]. eexists m1, _, (postorder t), m2. split; [exact E|]. auto.
Qed.
(** After any history of a heap. *)
Theorem C116_heap_destroy cmp rt fuel m ops body nf :
  HeapSpec.preorder_cmp cmp -> rt <> 0 -> m rt NODE = Some NULL -> m rt HeapModel.COUNT = Some 0 -> Z.of_nat (length ops) < 2 ^ 64 - 1 -> (length ops < fuel)%nat ->
  HeapSpec.history (HeapProps.good_node rt m) ops [] ->
  let l := HeapSpec.apply_ops ops [] in destroys l body -> (length l < nf)%nat ->
  exists m1 v m2, HeapProps.run cmp rt fuel m ops = Some m1 /\ post_safe nf nf body m1 rt = Some (v, m2) /\ Permutation v l /\ run_bodies body [] v m1 = Some m2.
Proof.
  intros H1 H2 H3 H4 H5 H6 H7 l HB Hn. destruct (HeapProps.C55_history cmp H1 rt fuel m ops H2 H3 H4 H5 H6 H7) as (m1 & t & l0 & E & El & HT & Pi & _). fold l in El. rewrite El in Pi.
  pose proof (Permutation_trans (TiterProofs.postorder_perm t) Pi) as P. assert (Hs : size t = length l) by (rewrite size_inorder; rewrite (Permutation_length Pi); reflexivity).
  destruct (C116_destroy _ rt m1 t body nf nf HT (destroys_perm _ _ _ (Permutation_sym P) HB)) as (m2 & E2 & E3); [lia|lia|]. eexists m1, (postorder t), m2. split; [exact E|]. auto.
Qed.
(** Giving back the memory of each node is such a body; in the end all of it is gone and nothing else has changed. *)
Theorem C116_free : forall nodes l m, let body := fun (_ : list Z) m p => Some (free_node m p) in destroys nodes body /\
  exists m', run_bodies body [] l m = Some m' /\ forall q f, (In q l -> m' q f = None) /\ (~ In q l -> m' q f = m q f).
Proof.
  intros nodes l m body. split.
  - intros done m0 p. eexists. split; [reflexivity|]. intros q f _ _ N. unfold free_node. rewrite (proj2 (Z.eqb_neq _ _) N). reflexivity.
  - generalize (@nil Z). revert m. induction l as [|a l IH]; intros m done; cbn [run_bodies].
    + exists m. split; [reflexivity|]. intros q f. split; [intros []|reflexivity].
    + unfold body at 1. destruct (IH (free_node m a) (done ++ [a])) as (m' & E & H). exists m'. split; [exact E|]. intros q f. destruct (H q f) as [H1 H2]. cbn [In]. split.
      * intros [->|Hq]; [|apply H1, Hq]. destruct (in_dec Z.eq_dec q l) as [Hq|Hq]; [apply H1, Hq|]. rewrite (H2 Hq). unfold free_node. rewrite Z.eqb_refl. reflexivity.
      * intros N. rewrite H2 by tauto. unfold free_node. destruct (Z.eqb_spec q a) as [->|]; [tauto|reflexivity].
Qed.
(** ** But a body that calls [bfdev_rb_delete] on the node: the tree is rebalanced under the iterator *)
Theorem C116_rb_delete_refuted : exists cmp rt m ops m1 r v m2 x, RbHistSpec.comparison cmp /\ RbProps.run false 40 cmp rt m ops = Some (m1, r) /\ r = [1; 1; 1; 1] /\
  post_safe 40 40 (fun _ m n => RbModel.delete RbModel.dummy_callbacks 40 m rt n) m1 rt = Some (v, m2) /\
  In x (fst (RbHistSpec.specs cmp false ops [])) /\ ~ In x v /\ in_first m2 40 rt = Some x.
Proof.
  exists RbProps.ex_cmp, 7, RbProps.ex_mem, (map RbHistSpec.Ins [10; 20; 30; 40]).
  destruct (RbProps.run false 40 RbProps.ex_cmp 7 RbProps.ex_mem (map RbHistSpec.Ins [10; 20; 30; 40])) as [[m1 r]|] eqn:E1; [|vm_compute in E1; discriminate].
  assert (Er : r = [1; 1; 1; 1]).
  { assert (G : option_map snd (Some (m1, r)) = Some [1; 1; 1; 1]) by (rewrite <- E1; vm_compute; reflexivity). cbn in G. congruence. }
  assert (G : (let* x := RbProps.run false 40 RbProps.ex_cmp 7 RbProps.ex_mem (map RbHistSpec.Ins [10; 20; 30; 40]) in
    let* y := post_safe 40 40 (fun _ m n => RbModel.delete RbModel.dummy_callbacks 40 m 7 n) (fst x) 7 in let* z := in_first (snd y) 40 7 in Some (fst y, z)) = Some ([10; 40; 30], 20)) by (vm_compute; reflexivity).
  rewrite E1 in G. cbn beta iota in G. cbn [fst snd] in G.
  destruct (post_safe 40 40 (fun _ m n => RbModel.delete RbModel.dummy_callbacks 40 m 7 n) m1 7) as [[v m2]|] eqn:E2; [|discriminate G]. cbn [fst snd] in G.
  destruct (in_first m2 40 7) as [z|] eqn:E3; [|discriminate G]. injection G as -> ->.
  exists m1, r, [10; 40; 30], m2, 20. split; [exact RbProps.ex_cmp_ok|]. split; [reflexivity|]. split; [exact Er|]. split; [exact E2|]. split; [vm_compute; tauto|]. split; [cbn; lia|exact E3].
Qed.
(** The same for [bfdev_heap_delete]: the last node moves into the place of the deleted one. *)
Theorem C116_heap_delete_refuted : exists cmp rt m ops m1 v m2 x, HeapSpec.preorder_cmp cmp /\ HeapProps.run cmp rt 40 m ops = Some m1 /\
  post_safe 40 40 (fun _ m n => HeapModel.hp_delete cmp 40 m rt n) m1 rt = Some (v, m2) /\
  In x (HeapSpec.apply_ops ops []) /\ ~ In x v /\ m2 rt NODE = Some x.
Proof.
  exists HeapProps.ex_cmp, 7, HeapProps.ex_mem, (map HeapSpec.Ins [10; 20; 30; 40; 50; 60]).
  destruct (HeapProps.run HeapProps.ex_cmp 7 40 HeapProps.ex_mem (map HeapSpec.Ins [10; 20; 30; 40; 50; 60])) as [m1|] eqn:E1; [|vm_compute in E1; discriminate].
  assert (G : (let* x := HeapProps.run HeapProps.ex_cmp 7 40 HeapProps.ex_mem (map HeapSpec.Ins [10; 20; 30; 40; 50; 60]) in
    let* y := post_safe 40 40 (fun _ m n => HeapModel.hp_delete HeapProps.ex_cmp 40 m 7 n) x 7 in let* z := snd y 7 NODE in Some (fst y, z)) = Some ([40; 50; 20; 30; 10], 60)) by (vm_compute; reflexivity).
  rewrite E1 in G. cbn beta iota in G.
  destruct (post_safe 40 40 (fun _ m n => HeapModel.hp_delete HeapProps.ex_cmp 40 m 7 n) m1 7) as [[v m2]|] eqn:E2; [|discriminate G]. cbn [fst snd] in G.
  destruct (m2 7 NODE) as [z|] eqn:E3; [|discriminate G]. injection G as -> ->.
  exists m1, [40; 50; 20; 30; 10], m2, 60. split; [exact HeapProps.ex_cmp_ok|]. split; [reflexivity|]. split; [exact E2|]. split; [vm_compute; tauto|]. split; [cbn; lia|exact E3].
Qed.

(** ** Hash maps: [bfdev_hashmap_for_each_safe] with a body that calls [bfdev_hashmap_del] on chosen nodes *)
Import SlistModel HashmapModel HashmapSpec.
(** With a policy that never shrinks and distinct keys the loop visits what [bfdev_hashmap_for_each] would, and the chosen
    nodes are gone. *)
Theorem C116_hashmap_still : forall ops key al fuel U prog m n, lawful ops key -> allocator al -> (length U <= fuel)%nat -> nodes_exist m U -> polite key U prog ->
  (forall h, need_shrink ops h = false) ->
  exists m1 h1 past s, run_hops ops al fuel n prog m hm_init [] = Some (m1, h1, past) /\ reach key past s /\
    (NoDup (map key s) -> forall drop, exists l m2 h2, map_safe (Z.to_nat (h_capacity h1)) fuel (del_body ops key al fuel drop) m1 h1 = Some (l, (m2, h2)) /\
      for_each fuel m1 h1 = Some l /\ Permutation s l /\ for_each fuel m2 h2 = Some (filter (fun x => negb (drop x)) l)).
Proof.
  intros ops key al fuel U prog m n LAW AL FU NE HP NS. destruct (HashmapProps.run_hops_ok ops key al fuel U LAW AL FU prog HP n m hm_init [] []) as (m1 & h1 & past & s & E & HI & HR & _); [eapply HashmapProps.inv_init; eassumption|apply reach_nil|].
  exists m1, h1, past, s. split; [exact E|]. split; [exact HR|]. intros N drop. destruct (SafeMapProofs.map_safe_still ops key al fuel U LAW FU drop NS m1 h1 s HI N) as (l & m2 & h2 & E1 & E2 & P & E3 & _). exists l, m2, h2. auto.
Qed.
(** With any policy: the loop never goes wrong, visits only members, comes to an end, and exactly the chosen nodes that it
    visited are gone. *)
Theorem C116_hashmap_any : forall ops key al fuel U prog m n, lawful ops key -> allocator al -> (length U <= fuel)%nat -> nodes_exist m U -> polite key U prog ->
  exists m1 h1 past s, run_hops ops al fuel n prog m hm_init [] = Some (m1, h1, past) /\ reach key past s /\
    (NoDup (map key s) -> forall drop, exists v m2 h2 l, map_safe (Z.to_nat (h_capacity h1)) (length s + length s * length s) (del_body ops key al fuel drop) m1 h1 = Some (v, (m2, h2)) /\
      incl v s /\ for_each fuel m2 h2 = Some l /\ NoDup l /\ forall y, In y l <-> In y s /\ ~ (drop y = true /\ In y v)).
Proof.
  intros ops key al fuel U prog m n LAW AL FU NE HP. destruct (HashmapProps.run_hops_ok ops key al fuel U LAW AL FU prog HP n m hm_init [] []) as (m1 & h1 & past & s & E & HI & HR & _); [eapply HashmapProps.inv_init; eassumption|apply reach_nil|].
  exists m1, h1, past, s. split; [exact E|]. split; [exact HR|]. intros N drop. pose proof HI as (_ & _ & _ & SH & _). pose proof (SafeMapProofs.shape_cap fuel U FU h1 SH) as Hc.
  destruct (SafeMapProofs.map_any ops key al fuel U LAW AL FU drop (Z.to_nat (h_capacity h1)) 0 m1 h1 s (length s + length s * length s) ltac:(lia) ltac:(lia) HI N ltac:(lia)) as (v & m2 & h2 & s2 & E1 & HI2 & _ & Iv & LO).
  pose proof HI2 as HI3. apply SafeMapProofs.inv_inv_b in HI3. destruct HI3 as [b HI3]. pose proof (SafeMapProofs.for_each_b ops fuel U FU m2 h2 s2 b HI3) as Ef. pose proof HI3 as (_ & _ & _ & _ & _ & _ & _ & HC).
  exists v, m2, h2, (HashmapProofs.contents (h_capacity h2) b). split; [exact E1|]. split; [exact Iv|]. split; [exact Ef|]. split; [apply (Permutation_NoDup HC), (HashmapProps.nodup_inv ops U m2 h2 s2 HI2)|].
  intros y. rewrite <- (LO y). split; intros H; [apply (Permutation_in _ (Permutation_sym HC)), H|apply (Permutation_in _ HC), H].
Qed.
(** The stock policy shrinks (and even at the least size moves every node to a new table, which reverses the chains) while
    the loop is on its way: deleting every node leaves one behind. *)
Definition one_key (n : Z) : Z := n mod 50.
Definition one_ops (s : option (hmap -> bool)) : hops := {| hash_key := fun k => 0; hash_node := fun _ => 0; equal := fun a b => one_key a - one_key b; find := fun n k => one_key n - k; extend := None; shrink := s |}.
Definition three (past : list (hop * hres)) : hop := nth (length past) [HInsert 101 ADD; HInsert 102 ADD; HInsert 103 ADD] HEach.
Lemma one_lawful s : lawful (one_ops s) one_key.
Proof. split; intros; cbn [one_ops hash_node hash_key equal find]; [reflexivity|lia|lia]. Qed.
Lemma three_polite : polite one_key HashmapProps.ex_U three.
Proof. intros h s _. unfold three. generalize (length h). intros n. do 3 (destruct n as [|n]; [cbn; tauto|]). cbn. destruct n; exact Logic.I. Qed.
Theorem C116_hashmap_shrink_refuted : exists ops key al U m prog m1 h1 past v m2 h2 x, lawful ops key /\ allocator al /\ nodes_exist m U /\ polite key U prog /\ extend ops = None /\ shrink ops = None /\
  run_hops ops al 5 3 prog m hm_init [] = Some (m1, h1, past) /\ for_each 5 m1 h1 = Some [103; 102; x] /\ key 103 <> key 102 /\ key 102 <> key x /\ key 103 <> key x /\
  map_safe 16 20 (del_body ops key al 5 (fun _ => true)) m1 h1 = Some (v, (m2, h2)) /\ v = [103; 102] /\ for_each 5 m2 h2 = Some [x].
Proof.
  exists (one_ops None), one_key, HashmapProps.ex_al, HashmapProps.ex_U, HashmapProps.ex_m, three.
  destruct (run_hops (one_ops None) HashmapProps.ex_al 5 3 three HashmapProps.ex_m hm_init []) as [[[m1 h1] past]|] eqn:E1; [|assert (C : option_map (fun _ => true) (run_hops (one_ops None) HashmapProps.ex_al 5 3 three HashmapProps.ex_m hm_init []) = Some true) by (vm_compute; reflexivity); rewrite E1 in C; discriminate C].
  assert (G : (let* (x, _) := run_hops (one_ops None) HashmapProps.ex_al 5 3 three HashmapProps.ex_m hm_init [] in let* l0 := for_each 5 (fst x) (snd x) in
    let* (v, y) := map_safe 16 20 (del_body (one_ops None) one_key HashmapProps.ex_al 5 (fun _ => true)) (fst x) (snd x) in let* l := for_each 5 (fst y) (snd y) in Some (l0, v, l)) = Some ([103; 102; 101], [103; 102], [101])) by (vm_compute; reflexivity).
  rewrite E1 in G. cbn beta iota in G. cbn [fst snd] in G. destruct (for_each 5 m1 h1) as [l0|] eqn:E2; [|discriminate G].
  destruct (map_safe 16 20 (del_body (one_ops None) one_key HashmapProps.ex_al 5 (fun _ => true)) m1 h1) as [[v [m2 h2]]|] eqn:E3; [|discriminate G]. cbn [fst snd] in G.
  destruct (for_each 5 m2 h2) as [l|] eqn:E4; [|discriminate G]. injection G as -> -> ->. exists m1, h1, past, [103; 102], m2, h2, 101.
  split; [apply one_lawful|]. split; [apply HashmapProps.C52_law|]. split; [apply HashmapProps.C52_law|]. split; [exact three_polite|]. repeat (split; [reflexivity|]).
  split; [exact E2|]. do 3 (split; [vm_compute; discriminate|]). split; [exact E3|]. split; [reflexivity|exact E4].
Qed.

(** ** Concrete cases *)
Example C116_case_rb : (let* x := RbProps.run true 40 RbProps.ex_cmp 7 RbProps.ex_mem (map RbHistSpec.Ins [50; 40; 30; 60; 70; 20; 10; 80; 90]) in
  let* y := post_safe 40 40 (fun _ m p => Some (free_node m p)) (fst x) 7 in Some (fst y, map (fun p => snd y p LEFT) [10; 40; 90])) = Some ([10; 30; 20; 50; 70; 90; 80; 60; 40], [None; None; None]).
Proof. vm_compute. reflexivity. Qed.
Example C116_case_heap : (let* x := HeapProps.run HeapProps.ex_cmp 7 40 HeapProps.ex_mem (map HeapSpec.Ins [50; 40; 30; 60; 70; 20; 10]) in
  let* y := post_safe 40 40 (fun _ m p => Some (free_node m p)) x 7 in Some (fst y)) = Some [60; 70; 50; 40; 30; 20; 10].
Proof. vm_compute. reflexivity. Qed.
Example C116_case_map : (let* (x, _) := run_hops (one_ops (Some (fun _ => false))) HashmapProps.ex_al 5 3 three HashmapProps.ex_m hm_init [] in
  let* (v, y) := map_safe 16 5 (del_body (one_ops (Some (fun _ => false))) one_key HashmapProps.ex_al 5 (fun x => x =? 102)) (fst x) (snd x) in let* l := for_each 5 (fst y) (snd y) in Some (v, l)) = Some ([103; 102; 101], [103; 101]) /\
  NoDup (map one_key [103; 102; 101]) /\ (forall h, need_shrink (one_ops (Some (fun _ => false))) h = false).
Proof. split; [vm_compute; reflexivity|]. split; [|reflexivity]. vm_compute. repeat constructor; cbn; intuition discriminate. Qed.
Print Assumptions C116_destroy.
Print Assumptions C116_rb_destroy.
Print Assumptions C116_heap_destroy.
Print Assumptions C116_free.
Print Assumptions C116_rb_delete_refuted.
Print Assumptions C116_heap_delete_refuted.
Print Assumptions C116_hashmap_still.
Print Assumptions C116_hashmap_any.
Print Assumptions C116_hashmap_shrink_refuted.
