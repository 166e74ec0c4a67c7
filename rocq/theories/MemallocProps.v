(** * Properties C43, C44, C45, C79, C80 of the pool allocator *)
From Coq Require Import Sorting.Permutation.
From Verif Require Import Lib MemallocModel MemallocSpec MemallocProofs MemallocProofs2 MemallocProofs3 MemallocProofs4 MemallocProofs5.
Definition policy (find : heap -> Z -> option (option Z)) : Prop := find = first_fit \/ find = best_fit \/ find = worst_fit.
Lemma policy_ok find : policy find -> find_ok find.
Proof. intros [ -> | [ -> | -> ] ]; [apply first_ok|apply best_ok|apply worst_ok]. Qed.
(** a pool at a non-null address, with room for a header, that does not wrap around the address space *)
Definition pool (b z : Z) : Prop := 0 < b /\ 40 <= z /\ b + z <= 2 ^ 64.
Definition sane (os : list op) : Prop := Forall (fun o => 0 <= asked o <= 2 ^ 64 - 32) os.
Lemma history find b z u dt os : policy find -> pool b z -> sane os ->
  exists h0 h live cs, init b z u dt = Some h0 /\ run find (h0, []) os = Some (h, live) /\ base h = b /\ psize h = z /\ inv h live cs (b + z - z mod 2) (z mod 2).
Proof.
  intros P (B & Z1 & T) A. destruct (init_ok b z u dt B Z1 T) as (h0 & I & B0 & P0 & V). destruct (run_ok find (policy_ok find P) _ _ os _ _ _ V A) as (h & live & cs & E & B1 & P1 & V1). exists h0, h, live, cs. split; [exact I|]. split; [exact E|]. split; [congruence|]. split; [congruence|exact V1].
Qed.
Lemma f2_nth {A B} (P : A -> B -> Prop) : forall l l' i a, Forall2 P l l' -> nth_error l i = Some a -> exists b, nth_error l' i = Some b /\ P a b.
Proof. intros l l' i a F. revert i. induction F as [|x y l l' H F IH]; intros [|i] E; cbn in *; try discriminate; [injection E as ->; exists y; split; [reflexivity|exact H]|apply IH; exact E]. Qed.
Lemma nth_two {A} (l : list A) i j x y : nth_error l i = Some x -> nth_error l j = Some y -> i <> j -> exists l1 l2, l = l1 ++ x :: l2 /\ In y (l1 ++ l2).
Proof.
  revert i j. induction l as [|a l IH]; intros [|i] [|j] X Y N; cbn in *; try discriminate; try congruence.
  - injection X as ->. exists [], l. split; [reflexivity|]. eapply nth_error_In; exact Y.
  - injection Y as ->. destruct (nth_error_split _ _ X) as (l1 & l2 & -> & _). exists (y :: l1), l2. split; [reflexivity|left; reflexivity].
  - destruct (IH i j X Y ltac:(congruence)) as (l1 & l2 & -> & I). exists (a :: l1), l2. split; [reflexivity|right; exact I].
Qed.
Lemma hdr_apart cs a e c x : tiles a e cs -> In c cs -> In x (map ca cs) -> x + HDR <= ca c + HDR \/ ca c + HDR + cz c <= x.
Proof.
  intros T I X. apply in_map_iff in X. destruct X as (c' & <- & I'). apply in_split in I. destruct I as (l & r & ->). destruct (tiles_split _ _ _ _ _ T) as (Tl & Z0 & Tr). apply in_app_or in I'. destruct I' as [I'|[<-|I']].
  - left. pose proof (tiles_in _ _ _ _ Tl I'). unfold HDR in *. lia.
  - left. lia.
  - right. exact (proj1 (tiles_in _ _ _ _ Tr I')).
Qed.
(** ** C43: after any history the library has not faulted (no list corruption, no header outside the pool); every live
    block lies in the pool behind its header, at a multiple of 8 from the start, clear of every header, and blocks are
    at least a header apart *)
Theorem C43_blocks : forall find b z u dt os, policy find -> pool b z -> sane os ->
  exists h0 h live, init b z u dt = Some h0 /\ run find (h0, []) os = Some (h, live) /\
  (forall i x, nth_error live i = Some x -> b + 40 <= ptr x /\ 0 <= req x /\ ptr x + req x <= b + z /\ (ptr x - b) mod 8 = 0 /\ forall a, In a (blocks h) -> a + 40 <= ptr x \/ ptr x + req x <= a) /\
  (forall i j x y, i <> j -> nth_error live i = Some x -> nth_error live j = Some y -> ptr x + req x + 40 <= ptr y \/ ptr y + req y + 40 <= ptr x).
Proof.
  intros find b z u dt os P Po A. destruct (history find b z u dt os P Po A) as (h0 & h & live & cs & I & E & B & Z0 & (R & us & Pu & F)). exists h0, h, live. split; [exact I|]. split; [exact E|].
  pose proof (r_tiles _ _ _ _ R) as T. pose proof (r_end _ _ _ _ R) as En. split.
  - intros i x X. destruct (f2_nth _ _ _ _ _ F X) as (c & C & H1 & H2 & H3 & H4). assert (Ic : In c cs). { apply nth_error_In in C. assert (Y : In c (filter cu cs)) by (eapply Permutation_in; eassumption). apply filter_In in Y. apply Y. }
    pose proof (tiles_in _ _ _ _ T Ic) as (T1 & T2 & T3). unfold HDR in *. split; [lia|]. split; [lia|]. split; [lia|]. split.
    + pose proof (r_good _ _ _ _ R) as G. rewrite Forall_forall in G. destruct (G c Ic) as (_ & _ & G3). rewrite H2, <- B. replace (ca c + 40 - base h) with (ca c - base h - (-40)) by lia. apply zmod_sub; [lia|exact G3|reflexivity].
    + intros a Ia. rewrite (r_blocks _ _ _ _ R) in Ia. pose proof (hdr_apart _ _ _ _ _ T Ic Ia). unfold HDR in *. lia.
  - intros i j x y N X Y. destruct (f2_nth _ _ _ _ _ F X) as (c & C & H1 & H2 & H3 & _). destruct (f2_nth _ _ _ _ _ F Y) as (c' & C' & H1' & H2' & H3' & _). destruct (nth_two _ _ _ _ _ C C' N) as (l1 & l2 & -> & I'). pose proof (used_disj _ _ _ _ _ _ _ T Pu I'). unfold HDR in *. lia.
Qed.
(** alignment of the blocks to BFDEV_MEMALLOC_ALIGN is not provided even in an aligned pool *)
Theorem C43_align_refuted : exists b z h0 h p, pool b z /\ b mod 32 = 0 /\ init b z (fun _ => 0) (fun _ => 0) = Some h0 /\ alloc first_fit h0 1 = Some (h, p) /\ p <> 0 /\ p mod 32 <> 0.
Proof.
  destruct (init 4096 1024 (fun _ => 0) (fun _ => 0)) as [h0|] eqn:E; [|exfalso; revert E; vm_compute; discriminate]. destruct (alloc first_fit h0 1) as [[h p]|] eqn:E2; [|exfalso; revert E2; injection E as <-; vm_compute; discriminate].
  exists 4096, 1024, h0, h, p. split; [unfold pool; lia|]. split; [reflexivity|]. split; [exact E|]. split; [exact E2|]. assert (Hp : p = 4136). { injection E as <-. vm_compute in E2. injection E2 as _ <-. reflexivity. } rewrite Hp. split; discriminate.
Qed.
(** ** C44: after any history the chunks follow one another without a gap from the start to the end of the pool (of an
    odd pool the last byte is not used), two neighbours are never both free, the free list holds exactly the free chunks,
    as many chunks are in use as blocks are live, and the available size is that of the free chunks (plus that byte);
    with no live block the whole pool is one free chunk again *)
Theorem C44_conserves : forall find b z u dt os, policy find -> pool b z -> sane os ->
  exists h0 h live, init b z u dt = Some h0 /\ run find (h0, []) os = Some (h, live) /\
  walk h b (blocks h) = Some (b + z - z mod 2) /\
  (forall l x y r, blocks h = l ++ x :: y :: r -> is_free h x = false \/ is_free h y = false) /\
  Permutation (frees h) (filter (is_free h) (blocks h)) /\ NoDup (blocks h) /\
  Permutation (map ptr live) (map (fun a => a + 40) (filter (fun a => negb (is_free h a)) (blocks h))) /\
  avail h = total h (frees h) + z mod 2 /\
  (live = [] -> blocks h = [b] /\ frees h = [b] /\ is_free h b = true /\ size_of h b = z - 40 - z mod 2 /\ avail h = z - 40).
Proof.
  intros find b z u dt os P Po A. destruct (history find b z u dt os P Po A) as (h0 & h & live & cs & I & E & B & Z0 & (R & us & Pu & F)). exists h0, h, live. split; [exact I|]. split; [exact E|].
  pose proof (r_tiles _ _ _ _ R) as T. pose proof (r_good _ _ _ _ R) as G. pose proof (r_blocks _ _ _ _ R) as Bl. pose proof (r_free _ _ _ _ R) as Fr. pose proof (r_adj _ _ _ _ R) as Ad. pose proof (r_avail _ _ _ _ R) as Av.
  assert (W : walk h b (blocks h) = Some (b + z - z mod 2)) by (rewrite Bl; apply walk_tiles; [rewrite B in T; exact T|exact G]). split; [exact W|].
  assert (Adj : forall l x y r, blocks h = l ++ x :: y :: r -> is_free h x = false \/ is_free h y = false).
  { intros l x y r X. rewrite Bl in X. assert (X2 : exists l' c c' r', cs = l' ++ c :: c' :: r' /\ ca c = x /\ ca c' = y).
    { clear - X. revert cs X. induction l as [|a l IH]; intros cs X. - destruct cs as [|c [|c' cs]]; cbn in X; try discriminate. injection X as X1 X2 X3. exists [], c, c', cs. repeat split; congruence. - destruct cs as [|c cs]; cbn in X; [discriminate|]. injection X as X1 X2. destruct (IH cs X2) as (l' & d & d' & r' & -> & D1 & D2). exists (c :: l'), d, d', r'. repeat split; assumption. }
    destruct X2 as (l' & c & c' & r' & -> & <- & <-). rewrite Forall_forall in G. destruct (word_size h c) as [_ ->]; [apply G, in_or_app; right; left; reflexivity|]. destruct (word_size h c') as [_ ->]; [apply G, in_or_app; right; right; left; reflexivity|]. destruct (cfree c) eqn:C; [right; exact (noadj_pair _ _ _ _ _ Ad C)|left; reflexivity]. }
  split; [exact Adj|]. split; [rewrite Bl, filter_free by exact G; exact Fr|]. split; [|split; [|split]].
  - rewrite Bl. clear - T. remember (base h) as a. clear Heqa. revert a T. induction cs as [|c cs IH]; intros a T; [constructor|]. cbn [tiles] in T. destruct T as (A & Z0 & T). cbn [map]. constructor; [|exact (IH _ T)]. eapply not_in_addr; [apply (tiles_after _ _ _ T)|]. unfold HDR. cbn. intros c' H. lia.
  - assert (X : map ptr live = map (fun c => ca c + 40) us). { clear - F. induction F as [|x c live us (_ & H & _) F IH]; [reflexivity|]. cbn [map]. rewrite IH, H. reflexivity. }
    rewrite X, Pu, Bl. clear - G. induction cs as [|c cs IH]; [constructor|]. inversion_clear G as [|? ? Gc Gr]. cbn [map filter]. destruct (word_size h c Gc) as [_ ->]. unfold cfree. rewrite negb_involutive. destruct (cu c); cbn [map]; [apply perm_skip|]; apply IH; exact Gr.
  - rewrite (total_perm h _ _ Fr), total_free by exact G. exact Av.
  - intros ->. inversion F; subst us. apply Permutation_nil in Pu. assert (Fa : Forall (fun c => cu c = false) cs). { apply Forall_forall. intros c Ic. destruct (cu c) eqn:C; [|reflexivity]. exfalso. assert (Y : In c (filter cu cs)) by (apply filter_In; split; assumption). rewrite Pu in Y. exact Y. }
    destruct Po as (Pb & Pz & Pt). assert (Hm : 0 <= z mod 2 < 2) by (apply Z.mod_pos_bound; lia).
    destruct cs as [|c [|c' cs]]; [cbn in T; rewrite B in T; lia| |exfalso; cbn [noadj] in Ad; destruct Ad as (_ & Ad & _); inversion_clear Fa as [|? ? F1 F2]; inversion_clear F2 as [|? ? F3 _]; unfold cfree in Ad; rewrite F1 in Ad; rewrite Ad in F3 by reflexivity; discriminate].
    cbn [tiles] in T. destruct T as (T1 & T2 & T3). rewrite B in *. cbn [map] in Bl. inversion_clear Fa as [|? ? F1 _]. inversion_clear G as [|? ? Gc _]. destruct (word_size h c) as [S1 S2]; [rewrite B; exact Gc|]. cbn [filter map] in Fr. unfold cfree in Fr, S2. rewrite F1 in Fr, S2. cbn [negb map] in Fr, S2. rewrite T1 in *. apply Permutation_sym, Permutation_length_1_inv in Fr. cbn [sumfree] in Av. rewrite F1 in Av. unfold HDR in *. repeat split; try assumption; lia.
Qed.
(** ** C45: in every reachable state a request that exceeds the pool and the largest size that can be rounded up is
    refused and changes nothing; beyond that the rounding wraps around *)
Theorem C45_huge_partial : forall find b z u dt os size, policy find -> pool b z -> sane os -> z < size <= 2 ^ 64 - 32 ->
  exists h0 h live, init b z u dt = Some h0 /\ run find (h0, []) os = Some (h, live) /\ alloc find h size = Some (h, 0) /\
  forall i x, nth_error live i = Some x -> realloc find h (ptr x) size = Some (h, 0).
Proof.
  intros find b z u dt os size P Po A L. destruct (history find b z u dt os P Po A) as (h0 & h & live & cs & I & E & B & Z0 & (R & us & Pu & F)). exists h0, h, live. split; [exact I|]. split; [exact E|].
  pose proof (align_le size ltac:(destruct Po; lia)) as Al. pose proof (sumfree_bound _ _ _ (r_tiles _ _ _ _ R)) as [S1 S2]. pose proof (r_avail _ _ _ _ R) as Av. pose proof (r_d _ _ _ _ R) as Rd. assert (0 <= zlen cs) by (unfold zlen; lia). assert (avail h < align_up size) by (unfold HDR in *; lia).
  split; [unfold alloc; rewrite (proj2 (Z.ltb_lt _ _)) by assumption; reflexivity|]. intros i x _. unfold realloc. cbv zeta. rewrite (proj2 (Z.ltb_lt _ _)) by assumption. reflexivity.
Qed.
Theorem C45_huge_refuted : exists b z size h0 h p, pool b z /\ z < size < 2 ^ 64 /\ init b z (fun _ => 0) (fun _ => 0) = Some h0 /\ alloc first_fit h0 size = Some (h, p) /\ p <> 0 /\ size_of h (p - 40) = 0.
Proof.
  destruct (init 4096 1024 (fun _ => 0) (fun _ => 0)) as [h0|] eqn:E; [|exfalso; revert E; vm_compute; discriminate]. destruct (alloc first_fit h0 (2 ^ 64 - 1)) as [[h p]|] eqn:E2; [|exfalso; revert E2; injection E as <-; vm_compute; discriminate].
  exists 4096, 1024, (2 ^ 64 - 1), h0, h, p. split; [unfold pool; lia|]. split; [lia|]. split; [exact E|]. split; [exact E2|]. injection E as <-. vm_compute in E2. injection E2 as <- <-. split; [discriminate|reflexivity].
Qed.
(** ** C79: whatever the client stores in its blocks stays there: through any history, including growing in place and
    moving, every byte the client may rely on is in memory *)
Theorem C79_contents : forall find b z u dt os, policy find -> pool b z -> sane os ->
  exists h0 h live, init b z u dt = Some h0 /\ run find (h0, []) os = Some (h, live) /\
  forall i x k v, nth_error live i = Some x -> held x k = Some v -> dat h (ptr x + k) = v.
Proof.
  intros find b z u dt os P Po A. destruct (history find b z u dt os P Po A) as (h0 & h & live & cs & I & E & B & Z0 & (R & us & Pu & F)). exists h0, h, live. split; [exact I|]. split; [exact E|].
  intros i x k v X K. destruct (f2_nth _ _ _ _ _ F X) as (c & C & H1 & H2 & H3 & H4). apply (H4 k v K).
Qed.
(** ** C80: in every reachable state the policies find a free chunk that is large enough whenever there is one: the first
    of the list, one of the smallest, one of the largest *)
Theorem C80_policies : forall find b z u dt os size, policy find -> pool b z -> sane os -> 0 <= size < 2 ^ 64 ->
  exists h0 h live, init b z u dt = Some h0 /\ run find (h0, []) os = Some (h, live) /\
  (exists r, first_fit h size = Some r /\ match r with
     | None => forall n, ~ fits h size n
     | Some n => fits h size n /\ exists l1 l2, frees h = l1 ++ n :: l2 /\ forall m, In m l1 -> ~ fits h size m end) /\
  (exists r, best_fit h size = Some r /\ match r with
     | None => forall n, ~ fits h size n
     | Some n => fits h size n /\ forall m, fits h size m -> size_of h n <= size_of h m end) /\
  (exists r, worst_fit h size = Some r /\ match r with
     | None => 0 < size -> forall n, ~ fits h size n
     | Some n => fits h size n /\ forall m, fits h size m -> size_of h m <= size_of h n end).
Proof.
  intros find b z u dt os size P Po A Hs. destruct (history find b z u dt os P Po A) as (h0 & h & live & cs & I & E & B & Z0 & (R & us & Pu & F)). exists h0, h, live. split; [exact I|]. split; [exact E|].
  destruct (rep_hdrs _ _ _ _ R) as [Hh Ha]. pose proof (rep_avail _ _ _ _ R) as (Av & _ & _). assert (Ha2 : Forall (fun n => size_of h n <= avail h) (frees h)) by (eapply Forall_impl; [|exact Ha]; cbn; lia). rewrite Forall_forall in Ha. split; [|split].
  - unfold first_fit. destruct (first_spec h size (frees h) Hh) as (r & -> & X). exists r. split; [reflexivity|]. destruct r as [n|]; [|rewrite Forall_forall in X; intros n [N1 N2]; specialize (X n N1); lia]. destruct X as (l1 & l2 & Ef & X1 & X2). split; [split; [rewrite Ef; apply in_or_app; right; left; reflexivity|exact X1]|]. exists l1, l2. split; [exact Ef|]. rewrite Forall_forall in X2. intros m M [_ M2]. specialize (X2 m M). lia.
  - unfold best_fit. destruct (best_spec h size (frees h) None (2 ^ 64 - 1) Hh) as (r & -> & X). exists r. split; [reflexivity|]. assert (Top : forall n, In n (frees h) -> size_of h n < 2 ^ 64 - 1). { intros n N. unfold hdrs in Hh. rewrite Forall_forall in Hh. destruct (Hh n N) as [_ N2]. unfold size_of. clear - N2. Z.div_mod_to_equations. lia. }
    destruct r as [n|].
    + destruct X as [(X1 & X2 & X3 & X4)|(X1 & _)]; [|discriminate]. split; [split; assumption|]. rewrite Forall_forall in X4. intros m [M1 M2]. exact (X4 m M1 M2).
    + destruct X as [_ X]. rewrite Forall_forall in X. intros n [N1 N2]. specialize (X n N1). specialize (Top n N1). lia.
  - unfold worst_fit. destruct (worst_spec h size (frees h) None 0 Hh Ha2 ltac:(lia)) as (r & -> & X). exists r. split; [reflexivity|]. destruct r as [n|].
    + destruct X as [(X1 & X2 & X3 & X4)|(X1 & _)]; [|discriminate]. split; [split; assumption|]. rewrite Forall_forall in X4. intros m [M1 M2]. exact (X4 m M1 M2).
    + destruct X as [_ X]. rewrite Forall_forall in X. intros S n [N1 N2]. specialize (X n N1). lia.
Qed.
(** the worst-fit policy misses a free chunk of size 0 for an empty request (a pool of 41 bytes) *)
Theorem C80_worst_refuted : exists b z h, pool b z /\ init b z (fun _ => 0) (fun _ => 0) = Some h /\ worst_fit h 0 = Some None /\ fits h 0 b.
Proof.
  destruct (init 4096 41 (fun _ => 0) (fun _ => 0)) as [h|] eqn:E; [|exfalso; revert E; vm_compute; discriminate]. exists 4096, 41, h. split; [unfold pool; lia|]. split; [exact E|]. injection E as <-. split; [vm_compute; reflexivity|]. split; [left; reflexivity|vm_compute; discriminate].
Qed.
(** ** A concrete history: blocks of 100, 50, 1 bytes; a byte stored; the first freed; the second grown in place and moved *)
Definition demo_ops : list op := [Malloc 100; Malloc 50; Malloc 1; Store 1 3 77; Free 2; Realloc 0 60; Realloc 1 200; Malloc 5000].
Example demo_sane : sane demo_ops /\ pool 4096 1024.
Proof. split; [|unfold pool; lia]. unfold demo_ops, sane. repeat (apply Forall_cons; [cbn [asked]; lia|]). apply Forall_nil. Qed.
Definition demo find := let* h := init 4096 1024 (fun _ => 0) (fun _ => 0) in run find (h, []) demo_ops.
Definition demo_view find := match demo find with Some (h, live) => Some (blocks h, frees h, map (fun x => (ptr x, req x, held x 3, dat h (ptr x + 3))) live) | None => None end.
Example demo_run : demo_view best_fit = Some ([4096; 4368; 4472; 4736], [4736; 4096], [(4408, 60, None, 0); (4512, 200, Some 77, 77)]).
Proof. vm_compute. reflexivity. Qed.
Print Assumptions C43_blocks.
Print Assumptions C43_align_refuted.
Print Assumptions C44_conserves.
Print Assumptions C45_huge_partial.
Print Assumptions C45_huge_refuted.
Print Assumptions C79_contents.
Print Assumptions C80_policies.
Print Assumptions C80_worst_refuted.
