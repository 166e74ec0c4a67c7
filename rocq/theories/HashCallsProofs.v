(** * Hash maps under any functions of the user's: proofs about the table *)
From Verif Require Import Lib BitsModel BloomModel BloomProps RespoolProps Ptr ListProofs SlistModel SlistSpec SlistProofs HashmapModel HashmapSpec HashmapProofs HashmapProps HashCallsModel HashCallsSpec.

Lemma never_zero_end orc tr c : orc tr c <> 0 -> forall cs, never_zero orc (c :: tr) cs -> never_zero orc tr (cs ++ [c]).
Proof.
  intros H. induction cs as [|d cs IH]; cbn [app never_zero]; [intros _; split; [exact H|exact I]|]. intros [H1 H2]. split; [rewrite <- app_assoc; exact H1|apply IH, H2].
Qed.
Section Map.
Variables (orc : list hcall -> hcall -> Z) (has_extend has_shrink : bool) (al : mem -> Z -> Z) (fuel : nat) (U : list Z).
Hypothesis AL : allocator al.
Hypothesis FU : (length U <= fuel)%nat.

(** ** Searching one bucket *)
Lemma search_o_ok m ask : forall l h n tr, hpath m h l -> (length l <= n)%nat ->
  (search_o orc n m ask (hd NULL l) tr = Some (NULL, map ask (rev l) ++ tr) /\ never_zero orc tr (map ask (rev l))) \/
  exists l1 r l2, l = l1 ++ r :: l2 /\ r <> NULL /\ search_o orc n m ask (hd NULL l) tr = Some (r, ask r :: map ask (rev l1) ++ tr) /\ never_zero orc tr (map ask (rev l1)) /\ orc (map ask (rev l1) ++ tr) (ask r) = 0.
Proof.
  induction l as [|x l IH]; intros h n tr H Hn; cbn [hd].
  - left. split; [destruct n; reflexivity|exact I].
  - cbn [hpath length] in *. destruct H as (_ & Nx & _ & H). destruct n as [|n]; [lia|]. cbn [search_o]. rewrite (proj2 (Z.eqb_neq _ _) Nx). destruct (Z.eqb_spec (orc tr (ask x)) 0) as [E0|E0].
    + right. exists [], x, l. split; [reflexivity|]. split; [exact Nx|]. split; [reflexivity|]. split; [exact I|exact E0].
    + assert (N : ld m x LINK = Some (hd NULL l)) by (apply hpath_rest in H; apply H). rewrite N.
      assert (R : forall k, map ask (rev (x :: k)) ++ tr = map ask (rev k) ++ ask x :: tr) by (intros k; cbn [rev]; rewrite map_app, <- app_assoc; reflexivity).
      destruct (IH x n (ask x :: tr) H ltac:(lia)) as [[E Z]|(l1 & r & l2 & -> & Nr & E & Z & Z0)].
      * left. rewrite R. split; [exact E|]. cbn [rev]. rewrite map_app. apply never_zero_end; assumption.
      * right. exists (x :: l1), r, l2. split; [reflexivity|]. split; [exact Nr|]. rewrite R. split; [exact E|]. split; [cbn [rev]; rewrite map_app; apply never_zero_end; assumption|exact Z0].
Qed.

(** ** Moving nodes *)
Lemma move_from_any nb bits h0 : 4 <= bits < 64 -> forall r n m R b tmp tr, let ncap := 2 ^ bits in
  lists m ((h0, r) :: R ++ table nb ncap b) -> (r <> [] -> tmp = hd NULL (tl r)) -> (length r <= n)%nat ->
  exists m' b', move_from_o orc n m nb ncap (hd NULL r) tmp tr = Some (m', map CHashNode (rev r) ++ tr) /\ lists m' ((h0, []) :: R ++ table nb ncap b') /\ Permutation (r ++ contents ncap b) (contents ncap b') /\ keeps m m'.
Proof.
  intros Hb. induction r as [|x r IH]; intros n m R b tmp tr ncap HL Ht Hn; cbn [hd].
  - exists m, b. split; [destruct n; reflexivity|]. split; [exact HL|]. split; [apply Permutation_refl|apply keeps_refl].
  - cbn [length] in Hn. destruct n as [|n]; [lia|]. specialize (Ht ltac:(discriminate)). cbn [tl] in Ht. destruct (lists_hd _ _ _ _ HL) as [Hx _].
    assert (Nx : x <> NULL) by (destruct Hx as [_ Hx]; cbn [hpath] in Hx; tauto). cbn [move_from_o]. rewrite (proj2 (Z.eqb_neq _ _) Nx).
    destruct (lists_del m h0 [] x r _ HL) as [(m1 & E1 & L1) _]. rewrite E1. cbn [app] in L1.
    assert (P2 : 2 <= ncap < 2 ^ 64) by (unfold ncap; split; [apply (Z.pow_le_mono_r 2 1); lia|apply Z.pow_lt_mono_r; lia]).
    destruct (C53_index ncap (orc tr (CHashNode x)) P2) as (i & Ei & Hi). unfold hashtbl_add. rewrite Ei.
    destruct (table_pull nb ncap b i Hi) as (Q & T & PT & PC & PS).
    assert (PA : Permutation ((h0, r) :: R ++ table nb ncap b) ((head_at nb i, b i) :: (h0, r) :: R ++ Q)).
    { eapply Permutation_trans; [apply perm_skip, Permutation_app_head, PT|]. eapply Permutation_trans; [apply perm_skip, Permutation_sym, Permutation_middle|]. apply perm_swap. }
    pose proof (lists_perm _ _ _ PA L1) as L2. destruct (hlist_node_in m h0 [] x r Hx) as [HA HB]. pose proof (keeps_hdel _ _ _ E1) as K1.
    assert (Nf : ~ In x (flat ((h0, r) :: R ++ table nb ncap b))) by (destruct HL as [D _]; apply (nodup_drop h0 [] x r (flat (R ++ table nb ncap b)) D)).
    destruct (lists_add m1 (head_at nb i) (b i) ((h0, r) :: R ++ Q) x L2) as (m2 & E2 & L3); [apply K1, HA|apply K1, HB|exact Nx|intros C; apply Nf; apply (Permutation_in _ (flat_perm _ _ (Permutation_sym PA))), C|].
    rewrite E2. destruct (PS (x :: b i)) as [PT' PC']. assert (L4 : lists m2 ((h0, r) :: R ++ table nb ncap (setb b i (x :: b i)))).
    { revert L3. apply lists_perm. eapply Permutation_trans; [apply perm_swap|]. apply perm_skip. eapply Permutation_trans; [apply Permutation_middle|]. apply Permutation_app_head, Permutation_sym, PT'. }
    assert (Ht' : exists tmp', (if tmp =? NULL then Some tmp else ld m2 tmp LINK) = Some tmp' /\ (r <> [] -> tmp' = hd NULL (tl r))).
    { rewrite Ht. destruct r as [|y r]; cbn [hd tl]; [exists NULL; split; [reflexivity|intros C; contradiction]|]. destruct (lists_hd _ _ _ _ L4) as [[_ Hy] _]. cbn [hpath] in Hy. destruct Hy as (_ & Ny & _ & Hy). rewrite (proj2 (Z.eqb_neq _ _) Ny). apply hpath_rest in Hy. destruct Hy as [Hy _]. exists (hd NULL r). split; [exact Hy|trivial]. }
    destruct Ht' as (tmp' & Et & Ht'). rewrite Et, Ht. destruct (IH n m2 R (setb b i (x :: b i)) tmp' (CHashNode x :: tr) L4 Ht' ltac:(lia)) as (m' & b' & E & L' & C' & K').
    exists m', b'. split; [cbn [rev]; rewrite map_app, <- app_assoc; exact E|]. split; [exact L'|]. split; [|apply (keeps_trans _ m1); [exact K1|]; apply (keeps_trans _ m2); [apply (keeps_hadd _ _ _ _ E2)|exact K']].
    eapply Permutation_trans; [|apply C']. eapply Permutation_trans; [|apply Permutation_app_head, Permutation_sym, PC']. cbn [app]. eapply Permutation_trans; [|apply Permutation_middle]. apply perm_skip, Permutation_app_head, PC.
Qed.
Lemma move_all_any h bits nb nbits b : 4 <= bits < 64 -> h_capacity h = 2 ^ bits -> 4 <= nbits < 64 -> forall n i m D c tr, let ncap := 2 ^ nbits in
  0 <= i -> i + Z.of_nat n = h_capacity h -> lists m (D ++ map (bucket (h_buckets h) b) (zseq i n) ++ table nb ncap c) -> (forall j, 0 <= j < h_capacity h -> (length (b j) <= fuel)%nat) ->
  exists m' c', move_all_o orc fuel n m h nb ncap i tr = Some (m', map CHashNode (rev (flat_map b (zseq i n))) ++ tr) /\ lists m' (table nb ncap c') /\ Permutation (flat_map b (zseq i n) ++ contents ncap c) (contents ncap c') /\ keeps m m'.
Proof.
  intros Hb Hc Hn. induction n as [|n IH]; intros i m D c tr ncap Hi Hs HL Hf.
  - exists m, c. split; [reflexivity|]. split; [apply lists_app in HL; apply HL|]. split; [apply Permutation_refl|apply keeps_refl].
  - cbn [move_all_o zseq map flat_map] in *. rewrite Hc, (idx_head_id (h_buckets h) bits i) by lia. set (base := h_buckets h) in *. set (h0 := head_at base i) in *.
    assert (L1 : lists m ((h0, b i) :: (D ++ map (bucket base b) (zseq (i + 1) n)) ++ table nb ncap c)).
    { revert HL. apply lists_perm. cbn [app]. rewrite <- app_assoc. apply Permutation_sym, Permutation_middle. }
    destruct (lists_hd _ _ _ _ L1) as [[_ Hx] _]. pose proof (proj1 (hpath_rest _ _ _) Hx) as [Hx1 Hx2]. unfold ld at 1. rewrite Hx1.
    assert (Ht : exists tmp, (if hd NULL (b i) =? NULL then Some 0 else ld m (hd NULL (b i)) LINK) = Some tmp /\ (b i <> [] -> tmp = hd NULL (tl (b i)))).
    { destruct (b i) as [|y r]; cbn [hd tl]; [exists 0; split; [reflexivity|intros C; contradiction]|]. cbn [hpath] in Hx. destruct Hx as (_ & Ny & _ & Hy). rewrite (proj2 (Z.eqb_neq _ _) Ny). apply hpath_rest in Hy. destruct Hy as [Hy _]. exists (hd NULL r). split; [exact Hy|trivial]. }
    destruct Ht as (tmp & Et & Ht). rewrite Et. destruct (move_from_any nb nbits h0 Hn (b i) fuel m _ c tmp tr L1 Ht (Hf i ltac:(lia))) as (m1 & c1 & E1 & L2 & C1 & K1). fold ncap in E1, L2, C1. rewrite E1.
    destruct (IH (i + 1) m1 ((h0, []) :: D) c1 (map CHashNode (rev (b i)) ++ tr)) as (m' & c' & E & L' & C' & K'); [lia|lia| |exact Hf|].
    { cbn [app]. rewrite app_assoc. exact L2. }
    exists m', c'. split; [rewrite rev_app_distr, map_app, <- app_assoc; exact E|]. split; [exact L'|]. split; [|apply (keeps_trans _ m1); assumption]. eapply Permutation_trans; [|apply C']. eapply Permutation_trans; [|apply Permutation_app_head, C1]. rewrite <- app_assoc. rewrite !app_assoc. apply Permutation_app_tail, Permutation_app_comm.
Qed.

(** ** The invariant: every node is in exactly one bucket, whichever *)
Definition any_inv (m : mem) (h : hmap) (s : list Z) : Prop :=
  nodes_exist m U /\ incl s U /\ h_used h = w64 (zlen s) /\ shape h /\ (forall q, in_array (h_buckets h) (h_capacity h) q = true -> ~ In q U) /\
  exists b, lists m (table (h_buckets h) (h_capacity h) b) /\ Permutation s (contents (h_capacity h) b).
Lemma bucket_len_any m h s b i : any_inv m h s -> lists m (table (h_buckets h) (h_capacity h) b) -> Permutation s (contents (h_capacity h) b) -> 0 <= i < h_capacity h -> (length (b i) <= fuel)%nat.
Proof.
  intros (_ & IS & _) HL HP Hi. destruct (hlist_in fuel U FU _ _ _ _ _ HL Hi) as [D _]. apply NoDup_cons_iff in D. eapply Nat.le_trans; [|exact FU]. apply NoDup_incl_length; [apply D|]. intros x Hx. apply IS, (Permutation_in _ (Permutation_sym HP)), in_contents. exists i. split; assumption.
Qed.
Lemma rehash_any m h s nbits tr : any_inv m h s -> 4 <= nbits <= 61 ->
  (rehash_o orc al fuel m h nbits tr = Some (m, h, - ENOMEM, tr) /\ (nbits = 61 \/ al m (8 * 2 ^ nbits) = NULL)) \/
  exists m' h' q, rehash_o orc al fuel m h nbits tr = Some (m', h', 0, map CHashNode q ++ tr) /\ Permutation s q /\ any_inv m' h' s /\ h_bits h' = nbits /\ h_capacity h' <> 0.
Proof.
  intros HI Hn. pose proof HI as (NE & IS & HU & SH & HD & b & HL & HC). unfold rehash_o. rewrite (proj2 (Z.leb_gt _ _)) by lia. set (ncap := 2 ^ nbits).
  destruct (Z.eq_dec nbits 61) as [->|N61]; [left; split; [reflexivity|left; reflexivity]|].
  assert (Pn : 16 <= ncap <= 2 ^ 60) by (unfold ncap; split; [apply (Z.pow_le_mono_r 2 4); lia|apply Z.pow_le_mono_r; lia]).
  assert (Es : w64 (8 * ncap) = 8 * ncap) by (unfold w64; apply Z.mod_small; lia). rewrite Es. rewrite (proj2 (Z.eqb_neq (8 * ncap) 0)) by lia. set (nb := al m (8 * ncap)).
  destruct (Z.eqb_spec nb NULL) as [E0|N0]; [left; split; [reflexivity|right; exact E0]|]. right.
  destruct (AL m (8 * ncap)) as [C|FR]; [contradiction|]. fold nb in FR. replace (8 * ncap / 8) with ncap in FR by (rewrite Z.mul_comm, Z.div_mul; lia).
  set (base := h_buckets h) in *. set (cap := h_capacity h) in *. set (m1 := alloc_array m nb ncap).
  destruct (hashtbl_init_ok (Z.to_nat ncap) m1 nb 0) as (m2 & E2 & Z2 & F2).
  { intros j Hj. red. unfold m1, alloc_array. rewrite (proj2 (in_array_head nb ncap (head_at nb j))) by (exists j; split; [lia|reflexivity]). eexists. reflexivity. }
  rewrite E2. set (S := map (head_at nb) (zseq 0 (Z.to_nat ncap))).
  assert (InS : forall q, In q S <-> in_array nb ncap q = true).
  { intros q. unfold S. rewrite in_map_iff, in_array_head. split; [intros (j & <- & Hj); apply zseq_in in Hj; exists j; split; [lia|reflexivity]|intros (j & Hj & ->); exists j; split; [reflexivity|apply zseq_in; lia]]. }
  assert (O2 : only S m m2).
  { intros q g Hq. rewrite F2; [unfold m1, alloc_array; destruct (in_array nb ncap q) eqn:E; [exfalso; apply Hq, InS, E|reflexivity]|]. left. intros j Hj C. apply Hq, InS, in_array_head. exists j. split; [lia|exact C]. }
  assert (Hold : forall x, In x (flat (table base cap b)) -> ~ In x S).
  { intros x Hx C. apply InS in C. destruct (lists_has _ _ _ HL Hx) as [v Hv]. destruct (FR x C) as [_ G]. congruence. }
  assert (L2 : lists m2 (table base cap b ++ table nb ncap (fun _ => []))).
  { split.
    - rewrite flat_app. unfold table at 2. rewrite flat_nils. fold S. apply NoDup_app_intro; [apply HL|apply nodup_heads|exact Hold].
    - apply Forall_app. split; [apply (lists_only m m2 S _ O2 Hold HL)|]. rewrite Forall_forall. intros p Hp. apply in_map_iff in Hp. destruct Hp as (j & <- & Hj). apply zseq_in in Hj. cbn [bucket fst snd]. split; [constructor; [intros []|constructor]|]. cbn [hpath]. apply Z2. lia. }
  assert (US : forall x, In x U -> ~ In x S).
  { intros x Hx C. apply InS in C. destruct NE as (_ & _ & NE). destruct (NE x Hx) as [[v Hv] _]. destruct (FR x C) as [_ G]. congruence. }
  assert (NE2 : nodes_exist m2 U).
  { destruct NE as (D & N & NE). split; [exact D|]. split; [exact N|]. intros x Hx. rewrite !(O2 x) by (apply US, Hx). apply NE, Hx. }
  assert (G : exists m3 c q, move_all_o orc fuel (Z.to_nat cap) m2 h nb ncap 0 tr = Some (m3, map CHashNode q ++ tr) /\ Permutation s q /\ lists m3 (table nb ncap c) /\ Permutation (contents cap b) (contents ncap c) /\ keeps m2 m3).
  { destruct SH as [(Ec & _)|(Hb & Ec & _)].
    - exists m2, (fun _ => []), []. fold cap in Ec. rewrite Ec in HC |- *. split; [reflexivity|]. split; [exact HC|]. split; [apply lists_app in L2; apply L2|]. split; [rewrite contents_nil; apply Permutation_refl|apply keeps_refl].
    - destruct (move_all_any h (h_bits h) nb nbits b ltac:(lia) Ec ltac:(lia) (Z.to_nat cap) 0 m2 [] (fun _ => []) tr) as (m3 & c & E & L & C & K); [lia|fold cap in Ec |- *; pose proof (Z.pow_pos_nonneg 2 (h_bits h)); lia|exact L2|intros j Hj; apply (bucket_len_any m h s b j HI HL HC Hj)|].
      exists m3, c, (rev (contents cap b)). split; [exact E|]. split; [apply (Permutation_trans HC), Permutation_rev|]. split; [exact L|]. split; [|exact K]. fold ncap in C. rewrite contents_nil, app_nil_r in C. exact C. }
  destruct G as (m3 & c & q & E3 & PQ & L3 & C3 & K3). rewrite E3. eexists _, _, q. split; [reflexivity|]. split; [exact PQ|]. split; [|split; [reflexivity|cbn [h_capacity]; lia]].
  assert (O4 : only (map (head_at base) (zseq 0 (Z.to_nat cap))) m3 (free_array m3 base cap)).
  { intros x g Hq. unfold free_array. destruct (in_array base cap x) eqn:E; [|rewrite andb_false_r; reflexivity]. exfalso. apply Hq. apply in_array_head in E. destruct E as (j & Hj & ->). apply in_map, zseq_in. lia. }
  assert (InB : forall x, In x (map (head_at base) (zseq 0 (Z.to_nat cap))) -> exists j, 0 <= j < cap /\ x = head_at base j).
  { intros x Hq. apply in_map_iff in Hq. destruct Hq as (j & <- & Hj). apply zseq_in in Hj. exists j. split; [lia|reflexivity]. }
  assert (UB : forall x, In x U -> ~ In x (map (head_at base) (zseq 0 (Z.to_nat cap)))).
  { intros x Hx C. apply InB, in_array_head in C. apply (HD x C Hx). }
  split.
  { apply (nodes_keeps U m2 m3 K3) in NE2. destruct NE2 as (D & N & NE2). split; [exact D|]. split; [exact N|]. intros x Hx. rewrite !(O4 x) by (apply UB, Hx). apply NE2, Hx. }
  split; [exact IS|]. cbn [h_used h_bits h_capacity h_buckets]. split; [exact HU|]. split; [right; split; [cbn [h_bits]; lia|split; [reflexivity|exact N0]]|]. split; [intros x Hq C; apply (US x C), InS, Hq|].
  exists c. split; [|apply (Permutation_trans HC C3)]. apply (lists_only m3 _ _ _ O4); [|exact L3]. intros x Hx C. apply flat_table in Hx. destruct Hx as [Hx|Hx].
  - apply InB in C. assert (Hb : In x (flat (table base cap b))) by (apply flat_table; left; exact C). apply (Hold x Hb), InS, in_array_head, Hx.
  - revert C. apply UB, IS, (Permutation_in _ (Permutation_sym HC)), (Permutation_in _ (Permutation_sym C3)), Hx.
Qed.

(** ** Searching *)
Lemma nodup_any m h s : any_inv m h s -> NoDup s.
Proof.
  intros (_ & _ & _ & _ & _ & b & HL & HC). apply (Permutation_NoDup (Permutation_sym HC)). clear HC. unfold contents. destruct HL as [D _]. revert D. unfold table, flat. generalize (zseq 0 (Z.to_nat (h_capacity h))). induction l as [|i l IH]; cbn [map flat_map]; intros D; [constructor|].
  change (NoDup ((head_at (h_buckets h) i :: b i) ++ flat_map (fun p => fst p :: snd p) (map (bucket (h_buckets h) b) l))) in D.
  apply NoDup_app_intro; [apply nodup_l, NoDup_cons_iff in D; apply D|apply IH, (nodup_r _ _ D)|]. intros x Hx C. apply (nodup_disj _ _ D x); [right; exact Hx|]. apply in_flat_map in C. destruct C as (j & Hj & Hxj). apply in_flat_map. exists (bucket (h_buckets h) b j). split; [apply in_map, Hj|right; exact Hxj].
Qed.
Lemma find_in_any m h s ask hash tr : any_inv m h s ->
  (exists p, find_in_o orc fuel m h ask hash tr = Some (NULL, map ask p ++ tr) /\ all_other orc ask tr p s) \/
  exists e p, e <> NULL /\ find_in_o orc fuel m h ask hash tr = Some (e, ask e :: map ask p ++ tr) /\ met orc ask tr e p s.
Proof.
  intros HI. pose proof HI as (NE & IS & HU & SH & HD & b & HL & HC). unfold find_in_o. destruct SH as [(Ec & Eb & _)|(Hb & Ec & Eb)].
  - rewrite Eb, Z.eqb_refl. left. exists []. split; [reflexivity|]. split; [split; [constructor|intros x []]|exact I].
  - rewrite (proj2 (Z.eqb_neq _ _) Eb). assert (P2 : 2 <= h_capacity h < 2 ^ 64) by (rewrite Ec; split; [apply (Z.pow_le_mono_r 2 1); lia|apply Z.pow_lt_mono_r; lia]). destruct (C53_index (h_capacity h) hash P2) as (i & Ei & Hi). rewrite Ei.
    assert (Eh : idx_head (h_buckets h) (h_capacity h) i = head_at (h_buckets h) i) by (rewrite Ec; apply idx_head_id; lia). rewrite Eh.
    destruct (hlist_in fuel U FU _ _ _ _ _ HL Hi) as [Dh Hh]. unfold ld. rewrite (proj1 (proj1 (hpath_rest _ _ _) Hh)). assert (IB : incl (b i) s) by (intros x Hx; apply (Permutation_in _ (Permutation_sym HC)), in_contents; exists i; split; assumption). apply NoDup_cons_iff in Dh. destruct Dh as [_ Dh].
    destruct (search_o_ok m ask (b i) _ fuel tr Hh (bucket_len_any m h s b i HI HL HC Hi)) as [[E Z]|(l1 & r & l2 & El & Nr & E & Z & Z0)].
    + left. exists (rev (b i)). split; [exact E|]. split; [split; [apply NoDup_rev, Dh|intros x Hx; apply IB, in_rev, Hx]|exact Z].
    + right. exists r, (rev l1). split; [exact Nr|]. split; [exact E|]. rewrite El in Dh, IB. split; [split|split; assumption].
      * apply (Permutation_NoDup (l := l1 ++ [r])); [eapply Permutation_trans; [apply Permutation_app_comm|]; apply perm_skip, Permutation_rev|]. change (r :: l2) with ([r] ++ l2) in Dh. rewrite app_assoc in Dh. apply nodup_l in Dh. exact Dh.
      * intros x [<-|Hx]; apply IB, in_or_app; [right; left; reflexivity|left; apply in_rev, Hx].
Qed.

(** ** Changes *)
Lemma bucket_of_any m h s x : any_inv m h s -> In x s -> exists b i l1 l2 Q T, 0 <= i < h_capacity h /\ b i = l1 ++ x :: l2 /\ lists m ((head_at (h_buckets h) i, b i) :: Q) /\
  Permutation s ((l1 ++ x :: l2) ++ T) /\ (forall y, In y (flat ((head_at (h_buckets h) i, b i) :: Q)) -> in_array (h_buckets h) (h_capacity h) y = true \/ In y s) /\
  forall l, Permutation (table (h_buckets h) (h_capacity h) (setb b i l)) ((head_at (h_buckets h) i, l) :: Q) /\ Permutation (contents (h_capacity h) (setb b i l)) (l ++ T).
Proof.
  intros (NE & IS & HU & SH & HD & b & HL & HC) Hx. pose proof Hx as Hx'. apply (Permutation_in _ HC), in_contents in Hx'. destruct Hx' as (i & Hi & Hb). apply in_split in Hb. destruct Hb as (l1 & l2 & El). destruct (table_pull (h_buckets h) (h_capacity h) b i Hi) as (Q & T & PT & PC & PS).
  exists b, i, l1, l2, Q, T. split; [exact Hi|]. split; [exact El|]. split; [apply (lists_perm _ _ _ PT HL)|]. split; [rewrite <- El; apply (Permutation_trans HC PC)|]. split; [|exact PS].
  intros y Hy. apply (Permutation_in _ (flat_perm _ _ (Permutation_sym PT))), flat_table in Hy. destruct Hy as [Hy|Hy]; [left; apply in_array_head, Hy|right; apply (Permutation_in _ (Permutation_sym HC)), Hy].
Qed.
Lemma replace_any m h s e n s' : any_inv m h s -> Permutation s (e :: s') -> In n U -> ~ In n s -> exists m', hlist_replace m e n = Some m' /\ any_inv m' h (n :: s').
Proof.
  intros HI PE Hn Ns. assert (He : In e s) by (apply (Permutation_in _ (Permutation_sym PE)); left; reflexivity). destruct (bucket_of_any m h s e HI He) as (b & i & l1 & l2 & Q & T & Hi & El & L1 & PS & FL & PQ).
  pose proof HI as (NE & IS & HU & SH & HD & _). pose proof NE as (_ & Nz & NF). destruct (NF n Hn) as [F1 F2]. rewrite El in L1. destruct (lists_replace m _ l1 e l2 n Q L1 F1 F2) as (m' & E & L2).
  - intros ->. contradiction.
  - intros C. rewrite <- El in C. destruct (FL n C) as [G|G]; [apply (HD n G Hn)|contradiction].
  - exists m'. split; [exact E|]. assert (PN : Permutation s' (l1 ++ l2 ++ T)).
    { apply (Permutation_cons_inv (a := e)). eapply Permutation_trans; [apply Permutation_sym, PE|]. eapply Permutation_trans; [exact PS|]. rewrite <- app_assoc. apply Permutation_sym, Permutation_middle. }
    split; [apply (nodes_keeps U m m' (keeps_hrep _ _ _ _ E)), NE|]. split; [intros x [<-|Hx]; [exact Hn|apply IS, (Permutation_in _ (Permutation_sym PE)); right; exact Hx]|]. split; [rewrite HU; unfold zlen; rewrite (Permutation_length PE); reflexivity|]. split; [exact SH|]. split; [exact HD|].
    destruct (PQ (l1 ++ n :: l2)) as [P1 P2]. exists (setb b i (l1 ++ n :: l2)). split; [apply (lists_perm _ _ _ (Permutation_sym P1)), L2|].
    eapply Permutation_trans; [|apply Permutation_sym, P2]. eapply Permutation_trans; [apply perm_skip, PN|]. rewrite <- app_assoc. apply Permutation_middle.
Qed.
Lemma remove_any m h s e s' : any_inv m h s -> Permutation s (e :: s') -> exists m', hashtbl_del m e = Some m' /\
  any_inv m' {| h_buckets := h_buckets h; h_bits := h_bits h; h_capacity := h_capacity h; h_used := w64 (h_used h - 1) |} s'.
Proof.
  intros HI PE. assert (He : In e s) by (apply (Permutation_in _ (Permutation_sym PE)); left; reflexivity). destruct (bucket_of_any m h s e HI He) as (b & i & l1 & l2 & Q & T & Hi & El & L1 & PS & FL & PQ).
  pose proof HI as (NE & IS & HU & SH & HD & _). rewrite El in L1. destruct (lists_del m _ l1 e l2 Q L1) as [_ (m' & E & L2)]. exists m'. split; [exact E|].
  assert (PN : Permutation s' (l1 ++ l2 ++ T)).
  { apply (Permutation_cons_inv (a := e)). eapply Permutation_trans; [apply Permutation_sym, PE|]. eapply Permutation_trans; [exact PS|]. rewrite <- app_assoc. apply Permutation_sym, Permutation_middle. }
  split; [apply (nodes_keeps U m m' (keeps_hdeli _ _ _ E)), NE|]. split; [intros x Hx; apply IS, (Permutation_in _ (Permutation_sym PE)); right; exact Hx|].
  split; [cbn [h_used]; rewrite HU; unfold zlen; rewrite (Permutation_length PE); cbn [length]; unfold w64; rewrite Zminus_mod_idemp_l; f_equal; lia|]. split; [exact SH|]. split; [exact HD|]. cbn [h_buckets h_capacity].
  destruct (PQ (l1 ++ l2)) as [P1 P2]. exists (setb b i (l1 ++ l2)). split; [apply (lists_perm _ _ _ (Permutation_sym P1)), L2|].
  eapply Permutation_trans; [|apply Permutation_sym, P2]. rewrite <- app_assoc. exact PN.
Qed.
Lemma put_any m h s n value tr : any_inv m h s -> h_capacity h <> 0 -> In n U -> ~ In n s -> exists m' h', put_o m h n value tr = Some (m', h', 0, tr) /\ any_inv m' h' (n :: s).
Proof.
  intros HI Hc Hn Ns. pose proof HI as (NE & IS & HU & SH & HD & b & HL & HC). destruct SH as [(C & _)|SH']; [contradiction|]. pose proof SH' as (Hb & Ec & Eb).
  assert (P2 : 2 <= h_capacity h < 2 ^ 64) by (rewrite Ec; split; [apply (Z.pow_le_mono_r 2 1); lia|apply Z.pow_lt_mono_r; lia]). destruct (C53_index (h_capacity h) value P2) as (i & Ei & Hi). unfold put_o, hashtbl_add. rewrite Ei.
  destruct (table_pull (h_buckets h) (h_capacity h) b i Hi) as (Q & T & PT & PC & PS). pose proof NE as (_ & Nz & NF). destruct (NF n Hn) as [F1 F2].
  destruct (lists_add m (head_at (h_buckets h) i) (b i) Q n (lists_perm _ _ _ PT HL) F1 F2) as (m' & E & L').
  - intros ->. contradiction.
  - intros C. apply (Permutation_in _ (flat_perm _ _ (Permutation_sym PT))), flat_table in C. destruct C as [C|C]; [apply in_array_head in C; apply (HD n C Hn)|]. apply Ns, (Permutation_in _ (Permutation_sym HC)), C.
  - rewrite E. eexists m', _. split; [reflexivity|]. split; [apply (nodes_keeps U m m' (keeps_hadd _ _ _ _ E)), NE|]. split; [intros x [<-|Hx]; [exact Hn|apply IS, Hx]|]. split; [cbn [h_used]; rewrite HU; unfold zlen; cbn [length]; unfold w64; rewrite Zplus_mod_idemp_l; f_equal; lia|]. split; [right; exact SH'|]. split; [exact HD|]. cbn [h_buckets h_capacity].
    destruct (PS (n :: b i)) as [P1 P3]. exists (setb b i (n :: b i)). split; [apply (lists_perm _ _ _ (Permutation_sym P1)), L'|].
    eapply Permutation_trans; [|apply Permutation_sym, P3]. cbn [app]. apply perm_skip. apply (Permutation_trans HC PC).
Qed.
Lemma visit_any m h s b : any_inv m h s -> lists m (table (h_buckets h) (h_capacity h) b) -> Permutation s (contents (h_capacity h) b) -> forall n i, 0 <= i -> i + Z.of_nat n = h_capacity h -> visit_all fuel n m h i = Some (flat_map b (zseq i n)).
Proof.
  intros HI HL HC. induction n as [|n IH]; intros i Hi Hs; [reflexivity|]. cbn [visit_all zseq flat_map]. pose proof HI as (_ & _ & _ & SH & _). destruct SH as [(C & _)|(Hb & Ec & _)]; [lia|]. assert (Eh : idx_head (h_buckets h) (h_capacity h) i = head_at (h_buckets h) i) by (rewrite Ec; apply idx_head_id; lia). rewrite Eh. assert (Hi' : 0 <= i < h_capacity h) by lia.
  rewrite (slist_each m _ (b i) fuel (hlist_slist _ _ _ (hlist_in fuel U FU _ _ _ _ _ HL Hi'))) by (apply (bucket_len_any m h s b i HI HL HC); lia). rewrite IH by lia. reflexivity.
Qed.
Lemma insert_new_any m h s n value tr : any_inv m h s -> In n U -> ~ In n s ->
  (exists g, insert_new_o orc has_extend al fuel m h n value tr = Some (m, h, - ENOMEM, g ++ tr) /\ refused al m h /\ not_grown orc tr s g) \/
  exists m' h' g, insert_new_o orc has_extend al fuel m h n value tr = Some (m', h', 0, g ++ tr) /\ any_inv m' h' (n :: s) /\ grown orc tr s n g.
Proof.
  intros HI Hn Ns. unfold insert_new_o. pose proof HI as (_ & _ & HU & SH & _).
  assert (Eb : (if w32 (h_bits h + 1) <? MIN_BITS then MIN_BITS else w32 (h_bits h + 1)) = Z.max 4 (h_bits h + 1)).
  { assert (Hb : 0 <= h_bits h <= 60) by (destruct SH as [(_ & _ & ->)|(Hb & _)]; lia). unfold w32, MIN_BITS. rewrite Z.mod_small by lia. destruct (Z.ltb_spec (h_bits h + 1) 4); lia. }
  assert (Hr : 4 <= Z.max 4 (h_bits h + 1) <= 61) by (destruct SH as [(_ & _ & ->)|(Hb & _)]; lia).
  assert (GO : forall tr0, (hm_extend_o orc al fuel m h tr0 = Some (m, h, - ENOMEM, tr0) /\ refused al m h) \/
    exists m1 h1 q, hm_extend_o orc al fuel m h tr0 = Some (m1, h1, 0, map CHashNode q ++ tr0) /\ Permutation s q /\ any_inv m1 h1 s /\ h_capacity h1 <> 0).
  { intros tr0. unfold hm_extend_o. rewrite Eb. destruct (rehash_any m h s _ tr0 HI Hr) as [[E R]|(m1 & h1 & q & E & PQ & HI1 & _ & Hc)]; rewrite E; [left; split; [reflexivity|exact R]|right; exists m1, h1, q; auto]. }
  unfold need_extend_o. destruct (Z.eqb_spec (h_capacity h) 0) as [E0|N0]; [|destruct has_extend].
  - destruct (GO tr) as [[E R]|(m1 & h1 & q & E & PQ & HI1 & Hc)]; rewrite E.
    + left. exists []. split; [reflexivity|]. split; [exact R|constructor].
    + right. cbn [negb Z.eqb]. destruct (put_any m1 h1 s n (orc (map CHashNode q ++ tr) (CHashNode n)) (CHashNode n :: map CHashNode q ++ tr) HI1 Hc Hn Ns) as (m2 & h2 & E2 & HI2). rewrite E2.
      exists m2, h2, (CHashNode n :: map CHashNode q). split; [reflexivity|]. split; [exact HI2|]. apply grown_self, PQ.
  - destruct (Z.eqb_spec (orc tr (CExtend h)) 0) as [EX|EX]; cbn [negb].
    + right. destruct (put_any m h s n value (CExtend h :: tr) HI N0 Hn Ns) as (m2 & h2 & E2 & HI2). rewrite E2. exists m2, h2, [CExtend h]. split; [reflexivity|]. split; [exact HI2|]. apply grown_refused; assumption.
    + destruct (GO (CExtend h :: tr)) as [[E R]|(m1 & h1 & q & E & PQ & HI1 & Hc)]; rewrite E.
      * left. exists [CExtend h]. split; [reflexivity|]. split; [exact R|]. apply not_grown_asked; assumption.
      * right. cbn [negb Z.eqb]. destruct (put_any m1 h1 s n (orc (map CHashNode q ++ CExtend h :: tr) (CHashNode n)) (CHashNode n :: map CHashNode q ++ CExtend h :: tr) HI1 Hc Hn Ns) as (m2 & h2 & E2 & HI2). rewrite E2.
        exists m2, h2, (CHashNode n :: map CHashNode q ++ [CExtend h]). split; [cbn [app]; rewrite <- app_assoc; reflexivity|]. split; [exact HI2|]. apply grown_asked; assumption.
  - destruct (w64 (h_used h * 4) / 3 >? h_capacity h).
    + destruct (GO tr) as [[E R]|(m1 & h1 & q & E & PQ & HI1 & Hc)]; rewrite E.
      * left. exists []. split; [reflexivity|]. split; [exact R|constructor].
      * right. cbn [negb Z.eqb]. destruct (put_any m1 h1 s n (orc (map CHashNode q ++ tr) (CHashNode n)) (CHashNode n :: map CHashNode q ++ tr) HI1 Hc Hn Ns) as (m2 & h2 & E2 & HI2). rewrite E2.
        exists m2, h2, (CHashNode n :: map CHashNode q). split; [reflexivity|]. split; [exact HI2|]. apply grown_self, PQ.
    + right. destruct (put_any m h s n value tr HI N0 Hn Ns) as (m2 & h2 & E2 & HI2). rewrite E2. exists m2, h2, []. split; [reflexivity|]. split; [exact HI2|]. constructor.
Qed.
Lemma shrink_any m h s tr : any_inv m h s -> h_capacity h <> 0 -> exists m' h' z g,
  (let (need, tr) := need_shrink_o orc has_shrink h tr in if need then hm_shrink_o orc al fuel m h tr else Some (m, h, 0, tr)) = Some (m', h', z, g ++ tr) /\ any_inv m' h' s /\ shrunk orc tr s g.
Proof.
  intros HI N0. pose proof HI as (_ & _ & HU & SH & _).
  assert (Hr : 4 <= (if w32 (h_bits h - 1) <? MIN_BITS then MIN_BITS else w32 (h_bits h - 1)) <= 61).
  { unfold MIN_BITS. destruct SH as [(Ec & _)|(Hb & _)]; [contradiction|]. assert (Ew : w32 (h_bits h - 1) = h_bits h - 1) by (unfold w32; apply Z.mod_small; lia). rewrite Ew. destruct (Z.ltb_spec (h_bits h - 1) 4); lia. }
  unfold need_shrink_o. destruct has_shrink.
  - destruct (Z.eqb_spec (orc tr (CShrink h)) 0) as [EX|EX]; cbn [negb]; [exists m, h, 0, [CShrink h]; split; [reflexivity|]; split; [exact HI|]; apply shrunk_asked, HU|].
    unfold hm_shrink_o. destruct (rehash_any m h s _ (CShrink h :: tr) HI Hr) as [[E _]|(m1 & h1 & q & E & PQ & HI1 & _)]; rewrite E.
    + exists m, h, (- ENOMEM), [CShrink h]. split; [reflexivity|]. split; [exact HI|]. apply shrunk_asked, HU.
    + exists m1, h1, 0, (map CHashNode q ++ [CShrink h]). split; [rewrite <- app_assoc; reflexivity|]. split; [exact HI1|]. apply shrunk_yes; assumption.
  - destruct (w64 (h_used h * 4) <? h_capacity h); [|exists m, h, 0, []; split; [reflexivity|]; split; [exact HI|]; constructor].
    unfold hm_shrink_o. destruct (rehash_any m h s _ tr HI Hr) as [[E _]|(m1 & h1 & q & E & PQ & HI1 & _)]; rewrite E.
    + exists m, h, (- ENOMEM), []. split; [reflexivity|]. split; [exact HI|]. constructor.
    + exists m1, h1, 0, (map CHashNode q). split; [reflexivity|]. split; [exact HI1|]. apply shrunk_self, PQ.
Qed.
End Map.
