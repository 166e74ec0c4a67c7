(** * Hash maps: proofs *)
From Verif Require Import Lib BitsModel BloomModel BloomProps RespoolProps Ptr ListProofs SlistModel SlistSpec SlistProofs HashmapModel HashmapSpec HashmapProofs.

Lemma lists_only m m' S L : only S m m' -> (forall x, In x (flat L) -> ~ In x S) -> lists m L -> lists m' L.
Proof.
  intros O N [D F]. split; [exact D|]. rewrite Forall_forall in *. intros p Hp. apply (hlist_other m m' _ _ S O); [|apply F, Hp]. intros x Hx. apply N, (in_flat L p x Hp Hx).
Qed.
Lemma lists_has m L x : lists m L -> In x (flat L) -> has m x LINK.
Proof.
  intros [_ F] H. apply in_flat_map in H. destruct H as ([h l] & Hp & Hx). rewrite Forall_forall in F. specialize (F _ Hp). cbn [fst snd] in *. destruct Hx as [<-|Hx].
  - destruct F as [_ F]. apply hpath_rest in F. destruct F as [F _]. eexists. exact F.
  - apply in_split in Hx. destruct Hx as (l1 & l2 & ->). apply (hlist_node_in _ _ _ _ _ F).
Qed.
Lemma NoDup_app_intro (a b : list Z) : NoDup a -> NoDup b -> (forall x, In x a -> ~ In x b) -> NoDup (a ++ b).
Proof. induction a as [|x a IH]; intros Ha Hb D; [exact Hb|]. apply NoDup_cons_iff in Ha. cbn [app]. constructor; [intros C; apply in_app_iff in C; destruct C as [C|C]; [tauto|apply (D x); [left; reflexivity|exact C]]|]. apply IH; [apply Ha|exact Hb|]. intros y Hy. apply D. right. exact Hy. Qed.
Lemma flat_nils base l : flat (map (bucket base (fun _ => [])) l) = map (head_at base) l.
Proof. induction l as [|i l IH]; [reflexivity|]. cbn. f_equal. exact IH. Qed.
Lemma nodup_heads base : forall n a, NoDup (map (head_at base) (zseq a n)).
Proof.
  induction n as [|n IH]; intros a; cbn [zseq map]; [constructor|]. constructor; [|apply IH]. intros C. apply in_map_iff in C. destruct C as (j & E & Hj). apply zseq_in in Hj. unfold head_at in E. lia.
Qed.
Lemma contents_nil cap : contents cap (fun _ => []) = [].
Proof. unfold contents. generalize (zseq 0 (Z.to_nat cap)). induction l as [|i l IH]; [reflexivity|exact IH]. Qed.

Section Map.
Variables (ops : hops) (key : Z -> Z) (al : mem -> Z -> Z) (fuel : nat) (U : list Z).
Hypothesis LAW : lawful ops key.
Hypothesis AL : allocator al.
Hypothesis FU : (length U <= fuel)%nat.
Definition placed (cap : Z) (b : Z -> list Z) : Prop := forall i x, 0 <= i < cap -> In x (b i) -> hashtbl_index cap (hash_node ops x) = Some i.
Lemma placed_set cap b i l : placed cap b -> (forall x, In x l -> In x (b i) \/ hashtbl_index cap (hash_node ops x) = Some i) -> placed cap (setb b i l).
Proof. intros P H j x Hj Hx. unfold setb in Hx. destruct (Z.eqb_spec j i) as [->|N]; [destruct (H x Hx) as [C|C]; [apply P; assumption|exact C]|apply P; assumption]. Qed.

Lemma move_from_ok nb bits h0 : 4 <= bits < 64 -> forall r n m R b tmp, let ncap := 2 ^ bits in
  lists m ((h0, r) :: R ++ table nb ncap b) -> placed ncap b -> (r <> [] -> tmp = hd NULL (tl r)) -> (length r <= n)%nat ->
  exists m' b', move_from ops n m nb ncap (hd NULL r) tmp = Some m' /\ lists m' ((h0, []) :: R ++ table nb ncap b') /\ placed ncap b' /\ Permutation (r ++ contents ncap b) (contents ncap b') /\ keeps m m'.
Proof.
  intros Hb. induction r as [|x r IH]; intros n m R b tmp ncap HL HP Ht Hn; cbn [hd].
  - exists m, b. split; [destruct n; reflexivity|]. split; [exact HL|]. split; [exact HP|]. split; [apply Permutation_refl|apply keeps_refl].
  - cbn [length] in Hn. destruct n as [|n]; [lia|]. specialize (Ht ltac:(discriminate)). cbn [tl] in Ht. destruct (lists_hd _ _ _ _ HL) as [Hx _].
    assert (Nx : x <> NULL) by (destruct Hx as [_ Hx]; cbn [hpath] in Hx; tauto). cbn [move_from]. rewrite (proj2 (Z.eqb_neq _ _) Nx).
    destruct (lists_del m h0 [] x r _ HL) as [(m1 & E1 & L1) _]. rewrite E1. cbn [app] in L1.
    assert (P2 : 2 <= ncap < 2 ^ 64) by (unfold ncap; split; [apply (Z.pow_le_mono_r 2 1); lia|apply Z.pow_lt_mono_r; lia]).
    destruct (C53_index ncap (hash_node ops x) P2) as (i & Ei & Hi). unfold hashtbl_add. rewrite Ei.
    destruct (table_pull nb ncap b i Hi) as (Q & T & PT & PC & PS).
    assert (PA : Permutation ((h0, r) :: R ++ table nb ncap b) ((head_at nb i, b i) :: (h0, r) :: R ++ Q)).
    { eapply Permutation_trans; [apply perm_skip, Permutation_app_head, PT|]. eapply Permutation_trans; [apply perm_skip, Permutation_sym, Permutation_middle|]. apply perm_swap. }
    pose proof (lists_perm _ _ _ PA L1) as L2. destruct (hlist_node_in m h0 [] x r Hx) as [HA HB]. pose proof (keeps_hdel _ _ _ E1) as K1.
    assert (Nf : ~ In x (flat ((h0, r) :: R ++ table nb ncap b))) by (destruct HL as [D _]; apply (nodup_drop h0 [] x r (flat (R ++ table nb ncap b)) D)).
    destruct (lists_add m1 (head_at nb i) (b i) ((h0, r) :: R ++ Q) x L2) as (m2 & E2 & L3); [apply K1, HA|apply K1, HB|exact Nx|intros C; apply Nf; apply (Permutation_in _ (flat_perm _ _ (Permutation_sym PA))), C|].
    rewrite E2. destruct (PS (x :: b i)) as [PT' PC']. assert (L4 : lists m2 ((h0, r) :: R ++ table nb ncap (setb b i (x :: b i)))).
    { revert L3. apply lists_perm. eapply Permutation_trans; [apply perm_swap|]. apply perm_skip. eapply Permutation_trans; [apply Permutation_middle|]. apply Permutation_app_head, Permutation_sym, PT'. }
    assert (Ht' : exists tmp', (if tmp =? NULL then Some tmp else ld m2 tmp LINK) = Some tmp' /\ (r <> [] -> tmp' = hd NULL (tl r))).
    { rewrite Ht. destruct r as [|y r]; cbn [hd tl]; [exists NULL; split; [reflexivity|intros C; contradiction]|]. destruct (lists_hd _ _ _ _ L4) as [[_ Hy] _]. cbn [hpath] in Hy. destruct Hy as (_ & Ny & _ & Hy). rewrite (proj2 (Z.eqb_neq _ _) Ny). apply hpath_rest in Hy. destruct Hy as [Hy _]. exists (hd NULL r). split; [exact Hy|trivial]. }
    destruct Ht' as (tmp' & Et & Ht'). rewrite Et, Ht. destruct (IH n m2 R (setb b i (x :: b i)) tmp' L4) as (m' & b' & E & L' & P' & C' & K'); [|exact Ht'|lia|].
    { apply placed_set; [exact HP|]. intros y [<-|Hy]; [right; exact Ei|left; exact Hy]. }
    exists m', b'. split; [exact E|]. split; [exact L'|]. split; [exact P'|]. split; [|apply (keeps_trans _ m1); [exact K1|]; apply (keeps_trans _ m2); [apply (keeps_hadd _ _ _ _ E2)|exact K']].
    eapply Permutation_trans; [|apply C']. eapply Permutation_trans; [|apply Permutation_app_head, Permutation_sym, PC']. cbn [app]. eapply Permutation_trans; [|apply Permutation_middle]. apply perm_skip, Permutation_app_head, PC.
Qed.
Lemma move_all_ok h bits nb nbits b : 4 <= bits < 64 -> h_capacity h = 2 ^ bits -> 4 <= nbits < 64 -> forall n i m D c, let ncap := 2 ^ nbits in
  0 <= i -> i + Z.of_nat n = h_capacity h -> lists m (D ++ map (bucket (h_buckets h) b) (zseq i n) ++ table nb ncap c) -> placed ncap c -> (forall j, 0 <= j < h_capacity h -> (length (b j) <= fuel)%nat) ->
  exists m' c', move_all ops fuel n m h nb ncap i = Some m' /\ lists m' (table nb ncap c') /\ placed ncap c' /\ Permutation (flat_map b (zseq i n) ++ contents ncap c) (contents ncap c') /\ keeps m m'.
Proof.
  intros Hb Hc Hn. induction n as [|n IH]; intros i m D c ncap Hi Hs HL HP Hf.
  - exists m, c. split; [reflexivity|]. split; [apply lists_app in HL; apply HL|]. split; [exact HP|]. split; [apply Permutation_refl|apply keeps_refl].
  - cbn [move_all zseq map flat_map] in *. rewrite Hc, (idx_head_id (h_buckets h) bits i) by lia. set (base := h_buckets h) in *. set (h0 := head_at base i) in *.
    assert (L1 : lists m ((h0, b i) :: (D ++ map (bucket base b) (zseq (i + 1) n)) ++ table nb ncap c)).
    { revert HL. apply lists_perm. cbn [app]. rewrite <- app_assoc. apply Permutation_sym, Permutation_middle. }
    destruct (lists_hd _ _ _ _ L1) as [[_ Hx] _]. pose proof (proj1 (hpath_rest _ _ _) Hx) as [Hx1 Hx2]. unfold ld at 1. rewrite Hx1.
    assert (Ht : exists tmp, (if hd NULL (b i) =? NULL then Some 0 else ld m (hd NULL (b i)) LINK) = Some tmp /\ (b i <> [] -> tmp = hd NULL (tl (b i)))).
    { destruct (b i) as [|y r]; cbn [hd tl]; [exists 0; split; [reflexivity|intros C; contradiction]|]. cbn [hpath] in Hx. destruct Hx as (_ & Ny & _ & Hy). rewrite (proj2 (Z.eqb_neq _ _) Ny). apply hpath_rest in Hy. destruct Hy as [Hy _]. exists (hd NULL r). split; [exact Hy|trivial]. }
    destruct Ht as (tmp & Et & Ht). rewrite Et. destruct (move_from_ok nb nbits h0 Hn (b i) fuel m _ c tmp L1 HP Ht (Hf i ltac:(lia))) as (m1 & c1 & E1 & L2 & P1 & C1 & K1). fold ncap in E1, L2, P1, C1. rewrite E1.
    destruct (IH (i + 1) m1 ((h0, []) :: D) c1) as (m' & c' & E & L' & P' & C' & K'); [lia|lia| |exact P1|exact Hf|].
    { cbn [app]. rewrite app_assoc. exact L2. }
    exists m', c'. split; [exact E|]. split; [exact L'|]. split; [exact P'|]. split; [|apply (keeps_trans _ m1); assumption]. eapply Permutation_trans; [|apply C']. eapply Permutation_trans; [|apply Permutation_app_head, C1]. rewrite <- app_assoc. rewrite !app_assoc. apply Permutation_app_tail, Permutation_app_comm.
Qed.

Definition shape (h : hmap) : Prop := (h_capacity h = 0 /\ h_buckets h = NULL /\ h_bits h = 0) \/ (4 <= h_bits h <= 60 /\ h_capacity h = 2 ^ h_bits h /\ h_buckets h <> NULL).
Definition hm_inv (m : mem) (h : hmap) (s : list Z) : Prop :=
  nodes_exist m U /\ incl s U /\ h_used h = w64 (zlen s) /\ shape h /\ (forall q, in_array (h_buckets h) (h_capacity h) q = true -> ~ In q U) /\
  exists b, lists m (table (h_buckets h) (h_capacity h) b) /\ placed (h_capacity h) b /\ Permutation s (contents (h_capacity h) b).
Lemma nodes_keeps m m' : keeps m m' -> nodes_exist m U -> nodes_exist m' U.
Proof. intros K (D & N & H). split; [exact D|]. split; [exact N|]. intros n Hn. destruct (H n Hn). split; apply K; assumption. Qed.
Lemma inv_perm m h s s' : Permutation s s' -> hm_inv m h s -> hm_inv m h s'.
Proof.
  intros P (H1 & H2 & H3 & H4 & H5 & b & H6 & H7 & H8). split; [exact H1|]. split; [intros x Hx; apply H2, (Permutation_in _ (Permutation_sym P)), Hx|]. split; [rewrite H3; unfold zlen; rewrite (Permutation_length P); reflexivity|]. split; [exact H4|]. split; [exact H5|]. exists b. split; [exact H6|]. split; [exact H7|]. apply (Permutation_trans (Permutation_sym P) H8).
Qed.
Lemma hlist_in m base cap b i : lists m (table base cap b) -> 0 <= i < cap -> hlist m (head_at base i) (b i).
Proof. intros [_ F] Hi. rewrite Forall_forall in F. apply (F (bucket base b i)). apply in_map, zseq_in. lia. Qed.
Lemma bucket_len m h s b i : hm_inv m h s -> lists m (table (h_buckets h) (h_capacity h) b) -> Permutation s (contents (h_capacity h) b) -> 0 <= i < h_capacity h -> (length (b i) <= fuel)%nat.
Proof.
  intros (_ & I & _) HL HP Hi. destruct (hlist_in _ _ _ _ _ HL Hi) as [D _]. apply NoDup_cons_iff in D. eapply Nat.le_trans; [|exact FU]. apply NoDup_incl_length; [apply D|]. intros x Hx. apply I, (Permutation_in _ (Permutation_sym HP)), in_contents. exists i. split; assumption.
Qed.
Lemma rehash_ok m h s nbits : hm_inv m h s -> 4 <= nbits <= 61 ->
  (rehash ops al fuel m h nbits = Some (m, h, - ENOMEM) /\ (nbits = 61 \/ al m (8 * 2 ^ nbits) = NULL)) \/
  exists m' h', rehash ops al fuel m h nbits = Some (m', h', 0) /\ hm_inv m' h' s /\ h_bits h' = nbits /\ h_capacity h' <> 0.
Proof.
  intros HI Hn. pose proof HI as (NE & IS & HU & SH & HD & b & HL & HP & HC). unfold rehash. rewrite (proj2 (Z.leb_gt _ _)) by lia. set (ncap := 2 ^ nbits).
  destruct (Z.eq_dec nbits 61) as [->|N61]; [left; split; [reflexivity|left; reflexivity]|].
  assert (Pn : 16 <= ncap <= 2 ^ 60) by (unfold ncap; split; [apply (Z.pow_le_mono_r 2 4); lia|apply Z.pow_le_mono_r; lia]).
  assert (Es : w64 (8 * ncap) = 8 * ncap) by (unfold w64; apply Z.mod_small; lia). rewrite Es. rewrite (proj2 (Z.eqb_neq (8 * ncap) 0)) by lia. set (nb := al m (8 * ncap)).
  destruct (Z.eqb_spec nb NULL) as [E0|N0]; [left; split; [reflexivity|right; exact E0]|]. right.
  destruct (AL m (8 * ncap)) as [C|FR]; [contradiction|]. fold nb in FR. replace (8 * ncap / 8) with ncap in FR by (rewrite Z.mul_comm, Z.div_mul; lia).
  set (base := h_buckets h) in *. set (cap := h_capacity h) in *. set (m1 := alloc_array m nb ncap).
  destruct (hashtbl_init_ok (Z.to_nat ncap) m1 nb 0) as (m2 & E2 & Z2 & F2).
  { intros j Hj. red. unfold m1, alloc_array. rewrite (proj2 (in_array_head nb ncap (head_at nb j))) by (exists j; split; [lia|reflexivity]). eexists. reflexivity. }
  rewrite E2. set (S := map (head_at nb) (zseq 0 (Z.to_nat ncap))).
  assert (InS : forall q, In q S <-> in_array nb ncap q = true).
  { intros q. unfold S. rewrite in_map_iff, in_array_head. split; [intros (j & <- & Hj); apply zseq_in in Hj; exists j; split; [lia|reflexivity]|intros (j & Hj & ->); exists j; split; [reflexivity|apply zseq_in; lia]]. }
  assert (O2 : only S m m2).
  { intros q g Hq. rewrite F2; [unfold m1, alloc_array; destruct (in_array nb ncap q) eqn:E; [exfalso; apply Hq, InS, E|reflexivity]|]. left. intros j Hj C. apply Hq, InS, in_array_head. exists j. split; [lia|exact C]. }
  assert (Hold : forall x, In x (flat (table base cap b)) -> ~ In x S).
  { intros x Hx C. apply InS in C. destruct (lists_has _ _ _ HL Hx) as [v Hv]. destruct (FR x C) as [_ G]. congruence. }
  assert (L2 : lists m2 (table base cap b ++ table nb ncap (fun _ => []))).
  { split.
    - rewrite flat_app. unfold table at 2. rewrite flat_nils. fold S. apply NoDup_app_intro; [apply HL|apply nodup_heads|exact Hold].
    - apply Forall_app. split; [apply (lists_only m m2 S _ O2 Hold HL)|]. rewrite Forall_forall. intros p Hp. apply in_map_iff in Hp. destruct Hp as (j & <- & Hj). apply zseq_in in Hj. cbn [bucket fst snd]. split; [constructor; [intros []|constructor]|]. cbn [hpath]. apply Z2. lia. }
  assert (US : forall x, In x U -> ~ In x S).
  { intros x Hx C. apply InS in C. destruct NE as (_ & _ & NE). destruct (NE x Hx) as [[v Hv] _]. destruct (FR x C) as [_ G]. congruence. }
  assert (NE2 : nodes_exist m2 U).
  { destruct NE as (D & N & NE). split; [exact D|]. split; [exact N|]. intros x Hx. rewrite !(O2 x) by (apply US, Hx). apply NE, Hx. }
  assert (G : exists m3 c, move_all ops fuel (Z.to_nat cap) m2 h nb ncap 0 = Some m3 /\ lists m3 (table nb ncap c) /\ placed ncap c /\ Permutation (contents cap b) (contents ncap c) /\ keeps m2 m3).
  { destruct SH as [(Ec & _)|(Hb & Ec & _)].
    - exists m2, (fun _ => []). fold cap in Ec. rewrite Ec. split; [reflexivity|]. split; [apply lists_app in L2; apply L2|]. split; [intros i x _ []|]. split; [rewrite contents_nil; apply Permutation_refl|apply keeps_refl].
    - destruct (move_all_ok h (h_bits h) nb nbits b ltac:(lia) Ec ltac:(lia) (Z.to_nat cap) 0 m2 [] (fun _ => [])) as (m3 & c & E & L & P & C & K); [lia|fold cap in Ec |- *; pose proof (Z.pow_pos_nonneg 2 (h_bits h)); lia|exact L2|intros i x _ []|intros j Hj; apply (bucket_len m h s b j HI HL HC Hj)|].
      exists m3, c. split; [exact E|]. split; [exact L|]. split; [exact P|]. split; [|exact K]. fold ncap in C. rewrite contents_nil, app_nil_r in C. exact C. }
  destruct G as (m3 & c & E3 & L3 & P3 & C3 & K3). rewrite E3. eexists _, _. split; [reflexivity|]. split; [|split; [reflexivity|cbn [h_capacity]; lia]].
  assert (O4 : only (map (head_at base) (zseq 0 (Z.to_nat cap))) m3 (free_array m3 base cap)).
  { intros q g Hq. unfold free_array. destruct (in_array base cap q) eqn:E; [|rewrite andb_false_r; reflexivity]. exfalso. apply Hq. apply in_array_head in E. destruct E as (j & Hj & ->). apply in_map, zseq_in. lia. }
  assert (InB : forall q, In q (map (head_at base) (zseq 0 (Z.to_nat cap))) -> exists j, 0 <= j < cap /\ q = head_at base j).
  { intros q Hq. apply in_map_iff in Hq. destruct Hq as (j & <- & Hj). apply zseq_in in Hj. exists j. split; [lia|reflexivity]. }
  assert (UB : forall x, In x U -> ~ In x (map (head_at base) (zseq 0 (Z.to_nat cap)))).
  { intros x Hx C. apply InB, in_array_head in C. apply (HD x C Hx). }
  split.
  { apply (nodes_keeps m2 m3 K3) in NE2. destruct NE2 as (D & N & NE2). split; [exact D|]. split; [exact N|]. intros x Hx. rewrite !(O4 x) by (apply UB, Hx). apply NE2, Hx. }
  split; [exact IS|]. cbn [h_used h_bits h_capacity h_buckets]. split; [exact HU|]. split; [right; split; [cbn [h_bits]; lia|split; [reflexivity|exact N0]]|]. split; [intros q Hq C; apply (US q C), InS, Hq|].
  exists c. split; [|split; [exact P3|apply (Permutation_trans HC C3)]]. apply (lists_only m3 _ _ _ O4); [|exact L3]. intros x Hx C. apply flat_table in Hx. destruct Hx as [Hx|Hx].
  - apply InB in C. assert (Hb : In x (flat (table base cap b))) by (apply flat_table; left; exact C). apply (Hold x Hb), InS, in_array_head, Hx.
  - revert C. apply UB, IS, (Permutation_in _ (Permutation_sym HC)), (Permutation_in _ (Permutation_sym C3)), Hx.
Qed.

(** ** Searching *)
Definition found_in (s : list Z) (test : Z -> bool) (r : Z) : Prop := (r = NULL /\ forall x, In x s -> test x = false) \/ (r <> NULL /\ In r s /\ test r = true).
Definition find_gen (m : mem) (h : hmap) (test : Z -> bool) (hash : Z) : option Z :=
  if h_buckets h =? NULL then Some NULL else
  let* i := hashtbl_index (h_capacity h) hash in
  let* walk := ld m (idx_head (h_buckets h) (h_capacity h) i) LINK in search fuel m test walk.
Lemma find_gen_ok m h s test hash : hm_inv m h s -> (forall x, In x s -> test x = true -> hash_node ops x = hash) -> exists r, find_gen m h test hash = Some r /\ found_in s test r.
Proof.
  intros HI Ht. pose proof HI as (NE & IS & HU & SH & HD & b & HL & HP & HC). unfold find_gen. destruct SH as [(Ec & Eb & _)|(Hb & Ec & Eb)].
  - rewrite Eb, Z.eqb_refl. exists NULL. split; [reflexivity|]. left. split; [reflexivity|]. intros x Hx. exfalso. apply (Permutation_in _ HC), in_contents in Hx. destruct Hx as (i & Hi & _). lia.
  - rewrite (proj2 (Z.eqb_neq _ _) Eb). assert (P2 : 2 <= h_capacity h < 2 ^ 64) by (rewrite Ec; split; [apply (Z.pow_le_mono_r 2 1); lia|apply Z.pow_lt_mono_r; lia]). destruct (C53_index (h_capacity h) hash P2) as (i & Ei & Hi). rewrite Ei.
    assert (Eh : idx_head (h_buckets h) (h_capacity h) i = head_at (h_buckets h) i) by (rewrite Ec; apply idx_head_id; lia). rewrite Eh.
    destruct (hlist_in _ _ _ _ _ HL Hi) as [_ Hh]. unfold ld. rewrite (proj1 (proj1 (hpath_rest _ _ _) Hh)). destruct (search_ok m test (b i) _ fuel Hh (bucket_len m h s b i HI HL HC Hi)) as (r & E & D). exists r. split; [exact E|].
    destruct D as [[-> D]|(D1 & D2 & D3)].
    + left. split; [reflexivity|]. intros x Hx. destruct (test x) eqn:Et; [|reflexivity]. exfalso. pose proof Hx as Hx'. apply (Permutation_in _ HC), in_contents in Hx'. destruct Hx' as (j & Hj & Hx'). pose proof (HP j x Hj Hx') as G. rewrite (Ht x Hx Et), Ei in G. injection G as <-. rewrite (D x Hx') in Et. discriminate.
    + right. split; [exact D1|]. split; [|exact D3]. apply (Permutation_in _ (Permutation_sym HC)), in_contents. exists i. split; assumption.
Qed.
Lemma find_node_ok m h s n : hm_inv m h s -> exists r, find_node ops fuel m h n (hash_node ops n) = Some r /\
  ((r = NULL /\ forall x, In x s -> key x <> key n) \/ (r <> NULL /\ In r s /\ key r = key n)).
Proof.
  intros HI. destruct (find_gen_ok m h s (fun w => equal ops n w =? 0) (hash_node ops n) HI) as (r & E & D).
  - intros x _ Hx. apply Z.eqb_eq, (law_equal _ _ LAW) in Hx. rewrite !(law_hash _ _ LAW). congruence.
  - exists r. split; [exact E|]. destruct D as [[D1 D2]|(D1 & D2 & D3)]; [left; split; [exact D1|]; intros x Hx C; specialize (D2 x Hx); apply Z.eqb_neq in D2; apply D2, (law_equal _ _ LAW); congruence|right; split; [exact D1|]; split; [exact D2|]; apply Z.eqb_eq, (law_equal _ _ LAW) in D3; congruence].
Qed.
Lemma find_key_ok m h s k : hm_inv m h s -> exists r, find_key ops fuel m h k (hash_key ops k) = Some r /\
  ((r = NULL /\ forall x, In x s -> key x <> k) \/ (r <> NULL /\ In r s /\ key r = k)).
Proof.
  intros HI. destruct (find_gen_ok m h s (fun w => find ops w k =? 0) (hash_key ops k) HI) as (r & E & D).
  - intros x _ Hx. apply Z.eqb_eq, (law_find _ _ LAW) in Hx. rewrite (law_hash _ _ LAW). congruence.
  - exists r. split; [exact E|]. destruct D as [[D1 D2]|(D1 & D2 & D3)]; [left; split; [exact D1|]; intros x Hx C; specialize (D2 x Hx); apply Z.eqb_neq in D2; apply D2, (law_find _ _ LAW); congruence|right; split; [exact D1|]; split; [exact D2|]; apply Z.eqb_eq, (law_find _ _ LAW) in D3; congruence].
Qed.

(** ** Changes *)
Lemma nodup_inv m h s : hm_inv m h s -> NoDup s.
Proof.
  intros (_ & _ & _ & _ & _ & b & HL & HP & HC). apply (Permutation_NoDup (Permutation_sym HC)). clear HC. unfold contents. destruct HL as [D _]. revert D. unfold table, flat. generalize (zseq 0 (Z.to_nat (h_capacity h))). induction l as [|i l IH]; cbn [map flat_map]; intros D; [constructor|].
  change (NoDup ((head_at (h_buckets h) i :: b i) ++ flat_map (fun p => fst p :: snd p) (map (bucket (h_buckets h) b) l))) in D.
  apply NoDup_app_intro; [apply nodup_l, NoDup_cons_iff in D; apply D|apply IH, (nodup_r _ _ D)|]. intros x Hx C. apply (nodup_disj _ _ D x); [right; exact Hx|]. apply in_flat_map in C. destruct C as (j & Hj & Hxj). apply in_flat_map. exists (bucket (h_buckets h) b j). split; [apply in_map, Hj|right; exact Hxj].
Qed.
(** the bucket of a node that is there *)
Lemma bucket_of m h s x : hm_inv m h s -> In x s -> exists b i l1 l2 Q T, 0 <= i < h_capacity h /\ b i = l1 ++ x :: l2 /\ lists m ((head_at (h_buckets h) i, b i) :: Q) /\ placed (h_capacity h) b /\
  hashtbl_index (h_capacity h) (hash_node ops x) = Some i /\ Permutation s ((l1 ++ x :: l2) ++ T) /\ (forall y, In y (flat ((head_at (h_buckets h) i, b i) :: Q)) -> in_array (h_buckets h) (h_capacity h) y = true \/ In y s) /\
  forall l, Permutation (table (h_buckets h) (h_capacity h) (setb b i l)) ((head_at (h_buckets h) i, l) :: Q) /\ Permutation (contents (h_capacity h) (setb b i l)) (l ++ T).
Proof.
  intros (NE & IS & HU & SH & HD & b & HL & HP & HC) Hx. pose proof Hx as Hx'. apply (Permutation_in _ HC), in_contents in Hx'. destruct Hx' as (i & Hi & Hb). pose proof (HP i x Hi Hb) as Ei. apply in_split in Hb. destruct Hb as (l1 & l2 & El). destruct (table_pull (h_buckets h) (h_capacity h) b i Hi) as (Q & T & PT & PC & PS).
  exists b, i, l1, l2, Q, T. split; [exact Hi|]. split; [exact El|]. split; [apply (lists_perm _ _ _ PT HL)|]. split; [exact HP|]. split; [exact Ei|]. split; [rewrite <- El; apply (Permutation_trans HC PC)|]. split; [|exact PS].
  intros y Hy. apply (Permutation_in _ (flat_perm _ _ (Permutation_sym PT))), flat_table in Hy. destruct Hy as [Hy|Hy]; [left; apply in_array_head, Hy|right; apply (Permutation_in _ (Permutation_sym HC)), Hy].
Qed.
Lemma replace_ok m h s e n s' : hm_inv m h s -> Permutation s (e :: s') -> key e = key n -> In n U -> ~ In n s -> exists m', hlist_replace m e n = Some m' /\ hm_inv m' h (n :: s').
Proof.
  intros HI PE Ke Hn Ns. assert (He : In e s) by (apply (Permutation_in _ (Permutation_sym PE)); left; reflexivity). destruct (bucket_of m h s e HI He) as (b & i & l1 & l2 & Q & T & Hi & El & L1 & HP & Ei & PS & FL & PQ).
  pose proof HI as (NE & IS & HU & SH & HD & _). pose proof NE as (_ & Nz & NF). destruct (NF n Hn) as [F1 F2]. rewrite El in L1. destruct (lists_replace m _ l1 e l2 n Q L1 F1 F2) as (m' & E & L2).
  - intros ->. contradiction.
  - intros C. rewrite <- El in C. destruct (FL n C) as [G|G]; [apply (HD n G Hn)|contradiction].
  - exists m'. split; [exact E|]. assert (PN : Permutation s' (l1 ++ l2 ++ T)).
    { apply (Permutation_cons_inv (a := e)). eapply Permutation_trans; [apply Permutation_sym, PE|]. eapply Permutation_trans; [exact PS|]. rewrite <- app_assoc. apply Permutation_sym, Permutation_middle. }
    split; [apply (nodes_keeps m m' (keeps_hrep _ _ _ _ E)), NE|]. split; [intros x [<-|Hx]; [exact Hn|apply IS, (Permutation_in _ (Permutation_sym PE)); right; exact Hx]|]. split; [rewrite HU; unfold zlen; rewrite (Permutation_length PE); reflexivity|]. split; [exact SH|]. split; [exact HD|].
    destruct (PQ (l1 ++ n :: l2)) as [P1 P2]. exists (setb b i (l1 ++ n :: l2)). split; [apply (lists_perm _ _ _ (Permutation_sym P1)), L2|]. split.
    + apply placed_set; [exact HP|]. intros y Hy. apply in_app_iff in Hy. rewrite El. destruct Hy as [Hy|[<-|Hy]]; [left; apply in_or_app; left; exact Hy|right; rewrite (law_hash _ _ LAW), <- Ke, <- (law_hash _ _ LAW); exact Ei|left; apply in_or_app; right; right; exact Hy].
    + eapply Permutation_trans; [|apply Permutation_sym, P2]. eapply Permutation_trans; [apply perm_skip, PN|]. rewrite <- app_assoc. apply Permutation_middle.
Qed.
Lemma remove_ok m h s e s' : hm_inv m h s -> Permutation s (e :: s') -> exists m', hashtbl_del m e = Some m' /\
  hm_inv m' {| h_buckets := h_buckets h; h_bits := h_bits h; h_capacity := h_capacity h; h_used := w64 (h_used h - 1) |} s'.
Proof.
  intros HI PE. assert (He : In e s) by (apply (Permutation_in _ (Permutation_sym PE)); left; reflexivity). destruct (bucket_of m h s e HI He) as (b & i & l1 & l2 & Q & T & Hi & El & L1 & HP & Ei & PS & FL & PQ).
  pose proof HI as (NE & IS & HU & SH & HD & _). rewrite El in L1. destruct (lists_del m _ l1 e l2 Q L1) as [_ (m' & E & L2)]. exists m'. split; [exact E|].
  assert (PN : Permutation s' (l1 ++ l2 ++ T)).
  { apply (Permutation_cons_inv (a := e)). eapply Permutation_trans; [apply Permutation_sym, PE|]. eapply Permutation_trans; [exact PS|]. rewrite <- app_assoc. apply Permutation_sym, Permutation_middle. }
  split; [apply (nodes_keeps m m' (keeps_hdeli _ _ _ E)), NE|]. split; [intros x Hx; apply IS, (Permutation_in _ (Permutation_sym PE)); right; exact Hx|].
  split; [cbn [h_used]; rewrite HU; unfold zlen; rewrite (Permutation_length PE); cbn [length]; unfold w64; rewrite Zminus_mod_idemp_l; f_equal; lia|]. split; [exact SH|]. split; [exact HD|]. cbn [h_buckets h_capacity].
  destruct (PQ (l1 ++ l2)) as [P1 P2]. exists (setb b i (l1 ++ l2)). split; [apply (lists_perm _ _ _ (Permutation_sym P1)), L2|]. split.
  - apply placed_set; [exact HP|]. intros y Hy. rewrite El. left. apply in_app_iff in Hy. apply in_or_app. destruct Hy as [Hy|Hy]; [left; exact Hy|right; right; exact Hy].
  - eapply Permutation_trans; [|apply Permutation_sym, P2]. rewrite <- app_assoc. exact PN.
Qed.
Lemma put_ok m h s n : hm_inv m h s -> h_capacity h <> 0 -> In n U -> ~ In n s -> exists m', hashtbl_add m (h_buckets h) (h_capacity h) n (hash_node ops n) = Some m' /\
  hm_inv m' {| h_buckets := h_buckets h; h_bits := h_bits h; h_capacity := h_capacity h; h_used := w64 (h_used h + 1) |} (n :: s).
Proof.
  intros HI Hc Hn Ns. pose proof HI as (NE & IS & HU & SH & HD & b & HL & HP & HC). destruct SH as [(C & _)|SH']; [contradiction|]. pose proof SH' as (Hb & Ec & Eb).
  assert (P2 : 2 <= h_capacity h < 2 ^ 64) by (rewrite Ec; split; [apply (Z.pow_le_mono_r 2 1); lia|apply Z.pow_lt_mono_r; lia]). destruct (C53_index (h_capacity h) (hash_node ops n) P2) as (i & Ei & Hi). unfold hashtbl_add. rewrite Ei.
  destruct (table_pull (h_buckets h) (h_capacity h) b i Hi) as (Q & T & PT & PC & PS). pose proof NE as (_ & Nz & NF). destruct (NF n Hn) as [F1 F2].
  destruct (lists_add m (head_at (h_buckets h) i) (b i) Q n (lists_perm _ _ _ PT HL) F1 F2) as (m' & E & L').
  - intros ->. contradiction.
  - intros C. apply (Permutation_in _ (flat_perm _ _ (Permutation_sym PT))), flat_table in C. destruct C as [C|C]; [apply in_array_head in C; apply (HD n C Hn)|]. apply Ns, (Permutation_in _ (Permutation_sym HC)), C.
  - exists m'. split; [exact E|]. split; [apply (nodes_keeps m m' (keeps_hadd _ _ _ _ E)), NE|]. split; [intros x [<-|Hx]; [exact Hn|apply IS, Hx]|]. split; [cbn [h_used]; rewrite HU; unfold zlen; cbn [length]; unfold w64; rewrite Zplus_mod_idemp_l; f_equal; lia|]. split; [right; exact SH'|]. split; [exact HD|]. cbn [h_buckets h_capacity].
    destruct (PS (n :: b i)) as [P1 P3]. exists (setb b i (n :: b i)). split; [apply (lists_perm _ _ _ (Permutation_sym P1)), L'|]. split; [apply placed_set; [exact HP|]; intros y [<-|Hy]; [right; exact Ei|left; exact Hy]|].
    eapply Permutation_trans; [|apply Permutation_sym, P3]. cbn [app]. apply perm_skip. apply (Permutation_trans HC PC).
Qed.
Lemma visit_ok m h s b : hm_inv m h s -> lists m (table (h_buckets h) (h_capacity h) b) -> Permutation s (contents (h_capacity h) b) -> forall n i, 0 <= i -> i + Z.of_nat n = h_capacity h -> visit_all fuel n m h i = Some (flat_map b (zseq i n)).
Proof.
  intros HI HL HC. induction n as [|n IH]; intros i Hi Hs; [reflexivity|]. cbn [visit_all zseq flat_map]. pose proof HI as (_ & _ & _ & SH & _). destruct SH as [(C & _)|(Hb & Ec & _)]; [lia|]. assert (Eh : idx_head (h_buckets h) (h_capacity h) i = head_at (h_buckets h) i) by (rewrite Ec; apply idx_head_id; lia). rewrite Eh. assert (Hi' : 0 <= i < h_capacity h) by lia.
  rewrite (slist_each m _ (b i) fuel (hlist_slist _ _ _ (hlist_in _ _ _ _ _ HL Hi'))) by (apply (bucket_len m h s b i HI HL HC); lia). rewrite IH by lia. reflexivity.
Qed.

(** ** One operation *)
Lemma insert_new_ok m h s n : hm_inv m h s -> In n U -> ~ In n s ->
  (insert_new ops al fuel m h n = Some (m, h, - ENOMEM) /\ refused al m h) \/ exists m' h', insert_new ops al fuel m h n = Some (m', h', 0) /\ hm_inv m' h' (n :: s).
Proof.
  intros HI Hn Ns. unfold insert_new. pose proof HI as (_ & _ & _ & SH & _). destruct (need_extend ops h) eqn:En.
  - unfold hm_extend. assert (Eb : (if w32 (h_bits h + 1) <? MIN_BITS then MIN_BITS else w32 (h_bits h + 1)) = Z.max 4 (h_bits h + 1)).
    { assert (Hb : 0 <= h_bits h <= 60) by (destruct SH as [(_ & _ & ->)|(Hb & _)]; lia). unfold w32, MIN_BITS. rewrite Z.mod_small by lia. destruct (Z.ltb_spec (h_bits h + 1) 4); lia. }
    rewrite Eb. assert (Hr : 4 <= Z.max 4 (h_bits h + 1) <= 61) by (destruct SH as [(_ & _ & ->)|(Hb & _)]; lia). destruct (rehash_ok m h s _ HI Hr) as [[E R]|(m1 & h1 & E & HI1 & _ & Hc)]; rewrite E.
    + left. split; [reflexivity|exact R].
    + right. cbv beta iota. cbn [negb Z.eqb]. destruct (put_ok m1 h1 s n HI1 Hc Hn Ns) as (m2 & E2 & HI2). rewrite E2. eexists _, _. split; [reflexivity|exact HI2].
  - right. cbv beta iota. cbn [negb Z.eqb]. assert (Hc : h_capacity h <> 0) by (unfold need_extend in En; destruct (Z.eqb_spec (h_capacity h) 0); [discriminate|assumption]). destruct (put_ok m h s n HI Hc Hn Ns) as (m2 & E2 & HI2). rewrite E2. eexists _, _. split; [reflexivity|exact HI2].
Qed.
(** Every operation does to the set of nodes what it says, for any operations of the user's that agree on keys, any
    policy of growing and shrinking and any allocator; it is refused only if there was no memory, and then nothing has
    changed. *)
Theorem C52_step : forall m h s o, hm_inv m h s -> hallowed U s o -> exists m' h' r s', apply_hop ops al fuel m h o = Some (m', h', r) /\ hstep key (refused al m h) s o r s' /\ hm_inv m' h' s' /\ (r = RPair (- ENOMEM) NULL -> m' = m /\ h' = h).
Proof.
  intros m h s o HI HA. destruct o as [n st|k|k| |]; cbn [apply_hop].
  - assert (Hn : In n U) by (destruct st; cbn [hallowed] in HA; tauto). unfold insert. destruct (is_append st) eqn:Ea.
    + destruct st; try discriminate Ea. cbn [hallowed is_update] in *. rewrite Z.eqb_refl. cbn [negb]. destruct (insert_new_ok m h s n HI Hn (proj2 HA)) as [[E R]|(m' & h' & E & HI')]; rewrite E; cbn [fst snd].
      * exists m, h, (RPair (- ENOMEM) NULL), s. split; [reflexivity|]. split; [apply append_full, R|]. split; [exact HI|]. auto.
      * exists m', h', (RPair 0 NULL), (n :: s). split; [reflexivity|]. split; [apply append_new|]. split; [exact HI'|]. discriminate.
    + destruct (find_node_ok m h s n HI) as (r & E & D). rewrite E. destruct D as [[-> D]|(D1 & D2 & D3)].
      * rewrite Z.eqb_refl. cbn [negb]. destruct (is_update st) eqn:Eu.
        -- destruct st; try discriminate Eu. cbn [fst snd]. exists m, h, (RPair (- ENOENT) NULL), s. split; [reflexivity|]. split; [apply update_none, D|]. split; [exact HI|]. discriminate.
        -- assert (Hst : st = ADD \/ st = SET) by (destruct st; try discriminate; auto). assert (Ns : ~ In n s) by (intros C; apply (D n C); reflexivity). destruct (insert_new_ok m h s n HI Hn Ns) as [[E2 R]|(m' & h' & E2 & HI')]; rewrite E2; cbn [fst snd].
           ++ exists m, h, (RPair (- ENOMEM) NULL), s. split; [reflexivity|]. split; [apply put_full; assumption|]. split; [exact HI|]. auto.
           ++ exists m', h', (RPair 0 NULL), (n :: s). split; [reflexivity|]. split; [apply put_new; assumption|]. split; [exact HI'|]. discriminate.
      * rewrite (proj2 (Z.eqb_neq _ _) D1). cbn [negb]. destruct (is_add st) eqn:Ed.
        -- destruct st; try discriminate Ed. cbn [fst snd]. exists m, h, (RPair (- EEXIST) r), s. split; [reflexivity|]. split; [apply add_old; assumption|]. split; [exact HI|]. discriminate.
        -- assert (Hst : st = SET \/ st = UPDATE) by (destruct st; try discriminate; auto). assert (Ns : ~ In n s) by (destruct Hst as [->| ->]; apply HA). apply in_split in D2. destruct D2 as (s1 & s2 & ->). assert (PE : Permutation (s1 ++ r :: s2) (r :: s1 ++ s2)) by apply Permutation_sym, Permutation_middle.
           destruct (replace_ok m h _ r n _ HI PE D3 Hn Ns) as (m' & E2 & HI'). rewrite E2. cbn [fst snd]. exists m', h, (RPair 0 r), (n :: s1 ++ s2). split; [reflexivity|]. split; [apply (set_old _ _ _ n st r (s1 ++ s2) Hst PE D3)|]. split; [exact HI'|]. discriminate.
  - unfold del. destruct (find_key_ok m h s k HI) as (r & E & D). rewrite E. destruct D as [[-> D]|(D1 & D2 & D3)].
    + rewrite Z.eqb_refl. cbn [fst snd]. exists m, h, (RPair (- ENOENT) NULL), s. split; [reflexivity|]. split; [apply del_none, D|]. split; [exact HI|]. discriminate.
    + rewrite (proj2 (Z.eqb_neq _ _) D1). apply in_split in D2. destruct D2 as (s1 & s2 & ->). assert (PE : Permutation (s1 ++ r :: s2) (r :: s1 ++ s2)) by apply Permutation_sym, Permutation_middle.
      destruct (remove_ok m h _ r _ HI PE) as (m1 & E1 & HI1). rewrite E1. set (h1 := {| h_buckets := _ |}) in *.
      assert (G : exists m' h' z, (if need_shrink ops h1 then hm_shrink ops al fuel m1 h1 else Some (m1, h1, 0)) = Some (m', h', z) /\ hm_inv m' h' (s1 ++ s2)).
      { destruct (need_shrink ops h1); [|exists m1, h1, 0; split; [reflexivity|exact HI1]]. unfold hm_shrink. assert (Hr : 4 <= (if w32 (h_bits h1 - 1) <? MIN_BITS then MIN_BITS else w32 (h_bits h1 - 1)) <= 61).
        { unfold MIN_BITS. pose proof HI1 as (_ & _ & _ & SH & _ & b & _ & _ & HC). destruct SH as [(Ec & _)|(Hb & _)].
          - exfalso. pose proof HI as (_ & _ & _ & _ & _ & b0 & _ & _ & HC0). change (h_capacity h1) with (h_capacity h) in Ec. rewrite Ec in HC0. apply Permutation_sym, Permutation_nil in HC0. destruct s1; discriminate.
          - assert (Ew : w32 (h_bits h1 - 1) = h_bits h1 - 1) by (unfold w32; apply Z.mod_small; lia). rewrite Ew. destruct (Z.ltb_spec (h_bits h1 - 1) 4); lia. }
        destruct (rehash_ok m1 h1 _ _ HI1 Hr) as [[E2 _]|(m2 & h2 & E2 & HI2 & _)]; rewrite E2; eexists _, _, _; (split; [reflexivity|]); assumption. }
      destruct G as (m' & h' & z & -> & HI'). cbn [fst snd]. exists m', h', (RPair 0 r), (s1 ++ s2). split; [reflexivity|]. split; [apply del_one; assumption|]. split; [exact HI'|]. discriminate.
  - unfold lookup. destruct (find_key_ok m h s k HI) as (r & E & D). rewrite E. exists m, h, (RNode r), s. split; [reflexivity|]. split; [|split; [exact HI|discriminate]]. destruct D as [[-> D]|(D1 & D2 & D3)]; [apply find_none, D|apply find_one; assumption].
  - pose proof HI as (_ & _ & _ & SH & _ & b & HL & _ & HC). unfold for_each. assert (Hc : 0 <= h_capacity h) by (destruct SH as [(-> & _)|(Hb & -> & _)]; [lia|apply Z.pow_nonneg; lia]). rewrite (visit_ok m h s b HI HL HC (Z.to_nat (h_capacity h)) 0) by lia. exists m, h, (RList (contents (h_capacity h) b)), s. split; [reflexivity|]. split; [apply each_all, HC|]. split; [exact HI|discriminate].
  - eexists _, _, _, []. split; [reflexivity|]. split; [apply release_all|]. split; [|discriminate]. pose proof HI as (NE & _ & _ & _ & HD & _). split; [|split; [intros x []|]].
    + destruct NE as (D & N & NE). split; [exact D|]. split; [exact N|]. intros x Hx. unfold free_array. destruct (in_array (h_buckets h) (h_capacity h) x) eqn:E; [exfalso; apply (HD x E Hx)|]. rewrite andb_false_r. apply NE, Hx.
    + cbn [h_used h_bits h_capacity h_buckets]. split; [reflexivity|]. split; [left; auto|]. split; [intros q Hq; apply in_array_head in Hq; destruct Hq as (j & Hj & _); lia|]. exists (fun _ => []). split; [split; [constructor|constructor]|]. split; [intros i x _ []|]. apply Permutation_refl.
Qed.
Lemma inv_init m : nodes_exist m U -> hm_inv m hm_init [].
Proof.
  intros NE. split; [exact NE|]. split; [intros x []|]. split; [reflexivity|]. split; [left; auto|]. split; [intros q Hq; apply in_array_head in Hq; destruct Hq as (j & Hj & _); cbn in Hj; lia|]. exists (fun _ => []). split; [split; [constructor|constructor]|]. split; [intros i x _ []|]. apply Permutation_refl.
Qed.
Lemma run_hops_ok prog : polite key U prog -> forall n m h past s, hm_inv m h s -> reach key past s -> exists m' h' past' s', run_hops ops al fuel n prog m h past = Some (m', h', past') /\ hm_inv m' h' s' /\ reach key past' s' /\ length past' = (length past + n)%nat.
Proof.
  intros HP. induction n as [|n IH]; intros m h past s HI HR; cbn [run_hops]; [exists m, h, past, s; split; [reflexivity|]; split; [exact HI|]; split; [exact HR|lia]|].
  destruct (C52_step m h s (prog past) HI (HP past s HR)) as (m1 & h1 & r & s1 & E & HS & HI1 & _). rewrite E. cbn [fst snd]. destruct (IH m1 h1 (past ++ [(prog past, r)]) s1 HI1) as (m' & h' & past' & s' & E' & HI' & HR' & Hl).
  - apply (reach_step key past s (prog past) r s1 HR). revert HS. generalize (refused al m h). clear. intros P H. destruct H; [eapply add_old|eapply set_old|eapply update_none|eapply put_new|eapply append_new|eapply put_full|eapply append_full|eapply del_one|eapply del_none|eapply find_one|eapply find_none|eapply each_all|eapply release_all]; eauto.
  - exists m', h', past', s'. split; [exact E'|]. split; [exact HI'|]. split; [exact HR'|]. rewrite Hl, app_length. cbn [length]. lia.
Qed.
End Map.

(** A client that keeps to the rules, deciding from what it sees, is never stuck and sees the behaviour of a multiset of
    nodes with keys; however often the table grows or shrinks, or fails to. *)
Theorem C52_history : forall ops key al fuel U prog m n, lawful ops key -> allocator al -> (length U <= fuel)%nat -> nodes_exist m U -> polite key U prog ->
  exists m' h' past s, run_hops ops al fuel n prog m hm_init [] = Some (m', h', past) /\ reach key past s /\ length past = n /\ NoDup s /\ h_used h' = w64 (zlen s).
Proof.
  intros ops key al fuel U prog m n LAW AL FU NE HP. destruct (run_hops_ok ops key al fuel U LAW AL FU prog HP n m hm_init [] []) as (m' & h' & past & s & E & HI & HR & Hl); [eapply inv_init; eassumption|apply reach_nil|].
  exists m', h', past, s. split; [exact E|]. split; [exact HR|]. split; [exact Hl|]. split; [eapply nodup_inv; eassumption|apply HI].
Qed.
(** keys modulo 7, a table that grows at the third node; an allocator with two places *)
Definition ex_key (n : Z) : Z := n mod 7.
Definition ex_ops : hops := {| hash_key := fun k => k; hash_node := ex_key; equal := fun a b => ex_key a - ex_key b; find := fun n k => ex_key n - k;
  extend := Some (fun h => (h_used h =? 2) && (h_capacity h =? 16)); shrink := None |}.
Definition ex_free (m : mem) (b n : Z) : bool := forallb (fun i => match m (head_at b i) LINK with None => true | _ => false end) (zseq 0 (Z.to_nat n)).
Definition ex_al (m : mem) (size : Z) : Z := if ex_free m 10000 (size / 8) then 10000 else if ex_free m 20000 (size / 8) then 20000 else 0.
Definition ex_U : list Z := [101; 102; 103; 108; 115].
Definition ex_m : mem := fun q g => if existsb (Z.eqb q) ex_U && ((g =? LINK) || (g =? PPREV)) then Some 0 else None.
Definition ex_prog (past : list (hop * hres)) : hop :=
  nth (length past) [HInsert 101 ADD; HInsert 102 ADD; HInsert 103 ADD; HInsert 108 ADD; HFind 4; HEach; HDel 3; HFind 3] HEach.
Example C52_law : lawful ex_ops ex_key /\ allocator ex_al /\ nodes_exist ex_m ex_U.
Proof.
  split; [|split].
  - split; intros; cbn [ex_ops hash_node hash_key equal find]; [reflexivity|lia|lia].
  - intros m size. unfold ex_al. assert (G : forall b, 0 < b -> ex_free m b (size / 8) = true -> forall q, in_array b (size / 8) q = true -> q <> NULL /\ m q LINK = None).
    { intros b Hb F q Hq. apply in_array_head in Hq. destruct Hq as (j & Hj & ->). split; [unfold head_at, NULL; lia|]. unfold ex_free in F. rewrite forallb_forall in F. specialize (F j). destruct (m (head_at b j) LINK); [|reflexivity]. discriminate F. apply zseq_in. lia. }
    destruct (ex_free m 10000 (size / 8)) eqn:E1; [right; apply G; [lia|exact E1]|]. destruct (ex_free m 20000 (size / 8)) eqn:E2; [right; apply G; [lia|exact E2]|]. left. reflexivity.
  - split; [repeat constructor; cbn; lia|]. split; [unfold NULL, ex_U; cbn; lia|]. intros n Hn. unfold ex_m. assert (E : existsb (Z.eqb n) ex_U = true) by (apply existsb_exists; exists n; split; [exact Hn|apply Z.eqb_refl]). rewrite E. split; eexists; reflexivity.
Qed.
Example C52_polite : polite ex_key ex_U ex_prog.
Proof.
  intros h s _. unfold ex_prog. generalize (length h). intros n. do 9 (destruct n as [|n]; [cbn; tauto|]). cbn. destruct n; exact I.
Qed.
Example C52_ex : option_map (fun r => snd r) (run_hops ex_ops ex_al 5 8 ex_prog ex_m hm_init []) =
  Some (combine [HInsert 101 ADD; HInsert 102 ADD; HInsert 103 ADD; HInsert 108 ADD; HFind 4; HEach; HDel 3; HFind 3]
    [RPair 0 0; RPair 0 0; RPair 0 0; RPair (- EEXIST) 101; RNode 102; RList [101; 102; 103]; RPair 0 101; RNode 0]).
Proof. vm_compute. reflexivity. Qed.
Print Assumptions C52_step.
Print Assumptions C52_history.
