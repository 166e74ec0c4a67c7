(** * Safe iteration over hash maps with deletion by the body *)
From Verif Require Import Lib BitsModel BloomModel BloomProps RespoolProps Ptr ListProofs SlistModel SlistSpec SlistProofs HashmapModel HashmapSpec HashmapProofs HashmapProps SafeIterModel SafeIterSpec.

Lemma nodup_key (key : Z -> Z) s x y : NoDup (map key s) -> In x s -> In y s -> key x = key y -> x = y.
Proof.
  induction s as [|a s IH]; intros N Hx Hy E; [destruct Hx|]. cbn [map] in N. apply NoDup_cons_iff in N. destruct N as [N1 N2].
  destruct Hx as [->|Hx], Hy as [->|Hy]; [reflexivity| | |apply IH; assumption]; exfalso; apply N1; [rewrite E|rewrite <- E]; apply in_map; assumption.
Qed.

Section Map.
Variables (ops : hops) (key : Z -> Z) (al : mem -> Z -> Z) (fuel : nat) (U : list Z).
Hypothesis LAW : lawful ops key.
Hypothesis AL : allocator al.
Hypothesis FU : (length U <= fuel)%nat.
Notation hm_inv := (hm_inv ops U).
Notation placed := (placed ops).
Definition inv_b (m : mem) (h : hmap) (s : list Z) (b : Z -> list Z) : Prop :=
  nodes_exist m U /\ incl s U /\ h_used h = w64 (zlen s) /\ shape h /\ (forall q, in_array (h_buckets h) (h_capacity h) q = true -> ~ In q U) /\
  lists m (table (h_buckets h) (h_capacity h) b) /\ placed (h_capacity h) b /\ Permutation s (contents (h_capacity h) b).
Lemma inv_b_inv m h s b : inv_b m h s b -> hm_inv m h s.
Proof. intros (H1 & H2 & H3 & H4 & H5 & H6 & H7 & H8). repeat (split; [assumption|]). exists b. auto. Qed.
Lemma inv_inv_b m h s : hm_inv m h s -> exists b, inv_b m h s b.
Proof. intros (H1 & H2 & H3 & H4 & H5 & b & H6 & H7 & H8). exists b. repeat (split; [assumption|]). assumption. Qed.

(** the lookup of a key that only [x] has *)
Lemma find_only m h s x : hm_inv m h s -> NoDup (map key s) -> In x s -> find_key ops fuel m h (key x) (hash_key ops (key x)) = Some x /\ x <> NULL.
Proof.
  intros HI N Hx. destruct (find_key_ok ops key fuel U LAW FU m h s (key x) HI) as (r & E & [[_ D]|(D1 & D2 & D3)]); [exfalso; apply (D x Hx); reflexivity|].
  assert (r = x) by (apply (nodup_key key s); assumption). subst r. auto.
Qed.
Lemma remove_at m h s b i l1 x l2 : inv_b m h s b -> 0 <= i < h_capacity h -> b i = l1 ++ x :: l2 -> exists m' s', hashtbl_del m x = Some m' /\ Permutation s (x :: s') /\
  inv_b m' {| h_buckets := h_buckets h; h_bits := h_bits h; h_capacity := h_capacity h; h_used := w64 (h_used h - 1) |} s' (setb b i (l1 ++ l2)).
Proof.
  intros (NE & IS & HU & SH & HD & HL & HP & HC) Hi El. destruct (table_pull (h_buckets h) (h_capacity h) b i Hi) as (Q & T & PT & PC & PQ).
  pose proof (lists_perm _ _ _ PT HL) as L1. unfold bucket in L1. rewrite El in L1, PC. destruct (lists_del m _ l1 x l2 Q L1) as [_ (m' & E & L2)].
  assert (PE : Permutation s (x :: l1 ++ l2 ++ T)).
  { eapply Permutation_trans; [exact HC|]. eapply Permutation_trans; [exact PC|]. rewrite <- app_assoc. apply Permutation_sym. cbn [app]. apply Permutation_middle. }
  exists m', (l1 ++ l2 ++ T). split; [exact E|]. split; [exact PE|].
  split; [apply (nodes_keeps U m m' (keeps_hdeli _ _ _ E)), NE|]. split; [intros y Hy; apply IS, (Permutation_in _ (Permutation_sym PE)); right; exact Hy|].
  split; [cbn [h_used]; rewrite HU; unfold zlen; rewrite (Permutation_length PE); cbn [length]; unfold w64; rewrite Zminus_mod_idemp_l; f_equal; lia|]. split; [exact SH|]. split; [exact HD|]. cbn [h_buckets h_capacity].
  destruct (PQ (l1 ++ l2)) as [P1 P2]. split; [apply (lists_perm _ _ _ (Permutation_sym P1)), L2|]. split.
  - apply placed_set; [exact HP|]. intros y Hy. rewrite El. left. apply in_app_iff in Hy. apply in_or_app. destruct Hy as [Hy|Hy]; [left; exact Hy|right; right; exact Hy].
  - eapply Permutation_trans; [|apply Permutation_sym, P2]. rewrite <- app_assoc. apply Permutation_refl.
Qed.
Lemma in_bucket m h s b i x : inv_b m h s b -> 0 <= i < h_capacity h -> In x (b i) -> In x s.
Proof. intros (_ & _ & _ & _ & _ & _ & _ & HC) Hi Hx. apply (Permutation_in _ (Permutation_sym HC)), in_contents. exists i. auto. Qed.
Lemma bucket_next m h s b i l1 x l2 : inv_b m h s b -> 0 <= i < h_capacity h -> b i = l1 ++ x :: l2 -> x <> NULL /\ m x LINK = Some (hd NULL l2).
Proof.
  intros (_ & _ & _ & _ & _ & HL & _) Hi El. pose proof (hlist_in fuel U FU _ _ _ _ _ HL Hi) as H. rewrite El in H. apply (slist_next _ _ _ _ _ (hlist_slist _ _ _ H)).
Qed.
Lemma bucket_head m h s b i : inv_b m h s b -> 0 <= i < h_capacity h -> m (idx_head (h_buckets h) (h_capacity h) i) LINK = Some (hd NULL (b i)).
Proof.
  intros (_ & _ & _ & SH & _ & HL & _) Hi. destruct SH as [(C & _)|(Hb & Ec & _)]; [lia|].
  assert (Eh : idx_head (h_buckets h) (h_capacity h) i = head_at (h_buckets h) i) by (rewrite Ec; apply idx_head_id; lia). rewrite Eh.
  destruct (hlist_in fuel U FU _ _ _ _ _ HL Hi) as [_ H]. apply spath_link, hlist_spath, H.
Qed.
Lemma nodup_key_perm s x s' : NoDup (map key s) -> Permutation s (x :: s') -> NoDup (map key s').
Proof. intros N P. apply (Permutation_map key) in P. apply (Permutation_NoDup P) in N. cbn [map] in N. apply NoDup_cons_iff in N. apply N. Qed.

Lemma shape_cap h : shape h -> 0 <= h_capacity h.
Proof. intros [(-> & _)|(Hb & -> & _)]; [lia|apply Z.pow_nonneg; lia]. Qed.
Lemma for_each_b m h s b : inv_b m h s b -> for_each fuel m h = Some (contents (h_capacity h) b).
Proof.
  intros HI. pose proof HI as (_ & _ & _ & SH & _ & HL & _ & HC). unfold for_each. apply (visit_ok ops fuel U FU m h s b (inv_b_inv _ _ _ _ HI) HL HC); [lia|]. pose proof (shape_cap h SH). lia.
Qed.

Variable drop : Z -> bool.
Notation body := (del_body ops key al fuel drop).
Notation kept := (filter (fun x => negb (drop x))).

(** ** While the table is never shrunk *)
Section Still.
Hypothesis NS : forall h, need_shrink ops h = false.
Lemma del_at m h s b i l1 x l2 : inv_b m h s b -> NoDup (map key s) -> 0 <= i < h_capacity h -> b i = l1 ++ x :: l2 -> exists m' h' s', del ops al fuel m h (key x) = Some (m', h', (0, x)) /\ Permutation s (x :: s') /\
  inv_b m' h' s' (setb b i (l1 ++ l2)) /\ h_capacity h' = h_capacity h.
Proof.
  intros HI N Hi El. assert (Hx : In x s) by (apply (in_bucket m h s b i x HI Hi); rewrite El; apply in_or_app; right; left; reflexivity).
  destruct (find_only m h s x (inv_b_inv _ _ _ _ HI) N Hx) as [Ef Nx]. destruct (remove_at m h s b i l1 x l2 HI Hi El) as (m' & s' & E & P & HI').
  eexists m', _, s'. split; [|split; [exact P|split; [exact HI'|reflexivity]]]. unfold del. rewrite Ef, (proj2 (Z.eqb_neq _ _) Nx), E, NS. reflexivity.
Qed.
Lemma chain_still i cap : 0 <= i < cap -> forall l2 l1 m h s b n tmp, inv_b m h s b -> NoDup (map key s) -> h_capacity h = cap -> b i = l1 ++ l2 -> (length l2 <= n)%nat -> (l2 <> [] -> m (hd NULL l2) LINK = Some tmp) ->
  exists m' h' s' b', chain_safe n body m h (hd NULL l2) tmp = Some (l2, (m', h')) /\ inv_b m' h' s' b' /\ NoDup (map key s') /\ h_capacity h' = cap /\ b' i = l1 ++ kept l2 /\ forall j, j <> i -> b' j = b j.
Proof.
  intros Hi. induction l2 as [|x l2 IH]; intros l1 m h s b n tmp HI N Hc El Hn Ht.
  - exists m, h, s, b. cbn [hd filter]. split; [destruct n; reflexivity|]. auto 6.
  - cbn [length] in Hn. destruct n as [|n]; [lia|]. cbn [hd chain_safe filter] in *. rewrite <- Hc in Hi. destruct (bucket_next m h s b i l1 x l2 HI Hi El) as [Nx Lx]. rewrite (proj2 (Z.eqb_neq _ _) Nx).
    assert (Et : tmp = hd NULL l2) by (specialize (Ht ltac:(discriminate)); rewrite Lx in Ht; congruence). subst tmp. unfold del_body at 1. destruct (drop x) eqn:Ed; cbn [negb].
    + destruct (del_at m h s b i l1 x l2 HI N Hi El) as (m1 & h1 & s1 & E1 & P1 & HI1 & Hc1). rewrite E1.
      assert (Hi1 : 0 <= i < h_capacity h1) by (rewrite Hc1; exact Hi). assert (El1 : setb b i (l1 ++ l2) i = l1 ++ l2) by (unfold setb; rewrite Z.eqb_refl; reflexivity).
      assert (Hx : exists tmp', (if hd NULL l2 =? NULL then Some (hd NULL l2) else ld m1 (hd NULL l2) LINK) = Some tmp' /\ (l2 <> [] -> m1 (hd NULL l2) LINK = Some tmp')).
      { destruct l2 as [|y l3]; [exists NULL; split; [reflexivity|congruence]|]. cbn [hd]. destruct (bucket_next m1 h1 s1 _ i l1 y l3 HI1 Hi1 El1) as [Ny Ly]. rewrite (proj2 (Z.eqb_neq _ _) Ny). unfold ld. eauto. }
      destruct Hx as (tmp' & Ex & Hx). rewrite Ex.
      destruct (IH l1 m1 h1 s1 _ n tmp' HI1 (nodup_key_perm _ _ _ N P1) ltac:(congruence) El1 ltac:(lia) Hx) as (m' & h' & s' & b' & E2 & HI2 & N2 & Hc2 & Eb & Ej). rewrite E2.
      exists m', h', s', b'. split; [reflexivity|]. split; [exact HI2|]. split; [exact N2|]. split; [exact Hc2|]. split; [exact Eb|]. intros j Hj. rewrite Ej by exact Hj. unfold setb. rewrite (proj2 (Z.eqb_neq _ _) Hj). reflexivity.
    + assert (El1 : b i = (l1 ++ [x]) ++ l2) by (rewrite <- app_assoc; exact El).
      assert (Hx : exists tmp', (if hd NULL l2 =? NULL then Some (hd NULL l2) else ld m (hd NULL l2) LINK) = Some tmp' /\ (l2 <> [] -> m (hd NULL l2) LINK = Some tmp')).
      { destruct l2 as [|y l3]; [exists NULL; split; [reflexivity|congruence]|]. cbn [hd]. destruct (bucket_next m h s _ i (l1 ++ [x]) y l3 HI Hi El1) as [Ny Ly]. rewrite (proj2 (Z.eqb_neq _ _) Ny). unfold ld. eauto. }
      destruct Hx as (tmp' & Ex & Hx). rewrite Ex.
      destruct (IH (l1 ++ [x]) m h s b n tmp' HI N Hc El1 ltac:(lia) Hx) as (m' & h' & s' & b' & E2 & HI2 & N2 & Hc2 & Eb & Ej). rewrite E2.
      exists m', h', s', b'. split; [reflexivity|]. split; [exact HI2|]. split; [exact N2|]. split; [exact Hc2|]. split; [rewrite Eb, <- app_assoc; reflexivity|exact Ej].
Qed.
Lemma map_still cap : forall n i m h s b, 0 <= i -> i + Z.of_nat n = cap -> inv_b m h s b -> NoDup (map key s) -> h_capacity h = cap ->
  exists m' h' s' b', map_safe_from n fuel body m h i = Some (flat_map b (zseq i n), (m', h')) /\ inv_b m' h' s' b' /\ h_capacity h' = cap /\ (forall j, i <= j < cap -> b' j = kept (b j)) /\ forall j, j < i -> b' j = b j.
Proof.
  induction n as [|n IH]; intros i m h s b Hi Hs HI N Hc.
  - exists m, h, s, b. cbn [map_safe_from zseq flat_map]. rewrite (proj2 (Z.leb_le _ _)) by lia. split; [reflexivity|]. split; [exact HI|]. split; [exact Hc|]. split; [intros; lia|auto].
  - cbn [map_safe_from zseq flat_map]. rewrite (proj2 (Z.leb_gt _ _)) by lia. assert (Hic : 0 <= i < cap) by lia. assert (Hih : 0 <= i < h_capacity h) by lia.
    unfold ld. rewrite (bucket_head m h s b i HI Hih).
    assert (Ht : exists tmp, (if hd NULL (b i) =? NULL then Some 0 else m (hd NULL (b i)) LINK) = Some tmp /\ (b i <> [] -> m (hd NULL (b i)) LINK = Some tmp)).
    { destruct (b i) as [|x l] eqn:Eb; [exists 0; split; [reflexivity|congruence]|]. cbn [hd]. destruct (bucket_next m h s b i [] x l HI Hih Eb) as [Nx Lx]. rewrite (proj2 (Z.eqb_neq _ _) Nx). eauto. }
    destruct Ht as (tmp & Et & Ht). rewrite Et.
    assert (Hl : (length (b i) <= fuel)%nat) by (pose proof HI as (_ & _ & _ & _ & _ & HL & _ & HC); apply (bucket_len ops fuel U FU m h s b i (inv_b_inv _ _ _ _ HI) HL HC Hih)).
    destruct (chain_still i cap Hic (b i) [] m h s b fuel tmp HI N Hc eq_refl Hl Ht) as (m1 & h1 & s1 & b1 & E1 & HI1 & N1 & Hc1 & Eb & Ej). rewrite E1. cbn [fst snd app] in *.
    destruct (IH (i + 1) m1 h1 s1 b1 ltac:(lia) ltac:(lia) HI1 N1 Hc1) as (m2 & h2 & s2 & b2 & E2 & HI2 & Hc2 & Eb2 & Ej2). rewrite E2.
    assert (Er : flat_map b1 (zseq (i + 1) n) = flat_map b (zseq (i + 1) n)).
    { rewrite !flat_map_concat_map. f_equal. apply map_ext_in. intros j Hj. apply zseq_in in Hj. apply Ej. lia. }
    rewrite Er. exists m2, h2, s2, b2. split; [reflexivity|]. split; [exact HI2|]. split; [exact Hc2|]. split.
    + intros j Hj. destruct (Z.eq_dec j i) as [->|Nj]; [rewrite Ej2 by lia; exact Eb|]. rewrite Eb2 by lia. rewrite Ej by exact Nj. reflexivity.
    + intros j Hj. rewrite Ej2 by lia. apply Ej. lia.
Qed.
Lemma kept_contents cap b b' : (forall j, 0 <= j < cap -> b' j = kept (b j)) -> contents cap b' = kept (contents cap b).
Proof.
  intros H. unfold contents. assert (G : forall j, In j (zseq 0 (Z.to_nat cap)) -> b' j = kept (b j)) by (intros j Hj; apply zseq_in in Hj; apply H; lia). revert G. generalize (zseq 0 (Z.to_nat cap)). induction l as [|j l IH]; intros G; [reflexivity|].
  cbn [flat_map]. rewrite filter_app, <- (G j), IH; [reflexivity| |left; reflexivity]. intros k Hk. apply G. right. exact Hk.
Qed.
Lemma map_safe_still m h s : hm_inv m h s -> NoDup (map key s) -> exists l m' h', map_safe (Z.to_nat (h_capacity h)) fuel body m h = Some (l, (m', h')) /\
  for_each fuel m h = Some l /\ Permutation s l /\ for_each fuel m' h' = Some (kept l) /\ hm_inv m' h' (kept l).
Proof.
  intros HI N. apply inv_inv_b in HI. destruct HI as [b HI]. pose proof HI as (_ & _ & _ & SH & _ & _ & _ & HC).
  pose proof (shape_cap h SH) as Hc0.
  destruct (map_still (h_capacity h) (Z.to_nat (h_capacity h)) 0 m h s b ltac:(lia) ltac:(lia) HI N eq_refl) as (m' & h' & s' & b' & E & HI' & Hc & Eb & _).
  exists (contents (h_capacity h) b), m', h'. split; [exact E|]. split; [apply (for_each_b m h s b HI)|]. split; [exact HC|].
  rewrite <- (kept_contents (h_capacity h) b b' Eb). rewrite <- Hc. split; [apply (for_each_b m' h' s' b' HI')|].
  pose proof HI' as (_ & _ & _ & _ & _ & _ & _ & HC'). apply (inv_perm ops U m' h' s' _ HC'), (inv_b_inv _ _ _ _ HI').
Qed.
End Still.

(** ** Any policy: the loop comes to an end and never leaves the map *)
Lemma del_any m h s x : hm_inv m h s -> NoDup (map key s) -> In x s -> exists m' h' s', del ops al fuel m h (key x) = Some (m', h', (0, x)) /\ Permutation s (x :: s') /\
  hm_inv m' h' s' /\ 0 < h_capacity h' <= h_capacity h.
Proof.
  intros HI N Hx. destruct (find_only m h s x HI N Hx) as [Ef Nx]. apply inv_inv_b in HI. destruct HI as [b HI]. pose proof HI as (_ & _ & _ & SH & _ & _ & _ & HC).
  pose proof Hx as Hx'. apply (Permutation_in _ HC), in_contents in Hx'. destruct Hx' as (i & Hi & Hb). apply in_split in Hb. destruct Hb as (l1 & l2 & El).
  destruct (remove_at m h s b i l1 x l2 HI Hi El) as (m1 & s' & E & P & HI'). unfold del. rewrite Ef, (proj2 (Z.eqb_neq _ _) Nx), E. set (h1 := {| h_buckets := _ |}) in *. apply inv_b_inv in HI'.
  destruct (need_shrink ops h1); [|exists m1, h1, s'; split; [reflexivity|]; split; [exact P|]; split; [exact HI'|]; cbn [h1 h_capacity]; lia].
  destruct SH as [(C & _)|(Hb & Ec & _)]; [lia|]. assert (Eb1 : h_bits h1 = h_bits h) by reflexivity.
  assert (Hr : 4 <= (if w32 (h_bits h1 - 1) <? MIN_BITS then MIN_BITS else w32 (h_bits h1 - 1)) <= h_bits h).
  { unfold MIN_BITS. assert (Ew : w32 (h_bits h1 - 1) = h_bits h - 1) by (unfold w32; rewrite Eb1; apply Z.mod_small; lia). rewrite Ew. destruct (Z.ltb_spec (h_bits h - 1) 4); lia. }
  assert (H60 : 60 <= 61) by lia. unfold hm_shrink. destruct (rehash_ok ops al fuel U AL FU m1 h1 s' _ HI' (conj (proj1 Hr) (Z.le_trans _ _ 61 (proj2 Hr) (Z.le_trans _ 60 _ (proj2 Hb) H60)))) as [[E2 _]|(m2 & h2 & E2 & HI2 & Eb2 & Nc2)]; rewrite E2.
  - exists m1, h1, s'. split; [reflexivity|]. split; [exact P|]. split; [exact HI'|]. cbn [h1 h_capacity]. lia.
  - exists m2, h2, s'. split; [reflexivity|]. split; [exact P|]. split; [exact HI2|]. pose proof HI2 as (_ & _ & _ & SH2 & _). destruct SH2 as [(C & _)|(Hb2 & Ec2 & _)]; [contradiction|]. rewrite Ec, Ec2. split; [apply Z.pow_pos_nonneg; lia|apply Z.pow_le_mono_r; lia].
Qed.
(** [l] is the rest of some bucket *)
Definition tail_of (m : mem) (h : hmap) (s l : list Z) : Prop := exists b i l1, inv_b m h s b /\ 0 <= i < h_capacity h /\ b i = l1 ++ l.
Lemma tail_nil m h s : hm_inv m h s -> 0 < h_capacity h -> tail_of m h s [].
Proof. intros HI Hc. apply inv_inv_b in HI. destruct HI as [b HI]. exists b, 0, (b 0). rewrite app_nil_r. split; [exact HI|]. split; [lia|reflexivity]. Qed.
Lemma tail_at m h s x : hm_inv m h s -> In x s -> exists l, tail_of m h s (x :: l).
Proof.
  intros HI Hx. apply inv_inv_b in HI. destruct HI as [b HI]. pose proof HI as (_ & _ & _ & _ & _ & _ & _ & HC). apply (Permutation_in _ HC), in_contents in Hx. destruct Hx as (i & Hi & Hb). apply in_split in Hb. destruct Hb as (l1 & l2 & El).
  exists l2, b, i, l1. auto.
Qed.
Lemma tail_in m h s l : tail_of m h s l -> incl l s.
Proof. intros (b & i & l1 & HI & Hi & El) x Hx. apply (in_bucket m h s b i x HI Hi). rewrite El. apply in_or_app. right. exact Hx. Qed.
Lemma tail_len m h s l : tail_of m h s l -> (length l <= length s)%nat.
Proof.
  intros (b & i & l1 & HI & Hi & El). pose proof HI as (_ & _ & _ & _ & _ & _ & _ & HC). rewrite (Permutation_length HC). destruct (table_pull (h_buckets h) (h_capacity h) b i Hi) as (Q & T & _ & PC & _). rewrite (Permutation_length PC), El, !app_length. lia.
Qed.
Lemma tail_next m h s x l : tail_of m h s (x :: l) -> x <> NULL /\ m x LINK = Some (hd NULL l) /\ tail_of m h s l.
Proof.
  intros (b & i & l1 & HI & Hi & El). destruct (bucket_next m h s b i l1 x l HI Hi El) as [Nx Lx]. split; [exact Nx|]. split; [exact Lx|]. exists b, i, (l1 ++ [x]). split; [exact HI|]. split; [exact Hi|]. rewrite <- app_assoc. exact El.
Qed.
Lemma tail_inv m h s l : tail_of m h s l -> hm_inv m h s /\ 0 < h_capacity h.
Proof. intros (b & i & l1 & HI & Hi & El). split; [apply (inv_b_inv _ _ _ _ HI)|lia]. Qed.
Lemma tail_nodup m h s x l : tail_of m h s (x :: l) -> ~ In x l.
Proof.
  intros (b & i & l1 & HI & Hi & El) C. pose proof HI as (_ & _ & _ & _ & _ & HL & _). destruct (hlist_in fuel U FU _ _ _ _ _ HL Hi) as [D _]. rewrite El in D. apply NoDup_cons_iff in D. destruct D as [_ D]. apply NoDup_remove_2 in D. apply D, in_or_app. right. exact C.
Qed.
Lemma perm_in_tail (s : list Z) x s' y : Permutation s (x :: s') -> NoDup s -> (In y s' <-> In y s /\ y <> x).
Proof.
  intros P N. assert (N' : NoDup (x :: s')) by (apply (Permutation_NoDup P N)). apply NoDup_cons_iff in N'. split.
  - intros H. split; [apply (Permutation_in _ (Permutation_sym P)); right; exact H|intros ->; tauto].
  - intros [H1 H2]. apply (Permutation_in _ P) in H1. destruct H1 as [<-|H1]; [congruence|exact H1].
Qed.
Definition left_over (s v s' : list Z) : Prop := forall y, In y s' <-> In y s /\ ~ (drop y = true /\ In y v).
Lemma chain_any : forall n l m h s tmp, tail_of m h s l -> NoDup (map key s) -> (length l + length s * length s <= n)%nat -> (l <> [] -> m (hd NULL l) LINK = Some tmp) ->
  exists v m' h' s', chain_safe n body m h (hd NULL l) tmp = Some (v, (m', h')) /\ hm_inv m' h' s' /\ NoDup (map key s') /\ 0 < h_capacity h' <= h_capacity h /\ incl v s /\ left_over s v s'.
Proof.
  induction n as [|n IH]; intros l m h s tmp HT N Hn Ht; (destruct l as [|x l]; [|cbn [length] in Hn]).
  - exists [], m, h, s. destruct (tail_inv _ _ _ _ HT) as [HI Hc]. cbn [hd chain_safe]. split; [reflexivity|]. split; [exact HI|]. split; [exact N|]. split; [lia|]. split; [intros y []|]. intros y. cbn [In]. tauto.
  - lia.
  - exists [], m, h, s. destruct (tail_inv _ _ _ _ HT) as [HI Hc]. cbn [hd chain_safe]. split; [reflexivity|]. split; [exact HI|]. split; [exact N|]. split; [lia|]. split; [intros y []|]. intros y. cbn [In]. tauto.
  - destruct (tail_next _ _ _ _ _ HT) as (Nx & Lx & HT'). destruct (tail_inv _ _ _ _ HT) as [HI Hc]. cbn [hd chain_safe] in *. rewrite (proj2 (Z.eqb_neq _ _) Nx).
    assert (Et : tmp = hd NULL l) by (specialize (Ht ltac:(discriminate)); rewrite Lx in Ht; congruence). subst tmp. assert (Hx : In x s) by (apply (tail_in _ _ _ _ HT); left; reflexivity).
    pose proof (nodup_inv ops U m h s HI) as Ns. unfold del_body at 1. destruct (drop x) eqn:Ed.
    + destruct (del_any m h s x HI N Hx) as (m1 & h1 & s1 & E1 & P1 & HI1 & Hc1). rewrite E1.
      assert (G : exists l' tmp', tail_of m1 h1 s1 l' /\ hd NULL l' = hd NULL l /\ (if hd NULL l =? NULL then Some (hd NULL l) else ld m1 (hd NULL l) LINK) = Some tmp' /\ (l' <> [] -> m1 (hd NULL l') LINK = Some tmp')).
      { destruct l as [|y l]; [exists [], NULL; cbn [hd]; split; [apply tail_nil; [exact HI1|lia]|]; split; [reflexivity|]; split; [reflexivity|congruence]|]. cbn [hd].
        assert (Hy : In y s1) by (apply (perm_in_tail s x s1 y P1 Ns); split; [apply (tail_in _ _ _ _ HT); right; left; reflexivity|intros ->; apply (tail_nodup _ _ _ _ _ HT); left; reflexivity]).
        destruct (tail_at m1 h1 s1 y HI1 Hy) as [l' HT1]. destruct (tail_next _ _ _ _ _ HT1) as (Ny & Ly & _). exists (y :: l'), (hd NULL l'). cbn [hd]. rewrite (proj2 (Z.eqb_neq _ _) Ny). unfold ld. auto. }
      destruct G as (l' & tmp' & HT1 & Eh & Et & Ht1). rewrite Et. rewrite <- Eh. pose proof (tail_len _ _ _ _ HT1) as Hl1. pose proof (Permutation_length P1) as Pl. cbn [length] in Pl.
      destruct (IH l' m1 h1 s1 tmp' HT1 (nodup_key_perm _ _ _ N P1)) as (v & m' & h' & s' & E2 & HI2 & N2 & Hc2 & Iv & LO); [rewrite Pl in Hn; clear - Hn Hl1; nia|exact Ht1|].
      rewrite E2. exists (x :: v), m', h', s'. split; [reflexivity|]. split; [exact HI2|]. split; [exact N2|]. split; [lia|]. split.
      * intros y [<-|Hy]; [exact Hx|]. apply (perm_in_tail s x s1 y P1 Ns), Iv, Hy.
      * intros y. rewrite (LO y), (perm_in_tail s x s1 y P1 Ns). cbn [In]. destruct (Z.eq_dec x y) as [<-|Ny]; [rewrite Ed; tauto|]. clear - Ny. intuition congruence.
    + assert (G : exists tmp', (if hd NULL l =? NULL then Some (hd NULL l) else ld m (hd NULL l) LINK) = Some tmp' /\ (l <> [] -> m (hd NULL l) LINK = Some tmp')).
      { destruct l as [|y l]; [exists NULL; split; [reflexivity|congruence]|]. cbn [hd]. destruct (tail_next _ _ _ _ _ HT') as (Ny & Ly & _). rewrite (proj2 (Z.eqb_neq _ _) Ny). unfold ld. eauto. }
      destruct G as (tmp' & Et & Ht1). rewrite Et. destruct (IH l m h s tmp' HT' N ltac:(lia) Ht1) as (v & m' & h' & s' & E2 & HI2 & N2 & Hc2 & Iv & LO). rewrite E2.
      exists (x :: v), m', h', s'. split; [reflexivity|]. split; [exact HI2|]. split; [exact N2|]. split; [exact Hc2|]. split; [intros y [<-|Hy]; [exact Hx|apply Iv, Hy]|].
      intros y. rewrite (LO y). cbn [In]. destruct (Z.eq_dec x y) as [<-|Ny]; [rewrite Ed; clear; intuition congruence|]. clear - Ny. intuition congruence.
Qed.
Lemma map_any : forall n i m h s nf, 0 <= i -> h_capacity h <= i + Z.of_nat n -> hm_inv m h s -> NoDup (map key s) -> (length s + length s * length s <= nf)%nat ->
  exists v m' h' s', map_safe_from n nf body m h i = Some (v, (m', h')) /\ hm_inv m' h' s' /\ NoDup (map key s') /\ incl v s /\ left_over s v s'.
Proof.
  induction n as [|n IH]; intros i m h s nf Hi Hs HI N Hf; cbn [map_safe_from]; destruct (Z.leb_spec (h_capacity h) i) as [Hc|Hc].
  1, 3: exists [], m, h, s; split; [reflexivity|]; split; [exact HI|]; split; [exact N|]; split; [intros y []|]; intros y; cbn [In]; tauto.
  - lia.
  - pose proof HI as HI0. apply inv_inv_b in HI0. destruct HI0 as [b HI0]. assert (Hih : 0 <= i < h_capacity h) by lia. unfold ld at 1. rewrite (bucket_head m h s b i HI0 Hih).
    assert (HT : tail_of m h s (b i)) by (exists b, i, []; auto).
    assert (Ht : exists tmp, (if hd NULL (b i) =? NULL then Some 0 else ld m (hd NULL (b i)) LINK) = Some tmp /\ (b i <> [] -> m (hd NULL (b i)) LINK = Some tmp)).
    { destruct (b i) as [|x l] eqn:Eb; [exists 0; split; [reflexivity|congruence]|]. cbn [hd]. destruct (tail_next _ _ _ _ _ HT) as (Nx & Lx & _). rewrite (proj2 (Z.eqb_neq _ _) Nx). unfold ld. eauto. }
    destruct Ht as (tmp & Et & Ht). rewrite Et. pose proof (tail_len _ _ _ _ HT) as Hl.
    destruct (chain_any nf (b i) m h s tmp HT N ltac:(lia) Ht) as (v & m1 & h1 & s1 & E1 & HI1 & N1 & Hc1 & Iv & LO). rewrite E1. cbn [fst snd].
    assert (Is : incl s1 s) by (intros y Hy; apply LO in Hy; apply Hy). pose proof (nodup_inv ops U m1 h1 s1 HI1) as Ns1. pose proof (NoDup_incl_length Ns1 Is) as Hl1.
    destruct (IH (i + 1) m1 h1 s1 nf ltac:(lia) ltac:(lia) HI1 N1 ltac:(nia)) as (v2 & m2 & h2 & s2 & E2 & HI2 & N2 & Iv2 & LO2). rewrite E2.
    exists (v ++ v2), m2, h2, s2. split; [reflexivity|]. split; [exact HI2|]. split; [exact N2|]. split.
    + intros y Hy. apply in_app_iff in Hy. destruct Hy as [Hy|Hy]; [apply Iv, Hy|apply Is, Iv2, Hy].
    + intros y. rewrite (LO2 y), (LO y), in_app_iff. tauto.
Qed.
End Map.
