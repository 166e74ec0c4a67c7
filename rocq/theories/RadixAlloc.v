(** * Proofs about the radix array: allocation *)
From Verif Require Import Lib BitsModel BitsProofs BitmapSpec BitmapProofs RadixModel RadixSpec RadixProofs RadixOps.
Ltac Zify.zify_post_hook ::= Z.div_mod_to_equations.

Lemma view_ext : forall h loc h' loc' p, loc' 0 p = loc 0 p -> (loc 0 p <> 0 -> h' (loc 0 p) = h (loc 0 p)) -> view h' loc' p = view h loc p.
Proof. intros h loc h' loc' p A B. unfold view. rewrite A. destruct (Z.eqb_spec (loc 0 p) 0); [reflexivity|]. rewrite B by assumption. reflexivity. Qed.
(** branches may be empty once an allocation has failed *)
Definition xs (ok : bool) : Z -> Z -> Prop := fun l _ => ok = false /\ 0 < l.
Lemma hset_twice : forall h n a b m, hset (hset h n a) n b m = hset h n b m.
Proof. intros. unfold hset. destruct (m =? n); reflexivity. Qed.

Section Ops.
Variable al : nat -> heap -> Z.
Hypothesis AL : allocator al.
Lemma zalloc_ok : forall s, born al s -> exists s1 n, zalloc al s = (s1, n) /\ r_node s1 = r_node s /\ r_level s1 = r_level s /\ r_clock s1 = S (r_clock s) /\
  (n = 0 /\ may_fail al /\ r_heap s1 = r_heap s \/ 0 < n /\ r_heap s n = None /\ (forall m, r_heap s m <> None -> NODE <= Z.abs (n - m)) /\ r_heap s1 = hset (r_heap s) n zeros) /\ born al s1.
Proof.
  intros s B. unfold zalloc. eexists _, _. split; [reflexivity|]. cbn [r_node r_level r_heap r_clock]. split; [reflexivity|]. split; [reflexivity|]. split; [reflexivity|].
  set (n := al (r_clock s) (r_heap s)). unfold NULL. destruct (AL (r_clock s) (r_heap s) B) as [Z0|[P A]].
  - fold n in Z0. rewrite Z0. cbn. split; [left; split; [reflexivity|]; split; [exists (r_clock s), (r_heap s); exact Z0|reflexivity]|].
    intros m Hm. cbn [r_clock r_heap] in *. destruct (B m Hm) as (j & h' & Hj & Ej). exists j, h'. split; [lia|exact Ej].
  - fold n in P, A. destruct (Z.eqb_spec n 0) as [|_]; [lia|]. split.
    + right. split; [exact P|]. split; [|split; [exact A|reflexivity]]. destruct (r_heap s n) eqn:Hn; [|reflexivity]. specialize (A n ltac:(congruence)). unfold NODE in A. lia.
    + intros m Hm. cbn [r_clock r_heap] in *. destruct (Z.eq_dec m n) as [->|N]; [exists (r_clock s), (r_heap s); split; [lia|reflexivity]|].
      unfold hset in Hm. destruct (Z.eqb_spec m n); [contradiction|]. destruct (B m Hm) as (j & h' & Hj & Ej). exists j, h'. split; [lia|exact Ej].
Qed.
Lemma born_ext : forall s s', born al s -> (r_clock s <= r_clock s')%nat -> (forall n, r_heap s' n <> None -> r_heap s n <> None) -> born al s'.
Proof. intros s s' B C H n Hn. destruct (B n (H n Hn)) as (j & h' & Hj & Ej). exists j, h'. split; [lia|exact Ej]. Qed.

Lemma extend_ok : forall X o n s loc, 0 <= o < 2 ^ 63 -> good al X no_e s loc -> 12 - r_level s + (if r_node s =? 0 then 1 else 0) <= Z.of_nat n ->
  exists s' node loc', extend_from al n s o = Some (s', node) /\ good al X no_e s' loc' /\ grow (view_of s loc) (view_of s' loc') /\
    (node = 0 -> may_fail al /\ loc' 0 (o / 256) = 0) /\ (node <> 0 -> node = r_node s' /\ o < 2 ^ (5 * r_level s' + 8)).
Proof.
  intros X o n. induction n as [|n IH]; intros s loc Ho [I B] Hn; pose proof (i_level _ _ _ _ _ _ I) as HL.
  { destruct (r_node s =? 0); lia. }
  cbn [extend_from]. unfold NULL. rewrite ilog2_log2 by lia. unfold depth_shift.
  pose proof (log2_lt o (5 * r_level s + 8) ltac:(lia) ltac:(lia)) as LG.
  destruct (negb (r_node s =? 0) && (Z.log2 o <? 5 * r_level s + 8)) eqn:ST.
  { apply andb_prop in ST. destruct ST as [S1 S2]. apply negb_true_iff, Z.eqb_neq in S1. apply Z.ltb_lt in S2. exists s, (r_node s), loc. split; [reflexivity|]. split; [split; assumption|]. split; [apply grow_refl|].
    split; [contradiction|]. intros _. split; [reflexivity|tauto]. }
  destruct (zalloc_ok s B) as (s1 & succ & ZA & N1 & L1 & C1 & D & B1). rewrite ZA. destruct D as [(-> & MF & H1)|(P & F & A & H1)].
  { cbn [Z.eqb]. exists s1, 0, loc. split; [reflexivity|]. split; [split; [rewrite H1, N1, L1; exact I|exact B1]|]. split; [unfold view_of; rewrite H1; apply grow_refl|]. split; [|contradiction].
    intros _. split; [exact MF|]. destruct (Z.eqb_spec (r_node s) 0) as [Z0|NZ]; [exact (loc_none I Z0 0 _)|]. cbn [negb andb] in ST. apply Z.ltb_ge in ST.
    destruct (Z.eq_dec (loc 0 (o / 256)) 0) as [|N]; [assumption|exfalso]. destruct (i_range _ _ _ _ _ _ I 0 (o / 256) N) as [_ R].
    assert (o < 2 ^ (5 * r_level s + 8)); [|lia]. replace (5 * r_level s + 8) with (5 * (r_level s - 0) + 8) by lia. rewrite Z.pow_add_r by lia. change (2 ^ 8) with 256. lia. }
  destruct (Z.eqb_spec succ 0) as [|_]; [lia|]. rewrite H1, L1.
  destruct (Z.eqb_spec (r_node s) 0) as [Z0|NZ].
  - (* the first leaf *)
    unfold set_child. rewrite hset_same. change (wr (n_child zeros) 0 (r_node s)) with (Some (r_node s :: repeat 0 31)). rewrite Z0.
    set (s2 := {| r_heap := hset (hset (r_heap s) succ zeros) succ {| n_child := 0 :: repeat 0 31; n_bits := n_bits zeros |}; r_node := succ; r_level := r_level s; r_clock := r_clock s1 |}).
    assert (L0 : r_level s = 0) by exact (i_none _ _ _ _ _ _ I Z0).
    assert (I2 : inv X no_e (r_heap s2) succ 0 (upd2 loc 0 0 succ)).
    { apply (inv_ext (add_leaf_root I succ Z0 P)). intros m. cbn [s2 r_heap]. rewrite hset_twice. reflexivity. }
    destruct (IH s2 (upd2 loc 0 0 succ) Ho) as (s' & node & loc' & EX & G' & GR & R1 & R2).
    + split; [cbn [s2 r_level r_node r_clock]; rewrite L0; exact I2|]. apply (born_ext s1); [exact B1|cbn; lia|]. intros m. cbn [s2 r_heap]. rewrite H1. unfold hset. destruct (m =? succ); [discriminate|auto].
    + cbn [s2 r_level r_node]. destruct (Z.eqb_spec succ 0); lia.
    + exists s', node, loc'. split; [exact EX|]. split; [exact G'|]. split; [|split; assumption]. eapply grow_trans; [|exact GR].
      intros p. unfold view_of. destruct (upd2_cases _ loc 0 0 succ 0 p) as [(_ & -> & U)|[N U]].
      * right. split; [apply view_none, (loc_none I Z0)|]. exists succ. unfold view. rewrite U. destruct (Z.eqb_spec succ 0); [lia|]. cbn [s2 r_heap]. rewrite hset_twice, hset_same. reflexivity.
      * left. rewrite !view_none; [reflexivity|apply (loc_none I Z0)|]. rewrite U. apply (loc_none I Z0).
  - (* one level more *)
    cbn [negb andb] in ST. apply Z.ltb_ge in ST.
    assert (HL' : r_level s < 11). { destruct (Z.eq_dec (r_level s) 11) as [Eq|]; [|lia]. rewrite Eq in ST. change (5 * 11 + 8) with 63 in ST. pose proof (log2_lt o 63 ltac:(lia) ltac:(lia)). lia. }
    rewrite (get_ref_ok _ _ zeros 0) by (try reflexivity; try apply hset_same; lia).
    rewrite (set_ref_ok _ _ zeros 0) by (try reflexivity; try apply hset_same; lia).
    rewrite w32_small by lia. unfold set_child. rewrite hset_same. cbn [n_child n_bits]. change (wr (n_child zeros) 0 (r_node s)) with (Some (r_node s :: repeat 0 31)).
    set (s2 := {| r_heap := hset (hset (hset (r_heap s) succ zeros) succ {| n_child := n_child zeros; n_bits := [0 + 1; 0; 0; 0] |}) succ {| n_child := r_node s :: repeat 0 31; n_bits := [0 + 1; 0; 0; 0] |}; r_node := succ; r_level := r_level s + 1; r_clock := r_clock s1 |}).
    assert (HH : forall m, r_heap s2 m = hset (r_heap s) succ (root_of (r_node s)) m). { intros m. cbn [s2 r_heap]. rewrite !hset_twice. unfold hset. destruct (m =? succ); reflexivity. }
    assert (I2 : inv X no_e (r_heap s2) succ (r_level s + 1) (upd2 loc (r_level s + 1) 0 succ)).
    { apply (inv_ext (add_root I succ NZ HL' P F A eq_refl)). exact HH. }
    destruct (IH s2 (upd2 loc (r_level s + 1) 0 succ) Ho) as (s' & node & loc' & EX & G' & GR & R1 & R2).
    + split; [exact I2|]. apply (born_ext s1); [exact B1|cbn; lia|]. intros m. rewrite HH, H1. unfold hset. destruct (m =? succ); [discriminate|auto].
    + cbn [s2 r_level r_node]. destruct (Z.eqb_spec succ 0); lia.
    + exists s', node, loc'. split; [exact EX|]. split; [exact G'|]. split; [|split; assumption]. eapply grow_trans; [|exact GR]. apply grow_ext. intros p. unfold view_of. apply view_ext.
      * apply upd2_other. lia.
      * intros Np. rewrite HH. unfold hset. destruct (Z.eqb_spec (loc 0 p) succ) as [Q|]; [|reflexivity]. pose proof (loc_live I 0 p Np). rewrite Q in *. contradiction.
Qed.

Definition marked (o : Z) (v1 v' : Z -> option (Z * rnode)) (c : Z) : Prop :=
  exists n nd b, v1 (o / 256) = Some (n, nd) /\ v' (o / 256) = Some (n, {| n_child := n_child nd; n_bits := b |}) /\
    (forall k, 0 <= k -> mbit b 0 k = (k =? o mod 256) || mbit (n_bits nd) 0 k) /\ (forall p, p <> o / 256 -> v' p = v1 p) /\ c = n + o mod 256 /\ 0 < n.
Lemma down_ok : forall (X : Z -> Z -> Prop) o, 0 <= o < 2 ^ 63 -> (forall l, 0 <= l -> X l (pre l o)) ->
  forall n s loc node x, good al X no_e s loc -> Z.of_nat n <= r_level s -> node = loc (Z.of_nat n) (pre (Z.of_nat n) o) -> node <> 0 -> x = o mod 2 ^ (5 * Z.of_nat n + 8) ->
  exists s' c loc', alloc_down al n s node x = Some (s', c) /\ good al X no_e s' loc' /\ r_level s' = r_level s /\
    (c = 0 /\ may_fail al /\ loc' 0 (o / 256) = 0 /\ grow (view_of s loc) (view_of s' loc') \/
     (forall l, 0 <= l -> Z.of_nat n >= l -> loc' l (pre l o) <> 0) /\ (forall l p, loc l p <> 0 -> loc' l p <> 0) /\ exists v1, grow (view_of s loc) v1 /\ marked o v1 (view_of s' loc') c).
Proof.
  intros X o Ho HX. induction n as [|n IH]; intros s loc node x [I B] HL Hnode Hnz Hx; cbn [alloc_down]; pose proof (i_level _ _ _ _ _ _ I) as HLv.
  - cbn [Z.of_nat] in *. rewrite pre_0 in Hnode. change (2 ^ (5 * 0 + 8)) with 256 in Hx. rewrite Hnode in Hnz. destruct (view_some _ _ _ _ _ _ _ I Hnz) as (nd & V & Hn & Q1 & Q2 & Q3).
    rewrite Hnode, Hn. destruct (bit_set_ok (n_bits nd) x Q2 Q3 ltac:(lia)) as (b & BS & B1 & B2 & B3). rewrite BS. unfold set_bits. rewrite Hn.
    eexists _, _, loc. split; [reflexivity|]. cbn [with_heap r_heap r_node r_level r_clock]. split.
    { split.
      - cbn [with_heap r_heap r_node r_level]. refine (inv_weaken (set_leaf I (o / 256) {| n_child := n_child nd; n_bits := b |} Hnz Q1 B1 B2 _ (fun m => eq_refl)) X _).
        intros l p [H|[-> ->]]; [exact H|]. exact (HX 0 ltac:(lia)).
      - apply (born_ext s); [exact B|cbn; lia|]. intros m. cbn. unfold hset. destruct (Z.eqb_spec m (loc 0 (o / 256))) as [->|]; [intros _; congruence|auto]. }
    split; [reflexivity|]. right. split; [|split; [auto|]].
    { intros l H1 H2. replace l with 0 by lia. rewrite pre_0. exact Hnz. }
    exists (view_of s loc). split; [apply grow_refl|]. exists (loc 0 (o / 256)), nd, b. split; [exact V|]. split; [|split; [|split; [|split]]].
    + unfold view_of, view. cbn [with_heap r_heap]. destruct (Z.eqb_spec (loc 0 (o / 256)) 0); [contradiction|]. rewrite hset_same. reflexivity.
    + intros k Hk. rewrite B3 by exact Hk. subst x. reflexivity.
    + intros p Hp. unfold view_of. apply view_ext; [reflexivity|]. intros Np. cbn [with_heap r_heap]. unfold hset. destruct (Z.eqb_spec (loc 0 p) (loc 0 (o / 256))) as [Q|]; [|reflexivity].
      destruct (i_inj _ _ _ _ _ _ I _ _ _ _ Np Q). contradiction.
    + subst x. reflexivity.
    + exact (loc_pos I _ _ Hnz).
  - set (l := Z.of_nat n) in *. assert (Hl : Z.of_nat (S n) = l + 1) by (unfold l; lia). rewrite Hl in *.
    rewrite Hx, depth_index_ok by lia. rewrite mask_ok by lia. pose proof (path_child I (l + 1) o ltac:(lia) ltac:(congruence)) as PC. replace (l + 1 - 1) with l in PC by lia.
    rewrite <- Hnode in PC. rewrite PC. unfold NULL. destruct (Z.eqb_spec (loc l (pre l o)) 0) as [Z0|NZ].
    + destruct (zalloc_ok s B) as (s1 & newn & ZA & N1 & L1 & C1 & D & B1). rewrite ZA. destruct D as [(-> & MF & H1)|(P & F & A & H1)].
      * cbn [Z.eqb]. exists s1, 0, loc. split; [reflexivity|]. split; [split; [rewrite H1, N1, L1; exact I|exact B1]|]. split; [exact L1|]. left. split; [reflexivity|]. split; [exact MF|]. split; [apply (path_gap I l); [lia|exact Z0]|].
        unfold view_of. rewrite H1. apply grow_refl.
      * destruct (Z.eqb_spec newn 0) as [|_]; [lia|]. rewrite H1.
        assert (PS : pre l o / 32 = pre (l + 1) o) by (symmetry; apply pre_succ; lia).
        assert (Hnz' : loc (l + 1) (pre (l + 1) o) <> 0) by congruence.
        destruct (i_branch _ _ _ _ _ _ I (l + 1) (pre (l + 1) o) ltac:(lia) Hnz') as (nd & D1 & D2 & D3 & D4). unfold no_e in D4. rewrite Z.add_0_r in D4. rewrite <- Hnode in D1.
        assert (NN : node <> newn) by congruence.
        assert (D1' : hset (r_heap s) newn zeros node = Some nd). { unfold hset. destruct (Z.eqb_spec node newn); [contradiction|exact D1]. }
        destruct (wr_spec _ (n_child nd) (pre l o mod 32) newn ltac:(lia)) as (c & W & Lc & Rc).
        unfold set_child. rewrite D1', W.
        set (h2 := hset (hset (r_heap s) newn zeros) node {| n_child := c; n_bits := n_bits nd |}).
        pose proof (cnt_range (n_child nd)) as CR.
        rewrite (get_ref_ok h2 node {| n_child := c; n_bits := n_bits nd |} (cnt (n_child nd))) by (try apply hset_same; try exact D4; lia).
        rewrite (set_ref_ok h2 node {| n_child := c; n_bits := n_bits nd |} (cnt (n_child nd))) by (try apply hset_same; try exact D4; lia). cbn [n_child].
        set (h3 := hset h2 node {| n_child := c; n_bits := [cnt (n_child nd) + 1; 0; 0; 0] |}).
        assert (HH : forall m, h3 m = if m =? newn then Some zeros else if m =? loc (l + 1) (pre l o / 32) then Some {| n_child := c; n_bits := [cnt (n_child nd) + no_e (l + 1) (pre l o / 32) + 1; 0; 0; 0] |} else r_heap s m).
        { intros m. unfold h3, h2, no_e. rewrite hset_twice, PS, <- Hnode, Z.add_0_r. unfold hset. destruct (Z.eqb_spec m node) as [->|]; [|reflexivity]. destruct (Z.eqb_spec node newn); [contradiction|reflexivity]. }
        assert (I2 : inv X no_e h3 (r_node s) (r_level s) (upd2 loc l (pre l o) newn)).
        { refine (inv_weaken (add_child I newn l (pre l o) nd c P F A ltac:(lia) Z0 _ eq_refl _ W h3 HH) X _).
          - rewrite PS. exact Hnz'.
          - rewrite PS, <- Hnode. exact D1.
          - intros l' p' [H|[-> ->]]; [exact H|]. apply HX. lia. }
        destruct (IH (with_heap s1 h3) (upd2 loc l (pre l o) newn) newn (o mod 2 ^ (5 * l + 8))) as (s' & r' & loc' & AD & G' & LV & C).
        -- split; [cbn [with_heap r_heap r_node r_level]; rewrite N1, L1; exact I2|]. apply (born_ext s1); [exact B1|cbn; lia|]. intros m. cbn [with_heap r_heap]. rewrite HH, H1. unfold hset.
           destruct (m =? newn); [discriminate|]. destruct (Z.eqb_spec m (loc (l + 1) (pre l o / 32))) as [->|]; [|auto]. intros _. rewrite PS, <- Hnode. congruence.
        -- cbn [with_heap r_level]. lia.
        -- rewrite upd2_same. reflexivity.
        -- lia.
        -- reflexivity.
        -- exists s', r', loc'. split; [exact AD|]. split; [exact G'|]. split; [cbn [with_heap r_level] in LV; rewrite LV; exact L1|].
           assert (GR : grow (view_of s loc) (view_of (with_heap s1 h3) (upd2 loc l (pre l o) newn))).
           { intros p. unfold view_of. cbn [with_heap r_heap]. destruct (upd2_cases _ loc l (pre l o) newn 0 p) as [(E1 & E2 & U)|[N U]].
             - right. split; [apply view_none; congruence|]. exists newn. unfold view. rewrite U. destruct (Z.eqb_spec newn 0); [lia|]. rewrite HH, Z.eqb_refl. reflexivity.
             - left. apply view_ext; [exact U|]. intros Np. rewrite HH. destruct (Z.eqb_spec (loc 0 p) newn) as [Q|]; [pose proof (loc_live I 0 p Np); rewrite Q in *; contradiction|].
               destruct (Z.eqb_spec (loc 0 p) (loc (l + 1) (pre l o / 32))) as [Q|]; [|reflexivity]. destruct (i_inj _ _ _ _ _ _ I _ _ _ _ Np Q) as [Q1 _]. pose proof (Zle_0_nat n) as Q2. fold l in Q2. clear - Q1 Q2. lia. }
           destruct C as [(-> & MF & C0 & C2)|(C0 & C1' & v1 & C2 & C3)].
           ++ left. split; [reflexivity|]. split; [exact MF|]. split; [exact C0|]. eapply grow_trans; eassumption.
           ++ assert (M2 : forall l0 p, loc l0 p <> 0 -> loc' l0 p <> 0).
              { intros l0 p Hp. apply C1'. destruct (upd2_cases _ loc l (pre l o) newn l0 p) as [(_ & _ & U)|[_ U]]; rewrite U; [lia|exact Hp]. }
              right. split; [|split; [exact M2|exists v1; split; [eapply grow_trans; eassumption|exact C3]]].
              intros l' H2 H3. destruct (Z.eq_dec l' (l + 1)) as [->|]; [|apply C0; lia]. apply M2, Hnz'.
    + destruct (IH s loc (loc l (pre l o)) (o mod 2 ^ (5 * l + 8))) as (s' & r' & loc' & AD & G' & LV & C); try reflexivity; try assumption; try lia.
      { split; assumption. }
      exists s', r', loc'. split; [exact AD|]. split; [exact G'|]. split; [exact LV|]. destruct C as [C|(C0 & C1' & C2)]; [left; exact C|right]. split; [|split; assumption].
      intros l' H2 H3. destruct (Z.eq_dec l' (l + 1)) as [->|]; [|apply C0; lia]. apply C1'. congruence.
Qed.

Lemma alloc_ok' : forall ok s loc o, good al (xs ok) no_e s loc -> 0 <= o < 2 ^ 63 ->
  exists s' c loc', radix_alloc al s o = Some (s', c) /\
    (c = 0 /\ may_fail al /\ good al (xs false) no_e s' loc' /\ view_of s' loc' (o / 256) = None /\ grow (view_of s loc) (view_of s' loc') \/
     good al (xs ok) no_e s' loc' /\ exists v1, grow (view_of s loc) v1 /\ marked o v1 (view_of s' loc') c).
Proof.
  intros ok s loc o G Ho. destruct (extend_ok (xs ok) o 16 s loc Ho G) as (s1 & node & loc1 & EX & [I1 B1] & GR & R1 & R2).
  { destruct G as [I _]. pose proof (i_level _ _ _ _ _ _ I). destruct (r_node s =? 0); lia. }
  unfold radix_alloc, radix_extend. rewrite EX. unfold NULL. destruct (Z.eqb_spec node 0) as [Z0|NZ].
  - destruct (R1 Z0) as [MF L0]. exists s1, 0, loc1. split; [reflexivity|]. left. split; [reflexivity|]. split; [exact MF|]. split; [split; [|exact B1]|].
    + refine (inv_weaken I1 _ _). intros l p [_ H]. split; [reflexivity|exact H].
    + split; [apply view_none, L0|exact GR].
  - destruct (R2 NZ) as [Rn Rc]. pose proof (i_level _ _ _ _ _ _ I1) as HL.
    set (XP := fun l p => xs ok l p \/ 0 <= l /\ p = pre l o).
    assert (PT : pre (r_level s1) o = 0) by (apply pre_top; lia).
    destruct (down_ok XP o Ho) with (n := Z.to_nat (r_level s1)) (s := s1) (loc := loc1) (node := node) (x := o) as (s' & c & loc' & AD & [I' B'] & LV & C); rewrite ?Z2Nat.id by lia.
    + intros l Hl. right. auto.
    + split; [|exact B1]. refine (inv_weaken I1 _ _). intros l p H. left. exact H.
    + lia.
    + rewrite PT, Rn. symmetry. apply (i_root _ _ _ _ _ _ I1).
    + exact NZ.
    + symmetry. apply Z.mod_small. lia.
    + assert (DX : forall l p, XP l p \/ ~ XP l p).
      { intros l p. unfold XP, xs. destruct ok; destruct (Z_lt_dec 0 l); destruct (Z_le_dec 0 l); destruct (Z.eq_dec p (pre l o)); try (left; tauto); right; intros [[? ?]|[? ?]]; try congruence; lia. }
      rewrite Z2Nat.id in C by lia. exists s', c, loc'. split; [exact AD|]. destruct C as [(-> & MF & C0 & C2)|(C0 & C1 & v1 & C2 & C3)].
      * left. split; [reflexivity|]. split; [exact MF|]. split; [split; [|exact B']|].
        -- apply (inv_filled I' _); [|exact DX]. intros l p Hx Hn Hp Hlp. exfalso. pose proof (i_range _ _ _ _ _ _ I' l p Hlp). assert (l = 0). { destruct (Z.eq_dec l 0); [assumption|]. exfalso. apply Hn. split; [reflexivity|lia]. }
           subst l. destruct Hx as [[_ Hx]|[_ Hx]]; [lia|]. rewrite pre_0 in Hx. subst p. contradiction.
        -- split; [apply view_none, C0|]. eapply grow_trans; eassumption.
      * right. split; [split; [|exact B']|].
        -- apply (inv_filled I' _); [|exact DX]. intros l p Hx Hn Hp Hlp. destruct Hx as [Hx|[Hl Hx]]; [contradiction|]. pose proof (i_range _ _ _ _ _ _ I' l p Hlp) as [RL _].
           destruct (Z.eqb_spec l 0) as [->|Nl].
           ++ subst p. rewrite pre_0. destruct C3 as (n0 & nd & b & V1 & V2 & M & _). unfold view_of, view in V2. destruct (loc' 0 (o / 256) =? 0); [discriminate|].
              destruct (r_heap s' (loc' 0 (o / 256))) as [nd'|] eqn:Hnd; [|discriminate]. injection V2 as _ V2. exists nd', (o mod 256). split; [exact Hnd|]. split; [lia|]. rewrite V2. cbn [n_bits]. rewrite M by lia. rewrite Z.eqb_refl. reflexivity.
           ++ subst p. exists (pre (l - 1) o mod 32). split; [lia|]. rewrite pre_child by lia. apply C0; lia.
        -- exists v1. split; [eapply grow_trans; eassumption|exact C3].
Qed.
End Ops.
