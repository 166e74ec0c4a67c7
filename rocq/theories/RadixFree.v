(** * Proofs about the radix array: freeing *)
From Verif Require Import Lib BitsModel BitsProofs BitmapSpec BitmapProofs RadixModel RadixSpec RadixProofs RadixOps RadixAlloc.
Ltac Zify.zify_post_hook ::= Z.div_mod_to_equations.

Lemma inv_e : forall X E E' h r L loc, inv X E h r L loc -> (forall l p, E' l p = E l p) -> inv X E' h r L loc.
Proof. intros X E E' h r L loc I H. destruct I. constructor; auto. intros l p A B. rewrite H. auto. Qed.
Lemma xs_dec : forall ok l p, xs ok l p \/ ~ xs ok l p.
Proof. intros ok l p. unfold xs. destruct ok; [right; intros [? _]; discriminate|]. destruct (Z_lt_dec 0 l); [left|right]; tauto. Qed.
Lemma w32_big_small : forall c, 0 <= c < 2 ^ 32 -> w32 c = c.
Proof. intros. apply w32_small. lia. Qed.
Definition xp (ok : bool) (l p : Z) : Z -> Z -> Prop := fun l' p' => xs ok l' p' \/ l' = l /\ p' = p.
Lemma xp_dec : forall ok l p l' p', xp ok l p l' p' \/ ~ xp ok l p l' p'.
Proof. intros ok l p l' p'. unfold xp. destruct (xs_dec ok l' p') as [|A]; [auto|]. destruct (Z.eq_dec l' l), (Z.eq_dec p' p); try (left; tauto); right; tauto. Qed.

Lemma prune_ok : forall ok r L ps o, 0 <= o < 2 ^ 63 -> r <> 0 -> o < 2 ^ (5 * L + 8) ->
  forall n l x h loc, inv (xp ok l (pre l o)) (upd2 no_e l (pre l o) 1) h r L loc -> 1 <= l <= L -> Z.of_nat n = L - l + 1 ->
  (forall k, l <= k <= L -> parent_node ps k = Some (loc k (pre k o))) -> (forall k, l <= k < L -> parent_index ps (k + 1) = Some (pre k o mod 32)) ->
  loc l (pre l o) <> 0 -> 0 <= x < 2 ^ 63 -> x / 2 ^ (5 * l + 8) = pre l o ->
  exists h' level loc', prune_from n h ps (loc l (pre l o)) l x = Some (h', level) /\ inv (xs ok) no_e h' r L loc' /\ (forall p, view h' loc' p = view h loc p) /\ (forall m, h' m <> None -> h m <> None).
Proof.
  intros ok r L ps o Ho Hr Hc. induction n as [|n IH]; intros l x h loc I Hl Hn PN PI Hnz Hx Hxl; [lia|]. cbn [prune_from].
  set (p := pre l o) in *. pose proof (i_level _ _ _ _ _ _ I) as HL.
  destruct (i_branch _ _ _ _ _ _ I l p ltac:(lia) Hnz) as (nd & D1 & D2 & D3 & D4). rewrite upd2_same in D4.
  pose proof (cnt_range (n_child nd)) as CR. rewrite D2 in CR. destruct (Z.eqb_spec l 0) as [|_]; [lia|].
  rewrite (get_ref_ok _ _ nd (cnt (n_child nd) + 1)) by (try assumption; clear - CR; lia).
  replace (cnt (n_child nd) + 1 - 1) with (cnt (n_child nd)) by (clear; lia).
  rewrite (set_ref_ok _ _ nd (cnt (n_child nd) + 1)) by (try assumption; clear - CR; lia).
  set (h1 := hset h (loc l p) {| n_child := n_child nd; n_bits := [cnt (n_child nd); 0; 0; 0] |}).
  rewrite w32_big_small by (clear - CR; lia).
  assert (I1 : inv (xp ok l p) no_e h1 r L loc).
  { assert (J : inv (xp ok l p) (upd2 (upd2 no_e l p 1) l p 0) h1 r L loc).
    { apply (set_count I l p nd 0); [clear - Hl; lia|exact Hnz|exact D1|]. intros m. unfold h1, hset. rewrite Z.add_0_r. reflexivity. }
    apply (inv_e _ _ _ _ _ _ _ J). intros l' p'. unfold no_e. upd2 l' p'; [reflexivity|]. unfold upd2. destruct ((l' =? l) && (p' =? p)) eqn:Q; [|reflexivity]. apply andb_prop in Q. destruct Q as [Q1 Q2]. apply Z.eqb_eq in Q1, Q2. lia. }
  assert (V1 : forall q, view h1 loc q = view h loc q).
  { intros q. apply view_ext; [reflexivity|]. intros Nq. unfold h1, hset. destruct (Z.eqb_spec (loc 0 q) (loc l p)) as [Q|]; [|reflexivity]. destruct (i_inj _ _ _ _ _ _ I _ _ _ _ Nq Q) as [Q1 _]. clear - Q1 Hl. lia. }
  assert (B1 : forall m, h1 m <> None -> h m <> None). { intros m. unfold h1, hset. destruct (Z.eqb_spec m (loc l p)) as [->|]; [congruence|auto]. }
  destruct (Z.eqb_spec (cnt (n_child nd)) 0) as [C0|C0]; cbn [negb].
  - assert (CH : forall j, 0 <= j < 32 -> loc (l - 1) (32 * p + j) = 0). { intros j Hj. exact (cnt_zero _ _ _ C0 (D3 j Hj)). }
    assert (Hp : 0 < p). { pose proof (pre_nonneg l o ltac:(lia) ltac:(lia)) as P0. fold p in P0. destruct (Z.eq_dec p 0) as [E0|]; [exfalso|lia]. pose proof (CH 0 ltac:(lia)) as Q. rewrite E0 in Q. apply (i_left _ _ _ _ _ _ I Hr (l - 1)); [lia|exact Q]. }
    assert (HlL : l < L). { destruct (Z.eq_dec l L) as [El|]; [|lia]. exfalso. unfold p in Hp. rewrite El, pre_top in Hp by lia. lia. }
    assert (P2 : 2 ^ 8 <= 2 ^ (5 * l + 8)) by (apply Z.pow_le_mono_r; lia).
    unfold depth_shift. rewrite high_mask by lia. rewrite Hxl. fold p.
    assert (HB : BLOCK <= p * 2 ^ (5 * l + 8)). { unfold BLOCK. clear - P2 Hp. nia. }
    destruct (Z.ltb_spec (p * 2 ^ (5 * l + 8)) BLOCK) as [|_]; [lia|]. rewrite PN, PI by lia. fold p.
    assert (PS : p / 32 = pre (l + 1) o) by (symmetry; apply pre_succ; lia).
    pose proof (i_up _ _ _ _ _ _ I l p Hnz HlL) as Hup.
    destruct (i_branch _ _ _ _ _ _ I1 (l + 1) (p / 32) ltac:(lia) Hup) as (nd2 & F1 & F2 & F3 & F4).
    destruct (wr_spec _ (n_child nd2) (p mod 32) 0 ltac:(lia)) as (c & W & Lc & Rc).
    assert (NN : loc l p <> loc (l + 1) (pre (l + 1) o)). { intros Q. destruct (i_inj _ _ _ _ _ _ I _ _ _ _ Hnz Q). lia. }
    unfold set_child. rewrite <- PS, F1. unfold NULL. rewrite W.
    unfold free_node. destruct (Z.eqb_spec (loc l p) NULL) as [|_]; [contradiction|].
    assert (G1 : hset h1 (loc (l + 1) (p / 32)) {| n_child := c; n_bits := n_bits nd2 |} (loc l p) = Some {| n_child := n_child nd; n_bits := [cnt (n_child nd); 0; 0; 0] |}).
    { unfold hset at 1. rewrite PS. destruct (Z.eqb_spec (loc l p) (loc (l + 1) (pre (l + 1) o))); [contradiction|]. apply hset_same. }
    rewrite G1. set (h2 := hdel (hset h1 (loc (l + 1) (p / 32)) {| n_child := c; n_bits := n_bits nd2 |}) (loc l p)).
    assert (I2 : inv (xp ok (l + 1) (p / 32)) (upd2 no_e (l + 1) (p / 32) 1) h2 r L (upd2 loc l p 0)).
    { assert (J : inv (fun l' p' => xp ok l p l' p' \/ l' = l + 1 /\ p' = p / 32) (upd2 no_e (l + 1) (p / 32) (no_e (l + 1) (p / 32) + 1)) h2 r L (upd2 loc l p 0)).
      { apply (del_child I1 l p nd2 c); try assumption; try lia; [intros _; exact CH|]. intros m. unfold h2, hdel, hset. reflexivity. }
      apply (inv_filled J (xp ok (l + 1) (p / 32))).
      - intros l' p' [[A|[-> ->]]|A] B _ D.
        + exfalso. apply B. left. exact A.
        + rewrite upd2_same in D. contradiction.
        + exfalso. apply B. right. exact A.
      - intros l' p'. destruct (xp_dec ok l p l' p') as [|A]; [auto|]. destruct (Z.eq_dec l' (l + 1)), (Z.eq_dec p' (p / 32)); try (left; tauto); right; tauto. }
    assert (KK : forall k, l + 1 <= k -> upd2 loc l p 0 k (pre k o) = loc k (pre k o)). { intros k Hk. apply upd2_other. left. clear - Hk. lia. }
    rewrite PS in *. destruct (IH (l + 1) (p * 2 ^ (5 * l + 8)) h2 (upd2 loc l p 0)) as (h' & level & loc' & EX & I' & V' & B').
    + exact I2.
    + clear - Hl HlL. lia.
    + clear - Hn. lia.
    + intros k Hk. rewrite KK by lia. apply PN. lia.
    + intros k Hk. apply PI. lia.
    + rewrite KK by lia. exact Hup.
    + split; [unfold BLOCK in HB; clear - HB; lia|]. rewrite <- Hxl. rewrite Z.mul_comm. pose proof (pow_pos (5 * l + 8) ltac:(lia)) as PP. pose proof (Z.mul_div_le x (2 ^ (5 * l + 8)) PP) as ML. clear - ML Hx. lia.
    + replace (5 * (l + 1) + 8) with (5 * l + 8 + 5) by (clear; lia). rewrite (Z.pow_add_r 2 (5 * l + 8) 5) by (clear - Hl; lia). pose proof (pow_pos (5 * l + 8) ltac:(lia)) as PP. rewrite <- Z.div_div by (clear - PP; lia). rewrite Z.div_mul by (clear - PP; lia). exact PS.
    + rewrite KK in EX by lia. exists h', level, loc'. split; [exact EX|]. split; [exact I'|]. split.
      * intros q. rewrite V', <- V1. apply view_ext; [apply upd2_other; left; clear - Hl; lia|]. intros Nq. unfold h2, hdel, hset. rewrite ?PS.
        destruct (Z.eqb_spec (loc 0 q) (loc l p)) as [Q|]; [destruct (i_inj _ _ _ _ _ _ I _ _ _ _ Nq Q) as [Q1 _]; clear - Q1 Hl; lia|].
        destruct (Z.eqb_spec (loc 0 q) (loc (l + 1) (pre (l + 1) o))) as [Q|]; [destruct (i_inj _ _ _ _ _ _ I _ _ _ _ Nq Q) as [Q1 _]; clear - Q1 Hl; lia|reflexivity].
      * intros m Hm. apply B1. apply B' in Hm. revert Hm. unfold h2, hdel, hset at 1. rewrite ?PS. destruct (m =? loc l p); [congruence|]. destruct (Z.eqb_spec m (loc (l + 1) (pre (l + 1) o))) as [->|]; [congruence|auto].
  - exists h1, l, loc. split; [reflexivity|]. split; [|split; assumption]. apply (inv_filled I1 (xs ok)); [|apply xp_dec]. intros l' p' [A|[-> ->]] B Hp' D; [contradiction|].
    destruct (Z.eqb_spec l 0) as [|_]; [lia|]. destruct (cnt_pos (n_child nd)) as (i & y & R & Ny); [lia|]. pose proof (rd_range _ _ _ _ R) as RR. rewrite D2 in RR. exists i. split; [exact RR|].
    rewrite D3 in R by exact RR. congruence.
Qed.

Lemma shrink_ok : forall al ok n s loc, good al (xs ok) no_e s loc -> r_node s <> 0 -> n = Z.to_nat (r_level s) ->
  exists s' loc', radix_shrink n s = Some s' /\ good al (xs ok) no_e s' loc' /\ (forall p, view_of s' loc' p = view_of s loc p).
Proof.
  intros al ok. induction n as [|n IH]; intros s loc [I B] Hr Hn; cbn [radix_shrink].
  - exists s, loc. split; [reflexivity|]. split; [split; assumption|reflexivity].
  - pose proof (i_level _ _ _ _ _ _ I) as HL. set (L := r_level s) in *. pose proof (i_root _ _ _ _ _ _ I) as Rt. assert (Hnz : loc L 0 <> 0) by congruence.
    destruct (i_branch _ _ _ _ _ _ I L 0 ltac:(lia) Hnz) as (nd & D1 & D2 & D3 & D4). rewrite Rt in D1. unfold no_e in D4. rewrite Z.add_0_r in D4.
    pose proof (cnt_range (n_child nd)) as CR. rewrite D2 in CR.
    rewrite (get_ref_ok _ _ nd (cnt (n_child nd))) by (try assumption; lia). rewrite (get_child_ok _ _ _ _ D1), D3 by lia. change (32 * 0 + 0) with 0. unfold NULL.
    assert (HL1 : 0 < L) by lia.
    pose proof (i_left _ _ _ _ _ _ I Hr (L - 1) ltac:(lia)) as Hs. destruct (Z.eqb_spec (loc (L - 1) 0) 0) as [|_]; [contradiction|].
    destruct (Z.ltb_spec 1 (cnt (n_child nd))) as [|C1]; cbn [orb]; [exists s, loc; split; [reflexivity|]; split; [split; assumption|reflexivity]|].
    unfold free_node, NULL. destruct (Z.eqb_spec (r_node s) 0) as [|_]; [contradiction|]. rewrite D1.
    set (s1 := {| r_heap := hdel (r_heap s) (r_node s); r_node := loc (L - 1) 0; r_level := L - 1; r_clock := r_clock s |}).
    assert (I1 : inv (xs ok) no_e (r_heap s1) (r_node s1) (r_level s1) (upd2 loc L 0 0)).
    { cbn [s1 r_heap r_node r_level]. apply (del_root I); try assumption; try reflexivity. intros j Hj. pose proof (D3 0 ltac:(lia)) as R0. pose proof (D3 j ltac:(lia)) as Rj. change (32 * 0 + 0) with 0 in R0. change (32 * 0 + j) with j in Rj.
      exact (cnt_one _ _ _ _ _ C1 R0 Hs Rj ltac:(lia)). }
    destruct (IH s1 (upd2 loc L 0 0)) as (s' & loc' & SH & G' & V').
    + split; [exact I1|]. apply (born_ext _ s); [exact B|cbn; lia|]. intros m. cbn. unfold hdel. destruct (m =? r_node s); [congruence|auto].
    + exact Hs.
    + cbn [s1 r_level]. lia.
    + exists s', loc'. split; [exact SH|]. split; [exact G'|]. intros p. rewrite V'. unfold view_of. apply view_ext; [apply upd2_other; lia|]. intros Np. cbn [s1 r_heap]. unfold hdel.
      destruct (Z.eqb_spec (loc 0 p) (r_node s)) as [Q|]; [|reflexivity]. rewrite <- Rt in Q. destruct (i_inj _ _ _ _ _ _ I _ _ _ _ Np Q). lia.
Qed.

Definition cleared (o : Z) (v v' : Z -> option (Z * rnode)) : Prop :=
  exists n nd b, v (o / 256) = Some (n, nd) /\ (forall k, 0 <= k -> mbit b 0 k = negb (k =? o mod 256) && mbit (n_bits nd) 0 k) /\ (forall p, p <> o / 256 -> v' p = v p) /\
    (v' (o / 256) = Some (n, {| n_child := n_child nd; n_bits := b |}) \/ 256 <= o /\ (forall k, 0 <= k < 256 -> mbit b 0 k = false) /\ v' (o / 256) = None).
Lemma cleared_ext : forall o v v1 v2, cleared o v v1 -> (forall p, v2 p = v1 p) -> cleared o v v2.
Proof.
  intros o v v1 v2 (n & nd & b & A & B & C & D) H. exists n, nd, b. split; [exact A|]. split; [exact B|]. split; [intros p Hp; rewrite H; auto|]. rewrite H. exact D.
Qed.
Lemma free_ok : forall al ok s loc o, good al (xs ok) no_e s loc -> inside s o ->
  exists s' c loc', radix_free s o = Some (s', c) /\ good al (xs ok) no_e s' loc' /\
    (c = - ENOENT /\ view_of s loc (o / 256) = None /\ s' = s /\ loc' = loc \/ c = 0 /\ cleared o (view_of s loc) (view_of s' loc')).
Proof.
  intros al ok s loc o G IN. destruct (parent_ok _ _ _ _ _ _ G IN) as (b0 & ps & RP & T & F). unfold radix_free. rewrite RP. destruct b0; cbn [negb].
  2: { exists s, (- ENOENT), loc. split; [reflexivity|]. split; [exact G|]. left. split; [reflexivity|]. split; [apply view_none; auto|auto]. }
  destruct (T eq_refl) as (T0 & Hr & HC & P1 & P2 & P3). destruct G as [I B]. destruct IN as [Ho _]. pose proof (i_level _ _ _ _ _ _ I) as HL. rewrite P1 by lia. rewrite P2, pre_0.
  set (q := o / 256) in *. destruct (view_some _ _ _ _ _ _ _ I T0) as (nd & V & Hn & C1 & C2 & C3). rewrite Hn.
  destruct (bit_clr_ok (n_bits nd) (o mod 256) C2 C3 ltac:(lia)) as (b & BC & Lb & Ub & Mb). rewrite BC. unfold set_bits. rewrite Hn.
  set (h1 := hset (r_heap s) (loc 0 q) {| n_child := n_child nd; n_bits := b |}).
  assert (I1 : inv (xp ok 0 q) no_e h1 (r_node s) (r_level s) loc).
  { exact (set_leaf I q {| n_child := n_child nd; n_bits := b |} T0 C1 Lb Ub h1 (fun m => eq_refl)). }
  assert (B1 : forall m, h1 m <> None -> r_heap s m <> None). { intros m. unfold h1, hset. destruct (Z.eqb_spec m (loc 0 q)) as [->|]; [congruence|auto]. }
  assert (V1 : view h1 loc q = Some (loc 0 q, {| n_child := n_child nd; n_bits := b |})). { unfold view. destruct (Z.eqb_spec (loc 0 q) 0); [contradiction|]. unfold h1. rewrite hset_same. reflexivity. }
  assert (V2 : forall p, p <> q -> view h1 loc p = view (r_heap s) loc p).
  { intros p Hp. apply view_ext; [reflexivity|]. intros Np. unfold h1, hset. destruct (Z.eqb_spec (loc 0 p) (loc 0 q)) as [Q|]; [|reflexivity]. destruct (i_inj _ _ _ _ _ _ I _ _ _ _ Np Q). contradiction. }
  pose proof (bits_empty b Lb Ub) as BE. destruct (forallb (fun w => w =? 0) b) eqn:FB; cbn [negb].
  - assert (FB' : forall k, 0 <= k < 256 -> mbit b 0 k = false) by (apply BE; reflexivity). clear BE.
    cbn [prune_from]. cbn [Z.eqb]. change (depth_shift 0) with 8. rewrite high_mask by lia. change (2 ^ 8) with 256. fold q. unfold BLOCK.
    destruct (Z.ltb_spec (q * 256) 256) as [Q0|Q0].
    + assert (Q1 : q = 0) by (clear - Q0 Ho; subst q; lia).
      assert (I2 : inv (xs ok) no_e h1 (r_node s) (r_level s) loc).
      { apply (inv_filled I1 (xs ok)); [|apply xp_dec]. intros l p [A|[-> ->]] Nx Hp _; [contradiction|lia]. }
      assert (G2 : good al (xs ok) no_e (with_heap s h1) loc). { split; [exact I2|]. apply (born_ext _ s); [exact B|cbn; lia|exact B1]. }
      assert (CL : cleared o (view_of s loc) (view_of (with_heap s h1) loc)).
      { exists (loc 0 q), nd, b. split; [exact V|]. split; [exact Mb|]. split; [exact V2|]. left. exact V1. }
      change (r_level (with_heap s h1)) with (r_level s). destruct (Z.eqb_spec 0 (r_level s)) as [L0|L0].
      * replace (Z.to_nat (r_level s)) with 0%nat by (clear - L0; lia). cbn [radix_shrink]. eexists _, 0, loc. split; [reflexivity|]. split; [exact G2|]. right. split; [reflexivity|exact CL].
      * eexists _, 0, loc. split; [reflexivity|]. split; [exact G2|]. right. split; [reflexivity|exact CL].
    + assert (Q1 : 0 < q) by lia.
      assert (HL1 : 1 <= r_level s). { destruct (Z.eq_dec (r_level s) 0) as [E0|]; [|lia]. rewrite E0 in HC. change (2 ^ (5 * 0 + 8)) with 256 in HC. clear - HC Q1 Ho. subst q. lia. }
      pose proof (P3 0 ltac:(lia)) as P30. change (0 + 1) with 1 in *. rewrite P1 by lia. rewrite P30. rewrite pre_0. fold q.
      assert (PS : q / 32 = pre 1 o) by (symmetry; apply (pre_succ 0); lia).
      pose proof (i_up _ _ _ _ _ _ I 0 q T0 ltac:(lia)) as Hup. change (0 + 1) with 1 in Hup.
      destruct (i_branch _ _ _ _ _ _ I1 1 (q / 32) ltac:(lia) Hup) as (nd2 & F1 & F2 & F3 & F4).
      destruct (wr_spec _ (n_child nd2) (q mod 32) 0 ltac:(lia)) as (c & W & Lc & Rc).
      assert (NN : loc 0 q <> loc 1 (q / 32)). { intros Q. destruct (i_inj _ _ _ _ _ _ I _ _ _ _ T0 Q). lia. }
      unfold set_child. rewrite <- PS, F1. unfold NULL. rewrite W. unfold free_node. destruct (Z.eqb_spec (loc 0 q) NULL) as [|_]; [contradiction|].
      assert (G1 : hset h1 (loc 1 (q / 32)) {| n_child := c; n_bits := n_bits nd2 |} (loc 0 q) = Some {| n_child := n_child nd; n_bits := b |}).
      { unfold hset at 1. destruct (Z.eqb_spec (loc 0 q) (loc 1 (q / 32))); [contradiction|]. apply hset_same. }
      rewrite G1. set (h2 := hdel (hset h1 (loc 1 (q / 32)) {| n_child := c; n_bits := n_bits nd2 |}) (loc 0 q)).
      assert (I2 : inv (xp ok 1 (q / 32)) (upd2 no_e 1 (q / 32) 1) h2 (r_node s) (r_level s) (upd2 loc 0 q 0)).
      { assert (J : inv (fun l' p' => xp ok 0 q l' p' \/ l' = 0 + 1 /\ p' = q / 32) (upd2 no_e (0 + 1) (q / 32) (no_e (0 + 1) (q / 32) + 1)) h2 (r_node s) (r_level s) (upd2 loc 0 q 0)).
        { apply (del_child I1 0 q nd2 c); try assumption; try lia. intros m. unfold h2, hdel, hset. reflexivity. }
        apply (inv_filled J (xp ok 1 (q / 32))).
        - intros l' p' [[A|[-> ->]]|A] Nx _ D.
          + exfalso. apply Nx. left. exact A.
          + rewrite upd2_same in D. contradiction.
          + exfalso. apply Nx. right. exact A.
        - intros l' p'. destruct (xp_dec ok 0 q l' p') as [|A]; [auto|]. destruct (Z.eq_dec l' (0 + 1)), (Z.eq_dec p' (q / 32)); try (left; tauto); right; tauto. }
      assert (KK : forall k, 1 <= k -> upd2 loc 0 q 0 k (pre k o) = loc k (pre k o)). { intros k Hk. apply upd2_other. left. clear - Hk. lia. }
      rewrite PS in *. rewrite <- (KK 1) by lia.
      destruct (prune_ok ok (r_node s) (r_level s) ps o Ho Hr HC (Z.to_nat (r_level s)) 1 (q * 256) h2 (upd2 loc 0 q 0)) as (h' & level & loc' & EX & I' & V' & B').
      * exact I2.
      * clear - HL1. lia.
      * clear - HL1. lia.
      * intros k Hk. rewrite KK by lia. apply P1. lia.
      * intros k Hk. apply P3. lia.
      * rewrite KK by lia. exact Hup.
      * clear - Ho Q0. subst q. lia.
      * change (2 ^ (5 * 1 + 8)) with (256 * 32). rewrite <- PS. clear. rewrite <- Z.div_div by lia. rewrite Z.div_mul by lia. reflexivity.
      * cbn [prune_from] in EX. rewrite EX.
        assert (G2 : good al (xs ok) no_e (with_heap s h') loc').
        { split; [exact I'|]. apply (born_ext _ s); [exact B|cbn; lia|]. intros m Hm. apply B1. apply B' in Hm. revert Hm. unfold h2, hdel, hset at 1. rewrite ?PS. destruct (m =? loc 0 q); [congruence|]. destruct (Z.eqb_spec m (loc 1 (pre 1 o))) as [->|]; [congruence|auto]. }
        assert (CL : cleared o (view_of s loc) (view_of (with_heap s h') loc')).
        { exists (loc 0 q), nd, b. split; [exact V|]. split; [exact Mb|]. split.
          - intros p Hp. unfold view_of. cbn [with_heap r_heap]. rewrite V'. rewrite <- V2 by exact Hp. apply view_ext; [apply upd2_other; right; exact Hp|]. intros Np. unfold h2, hdel, hset. rewrite ?PS.
            destruct (Z.eqb_spec (loc 0 p) (loc 0 q)) as [Q|]; [destruct (i_inj _ _ _ _ _ _ I _ _ _ _ Np Q); contradiction|].
            destruct (Z.eqb_spec (loc 0 p) (loc 1 (pre 1 o))) as [Q|]; [destruct (i_inj _ _ _ _ _ _ I _ _ _ _ Np Q) as [Q2 _]; discriminate|reflexivity].
          - right. split; [clear - Q1; subst q; lia|]. split; [exact FB'|]. unfold view_of. cbn [with_heap r_heap]. rewrite V'. fold q. apply view_none, upd2_same. }
        change (r_level (with_heap s h')) with (r_level s). destruct (Z.eqb_spec level (r_level s)) as [EL|EL].
        -- destruct (shrink_ok al ok (Z.to_nat (r_level s)) (with_heap s h') loc' G2 Hr eq_refl) as (s2 & loc2 & SH & G3 & V3). rewrite SH. exists s2, 0, loc2. split; [reflexivity|]. split; [exact G3|]. right. split; [reflexivity|].
           eapply cleared_ext; eassumption.
        -- eexists _, 0, loc'. split; [reflexivity|]. split; [exact G2|]. right. split; [reflexivity|exact CL].
  - eexists _, 0, loc. split; [reflexivity|]. split.
    + split; [|apply (born_ext _ s); [exact B|cbn; lia|exact B1]]. cbn [with_heap r_heap r_node r_level]. apply (inv_filled I1 (xs ok)); [|apply xp_dec]. intros l p [A|[-> ->]] Nx Hp _; [contradiction|]. cbn [Z.eqb].
      assert (EX : exists k, 0 <= k < 256 /\ mbit b 0 k = true).
      { destruct (existsb (fun k => mbit b 0 (Z.of_nat k)) (seq 0 256)) eqn:EX.
        - apply existsb_exists in EX. destruct EX as (k & Hk & Mk). apply in_seq in Hk. exists (Z.of_nat k). split; [lia|exact Mk].
        - exfalso. assert (false = true); [|discriminate]. apply BE. intros k Hk. destruct (mbit b 0 k) eqn:Mk; [|reflexivity]. assert (existsb (fun k => mbit b 0 (Z.of_nat k)) (seq 0 256) = true); [|congruence].
          apply existsb_exists. exists (Z.to_nat k). split; [apply in_seq; lia|]. rewrite Z2Nat.id by lia. exact Mk. }
      destruct EX as (k & Hk & Mk). exists {| n_child := n_child nd; n_bits := b |}, k. split; [unfold h1; apply hset_same|]. split; [exact Hk|exact Mk].
    + right. split; [reflexivity|]. exists (loc 0 q), nd, b. split; [exact V|]. split; [exact Mb|]. split; [exact V2|]. left. exact V1.
Qed.
