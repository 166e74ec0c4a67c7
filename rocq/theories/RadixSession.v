(** * Proofs about the radix array: sessions *)
From Verif Require Import Lib BitsModel BitsProofs BitmapSpec BitmapProofs RadixModel RadixSpec RadixProofs RadixOps RadixAlloc RadixFree RadixRelease RadixIter RadixWalk.
Ltac Zify.zify_post_hook ::= Z.div_mod_to_equations.

Lemma marked_cell : forall o v v1 v' c, grow v v1 -> marked o v1 v' c ->
  cell_of v' o = Some c /\ (forall o', o' <> o -> cell_of v' o' = cell_of v o') /\ (forall c', cell_of v o = Some c' -> c' = c).
Proof.
  intros o v v1 v' c GR (n & nd & b & A & B & C & D & -> & F). split; [|split].
  - unfold cell_of. rewrite B. cbn [n_bits]. rewrite C by lia. rewrite Z.eqb_refl. reflexivity.
  - intros o' N. rewrite <- (grow_cell _ _ o' GR). unfold cell_of. destruct (Z.eq_dec (o' / 256) (o / 256)) as [Eq|Ne].
    + rewrite Eq, A, B. cbn [n_bits]. rewrite C by lia. destruct (Z.eqb_spec (o' mod 256) (o mod 256)); [lia|]. reflexivity.
    + rewrite D by exact Ne. reflexivity.
  - intros c'. rewrite <- (grow_cell _ _ o GR). unfold cell_of. rewrite A. destruct (mbit (n_bits nd) 0 (o mod 256)); congruence.
Qed.
Lemma marked_data : forall o v v1 v' c o' x, grow v v1 -> marked o v1 v' c -> data_of v o' = Some x -> data_of v' o' = Some x.
Proof.
  intros o v v1 v' c o' x GR (n & nd & b & A & B & C & D & _) H. apply (grow_data _ _ _ _ GR) in H. unfold data_of in *. destruct (Z.eq_dec (o' / 256) (o / 256)) as [Eq|Ne].
  - rewrite Eq in *. rewrite A in H. rewrite B. exact H.
  - rewrite D by exact Ne. exact H.
Qed.
Lemma cleared_cell : forall o v v', cleared o v v' -> cell_of v' o = None /\ forall o', o' <> o -> cell_of v' o' = cell_of v o'.
Proof.
  intros o v v' (n & nd & b & A & B & C & D). assert (K : forall o', o' / 256 = o / 256 -> cell_of v' o' = if o' =? o then None else cell_of v o').
  { intros o' Eq. unfold cell_of. rewrite Eq, A. pose proof (B (o' mod 256) ltac:(lia)) as Bo. replace (o' mod 256 =? o mod 256) with (o' =? o) in Bo by (destruct (Z.eqb_spec o' o), (Z.eqb_spec (o' mod 256) (o mod 256)); try reflexivity; lia).
    destruct D as [D|(D1 & D2 & D3)].
    - rewrite D. cbn [n_bits]. rewrite Bo. destruct (o' =? o); reflexivity.
    - rewrite D3. rewrite D2 in Bo by lia. destruct (o' =? o); [reflexivity|]. cbn [negb andb] in Bo. rewrite <- Bo. reflexivity. }
  split; [rewrite K by reflexivity; rewrite Z.eqb_refl; reflexivity|]. intros o' N. destruct (Z.eq_dec (o' / 256) (o / 256)) as [Eq|Ne].
  - rewrite K by exact Eq. destruct (Z.eqb_spec o' o); [contradiction|reflexivity].
  - unfold cell_of. rewrite C by exact Ne. reflexivity.
Qed.
Lemma cleared_data : forall o v v' o' x, cleared o v v' -> cell_of v' o' <> None -> data_of v o' = Some x -> data_of v' o' = Some x.
Proof.
  intros o v v' o' x (n & nd & b & A & B & C & D) L H. unfold data_of, cell_of in *. destruct (Z.eq_dec (o' / 256) (o / 256)) as [Eq|Ne].
  - rewrite Eq in *. rewrite A in H. destruct D as [D|(_ & _ & D)]; rewrite D in *; [exact H|contradiction].
  - rewrite C by exact Ne. exact H.
Qed.

Lemma inv_empty : forall X h, (forall n, h n = None) -> inv X no_e h 0 0 (fun _ _ => 0).
Proof.
  intros X h H. constructor; try (intros; congruence); try lia; try (intros; contradiction); auto.
Qed.

Section Session.
Variable al : nat -> heap -> Z.
Hypothesis AL : allocator al.
Definition rel (s : root) (loc : Z -> Z -> Z) (st : rstate) : Prop :=
  good al (xs (st_ok st)) no_e s loc /\ (forall o, st_cell st o = cell_of (view_of s loc) o) /\
  (forall o x, st_data st o = Some x -> o mod 8 = 0 /\ live st o /\ data_of (view_of s loc) o = Some x).
Lemma rel_empty : forall s, (forall n, r_heap s n = None) -> r_node s = 0 -> r_level s = 0 -> rel s (fun _ _ => 0) empty.
Proof.
  intros s H N L. split; [|split].
  - split; [rewrite N, L; apply inv_empty, H|]. intros n Hn. rewrite H in Hn. contradiction.
  - intros o. reflexivity.
  - discriminate.
Qed.
Lemma live_in : forall s loc st o, rel s loc st -> live st o -> 0 <= o < 2 ^ 63 /\ inside s o.
Proof.
  intros s loc st o ([I B] & C & _) H. unfold live in H. rewrite C in H. pose proof (i_level _ _ _ _ _ _ I) as HL. pose proof (cell_pos I o H) as P.
  assert (Q : 2 ^ (5 * r_level s + 8) <= 2 ^ 63) by (apply Z.pow_le_mono_r; lia). split; [lia|]. split; [lia|]. left. lia.
Qed.
Lemma clear_in : forall s loc st o, rel s loc st -> clear st o -> inside s o.
Proof.
  intros s loc st o R (Ho & D). split; [exact Ho|]. destruct R as ([I B] & C & _). pose proof (i_level _ _ _ _ _ _ I) as HL. set (L := r_level s) in *.
  destruct D as [D|[D|(i & Li & Hi)]].
  - left. assert (2 ^ 8 <= 2 ^ (5 * L + 8)) by (apply Z.pow_le_mono_r; lia). lia.
  - destruct (Z_lt_dec o (2 ^ (5 * L + 8))) as [|N1]; [left; assumption|]. destruct (Z_le_dec (2 ^ (5 * L + 9)) o) as [|N2]; [right; assumption|]. exfalso. apply D.
    assert (Q : Z.log2 o = 5 * L + 8). { apply Z.log2_unique; [lia|]. replace (Z.succ (5 * L + 8)) with (5 * L + 9) by lia. lia. } rewrite Q. lia.
  - left. unfold live in Li. rewrite C in Li. pose proof (cell_pos I i Li). fold L in H. lia.
Qed.

Lemma alloc_spec : forall s loc st o, rel s loc st -> 0 <= o < 2 ^ 63 ->
  exists s' c st' loc', radix_alloc al s o = Some (s', c) /\ alloc_step (may_fail al) st o c st' /\ rel s' loc' st' /\ (c = 0 -> may_fail al).
Proof.
  intros s loc st o (G & C & D) Ho. destruct (alloc_ok' al AL (st_ok st) s loc o G Ho) as (s' & c & loc' & RA & [(-> & MF & G' & V & GR)|(G' & v1 & GR & M)]).
  - exists s', 0, (broken st), loc'. split; [exact RA|]. split; [|split; [|intros _; exact MF]].
    + apply alloc_full; [exact MF|]. intros i Li Eq. unfold live in Li. rewrite C in Li. apply Li. rewrite <- (grow_cell _ _ i GR). unfold cell_of. rewrite Eq, V. reflexivity.
    + split; [exact G'|]. cbn [broken st_cell st_data]. split.
      * intros i. rewrite C. symmetry. apply grow_cell, GR.
      * intros i x H. destruct (D i x H) as (D1 & D2 & D3). split; [exact D1|]. split; [exact D2|]. eapply grow_data; eassumption.
  - destruct (marked_cell _ _ _ _ _ GR M) as (M1 & M2 & M3).
    assert (FIT : fits st o c).
    { destruct M as (n & nd & b & A & B & _ & _ & -> & F). destruct G' as [I' _]. split; [unfold start; lia|]. intros o' c' H. rewrite C in H. unfold apart, start.
      destruct (Z.eqb_spec (o / 256) (o' / 256)) as [Eq|Ne].
      - rewrite <- (grow_cell _ _ o' GR) in H. unfold cell_of in H. rewrite <- Eq, A in H. destruct (mbit (n_bits nd) 0 (o' mod 256)); [|discriminate]. injection H as <-. clear - Eq. lia.
      - rewrite <- M2 in H by congruence. unfold cell_of, view_of, view in H. unfold view_of, view in B.
        destruct (Z.eqb_spec (loc' 0 (o / 256)) 0) as [|N1]; [discriminate|]. destruct (r_heap s' (loc' 0 (o / 256))) eqn:H1; [|discriminate]. injection B as B _.
        destruct (Z.eqb_spec (loc' 0 (o' / 256)) 0) as [|N2]; [discriminate|]. destruct (r_heap s' (loc' 0 (o' / 256))) eqn:H2; [|discriminate]. destruct (mbit _ 0 (o' mod 256)); [|discriminate]. injection H as <-. subst n.
        pose proof (i_apart _ _ _ _ _ _ I' (loc' 0 (o / 256)) (loc' 0 (o' / 256)) ltac:(congruence) ltac:(congruence)) as AP. unfold NODE in AP.
        assert (NE : loc' 0 (o / 256) <> loc' 0 (o' / 256)). { intros Q. destruct (i_inj _ _ _ _ _ _ I' _ _ _ _ N1 Q). contradiction. }
        specialize (AP NE). clear - AP. lia. }
    exists s', c, (add st o c), loc'. split; [exact RA|]. split; [apply alloc_ok, FIT|]. split; [|].
    + split; [exact G'|]. split.
      * intros i. cbn [add st_cell]. unfold put. destruct (Z.eqb_spec i o) as [->|N]; [symmetry; exact M1|]. rewrite M2 by exact N. apply C.
      * intros i x H. assert (K : st_data st i = Some x). { cbn [add st_data] in H. destruct (st_cell st o); [exact H|]. unfold put in H. destruct (i =? o); [discriminate|exact H]. }
        destruct (D i x K) as (D1 & D2 & D3). split; [exact D1|]. split; [|eapply marked_data; eassumption]. unfold live. cbn [add st_cell]. unfold put. destruct (i =? o); [discriminate|exact D2].
    + intros ->. destruct FIT as [F _]. unfold start in F. lia.
Qed.
Lemma charge_spec : forall n s loc st o last, rel s loc st -> 0 <= o -> last <= 2 ^ 63 -> last - o <= 256 * Z.of_nat n ->
  exists s' c st' loc', charge_from al n s o last = Some (s', c) /\ charge_steps (may_fail al) st o last c st' /\ rel s' loc' st'.
Proof.
  induction n as [|n IH]; intros s loc st o last R Ho Hl Hn; cbn [charge_from]; destruct (Z.ltb_spec o last) as [Lt|Ge].
  - lia.
  - eexists s, _, st, loc. split; [reflexivity|]. split; [apply charge_done, Ge|exact R].
  - destruct (alloc_spec s loc st o R ltac:(lia)) as (s1 & c & st1 & loc1 & A & S1 & R1 & F). rewrite A. unfold NULL. destruct (Z.eqb_spec c 0) as [->|N].
    + eexists s1, _, st1, loc1. split; [reflexivity|]. split; [|exact R1]. eapply charge_full; [exact Lt|exact S1].
    + unfold BLOCK. rewrite w64_small by lia. destruct (IH s1 loc1 st1 (o + 256) last R1 ltac:(lia) Hl ltac:(lia)) as (s' & code & st' & loc' & B & S2 & R2).
      exists s', code, st', loc'. split; [exact B|]. split; [|exact R2]. eapply charge_one; [exact Lt|exact N|exact S1|exact S2].
  - eexists s, _, st, loc. split; [reflexivity|]. split; [apply charge_done, Ge|exact R].
Qed.
Lemma free_spec : forall s loc st o, rel s loc st -> clear st o ->
  exists s' c st' loc', radix_free s o = Some (s', c) /\ rstep (may_fail al) st (RFree o) (RCode c) st' /\ rel s' loc' st'.
Proof.
  intros s loc st o R CL. pose proof (clear_in _ _ _ _ R CL) as IN. destruct R as (G & C & D). destruct CL as [Ho _].
  destruct (free_ok al (st_ok st) s loc o G IN) as (s' & c & loc' & RF & G' & [(-> & V & -> & ->)|(-> & CD)]).
  - exists s, (- ENOENT), st, loc. split; [exact RF|]. split; [|split; [exact G|split; assumption]]. apply free_none; [|auto]. intros i Li Eq. unfold live in Li. rewrite C in Li. apply Li. unfold cell_of. rewrite Eq, V. reflexivity.
  - destruct (cleared_cell _ _ _ CD) as [C1 C2]. destruct (st_cell st o) as [c0|] eqn:SC.
    + exists s', 0, (drop st o), loc'. split; [exact RF|]. split; [apply free_live; unfold live; congruence|]. split; [exact G'|]. split.
      * intros i. cbn [drop st_cell]. unfold put. destruct (Z.eqb_spec i o) as [->|N]; [symmetry; exact C1|]. rewrite C2 by exact N. apply C.
      * intros i x H. cbn [drop st_data] in H. unfold put in H. destruct (Z.eqb_spec i o) as [->|N]; [discriminate|]. destruct (D i x H) as (D1 & D2 & D3). split; [exact D1|].
        split; [unfold live; cbn [drop st_cell]; unfold put; destruct (Z.eqb_spec i o); [contradiction|exact D2]|]. eapply cleared_data; [exact CD| |exact D3]. rewrite C2 by exact N. rewrite <- C. exact D2.
    + assert (SAME : forall i, cell_of (view_of s' loc') i = cell_of (view_of s loc) i). { intros i. destruct (Z.eq_dec i o) as [->|N]; [rewrite C1, <- C; congruence|apply C2, N]. }
      assert (R' : rel s' loc' st). { split; [exact G'|]. split; [intros i; rewrite SAME; apply C|]. intros i x H. destruct (D i x H) as (D1 & D2 & D3). split; [exact D1|]. split; [exact D2|]. eapply cleared_data; [exact CD| |exact D3]. rewrite SAME, <- C. exact D2. }
      exists s', 0, st, loc'. split; [exact RF|]. split; [|exact R']. destruct CD as (n & nd & b & A & _).
      destruct (Z_lt_dec o 256) as [Lo|Hi].
      * destruct (existsb (fun k => mbit (n_bits nd) 0 (Z.of_nat k)) (seq 0 256)) eqn:EX.
        -- apply existsb_exists in EX. destruct EX as (k & Hk & Mk). apply in_seq in Hk. apply (free_other _ _ _ (o / 256 * 256 + Z.of_nat k)); [unfold live; congruence| |clear - Hk; lia].
           unfold live. rewrite C. unfold cell_of. replace ((o / 256 * 256 + Z.of_nat k) / 256) with (o / 256) by (clear - Hk; lia). replace ((o / 256 * 256 + Z.of_nat k) mod 256) with (Z.of_nat k) by (clear - Hk; lia). rewrite A, Mk. discriminate.
        -- apply free_none; [|auto]. intros i Li Eq. unfold live in Li. rewrite C in Li. unfold cell_of in Li. rewrite Eq, A in Li. destruct (mbit (n_bits nd) 0 (i mod 256)) eqn:Mk; [|contradiction].
           assert (existsb (fun k => mbit (n_bits nd) 0 (Z.of_nat k)) (seq 0 256) = true); [|congruence]. apply existsb_exists. exists (Z.to_nat (i mod 256)). split; [apply in_seq; clear; lia|]. rewrite Z2Nat.id by (clear; lia). exact Mk.
      * destruct G as [I _]. unfold view_of, view in A. destruct (Z.eqb_spec (loc 0 (o / 256)) 0) as [|NZ]; [discriminate|].
        destruct (leaf_bit _ _ _ _ _ _ (o / 256) I ltac:(lia) NZ) as (nd' & k & H1 & Hk & Mk).
        apply (free_other _ _ _ (o / 256 * 256 + k)); [unfold live; congruence| |clear - Hk; lia]. unfold live. rewrite C. unfold view_of. rewrite (cell_at (o / 256) nd' k NZ H1 Hk), Mk. discriminate.
Qed.
Lemma store_spec : forall s loc st o v, rel s loc st -> live st o -> o mod 8 = 0 ->
  exists h p, radix_find s o = Some p /\ cell_store (r_heap s) (p - o mod BLOCK) (o mod BLOCK) v = Some h /\
    rel (with_heap s h) loc {| st_cell := st_cell st; st_data := put (st_data st) o (Some v); st_ok := st_ok st |}.
Proof.
  intros s loc st o v R Lo Ho. destruct (live_in _ _ _ _ R Lo) as [_ IN]. destruct R as (G & C & D). rewrite (find_ok _ _ _ _ _ _ G IN). destruct G as [I B]. unfold live in Lo. rewrite C in Lo.
  pose proof (cell_leaf _ Lo) as NZ. set (q := o / 256) in *. destruct (i_leaf _ _ _ _ _ _ I q NZ) as (nd & D1 & D2 & D3 & D4).
  pose proof (cell_of_at nd o NZ D1) as CE. unfold view_of. fold q in CE. destruct (mbit (n_bits nd) 0 (o mod 256)) eqn:MB; [|unfold view_of in Lo; contradiction].
  rewrite CE. cbn [ptr]. destruct (wr_spec _ (n_child nd) (o mod 256 / 8) v ltac:(lia)) as (c & W & Lc & Rc).
  eexists _, _. split; [reflexivity|]. unfold cell_store, BLOCK. replace (loc 0 q + o mod 256 - o mod 256) with (loc 0 q) by lia. unfold set_child. rewrite D1, W. split; [reflexivity|].
  set (nd' := {| n_child := c; n_bits := n_bits nd |}).
  assert (V2 : forall p, p <> q -> view (hset (r_heap s) (loc 0 q) nd') loc p = view (r_heap s) loc p).
  { intros p Np. apply view_ext; [reflexivity|]. intros Lp. unfold hset. destruct (Z.eqb_spec (loc 0 p) (loc 0 q)) as [Q|]; [|reflexivity]. destruct (i_inj _ _ _ _ _ _ I _ _ _ _ Lp Q). contradiction. }
  assert (V1 : view (hset (r_heap s) (loc 0 q) nd') loc q = Some (loc 0 q, nd')). { unfold view. destruct (Z.eqb_spec (loc 0 q) 0); [contradiction|]. rewrite hset_same. reflexivity. }
  assert (V0 : view (r_heap s) loc q = Some (loc 0 q, nd)). { unfold view. destruct (Z.eqb_spec (loc 0 q) 0); [contradiction|]. rewrite D1. reflexivity. }
  assert (CS : forall i, cell_of (view (hset (r_heap s) (loc 0 q) nd') loc) i = cell_of (view (r_heap s) loc) i). { intros i. unfold cell_of. destruct (Z.eq_dec (i / 256) q) as [->|Ne]; [rewrite V1, V0; reflexivity|rewrite V2 by exact Ne; reflexivity]. }
  split; [|split].
  - cbn [st_ok with_heap r_heap]. split.
    + cbn [with_heap r_heap r_node r_level].
      assert (J : inv (xp (st_ok st) 0 q) no_e (hset (r_heap s) (loc 0 q) nd') (r_node s) (r_level s) loc). { refine (set_leaf I q nd' NZ _ D3 D4 _ (fun m => eq_refl)). cbn. lia. }
      apply (inv_filled J); [|apply xp_dec]. intros l p [A|[-> ->]] Nx Hp Lp; [contradiction|]. cbn [Z.eqb]. exists nd', (o mod 256). split; [apply hset_same|]. split; [lia|exact MB].
    + apply (born_ext _ s); [exact B|cbn; lia|]. intros m. cbn. unfold hset. destruct (Z.eqb_spec m (loc 0 q)) as [->|]; [congruence|auto].
  - intros i. cbn [st_cell]. unfold view_of. cbn [with_heap r_heap]. rewrite CS. apply C.
  - intros i x H. cbn [st_data] in H. unfold put in H. unfold live. cbn [st_cell]. destruct (Z.eqb_spec i o) as [->|N].
    + injection H as <-. split; [exact Ho|]. split; [rewrite C; exact Lo|]. unfold data_of, view_of. cbn [with_heap r_heap]. fold q. rewrite V1. cbn [nd' n_child]. rewrite Rc, Z.eqb_refl. reflexivity.
    + destruct (D i x H) as (D1' & D2' & D3'). split; [exact D1'|]. split; [exact D2'|]. unfold data_of, view_of in *. cbn [with_heap r_heap]. destruct (Z.eq_dec (i / 256) q) as [Eq|Ne].
      * rewrite Eq in *. rewrite V0 in D3'. rewrite V1. cbn [nd' n_child]. rewrite Rc. destruct (Z.eqb_spec (i mod 256 / 8) (o mod 256 / 8)) as [Q|]; [|exact D3']. exfalso. unfold q in Eq. clear - Q Eq N Ho D1'. lia.
      * rewrite V2 by exact Ne. exact D3'.
Qed.

Lemma exec_ok : forall s loc st op, rel s loc st -> rallowed st op ->
  exists s' r st' loc', radix_exec al s op = Some (s', r) /\ rstep (may_fail al) st op r st' /\ rel s' loc' st' /\ (op = RRelease -> forall n, r_heap s' n = None).
Proof.
  intros s loc st op R A. pose proof R as (G & C & D). destruct op as [o|o|o|o size| |o v|o| | |o|o]; cbn [radix_exec rallowed] in *.
  - destruct (alloc_spec s loc st o R A) as (s' & c & st' & loc' & E & S1 & R1 & _). rewrite E. exists s', (RPtr c), st', loc'. split; [reflexivity|]. split; [apply step_alloc, S1|]. split; [exact R1|discriminate].
  - destruct (free_spec s loc st o R A) as (s' & c & st' & loc' & E & S1 & R1). rewrite E. exists s', (RCode c), st', loc'. split; [reflexivity|]. split; [exact S1|]. split; [exact R1|discriminate].
  - rewrite (find_ok _ _ _ _ _ _ G (clear_in _ _ _ _ R A)). eexists s, _, st, loc. split; [reflexivity|]. split; [rewrite <- C; apply step_find|]. split; [exact R|discriminate].
  - destruct A as (A1 & A2 & A3). unfold radix_charge. destruct (Z.leb_spec (2 ^ 64) (o + size)) as [Ov|Ov].
    + eexists s, _, st, loc. split; [reflexivity|]. split; [apply charge_over, Ov|]. split; [exact R|discriminate].
    + destruct (charge_spec (Z.to_nat (size / BLOCK + 1)) s loc st o (o + size) R A1 ltac:(lia)) as (s' & c & st' & loc' & E & S1 & R1); [unfold BLOCK; clear - A2; lia|].
      rewrite E. exists s', (RCode c), st', loc'. split; [reflexivity|]. split; [apply charge_all; assumption|]. split; [exact R1|discriminate].
  - destruct G as [I B]. destruct (release_ok _ _ _ _ _ _ I) as (h2 & E & H). unfold radix_release. rewrite E. eexists _, RUnit, empty, _. split; [reflexivity|]. split; [apply step_release|]. split; [|intros _; exact H].
    apply rel_empty; [exact H|reflexivity|reflexivity].
  - destruct A as (A1 & A2 & _). destruct (store_spec s loc st o v R A1 A2) as (h & p & E1 & E2 & R1). rewrite E1, E2. eexists _, RUnit, _, loc. split; [reflexivity|]. split; [apply step_store, A1|]. split; [exact R1|discriminate].
  - destruct A as (A1 & A2). destruct (live_in _ _ _ _ R A1) as [_ IN]. rewrite (find_ok _ _ _ _ _ _ G IN). destruct G as [I B]. unfold live in A1. rewrite C in A1. pose proof (cell_leaf _ A1) as NZ.
    destruct (i_leaf _ _ _ _ _ _ I (o / 256) NZ) as (nd & D1 & D2 & D3 & D4). pose proof (cell_of_at nd o NZ D1) as CE. unfold view_of in *. destruct (mbit (n_bits nd) 0 (o mod 256)); [|contradiction]. rewrite CE. cbn [ptr].
    unfold cell_load, BLOCK. replace (loc 0 (o / 256) + o mod 256 - o mod 256) with (loc 0 (o / 256)) by lia. rewrite (get_child_ok _ _ nd _ D1). destruct (rd_some _ (n_child nd) (o mod 256 / 8) ltac:(lia)) as [x Rx]. rewrite Rx.
    exists s, (RPtr x), st, loc. split; [reflexivity|]. split; [|split; [exact R|discriminate]]. apply step_load. intros y Hy. destruct (D o y Hy) as (_ & _ & D5). unfold data_of, view in D5. destruct (Z.eqb_spec (loc 0 (o / 256)) 0); [contradiction|]. rewrite D1 in D5. congruence.
  - destruct (first_ok _ _ _ _ _ G) as (a & E & H). rewrite E. exists s, (RAt a), st, loc. split; [reflexivity|]. split; [|split; [exact R|discriminate]]. destruct a as [[c o]|].
    + destruct H as (H1 & H2 & H3). apply first_low. split; [exact H1|]. split; [rewrite C; exact H2|]. intros i Hi Li. unfold live in Li. rewrite C in Li. apply Li, H3. exact Hi.
    + apply first_none. intros i Li. apply H. rewrite <- C. exact Li.
  - rewrite A in G. destruct (last_ok _ _ _ _ G) as (a & E & H). rewrite E. exists s, (RAt a), st, loc. split; [reflexivity|]. split; [|split; [exact R|discriminate]]. destruct a as [[c o]|].
    + destruct H as (H1 & H2 & H3). apply last_one. split; [exact H1|]. split; [rewrite C; exact H2|]. intros i Hi Li. unfold live in Li. rewrite C in Li. apply Li, H3. lia.
    + apply last_none. intros i Li. unfold live in Li. rewrite C in Li. apply Li, H.
  - destruct A as [A1 A2]. rewrite A2 in G. destruct (move_ok _ false _ _ _ _ G (clear_in _ _ _ _ R A1)) as (a & E & H); [discriminate|]. unfold radix_next. rewrite E. exists s, (RAt a), st, loc. split; [reflexivity|]. split; [|split; [exact R|discriminate]]. destruct a as [[c x]|].
    + destruct H as (H1 & o' & H2 & H3 & H4 & H5). unfold beyond in *. apply (next_one _ _ o o' c x).
      * unfold live. rewrite C. exact H1.
      * split; [|split; [rewrite C; exact H3|]].
        -- assert (Lo : live st o') by (unfold live; rewrite C; congruence). destruct (live_in _ _ _ _ R Lo) as [P _]. clear - P H2. lia.
        -- intros i Hi Li. unfold live in Li. rewrite C in Li. apply Li, H4; clear - Hi; lia.
      * exact H5.
    + apply next_none. destruct H as [H|H]; [left; unfold live; rewrite C, H; auto|right]. intros i Li. apply (H i). rewrite <- C. exact Li.
  - destruct A as (A1 & A2 & A3). rewrite A2 in G. destruct (move_ok _ true _ _ _ _ G (clear_in _ _ _ _ R A1)) as (a & E & H).
    { intros _ Lo. rewrite <- C in Lo. destruct (A3 Lo) as [|(i & Li & Hi)]; [left; assumption|right]. exists i. split; [rewrite <- C; exact Li|exact Hi]. }
    unfold radix_prev. rewrite E. exists s, (RAt a), st, loc. split; [reflexivity|]. split; [|split; [exact R|discriminate]]. destruct a as [[c x]|].
    + destruct H as (H1 & o' & H2 & H3 & H4 & H5). unfold beyond in *. apply (prev_one _ _ o o' c x).
      * unfold live. rewrite C. exact H1.
      * split; [exact H2|split; [rewrite C; exact H3|]]. intros i Hi Li. unfold live in Li. rewrite C in Li. apply Li, H4; clear - Hi; lia.
      * exact H5.
    + apply prev_none. destruct H as [H|H]; [left; unfold live; rewrite C, H; auto|right]. intros i Li. apply (H i). rewrite <- C. exact Li.
Qed.
Lemma run_ok : forall prog, polite (may_fail al) prog -> forall n s loc st h, rel s loc st -> reach (may_fail al) h st ->
  exists s' loc' st' h', run_ops al n s prog h = Some (s', h') /\ reach (may_fail al) h' st' /\ rel s' loc' st' /\ exists t, h' = h ++ t /\ length t = n.
Proof.
  intros prog P. induction n as [|n IH]; intros s loc st h R H; cbn [run_ops].
  - exists s, loc, st, h. split; [reflexivity|]. split; [exact H|]. split; [exact R|]. exists []. rewrite app_nil_r. auto.
  - destruct (exec_ok s loc st (prog h) R (P h st H)) as (s1 & r & st1 & loc1 & E & S1 & R1 & _). rewrite E.
    destruct (IH s1 loc1 st1 (h ++ [(prog h, r)]) R1) as (s' & loc' & st' & h' & E' & H' & R' & t & T & Lt); [econstructor; eassumption|].
    exists s', loc', st', h'. split; [exact E'|]. split; [exact H'|]. split; [exact R'|]. exists ((prog h, r) :: t). split; [rewrite T, <- app_assoc; reflexivity|cbn; lia].
Qed.
End Session.
