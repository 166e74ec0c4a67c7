(** * Proofs about the radix array: the iteration as the client sees it *)
From Verif Require Import Lib BitsModel BitsProofs BitmapSpec BitmapProofs BitwalkModel BitwalkSpec RadixModel RadixSpec RadixProofs RadixOps RadixAlloc RadixIter.
Ltac Zify.zify_post_hook ::= Z.div_mod_to_equations.

Lemma cell_none : forall h loc i, loc 0 (i / 256) = 0 -> cell_of (view h loc) i = None.
Proof. intros h loc i H. unfold cell_of. rewrite view_none by exact H. reflexivity. Qed.
Section Inv.
Context {X : Z -> Z -> Prop} {E : Z -> Z -> Z} {h : heap} {r L : Z} {loc : Z -> Z -> Z}.
Hypothesis I : inv X E h r L loc.
Lemma cell_leaf : forall i, cell_of (view h loc) i <> None -> loc 0 (i / 256) <> 0.
Proof. intros i H Z0. apply H, cell_none, Z0. Qed.
Lemma cell_at : forall q nd k, loc 0 q <> 0 -> h (loc 0 q) = Some nd -> 0 <= k < 256 ->
  cell_of (view h loc) (q * 256 + k) = if mbit (n_bits nd) 0 k then Some (loc 0 q + k) else None.
Proof.
  intros q nd k Hq Hn Hk. unfold cell_of, view. replace ((q * 256 + k) / 256) with q by lia. replace ((q * 256 + k) mod 256) with k by lia.
  destruct (Z.eqb_spec (loc 0 q) 0); [contradiction|]. rewrite Hn. reflexivity.
Qed.
Lemma cell_of_at : forall nd i, loc 0 (i / 256) <> 0 -> h (loc 0 (i / 256)) = Some nd -> cell_of (view h loc) i = if mbit (n_bits nd) 0 (i mod 256) then Some (loc 0 (i / 256) + i mod 256) else None.
Proof. intros nd i Hq Hn. replace i with (i / 256 * 256 + i mod 256) at 1 by lia. apply cell_at; [exact Hq|exact Hn|lia]. Qed.
Lemma cell_pos : forall i, cell_of (view h loc) i <> None -> 0 <= i < 2 ^ (5 * L + 8).
Proof.
  intros i H. apply cell_leaf in H. destruct (i_range _ _ _ _ _ _ I 0 _ H) as [A B]. rewrite Z.sub_0_r in B. rewrite Z.pow_add_r by (pose proof (i_level _ _ _ _ _ _ I); lia). change (2 ^ 8) with 256.
  revert B. generalize (2 ^ (5 * L)). intros. lia.
Qed.
End Inv.

Lemma first_ok : forall al X E s loc, good al X E s loc -> exists a, radix_first s = Some a /\
  match a with
  | None => forall i, cell_of (view_of s loc) i <> None -> 256 <= i
  | Some (c, o) => 0 <= o < 256 /\ cell_of (view_of s loc) o = Some c /\ forall i, 0 <= i < o -> cell_of (view_of s loc) i = None
  end.
Proof.
  intros al X E s loc [I _]. unfold radix_first, radix_end, view_of, NULL. pose proof (i_level _ _ _ _ _ _ I) as HL. destruct (Z.eqb_spec (r_node s) 0) as [Z0|NZ].
  - eexists. split; [reflexivity|]. cbv beta iota. intros i H. exfalso. apply H. apply cell_none, (loc_none I Z0).
  - pose proof (left_most I (Z.to_nat (r_level s)) NZ ltac:(lia)) as M. rewrite Z2Nat.id in M by lia. rewrite (i_root _ _ _ _ _ _ I) in M. rewrite M.
    pose proof (i_left _ _ _ _ _ _ I NZ 0 ltac:(lia)) as L0. destruct (Z.eqb_spec (loc 0 0) 0) as [|_]; [contradiction|].
    destruct (i_leaf _ _ _ _ _ _ I 0 L0) as (nd & D1 & D2 & D3 & D4). rewrite D1. destruct (first_bit _ D3 D4) as (k & F & LE). rewrite F. unfold BLOCK.
    assert (CE : forall k, 0 <= k < 256 -> cell_of (view (r_heap s) loc) k = if mbit (n_bits nd) 0 k then Some (loc 0 0 + k) else None). { intros j Hj. exact (cell_at 0 nd j L0 D1 Hj). }
    destruct LE as [[-> A]|(A & B & C)].
    + eexists. split; [reflexivity|]. cbv beta iota. intros i H. destruct (Z_le_dec 256 i); [assumption|exfalso]. pose proof (cell_pos I i H). apply H. rewrite CE, A by lia. reflexivity.
    + destruct (Z.eqb_spec k 256) as [|_]; [lia|]. eexists. split; [reflexivity|]. cbv beta iota. rewrite Z.lor_0_l. split; [exact A|]. split; [rewrite CE, B by lia; reflexivity|].
      intros i Hi. rewrite CE, C by lia. reflexivity.
Qed.
Lemma fed_ok : forall E h r L loc, inv (xs true) E h r L loc -> @fed loc.
Proof.
  intros E h r L loc I l p Hl Hp. destruct (i_range _ _ _ _ _ _ I l p Hp) as [A B]. destruct (Z.eq_dec p 0) as [->|N].
  - exists 0. split; [lia|]. change (32 * 0 + 0) with 0. destruct (Z.eq_dec r 0) as [R|R]; [exfalso; apply Hp, (loc_none I R)|]. apply (i_left _ _ _ _ _ _ I R). lia.
  - apply (i_branch_full _ _ _ _ _ _ I); [exact Hl|lia|exact Hp|]. intros [Q _]. discriminate.
Qed.
Lemma leaf_bit : forall E h r L loc ok q, inv (xs ok) E h r L loc -> 0 < q -> loc 0 q <> 0 -> exists nd k, h (loc 0 q) = Some nd /\ 0 <= k < 256 /\ mbit (n_bits nd) 0 k = true.
Proof. intros E h r L loc ok q I Hq Hl. apply (i_leaf_full _ _ _ _ _ _ I q Hq Hl). intros [_ Q]. lia. Qed.
Lemma last_ok : forall al E s loc, good al (xs true) E s loc -> exists a, radix_last s = Some a /\
  match a with
  | None => forall i, cell_of (view_of s loc) i = None
  | Some (c, o) => o < 2 ^ 63 /\ cell_of (view_of s loc) o = Some c /\ forall i, o < i -> cell_of (view_of s loc) i = None
  end.
Proof.
  intros al E s loc [I _]. unfold radix_last, radix_end, view_of, NULL. pose proof (i_level _ _ _ _ _ _ I) as HL. destruct (Z.eqb_spec (r_node s) 0) as [Z0|NZ].
  - eexists. split; [reflexivity|]. cbv beta iota. intros i. apply cell_none, (loc_none I Z0).
  - destruct (most_ok I true (Z.to_nat (r_level s)) 0 0 (fed_ok _ _ _ _ _ I)) as (q & off & M & Q1 & Q2 & Q3 & Q4); rewrite ?Z2Nat.id in * by lia; [lia|rewrite (i_root _ _ _ _ _ _ I); exact NZ|].
    rewrite (i_root _ _ _ _ _ _ I) in M. rewrite M. destruct (Z.eqb_spec (loc 0 q) 0) as [|_]; [contradiction|]. specialize (Q4 eq_refl). subst off.
    destruct (i_leaf _ _ _ _ _ _ I q Q1) as (nd & D1 & D2 & D3 & D4). rewrite D1. destruct (last_bit _ D3 D4) as (k & F & LE). rewrite F. unfold BLOCK.
    destruct (i_range _ _ _ _ _ _ I 0 q Q1) as [_ RQ].
    assert (TOP : forall i, cell_of (view (r_heap s) loc) i <> None -> i / 256 <= q). { intros i H. apply cell_leaf in H. apply (Q3 _ H). destruct (i_range _ _ _ _ _ _ I 0 _ H) as [_ B]. rewrite Z.sub_0_r in B. apply Z.div_small, B. }
    assert (NO : forall i, i / 256 = q -> mbit (n_bits nd) 0 (i mod 256) = false -> cell_of (view (r_heap s) loc) i = None). { intros i Hi Hm. rewrite (cell_of_at nd i) by (rewrite Hi; assumption). rewrite Hm. reflexivity. }
    destruct LE as [[-> A]|(A & B & C)].
    + eexists. split; [reflexivity|]. cbv beta iota. intros i. destruct (cell_of (view (r_heap s) loc) i) eqn:CE; [|reflexivity]. exfalso.
      assert (Hq : q = 0). { destruct (Z.eq_dec q 0); [assumption|]. exfalso. destruct (leaf_bit _ _ _ _ _ _ q I ltac:(lia) Q1) as (nd' & k & D1' & Hk & Mk). rewrite D1 in D1'. injection D1' as <-. rewrite A in Mk by exact Hk. discriminate. }
      pose proof (TOP i ltac:(congruence)) as T. pose proof (cell_pos I i ltac:(congruence)) as P. rewrite NO in CE; [discriminate|lia|]. apply A. lia.
    + destruct (Z.eqb_spec k 256) as [|_]; [lia|]. eexists. split; [reflexivity|]. cbv beta iota.
      assert (LO : Z.lor (q * 256) k = q * 256 + k) by (apply (DwordProofs.lor_add q 8 k); lia). rewrite LO.
      assert (CE : cell_of (view (r_heap s) loc) (q * 256 + k) = Some (loc 0 q + k)). { rewrite (cell_at q nd k Q1 D1) by lia. rewrite B. reflexivity. }
      split; [|split; [exact CE|]].
      * pose proof (cell_pos I (q * 256 + k) ltac:(congruence)) as P. assert (2 ^ (5 * r_level s + 8) <= 2 ^ 63) by (apply Z.pow_le_mono_r; lia). lia.
      * intros i Hi. destruct (cell_of (view (r_heap s) loc) i) eqn:CI; [|reflexivity]. exfalso. pose proof (TOP i ltac:(congruence)) as T. rewrite NO in CI; [discriminate| |].
        -- clear - Hi T A. lia.
        -- apply C. clear - Hi T A. lia.
Qed.

Lemma move_ok : forall al back E s loc o, good al (xs true) E s loc -> inside s o ->
  (back = true -> cell_of (view_of s loc) o <> None -> o < 256 \/ exists i, cell_of (view_of s loc) i <> None /\ i < o) ->
  exists a, radix_step back s o = Some a /\
  match a with
  | None => cell_of (view_of s loc) o = None \/ forall i, cell_of (view_of s loc) i <> None -> ahead back i o
  | Some (c, x) => cell_of (view_of s loc) o <> None /\ exists o', beyond back o o' /\ cell_of (view_of s loc) o' = Some c /\ (forall i, beyond back o i -> beyond back i o' -> cell_of (view_of s loc) i = None) /\ (o' / 2 ^ 13 = o / 2 ^ 13 -> x = o')
  end.
Proof.
  intros al back E s loc o G IN PB. destruct (parent_ok _ _ _ _ _ _ G IN) as (b0 & ps & RP & T & F). destruct IN as [Ho _]. unfold radix_step. rewrite RP. destruct b0; cbn [negb].
  2: { eexists. split; [reflexivity|]. cbv beta iota. left. apply cell_none. auto. }
  destruct (T eq_refl) as (T0 & Hr & HC & PT). destruct G as [I _]. clear T F RP. pose proof (i_level _ _ _ _ _ _ I) as HL. unfold view_of in *. pose proof PT as (P1 & P2 & P3). rewrite P1 by lia. rewrite P2, pre_0.
  set (q0 := o / 256) in *. set (index := o mod 256) in *. assert (Hidx : 0 <= index < 256) by (unfold index; lia). assert (Oeq : o = q0 * 256 + index) by (unfold q0, index; lia).
  destruct (i_leaf _ _ _ _ _ _ I q0 T0) as (nd & D1 & D2 & D3 & D4). rewrite D1. rewrite bit_test_ok by assumption.
  assert (CO : cell_of (view (r_heap s) loc) o = if mbit (n_bits nd) 0 index then Some (loc 0 q0 + index) else None). { rewrite Oeq at 1. apply cell_at; assumption. }
  destruct (mbit (n_bits nd) 0 index) eqn:MB; cbn [negb].
  2: { eexists. split; [reflexivity|]. cbv beta iota. left. exact CO. }
  assert (BIT : exists k, (if back then comp_find_prev (n_bits nd) BLOCK 0 false 0 None (w32 (index - 1)) else comp_find_next (n_bits nd) BLOCK 0 false 0 None (w32 (index + 1))) = Some k /\
     (k = 256 /\ (forall i, 0 <= i < 256 -> beyond back index i -> mbit (n_bits nd) 0 i = false) \/
      0 <= k < 256 /\ beyond back index k /\ mbit (n_bits nd) 0 k = true /\ (forall i, beyond back index i -> beyond back i k -> mbit (n_bits nd) 0 i = false))).
  { unfold beyond. destruct back.
    - destruct (prev_bit (n_bits nd) index D3 D4 Hidx) as (k & A & B). exists k. split; [exact A|]. destruct B as [[B1 B2]|(B1 & B2 & B3)]; [left; split; [exact B1|]; intros; apply B2; lia|right].
      split; [lia|]. split; [lia|]. split; [exact B2|]. intros; apply B3; lia.
    - destruct (next_bit (n_bits nd) index D3 D4 Hidx) as (k & A & B). exists k. split; [exact A|]. destruct B as [[B1 B2]|(B1 & B2 & B3)]; [left; split; [exact B1|]; intros; apply B2; lia|right].
      split; [lia|]. split; [lia|]. split; [exact B2|]. intros; apply B3; lia. }
  destruct BIT as (k & BI & BK). rewrite BI. clear BI. unfold BLOCK at 1. destruct BK as [[-> NOB]|(K1 & K2 & K3 & K4)].
  - (* the block has no further cell *)
    change (256 <? 256) with false. cbv iota.
    assert (SAME : forall i, i / 256 = q0 -> beyond back o i -> cell_of (view (r_heap s) loc) i = None).
    { intros i Hi Bi. rewrite (cell_of_at nd i) by (rewrite Hi; assumption). rewrite NOB; [reflexivity|clear; lia|]. clear - Hi Bi Oeq Hidx. unfold beyond in *. destruct back; lia. }
    destruct (climb_ok I back ps o Ho HC T0 PT (Z.to_nat (r_level s)) 1 ltac:(lia) ltac:(lia)) as (a & CL & SP).
    { intros q Lq Hq. change (1 - 1) with 0 in Hq. change (2 ^ (5 * 0)) with 1 in Hq. rewrite Z.div_1_r, pre_0 in Hq. subst q. unfold ahead. destruct back; lia. }
    rewrite CL. clear CL. destruct a as [[[lv c] off]|].
    + destruct SP as (Hlv & q' & Ec & Nc & S1 & S2 & S3). subst c.
      destruct (most_ok I back (Z.to_nat (lv - 1)) q' off (fed_ok _ _ _ _ _ I)) as (q & off' & M & Q1 & Q2 & Q3 & _); rewrite ?Z2Nat.id in * by (clear - Hlv; lia); [clear - Hlv; lia|exact Nc|].
      rewrite M. unfold NULL. destruct (Z.eqb_spec (loc 0 q) 0) as [|_]; [contradiction|]. destruct (i_leaf _ _ _ _ _ _ I q Q1) as (nd' & E1 & E2 & E3 & E4). rewrite E1.
      pose proof (i_range _ _ _ _ _ _ I 0 q Q1) as [_ RQ]. rewrite Z.sub_0_r in RQ.
      assert (Hlv1 : 0 <= lv - 1) by (clear - Hlv; lia).
      assert (BQ : beyond back q0 q).
      { rewrite pre_div in S1 by exact Hlv1. fold q0 in S1. rewrite <- Q2 in S1. unfold beyond in *. destruct back.
        - destruct (Z_lt_dec q q0); [assumption|exfalso]. pose proof (div_up q0 q (lv - 1) Hlv1 ltac:(lia)) as H. revert H S1. generalize (q0 / 2 ^ (5 * (lv - 1))). generalize (q / 2 ^ (5 * (lv - 1))). clear. intros; lia.
        - destruct (Z_lt_dec q0 q); [assumption|exfalso]. pose proof (div_up q q0 (lv - 1) Hlv1 ltac:(lia)) as H. revert H S1. generalize (q0 / 2 ^ (5 * (lv - 1))). generalize (q / 2 ^ (5 * (lv - 1))). clear. intros; lia. }
      assert (NEAR : forall p, loc 0 p <> 0 -> beyond back q0 p -> ahead back q p).
      { intros p Lp Bp. pose proof (S2 p Lp Bp) as A. destruct (Z.eq_dec (p / 2 ^ (5 * (lv - 1))) q') as [Eq|Ne]; [apply Q3; assumption|].
        rewrite <- Q2 in A, Ne. unfold ahead in *. destruct back.
        - destruct (Z_le_dec p q); [assumption|exfalso]. pose proof (div_up q p (lv - 1) Hlv1 ltac:(lia)) as H. revert H A Ne. generalize (p / 2 ^ (5 * (lv - 1))). generalize (q / 2 ^ (5 * (lv - 1))). clear. intros; lia.
        - destruct (Z_le_dec q p); [assumption|exfalso]. pose proof (div_up p q (lv - 1) Hlv1 ltac:(lia)) as H. revert H A Ne. generalize (p / 2 ^ (5 * (lv - 1))). generalize (q / 2 ^ (5 * (lv - 1))). clear. intros; lia. }
      assert (HB : exists j, 0 <= j < 256 /\ mbit (n_bits nd') 0 j = true).
      { destruct (Z.eq_dec q 0) as [Q0|NQ].
        - unfold beyond in BQ. destruct back; [|clear - BQ Q0 Ho; unfold q0 in BQ; lia].
          destruct PB as [PB|(i & Ci & Hi)]; [reflexivity|rewrite CO; discriminate|clear - BQ Q0 PB; unfold q0 in BQ; lia|].
          pose proof (cell_pos I i Ci) as Pi. assert (Hi0 : i / 256 = 0).
          { destruct (Z.eq_dec (i / 256) q0) as [Eq|Ne]; [exfalso; apply Ci, SAME; [exact Eq|exact Hi]|]. assert (B : beyond true q0 (i / 256)). { unfold beyond. unfold q0 in *. clear - Hi Ne. lia. }
            pose proof (NEAR _ (cell_leaf i Ci) B) as A. unfold ahead in A. clear - A Q0 Pi. lia. }
          exists (i mod 256). split; [clear; lia|]. destruct (mbit (n_bits nd') 0 (i mod 256)) eqn:Q; [reflexivity|exfalso]. apply Ci. rewrite (cell_of_at nd' i) by (replace (i / 256) with q by (transitivity 0; [exact Q0|symmetry; exact Hi0]); assumption). rewrite Q. reflexivity.
        - destruct (leaf_bit _ _ _ _ _ _ q I ltac:(clear - NQ RQ; lia) Q1) as (nd2 & j & X1 & X2 & X3). rewrite E1 in X1. injection X1 as <-. exists j. auto. }
      assert (CNT : exists k, (if back then find_last (n_bits nd') else find_first (n_bits nd')) = Some k /\ 0 <= k < 256 /\ mbit (n_bits nd') 0 k = true /\ forall i, 0 <= i < 256 -> beyond back i k -> mbit (n_bits nd') 0 i = false).
      { destruct HB as (j & Hj & Mj). unfold beyond. destruct back.
        - destruct (last_bit _ E3 E4) as (k & A & [[B1 B2]|(B1 & B2 & B3)]); [rewrite B2 in Mj by exact Hj; discriminate|]. exists k. split; [exact A|]. split; [exact B1|]. split; [exact B2|]. intros; apply B3; lia.
        - destruct (first_bit _ E3 E4) as (k & A & [[B1 B2]|(B1 & B2 & B3)]); [rewrite B2 in Mj by exact Hj; discriminate|]. exists k. split; [exact A|]. split; [exact B1|]. split; [exact B2|]. intros; apply B3; lia. }
      destruct CNT as (k & FK & K1 & K2 & K3). rewrite FK. unfold finish. eexists. split; [reflexivity|]. cbv beta iota. split; [rewrite CO; discriminate|].
      exists (q * 256 + k). split; [clear - BQ Oeq Hidx K1; unfold beyond in *; destruct back; lia|]. split; [rewrite (cell_at q nd' k Q1 E1 K1), K2; reflexivity|]. split.
      * intros i B1 B2. destruct (cell_of (view (r_heap s) loc) i) eqn:CI; [exfalso|reflexivity]. assert (Li : loc 0 (i / 256) <> 0) by (apply (@cell_leaf (r_heap s)); congruence).
        destruct (Z.eq_dec (i / 256) q0) as [Eq|Ne]; [rewrite SAME in CI by assumption; discriminate|].
        assert (Bi : beyond back q0 (i / 256)) by (clear - B1 Ne Oeq Hidx; unfold beyond in *; destruct back; lia).
        pose proof (NEAR _ Li Bi) as A. assert (Eq : i / 256 = q) by (clear - A B2 K1; unfold ahead, beyond in *; destruct back; lia).
        rewrite (cell_of_at nd' i) in CI by (rewrite Eq; assumption). rewrite K3 in CI; [discriminate|clear; lia|]. clear - B2 Eq K1. unfold beyond in *. destruct back; lia.
      * intros SB. destruct (Z.eq_dec lv 1) as [->|N1].
        -- destruct (S3 eq_refl) as [S4 ->]. change (Z.to_nat (1 - 1)) with 0%nat in M. cbn [most] in M. injection M as M1 M2. change (1 - 1) with 0 in *. change (2 ^ (5 * 0)) with 1 in Q2. rewrite Z.div_1_r in Q2. subst q' off'.
           assert (QB : q < 2 ^ 55). { eapply Z.lt_le_trans; [exact (proj2 RQ)|]. apply Z.pow_le_mono_r; clear - HL; lia. }
           rewrite finish_ok; [|clear - QB RQ; lia|exact K1]. replace ((q * 256 + o mod 256) / 256) with q by (clear; lia). reflexivity.
        -- exfalso. assert (QE : q / 2 ^ (5 * (lv - 1)) = pre (lv - 1) o).
           { rewrite pre_div by exact Hlv1. fold q0. replace (5 * (lv - 1)) with (5 + 5 * (lv - 2)) by (clear; lia). rewrite Z.pow_add_r by (clear - Hlv N1; lia). change (2 ^ 5) with 32.
             rewrite <- !Z.div_div by (try (apply pow_pos; clear - Hlv N1; lia); clear; lia). f_equal. change (2 ^ 13) with 8192 in SB. clear - SB K1 Oeq Hidx. lia. }
           rewrite Q2 in QE. subst q'. clear - S1 QE. unfold beyond in S1. destruct back; lia.
    + eexists. split; [reflexivity|]. cbv beta iota. right. intros i Ci. pose proof (SP _ (cell_leaf i Ci)) as A. fold q0 in A.
      assert (D : ahead back i o \/ beyond back o i) by (unfold ahead, beyond; destruct back; lia). destruct D as [D|D]; [exact D|exfalso]. apply Ci, SAME; [|exact D].
      clear - A D Oeq Hidx. unfold ahead, beyond in *. destruct back; lia.
  - destruct (Z.ltb_spec k 256) as [_|Q]; [|lia]. unfold finish. rewrite finish_ok by (try assumption; clear - Ho; lia). fold q0.
    eexists. split; [reflexivity|]. cbv beta iota. split; [rewrite CO; discriminate|]. exists (q0 * 256 + k). split; [clear - K2 Oeq; unfold beyond in *; destruct back; lia|].
    split; [rewrite (cell_at q0 nd k T0 D1 K1), K3; reflexivity|]. split; [|reflexivity]. intros i B1 B2.
    assert (Eq : i / 256 = q0) by (clear - B1 B2 Oeq Hidx K1; unfold beyond in *; destruct back; lia).
    rewrite (cell_of_at nd i) by (rewrite Eq; assumption). rewrite K4; [reflexivity| |]; clear - B1 B2 Eq Oeq Hidx K1; unfold beyond in *; destruct back; lia.
Qed.
