From Verif Require Import Lib BitsModel BitsSpec BitsProofs BitsProps BitmapModel BitmapSpec BitmapProofs BitwalkModel BitwalkSpec.
Ltac Zify.zify_post_hook ::= Z.div_mod_to_equations.

Definition invw (inv : bool) : Z := if inv then ULONG_MAX else 0.

Lemma invw_bits : forall inv j, 0 <= j < 64 -> Z.testbit (invw inv) j = inv.
Proof.
  intros [|] j Hj; unfold invw; [rewrite ulong_max_bits by lia; apply Z.ltb_lt; lia|apply Z.bits_0].
Qed.
Lemma invw_range : forall inv, 0 <= invw inv < 2 ^ 64.
Proof. intros [|]; cbn; lia. Qed.

Lemma sw_range : forall swap v, u64 v -> u64 (sw swap v).
Proof. intros [|] v H; [apply (proj2 (proj2 C15_swab) v H)|exact H]. Qed.
Lemma byte_rev_range : forall i, 0 <= i < 64 -> 0 <= byte_rev 64 i < 64.
Proof. intros. unfold byte_rev. lia. Qed.
Lemma sw_bits : forall swap v j, u64 v -> 0 <= j < 64 ->
  Z.testbit (sw swap v) j = Z.testbit v (if swap then byte_rev 64 j else j).
Proof. intros [|] v j H Hj; [apply (proj2 (proj2 C15_swab) v H); exact Hj|reflexivity]. Qed.
Lemma sw_zero : forall swap v, u64 v -> v = 0 -> sw swap v = 0.
Proof. intros [|] v H ->; reflexivity. Qed.
Lemma byte_rev_inv : forall j, 0 <= j < 64 -> byte_rev 64 (byte_rev 64 j) = j.
Proof. intros. unfold byte_rev. lia. Qed.
Lemma sw_land_sw : forall swap v k, u64 v -> u64 k -> sw swap (Z.land v (sw swap k)) = Z.land (sw swap v) k.
Proof.
  intros swap v k Hv Hk. apply (word_ext 64).
  - apply sw_range, land_range_l; [lia|exact Hv].
  - apply land_range_r; [lia|exact Hk].
  - intros j Hj. rewrite sw_bits by (try apply land_range_l; auto; lia). rewrite !Z.land_spec, !sw_bits; auto.
    + destruct swap; [rewrite byte_rev_inv by lia|]; reflexivity.
    + destruct swap; [apply byte_rev_range|]; lia.
Qed.
Lemma sw_nz : forall swap v, u64 v -> v <> 0 -> 0 < sw swap v < 2 ^ 64.
Proof.
  intros swap v H N. pose proof (sw_range swap v H) as R. unfold u64 in *.
  assert (sw swap v <> 0); [|lia]. intros E. apply N. apply (word_zero v H). intros j Hj.
  assert (Q : Z.testbit (sw swap v) (if swap then byte_rev 64 j else j) = false) by (rewrite E; apply Z.bits_0).
  rewrite sw_bits in Q; [|exact H|destruct swap; [apply byte_rev_range|]; lia].
  destruct swap; [rewrite byte_rev_inv in Q by lia|]; exact Q.
Qed.

Definition src_ok (m : list Z) (bits : Z) (a1 : Z) (a2 : option Z) : Prop :=
  in_mem m a1 bits /\ match a2 with None => True | Some a => in_mem m a bits end.

Lemma rd_bits : forall m a k w j, rd m (a + k) = Some w -> 0 <= j < 64 -> Z.testbit w j = mbit m a (64 * k + j).
Proof.
  intros m a k w j E Hj. unfold mbit. replace ((64 * k + j) / 64) with k by lia. rewrite E. f_equal. lia.
Qed.

Lemma getw_ok : forall m bits inv swap a1 a2 k, Forall u64 m -> src_ok m bits a1 a2 -> 0 <= k < nwords bits ->
  exists v, getw m (invw inv) a1 a2 k = Some v /\ u64 v /\
    forall j, 0 <= j < 64 -> Z.testbit (sw swap v) j = wanted m a1 a2 inv swap (64 * k + j).
Proof.
  intros m bits inv swap a1 a2 k U [I1 I2] Hk. unfold getw.
  destruct (rd_some _ m (a1 + k)) as [a Ea]; [unfold in_mem in I1; lia|]. rewrite Ea.
  pose proof (rd_u64 _ _ _ U Ea) as Ua. pose proof (invw_range inv) as Ri.
  assert (PL : forall j, 0 <= j < 64 -> bit_place swap (64 * k + j) = 64 * k + (if swap then byte_rev 64 j else j)).
  { intros j Hj. unfold bit_place, byte_rev. destruct swap; [|reflexivity]. lia. }
  assert (RJ : forall j, 0 <= j < 64 -> 0 <= (if swap then byte_rev 64 j else j) < 64).
  { intros j Hj. destruct swap; [apply byte_rev_range|]; lia. }
  destruct a2 as [a2|].
  - destruct (rd_some _ m (a2 + k)) as [b Eb]; [unfold in_mem in I2; lia|]. rewrite Eb.
    assert (UV : u64 (Z.lxor (Z.land a b) (invw inv))) by (apply lxor_range; [lia|apply land_range_l; [lia|exact Ua]|exact Ri]).
    eexists. split; [reflexivity|]. split; [exact UV|].
    intros j Hj. rewrite sw_bits by assumption. specialize (RJ j Hj). unfold wanted. rewrite PL by assumption.
    rewrite Z.lxor_spec, Z.land_spec, invw_bits by assumption.
    rewrite (rd_bits _ _ _ _ _ Ea), (rd_bits _ _ _ _ _ Eb) by assumption. apply xorb_comm.
  - assert (UV : u64 (Z.lxor a (invw inv))) by (apply lxor_range; [lia|exact Ua|exact Ri]).
    eexists. split; [reflexivity|]. split; [exact UV|].
    intros j Hj. rewrite sw_bits by assumption. specialize (RJ j Hj). unfold wanted. rewrite PL by assumption.
    rewrite Z.lxor_spec, invw_bits by assumption.
    rewrite (rd_bits _ _ _ _ _ Ea) by assumption. rewrite andb_true_r. apply xorb_comm.
Qed.

(** [find_first]/[find_last] invert after swapping; same value, as the inverter is uniform. *)
Lemma sw_invert : forall swap inv w, u64 w -> Z.lxor (sw swap w) (invw inv) = sw swap (Z.lxor w (invw inv)).
Proof.
  intros swap inv w H. pose proof (invw_range inv) as Ri.
  apply (word_ext 64); [apply lxor_range; [lia|apply sw_range, H|exact Ri]|apply sw_range, lxor_range; [lia|exact H|exact Ri]|].
  intros j Hj. rewrite sw_bits by (auto; apply lxor_range; auto; lia). rewrite !Z.lxor_spec, sw_bits, !invw_bits; auto.
  destruct swap; [apply byte_rev_range|]; lia.
Qed.

Lemma low_mask_at : forall n j, 0 <= n -> 0 <= j < 64 -> Z.testbit (LOW_MASK n) j = (j <? if n mod 64 =? 0 then 64 else n mod 64).
Proof.
  intros n j Hn Hj. destruct (Z.eqb_spec (n mod 64) 0) as [E|E].
  - rewrite LOW_MASK_full, ulong_max_bits by lia. reflexivity.
  - apply LOW_MASK_bits; lia.
Qed.

Section Loops.
Variables (m : list Z) (bits : Z) (inv swap : bool) (a1 : Z) (a2 : option Z).
Hypotheses (U : Forall u64 m) (Hbits : 0 <= bits <= nmax) (S : src_ok m bits a1 a2).
Let P := wanted m a1 a2 inv swap.

Lemma nb_len : nwords bits <= zlen m.
Proof. destruct S as [[A B] _]. lia. Qed.

Lemma next_loop_ok : forall fuel lo start value,
  start mod 64 = 0 -> 0 <= start < bits -> u64 value -> 0 <= lo < start + 64 ->
  (forall j, 0 <= j < 64 -> Z.testbit (sw swap value) j = (lo <=? start + j) && P (start + j)) ->
  (forall i, lo <= i < start -> P i = false) ->
  Z.of_nat fuel > nwords bits - start / 64 ->
  exists r, next_loop m bits (invw inv) swap fuel a1 a2 start value = Some r /\ least P lo bits bits r.
Proof.
  unfold nmax in Hbits. pose proof nb_len as NB.
  induction fuel as [|fuel IH]; intros lo start value Hm Hs Hv Hlo Hb Hz Hf; cbn [next_loop].
  - unfold nwords in *. lia.
  - destruct (Z.eqb_spec value 0) as [E|E].
    + assert (Z64 : forall i, lo <= i < start + 64 -> P i = false).
      { intros i Hi. destruct (Z_lt_dec i start); [apply Hz; lia|].
        specialize (Hb (i - start) ltac:(lia)). rewrite sw_zero in Hb by assumption. rewrite Z.bits_0 in Hb.
        replace (start + (i - start)) with i in Hb by lia.
        replace (lo <=? i) with true in Hb by (symmetry; apply Z.leb_le; lia). symmetry. exact Hb. }
      rewrite w32_small by lia. destruct (Z.leb_spec bits (start + 64)).
      * eexists. split; [reflexivity|]. left. split; [reflexivity|]. intros i Hi. apply Z64. lia.
      * destruct (getw_ok m bits inv swap a1 a2 ((start + 64) / 64) U S) as (v & Ev & Uv & Bv); [unfold nwords; lia|].
        rewrite Ev. apply IH; auto; try lia.
        intros j Hj. rewrite Bv by assumption.
        replace (64 * ((start + 64) / 64) + j) with (start + 64 + j) by lia.
        replace (lo <=? start + 64 + j) with true by (symmetry; apply Z.leb_le; lia). reflexivity.
    + destruct (sw_nz swap value Hv E) as [N1 N2].
      destruct (ffsuf_spec (sw swap value) ltac:(lia)) as [(F1 & F2 & F3) F4].
      rewrite w32_small by lia. eexists. split; [reflexivity|].
      set (o := ffsuf (sw swap value)) in *. rewrite Hb in F2 by lia. apply andb_prop in F2. destruct F2 as [F2 F5]. apply Z.leb_le in F2.
      assert (Zo : forall i, lo <= i < start + o -> P i = false).
      { intros i Hi. destruct (Z_lt_dec i start); [apply Hz; lia|].
        specialize (F3 (i - start) ltac:(lia)). rewrite Hb in F3 by lia.
        replace (start + (i - start)) with i in F3 by lia.
        replace (lo <=? i) with true in F3 by (symmetry; apply Z.leb_le; lia). exact F3. }
      destruct (Z_lt_dec (start + o) bits).
      * rewrite Z.min_l by lia. right. split; [lia|]. split; [exact F5|exact Zo].
      * rewrite Z.min_r by lia. left. split; [reflexivity|]. intros i Hi. apply Zo. lia.
Qed.

Lemma comp_find_next_ok : forall start, 0 <= start ->
  exists r, comp_find_next m bits (invw inv) swap a1 a2 start = Some r /\ least P start bits bits r.
Proof.
  intros start Hs. unfold comp_find_next. destruct (Z.leb_spec bits start) as [L|L].
  - eexists. split; [reflexivity|]. left. split; [reflexivity|]. intros. lia.
  - destruct (getw_ok m bits inv swap a1 a2 (start / 64) U S) as (v & Ev & Uv & Bv); [unfold nwords; lia|].
    rewrite Ev. pose proof (HIGH_MASK_range start) as HR.
    apply next_loop_ok; try lia.
    + apply land_range_l; [lia|exact Uv].
    + intros j Hj. rewrite sw_land_sw by (exact Uv || exact HR). rewrite Z.land_spec, Bv, HIGH_MASK_bits by lia.
      replace (start - start mod 64 + j) with (64 * (start / 64) + j) by lia. rewrite andb_comm. f_equal.
      destruct (Z.leb_spec (start mod 64) j), (Z.leb_spec start (64 * (start / 64) + j)); auto; lia.
    + pose proof nb_len. unfold zlen in *. pose proof (Z.div_pos (start - start mod 64) 64 ltac:(lia) ltac:(lia)). lia.
Qed.

Lemma prev_loop_ok : forall fuel hi start value,
  start mod 64 = 0 -> 0 <= start < bits -> u64 value -> start < hi <= bits ->
  (forall j, 0 <= j < 64 -> Z.testbit (sw swap value) j = (start + j <? hi) && P (start + j)) ->
  (forall i, start + 64 <= i < hi -> P i = false) ->
  Z.of_nat fuel > start / 64 ->
  exists r, prev_loop m bits (invw inv) swap fuel a1 a2 start value = Some r /\ greatest P 0 hi bits r.
Proof.
  unfold nmax in Hbits.
  induction fuel as [|fuel IH]; intros hi start value Hm Hs Hv Hhi Hb Hz Hf; cbn [prev_loop].
  - lia.
  - destruct (Z.eqb_spec value 0) as [E|E].
    + assert (Z64 : forall i, start <= i < hi -> P i = false).
      { intros i Hi. destruct (Z_le_dec (start + 64) i); [apply Hz; lia|].
        specialize (Hb (i - start) ltac:(lia)). rewrite sw_zero in Hb by assumption. rewrite Z.bits_0 in Hb.
        replace (start + (i - start)) with i in Hb by lia.
        replace (i <? hi) with true in Hb by (symmetry; apply Z.ltb_lt; lia). symmetry. exact Hb. }
      destruct (Z.eq_dec start 0) as [->|N0].
      * replace (w32 (0 - 64)) with (2 ^ 32 - 64) by reflexivity.
        replace (bits <=? 2 ^ 32 - 64) with true by (symmetry; apply Z.leb_le; lia).
        eexists. split; [reflexivity|]. left. split; [reflexivity|exact Z64].
      * rewrite w32_small by lia. replace (bits <=? start - 64) with false by (symmetry; apply Z.leb_gt; lia).
        destruct (getw_ok m bits inv swap a1 a2 ((start - 64) / 64) U S) as (v & Ev & Uv & Bv); [unfold nwords; lia|].
        rewrite Ev. apply IH; auto; try lia.
        -- intros j Hj. rewrite Bv by assumption.
           replace (64 * ((start - 64) / 64) + j) with (start - 64 + j) by lia.
           replace (start - 64 + j <? hi) with true by (symmetry; apply Z.ltb_lt; lia). reflexivity.
        -- intros i Hi. apply Z64. lia.
    + destruct (sw_nz swap value Hv E) as [N1 N2].
      destruct (flsuf_spec (sw swap value) ltac:(lia)) as [(F1 & F2 & F3) F4].
      rewrite w32_small by lia. eexists. split; [reflexivity|].
      set (o := flsuf (sw swap value)) in *. rewrite Hb in F2 by lia. apply andb_prop in F2. destruct F2 as [F2 F5]. apply Z.ltb_lt in F2.
      rewrite Z.min_l by lia. right. split; [lia|]. split; [exact F5|].
      intros i Hi. destruct (Z_le_dec (start + 64) i); [apply Hz; lia|].
      specialize (F3 (i - start) ltac:(lia)). rewrite Hb in F3 by lia.
      replace (start + (i - start)) with i in F3 by lia.
      replace (i <? hi) with true in F3 by (symmetry; apply Z.ltb_lt; lia). exact F3.
Qed.

Lemma comp_find_prev_ok : forall start, 0 <= start ->
  exists r, comp_find_prev m bits (invw inv) swap a1 a2 start = Some r /\
    ((start < bits /\ greatest P 0 (start + 1) bits r) \/ (bits <= start /\ r = bits)).
Proof.
  unfold nmax in Hbits. intros start Hs. unfold comp_find_prev. destruct (Z.leb_spec bits start) as [L|L].
  - eexists. split; [reflexivity|]. right. auto.
  - destruct (getw_ok m bits inv swap a1 a2 (start / 64) U S) as (v & Ev & Uv & Bv); [unfold nwords; lia|].
    rewrite Ev. rewrite w32_small by lia. pose proof (LOW_MASK_range (start + 1)) as HR.
    edestruct (prev_loop_ok (Datatypes.S (length m)) (start + 1) (start - start mod 64) (Z.land v (sw swap (LOW_MASK (start + 1))))) as (r & E & G); try lia.
    + apply land_range_l; [lia|exact Uv].
    + intros j Hj. rewrite sw_land_sw by (exact Uv || exact HR). rewrite Z.land_spec, Bv, low_mask_at by lia.
      replace (start - start mod 64 + j) with (64 * (start / 64) + j) by lia. rewrite andb_comm. f_equal.
      destruct (Z.eqb_spec ((start + 1) mod 64) 0).
      * destruct (Z.ltb_spec j 64), (Z.ltb_spec (64 * (start / 64) + j) (start + 1)); auto; lia.
      * destruct (Z.ltb_spec j ((start + 1) mod 64)), (Z.ltb_spec (64 * (start / 64) + j) (start + 1)); auto; lia.
    + pose proof nb_len. unfold zlen, nwords in *. lia.
    + exists r. split; [exact E|]. left. split; [exact L|exact G].
Qed.
End Loops.

Section FirstLast.
Variables (m : list Z) (bits : Z) (inv swap : bool) (a1 : Z).
Hypotheses (U : Forall u64 m) (Hbits : 0 <= bits <= nmax) (I : in_mem m a1 bits).
Let P := wanted m a1 None inv swap.

Lemma word_ok : forall k, 0 <= k < nwords bits ->
  exists w, rd m (a1 + k) = Some w /\ let v := Z.lxor (sw swap w) (invw inv) in
    u64 v /\ forall j, 0 <= j < 64 -> Z.testbit v j = P (64 * k + j).
Proof.
  intros k Hk. destruct (getw_ok m bits inv swap a1 None k U (conj I Logic.I) Hk) as (v & Ev & Uv & Bv).
  unfold getw in Ev. destruct (rd m (a1 + k)) as [w|] eqn:Ew; [|discriminate]. injection Ev as <-.
  exists w. split; [reflexivity|]. cbv zeta. rewrite sw_invert by (eapply rd_u64; eauto).
  split; [apply sw_range; exact Uv|exact Bv].
Qed.

Lemma first_loop_ok : forall fuel k, 0 <= k -> (forall i, 0 <= i < 64 * k -> i < bits -> P i = false) ->
  Z.of_nat fuel >= nwords bits - k -> 64 * k < bits + 64 ->
  exists r, first_loop m bits (invw inv) swap fuel (a1 + k) (64 * k) = Some r /\ least P 0 bits bits r.
Proof.
  unfold nmax in Hbits.
  induction fuel as [|fuel IH]; intros k Hk Hz Hf Hkb; cbn [first_loop].
  - replace (64 * k <? bits) with false by (symmetry; apply Z.ltb_ge; unfold nwords in *; lia).
    eexists. split; [reflexivity|]. left. split; [reflexivity|]. intros i Hi. apply Hz; unfold nwords in *; lia.
  - destruct (Z.ltb_spec (64 * k) bits) as [L|L].
    + destruct (word_ok k) as (w & Ew & Uv & Bv); [unfold nwords; lia|]. rewrite Ew. cbv zeta in *.
      set (v := Z.lxor (sw swap w) (invw inv)) in *. clearbody v.
      destruct (Z.eqb_spec v 0) as [E|E].
      * rewrite w32_small by lia. replace (64 * k + 64) with (64 * (k + 1)) by lia. replace (a1 + k + 1) with (a1 + (k + 1)) by lia.
        apply IH; try lia. intros i Hi Hib. destruct (Z_lt_dec i (64 * k)); [apply Hz; lia|].
        specialize (Bv (i - 64 * k) ltac:(lia)). rewrite E, Z.bits_0 in Bv. replace (64 * k + (i - 64 * k)) with i in Bv by lia. auto.
      * destruct (ffsuf_spec v ltac:(unfold u64 in Uv; lia)) as [(F1 & F2 & F3) F4].
        rewrite w32_small by lia. set (o := ffsuf v) in *. rewrite Bv in F2 by lia.
        assert (Zo : forall i, 0 <= i < 64 * k + o -> i < bits -> P i = false).
        { intros i Hi Hib. destruct (Z_lt_dec i (64 * k)); [apply Hz; lia|].
          specialize (F3 (i - 64 * k) ltac:(lia)). rewrite Bv in F3 by lia. replace (64 * k + (i - 64 * k)) with i in F3 by lia. auto. }
        destruct (Z.leb_spec bits (64 * k + o)).
        -- eexists. split; [reflexivity|]. left. split; [reflexivity|]. intros i Hi. apply Zo; lia.
        -- eexists. split; [reflexivity|]. right. split; [lia|]. split; [exact F2|]. intros i Hi. apply Zo; lia.
    + eexists. split; [reflexivity|]. left. split; [reflexivity|]. intros i Hi. apply Hz; lia.
Qed.

Lemma comp_find_first_ok : exists r, comp_find_first m bits (invw inv) swap a1 = Some r /\ least P 0 bits bits r.
Proof.
  unfold comp_find_first. replace a1 with (a1 + 0) by lia. change 0 with (64 * 0) at 3.
  apply first_loop_ok; try lia. destruct I. unfold zlen in *. lia.
Qed.

Lemma last_loop_ok : forall base mask hi, u64 mask -> 64 * Z.of_nat base < hi -> hi <= bits ->
  (forall j, 0 <= j < 64 -> Z.testbit mask j = (64 * Z.of_nat base + j <? hi)) ->
  (forall i, 64 * Z.of_nat base + 64 <= i < bits -> P i = false) ->
  (hi = bits \/ hi = 64 * Z.of_nat base + 64) ->
  exists r, last_loop m bits (invw inv) swap base a1 mask = Some r /\ greatest P 0 bits bits r.
Proof.
  unfold nmax in Hbits.
  induction base as [|base IH]; intros mask hi Um Hhi Hhb Hmk Hz Hh; cbn [last_loop].
  - destruct (word_ok 0) as (w & Ew & Uv & Bv); [unfold nwords; lia|]. change (Z.of_nat 0) with 0 in *. rewrite Ew.
    set (v := Z.lxor (sw swap w) (invw inv)) in *. clearbody v.
    set (v2 := Z.land v mask) in *. assert (U2 : u64 v2) by (apply land_range_l; [lia|exact Uv]).
    assert (B2 : forall j, 0 <= j < 64 -> Z.testbit v2 j = P j && (j <? hi)).
    { intros j Hj. unfold v2. rewrite Z.land_spec, Bv, Hmk by lia. reflexivity. }
    clearbody v2. destruct (Z.eqb_spec v2 0) as [E|E].
    + eexists. split; [reflexivity|]. left. split; [reflexivity|]. intros i Hi. destruct (Z_lt_dec i 64).
      * specialize (B2 i ltac:(lia)). rewrite E, Z.bits_0 in B2. replace (i <? hi) with true in B2 by (symmetry; apply Z.ltb_lt; lia).
        rewrite andb_true_r in B2. auto.
      * apply Hz. lia.
    + destruct (flsuf_spec v2 ltac:(unfold u64 in U2; lia)) as [(F1 & F2 & F3) F4].
      rewrite !w32_small by (rewrite ?w32_small; lia). set (o := flsuf v2) in *. replace (0 * 64 + o) with o by lia.
      rewrite B2 in F2 by lia. apply andb_prop in F2. destruct F2 as [F2 F5]. apply Z.ltb_lt in F5.
      eexists. split; [reflexivity|]. right. split; [lia|]. split; [exact F2|].
      intros i Hi. destruct (Z_lt_dec i 64); [|apply Hz; lia].
      specialize (F3 i ltac:(lia)). rewrite B2 in F3 by lia. replace (i <? hi) with true in F3 by (symmetry; apply Z.ltb_lt; lia).
      rewrite andb_true_r in F3. exact F3.
  - set (b := Z.of_nat (S base)) in *. assert (Hb0 : b = Z.of_nat base + 1) by (unfold b; lia). clearbody b.
    destruct (word_ok b) as (w & Ew & Uv & Bv); [unfold nwords; lia|]. rewrite Ew. 
    set (v := Z.lxor (sw swap w) (invw inv)) in *. clearbody v.
    set (v2 := Z.land v mask) in *. assert (U2 : u64 v2) by (apply land_range_l; [lia|exact Uv]).
    assert (B2 : forall j, 0 <= j < 64 -> Z.testbit v2 j = P (64 * b + j) && (64 * b + j <? hi)).
    { intros j Hj. unfold v2. rewrite Z.land_spec, Bv, Hmk by lia. reflexivity. }
    clearbody v2. 
    destruct (Z.eqb_spec v2 0) as [E|E].
    + apply (IH ULONG_MAX (64 * Z.of_nat base + 64)); try lia.
      * unfold u64, ULONG_MAX. lia.
      * intros j Hj. rewrite ulong_max_bits by lia. destruct (Z.ltb_spec j 64), (Z.ltb_spec (64 * Z.of_nat base + j) (64 * Z.of_nat base + 64)); auto; lia.
      * intros i Hi. destruct (Z_le_dec (64 * b + 64) i); [apply Hz; lia|].
        specialize (B2 (i - 64 * b) ltac:(lia)). rewrite E, Z.bits_0 in B2. replace (64 * b + (i - 64 * b)) with i in B2 by lia.
        replace (i <? hi) with true in B2 by (symmetry; apply Z.ltb_lt; lia). rewrite andb_true_r in B2. auto.
    + destruct (flsuf_spec v2 ltac:(unfold u64 in U2; lia)) as [(F1 & F2 & F3) F4].
      rewrite B2 in F2 by lia. apply andb_prop in F2. destruct F2 as [F2 F5]. apply Z.ltb_lt in F5.
      rewrite !w32_small by (rewrite ?w32_small; lia). set (o := flsuf v2) in *. replace (b * 64 + o) with (64 * b + o) by lia.
      eexists. split; [reflexivity|]. right. split; [lia|]. split; [exact F2|].
      intros i Hi. destruct (Z_le_dec (64 * b + 64) i); [apply Hz; lia|].
      specialize (F3 (i - 64 * b) ltac:(lia)). rewrite B2 in F3 by lia. replace (64 * b + (i - 64 * b)) with i in F3 by lia.
      replace (i <? hi) with true in F3 by (symmetry; apply Z.ltb_lt; lia).
      rewrite andb_true_r in F3. exact F3.
Qed.

Lemma comp_find_last_ok : exists r, comp_find_last m bits (invw inv) swap a1 = Some r /\ greatest P 0 bits bits r.
Proof.
  unfold comp_find_last. destruct (Z.eqb_spec bits 0) as [E|E].
  - exists 0. split; [reflexivity|]. left. split; [lia|]. intros; lia.
  - apply (last_loop_ok _ _ bits); try (rewrite ?Z2Nat.id by lia; lia).
    + apply LOW_MASK_range.
    + intros j Hj. rewrite Z2Nat.id by lia. rewrite low_mask_at by lia.
      destruct (Z.eqb_spec (bits mod 64) 0); [destruct (Z.ltb_spec j 64)|destruct (Z.ltb_spec j (bits mod 64))];
        destruct (Z.ltb_spec (64 * ((bits - 1) / 64) + j) bits); auto; lia.
Qed.
End FirstLast.
