From Verif Require Import Lib BitsModel BitsSpec BitsProofs BitsProps DwordModel DwordSpec.
Ltac Zify.zify_post_hook ::= Z.div_mod_to_equations.

Lemma lor_add : forall a k b, 0 <= k -> 0 <= b < 2 ^ k -> Z.lor (a * 2 ^ k) b = a * 2 ^ k + b.
Proof.
  intros a k b Hk Hb. rewrite <- Z.lxor_lor, <- Z.add_nocarry_lxor; auto;
  (apply Z.bits_inj'; intros n Hn; rewrite Z.land_spec, Z.bits_0;
   destruct (Z_lt_dec n k); [rewrite Z.mul_pow2_bits_low by lia; reflexivity|rewrite (testbit_small b k) by lia; apply andb_false_r]).
Qed.
Lemma LOWER_mod : forall v, LOWER v = v mod 2 ^ 32.
Proof. intros. unfold LOWER. change (2 ^ 32 - 1) with (Z.ones 32). apply Z.land_ones. lia. Qed.
Lemma HIGHER_div : forall v, HIGHER v = v / 2 ^ 32.
Proof. intros. unfold HIGHER. apply Z.shiftr_div_pow2. lia. Qed.

Lemma dw_addd_ok : forall ah al bh bl, u64 ah -> u64 al -> u64 bh -> u64 bl ->
  dword (dw_addd ah al bh bl) /\ dval (dw_addd ah al bh bl) = (dval (ah, al) + dval (bh, bl)) mod 2 ^ 128.
Proof.
  intros ah al bh bl H1 H2 H3 H4. unfold u64 in *. unfold dw_addd, dword, dval. cbn [fst snd]. split; [split; apply w64_range|].
  unfold w64. destruct (Z.ltb_spec ((al + bl) mod 2 ^ 64) al); lia.
Qed.
Lemma sub_ok : forall ah al bh bl, u64 ah -> u64 al -> u64 bh -> u64 bl ->
  dword (sub_ddmmss ah al bh bl) /\ dval (sub_ddmmss ah al bh bl) = (dval (ah, al) - dval (bh, bl)) mod 2 ^ 128.
Proof.
  intros ah al bh bl H1 H2 H3 H4. unfold u64 in *. unfold sub_ddmmss, dword, dval. cbn [fst snd]. split; [split; apply w64_range|].
  unfold w64. destruct (Z.ltb_spec al ((al - bl) mod 2 ^ 64)); lia.
Qed.

Lemma mul_bound : forall a b n m, 0 <= a <= n -> 0 <= b <= m -> 0 <= a * b <= n * m.
Proof. intros. nia. Qed.

Lemma umul_ok : forall a b, u64 a -> u64 b ->
  dword (umul_ppmm a b) /\ dval (umul_ppmm a b) = a * b.
Proof.
  intros a b Ha Hb. unfold u64 in *. unfold umul_ppmm. cbv zeta.
  rewrite !LOWER_mod, !HIGHER_div.
  set (ul := a mod 2 ^ 32). set (uh := a / 2 ^ 32). set (vl := b mod 2 ^ 32). set (vh := b / 2 ^ 32).
  assert (Ea : a = uh * 2 ^ 32 + ul) by (unfold uh, ul; lia).
  assert (Eb : b = vh * 2 ^ 32 + vl) by (unfold vh, vl; lia).
  assert (R1 : 0 <= ul <= 2 ^ 32 - 1) by (unfold ul; lia). assert (R2 : 0 <= uh <= 2 ^ 32 - 1) by (unfold uh; lia).
  assert (R3 : 0 <= vl <= 2 ^ 32 - 1) by (unfold vl; lia). assert (R4 : 0 <= vh <= 2 ^ 32 - 1) by (unfold vh; lia).
  clearbody ul uh vl vh.
  pose proof (mul_bound _ _ _ _ R1 R3) as M0. pose proof (mul_bound _ _ _ _ R1 R4) as M1.
  pose proof (mul_bound _ _ _ _ R2 R3) as M2. pose proof (mul_bound _ _ _ _ R2 R4) as M3.
  assert (EE : a * b = uh * vh * 2 ^ 64 + (ul * vh + uh * vl) * 2 ^ 32 + ul * vl) by (rewrite Ea, Eb; change (2 ^ 64) with (2 ^ 32 * 2 ^ 32); ring).
  rewrite EE. clear EE Ea Eb.
  set (x0 := ul * vl) in *. set (x1 := ul * vh) in *. set (x2 := uh * vl) in *. set (x3 := uh * vh) in *. clearbody x0 x1 x2 x3.
  clear Ha Hb R1 R2 R3 R4.
  rewrite (w64_small x0), (w64_small x1), (w64_small x2), (w64_small x3) by lia.
  rewrite (w64_small (x1 + x0 / 2 ^ 32)) by lia. rewrite Z.shiftl_mul_pow2 by lia.
  split; [split; apply w64_range|]. unfold dval. cbn [fst snd].
  set (y := x1 + x0 / 2 ^ 32) in *. assert (Hy : 0 <= y <= (2 ^ 32 - 1) * (2 ^ 32 - 1) + 2 ^ 32 - 1) by (unfold y; lia).
  assert (Ey : y = x1 + x0 / 2 ^ 32) by reflexivity. clearbody y.
  destruct (Z_lt_dec (y + x2) (2 ^ 64)).
  - rewrite (w64_small (y + x2)) by lia. replace (y + x2 <? x2) with false by (symmetry; apply Z.ltb_ge; lia).
    rewrite (w64_small ((y + x2) mod 2 ^ 32 * 2 ^ 32)) by lia. rewrite !w64_small by lia. lia.
  - assert (E : w64 (y + x2) = y + x2 - 2 ^ 64) by (unfold w64; lia). rewrite E.
    replace (y + x2 - 2 ^ 64 <? x2) with true by (symmetry; apply Z.ltb_lt; lia).
    rewrite (w64_small ((y + x2 - 2 ^ 64) mod 2 ^ 32 * 2 ^ 32)) by lia.
    rewrite (w64_small (x3 + 2 ^ 32)) by lia. rewrite !w64_small by lia. lia.
Qed.

(** One digit of Knuth's algorithm D with a two-halfword divisor. *)
Lemma qr_half_ok : forall r digit div, 2 ^ 63 <= div < 2 ^ 64 -> 0 <= r < div -> 0 <= digit < 2 ^ 32 ->
  qr_half r digit div (div / 2 ^ 32) (div mod 2 ^ 32) = Some ((r * 2 ^ 32 + digit) / div, (r * 2 ^ 32 + digit) mod div).
Proof.
  intros r digit div Hd Hr Hx. unfold qr_half.
  set (d1 := div / 2 ^ 32). set (d0 := div mod 2 ^ 32).
  assert (Ed : div = d1 * 2 ^ 32 + d0) by (unfold d1, d0; lia).
  assert (D1 : 2 ^ 31 <= d1 < 2 ^ 32) by (unfold d1; lia). assert (D0 : 0 <= d0 < 2 ^ 32) by (unfold d0; lia).
  clearbody d1 d0. replace (d1 =? 0) with false by (symmetry; apply Z.eqb_neq; lia). cbv zeta.
  set (q := r / d1). set (s := r mod d1).
  assert (Er : r = q * d1 + s) by (unfold q, s; pose proof (Z.div_mod r d1 ltac:(lia)); lia).
  assert (Hs : 0 <= s < d1) by (apply Z.mod_pos_bound; lia).
  assert (Hq : 0 <= q <= 2 ^ 32 + 1).
  { split; [apply Z.div_pos; lia|]. unfold q. apply Z.lt_succ_r. apply Z.div_lt_upper_bound; [lia|]. nia. }
  clearbody q s.
  assert (Hm : 0 <= q * d0 < 2 ^ 64) by nia. rewrite (w64_small (q * d0)) by lia.
  rewrite (w64_small (s * 2 ^ 32)) by lia. rewrite lor_add by lia.
  set (m := q * d0) in *. set (r1 := s * 2 ^ 32 + digit).
  assert (E : r * 2 ^ 32 + digit = q * div - m + r1) by (unfold m, r1; rewrite Er, Ed; ring).
  assert (R1 : 0 <= r1 < div) by (unfold r1; lia).
  assert (K : q * div <= r * 2 ^ 32 + digit + m) by lia.
  rewrite E. clearbody r1.
  assert (UN : forall k, 0 <= r1 - m + k * div < div -> 
     ((q * div - m + r1) / div = q - k) /\ ((q * div - m + r1) mod div = r1 - m + k * div)).
  { intros k Hk. split; symmetry.
    - apply Z.div_unique with (r1 - m + k * div); [lia|ring].
    - apply Z.mod_unique with (q - k); [lia|ring]. }
  assert (Q1 : r1 < m -> 1 <= q) by (intros; destruct (Z.eq_dec q 0) as [->|]; [unfold m in *; lia|lia]).
  assert (N0 : 0 <= q * div - m + r1) by lia.
  destruct (Z.ltb_spec r1 m) as [L|L].
  - specialize (Q1 L). rewrite (w64_small (q - 1)) by lia.
    destruct (Z_lt_dec (r1 + div) (2 ^ 64)) as [O|O].
    + rewrite (w64_small (r1 + div)) by lia. replace (div <=? r1 + div) with true by (symmetry; apply Z.leb_le; lia).
      destruct (Z.ltb_spec (r1 + div) m) as [L2|L2].
      * destruct (UN 2) as [-> ->]; [lia|].
        assert (2 <= q) by (destruct (Z.eq_dec q 1) as [->|]; [unfold m in *; lia|lia]).
        rewrite (w64_small (q - 1 - 1)) by lia. f_equal. f_equal; [lia|]. unfold w64. lia.
      * destruct (UN 1) as [-> ->]; [lia|]. f_equal. f_equal. unfold w64. lia.
    + assert (E2 : w64 (r1 + div) = r1 + div - 2 ^ 64) by (unfold w64; lia). rewrite E2.
      replace (div <=? r1 + div - 2 ^ 64) with false by (symmetry; apply Z.leb_gt; lia).
      destruct (UN 1) as [-> ->]; [lia|]. f_equal. f_equal. unfold w64. lia.
  - destruct (UN 0) as [-> ->]; [lia|]. f_equal. f_equal; [lia|]. unfold w64. lia.
Qed.

Lemma udiv_qrnnd_ok : forall sh sl div, 2 ^ 63 <= div < 2 ^ 64 -> 0 <= sh < div -> u64 sl ->
  udiv_qrnnd sh sl div = Some (dval (sh, sl) / div, dval (sh, sl) mod div).
Proof.
  intros sh sl div Hd Hsh Hsl. unfold u64 in Hsl. unfold udiv_qrnnd, dval. cbn [fst snd]. rewrite !LOWER_mod, !HIGHER_div.
  rewrite qr_half_ok by lia.
  set (x1 := sl / 2 ^ 32). set (x0 := sl mod 2 ^ 32). assert (Es : sl = x1 * 2 ^ 32 + x0) by (unfold x1, x0; lia).
  assert (X1 : 0 <= x1 < 2 ^ 32) by (unfold x1; lia). assert (X0 : 0 <= x0 < 2 ^ 32) by (unfold x0; lia). clearbody x1 x0.
  set (N := sh * 2 ^ 32 + x1). pose proof (Z.div_mod N div ltac:(lia)) as E1. pose proof (Z.mod_pos_bound N div ltac:(lia)) as R1.
  assert (Q1 : 0 <= N / div < 2 ^ 32) by (split; [apply Z.div_pos; lia|apply Z.div_lt_upper_bound; unfold N; lia]).
  set (q1 := N / div) in *. set (r1 := N mod div) in *. clearbody q1 r1.
  rewrite qr_half_ok by lia.
  set (M := r1 * 2 ^ 32 + x0). pose proof (Z.div_mod M div ltac:(lia)) as E0. pose proof (Z.mod_pos_bound M div ltac:(lia)) as R0.
  assert (Q0 : 0 <= M / div < 2 ^ 32) by (split; [apply Z.div_pos; lia|apply Z.div_lt_upper_bound; unfold M; lia]).
  set (q0 := M / div) in *. set (r0 := M mod div) in *. clearbody q0 r0.
  rewrite w64_small by lia. rewrite lor_add by lia.
  assert (E : sh * 2 ^ 64 + sl = div * (q1 * 2 ^ 32 + q0) + r0).
  { unfold N, M in *. rewrite Es. change (2 ^ 64) with (2 ^ 32 * 2 ^ 32).
    replace (sh * (2 ^ 32 * 2 ^ 32) + (x1 * 2 ^ 32 + x0)) with ((sh * 2 ^ 32 + x1) * 2 ^ 32 + x0) by ring.
    rewrite E1. replace ((div * q1 + r1) * 2 ^ 32 + x0) with (div * q1 * 2 ^ 32 + (r1 * 2 ^ 32 + x0)) by ring. rewrite E0. ring. }
  f_equal. f_equal.
  - apply Z.div_unique with r0; [lia|exact E].
  - apply Z.mod_unique with (q1 * 2 ^ 32 + q0); [lia|exact E].
Qed.

Lemma clz_ok : forall d, 0 < d < 2 ^ 64 -> 0 <= clz d < 64 /\ 2 ^ 63 <= d * 2 ^ clz d < 2 ^ 64.
Proof.
  intros d Hd. unfold clz. destruct (Z.eqb_spec d ULONG_MAX) as [->|_]; [cbn; lia|]. replace (d =? 0) with false by (symmetry; apply Z.eqb_neq; lia).
  rewrite flsuf_log2 by lia. pose proof (Z.log2_spec d ltac:(lia)) as [L1 L2]. pose proof (Z.log2_nonneg d).
  assert (L3 : Z.log2 d < 64) by (apply Z.log2_lt_pow2; lia). set (l := Z.log2 d) in *. clearbody l.
  split; [lia|]. set (k := 63 - l) in *.
  assert (E : 2 ^ 63 = 2 ^ l * 2 ^ k) by (rewrite <- Z.pow_add_r by (unfold k; lia); f_equal; unfold k; lia).
  assert (0 < 2 ^ k) by (apply Z.pow_pos_nonneg; unfold k; lia).
  rewrite Z.pow_succ_r in L2 by lia. change (2 ^ 64) with (2 * 2 ^ 63). rewrite E. nia.
Qed.

Lemma shl_split : forall n bm, u64 n -> 0 <= bm < 64 ->
  n * 2 ^ bm = Z.shiftr n (64 - bm) * 2 ^ 64 + w64 (Z.shiftl n bm) /\ 0 <= Z.shiftr n (64 - bm) < 2 ^ bm /\
  exists k, w64 (Z.shiftl n bm) = k * 2 ^ bm /\ 0 <= k /\ (k + 1) * 2 ^ bm <= 2 ^ 64.
Proof.
  intros n bm Hn Hb. unfold u64 in Hn. rewrite Z.shiftr_div_pow2, Z.shiftl_mul_pow2 by lia. unfold w64.
  assert (E : 2 ^ 64 = 2 ^ (64 - bm) * 2 ^ bm) by (rewrite <- Z.pow_add_r by lia; f_equal; lia).
  assert (P1 : 0 < 2 ^ bm) by (apply Z.pow_pos_nonneg; lia). assert (P2 : 0 < 2 ^ (64 - bm)) by (apply Z.pow_pos_nonneg; lia).
  pose proof (Z.div_mod n (2 ^ (64 - bm)) ltac:(lia)) as D. pose proof (Z.mod_pos_bound n (2 ^ (64 - bm)) P2) as R.
  set (q := n / 2 ^ (64 - bm)) in *. set (r := n mod 2 ^ (64 - bm)) in *.
  assert (EM : (n * 2 ^ bm) mod 2 ^ 64 = r * 2 ^ bm).
  { symmetry. apply Z.mod_unique with q; [rewrite E; nia|]. rewrite D, E. ring. }
  rewrite EM. split; [rewrite D, E; ring|]. split.
  - unfold q. split; [apply Z.div_pos; lia|]. apply Z.div_lt_upper_bound; lia.
  - exists r. split; [reflexivity|]. split; [lia|]. rewrite E. nia.
Qed.

(** Shifting a double word left by [bm], as done before each division. *)
Lemma norm_ok : forall n1 n0 bm, u64 n1 -> u64 n0 -> 0 <= bm < 64 ->
  let n2 := Z.shiftr n1 (64 - bm) in
  let h := Z.lor (w64 (Z.shiftl n1 bm)) (Z.shiftr n0 (64 - bm)) in
  let l := w64 (Z.shiftl n0 bm) in
  n2 * 2 ^ 128 + h * 2 ^ 64 + l = dval (n1, n0) * 2 ^ bm /\ u64 h /\ u64 l /\ 0 <= n2 < 2 ^ bm.
Proof.
  intros n1 n0 bm H1 H0 Hb n2 h l.
  destruct (shl_split n1 bm H1 Hb) as (A1 & A2 & k & A3 & A4 & A5). destruct (shl_split n0 bm H0 Hb) as (B1 & B2 & _).
  fold n2 in A1, A2. fold l in B1. unfold h. rewrite A3. rewrite lor_add by lia. rewrite <- A3.
  unfold dval. cbn [fst snd]. split; [|split; [|split]].
  - change (2 ^ 128) with (2 ^ 64 * 2 ^ 64). 
    replace ((n1 * 2 ^ 64 + n0) * 2 ^ bm) with ((n1 * 2 ^ bm) * 2 ^ 64 + n0 * 2 ^ bm) by ring. rewrite A1, B1. ring.
  - unfold u64. rewrite A3. lia.
  - apply w64_range.
  - exact A2.
Qed.

Lemma div_scale : forall n d k, 0 < d -> 0 < k -> n * k / (d * k) = n / d /\ (n * k) mod (d * k) = n mod d * k.
Proof.
  intros n d k Hd Hk. split; [apply Z.div_mul_cancel_r; lia|apply Z.mul_mod_distr_r; lia].
Qed.

Lemma shiftr_mul : forall r bm, 0 <= bm -> Z.shiftr (r * 2 ^ bm) bm = r.
Proof. intros. rewrite Z.shiftr_div_pow2 by lia. apply Z.div_mul. pose proof (Z.pow_pos_nonneg 2 bm). lia. Qed.

Lemma dw_udiv_ok : forall n1 n0 d, u64 n1 -> u64 n0 -> 0 < d < 2 ^ 64 ->
  exists q1 q0 r, dw_udiv n1 n0 d = Some (q1, q0, r) /\ dword (q1, q0) /\ dval (q1, q0) = dval (n1, n0) / d /\
    r = dval (n1, n0) mod d.
Proof.
  intros n1 n0 d H1 H0 Hd. destruct (clz_ok d Hd) as [C1 C2]. unfold dw_udiv. set (bm := clz d) in *. clearbody bm.
  assert (P : 0 < 2 ^ bm) by (apply Z.pow_pos_nonneg; lia).
  set (n := dval (n1, n0)). assert (En : n = n1 * 2 ^ 64 + n0) by reflexivity. clearbody n. pose proof H1 as H1'. pose proof H0 as H0'. unfold u64 in H1', H0'.
  destruct (div_scale n d (2 ^ bm) ltac:(lia) P) as [S1 S2].
  pose proof (Z.mod_pos_bound n d ltac:(lia)) as MR. pose proof (Z.div_mod n d ltac:(lia)) as DM.
  destruct (norm_ok n1 n0 bm H1 H0 C1) as (E & U1 & U0 & R2). unfold dval in E. cbn [fst snd] in E. rewrite <- En in E.
  assert (SD : w64 (Z.shiftl d bm) = d * 2 ^ bm) by (rewrite Z.shiftl_mul_pow2 by lia; apply w64_small; lia).
  destruct (Z.ltb_spec n1 d) as [L|L].
  - assert (NB : 0 <= n < d * 2 ^ 64) by lia.
    assert (Q : 0 <= n / d < 2 ^ 64) by (split; [apply Z.div_pos; lia|apply Z.div_lt_upper_bound; lia]).
    assert (X : exists dd h l, (if negb (bm =? 0) then
        (w64 (Z.shiftl d bm), Z.lor (w64 (Z.shiftl n1 bm)) (Z.shiftr n0 (64 - bm)), w64 (Z.shiftl n0 bm)) else (d, n1, n0)) = (dd, h, l)
        /\ dd = d * 2 ^ bm /\ u64 h /\ u64 l /\ h * 2 ^ 64 + l = n * 2 ^ bm).
    { destruct (Z.eqb_spec bm 0) as [B0|B0]; cbn [negb].
      - exists d, n1, n0. rewrite B0. change (2 ^ 0) with 1. repeat split; try lia; auto.
      - eexists _, _, _. split; [reflexivity|]. split; [exact SD|]. split; [exact U1|]. split; [exact U0|].
        assert (N2 : Z.shiftr n1 (64 - bm) = 0).
        { destruct (shl_split n1 bm H1 C1) as (A1 & A2 & _). assert (n1 * 2 ^ bm < 2 ^ 64) by (apply Z.le_lt_trans with (d * 2 ^ bm); [apply Z.mul_le_mono_nonneg_r; lia|lia]).
          pose proof (w64_range (Z.shiftl n1 bm)). lia. }
        rewrite N2 in E. lia. }
    destruct X as (dd & h & l & -> & -> & Uh & Ul & EX). unfold u64 in Uh, Ul.
    assert (HL : n * 2 ^ bm < d * 2 ^ bm * 2 ^ 64) by (replace (d * 2 ^ bm * 2 ^ 64) with (d * 2 ^ 64 * 2 ^ bm) by ring; apply Z.mul_lt_mono_pos_r; lia).
    rewrite udiv_qrnnd_ok; [|lia|split; [lia|lia]|exact Ul].
    unfold dval. cbn [fst snd]. rewrite EX, S1, S2, shiftr_mul by lia.
    eexists _, _, _. split; [reflexivity|]. split; [split; cbn [fst snd]; unfold u64; lia|]. split; [lia|reflexivity].
  - replace (d =? 0) with false by (symmetry; apply Z.eqb_neq; lia).
    destruct (Z.eqb_spec bm 0) as [B0|B0].
    + rewrite B0 in *. change (2 ^ 0) with 1 in *. rewrite w64_small by lia.
      rewrite udiv_qrnnd_ok; [|lia|lia|exact H0].
      unfold dval. cbn [fst snd]. rewrite Z.shiftr_0_r.
      assert (EE : (n1 - d) * 2 ^ 64 + n0 = n + (- 2 ^ 64) * d) by lia.
      rewrite EE, Z.div_add, Z.mod_add by lia.
      assert (Q : 0 <= n / d + - 2 ^ 64 < 2 ^ 64).
      { split; [|assert (n / d < 2 * 2 ^ 64) by (apply Z.div_lt_upper_bound; lia); lia].
        assert (2 ^ 64 <= n / d) by (apply Z.div_le_lower_bound; lia). lia. }
      eexists _, _, _. split; [reflexivity|]. split; [split; cbn [fst snd]; unfold u64; lia|]. split; [lia|reflexivity].
    + rewrite SD. set (n2 := Z.shiftr n1 (64 - bm)) in *. set (h := Z.lor _ _) in *. set (l := w64 (Z.shiftl n0 bm)) in *.
      clearbody n2 h l. unfold u64 in U1, U0.
      assert (R63 : 2 ^ bm <= 2 ^ 63) by (apply Z.pow_le_mono_r; lia).
      set (dd := d * 2 ^ bm) in *. assert (HD : 0 < dd) by lia.
      rewrite udiv_qrnnd_ok; [|lia|lia|exact U1].
      change (dval (n2, h)) with (n2 * 2 ^ 64 + h).
      set (N := n2 * 2 ^ 64 + h). pose proof (Z.div_mod N dd ltac:(lia)) as D1. pose proof (Z.mod_pos_bound N dd HD) as M1.
      assert (QN : 0 <= N / dd < 2 ^ 64) by (split; [apply Z.div_pos; unfold N; lia|apply Z.div_lt_upper_bound; unfold N; lia]).
      set (q1 := N / dd) in *. set (r1 := N mod dd) in *. 
      rewrite udiv_qrnnd_ok; [|lia|lia|exact U0].
      change (dval (r1, l)) with (r1 * 2 ^ 64 + l).
      set (M := r1 * 2 ^ 64 + l). pose proof (Z.div_mod M dd ltac:(lia)) as D0. pose proof (Z.mod_pos_bound M dd HD) as M0.
      assert (QM : 0 <= M / dd < 2 ^ 64) by (split; [apply Z.div_pos; unfold M; lia|apply Z.div_lt_upper_bound; unfold M; lia]).
      set (q0 := M / dd) in *. set (r0 := M mod dd) in *.
      assert (TOT : n * 2 ^ bm = dd * (q1 * 2 ^ 64 + q0) + r0).
      { rewrite <- E. change (2 ^ 128) with (2 ^ 64 * 2 ^ 64).
        replace (n2 * (2 ^ 64 * 2 ^ 64) + h * 2 ^ 64 + l) with (N * 2 ^ 64 + l) by (unfold N; ring).
        rewrite D1. replace ((dd * q1 + r1) * 2 ^ 64 + l) with (dd * q1 * 2 ^ 64 + M) by (unfold M; ring). rewrite D0. ring. }
      assert (QQ : q1 * 2 ^ 64 + q0 = n / d) by (rewrite <- S1; apply Z.div_unique with r0; [lia|exact TOT]).
      assert (RR : r0 = n mod d * 2 ^ bm) by (rewrite <- S2; apply Z.mod_unique with (q1 * 2 ^ 64 + q0); [lia|exact TOT]).
      fold M r0 q0. rewrite RR, shiftr_mul by lia.
      eexists _, _, _. split; [reflexivity|]. split; [split; cbn [fst snd]; unfold u64; lia|]. split; [exact QQ|reflexivity].
Qed.

Lemma lex_lt : forall a b c d, 0 <= b < 2 ^ 64 -> 0 <= d < 2 ^ 64 ->
  ((a <? c) || ((c =? a) && (b <? d)) = true <-> a * 2 ^ 64 + b < c * 2 ^ 64 + d).
Proof. intros. rewrite orb_true_iff, andb_true_iff, !Z.ltb_lt, Z.eqb_eq. lia. Qed.

Lemma one_correction : forall bm q dh dl T k, 0 < bm < 64 -> 2 ^ 63 <= dh -> 0 <= q -> q * dh <= T -> T < 2 ^ bm * 2 ^ 64 ->
  dl = k * 2 ^ bm -> 0 <= k -> (k + 1) * 2 ^ bm <= 2 ^ 64 -> q * dl <= 2 ^ 127.
Proof.
  intros bm q dh dl T k Hb Hh Hq HT HTT Hk K0 K1.
  assert (P : 0 < 2 ^ bm) by (apply Z.pow_pos_nonneg; lia).
  assert (Q : q < 2 * 2 ^ bm).
  { assert (q * 2 ^ 63 <= q * dh) by (apply Z.mul_le_mono_nonneg_l; lia). lia. }
  destruct (Z.eq_dec bm 63) as [->|N].
  - assert (dl <= 2 ^ 63) by lia. assert (0 <= dl) by lia. change (2 ^ 127) with (2 ^ 64 * 2 ^ 63).
    apply Z.mul_le_mono_nonneg; lia.
  - assert (2 ^ bm <= 2 ^ 62) by (apply Z.pow_le_mono_r; lia). assert (0 <= dl) by (subst dl; apply Z.mul_nonneg_nonneg; lia).
    assert (dl <= 2 ^ 64) by lia. change (2 ^ 127) with (2 ^ 63 * 2 ^ 64). apply Z.mul_le_mono_nonneg; lia.
Qed.

Lemma dw_udivd_ok : forall rem1 n1 n0 d1 d0, u64 n1 -> u64 n0 -> 0 < d1 < 2 ^ 64 -> u64 d0 ->
  (2 ^ 63 <= d1 -> n1 < d1 -> n0 < d0) ->
  exists q1 q0 r1 r0, dw_udivd rem1 n1 n0 d1 d0 = Some (q1, q0, (r1, r0)) /\ dword (q1, q0) /\ dword (r1, r0) /\
    dval (q1, q0) = dval (n1, n0) / dval (d1, d0) /\ dval (r1, r0) = dval (n1, n0) mod dval (d1, d0).
Proof.
  intros rem1 n1 n0 d1 d0 H1 H0 Hd1 Hd0 HX. destruct (clz_ok d1 Hd1) as [C1 C2]. unfold dw_udivd.
  replace (d1 =? 0) with false by (symmetry; apply Z.eqb_neq; lia). set (bm := clz d1) in *. clearbody bm.
  pose proof H1 as H1'. pose proof H0 as H0'. pose proof Hd0 as Hd0'. unfold u64 in H1', H0', Hd0'.
  set (n := dval (n1, n0)). assert (En : n = n1 * 2 ^ 64 + n0) by reflexivity.
  set (d := dval (d1, d0)). assert (Ed : d = d1 * 2 ^ 64 + d0) by reflexivity.
  destruct (Z.eqb_spec bm 0) as [B0|B0].
  - rewrite B0 in C2. change (2 ^ 0) with 1 in C2.
    assert (SM : n < d -> n / d = 0 /\ n mod d = n) by (intros; split; [apply Z.div_small|apply Z.mod_small]; lia).
    assert (BG : d <= n -> n / d = 1 /\ n mod d = n - d).
    { intros. split; symmetry; [apply Z.div_unique with (n - d); lia|apply Z.mod_unique with 1; lia]. }
    destruct (Z.leb_spec n1 d1), (Z.ltb_spec n0 d0); cbn [andb].
    + destruct SM as [-> ->]; [lia|]. eexists _, _, _, _. split; [reflexivity|]. repeat split; cbn [fst snd]; auto; lia.
    + assert (n1 = d1) by (destruct (Z.eq_dec n1 d1); [assumption|specialize (HX ltac:(lia) ltac:(lia)); lia]).
      destruct (sub_ok n1 n0 d1 d0 H1 H0 ltac:(unfold u64; lia) Hd0) as [S1 S2]. fold n d in S2.
      destruct (sub_ddmmss n1 n0 d1 d0) as [r1 r0]. destruct BG as [-> ->]; [lia|].
      exists 0, 1, r1, r0. split; [reflexivity|]. split; [split; cbn [fst snd]; unfold u64; lia|]. split; [exact S1|].
      split; [reflexivity|]. rewrite S2. apply Z.mod_small. lia.
    + destruct (sub_ok n1 n0 d1 d0 H1 H0 ltac:(unfold u64; lia) Hd0) as [S1 S2]. fold n d in S2.
      destruct (sub_ddmmss n1 n0 d1 d0) as [r1 r0]. destruct BG as [-> ->]; [lia|].
      exists 0, 1, r1, r0. split; [reflexivity|]. split; [split; cbn [fst snd]; unfold u64; lia|]. split; [exact S1|].
      split; [reflexivity|]. rewrite S2. apply Z.mod_small. lia.
    + destruct (sub_ok n1 n0 d1 d0 H1 H0 ltac:(unfold u64; lia) Hd0) as [S1 S2]. fold n d in S2.
      destruct (sub_ddmmss n1 n0 d1 d0) as [r1 r0]. destruct BG as [-> ->]; [lia|].
      exists 0, 1, r1, r0. split; [reflexivity|]. split; [split; cbn [fst snd]; unfold u64; lia|]. split; [exact S1|].
      split; [reflexivity|]. rewrite S2. apply Z.mod_small. lia.
  - assert (P : 0 < 2 ^ bm) by (apply Z.pow_pos_nonneg; lia).
    destruct (norm_ok n1 n0 bm H1 H0 C1) as (E & U1 & U0 & R2).
    destruct (norm_ok d1 d0 bm ltac:(unfold u64; lia) Hd0 C1) as (F & V1 & V0 & W2). fold n in E. fold d in F.
    cbv zeta. set (n2 := Z.shiftr n1 (64 - bm)) in *. set (nh := Z.lor (w64 (Z.shiftl n1 bm)) (Z.shiftr n0 (64 - bm))) in *.
    set (nl := w64 (Z.shiftl n0 bm)) in *.
    set (dh := Z.lor (w64 (Z.shiftl d1 bm)) (Z.shiftr d0 (64 - bm))) in *. set (dl := w64 (Z.shiftl d0 bm)) in *.
    set (d2 := Z.shiftr d1 (64 - bm)) in *.
    assert (D2 : d2 = 0).
    { destruct (shl_split d1 bm ltac:(unfold u64; lia) C1) as (A1 & A2 & _). fold d2 in A1, A2. pose proof (w64_range (Z.shiftl d1 bm)). lia. }
    rewrite D2 in F. assert (F' : dh * 2 ^ 64 + dl = d * 2 ^ bm) by lia. clear F.
    assert (DN : 2 ^ 63 <= dh).
    { assert (d1 * 2 ^ bm * 2 ^ 64 <= d * 2 ^ bm) by (rewrite Ed; nia). unfold u64 in V0. lia. }
    destruct (shl_split d0 bm Hd0 C1) as (_ & _ & kd & KD1 & KD2 & KD3). fold dl in KD1.
    clearbody n2 nh nl dh dl. clear d2 W2 D2. unfold u64 in U1, U0, V1, V0.
    assert (R63 : 2 ^ bm <= 2 ^ 63) by (apply Z.pow_le_mono_r; lia).
    assert (Pd : 0 < d) by lia. assert (Dn0 : 0 <= n < 2 ^ 128) by lia.
    set (NN := n * 2 ^ bm) in *. set (DD := d * 2 ^ bm) in *.
    destruct (div_scale n d (2 ^ bm) Pd P) as [S1 S2]. fold NN DD in S1, S2.
    rewrite udiv_qrnnd_ok; [|lia|lia|exact U1]. change (dval (n2, nh)) with (n2 * 2 ^ 64 + nh).
    set (T := n2 * 2 ^ 64 + nh). pose proof (Z.div_mod T dh ltac:(lia)) as D1'. pose proof (Z.mod_pos_bound T dh ltac:(lia)) as M1.
    assert (QT : 0 <= T / dh < 2 ^ 64) by (split; [apply Z.div_pos; unfold T; lia|apply Z.div_lt_upper_bound; unfold T; lia]).
    set (q := T / dh) in *. set (rr := T mod dh) in *. clearbody q rr.
    assert (BND : q * dl <= 2 ^ 127).
    { apply (one_correction bm q dh dl T kd); auto; try (clear - C1 B0 QT D1' M1; lia).
      unfold T. clear - R2 U1 P. lia. }
    clear kd KD1 KD2 KD3 HX C2 Hd1 H1 H0 Hd0.
    destruct (umul_ok q dl) as [MU1 MU2]; [unfold u64; lia|exact V0|]. destruct (umul_ppmm q dl) as [m1 m0]. destruct MU1 as [MA MB]. unfold dval in MU2. cbn [fst snd] in MA, MB, MU2.
    unfold u64 in MA, MB.
    (* NN = q * DD - q * dl + rr * B + nl *)
    assert (K : NN = q * DD - (m1 * 2 ^ 64 + m0) + (rr * 2 ^ 64 + nl)).
    { rewrite MU2, <- F', <- E. change (2 ^ 128) with (2 ^ 64 * 2 ^ 64).
      replace (n2 * (2 ^ 64 * 2 ^ 64) + nh * 2 ^ 64 + nl) with (T * 2 ^ 64 + nl) by (unfold T; ring). rewrite D1'. ring. }
    assert (DDr : 2 ^ 127 <= DD < 2 ^ 128) by lia.
    assert (MX : m1 * 2 ^ 64 + m0 < 2 ^ 128) by lia.
    assert (FIN : forall qq k, 0 <= qq < 2 ^ 64 -> 0 <= k < DD -> NN = DD * qq + k ->
       dword (0, qq) /\ dval (0, qq) = n / d /\ k = (n mod d) * 2 ^ bm).
    { intros qq k Hq Hk HE. split; [split; unfold u64; cbn [fst snd]; lia|]. rewrite <- S1, <- S2. split.
      - unfold dval. cbn [fst snd]. apply Z.div_unique with k; [lia|]. lia.
      - apply Z.mod_unique with qq; [lia|exact HE]. }
    assert (REM : forall r1 r0, u64 r1 -> u64 r0 -> r1 * 2 ^ 64 + r0 = (n mod d) * 2 ^ bm ->
       dword (Z.shiftr r1 bm, Z.lor (w64 (Z.shiftl r1 (64 - bm))) (Z.shiftr r0 bm)) /\
       dval (Z.shiftr r1 bm, Z.lor (w64 (Z.shiftl r1 (64 - bm))) (Z.shiftr r0 bm)) = n mod d).
    { intros r1 r0 Hr1 Hr0 HE. destruct (shl_split r1 (64 - bm) Hr1 ltac:(lia)) as (A1 & A2 & k & A3 & A4 & A5).
      replace (64 - (64 - bm)) with bm in A1, A2 by lia. rewrite A3.
      assert (HB : 0 <= Z.shiftr r0 bm < 2 ^ (64 - bm)).
      { rewrite Z.shiftr_div_pow2 by lia. unfold u64 in Hr0. split; [apply Z.div_pos; lia|]. apply Z.div_lt_upper_bound; [lia|].
        rewrite <- Z.pow_add_r by lia. replace (bm + (64 - bm)) with 64 by lia. lia. }
      rewrite lor_add by lia. rewrite <- A3. unfold dword, dval. cbn [fst snd].
      pose proof (w64_range (Z.shiftl r1 (64 - bm))) as WR. unfold u64 in *.
      assert (P2 : 0 < 2 ^ (64 - bm)) by (apply Z.pow_pos_nonneg; lia).
      assert (2 ^ (64 - bm) <= 2 ^ 64) by (apply Z.pow_le_mono_r; lia).
      split; [split; [lia|rewrite A3 in *; lia]|].
      (* (r1 * 2^64 + r0) / 2^bm *)
      assert (EE : n mod d = (r1 * 2 ^ 64 + r0) / 2 ^ bm) by (rewrite HE; symmetry; apply Z.div_mul; lia).
      rewrite EE. replace (2 ^ 64) with (2 ^ (64 - bm) * 2 ^ bm) at 2 by (rewrite <- Z.pow_add_r by lia; f_equal; lia).
      replace (r1 * (2 ^ (64 - bm) * 2 ^ bm) + r0) with (r0 + (r1 * 2 ^ (64 - bm)) * 2 ^ bm) by ring.
      rewrite Z.div_add by lia. rewrite A1. rewrite (Z.shiftr_div_pow2 r0) by lia. lia. }
    set (sub1 := (rr <? m1) || ((m1 =? rr) && (nl <? m0))).
    assert (SUB : sub1 = true <-> rr * 2 ^ 64 + nl < m1 * 2 ^ 64 + m0).
    { unfold sub1. apply lex_lt; assumption. }
    destruct sub1.
    + assert (LT : rr * 2 ^ 64 + nl < m1 * 2 ^ 64 + m0) by (apply SUB; reflexivity). clear SUB.
      assert (Q1 : 1 <= q) by (destruct (Z.eq_dec q 0) as [->|]; [lia|lia]).
      destruct (sub_ok m1 m0 dh dl) as [X1 X2]; [exact MA|exact MB|unfold u64; lia|exact V0|].
      destruct (sub_ddmmss m1 m0 dh dl) as [x1 x0]. destruct X1 as [X1a X1b]. unfold dval in X2. cbn [fst snd] in X1a, X1b, X2.
      destruct (sub_ok rr nl x1 x0) as [Y1 Y2]; [unfold u64; lia|exact U0|exact X1a|exact X1b|].
      destruct (sub_ddmmss rr nl x1 x0) as [y1 y0]. destruct Y1 as [Y1a Y1b]. unfold dval in Y2. cbn [fst snd] in Y1a, Y1b, Y2.
      assert (YV : y1 * 2 ^ 64 + y0 = rr * 2 ^ 64 + nl - (m1 * 2 ^ 64 + m0) + DD).
      { rewrite Y2, X2, F'. rewrite Zminus_mod_idemp_r. 
        replace (rr * 2 ^ 64 + nl - (m1 * 2 ^ 64 + m0 - DD)) with (rr * 2 ^ 64 + nl - (m1 * 2 ^ 64 + m0) + DD) by ring.
        apply Z.mod_small. 
        assert (0 <= rr * 2 ^ 64 + nl - (m1 * 2 ^ 64 + m0) + DD); [|lia].
        assert (m1 * 2 ^ 64 + m0 <= 2 ^ 127); [|lia].
        rewrite MU2. exact BND. }
      rewrite (w64_small (q - 1)) by lia.
      destruct (FIN (q - 1) (y1 * 2 ^ 64 + y0)) as (Z1 & Z2 & Z3); [lia|lia|rewrite YV, K; ring|].
      destruct (REM y1 y0 Y1a Y1b Z3) as [W1 W2].
      eexists _, _, _, _. split; [reflexivity|]. auto.
    + assert (LT : m1 * 2 ^ 64 + m0 <= rr * 2 ^ 64 + nl).
      { destruct (Z_le_dec (m1 * 2 ^ 64 + m0) (rr * 2 ^ 64 + nl)); [assumption|]. assert (false = true) by (apply SUB; lia). discriminate. }
      destruct (sub_ok rr nl m1 m0) as [Y1 Y2]; [unfold u64; lia|exact U0|exact MA|exact MB|].
      destruct (sub_ddmmss rr nl m1 m0) as [y1 y0]. destruct Y1 as [Y1a Y1b]. unfold dval in Y2. cbn [fst snd] in Y1a, Y1b, Y2.
      assert (YV : y1 * 2 ^ 64 + y0 = rr * 2 ^ 64 + nl - (m1 * 2 ^ 64 + m0)) by (rewrite Y2; apply Z.mod_small; lia).
      destruct (FIN q (y1 * 2 ^ 64 + y0)) as (Z1 & Z2 & Z3); [lia|lia|rewrite YV, K; ring|].
      destruct (REM y1 y0 Y1a Y1b Z3) as [W1 W2].
      eexists _, _, _, _. split; [reflexivity|]. auto.
Qed.
