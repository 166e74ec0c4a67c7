(** * Proofs about long division of limb arrays (src/mpi.c:332-413) *)
From Verif Require Import Lib BitsModel DwordModel DwordSpec DwordProofs MpiModel MpiSpec MpiProofs MpiProofs2 MpiProofs3 MpiProofs4.
Ltac Zify.zify_post_hook ::= Z.div_mod_to_equations.

(** ** The estimate of a digit from the top three limbs over two *)
Lemma fix_quot_ok : forall f quot rem v1 value d1 d0 n0 N,
  0 < d1 < 2 ^ 64 -> u64 d0 -> u64 n0 -> u64 quot -> u64 rem -> u64 v1 -> u64 value ->
  v1 * 2 ^ 64 + value = d0 * quot -> rem + quot * d1 = N ->
  N * 2 ^ 64 + n0 < (quot + 1) * (d1 * 2 ^ 64 + d0) -> 2 ^ 64 <= rem + (Z.of_nat f - 1) * d1 ->
  exists q, fix_quot f quot rem v1 value d1 d0 n0 = Some q /\ u64 q /\
    q * (d1 * 2 ^ 64 + d0) <= N * 2 ^ 64 + n0 < (q + 1) * (d1 * 2 ^ 64 + d0).
Proof.
  induction f as [|f IH]; intros quot rem v1 value d1 d0 n0 N H1 U0 Un Uq Ur Uv Uw EP EN HU HF; unfold u64 in *.
  { exfalso. lia. }
  cbn [fix_quot].
  assert (EXP : quot * (d1 * 2 ^ 64 + d0) = (N - rem) * 2 ^ 64 + (v1 * 2 ^ 64 + value)).
  { rewrite EP, <- EN. ring. }
  destruct ((rem <? v1) || ((v1 =? rem) && (n0 <? value))) eqn:C.
  - assert (G : rem * 2 ^ 64 + n0 < v1 * 2 ^ 64 + value).
    { apply orb_prop in C. destruct C as [C|C]; [apply Z.ltb_lt in C; lia|]. apply andb_prop in C. destruct C as [C1 C2].
      apply Z.eqb_eq in C1. apply Z.ltb_lt in C2. lia. }
    assert (Q1 : 1 <= quot). { destruct (Z.eq_dec quot 0) as [->|]; lia. }
    assert (D0 : d0 <= v1 * 2 ^ 64 + value). { rewrite EP. nia. }
    replace (w64 (quot - 1)) with (quot - 1) by (symmetry; apply w64_small; lia).
    set (D := d1 * 2 ^ 64 + d0) in *.
    assert (E1 : (quot - 1 + 1) * D = quot * D) by (f_equal; lia).
    assert (E2 : (quot - 1) * D = quot * D - D) by ring.
    destruct (Z.ltb_spec (w64 (rem + d1)) d1) as [L|L].
    + assert (O : 2 ^ 64 <= rem + d1). { unfold w64 in L. lia. }
      exists (quot - 1). split; [reflexivity|]. split; [lia|]. rewrite E1, E2, EXP. split; [|lia].
      (* v - d0 < 2^128 <= (rem + d1) B *)
      assert (PB : d0 * (quot - 1) <= (2 ^ 64 - 1) * (2 ^ 64 - 1)) by (apply Z.mul_le_mono_nonneg; lia).
      assert (PE : d0 * (quot - 1) = v1 * 2 ^ 64 + value - d0) by (rewrite EP; ring). unfold D. lia.
    + assert (O : rem + d1 < 2 ^ 64). { unfold w64 in L. lia. }
      rewrite (w64_small (rem + d1)) by lia.
      assert (VV : w64 (v1 - b2z (value <? d0)) * 2 ^ 64 + w64 (value - d0) = v1 * 2 ^ 64 + value - d0 /\
                   0 <= w64 (v1 - b2z (value <? d0)) < 2 ^ 64 /\ 0 <= w64 (value - d0) < 2 ^ 64).
      { unfold w64, b2z. destruct (Z.ltb_spec value d0); lia. }
      destruct VV as (V1 & V2 & V3).
      assert (G1 : w64 (v1 - b2z (value <? d0)) * 2 ^ 64 + w64 (value - d0) = d0 * (quot - 1)) by (rewrite V1, EP; ring).
      assert (G2 : rem + d1 + (quot - 1) * d1 = N) by (rewrite <- EN; ring).
      assert (G3 : N * 2 ^ 64 + n0 < (quot - 1 + 1) * (d1 * 2 ^ 64 + d0)) by (fold D; rewrite E1, EXP; lia).
      assert (G4 : 2 ^ 64 <= rem + d1 + (Z.of_nat f - 1) * d1) by (rewrite Nat2Z.inj_succ in HF; lia).
      destruct (IH (quot - 1) (rem + d1) (w64 (v1 - b2z (value <? d0))) (w64 (value - d0)) d1 d0 n0 N) as (q & E & Uq' & B); unfold u64; auto; try lia.
      exists q. auto.
  - assert (G : v1 * 2 ^ 64 + value <= rem * 2 ^ 64 + n0).
    { apply orb_false_elim in C. destruct C as [C1 C2]. apply Z.ltb_ge in C1. apply andb_false_elim in C2.
      destruct C2 as [C2|C2]; [apply Z.eqb_neq in C2; lia|apply Z.ltb_ge in C2]. lia. }
    exists quot. split; [reflexivity|]. split; [lia|]. split; [|exact HU]. rewrite EXP. lia.
Qed.

(** The digit estimated from the leading limbs is the digit or one more. *)
Lemma estimate : forall q d n k lowr lowb, 0 < k -> 0 <= lowr < k -> 0 <= lowb < k -> 0 <= q < 2 ^ 64 -> 2 ^ 64 <= d ->
  q * d <= n < (q + 1) * d ->
  let b := d * k + lowb in let R := n * k + lowr in
  (q - 1) * b <= R < (q + 1) * b.
Proof.
  intros q d n k lowr lowb Hk Hr Hb Hq Hd [A C] b R. subst b R. split.
  - assert (q * lowb <= q * k) by (apply Z.mul_le_mono_nonneg_l; lia).
    assert (q * k <= d * k) by (apply Z.mul_le_mono_nonneg_r; lia).
    assert (q * d * k <= n * k) by (apply Z.mul_le_mono_nonneg_r; lia).
    replace ((q - 1) * (d * k + lowb)) with (q * d * k - d * k + q * lowb - lowb) by ring. lia.
  - assert ((n + 1) * k <= (q + 1) * d * k) by (apply Z.mul_le_mono_nonneg_r; lia).
    assert (0 <= (q + 1) * lowb) by (apply Z.mul_nonneg_nonneg; lia).
    replace ((q + 1) * (d * k + lowb)) with ((q + 1) * d * k + (q + 1) * lowb) by ring. lia.
Qed.
(** The same when the leading limbs are equal and the divisor is normalised. *)
Lemma estimate_top : forall d1 k lowr lowb, 0 < k -> 2 ^ 63 <= d1 -> 0 <= lowr -> 0 <= lowb < k ->
  let b := d1 * k + lowb in let R := d1 * 2 ^ 64 * k + lowr in
  (2 ^ 64 - 2) * b <= R.
Proof.
  intros d1 k lowr lowb Hk Hd Hr Hb b R. subst b R.
  assert ((2 ^ 64 - 2) * lowb <= (2 ^ 64 - 2) * k) by (apply Z.mul_le_mono_nonneg_l; lia).
  assert ((2 ^ 64 - 2) * k <= 2 * d1 * k) by (apply Z.mul_le_mono_nonneg_r; lia).
  replace ((2 ^ 64 - 2) * (d1 * k + lowb)) with (d1 * 2 ^ 64 * k - 2 * d1 * k + (2 ^ 64 - 2) * lowb) by ring. lia.
Qed.

(** ** One digit *)
Lemma split_two : forall (l : list Z), (2 <= length l)%nat -> exists l' x y, l = l' ++ [x; y] /\ S (S (length l')) = length l.
Proof.
  intros l H. destruct (split_last l (length l - 1) ltac:(lia)) as (m & y & -> & L).
  destruct (split_last m (length m - 1)) as (m' & x & -> & L'). { rewrite app_length in *. cbn in *. lia. }
  exists m', x, y. rewrite <- app_assoc. split; [reflexivity|]. rewrite !app_length in *. cbn [length] in *. lia.
Qed.

Lemma rd_at : forall (p m q : list Z) z i, i = zlen p -> rd (p ++ z :: q) i = Some z.
Proof. intros p m q z i E. rewrite rd_app2 by lia. replace (i - zlen p) with 0 by lia. reflexivity. Qed.

Definition divisor_ok (b : list Z) : Prop :=
  Forall u64 b /\ (2 <= length b)%nat /\ 2 ^ 63 <= last b 0 /\ Forall (fun x => x <> 2 ^ 64 - 1) (tl b).

Lemma divrem_loop_ok : forall n p w hi b value qs, divisor_ok b -> length p = n -> length w = length b ->
  Forall u64 p -> Forall u64 w -> val w < val b -> last w 0 = value ->
  exists r hi' q, divrem_loop n (p ++ w ++ hi) b (zlen b) value qs = Some (r ++ hi', q ++ qs) /\
    length r = length b /\ Forall u64 r /\ 0 <= val r < val b /\ length q = n /\ Forall u64 q /\
    val p + Bp n * val w = val q * val b + val r.
Proof.
  induction n as [|n IH]; intros p w hi b value qs OK Lp Lw Up Uw Hlt Hv.
  - destruct p; [|discriminate]. exists w, hi, []. cbn [divrem_loop app length val Bp]. pose proof (val_range w Uw).
    split; [reflexivity|]. repeat split; auto; lia.
  - destruct (split_last p n Lp) as (p1 & x & -> & L1). apply Forall_app in Up. destruct Up as [Up1 Ux].
    assert (Ux' : u64 x) by (apply Forall_inv in Ux; exact Ux). clear Ux.
    destruct OK as (Ub & Lb & Tb & Sb). destruct (split_two b Lb) as (bl & d0 & d1 & Eb & Lbl).
    assert (T1 : last b 0 = d1). { rewrite Eb. replace (bl ++ [d0; d1]) with ((bl ++ [d0]) ++ [d1]) by (rewrite <- app_assoc; reflexivity). apply last_last. }
    rewrite T1 in Tb.
    assert (Ud : Forall u64 bl /\ u64 d0 /\ u64 d1). { rewrite Eb in Ub. apply Forall_app in Ub. destruct Ub as [A B]. inversion B as [|? ? B1 B2]; subst. inversion B2; subst. auto. }
    destruct Ud as (Ubl & Ud0 & Ud1).
    destruct (split_last w (length b - 1) ltac:(lia)) as (w1 & v & -> & Lw1). rewrite last_last in Hv. subst v.
    apply Forall_app in Uw. destruct Uw as [Uw1 Uv]. apply Forall_inv in Uv.
    (* the window *)
    set (m := x :: w1). assert (Lm : length m = length b) by (unfold m; cbn [length]; lia).
    assert (Um : Forall u64 m) by (constructor; auto).
    destruct (split_two m ltac:(lia)) as (ml & n0 & n1 & Em & Lml).
    assert (Und : Forall u64 ml /\ u64 n0 /\ u64 n1). { rewrite Em in Um. apply Forall_app in Um. destruct Um as [A B]. inversion B as [|? ? B1 B2]; subst. inversion B2; subst. auto. }
    destruct Und as (Uml & Un0 & Un1).
    assert (Ed : (p1 ++ [x]) ++ (w1 ++ [value]) ++ hi = p1 ++ m ++ value :: hi).
    { unfold m. rewrite <- !app_assoc. reflexivity. }
    rewrite Ed. cbn [divrem_loop]. replace (Z.of_nat n) with (zlen p1) by (unfold zlen; lia).
    assert (Zb : zlen b = zlen m) by (unfold zlen; lia).
    assert (R1 : rd (p1 ++ m ++ value :: hi) (zlen p1 + zlen b) = Some value).
    { rewrite app_assoc. apply (rd_at _ []). rewrite zlen_app. lia. }
    rewrite R1.
    assert (R2 : rd b (zlen b - 1) = Some d1).
    { rewrite Eb. replace (bl ++ [d0; d1]) with ((bl ++ [d0]) ++ d1 :: []) by (rewrite <- app_assoc; reflexivity).
      apply (rd_at _ []). rewrite !zlen_app. unfold zlen. cbn. lia. }
    assert (R3 : rd b (zlen b - 2) = Some d0).
    { rewrite Eb. apply (rd_at _ []). rewrite !zlen_app. unfold zlen. cbn. lia. }
    rewrite R2, R3.
    assert (R4 : rd (p1 ++ m ++ value :: hi) (zlen p1 + zlen b - 1) = Some n1).
    { rewrite Em. replace (p1 ++ (ml ++ [n0; n1]) ++ value :: hi) with ((p1 ++ ml ++ [n0]) ++ n1 :: value :: hi) by (rewrite <- !app_assoc; reflexivity).
      apply (rd_at _ []). rewrite Zb, Em, !zlen_app. unfold zlen. cbn. lia. }
    assert (R5 : rd (p1 ++ m ++ value :: hi) (zlen p1 + zlen b - 2) = Some n0).
    { rewrite Em. replace (p1 ++ (ml ++ [n0; n1]) ++ value :: hi) with ((p1 ++ ml) ++ n0 :: n1 :: value :: hi) by (rewrite <- !app_assoc; reflexivity).
      apply (rd_at _ []). rewrite Zb, Em, !zlen_app. unfold zlen. cbn. lia. }
    (* numbers *)
    pose proof (Bp_pos (length bl)) as Kp. set (K := Bp (length bl)) in *.
    assert (KL : Bp (length b) = 2 ^ 64 * (2 ^ 64 * K)). { rewrite <- Lbl. reflexivity. }
    assert (Lll : length ml = length bl) by lia.
    assert (Vb : val b = (d1 * 2 ^ 64 + d0) * K + val bl). { rewrite Eb, val_app. cbn [val]. fold K. ring. }
    assert (Vm : val m = (n1 * 2 ^ 64 + n0) * K + val ml). { rewrite Em, val_app. cbn [val]. rewrite Lll. fold K. ring. }
    pose proof (val_range bl Ubl) as Rbl. pose proof (val_range ml Uml) as Rml. rewrite Lll in Rml. fold K in Rbl, Rml.
    pose proof (val_range m Um) as Rm. rewrite Lm in Rm.
    pose proof (val_range b Ub) as Rb.
    set (R := val m + Bp (length b) * value).
    assert (ER : R = x + 2 ^ 64 * val (w1 ++ [value])).
    { assert (BW : Bp (length b) = 2 ^ 64 * Bp (length w1)) by (replace (length b) with (S (length w1)) by lia; reflexivity).
      unfold R, m. rewrite val_app, BW. cbn [val]. ring. }
    assert (RB : 0 <= R < 2 ^ 64 * val b).
    { pose proof (val_range (w1 ++ [value])) as X. specialize (X ltac:(apply Forall_app; split; auto)). unfold u64 in Ux'. lia. }
    assert (Vle : value <= d1).
    { assert (value * (2 ^ 64 * K) <= val (w1 ++ [value])).
      { rewrite val_app. cbn [val]. rewrite Lw1. replace (length b - 1)%nat with (S (length bl)) by lia. cbn [Bp]. fold K.
        pose proof (val_range w1 Uw1). lia. }
      assert (val b < (d1 + 1) * (2 ^ 64 * K)). { rewrite Vb. unfold u64 in Ud0. assert (d0 * K <= (2 ^ 64 - 1) * K) by (apply Z.mul_le_mono_nonneg_r; lia). lia. }
      assert (value * (2 ^ 64 * K) < (d1 + 1) * (2 ^ 64 * K)) by lia.
      apply Z.mul_lt_mono_pos_r in H1; lia. }
    assert (ERn : R = ((value * 2 ^ 64 + n1) * 2 ^ 64 + n0) * K + val ml). { unfold R. rewrite Vm, KL. ring. }
    unfold u64 in Ud0, Ud1, Un0, Un1, Uv, Ux'.
    (* the estimate *)
    assert (EQ : exists quot,
      (if value =? d1 then Some (2 ^ 64 - 1)
       else let* n1 := rd (p1 ++ m ++ value :: hi) (zlen p1 + zlen b - 1) in
            let* p := dw_udiv value n1 d1 in
            let '(_, q0, rem) := p in
            let '(v1, vl) := umul_ppmm d0 q0 in
            let* n0 := rd (p1 ++ m ++ value :: hi) (zlen p1 + zlen b - 2) in
            fix_quot 8 q0 rem v1 vl d1 d0 n0) = Some quot /\ u64 quot /\ (quot - 1) * val b <= R < (quot + 1) * val b).
    { destruct (Z.eqb_spec value d1) as [->|Ne].
      - exists (2 ^ 64 - 1). split; [reflexivity|]. split; [unfold u64; lia|].
        pose proof (estimate_top d1 (2 ^ 64 * K) (val m) (d0 * K + val bl) ltac:(lia) Tb ltac:(lia)) as X. cbv zeta in X.
        assert (d0 * K <= (2 ^ 64 - 1) * K) by (apply Z.mul_le_mono_nonneg_r; lia).
        assert (0 <= d0 * K) by (apply Z.mul_nonneg_nonneg; lia).
        specialize (X ltac:(lia)). split.
        + replace (2 ^ 64 - 1 - 1) with (2 ^ 64 - 2) by lia. replace (val b) with (d1 * (2 ^ 64 * K) + (d0 * K + val bl)) by (rewrite Vb; ring).
          replace R with (d1 * 2 ^ 64 * (2 ^ 64 * K) + val m) by (unfold R; rewrite KL; ring). exact X.
        + replace (2 ^ 64 - 1 + 1) with (2 ^ 64) by lia. lia.
      - rewrite R4, R5.
        destruct (dw_udiv_ok value n1 d1) as (qh & q0 & rem & -> & DW & QV & RV); [unfold u64; lia|unfold u64; lia|lia|].
        unfold dword, dval in *. cbn [fst snd] in *. destruct DW as [DW1 DW2].
        set (N := value * 2 ^ 64 + n1) in *.
        pose proof (Z.div_mod N d1 ltac:(lia)) as DM. pose proof (Z.mod_pos_bound N d1 ltac:(lia)) as MB.
        assert (QL : N / d1 < 2 ^ 64). { apply Z.div_lt_upper_bound; [lia|]. unfold N. assert ((value + 1) * 2 ^ 64 <= d1 * 2 ^ 64) by (apply Z.mul_le_mono_nonneg_r; lia). lia. }
        assert (Q0 : 0 <= N / d1) by (apply Z.div_pos; unfold N; lia).
        assert (QH : q0 = N / d1) by (unfold u64 in *; lia).
        assert (U0 : u64 q0) by (unfold u64; lia).
        destruct (umul_ok d0 q0 ltac:(unfold u64; lia) U0) as [MU1 MU2]. destruct (umul_ppmm d0 q0) as [v1 vl].
        unfold dword, dval in *. cbn [fst snd] in *. destruct MU1 as [MA MB'].
        assert (G1 : v1 * 2 ^ 64 + vl = d0 * q0) by lia.
        assert (G2 : rem + q0 * d1 = N) by (rewrite QH, RV, (Z.mul_comm (N / d1)); lia).
        assert (G3 : N * 2 ^ 64 + n0 < (q0 + 1) * (d1 * 2 ^ 64 + d0)).
        { assert (N + 1 <= (q0 + 1) * d1) by (rewrite QH; replace ((N / d1 + 1) * d1) with (d1 * (N / d1) + d1) by ring; lia).
          replace ((q0 + 1) * (d1 * 2 ^ 64 + d0)) with ((q0 + 1) * d1 * 2 ^ 64 + (q0 + 1) * d0) by ring.
          assert (0 <= (q0 + 1) * d0) by (unfold u64 in U0; apply Z.mul_nonneg_nonneg; lia). lia. }
        assert (G4 : 2 ^ 64 <= rem + (Z.of_nat 8 - 1) * d1) by lia.
        assert (G5 : 0 <= rem < 2 ^ 64) by lia. clear QV DM.
        destruct (fix_quot_ok 8 q0 rem v1 vl d1 d0 n0 N) as (q & -> & Uq & B); auto; try (unfold u64; clear - Un0 Ud0 Ud1 G5 Tb; lia).
        exists q. split; [reflexivity|]. split; [exact Uq|]. rewrite Vb, ERn.
        unfold u64 in Uq. apply estimate; auto; clear - Kp Rml Rbl Uq Tb Ud0; lia. }
    destruct EQ as (quot & EQ & Uq & B1 & B2). rewrite EQ.
    (* subtract *)
    pose proof (msui_ok b p1 m (value :: hi) b (zlen p1) 0 quot 0 Lm eq_refl Uq ltac:(unfold u64; lia) Ub Um) as MS.
    specialize (MS (srcok_ext b _ _ b [] (eq_sym (app_nil_r b)))).
    destruct MS as (s & c & E & Ls & Us & Uc & Es). rewrite Z.sub_0_r in Es.
    replace (Z.to_nat (zlen b)) with (length b) by (unfold zlen; lia). rewrite E.
    pose proof (val_range s Us) as Rs. rewrite Ls in Rs.
    assert (KEY : val s + (value - c) * Bp (length b) = R - quot * val b).
    { unfold R. replace (val m + Bp (length b) * value - quot * val b) with ((val m - val b * quot) + Bp (length b) * value) by ring. rewrite <- Es. ring. }
    assert (X1 : (quot - 1) * val b = quot * val b - val b) by ring. assert (X2 : (quot + 1) * val b = quot * val b + val b) by ring.
    unfold u64 in Uq.
    assert (exists s' c' quot', 
      (if negb (value =? c) then let* p := mpa_add (p1 ++ s ++ value :: hi) Own (Ext b) (zlen p1) (zlen p1) 0 (zlen b) (zlen b) 0 in Some (fst p, w64 (quot - 1))
       else Some (p1 ++ s ++ value :: hi, quot)) = Some (p1 ++ s' ++ value :: hi, quot') /\ c' = 0 /\
      length s' = length b /\ Forall u64 s' /\ 0 <= val s' < val b /\ u64 quot' /\ R = quot' * val b + val s') as HS.
    { destruct (Z.eqb_spec value c) as [Eq|Ne]; cbn [negb].
      - exists s, 0, quot. split; [reflexivity|]. split; [reflexivity|]. rewrite Eq in KEY. rewrite Z.sub_diag in KEY.
        repeat split; auto; unfold u64; lia.
      - assert (CV : c = value + 1).
        { assert (value - c < 0). { assert (value - c <= -1 \/ 1 <= value - c) as [?|G] by lia; [lia|].
            assert (1 * Bp (length b) <= (value - c) * Bp (length b)) by (apply Z.mul_le_mono_nonneg_r; lia). lia. }
          destruct (Z.eq_dec c (value + 1)); [assumption|]. assert (value - c <= -2) by lia.
          assert ((value - c) * Bp (length b) <= (-2) * Bp (length b)) by (apply Z.mul_le_mono_nonneg_r; lia). lia. }
        rewrite CV in KEY. replace ((value - (value + 1)) * Bp (length b)) with (- Bp (length b)) in KEY by ring.
        pose proof (mpa_add_ok s b p1 s (value :: hi) Own (Ext b) (zlen p1) (zlen p1) 0 0) as AD.
        specialize (AD ltac:(lia) eq_refl ltac:(auto) Us Ub (srcok_own _ _ _ _ eq_refl)).
        specialize (AD (srcok_ext b _ _ b [] (eq_sym (app_nil_r b)))).
        destruct AD as (s2 & c2 & E2 & L2 & U2 & C2 & V2).
        replace (zlen s) with (zlen b) in E2 by (unfold zlen; lia). rewrite E2. cbn [fst].
        rewrite lost_safe_tl in V2 by assumption. rewrite Ls in *. pose proof (val_range s2 U2) as R2'. rewrite L2 in R2'.
        assert (Q1 : 1 <= quot). { destruct (Z.eq_dec quot 0) as [->|]; lia. }
        exists s2, 0, (quot - 1). rewrite w64_small by lia. split; [reflexivity|]. split; [reflexivity|].
        assert (c2 = 1) by (destruct C2; [subst c2; exfalso; lia|assumption]). subst c2.
        repeat split; auto; unfold u64; lia. }
    destruct HS as (s' & c' & quot' & E' & _ & Ls' & Us' & Rs' & Uq' & EV). rewrite E'.
    destruct (split_last s' (length b - 1) ltac:(lia)) as (s1 & z & Es' & Ls1).
    assert (R6 : rd (p1 ++ s' ++ value :: hi) (zlen p1 + zlen b - 1) = Some z).
    { rewrite Es'. replace (p1 ++ (s1 ++ [z]) ++ value :: hi) with ((p1 ++ s1) ++ z :: value :: hi) by (rewrite <- !app_assoc; reflexivity).
      apply (rd_at _ []). rewrite zlen_app. unfold zlen. lia. }
    rewrite R6.
    destruct (IH p1 s' (value :: hi) b z (quot' :: qs)) as (r & hi' & q & EL & Lr & Ur & Vr & Lq & UQ & EVQ); auto; try lia.
    { split; [exact Ub|]. split; [exact Lb|]. rewrite T1. split; assumption. }
    { rewrite Es'. apply last_last. }
    exists r, hi', (q ++ [quot']). rewrite EL, <- app_assoc. split; [reflexivity|]. split; [exact Lr|]. split; [exact Ur|]. split; [exact Vr|].
    split; [rewrite app_length; cbn; lia|]. split; [apply Forall_app; split; auto|].
    rewrite (val_app p1), (val_app q), L1, Lq. cbn [val Bp]. set (W := val (w1 ++ [value])) in *.
    replace (val p1 + Bp n * (x + 2 ^ 64 * 0) + 2 ^ 64 * Bp n * W) with (val p1 + Bp n * (x + 2 ^ 64 * W)) by ring.
    rewrite <- ER, EV. replace (val p1 + Bp n * (quot' * val b + val s')) with (val p1 + Bp n * val s' + Bp n * quot' * val b) by ring.
    rewrite EVQ. ring.
Qed.
