(** Proofs about the bit and field macros and the overflow helpers. *)
From Coq Require Import ZArith Bool Lia.
From Verif Require Import CArith CArithProofs BitsModel BitsSpec BitsProofs MacroModel MacroSpec MacroProofs.
Local Open Scope Z_scope.

(* ---- bits.h ---- *)

Lemma high_ones_bits lo j : 0 <= lo <= 64 -> 0 <= j ->
  Z.testbit (2 ^ 64 - 2 ^ lo) j = (lo <=? j) && (j <? 64).
Proof.
  intros L J.
  replace (2 ^ 64 - 2 ^ lo) with (Z.shiftl (Z.ones (64 - lo)) lo).
  - rewrite Z.shiftl_spec by lia. destruct (Z.leb_spec lo j).
    + destruct (Z.ltb_spec j 64).
      * rewrite Z.ones_spec_low by lia. reflexivity.
      * rewrite Z.ones_spec_high by lia. reflexivity.
    + rewrite Z.testbit_neg_r by lia. reflexivity.
  - rewrite Z.shiftl_mul_pow2, Z.ones_equiv by lia.
    assert (2 ^ 64 = 2 ^ (64 - lo) * 2 ^ lo) by (rewrite <- Z.pow_add_r by lia; f_equal; lia). lia.
Qed.

Lemma u64_fits v : 0 <= v < 2 ^ 64 -> fits u64 v.
Proof. unfold fits, tmin, tmax. simpl. lia. Qed.

Lemma bit_range_ok hi lo : 0 <= lo < 64 -> 0 <= hi < 64 ->
  exists m, bit_range hi lo = Some (u64, m) /\ 0 <= m < 2 ^ 64 /\
    forall j, 0 <= j -> Z.testbit m j = (lo <=? j) && (j <=? hi).
Proof.
  intros L H.
  exists (Z.land (2 ^ 64 - 2 ^ lo) (Z.ones (hi + 1))).
  assert (P : 0 < 2 ^ lo) by (apply pow_pos; lia).
  assert (P' : 2 ^ lo <= 2 ^ 63) by (apply Z.pow_le_mono_r; lia).
  assert (Rm : 0 <= Z.land (2 ^ 64 - 2 ^ lo) (Z.ones (hi + 1)) < 2 ^ 64).
  { rewrite Z.land_ones by lia. pose proof (Z.mod_pos_bound (2 ^ 64 - 2 ^ lo) (2 ^ (hi + 1)) ltac:(apply pow_pos; lia)).
    pose proof (Z.pow_le_mono_r 2 (hi + 1) 64 ltac:(lia) ltac:(lia)). lia. }
  split; [| split; [exact Rm |]].
  - unfold bit_range, cshl. cbn [fst snd].
    change (promote u64) with u64. change (bits (wid u64)) with 64. change (sgn u64) with false.
    destruct (Z.ltb_spec lo 0); [lia |]. destruct (Z.leb_spec 64 lo); [lia |]. simpl orb. cbv iota.
    rewrite (wrap_id u64 1) by (apply u64_fits; lia). rewrite Z.shiftl_1_l.
    rewrite (wrap_id u64 (2 ^ lo)) by (apply u64_fits; lia).
    unfold bind at 1.
    unfold csub, arith. cbn [fst snd]. change (usual u64 u64) with u64. change (sgn u64) with false. cbv iota.
    rewrite (wrap_id u64 (2 ^ 64 - 1)) by (apply u64_fits; lia).
    rewrite (wrap_id u64 (2 ^ lo)) by (apply u64_fits; lia).
    rewrite (wrap_id u64 (2 ^ 64 - 1 - 2 ^ lo)) by (apply u64_fits; lia). unfold bind at 1.
    unfold cadd, arith, one. cbn [fst snd]. change (usual u64 s32) with u64. change (sgn u64) with false. cbv iota.
    rewrite (wrap_id u64 1) by (apply u64_fits; lia).
    rewrite (wrap_id u64 (2 ^ 64 - 1 - 2 ^ lo)) by (apply u64_fits; lia).
    rewrite wrap_id by (apply u64_fits; lia). unfold bind at 1.
    unfold cshr. cbn [fst snd]. change (promote u64) with u64. change (bits (wid u64)) with 64.
    destruct (Z.ltb_spec (64 - 1 - hi) 0); [lia |]. destruct (Z.leb_spec 64 (64 - 1 - hi)); [lia |]. simpl orb. cbv iota.
    rewrite (wrap_id u64 (2 ^ 64 - 1)) by (apply u64_fits; lia).
    unfold bind. rewrite cand_eq. cbn [fst snd]. change (usual u64 u64) with u64.
    replace (2 ^ 64 - 1 - 2 ^ lo + 1) with (2 ^ 64 - 2 ^ lo) by lia.
    replace (Z.shiftr (2 ^ 64 - 1) (64 - 1 - hi)) with (Z.ones (hi + 1)).
    + rewrite wrap_id; auto. apply u64_fits, Rm.
    + change (2 ^ 64 - 1) with (Z.ones 64). rewrite Z.shiftr_div_pow2, Z.ones_div_pow2 by lia. f_equal; lia.
  - intros j J. rewrite Z.land_spec, high_ones_bits by lia.
    rewrite (Z.testbit_ones_nonneg (hi + 1)) by lia.
    destruct (Z.leb_spec lo j), (Z.ltb_spec j 64), (Z.ltb_spec j (hi + 1)), (Z.leb_spec j hi); simpl; auto; lia.
Qed.

(* ---- bitfield.h ---- *)

(** A mask of [n] bits at position [s]. *)
Lemma field_mask_bits n s j : 0 <= n -> 0 <= s -> 0 <= j ->
  Z.testbit (field_mask n s) j = (s <=? j) && (j <? s + n).
Proof.
  intros N S J. unfold field_mask. rewrite <- Z.shiftl_mul_pow2 by lia.
  replace (2 ^ n - 1) with (Z.ones n) by (rewrite Z.ones_equiv; lia).
  rewrite Z.shiftl_spec by lia. destruct (Z.leb_spec s j); simpl.
  - rewrite Z.testbit_ones_nonneg by lia. destruct (Z.ltb_spec (j - s) n), (Z.ltb_spec j (s + n)); auto; lia.
  - now rewrite Z.testbit_neg_r by lia.
Qed.

Lemma field_mask_range n s : 0 < n -> 0 <= s -> 0 < field_mask n s < 2 ^ (s + n).
Proof.
  intros N S. unfold field_mask. rewrite Z.pow_add_r by lia.
  pose proof (pow_pos s S). pose proof (Z.pow_le_mono_r 2 1 n ltac:(lia) ltac:(lia)). nia.
Qed.

Lemma field_mask_fits w n s : 0 < n -> 0 <= s -> s + n <= bits w -> fits (T false w) (field_mask n s).
Proof.
  intros N S L. pose proof (field_mask_range n s N S).
  pose proof (Z.pow_le_mono_r 2 (s + n) (bits w) ltac:(lia) L). unfold fits, tmin, tmax. simpl. lia.
Qed.

Lemma field_pos_ok w n s : 0 < n -> 0 <= s -> s + n <= bits w ->
  field_pos (T false w, field_mask n s) = Some s.
Proof.
  intros N S L. unfold field_pos, cast. cbn [snd].
  pose proof (field_mask_range n s N S) as R.
  assert (B : bits w <= 64) by (destruct w; simpl; lia).
  pose proof (Z.pow_le_mono_r 2 (s + n) 64 ltac:(lia) ltac:(lia)).
  rewrite wrap_id by (apply u64_fits; lia).
  destruct (Z.eqb_spec (field_mask n s) 0); [lia |].
  destruct (ffsuf_spec (field_mask n s) ltac:(lia)) as [(A & T & F) _].
  f_equal. set (p := ffsuf (field_mask n s)) in *.
  rewrite field_mask_bits in T by lia. apply andb_true_iff in T as [T1 T2].
  apply Z.leb_le in T1.
  destruct (Z.eq_dec s p); [congruence |].
  specialize (F s ltac:(lia)). rewrite field_mask_bits in F by lia.
  rewrite Z.leb_refl in F. apply Z.ltb_ge in F. lia.
Qed.

Lemma land_field v n s : 0 <= n -> 0 <= s ->
  Z.land (Z.shiftl v s) (field_mask n s) = Z.shiftl (v mod 2 ^ n) s.
Proof.
  intros N S. apply Z.bits_inj'. intros j J.
  rewrite Z.land_spec, field_mask_bits, !Z.shiftl_spec by lia.
  destruct (Z.leb_spec s j); simpl.
  - destruct (Z.ltb_spec j (s + n)).
    + rewrite Z.mod_pow2_bits_low by lia. now rewrite andb_true_r.
    + rewrite Z.mod_pow2_bits_high by lia. now rewrite andb_false_r.
  - rewrite andb_false_r. now rewrite Z.testbit_neg_r by lia.
Qed.

Lemma shiftr_field v n s : 0 <= n -> 0 <= s ->
  Z.shiftr (Z.land v (field_mask n s)) s = (v / 2 ^ s) mod 2 ^ n.
Proof.
  intros N S. rewrite <- (Z.shiftr_div_pow2 v s) by lia.
  apply Z.bits_inj'. intros j J.
  rewrite Z.shiftr_spec, Z.land_spec, field_mask_bits by lia.
  destruct (Z.ltb_spec (j + s) (s + n)), (Z.leb_spec s (j + s)); try lia; simpl.
  - rewrite Z.mod_pow2_bits_low by lia. rewrite Z.shiftr_spec by lia. apply andb_true_r.
  - rewrite Z.mod_pow2_bits_high by lia. apply andb_false_r.
Qed.

Lemma land_field_range v n s : 0 < n -> 0 <= s -> 0 <= Z.land v (field_mask n s) < 2 ^ (s + n).
Proof.
  intros N S. pose proof (field_mask_range n s N S).
  assert (0 <= Z.land v (field_mask n s)) by (apply Z.land_nonneg; lia).
  split; auto.
  destruct (Z.eq_dec (Z.land v (field_mask n s)) 0) as [-> | NZ]; [apply pow_pos; lia |].
  apply Z.log2_lt_pow2; [lia |].
  apply Z.nle_gt. intros C.
  pose proof (Z.bit_log2 (Z.land v (field_mask n s)) ltac:(lia)) as BL.
  rewrite Z.land_spec, field_mask_bits in BL by (try lia; apply Z.log2_nonneg).
  apply andb_true_iff in BL as [_ BL]. apply andb_true_iff in BL as [_ BL].
  apply Z.ltb_lt in BL. lia.
Qed.

Lemma usual_promote_l a b : usual (promote a) b = usual a b.
Proof. destruct a as [[] []], b as [[] []]; reflexivity. Qed.

Lemma field_get_ok w n s tr reg : 0 < n -> 0 <= s -> s + n <= bits w ->
  field_get (T false w, field_mask n s) (tr, reg) = Some (T false w, (reg / 2 ^ s) mod 2 ^ n).
Proof.
  intros N S L. unfold field_get. rewrite field_pos_ok by auto. unfold bind at 1.
  rewrite cand_eq. cbn [fst snd]. set (t := usual tr (T false w)).
  pose proof (land_field_range reg n s N S) as R.
  assert (FT : fits t (Z.land reg (field_mask n s))).
  { apply fits_usual_r; [lia |].
    pose proof (Z.pow_le_mono_r 2 (s + n) (bits w) ltac:(lia) L). unfold fits, tmin, tmax. simpl. lia. }
  rewrite wrap_id by exact FT.
  unfold cshr. cbn [fst snd].
  assert (PT : promote t = t) by apply usual_promoted. rewrite PT.
  pose proof (usual_wide_r tr (T false w)) as WW. fold t in WW. simpl in WW.
  destruct (Z.ltb_spec s 0); [lia |]. destruct (Z.leb_spec (bits (wid t)) s); [lia |]. simpl orb. cbv iota.
  rewrite wrap_id by exact FT. rewrite shiftr_field by lia. unfold bind, cast. simpl.
  rewrite wrap_id; auto.
  pose proof (Z.mod_pos_bound (reg / 2 ^ s) (2 ^ n) ltac:(apply pow_pos; lia)).
  pose proof (Z.pow_le_mono_r 2 n (bits w) ltac:(lia) ltac:(lia)). unfold fits, tmin, tmax. simpl. lia.
Qed.

Lemma field_shl w v n s : 0 < n -> 0 <= s -> s + n <= bits w ->
  exists r, cshl (T false w, v mod 2 ^ bits w) s = Some (promote (T false w), r) /\
    eqm (bits (wid (promote (T false w)))) r (Z.shiftl (v mod 2 ^ bits w) s).
Proof.
  intros N S L. unfold cshl. cbn [fst snd].
  set (t := promote (T false w)).
  pose proof (Z.mod_pos_bound v (2 ^ bits w) ltac:(apply pow_pos; pose proof (bits_pos w); lia)) as B.
  set (x := v mod 2 ^ bits w) in *.
  assert (FX : fits t x) by (apply fits_promote; unfold fits, tmin, tmax; simpl; lia).
  assert (WW : bits w <= bits (wid t)) by (subst t; destruct w; simpl; lia).
  destruct (Z.ltb_spec s 0); [lia |]. destruct (Z.leb_spec (bits (wid t)) s); [lia |]. simpl orb. cbv iota.
  rewrite (wrap_id t x FX).
  destruct (sgn t) eqn:SG.
  - destruct (Z.ltb_spec x 0); [lia |]. simpl orb.
    destruct (Z.ltb_spec (tmax t) (Z.shiftl x s)) as [C | C]; [exfalso |].
    + rewrite Z.shiftl_mul_pow2 in C by lia.
      assert (X : x * 2 ^ s < 2 ^ (bits w + s)).
      { rewrite Z.pow_add_r by lia. pose proof (pow_pos s S). nia. }
      assert (2 ^ (bits w + s) <= 2 ^ 31).
      { apply Z.pow_le_mono_r; [lia |]. clear - SG L N S. subst t.
        destruct w; try discriminate SG; unfold bits in *; lia. }
      assert (tmax t = 2 ^ 31 - 1) by (clear - SG; subst t; destruct w; try discriminate SG; reflexivity).
      lia.
    + eexists. split; [reflexivity | apply eqm_refl].
  - eexists. split; [reflexivity | apply eqm_wrap].
Qed.

Lemma field_prep_ok w n s tv v : 0 < n -> 0 <= s -> s + n <= bits w ->
  field_prep (T false w, field_mask n s) (tv, v) = Some (promote (T false w), (v mod 2 ^ n) * 2 ^ s).
Proof.
  intros N S L. unfold field_prep. rewrite field_pos_ok by auto. unfold bind at 1.
  unfold cast. cbn [fst snd]. unfold wrap at 1. simpl sgn. simpl wid. cbv iota.
  destruct (field_shl w v n s N S L) as (r & Hr & E). rewrite Hr. unfold bind.
  rewrite cand_eq. cbn [fst snd]. rewrite usual_same2.
  set (t := promote (T false w)) in *.
  assert (MW : eqm (bits (wid t)) (Z.land r (field_mask n s)) ((v mod 2 ^ n) * 2 ^ s)).
  { rewrite <- (Z.shiftl_mul_pow2 (v mod 2 ^ n)) by lia.
    replace (v mod 2 ^ n) with ((v mod 2 ^ bits w) mod 2 ^ n).
    - rewrite <- land_field by lia. apply eqm_land; [pose proof (bits_pos (wid t)); lia | exact E | apply eqm_refl].
    - symmetry. apply Znumtheory.Zmod_div_mod; try (apply pow_pos; lia).
      exists (2 ^ (bits w - n)). rewrite <- Z.pow_add_r by lia. f_equal. lia. }
  f_equal. f_equal. rewrite (eqm_wrap_eq _ _ _ MW). apply wrap_id.
  pose proof (Z.mod_pos_bound v (2 ^ n) ltac:(apply pow_pos; lia)).
  pose proof (pow_pos s S).
  apply fits_promote. unfold fits, tmin, tmax. simpl.
  pose proof (Z.pow_le_mono_r 2 (s + n) (bits w) ltac:(lia) L) as PL. rewrite Z.pow_add_r in PL by lia. nia.
Qed.

Lemma field_max_ok w n s : 0 < n -> 0 <= s -> s + n <= bits w ->
  field_max (T false w, field_mask n s) = Some (T false w, 2 ^ n - 1).
Proof.
  intros N S L. unfold field_max. rewrite field_pos_ok by auto. unfold bind at 1.
  unfold cshr. cbn [fst snd]. set (t := promote (T false w)).
  assert (WW : bits w <= bits (wid t)) by (subst t; destruct w; simpl; lia).
  destruct (Z.ltb_spec s 0); [lia |]. destruct (Z.leb_spec (bits (wid t)) s); [lia |]. simpl orb. cbv iota.
  rewrite wrap_id by (apply fits_promote, field_mask_fits; auto).
  unfold bind, cast. cbn [fst snd]. unfold field_mask.
  rewrite Z.shiftr_div_pow2, Z.div_mul by (try apply Z.pow_nonzero; lia).
  rewrite wrap_id; auto.
  pose proof (pow_pos n ltac:(lia)).
  pose proof (Z.pow_le_mono_r 2 n (bits w) ltac:(lia) ltac:(lia)). unfold fits, tmin, tmax. simpl. lia.
Qed.

(** BFDEV_FIELD_FIT looks at the bits that are left after the shift only. *)
Lemma field_fit_ok w n s tv v : 0 < n -> 0 <= s -> s + n <= bits w -> (w = W32 \/ w = W64) ->
  field_fit (T false w, field_mask n s) (tv, v) = Some (v mod 2 ^ (bits w - s) <? 2 ^ n).
Proof.
  intros N S L W. unfold field_fit. rewrite field_pos_ok by auto. unfold bind at 1.
  unfold cast. cbn [fst snd]. unfold wrap at 1. simpl sgn. simpl wid. cbv iota.
  destruct (field_shl w v n s N S L) as (r & Hr & E). rewrite Hr. unfold bind.
  rewrite cnot_eq, cand_eq. cbn [fst snd].
  assert (P : promote (T false w) = T false w) by (destruct W; subst w; reflexivity).
  rewrite !P in *.
  assert (UU : usual (T false w) (T false w) = T false w) by (destruct W; subst w; reflexivity). rewrite UU.
  set (t := T false w) in *. unfold czero. cbn [snd]. f_equal.
  assert (E2 : wrap t (Z.land r (wrap t (Z.lnot (field_mask n s)))) =
               Z.shiftl (v mod 2 ^ (bits w - s)) s - Z.shiftl (v mod 2 ^ n) s).
  { set (y := v mod 2 ^ (bits w - s)).
    assert (Y : 0 <= y < 2 ^ (bits w - s)) by (apply Z.mod_pos_bound, pow_pos; lia).
    assert (YS : 0 <= Z.shiftl y s < 2 ^ bits w).
    { rewrite Z.shiftl_mul_pow2 by lia. pose proof (pow_pos s S).
      replace (bits w) with ((bits w - s) + s) by lia. rewrite Z.pow_add_r by lia. nia. }
    assert (NY : v mod 2 ^ n = y mod 2 ^ n).
    { unfold y. apply Znumtheory.Zmod_div_mod; try (apply pow_pos; lia).
      exists (2 ^ (bits w - s - n)). rewrite <- Z.pow_add_r by lia. f_equal. lia. }
    assert (LD : Z.land (Z.shiftl y s) (Z.lnot (field_mask n s)) = Z.shiftl y s - Z.shiftl (v mod 2 ^ n) s).
    { rewrite NY, <- land_field by lia. rewrite Z.sub_nocarry_ldiff.
      - rewrite <- Z.ldiff_land. apply Z.bits_inj'. intros j J. rewrite !Z.ldiff_spec, Z.land_spec.
        destruct (Z.testbit (Z.shiftl y s) j), (Z.testbit (field_mask n s) j); reflexivity.
      - apply Z.bits_inj'. intros j J. rewrite Z.ldiff_spec, Z.land_spec, Z.bits_0.
        destruct (Z.testbit (Z.shiftl y s) j), (Z.testbit (field_mask n s) j); reflexivity. }
    transitivity (wrap t (Z.land (Z.shiftl y s) (Z.lnot (field_mask n s)))).
    - apply eqm_wrap_eq, eqm_land; [pose proof (bits_pos (wid t)); lia | | apply eqm_wrap].
      eapply eqm_trans; [exact E |].
      unfold eqm. rewrite !Z.shiftl_mul_pow2 by lia. unfold t. simpl wid.
      replace (2 ^ bits w) with (2 ^ (bits w - s) * 2 ^ s) by (rewrite <- Z.pow_add_r by lia; f_equal; lia).
      rewrite !Z.mul_mod_distr_r by (apply Z.pow_nonzero; lia).
      f_equal. unfold y. rewrite Z.mod_mod by (apply Z.pow_nonzero; lia).
      symmetry. apply Znumtheory.Zmod_div_mod; try (apply pow_pos; pose proof (bits_pos w); lia).
      { pose proof (pow_pos (bits w - s) ltac:(lia)). pose proof (pow_pos s S). nia. }
      exists (2 ^ s). ring.
    - rewrite wrap_id; [exact LD |].
      assert (0 <= Z.land (Z.shiftl y s) (Z.lnot (field_mask n s))) by (apply Z.land_nonneg; lia).
      rewrite LD in *. unfold fits, tmin, tmax, t. simpl.
      assert (0 <= Z.shiftl (v mod 2 ^ n) s).
      { rewrite Z.shiftl_nonneg. apply Z.mod_pos_bound, pow_pos; lia. }
      lia. }
  rewrite E2. rewrite !Z.shiftl_mul_pow2 by lia.
  pose proof (pow_pos s S) as P2.
  set (y := v mod 2 ^ (bits w - s)).
  assert (NY : v mod 2 ^ n = y mod 2 ^ n).
  { unfold y. apply Znumtheory.Zmod_div_mod; try (apply pow_pos; lia).
    exists (2 ^ (bits w - s - n)). rewrite <- Z.pow_add_r by lia. f_equal. lia. }
  assert (Y0 : 0 <= y) by (apply Z.mod_pos_bound, pow_pos; lia).
  rewrite NY. pose proof (pow_pos n ltac:(lia)) as PN.
  pose proof (Z.mod_pos_bound y (2 ^ n) PN).
  destruct (Z.ltb_spec y (2 ^ n)).
  - rewrite (Z.mod_small y) by lia. apply Z.eqb_eq. lia.
  - apply Z.eqb_neq. nia.
Qed.

(* ---- overflow.h ---- *)

Lemma overflow_type_fits op t ta a tb b : fits t a -> fits t b ->
  overflow_type op t (ta, a) (tb, b) =
  (t, if fitsb t (op a b) then op a b else if sgn t then -1 else tmax t).
Proof.
  intros A B. unfold overflow_type, overflow_check, cast. cbn [snd].
  rewrite (wrap_id t a A), (wrap_id t b B).
  destruct (fitsb t (op a b)) eqn:F; simpl.
  - f_equal. apply wrap_id. now apply fitsb_iff.
  - f_equal. destruct t as [[] []]; reflexivity.
Qed.
