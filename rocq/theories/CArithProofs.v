(** Facts about the expression semantics of CArith. *)
From Coq Require Import ZArith Bool Lia.
From Verif Require Import CArith.
Local Open Scope Z_scope.

Lemma bits_pos w : 0 < bits w.
Proof. destruct w; reflexivity. Qed.

Lemma bits_half w : 2 ^ bits w = 2 * 2 ^ (bits w - 1).
Proof. destruct w; reflexivity. Qed.

Lemma pow_pos n : 0 <= n -> 0 < 2 ^ n.
Proof. intros. apply Z.pow_pos_nonneg; lia. Qed.

Definition eqm (w x y : Z) : Prop := x mod 2 ^ w = y mod 2 ^ w.

Lemma eqm_wrap t v : eqm (bits (wid t)) (wrap t v) v.
Proof.
  unfold eqm, wrap. set (w := bits (wid t)). pose proof (bits_pos (wid t)) as P. fold w in P.
  pose proof (pow_pos w ltac:(lia)).
  destruct (sgn t).
  - rewrite Zminus_mod_idemp_l. f_equal. lia.
  - apply Z.mod_mod. lia.
Qed.

Lemma eqm_wrap_eq t x y : eqm (bits (wid t)) x y -> wrap t x = wrap t y.
Proof.
  unfold eqm, wrap. intros E. destruct (sgn t); auto.
  f_equal. rewrite <- (Zplus_mod_idemp_l x), <- (Zplus_mod_idemp_l y). now rewrite E.
Qed.

Lemma wrap_fits t v : fits t (wrap t v).
Proof.
  unfold fits, wrap, tmin, tmax. pose proof (bits_half (wid t)) as H.
  pose proof (pow_pos (bits (wid t) - 1) ltac:(pose proof (bits_pos (wid t)); lia)).
  destruct (sgn t);
    match goal with |- context [?a mod ?b] => pose proof (Z.mod_pos_bound a b ltac:(lia)) end; lia.
Qed.

Lemma wrap_id t v : fits t v -> wrap t v = v.
Proof.
  unfold fits, wrap, tmin, tmax. pose proof (bits_half (wid t)) as H.
  destruct (sgn t); intros; rewrite Z.mod_small by lia; lia.
Qed.

Lemma fitsb_true t v : fits t v -> fitsb t v = true.
Proof. unfold fits, fitsb. rewrite andb_true_iff, !Z.leb_le. auto. Qed.

Lemma fitsb_iff t v : fitsb t v = true <-> fits t v.
Proof. unfold fits, fitsb. rewrite andb_true_iff, !Z.leb_le. tauto. Qed.

Lemma eqm_land w x x' y y' : 0 <= w -> eqm w x x' -> eqm w y y' -> eqm w (Z.land x y) (Z.land x' y').
Proof.
  unfold eqm. intros W A B. rewrite <- !Z.land_ones in * by lia.
  rewrite <- (Z.land_diag (Z.ones w)).
  rewrite (Z.land_assoc (Z.land x y)), <- (Z.land_assoc x y), (Z.land_comm y), (Z.land_assoc x), <- (Z.land_assoc _ y).
  rewrite (Z.land_assoc (Z.land x' y')), <- (Z.land_assoc x' y'), (Z.land_comm y'), (Z.land_assoc x'), <- (Z.land_assoc _ y').
  now rewrite A, B.
Qed.

Lemma eqm_lor w x x' y y' : 0 <= w -> eqm w x x' -> eqm w y y' -> eqm w (Z.lor x y) (Z.lor x' y').
Proof.
  unfold eqm. intros W A B. rewrite <- !Z.land_ones in * by lia.
  rewrite !Z.land_lor_distr_l. now rewrite A, B.
Qed.

Lemma eqm_add w x x' y y' : eqm w x x' -> eqm w y y' -> eqm w (x + y) (x' + y').
Proof. unfold eqm. intros A B. rewrite (Zplus_mod x), (Zplus_mod x'). now rewrite A, B. Qed.

Lemma eqm_sub w x x' y y' : eqm w x x' -> eqm w y y' -> eqm w (x - y) (x' - y').
Proof. unfold eqm. intros A B. rewrite (Zminus_mod x), (Zminus_mod x'). now rewrite A, B. Qed.

Lemma eqm_lnot w x x' : eqm w x x' -> eqm w (Z.lnot x) (Z.lnot x').
Proof.
  intros A.
  unfold Z.lnot. rewrite <- !Z.sub_1_r. apply eqm_sub; [| reflexivity].
  change (eqm w (0 - x) (0 - x')). apply eqm_sub; [reflexivity | exact A].
Qed.

Lemma eqm_refl w x : eqm w x x.
Proof. reflexivity. Qed.

Lemma eqm_trans w x y z : eqm w x y -> eqm w y z -> eqm w x z.
Proof. unfold eqm. congruence. Qed.

Lemma eqm_le w w' x y : 0 <= w' <= w -> eqm w x y -> eqm w' x y.
Proof.
  unfold eqm. intros L E.
  assert (D : (2 ^ w' | 2 ^ w)).
  { exists (2 ^ (w - w')). rewrite <- Z.pow_add_r by lia. f_equal. lia. }
  rewrite (Znumtheory.Zmod_div_mod (2 ^ w') (2 ^ w) x), (Znumtheory.Zmod_div_mod (2 ^ w') (2 ^ w) y);
    try apply pow_pos; try lia; auto. now rewrite E.
Qed.

(** The bitwise operators compute modulo the width. *)
Lemma wrap_land t a b : wrap t (Z.land (wrap t a) (wrap t b)) = wrap t (Z.land a b).
Proof.
  apply eqm_wrap_eq, eqm_land; auto using eqm_wrap. pose proof (bits_pos (wid t)); lia.
Qed.

Lemma wrap_lor t a b : wrap t (Z.lor (wrap t a) (wrap t b)) = wrap t (Z.lor a b).
Proof.
  apply eqm_wrap_eq, eqm_lor; auto using eqm_wrap. pose proof (bits_pos (wid t)); lia.
Qed.

Lemma wrap_lnot t a : wrap t (Z.lnot (wrap t a)) = wrap t (Z.lnot a).
Proof. apply eqm_wrap_eq, eqm_lnot, eqm_wrap. Qed.

Lemma wrap_add t a b : wrap t (wrap t a + wrap t b) = wrap t (a + b).
Proof. apply eqm_wrap_eq, eqm_add; apply eqm_wrap. Qed.

Lemma wrap_sub t a b : wrap t (wrap t a - wrap t b) = wrap t (a - b).
Proof. apply eqm_wrap_eq, eqm_sub; apply eqm_wrap. Qed.

Lemma wrap_wrap t v : wrap t (wrap t v) = wrap t v.
Proof. apply wrap_id, wrap_fits. Qed.

(** Converting to at least as wide a type loses no low bits. *)
Lemma wrap_wider t t' v : bits (wid t') <= bits (wid t) -> wrap t' (wrap t v) = wrap t' v.
Proof.
  intros L. apply eqm_wrap_eq. apply (eqm_le (bits (wid t))).
  - pose proof (bits_pos (wid t')); lia.
  - apply eqm_wrap.
Qed.

(** Types. *)
Lemma promote_promote t : promote (promote t) = promote t.
Proof. destruct t as [[] []]; reflexivity. Qed.

Lemma fits_promote t v : fits t v -> fits (promote t) v.
Proof. unfold fits, tmin, tmax. destruct t as [[] []]; simpl; lia. Qed.

Lemma usual_one t : usual t s32 = promote t.
Proof. destruct t as [[] []]; reflexivity. Qed.

Lemma usual_comm a b : usual a b = usual b a.
Proof. destruct a as [[] []], b as [[] []]; reflexivity. Qed.

Lemma usual_promote_r a b : usual a (promote b) = usual a b.
Proof. destruct a as [[] []], b as [[] []]; reflexivity. Qed.

Lemma usual_usual a b : usual (usual a b) b = usual a b.
Proof. destruct a as [[] []], b as [[] []]; reflexivity. Qed.

Lemma usual_promoted a b : promote (usual a b) = usual a b.
Proof. destruct a as [[] []], b as [[] []]; reflexivity. Qed.

Lemma usual_wide_l a b : bits (wid a) <= bits (wid (usual a b)).
Proof. destruct a as [[] []], b as [[] []]; simpl; lia. Qed.

Lemma usual_wide_r a b : bits (wid b) <= bits (wid (usual a b)).
Proof. destruct a as [[] []], b as [[] []]; simpl; lia. Qed.

(** A number that is not negative stays what it is in the common type. *)
Lemma fits_usual_l a b v : 0 <= v -> fits a v -> fits (usual a b) v.
Proof. unfold fits, tmin, tmax. destruct a as [[] []], b as [[] []]; simpl; lia. Qed.

Lemma fits_usual_r a b v : 0 <= v -> fits b v -> fits (usual a b) v.
Proof. rewrite usual_comm. apply fits_usual_l. Qed.

(** The operators when nothing overflows. *)
Lemma arith_ok op a b :
  let t := usual (fst a) (fst b) in
  fits t (op (wrap t (snd a)) (wrap t (snd b))) ->
  arith op a b = Some (t, op (wrap t (snd a)) (wrap t (snd b))).
Proof.
  intros t H. unfold arith. fold t.
  destruct (sgn t); [rewrite (fitsb_true _ _ H) | rewrite (wrap_id _ _ H)]; reflexivity.
Qed.

Lemma csub_one t v : fits t v -> tmin (promote t) < v -> csub (t, v) one = Some (promote t, v - 1).
Proof.
  intros F L. pose proof (fits_promote _ _ F) as F'. unfold csub.
  pose proof (arith_ok Z.sub (t, v) one) as H. simpl in H. rewrite usual_one in H.
  assert (W1 : wrap (promote t) 1 = 1) by (destruct t as [[] []]; reflexivity).
  rewrite W1, (wrap_id _ _ F') in H. apply H.
  unfold fits in *. lia.
Qed.

Lemma cand_eq a b : cand a b = (usual (fst a) (fst b), wrap (usual (fst a) (fst b)) (Z.land (snd a) (snd b))).
Proof. unfold cand, bitop. now rewrite wrap_land. Qed.

Lemma cor_eq a b : cor a b = (usual (fst a) (fst b), wrap (usual (fst a) (fst b)) (Z.lor (snd a) (snd b))).
Proof. unfold cor, bitop. now rewrite wrap_lor. Qed.

Lemma cnot_eq a : cnot a = (promote (fst a), wrap (promote (fst a)) (Z.lnot (snd a))).
Proof. unfold cnot. now rewrite wrap_lnot. Qed.

(** Masks of powers of two. *)
Lemma land_low v k : 0 <= k -> Z.land v (2 ^ k - 1) = v mod 2 ^ k.
Proof. intros. rewrite <- Z.land_ones by lia. now rewrite Z.ones_equiv, Z.sub_1_r. Qed.

Lemma land_high v k : 0 <= k -> Z.land v (Z.lnot (2 ^ k - 1)) = v / 2 ^ k * 2 ^ k.
Proof.
  intros. replace (2 ^ k - 1) with (Z.ones k) by (rewrite Z.ones_equiv; lia).
  rewrite <- Z.ldiff_land, Z.ldiff_ones_r by lia.
  rewrite Z.shiftl_mul_pow2, Z.shiftr_div_pow2 by lia. reflexivity.
Qed.

Lemma lor_low v k : 0 <= k -> Z.lor v (2 ^ k - 1) = v / 2 ^ k * 2 ^ k + (2 ^ k - 1).
Proof.
  intros. rewrite <- (land_high v k) by lia.
  assert (E : Z.lor v (2 ^ k - 1) = Z.lor (Z.land v (Z.lnot (2 ^ k - 1))) (2 ^ k - 1)).
  { rewrite Z.lor_land_distr_l. rewrite (Z.lor_comm (Z.lnot _)), Z.lor_lnot_diag, Z.land_m1_r. reflexivity. }
  rewrite E. rewrite Z.add_nocarry_lxor. 2:{ rewrite <- Z.land_assoc, (Z.land_comm (Z.lnot _)), Z.land_lnot_diag, Z.land_0_r. reflexivity. }
  rewrite Z.lxor_lor; auto.
  rewrite <- Z.land_assoc, (Z.land_comm (Z.lnot _)), Z.land_lnot_diag, Z.land_0_r. reflexivity.
Qed.
