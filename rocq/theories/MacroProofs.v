(** Proofs about the arithmetic macros. *)
From Coq Require Import ZArith Bool Lia.
From Verif Require Import CArith CArithProofs BitsModel BitsSpec BitsProofs MacroModel MacroSpec.
Local Open Scope Z_scope.

Lemma tmin_le0 t : tmin t <= 0.
Proof. unfold tmin. pose proof (pow_pos (bits (wid t) - 1) ltac:(pose proof (bits_pos (wid t)); lia)). destruct (sgn t); lia. Qed.

(** Every type has a number [n] of value bits. *)
Lemma tmax_pow t : exists n, 0 <= n <= bits (wid t) /\ tmax t = 2 ^ n - 1 /\ (tmin t = 0 \/ tmin t = - 2 ^ n).
Proof.
  unfold tmax, tmin. pose proof (bits_pos (wid t)). destruct (sgn t); [exists (bits (wid t) - 1) | exists (bits (wid t))];
    (split; [lia | split; [reflexivity | auto]]).
Qed.

Lemma pow_le_exp k n : 0 <= k -> 0 <= n -> 2 ^ k - 1 <= 2 ^ n - 1 -> k <= n.
Proof. intros. apply (Z.pow_le_mono_r_iff 2); lia. Qed.

Lemma fits_down t v k : 0 <= k -> 2 ^ k - 1 <= tmax t -> fits t v -> fits t (v / 2 ^ k * 2 ^ k).
Proof.
  intros K M F. destruct (tmax_pow t) as (n & Hn & HM & Hm).
  unfold fits in *. rewrite HM in *.
  pose proof (pow_le_exp k n K ltac:(lia) M) as L.
  pose proof (pow_pos k K) as P.
  pose proof (Z.div_mod v (2 ^ k) ltac:(lia)). pose proof (Z.mod_pos_bound v (2 ^ k) P).
  split; [| nia].
  destruct Hm as [Hm | Hm]; rewrite Hm in *.
  - pose proof (Z.div_pos v (2 ^ k)). nia.
  - assert (E : 2 ^ n = 2 ^ (n - k) * 2 ^ k) by (rewrite <- Z.pow_add_r by lia; f_equal; lia).
    assert (- 2 ^ (n - k) <= v / 2 ^ k) by (apply Z.div_le_lower_bound; nia).
    nia.
Qed.

Lemma up_room t r k : 0 <= k -> 2 ^ k - 1 <= tmax t -> (2 ^ k | r) -> r <= tmax t -> r <= tmax t + 1 - 2 ^ k.
Proof.
  intros K M [q Hq] L. destruct (tmax_pow t) as (n & Hn & HM & _). rewrite HM in *.
  pose proof (pow_le_exp k n K ltac:(lia) M).
  assert (E : 2 ^ n = 2 ^ (n - k) * 2 ^ k) by (rewrite <- Z.pow_add_r by lia; f_equal; lia).
  pose proof (pow_pos k K). assert (q < 2 ^ (n - k)) by nia. nia.
Qed.

Lemma down_div v k : 0 <= k -> is_down v (2 ^ k) (v / 2 ^ k * 2 ^ k).
Proof.
  intros K. pose proof (pow_pos k K) as P.
  pose proof (Z.div_mod v (2 ^ k) ltac:(lia)). pose proof (Z.mod_pos_bound v (2 ^ k) P).
  split; [now exists (v / 2 ^ k) | nia].
Qed.

Lemma up_div v k : 0 <= k -> is_up v (2 ^ k) ((v + (2 ^ k - 1)) / 2 ^ k * 2 ^ k).
Proof.
  intros K. pose proof (pow_pos k K) as P.
  pose proof (Z.div_mod (v + (2 ^ k - 1)) (2 ^ k) ltac:(lia)).
  pose proof (Z.mod_pos_bound (v + (2 ^ k - 1)) (2 ^ k) P).
  split; [now eexists | nia].
Qed.

Lemma down_unique v a r r' : 0 < a -> is_down v a r -> is_down v a r' -> r = r'.
Proof. intros A [[q Hq] H] [[q' Hq'] H']. assert (q = q') by nia. subst. reflexivity. Qed.

Lemma up_unique v a r r' : 0 < a -> is_up v a r -> is_up v a r' -> r = r'.
Proof. intros A [[q Hq] H] [[q' Hq'] H']. assert (q = q') by nia. subst. reflexivity. Qed.

(* ---- align.h ---- *)

Lemma mask_ok ta k : 0 <= k -> fits ta (2 ^ k) -> csub (ta, 2 ^ k) one = Some (promote ta, 2 ^ k - 1).
Proof.
  intros K F. apply csub_one; auto. pose proof (tmin_le0 (promote ta)). pose proof (pow_pos k K). lia.
Qed.

Lemma align_check_ok tv v ta k : 0 <= k -> fits ta (2 ^ k) ->
  align_check (tv, v) (ta, 2 ^ k) = Some (v mod 2 ^ k =? 0).
Proof.
  intros K F. unfold align_check. rewrite mask_ok by auto. simpl bind.
  rewrite cand_eq. simpl fst. simpl snd. rewrite usual_promote_r, land_low by auto.
  pose proof (Z.mod_pos_bound v (2 ^ k) (pow_pos k K)).
  unfold czero. simpl snd. rewrite wrap_id; auto.
  apply fits_usual_r; [lia |]. unfold fits in *. pose proof (tmin_le0 ta). lia.
Qed.

Lemma mask_wrap tv ta k v : 0 <= k -> fits ta (2 ^ k) -> mask_safe tv ta ->
  wrap (usual tv ta) (Z.land v (wrap (promote ta) (Z.lnot (2 ^ k - 1)))) =
  wrap (usual tv ta) (v / 2 ^ k * 2 ^ k).
Proof.
  intros K F [S | S]; rewrite <- (land_high v k) by auto.
  - rewrite (wrap_id (promote ta)); auto.
    pose proof (fits_promote _ _ F) as F'. unfold fits, tmin, tmax in *. rewrite S in *.
    pose proof (pow_pos k K). unfold Z.lnot. lia.
  - apply eqm_wrap_eq, eqm_land; [pose proof (bits_pos (wid (usual tv ta))); lia | apply eqm_refl |].
    rewrite S. apply eqm_wrap.
Qed.

Lemma align_low_ok tv v ta k : 0 <= k -> fits ta (2 ^ k) -> mask_safe tv ta ->
  align_low (tv, v) (ta, 2 ^ k) = Some (usual tv ta, wrap (usual tv ta) (v / 2 ^ k * 2 ^ k)).
Proof.
  intros K F S. unfold align_low. rewrite mask_ok by auto. simpl bind.
  rewrite cnot_eq, cand_eq. simpl fst. simpl snd. rewrite promote_promote, usual_promote_r.
  now rewrite mask_wrap.
Qed.

Lemma pow_fits_usual tv ta k : 0 <= k -> fits ta (2 ^ k) -> 2 ^ k <= tmax (usual tv ta).
Proof. intros K F. apply (fits_usual_r tv ta (2 ^ k)); auto. pose proof (pow_pos k K). lia. Qed.

Lemma align_high_ok tv v ta k r : 0 <= k -> fits ta (2 ^ k) -> mask_safe tv ta ->
  let t := usual tv ta in fits t v -> is_up v (2 ^ k) r -> r <= tmax t ->
  align_high (tv, v) (ta, 2 ^ k) = Some (t, r).
Proof.
  intros K F S t V U R. unfold align_high. rewrite mask_ok by auto. simpl bind.
  pose proof (pow_fits_usual tv ta k K F) as PF. fold t in PF.
  pose proof (pow_pos k K) as P.
  pose proof (up_room t r k K ltac:(lia) (proj1 U) R) as RR.
  assert (FM : fits t (2 ^ k - 1)).
  { unfold fits. pose proof (tmin_le0 t). lia. }
  assert (FS : fits t (v + (2 ^ k - 1))).
  { unfold fits in *. destruct U as [_ U]. lia. }
  unfold cadd. pose proof (arith_ok Z.add (tv, v) (promote ta, 2 ^ k - 1)) as A.
  simpl in A. rewrite usual_promote_r in A. fold t in A.
  rewrite (wrap_id t v), (wrap_id t (2 ^ k - 1)) in A by auto.
  rewrite A by exact FS. simpl bind.
  rewrite cnot_eq, cand_eq. simpl fst. simpl snd. rewrite promote_promote, usual_promote_r.
  assert (UU : usual t ta = t) by apply usual_usual. rewrite UU.
  assert (S' : mask_safe t ta).
  { unfold mask_safe in *. rewrite UU. exact S. }
  pose proof (mask_wrap t ta k (v + (2 ^ k - 1)) K F S') as MW. rewrite UU in MW. rewrite MW.
  rewrite <- (up_unique _ _ _ _ P U (up_div v k K)).
  rewrite wrap_id; auto. unfold fits in *. destruct U. lia.
Qed.

(* ---- math.h ---- *)

Lemma round_mask_ok tx x ty k : 0 <= k -> fits ty (2 ^ k) -> 2 ^ k - 1 <= tmax tx ->
  round_mask (tx, x) (ty, 2 ^ k) = Some (tx, 2 ^ k - 1).
Proof.
  intros K F M. unfold round_mask. rewrite mask_ok by auto. simpl. unfold cast. simpl.
  rewrite wrap_id; auto. unfold fits. pose proof (tmin_le0 tx). pose proof (pow_pos k K). lia.
Qed.

Lemma usual_same t : usual t (promote t) = promote t.
Proof. destruct t as [[] []]; reflexivity. Qed.

Lemma usual_same2 t : usual (promote t) t = promote t.
Proof. destruct t as [[] []]; reflexivity. Qed.

Lemma round_down_ok tx x ty k : 0 <= k -> fits ty (2 ^ k) -> fits tx x -> 2 ^ k - 1 <= tmax tx ->
  round_down (tx, x) (ty, 2 ^ k) = Some (promote tx, x / 2 ^ k * 2 ^ k).
Proof.
  intros K F X M. unfold round_down. rewrite round_mask_ok by auto. simpl bind.
  rewrite cnot_eq, cand_eq. simpl fst. simpl snd. rewrite usual_same.
  set (t := promote tx) in *.
  assert (FX : fits t (x / 2 ^ k * 2 ^ k)) by (apply fits_promote, fits_down; auto).
  f_equal. f_equal. transitivity (wrap t (x / 2 ^ k * 2 ^ k)); [| apply wrap_id, FX].
  rewrite <- (land_high x k) by auto.
  apply eqm_wrap_eq, eqm_land; [pose proof (bits_pos (wid t)); lia | apply eqm_refl | apply eqm_wrap].
Qed.

Lemma csub_one_gen t v : fits t v -> (sgn (promote t) = true -> tmin (promote t) < v) ->
  csub (t, v) one = Some (promote t, wrap (promote t) (v - 1)).
Proof.
  intros F L. destruct (sgn (promote t)) eqn:S.
  - specialize (L eq_refl). rewrite csub_one by auto. rewrite wrap_id; auto.
    apply fits_promote in F. unfold fits in *. lia.
  - unfold csub, arith. simpl fst. simpl snd. rewrite usual_one, S, wrap_sub. reflexivity.
Qed.

Lemma cadd_one_gen t v r : promote t = t -> fits t r -> v = wrap t (r - 1) -> (sgn t = true -> tmin t < r) ->
  cadd (t, v) one = Some (t, r).
Proof.
  intros P F E L. unfold cadd, arith. simpl fst. simpl snd. rewrite usual_one, P. subst v.
  assert (W1 : wrap t 1 = 1) by (rewrite <- P; destruct t as [[] []]; reflexivity).
  rewrite wrap_wrap. destruct (sgn t) eqn:S.
  - specialize (L eq_refl). rewrite W1, (wrap_id t (r - 1)) by (unfold fits in *; lia).
    replace (r - 1 + 1) with r by lia. now rewrite fitsb_true.
  - rewrite wrap_add. replace (r - 1 + 1) with r by lia. now rewrite wrap_id.
Qed.

Lemma round_up_ok tx x ty k r : 0 <= k -> fits ty (2 ^ k) -> fits tx x -> 2 ^ k - 1 <= tmax tx ->
  (sgn (promote tx) = true -> tmin (promote tx) < x) ->
  is_up x (2 ^ k) r -> r <= tmax (promote tx) ->
  round_up (tx, x) (ty, 2 ^ k) = Some (promote tx, r).
Proof.
  intros K F X M L U R. unfold round_up. rewrite csub_one_gen by auto. simpl bind.
  rewrite round_mask_ok by auto. simpl bind.
  rewrite cor_eq. simpl fst. simpl snd. rewrite usual_same2.
  set (t := promote tx) in *.
  assert (PT : promote t = t) by apply promote_promote.
  assert (FX : fits t x) by (apply fits_promote; auto).
  pose proof (pow_pos k K) as P.
  assert (FR : fits t r) by (unfold fits in *; destruct U; lia).
  apply cadd_one_gen; auto.
  - assert (E : r - 1 = Z.lor (x - 1) (2 ^ k - 1)).
    { rewrite lor_low by auto.
      replace ((x - 1) / 2 ^ k * 2 ^ k + (2 ^ k - 1)) with (((x - 1) / 2 ^ k + 1) * 2 ^ k - 1) by ring.
      f_equal. apply (up_unique x (2 ^ k)); auto.
      pose proof (Z.div_mod (x - 1) (2 ^ k) ltac:(lia)). pose proof (Z.mod_pos_bound (x - 1) (2 ^ k) P).
      split; [now eexists | nia]. }
    rewrite E. apply eqm_wrap_eq, eqm_lor; [pose proof (bits_pos (wid t)); lia | apply eqm_wrap | apply eqm_refl].
  - intros S. specialize (L S). destruct U. lia.
Qed.

Lemma div_round_up_ok tn n td d : fits tn n -> fits td d -> 0 <= n -> 0 < d ->
  n + d <= tmax (usual tn td) ->
  exists q, div_round_up (tn, n) (td, d) = Some (usual tn td, q) /\ is_ceil n d q.
Proof.
  intros FN FD N D M. set (t := usual tn td) in *.
  pose proof (tmin_le0 t) as TM.
  assert (A : cadd (tn, n) (td, d) = Some (t, n + d)).
  { unfold cadd. pose proof (arith_ok Z.add (tn, n) (td, d)) as A. simpl in A. fold t in A.
    rewrite (wrap_id t n), (wrap_id t d) in A by (unfold fits; lia).
    apply A. unfold fits; lia. }
  exists ((n + d - 1) / d). split.
  - unfold div_round_up. rewrite A. simpl bind.
    rewrite csub_one_gen; [| unfold fits; lia | intros; assert (E : promote t = t) by apply usual_promoted; rewrite E; lia].
    simpl bind.
    assert (E : promote t = t) by apply usual_promoted. rewrite E.
    rewrite wrap_id by (unfold fits; lia).
    unfold cdiv. simpl fst. simpl snd.
    assert (UU : usual t td = t) by apply usual_usual. rewrite UU.
    rewrite !wrap_id by (unfold fits; lia).
    destruct (Z.eqb_spec d 0); [lia |].
    rewrite Z.quot_div_nonneg by lia.
    pose proof (Z.div_pos (n + d - 1) d ltac:(lia) ltac:(lia)).
    pose proof (Z.div_le_upper_bound (n + d - 1) d (n + d - 1) ltac:(lia) ltac:(nia)).
    rewrite fitsb_true; auto. unfold fits; lia.
  - unfold is_ceil. pose proof (Z.div_mod (n + d - 1) d ltac:(lia)).
    pose proof (Z.mod_pos_bound (n + d - 1) d D). nia.
Qed.

(* ---- minmax.h ---- *)

Lemma clt_same t a b : fits t a -> fits t b -> clt (t, a) (t, b) = (a <? b).
Proof.
  intros A B. unfold clt. simpl fst. simpl snd.
  assert (E : usual t t = promote t) by (destruct t as [[] []]; reflexivity). rewrite E.
  rewrite !wrap_id by (apply fits_promote; auto). reflexivity.
Qed.

Lemma cmin_ok ta a tb b : fits ta a -> fits ta b -> cmin (ta, a) (tb, b) = (ta, Z.min a b).
Proof.
  intros A B. unfold cmin, cast. simpl fst. simpl snd. rewrite (wrap_id ta b) by auto.
  rewrite clt_same by auto. destruct (Z.ltb_spec a b); f_equal; lia.
Qed.

Lemma cmax_ok ta a tb b : fits ta a -> fits ta b -> cmax (ta, a) (tb, b) = (ta, Z.max a b).
Proof.
  intros A B. unfold cmax, cast. simpl fst. simpl snd. rewrite (wrap_id ta b) by auto.
  rewrite clt_same by auto. destruct (Z.ltb_spec b a); f_equal; lia.
Qed.

Lemma fits_max t a b : fits t a -> fits t b -> fits t (Z.max a b).
Proof. unfold fits. lia. Qed.

Lemma cclamp_ok tv v tl lo th hi : fits tv v -> fits tv lo -> fits tv hi ->
  cclamp (tv, v) (tl, lo) (th, hi) = (tv, Z.min (Z.max v lo) hi).
Proof.
  intros. unfold cclamp. rewrite cmax_ok by auto. apply cmin_ok; auto. now apply fits_max.
Qed.
