(** * C27, continued: divisors of several limbs whose top bit is set *)
From Verif Require Import Lib BitsModel DwordModel DwordSpec DwordProofs MpiModel MpiSpec MpiProofs MpiProofs2 MpiProofs3 MpiProofs4
  MpiProps MpiDivProofs.
Ltac Zify.zify_post_hook ::= Z.div_mod_to_equations.

Lemma lostb_safe : forall b a c, (c = 0 \/ c = 1) -> Forall (fun x => x <> 2 ^ 64 - 1) b -> lostb a b c = 0.
Proof.
  induction b as [|y b IH]; intros [|x a] c Hc H; cbn [lostb]; try reflexivity.
  conses. rewrite IH by (auto using b2z_01). destruct (Z.eqb_spec y (2 ^ 64 - 1)); [lia|reflexivity].
Qed.
Lemma lostb_safe_tl : forall b a, Forall (fun x => x <> 2 ^ 64 - 1) (tl b) -> lostb a b 0 = 0.
Proof.
  intros [|y b] [|x a] H; cbn [lostb tl] in *; try reflexivity.
  rewrite lostb_safe by (auto using b2z_01). rewrite andb_false_r. reflexivity.
Qed.

Lemma mpa_divrem_ok : forall a b, divisor_ok b -> Forall u64 a -> (length b <= length a)%nat ->
  exists r hi q (go : bool), mpa_divrem a b (zlen a) (zlen b) = Some (r ++ hi, q, go) /\
    length r = length b /\ Forall u64 r /\ 0 <= val r < val b /\ length q = (length a - length b)%nat /\ Forall u64 q /\
    val a = (val q + Bp (length q) * b2z go) * val b + val r.
Proof.
  intros a b OK Ua L. destruct OK as (Ub & Lb & Tb & Sb).
  destruct (split_at _ (length a - length b) a ltac:(lia)) as (p & w & -> & Lp & Lw).
  rewrite app_length in *. assert (Lw' : length w = length b) by lia. clear Lw.
  apply Forall_app in Ua. destruct Ua as [Up Uw].
  destruct (split_last b (length b - 1) ltac:(lia)) as (b1 & d1 & Eb & Lb1).
  destruct (split_last w (length b - 1) ltac:(lia)) as (w1 & v & Ew & Lw1).
  assert (T1 : last b 0 = d1) by (rewrite Eb; apply last_last). rewrite T1 in Tb.
  assert (U1 : Forall u64 b1 /\ u64 d1). { rewrite Eb in Ub. apply Forall_app in Ub. destruct Ub as [A B]. apply Forall_inv in B. auto. }
  assert (U2 : Forall u64 w1 /\ u64 v). { rewrite Ew in Uw. apply Forall_app in Uw. destruct Uw as [A B]. apply Forall_inv in B. auto. }
  destruct U1 as [Ub1 Ud], U2 as [Uw1 Uv]. unfold u64 in Ud, Uv.
  pose proof (val_range b1 Ub1) as Rb1. pose proof (val_range w1 Uw1) as Rw1.
  pose proof (val_range w Uw) as Rw. rewrite Lw' in Rw. pose proof (val_range b Ub) as Rb.
  set (K := Bp (length b - 1)) in *. rewrite Lb1 in Rb1. rewrite Lw1 in Rw1. fold K in Rb1, Rw1.
  assert (KB : Bp (length b) = 2 ^ 64 * K). { unfold K. replace (length b) with (S (length b - 1)) at 1 by lia. reflexivity. }
  assert (Vb : val b = d1 * K + val b1). { rewrite Eb, val_app, Lb1. fold K. cbn [val]. ring. }
  assert (Vw : val w = v * K + val w1). { rewrite Ew, val_app, Lw1. fold K. cbn [val]. ring. }
  assert (Kp : 1 <= K) by apply Bp_pos.
  unfold mpa_divrem. rewrite zlen_app. replace (zlen w) with (zlen b) by (unfold zlen; lia).
  replace (zlen p + zlen b - zlen b) with (zlen p) by lia.
  assert (R1 : rd (p ++ w) (zlen p + zlen b - 1) = Some v).
  { rewrite Ew. replace (p ++ w1 ++ [v]) with ((p ++ w1) ++ v :: []) by (rewrite <- app_assoc; reflexivity).
    apply (rd_at _ []). rewrite zlen_app. unfold zlen. lia. }
  assert (R2 : rd b (zlen b - 1) = Some d1).
  { rewrite Eb at 1. apply (rd_at _ []). unfold zlen. lia. }
  rewrite R1, R2.
  assert (GO : exists go : bool, (if d1 <=? v then if d1 <? v then Some true
      else let* c := mpa_cmp (p ++ w) b (zlen p) 0 (zlen b - 1) (zlen b - 1) in Some (0 <=? c) else Some false) = Some go /\
      (go = true <-> val b <= val w)).
  { destruct (Z.leb_spec d1 v) as [G|G].
    - destruct (Z.ltb_spec d1 v) as [H|H].
      + exists true. split; [reflexivity|]. split; [intros _|reflexivity]. rewrite Vb, Vw.
        assert ((d1 + 1) * K <= v * K) by (apply Z.mul_le_mono_nonneg_r; lia). lia.
      + assert (v = d1) by lia. subst v. unfold mpa_cmp. rewrite Z.eqb_refl. cbn [negb].
        pose proof (cmp_down_ok (length b - 1) p w1 [d1] [] b1 [d1] Lw1 Lb1 Uw1 Ub1) as C.
        rewrite <- Ew in C. cbn [app] in C. rewrite <- Eb in C.
        replace (Z.to_nat (zlen b - 1)) with (length b - 1)%nat by (unfold zlen; lia).
        replace (zlen p + (zlen b - 1) - 1) with (zlen p + Z.of_nat (length b - 1) - 1) by (unfold zlen; lia).
        replace (0 + (zlen b - 1) - 1) with (zlen (@nil Z) + Z.of_nat (length b - 1) - 1) by (unfold zlen; cbn [length]; lia).
        rewrite C. eexists. split; [reflexivity|]. rewrite Vb, Vw, Z.leb_le. unfold zcmp.
        destruct (Z.ltb_spec (val w1) (val b1)); [split; lia|]. destruct (Z.eqb_spec (val w1) (val b1)); split; lia.
    - exists false. split; [reflexivity|]. split; [discriminate|]. intros X. exfalso. rewrite Vb, Vw in X.
      assert ((v + 1) * K <= d1 * K) by (apply Z.mul_le_mono_nonneg_r; lia). lia. }
  destruct GO as (go & -> & G).
  assert (ST : exists s, (if go then let* p0 := mpa_sub (p ++ w) Own (Ext b) (zlen p) (zlen p) 0 (zlen b) (zlen b) 0 in
      if snd p0 =? 0 then Some (fst p0) else None else Some (p ++ w)) = Some (p ++ s) /\ length s = length b /\ Forall u64 s /\
      0 <= val s < val b /\ val w = b2z go * val b + val s).
  { destruct go; cbn [b2z].
    - pose proof (proj1 G eq_refl) as GE.
      pose proof (mpa_sub_ok w b p w [] Own (Ext b) (zlen p) (zlen p) 0 0 eq_refl ltac:(lia) eq_refl ltac:(auto) Uw Ub
        (srcok_own _ _ _ _ eq_refl) (srcok_ext b _ _ b [] (eq_sym (app_nil_r b)))) as (s & c & E & Ls & Us & C & V).
      rewrite !app_nil_r in E. replace (zlen w) with (zlen b) in E by (unfold zlen; lia). rewrite E. cbn [fst snd].
      rewrite lostb_safe_tl, Lw' in V by assumption. pose proof (val_range s Us) as Rs. rewrite Ls, Lw' in Rs.
      assert (c = 0). { destruct C as [C|C]; [exact C|]. subst c. exfalso. lia. } subst c.
      rewrite Z.eqb_refl. exists s. split; [reflexivity|]. split; [lia|]. split; [exact Us|].
      assert (2 ^ 63 * K <= d1 * K) by (apply Z.mul_le_mono_nonneg_r; lia). split; lia.
    - exists w. split; [reflexivity|]. split; [exact Lw'|]. split; [exact Uw|].
      assert (~ val b <= val w). { intros X. apply G in X. discriminate. } lia. }
  destruct ST as (s & -> & Ls & Us & Rs & Es).
  destruct (split_last s (length b - 1) ltac:(lia)) as (s1 & z & Ess & Ls1).
  assert (R3 : rd (p ++ s) (zlen p + zlen b - 1) = Some z).
  { rewrite Ess. replace (p ++ s1 ++ [z]) with ((p ++ s1) ++ z :: []) by (rewrite <- app_assoc; reflexivity).
    apply (rd_at _ []). rewrite zlen_app. unfold zlen. lia. }
  rewrite R3. replace (Z.to_nat (zlen p)) with (length p) by (unfold zlen; lia).
  destruct (divrem_loop_ok (length p) p s [] b z []) as (r & hi & q & E & Lr & Ur & Rr & Lq & Uq & V); auto; try lia.
  { split; [exact Ub|]. split; [exact Lb|]. rewrite T1. auto. }
  { rewrite Ess. apply last_last. }
  rewrite !app_nil_r in E. rewrite E. exists r, hi, q, go. split; [reflexivity|]. split; [exact Lr|]. split; [exact Ur|].
  split; [exact Rr|]. split; [lia|]. split; [exact Uq|]. rewrite val_app, Es, Lq.
  replace (val p + Bp (length p) * (b2z go * val b + val s)) with (val p + Bp (length p) * val s + Bp (length p) * b2z go * val b) by ring.
  rewrite V. ring.
Qed.

Lemma last_app_ne : forall (q : list Z) x d, last (q ++ [x]) d = x.
Proof. intros. apply last_last. Qed.

Lemma mpi_div_ok : forall junk q0 r0 a b, normal a -> divisor_ok b -> val b < val a ->
  exists ql rl, mpi_div junk q0 r0 a b = Some (0, ql, rl) /\ normal ql /\ normal rl /\ val ql = val a / val b /\ val rl = val a mod val b.
Proof.
  intros junk q0 r0 a b Na OK Lt. pose proof OK as (Ub & Lb & Tb & Sb).
  assert (Nb : normal b). { split; [exact Ub|]. destruct (split_last b (length b - 1) ltac:(lia)) as (b1 & d & E & _). rewrite E, last_last in *. lia. }
  assert (La : (length b <= length a)%nat).
  { destruct (le_lt_dec (length b) (length a)) as [X|X]; [exact X|]. pose proof (normal_shorter a b Na Nb X). lia. }
  destruct (mpa_divrem_ok a b OK (proj1 Na) La) as (r & hi & q & go & E & Lr & Ur & Rr & Lq & Uq & V).
  unfold mpi_div. replace (zlen b =? 0) with false by (symmetry; apply Z.eqb_neq; unfold zlen; lia).
  replace (zlen b =? 1) with false by (symmetry; apply Z.eqb_neq; unfold zlen; lia).
  replace (zlen a =? 0) with false by (symmetry; apply Z.eqb_neq; unfold zlen; lia).
  unfold mpi_set. rewrite (normal_relocation a) by apply Na. rewrite E.
  set (qs := q ++ (if go then [1] else [])).
  assert (Vq : val qs = val q + Bp (length q) * b2z go). { unfold qs. rewrite val_app. destruct go; cbn [val b2z]; ring. }
  assert (Uqs : Forall u64 qs). { unfold qs. apply Forall_app. split; [exact Uq|]. destruct go; repeat constructor; unfold u64; lia. }
  assert (Nq : last qs 1 <> 0).
  { unfold qs. destruct go; [rewrite last_last; lia|]. rewrite app_nil_r in *. cbn [b2z] in *.
    intros Z0. destruct (length q) as [|n] eqn:Q.
    - destruct q; [|discriminate]. cbn [val Bp] in V. lia.
    - destruct (split_last q n Q) as (q1 & z & -> & L1). rewrite last_last in Z0. subst z.
      rewrite val_app in V. cbn [val] in V. apply Forall_app in Uq. destruct Uq as [Uq1 _]. pose proof (val_range q1 Uq1) as Rq. rewrite L1 in Rq.
      pose proof (normal_low a Na ltac:(intros ->; cbn in *; lia)) as Low.
      assert (LB : Bp (length a - 1) = Bp n * Bp (length b)). { rewrite <- Bp_add. f_equal. lia. }
      pose proof (val_range b Ub) as Rb.
      assert ((val q1 + 1) * val b <= Bp n * val b) by (apply Z.mul_le_mono_nonneg_r; lia).
      assert (Bp n * val b <= Bp n * Bp (length b)) by (apply Z.mul_le_mono_nonneg_l; lia). lia. }
  rewrite (normal_relocation qs) by exact Nq. rewrite Z.eqb_refl.
  replace (Z.to_nat (zlen b)) with (length r) by (unfold zlen; lia). rewrite firstn_app, firstn_all, Nat.sub_diag, firstn_O, app_nil_r.
  exists qs, (relocation r). split; [reflexivity|]. split; [split; [exact Uqs|exact Nq]|]. split; [apply relocation_normal; exact Ur|].
  rewrite relocation_val, Vq, V.
  split; [rewrite Z.div_add_l, (Z.div_small (val r)) by lia; lia|].
  rewrite Z.add_comm, Z.mod_add, Z.mod_small by lia. reflexivity.
Qed.
Lemma mpi_mod_ok : forall r0 a b, normal a -> divisor_ok b -> val b < val a ->
  exists rl, mpi_mod r0 a b = Some (0, rl) /\ normal rl /\ val rl = val a mod val b.
Proof.
  intros r0 a b Na OK Lt. pose proof OK as (Ub & Lb & Tb & Sb).
  assert (Nb : normal b). { split; [exact Ub|]. destruct (split_last b (length b - 1) ltac:(lia)) as (b1 & d & E & _). rewrite E, last_last in *. lia. }
  assert (La : (length b <= length a)%nat).
  { destruct (le_lt_dec (length b) (length a)) as [X|X]; [exact X|]. pose proof (normal_shorter a b Na Nb X). lia. }
  destruct (mpa_divrem_ok a b OK (proj1 Na) La) as (r & hi & q & go & E & Lr & Ur & Rr & Lq & Uq & V).
  unfold mpi_mod. replace (zlen b =? 0) with false by (symmetry; apply Z.eqb_neq; unfold zlen; lia).
  replace (zlen b =? 1) with false by (symmetry; apply Z.eqb_neq; unfold zlen; lia).
  replace (zlen a =? 0) with false by (symmetry; apply Z.eqb_neq; unfold zlen; lia).
  unfold mpi_set. rewrite (normal_relocation a) by apply Na. rewrite E. cbn [fst].
  replace (Z.to_nat (zlen b)) with (length r) by (unfold zlen; lia). rewrite firstn_app, firstn_all, Nat.sub_diag, firstn_O, app_nil_r.
  exists (relocation r). split; [reflexivity|]. split; [apply relocation_normal; exact Ur|].
  rewrite relocation_val, V. rewrite Z.add_comm, Z.mod_add, Z.mod_small by lia. reflexivity.
Qed.

(** The divisors long division is right for: one limb; or the top bit is set (the routine's
    documented constraint, which no caller establishes) and no limb beyond the lowest is all ones
    (on which the additions and subtractions lose carries, C24). Missing: all other divisors, for
    which the quotient or the remainder may be wrong (C27_div_refuted, C27_rem_refuted,
    C27_norm_refuted). *)
Definition good_divisor (b : list Z) : Prop :=
  zlen b = 1 \/ (2 ^ 63 <= last b 0 /\ Forall (fun x => x <> 2 ^ 64 - 1) (tl b)).

Theorem C27_long_div_partial : forall junk q0 r0 va vb, wf va -> wf vb -> ival vb <> 0 -> good_divisor (limbs vb) ->
  exists q r, bfdev_mpi_div junk q0 r0 va vb = Some (0, q, r) /\ wf q /\ wf r /\
    ival q = Z.quot (ival va) (ival vb) /\ ival r = Z.rem (ival va) (ival vb).
Proof.
  intros junk q0 r0 va vb Ha Hb Nz G.
  destruct (Z_le_gt_dec (val (limbs va)) (val (limbs vb))) as [L|L]; [apply C27_div_partial; auto|].
  destruct (Z.eq_dec (zlen (limbs vb)) 1) as [L1|L1]; [apply C27_div_partial; auto|].
  destruct G as [G|[G1 G2]]; [contradiction|].
  destruct va as [a pa], vb as [b pb]. unfold wf, bfdev_mpi_div, ival in *. cbn [limbs plus] in *.
  pose proof (val_range a (proj1 Ha)) as Ra. pose proof (val_range b (proj1 Hb)) as Rb.
  assert (Pb : 0 < val b) by (destruct pb; lia).
  assert (OK : divisor_ok b).
  { split; [apply Hb|]. split; [|auto]. destruct b as [|y [|z b]]; cbn [length] in *; [cbn in Pb; lia|unfold zlen in L1; cbn in L1; lia|lia]. }
  destruct (quot_rem_signs pa pb (val a) (val b) ltac:(lia) Pb) as [-> ->].
  rewrite mpi_cmp_ok by assumption. destruct (zcmp_cases (val a) (val b)) as [[-> Q]|[[-> Q]|[-> Q]]]; try lia. cbn [Z.eqb].
  destruct (mpi_div_ok junk (limbs q0) (limbs r0) a b Ha OK Q) as (ql & rl & -> & Nq & Nr & Vq & Vr). cbn [Z.eqb].
  eexists _, _. split; [reflexivity|]. cbn [limbs plus]. rewrite Vq, Vr. auto.
Qed.
Theorem C27_long_mod_partial : forall r0 va vb, wf va -> wf vb -> ival vb <> 0 -> good_divisor (limbs vb) ->
  exists r, bfdev_mpi_mod r0 va vb = Some (0, r) /\ wf r /\ ival r = Z.rem (ival va) (ival vb).
Proof.
  intros r0 [a pa] [b pb] Ha Hb Nz G. unfold wf, bfdev_mpi_mod, ival in *. cbn [limbs plus] in *.
  pose proof (val_range a (proj1 Ha)) as Ra. pose proof (val_range b (proj1 Hb)) as Rb.
  assert (Pb : 0 < val b) by (destruct pb; lia).
  destruct (quot_rem_signs pa pb (val a) (val b) ltac:(lia) Pb) as [_ ->].
  rewrite mpi_cmp_ok by assumption. destruct (zcmp_cases (val a) (val b)) as [[-> Q]|[[-> Q]|[-> Q]]]; cbn [Z.eqb].
  - destruct (Z.eq_dec (zlen b) 1) as [L1|L1].
    + unfold mpi_mod. rewrite L1. change (1 =? 0) with false. change (1 =? 1) with true. cbv iota.
      destruct b as [|y [|y2 b]]; [discriminate| |rewrite !zlen_cons in L1; pose proof (zlen_nonneg _ b); lia].
      rewrite rd_cons0. cbn [val] in *. assert (Hy : 0 < y < 2 ^ 64) by (destruct Hb as [Ub _]; conses; unfold u64 in *; lia).
      destruct (mpi_modi_ok (limbs r0) a y Ha Hy) as (rl & -> & Nr & Vr). cbn [Z.eqb].
      eexists. split; [reflexivity|]. cbn [limbs plus]. rewrite Vr. replace (y + 2 ^ 64 * 0) with y by lia. auto.
    + destruct G as [G|[G1 G2]]; [contradiction|].
      assert (OK : divisor_ok b).
      { split; [apply Hb|]. split; [|auto]. destruct b as [|y [|z b]]; cbn [length] in *; [cbn in Pb; lia|unfold zlen in L1; cbn in L1; lia|lia]. }
      destruct (mpi_mod_ok (limbs r0) a b Ha OK Q) as (rl & -> & Nr & Vr). cbn [Z.eqb].
      eexists. split; [reflexivity|]. cbn [limbs plus]. rewrite Vr. auto.
  - eexists. split; [reflexivity|]. cbn [limbs plus val]. unfold mpi_set. rewrite normal_relocation by apply Ha.
    rewrite Z.mod_small by lia. split; [exact Ha|]. destruct pa; auto.
  - eexists. split; [reflexivity|]. cbn [limbs plus val]. rewrite Q, Z.mod_same by lia. split; [apply nil_normal|]. destruct pa; auto.
Qed.
(** Division by zero is reported and changes nothing. *)
Theorem C27_zero_divisor : forall junk q0 r0 va vb, wf va -> limbs va <> [] -> limbs vb = [] ->
  bfdev_mpi_div junk q0 r0 va vb = Some (- EOVERFLOW, q0, r0) /\ bfdev_mpi_mod r0 va vb = Some (- EOVERFLOW, r0).
Proof.
  intros junk [q0 qp] [r0 rp] [a pa] [b pb] Ha N Eb. cbn [limbs] in Eb. subst b. unfold wf, bfdev_mpi_div, bfdev_mpi_mod in *. cbn [limbs plus] in *.
  rewrite mpi_cmp_ok by (try assumption; apply nil_normal). pose proof (normal_pos a Ha N). cbn [val].
  destruct (zcmp_cases (val a) 0) as [[-> Q]|[[-> Q]|[-> Q]]]; try lia. split; reflexivity.
Qed.
(** A normalised divisor with an all-ones limb: the remainder is wrong by 2^128. *)
Theorem C27_norm_refuted : exists va vb q r, canonical va /\ canonical vb /\ 2 ^ 63 <= last (limbs vb) 0 /\
  bfdev_mpi_div 0 (Mpi [] true) (Mpi [] true) va vb = Some (0, q, r) /\ ival va <> ival q * ival vb + ival r.
Proof.
  exists (Mpi [0; 0; 2 ^ 64 - 1] true), (Mpi [1; 2 ^ 64 - 1; 2 ^ 63] true).
  eexists _, _. 
  split; [split; [split; [repeat constructor; unfold u64; lia|cbn; lia]|reflexivity]|].
  split; [split; [split; [repeat constructor; unfold u64; lia|cbn; lia]|reflexivity]|].
  split; [vm_compute; discriminate|]. split; [vm_compute; reflexivity|vm_compute; discriminate].
Qed.
(** The add-back step is reached: the first estimate is one too large here. *)
Example C27_long_case : wf (Mpi [3; 0; 2 ^ 63; 2 ^ 63 - 1] false) /\ good_divisor [1; 0; 2 ^ 63] /\
  bfdev_mpi_div 0 (Mpi [] true) (Mpi [] true) (Mpi [3; 0; 2 ^ 63; 2 ^ 63 - 1] false) (Mpi [1; 0; 2 ^ 63] true)
  = Some (0, Mpi [2 ^ 64 - 2] false, Mpi [5; 2 ^ 64 - 1; 2 ^ 63 - 1] false) /\
  (2 ^ 64 - 2) * val [1; 0; 2 ^ 63] + val [5; 2 ^ 64 - 1; 2 ^ 63 - 1] = val [3; 0; 2 ^ 63; 2 ^ 63 - 1].
Proof.
  split; [split; [repeat constructor; unfold u64; lia|cbn; lia]|].
  split; [right; split; [cbn; lia|repeat constructor; lia]|]. split; vm_compute; reflexivity.
Qed.
Print Assumptions C27_long_div_partial.
Print Assumptions C27_long_mod_partial.
Print Assumptions C27_zero_divisor.
Print Assumptions C27_norm_refuted.
