(** * Proofs about shifts and single bits of multi precision integers *)
From Verif Require Import Lib BitsModel MpiModel MpiSpec MpiProofs MpiProofs2 BitmapModel BitmapSpec BitmapProofs BitmapProps MpiBitsModel MpiBitsProofs.
Ltac Zify.zify_post_hook ::= Z.div_mod_to_equations.

Lemma zlen_repeat : forall A (x : A) n, 0 <= n -> zlen (repeat x (Z.to_nat n)) = n.
Proof. intros A x n Hn. unfold zlen. rewrite repeat_length. lia. Qed.
Lemma mpa_copy_rd : forall n m a ps pa, 0 <= ps -> 0 <= pa -> ps + Z.of_nat n <= zlen m -> pa + Z.of_nat n <= zlen a ->
  exists m', mpa_copy n m (Ext a) ps pa = Some m' /\ zlen m' = zlen m /\
    (forall k, 0 <= k < Z.of_nat n -> rd m' (ps + k) = rd a (pa + k)) /\
    (forall k, ~ (ps <= k < ps + Z.of_nat n) -> rd m' k = rd m k).
Proof.
  induction n as [|n IH]; intros m a ps pa H1 H2 H3 H4; cbn [mpa_copy].
  - exists m. repeat split; auto. intros k Hk. lia.
  - cbn [rds]. destruct (rd_some _ a pa ltac:(lia)) as (x & Ex). rewrite Ex.
    destruct (wr_spec _ m ps x) as (m1 & E1 & L1 & R1); [lia|]. rewrite E1.
    destruct (IH m1 a (ps + 1) (pa + 1)) as (m' & E & L & C & O); try lia.
    exists m'. split; [exact E|]. split; [lia|]. split.
    + intros k Hk. destruct (Z.eq_dec k 0) as [-> |Nk].
      * rewrite O by lia. rewrite !Z.add_0_r. rewrite R1, Z.eqb_refl. congruence.
      * replace (ps + k) with (ps + 1 + (k - 1)) by lia. rewrite C by lia. f_equal. lia.
    + intros k Hk. rewrite O by lia. rewrite R1. destruct (Z.eqb_spec k ps); [lia|reflexivity].
Qed.
Lemma mpa_zero_rd : forall n m ps, 0 <= ps -> ps + Z.of_nat n <= zlen m ->
  exists m', mpa_zero n m ps = Some m' /\ zlen m' = zlen m /\
    (forall k, ps <= k < ps + Z.of_nat n -> rd m' k = Some 0) /\
    (forall k, ~ (ps <= k < ps + Z.of_nat n) -> rd m' k = rd m k).
Proof.
  induction n as [|n IH]; intros m ps H1 H3; cbn [mpa_zero].
  - exists m. repeat split; auto. intros k Hk. lia.
  - destruct (wr_spec _ m ps 0) as (m1 & E1 & L1 & R1); [lia|]. rewrite E1.
    destruct (IH m1 (ps + 1)) as (m' & E & L & C & O); try lia.
    exists m'. split; [exact E|]. split; [lia|]. split.
    + intros k Hk. destruct (Z.eq_dec k ps) as [-> |Nk].
      * rewrite O by lia. rewrite R1, Z.eqb_refl. reflexivity.
      * apply C. lia.
    + intros k Hk. rewrite O by lia. rewrite R1. destruct (Z.eqb_spec k ps); [lia|reflexivity].
Qed.
(** The operand followed by [rem] zero limbs. *)
Lemma widened : forall junk own d a rem, 0 <= rem -> 
  (let* x := (if own : bool then Some (resize junk (if own then a else d) (zlen a + rem))
              else mpa_copy (Z.to_nat (zlen a)) (resize junk (if own then a else d) (zlen a + rem)) (Ext a) 0 0) in
   mpa_zero (Z.to_nat rem) x (zlen a)) = Some (a ++ repeat 0 (Z.to_nat rem)).
Proof.
  intros junk own d a rem Hr. assert (La : 0 <= zlen a) by (unfold zlen; lia).
  set (r := resize junk (if own then a else d) (zlen a + rem)).
  assert (L : zlen r = zlen a + rem) by (apply zlen_resize; lia).
  assert (X : exists x, (if own then Some r else mpa_copy (Z.to_nat (zlen a)) r (Ext a) 0 0) = Some x /\ zlen x = zlen a + rem /\
            (forall k, 0 <= k < zlen a -> rd x k = rd a k)).
  { destruct own.
    - exists r. split; [reflexivity|]. split; [exact L|]. intros k Hk. unfold r. apply rd_resize; lia.
    - destruct (mpa_copy_rd (Z.to_nat (zlen a)) r a 0 0) as (x & E & Lx & C & _); try lia.
      exists x. split; [exact E|]. split; [lia|]. intros k Hk. specialize (C k ltac:(lia)). rewrite !Z.add_0_l in C. exact C. }
  destruct X as (x & -> & Lx & Cx).
  destruct (mpa_zero_rd (Z.to_nat rem) x (zlen a)) as (y & -> & Ly & Zy & Oy); try lia.
  f_equal. apply rd_ext. intros i. destruct (Z_lt_dec i 0) as [N|N].
  { unfold rd. destruct (Z.ltb_spec i 0); [reflexivity|lia]. }
  destruct (Z.ltb_spec i (zlen a)).
  - rewrite rd_app1 by assumption. rewrite Oy by lia. apply Cx. lia.
  - rewrite rd_app2 by assumption. destruct (Z.ltb_spec i (zlen a + rem)).
    + rewrite Zy by lia. unfold rd. destruct (Z.ltb_spec (i - zlen a) 0); [lia|]. symmetry. apply nth_error_repeat. lia.
    + transitivity (@None Z); [|symmetry]; apply rd_none_iff; [lia|]. rewrite zlen_repeat by lia. lia.
Qed.
Lemma mbit_wide : forall a n i, 0 <= i -> mbit (a ++ repeat 0 n) 0 i = mbit a 0 i.
Proof.
  intros a n i Hi. unfold mbit. rewrite !Z.add_0_l. destruct (Z.ltb_spec (i / 64) (zlen a)).
  - rewrite rd_app1 by assumption. reflexivity.
  - rewrite rd_app2 by assumption. rewrite (proj2 (rd_none_iff _ a (i / 64))) by lia.
    unfold rd. destruct (_ <? 0); [reflexivity|]. destruct (nth_error _ _) eqn:E; [|reflexivity].
    apply nth_error_In, repeat_spec in E. subst. apply Z.testbit_0_l.
Qed.

Lemma mpi_shli_ok : forall junk own d a shift, normal a -> 0 <= shift -> zlen a + (shift + 63) / 64 < 2 ^ 26 ->
  exists r, mpi_shli junk own d a shift = Some r /\ val r = val a * 2 ^ shift /\ normal r.
Proof.
  intros junk own d a shift Na Hs Hl. assert (La : 0 <= zlen a) by (unfold zlen; lia). unfold mpi_shli.
  destruct (Z.eqb_spec shift 0) as [-> |Ns].
  { exists a. rewrite Z.mul_1_r. split; [|auto]. destruct own; [reflexivity|]. unfold mpi_set.
    rewrite normal_relocation by apply Na. reflexivity. }
  destruct (Z.eqb_spec (zlen a) 0) as [E|E].
  { exists []. split; [reflexivity|]. unfold zlen in E. destruct a; [|cbn [length] in E; lia]. cbn [val]. split; [lia|exact Na]. }
  assert (Hr : w64 (shift + 63) = shift + 63) by (unfold w64; apply Z.mod_small; lia). rewrite Hr.
  set (rem := (shift + 63) / 64) in *.
  assert (Hrem : 0 <= rem /\ shift <= 64 * rem) by (unfold rem; lia).
  assert (Hln : w64 (zlen a + rem) = zlen a + rem) by (unfold w64; apply Z.mod_small; lia). rewrite Hln.
  pose proof (widened junk own d a rem ltac:(lia)) as W. cbv zeta.
  match goal with |- context [match ?c with Some _ => _ | None => _ end] => destruct c as [x|]; [|discriminate] end.
  rewrite W.
  assert (Hw : w32 ((zlen a + rem) * 64) = (zlen a + rem) * 64) by (unfold w32; apply Z.mod_small; lia). rewrite Hw.
  assert (Hsh : w32 shift = shift) by (unfold w32; apply Z.mod_small; lia). rewrite Hsh.
  set (n := (zlen a + rem) * 64) in *. set (x' := a ++ repeat 0 (Z.to_nat rem)) in *.
  assert (Lx : zlen x' = zlen a + rem). { unfold x'. rewrite zlen_app. rewrite zlen_repeat by lia. lia. }
  assert (Ux : Forall u64 x').
  { apply Forall_app. split; [apply Na|]. apply Forall_forall. intros z Hz. apply repeat_spec in Hz. subst. unfold u64. lia. }
  assert (Nn : nwords n = zlen a + rem) by (unfold nwords, n; lia).
  assert (P : bm_pre x' 0 [0] n).
  { split; [exact Ux|]. split; [unfold n; lia|]. unfold in_mem. split; [lia|]. constructor; [|constructor]. unfold in_mem, same_or_disjoint. lia. }
  destruct (comp_shl_spec x' 0 0 shift n Ux) as (m' & -> & L' & U' & B & _); try (unfold nmax, n, in_mem, same_or_disjoint; fold n; lia).
  eexists. split; [reflexivity|]. split; [|apply relocation_normal; assumption].
  rewrite relocation_val. apply Z.bits_inj'. intros i Hi. rewrite Z.mul_pow2_bits by lia. rewrite val_bit by assumption.
  assert (T : (if i <? shift then false else mbit x' 0 (i - shift)) = Z.testbit (val a) (i - shift)).
  { destruct (Z.ltb_spec i shift); [symmetry; apply Z.testbit_neg_r; lia|]. unfold x'. rewrite mbit_wide by lia.
    symmetry. apply val_bit; [apply Na|lia]. }
  rewrite <- T. destruct (Z.ltb_spec i n).
  - apply B. lia.
  - rewrite mbit_out by (unfold n in *; lia). destruct (Z.ltb_spec i shift); [reflexivity|].
    unfold x'. rewrite mbit_wide by lia. symmetry. apply mbit_out. unfold n in *. lia.
Qed.

Lemma mpi_shri_ok : forall junk own d a shift, u64 junk -> Forall u64 d -> normal a -> 0 <= shift < 2 ^ 32 -> zlen a < 2 ^ 26 ->
  exists r, mpi_shri junk own d a shift = Some r /\ val r = val a / 2 ^ shift /\ normal r.
Proof.
  intros junk own d a shift Uj Ud Na Hs Hl. assert (La : 0 <= zlen a) by (unfold zlen; lia). unfold mpi_shri.
  destruct (Z.eqb_spec shift 0) as [-> |Ns].
  { exists a. rewrite Z.div_1_r. split; [|auto]. destruct own; [reflexivity|]. unfold mpi_set.
    rewrite normal_relocation by apply Na. reflexivity. }
  destruct (Z.eqb_spec (zlen a) 0) as [E|E].
  { exists []. split; [reflexivity|]. unfold zlen in E. destruct a; [|cbn [length] in E; lia]. cbn [val]. split; [rewrite Z.div_0_l; lia|exact Na]. }
  assert (Hw : w32 (zlen a * 64) = zlen a * 64) by (unfold w32; apply Z.mod_small; lia). rewrite Hw.
  assert (Hsh : w32 shift = shift) by (unfold w32; apply Z.mod_small; lia). rewrite Hsh.
  set (al := if own then DestA else Distinct). set (n := zlen a * 64) in *.
  assert (Ed : (if own then a else d) = dest0 al d a []) by (unfold al; destruct own; reflexivity). rewrite Ed.
  set (r := resize junk (dest0 al d a []) (zlen a)).
  assert (Lr : zlen r = zlen a) by (apply zlen_resize; lia).
  assert (Nn : nwords n = zlen a) by (unfold nwords, n; lia).
  assert (Ur : Forall u64 (layout al r a [])).
  { apply u64_layout; [|apply Na|constructor]. apply u64_resize; [assumption|]. apply u64_dest0; [assumption|apply Na|constructor]. }
  assert (Pos : 0 <= posA al r /\ posA al r + zlen a <= zlen (layout al r a []) /\ (posA al r = 0 \/ zlen a <= posA al r)).
  { assert (Z0 : zlen (@nil Z) = 0) by reflexivity.
    unfold al, posA, layout. destruct own; cbn [isA isB]; rewrite ?zlen_app, Lr, Z0; lia. }
  destruct (comp_shr_spec (layout al r a []) 0 (posA al r) shift n Ur) as (m' & -> & L' & U' & B & _);
    try (unfold nmax, n, in_mem, same_or_disjoint; fold n; rewrite ?Nn; pose proof (zlen_layout al r a []); lia).
  pose proof (zlen_layout al r a []) as LL.
  eexists. split; [reflexivity|]. split; [|apply relocation_normal; apply u64_firstn; assumption].
  rewrite relocation_val. apply Z.bits_inj'. intros i Hi. rewrite Z.div_pow2_bits by lia.
  rewrite val_bit by (try apply u64_firstn; assumption). rewrite val_bit by (try apply Na; lia).
  destruct (Z.ltb_spec i n).
  - rewrite mbit_taken by (unfold n in *; lia). rewrite B by lia. destruct (Z.ltb_spec (i + shift) n).
    + apply mbit_same. rewrite Z.add_0_l. apply layA; unfold n in *; try lia. unfold al. destruct own; discriminate.
    + symmetry. apply mbit_out. unfold n in *. lia.
  - rewrite !mbit_out; [reflexivity|unfold n in *; lia|]. rewrite zlen_taken by lia. unfold n in *. lia.
Qed.

(** ** Single bits *)
Lemma mbit_wr_word : forall l k w l' (g : Z -> bool), wr l k w = Some l' -> 
  (forall j, 0 <= j < 64 -> Z.testbit w j = g j) ->
  forall i, 0 <= i -> mbit l' 0 i = if i / 64 =? k then g (i mod 64) else mbit l 0 i.
Proof.
  intros l k w l' g E G i Hi. apply wr_inv in E. destruct E as (_ & _ & R). unfold mbit. rewrite Z.add_0_l, R.
  destruct (Z.eqb_spec (i / 64) k); [|reflexivity]. apply G. lia.
Qed.
Lemma btesti_ok : forall a bit, Forall u64 (limbs a) -> 0 <= bit -> bit < 2 ^ 32 \/ zlen (limbs a) <= 2 ^ 26 ->
  bfdev_mpi_btesti a bit = Some (Z.testbit (val (limbs a)) bit).
Proof.
  intros a bit U Hb Hl. unfold bfdev_mpi_btesti. rewrite val_bit by assumption.
  destruct (Z.leb_spec (zlen (limbs a)) (bit / 64)).
  - rewrite mbit_out by lia. reflexivity.
  - replace (w32 bit) with bit by (unfold w32; symmetry; apply Z.mod_small; lia).
    unfold mbit. rewrite Z.add_0_l. destruct (rd_some _ (limbs a) (bit / 64) ltac:(lia)) as (w & ->). reflexivity.
Qed.

Lemma bseti_ok : forall a bit, wf a -> 0 <= bit < 2 ^ 32 ->
  exists r, bfdev_mpi_bseti a bit = Some r /\ val (limbs r) = Z.setbit (val (limbs a)) bit /\ plus r = plus a /\ wf r.
Proof.
  intros [l p] bit Na Hb. unfold wf in *. cbn [limbs plus] in *. unfold bfdev_mpi_bseti. cbn [limbs plus].
  replace (w32 bit) with bit by (unfold w32; symmetry; apply Z.mod_small; lia).
  set (z := (Z.to_nat (bit / 64 + 1) - length l)%nat). set (x := l ++ repeat 0 z).
  assert (Lx : zlen x = Z.max (zlen l) (bit / 64 + 1)).
  { unfold x, zlen. rewrite app_length, repeat_length. unfold z. lia. }
  assert (Ux : Forall u64 x).
  { apply Forall_app. split; [apply Na|]. apply Forall_forall. intros y Hy. apply repeat_spec in Hy. subst. unfold u64. lia. }
  destruct (rd_some _ x (bit / 64) ltac:(lia)) as (w & Ew). rewrite Ew.
  pose proof (rd_u64 _ _ _ Ux Ew) as Uw.
  destruct (wr_spec _ x (bit / 64) (Z.lor w (Z.shiftl 1 (bit mod 64)))) as (y & Ey & Ly & Ry); [lia|]. rewrite Ey.
  assert (Us : 0 <= Z.shiftl 1 (bit mod 64) < 2 ^ 64).
  { rewrite Z.shiftl_1_l. split; [apply Z.pow_nonneg; lia|]. apply Z.pow_lt_mono_r; lia. }
  assert (Uy : Forall u64 y). { eapply wr_u64; [exact Ux| |exact Ey]. apply BitsProofs.lor_range; [lia|exact Uw|exact Us]. }
  assert (G : forall j, 0 <= j < 64 -> Z.testbit (Z.lor w (Z.shiftl 1 (bit mod 64))) j = (j =? bit mod 64) || Z.testbit w j).
  { intros j Hj. rewrite Z.lor_spec, Z.shiftl_1_l, Z.pow2_bits_eqb by lia. rewrite orb_comm, Z.eqb_sym. reflexivity. }
  assert (V : val y = Z.setbit (val l) bit).
  { apply Z.bits_inj'. intros i Hi. rewrite Z.setbit_eqb by lia. rewrite !val_bit by (try apply Na; assumption).
    rewrite (mbit_wr_word _ _ _ _ _ Ey G i Hi). destruct (Z.eqb_spec (i / 64) (bit / 64)) as [Q|Q].
    - replace (Z.testbit w (i mod 64)) with (mbit l 0 i).
      + replace (i mod 64 =? bit mod 64) with (bit =? i); [reflexivity|].
        destruct (Z.eqb_spec bit i), (Z.eqb_spec (i mod 64) (bit mod 64)); try reflexivity; lia.
      + rewrite <- (mbit_wide l z) by assumption. fold x. unfold mbit. rewrite Z.add_0_l, Q, Ew. reflexivity.
    - unfold x. rewrite mbit_wide by assumption. replace (bit =? i) with false; [reflexivity|].
      symmetry. apply Z.eqb_neq. intros ->. lia. }
  eexists. split; [reflexivity|]. cbn [limbs plus]. split; [exact V|]. split; [reflexivity|].
  split; [exact Uy|].
  (* the top limb: either the operand's or the one that just received the bit *)
  assert (T : forall q : list Z, q <> [] -> rd q (zlen q - 1) <> Some 0 -> last q 1 <> 0).
  { clear. intros q Nq H Q. apply H. destruct (exists_last Nq) as (q' & t & ->). rewrite last_last in Q. subst.
    apply rd_app_len. unfold zlen. rewrite app_length. cbn [length]. lia. }
  apply T. { intros ->. unfold zlen in *. cbn [length] in Ly. lia. }
  rewrite Ry. destruct (Z.eqb_spec (zlen y - 1) (bit / 64)) as [Q|Q].
  - intros C. injection C as C. pose proof (G (bit mod 64) ltac:(lia)) as Gb. rewrite C, Z.testbit_0_l, Z.eqb_refl in Gb. discriminate.
  - unfold x. rewrite rd_app1 by (fold x in Lx; lia). replace (zlen y - 1) with (zlen l - 1) by lia.
    assert (Nl : l <> []). { intros ->. unfold zlen in *. cbn [length] in *. lia. }
    destruct (exists_last Nl) as (q' & t & ->). destruct Na as [_ Na]. rewrite last_last in Na.
    rewrite rd_app_len by (unfold zlen; rewrite app_length; cbn [length]; lia). congruence.
Qed.
Lemma bclri_ok : forall a bit, wf a -> 0 <= bit -> bit < 2 ^ 32 \/ zlen (limbs a) <= 2 ^ 26 ->
  exists r, bfdev_mpi_bclri a bit = Some r /\ val (limbs r) = Z.clearbit (val (limbs a)) bit /\ plus r = plus a /\ wf r.
Proof.
  intros [l p] bit Na Hb Hl. unfold wf in *. cbn [limbs plus] in *. unfold bfdev_mpi_bclri. cbn [limbs plus].
  destruct (Z.leb_spec (zlen l) (bit / 64)) as [Q|Q].
  { eexists. split; [reflexivity|]. cbn [limbs plus]. split; [|split; [reflexivity|exact Na]].
    apply Z.bits_inj'. intros i Hi. rewrite Z.clearbit_eqb, !val_bit by (try apply Na; assumption).
    destruct (Z.eqb_spec bit i) as [-> |]; [rewrite mbit_out by lia; reflexivity|]. rewrite andb_true_r. reflexivity. }
  replace (w32 bit) with bit by (unfold w32; symmetry; apply Z.mod_small; lia).
  destruct (rd_some _ l (bit / 64) ltac:(lia)) as (w & Ew). rewrite Ew. pose proof (proj1 Na) as Ul.
  pose proof (rd_u64 _ _ _ Ul Ew) as Uw.
  match goal with |- context [wr l (bit / 64) ?v] => set (v0 := v); destruct (wr_spec _ l (bit / 64) v0) as (y & Ey & Ly & Ry); [lia|] end.
  rewrite Ey.
  assert (Us : 0 <= Z.shiftl 1 (bit mod 64) < 2 ^ 64).
  { rewrite Z.shiftl_1_l. split; [apply Z.pow_nonneg; lia|]. apply Z.pow_lt_mono_r; lia. }
  assert (G : forall j, 0 <= j < 64 -> Z.testbit v0 j = Z.testbit w j && negb (j =? bit mod 64)).
  { intros j Hj. unfold v0. rewrite Z.land_spec, BitsProofs.not64_bits by lia.
    replace (j <? 64) with true by (symmetry; apply Z.ltb_lt; lia). rewrite Z.shiftl_1_l, Z.pow2_bits_eqb by lia. rewrite (Z.eqb_sym (bit mod 64)). reflexivity. }
  assert (Uy : Forall u64 y). { eapply wr_u64; [exact Ul| |exact Ey]. unfold v0. apply BitsProofs.land_range_l; [lia|exact Uw]. }
  eexists. split; [reflexivity|]. cbn [limbs plus]. split; [|split; [reflexivity|apply relocation_normal; exact Uy]].
  rewrite relocation_val. apply Z.bits_inj'. intros i Hi. rewrite Z.clearbit_eqb, !val_bit by assumption.
  rewrite (mbit_wr_word _ _ _ _ _ Ey G i Hi). destruct (Z.eqb_spec (i / 64) (bit / 64)) as [R|R].
  - replace (Z.testbit w (i mod 64)) with (mbit l 0 i) by (unfold mbit; rewrite Z.add_0_l, R, Ew; reflexivity).
    replace (i mod 64 =? bit mod 64) with (bit =? i); [reflexivity|].
    destruct (Z.eqb_spec bit i), (Z.eqb_spec (i mod 64) (bit mod 64)); try reflexivity; lia.
  - replace (bit =? i) with false; [rewrite andb_true_r; reflexivity|]. symmetry. apply Z.eqb_neq. intros ->. lia.
Qed.
