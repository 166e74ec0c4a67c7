From Verif Require Import Lib Mem FifoModel FifoSpec.

(** List level: the two-piece copy out of and into a rotated buffer. *)
Lemma copy_out_list : forall A (data : list A) off len,
  (off <= length data)%nat -> (len <= length data)%nat ->
  let llen := Nat.min len (length data - off) in
  firstn llen (skipn off data) ++ firstn (len - llen) data = firstn len (rot off data).
Proof.
  intros A data off len Ho Hl llen. unfold rot, llen.
  assert (L : length (skipn off data) = (length data - off)%nat) by apply skipn_length.
  destruct (Nat.min_spec len (length data - off)) as [[H ->]|[H ->]].
  - rewrite firstn_app_le by lia. rewrite Nat.sub_diag. cbn. apply app_nil_r.
  - rewrite firstn_app_ge by lia. rewrite L, firstn_all2 by lia. f_equal.
    rewrite firstn_firstn. f_equal. lia.
Qed.

Lemma copy_in_list : forall A (data buff : list A) off len,
  (off <= length data)%nat -> (len <= length data)%nat -> (len <= length buff)%nat ->
  let llen := Nat.min len (length data - off) in
  let a := firstn llen buff in
  let d1 := firstn off data ++ a ++ skipn (off + length a) data in
  let b := firstn (len - llen) (skipn llen buff) in
  let d2 := b ++ skipn (length b) d1 in
  length d2 = length data /\
  rot off d2 = firstn len buff ++ skipn len (rot off data).
Proof.
  intros A data buff off len Ho Hl Hb llen a d1 b d2.
  assert (Ld : length (skipn off data) = (length data - off)%nat) by apply skipn_length.
  assert (Lo : length (firstn off data) = off) by (rewrite firstn_length; lia).
  assert (La : length a = llen) by (unfold a; rewrite firstn_length; lia).
  assert (Lb : length b = (len - llen)%nat) by (unfold b; rewrite firstn_length, skipn_length; lia).
  assert (Ld1 : length d1 = length data).
  { unfold d1. rewrite !app_length, skipn_length, Lo, La. lia. }
  split. { unfold d2. rewrite app_length, skipn_length, Ld1, Lb. lia. }
  destruct (Nat.min_spec len (length data - off)) as [[H E]|[H E]]; fold llen in E.
  - assert (b = []) as Eb. { apply length_zero_iff_nil. lia. }
    unfold d2. rewrite Eb. cbn [app length skipn].
    unfold rot, d1. rewrite skipn_app_ge, firstn_app_le, Lo, Nat.sub_diag by lia. cbn [skipn].
    rewrite firstn_firstn, Nat.min_id.
    rewrite (skipn_app_le _ len) by lia. rewrite skipn_skipn', La, E.
    unfold a. rewrite E, app_assoc. reflexivity.
  - assert (Ed1 : d1 = firstn off data ++ a).
    { unfold d1. rewrite La. rewrite (skipn_all2 data) by lia. rewrite app_nil_r. reflexivity. }
    unfold d2. rewrite Ed1, Lb. rewrite skipn_app_le by lia.
    unfold rot. rewrite !app_assoc.
    assert (Lx : length (b ++ skipn (len - llen) (firstn off data)) = off).
    { rewrite app_length, skipn_length, Lb, Lo. lia. }
    rewrite (skipn_app_ge _ off) by lia. rewrite Lx, Nat.sub_diag. cbn [skipn].
    rewrite (firstn_app_le _ off) by lia. rewrite firstn_all2 by lia.
    rewrite (skipn_app_ge _ len) by lia. rewrite Ld, <- E.
    rewrite app_assoc. f_equal.
    unfold a, b. rewrite <- firstn_plus. f_equal. lia.
Qed.

(** Well-formed buffers: power-of-two capacity, storage of exactly capacity * esize bytes
    (a C object, hence below 2^63), at most capacity elements pending. *)
Definition cap (f : fifo) : Z := f_mask f + 1.
Definition wf (f : fifo) : Prop :=
  exists k, 0 <= k /\ f_mask f = 2 ^ k - 1 /\ 1 <= f_esize f /\
    zlen (f_data f) = cap f * f_esize f /\ zlen (f_data f) < 2 ^ 63 /\
    u64 (f_in f) /\ u64 (f_out f) /\ fifo_valid f <= cap f.

(** The pending bytes, oldest first. *)
Definition contents (f : fifo) : list Z :=
  firstn (Z.to_nat (fifo_valid f * f_esize f))
         (rot (Z.to_nat (f_out f mod cap f * f_esize f)) (f_data f)).

Lemma w64_small : forall x, 0 <= x < 2 ^ 64 -> w64 x = x.
Proof. intros. unfold w64. apply Z.mod_small. assumption. Qed.

Section WF.
  Variable f : fifo.
  Hypothesis W : wf f.

  Lemma wf_cap : 1 <= cap f < 2 ^ 63 /\ 1 <= f_esize f < 2 ^ 63 /\
    zlen (f_data f) = cap f * f_esize f /\ cap f * f_esize f < 2 ^ 63.
  Proof.
    destruct W as (k & Hk & Hm & He & Hd & Hs & _). unfold cap in *. rewrite Hm in *.
    pose proof (Z.pow_pos_nonneg 2 k ltac:(lia) Hk). nia.
  Qed.

  Lemma wf_land : forall x, Z.land x (f_mask f) = x mod cap f.
  Proof.
    intros x. destruct W as (k & Hk & Hm & _). unfold cap. rewrite Hm.
    replace (2 ^ k - 1) with (Z.ones k) by (rewrite Z.ones_equiv; lia).
    rewrite Z.land_ones by assumption. f_equal. rewrite Z.ones_equiv. lia.
  Qed.

  Lemma wf_valid : 0 <= fifo_valid f <= cap f.
  Proof.
    destruct W as (k & _ & _ & _ & _ & _ & _ & _ & H). split; [|assumption].
    unfold fifo_valid, w64. apply Z.mod_pos_bound. lia.
  Qed.

  Lemma wf_unused : fifo_unused f = cap f - fifo_valid f.
  Proof.
    pose proof wf_valid. pose proof wf_cap. unfold fifo_unused. fold (cap f).
    rewrite (w64_small (cap f)) by lia. apply w64_small. lia.
  Qed.

  (** 2^64 is a multiple of the capacity. *)
  Lemma mod_w64 : forall x, w64 x mod cap f = x mod cap f.
  Proof.
    intros x. destruct W as (k & Hk & Hm & _). pose proof wf_cap as (C & _).
    assert (k < 64). { destruct (Z_lt_dec k 64); [assumption|exfalso].
      unfold cap in C. rewrite Hm in C.
      assert (2 ^ 64 <= 2 ^ k) by (apply Z.pow_le_mono_r; lia). lia. }
    unfold cap, w64. rewrite Hm. replace (2 ^ k - 1 + 1) with (2 ^ k) by lia.
    replace (2 ^ 64) with (2 ^ k * 2 ^ (64 - k)) by (rewrite <- Z.pow_add_r by lia; f_equal; lia).
    rewrite Z.rem_mul_r by (apply Z.pow_nonzero || apply Z.pow_pos_nonneg; lia).
    rewrite Z.mul_comm, Z.mod_add by (apply Z.pow_nonzero; lia).
    apply Z.mod_mod. apply Z.pow_nonzero; lia.
  Qed.

  Lemma in_mod : f_in f mod cap f = (f_out f mod cap f + fifo_valid f) mod cap f.
  Proof.
    pose proof wf_cap. unfold fifo_valid.
    rewrite Zplus_mod, mod_w64, <- Zplus_mod.
    rewrite Zplus_mod, Zmod_mod, <- Zplus_mod. f_equal. lia.
  Qed.

  Lemma copy_plan_wf : forall len o, 0 <= len <= cap f ->
    copy_plan f len o =
      (o mod cap f * f_esize f, len * f_esize f,
       Z.min (len * f_esize f) (cap f * f_esize f - o mod cap f * f_esize f)).
  Proof.
    intros len o Hl. pose proof wf_cap as (C & E & D & S).
    pose proof (Z.mod_pos_bound o (cap f) ltac:(lia)) as Ho.
    unfold copy_plan. fold (cap f). rewrite wf_land.
    rewrite (w64_small (cap f)) by lia.
    destruct (Z.eqb_spec (f_esize f) 1) as [->|].
    - rewrite !Z.mul_1_r. rewrite w64_small by lia. reflexivity.
    - rewrite (w64_small (_ mod _ * _)) by nia. rewrite (w64_small (cap f * _)) by nia.
      rewrite (w64_small (len * _)) by nia. rewrite (w64_small (_ - _)) by nia. reflexivity.
  Qed.

  Lemma out_copy_wf : forall len o, 0 <= len <= cap f ->
    out_copy f len o = Some (firstn (Z.to_nat (len * f_esize f))
                               (rot (Z.to_nat (o mod cap f * f_esize f)) (f_data f))).
  Proof.
    intros len o Hl. pose proof wf_cap as (C & E & D & S).
    pose proof (Z.mod_pos_bound o (cap f) ltac:(lia)) as Ho.
    unfold out_copy. rewrite copy_plan_wf by assumption.
    set (off := o mod cap f * f_esize f). set (l := len * f_esize f).
    assert (0 <= off <= zlen (f_data f)) by (unfold off; nia).
    assert (0 <= l <= zlen (f_data f)) by (unfold l; nia).
    rewrite <- D. set (m := Z.min l (zlen (f_data f) - off)).
    assert (0 <= m /\ m <= l /\ m <= zlen (f_data f) - off) by lia.
    rewrite w64_small by lia. rewrite !rdn_some by lia. cbn [skipn Z.to_nat]. f_equal.
    unfold zlen in *.
    rewrite <- copy_out_list by lia.
    replace (Z.to_nat m) with (Nat.min (Z.to_nat l) (length (f_data f) - Z.to_nat off)) by lia.
    f_equal. f_equal. lia.
  Qed.

  Lemma in_copy_wf : forall buff len o, 0 <= len <= cap f -> len * f_esize f <= zlen buff ->
    exists d, in_copy f buff len o = Some (set_data f d) /\ length d = length (f_data f) /\
      let off := Z.to_nat (o mod cap f * f_esize f) in
      let n := Z.to_nat (len * f_esize f) in
      rot off d = firstn n buff ++ skipn n (rot off (f_data f)).
  Proof.
    intros buff len o Hl Hb. pose proof wf_cap as (C & E & D & S).
    pose proof (Z.mod_pos_bound o (cap f) ltac:(lia)) as Ho.
    unfold in_copy. rewrite copy_plan_wf by assumption.
    set (off := o mod cap f * f_esize f). set (l := len * f_esize f) in *.
    assert (0 <= off <= zlen (f_data f)) by (unfold off; nia).
    assert (0 <= l <= zlen (f_data f)) by (unfold l; nia).
    rewrite <- D. set (m := Z.min l (zlen (f_data f) - off)).
    assert (0 <= m /\ m <= l /\ m <= zlen (f_data f) - off) by lia.
    rewrite w64_small by lia. rewrite rdn_some by lia. cbn [skipn Z.to_nat].
    unfold zlen in *.
    pose proof (copy_in_list _ (f_data f) buff (Z.to_nat off) (Z.to_nat l)
                  ltac:(lia) ltac:(lia) ltac:(lia)) as HH.
    cbv zeta in HH.
    replace (Nat.min (Z.to_nat l) (length (f_data f) - Z.to_nat off))
      with (Z.to_nat m) in HH by lia.
    set (a := firstn (Z.to_nat m) buff) in *.
    assert (La : length a = Z.to_nat m) by (unfold a; rewrite firstn_length; lia).
    rewrite wrn_some by (unfold zlen; lia).
    rewrite rdn_some by (unfold zlen; lia).
    replace (Z.to_nat (l - m)) with (Z.to_nat l - Z.to_nat m)%nat by lia.
    set (b := firstn (Z.to_nat l - Z.to_nat m) (skipn (Z.to_nat m) buff)) in *.
    assert (Lb : length b = (Z.to_nat l - Z.to_nat m)%nat).
    { unfold b. rewrite firstn_length, skipn_length. lia. }
    destruct HH as [HH1 HH2].
    set (d1 := firstn (Z.to_nat off) (f_data f) ++ a ++ skipn (Z.to_nat off + length a) (f_data f)) in *.
    assert (Ld1 : length d1 = length (f_data f)).
    { unfold d1. rewrite !app_length, skipn_length, firstn_length. lia. }
    rewrite wrn_some by (unfold zlen; lia). cbn [Z.to_nat firstn app Nat.add].
    eexists. split; [reflexivity|]. split; [exact HH1|]. exact HH2.
  Qed.

  (** Rotated views, in byte units. *)
  Let T := length (f_data f).
  Definition pos (o : Z) : nat := Z.to_nat (o mod cap f * f_esize f).

  Lemma pos_bound : forall o, (pos o < length (f_data f))%nat.
  Proof.
    intros o. pose proof wf_cap as (C & E & D & S). unfold zlen in D. unfold pos.
    pose proof (Z.mod_pos_bound o (cap f) ltac:(lia)) as Ho. nia.
  Qed.

  Lemma rot_pos_add : forall o n (d : list Z), length d = length (f_data f) -> 0 <= n <= cap f ->
    rot (pos (o + n)) d = rot (Z.to_nat (n * f_esize f)) (rot (pos o) d).
  Proof.
    intros o n d Hd Hn. pose proof wf_cap as (C & E & D & S). unfold zlen in D.
    pose proof (pos_bound o) as P. pose proof (pos_bound (o + n)) as P'.
    pose proof (Z.mod_pos_bound o (cap f) ltac:(lia)) as Ho.
    rewrite rot_rot by (rewrite Hd; nia). rewrite Hd. unfold pos in *.
    rewrite <- (Zplus_mod_idemp_l o) in *.
    destruct (Z_lt_dec (o mod cap f + n) (cap f)) as [L|L].
    - rewrite (Z.mod_small (o mod cap f + n)) by lia.
      destruct (Nat.leb_spec (Z.to_nat (o mod cap f * f_esize f) + Z.to_nat (n * f_esize f)) (length (f_data f))); [|nia].
      f_equal. nia.
    - assert (M : (o mod cap f + n) mod cap f = o mod cap f + n - cap f).
      { symmetry. apply Z.mod_unique with (q := 1); lia. }
      rewrite M in *.
      destruct (Nat.leb_spec (Z.to_nat (o mod cap f * f_esize f) + Z.to_nat (n * f_esize f)) (length (f_data f))).
      + assert (X : (Z.to_nat (o mod cap f * f_esize f) + Z.to_nat (n * f_esize f))%nat = length d) by nia.
        assert (Y : (Z.to_nat ((o mod cap f + n - cap f) * f_esize f)) = O) by nia.
        rewrite X, Y, rot_full, rot_0. reflexivity.
      + f_equal. nia.
  Qed.

  Lemma pos_w64 : forall o, pos (w64 o) = pos o.
  Proof. intros o. unfold pos. rewrite mod_w64. reflexivity. Qed.

  Lemma pos_in : pos (f_in f) = pos (f_out f + fifo_valid f).
  Proof.
    unfold pos. rewrite in_mod. rewrite (Zplus_mod (f_out f)), (Zplus_mod (f_out f mod cap f)).
    rewrite !Zmod_mod. reflexivity.
  Qed.

  Lemma contents_length : zlen (contents f) = fifo_valid f * f_esize f.
  Proof.
    pose proof wf_cap as (C & E & D & S). pose proof wf_valid.
    unfold contents. unfold zlen in *. rewrite firstn_length, rot_length. nia.
  Qed.

  Lemma pending_contents : pending (f_esize f) (contents f) = fifo_valid f.
  Proof.
    pose proof wf_cap. unfold pending. rewrite contents_length. apply Z.div_mul. lia.
  Qed.
End WF.

Lemma wf_change : forall f i o d, wf f -> length d = length (f_data f) -> u64 i -> u64 o ->
  w64 (i - o) <= cap f ->
  wf {| f_in := i; f_out := o; f_mask := f_mask f; f_esize := f_esize f; f_data := d |}.
Proof.
  intros f i o d (k & H1 & H2 & H3 & H4 & H5 & H6 & H7 & H8) Hd Hi Ho Hv.
  exists k. unfold cap, fifo_valid, zlen in *. cbn [f_in f_out f_mask f_esize f_data].
  rewrite Hd. repeat split; auto; try apply Hi; try apply Ho.
Qed.

Lemma wf_in : forall f, wf f -> u64 (f_in f).
Proof. intros f (k & H). tauto. Qed.
Lemma wf_out : forall f, wf f -> u64 (f_out f).
Proof. intros f (k & H). tauto. Qed.

Lemma u64_w64 : forall x, u64 (w64 x).
Proof. intros x. unfold u64, w64. apply Z.mod_pos_bound. lia. Qed.

Lemma w64_sub_add : forall i o n, w64 (w64 (i + n) - o) = w64 (w64 (i - o) + n).
Proof.
  intros. unfold w64. rewrite Zminus_mod_idemp_l, Zplus_mod_idemp_l. f_equal. lia.
Qed.
Lemma w64_sub_sub : forall i o n, w64 (i - w64 (o + n)) = w64 (w64 (i - o) - n).
Proof.
  intros. unfold w64. rewrite Zminus_mod_idemp_r, Zminus_mod_idemp_l. f_equal. lia.
Qed.

(** Advancing the read counter drops from the front. *)
Lemma advance_out : forall f n, wf f -> 0 <= n <= fifo_valid f ->
  let f' := set_out f (w64 (f_out f + n)) in
  wf f' /\ contents f' = skipn (Z.to_nat (n * f_esize f)) (contents f).
Proof.
  intros f n W Hn f'. pose proof (wf_cap f W) as (C & E & D & S). pose proof (wf_valid f W) as V.
  assert (V' : fifo_valid f' = fifo_valid f - n).
  { unfold fifo_valid, f'. cbn [set_out f_in f_out]. rewrite w64_sub_sub. apply w64_small.
    fold (fifo_valid f). lia. }
  assert (W' : wf f').
  { apply wf_change; auto. apply wf_in, W. apply u64_w64. change (fifo_valid f' <= cap f). lia. }
  split; [assumption|].
  unfold contents. rewrite V'. change (f_esize f') with (f_esize f). change (f_data f') with (f_data f).
  change (f_out f' mod cap f') with (w64 (f_out f + n) mod cap f).
  fold (pos f (w64 (f_out f + n))). rewrite (pos_w64 f W). rewrite (rot_pos_add f W) by (auto; lia).
  fold (pos f (f_out f)).
  set (R := rot (pos f (f_out f)) (f_data f)).
  assert (LR : length R = length (f_data f)) by apply rot_length. unfold zlen in D.
  unfold rot. rewrite firstn_app_le by (rewrite skipn_length; nia).
  replace (Z.to_nat (fifo_valid f * f_esize f))
    with (Z.to_nat (n * f_esize f) + Z.to_nat ((fifo_valid f - n) * f_esize f))%nat by nia.
  rewrite skipn_firstn_le. reflexivity.
Qed.

(** Storing [n] elements at the write position and advancing the write counter. *)
Lemma advance_in : forall f n d b, wf f -> 0 <= n -> fifo_valid f + n <= cap f ->
  length d = length (f_data f) -> length b = Z.to_nat (n * f_esize f) ->
  rot (pos f (f_in f)) d = b ++ skipn (length b) (rot (pos f (f_in f)) (f_data f)) ->
  let f' := set_in (set_data f d) (w64 (f_in f + n)) in
  wf f' /\ contents f' = contents f ++ b.
Proof.
  intros f n d b W Hn Hc Hd Hb HR f'.
  pose proof (wf_cap f W) as (C & E & D & S). pose proof (wf_valid f W) as V.
  assert (V' : fifo_valid f' = fifo_valid f + n).
  { unfold fifo_valid, f'. cbn [set_in set_data f_in f_out]. rewrite w64_sub_add. apply w64_small.
    fold (fifo_valid f). lia. }
  assert (W' : wf f').
  { apply (wf_change f); auto. apply u64_w64. apply (wf_out f), W. change (fifo_valid f' <= cap f). lia. }
  split; [assumption|].
  unfold contents. rewrite V'. change (f_esize f') with (f_esize f). change (f_data f') with d.
  change (f_out f' mod cap f') with (f_out f mod cap f).
  fold (pos f (f_out f)).
  rewrite (pos_in f W) in HR. rewrite !(rot_pos_add f W) in HR by (auto; lia).
  set (R := rot (pos f (f_out f)) (f_data f)) in *.
  set (R' := rot (pos f (f_out f)) d) in *.
  assert (LR : length R = length (f_data f)) by apply rot_length.
  assert (LR' : length R' = length (f_data f)) by (unfold R'; rewrite rot_length; assumption).
  unfold zlen in D.
  set (v := Z.to_nat (fifo_valid f * f_esize f)) in *.
  assert (Hv : (v + length b <= length (f_data f))%nat) by (unfold v; nia).
  assert (R' = firstn v R ++ b ++ skipn (v + length b) R) as ->.
  { apply rot_inj with (n := v).
    - lia.
    - rewrite !app_length, skipn_length, firstn_length. lia.
    - rewrite HR. unfold rot.
      assert (Lf : length (firstn v R) = v) by (rewrite firstn_length; lia).
      rewrite skipn_app_le by (rewrite skipn_length; lia). rewrite skipn_skipn'.
      rewrite (skipn_app_ge _ v) by lia. rewrite (firstn_app_le _ v) by lia.
      rewrite Lf, Nat.sub_diag. cbn [skipn]. rewrite firstn_firstn, Nat.min_id, <- app_assoc. reflexivity. }
  replace (Z.to_nat ((fifo_valid f + n) * f_esize f)) with (v + length b)%nat by (unfold v; nia).
  rewrite app_assoc, firstn_app_le by (rewrite app_length, firstn_length; lia).
  rewrite firstn_all2 by (rewrite app_length, firstn_length; lia). reflexivity.
Qed.

(** Overflowing store: [n] elements over the oldest ones. *)
Lemma advance_over : forall f n d b, wf f -> 0 <= n <= cap f -> cap f <= fifo_valid f + n ->
  length d = length (f_data f) -> length b = Z.to_nat (n * f_esize f) ->
  rot (pos f (f_in f)) d = b ++ skipn (length b) (rot (pos f (f_in f)) (f_data f)) ->
  let ov := fifo_valid f + n - cap f in
  let f' := set_out (set_in (set_data f d) (w64 (f_in f + n))) (w64 (f_out f + ov)) in
  wf f' /\ contents f' = skipn (Z.to_nat (ov * f_esize f)) (contents f ++ b).
Proof.
  intros f n d b W Hn Hc Hd Hb HR ov f'.
  pose proof (wf_cap f W) as (C & E & D & S). pose proof (wf_valid f W) as V.
  assert (V' : fifo_valid f' = cap f).
  { unfold fifo_valid, f'. cbn [set_in set_out set_data f_in f_out].
    rewrite w64_sub_sub, w64_sub_add. fold (fifo_valid f). unfold ov.
    rewrite (w64_small (_ + _)) by lia. rewrite w64_small by lia. lia. }
  assert (W' : wf f').
  { apply (wf_change f); auto. apply u64_w64. apply u64_w64. change (fifo_valid f' <= cap f). lia. }
  split; [assumption|].
  unfold contents. rewrite V'. change (f_esize f') with (f_esize f). change (f_data f') with d.
  change (f_out f' mod cap f') with (w64 (f_out f + ov) mod cap f).
  fold (pos f (w64 (f_out f + ov))). rewrite (pos_w64 f W).
  fold (pos f (f_out f)).
  unfold zlen in D.
  rewrite firstn_all2 by (rewrite rot_length; nia).
  assert (pos f (f_out f + ov) = pos f (f_in f + n)) as ->.
  { unfold pos. rewrite (Zplus_mod (f_in f)), (in_mod f W). unfold ov.
    rewrite <- Zplus_mod. f_equal. f_equal.
    rewrite <- (Zplus_mod_idemp_l (f_out f)).
    replace (f_out f mod cap f + (fifo_valid f + n - cap f)) with (f_out f mod cap f + fifo_valid f + n + (-1) * cap f) by lia.
    rewrite Z.mod_add by lia. reflexivity. }
  rewrite (rot_pos_add f W) by (auto; lia). rewrite HR.
  rewrite (pos_in f W). rewrite (rot_pos_add f W) by (auto; lia).
  set (R := rot (pos f (f_out f)) (f_data f)) in *.
  assert (LR : length R = length (f_data f)) by apply rot_length.
  rewrite <- Hb.
  set (v := Z.to_nat (fifo_valid f * f_esize f)) in *.
  assert (Lf : length (firstn v R) = v) by (rewrite firstn_length; unfold v; nia).
  assert (Ls : length (skipn v R) = (length (f_data f) - v)%nat) by (rewrite skipn_length; lia).
  assert (O : Z.to_nat (ov * f_esize f) = (length b - (length (f_data f) - v))%nat).
  { unfold ov, v. nia. }
  assert (O2 : (length (f_data f) - v <= length b)%nat) by (unfold v; nia).
  assert (O3 : (length b <= length (f_data f))%nat) by nia.
  unfold rot at 2. rewrite skipn_app_ge by lia. rewrite Ls, <- O.
  rewrite skipn_app_le by lia.
  unfold rot. rewrite skipn_app_ge, firstn_app_le by lia. rewrite Nat.sub_diag, firstn_all. reflexivity.
Qed.

(** One element at the write position, stored by array assignment. *)
Lemma put_store : forall f e, wf f -> zlen e = f_esize f ->
  exists d, wrn (f_data f) (Z.land (f_in f) (f_mask f) * f_esize f) e = Some d /\
    length d = length (f_data f) /\ length e = Z.to_nat (1 * f_esize f) /\
    rot (pos f (f_in f)) d = e ++ skipn (length e) (rot (pos f (f_in f)) (f_data f)).
Proof.
  intros f e W He. pose proof (wf_cap f W) as (C & E & D & S).
  rewrite (wf_land f W). pose proof (Z.mod_pos_bound (f_in f) (cap f) ltac:(lia)) as Ho.
  rewrite wrn_some by nia. fold (pos f (f_in f)).
  pose proof (pos_bound f W (f_in f)) as P.
  assert (P' : (pos f (f_in f) + length e <= length (f_data f))%nat).
  { unfold pos, zlen in *. nia. }
  set (p := pos f (f_in f)) in *.
  assert (Lf : length (firstn p (f_data f)) = p) by (rewrite firstn_length; lia).
  eexists. split; [reflexivity|]. split.
  { rewrite !app_length, skipn_length. lia. }
  split. { unfold zlen in He. lia. }
  unfold rot. rewrite skipn_app_ge, firstn_app_le by lia. rewrite Lf, Nat.sub_diag. cbn [skipn].
  rewrite firstn_firstn, Nat.min_id.
  rewrite skipn_app_le by (rewrite skipn_length; lia). rewrite skipn_skipn', <- app_assoc. reflexivity.
Qed.

(** The element at the read position is the head of the contents. *)
Lemma head_element : forall f, wf f -> fifo_valid f <> 0 ->
  rdn (f_data f) (Z.land (f_out f) (f_mask f) * f_esize f) (f_esize f) =
  Some (take (f_esize f) (contents f)).
Proof.
  intros f W Hv. pose proof (wf_cap f W) as (C & E & D & S). pose proof (wf_valid f W) as V.
  rewrite (wf_land f W). pose proof (Z.mod_pos_bound (f_out f) (cap f) ltac:(lia)) as Ho.
  rewrite rdn_some by nia. f_equal. unfold take, contents. rewrite firstn_firstn.
  rewrite Nat.min_l by nia. unfold rot. rewrite firstn_app_le; [reflexivity|].
  rewrite skipn_length. unfold zlen in D. nia.
Qed.

(** Concrete steps. *)
Definition fifo_step (ring : bool) (f : fifo) (o : op) : option ((Z * list Z) * fifo) :=
  match o with
  | OIn src len =>
    let* (n, f') := (if ring then ringbuf_in_flat f src len else fifo_in_flat f src len) in
    Some ((n, []), f')
  | OOut len => let* (n, b, f') := fifo_out_flat f len in Some ((n, b), f')
  | OPeek len => let* (n, b) := fifo_peek_flat f len in Some ((n, b), f)
  | OPut e =>
    let* (r, f') := (if ring then ringbuf_put f e else fifo_put f e) in Some ((b2z r, []), f')
  | OGet => let* (r, e, f') := fifo_get f in Some ((b2z r, e), f')
  | OPeek1 => let* (r, e) := fifo_peek_one f in Some ((b2z r, e), f)
  | OReset => Some ((0, []), fifo_reset f)
  | OHoming => Some ((0, []), fifo_homing f)
  | OLen => Some ((fifo_len f, []), f)
  | OEmpty => Some ((b2z (fifo_check_empty f), []), f)
  | OFull => Some ((b2z (fifo_check_full f), []), f)
  end.

Fixpoint fifo_run (ring : bool) (f : fifo) (ops : list op) : option (list (Z * list Z) * fifo) :=
  match ops with
  | [] => Some ([], f)
  | o :: ops' =>
    let* (r, f') := fifo_step ring f o in
    let* (rs, f'') := fifo_run ring f' ops' in Some (r :: rs, f'')
  end.

Definition spec_step (ring : bool) (es cp : Z) := if ring then ring_step es cp else queue_step es cp.

Lemma check_empty_valid : forall f, wf f -> fifo_check_empty f = (fifo_valid f =? 0).
Proof.
  intros f (k & _ & _ & _ & _ & _ & Hi & Ho & _). unfold fifo_check_empty, fifo_valid, w64, u64 in *.
  destruct (Z.eqb_spec (f_in f) (f_out f)) as [->|].
  - rewrite Z.sub_diag. reflexivity.
  - symmetry. apply Z.eqb_neq. intros H. apply Z.mod_divide in H; [|lia]. destruct H as [z Hz]. lia.
Qed.

Lemma check_full_valid : forall f, wf f -> fifo_check_full f = (fifo_valid f =? cap f).
Proof.
  intros f W. pose proof (wf_valid f W). unfold fifo_check_full. change (fifo_len f) with (fifo_valid f).
  unfold cap in *. destruct (Z.eqb_spec (fifo_valid f) (f_mask f + 1)) as [->|].
  - apply Z.gtb_lt. lia.
  - rewrite Z.gtb_ltb. apply Z.ltb_ge. lia.
Qed.

Lemma empty_contents : forall f i d, wf f -> length d = length (f_data f) -> u64 i ->
  let f' := {| f_in := i; f_out := i; f_mask := f_mask f; f_esize := f_esize f; f_data := d |} in
  wf f' /\ contents f' = [].
Proof.
  intros f i d W Hd Hi f'. pose proof (wf_cap f W).
  assert (w64 (i - i) = 0) by (rewrite Z.sub_diag; reflexivity).
  split. { apply wf_change; auto. lia. }
  unfold contents, fifo_valid, f'. cbn [f_in f_out f_esize]. rewrite H0. reflexivity.
Qed.

Ltac inv_pair H := injection H as <- <-.

Lemma step_refines : forall ring f o, wf f -> op_ok (f_esize f) o ->
  exists f', fifo_step ring f o =
               Some (fst (spec_step ring (f_esize f) (cap f) (contents f) o), f') /\
    wf f' /\ f_esize f' = f_esize f /\ cap f' = cap f /\
    contents f' = snd (spec_step ring (f_esize f) (cap f) (contents f) o).
Proof.
  intros ring f o W Hok.
  pose proof (wf_cap f W) as (C & E & D & S). pose proof (wf_valid f W) as V.
  pose proof (pending_contents f W) as HP. pose proof (contents_length f W) as HL.
  assert (PK : forall len, 0 <= len < 2 ^ 64 ->
    fifo_peek_flat f len = Some (Z.min len (fifo_valid f),
       take (Z.min len (fifo_valid f) * f_esize f) (contents f))).
  { intros len Hl. unfold fifo_peek_flat. rewrite (out_copy_wf f W) by lia.
    f_equal. f_equal. unfold take, contents. rewrite firstn_firstn. f_equal. nia. }
  assert (CO : forall o', match o' with OIn _ _ | OPut _ => False | _ => True end -> op_ok (f_esize f) o' ->
    exists f', fifo_step ring f o' = Some (fst (common_step (f_esize f) (cap f) (contents f) o'), f') /\
    wf f' /\ f_esize f' = f_esize f /\ cap f' = cap f /\
    contents f' = snd (common_step (f_esize f) (cap f) (contents f) o')).
  { intros o' Hc Hok'. destruct o' as [src len|len|len|e| | | | | | |]; try contradiction; cbn [fifo_step common_step op_ok] in *.
    - unfold fifo_out_flat. rewrite PK by assumption. rewrite HP. cbn [fst snd].
      destruct (advance_out f (Z.min len (fifo_valid f)) W ltac:(lia)) as [W' C'].
      eexists. split; [reflexivity|]. split; [exact W'|]. split; [reflexivity|]. split; [reflexivity|]. exact C'.
    - rewrite PK by assumption. rewrite HP. cbn [fst snd].
      eexists. split; [reflexivity|]. repeat split; auto.
    - unfold fifo_get, fifo_peek_one. rewrite check_empty_valid, HP by assumption.
      destruct (Z.eqb_spec (fifo_valid f) 0).
      + cbn [fst snd]. eexists. split; [reflexivity|]. repeat split; auto.
      + rewrite head_element by assumption. cbn [fst snd].
        destruct (advance_out f 1 W ltac:(lia)) as [W' C'].
        eexists. split; [reflexivity|]. split; [exact W'|]. split; [reflexivity|]. split; [reflexivity|].
        rewrite C', Z.mul_1_l. reflexivity.
    - unfold fifo_peek_one. rewrite check_empty_valid, HP by assumption.
      destruct (Z.eqb_spec (fifo_valid f) 0).
      + cbn [fst snd]. eexists. split; [reflexivity|]. repeat split; auto.
      + rewrite head_element by assumption. cbn [fst snd].
        eexists. split; [reflexivity|]. repeat split; auto.
    - destruct (empty_contents f 0 (f_data f) W eq_refl ltac:(unfold u64; lia)) as [W' C'].
      eexists. split; [reflexivity|]. split; [exact W'|]. split; [reflexivity|]. split; [reflexivity|]. exact C'.
    - destruct (empty_contents f (f_in f) (f_data f) W eq_refl (wf_in f W)) as [W' C'].
      eexists. split; [reflexivity|]. split; [exact W'|]. split; [reflexivity|]. split; [reflexivity|]. exact C'.
    - rewrite HP. cbn [fst snd]. eexists. split; [reflexivity|]. repeat split; auto.
    - rewrite HP, check_empty_valid by assumption. cbn [fst snd].
      eexists. split; [reflexivity|]. repeat split; auto.
    - rewrite HP, check_full_valid by assumption. cbn [fst snd].
      eexists. split; [reflexivity|]. repeat split; auto. }
  destruct o as [src len|len|len|e| | | | | | |];
    try (match type of Hok with op_ok _ ?o0 => destruct ring; exact (CO o0 I Hok) end).
  - cbn [op_ok] in Hok. destruct Hok as [Hl Hsrc]. destruct ring; cbn [spec_step queue_step ring_step fifo_step].
    + unfold ringbuf_in_flat. fold (cap f). rewrite (w64_small (cap f)) by lia.
      set (n := Z.min len (cap f)). assert (0 <= n <= cap f) by lia.
      destruct (in_copy_wf f W src n (f_in f) ltac:(assumption) ltac:(nia)) as (d & -> & Hd & HR).
      cbv zeta in HR. fold (pos f (f_in f)) in HR.
      set (b := firstn (Z.to_nat (n * f_esize f)) src) in *.
      assert (Hb : length b = Z.to_nat (n * f_esize f)).
      { unfold b. rewrite firstn_length. unfold zlen in Hsrc. nia. }
      rewrite <- Hb in HR.
      change (f_in (set_data f d)) with (f_in f).
      unfold ringbuf_overflow. cbn [set_in set_data f_in f_out f_mask].
      fold (cap f). rewrite (w64_small (cap f)) by lia. rewrite w64_sub_add. fold (fifo_valid f).
      rewrite (w64_small (_ + _)) by lia.
      rewrite Z.gtb_ltb. unfold newest. change (take (n * f_esize f) src) with b.
      assert (zlen (contents f ++ b) = (fifo_valid f + n) * f_esize f).
      { rewrite zlen_app, HL. unfold zlen. rewrite Hb. nia. }
      cbn [fst snd].
      destruct (Z.ltb_spec (cap f) (fifo_valid f + n)).
      * replace (fifo_valid f + n - cap f =? 0) with false by (symmetry; apply Z.eqb_neq; lia).
        destruct (advance_over f n d b W ltac:(lia) ltac:(lia) Hd Hb HR) as [W' C'].
        eexists. split; [reflexivity|]. split; [exact W'|]. split; [reflexivity|]. split; [reflexivity|].
        rewrite C'. rewrite H0. unfold drop. f_equal. f_equal. nia.
      * cbn [Z.eqb].
        destruct (advance_in f n d b W ltac:(lia) ltac:(lia) Hd Hb HR) as [W' C'].
        eexists. split; [reflexivity|]. split; [exact W'|]. split; [reflexivity|]. split; [reflexivity|].
        rewrite C', H0. unfold drop.
        replace (Z.to_nat ((fifo_valid f + n) * f_esize f - cap f * f_esize f)) with O by nia. reflexivity.
    + unfold fifo_in_flat. rewrite (wf_unused f W), HP.
      set (n := Z.min len (cap f - fifo_valid f)). assert (0 <= n <= cap f) by lia.
      destruct (in_copy_wf f W src n (f_in f) ltac:(assumption) ltac:(nia)) as (d & -> & Hd & HR).
      cbv zeta in HR. fold (pos f (f_in f)) in HR.
      set (b := firstn (Z.to_nat (n * f_esize f)) src) in *.
      assert (Hb : length b = Z.to_nat (n * f_esize f)).
      { unfold b. rewrite firstn_length. unfold zlen in Hsrc. nia. }
      rewrite <- Hb in HR. cbn [fst snd].
      change (f_in (set_data f d)) with (f_in f).
      destruct (advance_in f n d b W ltac:(lia) ltac:(lia) Hd Hb HR) as [W' C'].
      eexists. split; [reflexivity|]. split; [exact W'|]. split; [reflexivity|]. split; [reflexivity|]. exact C'.
  - cbn [op_ok] in Hok. destruct (put_store f e W Hok) as (d & Hw & Hd & Hb & HR).
    destruct ring; cbn [spec_step queue_step ring_step fifo_step].
    + unfold ringbuf_put. rewrite check_full_valid, HP by assumption.
      unfold newest. rewrite zlen_app, HL, Hok.
      destruct (Z.eqb_spec (fifo_valid f) (cap f)) as [Ev|Ev].
      * cbn [set_out f_data f_in f_mask f_esize]. rewrite Hw. cbn [fst snd].
        destruct (advance_over f 1 d e W ltac:(lia) ltac:(lia) Hd Hb HR) as [W' C'].
        replace (fifo_valid f + 1 - cap f) with 1 in * by lia.
        eexists. split; [reflexivity|]. split; [exact W'|]. split; [reflexivity|]. split; [reflexivity|].
        etransitivity; [exact C'|]. unfold drop. f_equal. f_equal. nia.
      * rewrite Hw. cbn [fst snd].
        destruct (advance_in f 1 d e W ltac:(lia) ltac:(lia) Hd Hb HR) as [W' C'].
        eexists. split; [reflexivity|]. split; [exact W'|]. split; [reflexivity|]. split; [reflexivity|].
        rewrite C'. unfold drop.
        replace (Z.to_nat (fifo_valid f * f_esize f + f_esize f - cap f * f_esize f)) with O by nia. reflexivity.
    + unfold fifo_put. rewrite check_full_valid, HP by assumption.
      destruct (Z.eqb_spec (fifo_valid f) (cap f)) as [Ev|Ev].
      * cbn [fst snd]. eexists. split; [reflexivity|]. repeat split; auto.
      * rewrite Hw. cbn [fst snd].
        destruct (advance_in f 1 d e W ltac:(lia) ltac:(lia) Hd Hb HR) as [W' C'].
        eexists. split; [reflexivity|]. split; [exact W'|]. split; [reflexivity|]. split; [reflexivity|]. exact C'.
Qed.

Lemma run_refines : forall ring ops f, wf f -> Forall (op_ok (f_esize f)) ops ->
  exists f', fifo_run ring f ops =
      Some (fst (arun (spec_step ring (f_esize f) (cap f)) (contents f) ops), f') /\ wf f' /\
    contents f' = snd (arun (spec_step ring (f_esize f) (cap f)) (contents f) ops).
Proof.
  intros ring ops. induction ops as [|o ops IH]; intros f W H.
  - exists f. cbn. auto.
  - inversion H; subst. cbn [fifo_run arun].
    destruct (step_refines ring f o W H2) as (f1 & E1 & W1 & Es & Ec & C1).
    rewrite E1. destruct (spec_step ring (f_esize f) (cap f) (contents f) o) as [r q'] eqn:ES.
    cbn [fst snd] in *.
    rewrite <- Es in H3. destruct (IH f1 W1 H3) as (f2 & E2 & W2 & C2).
    rewrite E2. rewrite Es, Ec, C1 in *. destruct (arun _ q' ops) as [rs q''] eqn:ER.
    cbn [fst snd] in *. exists f2. auto.
Qed.
