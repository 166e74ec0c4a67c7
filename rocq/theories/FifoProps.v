(** * Properties C08 - C11: FIFO and ring buffer *)
From Verif Require Import Lib Mem FifoModel FifoSpec FifoProofs.

(** C08. Every sequence of flat FIFO calls, from every well-formed state (any counter
    values, so including the wrap at 2^64), returns exactly what a bounded queue of
    [cap] elements of [esize] bytes returns, and never leaves the element buffer or the
    caller's buffer (the run is [Some]). *)
Theorem C08_fifo_is_bounded_queue : forall f ops,
  wf f -> Forall (op_ok (f_esize f)) ops ->
  exists f', fifo_run false f ops =
      Some (fst (arun (queue_step (f_esize f) (cap f)) (contents f) ops), f') /\
    wf f' /\ contents f' = snd (arun (queue_step (f_esize f) (cap f)) (contents f) ops).
Proof. intros. apply (run_refines false); assumption. Qed.

(** A freshly initialised FIFO (both counters equal) is the empty queue, whatever the
    counter value and the buffer contents. *)
Theorem C08_fresh : forall k c es d, 0 <= k -> u64 c -> 1 <= es ->
  zlen d = 2 ^ k * es -> zlen d < 2 ^ 63 ->
  let f := {| f_in := c; f_out := c; f_mask := 2 ^ k - 1; f_esize := es; f_data := d |} in
  wf f /\ contents f = [] /\ cap f = 2 ^ k.
Proof.
  intros k c es d Hk Hc He Hd Hs f.
  assert (V : fifo_valid f = 0) by (unfold fifo_valid, f; cbn; rewrite Z.sub_diag; reflexivity).
  pose proof (Z.pow_pos_nonneg 2 k ltac:(lia) Hk).
  assert (Cp : cap f = 2 ^ k) by (unfold cap, f; cbn [f_mask]; lia).
  split; [|split; [|exact Cp]].
  - exists k. rewrite V, Cp. unfold f. cbn [f_mask f_esize f_data f_in f_out].
    repeat split; auto; try apply Hc. lia.
  - unfold contents. rewrite V. reflexivity.
Qed.

(** The queue written is the queue read: the concatenation of what [OIn] accepted equals
    what [OOut] delivers followed by the final contents. *)
Fixpoint accepted (es : Z) (ops : list op) (rs : list (Z * list Z)) : list Z :=
  match ops, rs with
  | OIn src _ :: ops', (n, _) :: rs' => take (n * es) src ++ accepted es ops' rs'
  | OPut e :: ops', (n, _) :: rs' => (if n =? 0 then [] else e) ++ accepted es ops' rs'
  | _ :: ops', _ :: rs' => accepted es ops' rs'
  | _, _ => []
  end.
Fixpoint delivered (ops : list op) (rs : list (Z * list Z)) : list Z :=
  match ops, rs with
  | OOut _ :: ops', (_, b) :: rs' => b ++ delivered ops' rs'
  | OGet :: ops', (_, b) :: rs' => b ++ delivered ops' rs'
  | _ :: ops', _ :: rs' => delivered ops' rs'
  | _, _ => []
  end.
Definition no_discard (o : op) : Prop := match o with OReset | OHoming => False | _ => True end.

Lemma queue_stream : forall es cp ops q, Forall no_discard ops ->
  let (rs, q') := arun (queue_step es cp) q ops in
  q ++ accepted es ops rs = delivered ops rs ++ q'.
Proof.
  intros es cp ops. induction ops as [|o ops IH]; intros q H.
  - cbn. apply app_nil_r.
  - inversion H; subst. cbn [arun].
    destruct (queue_step es cp q o) as [r q1] eqn:E. specialize (IH q1 H3).
    destruct (arun (queue_step es cp) q1 ops) as [rs q'].
    destruct r as [n b].
    destruct o as [src len|len|len|e| | | | | | |]; cbn [queue_step common_step] in E; cbn [accepted delivered];
      try contradiction.
    + injection E as <- <- <-. rewrite app_assoc. exact IH.
    + injection E as <- <- <-. unfold take, drop in *. rewrite <- app_assoc, <- IH, app_assoc, firstn_skipn. reflexivity.
    + injection E as <- <- <-. exact IH.
    + destruct (pending es q =? cp); injection E as <- <- <-; cbn [Z.eqb app]; [exact IH|].
      rewrite app_assoc. exact IH.
    + destruct (pending es q =? 0); injection E as <- <- <-; [exact IH|].
      unfold take, drop in *. rewrite <- app_assoc, <- IH, app_assoc, firstn_skipn. reflexivity.
    + destruct (pending es q =? 0); injection E as <- <- <-; exact IH.
    + injection E as <- <- <-. exact IH.
    + injection E as <- <- <-. exact IH.
    + injection E as <- <- <-. exact IH.
Qed.

Theorem C08_fifo_order : forall f ops,
  wf f -> Forall (op_ok (f_esize f)) ops -> Forall no_discard ops ->
  exists rs f', fifo_run false f ops = Some (rs, f') /\
    contents f ++ accepted (f_esize f) ops rs = delivered ops rs ++ contents f'.
Proof.
  intros f ops W H N. destruct (C08_fifo_is_bounded_queue f ops W H) as (f' & E & _ & C).
  exists (fst (arun (queue_step (f_esize f) (cap f)) (contents f) ops)), f'. split; [exact E|].
  rewrite C. pose proof (queue_stream (f_esize f) (cap f) ops (contents f) N) as Q.
  destruct (arun (queue_step (f_esize f) (cap f)) (contents f) ops). exact Q.
Qed.

Definition f4 (c : Z) : fifo :=
  {| f_in := c; f_out := c; f_mask := 3; f_esize := 2; f_data := repeat 0 8 |}.

(** Counters start two below 2^64 and wrap; five elements offered, four accepted. *)
Example C08_case :
  wf (f4 (2 ^ 64 - 2)) /\
  fifo_run false (f4 (2 ^ 64 - 2))
    [OIn [1;2;3;4;5;6;7;8;9;10] 5; OFull; OOut 1; OPut [11;12]; OOut 9; OEmpty] =
  Some ([(4, []); (1, []); (1, [1;2]); (1, []); (4, [3;4;5;6;7;8;11;12]); (1, [])],
        {| f_in := 3; f_out := 3; f_mask := 3; f_esize := 2; f_data := [5;6;7;8;11;12;3;4] |}).
Proof.
  split; [|vm_compute; reflexivity].
  exists 2. unfold u64. vm_compute. intuition congruence.
Qed.

(** C10. Every sequence of flat ring-buffer calls behaves as the overwriting ring: writes
    always succeed (up to [cap] elements per call) and exactly the newest [cap]
    elements remain. *)
Theorem C10_ringbuf_keeps_newest : forall f ops,
  wf f -> Forall (op_ok (f_esize f)) ops ->
  exists f', fifo_run true f ops =
      Some (fst (arun (ring_step (f_esize f) (cap f)) (contents f) ops), f') /\
    wf f' /\ contents f' = snd (arun (ring_step (f_esize f) (cap f)) (contents f) ops).
Proof. intros. apply (run_refines true); assumption. Qed.

Example C10_case :
  wf (f4 (2 ^ 64 - 2)) /\
  fifo_run true (f4 (2 ^ 64 - 2))
    [OIn [1;2;3;4;5;6] 3; OIn [7;8;9;10;11;12] 3; OLen; OPut [13;14]; OOut 9] =
  Some ([(3, []); (3, []); (4, []); (1, []); (4, [7;8;9;10;11;12;13;14])],
        {| f_in := 5; f_out := 5; f_mask := 3; f_esize := 2; f_data := [13;14;7;8;9;10;11;12] |}).
Proof.
  split; [|vm_compute; reflexivity].
  exists 2. unfold u64. vm_compute. intuition congruence.
Qed.

(** The statement of the ring spelled out for one write: the pending bytes are the last
    bytes of (old pending ++ written). *)
Theorem C10_in_suffix : forall f src len, wf f ->
  0 <= len < 2 ^ 64 -> len * f_esize f <= zlen src ->
  exists f', ringbuf_in_flat f src len = Some (Z.min len (cap f), f') /\ wf f' /\
    exists dropped, contents f ++ take (Z.min len (cap f) * f_esize f) src = dropped ++ contents f' /\
      zlen (contents f') = Z.min (cap f * f_esize f)
                             (zlen (contents f) + Z.min len (cap f) * f_esize f).
Proof.
  intros f src len W Hl Hs.
  destruct (step_refines true f (OIn src len) W ltac:(cbn; auto)) as (f' & E & W' & _ & _ & C).
  cbn [fifo_step spec_step ring_step fst snd] in E, C.
  destruct (ringbuf_in_flat f src len) as [[n g]|]; [|discriminate].
  injection E as -> ->. exists f'. split; [reflexivity|]. split; [assumption|].
  exists (firstn (Z.to_nat (zlen (contents f ++ take (Z.min len (cap f) * f_esize f) src) - cap f * f_esize f))
            (contents f ++ take (Z.min len (cap f) * f_esize f) src)).
  rewrite C. unfold newest, drop. rewrite firstn_skipn. split; [reflexivity|].
  pose proof (wf_cap f W) as (C1 & E1 & D1 & S1).
  rewrite (zlen_app _ _). unfold zlen at 1. rewrite skipn_length, app_length.
  unfold take. unfold zlen in *. rewrite !firstn_length.
  replace (Nat.min (Z.to_nat (Z.min len (cap f) * f_esize f)) (length src))
    with (Z.to_nat (Z.min len (cap f) * f_esize f)) by nia.
  nia.
Qed.
Example C10_suffix_case :
  wf (f4 7) /\ ringbuf_in_flat (f4 7) [1;2;3;4;5;6;7;8;9;10] 5 =
    Some (4, {| f_in := 11; f_out := 7; f_mask := 3; f_esize := 2; f_data := [3;4;5;6;7;8;1;2] |}).
Proof.
  split; [|vm_compute; reflexivity]. exists 2. unfold u64. vm_compute. intuition congruence.
Qed.

(** C09: record mode is broken for record headers of two or more bytes (the length is
    stored little-endian and read big-endian) ... *)
Definition f8 : fifo :=
  {| f_in := 0; f_out := 0; f_mask := 7; f_esize := 1; f_data := repeat 0 8 |}.

Theorem C09_record_roundtrip_refuted : exists f buff len record n m f1 f2 r,
  wf f /\ fifo_empty f = true /\ len <= zlen buff /\ len <= n /\
  fifo_in_record f buff len record = Some (len, f1) /\
  fifo_out_record f1 n record = Some (m, r, f2) /\ m <> len.
Proof.
  exists f8, [65], 1, 2, 8, 8.
  exists {| f_in := 3; f_out := 0; f_mask := 7; f_esize := 1; f_data := [1;0;65;0;0;0;0;0] |}.
  exists {| f_in := 3; f_out := 258; f_mask := 7; f_esize := 1; f_data := [1;0;65;0;0;0;0;0] |}.
  exists [65;0;0;0;0;0;1;0].
  split; [exists 3; unfold u64; vm_compute; intuition congruence|].
  vm_compute. repeat split; congruence.
Qed.

(** ... and for a second record, because the header of every record is stored at the read
    position: the second write overwrites the length of the first record. *)
Theorem C09_second_record_refuted : exists f a b f1 f2 f3 r m,
  wf f /\ fifo_empty f = true /\
  fifo_in_record f a (zlen a) 1 = Some (zlen a, f1) /\
  fifo_in_record f1 b (zlen b) 1 = Some (zlen b, f2) /\
  fifo_out_record f2 8 1 = Some (m, r, f3) /\ r <> a.
Proof.
  exists f8, [65], [66;67].
  exists {| f_in := 2; f_out := 0; f_mask := 7; f_esize := 1; f_data := [1;65;0;0;0;0;0;0] |}.
  exists {| f_in := 5; f_out := 0; f_mask := 7; f_esize := 1; f_data := [2;65;0;66;67;0;0;0] |}.
  exists {| f_in := 5; f_out := 3; f_mask := 7; f_esize := 1; f_data := [2;65;0;66;67;0;0;0] |}.
  exists [65;0], 2.
  split; [exists 3; unfold u64; vm_compute; intuition congruence|].
  vm_compute. repeat split; congruence.
Qed.

Lemma wr_list : forall A (l : list A) i v, 0 <= i < zlen l ->
  wr l i v = Some (firstn (Z.to_nat i) l ++ v :: skipn (Z.to_nat i + 1) l).
Proof.
  intros A l i v H. unfold zlen in H.
  destruct (nth_error l (Z.to_nat i)) as [x|] eqn:E; [|apply nth_error_None in E; lia].
  apply nth_error_split in E. destruct E as (p & q & -> & Hp).
  rewrite (wr_app_len _ p x q) by (unfold zlen; lia).
  rewrite <- Hp, firstn_app_le, firstn_all by lia.
  rewrite skipn_app_ge by lia. replace (length p + 1 - length p)%nat with 1%nat by lia. reflexivity.
Qed.

Lemma rd_rot : forall (l : list Z) i x t, 0 <= i < zlen l -> rot (Z.to_nat i) l = x :: t -> rd l i = Some x.
Proof.
  intros l i x t Hi H. unfold rot, zlen in *.
  unfold rd. destruct (Z.ltb_spec i 0); [lia|].
  rewrite <- (firstn_skipn (Z.to_nat i) l).
  assert (L : length (firstn (Z.to_nat i) l) = Z.to_nat i) by (rewrite firstn_length; lia).
  rewrite nth_error_app2 by lia. rewrite L, Nat.sub_diag.
  destruct (skipn (Z.to_nat i) l) as [|y s] eqn:E.
  - assert (length (skipn (Z.to_nat i) l) = O) by (rewrite E; reflexivity).
    rewrite skipn_length in H1. lia.
  - cbn in *. injection H as -> _. reflexivity.
Qed.

(** What does hold: with one-byte elements and a one-byte header, a record of at most 255
    bytes put into an empty FIFO comes back unchanged and leaves the FIFO empty.
    Missing for the full claim: longer headers and non-empty FIFOs (refuted above). *)
Theorem C09_record_roundtrip_partial : forall f buff len n,
  wf f -> f_esize f = 1 -> fifo_empty f = true ->
  0 <= len <= 255 -> len + 1 <= cap f -> len <= zlen buff -> len <= n < 2 ^ 64 ->
  exists f1 f2, fifo_in_record f buff len 1 = Some (len, f1) /\
    fifo_out_record f1 n 1 = Some (len, take len buff, f2) /\ fifo_empty f2 = true.
Proof.
  intros f buff len n W He Hemp Hl Hc Hb Hn.
  pose proof (wf_cap f W) as (C & E & D & S). rewrite He, Z.mul_1_r in *.
  unfold fifo_empty in Hemp. apply Z.eqb_eq in Hemp.
  assert (V : fifo_valid f = 0) by (unfold fifo_valid; rewrite Hemp, Z.sub_diag; reflexivity).
  unfold fifo_in_record. rewrite (wf_unused f W), V, Z.sub_0_r.
  rewrite (w64_small (len + 1)) by lia.
  rewrite Z.gtb_ltb. replace (cap f <? len + 1) with false by (symmetry; apply Z.ltb_ge; lia).
  unfold fifo_record_poke, record_scale. rewrite He. cbn [Z.eqb Pos.eqb]. change (Z.to_nat 1) with 1%nat.
  cbn [record_poke_loop].
  rewrite (wf_land f W). pose proof (Z.mod_pos_bound (f_out f) (cap f) ltac:(lia)) as Ho.
  rewrite wr_list by lia.
  set (p := f_out f mod cap f) in *. set (d1 := firstn _ _ ++ _ :: _).
  assert (w8 len = len) as W8 by (unfold w8; apply Z.mod_small; lia).
  assert (Ld1 : length d1 = length (f_data f)).
  { unfold d1, zlen in *. rewrite app_length. cbn [length]. rewrite firstn_length, skipn_length. lia. }
  set (f1 := set_data f d1).
  assert (W1 : wf f1). { apply (wf_change f); auto. apply wf_in, W. apply wf_out, W. change (fifo_valid f <= cap f). lia. }
  assert (C1 : cap f1 = cap f) by reflexivity.
  destruct (in_copy_wf f1 W1 buff len (w64 (f_in f1 + 1)) ltac:(lia)) as (d2 & E2 & L2 & R2).
  { change (f_esize f1) with (f_esize f). lia. }
  rewrite E2. cbv zeta in R2. change (f_esize f1) with (f_esize f) in R2. rewrite He, !Z.mul_1_r in R2.
  change (f_in f1) with (f_in f) in R2. rewrite (mod_w64 f1 W1), C1 in R2.
  change (f_data f1) with d1 in R2, L2.
  assert (R1 : rot (Z.to_nat p) d1 = len :: skipn 1 (rot (Z.to_nat p) (f_data f))).
  { unfold rot, d1. rewrite W8.
    assert (L : length (firstn (Z.to_nat p) (f_data f)) = Z.to_nat p) by (rewrite firstn_length; unfold zlen in *; lia).
    rewrite (skipn_app_le _ 1) by (rewrite skipn_length; unfold zlen in *; lia). rewrite skipn_skipn'.
    rewrite skipn_app_ge, firstn_app_le, L, Nat.sub_diag by lia.
    rewrite firstn_firstn, Nat.min_id. reflexivity. }
  set (R' := skipn 1 (rot (Z.to_nat p) (f_data f))) in *.
  assert (LR' : Z.of_nat (length R') = cap f - 1).
  { unfold R'. rewrite skipn_length, rot_length. unfold zlen in *. lia. }
  assert (P1 : forall d : list Z, length d = length (f_data f) ->
     rot (Z.to_nat ((f_in f + 1) mod cap f)) d = rot 1 (rot (Z.to_nat p) d)).
  { intros d Hd. pose proof (rot_pos_add f W (f_out f) 1 d Hd ltac:(lia)) as Q. unfold pos in Q.
    rewrite He, !Z.mul_1_r in Q. rewrite Hemp. exact Q. }
  rewrite !P1 in R2 by congruence. rewrite R1 in R2.
  assert (Rd2 : rot (Z.to_nat p) d2 = len :: take len buff ++ skipn (Z.to_nat len) R').
  { apply rot_inj with (n := 1%nat).
    - rewrite rot_length, L2, Ld1. unfold zlen in *. lia.
    - rewrite rot_length. cbn [length]. rewrite app_length, skipn_length. unfold take. rewrite firstn_length.
      unfold zlen in *. lia.
    - rewrite R2. unfold rot. cbn [skipn firstn]. unfold take.
      rewrite skipn_app_le by lia. rewrite app_assoc. reflexivity. }
  set (f2 := set_in (set_data f1 d2) (w64 (f_in (set_data f1 d2) + (len + 1)))).
  assert (W2 : wf (set_data f1 d2)).
  { apply (wf_change f1); auto. apply wf_in, W1. apply wf_out, W1. change (fifo_valid f <= cap f). lia. }
  exists f2.
  assert (Hin2 : f_in f2 = w64 (f_out f + (len + 1))).
  { unfold f2. cbn [set_in set_data f_in f1]. rewrite Hemp. reflexivity. }
  assert (Hout2 : f_out f2 = f_out f) by reflexivity.
  pose proof (wf_out f W) as UO. unfold u64 in UO.
  assert (Hne : fifo_empty f2 = false).
  { unfold fifo_empty. rewrite Hin2, Hout2. apply Z.eqb_neq. unfold w64.
    intros Q. destruct (Z_lt_dec (f_out f + (len + 1)) (2 ^ 64)).
    - rewrite Z.mod_small in Q by lia. lia.
    - assert ((f_out f + (len + 1)) mod 2 ^ 64 = f_out f + (len + 1) - 2 ^ 64).
      { symmetry. apply Z.mod_unique with (q := 1); lia. } lia. }
  unfold fifo_out_record. rewrite Hne.
  assert (PK : fifo_record_peek f2 1 = Some len).
  { unfold fifo_record_peek, record_scale. change (f_esize f2) with (f_esize f). rewrite He.
    cbn [Z.eqb Pos.eqb]. change (Z.to_nat 1) with 1%nat. cbn [record_peek_loop].
    change (f_mask f2) with (f_mask f). rewrite (wf_land f W). change (f_out f2 mod cap f) with p.
    change (f_data f2) with d2. rewrite (rd_rot d2 p len _ ltac:(unfold zlen in *; lia) Rd2).
    reflexivity. }
  rewrite PK. rewrite Z.min_r by lia.
  change (out_copy f2 len (w64 (f_out f2 + 1))) with (out_copy (set_data f1 d2) len (w64 (f_out f2 + 1))).
  rewrite (out_copy_wf _ W2) by (change (cap (set_data f1 d2)) with (cap f); lia).
  change (f_esize (set_data f1 d2)) with (f_esize f). rewrite He, !Z.mul_1_r.
  rewrite (mod_w64 _ W2). change (cap (set_data f1 d2)) with (cap f). rewrite Hout2, <- Hemp.
  change (f_data (set_data f1 d2)) with d2. rewrite P1 by congruence. rewrite Rd2.
  unfold rot. cbn [skipn firstn]. rewrite <- app_assoc.
  assert (LT : length (take len buff) = Z.to_nat len).
  { unfold take. rewrite firstn_length. unfold zlen in *. lia. }
  rewrite firstn_app_le, firstn_all2 by lia.
  eexists. split; [reflexivity|]. split; [reflexivity|].
  unfold fifo_empty. cbn [set_out f_in f_out]. rewrite Hin2, Hemp. apply Z.eqb_refl.
Qed.

Example C09_case : wf f8 /\ (let* (n, f1) := fifo_in_record f8 [65;66;67] 3 1 in
  let* (m, r, f2) := fifo_out_record f1 8 1 in Some (n, m, r, fifo_empty f2)) = Some (3, 3, [65;66;67], true).
Proof. split; [exists 3; unfold u64; vm_compute; intuition congruence|reflexivity]. Qed.

(** C11 *)
Lemma pow2_roundup_spec : forall n, 2 <= n <= 2 ^ 63 -> exists k, 1 <= k <= 63 /\
  pow2_roundup n = Some (2 ^ k) /\ n <= 2 ^ k < 2 * n.
Proof.
  intros n Hn. unfold pow2_roundup. destruct (Z.ltb_spec n 2); [lia|].
  pose proof (Z.log2_nonneg (n - 1)). pose proof (Z.log2_spec (n - 1) ltac:(lia)) as L.
  assert (Z.log2 (n - 1) < 63) by (apply Z.log2_lt_pow2; lia).
  exists (Z.log2 (n - 1) + 1). split; [lia|].
  rewrite Z.geb_leb. destruct (Z.leb_spec 64 (Z.log2 (n - 1) + 1)); [lia|].
  rewrite Z.shiftl_mul_pow2 by lia. rewrite Z.mul_1_l. split; [reflexivity|].
  replace (2 ^ (Z.log2 (n - 1) + 1)) with (2 ^ Z.succ (Z.log2 (n - 1))) by (f_equal; lia).
  rewrite Z.pow_succ_r in * by lia. lia.
Qed.

(** For every allocator [mem], element size and requested size up to 2^63: requests below
    two are rejected without allocating; otherwise the capacity is a power of two, at
    least the request and less than twice the request, and the FIFO is empty. *)
Theorem C11_dynamic_alloc : forall mem es n, 0 <= n <= 2 ^ 63 ->
  (n < 2 -> fifo_dynamic_alloc mem es n = Some (- EINVAL, None)) /\
  (2 <= n -> exists k, 1 <= k <= 63 /\ n <= 2 ^ k < 2 * n /\
     fifo_dynamic_alloc mem es n =
       match mem (w64 (2 ^ k * es)) with
       | None => Some (- ENOMEM, None)
       | Some d => Some (0, Some {| f_in := 0; f_out := 0; f_mask := 2 ^ k - 1;
                                    f_esize := es; f_data := d |})
       end).
Proof.
  intros mem es n Hn. split; intros H.
  - unfold fifo_dynamic_alloc, pow2_roundup.
    assert ((n <? 2) = true) as E by (apply Z.ltb_lt; lia). rewrite !E. reflexivity.
  - destruct (pow2_roundup_spec n ltac:(lia)) as (k & Hk & E & B).
    exists k. split; [assumption|]. split; [assumption|].
    unfold fifo_dynamic_alloc. rewrite E. replace (2 ^ k <? 2) with false by (symmetry; apply Z.ltb_ge; lia).
    destruct (mem (w64 (2 ^ k * es))); reflexivity.
Qed.
Example C11_case : fifo_dynamic_alloc (fun n => Some (repeat 0 (Z.to_nat n))) 1 5 =
  Some (0, Some {| f_in := 0; f_out := 0; f_mask := 7; f_esize := 1; f_data := repeat 0 8 |}).
Proof. reflexivity. Qed.

(** C75. The buffer obtained from an honest allocator makes a well-formed FIFO as long as
    capacity * element size stays an object size ... *)
Definition honest (mem : Z -> option (list Z)) : Prop :=
  forall n d, mem n = Some d -> zlen d = n.

Theorem C75_alloc_buffer_partial : forall mem es n r f, honest mem -> 1 <= es ->
  0 <= n <= 2 ^ 63 -> 2 * n * es < 2 ^ 63 ->
  fifo_dynamic_alloc mem es n = Some (r, Some f) ->
  r = 0 /\ wf f /\ contents f = [] /\ n <= cap f /\ cap f < 2 * n.
Proof.
  intros mem es n r f Hm He Hn Hs H.
  destruct (C11_dynamic_alloc mem es n Hn) as [A B].
  destruct (Z_lt_dec n 2) as [L|L]; [rewrite (A L) in H; discriminate|].
  destruct (B ltac:(lia)) as (k & Hk & Hb & E). rewrite E in H.
  destruct (mem (w64 (2 ^ k * es))) as [d|] eqn:Em; [|discriminate].
  injection H as <- <-. apply Hm in Em. rewrite w64_small in Em by nia.
  destruct (C08_fresh k 0 es d ltac:(lia) ltac:(unfold u64; lia) He Em ltac:(nia)) as (W & C & Cp).
  rewrite Cp. repeat split; auto; lia.
Qed.
(** ... but the byte count is computed modulo 2^64 (bfdev_malloc_array does not check):
    with 8-byte elements and 2^61 requested the call succeeds with a 0-byte buffer. *)
Theorem C75_alloc_overflow_refuted : exists mem es n f, honest mem /\
  fifo_dynamic_alloc mem es n = Some (0, Some f) /\ n <= cap f /\
  zlen (f_data f) < n /\ fifo_put f (repeat 1 (Z.to_nat es)) = None.
Proof.
  exists (fun n => if n =? 0 then Some [] else None), 8, (2 ^ 61),
    {| f_in := 0; f_out := 0; f_mask := 2 ^ 61 - 1; f_esize := 8; f_data := [] |}.
  split. { intros n d H. destruct (Z.eqb_spec n 0); [injection H as <-; subst; reflexivity|discriminate]. }
  vm_compute. repeat split; congruence.
Qed.

(** C76. Ring-buffer record mode: a record longer than the capacity minus its header, or a
    second record, does not come back. *)
Theorem C76_ringbuf_record_refuted : exists f a b f1 f2 f3 r m,
  wf f /\ fifo_empty f = true /\
  ringbuf_in_record 8 f a (zlen a) 1 = Some (zlen a, f1) /\
  ringbuf_in_record 8 f1 b (zlen b) 1 = Some (zlen b, f2) /\
  fifo_valid f2 <= cap f2 /\
  fifo_out_record f2 8 1 = Some (m, r, f3) /\ r <> a /\ r <> b.
Proof.
  exists f8, [65], [66;67].
  exists {| f_in := 2; f_out := 0; f_mask := 7; f_esize := 1; f_data := [1;65;0;0;0;0;0;0] |}.
  exists {| f_in := 5; f_out := 0; f_mask := 7; f_esize := 1; f_data := [2;65;0;66;67;0;0;0] |}.
  exists {| f_in := 5; f_out := 3; f_mask := 7; f_esize := 1; f_data := [2;65;0;66;67;0;0;0] |}.
  exists [65;0], 2.
  split; [exists 3; unfold u64; vm_compute; intuition congruence|].
  vm_compute. repeat split; congruence.
Qed.

Print Assumptions C08_fifo_is_bounded_queue.
Print Assumptions C08_fifo_order.
Print Assumptions C09_record_roundtrip_partial.
Print Assumptions C10_ringbuf_keeps_newest.
Print Assumptions C11_dynamic_alloc.
Print Assumptions C75_alloc_buffer_partial.
