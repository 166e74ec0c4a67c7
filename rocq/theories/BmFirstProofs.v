(** * Boyer-Moore search contexts in memory: the bad character table with all 256 bytes, and the first occurrence *)
From Verif Require Import Lib TextModel TextSpec KmpMemModel KmpMemProofs KmpMemProps SundayMemSpec SundayMemProofs BmProofs BmMemModel BmMemProofs.
Local Ltac Zify.zify_post_hook ::= Z.div_mod_to_equations.

Section Ctx.
Variables ctx size p flags : Z.
Variable pat : list Z.
Variable low : Z -> Z.
Let len := zlen pat.
Hypothesis Hlen : 1 <= len < 2 ^ 30.
Hypothesis Hsize : 1064 + 5 * len <= size.
Hypothesis Hp : p = ctx + 1064 + 4 * len.
Hypothesis Hlow : forall c, 0 <= c < 256 -> 0 <= low c < 256.
Hypothesis Hpat : Forall (fun c => 0 <= c < 256) pat.
Notation Inv := (inv ctx len size p flags).
(** byte [t] of the text stands for byte [q] of the pattern *)
Definition hits (q t : Z) : Prop := t = q \/ (Z.testbit flags 0 = true /\ t = low q).
(** bad_shift after [index] bytes of the pattern; entry 255 is outside of the array *)
Definition badp (m : bmem) (index : Z) : Prop := forall t, 0 <= t < 255 -> exists d, ldn 4 m (ctx + B_BAD + 4 * t) = Ok d /\ len - index <= d <= len /\ forall j q, 0 <= j < index -> rd pat j = Some q -> hits q t -> d <= len - j - 1.
Lemma keep_pat m m' : reg ctx len m m' -> bytes_at m p pat -> bytes_at m' p pat.
Proof. intros [C _] H i b Hb. pose proof (rd_pos _ _ _ Hb). rewrite C by lia. apply H, Hb. Qed.
Lemma bad_store m c v : Inv m -> 0 <= c < 256 -> 0 <= v < 2 ^ 32 -> exists m', bad_wr m ctx c v = Ok m' /\ Inv m' /\ reg ctx len m m' /\ ldn 4 m' (ctx + B_BAD + 4 * c) = Ok v /\ forall t, t <> c -> ldn 4 m' (ctx + B_BAD + 4 * t) = ldn 4 m (ctx + B_BAD + 4 * t).
Proof.
  intros I Hc Hv. unfold bad_wr, B_BAD. rewrite <- Z.add_assoc. destruct (wr_ok ctx len size p flags ltac:(lia) m (44 + 4 * c) v I) as (m1 & E1 & I1 & R1 & C1 & V1); [lia|lia|lia|]. rewrite Z.mod_small in V1 by lia. exists m1. split; [exact E1|]. split; [exact I1|]. split; [exact R1|]. split; [exact V1|]. intros t N. apply (keep_ldn _ _ _ _ _ _ C1). lia.
Qed.
Lemma fill_val : forall n m index, Inv m -> 0 <= index -> index + Z.of_nat n = 255 -> (forall t, 0 <= t < index -> ldn 4 m (ctx + B_BAD + 4 * t) = Ok len) ->
  exists m', bm_fill_m n m ctx index = Ok m' /\ Inv m' /\ reg ctx len m m' /\ forall t, 0 <= t < 255 -> ldn 4 m' (ctx + B_BAD + 4 * t) = Ok len.
Proof.
  induction n as [|n IH]; intros m index I Hi Hn H; cbn [bm_fill_m]; [exists m; split; [reflexivity|split; [exact I|split; [apply changed_refl|intros t Ht; apply H; lia]]]|].
  pose proof I as (_ & _ & L & _). rewrite L. cbn [bind]. destruct (bad_store m index len I ltac:(lia) ltac:(lia)) as (m1 & -> & I1 & R1 & V1 & K1). cbn [bind].
  destruct (IH m1 (index + 1) I1) as (m' & E' & I' & R' & H'); [lia|lia| |exists m'; split; [exact E'|split; [exact I'|split; [apply (changed_trans _ _ _ _ _ R1 R')|exact H']]]].
  intros t Ht. destruct (Z.eq_dec t index) as [->|N]; [exact V1|]. rewrite K1 by exact N. apply H. lia.
Qed.
Lemma bad_val : forall fuel m index, Inv m -> bytes_at m p pat -> 0 <= index <= len - 1 -> len - 1 - index <= Z.of_nat fuel -> badp m index -> exists m', bm_bad_m low fuel m ctx index = Ok m' /\ Inv m' /\ reg ctx len m m' /\ badp m' (len - 1).
Proof.
  induction fuel as [|fuel IH]; intros m index I HP Hi Hf HB; cbn [bm_bad_m]; pose proof I as (_ & _ & L & Q & _); rewrite L; cbn [bind]; rewrite w32_id by lia; destruct (Z.ltb_spec index (len - 1)) as [B|B]; try (exists m; split; [reflexivity|split; [exact I|split; [apply changed_refl|replace (len - 1) with index by lia; exact HB]]]); [lia|].
  destruct (rd_some _ pat index) as (c & Rc); [fold len; lia|]. assert (Hc : 0 <= c < 256) by (rewrite Forall_forall in Hpat; apply Hpat, (rd_in _ _ _ _ Rc)). set (v := len - index - 1). rewrite w32_id by lia. fold v.
  assert (RD : forall m, Inv m -> bytes_at m p pat -> bpat_rd m ctx index = Ok c) by (intros m0 (_ & _ & _ & Q0 & _) H0; unfold bpat_rd; rewrite Q0; apply ldn1, H0, Rc). rewrite (RD m I HP). cbn [bind].
  destruct (bad_store m c v I Hc ltac:(lia)) as (m1 & -> & I1 & R1 & V1 & K1). cbn [bind]. pose proof (keep_pat _ _ R1 HP) as HP1. pose proof I1 as (_ & F1 & _). rewrite F1. cbn [bind].
  assert (S2 : exists m2, (if Z.testbit flags 0 then do c <- bpat_rd m1 ctx index; bad_wr m1 ctx (low c) v else Ok m1) = Ok m2 /\ Inv m2 /\ reg ctx len m1 m2 /\ forall t, 0 <= t < 255 -> (ldn 4 m2 (ctx + B_BAD + 4 * t) = Ok v) \/ (ldn 4 m2 (ctx + B_BAD + 4 * t) = ldn 4 m (ctx + B_BAD + 4 * t) /\ ~ hits c t)).
  { unfold hits. destruct (Z.testbit flags 0).
    - rewrite (RD m1 I1 HP1). cbn [bind]. destruct (bad_store m1 (low c) v I1 (Hlow c Hc) ltac:(lia)) as (m2 & E2 & I2 & R2 & V2 & K2). exists m2. split; [exact E2|]. split; [exact I2|]. split; [exact R2|]. intros t Ht. destruct (Z.eq_dec t (low c)) as [->|N]; [left; exact V2|]. rewrite (K2 t N). destruct (Z.eq_dec t c) as [->|N']; [left; exact V1|]. right. split; [apply K1, N'|]. tauto.
    - exists m1. split; [reflexivity|]. split; [exact I1|]. split; [apply changed_refl|]. intros t Ht. destruct (Z.eq_dec t c) as [->|N']; [left; exact V1|]. right. split; [apply K1, N'|]. intros [X|[X _]]; [exact (N' X)|discriminate X]. }
  destruct S2 as (m2 & -> & I2 & R2 & V2). cbn [bind]. destruct (IH m2 (index + 1) I2 (keep_pat _ _ R2 HP1)) as (m' & E' & I' & R' & B'); [lia|lia| |exists m'; split; [exact E'|split; [exact I'|split; [apply (changed_trans _ _ _ _ _ R1), (changed_trans _ _ _ _ _ R2 R')|exact B']]]].
  intros t Ht. destruct (V2 t Ht) as [E|[E NH]]; rewrite E.
  - exists v. split; [reflexivity|]. split; [lia|]. intros j q Hj _ _. lia.
  - destruct (HB t Ht) as (d & Ed & Bd & Hd). exists d. split; [exact Ed|]. split; [lia|]. intros j q Hj Rj Hh. destruct (Z.eq_dec j index) as [->|N]; [exfalso; apply NH; congruence|]. apply (Hd j q); [lia|exact Rj|exact Hh].
Qed.
(** the table that the search sees *)
Definition badok (m : bmem) : Prop := forall t, 0 <= t < 256 -> exists d, ldn 4 m (ctx + B_BAD + 4 * t) = Ok d /\ 1 <= d <= len /\ forall j q, 0 <= j < len - 1 -> rd pat j = Some q -> hits q t -> d <= len - j - 1.
Lemma prefix_full m fuel : Inv m -> bytes_at m p pat -> len <= Z.of_nat fuel -> exists m', bm_prefix_m low fuel m ctx = Ok m' /\ Inv m' /\ reg ctx len m m' /\ gw ctx len m' len /\ badok m' /\ ldn 4 m' (ctx + B_GOOD) = Ok 1.
Proof.
  intros I HP Hf. assert (H1 : 1 <= len < 2 ^ 32) by lia. assert (H2 : 1068 <= size) by lia. assert (H3 : ctx + 1064 <= p) by lia. assert (H4 : p + len <= ctx + size) by lia. assert (H5 : 1064 + 4 * len <= size) by lia. unfold bm_prefix_m.
  destruct (fill_val 255 m 0 I ltac:(lia) ltac:(lia) ltac:(lia)) as (m1 & -> & I1 & R1 & V1). cbn [bind].
  destruct (bad_val fuel m1 0 I1 (keep_pat _ _ R1 HP) ltac:(lia) ltac:(lia)) as (m2 & -> & I2 & R2 & B2); [intros t Ht; exists len; split; [apply V1, Ht|]; split; [lia|]; intros; lia|]. cbn [bind].
  destruct (good_wr_ok ctx len size p flags H1 H5 m2 0 1 I2 ltac:(lia) ltac:(lia)) as (m3 & -> & I3 & R3 & C3 & V3). cbn [bind]. destruct (good_inv ctx len size p flags H1 H5 fuel m3 1 I3 ltac:(lia) ltac:(lia)) as (m4 & -> & I4 & R4 & G4).
  { intros i Hi. replace i with 0 by lia. exists 1. split; [exact V3|lia]. }
  cbn [bind]. pose proof I4 as (_ & _ & L4 & _). rewrite L4. cbn [bind]. rewrite w32_id by lia. destruct (outer_inv ctx len size p flags H1 H3 H4 H5 (S fuel) ltac:(lia) fuel m4 (len - 1) 1 I4 G4) as (m5 & E5 & I5 & R5 & G5); [lia|lia|lia|lia|].
  assert (K5 : forall t, 0 <= t < 256 -> ldn 4 m5 (ctx + B_BAD + 4 * t) = ldn 4 m3 (ctx + B_BAD + 4 * t)).
  { intros t Ht. unfold regg in *. rewrite (keep_ldn _ _ _ _ _ _ R5), (keep_ldn _ _ _ _ _ _ R4) by (unfold B_BAD; lia). reflexivity. }
  exists m5. split; [exact E5|]. split; [exact I5|]. split; [apply (changed_trans _ _ _ _ _ R1), (changed_trans _ _ _ _ _ R2), (changed_trans _ _ _ _ _ R3), (changed_trans _ _ _ _ _ (regg_reg ctx len H1 _ _ R4) (regg_reg ctx len H1 _ _ R5))|]. split; [exact G5|]. split.
  - intros t Ht. rewrite (K5 t Ht). destruct (Z.eq_dec t 255) as [->|N].
    + exists 1. split; [replace (ctx + B_BAD + 4 * 255) with (ctx + B_GOOD + 4 * 0) by (unfold B_BAD, B_GOOD; lia); exact V3|]. split; [lia|]. intros; lia.
    + destruct (B2 t ltac:(lia)) as (d & Ed & Bd & Hd). exists d. split; [rewrite (keep_ldn _ _ _ _ _ _ C3) by (unfold B_BAD, B_GOOD; lia); exact Ed|]. split; [lia|exact Hd].
  - replace (ctx + B_GOOD) with (ctx + B_BAD + 4 * 255) by (unfold B_BAD, B_GOOD; lia). rewrite (K5 255 ltac:(lia)). replace (ctx + B_BAD + 4 * 255) with (ctx + B_GOOD + 4 * 0) by (unfold B_BAD, B_GOOD; lia). exact V3.
Qed.
End Ctx.

(** ** The scan, as BmProofs.bm_scan_ok, with a table for all bytes *)
Section Scan.
Variable up : Z -> Z.
Variable icase : bool.
Notation c := (ch up icase).
Variables (pat mem bad good : list Z) (len : Z).
Hypothesis HM : 0 <= len <= zlen mem.
Hypothesis HB : Forall (fun c => 0 <= c < 256) mem.
Hypothesis HL : zlen mem + zlen pat < 2 ^ 32.
Hypothesis HP : pat <> [].
Hypothesis HT : zlen bad = 256.
Hypothesis HD : forall t d, rd bad t = Some d -> 1 <= d <= zlen pat /\
  forall k p, (1 <= k)%nat -> nth_error (rev pat) k = Some p -> p = c t -> d <= Z.of_nat k.
Hypothesis HG : good_ok (zlen pat) good.
(** the last byte occurs nowhere else *)
Hypothesis HU : forall k p q, (1 <= k)%nat -> nth_error (rev pat) k = Some p -> nth_error (rev pat) 0 = Some q -> p <> q.
Notation b0 := {| bpat := pat; bbad := bad; bgood := good |}.
Notation ends := (ends up icase pat mem).
Lemma scan_first : forall fuel shift, zlen pat - 1 <= shift -> len - shift <= Z.of_nat fuel -> shift < 2 ^ 32 ->
  (forall e, zlen pat - 1 <= e < shift -> e < len -> ~ ends e) ->
  (exists r, bm_scan up icase fuel b0 mem len shift = Some (inl r) /\ forall e, zlen pat - 1 <= e < len -> ~ ends e) \/
  (exists r, bm_scan up icase fuel b0 mem len shift = Some (inr r) /\ zlen pat - 1 <= r < len /\ ends r /\ forall e, zlen pat - 1 <= e < r -> ~ ends e).
Proof.
  assert (Zp : 1 <= zlen pat) by (unfold zlen; destruct pat; [contradiction HP; reflexivity|cbn; lia]).
  assert (ZR : zlen (rev pat) = zlen pat) by (unfold zlen; rewrite rev_length; reflexivity).
  induction fuel as [|fuel IH]; intros shift Hs F Hw A; cbn [bm_scan bpat bbad bgood].
  - rewrite (proj2 (Z.ltb_ge _ _)) by lia. left. exists shift. split; [reflexivity|]. intros e He. apply A; lia.
  - destruct (Z.ltb_spec shift len) as [L|L]; [|left; exists shift; split; [reflexivity|]; intros e He; apply A; lia].
    destruct (bm_cmp_ok up icase mem (rev pat) shift ltac:(lia) ltac:(lia)) as (n & -> & Bn & C1 & C2). rewrite ZR in Bn.
    destruct (Z.eqb_spec n (zlen pat)) as [->|Nn].
    + right. exists shift. split; [reflexivity|]. split; [lia|]. split; [|intros e He; apply A; lia].
      intros k p N. apply C1; [exact N|]. assert (k < length (rev pat))%nat by (apply nth_error_Some; congruence). unfold zlen in *. lia.
    + destruct (rd_some _ mem (shift - n)) as (t & Rt); [lia|]. rewrite Rt. pose proof (rd_map up icase _ _ _ Rt) as RM.
      assert (Gt : 0 <= t < 256) by (rewrite Forall_forall in HB; apply HB, (rd_in _ _ _ _ Rt)).
      destruct (rd_some _ bad t) as (d & Rd); [lia|]. rewrite Rd. destruct (HD _ _ Rd) as [Bd Cd].
      destruct HG as (G1 & G2 & G3). destruct (rd_some _ good n) as (g & Rg); [lia|]. rewrite Rg. pose proof (G3 _ _ Rg) as Bg.
      assert (Zm : 0 <= zlen mem) by (unfold zlen; lia). rewrite (w32_small (shift - n + d)), (w32_small (shift + g)) by (unfold u32; lia).
      apply IH; [lia|lia|lia|]. intros e He Hl O. destruct (Z_lt_ge_dec e shift) as [Hlt|Hge]; [apply (A e); [lia|lia|exact O]|].
      destruct (Z.eq_dec e shift) as [->|Hne].
      * destruct (nth_error (rev pat) (Z.to_nat n)) as [p|] eqn:Np; [|apply nth_error_None in Np; unfold zlen in *; lia].
        apply (C2 _ eq_refl). replace n with (Z.of_nat (Z.to_nat n)) by lia. apply O. exact Np.
      * destruct (Z_lt_ge_dec e (shift - n + d)) as [Hb|Hb].
        -- set (k := Z.to_nat (e - (shift - n))). assert (Ek : Z.of_nat k = e - (shift - n)) by (unfold k; lia). clearbody k.
           destruct (nth_error (rev pat) k) as [p|] eqn:Np; [|apply nth_error_None in Np; unfold zlen in *; lia].
           pose proof (O _ _ Np) as Op. replace (e - Z.of_nat k) with (shift - n) in Op by lia. rewrite RM in Op. injection Op as Op.
           specialize (Cd k p ltac:(lia) Np (eq_sym Op)). lia.
        -- assert (Hg : e < shift + g) by lia. destruct (Z.eq_dec n 0) as [->|N0]; [rewrite G2 in Rg; injection Rg as <-; lia|].
           set (k := Z.to_nat (e - shift)). assert (Ek : Z.of_nat k = e - shift) by (unfold k; lia). clearbody k.
           destruct (nth_error (rev pat) k) as [p|] eqn:Np; [|apply nth_error_None in Np; unfold zlen in *; lia].
           destruct (nth_error (rev pat) 0) as [q|] eqn:Nq; [|apply nth_error_None in Nq; unfold zlen in *; lia].
           pose proof (O _ _ Np) as Op. replace (e - Z.of_nat k) with shift in Op by lia.
           pose proof (C1 0%nat q Nq ltac:(lia)) as Oq. replace (shift - Z.of_nat 0) with shift in Oq by lia.
           apply (HU k p q ltac:(lia) Np eq_refl). congruence.
Qed.
(** ... and in terms of occurrences *)
Lemma find_first : len = zlen mem -> zlen mem + zlen pat < 2 ^ 32 - 1 ->
  let T := map c mem in (exists j, bm_find up icase b0 mem len 0 = Some (Z.of_nat j) /\ leftmost T pat 0 j) \/ (bm_find up icase b0 mem len 0 = Some UINT_MAX /\ absent T pat 0).
Proof.
  intros El H32 T. assert (Zn : 0 < zlen pat) by (unfold zlen; destruct pat; [contradiction HP; reflexivity|cbn; lia]). assert (ET : T = map c (firstn (Z.to_nat len) mem)) by (unfold T; rewrite El; unfold zlen; rewrite Nat2Z.id, firstn_all; reflexivity).
  assert (LT' : length T = Z.to_nat len) by (unfold T; rewrite map_length, El; unfold zlen; rewrite Nat2Z.id; reflexivity).
  assert (OT : forall j, occurs T pat j -> (length pat + j <= Z.to_nat len)%nat).
  { intros j O. apply (f_equal (@length Z)) in O. rewrite firstn_length, skipn_length, LT' in O. unfold zlen in Zn. lia. }
  unfold bm_find. destruct (Z.ltb_spec 0 len) as [Lo|Lo].
  2: { right. split; [reflexivity|]. intros i Hi O. apply OT in O. unfold zlen in Zn. lia. }
  change (skipn (Z.to_nat 0) mem) with mem. rewrite Z.sub_0_r. cbn [bpat]. rewrite (w32_small (zlen pat - 1)) by (unfold u32; lia).
  assert (EO : forall e, zlen pat - 1 <= e < len -> (ends e <-> occurs T pat (Z.to_nat (e - zlen pat + 1)))).
  { intros e He. rewrite ET. pose proof (ends_occurs up icase pat mem len 0 e HP ltac:(lia) ltac:(lia) ltac:(lia)) as X. exact X. }
  destruct (scan_first (S (Z.to_nat len)) (zlen pat - 1)) as [(r & -> & A)|(r & -> & B & O & A)]; [lia|lia|lia|intros; lia| |].
  - right. split; [reflexivity|]. intros i Hi O. pose proof (OT _ O) as Li. apply (A (Z.of_nat i + zlen pat - 1)); [unfold zlen in *; lia|]. apply EO; [unfold zlen in *; lia|]. replace (Z.to_nat (Z.of_nat i + zlen pat - 1 - zlen pat + 1)) with i by lia. exact O.
  - left. exists (Z.to_nat (r - zlen pat + 1)). split; [rewrite w32_small by (unfold u32; lia); f_equal; lia|]. split; [lia|]. split; [apply EO; [lia|exact O]|].
    intros i Hi O2. pose proof (OT _ O2) as Li. apply (A (Z.of_nat i + zlen pat - 1)); [unfold zlen in *; lia|]. apply EO; [unfold zlen in *; lia|]. replace (Z.to_nat (Z.of_nat i + zlen pat - 1 - zlen pat + 1)) with i by lia. exact O2.
Qed.
End Scan.
