(** * Boyer-Moore search contexts in memory: proofs *)
From Verif Require Import Lib TextModel KmpMemModel KmpMemProofs KmpMemProps SundayMemSpec SundayMemProofs BmProofs BmMemModel.
Local Ltac Zify.zify_post_hook ::= Z.div_mod_to_equations.

Section Ctx.
Variables ctx len size p flags : Z.
Hypothesis Hlen : 1 <= len < 2 ^ 32.
Hypothesis Hsize : 1068 <= size.
Hypothesis Hp : ctx + 1064 <= p.
Hypothesis Hpe : p + len <= ctx + size.
(** the block, the fields in front of the tables, and bytes everywhere *)
Definition inv (m : bmem) : Prop :=
  is_block m ctx size /\ ldn 8 m (ctx + K_FLAGS) = Ok flags /\ ldn 4 m (ctx + B_LEN) = Ok len /\ ldn 8 m (ctx + B_PATTERN) = Ok p /\ bytes m.
(** only the tables have changed *)
Definition reg (m m' : bmem) : Prop := changed m m' (ctx + 44) (Z.to_nat (1020 + 4 * len)).
Lemma reg_refl m : reg m m. Proof. apply changed_refl. Qed.
Lemma reg_trans m1 m2 m3 : reg m1 m2 -> reg m2 m3 -> reg m1 m3. Proof. apply changed_trans. Qed.
Lemma inb_block m a n : inv m -> 0 <= a -> a + Z.of_nat n <= size -> inb m (ctx + a) n.
Proof. intros (D & _) A B x Hx. apply D. lia. Qed.
Lemma wr_ok m a v : inv m -> 44 <= a -> a + 4 <= size -> a + 4 <= 1064 + 4 * len -> exists m', stn 4 m (ctx + a) v = Ok m' /\ inv m' /\ reg m m' /\ changed m m' (ctx + a) 4 /\ ldn 4 m' (ctx + a) = Ok (v mod 2 ^ 32).
Proof.
  intros I A B C. destruct (stn_ok 4 m (ctx + a) v (inb_block m a 4 I ltac:(lia) ltac:(lia))) as [m' E]. exists m'. split; [exact E|]. destruct I as (D & F & L & P & Y). pose proof (stn_bytes _ _ _ _ _ Y E) as Y'. apply stn_inv in E. destruct E as (_ & E2 & E3 & E4). assert (CH : changed m m' (ctx + a) 4) by (split; [exact E2|exact E3]).
  split; [|split; [apply (changed_sub _ _ _ _ _ _ CH); lia|split; [exact CH|exact E4]]]. split; [intros x; rewrite <- (D x), (E3 x); tauto|]. rewrite !(keep_ldn _ _ _ _ _ _ CH) by (unfold K_FLAGS, B_LEN, B_PATTERN; lia). split; [exact F|]. split; [exact L|]. split; [exact P|exact Y'].
Qed.
Lemma pat_ok m i : inv m -> 0 <= i < len -> exists b, ldn 1 m (p + i) = Ok b /\ bpat_rd m ctx i = Ok b /\ 0 <= b < 256.
Proof.
  intros (D & F & L & P & Y) Hi. destruct (m (p + i)) as [b|] eqn:E; [|exfalso; apply (D (p + i)); [lia|exact E]]. exists b. pose proof (ldn1 _ _ _ E) as E1. split; [exact E1|]. split; [unfold bpat_rd; rewrite P; exact E1|apply (Y _ _ E)].
Qed.
Lemma fill_inv : forall n m index, inv m -> 0 <= index -> index + Z.of_nat n <= 255 -> exists m', bm_fill_m n m ctx index = Ok m' /\ inv m' /\ reg m m'.
Proof.
  induction n as [|n IH]; intros m index I Hi Hn; cbn [bm_fill_m]; [exists m; split; [reflexivity|split; [exact I|apply reg_refl]]|].
  pose proof I as (_ & _ & L & _). rewrite L. cbn [bind]. unfold bad_wr, B_BAD. rewrite <- Z.add_assoc. destruct (wr_ok m (44 + 4 * index) len I) as (m1 & E1 & I1 & R1 & _); [lia|lia|lia|]. rewrite E1. cbn [bind].
  destruct (IH m1 (index + 1) I1) as (m' & E' & I' & R'); [lia|lia|]. exists m'. split; [exact E'|]. split; [exact I'|]. apply (reg_trans _ _ _ R1 R').
Qed.
Section Low.
Variable low : Z -> Z.
Hypothesis Hlow : forall c, 0 <= c < 256 -> 0 <= low c < 256.
Lemma bad_inv : forall fuel m index, inv m -> 0 <= index -> len - 1 - index <= Z.of_nat fuel -> exists m', bm_bad_m low fuel m ctx index = Ok m' /\ inv m' /\ reg m m'.
Proof.
  assert (W : forall m c v, inv m -> 0 <= c < 256 -> exists m', bad_wr m ctx c v = Ok m' /\ inv m' /\ reg m m').
  { intros m c v I Hc. unfold bad_wr, B_BAD. rewrite <- Z.add_assoc. destruct (wr_ok m (44 + 4 * c) v I) as (m1 & E1 & I1 & R1 & _); [lia|lia|lia|]. exists m1. split; [exact E1|]. split; [exact I1|exact R1]. }
  induction fuel as [|fuel IH]; intros m index I Hi Hf; cbn [bm_bad_m]; pose proof I as (_ & _ & L & _); rewrite L; cbn [bind]; rewrite w32_id by lia; destruct (Z.ltb_spec index (len - 1)) as [B|B]; try (exists m; split; [reflexivity|split; [exact I|apply reg_refl]]); [lia|].
  destruct (pat_ok m index I ltac:(lia)) as (c & _ & -> & Hc). cbn [bind]. destruct (W m c (w32 (len - index - 1)) I Hc) as (m1 & -> & I1 & R1). cbn [bind]. pose proof I1 as (_ & F1 & _). rewrite F1. cbn [bind].
  assert (S2 : exists m2, (if Z.testbit flags 0 then do c <- bpat_rd m1 ctx index; bad_wr m1 ctx (low c) (w32 (len - index - 1)) else Ok m1) = Ok m2 /\ inv m2 /\ reg m1 m2).
  { destruct (Z.testbit flags 0); [|exists m1; split; [reflexivity|split; [exact I1|apply reg_refl]]]. destruct (pat_ok m1 index I1 ltac:(lia)) as (c1 & _ & -> & Hc1). cbn [bind]. apply (W m1 (low c1) _ I1 (Hlow c1 Hc1)). }
  destruct S2 as (m2 & -> & I2 & R2). cbn [bind]. destruct (IH m2 (index + 1) I2) as (m' & E' & I' & R'); [lia|lia|]. exists m'. split; [exact E'|]. split; [exact I'|]. apply (reg_trans _ _ _ R1), (reg_trans _ _ _ R2 R').
Qed.
End Low.
(** the entries of good_shift below [k] are at least 1 *)
Definition gw (m : bmem) (k : Z) : Prop := forall i, 0 <= i < k -> exists v, ldn 4 m (ctx + B_GOOD + 4 * i) = Ok v /\ 1 <= v <= len.
Lemma gw_wr m m' k i v : gw m k -> 0 <= i -> changed m m' (ctx + B_GOOD + 4 * i) 4 -> ldn 4 m' (ctx + B_GOOD + 4 * i) = Ok v -> 1 <= v <= len -> forall k', k' <= k \/ (i = k /\ k' = k + 1) -> gw m' k'.
Proof.
  intros G Hi C E Hv k' Hk j Hj. destruct (Z.eq_dec j i) as [->|N]; [exists v; split; [exact E|exact Hv]|]. destruct (G j ltac:(lia)) as (u & Eu & Hu). exists u. split; [rewrite (keep_ldn _ _ _ _ _ _ C) by lia; exact Eu|exact Hu].
Qed.
(** only good_shift has changed, and not its first entry *)
Definition regg (m m' : bmem) : Prop := changed m m' (ctx + 1068) (Z.to_nat (4 * len - 4)).
Lemma regg_refl m : regg m m. Proof. apply changed_refl. Qed.
Lemma regg_trans m1 m2 m3 : regg m1 m2 -> regg m2 m3 -> regg m1 m3. Proof. apply changed_trans. Qed.
Lemma regg_reg m m' : regg m m' -> reg m m'. Proof. intros C. apply (changed_sub _ _ _ _ _ _ C); lia. Qed.
Lemma wr_regg m m' i : 1 <= i < len -> changed m m' (ctx + B_GOOD + 4 * i) 4 -> regg m m'. Proof. intros Hi C. apply (changed_sub _ _ _ _ _ _ C); unfold B_GOOD; lia. Qed.
Section Room.
Hypothesis Hroom : 1064 + 4 * len <= size.
Lemma good_wr_ok m i v : inv m -> 0 <= i < len -> 1 <= v <= len -> exists m', good_wr m ctx i v = Ok m' /\ inv m' /\ reg m m' /\ changed m m' (ctx + B_GOOD + 4 * i) 4 /\ ldn 4 m' (ctx + B_GOOD + 4 * i) = Ok v.
Proof.
  intros I Hi Hv. unfold good_wr, B_GOOD. rewrite <- Z.add_assoc. destruct (wr_ok m (1064 + 4 * i) v I) as (m1 & E1 & I1 & R1 & C1 & V1); [lia|lia|lia|]. exists m1. rewrite Z.mod_small in V1 by lia. split; [exact E1|]. split; [exact I1|]. split; [exact R1|]. split; [exact C1|exact V1].
Qed.
Lemma good_inv : forall fuel m index, inv m -> 1 <= index <= len -> len - index <= Z.of_nat fuel -> gw m index -> exists m', bm_good_m fuel m ctx index = Ok m' /\ inv m' /\ regg m m' /\ gw m' len.
Proof.
  induction fuel as [|fuel IH]; intros m index I Hi Hf G; cbn [bm_good_m]; pose proof I as (_ & _ & L & _); rewrite L; cbn [bind]; destruct (Z.ltb_spec index len) as [B|B]; try (exists m; split; [reflexivity|split; [exact I|split; [apply regg_refl|replace len with index by lia; exact G]]]); [lia|].
  destruct (good_wr_ok m index len I ltac:(lia) ltac:(lia)) as (m1 & -> & I1 & R1 & C1 & V1). cbn [bind]. apply (wr_regg m m1 index ltac:(lia)) in C1 as R2. clear R1. rename R2 into R1. destruct (IH m1 (index + 1) I1) as (m' & E' & I' & R' & G'); [lia|lia|apply (gw_wr m m1 index index len G ltac:(lia) C1 V1 ltac:(lia)); right; lia|].
  exists m'. split; [exact E'|]. split; [exact I'|]. split; [apply (regg_trans _ _ _ R1 R')|exact G'].
Qed.
Lemma sub_inv m index j : inv m -> 1 <= index <= len -> j < index -> forall fuel g x y, (Z.to_nat y < fuel)%nat -> y = j + g - 1 -> 0 <= y < len -> x - y = index - j -> 1 <= g -> x < len ->
  exists b, sub_m fuel m p index j g x y = Ok b /\ (b = true -> 1 <= j).
Proof.
  intros I Hi Hj. induction fuel as [|fuel IH]; intros g x y F Ey By Ex Hg Bx; [lia|]. cbn [sub_m].
  destruct (Z.eqb_spec y 0) as [->|Ny]; [exists false; split; [reflexivity|discriminate]|].
  destruct (pat_ok m x I ltac:(lia)) as (a & -> & _). destruct (pat_ok m y I ltac:(lia)) as (b & -> & _). cbn [bind].
  destruct (a =? b); [|exists false; split; [reflexivity|discriminate]]. rewrite (proj2 (Z.ltb_ge _ _)) by lia. destruct (Z.eqb_spec (g - 1) 0) as [E0|N0].
  - destruct (pat_ok m (index - 1) I ltac:(lia)) as (c & -> & _). destruct (pat_ok m (j - 1) I ltac:(lia)) as (d & -> & _). cbn [bind]. eexists. split; [reflexivity|]. intros _. lia.
  - apply IH; lia.
Qed.
Lemma inner_inv sf index start : 1 <= index -> 1 <= start -> index + start = len -> len <= Z.of_nat sf -> forall fuel m count, inv m -> gw m len -> count < index -> count + start <= Z.of_nat fuel ->
  exists m', bm_inner_m fuel sf m ctx index start count = Ok m' /\ inv m' /\ regg m m' /\ gw m' len.
Proof.
  intros H1 H2 H3 H4. induction fuel as [|fuel IH]; intros m count I G Hc Hf; cbn [bm_inner_m]; destruct (Z.ltb_spec count (1 - start)) as [B|B]; try (exists m; split; [reflexivity|split; [exact I|split; [apply regg_refl|exact G]]]); [lia|].
  pose proof I as (_ & _ & L & P & _). rewrite P. cbn [bind]. destruct (sub_inv m index count I ltac:(lia) Hc sf start (index + start - 1) (count + start - 1)) as (b & -> & Hb); [lia|lia|lia|lia|lia|lia|]. cbn [bind]. destruct b.
  - specialize (Hb eq_refl). rewrite L. cbn [bind]. rewrite w32_id by lia. destruct (good_wr_ok m count (len - start - count) I ltac:(lia) ltac:(lia)) as (m1 & E1 & I1 & R1 & C1 & V1). exists m1. split; [exact E1|]. split; [exact I1|]. split; [apply (wr_regg m m1 count ltac:(lia) C1)|]. apply (gw_wr m m1 len count _ G ltac:(lia) C1 V1 ltac:(lia)). left; lia.
  - apply IH; [exact I|exact G|lia|lia].
Qed.
Lemma outer_inv sf : len <= Z.of_nat sf -> forall fuel m index start, inv m -> gw m len -> 0 <= index -> 1 <= start -> index + start = len -> index <= Z.of_nat fuel ->
  exists m', bm_outer_m fuel sf m ctx index start = Ok m' /\ inv m' /\ regg m m' /\ gw m' len.
Proof.
  intros Hs. induction fuel as [|fuel IH]; intros m index start I G H1 H2 H3 Hf; cbn [bm_outer_m]; destruct (Z.eqb_spec index 0) as [B|B]; try (exists m; split; [reflexivity|split; [exact I|split; [apply regg_refl|exact G]]]); [lia|].
  destruct (inner_inv sf index start ltac:(lia) H2 H3 Hs sf m (index - 1) I G) as (m1 & -> & I1 & R1 & G1); [lia|lia|]. cbn [bind]. destruct (IH m1 (index - 1) (start + 1) I1 G1) as (m' & E' & I' & R' & G'); [lia|lia|lia|lia|].
  exists m'. split; [exact E'|]. split; [exact I'|]. split; [apply (regg_trans _ _ _ R1 R')|exact G'].
Qed.
Lemma prefix_inv low m fuel : (forall c, 0 <= c < 256 -> 0 <= low c < 256) -> inv m -> len <= Z.of_nat fuel -> exists m', bm_prefix_m low fuel m ctx = Ok m' /\ inv m' /\ reg m m' /\ gw m' len.
Proof.
  intros Hlow I Hf. unfold bm_prefix_m. destruct (fill_inv 255 m 0 I ltac:(lia) ltac:(lia)) as (m1 & -> & I1 & R1). cbn [bind]. destruct (bad_inv low Hlow fuel m1 0 I1 ltac:(lia) ltac:(lia)) as (m2 & -> & I2 & R2). cbn [bind].
  destruct (good_wr_ok m2 0 1 I2 ltac:(lia) ltac:(lia)) as (m3 & -> & I3 & R3 & C3 & V3). cbn [bind]. destruct (good_inv fuel m3 1 I3 ltac:(lia) ltac:(lia)) as (m4 & -> & I4 & R4 & G4).
  { intros i Hi. replace i with 0 by lia. exists 1. split; [exact V3|lia]. }
  cbn [bind]. pose proof I4 as (_ & _ & L4 & _). rewrite L4. cbn [bind]. rewrite w32_id by lia. destruct (outer_inv (S fuel) ltac:(lia) fuel m4 (len - 1) 1 I4 G4) as (m5 & E5 & I5 & R5 & G5); [lia|lia|lia|lia|].
  exists m5. split; [exact E5|]. split; [exact I5|]. split; [|exact G5]. apply (reg_trans _ _ _ R1), (reg_trans _ _ _ R2), (reg_trans _ _ _ R3), (reg_trans _ _ _ (regg_reg _ _ R4) (regg_reg _ _ R5)).
Qed.
End Room.
(** ** A block without room for good_shift *)
Lemma good_fault : size < 1064 + 4 * len -> forall fuel m index, inv m -> 0 <= index < len -> len - index <= Z.of_nat fuel -> bm_good_m fuel m ctx index = Fault.
Proof.
  intros Hr. induction fuel as [|fuel IH]; intros m index I Hi Hf; [lia|]. cbn [bm_good_m]; pose proof I as (D & _ & L & _); rewrite L; cbn [bind]; rewrite (proj2 (Z.ltb_lt _ _)) by lia.
  unfold good_wr, B_GOOD. rewrite <- Z.add_assoc. destruct (Z.leb_spec (1064 + 4 * index + 4) size) as [B|B].
  - destruct (wr_ok m (1064 + 4 * index) len I) as (m1 & -> & I1 & _); [lia|lia|lia|]. cbn [bind]. apply IH; [exact I1|lia|lia].
  - destruct (stn 4 m (ctx + (1064 + 4 * index)) len) as [m1| |] eqn:E1; [|reflexivity|exfalso; apply (stn_not_stuck _ _ _ _ E1)]. apply stn_inv in E1. destruct E1 as (I1 & _). exfalso. specialize (I1 (ctx + (1064 + 4 * index) + 3) ltac:(lia)). apply D in I1. lia.
Qed.
Lemma prefix_fault low m fuel : size < 1064 + 4 * len -> 2 <= len -> (forall c, 0 <= c < 256 -> 0 <= low c < 256) -> inv m -> len <= Z.of_nat fuel -> bm_prefix_m low fuel m ctx = Fault.
Proof.
  intros Hr H2 Hlow I Hf. unfold bm_prefix_m. destruct (fill_inv 255 m 0 I ltac:(lia) ltac:(lia)) as (m1 & -> & I1 & R1). cbn [bind]. destruct (bad_inv low Hlow fuel m1 0 I1 ltac:(lia) ltac:(lia)) as (m2 & -> & I2 & R2). cbn [bind].
  unfold good_wr, B_GOOD. rewrite <- Z.add_assoc. destruct (wr_ok m2 (1064 + 4 * 0) 1 I2) as (m3 & -> & I3 & _); [lia|lia|lia|]. cbn [bind]. rewrite (good_fault Hr fuel m3 1 I3 ltac:(lia) ltac:(lia)). reflexivity.
Qed.
End Ctx.

(** ** Searching *)
Lemma words_exist m a (P : Z -> Prop) n : (forall i, 0 <= i < Z.of_nat n -> exists v, ldn 4 m (a + 4 * i) = Ok v /\ P v) -> exists l, length l = n /\ words_at m a l /\ Forall P l.
Proof.
  induction n as [|n IH]; intros H; [exists []; split; [reflexivity|]; split; [intros i v E; apply rd_pos in E; unfold zlen in E; cbn in E; lia|constructor]|].
  destruct IH as (l & L & W & F); [intros i Hi; apply H; lia|]. destruct (H (Z.of_nat n) ltac:(lia)) as (v & Ev & Pv). exists (l ++ [v]). split; [rewrite app_length; cbn [length]; lia|]. split; [|apply Forall_app; split; [exact F|constructor; [exact Pv|constructor]]].
  intros i u E. pose proof (rd_pos _ _ _ E) as Hi. unfold zlen in Hi. rewrite app_length in Hi. cbn [length] in Hi. unfold rd in E. rewrite (proj2 (Z.ltb_ge _ _)) in E by lia. destruct (Z.eq_dec i (Z.of_nat n)) as [->|N].
  - rewrite nth_error_app2 in E by lia. replace (Z.to_nat (Z.of_nat n) - length l)%nat with 0%nat in E by lia. injection E as <-. exact Ev.
  - rewrite nth_error_app1 in E by lia. apply W. unfold rd. rewrite (proj2 (Z.ltb_ge _ _)) by lia. exact E.
Qed.
Section Find.
Variable up : Z -> Z.
Variables (ctx p : Z) (m : bmem) (pat bad good : list Z) (icase : bool).
Hypothesis HP : bytes_at m p pat.
Hypothesis HQ : ldn 8 m (ctx + B_PATTERN) = Ok p.
Hypothesis HL : ldn 4 m (ctx + B_LEN) = Ok (zlen pat).
Hypothesis HB : words_at m (ctx + B_BAD) bad.
Hypothesis HG : words_at m (ctx + B_GOOD) good.
Hypothesis Lb : zlen bad = 256.
Hypothesis Lg : zlen good = zlen pat.
Hypothesis Gg : Forall (fun v => 1 <= v <= zlen pat) good.
Hypothesis Hpat : 1 <= zlen pat.
Lemma bcmp_m text shift : zlen pat < 2 ^ 32 -> zlen pat - 1 <= shift < 2 ^ 32 -> forall suf pre cf n, rev pat = pre ++ suf -> (length suf <= cf)%nat -> bm_cmp up icase suf text (shift - zlen pre) = Some n -> bm_cmp_m up cf m ctx icase text shift (zlen pre) = Ok (zlen pre + n).
Proof.
  intros H32 Hs. induction suf as [|q suf IH]; intros pre cf n Ep Hf E; cbn [bm_cmp] in E; assert (ZR : zlen pat = zlen (rev pat)) by (unfold zlen; rewrite rev_length; reflexivity).
  - injection E as <-. rewrite app_nil_r in Ep. rewrite Ep in ZR. destruct cf; cbn [bm_cmp_m]; rewrite HL; cbn [bind]; rewrite (proj2 (Z.ltb_ge _ _)) by lia; f_equal; lia.
  - cbn [length] in Hf. destruct cf as [|cf]; [lia|]. cbn [bm_cmp_m]. rewrite HL. cbn [bind]. assert (Lp : zlen pat = zlen pre + 1 + zlen suf) by (rewrite ZR, Ep; unfold zlen; rewrite app_length; cbn [length]; lia). assert (P0 : 0 <= zlen pre) by (unfold zlen; lia). assert (P1 : 0 <= zlen suf) by (unfold zlen; lia). rewrite (proj2 (Z.ltb_lt _ _)) by lia.
    assert (Rp : rd pat (zlen pat - zlen pre - 1) = Some q).
    { assert (E2 : pat = rev suf ++ q :: rev pre) by (rewrite <- (rev_involutive pat), Ep, rev_app_distr; cbn [rev]; rewrite <- app_assoc; reflexivity). replace (zlen pat - zlen pre - 1) with (zlen suf) by lia. rewrite E2. unfold rd, zlen. rewrite (proj2 (Z.ltb_ge _ _)) by lia. rewrite Nat2Z.id, nth_error_app2 by (rewrite rev_length; lia). rewrite rev_length, Nat.sub_diag. reflexivity. }
    rewrite (w32_id (zlen pat - zlen pre - 1)) by lia. unfold bpat_rd. rewrite HQ. cbn [bind]. rewrite (ldn1 m _ q (HP _ _ Rp)). cbn [bind]. rewrite (w32_id (shift - zlen pre)) by lia. destruct (rd text (shift - zlen pre)) as [t|]; [|discriminate E]. destruct (q =? (if icase then up t else t)); [|injection E as <-; f_equal; lia].
    rewrite w32_id by lia. assert (Lq : zlen pre + 1 = zlen (pre ++ [q])) by (unfold zlen; rewrite app_length; cbn [length]; lia).
    destruct (bm_cmp up icase suf text (shift - zlen pre - 1)) as [k|] eqn:Ek; [|discriminate E]. injection E as <-. rewrite Lq. rewrite (IH (pre ++ [q]) cf k); [f_equal; lia|rewrite <- app_assoc; exact Ep|lia|]. rewrite <- Ek. f_equal. lia.
Qed.
Lemma bscan_m text length cf : zlen pat + length < 2 ^ 32 -> length <= zlen text -> Forall (fun c => 0 <= c < 256) text -> (Datatypes.length pat <= cf)%nat -> forall fuel shift, zlen pat - 1 <= shift < 2 ^ 32 -> length - shift <= Z.of_nat fuel ->
  exists r, bm_scan up icase fuel {| bpat := pat; bbad := bad; bgood := good |} text length shift = Some r /\ bm_scan_m up fuel cf m ctx icase text length shift = Ok r.
Proof.
  intros H32 H0 HT Hc. assert (ZR : zlen (rev pat) = zlen pat) by (unfold zlen; rewrite rev_length; reflexivity). induction fuel as [|fuel IH]; intros shift Hs Hf; cbn [bm_scan bm_scan_m bpat bbad bgood]; destruct (Z.ltb_spec shift length) as [L|L]; try (exists (inl shift); split; reflexivity); [lia|].
  destruct (bm_cmp_ok up icase text (rev pat) shift ltac:(lia) ltac:(lia)) as (n & En & Bn & _). rewrite ZR in Bn.
  assert (C : bm_cmp_m up cf m ctx icase text shift 0 = Ok n).
  { change 0 with (zlen (@nil Z)) at 1. rewrite (bcmp_m text shift ltac:(lia) Hs (rev pat) [] cf n eq_refl ltac:(rewrite rev_length; exact Hc)); [reflexivity|]. rewrite <- En. f_equal. change (zlen (@nil Z)) with 0. lia. }
  rewrite En, C, HL. cbn [bind]. destruct (Z.eqb_spec n (zlen pat)) as [E|N]; [exists (inr shift); split; reflexivity|]. rewrite w32_id by lia. destruct (rd_some _ text (shift - n)) as (t & Rt); [lia|]. rewrite Rt. assert (Ht : 0 <= t < 256) by (rewrite Forall_forall in HT; apply HT, (rd_in _ _ _ _ Rt)).
  destruct (rd_some _ bad t) as (d & Rd); [lia|]. destruct (rd_some _ good n) as (g & Rg); [lia|]. rewrite Rd, Rg. unfold bad_rd, good_rd. rewrite (HB _ _ Rd), (HG _ _ Rg). cbn [bind]. assert (Hg : 1 <= g <= zlen pat) by (rewrite Forall_forall in Gg; apply Gg, (rd_in _ _ _ _ Rg)).
  assert (W : w32 (shift + g) = shift + g) by (apply w32_id; lia). assert (W2 : 0 <= w32 (shift - n + d) < 2 ^ 32) by (unfold w32; apply Z.mod_pos_bound; lia). apply IH; lia.
Qed.
Lemma bfind_m flags text datalen fuel cf : ldn 8 m (ctx + K_FLAGS) = Ok flags -> Z.testbit flags 0 = icase -> zlen pat + datalen < 2 ^ 32 -> 0 <= datalen <= zlen text -> Forall (fun c => 0 <= c < 256) text -> (length pat <= cf)%nat -> fuel = S (Z.to_nat datalen) ->
  exists r, bm_find up icase {| bpat := pat; bbad := bad; bgood := good |} text datalen 0 = Some r /\ bm_find_m up fuel cf m ctx text datalen = Ok r.
Proof.
  intros HF HI H32 H0 HT Hc Hf. unfold bm_find_m, bm_find. rewrite HF, HL. cbn [bind]. rewrite HI. destruct (Z.ltb_spec 0 datalen) as [L|L].
  - rewrite (proj2 (Z.eqb_neq _ _)) by lia. change (skipn (Z.to_nat 0) text) with text. rewrite Z.sub_0_r. cbn [bpat]. rewrite <- Hf. rewrite (w32_id (zlen pat - 1)) by lia. destruct (bscan_m text datalen cf H32 (proj2 H0) HT Hc fuel (zlen pat - 1) ltac:(lia) ltac:(lia)) as (r & E1 & E2). rewrite E1, E2. cbn [bind]. destruct r as [s|s]; [exists UINT_MAX; split; reflexivity|]. eexists. split; [reflexivity|]. reflexivity.
  - rewrite (proj2 (Z.eqb_eq datalen 0)) by lia. exists UINT_MAX. split; reflexivity.
Qed.
End Find.
