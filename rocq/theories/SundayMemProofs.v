(** * Sunday search contexts in memory: proofs *)
From Verif Require Import Lib TextModel KmpMemModel KmpMemProofs KmpMemProps SundayMemModel SundayMemSpec.
Local Ltac Zify.zify_post_hook ::= Z.div_mod_to_equations.

(** ** Bytes *)
Definition bytes (m : bmem) : Prop := forall x b, m x = Some b -> 0 <= b < 256.
Lemma stn_bytes n : forall m a v m', bytes m -> stn n m a v = Ok m' -> bytes m'.
Proof.
  induction n as [|n IH]; intros m a v m' B E; cbn [stn] in E; [injection E as <-; exact B|]. destruct (m a); [|discriminate]. apply (IH _ _ _ _) in E; [exact E|]. intros x b. unfold updb. destruct (x =? a); [intros H; injection H as <-; lia|apply B].
Qed.
Lemma copy_bytes up icase : forall pattern m p m', bytes m -> copy_in up m p icase pattern = Ok m' -> bytes m'.
Proof.
  induction pattern as [|c pattern IH]; intros m p m' B E; cbn [copy_in] in E; [injection E as <-; exact B|]. destruct (stn 1 m p (if icase then up c else c)) as [m1| |] eqn:E1; try discriminate E. apply (IH m1 (p + 1)); [apply (stn_bytes _ _ _ _ _ B E1)|exact E].
Qed.
Lemma zeroed_bytes base size : bytes (zeroed base size).
Proof. intros x b. unfold zeroed. destruct ((base <=? x) && (x <? base + size)); [|discriminate]. intros E. injection E as <-. lia. Qed.
Lemma ldn1 m a b : m a = Some b -> ldn 1 m a = Ok b.
Proof. intros E. cbn [ldn]. rewrite E. cbn [bind]. f_equal. lia. Qed.
Lemma changed_refl m a n : changed m m a n.
Proof. split; [reflexivity|tauto]. Qed.
Lemma changed_sub m m' a n b k : changed m m' a n -> b <= a -> a + Z.of_nat n <= b + Z.of_nat k -> changed m m' b k.
Proof. intros [H1 H2] A B. split; [|exact H2]. intros x Hx. apply H1. lia. Qed.
Lemma changed_trans m1 m2 m3 a n : changed m1 m2 a n -> changed m2 m3 a n -> changed m1 m3 a n.
Proof. intros [A1 A2] [B1 B2]. split; [intros x Hx; rewrite B1 by exact Hx; apply A1, Hx|]. intros x. rewrite B2. apply A2. Qed.
Lemma rd_cons {A} (c : A) l i : 0 < i -> rd (c :: l) i = rd l (i - 1).
Proof. intros H. unfold rd. rewrite (proj2 (Z.ltb_ge i 0)), (proj2 (Z.ltb_ge (i - 1) 0)) by lia. replace (Z.to_nat i) with (S (Z.to_nat (i - 1))) by lia. reflexivity. Qed.
Lemma copy_stored up icase : forall pattern m p, inb m p (length pattern) ->
  exists m', copy_in up m p icase pattern = Ok m' /\ changed m m' p (length pattern) /\ bytes_at m' p (stored up icase pattern).
Proof.
  induction pattern as [|c pattern IH]; intros m p H; cbn [copy_in].
  - exists m. split; [reflexivity|]. split; [apply changed_refl|]. intros i b E. apply rd_pos in E. unfold zlen in E. cbn [stored map length] in E. lia.
  - cbn [length] in H. destruct (m p) as [x|] eqn:Ep; [|exfalso; apply (H p); [lia|exact Ep]]. cbn [stn]. rewrite Ep. cbn [bind]. set (v := (if icase then up c else c) mod 256). assert (Np : m p <> None) by congruence.
    destruct (IH (updb m p v) (p + 1)) as (m' & E2 & (B1 & B2) & B3); [intros y Hy; rewrite updb_other by lia; apply H; lia|]. exists m'. split; [exact E2|]. split; [split|].
    + intros y Hy. cbn [length] in Hy. rewrite B1 by lia. apply updb_other. lia.
    + intros y. rewrite B2. apply updb_dom, Np.
    + intros i b E. pose proof (rd_pos _ _ _ E) as Hi. destruct (Z.eq_dec i 0) as [->|N].
      * unfold rd in E. cbn [stored map Z.ltb Z.to_nat nth_error Z.compare] in E. injection E as <-. rewrite Z.add_0_r. rewrite B1 by lia. apply updb_same.
      * replace (p + i) with (p + 1 + (i - 1)) by lia. apply B3. cbn [stored map] in E. rewrite rd_cons in E by lia. exact E.
Qed.

Section Ctx.
Variable low : Z -> Z.
Variable ctx : Z.
(** ** The first loop *)
Lemma fill_ok len : forall n m index, 0 <= index -> inb m (ctx + S_TABLE + 4 * index) (4 * n) -> ldn 4 m (ctx + S_LEN) = Ok len -> bytes m ->
  exists m', sunday_fill_m n m ctx index = Ok m' /\ changed m m' (ctx + S_TABLE + 4 * index) (4 * n) /\ bytes m' /\ forall j, index <= j < index + Z.of_nat n -> ldn 4 m' (ctx + S_TABLE + 4 * j) = Ok (w32 (len + 1)).
Proof.
  induction n as [|n IH]; intros m index Hi HB HL B; cbn [sunday_fill_m].
  - exists m. split; [reflexivity|]. split; [apply changed_refl|]. split; [exact B|]. intros; lia.
  - rewrite HL. cbn [bind]. unfold stab_wr. destruct (store 4 m (ctx + S_TABLE + 4 * index) (w32 (len + 1))) as (m1 & E1 & C1 & V1); [intros x Hx; apply HB; lia|unfold w32; change (256 ^ Z.of_nat 4) with (2 ^ 32); apply Z.mod_pos_bound; lia|].
    rewrite E1. cbn [bind]. destruct (IH m1 (index + 1)) as (m' & E & C & B' & V); [lia|apply (inb_changed _ _ _ _ _ _ C1); intros x Hx; apply HB; lia|rewrite (keep_ldn _ _ _ _ _ _ C1) by (unfold S_LEN, S_TABLE; lia); exact HL|apply (stn_bytes _ _ _ _ _ B E1)|].
    exists m'. split; [exact E|]. split; [apply (changed_trans _ m1); [apply (changed_sub _ _ _ _ _ _ C1); lia|apply (changed_sub _ _ _ _ _ _ C); lia]|]. split; [exact B'|]. intros j Hj. destruct (Z.eq_dec j index) as [->|N]; [|apply V; lia]. rewrite (keep_ldn _ _ _ _ _ _ C) by lia. exact V1.
Qed.
(** ** The second loop, for a pattern of at least four bytes *)
Lemma prefix_long flags len : 4 <= len < 2 ^ 32 -> (forall c, 0 <= c < 256 -> 0 <= low c < 256) -> forall fuel m index, 0 <= index <= len -> len - index <= Z.of_nat fuel ->
  inb m (ctx + S_TABLE) 1020 -> inb m (ctx + S_PATTERN) (Z.to_nat len) -> ldn 4 m (ctx + S_LEN) = Ok len -> ldn 8 m (ctx + K_FLAGS) = Ok flags -> bytes m ->
  exists m', sunday_prefix_m low fuel m ctx index = Ok m' /\ changed m m' (ctx + S_TABLE) 1024.
Proof.
  intros Hl Hlow. induction fuel as [|fuel IH]; intros m index Hi Hf HT HP HL HF B; cbn [sunday_prefix_m]; rewrite HL; cbn [bind]; destruct (Z.ltb_spec index len) as [L|L].
  - lia.
  - exists m. split; [reflexivity|apply changed_refl].
  - assert (G : forall m, inb m (ctx + S_TABLE) 1020 -> inb m (ctx + S_PATTERN) (Z.to_nat len) -> bytes m -> exists p, spat_rd m ctx index = Ok p /\ 0 <= p < 256).
    { intros m0 _ H0 B0. destruct (m0 (ctx + S_PATTERN + index)) as [p|] eqn:Ep; [|exfalso; apply (H0 (ctx + S_PATTERN + index)); [lia|exact Ep]]. exists p. split; [apply ldn1, Ep|apply (B0 _ _ Ep)]. }
    assert (W : forall m p v, inb m (ctx + S_TABLE) 1020 -> inb m (ctx + S_PATTERN) (Z.to_nat len) -> bytes m -> 0 <= p < 256 -> exists m', stab_wr m ctx p v = Ok m' /\ changed m m' (ctx + S_TABLE) 1024 /\ bytes m').
    { intros m0 p v H1 H2 B0 Hp. unfold stab_wr. destruct (stn_ok 4 m0 (ctx + S_TABLE + 4 * p) v) as [m1 E1]; [intros x Hx; destruct (Z.ltb_spec x (ctx + S_PATTERN)); [apply H1; unfold S_PATTERN, S_TABLE in *; lia|apply H2; unfold S_PATTERN, S_TABLE in *; lia]|].
      exists m1. split; [exact E1|]. split; [|apply (stn_bytes _ _ _ _ _ B0 E1)]. apply stn_inv in E1. destruct E1 as (_ & E2 & E3 & _). split; [intros x Hx; apply E2; lia|exact E3]. }
    assert (K : forall m m', changed m m' (ctx + S_TABLE) 1024 -> ldn 4 m' (ctx + S_LEN) = ldn 4 m (ctx + S_LEN) /\ ldn 8 m' (ctx + K_FLAGS) = ldn 8 m (ctx + K_FLAGS)).
    { intros m0 m1 C. split; apply (keep_ldn _ _ _ _ _ _ C); left; unfold S_LEN, K_FLAGS, S_TABLE; lia. }
    destruct (G m HT HP B) as (p & -> & Hp). cbn [bind]. destruct (W m p (w32 (len - index)) HT HP B Hp) as (m1 & -> & C1 & B1). cbn [bind]. destruct (K _ _ C1) as [K1 K2]. rewrite K2, HF. cbn [bind].
    pose proof (inb_changed _ _ _ _ _ _ C1 HT) as HT1. pose proof (inb_changed _ _ _ _ _ _ C1 HP) as HP1.
    assert (S2 : exists m2, (if Z.testbit flags 0 then do p <- spat_rd m1 ctx index; stab_wr m1 ctx (low p) (w32 (len - index)) else Ok m1) = Ok m2 /\ changed m1 m2 (ctx + S_TABLE) 1024 /\ bytes m2).
    { destruct (Z.testbit flags 0); [|exists m1; split; [reflexivity|split; [apply changed_refl|exact B1]]]. destruct (G m1 HT1 HP1 B1) as (p1 & -> & Hp1). cbn [bind]. apply (W m1 (low p1) _ HT1 HP1 B1 (Hlow p1 Hp1)). }
    destruct S2 as (m2 & -> & C2 & B2). cbn [bind]. destruct (K _ _ C2) as [K3 K4]. rewrite w32_id by lia. destruct (IH m2 (index + 1)) as (m' & E & C); [lia|lia|apply (inb_changed _ _ _ _ _ _ C2 HT1)|apply (inb_changed _ _ _ _ _ _ C2 HP1)|congruence|congruence|exact B2|].
    exists m'. split; [exact E|]. apply (changed_trans _ m1 _ _ _ C1), (changed_trans _ m2 _ _ _ C2), C.
  - exists m. split; [reflexivity|apply changed_refl].
Qed.
(** ** The second loop, for a pattern without byte 255 *)
Lemma words_wr m tab i v tab' m' : zlen tab = 255 -> words_at m (ctx + S_TABLE) tab -> wr tab i v = Some tab' -> stab_wr m ctx i v = Ok m' -> 0 <= v < 2 ^ 32 -> words_at m' (ctx + S_TABLE) tab'.
Proof.
  intros Hz W E ES Hv j u Hu. unfold stab_wr in ES. apply stn_inv in ES. destruct ES as (_ & E2 & _ & E4). rewrite Z.mod_small in E4 by (change (256 ^ Z.of_nat 4) with (2 ^ 32); exact Hv).
  apply wr_inv in E. destruct E as (_ & _ & R). rewrite R in Hu. destruct (Z.eqb_spec j i) as [->|N].
  - injection Hu as <-. exact E4.
  - rewrite (ldn_ext 4 m m'); [apply W, Hu|]. intros x Hx. apply E2. lia.
Qed.
Lemma prefix_short flags pat : zlen pat < 2 ^ 32 -> forall suf pre fuel m tab tab', pat = pre ++ suf -> (length suf <= fuel)%nat -> zlen tab = 255 ->
  inb m (ctx + S_TABLE) 1020 -> bytes_at m (ctx + S_PATTERN) pat -> words_at m (ctx + S_TABLE) tab -> ldn 4 m (ctx + S_LEN) = Ok (zlen pat) -> ldn 8 m (ctx + K_FLAGS) = Ok flags ->
  sunday_prefix low (Z.testbit flags 0) (zlen pat) suf (zlen pre) tab = Some tab' ->
  exists m', sunday_prefix_m low fuel m ctx (zlen pre) = Ok m' /\ changed m m' (ctx + S_TABLE) 1020 /\ words_at m' (ctx + S_TABLE) tab'.
Proof.
  intros Hl. induction suf as [|p suf IH]; intros pre fuel m tab tab' Ep Hf Hz HT HP HW HL HF E.
  - cbn [sunday_prefix] in E. injection E as <-. exists m. split; [|split; [apply changed_refl|exact HW]]. rewrite app_nil_r in Ep. subst pre. destruct fuel; cbn [sunday_prefix_m]; rewrite HL; cbn [bind]; rewrite (proj2 (Z.ltb_ge _ _)) by lia; reflexivity.
  - cbn [length] in Hf. destruct fuel as [|fuel]; [lia|]. cbn [sunday_prefix_m]. rewrite HL. cbn [bind]. assert (Lp : zlen pat = zlen pre + 1 + zlen suf) by (rewrite Ep; unfold zlen; rewrite app_length; cbn [length]; lia). assert (P0 : 0 <= zlen pre) by (unfold zlen; lia). assert (P1 : 0 <= zlen suf) by (unfold zlen; lia). rewrite (proj2 (Z.ltb_lt _ _)) by lia.
    assert (Rp : rd pat (zlen pre) = Some p) by (rewrite Ep; unfold rd, zlen; rewrite (proj2 (Z.ltb_ge _ _)) by lia; rewrite Nat2Z.id, nth_error_app2 by lia; rewrite Nat.sub_diag; reflexivity).
    assert (G : forall m, bytes_at m (ctx + S_PATTERN) pat -> spat_rd m ctx (zlen pre) = Ok p) by (intros m0 H0; apply ldn1, H0, Rp).
    assert (W : forall m tab p tab', zlen tab = 255 -> inb m (ctx + S_TABLE) 1020 -> bytes_at m (ctx + S_PATTERN) pat -> words_at m (ctx + S_TABLE) tab -> wr tab p (w32 (zlen pat - zlen pre)) = Some tab' ->
      exists m', stab_wr m ctx p (w32 (zlen pat - zlen pre)) = Ok m' /\ changed m m' (ctx + S_TABLE) 1020 /\ words_at m' (ctx + S_TABLE) tab' /\ zlen tab' = 255 /\ inb m' (ctx + S_TABLE) 1020 /\ bytes_at m' (ctx + S_PATTERN) pat).
    { intros m0 tab0 q tab1 Hz0 HT0 HP0 HW0 E0. pose proof (wr_inv _ _ _ _ _ E0) as (Hq & Hz1 & _). rewrite Hz0 in Hq. destruct (stn_ok 4 m0 (ctx + S_TABLE + 4 * q) (w32 (zlen pat - zlen pre))) as [m1 E1]; [intros x Hx; apply HT0; lia|].
      exists m1. split; [exact E1|]. assert (C : changed m0 m1 (ctx + S_TABLE) 1020) by (apply stn_inv in E1; destruct E1 as (_ & E2 & E3 & _); split; [intros x Hx; apply E2; lia|exact E3]). split; [exact C|]. split; [apply (words_wr m0 tab0 q _ tab1 m1 Hz0 HW0 E0 E1); unfold w32; apply Z.mod_pos_bound; lia|].
      split; [congruence|]. split; [apply (inb_changed _ _ _ _ _ _ C HT0)|]. intros i b Hb. pose proof (rd_pos _ _ _ Hb). destruct C as [C _]. rewrite C by (unfold S_TABLE, S_PATTERN; lia). apply HP0, Hb. }
    assert (K : forall m m', changed m m' (ctx + S_TABLE) 1020 -> ldn 4 m' (ctx + S_LEN) = ldn 4 m (ctx + S_LEN) /\ ldn 8 m' (ctx + K_FLAGS) = ldn 8 m (ctx + K_FLAGS)).
    { intros m0 m1 C. split; apply (keep_ldn _ _ _ _ _ _ C); left; unfold S_LEN, K_FLAGS, S_TABLE; lia. }
    cbn [sunday_prefix] in E. rewrite (G m HP). cbn [bind]. destruct (wr tab p (w32 (zlen pat - zlen pre))) as [tab1|] eqn:E1; [|discriminate E]. destruct (W m tab p tab1 Hz HT HP HW E1) as (m1 & -> & C1 & W1 & Z1 & T1 & P1'). cbn [bind]. destruct (K _ _ C1) as [K1 K2]. rewrite K2, HF. cbn [bind].
    assert (S2 : exists m2 tab2, (if Z.testbit flags 0 then do p <- spat_rd m1 ctx (zlen pre); stab_wr m1 ctx (low p) (w32 (zlen pat - zlen pre)) else Ok m1) = Ok m2 /\ changed m1 m2 (ctx + S_TABLE) 1020 /\
      words_at m2 (ctx + S_TABLE) tab2 /\ zlen tab2 = 255 /\ inb m2 (ctx + S_TABLE) 1020 /\ bytes_at m2 (ctx + S_PATTERN) pat /\ sunday_prefix low (Z.testbit flags 0) (zlen pat) suf (zlen pre + 1) tab2 = Some tab').
    { destruct (Z.testbit flags 0).
      - rewrite (G m1 P1'). cbn [bind]. destruct (wr tab1 (low p) (w32 (zlen pat - zlen pre))) as [tab2|] eqn:E2; [|discriminate E]. destruct (W m1 tab1 (low p) tab2 Z1 T1 P1' W1 E2) as (m2 & A1 & A2 & A3 & A4 & A5 & A6). exists m2, tab2. repeat (split; [assumption|]). exact E.
      - exists m1, tab1. split; [reflexivity|]. split; [apply changed_refl|]. repeat (split; [assumption|]). exact E. }
    destruct S2 as (m2 & tab2 & -> & C2 & W2 & Z2 & T2 & P2 & E2). cbn [bind]. destruct (K _ _ C2) as [K3 K4]. rewrite w32_id by lia. assert (Lq : zlen pre + 1 = zlen (pre ++ [p])) by (unfold zlen; rewrite app_length; cbn [length]; lia). rewrite Lq in E2 |- *.
    destruct (IH (pre ++ [p]) fuel m2 tab2 tab') as (m' & E' & C' & W'); [rewrite <- app_assoc; exact Ep|lia|exact Z2|exact T2|exact P2|exact W2|congruence|congruence|exact E2|].
    exists m'. split; [exact E'|]. split; [apply (changed_trans _ m1 _ _ _ C1), (changed_trans _ m2 _ _ _ C2), C'|exact W'].
Qed.
(** ** The second loop, for a short pattern with byte 255 *)
Lemma prefix_overrun flags pat : zlen pat < 4 -> Z.testbit flags 0 = false -> Forall (fun p => 0 <= p < 256) pat -> forall suf pre fuel m, pat = pre ++ suf -> (length suf <= fuel)%nat -> In 255 suf ->
  inb m (ctx + S_TABLE) 1020 -> m (ctx + S_PATTERN + zlen pat) = None -> bytes_at m (ctx + S_PATTERN) pat -> ldn 4 m (ctx + S_LEN) = Ok (zlen pat) -> ldn 8 m (ctx + K_FLAGS) = Ok flags -> sunday_prefix_m low fuel m ctx (zlen pre) = Fault.
Proof.
  intros Hl Hfl HB. induction suf as [|p suf IH]; intros pre fuel m Ep Hf HI HT HN HP HL HF; [destruct HI|].
  cbn [length] in Hf. destruct fuel as [|fuel]; [lia|]. cbn [sunday_prefix_m]. rewrite HL. cbn [bind]. assert (Lp : zlen pat = zlen pre + 1 + zlen suf) by (rewrite Ep; unfold zlen; rewrite app_length; cbn [length]; lia). assert (P0 : 0 <= zlen pre) by (unfold zlen; lia). assert (P1 : 0 <= zlen suf) by (unfold zlen; lia). rewrite (proj2 (Z.ltb_lt _ _)) by lia.
  assert (Rp : rd pat (zlen pre) = Some p) by (rewrite Ep; unfold rd, zlen; rewrite (proj2 (Z.ltb_ge _ _)) by lia; rewrite Nat2Z.id, nth_error_app2 by lia; rewrite Nat.sub_diag; reflexivity).
  unfold spat_rd. rewrite (ldn1 m _ p (HP _ _ Rp)). cbn [bind]. assert (Hp : 0 <= p < 256) by (rewrite Forall_forall in HB; apply HB; rewrite Ep; apply in_or_app; right; left; reflexivity).
  unfold stab_wr. destruct (Z.eq_dec p 255) as [->|Np].
  - destruct (stn 4 m (ctx + S_TABLE + 4 * 255) (w32 (zlen pat - zlen pre))) as [m1| |] eqn:E1; [|reflexivity|exfalso; apply (stn_not_stuck _ _ _ _ E1)]. apply stn_inv in E1. destruct E1 as (I1 & _). exfalso. apply (I1 (ctx + S_PATTERN + zlen pat)); [unfold S_TABLE, S_PATTERN; lia|exact HN].
  - destruct (stn_ok 4 m (ctx + S_TABLE + 4 * p) (w32 (zlen pat - zlen pre))) as [m1 E1]; [intros x Hx; apply HT; lia|]. rewrite E1. cbn [bind]. apply stn_inv in E1. destruct E1 as (_ & E2 & E3 & _). assert (C : changed m m1 (ctx + S_TABLE) 1020) by (split; [intros x Hx; apply E2; lia|exact E3]).
    assert (K1 : ldn 4 m1 (ctx + S_LEN) = ldn 4 m (ctx + S_LEN)) by (apply (keep_ldn _ _ _ _ _ _ C); left; unfold S_LEN, S_TABLE; lia). assert (K2 : ldn 8 m1 (ctx + K_FLAGS) = ldn 8 m (ctx + K_FLAGS)) by (apply (keep_ldn _ _ _ _ _ _ C); left; unfold K_FLAGS, S_TABLE; lia).
    rewrite K2, HF. cbn [bind]. rewrite Hfl. cbn [bind]. rewrite w32_id by lia. assert (Lq : zlen pre + 1 = zlen (pre ++ [p])) by (unfold zlen; rewrite app_length; cbn [length]; lia). rewrite Lq. apply IH; [rewrite <- app_assoc; exact Ep|lia|destruct HI as [HI|HI]; [congruence|exact HI]|apply (inb_changed _ _ _ _ _ _ C HT)|apply E3, HN| |congruence|congruence].
    intros i b Hb. pose proof (rd_pos _ _ _ Hb). destruct C as [C _]. rewrite C by (unfold S_TABLE, S_PATTERN; lia). apply HP, Hb.
Qed.
End Ctx.

(** ** Searching *)
Lemma prefix_bound low icase len : forall pat index tab tab', 0 <= index -> index + zlen pat <= len -> len < 2 ^ 32 -> Forall (fun v => 0 <= v <= len + 1) tab -> sunday_prefix low icase len pat index tab = Some tab' -> Forall (fun v => 0 <= v <= len + 1) tab'.
Proof.
  assert (W : forall tab i v tab' len, Forall (fun v => 0 <= v <= len + 1) tab -> 0 <= v <= len + 1 -> wr tab i v = Some tab' -> Forall (fun v => 0 <= v <= len + 1) tab').
  { intros tab i v tab' l H Hv E. apply wr_inv in E. destruct E as (_ & _ & R). rewrite Forall_forall in *. intros x Hx. apply In_nth_error in Hx. destruct Hx as [j Hj]. specialize (R (Z.of_nat j)). unfold rd in R at 1. rewrite (proj2 (Z.ltb_ge _ _)) in R by lia. rewrite Nat2Z.id, Hj in R. destruct (Z.of_nat j =? i); [injection R as ->; exact Hv|]. apply H. symmetry in R. apply (rd_in _ _ _ _ R). }
  induction pat as [|p pat IH]; intros index tab tab' Hi Hl H32 HB E; cbn [sunday_prefix] in E; [injection E as <-; exact HB|].
  assert (Lp : zlen (p :: pat) = zlen pat + 1) by (unfold zlen; cbn [length]; lia). assert (P1 : 0 <= zlen pat) by (unfold zlen; lia). assert (V : 0 <= w32 (len - index) <= len + 1) by (rewrite w32_id; lia).
  destruct (wr tab p (w32 (len - index))) as [tab1|] eqn:E1; [|discriminate E]. pose proof (W _ _ _ _ _ HB V E1) as H1. destruct icase.
  - destruct (wr tab1 (low p) (w32 (len - index))) as [tab2|] eqn:E2; [|discriminate E]. apply (IH (index + 1) tab2 tab'); [lia|lia|exact H32|apply (W _ _ _ _ _ H1 V E2)|exact E].
  - apply (IH (index + 1) tab1 tab'); [lia|lia|exact H32|exact H1|exact E].
Qed.
Section Find.
Variable up : Z -> Z.
Variables (ctx : Z) (m : bmem) (pat tab : list Z) (icase : bool).
Hypothesis HP : bytes_at m (ctx + S_PATTERN) pat.
Hypothesis HL : ldn 4 m (ctx + S_LEN) = Ok (zlen pat).
Hypothesis HW : words_at m (ctx + S_TABLE) tab.
Lemma cmp_m text shift : zlen pat < 2 ^ 32 -> forall suf pre cf n, pat = pre ++ suf -> (length suf <= cf)%nat -> sunday_cmp up icase suf text (shift + zlen pre) = Some n -> sunday_cmp_m up cf m ctx icase text shift (zlen pre) = Ok (zlen pre + n).
Proof.
  intros H32. induction suf as [|p suf IH]; intros pre cf n Ep Hf E; cbn [sunday_cmp] in E.
  - injection E as <-. rewrite app_nil_r in Ep. subst pre. destruct cf; cbn [sunday_cmp_m]; rewrite HL; cbn [bind]; rewrite (proj2 (Z.ltb_ge _ _)) by lia; f_equal; lia.
  - cbn [length] in Hf. destruct cf as [|cf]; [lia|]. cbn [sunday_cmp_m]. rewrite HL. cbn [bind]. assert (Lp : zlen pat = zlen pre + 1 + zlen suf) by (rewrite Ep; unfold zlen; rewrite app_length; cbn [length]; lia). assert (P0 : 0 <= zlen pre) by (unfold zlen; lia). assert (P1 : 0 <= zlen suf) by (unfold zlen; lia). rewrite (proj2 (Z.ltb_lt _ _)) by lia.
    assert (Rp : rd pat (zlen pre) = Some p) by (rewrite Ep; unfold rd, zlen; rewrite (proj2 (Z.ltb_ge _ _)) by lia; rewrite Nat2Z.id, nth_error_app2 by lia; rewrite Nat.sub_diag; reflexivity).
    unfold spat_rd. rewrite (ldn1 m _ p (HP _ _ Rp)). cbn [bind]. destruct (rd text (shift + zlen pre)) as [t|]; [|discriminate E]. destruct (p =? (if icase then up t else t)); [|injection E as <-; f_equal; lia].
    rewrite w32_id by lia. assert (Lq : zlen pre + 1 = zlen (pre ++ [p])) by (unfold zlen; rewrite app_length; cbn [length]; lia).
    destruct (sunday_cmp up icase suf text (shift + zlen pre + 1)) as [k|] eqn:Ek; [|discriminate E]. injection E as <-. rewrite Lq. rewrite (IH (pre ++ [p]) cf k); [f_equal; lia|rewrite <- app_assoc; exact Ep|lia|]. rewrite <- Ek. f_equal. lia.
Qed.
Lemma scan_m text length cf : zlen pat + length + 1 < 2 ^ 32 -> 0 <= length -> Forall (fun v => 0 <= v <= zlen pat + 1) tab -> (Datatypes.length pat <= cf)%nat -> forall fuel shift r, 0 <= shift <= length + 1 ->
  sunday_scan up icase fuel {| spat := pat; stab := tab |} text length shift = Some r -> sunday_scan_m up fuel cf m ctx icase text length shift = Ok r /\ match r with inr s => 0 <= s <= length | inl _ => True end.
Proof.
  intros H32 H0 HB Hc. assert (P0 : 0 <= zlen pat) by (unfold zlen; lia). induction fuel as [|fuel IH]; intros shift r Hs E; cbn [sunday_scan sunday_scan_m spat stab] in *; rewrite HL; cbn [bind]; rewrite w32_id by lia; destruct (Z.leb_spec (zlen pat + shift) length) as [L|L]; try discriminate E; try (injection E as <-; split; [reflexivity|exact I]).
  destruct (sunday_cmp up icase pat text shift) as [n|] eqn:En; [|discriminate E]. assert (C : sunday_cmp_m up cf m ctx icase text shift 0 = Ok n).
  { change 0 with (zlen (@nil Z)) at 1. rewrite (cmp_m text shift ltac:(lia) pat [] cf n eq_refl Hc); [reflexivity|]. rewrite <- En. f_equal. change (zlen (@nil Z)) with 0. lia. }
  rewrite C. cbn [bind]. destruct (n =? zlen pat); [injection E as <-; split; [reflexivity|lia]|]. destruct (length <=? zlen pat); [injection E as <-; split; [reflexivity|exact I]|].
  destruct (rd text (shift + zlen pat)) as [t|]; [|discriminate E]. destruct (rd tab t) as [d|] eqn:Ed; [|discriminate E]. unfold stab_rd. rewrite (HW _ _ Ed). cbn [bind]. assert (Hd : 0 <= d <= zlen pat + 1) by (rewrite Forall_forall in HB; apply HB, (rd_in _ _ _ _ Ed)). apply IH; [rewrite w32_id; lia|exact E].
Qed.
Lemma find_m flags text datalen fuel cf r : ldn 8 m (ctx + K_FLAGS) = Ok flags -> Z.testbit flags 0 = icase -> zlen pat + datalen + 1 < 2 ^ 32 -> 0 <= datalen -> Forall (fun v => 0 <= v <= zlen pat + 1) tab -> (length pat <= cf)%nat -> fuel = S (Z.to_nat datalen) ->
  sunday_find up icase {| spat := pat; stab := tab |} text datalen 0 = Some r -> sunday_find_m up fuel cf m ctx text datalen = Ok r.
Proof.
  intros HF HI H32 H0 HB Hc Hf E. unfold sunday_find_m, sunday_find in *. rewrite HF. cbn [bind]. rewrite HI. destruct (Z.ltb_spec 0 datalen) as [L|L].
  - rewrite (proj2 (Z.eqb_neq _ _)) by lia. change (skipn (Z.to_nat 0) text) with text in E. rewrite Z.sub_0_r in E. rewrite <- Hf in E. destruct (sunday_scan up icase fuel _ text datalen 0) as [q|] eqn:Eq; [|discriminate E]. destruct (scan_m text datalen cf H32 H0 HB Hc fuel 0 q ltac:(lia) Eq) as [E2 Hq]. rewrite E2. cbn [bind]. destruct q as [s|s]; injection E as <-; reflexivity.
  - rewrite (proj2 (Z.eqb_eq datalen 0)) by lia. injection E as <-. reflexivity.
Qed.
End Find.
