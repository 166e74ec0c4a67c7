(** * Text search contexts in memory: the block holds the table and the pattern of TextModel *)
From Verif Require Import Lib TextModel TextSpec KmpProofs KmpMemModel.
Local Ltac Zify.zify_post_hook ::= Z.div_mod_to_equations.

(** ** Bytes *)
Definition inb (m : bmem) (a : Z) (n : nat) : Prop := forall x, a <= x < a + Z.of_nat n -> m x <> None.
Lemma updb_same m a v : updb m a v a = Some v.
Proof. unfold updb. rewrite Z.eqb_refl. reflexivity. Qed.
Lemma updb_other m a v x : x <> a -> updb m a v x = m x.
Proof. intros H. unfold updb. rewrite (proj2 (Z.eqb_neq x a) H). reflexivity. Qed.
Lemma updb_dom m a v x : m a <> None -> (updb m a v x = None <-> m x = None).
Proof. intros H. unfold updb. destruct (Z.eqb_spec x a) as [->|]; [split; [discriminate|contradiction]|tauto]. Qed.
Lemma ldn_ext n : forall m m' a, (forall x, a <= x < a + Z.of_nat n -> m' x = m x) -> ldn n m' a = ldn n m a.
Proof.
  induction n as [|n IH]; intros m m' a H; cbn [ldn]; [reflexivity|]. rewrite (H a) by lia. destruct (m a); [|reflexivity]. rewrite (IH m m' (a + 1)); [reflexivity|]. intros x Hx. apply H. lia.
Qed.
Lemma ldn_ok n : forall m a, inb m a n -> exists v, ldn n m a = Ok v.
Proof.
  induction n as [|n IH]; intros m a H; cbn [ldn]; [eauto|]. destruct (m a) as [b|] eqn:E; [|exfalso; apply (H a); [lia|exact E]]. destruct (IH m (a + 1)) as [v Ev]; [intros x Hx; apply H; lia|]. rewrite Ev. cbn [bind]. eauto.
Qed.
Lemma ldn_not_stuck n : forall m a, ldn n m a <> Stuck.
Proof. induction n as [|n IH]; intros m a; cbn [ldn]; [discriminate|]. destruct (m a); [|discriminate]. specialize (IH m (a + 1)). destruct (ldn n m (a + 1)); cbn [bind]; congruence. Qed.
Lemma stn_not_stuck n : forall m a v, stn n m a v <> Stuck.
Proof. induction n as [|n IH]; intros m a v; cbn [stn]; [discriminate|]. destruct (m a); [apply IH|discriminate]. Qed.
Lemma stn_inv n : forall m a v m', stn n m a v = Ok m' ->
  inb m a n /\ (forall x, ~ (a <= x < a + Z.of_nat n) -> m' x = m x) /\ (forall x, m' x = None <-> m x = None) /\ ldn n m' a = Ok (v mod 256 ^ Z.of_nat n).
Proof.
  induction n as [|n IH]; intros m a v m' E; cbn [stn] in E.
  - injection E as <-. split; [intros x Hx; lia|]. split; [reflexivity|]. split; [tauto|]. cbn [ldn]. change (256 ^ Z.of_nat 0) with 1. rewrite Z.mod_1_r. reflexivity.
  - destruct (m a) as [b|] eqn:Ea; [|discriminate]. assert (Na : m a <> None) by congruence. apply IH in E. destruct E as (E1 & E2 & E3 & E4). split; [|split; [|split]].
    + intros x Hx. destruct (Z.eq_dec x a) as [->|N]; [exact Na|]. specialize (E1 x ltac:(lia)). rewrite updb_other in E1 by exact N. exact E1.
    + intros x Hx. rewrite E2 by lia. apply updb_other. lia.
    + intros x. rewrite E3. apply updb_dom, Na.
    + cbn [ldn]. rewrite E2 by lia. rewrite updb_same, E4. cbn [bind]. f_equal. rewrite Nat2Z.inj_succ, Z.pow_succ_r by lia. assert (0 < 256 ^ Z.of_nat n) by (apply Z.pow_pos_nonneg; lia). rewrite Z.rem_mul_r by lia. reflexivity.
Qed.
Lemma stn_ok n : forall m a v, inb m a n -> exists m', stn n m a v = Ok m'.
Proof.
  induction n as [|n IH]; intros m a v H; cbn [stn]; [eauto|]. destruct (m a) as [b|] eqn:E; [|exfalso; apply (H a); [lia|exact E]]. apply IH. intros x Hx. rewrite updb_other by lia. apply H. lia.
Qed.
(** [m'] is [m] with [n] bytes at [a] changed *)
Definition changed (m m' : bmem) (a : Z) (n : nat) : Prop := (forall x, ~ (a <= x < a + Z.of_nat n) -> m' x = m x) /\ (forall x, m' x = None <-> m x = None).
Lemma store n m a v : inb m a n -> 0 <= v < 256 ^ Z.of_nat n -> exists m', stn n m a v = Ok m' /\ changed m m' a n /\ ldn n m' a = Ok v.
Proof. intros H Hv. destruct (stn_ok n m a v H) as [m' E]. exists m'. split; [exact E|]. apply stn_inv in E. destruct E as (_ & E2 & E3 & E4). rewrite Z.mod_small in E4 by exact Hv. split; [split; assumption|exact E4]. Qed.
Lemma inb_changed m m' a n b k : changed m m' a n -> inb m b k -> inb m' b k.
Proof. intros [_ H] I x Hx E. apply H in E. apply (I x Hx E). Qed.
Lemma keep_ldn m m' a n b k : changed m m' a n -> b + Z.of_nat k <= a \/ a + Z.of_nat n <= b -> ldn k m' b = ldn k m b.
Proof. intros [H _] D. apply ldn_ext. intros x Hx. apply H. lia. Qed.
Lemma schar_mod c : schar (c mod 256) = schar c.
Proof. unfold schar. rewrite Zplus_mod_idemp_l. reflexivity. Qed.
Lemma schar_id c : -128 <= c < 128 -> schar c = c.
Proof. intros H. unfold schar. rewrite Z.mod_small; lia. Qed.

Lemma w32_id x : 0 <= x < 2 ^ 32 -> w32 x = x.
Proof. apply Z.mod_small. Qed.
Lemma rd_pos {A} (l : list A) i v : rd l i = Some v -> 0 <= i < zlen l.
Proof. intros H. unfold rd in H. destruct (Z.ltb_spec i 0); [discriminate|]. assert (nth_error l (Z.to_nat i) <> None) by congruence. apply nth_error_Some in H1. unfold zlen. lia. Qed.

(** ** The context *)
Section Ctx.
Variable up : Z -> Z.
Variable base : Z.
(** the pattern [pat] and its length, the flags, and the block *)
Record fields (m : bmem) (pat : list Z) (flags : Z) : Prop := {
  f_dom : forall x, m x <> None <-> base <= x < base + (48 + 5 * zlen pat);
  f_flags : ldn 8 m (base + K_FLAGS) = Ok flags;
  f_pattern : ldn 8 m (base + K_PATTERN) = Ok (base + 48 + 4 * zlen pat);
  f_len : ldn 4 m (base + K_LEN) = Ok (zlen pat);
  f_pat : forall i c, rd pat i = Some c -> exists b, ldn 1 m (base + 48 + 4 * zlen pat + i) = Ok b /\ schar b = c
}.
(** the table, whose entries fall *)
Definition table (m : bmem) (tab : list Z) : Prop := forall i v, rd tab i = Some v -> ldn 4 m (base + K_TABLE + 4 * i) = Ok v /\ 0 <= v <= i.
Lemma pat_rd_ok m pat flags i c : fields m pat flags -> rd pat i = Some c -> pat_rd m base i = Ok c.
Proof. intros H E. unfold pat_rd. rewrite (f_pattern _ _ _ H). cbn [bind]. destruct (f_pat _ _ _ H i c E) as (b & -> & <-). reflexivity. Qed.
Lemma back_m m pat flags tab c : fields m pat flags -> table m tab -> zlen pat < 2 ^ 30 -> forall fuel fuel' k r, (fuel <= fuel')%nat -> 0 <= k ->
  kmp_back fuel pat tab c k = Some r -> kmp_back_m fuel' m base c k = Ok r /\ 0 <= r <= k.
Proof.
  intros HF HT HL. induction fuel as [|fuel IH]; intros fuel' k r Hf Hk E; cbn [kmp_back] in E.
  - destruct (Z.eqb_spec k 0) as [->|N]; [injection E as <-; destruct fuel'; cbn; split; try reflexivity; lia|]. destruct (rd pat k) as [p|] eqn:Ep; [|discriminate]. destruct (p =? c) eqn:B; [|discriminate]. injection E as <-.
    destruct fuel'; cbn [kmp_back_m]; rewrite (proj2 (Z.eqb_neq k 0) N), (pat_rd_ok _ _ _ _ _ HF Ep); cbn [bind]; rewrite B; split; try reflexivity; lia.
  - destruct fuel' as [|fuel']; [lia|]. cbn [kmp_back_m]. destruct (Z.eqb_spec k 0) as [->|N]; [injection E as <-; split; [reflexivity|lia]|]. destruct (rd pat k) as [p|] eqn:Ep; [|discriminate]. rewrite (pat_rd_ok _ _ _ _ _ HF Ep). cbn [bind].
    destruct (p =? c) eqn:B; [injection E as <-; split; [reflexivity|lia]|]. destruct (rd tab (k - 1)) as [x|] eqn:Ex; [|discriminate]. destruct (HT _ _ Ex) as [E1 E2]. apply rd_pos in Ep. rewrite w32_id by lia. unfold tab_rd. rewrite E1. cbn [bind].
    destruct (IH fuel' x r ltac:(lia) ltac:(lia) E) as [I1 I2]. split; [exact I1|lia].
Qed.
Lemma step_m m pat flags tab c bf k r : fields m pat flags -> table m tab -> zlen pat < 2 ^ 30 -> (length pat <= bf)%nat -> 0 <= k ->
  kmp_step pat tab c k = Some r -> kmp_step_m bf m base c k = Ok r /\ 0 <= r <= k + 1 /\ r <= zlen pat.
Proof.
  intros HF HT HL Hb Hk E. unfold kmp_step in E. destruct (kmp_back (length pat) pat tab c k) as [k1|] eqn:E1; [|discriminate]. destruct (back_m m pat flags tab c HF HT HL _ bf k k1 Hb Hk E1) as [I1 I2].
  destruct (rd pat k1) as [p|] eqn:Ep; [|discriminate]. injection E as <-. unfold kmp_step_m. rewrite I1. cbn [bind]. rewrite (pat_rd_ok _ _ _ _ _ HF Ep). cbn [bind]. apply rd_pos in Ep. rewrite w32_id by lia. split; [reflexivity|]. destruct (p =? c); lia.
Qed.
Lemma table_write m m' pat flags tab tab' index k : fields m pat flags -> table m tab -> zlen tab = zlen pat -> 0 <= k <= index -> zlen pat < 2 ^ 30 ->
  wr tab index k = Some tab' -> tab_wr m base index k = Ok m' -> fields m' pat flags /\ table m' tab' /\ zlen tab' = zlen pat.
Proof.
  intros HF HT HL Hk H30 Ew Em. destruct (wr_inv _ _ _ _ _ Ew) as (R & L & RW). unfold tab_wr in Em. apply stn_inv in Em. destruct Em as (M1 & M2 & M3 & M4). change (Z.of_nat 4) with 4 in *. assert (CH : changed m m' (base + K_TABLE + 4 * index) 4) by (split; assumption).
  change (256 ^ 4) with (2 ^ 32) in M4. rewrite Z.mod_small in M4 by lia. unfold K_TABLE in *.
  split; [|split; [|lia]].
  - constructor.
    + intros x. rewrite M3. apply (f_dom _ _ _ HF).
    + rewrite (keep_ldn _ _ _ _ _ _ CH); [apply (f_flags _ _ _ HF)|]. unfold K_FLAGS. lia.
    + rewrite (keep_ldn _ _ _ _ _ _ CH); [apply (f_pattern _ _ _ HF)|]. unfold K_PATTERN. lia.
    + rewrite (keep_ldn _ _ _ _ _ _ CH); [apply (f_len _ _ _ HF)|]. unfold K_LEN. lia.
    + intros i c Hi. pose proof (rd_pos _ _ _ Hi). rewrite (keep_ldn _ _ _ _ _ _ CH); [apply (f_pat _ _ _ HF i c Hi)|]. lia.
  - intros i v Hi. rewrite RW in Hi. destruct (Z.eqb_spec i index) as [->|N]; [injection Hi as <-; split; [exact M4|lia]|]. unfold K_TABLE. rewrite (keep_ldn _ _ _ _ _ _ CH); [apply HT, Hi|]. lia.
Qed.
Lemma prefix_m pat flags bf : zlen pat < 2 ^ 30 -> (length pat <= bf)%nat -> forall n fuel m tab index k tab', (n <= fuel)%nat -> fields m pat flags -> table m tab -> zlen tab = zlen pat ->
  0 <= k < index -> (Z.of_nat n = zlen pat - index \/ n = O /\ zlen pat <= index) -> kmp_prefix n pat tab index k = Some tab' ->
  exists m', kmp_prefix_m fuel bf m base index k = Ok m' /\ fields m' pat flags /\ table m' tab' /\ zlen tab' = zlen pat.
Proof.
  intros H30 Hb. induction n as [|n IH]; intros fuel m tab index k tab' Hf HF HT HL Hk Hn E; cbn [kmp_prefix] in E.
  - injection E as <-. exists m. split; [|split; [exact HF|split; assumption]]. assert (B : (index <? zlen pat) = false) by (apply Z.ltb_ge; lia). destruct fuel; cbn [kmp_prefix_m]; rewrite (f_len _ _ _ HF); cbn [bind]; rewrite B; reflexivity.
  - destruct fuel as [|fuel]; [lia|]. cbn [kmp_prefix_m]. rewrite (f_len _ _ _ HF). cbn [bind]. rewrite (proj2 (Z.ltb_lt index (zlen pat))) by lia.
    destruct (rd pat index) as [c|] eqn:Ec; [|discriminate]. rewrite (pat_rd_ok _ _ _ _ _ HF Ec). cbn [bind]. destruct (kmp_step pat tab c k) as [k'|] eqn:Es; [|discriminate]. destruct (step_m m pat flags tab c bf k k' HF HT H30 Hb ltac:(lia) Es) as (S1 & S2 & S3). rewrite S1. cbn [bind].
    destruct (wr tab index k') as [tab1|] eqn:Ew; [|discriminate]. destruct (stn_ok 4 m (base + K_TABLE + 4 * index) k') as [m1 E1].
    { intros x Hx. apply (f_dom _ _ _ HF). unfold K_TABLE in Hx. change (Z.of_nat 4) with 4 in Hx. lia. }
    unfold tab_wr at 1. rewrite E1. cbn [bind]. destruct (table_write m m1 pat flags tab tab1 index k' HF HT HL ltac:(lia) H30 Ew E1) as (F1 & T1 & L1). rewrite w32_id by lia.
    apply (IH fuel m1 tab1 (index + 1) k' tab'); try assumption; lia.
Qed.
(** ** The search *)
Lemma block_m m pat flags tab bf : fields m pat flags -> table m tab -> zlen pat < 2 ^ 30 -> (length pat <= bf)%nat ->
  let k0 := {| kpat := pat; klen := zlen pat; ktab := tab |} in
  forall block consumed index k r, 0 <= k -> kmp_block up (Z.testbit flags 0) k0 block consumed index k = Some r ->
  kmp_block_m up bf m base (Z.testbit flags 0) block consumed index k = Ok r /\ match r with inl k' => 0 <= k' | inr _ => True end.
Proof.
  intros HF HT H30 Hb k0. induction block as [|t block IH]; intros consumed index k r Hk E; cbn [kmp_block kmp_block_m] in *; [injection E as <-; split; [reflexivity|exact Hk]|].
  cbn [k0 kpat ktab klen] in E. fold k0 in E. destruct (kmp_step pat tab (ch up (Z.testbit flags 0) t) k) as [k1|] eqn:Es; [|discriminate]. destruct (step_m m pat flags tab _ bf k k1 HF HT H30 Hb Hk Es) as (S1 & S2 & S3). unfold ch in S1. rewrite S1. cbn [bind]. rewrite (f_len _ _ _ HF). cbn [bind].
  destruct (k1 =? zlen pat); [injection E as <-; split; [reflexivity|exact I]|]. apply IH; [lia|exact E].
Qed.
Lemma loop_m m pat flags tab bf next : fields m pat flags -> table m tab -> zlen pat < 2 ^ 30 -> (length pat <= bf)%nat ->
  let k0 := {| kpat := pat; klen := zlen pat; ktab := tab |} in
  forall fuel offset consumed k r, 0 <= k -> kmp_loop up (Z.testbit flags 0) fuel k0 next offset consumed k = Some r ->
  kmp_loop_m up fuel bf m base (Z.testbit flags 0) next offset consumed k = Ok r.
Proof.
  intros HF HT H30 Hb k0. induction fuel as [|fuel IH]; intros offset consumed k r Hk E; cbn [kmp_loop kmp_loop_m] in *; [discriminate|]. destruct (zlen (next consumed) =? 0); [injection E as <-; reflexivity|].
  destruct (kmp_block up (Z.testbit flags 0) k0 (next consumed) consumed 0 k) as [x|] eqn:Ex; [|discriminate]. destruct (block_m m pat flags tab bf HF HT H30 Hb _ _ _ _ _ Hk Ex) as [B1 B2]. rewrite B1. cbn [bind].
  destruct x as [k1|off]; [apply IH; [exact B2|exact E]|]. rewrite (f_len _ _ _ HF). cbn [bind]. injection E as <-. reflexivity.
Qed.
Lemma find_m m pat flags tab bf next fuel offset r : fields m pat flags -> table m tab -> zlen pat < 2 ^ 30 -> (length pat <= bf)%nat ->
  kmp_find up (Z.testbit flags 0) fuel {| kpat := pat; klen := zlen pat; ktab := tab |} next offset = Some r -> kmp_find_m up fuel bf m base next offset = Ok r.
Proof. intros HF HT H30 Hb E. unfold kmp_find_m. rewrite (f_flags _ _ _ HF). cbn [bind]. apply (loop_m m pat flags tab bf next HF HT H30 Hb fuel offset offset 0 r); [lia|exact E]. Qed.
(** ** Preparation *)
Lemma copy_ok icase : forall pattern m p, inb m p (length pattern) ->
  exists m', copy_in up m p icase pattern = Ok m' /\ changed m m' p (length pattern) /\
    forall i c, rd pattern i = Some c -> exists b, ldn 1 m' (p + i) = Ok b /\ schar b = schar (if icase then up c else c).
Proof.
  induction pattern as [|c pattern IH]; intros m p H; cbn [copy_in].
  - exists m. split; [reflexivity|]. split; [split; [reflexivity|tauto]|]. intros i c E. apply rd_pos in E. unfold zlen in E. cbn [length] in E. lia.
  - cbn [length] in H. destruct (stn_ok 1 m p (if icase then up c else c)) as [m1 E1]; [intros x Hx; apply H; lia|]. rewrite E1. cbn [bind]. apply stn_inv in E1. destruct E1 as (_ & A2 & A3 & A4).
    destruct (IH m1 (p + 1)) as (m' & E2 & B1 & B2); [intros x Hx E0; apply A3 in E0; apply (H x ltac:(lia) E0)|]. exists m'. split; [exact E2|]. destruct B1 as [B1 B1']. split; [split|].
    + intros x Hx. cbn [length] in Hx. rewrite B1 by lia. apply A2. lia.
    + intros x. rewrite B1'. apply A3.
    + intros i d E. pose proof (rd_pos _ _ _ E) as Hi. destruct (Z.eq_dec i 0) as [->|N].
      * unfold rd in E. cbn in E. injection E as <-. rewrite Z.add_0_r. exists ((if icase then up c else c) mod 256). split; [|apply schar_mod]. rewrite (ldn_ext 1 m1 m' p); [exact A4|]. intros x Hx. apply B1. lia.
      * replace (p + i) with (p + 1 + (i - 1)) by lia. apply B2. unfold rd in E |- *. rewrite (proj2 (Z.ltb_ge (i - 1) 0)) by lia. rewrite (proj2 (Z.ltb_ge i 0)) in E by lia. replace (Z.to_nat i) with (S (Z.to_nat (i - 1))) in E by lia. exact E.
Qed.
End Ctx.
