(** * Proofs about the atomic operations *)
From Coq Require Import Lia.
From Verif Require Import Lib AtomicModel AtomicSpec.

(** ** Words *)
Lemma u64_bits x : 0 <= x -> (forall i, 64 <= i -> Z.testbit x i = false) -> x < 2 ^ 64.
Proof.
  intros H B. destruct (Z.eq_dec x 0) as [->|N]; [reflexivity|]. apply Z.log2_lt_pow2; [lia|].
  destruct (Z_lt_ge_dec (Z.log2 x) 64) as [L|L]; [exact L|]. specialize (B (Z.log2 x) ltac:(lia)). rewrite Z.bit_log2 in B by lia. discriminate B.
Qed.
Lemma bits_u64 x i : 0 <= x < 2 ^ 64 -> 64 <= i -> Z.testbit x i = false.
Proof. intros H Hi. destruct (Z.eq_dec x 0) as [->|N]; [apply Z.bits_0|]. apply Z.bits_above_log2; [lia|]. pose proof (proj1 (Z.log2_lt_pow2 x 64 ltac:(lia)) ltac:(lia)). lia. Qed.
Lemma BITM_bit b i : Z.testbit (BITM b) i = (i =? b mod 64).
Proof. unfold BITM. rewrite Z.shiftl_mul_pow2, Z.mul_1_l by (apply Z.mod_pos_bound; lia). rewrite Z.pow2_bits_eqb by (apply Z.mod_pos_bound; lia). apply Z.eqb_sym. Qed.
Lemma BITM_range b : 0 < BITM b < 2 ^ 64.
Proof.
  unfold BITM. rewrite Z.shiftl_mul_pow2, Z.mul_1_l by (apply Z.mod_pos_bound; lia). pose proof (Z.mod_pos_bound b 64 ltac:(lia)).
  split; [apply Z.pow_pos_nonneg; lia|]. apply Z.pow_lt_mono_r; lia.
Qed.
Lemma hasbit_test x b : hasbit x b = Z.testbit x (b mod 64).
Proof.
  unfold hasbit. destruct (Z.eqb_spec (Z.land x (BITM b)) 0) as [E|N]; cbn [negb].
  - pose proof (f_equal (fun z => Z.testbit z (b mod 64)) E) as F. cbv beta in F. rewrite Z.land_spec, BITM_bit, Z.eqb_refl, andb_true_r, Z.bits_0 in F. congruence.
  - destruct (Z.testbit x (b mod 64)) eqn:T; [reflexivity|]. exfalso. apply N. apply Z.bits_inj'. intros i Hi. rewrite Z.land_spec, BITM_bit, Z.bits_0. destruct (Z.eqb_spec i (b mod 64)) as [->|]; [rewrite T; reflexivity|apply andb_false_r].
Qed.
Lemma setbit_is x b : Z.lor x (BITM b) = Z.setbit x (b mod 64).
Proof. unfold Z.setbit, BITM. reflexivity. Qed.
Lemma clearbit_is x b : 0 <= x < 2 ^ 64 -> Z.land x (not64 (BITM b)) = Z.clearbit x (b mod 64).
Proof.
  intros H. pose proof (Z.mod_pos_bound b 64 ltac:(lia)) as B. apply Z.bits_inj'. intros i Hi. rewrite Z.clearbit_eqb by lia. unfold not64, w64. rewrite Z.land_spec, Z.eqb_sym.
  destruct (Z_lt_ge_dec i 64) as [L|L].
  - rewrite Z.mod_pow2_bits_low by lia. rewrite Z.lnot_spec, BITM_bit by lia. reflexivity.
  - rewrite (bits_u64 x i H) by lia. reflexivity.
Qed.
Lemma flipbit_is x b : 0 <= x < 2 ^ 64 -> Z.lxor x (BITM b) = if Z.testbit x (b mod 64) then Z.clearbit x (b mod 64) else Z.setbit x (b mod 64).
Proof.
  intros H. pose proof (Z.mod_pos_bound b 64 ltac:(lia)) as B. apply Z.bits_inj'. intros i Hi. rewrite Z.lxor_spec, BITM_bit. destruct (Z.testbit x (b mod 64)) eqn:T.
  - rewrite Z.clearbit_eqb, (Z.eqb_sym (b mod 64)) by lia. destruct (Z.eqb_spec i (b mod 64)) as [->|]; [rewrite T; reflexivity|]. destruct (Z.testbit x i); reflexivity.
  - rewrite Z.setbit_eqb, (Z.eqb_sym (b mod 64)) by lia. destruct (Z.eqb_spec i (b mod 64)) as [->|]; [rewrite T; reflexivity|]. destruct (Z.testbit x i); reflexivity.
Qed.
Lemma rmw_range k x v : u64v x -> u64v v -> u64v (rmw k x v).
Proof.
  unfold u64v. intros X V. destruct k; cbn [rmw]; try apply w64_range.
  - split; [apply Z.land_nonneg; lia|]. apply u64_bits; [apply Z.land_nonneg; lia|]. intros i Hi. rewrite Z.land_spec, (bits_u64 x i X Hi). reflexivity.
  - split; [apply Z.lor_nonneg; lia|]. apply u64_bits; [apply Z.lor_nonneg; lia|]. intros i Hi. rewrite Z.lor_spec, (bits_u64 x i X Hi), (bits_u64 v i V Hi). reflexivity.
  - split; [apply Z.lxor_nonneg; lia|]. apply u64_bits; [apply Z.lxor_nonneg; lia|]. intros i Hi. rewrite Z.lxor_spec, (bits_u64 x i X Hi), (bits_u64 v i V Hi). reflexivity.
Qed.

(** ** One access *)
Lemma agrees_upd m f w v m' : agrees m f -> wr m w v = Some m' -> agrees m' (upd f w v).
Proof.
  intros A W. assert (Rg : 0 <= w < zlen m). { destruct (Z_lt_ge_dec w 0); [|destruct (Z_lt_ge_dec w (zlen m)); [lia|]]; exfalso; assert (wr m w v = None) by (apply wr_none_iff; lia); congruence. }
  destruct (wr_spec _ m w v Rg) as (m2 & E & L & R). assert (m2 = m') by congruence. subst m2. intros u Hu. rewrite R. unfold upd. destruct (u =? w); [reflexivity|]. apply A. lia.
Qed.
Lemma wr_words m w v m' : Forall u64v m -> u64v v -> wr m w v = Some m' -> Forall u64v m' /\ zlen m' = zlen m.
Proof.
  intros F V W. assert (Rg : 0 <= w < zlen m). { destruct (Z_lt_ge_dec w 0); [|destruct (Z_lt_ge_dec w (zlen m)); [lia|]]; exfalso; assert (wr m w v = None) by (apply wr_none_iff; lia); congruence. }
  destruct (wr_spec _ m w v Rg) as (m2 & E & L & R). assert (m2 = m') by congruence. subst m2. split; [|exact L].
  apply Forall_forall. intros x Ix. apply In_nth_error in Ix. destruct Ix as [i Ni]. assert (Hr : rd m' (Z.of_nat i) = Some x) by (unfold rd; rewrite (proj2 (Z.ltb_ge _ _)) by lia; rewrite Nat2Z.id; exact Ni).
  rewrite R in Hr. destruct (Z.of_nat i =? w); [injection Hr as <-; exact V|]. apply rd_in in Hr. rewrite Forall_forall in F. apply F, Hr.
Qed.
Definition sound (m : list Z) (f : Z -> Z) (op : aop) (o : option (list Z * (pc + ret))) : Prop :=
  exists m' r, o = Some (m', r) /\ Forall u64v m' /\ zlen m' = zlen m /\
    match r with inl _ => m' = m | inr v => v = snd (atspec op f) /\ agrees m' (fst (atspec op f)) end.
Section One.
Variables (m : list Z) (f : Z -> Z).
Hypothesis W : Forall u64v m.
Hypothesis A : agrees m f.
Lemma word_ok w : 0 <= w < zlen m -> rd m w = Some (f w) /\ u64v (f w).
Proof. intros H. split; [apply A, H|]. pose proof (A _ H) as R. apply rd_in in R. rewrite Forall_forall in W. apply W, R. Qed.
Lemma fetch_ok op k w v r : 0 <= w < zlen m -> u64v v ->
  (forall u, fst (atspec op f) u = upd f w (rmw k (f w) v) u) -> r (f w) (rmw k (f w) v) = snd (atspec op f) -> sound m f op (fetch m k w v r).
Proof.
  intros Hw Hv E Er. destruct (word_ok w Hw) as [R U]. unfold fetch. rewrite R. destruct (wr_spec _ m w (rmw k (f w) v) Hw) as (m' & Ew & _ & _). rewrite Ew.
  destruct (wr_words _ _ _ _ W (rmw_range k _ _ U Hv) Ew) as [F L]. eexists. eexists. split; [reflexivity|]. split; [exact F|]. split; [exact L|].
  split; [exact Er|]. intros u Hu. rewrite E. apply (agrees_upd _ _ _ _ _ A Ew). exact Hu.
Qed.
Lemma cas_ok w old v : 0 <= w < zlen m -> u64v v -> exists m', cas m w old v = Some (m', f w) /\ Forall u64v m' /\ zlen m' = zlen m /\ agrees m' (if f w =? old then upd f w v else f).
Proof.
  intros Hw Hv. destruct (word_ok w Hw) as [R U]. unfold cas. rewrite R. destruct (f w =? old).
  - destruct (wr_spec _ m w v Hw) as (m' & Ew & _ & _). rewrite Ew. destruct (wr_words _ _ _ _ W Hv Ew) as [F L]. exists m'. split; [reflexivity|]. split; [exact F|]. split; [exact L|]. apply (agrees_upd _ _ _ _ _ A Ew).
  - exists m. split; [reflexivity|]. split; [exact W|]. split; [reflexivity|exact A].
Qed.
Lemma ret_ok op v : (forall u, 0 <= u < zlen m -> fst (atspec op f) u = f u) -> v = snd (atspec op f) -> sound m f op (Some (m, inr v)).
Proof. intros E Ev. eexists. eexists. split; [reflexivity|]. split; [exact W|]. split; [reflexivity|]. split; [exact Ev|]. intros u Hu. rewrite E by exact Hu. apply A. exact Hu. Qed.
Lemma go_ok op p : sound m f op (Some (m, inl p)).
Proof. eexists. eexists. split; [reflexivity|]. split; [exact W|]. split; [reflexivity|reflexivity]. Qed.
Lemma not64_range x : u64v (not64 x).
Proof. apply w64_range. Qed.
Lemma BITM_u64 b : u64v (BITM b).
Proof. pose proof (BITM_range b). unfold u64v. lia. Qed.
Lemma astep_ok op p : op_ok (zlen m) op -> sound m f op (astep m op p).
Proof.
  intros O. assert (WO : forall b, 0 <= b < 64 * zlen m -> 0 <= wordof b < zlen m).
  { intros b Hb. unfold wordof. split; [apply Z.div_pos; lia|apply Z.div_lt_upper_bound; lia]. }
  assert (SB : forall b v u, setb f b v u = upd f (wordof b) (if v then Z.setbit (f (b / 64)) (b mod 64) else Z.clearbit (f (b / 64)) (b mod 64)) u) by (intros; reflexivity).
  assert (FS : forall opx b r, 0 <= b < 64 * zlen m -> fst (atspec opx f) = setb f b true -> r (f (wordof b)) (rmw KOr (f (wordof b)) (BITM b)) = snd (atspec opx f) -> sound m f opx (fetch m KOr (wordof b) (BITM b) r)).
  { intros opx b r Hb E Er. apply fetch_ok; [apply WO, Hb|apply BITM_u64| |exact Er]. intros u. rewrite E, SB. cbn [rmw]. rewrite setbit_is. reflexivity. }
  assert (FC : forall opx b r, 0 <= b < 64 * zlen m -> fst (atspec opx f) = setb f b false -> r (f (wordof b)) (rmw KAnd (f (wordof b)) (not64 (BITM b))) = snd (atspec opx f) -> sound m f opx (fetch m KAnd (wordof b) (not64 (BITM b)) r)).
  { intros opx b r Hb E Er. apply fetch_ok; [apply WO, Hb|apply not64_range| |exact Er]. intros u. rewrite E, SB. cbn [rmw]. rewrite clearbit_is by (apply (word_ok _ (WO _ Hb))). reflexivity. }
  assert (FX : forall opx b r, 0 <= b < 64 * zlen m -> fst (atspec opx f) = setb f b (negb (bitv f b)) -> r (f (wordof b)) (rmw KXor (f (wordof b)) (BITM b)) = snd (atspec opx f) -> sound m f opx (fetch m KXor (wordof b) (BITM b) r)).
  { intros opx b r Hb E Er. apply fetch_ok; [apply WO, Hb|apply BITM_u64| |exact Er]. intros u. rewrite E, SB. cbn [rmw]. rewrite flipbit_is by (apply (word_ok _ (WO _ Hb))). unfold bitv. fold (wordof b). destruct (Z.testbit (f (wordof b)) (b mod 64)); reflexivity. }
  destruct op as [w|w v|k md w v|w old v|w old v|w v|b|b|b|b val|b|b|b|b|b val]; cbn [op_ok] in O; cbn [astep].
  - destruct (word_ok w O) as [-> _]. apply ret_ok; reflexivity.
  - destruct O as [Hw Hv]. destruct (wr_spec _ m w v Hw) as (m' & Ew & _ & _). rewrite Ew. destruct (wr_words _ _ _ _ W Hv Ew) as [F L]. eexists. eexists. split; [reflexivity|]. split; [exact F|]. split; [exact L|]. split; [reflexivity|]. cbn [atspec fst]. apply (agrees_upd _ _ _ _ _ A Ew).
  - destruct O as [Hw Hv]. apply fetch_ok; [exact Hw|exact Hv| |]; [intros u; destruct k; reflexivity|destruct md; destruct k; reflexivity].
  - destruct O as (Hw & Ho & Hv). destruct (cas_ok w old v Hw Hv) as (m' & -> & F & L & Ag). eexists. eexists. split; [reflexivity|]. split; [exact F|]. split; [exact L|]. split; [reflexivity|exact Ag].
  - destruct O as (Hw & Ho & Hv). destruct (cas_ok w old v Hw Hv) as (m' & -> & F & L & Ag). eexists. eexists. split; [reflexivity|]. split; [exact F|]. split; [exact L|]. split; [|exact Ag]. cbn [atspec snd]. destruct (Z.eqb_spec (f w) old) as [->|]; reflexivity.
  - destruct O as [Hw Hv]. assert (G : sound m f (AXchg w v) (let* x := rd m w in Some (m, inl (PXchg x)))) by (destruct (word_ok w Hw) as [-> _]; apply go_ok).
    destruct p as [| |prev]; [exact G|exact G|]. destruct (cas_ok w prev v Hw Hv) as (m' & Ec & F & L & Ag). rewrite Ec. destruct (Z.eqb_spec (f w) prev) as [E|N].
    + eexists. eexists. split; [reflexivity|]. split; [exact F|]. split; [exact L|]. split; [reflexivity|exact Ag].
    + unfold cas in Ec. destruct (word_ok w Hw) as [R _]. rewrite R in Ec. rewrite (proj2 (Z.eqb_neq _ _) N) in Ec. injection Ec as <-. apply go_ok.
  - apply FC; [exact O|reflexivity|reflexivity].
  - apply FS; [exact O|reflexivity|reflexivity].
  - apply FX; [exact O|reflexivity|reflexivity].
  - destruct val; [apply FS|apply FC]; first [exact O|reflexivity].
  - destruct (word_ok _ (WO _ O)) as [-> _]. rewrite hasbit_test. apply ret_ok; reflexivity.
  - assert (G : sound m f (BTestClr b) (let* x := rd m (wordof b) in if Z.land x (BITM b) =? 0 then Some (m, inr (RBool false)) else Some (m, inl PFetch))).
    { destruct (word_ok _ (WO _ O)) as [-> U]. pose proof (hasbit_test (f (wordof b)) b) as HT. unfold hasbit in HT. destruct (Z.land (f (wordof b)) (BITM b) =? 0); cbn [negb] in HT; [|apply go_ok].
      apply ret_ok; [|cbn [atspec snd]; unfold bitv; fold (wordof b); rewrite <- HT; reflexivity]. intros u Hu. cbn [atspec fst]. rewrite SB. unfold upd. destruct (Z.eqb_spec u (wordof b)) as [->|]; [|reflexivity]. fold (wordof b).
      pose proof (Z.mod_pos_bound b 64 ltac:(lia)) as B. apply Z.bits_inj'. intros i Hi. rewrite Z.clearbit_eqb by lia. destruct (Z.eqb_spec (b mod 64) i) as [<-|]; [rewrite <- HT; reflexivity|apply andb_true_r]. }
    destruct p as [| |prev]; [exact G| |exact G]. apply FC; [exact O|reflexivity|rewrite hasbit_test; reflexivity].
  - assert (G : sound m f (BTestSet b) (let* x := rd m (wordof b) in if negb (Z.land x (BITM b) =? 0) then Some (m, inr (RBool true)) else Some (m, inl PFetch))).
    { destruct (word_ok _ (WO _ O)) as [-> U]. pose proof (hasbit_test (f (wordof b)) b) as HT. unfold hasbit in HT. destruct (negb (Z.land (f (wordof b)) (BITM b) =? 0)); [|apply go_ok].
      apply ret_ok; [|cbn [atspec snd]; unfold bitv; fold (wordof b); rewrite <- HT; reflexivity]. intros u Hu. cbn [atspec fst]. rewrite SB. unfold upd. destruct (Z.eqb_spec u (wordof b)) as [->|]; [|reflexivity]. fold (wordof b).
      pose proof (Z.mod_pos_bound b 64 ltac:(lia)) as B. apply Z.bits_inj'. intros i Hi. rewrite Z.setbit_eqb by lia. destruct (Z.eqb_spec (b mod 64) i) as [<-|]; [rewrite <- HT; reflexivity|reflexivity]. }
    destruct p as [| |prev]; [exact G| |exact G]. apply FS; [exact O|reflexivity|rewrite hasbit_test; reflexivity].
  - apply FX; [exact O|reflexivity|rewrite hasbit_test; reflexivity].
  - destruct val; [apply FS|apply FC]; first [exact O|reflexivity|rewrite hasbit_test; reflexivity].
Qed.
End One.

(** ** All interleavings *)
Lemma explains_snoc f l f' t op : explains f l f' -> explains f (l ++ [(t, op, snd (atspec op f'))]) (fst (atspec op f')).
Proof.
  induction 1 as [f|f u o r l f1 f2 E X IH].
  - cbn [app]. apply ex_cons with (f' := fst (atspec op f)); [destruct (atspec op f); reflexivity|apply ex_nil].
  - cbn [app]. apply ex_cons with (f' := f1); [exact E|exact IH].
Qed.
Lemma proj_snoc t l u op r : proj t (l ++ [(u, op, r)]) = proj t l ++ if Nat.eqb u t then [(op, r)] else [].
Proof.
  induction l as [|[[u' op'] r'] l IH]; cbn [app proj]; [destruct (Nat.eqb u t); reflexivity|]. destruct (Nat.eqb u' t); cbn [app]; rewrite IH; reflexivity.
Qed.
Definition sinv (c : client) (n : Z) (f0 : Z -> Z) (s : sys) : Prop :=
  Forall u64v (smem s) /\ zlen (smem s) = n /\ (exists f, explains f0 (slog s) f /\ agrees (smem s) f) /\ (forall t, shist s t = proj t (slog s)) /\ issued c (slog s).
Lemma sstep_ok c n f0 s t : client_ok n c -> sinv c n f0 s -> exists s', sstep c s t = Some s' /\ sinv c n f0 s' /\ exists l, slog s' = slog s ++ l.
Proof.
  intros CO I. unfold sstep. destruct (c t (shist s t)) as [op|] eqn:Ec; [|exists s; split; [reflexivity|]; split; [exact I|]; exists []; symmetry; apply app_nil_r].
  destruct I as (W & L & (f & X & A) & H & IS). destruct (astep_ok (smem s) f W A op (spc s t)) as (m' & r & -> & W' & L' & R); [rewrite L; eapply CO, Ec|].
  destruct r as [p|v].
  - subst m'. eexists. split; [reflexivity|]. split; [|exists []; symmetry; apply app_nil_r]. split; [exact W'|]. split; [exact L|]. split; [exists f; split; [exact X|exact A]|]. split; [exact H|exact IS].
  - destruct R as [-> A']. eexists. split; [reflexivity|]. split; [|eexists; reflexivity]. split; [exact W'|]. split; [cbn [smem]; lia|]. cbn [slog shist smem]. split.
    + exists (fst (atspec op f)). split; [apply explains_snoc, X|exact A'].
    + split.
      * intros u. rewrite proj_snoc. unfold tset. rewrite (Nat.eqb_sym t u). destruct (Nat.eqb_spec u t) as [->|]; [rewrite H; reflexivity|rewrite app_nil_r; apply H].
      * apply is_snoc; [exact IS|]. rewrite <- H. exact Ec.
Qed.
Lemma srun_ok c n f0 : client_ok n c -> forall sched s, sinv c n f0 s -> exists s', srun c sched s = Some s' /\ sinv c n f0 s' /\ exists l, slog s' = slog s ++ l.
Proof.
  intros CO. induction sched as [|t sched IH]; intros s I; [exists s; split; [reflexivity|]; split; [exact I|]; exists []; symmetry; apply app_nil_r|].
  cbn [srun]. destruct (sstep_ok c n f0 s t CO I) as (s1 & -> & I1 & l1 & E1). destruct (IH s1 I1) as (s2 & -> & I2 & l2 & E2). exists s2. split; [reflexivity|]. split; [exact I2|]. exists (l1 ++ l2). rewrite E2, E1, app_assoc. reflexivity.
Qed.
Lemma sinit_inv c m f : Forall u64v m -> agrees m f -> sinv c (zlen m) f (sinit m).
Proof. intros W A. split; [exact W|]. split; [reflexivity|]. split; [exists f; split; [apply ex_nil|exact A]|]. split; [reflexivity|apply is_nil]. Qed.
Lemma srun_app c s1 : forall s2 s, srun c (s1 ++ s2) s = let* s' := srun c s1 s in srun c s2 s'.
Proof. induction s1 as [|t s1 IH]; intros s2 s; [reflexivity|]. cbn [app srun]. destruct (sstep c s t); [apply IH|reflexivity]. Qed.

(** ** The lock *)
Lemma explains_app f l1 l2 f2 : explains f (l1 ++ l2) f2 -> exists f1, explains f l1 f1 /\ explains f1 l2 f2.
Proof.
  revert f. induction l1 as [|[[t op] r] l1 IH]; intros f X; [exists f; split; [apply ex_nil|exact X]|]. cbn [app] in X. inversion X as [|? ? ? ? ? f' ? E X' ]; subst.
  destruct (IH _ X') as (f1 & X1 & X2). exists f1. split; [eapply ex_cons; eassumption|exact X2].
Qed.
Lemma holds_from_snoc b h op r : forall held, holds_from b (h ++ [(op, r)]) held =
  match op, r with
  | BTestSet b', RBool false => if b' =? b then true else holds_from b h held
  | BClr b', _ | BTestClr b', _ => if b' =? b then false else holds_from b h held
  | _, _ => holds_from b h held
  end.
Proof.
  induction h as [|[o q] h IH]; intros held; [cbn [app holds_from]; destruct op, r; try reflexivity; destruct b0; reflexivity|].
  cbn [app holds_from]. destruct o; try apply IH. destruct q; try apply IH. destruct b1; apply IH.
Qed.
Lemma setb_other f b b' v : 0 <= b -> 0 <= b' -> b' <> b -> bitv (setb f b' v) b = bitv f b.
Proof.
  intros H H' N. unfold bitv, setb, upd. destruct (Z.eqb_spec (b / 64) (b' / 64)) as [E|]; [|reflexivity]. rewrite E.
  pose proof (Z.mod_pos_bound b 64 ltac:(lia)). pose proof (Z.mod_pos_bound b' 64 ltac:(lia)). assert (b' mod 64 <> b mod 64) by (pose proof (Z.div_mod b 64 ltac:(lia)); pose proof (Z.div_mod b' 64 ltac:(lia)); lia).
  destruct v; [rewrite Z.setbit_eqb by lia|rewrite Z.clearbit_eqb by lia]; rewrite (proj2 (Z.eqb_neq _ _)) by assumption; [reflexivity|apply andb_true_r].
Qed.
Lemma setb_same f b v : bitv (setb f b v) b = v.
Proof.
  unfold bitv, setb, upd. rewrite Z.eqb_refl. pose proof (Z.mod_pos_bound b 64 ltac:(lia)). destruct v; [apply Z.setbit_eq; lia|]. apply Z.clearbit_eq.
Qed.
Lemma upd_other f w v b : w <> b / 64 -> bitv (upd f w v) b = bitv f b.
Proof. intros N. unfold bitv, upd. rewrite (proj2 (Z.eqb_neq _ _)) by congruence. reflexivity. Qed.
(** exactly one thread holds the lock while the bit is set, none while it is clear *)
Definition owner (b : Z) (l : list (nat * aop * ret)) (f : Z -> Z) : Prop :=
  exists o : option nat, (forall t, holds b (proj t l) = true <-> o = Some t) /\ bitv f b = match o with Some _ => true | None => false end.
Lemma lock_ok c n b f0 : client_ok n c -> polite b c -> 0 <= b -> bitv f0 b = false -> forall l f, issued c l -> explains f0 l f -> owner b l f.
Proof.
  intros CO PO Hb B0 l f IS. revert f. induction IS as [|l t op r IS IH Ec]; intros f X.
  - inversion X; subst. exists None. split; [|exact B0]. intros t. cbn. split; discriminate.
  - destruct (explains_app _ _ _ _ X) as (f1 & X1 & X2). inversion X2 as [|? ? ? ? ? f' ? E X3]; subst. inversion X3; subst. specialize (IH _ X1). destruct IH as (o & Ho & Bo).
    pose proof (CO _ _ _ Ec) as OK. pose proof (PO _ _ _ Ec) as LO.
    assert (K : forall o', (forall u, (if Nat.eqb t u then holds_from b (proj t l ++ [(op, r)]) false else holds b (proj u l)) = true <-> o' = Some u) -> bitv f b = match o' with Some _ => true | None => false end -> owner b (l ++ [(t, op, r)]) f).
    { intros o' K1 K2. exists o'. split; [|exact K2]. intros u. rewrite proj_snoc. specialize (K1 u). destruct (Nat.eqb_spec t u) as [Eu|]; [rewrite <- Eu in *; exact K1|rewrite app_nil_r; exact K1]. }
    assert (KEEP : holds_from b (proj t l ++ [(op, r)]) false = holds b (proj t l) -> bitv f b = bitv f1 b -> owner b (l ++ [(t, op, r)]) f).
    { intros E1 E2. apply (K o); [|rewrite E2; exact Bo]. intros u. rewrite E1. destruct (Nat.eqb_spec t u) as [<-|]; apply Ho. }
    destruct op as [w|w v|k md w v|w old v|w old v|w v|b'|b'|b'|b' val|b'|b'|b'|b'|b' val]; cbn [atspec] in E; injection E as <- <-; cbn [lock_op] in LO; cbn [op_ok] in OK;
      try (apply KEEP; [rewrite holds_from_snoc; reflexivity|first [reflexivity|apply upd_other; exact LO|apply setb_other; [lia|lia|exact LO]]]; fail).
    + apply KEEP; [rewrite holds_from_snoc; reflexivity|]. destruct (f1 w =? old); [apply upd_other; exact LO|reflexivity].
    + apply KEEP; [rewrite holds_from_snoc; reflexivity|]. destruct (f1 w =? old); [apply upd_other; exact LO|reflexivity].
    + destruct (Z.eqb_spec b' b) as [->|N]; [|apply KEEP; [rewrite holds_from_snoc; rewrite (proj2 (Z.eqb_neq _ _)) by exact N; reflexivity|apply setb_other; [lia|lia|exact N]]].
      specialize (LO eq_refl). apply (K None); [|apply setb_same]. assert (o = Some t) by (apply Ho; exact LO). subst o.
      intros u. rewrite holds_from_snoc, Z.eqb_refl. destruct (Nat.eqb_spec t u) as [<-|Nu]; [split; discriminate|]. split; [intros X0; apply Ho in X0; congruence|discriminate].
    + destruct (Z.eqb_spec b' b) as [->|N]; [|apply KEEP; [rewrite holds_from_snoc; rewrite (proj2 (Z.eqb_neq _ _)) by exact N; reflexivity|apply setb_other; [lia|lia|exact N]]].
      specialize (LO eq_refl). apply (K None); [|apply setb_same]. assert (o = Some t) by (apply Ho; exact LO). subst o.
      intros u. rewrite holds_from_snoc, Z.eqb_refl. destruct (Nat.eqb_spec t u) as [<-|Nu]; [split; discriminate|]. split; [intros X0; apply Ho in X0; congruence|discriminate].
    + destruct (Z.eqb_spec b' b) as [->|N].
      * destruct (bitv f1 b) eqn:Bf.
        -- apply (K o); [|rewrite setb_same; exact Bo]. intros u. rewrite holds_from_snoc. destruct (Nat.eqb_spec t u) as [<-|]; apply Ho.
        -- destruct o as [x|]; [discriminate Bo|]. apply (K (Some t)); [|rewrite setb_same; reflexivity]. intros u. rewrite holds_from_snoc, Z.eqb_refl.
           destruct (Nat.eqb_spec t u) as [<-|Nu]; [split; reflexivity|]. split; [intros X0; apply Ho in X0; discriminate X0|intros X0; congruence].
      * apply KEEP; [rewrite holds_from_snoc; rewrite (proj2 (Z.eqb_neq _ _)) by exact N; destruct (bitv f1 b'); reflexivity|apply setb_other; [lia|lia|exact N]].
Qed.

(** ** Counters *)
Definition log_ok (P : aop -> Prop) (l : list (nat * aop * ret)) : Prop := forall t op r, In (t, op, r) l -> P op.
Lemma log_ok_cons P x l : log_ok P (x :: l) -> log_ok P l.
Proof. intros H t op r I. apply (H t op r). right. exact I. Qed.
Lemma setb_word f b v w : b / 64 <> w -> setb f b v w = f w.
Proof. intros N. unfold setb, upd. rewrite (proj2 (Z.eqb_neq _ _)) by congruence. reflexivity. Qed.
Lemma upd_word f w' v w : w' <> w -> upd f w' v w = f w.
Proof. intros N. unfold upd. rewrite (proj2 (Z.eqb_neq _ _)) by congruence. reflexivity. Qed.
Lemma total_ok w l : log_ok (count_op w) l -> forall f f', u64v (f w) -> explains f l f' -> f' w = w64 (f w + total w l).
Proof.
  induction l as [|[[t op] r] l IH]; intros LO f f' U X; inversion X as [|? ? ? ? ? f1 ? E X1]; subst.
  - cbn [total]. rewrite Z.add_0_r. symmetry. apply w64_small. exact U.
  - pose proof (LO t op r (or_introl eq_refl)) as CO. specialize (IH (log_ok_cons _ _ _ LO)).
    assert (KEEP : f1 w = f w -> total w ((t, op, r) :: l) = total w l -> f' w = w64 (f w + total w ((t, op, r) :: l))).
    { intros E1 E2. rewrite E2, <- E1. apply IH; [rewrite E1; exact U|exact X1]. }
    destruct op as [w'|w' v|k md w' v|w' old v|w' old v|w' v|b'|b'|b'|b' val|b'|b'|b'|b'|b' val]; cbn [atspec] in E; injection E as <- _; cbn [count_op] in CO;
      try (apply KEEP; [first [reflexivity|apply upd_word; exact CO|apply setb_word; exact CO|destruct (f w' =? old); [apply upd_word; exact CO|reflexivity]]|reflexivity]; fail).
    destruct k; try (apply KEEP; [apply upd_word; exact CO|reflexivity]; fail).
    + cbn [total arith] in *. destruct (Z.eqb_spec w' w) as [->|N].
      * assert (UX : forall x, upd f w x w = x) by (intros x; unfold upd; rewrite Z.eqb_refl; reflexivity). assert (U1 := w64_range (f w + v)). unfold w64 in U1. rewrite (IH (upd f w ((f w + v) mod 2 ^ 64)) f'); [|rewrite UX; exact U1|exact X1]. rewrite UX. unfold w64. rewrite Zplus_mod_idemp_l. f_equal. lia.
      * rewrite Z.add_0_l. rewrite <- (upd_word f w' ((f w' + v) mod 2 ^ 64) w N). apply IH; [rewrite upd_word by exact N; exact U|exact X1].
    + cbn [total arith] in *. destruct (Z.eqb_spec w' w) as [->|N].
      * assert (UX : forall x, upd f w x w = x) by (intros x; unfold upd; rewrite Z.eqb_refl; reflexivity). assert (U1 := w64_range (f w - v)). unfold w64 in U1. rewrite (IH (upd f w ((f w - v) mod 2 ^ 64)) f'); [|rewrite UX; exact U1|exact X1]. rewrite UX. unfold w64. rewrite Zplus_mod_idemp_l. f_equal. lia.
      * rewrite Z.sub_0_r. rewrite <- (upd_word f w' ((f w' - v) mod 2 ^ 64) w N). apply IH; [rewrite upd_word by exact N; exact U|exact X1].
Qed.
Lemma tickets_ok w l : log_ok (ticket_op w) l -> forall f f', u64v (f w) -> explains f l f' -> reports w l = map (fun i => w64 (f w + i)) (zseq 0 (length (reports w l))).
Proof.
  intros LO f f' U X. assert (G : forall l, log_ok (ticket_op w) l -> forall f k, f w = w64 k -> explains f l f' -> reports w l = map (fun i => w64 i) (zseq k (length (reports w l)))).
  { clear. induction l as [|[[t op] r] l IH]; intros LO f k U X; inversion X as [|? ? ? ? ? f1 ? E X1]; subst; [reflexivity|].
    pose proof (LO t op r (or_introl eq_refl)) as CO. specialize (IH (log_ok_cons _ _ _ LO)).
    assert (KEEP : f1 w = f w -> reports w ((t, op, r) :: l) = reports w l -> reports w ((t, op, r) :: l) = map (fun i => w64 i) (zseq k (length (reports w ((t, op, r) :: l))))).
    { intros E1 E2. rewrite E2. apply (IH f1); [rewrite E1; exact U|exact X1]. }
    assert (NEQ : forall w', w' <> w -> (w' =? w) = false) by (intros w' N; apply Z.eqb_neq; exact N).
    destruct op as [w'|w' v|kd md w' v|w' old v|w' old v|w' v|b'|b'|b'|b' val|b'|b'|b'|b'|b' val]; cbn [atspec] in E; injection E as <- <-; cbn [ticket_op count_op] in CO;
      try (apply KEEP; [first [reflexivity|apply upd_word; exact CO|apply setb_word; exact CO|destruct (f w' =? old); [apply upd_word; exact CO|reflexivity]]|cbn [reports]; rewrite ?(NEQ _ CO); reflexivity]; fail).
    destruct kd; try (apply KEEP; [apply upd_word; exact CO|cbn [reports]; destruct md; rewrite ?(NEQ _ CO); reflexivity]; fail).
    destruct md; try (apply KEEP; [apply upd_word; exact CO|cbn [reports]; rewrite ?(NEQ _ CO); reflexivity]; fail).
    cbn [reports]. destruct (Z.eqb_spec w' w) as [->|N].
    - rewrite (CO eq_refl) in *. cbn [length zseq map]. f_equal; [exact U|]. apply (IH (upd f w (arith KAdd (f w) 1))); [|exact X1]. unfold upd. rewrite Z.eqb_refl. cbn [arith]. rewrite U. unfold w64. rewrite Zplus_mod_idemp_l. reflexivity.
    - apply (IH (upd f w' (arith KAdd (f w') v))); [rewrite upd_word by exact N; exact U|exact X1]. }
  rewrite (G l LO f (f w)) at 1; [|symmetry; apply w64_small; exact U|exact X].
  assert (Z0 : forall n a, map (fun i => w64 i) (zseq a n) = map (fun i => w64 (f w + i)) (zseq (a - f w) n)).
  { induction n as [|n IHn]; intros a; [reflexivity|]. cbn [zseq map]. f_equal; [f_equal; lia|]. rewrite IHn. do 2 f_equal. lia. }
  rewrite Z0, Z.sub_diag. reflexivity.
Qed.
Lemma xchg_ok w l : log_ok (xchg_op w) l -> forall f f', explains f l f' -> reports w l ++ [f' w] = f w :: given w l.
Proof.
  induction l as [|[[t op] r] l IH]; intros LO f f' X; inversion X as [|? ? ? ? ? f1 ? E X1]; subst; [reflexivity|].
  pose proof (LO t op r (or_introl eq_refl)) as CO. specialize (IH (log_ok_cons _ _ _ LO) _ _ X1).
  assert (NEQ : forall w', w' <> w -> (w' =? w) = false) by (intros w' N; apply Z.eqb_neq; exact N).
  assert (KEEP : f1 w = f w -> reports w ((t, op, r) :: l) = reports w l -> given w ((t, op, r) :: l) = given w l -> reports w ((t, op, r) :: l) ++ [f' w] = f w :: given w ((t, op, r) :: l)).
  { intros E1 E2 E3. rewrite E2, E3, <- E1. exact IH. }
  destruct op as [w'|w' v|kd md w' v|w' old v|w' old v|w' v|b'|b'|b'|b' val|b'|b'|b'|b'|b' val]; cbn [atspec] in E; injection E as <- <-; cbn [xchg_op count_op] in CO;
    try (apply KEEP; [first [reflexivity|apply upd_word; exact CO|apply setb_word; exact CO|destruct (f w' =? old); [apply upd_word; exact CO|reflexivity]]|cbn [reports]; try (destruct md); rewrite ?(NEQ _ CO); reflexivity|reflexivity]; fail).
  cbn [reports given]. destruct (Z.eqb_spec w' w) as [->|N].
  - cbn [app]. f_equal. rewrite IH. unfold upd. rewrite Z.eqb_refl. reflexivity.
  - rewrite IH. rewrite upd_word by exact N. reflexivity.
Qed.
Lemma issued_ok c (P : aop -> Prop) l : issued c l -> (forall t h op, c t h = Some op -> P op) -> log_ok P l.
Proof.
  intros IS H. induction IS as [|l t op r IS IH Ec]; [intros ? ? ? []|]. intros u o q I. apply in_app_iff in I. destruct I as [I|[I|[]]]; [eapply IH, I|]. injection I as <- <- <-. eapply H, Ec.
Qed.
(** progress: a thread about to take a free lock has it after at most two of its steps *)
Lemma take_ok c n f0 s b t : client_ok n c -> polite b c -> 0 <= b -> bitv f0 b = false -> sinv c n f0 s ->
  (forall u, holds b (shist s u) = false) -> c t (shist s t) = Some (BTestSet b) ->
  exists k s', (k = 1 \/ k = 2)%nat /\ srun c (repeat t k) s = Some s' /\ holds b (shist s' t) = true.
Proof.
  intros CO PO Hb B0 I NH Ec. destruct I as (W & L & (f & X & A) & H & IS).
  destruct (lock_ok c n b f0 CO PO Hb B0 (slog s) f IS X) as (o & Ho & Bo).
  destruct o as [u|]; [pose proof (proj2 (Ho u) eq_refl) as Hu; rewrite <- H in Hu; rewrite NH in Hu; discriminate Hu|].
  pose proof (CO _ _ _ Ec) as OK. cbn [op_ok] in OK. rewrite <- L in OK.
  assert (WO : 0 <= wordof b < zlen (smem s)) by (unfold wordof; split; [apply Z.div_pos; lia|apply Z.div_lt_upper_bound; lia]).
  destruct (word_ok (smem s) f W A _ WO) as [R U]. pose proof (hasbit_test (f (wordof b)) b) as HT. unfold bitv in Bo. fold (wordof b) in Bo. rewrite Bo in HT.
  assert (FT : forall s2, smem s2 = smem s -> shist s2 = shist s -> spc s2 t = PFetch -> exists s', sstep c s2 t = Some s' /\ holds b (shist s' t) = true).
  { intros s2 E1 E2 E3. unfold sstep. rewrite E2, Ec, E1, E3. cbn [astep]. unfold fetch. rewrite R. destruct (wr_spec _ (smem s) (wordof b) (rmw KOr (f (wordof b)) (BITM b)) WO) as (m' & -> & _ & _).
    rewrite HT. eexists. split; [reflexivity|]. cbn [shist]. unfold tset. rewrite Nat.eqb_refl. unfold holds. rewrite holds_from_snoc, Z.eqb_refl. reflexivity. }
  assert (ST : spc s t <> PFetch -> exists s', srun c [t; t] s = Some s' /\ holds b (shist s' t) = true).
  { intros NF. cbn [srun]. unfold sstep at 1. rewrite Ec. cbn [astep].
    assert (E : (match spc s t with PFetch => fetch (smem s) KOr (wordof b) (BITM b) (fun old _ => RBool (hasbit old b)) | _ => let* x := rd (smem s) (wordof b) in if negb (Z.land x (BITM b) =? 0) then Some (smem s, inr (RBool true)) else Some (smem s, inl PFetch) end) = Some (smem s, inl PFetch)).
    { unfold hasbit in HT. destruct (spc s t); [|contradiction NF; reflexivity|]; rewrite R, HT; reflexivity. }
    rewrite E. destruct (FT {| smem := smem s; shist := shist s; spc := tset (spc s) t PFetch; slog := slog s |} eq_refl eq_refl) as (s' & E' & H'); [cbn [spc]; unfold tset; rewrite Nat.eqb_refl; reflexivity|].
    rewrite E'. exists s'. split; [reflexivity|exact H']. }
  destruct (spc s t) as [| |prev] eqn:Ep.
  - destruct ST as (s' & E' & H'); [discriminate|]. exists 2%nat, s'. split; [right; reflexivity|]. split; assumption.
  - destruct (FT s eq_refl eq_refl Ep) as (s' & E' & H'). exists 1%nat, s'. split; [left; reflexivity|]. split; [cbn [repeat srun]; rewrite E'; reflexivity|exact H'].
  - destruct ST as (s' & E' & H'); [discriminate|]. exists 2%nat, s'. split; [right; reflexivity|]. split; assumption.
Qed.
