(** * C49, C50: rate limiter and token bucket *)
From Verif Require Import Lib RatelimitModel RatelimitSpec.
Ltac Zify.zify_post_hook ::= Z.div_mod_to_equations.

(** calls of the rate limiter at given times *)
Fixpoint rl_run (l : rlimit) (ts : list Z) : option (rlimit * list bool) :=
  match ts with
  | [] => Some (l, [])
  | t :: ts' =>
    let* (l', a) := ratelimit l t in
    let* (l'', r) := rl_run l' ts' in
    Some (l'', a :: r)
  end.
Fixpoint rl_segments (l : rlimit) (hs : list (list Z)) : option (list (list bool)) :=
  match hs with
  | [] => Some []
  | ts :: hs' =>
    let* (l', a) := rl_run l ts in
    let* r := rl_segments (rl_reset l') hs' in
    Some (a :: r)
  end.

Lemma time_after_spec : forall a b, time_after a b = (b <? a).
Proof. intros a b. unfold time_after, time_compare. destruct (Z.eqb_spec a b); destruct (Z.ltb_spec b a); try lia; reflexivity. Qed.

Definition valid_time (interval t : Z) : Prop := t <> 0 /\ - 2 ^ 63 <= t < 2 ^ 63 /\ t + interval < 2 ^ 63.
Lemma i64_ok : forall x, - 2 ^ 63 <= x < 2 ^ 63 -> ck x = Some x.
Proof. intros x H. unfold ck, i64. destruct (Z.leb_spec (- 2 ^ 63) x); [|lia]. destruct (Z.ltb_spec x (2 ^ 63)); [reflexivity|lia]. Qed.

Section RATE.
Variables interval burst : Z.
Hypothesis Hi : 0 < interval < 2 ^ 63.
Hypothesis Hb : u32 burst.

Lemma count_cons_t : forall l, count true (true :: l) = 1 + count true l /\ count false (true :: l) = count false l /\ count true (false :: l) = count true l /\ count false (false :: l) = 1 + count false l.
Proof. intros l. unfold count. cbn [count_occ]. repeat (destruct (Bool.bool_dec _ _); try congruence). lia. Qed.
Lemma count_app : forall b l l', count b (l ++ l') = count b l + count b l'.
Proof. intros b l l'. unfold count. rewrite count_occ_app. lia. Qed.

(** a window already open with [k] calls seen *)
Lemma rl_window : forall w (k : nat) beg passed missed rest, valid_time interval beg ->
  passed = Z.min (Z.of_nat k) burst -> Forall (fun u => u <= beg + interval) w ->
  rl_run {| rl_interval := interval; rl_burst := burst; rl_begin := beg; rl_passed := passed; rl_missed := missed |} (w ++ rest) =
  (let a := map (fun k => Z.of_nat k <? burst) (seq k (length w)) in
   let* (l', r) := rl_run {| rl_interval := interval; rl_burst := burst; rl_begin := beg; rl_passed := Z.min (Z.of_nat (k + length w)) burst; rl_missed := match w with [] => missed | _ => (if count false a =? 0 then missed else w32 (missed + count false a)) end |} rest in
   Some (l', a ++ r)).
Proof.
  induction w as [|u w IH]; intros k beg passed missed rest [V0 [V1 V2]] -> F; cbn [app].
  - cbn [length seq map app]. rewrite Nat.add_0_r. destruct (rl_run _ rest) as [[l' r]|]; reflexivity.
  - inversion F; subst. cbn [length seq map app rl_run]. unfold ratelimit; cbn [rl_interval rl_burst rl_begin rl_passed rl_missed].
    destruct (Z.eqb_spec interval 0); [lia|]. destruct (Z.eqb_spec beg 0); [lia|].
    unfold time_add. rewrite i64_ok by lia. rewrite time_after_spec. destruct (Z.ltb_spec (beg + interval) u); [lia|].
    destruct (Z.ltb_spec (Z.min (Z.of_nat k) burst) burst) as [L|L].
    + assert (Hk : (Z.of_nat k <? burst) = true) by (apply Z.ltb_lt; lia). rewrite Hk.
      rewrite IH with (k := S k); [| unfold valid_time; tauto | | assumption].
      2:{ unfold u32 in Hb. rewrite w32_small by (unfold u32; lia). lia. }
      cbv zeta. replace (S k + length w)%nat with (k + S (length w))%nat by lia.
      assert (HC : count false (true :: map (fun k => Z.of_nat k <? burst) (seq (S k) (length w))) = count false (map (fun k => Z.of_nat k <? burst) (seq (S k) (length w)))) by apply count_cons_t.
      rewrite HC.
      assert (HM : match w with [] => missed | _ :: _ => if count false (map (fun k => Z.of_nat k <? burst) (seq (S k) (length w))) =? 0 then missed else w32 (missed + count false (map (fun k => Z.of_nat k <? burst) (seq (S k) (length w)))) end
        = if count false (map (fun k => Z.of_nat k <? burst) (seq (S k) (length w))) =? 0 then missed else w32 (missed + count false (map (fun k => Z.of_nat k <? burst) (seq (S k) (length w))))).
      { destruct w; [reflexivity|reflexivity]. }
      rewrite HM. destruct (rl_run _ rest) as [[l' r]|]; reflexivity.
    + assert (Hk : (Z.of_nat k <? burst) = false) by (apply Z.ltb_ge; lia). rewrite Hk.
      rewrite IH with (k := S k); [| unfold valid_time; tauto | lia | assumption].
      cbv zeta. replace (S k + length w)%nat with (k + S (length w))%nat by lia.
      set (A := map (fun k => Z.of_nat k <? burst) (seq (S k) (length w))).
      assert (HC : count false (false :: A) = 1 + count false A) by apply count_cons_t.
      rewrite HC. assert (0 <= count false A) by (unfold count; lia). destruct (Z.eqb_spec (1 + count false A) 0); [lia|].
      assert (HM : match w with [] => w32 (missed + 1) | _ :: _ => if count false A =? 0 then w32 (missed + 1) else w32 (w32 (missed + 1) + count false A) end = w32 (missed + (1 + count false A))).
      { destruct w as [|u' w']. { subst A. reflexivity. } destruct (Z.eqb_spec (count false A) 0) as [E|E]; [rewrite E; f_equal; lia|]. unfold w32. rewrite Zplus_mod_idemp_l. f_equal. lia. }
      rewrite HM. destruct (rl_run _ rest) as [[l' r]|]; reflexivity.
Qed.

Lemma rl_windows : forall ts ws, windows interval ts ws -> forall beg passed missed, Forall (valid_time interval) ts -> u32 missed ->
  (beg = 0 /\ passed = 0 \/ valid_time interval beg /\ 0 <= passed /\ (forall u r, ts = u :: r -> beg + interval < u)) ->
  exists l', rl_run {| rl_interval := interval; rl_burst := burst; rl_begin := beg; rl_passed := passed; rl_missed := missed |} ts = Some (l', concat (map (admit burst) ws)) /\
    rl_interval l' = interval /\ rl_burst l' = burst /\ rl_missed l' = w32 (missed + count false (concat (map (admit burst) ws))).
Proof.
  induction 1 as [|t w rest ws F N W IH]; intros beg passed missed V M B.
  - eexists. split; [reflexivity|]. repeat split. cbn. rewrite w32_small; [lia|]. unfold u32 in *. lia.
  - inversion V as [|? ? Vt Vr]; subst. apply Forall_app in Vr. destruct Vr as [Vw Vr].
    assert (S1 : exists a1 beg1 p1 m1, ratelimit {| rl_interval := interval; rl_burst := burst; rl_begin := beg; rl_passed := passed; rl_missed := missed |} t =
       Some ({| rl_interval := interval; rl_burst := burst; rl_begin := beg1; rl_passed := p1; rl_missed := m1 |}, a1) /\ beg1 = t /\ a1 = (0 <? burst) /\ p1 = Z.min 1 burst /\ m1 = if a1 then missed else w32 (missed + 1)).
    { pose proof Vt as [V0 [V1 V2]]. unfold ratelimit; cbn [rl_interval rl_burst rl_begin rl_passed rl_missed]. destruct (Z.eqb_spec interval 0); [lia|]. unfold u32 in Hb.
      destruct B as [[-> ->]|[[B0 [B1 B2]] [B3 B4]]].
      - rewrite Z.eqb_refl. unfold time_add. rewrite i64_ok by lia. rewrite time_after_spec. destruct (Z.ltb_spec (t + interval) t); [lia|].
        destruct (Z.ltb_spec 0 burst); do 4 eexists; repeat split; try reflexivity; try (rewrite w32_small by (unfold u32; lia)); lia.
      - destruct (Z.eqb_spec beg 0); [lia|]. unfold time_add. rewrite i64_ok by lia. rewrite time_after_spec. specialize (B4 _ _ eq_refl). destruct (Z.ltb_spec (beg + interval) t); [|lia].
        destruct (Z.ltb_spec 0 burst); do 4 eexists; repeat split; try reflexivity; try (rewrite w32_small by (unfold u32; lia)); lia. }
    destruct S1 as (a1 & beg1 & p1 & m1 & E1 & -> & Ea & Ep & Em).
    cbn [rl_run]. rewrite E1. rewrite (rl_window w 1 t p1 m1 rest Vt Ep F). cbv zeta.
    set (A := map (fun k => Z.of_nat k <? burst) (seq 1 (length w))).
    assert (HA : admit burst (t :: w) = a1 :: A). { unfold admit. cbn [length seq map]. rewrite Ea. reflexivity. }
    set (mm := match w with [] => m1 | _ :: _ => if count false A =? 0 then m1 else w32 (m1 + count false A) end).
    assert (C0 : 0 <= count false A) by (unfold count; lia).
    assert (Hm : mm = w32 (missed + count false (a1 :: A))).
    { unfold mm. assert (HC := count_cons_t A). destruct HC as [_ [C1 [_ C2]]]. 
      assert (D : match w with [] => m1 | _ :: _ => if count false A =? 0 then m1 else w32 (m1 + count false A) end = if count false A =? 0 then m1 else w32 (m1 + count false A)). { destruct w; reflexivity. }
      rewrite D. rewrite Em. destruct a1.
      - rewrite C1. destruct (Z.eqb_spec (count false A) 0) as [E|E]; [rewrite E, Z.add_0_r, w32_small; auto|reflexivity].
      - rewrite C2. destruct (Z.eqb_spec (count false A) 0) as [E|E]; [rewrite E; f_equal; lia|]. unfold w32. rewrite Zplus_mod_idemp_l. f_equal. lia. }
    destruct (IH t (Z.min (Z.of_nat (1 + length w)) burst) mm Vr) as (l' & R & I1 & I2 & I3).
    { rewrite Hm. apply w32_range. }
    { right. split; [exact Vt|]. split; [unfold u32 in Hb; lia|exact N]. }
    rewrite R. exists l'. cbn [map concat]. rewrite HA. split; [reflexivity|]. repeat split; try assumption.
    rewrite I3, Hm. change (a1 :: A ++ concat (map (admit burst) ws)) with ((a1 :: A) ++ concat (map (admit burst) ws)). cbn [app]. change (a1 :: A ++ concat (map (admit burst) ws)) with ((a1 :: A) ++ concat (map (admit burst) ws)).
    rewrite count_app. unfold w32. rewrite Zplus_mod_idemp_l. f_equal. lia.
Qed.

Lemma windows_exist : forall ts, exists ws, windows interval ts ws.
Proof.
  assert (H : forall n ts, (length ts <= n)%nat -> exists ws, windows interval ts ws).
  { induction n as [|n IH]; intros ts L. { destruct ts; [|cbn in L; lia]. exists []. constructor. }
    destruct ts as [|t ts]; [exists []; constructor|].
    assert (Sp : exists w rest, ts = w ++ rest /\ Forall (fun u => u <= t + interval) w /\ (forall u r, rest = u :: r -> t + interval < u)).
    { clear IH L. induction ts as [|u ts IHt]. { exists [], []. repeat split; [constructor|congruence]. }
      destruct (Z.le_gt_cases u (t + interval)).
      - destruct IHt as (w & rest & -> & F & N). exists (u :: w), rest. repeat split; [constructor; assumption|exact N].
      - exists [], (u :: ts). repeat split; [constructor|]. intros u' r E. inversion E; subst. lia. }
    destruct Sp as (w & rest & -> & F & N). destruct (IH rest) as (ws & W). { cbn in L. rewrite app_length in L. lia. }
    exists ((t :: w) :: ws). constructor; assumption. }
  intros ts. apply (H (length ts)). lia.
Qed.

Lemma admitted_app : forall lo hi a a' b b', length a = length b -> admitted lo hi (a ++ a') (b ++ b') = admitted lo hi a b + admitted lo hi a' b'.
Proof. induction a as [|t a IH]; intros a' [|x b] b' E; cbn in E; try lia; cbn [app admitted]; [lia|]. rewrite IH by lia. lia. Qed.
Lemma admitted_none : forall lo hi a b, Forall (fun t => t < lo \/ hi < t) a -> admitted lo hi a b = 0.
Proof. induction a as [|t a IH]; intros b F; [destruct b; reflexivity|]. inversion F; subst. destruct b as [|x b]; [reflexivity|]. cbn [admitted]. rewrite IH by assumption. destruct (Z.leb_spec lo t); destruct (Z.leb_spec t hi); try lia; rewrite ?andb_false_r; cbn; rewrite ?andb_false_r; reflexivity. Qed.
Lemma admitted_window : forall lo hi w k, admitted lo hi w (map (fun k => Z.of_nat k <? burst) (seq k (length w))) <= Z.max 0 (burst - Z.of_nat k).
Proof.
  induction w as [|t w IH]; intros k; cbn [length seq map admitted]; [lia|]. specialize (IH (S k)).
  destruct (Z.ltb_spec (Z.of_nat k) burst); cbn [andb]; destruct ((lo <=? t) && (t <=? hi)); lia.
Qed.
Lemma mono_ge : forall ts now, monotone now ts -> Forall (fun t => now <= t) ts.
Proof. induction ts as [|t ts IH]; intros now M; constructor; destruct M as [M1 M2]; [assumption|]. apply IH in M2. eapply Forall_impl; [|exact M2]. cbn. intros; lia. Qed.
Lemma mono_app : forall a b now, monotone now (a ++ b) -> monotone now a /\ monotone (last_of now a) b.
Proof. induction a as [|t a IH]; intros b now M; cbn in *. { split; [exact Logic.I|exact M]. } destruct M as [M1 M2]. apply IH in M2. destruct M2 as [M2 M3]. repeat split; assumption. Qed.
Lemma mono_weak : forall ts now now', now' <= now -> monotone now ts -> monotone now' ts.
Proof. intros [|t ts] now now' L M; [exact Logic.I|]. destruct M. split; [lia|assumption]. Qed.
Lemma last_ge : forall a now, monotone now a -> now <= last_of now a.
Proof. induction a as [|t a IH]; intros now M; cbn; [lia|]. destruct M as [M1 M2]. apply IH in M2. lia. Qed.

Lemma span_bound : forall ts ws, windows interval ts ws -> forall lo now, monotone now ts ->
  (match ts with t :: _ => lo + interval < t | [] => True end -> admitted lo (lo + interval) ts (concat (map (admit burst) ws)) <= 0) /\
  (match ts with t :: _ => lo < t | [] => True end -> admitted lo (lo + interval) ts (concat (map (admit burst) ws)) <= burst) /\
  admitted lo (lo + interval) ts (concat (map (admit burst) ws)) <= 2 * burst.
Proof.
  unfold u32 in Hb.
  induction 1 as [|t w rest ws F N W IH]; intros lo now M. { cbn [admitted map concat]. lia. }
  assert (EQ : admitted lo (lo + interval) (t :: w ++ rest) (concat (map (admit burst) ((t :: w) :: ws))) = admitted lo (lo + interval) (t :: w) (admit burst (t :: w)) + admitted lo (lo + interval) rest (concat (map (admit burst) ws))).
  { cbn [map concat]. change (t :: w ++ rest) with ((t :: w) ++ rest). apply admitted_app. unfold admit. rewrite map_length, seq_length. reflexivity. }
  rewrite EQ. clear EQ. pose proof (admitted_window lo (lo + interval) (t :: w) 0) as AW. fold (admit burst (t :: w)) in AW.
  destruct M as [M1 M2]. apply mono_app in M2. destruct M2 as [M2 M3]. assert (M4 : monotone t rest). { eapply mono_weak; [|exact M3]. apply last_ge. exact M2. }
  destruct (IH lo t M4) as (IA & IB & IC). assert (G := mono_ge _ _ M2).
  assert (A1 : lo + interval < t -> admitted lo (lo + interval) (t :: w) (admit burst (t :: w)) = 0).
  { intros L. apply admitted_none. constructor; [lia|]. eapply Forall_impl; [|exact G]. cbn. lia. }
  assert (A2 : t + interval < lo -> admitted lo (lo + interval) (t :: w) (admit burst (t :: w)) = 0).
  { intros L. apply admitted_none. constructor; [lia|]. eapply Forall_impl; [|exact F]. cbn. lia. }
  assert (R : match rest with [] => True | u :: _ => t + interval < u end). { destruct rest; [exact Logic.I|]. apply (N _ _ eq_refl). }
  split; [|split].
  - intros L. rewrite A1 by lia. cbn. apply IA. destruct rest; [exact Logic.I|lia].
  - intros L. assert (admitted lo (lo + interval) rest (concat (map (admit burst) ws)) <= 0). { apply IA. destruct rest; [exact Logic.I|lia]. } lia.
  - destruct (Z.le_gt_cases lo (t + interval)).
    + assert (admitted lo (lo + interval) rest (concat (map (admit burst) ws)) <= burst). { apply IB. destruct rest; [exact Logic.I|lia]. } lia.
    + rewrite A2 by lia. lia.
Qed.
End RATE.

(** C49: between resets (there may be any number of them) the calls fall into windows; in each window exactly the first [burst] calls are
    admitted; the result does not depend on what happened before a reset *)
Theorem C49_windows : forall interval burst hs wss, 0 < interval < 2 ^ 63 -> u32 burst ->
  Forall (Forall (valid_time interval)) hs -> Forall2 (windows interval) hs wss ->
  rl_segments (rl_init interval burst) hs = Some (map (fun ws => concat (map (admit burst) ws)) wss).
Proof.
  intros interval burst hs wss Hi Hb V W. assert (G : forall m, rl_segments (rl_reset {| rl_interval := interval; rl_burst := burst; rl_begin := 0; rl_passed := 0; rl_missed := m |}) hs = Some (map (fun ws => concat (map (admit burst) ws)) wss)).
  2:{ apply (G 0). }
  induction W as [|ts ws hs wss Wt W IH]; intros m; [reflexivity|]. inversion V; subst.
  cbn [rl_segments]. unfold rl_reset at 1; cbn [rl_interval rl_burst].
  destruct (rl_windows interval burst Hi Hb ts ws Wt 0 0 0) as (l' & R & I1 & I2 & I3); [assumption|unfold u32; lia|left; split; reflexivity|].
  rewrite R. unfold rl_reset at 1. rewrite I1, I2. specialize (IH H2 0). unfold rl_reset in IH; cbn [rl_interval rl_burst] in IH. rewrite IH. reflexivity.
Qed.
(** every list of times has its windows, so the theorem covers every history *)
Theorem C49_total : forall interval ts, exists ws, windows interval ts ws.
Proof. exact windows_exist. Qed.
(** C49: with a clock that does not run backwards, at most twice [burst] calls are admitted within any span of [interval], and the counter
    of refused calls is right *)
Theorem C49_span : forall interval burst ts lo, 0 < interval < 2 ^ 63 -> u32 burst -> Forall (valid_time interval) ts -> monotone (- 2 ^ 63) ts ->
  exists l answers, rl_run (rl_init interval burst) ts = Some (l, answers) /\ length answers = length ts /\
    admitted lo (lo + interval) ts answers <= 2 * burst /\ rl_missed l = w32 (count false answers).
Proof.
  intros interval burst ts lo Hi Hb V M. destruct (windows_exist interval ts) as (ws & W).
  destruct (rl_windows interval burst Hi Hb ts ws W 0 0 0) as (l' & R & I1 & I2 & I3); [assumption|unfold u32; lia|left; split; reflexivity|].
  exists l', (concat (map (admit burst) ws)). split; [exact R|]. split; [|split; [apply (span_bound interval burst Hi Hb ts ws W lo _ M)|exact I3]].
  clear - W. induction W as [|t w rest ws F N W IH]; [reflexivity|]. cbn [map concat]. rewrite !app_length, IH. unfold admit at 1. rewrite map_length, seq_length. cbn [length]. rewrite app_length. reflexivity.
Qed.
(** a limiter with interval 0 admits everything and keeps no record *)
Theorem C49_disabled : forall burst ts, rl_run (rl_init 0 burst) ts = Some (rl_init 0 burst, repeat true (length ts)).
Proof. intros burst ts. induction ts as [|t ts IH]; [reflexivity|]. cbn [rl_run]. unfold ratelimit; cbn [rl_init rl_interval]. rewrite Z.eqb_refl. fold (rl_init 0 burst). rewrite IH. reflexivity. Qed.

(** The sharper reading of the claim, at most [burst] admissions within every span of [interval], is false: two windows meet *)
Theorem C49_sliding_refuted : exists interval burst ts lo l answers, 0 < interval < 2 ^ 63 /\ u32 burst /\ Forall (valid_time interval) ts /\
  monotone 0 ts /\ rl_run (rl_init interval burst) ts = Some (l, answers) /\ burst < admitted lo (lo + interval) ts answers.
Proof.
  exists 10, 2, [1; 11; 12; 12], 11. eexists. eexists. split; [lia|]. split; [unfold u32; lia|]. split; [|split; [cbn; lia|split; [vm_compute; reflexivity|vm_compute; reflexivity]]].
  repeat constructor; lia.
Qed.
(** A clock that starts at 0: time 0 is taken for "not started", the window is prolonged and a call is refused although the last
    admission lies more than [interval] back *)
Theorem C49_zero_refuted : exists interval burst ts ws answers l, 0 < interval < 2 ^ 63 /\ u32 burst /\ monotone 0 ts /\ windows interval ts ws /\
  rl_run (rl_init interval burst) ts = Some (l, answers) /\ answers <> concat (map (admit burst) ws).
Proof.
  exists 10, 1, [0; 8; 11], [[0; 8]; [11]]. eexists. eexists. split; [lia|]. split; [unfold u32; lia|]. split; [cbn; lia|]. split.
  - change [0; 8; 11] with (0 :: [8] ++ [11]). constructor; [repeat constructor; lia|intros u r E; inversion E; lia|].
    change [11] with (11 :: [] ++ []) at 1. constructor; [constructor|congruence|constructor].
  - split; [vm_compute; reflexivity|vm_compute; discriminate].
Qed.
(** hypotheses are met *)
Example C49_ex : rl_run (rl_init 10 2) [5; 6; 15; 15; 16; 17; 30] = Some ({| rl_interval := 10; rl_burst := 2; rl_begin := 30; rl_passed := 1; rl_missed := 2 |}, [true; true; false; false; true; true; true])
  /\ Forall (valid_time 10) [5; 6; 15; 15; 16; 17; 30].
Proof. split; [vm_compute; reflexivity|repeat constructor; lia]. Qed.
Example C49_ex_windows : windows 10 [5; 6; 15; 16; 17; 30] [[5; 6; 15]; [16; 17]; [30]].
Proof.
  change [5; 6; 15; 16; 17; 30] with (5 :: [6; 15] ++ [16; 17; 30]). constructor; [repeat constructor; lia|intros u r E; inversion E; lia|].
  change [16; 17; 30] with (16 :: [17] ++ [30]). constructor; [repeat constructor; lia|intros u r E; inversion E; lia|].
  change [30] with (30 :: [] ++ []) at 1. constructor; [constructor|congruence|constructor].
Qed.

Print Assumptions C49_windows.
Print Assumptions C49_total.
Print Assumptions C49_span.
Print Assumptions C49_disabled.
Print Assumptions C49_sliding_refuted.
Print Assumptions C49_zero_refuted.
