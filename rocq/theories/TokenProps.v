(** * C50: token bucket *)
From Verif Require Import Lib RatelimitModel RatelimitSpec RatelimitProps.
Ltac Zify.zify_post_hook ::= Z.div_mod_to_equations.

Definition tb_step (l : bucket) (e : tb_event) : option (bucket * list bool) :=
  match e with
  | Call t => let* (l', a) := tokenbucket l t in Some (l', [a])
  | Update t => Some (tb_update l t, [])
  end.
Fixpoint tb_run (l : bucket) (es : list tb_event) : option (bucket * list bool) :=
  match es with
  | [] => Some (l, [])
  | e :: es' =>
    let* (l', a) := tb_step l e in
    let* (l'', r) := tb_run l' es' in
    Some (l'', a ++ r)
  end.
(** the same with resets in between *)
Inductive tb_op := Ev (e : tb_event) | Reset.
Fixpoint tb_ops (l : bucket) (ops : list tb_op) : option bucket :=
  match ops with
  | [] => Some l
  | Ev e :: ops' => let* (l', _) := tb_step l e in tb_ops l' ops'
  | Reset :: ops' => tb_ops (tb_reset l) ops'
  end.
Fixpoint op_times (ops : list tb_op) : list Z :=
  match ops with [] => [] | Ev e :: ops' => at_time e :: op_times ops' | Reset :: ops' => op_times ops' end.

Section TB.
Variables interval capacity : Z.
Hypothesis Hi : 0 < interval < 2 ^ 63.
Hypothesis Hc : u32 capacity.

(** bucket at time [now] *)
Definition good (l : bucket) (now : Z) : Prop :=
  tb_interval l = interval /\ tb_capacity l = capacity /\ 0 <= tb_current l <= capacity /\ 0 <= tb_last l <= now /\ u32 (tb_passed l) /\ u32 (tb_missed l).
(** what a call does, in exact numbers *)
Definition called (l : bucket) (t : Z) (l' : bucket) (a : bool) : Prop :=
  let tokens := if tb_last l =? 0 then capacity else tb_current l in
  let latest := if tb_last l =? 0 then t else tb_last l in
  let g := ((t - latest) / interval) mod 2 ^ 32 in
  let tokens' := Z.min (w32 (tokens + g)) capacity in
  tb_last l' = latest + g * interval /\ a = (0 <? tokens') /\ tb_current l' = (if a then tokens' - 1 else 0) /\
  tb_passed l' = (if a then w32 (tb_passed l + 1) else tb_passed l) /\ tb_missed l' = (if a then tb_missed l else w32 (tb_missed l + 1)).

Lemma step_call : forall l now t, good l now -> now <= t -> 0 < t < 2 ^ 63 -> exists l' a, tokenbucket l t = Some (l', a) /\ called l t l' a /\ good l' t.
Proof.
  intros l now t (E1 & E2 & B1 & B2 & U1 & U2) L T. unfold tokenbucket, called. rewrite E1, E2. destruct (Z.eqb_spec interval 0) as [Ez|Ez]; [lia|].
  set (tokens := if tb_last l =? 0 then capacity else tb_current l). set (latest := if tb_last l =? 0 then t else tb_last l).
  assert (P : (if tb_last l =? 0 then (capacity, t) else (tb_current l, tb_last l)) = (tokens, latest)). { unfold tokens, latest. destruct (tb_last l =? 0); reflexivity. }
  rewrite P. assert (HL : 0 < latest <= t). { unfold latest. destruct (Z.eqb_spec (tb_last l) 0); lia. }
  assert (HT : 0 <= tokens <= capacity). { unfold tokens. destruct (Z.eqb_spec (tb_last l) 0); unfold u32 in Hc; lia. }
  unfold time_sub. rewrite i64_ok by lia. rewrite Z.quot_div_nonneg by lia.
  assert (Q0 : 0 <= (t - latest) / interval) by (apply Z.div_pos; lia). assert (Q1 : (t - latest) / interval * interval <= t - latest) by (rewrite Z.mul_comm; apply Z.mul_div_le; lia).
  assert (Q2 : (t - latest) / interval <= t - latest) by nia. set (q := (t - latest) / interval) in *.
  rewrite i64_ok by lia. change (w32 q) with (q mod 2 ^ 32). set (g := q mod 2 ^ 32) in *. assert (G : 0 <= g <= q). { unfold g. lia. }
  assert (G1 : 0 <= g * interval <= t - latest) by nia. rewrite i64_ok by lia. unfold time_add. rewrite i64_ok by lia.
  set (n := Z.min (w32 (tokens + g)) capacity). assert (Hn : 0 <= n <= capacity). { unfold n. pose proof (w32_range (tokens + g)). unfold u32 in *. lia. }
  unfold u32 in Hc. destruct (Z.eqb_spec n 0) as [E|E].
  - do 2 eexists. split; [reflexivity|]. rewrite E. unfold good. cbn. split; [repeat split; lia|]. repeat split; try lia; try assumption; unfold u32 in *; try apply w32_range; try lia.
  - do 2 eexists. split; [reflexivity|]. assert (X : (0 <? n) = true) by (apply Z.ltb_lt; lia). unfold good. rewrite X. cbn. split; [repeat split; lia|]. repeat split; try lia; try assumption; unfold u32 in *; try apply w32_range; try lia.
Qed.
Lemma step_update : forall l now t, good l now -> 0 < t -> good (tb_update l t) t.
Proof. intros l now t (E1 & E2 & B1 & B2 & U1 & U2) T. unfold good, u32 in *; cbn. repeat split; lia. Qed.

(** moment of the latest token as far as it matters: whole multiples of 2^32 intervals are ignored *)
Definition lag (l : bucket) (now : Z) : Z := (now - tb_last l) mod (2 ^ 32 * interval).
Lemma rem_split : forall x, 0 <= x -> x mod (2 ^ 32 * interval) = (x / interval) mod 2 ^ 32 * interval + x mod interval.
Proof. intros x H. rewrite (Z.mul_comm (2 ^ 32) interval). rewrite Z.rem_mul_r by lia. lia. Qed.

Lemma run_bound : forall es l now, good l now -> tb_last l <> 0 -> 0 < now -> monotone now (map at_time es) -> Forall (fun t => t < 2 ^ 63) (map at_time es) ->
  exists l' r, tb_run l es = Some (l', r) /\ good l' (last_of now (map at_time es)) /\ tb_last l' <> 0 /\
    count true r <= tb_current l + (last_of now (map at_time es) - now + lag l now) / interval /\
    tb_passed l' = w32 (tb_passed l + count true r) /\ tb_missed l' = w32 (tb_missed l + count false r).
Proof.
  induction es as [|e es IH]; intros l now G NZ P M F; cbn [map last_of tb_run].
  - exists l, []. split; [reflexivity|]. split; [exact G|]. split; [exact NZ|]. change (count true []) with 0. change (count false []) with 0.
    destruct G as (E1 & E2 & B1 & B2 & U1 & U2). split; [|rewrite !Z.add_0_r, !w32_small by assumption; split; reflexivity].
    assert (0 <= lag l now) by (unfold lag; apply Z.mod_pos_bound; lia). assert (0 <= (now - now + lag l now) / interval) by (apply Z.div_pos; lia). lia.
  - inversion F as [|? ? F1 F2]; subst. destruct M as [M1 M2]. destruct e as [t|t]; cbn [at_time] in *.
    + destruct (step_call l now t G M1) as (l1 & a & R & C & G1); [lia|]. unfold tb_step. rewrite R.
      unfold called in C. assert (Z0 : (tb_last l =? 0) = false) by (apply Z.eqb_neq; exact NZ). rewrite Z0 in C.
      destruct C as (C1 & C2 & C3 & C4 & C5).
      pose proof G as (E1 & E2 & B1 & B2 & U1 & U2).
      set (d := t - tb_last l) in *. assert (D : 0 <= d) by (unfold d; lia).
      set (g := (d / interval) mod 2 ^ 32) in *.
      assert (Gg : 0 <= g) by (unfold g; apply Z.mod_pos_bound; lia).
      destruct (IH l1 t G1) as (l2 & r & R2 & G2 & NZ2 & K & K1 & K2); [nia|lia|exact M2|exact F2|].
      rewrite R2. exists l2, ([a] ++ r). split; [reflexivity|]. split; [exact G2|]. split; [exact NZ2|].
      assert (T1 : tb_current l1 + (if a then 1 else 0) <= tb_current l + g).
      { rewrite C3. set (n := Z.min (w32 (tb_current l + g)) capacity) in *. assert (w32 (tb_current l + g) <= tb_current l + g). { unfold w32. apply Z.mod_le; lia. } rewrite C2. destruct (Z.ltb_spec 0 n); lia. }
      assert (L1 : lag l1 t = d mod interval).
      { unfold lag. rewrite C1. replace (t - (tb_last l + g * interval)) with (d - g * interval) by (unfold d; lia).
        assert (X : d - g * interval = (d / interval / 2 ^ 32) * (2 ^ 32 * interval) + d mod interval). { unfold g. pose proof (Z.div_mod d interval). pose proof (Z.div_mod (d / interval) (2 ^ 32)). nia. }
        rewrite X. rewrite Z.add_comm, Z.mod_add by lia. apply Z.mod_small. pose proof (Z.mod_pos_bound d interval). nia. }
      assert (L2 : g * interval + d mod interval <= t - now + lag l now).
      { unfold g. rewrite <- rem_split by exact D. unfold lag. replace d with ((t - now) + (now - tb_last l)) by (unfold d; lia).
        rewrite <- Z.add_mod_idemp_r by lia. apply Z.mod_le; [|lia]. pose proof (Z.mod_pos_bound (now - tb_last l) (2 ^ 32 * interval)). lia. }
      assert (W : count true ([a] ++ r) = (if a then 1 else 0) + count true r /\ count false ([a] ++ r) = (if a then 0 else 1) + count false r). { pose proof (count_cons_t r) as (X1 & X2 & X3 & X4). destruct a; cbn [app]; rewrite ?X1, ?X2, ?X3, ?X4; lia. }
      destruct W as [W1 W2]. rewrite W1, W2. split; [|split].
      * set (e0 := last_of t (map at_time es)) in *. rewrite L1 in K.
        assert (X : g + (e0 - t + d mod interval) / interval = (e0 - t + d mod interval + g * interval) / interval). { rewrite Z.div_add by lia. lia. }
        assert (Y : (e0 - t + d mod interval + g * interval) / interval <= (e0 - now + lag l now) / interval). { apply Z.div_le_mono; lia. }
        lia.
      * rewrite K1, C4. destruct a; [|reflexivity]. unfold w32. rewrite Zplus_mod_idemp_l. f_equal. lia.
      * rewrite K2, C5. destruct a; [reflexivity|]. unfold w32. rewrite Zplus_mod_idemp_l. f_equal. lia.
    + cbn [tb_step]. destruct (IH (tb_update l t) t) as (l2 & r & R2 & G2 & NZ2 & K & K1 & K2); [eapply step_update; [exact G|lia]|cbn; lia|lia|exact M2|exact F2|].
      rewrite R2. exists l2, r. split; [reflexivity|]. split; [exact G2|]. split; [exact NZ2|]. split; [|split; [exact K1|exact K2]].
      change (tb_current (tb_update l t)) with (tb_current l) in K. assert (lag (tb_update l t) t = 0). { unfold lag. cbn [tb_last tb_update]. rewrite Z.sub_diag. apply Z.mod_0_l. lia. }
      rewrite H in K. assert (0 <= lag l now) by (unfold lag; apply Z.mod_pos_bound; lia).
      assert ((last_of t (map at_time es) - t + 0) / interval <= (last_of t (map at_time es) - now + lag l now) / interval) by (apply Z.div_le_mono; lia). lia.
Qed.

Lemma run_any : forall es l now, good l now -> monotone now (map at_time es) -> Forall (fun t => 0 < t < 2 ^ 63) (map at_time es) ->
  exists l' r, tb_run l es = Some (l', r) /\ good l' (last_of now (map at_time es)) /\
    (forall t es', map at_time es = t :: es' -> count true r <= capacity + (last_of now (map at_time es) - t + (interval - 1)) / interval) /\
    tb_passed l' = w32 (tb_passed l + count true r) /\ tb_missed l' = w32 (tb_missed l + count false r).
Proof.
  intros [|e es] l now G M F.
  { exists l, []. split; [reflexivity|]. split; [exact G|]. split; [discriminate|]. destruct G as (_ & _ & _ & _ & U1 & U2). change (count true []) with 0. change (count false []) with 0. rewrite !Z.add_0_r, !w32_small by assumption. split; reflexivity. }
  inversion F as [|? ? F1 F2]; subst. assert (F3 : Forall (fun t => t < 2 ^ 63) (map at_time es)). { eapply Forall_impl; [|exact F2]. cbn. lia. }
  destruct M as [M1 M2]. cbn [map last_of tb_run]. unfold u32 in Hc. destruct e as [t|t]; cbn [at_time] in *.
  - destruct (step_call l now t G M1) as (l1 & a & R & C & G1); [lia|]. unfold tb_step. rewrite R.
    destruct C as (C1 & C2 & C3 & C4 & C5). set (latest := if tb_last l =? 0 then t else tb_last l) in *. set (tokens := if tb_last l =? 0 then capacity else tb_current l) in *.
    assert (HL : 0 < latest <= t). { unfold latest. destruct G as (_ & _ & _ & B & _). destruct (Z.eqb_spec (tb_last l) 0); lia. }
    set (d := t - latest) in *. assert (D : 0 <= d) by (unfold d; lia). set (g := (d / interval) mod 2 ^ 32) in *. assert (Gg : 0 <= g) by (unfold g; apply Z.mod_pos_bound; lia).
    destruct (run_bound es l1 t G1) as (l2 & r & R2 & G2 & NZ2 & K & K1 & K2); [nia|lia|exact M2|exact F3|].
    rewrite R2. exists l2, ([a] ++ r). split; [reflexivity|]. split; [exact G2|].
    assert (W : count true ([a] ++ r) = (if a then 1 else 0) + count true r /\ count false ([a] ++ r) = (if a then 0 else 1) + count false r). { pose proof (count_cons_t r) as (X1 & X2 & X3 & X4). destruct a; cbn [app]; rewrite ?X1, ?X2, ?X3, ?X4; lia. }
    destruct W as [W1 W2]. rewrite W1, W2. split; [|split].
    + intros t' es' E. inversion E; subst t' es'. 
      assert (L1 : lag l1 t = d mod interval).
      { unfold lag. rewrite C1. replace (t - (latest + g * interval)) with (d - g * interval) by (unfold d; lia).
        assert (X : d - g * interval = (d / interval / 2 ^ 32) * (2 ^ 32 * interval) + d mod interval). { unfold g. pose proof (Z.div_mod d interval). pose proof (Z.div_mod (d / interval) (2 ^ 32)). nia. }
        rewrite X. rewrite Z.add_comm, Z.mod_add by lia. apply Z.mod_small. pose proof (Z.mod_pos_bound d interval). nia. }
      assert (L2 : 0 <= lag l1 t <= interval - 1). { rewrite L1. pose proof (Z.mod_pos_bound d interval). lia. }
      assert (T : tb_current l1 + (if a then 1 else 0) <= capacity). { rewrite C3, C2. set (n := Z.min (w32 (tokens + g)) capacity). assert (n <= capacity) by (unfold n; lia). destruct (Z.ltb_spec 0 n); lia. }
      assert ((last_of t (map at_time es) - t + lag l1 t) / interval <= (last_of t (map at_time es) - t + (interval - 1)) / interval) by (apply Z.div_le_mono; lia). lia.
    + rewrite K1, C4. destruct a; [|reflexivity]. unfold w32. rewrite Zplus_mod_idemp_l. f_equal. lia.
    + rewrite K2, C5. destruct a; [reflexivity|]. unfold w32. rewrite Zplus_mod_idemp_l. f_equal. lia.
  - cbn [tb_step]. destruct (run_bound es (tb_update l t) t) as (l2 & r & R2 & G2 & NZ2 & K & K1 & K2); [eapply step_update; [exact G|lia]|cbn; lia|lia|exact M2|exact F3|].
    rewrite R2. exists l2, r. split; [reflexivity|]. split; [exact G2|]. split; [|split; [exact K1|exact K2]].
    intros t' es' E. inversion E; subst t' es'. change (tb_current (tb_update l t)) with (tb_current l) in K. assert (lag (tb_update l t) t = 0). { unfold lag. cbn [tb_last tb_update]. rewrite Z.sub_diag. apply Z.mod_0_l. lia. }
    rewrite H in K. destruct G as (_ & _ & B & _).
    assert ((last_of t (map at_time es) - t + 0) / interval <= (last_of t (map at_time es) - t + (interval - 1)) / interval) by (apply Z.div_le_mono; lia). lia.
Qed.

Lemma ops_good : forall ops l now, good l now -> monotone now (op_times ops) -> Forall (fun t => 0 < t < 2 ^ 63) (op_times ops) ->
  exists l', tb_ops l ops = Some l' /\ good l' (last_of now (op_times ops)).
Proof.
  induction ops as [|o ops IH]; intros l now G M F; cbn [tb_ops op_times last_of] in *. { exists l. split; [reflexivity|exact G]. }
  destruct o as [e|].
  - cbn [op_times last_of monotone] in *. inversion F as [|? ? F1 F2]; subst. destruct M as [M1 M2]. destruct e as [t|t]; cbn [at_time] in *.
    + destruct (step_call l now t G M1) as (l1 & a & R & C & G1); [lia|]. cbn [tb_step]. rewrite R. apply IH; assumption.
    + cbn [tb_step]. apply IH; [|assumption|assumption]. eapply step_update; [exact G|lia].
  - apply IH; [|assumption|assumption]. destruct G as (E1 & E2 & B1 & B2 & U1 & U2). unfold good, u32; cbn. unfold u32 in *. repeat split; try assumption; lia.
Qed.
Lemma init_good : good (tb_init interval capacity) 0.
Proof. unfold good, u32 in *; cbn. repeat split; lia. Qed.

(** exact behaviour as long as waiting times stay short *)
Definition short (now t : Z) : Prop := (t - now) / interval + 1 + capacity < 2 ^ 32.
Fixpoint all_short (now : Z) (ts : list Z) : Prop := match ts with [] => True | t :: ts' => short now t /\ all_short t ts' end.
Lemma filled_min : forall n tokens, 0 <= n -> 0 <= tokens <= capacity -> filled capacity n tokens = Z.min (tokens + n) capacity.
Proof.
  intros n tokens Hn. unfold filled. rewrite <- (Z2Nat.id n Hn) at 2. generalize (Z.to_nat n) as k. clear n Hn. intros k HT. induction k as [|k IH].
  - cbn [Nat.iter nat_rect]. lia.
  - change (Nat.iter (S k) (tick capacity) tokens) with (tick capacity (Nat.iter k (tick capacity) tokens)). rewrite IH. unfold tick. destruct (Z.ltb_spec (Z.min (tokens + Z.of_nat k) capacity) capacity); lia.
Qed.
Definition abs (l : bucket) : option (Z * Z) := if tb_last l =? 0 then None else Some (tb_last l, tb_current l).
Lemma run_ideal : forall es l now, good l now -> (tb_last l <> 0 -> now - tb_last l < interval) -> (tb_last l = 0 -> tb_current l = 0) -> monotone now (map at_time es) ->
  Forall (fun t => 0 < t < 2 ^ 63) (map at_time es) -> (tb_last l <> 0 -> all_short now (map at_time es)) -> (tb_last l = 0 -> match map at_time es with t :: ts => all_short t ts | [] => True end) ->
  exists l', tb_run l es = Some (l', ideal interval capacity (abs l) es).
Proof.
  induction es as [|e es IH]; intros l now G R0 R1 M F Sh Sh0. { exists l. reflexivity. }
  cbn [map monotone] in *. inversion F as [|? ? F1 F2]; subst. destruct M as [M1 M2]. cbn [tb_run ideal].
  assert (ST : exists l1, tb_step l e = Some (l1, snd (ideal_step interval capacity (abs l) e)) /\ abs l1 = fst (ideal_step interval capacity (abs l) e) /\ good l1 (at_time e) /\ tb_last l1 <> 0 /\ at_time e - tb_last l1 < interval).
  { destruct e as [t|t]; cbn [at_time] in *.
    - destruct (step_call l now t G M1) as (l1 & a & R & C & G1); [lia|]. exists l1. cbn [tb_step]. rewrite R.
      destruct C as (C1 & C2 & C3 & C4 & C5). unfold u32 in Hc. pose proof G as (E1 & E2 & B1 & B2 & U1 & U2). unfold ideal_step, abs at 1 3.
      destruct (Z.eqb_spec (tb_last l) 0) as [Z0|Z0].
      + rewrite Z.sub_diag, Z.div_0_l, Z.mod_0_l, Z.mul_0_l, !Z.add_0_r in * by lia. rewrite w32_small, Z.min_id in C2, C3 by exact Hc. unfold abs. rewrite C1.
        destruct (Z.eqb_spec t 0); [lia|]. rewrite <- C2, C3. destruct a; cbn [fst snd]; repeat split; try reflexivity; try apply G1; try lia.
      + specialize (R0 Z0). specialize (Sh Z0). destruct Sh as [Sh _]. unfold short in Sh.
        set (d := t - tb_last l) in *. assert (Q0 : 0 <= d / interval) by (apply Z.div_pos; unfold d; lia).
        assert (Q1 : d / interval <= (t - now) / interval + 1). { unfold d. rewrite <- Z.div_add with (b := 1) by lia. apply Z.div_le_mono; lia. }
        rewrite Z.mod_small in C1, C2, C3 by lia. rewrite w32_small in C2, C3 by (unfold u32; lia). rewrite filled_min by lia. unfold abs. rewrite C1.
        assert (0 <= d / interval * interval <= d). { split; [nia|]. rewrite Z.mul_comm. apply Z.mul_div_le. lia. }
        destruct (Z.eqb_spec (tb_last l + d / interval * interval) 0); [lia|]. rewrite <- C2, C3.
        assert (X : t - (tb_last l + d / interval * interval) < interval). { pose proof (Z.mod_pos_bound d interval). pose proof (Z.div_mod d interval). unfold d in *. nia. }
        destruct a; cbn [fst snd]; repeat split; try reflexivity; try apply G1; try lia.
        assert (Z.min (tb_current l + d / interval) capacity = 0) by (symmetry in C2; apply Z.ltb_ge in C2; lia). congruence.
    - exists (tb_update l t). cbn [tb_step]. assert (Z1 : (t =? 0) = false) by (apply Z.eqb_neq; lia).
      split; [|split; [|split; [eapply step_update; [exact G|lia]|cbn; lia]]].
      + unfold ideal_step, abs. destruct (tb_last l =? 0); reflexivity.
      + unfold ideal_step, abs. cbn [tb_last tb_update tb_current]. rewrite Z1. destruct (Z.eqb_spec (tb_last l) 0) as [Z0|Z0]; [rewrite (R1 Z0); reflexivity|reflexivity]. }
  destruct ST as (l1 & S1 & S2 & G1 & N1 & K1). rewrite S1. destruct (ideal_step interval capacity (abs l) e) as [s1 a1] eqn:ES. cbn [fst snd] in *.
  destruct (IH l1 (at_time e) G1) as (l2 & R2); [intros _; exact K1|contradiction|exact M2|exact F2| |contradiction|].
  { intros _. destruct (Z.eq_dec (tb_last l) 0) as [Z0|Z0]; [apply (Sh0 Z0)|apply (Sh Z0)]. }
  rewrite R2, S2. exists l2. reflexivity.
Qed.
End TB.

(** C50: after any history of calls, updates and resets the number of tokens is within 0..capacity, and nothing overflows *)
Theorem C50_range : forall interval capacity ops, 0 < interval < 2 ^ 63 -> u32 capacity ->
  monotone 0 (op_times ops) -> Forall (fun t => 0 < t < 2 ^ 63) (op_times ops) ->
  exists l, tb_ops (tb_init interval capacity) ops = Some l /\ 0 <= tb_current l <= capacity /\ tb_capacity l = capacity.
Proof.
  intros interval capacity ops Hi Hc M F. destruct (ops_good interval capacity Hi Hc ops _ 0 (init_good interval capacity Hc) M F) as (l & R & G).
  exists l. split; [exact R|]. destruct G as (_ & E & B & _). split; assumption.
Qed.
(** C50: whatever happened before, the calls of a period (without reset) obtain at most [capacity] tokens plus one for every [interval]
    begun in the period; the counters of the bucket count the calls admitted and refused *)
Theorem C50_rate : forall interval capacity ops es t ts l, 0 < interval < 2 ^ 63 -> u32 capacity ->
  map at_time es = t :: ts -> monotone 0 (op_times ops ++ t :: ts) -> Forall (fun t => 0 < t < 2 ^ 63) (op_times ops ++ t :: ts) ->
  tb_ops (tb_init interval capacity) ops = Some l ->
  exists l' answers, tb_run l es = Some (l', answers) /\ count true answers <= capacity + (last_of t ts - t + (interval - 1)) / interval /\
    tb_passed l' = w32 (tb_passed l + count true answers) /\ tb_missed l' = w32 (tb_missed l + count false answers).
Proof.
  intros interval capacity ops es t ts l Hi Hc E M F R. apply mono_app in M. destruct M as [M1 M2]. apply Forall_app in F. destruct F as [F1 F2].
  destruct (ops_good interval capacity Hi Hc ops _ 0 (init_good interval capacity Hc) M1 F1) as (l1 & R1 & G). rewrite R in R1. inversion R1; subst l1.
  rewrite <- E in M2, F2. destruct (run_any interval capacity Hi Hc es l _ G M2 F2) as (l' & r & R2 & G2 & K & K1 & K2).
  exists l', r. split; [exact R2|]. specialize (K _ _ E). rewrite E in K. split; [exact K|]. split; assumption.
Qed.
(** C50: from the first use on, while no two events lie further apart than about (2^32 - capacity) intervals, the bucket answers like an
    ideal bucket that gains one token per interval: no token is lost, none is spent twice *)
Theorem C50_exact_partial : forall interval capacity es t ts, 0 < interval < 2 ^ 63 -> u32 capacity ->
  map at_time es = t :: ts -> monotone 0 (t :: ts) -> Forall (fun t => 0 < t < 2 ^ 63) (t :: ts) -> all_short interval capacity t ts ->
  exists l, tb_run (tb_init interval capacity) es = Some (l, ideal interval capacity None es).
Proof.
  intros interval capacity es t ts Hi Hc E M F Sh. rewrite <- E in M, F.
  destruct (run_ideal interval capacity Hi Hc es _ 0 (init_good interval capacity Hc)) as (l & R); [intros X; elim X; reflexivity|reflexivity|exact M|exact F|intros X; elim X; reflexivity| |].
  { intros _. rewrite E. exact Sh. } exists l. exact R.
Qed.
(** Beyond that the claim fails: waiting for 2^32 intervals brings no token at all *)
Theorem C50_exact_refuted : exists interval capacity es l answers, 0 < interval < 2 ^ 63 /\ u32 capacity /\ monotone 0 (map at_time es) /\ Forall (fun t => 0 < t < 2 ^ 63) (map at_time es) /\
  tb_run (tb_init interval capacity) es = Some (l, answers) /\ answers = [true; false] /\ es = [Call 1; Call (1 + 2 ^ 32 * interval)].
Proof. exists 1, 1, [Call 1; Call (1 + 2 ^ 32)]. do 2 eexists. split; [lia|]. split; [unfold u32; lia|]. split; [cbn; lia|]. split; [repeat constructor; cbn; lia|]. split; [vm_compute; reflexivity|split; reflexivity]. Qed.
(** With a clock that starts at 0 the bound fails: the bucket is filled again at every call *)
Theorem C50_zero_refuted : exists interval capacity es l answers, 0 < interval < 2 ^ 63 /\ u32 capacity /\ monotone 0 (map at_time es) /\ Forall (fun t => t = 0) (map at_time es) /\
  tb_run (tb_init interval capacity) es = Some (l, answers) /\ capacity < count true answers.
Proof. exists 10, 1, [Call 0; Call 0; Call 0]. do 2 eexists. split; [lia|]. split; [unfold u32; lia|]. split; [cbn; lia|]. split; [repeat constructor; cbn; lia|]. split; [vm_compute; reflexivity|vm_compute; reflexivity]. Qed.
(** With a clock that runs backwards the bound fails: an empty bucket is filled to the top *)
Theorem C50_backwards_refuted : exists interval capacity es l answers, 0 < interval < 2 ^ 63 /\ u32 capacity /\ Forall (fun t => 100 - interval <= t <= 100) (map at_time es) /\
  tb_run (tb_init interval capacity) es = Some (l, answers) /\ capacity + 1 < count true answers.
Proof. exists 10, 5, (map Call [100; 100; 100; 100; 100; 90; 90]). do 2 eexists. split; [lia|]. split; [unfold u32; lia|]. split; [repeat constructor; cbn; lia|]. split; [vm_compute; reflexivity|vm_compute; reflexivity]. Qed.
(** hypotheses are met *)
Example C50_ex : tb_run (tb_init 10 3) [Call 5; Call 5; Call 6; Call 14; Call 15; Call 24; Update 31; Call 40; Call 41; Call 90; Call 90] =
  Some ({| tb_interval := 10; tb_capacity := 3; tb_last := 81; tb_current := 1; tb_passed := 7; tb_missed := 3 |}, [true; true; true; false; true; false; false; true; true; true])
  /\ ideal 10 3 None [Call 5; Call 5; Call 6; Call 14; Call 15; Call 24; Update 31; Call 40; Call 41; Call 90; Call 90] = [true; true; true; false; true; false; false; true; true; true]
  /\ all_short 10 3 5 [5; 6; 14; 15; 24; 31; 40; 41; 90; 90].
Proof. split; [vm_compute; reflexivity|]. split; [vm_compute; reflexivity|]. cbn [all_short]. unfold short. repeat split; vm_compute; reflexivity. Qed.
Example C50_ex_ops : tb_ops (tb_init 10 3) [Ev (Call 5); Ev (Update 8); Reset; Ev (Call 9)] = Some {| tb_interval := 10; tb_capacity := 3; tb_last := 9; tb_current := 2; tb_passed := 1; tb_missed := 0 |}.
Proof. vm_compute. reflexivity. Qed.

Print Assumptions C50_range.
Print Assumptions C50_rate.
Print Assumptions C50_exact_partial.
Print Assumptions C50_exact_refuted.
Print Assumptions C50_zero_refuted.
Print Assumptions C50_backwards_refuted.
