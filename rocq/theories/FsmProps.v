(** * State machines: proofs *)
From Verif Require Import Lib FsmModel FsmSpec.
Ltac Zify.zify_post_hook ::= Z.div_mod_to_equations.

Definition fok (f : fsm) : Prop := 0 <= count f < 2 ^ 32.
Lemma land1 x : Z.land x 1 = x mod 2.
Proof. change 1 with (Z.ones 1). rewrite Z.land_ones by lia. reflexivity. Qed.
Lemma push_moved f n : fok f -> fok (push_state f n) /\ moved f (push_state f n) n (stack f).
Proof.
  unfold fok, moved, push_state, curr, prev, w32. intros H. rewrite !land1. split.
  - destruct (_ =? 0); cbn [count]; lia.
  - destruct (Z.eqb_spec ((count f + 1) mod 2 ^ 32 mod 2) 0) as [E1|E1]; cbn [count state0 state1 error stack]; rewrite ?land1.
    + rewrite (proj2 (Z.eqb_eq _ _) E1). destruct (Z.eqb_spec (((count f + 1) mod 2 ^ 32 - 1) mod 2 ^ 32 mod 2) 0); [lia|]. destruct (Z.eqb_spec (count f mod 2) 0); [lia|]. repeat split.
    + rewrite (proj2 (Z.eqb_neq _ _) E1). destruct (Z.eqb_spec (((count f + 1) mod 2 ^ 32 - 1) mod 2 ^ 32 mod 2) 0); [|lia]. destruct (Z.eqb_spec (count f mod 2) 0); [|lia]. repeat split.
Qed.
Lemma moved_stack f f' n l l' : moved f f' n l -> moved f (set_stack f' l') n l'.
Proof. intros (H1 & H2 & H3 & H4). repeat split; assumption. Qed.
Lemma moved_from f l f' n l' : moved (set_stack f l) f' n l' -> moved f f' n l'.
Proof. intros (H1 & H2 & H3 & H4). repeat split; assumption. Qed.

Section Machine.
Variable sts : Z -> option state.
Variable trn : Z -> option trans.
Variable orc : list call -> call -> Z.
Variable room : list call -> bool.
Variable type : Z.
Notation scan' := (scan trn orc type). Notation find' := (find_transition sts trn orc type). Notation loop' := (loop sts trn orc room type).
Notation all_refuse' := (all_refuse trn orc type). Notation accepts' := (accepts trn orc type). Notation reacts' := (reacts sts trn orc type). Notation ignores' := (ignores sts trn orc type).
Notation climbs' := (climbs sts trn orc type). Notation handles' := (handles sts trn orc room type). Notation fired' := (fired sts trn orc type).

Lemma cond_ok p t b p' : cond trn orc type p t = Some (b, p') -> if b then accepts' p t p' else refuses trn orc type p t p'.
Proof.
  unfold cond. destruct (trn t) as [tr|] eqn:E1; [|discriminate]. destruct (Z.eqb_spec (t_type tr) type) as [E2|E2]; cbn [negb].
  - destruct (t_guard tr) eqn:E3; cbn [negb].
    + destruct (Z.eqb_spec (orc p (Guard t)) 0) as [E4|E4]; intros [= <- <-]; econstructor; eassumption.
    + intros [= <- <-]. econstructor; eassumption.
  - intros [= <- <-]. econstructor; eassumption.
Qed.
Lemma scan_ok ts : forall p r p', scan' p ts = Some (r, p') ->
  match r with Some t => exists l1 l2 p1, ts = l1 ++ t :: l2 /\ all_refuse' p l1 p1 /\ accepts' p1 t p' | None => all_refuse' p ts p' end.
Proof.
  induction ts as [|t ts IH]; intros p r p'; cbn [scan]; [intros [= <- <-]; constructor|].
  destruct (cond trn orc type p t) as [[b p1]|] eqn:E1; [|discriminate]. apply cond_ok in E1. cbn [fst snd]. destruct b.
  - intros [= <- <-]. exists [], ts, p. repeat split; [constructor|exact E1].
  - intros H. apply IH in H. destruct r as [t'|].
    + destruct H as (l1 & l2 & p2 & -> & H1 & H2). exists (t :: l1), l2, p2. repeat split; [econstructor; eassumption|exact H2].
    + econstructor; eassumption.
Qed.
Lemma find_ok p s r p' : find' p s = Some (r, p') -> match r with Some t => reacts' p s t p' | None => ignores' p s p' end.
Proof.
  unfold find_transition. destruct (sts s) as [st|] eqn:E1; [|discriminate]. destruct (scan' p (s_trans st)) as [[r0 p1]|] eqn:E2; [|discriminate]. apply scan_ok in E2. cbn [fst snd]. destruct r0 as [t|].
  - intros [= <- <-]. destruct E2 as (l1 & l2 & p2 & H1 & H2 & H3). eapply re_first; eassumption.
  - destruct (s_exception st) eqn:E3.
    + destruct (Z.eqb_spec (orc p1 (Exception s)) NULL) as [E4|E4]; intros [= <- <-]; [eapply ig_exception; eassumption|eapply re_exception; eassumption].
    + intros [= <- <-]. eapply ig_plain; eassumption.
Qed.
Lemma descend_ok fuel : forall s n, descend sts fuel s = Some n -> entry_of sts s n.
Proof.
  induction fuel as [|fuel IH]; intros s n; [discriminate|]. cbn [descend]. destruct (sts s) as [st|] eqn:E1; [|discriminate]. destruct (Z.eqb_spec (s_entry st) NULL) as [E2|E2].
  - intros [= <-]. econstructor; eassumption.
  - intros H. eapply en_down; [eassumption|assumption|apply IH, H].
Qed.
Lemma skipn_cons {A} (l : list A) i x : 0 <= i -> rd l i = Some x -> exists l', skipn (Z.to_nat i) l = x :: l'.
Proof.
  intros Hi H. unfold rd in H. rewrite (proj2 (Z.ltb_ge _ _) Hi) in H. revert H. generalize (Z.to_nat i). clear. intros n. revert l. induction n as [|n IH]; intros [|y l]; cbn [nth_error skipn]; try discriminate; [intros [= ->]; eauto|apply IH].
Qed.
Lemma pop_ok f tr f' s : t_next tr = NULL -> - 2 ^ 31 < t_stack tr < 0 -> pop f (- t_stack tr) = Some (f', s) -> exists stk, f' = set_stack f stk /\ leads (stack f) tr s stk.
Proof.
  intros H1 H2. unfold pop. destruct (Z.ltb_spec (zlen (stack f)) (- t_stack tr)); [discriminate|]. destruct (rd _ _) as [s0|] eqn:E1; [|discriminate]. intros [= <- <-]. eexists. split; [reflexivity|].
  assert (Hi : 0 <= zlen (stack f) - - t_stack tr) by lia. destruct (skipn_cons _ _ _ Hi E1) as [l' El]. eapply (le_pop _ _ _ (- t_stack tr) (skipn (Z.to_nat (zlen (stack f) - - t_stack tr)) (stack f))); try eassumption; try lia.
  - rewrite firstn_skipn. reflexivity.
  - unfold zlen in *. rewrite skipn_length. lia.
Qed.
Lemma climbs_trans p s p1 st f q f' q' r : ignores' p s p1 -> sts s = Some st -> s_parent st <> NULL -> handles' f p1 (s_parent st) f' q' r -> q = p -> handles' f q s f' q' r.
Proof.
  intros H1 H2 H3 H ->. 
  assert (G : forall a q2, climbs' p1 (s_parent st) a q2 -> climbs' p s a q2) by (intros a q2 Hc; eapply cl_up; eassumption).
  assert (GF : forall f a t tr n nst stk p' r, fired' f p1 (s_parent st) a t tr n nst stk p' r -> fired' f p s a t tr n nst stk p' r).
  { intros f0 a t tr n nst stk p' r0 (x1 & x2 & x3 & x4 & y). exists x1, x2, x3, x4. destruct y as (y1 & y2). split; [apply G, y1|exact y2]. }
  inversion H; subst.
  - eapply ha_ignored; try apply G; eassumption.
  - eapply ha_underflow; try apply G; eassumption.
  - eapply ha_nowhere; try apply G; eassumption.
  - eapply ha_fails; try apply GF; eassumption.
  - eapply ha_error; try apply GF; try eassumption; reflexivity.
  - eapply ha_self; try apply GF; try eassumption; reflexivity.
  - eapply ha_finish; try apply GF; eassumption.
  - eapply ha_memory; try apply GF; eassumption.
  - eapply ha_changed; try apply GF; eassumption.
  - eapply ha_cross; try apply GF; eassumption.
Qed.
(** Running one optional call. *)
Lemma perf_opt (b : bool) c l p p' r : let r0 := if b then orc p c else 0 in let p0 := if b then p ++ [c] else p in
  (if r0 =? 0 then performs orc p0 l p' r else p' = p0 /\ r = r0) -> performs orc p ((if b then [c] else []) ++ l) p' r.
Proof.
  destruct b; cbn zeta iota; cbn [app].
  - destruct (Z.eqb_spec (orc p c) 0); [intros; eapply pe_next; eassumption|intros [-> ->]; apply pe_fail; assumption].
  - rewrite Z.eqb_refl. trivial.
Qed.
Lemma fire_ok fuel (IH : forall f p s f' p' r, fok f -> loop' fuel f p s = Some (f', p', r) -> handles' f p s f' p' r /\ fok f') f p s p1 t tr st n0 stk f' p' r :
  fok f -> reacts' p s t p1 -> sts s = Some st -> trn t = Some tr -> leads (stack f) tr n0 stk ->
  (let f := set_stack f stk in
   if n0 =? NULL then
     let* (f, past, retval) := fsm_error sts orc f p1 in Some (f, past, if retval =? 0 then - ENOENT else retval)
   else
     let* next := descend sts fuel n0 in
     let* nst := sts next in
     let exits := negb (s =? next) && (t_stack tr <=? 0) && s_exit st in
     let retval := if exits then orc p1 (Exit s) else 0 in
     let past := if exits then p1 ++ [Exit s] else p1 in
     if negb (retval =? 0) then Some (f, past, retval) else
     let retval := if t_action tr then orc past (Action t s next) else 0 in
     let past := if t_action tr then past ++ [Action t s next] else past in
     if negb (retval =? 0) then Some (f, past, retval) else
     let enters := negb (s =? next) && (0 <=? t_stack tr) && s_enter nst in
     let retval := if enters then orc past (Enter next) else 0 in
     let past := if enters then past ++ [Enter next] else past in
     if negb (retval =? 0) then Some (f, past, retval) else
     let f := push_state f next in
     if next =? error f then Some (f, past, - EFAULT) else
     if s =? next then Some (f, past, SELFLOOP) else
     if (zlen (s_trans nst) =? 0) && negb (s_exception nst) then Some (f, past, FINISH) else
     if (0 <? t_stack tr) && negb (room past) then Some (f, past, - ENOMEM) else
     let f := if 0 <? t_stack tr then set_stack f (stack f ++ [s]) else f in
     if t_cross tr then loop' fuel f past next else Some (f, past, CHANGED)) = Some (f', p', r) ->
  handles' f p s f' p' r /\ fok f'.
Proof.
  intros Hf Hr Hs Ht Hl. cbv zeta. destruct (Z.eqb_spec n0 NULL) as [->|N0].
  - unfold fsm_error. destruct (push_moved (set_stack f stk) (error (set_stack f stk)) Hf) as [K1 K2]. cbn [stack set_stack] in K2. change (error (set_stack f stk)) with (error f) in *.
    assert (Ee : error (push_state (set_stack f stk) (error f)) = error f) by (apply K2). rewrite !Ee. apply moved_from in K2.
    assert (Q : forall r0 p0, (error f = NULL /\ p0 = p1 /\ r0 = 0 \/ exists est, error f <> NULL /\ sts (error f) = Some est /\ performs orc p1 (if s_enter est then [Enter (error f)] else []) p0 r0) ->
       handles' f p s (push_state (set_stack f stk) (error f)) p0 (if r0 =? 0 then - ENOENT else r0)).
    { intros r0 p0 H. eapply ha_nowhere; try eassumption. constructor. }
    destruct (Z.eqb_spec (error f) NULL) as [E1|E1].
    + intros [= <- <- <-]. split; [|exact K1]. apply (Q 0 p1). left. repeat split. exact E1.
    + destruct (sts (error f)) as [est|] eqn:E2; [|discriminate]. destruct (s_enter est) eqn:E3; intros [= <- <- <-]; (split; [|exact K1]).
      * apply Q. right. exists est. repeat split; try assumption. rewrite E3. destruct (Z.eq_dec (orc p1 (Enter (error f))) 0) as [E4|E4]; [rewrite E4; eapply pe_next; [exact E4|constructor]|apply pe_fail, E4].
      * apply (Q 0 p1). right. exists est. repeat split; try assumption. rewrite E3. constructor.
  - destruct (descend sts fuel n0) as [n|] eqn:Ed; [|discriminate]. apply descend_ok in Ed. destruct (sts n) as [nst|] eqn:En; [|discriminate].
    assert (FI : forall p' r, performs orc p1 (plan s st t tr n nst) p' r -> fired' f p s s t tr n nst stk p' r).
    { intros p0 r0 H. exists p, p1, n0, st. repeat split; try assumption. constructor. }
    set (e1 := negb (s =? n) && (t_stack tr <=? 0) && s_exit st) in *. set (e3 := negb (s =? n) && (0 <=? t_stack tr) && s_enter nst) in *.
    set (r1 := if e1 then orc p1 (Exit s) else 0). set (q1 := if e1 then p1 ++ [Exit s] else p1). destruct (Z.eqb_spec r1 0) as [E1|E1]; cbn [negb].
    2: { intros [= <- <- <-]. split; [|exact Hf]. eapply ha_fails; [apply FI|exact E1|repeat split]. unfold plan. fold e1 e3. apply perf_opt. fold r1. rewrite (proj2 (Z.eqb_neq _ _) E1). split; reflexivity. }
    set (r2 := if t_action tr then orc q1 (Action t s n) else 0). set (q2 := if t_action tr then q1 ++ [Action t s n] else q1). destruct (Z.eqb_spec r2 0) as [E2|E2]; cbn [negb].
    2: { intros [= <- <- <-]. split; [|exact Hf]. eapply ha_fails; [apply FI|exact E2|repeat split]. unfold plan. fold e1 e3. apply perf_opt. fold r1 q1. rewrite (proj2 (Z.eqb_eq _ _) E1). apply perf_opt. fold r2 q2. rewrite (proj2 (Z.eqb_neq _ _) E2). split; reflexivity. }
    set (r3 := if e3 then orc q2 (Enter n) else 0). set (q3 := if e3 then q2 ++ [Enter n] else q2). 
    assert (PP : forall p' r, (if r3 =? 0 then performs orc q3 [] p' r else p' = q3 /\ r = r3) -> fired' f p s s t tr n nst stk p' r).
    { intros p0 r0 H. apply FI. unfold plan. fold e1 e3. apply perf_opt. fold r1 q1. rewrite (proj2 (Z.eqb_eq _ _) E1). apply perf_opt. fold r2 q2. rewrite (proj2 (Z.eqb_eq _ _) E2). rewrite <- (app_nil_r (if e3 then _ else _)). apply perf_opt. exact H. }
    destruct (Z.eqb_spec r3 0) as [E3|E3]; cbn [negb].
    2: { intros [= <- <- <-]. split; [|exact Hf]. eapply ha_fails; [apply PP|exact E3|repeat split]. split; reflexivity. }
    pose proof (PP q3 0 (pe_done _ q3)) as FD. clear PP FI.
    destruct (push_moved (set_stack f stk) n Hf) as [K1 K2]. cbn [stack set_stack] in K2. assert (Ee : error (push_state (set_stack f stk) n) = error f) by (apply K2). rewrite Ee. assert (Es : stack (push_state (set_stack f stk) n) = stk) by (apply K2). rewrite Es. apply moved_from in K2.
    destruct (Z.eqb_spec n (error f)) as [X1|X1]; [intros [= <- <- <-]; split; [|exact K1]; eapply ha_error; eassumption|].
    destruct (Z.eqb_spec s n) as [X2|X2]; [intros [= <- <- <-]; split; [|exact K1]; eapply ha_self; try eassumption; congruence|].
    assert (X2' : n <> s) by congruence.
    destruct ((zlen (s_trans nst) =? 0) && negb (s_exception nst)) eqn:X3.
    { intros [= <- <- <-]; split; [|exact K1]. eapply ha_finish; try eassumption. apply andb_prop in X3. destruct X3 as [Y1 Y2]. split; [destruct (s_trans nst); [reflexivity|discriminate]|]. destruct (s_exception nst); [discriminate|reflexivity]. }
    assert (NF : ~ final nst). { intros [Y1 Y2]. rewrite Y1, Y2 in X3. discriminate. }
    destruct ((0 <? t_stack tr) && negb (room q3)) eqn:X4.
    { intros [= <- <- <-]; split; [|exact K1]. apply andb_prop in X4. destruct X4 as [Y1 Y2]. apply Z.ltb_lt in Y1. eapply ha_memory; try eassumption; [lia|]. destruct (room q3); [discriminate|reflexivity]. }
    assert (K3 : fok (if 0 <? t_stack tr then set_stack (push_state (set_stack f stk) n) (stk ++ [s]) else push_state (set_stack f stk) n)) by (destruct (0 <? t_stack tr); exact K1).
    assert (K4 : moved f (if 0 <? t_stack tr then set_stack (push_state (set_stack f stk) n) (stk ++ [s]) else push_state (set_stack f stk) n) n (if 0 <? t_stack tr then stk ++ [s] else stk)).
    { destruct (0 <? t_stack tr); [eapply moved_stack; eassumption|exact K2]. }
    destruct (t_cross tr) eqn:X5.
    + intros H. apply IH in H; [|exact K3]. destruct H as [H H']. split; [|exact H']. eapply ha_cross; eassumption.
    + intros [= <- <- <-]. split; [|exact K3]. eapply ha_changed; eassumption.
Qed.
Lemma loop_ok fuel : forall f p s f' p' r, fok f -> loop' fuel f p s = Some (f', p', r) -> handles' f p s f' p' r /\ fok f'.
Proof.
  induction fuel as [|fuel IH]; intros f p s f' p' r Hf; [discriminate|]. cbn [loop].
  destruct (find' p s) as [[found p1]|] eqn:E1; [|discriminate]. apply find_ok in E1. destruct (sts s) as [st|] eqn:Es; [|discriminate]. destruct found as [t|].
  2: { destruct (Z.eqb_spec (s_parent st) NULL) as [E2|E2].
    - intros [= <- <- <-]. split; [|exact Hf]. eapply ha_ignored; try eassumption. constructor.
    - intros H. apply IH in H; [|exact Hf]. destruct H as [H H']. split; [|exact H']. eapply climbs_trans; try eassumption. reflexivity. }
  destruct (trn t) as [tr|] eqn:Et; [|discriminate]. destruct ((t_next tr =? NULL) && (t_stack tr <? 0)) eqn:Epo; cbn [andb].
  - apply andb_prop in Epo. destruct Epo as [P1 P2]. apply Z.eqb_eq in P1. apply Z.ltb_lt in P2. destruct (Z.leb_spec (t_stack tr) (- 2 ^ 31)) as [P3|P3]; [discriminate|].
    destruct (pop f (- t_stack tr)) as [[f0 n0]|] eqn:Ep.
    + destruct (pop_ok f tr f0 n0 P1 (conj P3 P2) Ep) as (stk & -> & Hl). eapply (fire_ok fuel); eassumption.
    + intros [= <- <- <-]. split; [|exact Hf]. eapply ha_underflow; try eassumption; [constructor|]. unfold pop in Ep. destruct (Z.ltb_spec (zlen (stack f)) (- t_stack tr)) as [H1|H1]; [repeat split; assumption|].
      destruct (rd_some _ (stack f) (zlen (stack f) - - t_stack tr) ltac:(lia)) as [x Hx]. rewrite Hx in Ep. discriminate.
  - intros H. replace f with (set_stack f (stack f)) in H by (destruct f; reflexivity). revert H. eapply (fire_ok fuel); try eassumption. destruct (Z.eqb_spec (t_next tr) NULL) as [N|N].
    + rewrite N. apply le_none; [exact N|]. cbn [andb] in Epo. apply Z.ltb_ge. exact Epo.
    + apply le_next. exact N.
Qed.

(** Whatever the graph and whatever the functions answer, handling an event does what [handles] says. *)
Theorem C66_handle fuel f p f' p' r : fok f -> handle sts trn orc room type fuel f p = Some (f', p', r) ->
  fok f' /\ (curr f = NULL /\ f' = f /\ p' = p /\ r = - EINVAL \/ curr f <> NULL /\ handles' f p (curr f) f' p' r).
Proof.
  unfold handle. intros Hf. destruct (Z.eqb_spec (curr f) NULL) as [E1|E1]; [intros [= <- <- <-]; split; [exact Hf|left; repeat split; assumption]|].
  intros H. apply loop_ok in H; [|exact Hf]. destruct H as [H H']. split; [exact H'|right; split; assumption].
Qed.
(** If the current state and all its ancestors ignore the event, the machine does not change. *)
Lemma scan_refuse p ts p' : all_refuse' p ts p' -> scan' p ts = Some (None, p').
Proof.
  induction 1 as [p|p t p1 ts p2 Hr _ IH]; [reflexivity|]. cbn [scan]. unfold cond. inversion Hr as [tr H1 H2|tr H1 H2 H3 H4]; subst; rewrite H1.
  - rewrite (proj2 (Z.eqb_neq _ _) H2). exact IH.
  - rewrite Z.eqb_refl, H3. cbn [negb]. rewrite (proj2 (Z.eqb_neq _ _) H4). exact IH.
Qed.
Lemma find_ignores p s p' : ignores' p s p' -> find' p s = Some (None, p').
Proof.
  unfold find_transition. intros H. inversion H as [st p1 H1 H2 H3|st p1 H1 H2 H3 H4]; subst; rewrite H1, (scan_refuse _ _ _ H2); cbn [fst snd]; rewrite H3; [reflexivity|]. rewrite H4. reflexivity.
Qed.
Theorem C66_unchanged f p a p1 p2 st : curr f <> NULL -> climbs' p (curr f) a p1 -> ignores' p1 a p2 -> sts a = Some st -> s_parent st = NULL ->
  exists fuel, forall more, handle sts trn orc room type (fuel + more) f p = Some (f, p2, NOCHANGE).
Proof.
  intros Hc H1 H2 H3 H4. unfold handle. rewrite (proj2 (Z.eqb_neq _ _) Hc). clear Hc. induction H1 as [p s|p s q st' a q' Hi Hs Hp Hcl IH].
  - exists 1%nat. intros more. cbn [Nat.add loop]. rewrite (find_ignores _ _ _ H2), H3. rewrite (proj2 (Z.eqb_eq _ _) H4). reflexivity.
  - destruct (IH H2 H3) as [fuel HF]. exists (S fuel). intros more. cbn [Nat.add loop]. rewrite (find_ignores _ _ _ Hi), Hs. rewrite (proj2 (Z.eqb_neq _ _) Hp). apply HF.
Qed.
(** [bfdev_fsm_finished] tells exactly that the current state is final; a final state without a parent stays for every event
    and calls nothing. *)
Theorem C66_finished f b : finished sts f = Some b -> (b = true <-> exists s, sts (curr f) = Some s /\ final s) /\
  (b = true -> forall s p fuel, curr f <> NULL -> sts (curr f) = Some s -> s_parent s = NULL -> handle sts trn orc room type (S fuel) f p = Some (f, p, NOCHANGE)).
Proof.
  unfold finished. destruct (sts (curr f)) as [s|] eqn:E; [|discriminate]. intros [= <-]. rewrite andb_true_iff, negb_true_iff, Z.eqb_eq. split.
  - unfold final. split.
    + intros [H1 H2]. exists s. split; [reflexivity|]. split; [|exact H2]. destruct (s_trans s); [reflexivity|]. unfold zlen in H1. cbn [length] in H1. lia.
    + intros (s' & [= <-] & H1 & H2). rewrite H1. split; [reflexivity|exact H2].
  - intros [H1 H2] s' p fuel Hc [= <-] Hp. unfold handle. rewrite (proj2 (Z.eqb_neq _ _) Hc). cbn [loop]. unfold find_transition. rewrite E. replace (s_trans s) with (@nil Z) by (destruct (s_trans s); [reflexivity|unfold zlen in H1; cbn [length] in H1; lia]).
    cbn [scan fst]. rewrite H2, Hp. reflexivity.
Qed.

(** ** Every event is handled to the end *)
(** The pointers of the graph are valid: [V] holds of all states and is closed under parents, entries and
    transitions; there are no circles of parents or of entries, of depth up to [D], and no crossing transitions. *)
Variable V : Z -> Prop.
Variables up down : Z -> nat.
Variable D : nat.
Definition good_trans (t : Z) : Prop := exists tr, trn t = Some tr /\ (t_next tr = NULL \/ V (t_next tr)) /\ t_stack tr > - 2 ^ 31 /\ t_cross tr = false.
Definition good_graph : Prop := forall s, V s -> s <> NULL /\ (down s < D)%nat /\ exists st, sts s = Some st /\ Forall good_trans (s_trans st) /\
  (s_exception st = true -> forall p, orc p (Exception s) = NULL \/ good_trans (orc p (Exception s))) /\
  (s_parent st = NULL \/ V (s_parent st) /\ (up (s_parent st) < up s)%nat) /\ (s_entry st = NULL \/ V (s_entry st) /\ (down (s_entry st) < down s)%nat).
Definition good_fsm (f : fsm) : Prop := fok f /\ (curr f = NULL \/ V (curr f)) /\ (error f = NULL \/ V (error f)) /\ Forall V (stack f).
Lemma scan_total ts : Forall good_trans ts -> forall p, exists r p', scan' p ts = Some (r, p') /\ match r with Some t => good_trans t | None => True end.
Proof.
  intros H; induction H as [|t ts Ht Hts IH]; intros p; cbn [scan]; [exists None, p; split; [reflexivity|exact I]|]. unfold cond. pose proof Ht as (tr & -> & _). destruct (negb (t_type tr =? type)); cbn [fst snd]; [apply IH|]. destruct (negb (t_guard tr)); cbn [fst snd]; [exists (Some t); eexists; split; [reflexivity|assumption]|]. destruct (orc p (Guard t) =? 0); [exists (Some t); eexists; split; [reflexivity|assumption]|apply IH].
Qed.
Lemma find_total p s : good_graph -> V s -> exists r p', find' p s = Some (r, p') /\ match r with Some t => good_trans t | None => True end.
Proof.
  intros HG Hs. destruct (HG s Hs) as (_ & _ & st & E1 & H1 & H2 & _). unfold find_transition. rewrite E1. destruct (scan_total _ H1 p) as (r & p' & E2 & H3). rewrite E2. cbn [fst snd]. destruct r as [t|]; [exists (Some t); eexists; split; [reflexivity|assumption]|].
  destruct (s_exception st); [|exists None; eexists; split; [reflexivity|exact I]]. destruct (H2 eq_refl p') as [H|H].
  - rewrite H. exists None. eexists. split; [reflexivity|exact I].
  - destruct (_ =? NULL); [exists None; eexists; split; [reflexivity|exact I]|]. exists (Some (orc p' (Exception s))). eexists. split; [reflexivity|assumption].
Qed.
Lemma descend_total fuel : good_graph -> forall s, V s -> (down s < fuel)%nat -> exists n, descend sts fuel s = Some n /\ V n.
Proof.
  intros HG. induction fuel as [|fuel IH]; intros s Hs Hf; [lia|]. cbn [descend]. destruct (HG s Hs) as (_ & _ & st & E1 & _ & _ & _ & H). rewrite E1. destruct (Z.eqb_spec (s_entry st) NULL) as [E2|E2]; [eauto|]. destruct H as [H|[H H']]; [congruence|]. apply IH; [exact H|lia].
Qed.
Lemma stack_pop f n : 0 < n -> Forall V (stack f) -> match pop f n with Some (f', s) => V s /\ exists stk, f' = set_stack f stk /\ Forall V stk | None => zlen (stack f) < n end.
Proof.
  intros Hn HV. unfold pop. destruct (Z.ltb_spec (zlen (stack f)) n) as [H|H]; [exact H|]. destruct (rd_some _ (stack f) (zlen (stack f) - n) ltac:(lia)) as [x Hx]. rewrite Hx. split.
  - rewrite Forall_forall in HV. apply HV. unfold rd in Hx. destruct (_ <? 0); [discriminate|]. apply nth_error_In in Hx. exact Hx.
  - eexists. split; [reflexivity|]. rewrite Forall_forall in *. intros y Hy. apply HV. rewrite <- (firstn_skipn (Z.to_nat (zlen (stack f) - n)) (stack f)). apply in_or_app. left. exact Hy.
Qed.
Lemma push_good f n : good_fsm f -> V n \/ n = NULL -> good_fsm (push_state f n).
Proof.
  intros (H1 & H2 & H3 & H4) Hn. destruct (push_moved f n H1) as [K1 (K2 & K3 & K4 & K5)]. split; [exact K1|]. rewrite K2, K4, K5. tauto.
Qed.
Lemma stack_good f l : good_fsm f -> Forall V l -> good_fsm (set_stack f l).
Proof. intros (H1 & H2 & H3 & H4) Hl. repeat split; try assumption; apply H1. Qed.
Lemma fire_total fuel s st t tr p f n0 : good_graph -> V s -> sts s = Some st -> t_cross tr = false -> (up s + D < S fuel)%nat -> good_fsm f -> n0 = NULL \/ V n0 ->
  exists f' p' r, (if n0 =? NULL then
     let* (f, past, retval) := fsm_error sts orc f p in Some (f, past, if retval =? 0 then - ENOENT else retval)
   else
     let* next := descend sts fuel n0 in
     let* nst := sts next in
     let exits := negb (s =? next) && (t_stack tr <=? 0) && s_exit st in
     let retval := if exits then orc p (Exit s) else 0 in
     let past := if exits then p ++ [Exit s] else p in
     if negb (retval =? 0) then Some (f, past, retval) else
     let retval := if t_action tr then orc past (Action t s next) else 0 in
     let past := if t_action tr then past ++ [Action t s next] else past in
     if negb (retval =? 0) then Some (f, past, retval) else
     let enters := negb (s =? next) && (0 <=? t_stack tr) && s_enter nst in
     let retval := if enters then orc past (Enter next) else 0 in
     let past := if enters then past ++ [Enter next] else past in
     if negb (retval =? 0) then Some (f, past, retval) else
     let f := push_state f next in
     if next =? error f then Some (f, past, - EFAULT) else
     if s =? next then Some (f, past, SELFLOOP) else
     if (zlen (s_trans nst) =? 0) && negb (s_exception nst) then Some (f, past, FINISH) else
     if (0 <? t_stack tr) && negb (room past) then Some (f, past, - ENOMEM) else
     let f := if 0 <? t_stack tr then set_stack f (stack f ++ [s]) else f in
     if t_cross tr then loop' fuel f past next else Some (f, past, CHANGED)) = Some (f', p', r) /\ good_fsm f'.
Proof.
  intros HG Hs Es Hc Hfu Hf Hn0. destruct (Z.eqb_spec n0 NULL) as [E1|E1].
  - unfold fsm_error. pose proof Hf as (Hk & H2 & H3 & H4). destruct (push_moved f (error f) Hk) as [_ (_ & _ & K4 & _)]. rewrite !K4.
    assert (G : good_fsm (push_state f (error f))) by (apply push_good; tauto). destruct (Z.eqb_spec (error f) NULL) as [E2|E2]; [eauto|]. destruct H3 as [H3|H3]; [congruence|]. destruct (HG _ H3) as (_ & _ & est & -> & _). destruct (s_enter est); eauto.
  - destruct Hn0 as [Hn0|Hn0]; [congruence|]. destruct (HG _ Hn0) as (_ & Hd & _). destruct (descend_total fuel HG n0 Hn0 ltac:(lia)) as (n & -> & Hn). destruct (HG _ Hn) as (_ & _ & nst & -> & _). cbv zeta.
    rewrite Hc. repeat match goal with |- exists _ _ _, (if negb (?a =? 0) then _ else _) = _ /\ _ => destruct (negb (a =? 0)); [eauto|] end.
    assert (G : good_fsm (push_state f n)) by (apply push_good; tauto).
    destruct (n =? _); [eauto|]. destruct (s =? n); [eauto|]. destruct (_ && _); [eauto|]. destruct (_ && _); [eauto|]. eexists _, _, _. split; [reflexivity|]. destruct (0 <? t_stack tr); [|exact G]. apply stack_good; [exact G|]. apply Forall_app. split; [apply G|repeat constructor; exact Hs].
Qed.
Lemma loop_total fuel : good_graph -> forall f p s, good_fsm f -> V s -> (up s + D < fuel)%nat -> exists f' p' r, loop' fuel f p s = Some (f', p', r) /\ good_fsm f'.
Proof.
  intros HG. induction fuel as [|fuel IH]; intros f p s Hf Hs Hfu; [lia|]. cbn [loop]. destruct (find_total p s HG Hs) as (found & p1 & E1 & H1). rewrite E1. destruct (HG s Hs) as (Ns & _ & st & E2 & _ & _ & H2 & _). rewrite E2. destruct found as [t|].
  2: { destruct (Z.eqb_spec (s_parent st) NULL) as [E3|E3]; [eauto|]. destruct H2 as [H2|[H2 H2']]; [congruence|]. apply IH; try assumption. lia. }
  destruct H1 as (tr & E3 & H3 & H4 & H5). rewrite E3. destruct ((t_next tr =? NULL) && (t_stack tr <? 0)) eqn:Epo; cbn [andb].
  - destruct (Z.leb_spec (t_stack tr) (- 2 ^ 31)) as [P3|P3]; [lia|]. apply andb_prop in Epo. destruct Epo as [P1 P2]. apply Z.ltb_lt in P2. pose proof Hf as (_ & _ & _ & HS). pose proof (stack_pop f (- t_stack tr) ltac:(lia) HS) as Q.
    destruct (pop f (- t_stack tr)) as [[f0 n0]|]; [|eauto]. destruct Q as (Q1 & stk & -> & Q2). apply fire_total; try assumption; [apply stack_good; assumption|right; exact Q1].
  - apply fire_total; assumption.
Qed.
Theorem C66_total fuel f p : good_graph -> good_fsm f -> (up (curr f) + D < fuel)%nat -> exists f' p' r, handle sts trn orc room type fuel f p = Some (f', p', r) /\ good_fsm f'.
Proof.
  intros HG Hf Hfu. unfold handle. destruct (Z.eqb_spec (curr f) NULL) as [E1|E1]; [eauto|]. apply loop_total; try assumption. destruct Hf as (_ & [H|H] & _); [congruence|exact H].
Qed.
End Machine.

(** ** Histories: [bfdev_fsm_curr] and [bfdev_fsm_prev] over any sequence of changes *)
Lemma fok_init s e : fok (init s e).
Proof. unfold fok. cbn [init count]. lia. Qed.
(** After any changes of state the two functions give the last two states, however often the counter has wrapped. *)
Theorem C66_track l : forall f, fok f -> let f' := fold_left push_state l f in
  curr f' = last l (curr f) /\ prev f' = match l with [] => prev f | _ => last (removelast l) (curr f) end.
Proof.
  induction l as [|x l IH] using rev_ind; intros f Hf; [split; reflexivity|]. cbv zeta in *. rewrite fold_left_app. cbn [fold_left]. destruct (IH f Hf) as [H1 H2].
  assert (Hk : fok (fold_left push_state l f)). { clear - Hf. revert f Hf. induction l as [|y l IH]; intros f Hf; [exact Hf|]. apply IH. apply (push_moved f y Hf). }
  destruct (push_moved _ x Hk) as [_ (K1 & K2 & _)]. rewrite K1, K2, last_last, removelast_last, H1. split; [reflexivity|]. destruct l; reflexivity.
Qed.

(** ** Concrete machines *)
(** States 1 (with child 2 as entry), 2, 3, 4 (final), 9 (error); transition addresses 101... *)
Definition st (e x ex : bool) (ts : list Z) (pa en : Z) : state := {| s_enter := e; s_exit := x; s_exception := ex; s_trans := ts; s_parent := pa; s_entry := en |}.
Definition ex_sts (a : Z) : option state :=
  if a =? 1 then Some (st true true false [101; 102] 0 2) else
  if a =? 2 then Some (st true true false [103] 1 0) else
  if a =? 3 then Some (st true true false [104; 105; 106] 0 0) else
  if a =? 4 then Some (st true false false [] 0 0) else
  if a =? 9 then Some (st true false false [] 0 0) else None.
Definition tr (ty n : Z) (cr : bool) (sk : Z) (g a : bool) : trans := {| t_type := ty; t_next := n; t_cross := cr; t_stack := sk; t_guard := g; t_action := a |}.
Definition ex_trn (a : Z) : option trans :=
  if a =? 101 then Some (tr 5 3 false 1 true true) else (* 1 --5 [guard]--> 3, push *)
  if a =? 102 then Some (tr 6 4 false 0 false true) else (* 1 --6--> 4 *)
  if a =? 103 then Some (tr 7 3 true 0 false false) else (* 2 --7, cross--> 3 *)
  if a =? 104 then Some (tr 8 0 false (-1) false true) else (* 3 --8--> pop *)
  if a =? 105 then Some (tr 5 0 false 0 false false) else (* 3 --5--> nowhere *)
  if a =? 106 then Some (tr 6 3 false 0 false true) else None. (* 3 --6--> 3 *)
Definition ok (p : list call) (c : call) : Z := 0.
Fixpoint go_from (orc : list call -> call -> Z) (fuel : nat) (f : fsm) (p : list call) (evs rs : list Z) {struct evs} : option (Z * Z * list Z * list call * list Z) :=
  match evs with
  | [] => Some (curr f, prev f, stack f, p, rs)
  | e :: evs => let* (f, p, r) := handle ex_sts ex_trn orc (fun _ => true) e fuel f p in go_from orc fuel f p evs (rs ++ [r])
  end.
Definition go (orc : list call -> call -> Z) (evs : list Z) := go_from orc 20 (init 2 9) [] evs [].
Example C66_example :
  go ok [5; 6; 8; 6] = Some (4, 2, [], [Guard 101; Action 101 1 3; Enter 3; Action 106 3 3; Exit 3; Action 104 3 2; Exit 1; Action 102 1 4; Enter 4], [CHANGED; SELFLOOP; CHANGED; FINISH]) /\
  go ok [99] = Some (2, 0, [], [], [NOCHANGE]) /\
  go ok [5; 5] = Some (9, 3, [1], [Guard 101; Action 101 1 3; Enter 3; Enter 9], [CHANGED; - ENOENT]).
Proof. vm_compute. repeat split. Qed.
Example C66_finished_example : finished ex_sts (init 4 9) = Some true /\ finished ex_sts (init 2 9) = Some false /\ exists s, ex_sts 4 = Some s /\ s_parent s = NULL.
Proof. split; [reflexivity|]. split; [reflexivity|]. eexists. split; reflexivity. Qed.
Definition ex_V (s : Z) : Prop := In s [1; 2; 3; 4; 9].
Definition plain_trn (a : Z) : option trans := match ex_trn a with Some t => Some (tr (t_type t) (t_next t) false (t_stack t) (t_guard t) (t_action t)) | None => None end.
Example C66_total_example : good_graph ex_sts plain_trn ok ex_V (fun s => if s =? 2 then 1%nat else 0%nat) (fun s => if s =? 1 then 1%nat else 0%nat) 2 /\
  good_fsm ex_V (init 2 9) /\ fok (init 2 9).
Proof.
  assert (G : forall a, In a [101; 102; 103; 104; 105; 106] -> good_trans plain_trn ex_V a).
  { intros a Ha. repeat (destruct Ha as [<-|Ha]; [eexists; split; [reflexivity|]; unfold ex_V; cbn; intuition (lia || congruence)|]). destruct Ha. }
  split; [|split; [|split; cbn [init count]; lia]].
  - intros s Hs. unfold ex_V in Hs. repeat (destruct Hs as [<-|Hs]; [solve [split; [discriminate|]; split; [cbn; lia|]; eexists; split; [reflexivity|]; cbn [s_trans s_exception s_parent s_entry st]; (split; [|split; [discriminate|split]]);
      [repeat (constructor; [apply G; cbn; tauto|]); constructor| first [left; reflexivity|right; split; [unfold ex_V; cbn; tauto|cbn; lia]] | first [left; reflexivity|right; split; [unfold ex_V; cbn; tauto|cbn; lia]]]]|]). destruct Hs.
  - split; [apply fok_init|]. unfold ex_V. cbn. split; [right; tauto|]. split; [right; tauto|constructor].
Qed.
(** False readings of the property, each with a machine. *)
(** "A failed action moves to the error state": the machine stays where it is and the error state is not entered. *)
Definition fails (c0 : call) (p : list call) (c : call) : Z := match c0, c with Action t _ _, Action t' _ _ => if t =? t' then -5 else 0 | _, _ => 0 end.
Theorem C66_failure_refuted : exists sts trn orc room type fuel f f' p' r n, error f <> NULL /\ handle sts trn orc room type fuel f [] = Some (f', p', r) /\
  p' = [Exit (curr f); n] /\ r = orc [Exit (curr f)] n /\ r < 0 /\ curr f' = curr f /\ curr f' <> error f.
Proof.
  exists ex_sts, ex_trn, (fails (Action 104 0 0)), (fun _ => true), 8, 20%nat, {| state0 := 3; state1 := 1; error := 9; stack := [2]; count := 0 |}.
  eexists _, _, _, (Action 104 3 2). split; [discriminate|]. split; [vm_compute; reflexivity|]. vm_compute. repeat split; discriminate.
Qed.
(** "The stack and the state agree": here the state stays but the popped states are gone, so the return is lost. *)
Theorem C66_pop_refuted : exists sts trn orc room type fuel f f' p' r, handle sts trn orc room type fuel f [] = Some (f', p', r) /\ r < 0 /\ curr f' = curr f /\ stack f = [2] /\ stack f' = [].
Proof.
  exists ex_sts, ex_trn, (fails (Action 104 0 0)), (fun _ => true), 8, 20%nat, {| state0 := 3; state1 := 1; error := 9; stack := [2]; count := 0 |}.
  eexists _, _, _. split; [vm_compute; reflexivity|]. vm_compute. repeat split.
Qed.
(** "The answer NOCHANGE means that the state is unchanged": not after a crossing transition. *)
Theorem C66_nochange_refuted : exists sts trn orc room type fuel f f' p' r, (forall p c, orc p c = 0) /\ handle sts trn orc room type fuel f [] = Some (f', p', r) /\ r = NOCHANGE /\ curr f' <> curr f.
Proof.
  exists ex_sts, ex_trn, ok, (fun _ => true), 7, 20%nat, (init 2 9). eexists _, _, _. split; [reflexivity|]. split; [vm_compute; reflexivity|]. vm_compute. split; [reflexivity|discriminate].
Qed.
(** "The exit function of the state left is run": only that of the state that has the transition. Here state 2 is left
    by its parent's transition; its own exit function is not called. *)
Theorem C66_exit_refuted : exists sts trn orc room type fuel f f' p' r s, handle sts trn orc room type fuel f [] = Some (f', p', r) /\ r = FINISH /\
  sts (curr f) = Some s /\ s_exit s = true /\ curr f' <> curr f /\ ~ In (Exit (curr f)) p'.
Proof.
  exists ex_sts, ex_trn, ok, (fun _ => true), 6, 20%nat, (init 2 9). eexists _, _, _, _. split; [vm_compute; reflexivity|]. split; [reflexivity|]. split; [reflexivity|]. vm_compute. repeat split; [discriminate|]. intuition discriminate.
Qed.
Print Assumptions C66_handle.
Print Assumptions C66_unchanged.
Print Assumptions C66_finished.
Print Assumptions C66_total.
Print Assumptions C66_track.
Print Assumptions C66_failure_refuted.
Print Assumptions C66_pop_refuted.
Print Assumptions C66_nochange_refuted.
Print Assumptions C66_exit_refuted.
