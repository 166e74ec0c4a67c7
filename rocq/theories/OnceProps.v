(** * C117: code that is to run once *)
From Coq Require Import Lia.
From Verif Require Import Lib AtomicModel AtomicSpec AtomicProofs AtomicProps OnceModel OnceSpec.

Lemma reached_app : forall s l1 l2, reached s (l1 ++ l2) = reached s l1 || reached s l2.
Proof. intros. unfold reached. apply existsb_app. Qed.
(** what holds from any flags on *)
Definition good (st : flags) (l : list event) (st' : flags) : Prop :=
  (forall l1 s c r l2, l = l1 ++ (s, c, r) :: l2 -> r = c && negb (st s || reached s l1)) /\ forall s, st' s = st s || reached s l.
Lemma good_nil : forall st, good st [] st.
Proof. intros st. split; [intros l1 s c r l2 E; destruct l1; discriminate E|intros s; cbn; rewrite orb_false_r; reflexivity]. Qed.
Lemma good_app : forall st l st' l' st'', good st l st' -> good st' l' st'' -> good st (l ++ l') st''.
Proof.
  intros st l st' l' st'' (A & B) (A' & B'). split.
  - intros l1 s c r l2 E.
    assert (D : (exists k, l = l1 ++ (s, c, r) :: k) \/ exists k, l1 = l ++ k /\ l' = k ++ (s, c, r) :: l2).
    { clear - E. revert l1 E. induction l as [|x l IH]; intros l1 E.
      - right. exists l1. split; [reflexivity|exact E].
      - destruct l1 as [|y l1]; cbn [app] in E.
        + injection E as -> E. left. exists l. reflexivity.
        + injection E as -> E. destruct (IH _ E) as [(k & ->)|(k & -> & ->)]; [left; exists k; reflexivity|right; exists k; split; reflexivity]. }
    destruct D as [(k & Ek)|(k & -> & Ek)]; [exact (A _ _ _ _ _ Ek)|].
    rewrite (A' _ _ _ _ _ Ek), reached_app, B, orb_assoc. reflexivity.
  - intros s. rewrite B', B, reached_app, orb_assoc. reflexivity.
Qed.
Lemma call_ind2 : forall P : call -> Prop, (forall s c b, Forall P b -> P (Call s c b)) -> forall c, P c.
Proof.
  intros P H. fix F 1. intros [s c b]. apply H.
  revert b. fix G 1. intros [|x b]; constructor; [apply F|apply G].
Qed.
Lemma done_good : forall st s c st' r, do_once_done st s c = (st', r) -> r = c && negb (st s) /\ forall x, st' x = st x || reached x [(s, c, r)].
Proof.
  intros st s c st' r. unfold do_once_done. destruct (c && negb (st s)) eqn:E; intros H; injection H as <- <-; (split; [reflexivity|]); intros x; cbn; unfold raise;
    rewrite orb_false_r.
  - apply andb_true_iff in E. destruct E as (-> & E). rewrite andb_true_r, (Z.eqb_sym s x). destruct (x =? s); [rewrite orb_true_r; reflexivity|rewrite orb_false_r; reflexivity].
  - destruct (Z.eqb_spec s x) as [->|n]; cbn; [|rewrite orb_false_r; reflexivity].
    destruct c; cbn in *; [|rewrite orb_false_r; reflexivity]. destruct (st x); [reflexivity|discriminate E].
Qed.
Lemma once_good : forall c st st' l v, do_once_on c st = (st', l, v) -> good st l st' /\ v = (let 'Call _ x _ := c in x).
Proof.
  induction c as [s x b IH] using call_ind2. intros st st' l v. cbn [do_once_on]. destruct (do_once_done st s x) as [st1 r] eqn:E1.
  destruct (done_good _ _ _ _ _ E1) as (R & F).
  assert (H1 : good st [(s, x, r)] st1).
  { split; [|exact F]. intros l1 s' c' r' l2 E. destruct l1 as [|y l1]; [|destruct l1; discriminate E].
    injection E as <- <- <- _. cbn. rewrite orb_false_r. exact R. }
  destruct r.
  2:{ intros H. injection H as <- <- <-. split; [exact H1|reflexivity]. }
  match goal with |- context [(?g b st1)] => set (all := g) end.
  assert (H2 : forall b', Forall (fun c => forall st st' l v, do_once_on c st = (st', l, v) -> good st l st' /\ v = (let 'Call _ x _ := c in x)) b' ->
    forall st, good st (snd (all b' st)) (fst (all b' st))).
  { clear. induction b' as [|c b' IHb]; intros H st; [apply good_nil|]. inversion H as [|? ? Hc Hb]; subst.
    cbn [all]. fold all. destruct (do_once_on c st) as [[st1 l1] v1] eqn:E. destruct (Hc _ _ _ _ E) as (G & _).
    specialize (IHb Hb st1). destruct (all b' st1) as [st2 l2]. cbn [fst snd] in *. exact (good_app _ _ _ _ _ G IHb). }
  specialize (H2 b IH st1). destruct (all b st1) as [st2 l2]. cbn [fst snd] in H2. intros H. injection H as <- <- <-.
  split; [|reflexivity]. exact (good_app _ [(s, x, true)] _ _ _ H1 H2).
Qed.
Lemma run_good : forall l st st' log vs, run_once l st = (st', log, vs) -> good st log st' /\ vs = conds l.
Proof.
  induction l as [|c l IH]; intros st st' log vs E; cbn [run_once] in E.
  - injection E as <- <- <-. split; [apply good_nil|reflexivity].
  - destruct (do_once_on c st) as [[st1 l1] v1] eqn:E1. destruct (run_once l st1) as [[st2 l2] vs2] eqn:E2. injection E as <- <- <-.
    destruct (once_good _ _ _ _ _ E1) as (G1 & ->). destruct (IH _ _ _ _ E2) as (G2 & ->). split; [exact (good_app _ _ _ _ _ G1 G2)|].
    unfold conds. cbn [map]. destruct c. reflexivity.
Qed.
Lemma runs_app : forall s l1 l2, runs s (l1 ++ l2) = (runs s l1 + runs s l2)%nat.
Proof. intros. unfold runs. rewrite filter_app, app_length. reflexivity. Qed.
Lemma first_runs : forall s l, exactly_first l -> runs s l = if reached s l then 1%nat else 0%nat.
Proof.
  intros s l H. induction l as [|[[x c] r] l IH] using rev_ind; [reflexivity|].
  assert (H' : exactly_first l). { intros l1 s' c' r' l2 E. apply (H l1 s' c' r' (l2 ++ [(x, c, r)])). rewrite E, <- app_assoc. reflexivity. }
  specialize (IH H'). specialize (H l x c r [] eq_refl). rewrite runs_app, IH, reached_app. unfold runs. cbn [filter]. cbn [reached existsb].
  destruct (Z.eqb_spec x s) as [->|n]; cbn [andb orb]; [|rewrite orb_false_r; destruct (reached s l); reflexivity].
  rewrite H, orb_false_r. destruct c, (reached s l); reflexivity.
Qed.

(** ** One thread of control: whatever functions do, also when they reach expansions themselves and even their own one, each expansion
    calls its function the first time that it is reached with a true condition and at no other time; the value is the condition. *)
Theorem C117_sequential : forall prog, let '(_, log, values) := run_once prog (fun _ => false) in
  exactly_first log /\ (forall s, runs s log = if reached s log then 1%nat else 0%nat) /\ values = conds prog.
Proof.
  intros prog. destruct (run_once prog (fun _ => false)) as [[st log] vs] eqn:E. destruct (run_good _ _ _ _ _ E) as ((A & _) & V).
  assert (F : exactly_first log) by (intros l1 s c r l2 El; exact (A _ _ _ _ _ El)).
  split; [exact F|]. split; [intros s; exact (first_runs s _ F)|exact V].
Qed.
Example C117_sequential_case :
  let prog := [Call 1 false [Call 2 true []]; Call 1 true [Call 1 true [Call 3 true []]; Call 2 true []]; Call 2 true []; Call 1 true []] in
  snd (fst (run_once prog (fun _ => false))) = [(1, false, false); (1, true, true); (1, true, false); (2, true, true); (2, true, false); (1, true, false)].
Proof. vm_compute. reflexivity. Qed.

(** ** Threads *)
Definition oinv (s : osys) : Prop :=
  (forall x, oflags s x = existsb (fun '(y, _, r) => (y =? x) && r) (threads_events (olog s))) /\
  (forall t, ohist s t = own_events t (olog s)) /\
  (forall l1 t x c r l2, olog s = l1 ++ (t, (x, c, r)) :: l2 ->
     (r = true -> c = true) /\ (c = true -> r = false -> exists u, In (u, (x, true, true)) l1)).
Lemma own_app : forall t l1 l2, own_events t (l1 ++ l2) = own_events t l1 ++ own_events t l2.
Proof. intros. unfold own_events. rewrite filter_app, map_app. reflexivity. Qed.
Lemma ev_app : forall l1 l2, threads_events (l1 ++ l2) = threads_events l1 ++ threads_events l2.
Proof. intros. apply map_app. Qed.
Lemma snoc_split : forall {A} (l : list A) x l1 y l2, l ++ [x] = l1 ++ y :: l2 -> (l1 = l /\ y = x /\ l2 = []) \/ exists k, l = l1 ++ y :: k.
Proof.
  intros A l. induction l as [|z l IH]; intros x l1 y l2 E.
  - destruct l1 as [|w l1]; [injection E as -> <-; left; repeat split; reflexivity|]. cbn in E. injection E as _ E. destruct l1; discriminate E.
  - destruct l1 as [|w l1]; cbn in E.
    + injection E as <- _. right. exists l. reflexivity.
    + injection E as -> E. destruct (IH _ _ _ _ E) as [(-> & -> & ->)|(k & ->)]; [left; repeat split; reflexivity|right; exists k; reflexivity].
Qed.
Lemma finish_inv : forall s fl t x c r, oinv s -> (forall y, fl y = oflags s y || ((x =? y) && r)) -> (r = true -> c = true) ->
  (c = true -> r = false -> oflags s x = true) -> oinv (finish s fl t (x, c, r)).
Proof.
  intros s fl t x c r (F & H & L) E1 E2 E3. unfold finish. split; [|split]; cbn [oflags ohist opcs olog].
  - intros y. rewrite E1, F, ev_app, existsb_app. cbn. rewrite orb_false_r. reflexivity.
  - intros u. rewrite own_app. unfold oset. unfold own_events at 2. cbn [filter fst]. rewrite (Nat.eqb_sym t u). destruct (Nat.eqb_spec u t) as [->|n]; cbn [map snd]; [rewrite H; reflexivity|rewrite app_nil_r; apply H].
  - intros l1 u y c' r' l2 E. destruct (snoc_split _ _ _ _ _ E) as [(-> & EE & ->)|(k & Ek)].
    + injection EE as -> -> -> ->. split; [exact E2|]. intros Hc Hr. specialize (E3 Hc Hr). rewrite F in E3. apply existsb_exists in E3.
      destruct E3 as ([[z c0] r0] & I & B). apply andb_true_iff in B. destruct B as (B & ->). apply Z.eqb_eq in B. subst z.
      unfold threads_events in I. apply in_map_iff in I. destruct I as ([v e] & Ee & I). cbn in Ee. subst e.
      apply in_split in I. destruct I as (a & b & EI). destruct (L _ _ _ _ _ _ EI) as (C0 & _). rewrite (C0 eq_refl) in EI. exists v. rewrite EI. apply in_elt.
    + exact (L _ _ _ _ _ _ Ek).
Qed.
Lemma step_inv : forall c s t, oinv s -> oinv (ostep c s t).
Proof.
  intros c s t I. unfold ostep. destruct (opcs s t) as [|x].
  - destruct (c t (ohist s t)) as [[x cond]|]; [|exact I]. destruct (cond && negb (oflags s x)) eqn:E; [destruct I as (A & B & C); exact (conj A (conj B C))|].
    apply finish_inv; [exact I|intros y; rewrite andb_false_r, orb_false_r; reflexivity|discriminate|].
    intros -> _. destruct (oflags s x); [reflexivity|discriminate E].
  - apply finish_inv; [exact I| |reflexivity|discriminate].
    intros y. unfold raise. rewrite (Z.eqb_sym x y), andb_true_r. destruct (y =? x); [rewrite orb_true_r|rewrite orb_false_r]; reflexivity.
Qed.
Lemma run_inv : forall c sched s, oinv s -> oinv (orun c sched s).
Proof. intros c sched. induction sched as [|t sched IH]; intros s I; [exact I|]. cbn. apply IH, step_inv, I. Qed.
Lemma init_inv : oinv oinit.
Proof. split; [|split]; try reflexivity. intros l1 t x c r l2 E. destruct l1; discriminate E. Qed.
Lemma step_log : forall c s t, exists l, olog (ostep c s t) = olog s ++ l.
Proof.
  intros c s t. unfold ostep. destruct (opcs s t); [|eexists; reflexivity].
  destruct (c t (ohist s t)) as [[x cond]|]; [|exists []; rewrite app_nil_r; reflexivity]. destruct (cond && negb (oflags s x)); [exists []; rewrite app_nil_r; reflexivity|eexists; reflexivity].
Qed.
(** from a state on in which the flag is up and the thread is not between its two accesses *)
Lemma late : forall c x t sched s, oinv s -> oflags s x = true -> opcs s t <> OSet x ->
  exists l, olog (orun c sched s) = olog s ++ l /\ forall cond, ~ In (t, (x, cond, true)) l.
Proof.
  intros c x t. induction sched as [|u sched IH]; intros s I F P.
  - exists []. split; [cbn; rewrite app_nil_r; reflexivity|intros cond []].
  - cbn [orun fold_left].
    assert (H : exists l, olog (ostep c s u) = olog s ++ l /\ (forall cond, ~ In (t, (x, cond, true)) l) /\ oflags (ostep c s u) x = true /\ opcs (ostep c s u) t <> OSet x).
    { unfold ostep. destruct (opcs s u) as [|y] eqn:Eu.
      - destruct (c u (ohist s u)) as [[y cond]|].
        2:{ exists []. rewrite app_nil_r. split; [reflexivity|]. split; [intros ? []|]. split; [exact F|exact P]. }
        destruct (cond && negb (oflags s y)) eqn:E.
        + exists []. cbn [olog oflags opcs]. rewrite app_nil_r. split; [reflexivity|]. split; [intros ? []|]. split; [exact F|].
          unfold oset. destruct (Nat.eqb_spec t u) as [->|n]; [|exact P]. intros H. injection H as ->. rewrite F, andb_false_r in E. discriminate E.
        + eexists. cbn [finish olog oflags opcs]. split; [reflexivity|]. split; [intros cond' [H|[]]; discriminate H|]. split; [exact F|].
          unfold oset. destruct (Nat.eqb_spec t u) as [->|n]; [discriminate|exact P].
      - eexists. cbn [finish olog oflags opcs]. split; [reflexivity|]. split; [|split].
        + intros cond' [H|[]]. injection H as -> -> _. apply P. exact Eu.
        + unfold raise. destruct (x =? y); [reflexivity|exact F].
        + unfold oset. destruct (Nat.eqb_spec t u) as [->|n]; [discriminate|exact P]. }
    destruct H as (l & E & N & F' & P'). destruct (IH _ (step_inv c s u I) F' P') as (l' & E' & N'). exists (l ++ l').
    split; [unfold orun in E'; rewrite E', E, app_assoc; reflexivity|]. intros cond Hin. apply in_app_or in Hin. destruct Hin as [Hin|Hin]; [exact (N _ Hin)|exact (N' _ Hin)].
Qed.

(** ** Threads.  A false condition never calls the function; whoever goes past it with a true condition goes past a function that has been
    taken up already; and a call that begins after one that took the function up was over does not call it again: the calls of
    one function all overlap. *)
Theorem C117_threads : forall c sched1 sched2 t x, let s := orun c sched1 oinit in let s' := orun c (sched1 ++ sched2) oinit in
  (forall l1 u y cond r l2, olog s = l1 ++ (u, (y, cond, r)) :: l2 ->
     (r = true -> cond = true) /\ (cond = true -> r = false -> exists v, In (v, (y, true, true)) l1)) /\
  (forall u, ohist s u = own_events u (olog s)) /\
  exists l, olog s' = olog s ++ l /\
    ((exists u, In (u, (x, true, true)) (olog s)) -> opcs s t = OIdle -> forall cond, ~ In (t, (x, cond, true)) l).
Proof.
  intros c sched1 sched2 t x s s'. pose proof (run_inv c sched1 _ init_inv) as I. fold s in I. split; [apply I|]. split; [apply I|].
  assert (E : s' = orun c sched2 s) by (unfold s', s, orun; apply fold_left_app).
  assert (G : exists l, olog s' = olog s ++ l).
  { rewrite E. clearbody s. clear. revert s. induction sched2 as [|u sched IH]; intros s; [exists []; rewrite app_nil_r; reflexivity|]. cbn [orun fold_left].
    destruct (step_log c s u) as (l & El). destruct (IH (ostep c s u)) as (l' & El'). exists (l ++ l'). unfold orun in El'. rewrite El', El, app_assoc. reflexivity. }
  destruct G as (l & EL). exists l. split; [exact EL|]. intros (u & Hu) P.
  assert (F : oflags s x = true).
  { destruct I as (F & _). rewrite F. apply existsb_exists. exists (x, true, true). split; [unfold threads_events; apply in_map_iff; exists (u, (x, true, true)); split; [reflexivity|exact Hu]|].
    rewrite Z.eqb_refl. reflexivity. }
  destruct (late c x t sched2 s I F ltac:(rewrite P; discriminate)) as (l' & E' & N). rewrite <- E, EL in E'. apply app_inv_head in E'. subst l'. exact N.
Qed.
(** ** so every thread calls the function of an expansion at most once *)
Theorem C117_once_per_thread : forall c sched t x, (runs x (ohist (orun c sched oinit) t) <= 1)%nat.
Proof.
  intros c sched t x. assert (H : forall sched s, oinv s -> (runs x (own_events t (olog s)) <= 1)%nat ->
    (runs x (own_events t (olog s)) = 1%nat -> oflags s x = true /\ opcs s t <> OSet x) -> (runs x (own_events t (olog (orun c sched s))) <= 1)%nat).
  { clear. induction sched as [|u sched IH]; intros s I L K; [exact L|]. cbn [orun fold_left]. apply IH; [apply step_inv, I| |].
    - unfold ostep. destruct (opcs s u) as [|y] eqn:Eu.
      + destruct (c u (ohist s u)) as [[y cond]|]; [|exact L]. destruct (cond && negb (oflags s y)); [exact L|]. cbn [finish olog]. rewrite own_app, runs_app.
        unfold own_events at 2. cbn [filter fst]. destruct (Nat.eqb u t); cbn [map snd]; unfold runs at 2; cbn; rewrite ?andb_false_r; cbn; lia.
      + cbn [finish olog]. rewrite own_app, runs_app. unfold own_events at 2. cbn [filter fst]. destruct (Nat.eqb_spec u t) as [->|n]; cbn [map snd]; unfold runs at 2; cbn; [|lia].
        destruct (Z.eqb_spec y x) as [->|n]; cbn; [|lia]. destruct (Nat.eq_dec (runs x (own_events t (olog s))) 1) as [e|n]; [destruct (K e) as (_ & K2); contradiction|lia].
    - intros E. assert (O : oflags s x = true /\ opcs s t <> OSet x \/ (opcs s t = OSet x /\ u = t /\ runs x (own_events t (olog s)) = 0%nat)).
      { destruct (Nat.eq_dec (runs x (own_events t (olog s))) 1) as [e|n]; [left; exact (K e)|]. assert (Z0 : runs x (own_events t (olog s)) = 0%nat) by lia. right.
        unfold ostep in E. destruct (opcs s u) as [|y] eqn:Eu.
        - exfalso. destruct (c u (ohist s u)) as [[y cond]|]; [|lia]. destruct (cond && negb (oflags s y)); [cbn [olog] in E; lia|]. cbn [finish olog] in E. rewrite own_app, runs_app in E.
          unfold own_events at 2 in E. cbn [filter fst] in E. destruct (Nat.eqb u t); cbn [map snd] in E; unfold runs at 2 in E; cbn in E; rewrite ?andb_false_r in E; cbn in E; lia.
        - cbn [finish olog] in E. rewrite own_app, runs_app in E. unfold own_events at 2 in E. cbn [filter fst] in E. destruct (Nat.eqb_spec u t) as [->|m]; cbn [map snd] in E; unfold runs at 2 in E; cbn in E; [|lia].
          destruct (Z.eqb_spec y x) as [->|m]; cbn in E; [|lia]. split; [exact Eu|]. split; [reflexivity|exact Z0]. }
      destruct O as [(F & P)|(P & -> & _)].
      + unfold ostep. destruct (opcs s u) as [|y] eqn:Eu.
        * destruct (c u (ohist s u)) as [[y cond]|]; [|split; [exact F|exact P]]. destruct (cond && negb (oflags s y)) eqn:Ec.
          -- cbn [oflags opcs]. split; [exact F|]. unfold oset. destruct (Nat.eqb_spec t u) as [->|n]; [|exact P]. intros Hy. injection Hy as ->. rewrite F, andb_false_r in Ec. discriminate Ec.
          -- cbn [finish oflags opcs]. split; [exact F|]. unfold oset. destruct (Nat.eqb_spec t u) as [->|n]; [discriminate|exact P].
        * cbn [finish oflags opcs]. split; [unfold raise; destruct (x =? y); [reflexivity|exact F]|]. unfold oset. destruct (Nat.eqb_spec t u) as [->|n]; [discriminate|exact P].
      + unfold ostep. rewrite P. cbn [finish oflags opcs]. split; [unfold raise; rewrite Z.eqb_refl; reflexivity|]. unfold oset. rewrite Nat.eqb_refl. discriminate. }
  destruct (run_inv c sched _ init_inv) as (_ & Hh & _). rewrite Hh. apply H; [exact init_inv|cbn; lia|cbn; discriminate].
Qed.
Definition same_site : oclient := fun t h => match h with [] => Some (7, true) | _ => None end.
Example C117_threads_case : olog (orun same_site [0; 1; 0; 2]%nat oinit) = [(0%nat, (7, true, true)); (2%nat, (7, true, false))] /\
  opcs (orun same_site [0; 1; 0; 2]%nat oinit) 2%nat = OIdle.
Proof. split; vm_compute; reflexivity. Qed.
(** ** "Once" does not hold between threads: two of them can both find the flag down *)
Theorem C117_threads_refuted : exists c sched, (forall t h, In (c t h) [Some (7, true); None]) /\ runs 7 (threads_events (olog (orun c sched oinit))) = 2%nat.
Proof.
  exists same_site, [0; 1; 1; 0]%nat. split; [|vm_compute; reflexivity].
  intros t [|e h]; cbn; [left; reflexivity|right; left; reflexivity].
Qed.

(** ** The flag as one bit set with bfdev_bit_atomic_test_set (bitflags.h:54-63): among all threads exactly the first to complete is told that the bit was down *)
Lemma bit_kept : forall f op f' r b, atspec op f = (f', r) -> keeps_op b op -> 0 <= b ->
  bitv f' b = match op with BTestSet b' => if b' =? b then true else bitv f b | _ => bitv f b end /\
  (op = BTestSet b -> r = RBool (bitv f b)).
Proof.
  assert (UP : forall f w v b, w <> b / 64 -> bitv (AtomicSpec.upd f w v) b = bitv f b).
  { intros f w v b N. unfold bitv, AtomicSpec.upd. destruct (Z.eqb_spec (b / 64) w) as [e|_]; [congruence|reflexivity]. }
  assert (SB : forall f b' b v, 0 <= b -> b' <> b -> bitv (setb f b' v) b = bitv f b).
  { intros f b' b v B N. unfold bitv, setb, AtomicSpec.upd. destruct (Z.eqb_spec (b / 64) (b' / 64)) as [e|_]; [|reflexivity].
    assert (M : b' mod 64 <> b mod 64) by (intros M; apply N; rewrite (Z.div_mod b' 64), (Z.div_mod b 64) by lia; rewrite e, M; reflexivity).
    pose proof (Z.mod_pos_bound b' 64). pose proof (Z.mod_pos_bound b 64).
    destruct v; [rewrite Z.setbit_eqb by lia|rewrite Z.clearbit_eqb]; rewrite e; destruct (Z.eqb_spec (b' mod 64) (b mod 64)); try lia; cbn; rewrite ?andb_true_r; reflexivity. }
  assert (SS : forall f b, 0 <= b -> bitv (setb f b true) b = true).
  { intros f b B. unfold bitv, setb, AtomicSpec.upd. rewrite Z.eqb_refl. pose proof (Z.mod_pos_bound b 64). rewrite Z.setbit_eqb, Z.eqb_refl by lia. reflexivity. }
  intros f op f' r b E K B. destruct op; cbn [atspec keeps_op] in *; injection E as <- <-; try (split; [first [reflexivity | apply UP; exact K | apply SB; assumption]|discriminate]).
  - split; [|discriminate]. destruct (f w =? old); [apply UP; exact K|reflexivity].
  - split; [|discriminate]. destruct (f w =? old); [apply UP; exact K|reflexivity].
  - split; [|intros H; injection H as ->; reflexivity]. destruct (Z.eqb_spec b0 b) as [->|n]; [apply SS; exact B|apply SB; assumption].
Qed.
Theorem C117_flag : forall c m f sched b s, client_ok (zlen m) c -> Forall u64v m -> agrees m f -> 0 <= b < 64 * zlen m ->
  (forall t h op, c t h = Some op -> keeps_op b op) -> bitv f b = false -> srun c sched (sinit m) = Some s ->
  match answers b (slog s) with [] => True | (_, v) :: l => v = false /\ Forall (fun x => snd x = true) l end.
Proof.
  intros c m f sched b s CO W A B K D E. destruct (C107_linearizable c m f sched CO W A) as (s' & f' & E' & X & _ & _ & IS & _).
  rewrite E in E'. injection E' as <-.
  assert (KL : Forall (fun '(_, op, _) => keeps_op b op) (slog s)).
  { clear - IS K. induction IS as [|l t op r IS IH Hc]; [constructor|]. apply Forall_app. split; [exact IH|]. constructor; [exact (K _ _ _ Hc)|constructor]. }
  clear - X KL D B.
  assert (H : forall f l f', explains f l f' -> Forall (fun '(_, op, _) => keeps_op b op) l ->
    if bitv f b then Forall (fun x => snd x = true) (answers b l) else match answers b l with [] => True | (_, v) :: l => v = false /\ Forall (fun x => snd x = true) l end).
  { clear - B. intros f l f' X. induction X as [f|f t op r l f1 f2 S X IH]; intros KL; [destruct (bitv f b); constructor|].
    inversion KL as [|? ? K1 K2]; subst. specialize (IH K2). destruct (bit_kept _ _ _ _ b S K1 ltac:(lia)) as (BV & R).
    assert (Q : (exists b', op = BTestSet b') \/ answers b ((t, op, r) :: l) = answers b l /\ bitv f1 b = bitv f b).
    { destruct op; try (right; split; [reflexivity|exact BV]). left. eexists. reflexivity. }
    destruct Q as [(b' & ->)|(Q1 & Q2)]; [|rewrite Q1, <- Q2; exact IH].
    destruct (Z.eq_dec b' b) as [->|n].
    - rewrite (R eq_refl) in *. rewrite Z.eqb_refl in BV. rewrite BV in IH. unfold answers. cbn [flat_map]. rewrite Z.eqb_refl. cbn [app]. fold (answers b l).
      destruct (bitv f b); [constructor; [reflexivity|exact IH]|split; [reflexivity|exact IH]].
    - assert (NB : (b' =? b) = false) by (apply Z.eqb_neq; exact n). rewrite NB in BV. rewrite BV in IH. unfold answers. cbn [flat_map]. rewrite NB. destruct r; cbn [app]; exact IH. }
  specialize (H _ _ _ X KL). rewrite D in H. exact H.
Qed.
Definition flag_client : client := fun t h => match length h with O => Some (BTestSet 3) | 1%nat => Some (BFlip 4) | _ => None end.
Example C117_flag_case : client_ok 1 flag_client /\ (forall t h op, flag_client t h = Some op -> keeps_op 3 op) /\
  match srun flag_client [0; 1; 1; 0; 2]%nat (sinit [0]) with Some s => answers 3 (slog s) = [(1%nat, false); (0%nat, true); (2%nat, true)] | None => False end.
Proof.
  split; [|split; [|vm_compute; reflexivity]]; intros t h op E; unfold flag_client in E; destruct (length h) as [|[|]]; try discriminate E; injection E as <-; cbn; lia.
Qed.

Print Assumptions C117_sequential.
Print Assumptions C117_threads.
Print Assumptions C117_once_per_thread.
Print Assumptions C117_threads_refuted.
Print Assumptions C117_flag.
