(** * C126: the lock-free list is lock-free, and not wait-free *)
From Verif Require Import Lib Ptr ListProofs SlistModel SlistSpec SlistProofs LlistModel LlistSpec LlistProofs LockFreeSpec LockFreeProofs.

(** Take any stretch [s2] of any schedule.  The accesses a thread makes inside its calls during the stretch are bounded by the
    calls that return during it: three for each of its own, two for each of the others', and three more.  So a thread is
    held up only by calls of others that do return. *)
Theorem C126_lock_free : forall h c0 s1 c1 s2 c2 t, start h c0 -> (many_takers (s1 ++ s2) \/ exists k, one_consumer k (s1 ++ s2)) ->
  run h c0 s1 = Some c1 -> run h c1 s2 = Some c2 ->
  exists l, clog c2 = clog c1 ++ l /\ (works h c1 s2 t <= 3 * mine t l + 2 * theirs t l + 3)%nat.
Proof.
  intros h c0 s1 c1 s2 c2 t St Mo R1 R2. destruct (mode_allowed _ Mo) as [M Al]. apply Forall_app in Al. destruct Al as [A1 A2].
  destruct (run_ok h M s1 c0 [] _ (start_inv h M c0 St) A1) as (c & st & pend & R & I). rewrite R1 in R. injection R as <-.
  destruct (run_cost h M t s2 c1 st pend c2 I A2 R2) as (l & L & C). exists l. split; [exact L|].
  pose proof (phase_le (cpc c2 t)). pose proof (stale_phase h (cm c1) (cpc c1 t)). lia.
Qed.
(** Somebody always gets on: while no call returns, no thread makes more than three accesses. *)
Theorem C126_somebody : forall h c0 s1 c1 s2 c2 l t, start h c0 -> (many_takers (s1 ++ s2) \/ exists k, one_consumer k (s1 ++ s2)) ->
  run h c0 s1 = Some c1 -> run h c1 s2 = Some c2 -> clog c2 = clog c1 ++ l -> (3 < works h c1 s2 t)%nat -> (0 < anybody l)%nat.
Proof.
  intros h c0 s1 c1 s2 c2 l t St Mo R1 R2 L W. destruct (C126_lock_free h c0 s1 c1 s2 c2 t St Mo R1 R2) as (l' & L' & C).
  rewrite L in L'. apply app_inv_head in L'. subst l'.
  assert (G : forall k, (0 < mine t k + theirs t k -> 0 < anybody k)%nat).
  { intros k. unfold mine, theirs, anybody, count. induction k as [|e k IH]; [cbn; lia|]. cbn [filter]. destruct (returned e) as [u|]; [|exact IH]. cbn [length]. lia. }
  apply G. lia.
Qed.
(** Alone, a thread needs at most four accesses to finish the call it is in, whatever the others were doing. *)
Lemma alone_stays h t fuel : forall k c c', inside (cpc c t) = true -> run h c (repeat (Run t fuel) k) = Some c' ->
  exists l, clog c' = clog c ++ l /\ ((0 < mine t l)%nat \/ works h c (repeat (Run t fuel) k) t = k /\ inside (cpc c' t) = true).
Proof.
  assert (One : forall c c', inside (cpc c t) = true -> step h c (Run t fuel) = Some c' -> exists l, clog c' = clog c ++ l /\ ((0 < mine t l)%nat \/ inside (cpc c' t) = true)).
  { intros c c' B E. cbn [step] in E.
    assert (Q : clog c' = clog c /\ inside (cpc c' t) = true -> exists l, clog c' = clog c ++ l /\ ((0 < mine t l)%nat \/ inside (cpc c' t) = true)) by (intros [Q1 Q2]; exists []; rewrite app_nil_r; auto).
    assert (V : forall e, returned e = Some t -> clog c' = clog c ++ [e] -> exists l, clog c' = clog c ++ l /\ ((0 < mine t l)%nat \/ inside (cpc c' t) = true)).
    { intros e V1 V2. exists [e]. split; [exact V2|]. left. unfold mine, count. cbn [filter]. rewrite V1, Nat.eqb_refl. cbn. lia. }
    destruct (cpc c t) as [|b|b e|b e| |p|p| |e|e n] eqn:Ep; try discriminate B.
    - destruct (ld (cm c) h LINK); [|discriminate]. injection E as <-. apply Q. cbn. rewrite set_same. auto.
    - destruct (st (cm c) (last b NULL) LINK e); [|discriminate]. injection E as <-. apply Q. cbn. rewrite set_same. auto.
    - destruct (ld (cm c) h LINK) as [v|]; [|discriminate]. destruct (v =? e); [destruct (st (cm c) h LINK (hd NULL b)); [|discriminate]|]; injection E as <-.
      + apply (V (EAdd t b (e =? NULL))); reflexivity.
      + apply Q. cbn. rewrite set_same. auto.
    - destruct (ld (cm c) h LINK); [|discriminate]. injection E as <-. apply Q. cbn. rewrite set_same. auto.
    - destruct (ld (cm c) h LINK) as [v|]; [|discriminate]. destruct (v =? p); [destruct (st (cm c) h LINK NULL); [|discriminate]|]; injection E as <-.
      + apply (V (ETake t p)); reflexivity.
      + apply Q. cbn. rewrite set_same. auto.
    - destruct (ld (cm c) h LINK) as [e|]; [|discriminate]. injection E as <-. unfold del_entry in *. destruct (e =? NULL).
      + apply (V (EPopNone t)); reflexivity.
      + apply Q. cbn. rewrite set_same. auto.
    - destruct (ld (cm c) e LINK); [|discriminate]. injection E as <-. apply Q. cbn. rewrite set_same. auto.
    - destruct (ld (cm c) h LINK) as [v|]; [|discriminate]. destruct (v =? e); [destruct (st (cm c) h LINK n); [|discriminate]|]; injection E as <-.
      + apply (V (EPop t e)); reflexivity.
      + unfold del_entry in *. destruct (v =? NULL).
        * apply (V (EPopNone t)); reflexivity.
        * apply Q. cbn. rewrite set_same. auto. }
  assert (Grow : forall k c c', run h c (repeat (Run t fuel) k) = Some c' -> exists l, clog c' = clog c ++ l).
  { induction k as [|k IH]; intros c c' R; [injection R as <-; exists []; symmetry; apply app_nil_r|]. cbn [repeat run] in R. destruct (step h c (Run t fuel)) as [c1|] eqn:E; [|discriminate].
    destruct (IH _ _ R) as (l & ->). assert (G : exists l1, clog c1 = clog c ++ l1).
    { destruct (inside (cpc c t)) eqn:B; [destruct (One c c1 B E) as (l1 & L1 & _); exists l1; exact L1|]. cbn [step] in E. destruct (cpc c t); try discriminate B.
      - injection E as <-. exists []. symmetry. apply app_nil_r.
      - destruct (each_from fuel (cm c) p); injection E as <-; [eexists; reflexivity|exists []; symmetry; apply app_nil_r]. }
    destruct G as (l1 & ->). exists (l1 ++ l). symmetry. apply app_assoc. }
  induction k as [|k IH]; intros c c' B R.
  - injection R as <-. exists []. split; [symmetry; apply app_nil_r|]. right. auto.
  - cbn [repeat run] in R. destruct (step h c (Run t fuel)) as [c1|] eqn:E; [|discriminate]. destruct (One c c1 B E) as (l1 & L1 & [D|D]).
    + destruct (Grow _ _ _ R) as (l & L). exists (l1 ++ l). split; [rewrite L, L1; symmetry; apply app_assoc|]. left. unfold mine in *. rewrite count_app. lia.
    + destruct (IH c1 c' D R) as (l & L & O). exists (l1 ++ l). split; [rewrite L, L1; symmetry; apply app_assoc|]. unfold mine in *. rewrite count_app. destruct O as [O|[O1 O2]]; [left; lia|].
      right. cbn [repeat works]. rewrite E, Nat.eqb_refl, B. cbn [andb]. split; [lia|exact O2].
Qed.
Theorem C126_alone : forall h c0 s1 c1 t fuel, start h c0 -> (many_takers s1 \/ exists k, one_consumer k s1) -> run h c0 s1 = Some c1 -> inside (cpc c1 t) = true ->
  exists c2 l, run h c1 (repeat (Run t fuel) 4) = Some c2 /\ clog c2 = clog c1 ++ l /\ (0 < mine t l)%nat.
Proof.
  intros h c0 s1 c1 t fuel St Mo R1 B.
  assert (Mo' : many_takers (s1 ++ repeat (Run t fuel) 4) \/ exists k, one_consumer k (s1 ++ repeat (Run t fuel) 4)).
  { assert (X : forall a, In a (s1 ++ repeat (Run t fuel) 4) -> In a s1 \/ a = Run t fuel) by (intros a Ha; apply in_app_iff in Ha; destruct Ha as [Ha|Ha]; [auto|right; apply repeat_spec in Ha; exact Ha]).
    destruct Mo as [Mo|[k Mo]]; [left; intros u C; destruct (X _ C) as [C'|C']; [apply (Mo u C')|discriminate C']|right; exists k; intros u [C|C]; destruct (X _ C) as [C'|C']; try discriminate C'; apply Mo; auto]. }
  destruct (mode_allowed _ Mo') as [M Al]. apply Forall_app in Al. destruct Al as [A1 A2].
  destruct (run_ok h M s1 c0 [] _ (start_inv h M c0 St) A1) as (c & st & pend & R & I). rewrite R1 in R. injection R as <-.
  destruct (run_ok h M _ c1 st pend I A2) as (c2 & _ & _ & R2 & _). destruct (alone_stays h t fuel 4 c1 c2 B R2) as (l & L & O).
  exists c2, l. split; [exact R2|]. split; [exact L|]. destruct O as [O|[O _]]; [exact O|].
  destruct (C126_lock_free h c0 s1 c1 _ c2 t St Mo' R1 R2) as (l' & L' & C). rewrite L in L'. apply app_inv_head in L'. subst l'.
  assert (T0 : theirs t l = 0%nat).
  { clear - L R2 B. revert L R2. generalize 4%nat. intros k. revert c1 l B. 
    assert (G : forall k c c', run h c (repeat (Run t fuel) k) = Some c' -> exists l, clog c' = clog c ++ l /\ theirs t l = 0%nat).
    { clear. induction k as [|k IH]; intros c c' R; [injection R as <-; exists []; split; [symmetry; apply app_nil_r|reflexivity]|]. cbn [repeat run] in R. destruct (step h c (Run t fuel)) as [c1|] eqn:E; [|discriminate].
      destruct (IH _ _ R) as (l & -> & T). assert (F : exists l1, clog c1 = clog c ++ l1 /\ theirs t l1 = 0%nat).
      { assert (N : clog c1 = clog c -> exists l1, clog c1 = clog c ++ l1 /\ theirs t l1 = 0%nat) by (intros Q; exists []; rewrite app_nil_r; auto).
        assert (V : forall e, clog c1 = clog c ++ [e] -> match returned e with Some u => u = t | None => True end -> exists l1, clog c1 = clog c ++ l1 /\ theirs t l1 = 0%nat).
        { intros e Q W. exists [e]. split; [exact Q|]. unfold theirs, count. cbn [filter]. destruct (returned e) as [u|]; [subst u; rewrite Nat.eqb_refl|]; reflexivity. }
        cbn [step] in E. destruct (cpc c t) as [|b|b e|b e| |p|p| |e|e n];
          repeat match type of E with match ?x with Some _ => _ | None => _ end = _ => destruct x; try discriminate E | (if ?b then _ else _) = _ => destruct b end; injection E as <-; unfold del_entry in *; try destruct (_ =? NULL);
          first [apply N; reflexivity | eapply V; [reflexivity|cbn; auto]]. }
      destruct F as (l1 & -> & T1). exists (l1 ++ l). split; [symmetry; apply app_assoc|]. unfold theirs in *. rewrite count_app, T, T1. reflexivity. }
    intros c1 l _ L R. destruct (G _ _ _ R) as (l' & L' & T). rewrite L in L'. apply app_inv_head in L'. subst l'. exact T. }
  rewrite T0, O in C. lia.
Qed.

(** ** Not wait-free: one add can be kept from finishing for ever *)
Definition race_mem : mem := fun a f => if f =? LINK then (if (a =? 100) || (a =? 1) || (a =? 2) then Some 0 else None) else None.
Definition race_start : cfg := {| cm := race_mem; cpc := fun _ => Idle; cown := fun t => match t with 0%nat => [1] | 1%nat => [2] | _ => [] end; clog := [] |}.
Lemma race_start_ok : start 100 race_start.
Proof.
  split; [reflexivity|]. split; [reflexivity|]. split; [reflexivity|]. cbn [race_start cown cm]. split; [intros [|[|t]]; repeat constructor; cbn; intuition congruence|]. split.
  - intros [|[|t]] [|[|u]] x; cbn; intuition congruence.
  - intros [|[|t]] x; cbn; [| |tauto]; (intros [<-|[]]; split; [discriminate|]; split; [discriminate|]; eexists; reflexivity).
Qed.
(** the rival adds its node and takes it back while the add of thread 0 is between its store and its exchange, twice *)
Definition lap : list action :=
  [CAdd 1 [2]; Run 1 9; Run 1 9; Run 1 9; Run 0 9; Run 0 9; CDestroy 1; Run 1 9; Run 1 9; Run 1 9; Run 0 9; Run 0 9].
Definition chase (n : nat) : list action := [CAdd 0 [1]; Run 0 9] ++ concat (repeat lap n).
Definition chased (c : cfg) : Prop :=
  cm c 100 LINK = Some NULL /\ has (cm c) 1 LINK /\ has (cm c) 2 LINK /\ cpc c 0%nat = SWrite [1] NULL /\ cpc c 1%nat = Idle /\ cown c 1%nat = [2].
Definition goes (c : cfg) (s : list action) (n : nat) (c' : cfg) : Prop := run 100 c s = Some c' /\ works 100 c s 0 = n.
Lemma goes_cons c a r c1 n c' : step 100 c a = Some c1 -> goes c1 r n c' -> goes c (a :: r) (match a with Run u _ => if Nat.eqb u 0 && inside (cpc c 0%nat) then 1 else 0 | _ => 0 end + n) c'.
Proof. intros E [R W]. split; cbn [run works]; rewrite E; [exact R|rewrite W; reflexivity]. Qed.
Lemma goes_nil c : goes c [] 0 c.
Proof. split; reflexivity. Qed.
Lemma goes_n c s n n' c' : goes c s n c' -> n = n' -> goes c s n' c'.
Proof. intros G <-. exact G. Qed.
Lemma lap_ok c : chased c -> exists c' l, goes c lap 4 c' /\ chased c' /\ clog c' = clog c ++ l /\ mine 0 l = 0%nat.
Proof.
  destruct c as [m f o l]. unfold chased, has, lap. cbn [cm cpc cown]. intros (H & [a A] & [b B] & F0 & F1 & O).
  eexists _, _. split.
  - eapply goes_n.
    + eapply goes_cons; [cbn; rewrite F1, O; cbn; reflexivity|].
      eapply goes_cons; [cbn; rewrite ?H, ?A, ?B; cbn; reflexivity|].
      eapply goes_cons; [cbn; unfold st; rewrite ?H, ?A, ?B; cbn; reflexivity|].
      eapply goes_cons; [cbn; rewrite ?H, ?A, ?B; cbn; unfold st, upd; cbn; rewrite H; reflexivity|].
      eapply goes_cons; [cbn; rewrite F0; cbn; unfold st; cbn; rewrite A; reflexivity|].
      eapply goes_cons; [cbn; reflexivity|].
      eapply goes_cons; [cbn; reflexivity|].
      eapply goes_cons; [cbn; reflexivity|].
      eapply goes_cons; [cbn; unfold st; cbn; reflexivity|].
      eapply goes_cons; [cbn; reflexivity|].
      eapply goes_cons; [cbn; unfold st; cbn; rewrite ?A; reflexivity|].
      eapply goes_cons; [cbn; reflexivity|].
      apply goes_nil.
    + cbn. rewrite F0. reflexivity.
  - cbn. split; [|split].
    + split; [reflexivity|]. split; [eexists; reflexivity|]. split; [eexists; reflexivity|]. split; [reflexivity|]. split; reflexivity.
    + rewrite <- !app_assoc. reflexivity.
    + reflexivity.
Qed.
Lemma laps_ok : forall n c, chased c -> exists c' l, goes c (concat (repeat lap n)) (4 * n) c' /\ clog c' = clog c ++ l /\ mine 0 l = 0%nat.
Proof.
  assert (App : forall a b c n1 n2 c1 c2, goes c a n1 c1 -> goes c1 b n2 c2 -> goes c (a ++ b) (n1 + n2) c2).
  { induction a as [|x a IH]; intros b c n1 n2 c1 c2 [R1 W1] G2; [injection R1 as <-; cbn in W1; subst n1; exact G2|]. cbn [run works] in R1, W1. cbn [app]. destruct (step 100 c x) as [c0|] eqn:E; [|discriminate].
    eapply goes_n; [eapply goes_cons; [exact E|eapply IH; [split; [exact R1|reflexivity]|exact G2]]|]. rewrite <- W1. lia. }
  induction n as [|n IH]; intros c H; [exists c, []; split; [apply goes_nil|]; split; [symmetry; apply app_nil_r|reflexivity]|].
  destruct (lap_ok c H) as (c1 & l1 & G1 & H1 & L1 & M1). destruct (IH c1 H1) as (c2 & l2 & G2 & L2 & M2).
  exists c2, (l1 ++ l2). cbn [repeat concat]. split; [eapply goes_n; [exact (App _ _ _ _ _ _ _ G1 G2)|lia]|]. split; [rewrite L2, L1; symmetry; apply app_assoc|]. unfold mine in *. rewrite count_app, M1, M2. reflexivity.
Qed.
(** However many accesses one add has made, it may still not have finished: no bound that does not count the others' calls holds. *)
Theorem C126_wait_free_refuted : exists h c, start h c /\ forall n : nat, exists s c',
  many_takers s /\ run h c s = Some c' /\ (n <= works h c s 0)%nat /\ mine 0 (clog c') = 0%nat.
Proof.
  exists 100, race_start. split; [exact race_start_ok|]. intros n.
  destruct (run 100 race_start [CAdd 0 [1]; Run 0 9]) as [c1|] eqn:R; [|vm_compute in R; discriminate R].
  assert (H : chased c1).
  { injection R as <-. split; [reflexivity|]. split; [eexists; reflexivity|]. split; [eexists; reflexivity|]. split; [reflexivity|]. split; reflexivity. }
  assert (L0 : clog c1 = []) by (injection R as <-; reflexivity).
  destruct (laps_ok n c1 H) as (c' & l & [R' W] & L & M). exists (chase n), c'. split; [|split; [|split]].
  - intros t C. unfold chase in C. apply in_app_iff in C. destruct C as [C|C]; [cbn in C; intuition discriminate|]. apply in_concat in C. destruct C as (x & X1 & X2). apply repeat_spec in X1. subst x. cbn in X2. intuition discriminate.
  - unfold chase. cbn [app]. cbn [run] in R |- *. destruct (step 100 race_start (CAdd 0 [1])) as [c2|]; [|discriminate R]. destruct (step 100 c2 (Run 0 9)) as [c3|]; [|discriminate R]. injection R as <-. exact R'.
  - unfold chase. cbn [app]. cbn [run] in R. cbn [works]. destruct (step 100 race_start (CAdd 0 [1])) as [c2|]; [|discriminate R]. destruct (step 100 c2 (Run 0 9)) as [c3|]; [|discriminate R]. injection R as <-. rewrite W. lia.
  - rewrite L, L0. exact M.
Qed.
(** A case: in the first lap of the chase two calls of the rival return, the add of thread 0 makes four accesses and two of its exchanges
    fail; left alone it then finishes. *)
Example C126_case : start 100 race_start /\ many_takers (chase 1) /\
  works 100 race_start (chase 1) 0 = 5%nat /\
  option_map clog (run 100 race_start (chase 1)) = Some [EAdd 1 [2] true; ETake 1 2; EWalk 1 [2]] /\
  option_map clog (run 100 race_start (chase 1 ++ [Run 0 9; Run 0 9])) = Some [EAdd 1 [2] true; ETake 1 2; EWalk 1 [2]; EAdd 0 [1] true].
Proof.
  split; [exact race_start_ok|]. split; [intros t C; cbn in C; intuition discriminate|]. vm_compute. auto.
Qed.
Print Assumptions C126_lock_free.
Print Assumptions C126_somebody.
Print Assumptions C126_alone.
Print Assumptions C126_wait_free_refuted.
