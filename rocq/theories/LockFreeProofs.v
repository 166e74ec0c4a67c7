(** * Progress of the lock-free list: the potential of one thread *)
From Verif Require Import Lib Ptr ListProofs SlistModel SlistSpec SlistProofs LlistModel LlistSpec LlistProofs LockFreeSpec.

(** accesses made since the call began or last failed *)
Definition phase (p : pc) : nat := match p with SWrite _ _ | XCas _ | DNext _ => 1 | SCas _ _ | DCas _ _ => 2 | _ => 0 end.
(** what the thread believes the head to be *)
Definition belief (p : pc) : option Z := match p with SWrite _ e | SCas _ e | XCas e | DNext e | DCas e _ => Some e | _ => None end.
Definition stale (h : Z) (m : mem) (p : pc) : nat :=
  match belief p, m h LINK with Some e, Some v => if v =? e then 0 else 1 | Some _, None => 1 | None, _ => 0 end.
Lemma stale_le h m p : (stale h m p <= 1)%nat.
Proof. unfold stale. destruct (belief p), (m h LINK); try destruct (_ =? _); lia. Qed.
Lemma stale_phase h m p : (2 * stale h m p <= phase p + 1)%nat.
Proof. unfold stale. destruct p; cbn [belief phase]; destruct (m h LINK); try destruct (_ =? _); lia. Qed.
Lemma stale_eq h m m' p : m' h LINK = m h LINK -> stale h m' p = stale h m p.
Proof. unfold stale. intros ->. reflexivity. Qed.
Lemma phase_le p : (phase p <= 2)%nat.
Proof. destruct p; cbn; lia. Qed.
Definition cost (c : cfg) (a : action) (t : nat) : nat := match a with Run u _ => if Nat.eqb u t && inside (cpc c t) then 1 else 0 | _ => 0 end.
Lemma count_app f l l' : count f (l ++ l') = (count f l + count f l')%nat.
Proof. unfold count. rewrite filter_app, app_length. reflexivity. Qed.

Section Cost.
Variable h : Z.
Variable M : option nat.
(** who acts *)
Definition actor (a : action) : nat := match a with CWrite t _ _ | CAdd t _ | CDestroy t | CDel t | Run t _ => t end.
(** the others keep their place; the head changes only when a call returns *)
Lemma step_frame c s pend a c' : inv h M c s pend -> step h c a = Some c' ->
  (forall u, u <> actor a -> cpc c' u = cpc c u) /\
  exists l, clog c' = clog c ++ l /\ (cm c' h LINK = cm c h LINK \/ (1 <= mine (actor a) l)%nat) /\ (forall e, In e l -> ev_thread e = actor a).
Proof.
  intros (_ & _ & _ & _ & I5 & I6 & _) E.
  assert (Nn : forall l : list ev, l = l ++ []) by (intros l; symmetry; apply app_nil_r).
  assert (St : c' = c -> (forall u, u <> actor a -> cpc c' u = cpc c u) /\ exists l, clog c' = clog c ++ l /\ (cm c' h LINK = cm c h LINK \/ (1 <= mine (actor a) l)%nat) /\ (forall e, In e l -> ev_thread e = actor a)).
  { intros ->. split; [reflexivity|]. exists []. split; [apply Nn|]. split; [auto|]. intros e []. }
  assert (Pr : forall l, cm c' h LINK = cm c h LINK \/ (1 <= mine (actor a) l)%nat -> (forall e, In e l -> ev_thread e = actor a) -> clog c' = clog c ++ l -> (forall u, u <> actor a -> cpc c' u = cpc c u) ->
     (forall u, u <> actor a -> cpc c' u = cpc c u) /\ exists l, clog c' = clog c ++ l /\ (cm c' h LINK = cm c h LINK \/ (1 <= mine (actor a) l)%nat) /\ (forall e, In e l -> ev_thread e = actor a)).
  { intros l A B C D. split; [exact D|]. exists l. auto. }
  assert (Pc : forall (f : nat -> pc) t v u, u <> t -> set f t v u = f u) by (intros; apply set_other; assumption).
  destruct a as [t x v|t b|t|t|t fuel]; cbn [step actor] in *.
  - destruct (cpc c t); try (apply St; congruence). destruct (mem_z x (cown c t)) eqn:Ex; [|apply St; congruence]. apply mem_z_in in Ex.
    destruct (st (cm c) x LINK v) as [m|] eqn:Em; [|discriminate]. injection E as <-. apply st_inv in Em. destruct Em as [_ ->].
    apply (Pr []); [|intros e []|apply Nn|reflexivity]. left. cbn. apply upd_other. left. intros C. symmetry in C. revert C. exact (proj1 (I5 t x (in_or_app _ _ _ (or_introl Ex)))).
  - destruct (cpc c t); try (apply St; congruence). destruct b as [|b0 b]; [apply St; congruence|].
    destruct (_ && _); [|apply St; congruence]. injection E as <-. apply (Pr []); [cbn; auto|intros e []|apply Nn|cbn; intros u Hu; apply Pc, Hu].
  - destruct (cpc c t); try (apply St; congruence). injection E as <-. apply (Pr []); [cbn; auto|intros e []|apply Nn|cbn; intros u Hu; apply Pc, Hu].
  - destruct (cpc c t); try (apply St; congruence). injection E as <-. apply (Pr []); [cbn; auto|intros e []|apply Nn|cbn; intros u Hu; apply Pc, Hu].
  - assert (R1 : forall e, returned e = Some t -> (1 <= mine t [e])%nat) by (intros e Q; unfold mine, count; cbn [filter]; rewrite Q, Nat.eqb_refl; cbn; lia).
    destruct (cpc c t) as [|b|b e|b e| |p|p| |e|e n] eqn:Ep.
    + apply St. congruence.
    + destruct (ld (cm c) h LINK) as [e|]; [|discriminate]. injection E as <-. apply (Pr []); [cbn; auto|intros ? []|apply Nn|cbn; intros u Hu; apply Pc, Hu].
    + destruct (st (cm c) (last b NULL) LINK e) as [m|] eqn:Em; [|discriminate]. injection E as <-. apply st_inv in Em. destruct Em as [_ ->].
      apply (Pr []); [|intros ? []|apply Nn|cbn; intros u Hu; apply Pc, Hu]. left. cbn. apply upd_other. left. intros C. specialize (I6 t). rewrite Ep in I6. cbn [pcok] in I6. destruct I6 as [Ch _].
      symmetry in C. revert C. apply (fun K => proj1 (I5 t (last b NULL) K)). unfold hold. rewrite Ep. cbn [batch]. apply in_or_app. right. apply in_or_app. left. apply last_app_in. intros ->. exact Ch.
    + destruct (ld (cm c) h LINK) as [v|]; [|discriminate]. destruct (v =? e); [destruct (st (cm c) h LINK (hd NULL b)) as [m|]; [|discriminate]|]; injection E as <-.
      * apply (Pr [EAdd t b (e =? NULL)]); [cbn [with_pc with_own with_mem emit cm]; right; apply R1; reflexivity|intros ? [<-|[]]; reflexivity|reflexivity|cbn; intros u Hu; apply Pc, Hu].
      * apply (Pr []); [cbn; auto|intros ? []|apply Nn|cbn; intros u Hu; apply Pc, Hu].
    + destruct (ld (cm c) h LINK) as [e|]; [|discriminate]. injection E as <-. apply (Pr []); [cbn; auto|intros ? []|apply Nn|cbn; intros u Hu; apply Pc, Hu].
    + destruct (ld (cm c) h LINK) as [v|]; [|discriminate]. destruct (v =? p); [destruct (st (cm c) h LINK NULL) as [m|]; [|discriminate]|]; injection E as <-.
      * apply (Pr [ETake t p]); [cbn [with_pc with_own with_mem emit cm]; right; apply R1; reflexivity|intros ? [<-|[]]; reflexivity|reflexivity|cbn; intros u Hu; apply Pc, Hu].
      * apply (Pr []); [cbn; auto|intros ? []|apply Nn|cbn; intros u Hu; apply Pc, Hu].
    + destruct (each_from fuel (cm c) p) as [l|]; injection E as <-; [|apply St; reflexivity].
      apply (Pr [EWalk t l]); [cbn [with_pc with_own with_mem emit cm]; auto|intros ? [<-|[]]; reflexivity|reflexivity|cbn; intros u Hu; apply Pc, Hu].
    + destruct (ld (cm c) h LINK) as [e|]; [|discriminate]. injection E as <-. unfold del_entry in *. destruct (e =? NULL).
      * apply (Pr [EPopNone t]); [cbn [with_pc with_own with_mem emit cm]; auto|intros ? [<-|[]]; reflexivity|reflexivity|cbn; intros u Hu; apply Pc, Hu].
      * apply (Pr []); [cbn; auto|intros ? []|apply Nn|cbn; intros u Hu; apply Pc, Hu].
    + destruct (ld (cm c) e LINK) as [n|]; [|discriminate]. injection E as <-. apply (Pr []); [cbn; auto|intros ? []|apply Nn|cbn; intros u Hu; apply Pc, Hu].
    + destruct (ld (cm c) h LINK) as [v|]; [|discriminate]. destruct (v =? e); [destruct (st (cm c) h LINK n) as [m|]; [|discriminate]|]; injection E as <-.
      * apply (Pr [EPop t e]); [cbn [with_pc with_own with_mem emit cm]; right; apply R1; reflexivity|intros ? [<-|[]]; reflexivity|reflexivity|cbn; intros u Hu; apply Pc, Hu].
      * unfold del_entry in *. destruct (v =? NULL).
        -- apply (Pr [EPopNone t]); [cbn [with_pc with_own with_mem emit cm]; auto|intros ? [<-|[]]; reflexivity|reflexivity|cbn; intros u Hu; apply Pc, Hu].
        -- apply (Pr []); [cbn; auto|intros ? []|apply Nn|cbn; intros u Hu; apply Pc, Hu].
Qed.
Lemma mine_other t u l : u <> t -> (forall e, In e l -> ev_thread e = u) -> mine t l = 0%nat /\ theirs t l = mine u l.
Proof.
  intros N. induction l as [|e l IH]; intros F; [split; reflexivity|]. destruct IH as [IH1 IH2]; [intros e' He'; apply F; right; exact He'|].
  specialize (F e (or_introl eq_refl)). unfold mine, theirs, count in *. cbn [filter].
  destruct e; cbn [ev_thread returned] in *; subst; rewrite ?Nat.eqb_refl, ?(proj2 (Nat.eqb_neq _ _) N); cbn [negb length]; split; congruence.
Qed.
(** one action pays for the thread's own accesses *)
Lemma step_cost c s pend a c' t : inv h M c s pend -> step h c a = Some c' ->
  exists l, clog c' = clog c ++ l /\ (cost c a t + phase (cpc c t) + 2 * stale h (cm c') (cpc c' t) <= 3 * mine t l + 2 * theirs t l + phase (cpc c' t) + 2 * stale h (cm c) (cpc c t))%nat.
Proof.
  intros H E. pose proof (step_frame _ _ _ _ _ H E) as (Fr & l & L & Hd & Th).
  exists l. split; [exact L|]. destruct (Nat.eq_dec (actor a) t) as [Ea|Ea].
  2:{ assert (C0 : cost c a t = 0%nat) by (destruct a; try reflexivity; cbn [actor] in Ea; cbn [cost]; rewrite (proj2 (Nat.eqb_neq _ _) Ea); reflexivity).
      rewrite C0, (Fr t ltac:(congruence)). destruct (mine_other t (actor a) l Ea Th) as [_ X]. rewrite X. destruct Hd as [Hd|Hd]; [rewrite (stale_eq _ _ _ _ Hd); lia|].
      pose proof (stale_le h (cm c') (cpc c t)). lia. }
  assert (Pos : l = [] \/ l <> []) by (destruct l; [left; reflexivity|right; discriminate]).
  assert (Ml : forall k, clog c' = clog c ++ k -> k = l) by (intros k Q; rewrite L in Q; apply app_inv_head in Q; congruence).
  destruct a as [u x v|u b|u|u|u fuel]; cbn [actor] in Ea; subst u; cbn [step cost] in E |- *.
  - destruct (cpc c t) eqn:Ep; try (injection E as <-; rewrite Ep; lia). destruct (mem_z x (cown c t)); [|injection E as <-; rewrite Ep; lia].
    destruct (st (cm c) x LINK v) as [m|]; [|discriminate]. injection E as <-. cbn. rewrite Ep. cbn. lia.
  - destruct (cpc c t) eqn:Ep; try (injection E as <-; rewrite Ep; lia). destruct b as [|b0 b]; [injection E as <-; rewrite Ep; lia|]. destruct (_ && _); injection E as <-; cbn; rewrite ?set_same, ?Ep; cbn; lia.
  - destruct (cpc c t) eqn:Ep; injection E as <-; cbn; rewrite ?set_same, ?Ep; cbn; lia.
  - destruct (cpc c t) eqn:Ep; injection E as <-; cbn; rewrite ?set_same, ?Ep; cbn; lia.
  - rewrite Nat.eqb_refl. cbn [andb].
    assert (R1 : forall e, returned e = Some t -> clog c' = clog c ++ [e] -> mine t l = 1%nat).
    { intros e Q Ek. rewrite <- (Ml _ Ek). unfold mine, count. cbn [filter]. rewrite Q, Nat.eqb_refl. reflexivity. }
    destruct (cpc c t) as [|b|b e|b e| |p|p| |e|e n] eqn:Ep; cbn [inside].
    + injection E as <-. rewrite Ep. lia.
    + destruct (ld (cm c) h LINK) as [e|] eqn:El; [|discriminate]. injection E as <-. cbn. rewrite set_same. unfold stale. cbn. unfold ld in El. rewrite El, Z.eqb_refl. lia.
    + destruct (st (cm c) (last b NULL) LINK e) as [m|]; [|discriminate]. injection E as <-. cbn [with_pc with_mem cm cpc] in *. rewrite set_same. cbn [phase].
      destruct Hd as [Hd|Hd]; [|assert (Q : [] = l) by (apply Ml; cbn; symmetry; apply app_nil_r); rewrite <- Q in Hd; cbn in Hd; lia].
      unfold stale. cbn [belief]. rewrite Hd. lia.
    + destruct (ld (cm c) h LINK) as [v|] eqn:El; [|discriminate]. unfold ld in El. destruct (v =? e) eqn:Ev; [destruct (st (cm c) h LINK (hd NULL b)) as [m|]; [|discriminate]|]; injection E as <-.
      * rewrite (R1 (EAdd t b (e =? NULL)) eq_refl eq_refl). cbn. rewrite set_same. cbn. lia.
      * cbn. rewrite set_same. unfold stale. cbn. rewrite El, Z.eqb_refl, Ev. lia.
    + destruct (ld (cm c) h LINK) as [e|] eqn:El; [|discriminate]. injection E as <-. cbn. rewrite set_same. unfold stale. cbn. unfold ld in El. rewrite El, Z.eqb_refl. lia.
    + destruct (ld (cm c) h LINK) as [v|] eqn:El; [|discriminate]. unfold ld in El. destruct (v =? p) eqn:Ev; [destruct (st (cm c) h LINK NULL) as [m|]; [|discriminate]|]; injection E as <-.
      * rewrite (R1 (ETake t p) eq_refl eq_refl). cbn. rewrite set_same. cbn. lia.
      * cbn. rewrite set_same. unfold stale. cbn. rewrite El, Ev. lia.
    + destruct (each_from fuel (cm c) p) as [k|]; injection E as <-; cbn; rewrite ?set_same, ?Ep; cbn; lia.
    + destruct (ld (cm c) h LINK) as [e|] eqn:El; [|discriminate]. unfold ld in El. injection E as <-. unfold del_entry in *. destruct (e =? NULL).
      * rewrite (R1 (EPopNone t) eq_refl eq_refl). cbn. rewrite set_same. cbn. lia.
      * cbn. rewrite set_same. unfold stale. cbn. rewrite El, Z.eqb_refl. lia.
    + destruct (ld (cm c) e LINK) as [n|]; [|discriminate]. injection E as <-. cbn. rewrite set_same. unfold stale. cbn. lia.
    + destruct (ld (cm c) h LINK) as [v|] eqn:El; [|discriminate]. unfold ld in El. destruct (v =? e) eqn:Ev; [destruct (st (cm c) h LINK n) as [m|]; [|discriminate]|]; injection E as <-.
      * rewrite (R1 (EPop t e) eq_refl eq_refl). cbn. rewrite set_same. cbn. lia.
      * unfold del_entry in *. destruct (v =? NULL).
        -- rewrite (R1 (EPopNone t) eq_refl eq_refl). cbn. rewrite set_same. cbn. lia.
        -- cbn. rewrite set_same. unfold stale. cbn. rewrite El, Z.eqb_refl, Ev. lia.
Qed.
Lemma run_cost t : forall sch c s pend c', inv h M c s pend -> Forall (allowed M) sch -> run h c sch = Some c' ->
  exists l, clog c' = clog c ++ l /\ (works h c sch t + phase (cpc c t) + 2 * stale h (cm c') (cpc c' t) <= 3 * mine t l + 2 * theirs t l + phase (cpc c' t) + 2 * stale h (cm c) (cpc c t))%nat.
Proof.
  induction sch as [|a sch IH]; intros c s pend c' H F R.
  - injection R as <-. exists []. split; [symmetry; apply app_nil_r|]. cbn. lia.
  - inversion_clear F. destruct (step_ok h M c s pend a H H0) as (c1 & s1 & p1 & E & I1). cbn [run works] in R |- *. rewrite E in R |- *.
    destruct (IH c1 s1 p1 c' I1 H1 R) as (l2 & L2 & C2). destruct (step_cost c s pend a c1 t H E) as (l1 & L1 & C1).
    exists (l1 ++ l2). split; [rewrite L2, L1, app_assoc; reflexivity|]. unfold mine, theirs in *. rewrite !count_app. fold (cost c a t). clear - C1 C2. lia.
Qed.
End Cost.
