From Coq Require Import Lia Permutation.
From Verif Require Import Lib Mem FifoModel FifoSpec FifoProofs SpscModel SpscSpec SpscProofs SpscProofs2.

Lemma side_app : forall t a b, side t (a ++ b) = side t a ++ side t b.
Proof. intros t a b. induction a as [|e a IH]; [reflexivity|]. cbn [app side]. destruct (Bool.eqb (e_prod e) t); rewrite IH; reflexivity. Qed.
Lemma issued_nil : forall c, issued c [].
Proof. intros c h1 o r h2 E. destruct h1; discriminate E. Qed.
Lemma issued_snoc : forall c h o r, issued c h -> c h = Some o -> issued c (h ++ [(o, r)]).
Proof.
  intros c h o r I C h1 o' r' h2 E. destruct (@exists_last _ ((o', r') :: h2)) as (h3 & x & E3); [discriminate|].
  destruct h2 as [|y h2].
  - apply app_inj_tail in E as [-> E]. congruence.
  - assert (exists h4, (o', r') :: y :: h2 = (o', r') :: h4 ++ [x]) as [h4 E4]. { destruct h3 as [|z h3]; [discriminate E3|]. injection E3 as -> E3. exists h3. rewrite E3. reflexivity. }
    rewrite E4 in E. rewrite app_comm_cons, app_assoc in E. apply app_inj_tail in E as [-> _]. eapply I. reflexivity.
Qed.
Section Run.
Variables (cp cc : client) (es cz : Z) (q0 : list Z).
Hypothesis R : roles es cp cc.
Definition Sinv (s : sys) : Prop := exists qs, explains es cz qs (slog s) /\ qs O = q0 /\ qs (length (slog s)) = contents (sf s) /\ wf (sf s) /\ cap (sf s) = cz /\ f_esize (sf s) = es /\
  Pinv es cz (sf s) (cp (hp s)) qs (length (slog s)) (sp s) /\ Cinv es (sf s) (cc (hc s)) qs (length (slog s)) (sc s) /\
  hp s = side true (slog s) /\ hc s = side false (slog s) /\ issued cp (hp s) /\ issued cc (hc s).
(** the queues, with one more *)
Definition extend (qs : nat -> list Z) (L : nat) (q : list Z) : nat -> list Z := fun j => if Nat.leb j L then qs j else q.
Lemma extend_old : forall qs L q i, (i <= L)%nat -> extend qs L q i = qs i.
Proof. intros qs L q i H. unfold extend. destruct (Nat.leb_spec i L); [reflexivity|lia]. Qed.
Lemma extend_new : forall qs L q, extend qs L q (Datatypes.S L) = q.
Proof. intros qs L q. unfold extend. destruct (Nat.leb_spec (Datatypes.S L) L); [lia|reflexivity]. Qed.
Lemma explains_snoc : forall qs log f f' t o v since, explains es cz qs log -> qs (length log) = contents f -> wf f' -> cap f' = cz -> f_esize f' = es ->
  after es cz qs f f' (length log) since o v ->
  explains es cz (extend qs (length log) (contents f')) (log ++ [{| e_prod := t; e_op := o; e_ret := v; e_since := since |}]).
Proof.
  intros qs log f f' t o v since (X1 & X2) HQ W' EC EE (Hs & Du & In & Fe). split.
  - intros i Hi. rewrite app_length in Hi. cbn [length] in Hi. destruct (Nat.eq_dec i (Datatypes.S (length log))) as [->|N].
    + rewrite extend_new. rewrite <- EE, <- EC. rewrite (pending_contents f' W'). pose proof (wf_valid f' W'). pose proof (contents_zlen f' W'). lia.
    + rewrite extend_old by lia. apply X1. lia.
  - intros i e He. destruct (Nat.lt_ge_cases i (length log)) as [H|H].
    + rewrite nth_error_app1 in He by exact H. destruct (X2 i e He) as (A & B & C). rewrite !extend_old by lia. auto.
    + rewrite nth_error_app2 in He by exact H. destruct (i - length log)%nat as [|j] eqn:E; [|destruct j; discriminate He]. injection He as <-. assert (i = length log) by lia. subst i. cbn [e_since e_op e_ret e_prod].
      split; [exact Hs|]. rewrite extend_new, !extend_old by lia. rewrite HQ. split; [exact Du|]. split; [apply In|exact Fe].
Qed.
Lemma cap_same : forall f f', f_mask f' = f_mask f -> cap f' = cap f.
Proof. intros f f' H. unfold cap. rewrite H. reflexivity. Qed.
Lemma sstep_ok : forall s x, Sinv s -> exists s', sstep cp cc s x = Some s' /\ Sinv s'.
Proof.
  intros s [t k] (qs & EX & Q0 & QL & W & EC & EE & PI & CI & HP & HC & IP & IC). pose proof (wf_cap _ W) as (C & E1 & _ & _). destruct R as (RP & RC). unfold sstep. destruct t.
  - destruct (cp (hp s)) as [o|] eqn:Eo; [|exists s; split; [reflexivity|]; exists qs; rewrite Eo; repeat (split; [assumption|]); assumption].
    destruct (RP _ _ Eo) as (RO & OK). rewrite <- EE, <- EC in PI. rewrite <- EE in OK. destruct (pstep_ok (sf s) qs (length (slog s)) (sp s) o k W QL RO OK PI) as (f' & r & Ep & W' & M' & E' & O' & V' & K' & Post). rewrite Ep. rewrite EE in *. rewrite EC in *. cbn beta iota.
    destruct r as [p'|[v since]].
    + destruct Post as (Cf & PI'). eexists. split; [reflexivity|]. exists qs. cbn [slog sf sp sc hp hc]. split; [exact EX|]. split; [exact Q0|]. split; [congruence|]. split; [exact W'|]. split; [rewrite (cap_same (sf s)); assumption|]. split; [congruence|]. split; [rewrite Eo; exact PI'|].
      split; [|auto]. eapply Cinv_stable; [exact EE|exact CI|exact M'|congruence|exact O'|exact V'|exact K'|lia|reflexivity|lia].
    + eexists. split; [reflexivity|]. exists (extend qs (length (slog s)) (contents f')). cbn [slog sf sp sc hp hc]. split; [eapply explains_snoc; try eassumption; rewrite (cap_same (sf s)); assumption|]. split; [rewrite extend_old by lia; exact Q0|].
      rewrite app_length. cbn [length]. rewrite Nat.add_1_r. split; [apply extend_new|]. split; [exact W'|]. split; [rewrite (cap_same (sf s)); assumption|]. split; [congruence|]. split; [exact I|].
      split; [|rewrite !side_app; cbn [side e_prod e_op e_ret Bool.eqb]; rewrite app_nil_r; split; [congruence|split; [exact HC|split; [apply issued_snoc; assumption|exact IC]]]].
      eapply Cinv_stable; [exact EE|exact CI|exact M'|congruence|exact O'|exact V'|exact K'|lia|intros i Hi; apply extend_old; exact Hi|lia].
  - destruct (cc (hc s)) as [o|] eqn:Eo; [|exists s; split; [reflexivity|]; exists qs; rewrite Eo; repeat (split; [assumption|]); assumption].
    destruct (RC _ _ Eo) as (RO & OK). rewrite <- EE in CI, OK. destruct (cstep_ok (sf s) qs (length (slog s)) (sc s) o k W QL RO OK CI) as (f' & r & Ep & W' & M' & E' & I' & D' & U' & Post). rewrite Ep. rewrite EE in *. rewrite EC in *. cbn beta iota.
    destruct r as [p'|[v since]].
    + destruct Post as (-> & CI'). eexists. split; [reflexivity|]. exists qs. cbn [slog sf sp sc hp hc]. rewrite Eo. repeat (split; [assumption|]). assumption.
    + eexists. split; [reflexivity|]. exists (extend qs (length (slog s)) (contents f')). cbn [slog sf sp sc hp hc]. split; [eapply explains_snoc; try eassumption; rewrite (cap_same (sf s)); assumption|]. split; [rewrite extend_old by lia; exact Q0|].
      rewrite app_length. cbn [length]. rewrite Nat.add_1_r. split; [apply extend_new|]. split; [exact W'|]. split; [rewrite (cap_same (sf s)); assumption|]. split; [congruence|].
      split; [eapply Pinv_stable; [exact PI|exact M'|congruence|exact I'|exact D'|exact U'|lia|intros i Hi; apply extend_old; exact Hi]|]. split; [exact I|].
      rewrite !side_app; cbn [side e_prod e_op e_ret Bool.eqb]; rewrite app_nil_r; split; [exact HP|split; [congruence|split; [exact IP|apply issued_snoc; assumption]]].
Qed.
Lemma srun_ok : forall sched s, Sinv s -> exists s', srun cp cc sched s = Some s' /\ Sinv s'.
Proof.
  induction sched as [|x sched IH]; intros s I; [exists s; split; [reflexivity|exact I]|]. cbn [srun]. destruct (sstep_ok s x I) as (s1 & E1 & I1). rewrite E1. apply IH. exact I1.
Qed.
Lemma srun_app : forall a b s, srun cp cc (a ++ b) s = let* s := srun cp cc a s in srun cp cc b s.
Proof. induction a as [|x a IH]; intros b s; [reflexivity|]. cbn [app srun]. destruct (sstep cp cc s x); [apply IH|reflexivity]. Qed.
Lemma Sinv_disjoint : forall s a, Sinv s -> In a (p_todo (sp s)) -> ~ In a (c_todo (sc s)).
Proof.
  intros s a (qs & _ & _ & _ & W & EC & EE & PI & CI & _) Hp Hc. destruct (sp s) as [|since todo n]; [destruct Hp|]. destruct (sc s) as [|since' todo' buff m adv]; [destruct Hc|]. cbn [p_todo c_todo] in *.
  destruct PI as (o & _ & _ & Hn & _ & A & _). destruct CI as (o' & _ & _ & Hm & _ & _ & B & _). apply in_map_iff in Hp as ([a1 v] & E1 & H1). apply in_map_iff in Hc as ([a2 j] & E2 & H2). cbn [fst] in *. subst a1 a2.
  destruct (A a v H1) as (i & Hi & Ei & _). destruct (B a j H2) as (Hj & Ej). pose proof (wf_cap _ W) as (C & E & _ & _). rewrite EE in *. apply (apart (sf s) W j i); [rewrite EE; nia|rewrite EE; nia|congruence].
Qed.
End Run.
(** ** Real time *)
Definition begun (t : bool) (s : sys) (L : nat) : Prop :=
  if t then match sp s with PIdle => True | PCopy since _ _ => (L <= since)%nat end else match sc s with CIdle => True | CCopy since _ _ _ _ => (L <= since)%nat end.
Definition Rinv (t : bool) (L : nat) (s : sys) : Prop := (L <= length (slog s))%nat /\ begun t s L /\ forall i e, (L <= i)%nat -> nth_error (slog s) i = Some e -> e_prod e = t -> (L <= e_since e)%nat.
Lemma nth_snoc : forall A (l : list A) x i e, nth_error (l ++ [x]) i = Some e -> nth_error l i = Some e \/ (i = length l /\ e = x).
Proof.
  intros A l x i e H. destruct (Nat.lt_ge_cases i (length l)) as [Q|Q]; [left; rewrite nth_error_app1 in H by exact Q; exact H|right]. rewrite nth_error_app2 in H by exact Q. destruct (i - length l)%nat as [|j] eqn:E; [|destruct j; discriminate H]. injection H as <-. split; [lia|reflexivity].
Qed.
Lemma pstep_since : forall f p o now k f' r L, pstep f p o now k = Some (f', r) -> (L <= now)%nat -> match p with PIdle => True | PCopy since _ _ => (L <= since)%nat end ->
  match r with inl PIdle => True | inl (PCopy since _ _) => (L <= since)%nat | inr (_, since) => (L <= since)%nat end.
Proof.
  intros f p o now k f' r L H HL HP. destruct p as [|since todo n]; cbn [pstep] in H.
  - destruct o; cbn [query] in H; try discriminate H; try (injection H as <- <-; exact HL).
    + destruct (in_plan f src (Z.min len (fifo_unused f))); [|discriminate H]. injection H as <- <-. exact HL.
    + destruct (fifo_check_full f); injection H as <- <-; exact HL.
  - destruct (pick k todo) as [[[a v] rest]|]; [|injection H as <- <-; exact HP]. destruct (wr (f_data f) a v); [|discriminate H]. injection H as <- <-. exact HP.
Qed.
Lemma cstep_since : forall f p o now k f' r L, cstep f p o now k = Some (f', r) -> (L <= now)%nat -> match p with CIdle => True | CCopy since _ _ _ _ => (L <= since)%nat end ->
  match r with inl CIdle => True | inl (CCopy since _ _ _ _) => (L <= since)%nat | inr (_, since) => (L <= since)%nat end.
Proof.
  intros f p o now k f' r L H HL HP. destruct p as [|since todo buff n adv]; cbn [cstep] in H.
  - destruct o; cbn [query] in H; try discriminate H; try (injection H as <- <-; exact HL); destruct (fifo_check_empty f); injection H as <- <-; exact HL.
  - destruct (pick k todo) as [[[a v] rest]|]; [|injection H as <- <-; exact HP]. destruct (rd (f_data f) a) as [b|]; [|discriminate H]. destruct (wr buff v b); [|discriminate H]. injection H as <- <-. exact HP.
Qed.
Lemma Rinv_step : forall cp cc t L s x s', Rinv t L s -> sstep cp cc s x = Some s' -> Rinv t L s'.
Proof.
  intros cp cc t L s [u k] s' (HL & B & H) E. unfold sstep in E. destruct u.
  - destruct (cp (hp s)) as [o|]; [|injection E as <-; split; [exact HL|]; split; assumption]. destruct (pstep (sf s) (sp s) o (length (slog s)) k) as [[f' r]|] eqn:Ep; [|discriminate E].
    assert (PS : t = true -> match r with inl PIdle => True | inl (PCopy since _ _) => (L <= since)%nat | inr (_, since) => (L <= since)%nat end) by (intros ->; eapply pstep_since; [exact Ep|exact HL|exact B]).
    destruct r as [p'|[v since]]; injection E as <-; unfold Rinv; cbn [slog sp sc].
    + split; [exact HL|]. split; [|exact H]. destruct t; [|exact B]. unfold begun. cbn [sp]. apply PS. reflexivity.
    + rewrite app_length. cbn [length]. split; [lia|]. split; [destruct t; [exact I|exact B]|]. intros i e Hi He Et. apply nth_snoc in He as [He|[_ ->]]; [eapply H; eassumption|]. cbn [e_prod e_since] in *. apply PS. congruence.
  - destruct (cc (hc s)) as [o|]; [|injection E as <-; split; [exact HL|]; split; assumption]. destruct (cstep (sf s) (sc s) o (length (slog s)) k) as [[f' r]|] eqn:Ep; [|discriminate E].
    assert (PS : t = false -> match r with inl CIdle => True | inl (CCopy since _ _ _ _) => (L <= since)%nat | inr (_, since) => (L <= since)%nat end) by (intros ->; eapply cstep_since; [exact Ep|exact HL|exact B]).
    destruct r as [p'|[v since]]; injection E as <-; unfold Rinv; cbn [slog sp sc].
    + split; [exact HL|]. split; [|exact H]. destruct t; [exact B|]. unfold begun. cbn [sc]. apply PS. reflexivity.
    + rewrite app_length. cbn [length]. split; [lia|]. split; [destruct t; [exact B|exact I]|]. intros i e Hi He Et. apply nth_snoc in He as [He|[_ ->]]; [eapply H; eassumption|]. cbn [e_prod e_since] in *. apply PS. congruence.
Qed.
Lemma Rinv_run : forall cp cc t L sched s s', Rinv t L s -> srun cp cc sched s = Some s' -> Rinv t L s'.
Proof.
  induction sched as [|x sched IH]; intros s s' I E; cbn [srun] in E; [injection E as <-; exact I|]. destruct (sstep cp cc s x) as [s1|] eqn:E1; [|discriminate E]. eapply IH; [eapply Rinv_step; eassumption|exact E].
Qed.
Lemma log_grows : forall cp cc sched s s', srun cp cc sched s = Some s' -> exists l, slog s' = slog s ++ l.
Proof.
  induction sched as [|[u k] sched IH]; intros s s' E; cbn [srun] in E; [injection E as <-; exists []; symmetry; apply app_nil_r|]. destruct (sstep cp cc s (u, k)) as [s1|] eqn:E1; [|discriminate E]. destruct (IH _ _ E) as [l Hl].
  assert (exists l1, slog s1 = slog s ++ l1) as [l1 Hl1]. { unfold sstep in E1. destruct u.
    - destruct (cp (hp s)) as [o|]; [|injection E1 as <-; exists []; symmetry; apply app_nil_r]. destruct (pstep _ _ _ _ _) as [[f' [p'|[v since]]]|]; try discriminate E1; injection E1 as <-; cbn [slog]; [exists []; symmetry; apply app_nil_r|eexists; reflexivity].
    - destruct (cc (hc s)) as [o|]; [|injection E1 as <-; exists []; symmetry; apply app_nil_r]. destruct (cstep _ _ _ _ _) as [[f' [p'|[v since]]]|]; try discriminate E1; injection E1 as <-; cbn [slog]; [exists []; symmetry; apply app_nil_r|eexists; reflexivity]. }
  exists (l1 ++ l). rewrite Hl, Hl1. symmetry. apply app_assoc.
Qed.
(** ** Calls that moved all they were asked for *)
Lemma exact_ok : forall es cz qs log i e, 1 <= es -> explains es cz qs log -> nth_error log i = Some e -> exact_call e -> op_ok es (e_op e) -> queue_step es cz (qs i) (e_op e) = (e_ret e, qs (Datatypes.S i)).
Proof.
  intros es cz qs log i e He (X1 & X2) N EX OK. assert (Li : (i < length log)%nat) by (apply nth_error_Some; congruence). destruct (X2 i e N) as (Hs & Du & In & Fe). destruct (X1 i ltac:(lia)) as (P1 & P2). destruct (X1 (Datatypes.S i) ltac:(lia)) as (P3 & P4).
  destruct e as [t o [r b] since]. cbn [e_prod e_op e_ret e_since fst snd] in *. unfold exact_call, instant in *. cbn [e_op e_ret fst] in *. destruct o as [src len|len|len|e| | | | | | |]; cbn [during queue_step common_step op_ok fetches] in *; try contradiction; try exact Du.
  - injection Du as Er Eb Eq. subst b. rewrite Er in *. subst r. assert (L2 : zlen (qs (Datatypes.S i)) = zlen (qs i) + len * es). { rewrite <- Eq, zlen_app. f_equal. unfold take, zlen in *. rewrite firstn_length. nia. }
    assert (pending es (qs i) + len <= cz) by nia. rewrite (Z.min_l len) by lia. rewrite Eq. reflexivity.
  - injection Du as Er Eb Eq. rewrite Er in *. subst r. assert (len <= pending es (qs i)). { specialize (Fe I). rewrite <- Eb in Fe. unfold take, zlen in *. rewrite firstn_length in Fe. nia. }
    rewrite Z.min_l by lia. rewrite Eb, Eq. reflexivity.
  - injection Du as Er Eb Eq. rewrite Er in *. subst r. assert (len <= pending es (qs i)). { specialize (Fe I). rewrite <- Eb in Fe. unfold take, zlen in *. rewrite firstn_length in Fe. nia. }
    rewrite Z.min_l by lia. rewrite Eb, Eq. reflexivity.
  - destruct (Z.eqb_spec (pending es (qs since)) cz) as [F|F].
    + injection Du as <- <- Eq. rewrite (In eq_refl) in F. destruct (Z.eqb_spec (pending es (qs i)) cz); [rewrite Eq; reflexivity|contradiction].
    + injection Du as <- <- Eq. assert (L2 : zlen (qs (Datatypes.S i)) = zlen (qs i) + es) by (rewrite <- Eq, zlen_app; lia). destruct (Z.eqb_spec (pending es (qs i)) cz); [nia|rewrite Eq; reflexivity].
  - destruct (Z.eqb_spec (pending es (qs since)) 0) as [F|F].
    + injection Du as <- <- Eq. rewrite (In eq_refl) in F. destruct (Z.eqb_spec (pending es (qs i)) 0); [rewrite Eq; reflexivity|contradiction].
    + injection Du as <- <- Eq. specialize (Fe I). destruct (Z.eqb_spec (pending es (qs i)) 0) as [Q|Q]; [|rewrite Eq; reflexivity]. exfalso. unfold take, zlen in *. rewrite firstn_length in Fe. rewrite Q in P2. lia.
  - destruct (Z.eqb_spec (pending es (qs since)) 0) as [F|F].
    + injection Du as <- <- Eq. rewrite (In eq_refl) in F. destruct (Z.eqb_spec (pending es (qs i)) 0); [rewrite Eq; reflexivity|contradiction].
    + injection Du as <- <- Eq. specialize (Fe I). destruct (Z.eqb_spec (pending es (qs i)) 0) as [Q|Q]; [|rewrite Eq; reflexivity]. exfalso. unfold take, zlen in *. rewrite firstn_length in Fe. rewrite Q in P2. lia.
Qed.
Lemma arun_log : forall es cz log qs, (forall i e, nth_error log i = Some e -> queue_step es cz (qs i) (e_op e) = (e_ret e, qs (Datatypes.S i))) ->
  arun (queue_step es cz) (qs O) (ops_of log) = (rets_of log, qs (length log)).
Proof.
  induction log as [|e log IH]; intros qs H; [reflexivity|]. cbn [ops_of rets_of map arun length]. rewrite (H O e eq_refl). cbn beta iota. specialize (IH (fun i => qs (Datatypes.S i)) (fun i e' E => H (Datatypes.S i) e' E)). unfold ops_of, rets_of in IH. rewrite IH. reflexivity.
Qed.
