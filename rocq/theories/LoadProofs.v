(** * Ownership that passes at barriers keeps the calls sequential, also when loads are satisfied early *)
From Coq Require Import Lia.
From Verif Require Import Lib AtomicModel AtomicSpec AtomicProofs FenceModel FenceSpec FenceProofs LoadModel LoadSpec.

Lemma lex_here : forall sync f0 l f P, lex sync f0 l f P -> forall t, P t f.
Proof. intros sync f0 l f P X. induction X; intros u; [reflexivity|left; reflexivity|apply IHX]. Qed.
Lemma lex_snoc : forall sync f0 l t op r f P, lex sync f0 (l ++ [(t, op, r)]) f P ->
  exists f1 P1, lex sync f0 l f1 P1 /\
    ((r = snd (atspec op f1) /\ f = fst (atspec op f1) /\ P = (fun u g => g = fst (atspec op f1) \/ (P1 u g /\ (u = t -> ~ fence op r)))) \/
     (f = f1 /\ P = P1 /\ sync (opw op) = true /\ peeks op r /\ exists g, P1 t g /\ r = snd (atspec op g))).
Proof.
  intros sync f0 l t op r f P X. remember (l ++ [(t, op, r)]) as k eqn:E. destruct X as [|l1 f1 P1 t1 op1 X|l1 f1 P1 t1 op1 g X S1 G1 K1].
  - destruct l; discriminate E.
  - apply app_inj_tail in E. destruct E as (-> & E). injection E as <- <- <-. exists f1, P1. split; [exact X|]. left. repeat split.
  - apply app_inj_tail in E. destruct E as (-> & E). injection E as <- <- <-. exists f1, P1. split; [exact X|]. right. repeat (split; [first [reflexivity|assumption]|]). exists g. split; [exact G1|reflexivity].
Qed.
Lemma lex_empty : forall sync f0 f P, lex sync f0 [] f P -> f = f0 /\ P = fun _ g => g = f0.
Proof. intros sync f0 f P X. remember (@nil (nat * aop * ret)) as k eqn:E. destruct X as [|l1 f1 P1 t1 op1 X|l1 f1 P1 t1 op1 g X S1 G1 K1]; [split; reflexivity|destruct l1; discriminate E ..]. Qed.
Lemma peeks_quiet : forall op r, peeks op r -> ~ fence op r /\ forall f, r = snd (atspec op f) -> (forall w, fst (atspec op f) w = f w).
Proof.
  intros op r K. destruct op as [w|w v|k md w v|w old v|w old v|w v|b|b|b|b val|b|b|b|b|b val]; destruct r as [|x|y|]; cbn [peeks] in K; try contradiction; cbn [fence atspec snd fst];
    (split; [first [solve [intros []] | intros N; congruence]|]); intros f E w'; try reflexivity; try discriminate E; subst; injection E as E; unfold setb, upd, bitv in *; destruct (Z.eqb_spec w' (b / 64)) as [->|]; try reflexivity.
  - apply Z.bits_inj'. intros n Hn. destruct (Z.eq_dec n (b mod 64)) as [->|N]; [rewrite Z.clearbit_eq; exact E|rewrite Z.clearbit_neq by congruence; reflexivity].
  - apply Z.bits_inj'. intros n Hn. pose proof (Z.mod_pos_bound b 64 ltac:(lia)). destruct (Z.eq_dec n (b mod 64)) as [->|N]; [rewrite Z.setbit_eq by lia; exact E|rewrite Z.setbit_neq by (try lia; congruence); reflexivity].
Qed.
Lemma quiet_peeks : forall op f, ~ fence op (snd (atspec op f)) -> (forall w v, op <> AWrite w v) -> peeks op (snd (atspec op f)).
Proof.
  intros op f F N. destruct op as [w|w v|k md w v|w old v|w old v|w v|b|b|b|b val|b|b|b|b|b val]; cbn [peeks atspec snd fence] in *; try exact Logic.I; try (exfalso; apply F; exact Logic.I).
  - contradiction (N w v eq_refl).
  - destruct (bitv f b); [contradiction F; reflexivity|reflexivity].
  - destruct (bitv f b); [reflexivity|contradiction F; reflexivity].
Qed.
(** what a plain first reading can report *)
Lemma early_peeks : forall m op p m' v, builtin op p = false -> (forall w v, op <> AWrite w v) -> astep m op p = Some (m', inr v) -> peeks op v.
Proof.
  intros m op p m' r B N E. destruct op as [w|w v|k md w v|w old v|w old v|w v|b|b|b|b val|b|b|b|b|b val]; cbn [builtin] in B; try discriminate B; cbn [astep] in E; cbn [peeks]; try exact Logic.I.
  - contradiction (N w v eq_refl).
  - destruct p; try discriminate B; (destruct (rd m w); [discriminate E|discriminate E]).
  - destruct p; try discriminate B; (destruct (rd m (wordof b)) as [x|]; [|discriminate E]; destruct (Z.land x (BITM b) =? 0); [injection E as _ <-; reflexivity|discriminate E]).
  - destruct p; try discriminate B; (destruct (rd m (wordof b)) as [x|]; [|discriminate E]; destruct (negb (Z.land x (BITM b) =? 0)); [injection E as _ <-; reflexivity|discriminate E]).
Qed.
Lemma keep_sub : forall op p buf pre x, In x (keep op p buf pre) -> In x pre.
Proof. intros op p buf pre x I. unfold keep in I. destruct op; repeat match type of I with context [if ?b then _ else _] => destruct b | context [match ?l with [] => _ | _ :: _ => _ end] => destruct l end; solve [exact I|destruct I|apply filter_In in I; apply I]. Qed.
Lemma keep_fence : forall m buf op p m' buf' v pre, bstep m buf op p = Some (m', buf', inr v) -> fence op v -> keep op p buf pre = [].
Proof.
  intros m buf op p m' buf' v pre E F. destruct (builtin op p) eqn:B.
  - assert (N : buf = []).
    { unfold bstep in E. rewrite B in E. destruct op; try (destruct buf; [reflexivity|discriminate E]). destruct F. }
    subst buf. unfold keep. rewrite B. destruct op; try reflexivity. destruct F.
  - exfalso. assert (N : forall w x, op <> AWrite w x) by (intros w x ->; exact F).
    assert (E' : (let* (_, r) := astep (view m buf) op p in Some (m, buf, r)) = Some (m', buf', inr v)) by (unfold bstep in E; rewrite B in E; destruct op; try exact E; contradiction (N _ _ eq_refl)).
    destruct (astep (view m buf) op p) as [[m2 r]|] eqn:Ea; [|discriminate E']. injection E' as <- <- ->. exact (proj2 (read_same _ _ _ _ _ B N Ea) F).
Qed.
Lemma load_word_opw : forall op u, load_word op = Some u -> u = opw op /\ forall w v, op <> AWrite w v.
Proof. intros op u E. destruct op; try discriminate E; injection E as <-; (split; [reflexivity|intros; discriminate]). Qed.

Section Early.
Variables (c : client) (n : Z) (f0 : Z -> Z) (sync : Z -> bool) (own : ownership).
Hypothesis CO : forall l f P t op, issued c l -> lex sync f0 l f P -> c t (proj t l) = Some op -> op_ok n op.
Hypothesis RE : respects_early sync own c f0.
(** memory and buffers against the values [f] and the owners [ow] *)
Definition core (m : list Z) (bufs : nat -> buffer) (f : Z -> Z) (ow : Z -> option nat) : Prop :=
  Forall u64v m /\ zlen m = n /\ (forall t, in_range n (bufs t)) /\
  (forall w, 0 <= w < n -> sync w = true -> rd m w = Some (f w)) /\
  (forall w t, 0 <= w < n -> sync w = false -> ow w = Some t -> rd (view m (bufs t)) w = Some (f w)) /\
  (forall w, 0 <= w < n -> sync w = false -> ow w = None -> rd m w = Some (f w)) /\
  (forall t w v, In (w, v) (bufs t) -> sync w = false /\ ow w = Some t).
Lemma core_ext : forall m bufs f f' ow ow', (forall w, f' w = f w) -> (forall w, ow' w = ow w) -> core m bufs f ow -> core m bufs f' ow'.
Proof.
  intros m bufs f f' ow ow' Ef Eo (W & L & R & BS & BO & BN & BP). split; [exact W|]. split; [exact L|]. split; [exact R|]. split; [|split; [|split]].
  - intros w. rewrite Ef. apply BS.
  - intros w t. rewrite Ef, Eo. apply BO.
  - intros w. rewrite Ef, Eo. apply BN.
  - intros t w v. rewrite Eo. apply BP.
Qed.
(** one access or one store reaching memory: go_inv and drain_inv of a machine that starts here *)
Definition one (t : nat) (op : aop) : client := fun u h => if Nat.eqb u t then match h with [] => Some op | _ => None end else None.
Definition here (s : bsys) : bsys := {| bmem := bmem s; bbuf := bbuf s; bhist := fun _ => []; bpc := bpc s; blog := [] |}.
Lemma core_binv : forall c' s f ow, core (bmem s) (bbuf s) f (ow []) -> binv c' n f sync ow (here s).
Proof.
  intros c' s f ow (W & L & R & BS & BO & BN & BP). unfold binv, here. cbn [bmem bbuf bhist bpc blog]. split; [exact W|]. split; [exact L|]. split; [exact R|]. split; [reflexivity|]. split; [apply is_nil|].
  exists f. split; [apply ex_nil|]. repeat (split; [assumption|]). assumption.
Qed.
Lemma one_issued : forall t op l u o, issued (one t op) l -> one t op u (proj u l) = Some o -> l = [] /\ u = t /\ o = op.
Proof.
  intros t op l u o IS E. unfold one in E. destruct (Nat.eqb_spec u t) as [->|]; [|discriminate E]. destruct (proj t l) as [|x h] eqn:Ep; [|discriminate E]. injection E as <-.
  split; [|split; reflexivity]. assert (T : forall v o' r', In (v, o', r') l -> v = t).
  { clear - IS. induction IS as [|l v o r IS IH Ec]; intros a b d I; [destruct I|]. apply in_app_or in I. destruct I as [I|[I|[]]]; [exact (IH _ _ _ I)|]. injection I as <- <- <-.
    unfold one in Ec. destruct (Nat.eqb_spec v t) as [e|]; [exact e|discriminate Ec]. }
  destruct l as [|[[v o'] r'] l]; [reflexivity|]. exfalso. pose proof (T v o' r' (or_introl eq_refl)) as ->. cbn [proj] in Ep. rewrite Nat.eqb_refl in Ep. discriminate Ep.
Qed.
Lemma go_core : forall s f t op, core (bmem s) (bbuf s) f (own (blog s)) -> op_ok n op -> (if sync (opw op) then ~ is_store op else own (blog s) (opw op) = Some t) ->
  strict_handover own (blog s) t op (snd (atspec op f)) ->
  exists m' buf' r, bstep (bmem s) (bbuf s t) op (bpc s t) = Some (m', buf', r) /\
    match r with
    | inl _ => core m' (tset (bbuf s) t buf') f (own (blog s))
    | inr v => v = snd (atspec op f) /\ core m' (tset (bbuf s) t buf') (fst (atspec op f)) (own (blog s ++ [(t, op, v)]))
    end.
Proof.
  intros s f t op C O RA RH. set (ow := (fun k => own (blog s ++ k)) : ownership).
  assert (C0 : core (bmem s) (bbuf s) f (ow [])) by (unfold ow; rewrite app_nil_r; exact C).
  assert (CO' : forall l g u o, issued (one t op) l -> explains f l g -> one t op u (proj u l) = Some o -> op_ok n o) by (intros l g u o IS _ E; destruct (one_issued _ _ _ _ _ IS E) as (_ & _ & ->); exact O).
  assert (RE' : respects sync ow (one t op) f).
  { intros l g u o IS X E. destruct (one_issued _ _ _ _ _ IS E) as (-> & -> & ->). inversion X; subst g. split; [unfold ow; rewrite app_nil_r; exact RA|].
    intros w. unfold ow. rewrite app_nil_r. cbn [app]. destruct (RH w) as [Q|(F & [(Q & _)|(Q & _)])]; [left; exact Q|right; left; exact Q|right; right; split; assumption]. }
  destruct (go_inv (one t op) n f sync ow CO' RE' false (here s) t (core_binv _ s f ow C0)) as (s' & E & I).
  cbn [bmove here bhist bmem bbuf bpc blog] in E. unfold one in E. rewrite Nat.eqb_refl in E.
  destruct (bstep (bmem s) (bbuf s t) op (bpc s t)) as [[[m' buf'] r]|]; [|discriminate E]. exists m', buf', r. split; [reflexivity|].
  destruct r as [p|v]; injection E as <-; destruct I as (W & L & R & H & IS & g & X & BS & BO & BN & BP); cbn [bmem bbuf bhist bpc blog app] in *.
  - inversion X; subst g. unfold ow in *. rewrite app_nil_r in *. unfold core. repeat (split; [assumption|]). assumption.
  - inversion X as [|? ? ? ? ? f2 ? E2 X2]; subst. inversion X2; subst. cbn [fst snd]. rewrite E2. cbn [fst snd]. split; [reflexivity|]. unfold core. repeat (split; [assumption|]). assumption.
Qed.
Lemma drain_core : forall weak s f t k, core (bmem s) (bbuf s) f (own (blog s)) ->
  exists s', bmove weak c s (Drain t k) = Some s' /\ blog s' = blog s /\ bhist s' = bhist s /\ core (bmem s') (bbuf s') f (own (blog s)).
Proof.
  intros weak s f t k C. set (ow := (fun k => own (blog s ++ k)) : ownership). set (nobody := (fun _ _ => None) : client).
  assert (C0 : core (bmem s) (bbuf s) f (ow [])) by (unfold ow; rewrite app_nil_r; exact C).
  destruct (drain_inv nobody n f sync ow weak (here s) t k (core_binv _ s f ow C0)) as (s' & E & I & Lg).
  destruct I as (W & L & R & H & IS & g & X & BS & BO & BN & BP). rewrite Lg in *. cbn [here blog] in X. inversion X; subst g. unfold ow in BO, BN, BP. cbn [here blog] in BO, BN, BP. rewrite app_nil_r in *.
  cbn [bmove here bmem bbuf bhist bpc blog] in E |- *. destruct (pick_next weak k (bbuf s t)) as [[[w v] buf']|].
  - destruct (wr (bmem s) w v) as [m|]; [|discriminate E]. injection E as <-. eexists. split; [reflexivity|]. cbn [bmem bbuf bhist blog] in *. split; [reflexivity|]. split; [reflexivity|]. unfold core. repeat (split; [assumption|]). assumption.
  - injection E as <-. exists s. split; [reflexivity|]. split; [reflexivity|]. split; [reflexivity|exact C].
Qed.
(** the values fetched early *)
Definition fetched (pre : nat -> buffer) (f : Z -> Z) (P : nat -> (Z -> Z) -> Prop) (ow : Z -> option nat) : Prop :=
  forall t w v, In (w, v) (pre t) -> 0 <= w < n /\ u64v v /\ (sync w = false -> ow w = Some t -> v = f w) /\ (sync w = true -> exists g, P t g /\ g w = v).
Definition einv (s : esys) : Prop :=
  (forall t, bhist (ebase s) t = proj t (blog (ebase s))) /\ issued c (blog (ebase s)) /\
  exists f P, lex sync f0 (blog (ebase s)) f P /\ core (bmem (ebase s)) (bbuf (ebase s)) f (own (blog (ebase s))) /\ fetched (epre s) f P (own (blog (ebase s))).
Lemma hist_snoc : forall (h : nat -> list (aop * ret)) l t op x, (forall u, h u = proj u l) -> forall u, tset h t (h t ++ [(op, x)]) u = proj u (l ++ [(t, op, x)]).
Proof.
  intros h l t op x H u. rewrite proj_snoc. unfold tset. destruct (Nat.eqb_spec u t) as [->|N]; [rewrite Nat.eqb_refl, H; reflexivity|]. destruct (Nat.eqb_spec t u) as [->|]; [contradiction N; reflexivity|]. rewrite app_nil_r. apply H.
Qed.
Lemma ego_inv : forall weak s t, einv s -> exists s', emove_step weak c s (EGo t) = Some s' /\ einv s'.
Proof.
  intros weak s t (H & IS & f & P & X & C & F). cbn [emove_step bmove]. destruct (c t (bhist (ebase s) t)) as [op|] eqn:Ec.
  2:{ eexists. split; [reflexivity|]. split; [exact H|]. split; [exact IS|]. exists f, P. split; [exact X|]. split; [exact C|exact F]. }
  rewrite H in Ec. pose proof (CO _ _ _ _ _ IS X Ec) as O. destruct (RE _ _ _ _ _ IS X Ec) as (RA & RH). specialize (RH _ (or_introl eq_refl)).
  destruct (go_core (ebase s) f t op C O RA RH) as (m' & buf' & r & Eb & K). rewrite Eb. destruct r as [p|v].
  - eexists. split; [reflexivity|]. split; [exact H|]. split; [exact IS|]. exists f, P. split; [exact X|]. split; [exact K|]. cbn [epre ebase blog].
    intros u w v I. unfold tset in I. destruct (Nat.eqb_spec u t) as [->|]; [apply keep_sub in I|]; exact (F _ _ _ I).
  - destruct K as (-> & K). eexists. split; [reflexivity|]. unfold einv. cbn [ebase epre bmem bbuf bhist blog]. split; [apply hist_snoc, H|]. split; [apply is_snoc; assumption|].
    exists (fst (atspec op f)), (fun u g => g = fst (atspec op f) \/ (P u g /\ (u = t -> ~ fence op (snd (atspec op f))))). split; [apply lex_now; exact X|]. split; [exact K|].
    intros u w v I. unfold tset in I. destruct (Nat.eqb_spec u t) as [->|N].
    + assert (NF : ~ fence op (snd (atspec op f))) by (intros Q; rewrite (keep_fence _ _ _ _ _ _ _ (epre s t) Eb Q) in I; destruct I).
      destruct (F _ _ _ (keep_sub _ _ _ _ _ I)) as (F1 & F2 & F3 & F4). split; [exact F1|]. split; [exact F2|]. split; [|intros Sw; destruct (F4 Sw) as (g & G1 & G2); exists g; split; [right; split; [exact G1|intros _; exact NF]|exact G2]].
      intros Sw Ow. destruct (RH w) as [Q|(Q & _)]; [|contradiction]. rewrite Q in Ow. rewrite (F3 Sw Ow).
      assert (D : (exists a b, op = AWrite a b) \/ forall a b, op <> AWrite a b) by (destruct op; try (right; intros ? ?; discriminate); left; do 2 eexists; reflexivity).
      destruct D as [(a & b & ->)|D].
      * cbn [keep] in I. apply filter_In in I. destruct I as (_ & I). cbn [fst] in I. cbn [atspec fst]. unfold upd. destruct (w =? a); [discriminate I|reflexivity].
      * symmetry. apply (proj2 (peeks_quiet op _ (quiet_peeks op f NF D)) f eq_refl).
    + destruct (F _ _ _ I) as (F1 & F2 & F3 & F4). split; [exact F1|]. split; [exact F2|]. split; [|intros Sw; destruct (F4 Sw) as (g & G1 & G2); exists g; split; [right; split; [exact G1|intros e; contradiction]|exact G2]].
      intros Sw Ow. assert (Ou : own (blog (ebase s)) w = Some u) by (destruct (RH w) as [Q|(_ & [(_ & Q)|(_ & Q)])]; congruence).
      rewrite atspec_other; [apply F3; assumption|]. intros ->. rewrite Sw in RA. congruence.
Qed.
Lemma early_inv : forall s t i, einv s -> exists s', estep_early c s t i = Some s' /\ einv s'.
Proof.
  intros s t i Iv. pose proof Iv as (H & IS & f & P & X & C & F). unfold estep_early. destruct (c t (bhist (ebase s) t)) as [op|] eqn:Ec; [|exists s; split; [reflexivity|exact Iv]].
  destruct (nth_error (epre s t) i) as [[w v]|] eqn:En; [|exists s; split; [reflexivity|exact Iv]]. destruct (load_word op) as [u|] eqn:Eu; [|exists s; split; [reflexivity|exact Iv]].
  destruct (load_word_opw _ _ Eu) as (-> & NW). destruct (Z.eqb_spec (opw op) w) as [Ew|]; [|exists s; split; [reflexivity|exact Iv]]. destruct (builtin op (bpc (ebase s) t)) eqn:B; [exists s; split; [reflexivity|exact Iv]|].
  cbn [andb negb]. apply nth_error_In in En. destruct (F _ _ _ En) as (F1 & F2 & F3 & F4). rewrite H in Ec. pose proof (CO _ _ _ _ _ IS X Ec) as O. destruct (RE _ _ _ _ _ IS X Ec) as (RA & RH).
  pose proof C as (W & L & R & _). assert (Rt : in_range (zlen (bmem (ebase s))) (bbuf (ebase s) t)) by (rewrite L; apply R).
  destruct (view_spec _ _ Rt) as (LV & SV). set (vw := view (bmem (ebase s)) (bbuf (ebase s) t)) in *. assert (Hw : 0 <= w < zlen vw) by lia. destruct (set_word_spec vw w v Hw) as (LS & SS).
  assert (WS : Forall u64v (set_word vw (w, v))).
  { unfold set_word. cbn [fst snd]. pose proof (view_words _ _ Rt W) as WV. fold vw in WV. destruct (wr vw w v) as [m'|] eqn:Em; [|exact WV]. apply (wr_words _ _ _ _ WV F2 Em). }
  set (g0 := value_at (set_word vw (w, v))). assert (G0 : g0 w = v) by (unfold g0, value_at; rewrite SS, Z.eqb_refl; reflexivity).
  destruct (astep_ok (set_word vw (w, v)) g0 WS (agrees_self _) op (bpc (ebase s) t)) as (m' & r & Ea & _ & _ & K); [rewrite LS, LV, L; exact O|]. rewrite Ea.
  destruct r as [p|x].
  - eexists. split; [reflexivity|]. split; [exact H|]. split; [exact IS|]. exists f, P. split; [exact X|]. split; [exact C|exact F].
  - destruct K as (-> & _). pose proof (early_peeks _ _ _ _ _ B NW Ea) as PK. destruct (peeks_quiet _ _ PK) as (NF & QF).
    eexists. split; [reflexivity|]. unfold einv. cbn [ebase epre bmem bbuf bhist blog]. split; [apply hist_snoc, H|]. split; [apply is_snoc; assumption|].
    destruct (sync w) eqn:Sw.
    + destruct (F4 eq_refl) as (g & G1 & G2). assert (Eg : snd (atspec op g0) = snd (atspec op g)) by (apply atspec_local; rewrite Ew, G0, G2; reflexivity).
      rewrite Eg in *. specialize (RH (snd (atspec op g))). assert (SH : strict_handover own (blog (ebase s)) t op (snd (atspec op g))).
      { apply RH. right. rewrite Ew. split; [exact Sw|]. split; [exact PK|]. exists g. split; [exact G1|reflexivity]. }
      assert (OE : forall z, own (blog (ebase s) ++ [(t, op, snd (atspec op g))]) z = own (blog (ebase s)) z) by (intros z; destruct (SH z) as [Q|(Q & _)]; [exact Q|contradiction]).
      exists f, P. split; [apply lex_early; [exact X|rewrite Ew; exact Sw|exact G1|exact PK]|]. split; [apply (core_ext _ _ f _ (own (blog (ebase s)))); [reflexivity|exact OE|exact C]|].
      intros a b d I. rewrite OE. exact (F _ _ _ I).
    + rewrite Ew, Sw in RA. specialize (F3 eq_refl RA). assert (Eg : snd (atspec op g0) = snd (atspec op f)) by (apply atspec_local; rewrite Ew, G0, F3; reflexivity).
      rewrite Eg in *. specialize (QF f eq_refl). specialize (RH _ (or_introl eq_refl)).
      assert (OE : forall z, own (blog (ebase s) ++ [(t, op, snd (atspec op f))]) z = own (blog (ebase s)) z) by (intros z; destruct (RH z) as [Q|(Q & _)]; [exact Q|contradiction]).
      exists (fst (atspec op f)), (fun u g => g = fst (atspec op f) \/ (P u g /\ (u = t -> ~ fence op (snd (atspec op f))))). split; [apply lex_now; exact X|].
      split; [apply (core_ext _ _ f _ (own (blog (ebase s)))); [exact QF|exact OE|exact C]|].
      intros a b d I. rewrite OE, QF. destruct (F _ _ _ I) as (A1 & A2 & A3 & A4). split; [exact A1|]. split; [exact A2|]. split; [exact A3|]. intros Sb. destruct (A4 Sb) as (g & G1 & G2). exists g. split; [right; split; [exact G1|intros _; exact NF]|exact G2].
Qed.
Lemma estep_inv : forall weak s x, einv s -> exists s', emove_step weak c s x = Some s' /\ einv s'.
Proof.
  intros weak s x I. destruct x as [t|t k|t w|t i].
  - apply ego_inv. exact I.
  - destruct I as (H & IS & f & P & X & C & F). destruct (drain_core weak (ebase s) f t k C) as (b' & E & Lg & Hh & C'). cbn [emove_step]. rewrite E. eexists. split; [reflexivity|].
    unfold einv. cbn [ebase epre]. rewrite Lg, Hh. split; [exact H|]. split; [exact IS|]. exists f, P. split; [exact X|]. split; [exact C'|exact F].
  - cbn [emove_step]. destruct (rd (view (bmem (ebase s)) (bbuf (ebase s) t)) w) as [v|] eqn:E; [|exists s; split; [reflexivity|exact I]]. destruct I as (H & IS & f & P & X & C & F).
    eexists. split; [reflexivity|]. unfold einv. cbn [ebase epre]. split; [exact H|]. split; [exact IS|]. exists f, P. split; [exact X|]. split; [exact C|].
    intros u a b I. unfold tset in I. destruct (Nat.eqb_spec u t) as [->|]; [|exact (F _ _ _ I)]. apply in_app_or in I. destruct I as [I|[I|[]]]; [exact (F _ _ _ I)|]. injection I as <- <-.
    destruct C as (W & L & R & BS & BO & BN & BP). assert (Rt : in_range (zlen (bmem (ebase s))) (bbuf (ebase s) t)) by (rewrite L; apply R). destruct (view_spec _ _ Rt) as (LV & SV).
    assert (Hw : 0 <= w < n). { destruct (Z_lt_ge_dec w 0) as [Q|Q]; [|destruct (Z_lt_ge_dec w n) as [Q'|Q']; [lia|]]; rewrite (proj2 (rd_none_iff _ _ w)) in E by lia; discriminate E. }
    split; [exact Hw|]. split; [|split].
    + pose proof (view_words _ _ Rt W) as WV. rewrite Forall_forall in WV. apply WV. apply (rd_in _ _ _ _ E).
    + intros Sw Ow. rewrite (BO _ _ Hw Sw Ow) in E. injection E as <-. reflexivity.
    + intros Sw. exists f. split; [apply (lex_here _ _ _ _ _ X)|]. rewrite SV, not_pending, (BS _ Hw Sw) in E; [injection E as <-; reflexivity|]. intros x I. rewrite (proj1 (BP _ _ _ I)) in Sw. discriminate Sw.
  - cbn [emove_step]. apply early_inv. exact I.
Qed.
Lemma erun_inv : forall weak sched s, einv s -> exists s', erun weak c sched s = Some s' /\ einv s'.
Proof.
  intros weak. induction sched as [|x sched IH]; intros s I; [exists s; split; [reflexivity|exact I]|]. cbn [erun]. destruct (estep_inv weak s x I) as (s1 & -> & I1). exact (IH _ I1).
Qed.
End Early.
Lemma einit_inv : forall c m f sync own, Forall u64v m -> agrees m f -> einv c (zlen m) f sync own (einit m).
Proof.
  intros c m f sync own W A. split; [reflexivity|]. split; [apply is_nil|]. exists f, (fun _ g => g = f). split; [apply lex_nil|]. split; [|intros t w v []].
  cbn [einit ebase binit bmem bbuf blog]. split; [exact W|]. split; [reflexivity|]. split; [intros t w v []|]. split; [intros w Hw _; apply A, Hw|]. split; [intros w t Hw _ _; apply A, Hw|]. split; [intros w Hw _ _; apply A, Hw|intros t w v []].
Qed.
