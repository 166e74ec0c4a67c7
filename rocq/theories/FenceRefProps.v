(** * C119: the thread that gives back the last reference sees what the others wrote *)
From Coq Require Import Lia.
From Verif Require Import Lib AtomicModel AtomicSpec AtomicProofs FenceModel FenceSpec FenceProofs FenceProps.

Fixpoint teller (rc : Z) (l : log) : option nat :=
  match l with
  | [] => None
  | (t, op, r) :: l => if told_last rc [(op, r)] then Some t else teller rc l
  end.
Lemma teller_snoc : forall rc l t op r, teller rc (l ++ [(t, op, r)]) = match teller rc l with Some u => Some u | None => if told_last rc [(op, r)] then Some t else None end.
Proof. intros rc l t op r. induction l as [|[[u o] q] l IH]; [reflexivity|]. cbn [app teller]. rewrite IH. destruct (told_last rc [(o, q)]); reflexivity. Qed.
Lemma told_app : forall rc a b, told_last rc (a ++ b) = told_last rc a || told_last rc b.
Proof. intros. apply existsb_app. Qed.
Definition dref (rc : Z) (op : aop) : Z :=
  match op with
  | ARmw KAdd _ w k => if w =? rc then k else 0
  | ARmw KSub _ w k => if w =? rc then - k else 0
  | _ => 0
  end.
Lemma refs_app : forall rc a b n, refs rc (a ++ b) n = refs rc b (refs rc a n).
Proof. induction a as [|[op r] a IH]; intros b n; [reflexivity|]. cbn [app refs]. destruct op; try apply IH. destruct k; apply IH. Qed.
Lemma refs_one : forall rc op r n, refs rc [(op, r)] n = n + dref rc op.
Proof. intros rc op r n. destruct op as [w|w v|k md w v|w old v|w old v|w v|b|b|b|b val|b|b|b|b|b val]; cbn [refs dref]; try lia. destruct k; try lia; destruct (w =? rc); lia. Qed.
Lemma refs_snoc : forall rc l u t op r n, refs rc (proj u (l ++ [(t, op, r)])) n = refs rc (proj u l) n + if Nat.eqb t u then dref rc op else 0.
Proof. intros. rewrite proj_snoc, refs_app. destruct (Nat.eqb t u); [apply refs_one|cbn; lia]. Qed.
Lemma sum_one : forall (g : nat -> Z) d t ts, NoDup ts ->
  fold_right Z.add 0 (map (fun u => g u + if Nat.eqb t u then d else 0) ts) = fold_right Z.add 0 (map g ts) + if existsb (Nat.eqb t) ts then d else 0.
Proof.
  intros g d t ts ND. induction ND as [|u ts N ND IH]; [reflexivity|]. cbn [map fold_right existsb]. rewrite IH. destruct (Nat.eqb_spec t u) as [->|]; cbn [orb]; [|lia].
  destruct (existsb (Nat.eqb u) ts) eqn:X; [|lia]. apply existsb_exists in X. destruct X as (y & I & Y). apply Nat.eqb_eq in Y. subst y. contradiction.
Qed.
Lemma sum_pos : forall (g : nat -> Z) ts, (forall t, 0 <= g t) -> 0 <= fold_right Z.add 0 (map g ts) /\ (forall t, In t ts -> g t <= fold_right Z.add 0 (map g ts)) /\
  (NoDup ts -> forall t u, In t ts -> In u ts -> t <> u -> g t + g u <= fold_right Z.add 0 (map g ts)).
Proof.
  intros g ts P. induction ts as [|x ts IH]; [cbn; split; [lia|split; [intros ? []|intros _ ? ? []]]|]. destruct IH as (I1 & I2 & I3). cbn [map fold_right]. pose proof (P x). split; [lia|]. split.
  - intros t [-> | I]; [lia|specialize (I2 _ I); lia].
  - intros ND t u It Iu N. inversion ND as [|? ? N1 N2]; subst. destruct It as [-> | It]; destruct Iu as [-> | Iu]; [contradiction| | |].
    + specialize (I2 _ Iu). lia.
    + specialize (I2 _ It). lia.
    + specialize (I3 N2 _ _ It Iu N). lia.
Qed.

Section Ref.
Variables (c : client) (rc : Z) (writer : Z -> nat) (start : nat -> Z) (ts : list nat) (f0 : Z -> Z).
Hypothesis CN : counted rc writer start c.
Hypothesis ND : NoDup ts.
Hypothesis S0 : forall t, 0 <= start t.
Hypothesis S1 : forall t, ~ In t ts -> start t = 0.
Hypothesis F0 : f0 rc = total_refs rc start ts [].

Let R (t : nat) (l : log) : Z := refs rc (proj t l) (start t).
Definition may (t : nat) (h : list (aop * ret)) (w : Z) : Prop := told_last rc h = true \/ (writer w = t /\ 0 < refs rc h (start t)).
Lemma cases : forall t h op, c t h = Some op ->
  (opw op <> rc /\ may t h (opw op)) \/ op = ARead rc \/ (exists md k, op = ARmw KAdd md rc k /\ told_last rc h = false /\ 0 < refs rc h (start t) /\ 0 < k) \/
  (exists k, op = ARmw KSub MOld rc k /\ 0 < k <= refs rc h (start t)).
Proof.
  intros t h op E. pose proof (CN _ _ _ E) as Q. unfold may.
  destruct op as [w|w v|k md w v|w old v|w old v|w v|b|b|b|b val|b|b|b|b|b val]; try (left; exact Q).
  - destruct (Z.eq_dec w rc) as [->|N]; [right; left; reflexivity|]. left. cbn [opw]. split; [exact N|]. destruct Q as [Q|Q]; [contradiction|exact Q].
  - destruct k; try (left; exact Q).
    + destruct Q as [(-> & Q)|Q]; [|left; exact Q]. right. right. left. exists md, v. split; [reflexivity|exact Q].
    + destruct Q as [(-> & -> & Q)|Q]; [|left; exact Q]. right. right. right. exists v. split; [reflexivity|exact Q].
Qed.
Lemma quiet : forall op r, opw op <> rc \/ op = ARead rc -> dref rc op = 0 /\ told_last rc [(op, r)] = false.
Proof.
  intros op r [N| ->]; [|split; reflexivity].
  destruct op as [w|w v|k md w v|w old v|w old v|w v|b|b|b|b val|b|b|b|b|b val]; try (split; reflexivity). cbn [opw] in N. apply Z.eqb_neq in N. cbn [dref told_last existsb].
  destruct k, md, r; rewrite ?N; split; reflexivity.
Qed.
Lemma quiet_f : forall op f, opw op <> rc \/ op = ARead rc -> fst (atspec op f) rc = f rc.
Proof. intros op f [N| ->]; [apply atspec_other; intros e; apply N; symmetry; exact e|reflexivity]. Qed.

Definition rinv (l : log) (f : Z -> Z) : Prop :=
  (forall t, 0 <= R t l) /\ (forall t, ~ In t ts -> R t l = 0) /\ f rc = total_refs rc start ts l /\
  (forall t, told_last rc (proj t l) = true <-> teller rc l = Some t) /\ (forall t, teller rc l = Some t -> total_refs rc start ts l = 0).
Lemma total_snoc : forall l t op r, (~ In t ts -> dref rc op = 0) ->
  total_refs rc start ts (l ++ [(t, op, r)]) = total_refs rc start ts l + dref rc op.
Proof.
  intros l t op r D. unfold total_refs. erewrite map_ext; [|intros u; apply refs_snoc]. rewrite (sum_one (fun u => refs rc (proj u l) (start u)) (dref rc op) t ts ND).
  destruct (existsb (Nat.eqb t) ts) eqn:X; [reflexivity|]. rewrite D; [reflexivity|]. intros I. assert (existsb (Nat.eqb t) ts = true) by (apply existsb_exists; exists t; split; [exact I|apply Nat.eqb_refl]). congruence.
Qed.
Lemma rinv_step : forall l f1 t op, rinv l f1 -> c t (proj t l) = Some op -> total_refs rc start ts l < 2 ^ 64 -> total_refs rc start ts (l ++ [(t, op, snd (atspec op f1))]) < 2 ^ 64 ->
  rinv (l ++ [(t, op, snd (atspec op f1))]) (fst (atspec op f1)).
Proof.
  intros l f1 t op IH Ec Lt NX0. remember (snd (atspec op f1)) as r eqn:Er. remember (fst (atspec op f1)) as f eqn:Ef.
  destruct IH as (I1 & I2 & I3 & I4 & I5).
  destruct (sum_pos (fun t => R t l) ts I1) as (P1 & P2 & P3). fold (R t l) in *. change (fold_right Z.add 0 (map (fun t => R t l) ts)) with (total_refs rc start ts l) in P1, P2, P3.
  assert (Dt : ~ In t ts -> dref rc op = 0).
  { intros N. specialize (I2 _ N). destruct (cases _ _ _ Ec) as [(N1 & _)|[->|[(md & k & -> & _ & Q & _)|(k & -> & Q)]]]; [apply (quiet op r); left; exact N1|reflexivity| |]; fold (R t l) in Q; lia. }
  assert (TS : total_refs rc start ts (l ++ [(t, op, r)]) = total_refs rc start ts l + dref rc op).
  { apply total_snoc. exact Dt. }
  assert (RS : forall u, R u (l ++ [(t, op, r)]) = R u l + if Nat.eqb t u then dref rc op else 0) by (intros u; apply refs_snoc).
  assert (TO : forall u, told_last rc (proj u (l ++ [(t, op, r)])) = told_last rc (proj u l) || (if Nat.eqb t u then told_last rc [(op, r)] else false)).
  { intros u. rewrite proj_snoc, told_app. destruct (Nat.eqb t u); reflexivity. }
  unfold rinv. rewrite TS, teller_snoc.
  assert (A1 : forall u, 0 <= R u (l ++ [(t, op, r)])).
  { intros u. rewrite RS. specialize (I1 u). destruct (Nat.eqb_spec t u) as [->|]; [|lia].
    destruct (cases _ _ _ Ec) as [(N1 & _)|[->|[(md & k & -> & _ & Q & Q')|(k & -> & Q)]]]; [rewrite (proj1 (quiet op r (or_introl N1)))|cbn|cbn [dref]; rewrite Z.eqb_refl|cbn [dref]; rewrite Z.eqb_refl]; try lia.
    fold (R u l) in Q. lia. }
  assert (A2 : forall u, ~ In u ts -> R u (l ++ [(t, op, r)]) = 0).
  { intros u N. rewrite RS, (I2 u N). destruct (Nat.eqb_spec t u) as [->|]; [rewrite (Dt N)|]; reflexivity. }
  split; [exact A1|]. split; [exact A2|].
  assert (QU : opw op <> rc \/ op = ARead rc -> f rc = total_refs rc start ts l + dref rc op /\ (forall u, told_last rc (proj u (l ++ [(t, op, r)])) = true <-> (match teller rc l with Some u => Some u | None => if told_last rc [(op, r)] then Some t else None end) = Some u) /\
            (forall u, (match teller rc l with Some u => Some u | None => if told_last rc [(op, r)] then Some t else None end) = Some u -> total_refs rc start ts l + dref rc op = 0)).
  { intros Q. destruct (quiet op r Q) as (D0 & T0). rewrite Ef, (quiet_f op f1 Q), D0, T0, Z.add_0_r. split; [exact I3|]. split.
    - intros u. rewrite TO, T0. replace (if Nat.eqb t u then false else false) with false by (destruct (Nat.eqb t u); reflexivity). rewrite orb_false_r. rewrite I4. destruct (teller rc l); reflexivity.
    - intros u Q1. apply (I5 u). destruct (teller rc l); [exact Q1|discriminate Q1]. }
  destruct (cases _ _ _ Ec) as [(N1 & _)|[->|[(md & k & -> & T0 & Q & Q')|(k & -> & Q)]]]; [apply QU; left; exact N1|apply QU; right; reflexivity| |].
  + fold (R t l) in Q. assert (It : In t ts) by (destruct (in_dec Nat.eq_dec t ts) as [i|n]; [exact i|specialize (I2 _ n); lia]).
    specialize (P2 _ It). cbn [dref]. cbn [dref] in TS. rewrite Z.eqb_refl in *.
    assert (TN : teller rc l = None) by (destruct (teller rc l) as [u|] eqn:Et; [specialize (I5 _ eq_refl); lia|reflexivity]).
    rewrite TN. assert (T1 : told_last rc [(ARmw KAdd md rc k, r)] = false) by (destruct md, r; reflexivity). rewrite T1 in TO |- *.
    assert (NX : total_refs rc start ts (l ++ [(t, ARmw KAdd md rc k, r)]) < 2 ^ 64) by exact NX0.
    rewrite TS in NX. split; [|split; [|discriminate]].
    * rewrite Ef. cbn [atspec fst]. unfold upd. rewrite Z.eqb_refl. cbn [arith]. rewrite I3. apply Z.mod_small. lia.
    * intros u. rewrite TO. replace (if Nat.eqb t u then false else false) with false by (destruct (Nat.eqb t u); reflexivity). rewrite orb_false_r, I4, TN. reflexivity.
  + fold (R t l) in Q. assert (It : In t ts) by (destruct (in_dec Nat.eq_dec t ts) as [i|n]; [exact i|specialize (I2 _ n); lia]).
    specialize (P2 _ It). cbn [dref]. cbn [dref] in TS. rewrite Z.eqb_refl in *.
    assert (TN : teller rc l = None) by (destruct (teller rc l) as [u|] eqn:Et; [specialize (I5 _ eq_refl); lia|reflexivity]).
    rewrite TN. cbn [atspec snd] in Er. subst r. assert (T1 : told_last rc [(ARmw KSub MOld rc k, RVal (f1 rc))] = (total_refs rc start ts l =? k)) by (cbn; rewrite Z.eqb_refl, I3; apply orb_false_r).
    rewrite T1 in TO |- *. split; [|split].
    * rewrite Ef. cbn [atspec fst]. unfold upd. rewrite Z.eqb_refl. cbn [arith]. rewrite I3. rewrite Z.mod_small; lia.
    * intros u. rewrite TO. destruct (told_last rc (proj u l)) eqn:Tu; [apply I4 in Tu; congruence|]. cbn [orb]. destruct (Nat.eqb_spec t u) as [->|N].
      -- destruct (total_refs rc start ts l =? k); split; congruence.
      -- destruct (total_refs rc start ts l =? k); split; congruence.
    * intros u. destruct (Z.eqb_spec (total_refs rc start ts l) k); [intros _; lia|discriminate].
Qed.
Lemma rinv_read : forall l f t r, rinv l f -> rinv (l ++ [(t, ARead rc, r)]) f.
Proof.
  intros l f t r (I1 & I2 & I3 & I4 & I5).
  assert (RS : forall u, R u (l ++ [(t, ARead rc, r)]) = R u l) by (intros u; unfold R; rewrite refs_snoc; cbn [dref]; destruct (Nat.eqb t u); lia).
  assert (TS : total_refs rc start ts (l ++ [(t, ARead rc, r)]) = total_refs rc start ts l) by (rewrite total_snoc; [cbn [dref]; lia|reflexivity]).
  assert (TE : teller rc (l ++ [(t, ARead rc, r)]) = teller rc l) by (rewrite teller_snoc; cbn; destruct (teller rc l); reflexivity).
  unfold rinv. rewrite TS, TE. split; [intros u; rewrite RS; apply I1|]. split; [intros u; rewrite RS; apply I2|]. split; [exact I3|]. split; [|exact I5].
  intros u. rewrite <- I4, proj_snoc, told_app. destruct (Nat.eqb t u); cbn; rewrite orb_false_r; reflexivity.
Qed.
Lemma rinv_start : rinv [] f0.
Proof. unfold rinv, R. cbn [proj refs teller]. split; [exact S0|]. split; [exact S1|]. split; [exact F0|]. split; [intros t; split; discriminate|discriminate]. Qed.
Definition ref_own : ownership := fun l w =>
  if w =? rc then None else match teller rc l with Some t => Some t | None => if 0 <? R (writer w) l then Some (writer w) else None end.
Lemma ref_strict : forall l f t op, rinv l f -> c t (proj t l) = Some op ->
  (if opw op =? rc then ~ is_store op else ref_own l (opw op) = Some t) /\
  forall r, r = snd (atspec op f) \/ op = ARead rc -> forall w, ref_own (l ++ [(t, op, r)]) w = ref_own l w \/
    (fence op r /\ ((ref_own l w = None /\ ref_own (l ++ [(t, op, r)]) w = Some t) \/ (ref_own l w = Some t /\ ref_own (l ++ [(t, op, r)]) w = None))).
Proof.
  intros l f t op (I1 & I2 & I3 & I4 & I5) Ec.
  destruct (sum_pos (fun t => R t l) ts I1) as (P1 & P2 & P3). change (fold_right Z.add 0 (map (fun t => R t l) ts)) with (total_refs rc start ts l) in P1, P2, P3.
  assert (IN : forall u, 0 < R u l -> In u ts) by (intros u Q; destruct (in_dec Nat.eq_dec u ts) as [i|n]; [exact i|specialize (I2 _ n); lia]).
  assert (TN : forall u, 0 < R u l -> teller rc l = None) by (intros u Q; destruct (teller rc l) as [x|] eqn:Et; [specialize (I5 _ eq_refl); specialize (P2 _ (IN _ Q)); lia|reflexivity]).
  split.
  - destruct (cases _ _ _ Ec) as [(N & M)|[->|[(md & k & -> & _)|(k & -> & _)]]]; [|cbn [opw]; rewrite Z.eqb_refl; intros [] ..].
    apply Z.eqb_neq in N. unfold ref_own. rewrite N. destruct M as [M|(M1 & M2)]; [apply I4 in M; rewrite M; reflexivity|]. fold (R t l) in M2. rewrite M1, (TN _ M2). apply Z.ltb_lt in M2. rewrite M2. reflexivity.
  - intros r RR w. unfold ref_own. destruct (w =? rc); [left; reflexivity|]. rewrite teller_snoc.
    change (R (writer w) (l ++ [(t, op, r)])) with (refs rc (proj (writer w) (l ++ [(t, op, r)])) (start (writer w))).
    rewrite refs_snoc. fold (R (writer w) l).
    assert (QU : opw op <> rc \/ op = ARead rc -> (match match teller rc l with Some u => Some u | None => if told_last rc [(op, r)] then Some t else None end with
        | Some t0 => Some t0 | None => if 0 <? R (writer w) l + (if Nat.eqb t (writer w) then dref rc op else 0) then Some (writer w) else None end) =
        match teller rc l with Some t0 => Some t0 | None => if 0 <? R (writer w) l then Some (writer w) else None end).
    { intros Q. destruct (quiet op r Q) as (-> & ->). replace (if Nat.eqb t (writer w) then 0 else 0) with 0 by (destruct (Nat.eqb t (writer w)); reflexivity). rewrite Z.add_0_r. destruct (teller rc l); reflexivity. }
    destruct (cases _ _ _ Ec) as [(N & M)|[->|[(md & k & -> & _ & Q & Q')|(k & -> & Q)]]]; [left; apply QU; left; exact N|left; apply QU; right; reflexivity| |].
    + fold (R t l) in Q. left. rewrite (TN _ Q). assert (T1 : told_last rc [(ARmw KAdd md rc k, r)] = false) by (destruct md, r; reflexivity). rewrite T1. cbn [dref]. rewrite Z.eqb_refl.
      destruct (Nat.eqb_spec t (writer w)) as [<-|N]; [|rewrite Z.add_0_r; reflexivity]. destruct (Z.ltb_spec 0 (R t l + k)); [|lia]. apply Z.ltb_lt in Q. rewrite Q. reflexivity.
    + destruct RR as [->|RR]; [|discriminate RR]. fold (R t l) in Q. assert (Q0 : 0 < R t l) by lia. rewrite (TN _ Q0). cbn [atspec snd dref fence]. rewrite Z.eqb_refl. cbn [told_last existsb]. rewrite Z.eqb_refl. cbn [andb orb]. rewrite orb_false_r, I3.
      destruct (Nat.eqb_spec t (writer w)) as [<-|N].
      * destruct (Z.ltb_spec 0 (R t l)); [|lia]. destruct (total_refs rc start ts l =? k); [left; reflexivity|]. destruct (0 <? R t l + - k); [left; reflexivity|]. right. split; [exact Logic.I|]. right. split; reflexivity.
      * rewrite Z.add_0_r. destruct (Z.eqb_spec (total_refs rc start ts l) k) as [e|_]; [|left; reflexivity]. right. split; [exact Logic.I|]. left. split; [|reflexivity].
        destruct (Z.ltb_spec 0 (R (writer w) l)) as [Z1|]; [|reflexivity]. specialize (P3 ND t (writer w) (IN _ Q0) (IN _ Z1) N). lia.
Qed.
Hypothesis NO : forall l f, issued c l -> explains f0 l f -> total_refs rc start ts l < 2 ^ 64.
Lemma rinv_ok : forall l, issued c l -> forall f, explains f0 l f -> rinv l f.
Proof.
  intros l IS. induction IS as [|l t op r IS IH Ec]; intros f X.
  - assert (Ef : f = f0) by (inversion X; reflexivity). rewrite Ef. exact rinv_start.
  - pose proof (NO _ _ (is_snoc _ _ _ _ _ IS Ec) X) as NX. destruct (explains_app _ _ _ _ X) as (f1 & X1 & X2). specialize (IH _ X1). pose proof (NO _ _ IS X1) as Lt. inversion X2 as [|? ? ? ? ? f' ? E X3]; subst. inversion X3; subst.
    assert (Ef : f = fst (atspec op f1)) by (rewrite E; reflexivity). assert (Er : r = snd (atspec op f1)) by (rewrite E; reflexivity). rewrite Er in NX |- *. rewrite Ef. apply rinv_step; assumption.
Qed.
Lemma ref_respects : respects (fun w => w =? rc) ref_own c f0.
Proof.
  intros l f t op IS X Ec. destruct (ref_strict l f t op (rinv_ok l IS f X) Ec) as (A & B). split; [exact A|]. intros w.
  destruct (B _ (or_introl eq_refl) w) as [Q|(Q & [(Q1 & _)|(Q1 & _)])]; [left; exact Q|right; left; exact Q1|right; right; split; assumption].
Qed.
End Ref.

(** ** C119.  Threads that share an object through a bfdev_refcnt counter, each writing its own words of it with plain stores while it has references, and
    giving them back with bfdev_refcnt_fetch_sub_test: at most one is ever told that it gave back the last, and from then on it sees the
    values last stored in all words, those of the other threads included; all its loads return them ([explains]). *)
Theorem C119_last_sees : forall weak c m f sched rc writer start ts,
  client_ok (zlen m) c -> Forall u64v m -> agrees m f -> counted rc writer start c ->
  NoDup ts -> (forall t, 0 <= start t) -> (forall t, ~ In t ts -> start t = 0) -> f rc = total_refs rc start ts [] ->
  (forall l f', issued c l -> explains f l f' -> total_refs rc start ts l < 2 ^ 64) ->
  exists s f', brun weak c sched (binit m) = Some s /\ explains f (blog s) f' /\ issued c (blog s) /\ (forall t, bhist s t = proj t (blog s)) /\
    f' rc = total_refs rc start ts (blog s) /\
    (forall t u, told_last rc (bhist s t) = true -> told_last rc (bhist s u) = true -> t = u) /\
    (forall t, told_last rc (bhist s t) = true -> (forall u, refs rc (bhist s u) (start u) = 0) /\
      forall w, 0 <= w < zlen m -> w <> rc -> rd (view (bmem s) (bbuf s t)) w = Some (f' w)).
Proof.
  intros weak c m f sched rc writer start ts CO W A CN ND S0 S1 F0 NO.
  destruct (C118_ownership weak _ _ c m f sched CO W A (ref_respects c rc writer start ts f CN ND S0 S1 F0 NO)) as (s & f' & E & X & IS & H & V).
  destruct (rinv_ok c rc writer start ts f CN ND S0 S1 F0 NO (blog s) IS f' X) as (I1 & I2 & I3 & I4 & I5).
  exists s, f'. split; [exact E|]. split; [exact X|]. split; [exact IS|]. split; [exact H|]. split; [exact I3|]. split.
  - intros t u Ht Hu. rewrite H in Ht, Hu. apply I4 in Ht, Hu. congruence.
  - intros t Ht. rewrite H in Ht. apply I4 in Ht. pose proof (I5 _ Ht) as T0. split.
    + intros u. rewrite H. destruct (in_dec Nat.eq_dec u ts) as [i|n]; [|apply I2; exact n].
      destruct (sum_pos (fun t => refs rc (proj t (blog s)) (start t)) ts I1) as (P1 & P2 & _). specialize (P2 _ i). unfold total_refs in T0. specialize (I1 u). cbv beta in P2. lia.
    + intros w Hw N. specialize (V w Hw). unfold ref_own in V. apply Z.eqb_neq in N. rewrite N, Ht in V. exact V.
Qed.
(** two threads with one reference each; both store into their word and give the reference back, the last one adds up *)
Definition two_owners : client := fun t h =>
  if Nat.ltb t 2 then
    match h with
    | [] => Some (AWrite (1 + Z.of_nat t) 7)
    | [(AWrite _ _, _)] => Some (ARmw KSub MOld 0 1)
    | [(AWrite _ _, _); (ARmw KSub MOld 0 1, RVal 1)] => Some (ARead 1)
    | [(AWrite _ _, _); (ARmw KSub MOld 0 1, RVal 1); _] => Some (ARead 2)
    | _ => None
    end
  else None.
Lemma two_owners_ops : forall t h op, two_owners t h = Some op -> (t < 2)%nat /\
  ((h = [] /\ op = AWrite (1 + Z.of_nat t) 7) \/ ((exists w v r, h = [(AWrite w v, r)]) /\ op = ARmw KSub MOld 0 1) \/ (told_last 0 h = true /\ (op = ARead 1 \/ op = ARead 2))).
Proof.
  intros t h op. unfold two_owners. destruct (Nat.ltb_spec t 2) as [L|]; [|discriminate]. intros Q. split; [exact L|].
  destruct h as [|[o1 r1] h]; [injection Q as <-; left; split; reflexivity|]. right. destruct o1; try discriminate Q. destruct h as [|[o2 r2] h]; [injection Q as <-; left; split; [eexists _, _, _; reflexivity|reflexivity]|]. right.
  repeat match type of Q with Some _ = Some _ => fail 1 | context [match ?x with _ => _ end] => is_var x; destruct x; try discriminate Q end; injection Q as <-; cbn; auto.
Qed.
Example C119_last_sees_case : let start t := if Nat.ltb t 2 then 1 else 0 in let writer w := if w =? 1 then 0%nat else 1%nat in
  client_ok 3 two_owners /\ counted 0 writer start two_owners /\ NoDup [0; 1]%nat /\ (forall t, ~ In t [0; 1]%nat -> start t = 0) /\ 2 = total_refs 0 start [0; 1]%nat [] /\
  (forall l, issued two_owners l -> total_refs 0 start [0; 1]%nat l < 2 ^ 64) /\
  match brun true two_owners [Go 0; Go 1; Go 0; Drain 0 0; Go 0; Go 1; Drain 1 0; Go 1; Go 1; Go 1]%nat (binit [2; 0; 0]) with
  | Some s => bhist s 0%nat = [(AWrite 1 7, RVoid); (ARmw KSub MOld 0 1, RVal 2)] /\ bhist s 1%nat = [(AWrite 2 7, RVoid); (ARmw KSub MOld 0 1, RVal 1); (ARead 1, RVal 7); (ARead 2, RVal 7)]
  | None => False
  end.
Proof.
  intros start writer. split; [|split; [|split; [|split; [|split; [|split]]]]].
  - intros t h op E. destruct (two_owners_ops _ _ _ E) as (L & [(_ & ->)|[(_ & ->)|(_ & [-> | ->])]]); cbn [op_ok]; unfold u64v; lia.
  - intros t h op E. destruct (two_owners_ops _ _ _ E) as (L & [(-> & ->)|[((w & v & r & ->) & ->)|(T & [-> | ->])]]).
    + cbn [opw refs]. split; [lia|]. right. unfold writer, start. destruct t as [|[|t]]; [split; reflexivity|split; reflexivity|lia].
    + left. split; [reflexivity|]. split; [reflexivity|]. cbn [refs]. unfold start. destruct (Nat.ltb_spec t 2); lia.
    + right. left. exact T.
    + right. left. exact T.
  - repeat constructor; cbn; intuition discriminate.
  - intros t N. unfold start. destruct (Nat.ltb_spec t 2); [|reflexivity]. exfalso. apply N. cbn. lia.
  - reflexivity.
  - intros l IS. assert (B : forall u, refs 0 (proj u l) (start u) <= 1).
    { induction IS as [|l t op r IS IH Ec]; intros u; [cbn; unfold start; destruct (Nat.ltb u 2); lia|]. rewrite refs_snoc. specialize (IH u).
      destruct (two_owners_ops _ _ _ Ec) as (L & [(_ & ->)|[(_ & ->)|(_ & [-> | ->])]]); cbn; destruct (Nat.eqb t u); lia. }
    unfold total_refs. cbn [map fold_right]. pose proof (B 0%nat). pose proof (B 1%nat). lia.
  - vm_compute. repeat split.
Qed.
(** ** A thread that gives its reference back with a plain load and store instead: the one told last misses its data *)
Definition plain_drop : client := fun t h =>
  match t, h with
  | 0%nat, [] => Some (AWrite 1 7)
  | 0%nat, [_] => Some (ARead 0)
  | 0%nat, [_; (_, RVal 2)] => Some (AWrite 0 1)
  | 1%nat, [] => Some (ARmw KSub MOld 0 1)
  | 1%nat, [(_, RVal 1)] => Some (ARead 1)
  | _, _ => None
  end.
Theorem C119_plain_drop_refuted : exists c m f sched s, client_ok (zlen m) c /\ Forall u64v m /\ agrees m f /\ f 0 = 2 /\
  brun true c sched (binit m) = Some s /\ told_last 0 (bhist s 1%nat) = true /\ In (0%nat, AWrite 1 7, RVoid) (blog s) /\ (exists l, blog s = l ++ [(1%nat, ARead 1, RVal 0)]) /\
  ~ exists f', explains f (blog s) f'.
Proof.
  set (sched := [Go 0; Go 0; Go 0; Drain 0 1; Go 1; Go 1]%nat).
  assert (E : exists s, brun true plain_drop sched (binit [2; 0]) = Some s /\ told_last 0 (bhist s 1%nat) = true /\
            blog s = [(0%nat, AWrite 1 7, RVoid); (0%nat, ARead 0, RVal 2); (0%nat, AWrite 0 1, RVoid); (1%nat, ARmw KSub MOld 0 1, RVal 1); (1%nat, ARead 1, RVal 0)]) by (eexists; vm_compute; repeat split).
  destruct E as (s & E & T & L). exists plain_drop, [2; 0], (fun w => if w =? 0 then 2 else 0), sched, s. split; [|split; [|split; [|split; [reflexivity|split; [exact E|split; [exact T|]]]]]].
  - intros t h op. unfold plain_drop. intros Q.
    repeat match type of Q with Some _ = Some _ => fail 1 | context [match ?x with _ => _ end] => is_var x; destruct x; try discriminate Q end; injection Q as <-; unfold op_ok, u64v, zlen; cbn [length]; lia.
  - repeat constructor; unfold u64v; lia.
  - intros w Hw. change (zlen [2; 0]) with 2 in Hw. assert (w = 0 \/ w = 1) as [-> | ->] by lia; reflexivity.
  - rewrite L. split; [left; reflexivity|]. split; [eexists [_; _; _; _]; reflexivity|]. intros (f' & X). apply replayed in X. destruct X as (_ & _ & _ & _ & X & _). vm_compute in X. discriminate X.
Qed.
Print Assumptions C119_last_sees.
Print Assumptions C119_plain_drop_refuted.
