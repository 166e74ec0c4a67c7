(** * Caches: histories *)
From Verif Require Import Lib BitsModel BloomModel HashmapModel Ptr ListModel ListSpec ListProofs ListProofs2.
From Verif Require Import CacheModel CacheSpec CacheProofs CacheOps.

Lemma lives_app n : forall h i l e, lives n i l (h ++ [e]) = life_step n (i + length h) (lives n i l h) e.
Proof. induction h as [|x h IH]; intros i l e; cbn [app lives length]; [rewrite Nat.add_0_r; reflexivity|]. rewrite IH, Nat.add_succ_r. reflexivity. Qed.
Lemma life_snoc h n e : life_of (h ++ [e]) n = life_step n (length h) (life_of h n) e.
Proof. unfold life_of. rewrite lives_app. reflexivity. Qed.
Notation newer L := (fun a b => (l_last (L b) < l_last (L a))%nat).
Lemma ss_ext (L M : Z -> life) l : (forall x, In x l -> L x = M x) -> StronglySorted (newer L) l -> StronglySorted (newer M) l.
Proof.
  intros H S1. induction S1 as [|a l S1 IH F]; constructor; [apply IH; intros x Hx; apply H; right; exact Hx|]. rewrite Forall_forall in *. intros x Hx. rewrite <- (H a), <- (H x); [apply F, Hx|right; exact Hx|left; reflexivity].
Qed.
Lemma ss_wo (L : Z -> life) l1 x l2 : StronglySorted (newer L) (l1 ++ x :: l2) -> StronglySorted (newer L) (l1 ++ l2).
Proof.
  induction l1 as [|a l1 IH]; cbn [app]; intros H; inversion_clear H as [|? ? S1 F]; [exact S1|]. constructor; [apply IH, S1|]. rewrite Forall_forall in *. intros y Hy. apply F, in_wo, Hy.
Qed.

Section Hist.
Variable cf : conf.
Notation U := (c_nodes cf).
Hypothesis NDU : NoDup U.
Hypothesis NU : ~ In NULL U.
Variable victim : policy.
Notation cstep := (cstep (c_maxpend cf) U victim).
Notation sane := (sane cf).

(** What is known of each node from the past. *)
Record known (L : Z -> life) (len : nat) (s : cs) : Prop := {
  n_tag : forall n, In n (live s) -> l_tag (L n) = Some (s_tag s n);
  n_none : forall n, n <> NULL -> ~ In n (live s) -> l_tag (L n) = None;
  n_pend : forall n, In n (live s) -> (l_pend (L n) = true <-> In n (s_pend s));
  n_refs : forall n, In n U -> l_refs (L n) = s_refs s n;
  n_uses : forall n, In n (live s) -> l_uses (L n) = s_uses s n;
  n_last : forall n, In n (s_idle s) -> (l_last (L n) < len)%nat;
  n_sort : StronglySorted (newer L) (s_idle s) }.
Lemma known_same L L' len s s' : known L len s -> incl (live s) U -> (forall n, In n U -> n <> NULL) -> (forall x, x <> NULL -> L' x = L x) -> s_pend s' = s_pend s -> s_busy s' = s_busy s -> s_idle s' = s_idle s -> s_tag s' = s_tag s -> s_refs s' = s_refs s -> s_uses s' = s_uses s -> known L' (S len) s'.
Proof.
  intros [A B C D E F G] HI HN HL E1 E2 E3 E4 E5 E6. assert (EL : live s' = live s) by (unfold live; congruence). constructor; rewrite ?EL, ?E1, ?E3, ?E4, ?E5, ?E6.
  - intros n Hn. rewrite (HL n (HN n (HI n Hn))). apply A, Hn.
  - intros n Hn Nn. rewrite (HL n Hn). apply B; assumption.
  - intros n Hn. rewrite (HL n (HN n (HI n Hn))). apply C, Hn.
  - intros n Hn. rewrite (HL n (HN n Hn)). apply D, Hn.
  - intros n Hn. rewrite (HL n (HN n (HI n Hn))). apply E, Hn.
  - intros n Hn. rewrite (HL n). + apply F in Hn. lia. + apply HN, HI. unfold live. rewrite !in_app_iff. tauto.
  - revert G. apply ss_ext. intros x Hx. symmetry. apply HL, HN, HI. unfold live. rewrite !in_app_iff. tauto.
Qed.
Lemma known_one L L' len s s' n : known L len s -> In n U ->
  (n <> NULL) -> (forall x, x <> n -> (In x (live s') <-> In x (live s)) /\ (In x (s_pend s') <-> In x (s_pend s)) /\ s_tag s' x = s_tag s x /\ s_refs s' x = s_refs s x /\ s_uses s' x = s_uses s x /\ L' x = L x) ->
  (In n (live s') -> l_tag (L' n) = Some (s_tag s' n) /\ (l_pend (L' n) = true <-> In n (s_pend s')) /\ l_uses (L' n) = s_uses s' n) -> (~ In n (live s') -> l_tag (L' n) = None) -> l_refs (L' n) = s_refs s' n ->
  ((~ In n (s_idle s') /\ incl (s_idle s') (s_idle s) /\ StronglySorted (newer L) (s_idle s')) \/
   (exists r, s_idle s' = n :: r /\ ~ In n r /\ incl r (s_idle s) /\ StronglySorted (newer L) r /\ l_last (L' n) = len)) -> known L' (S len) s'.
Proof.
  intros [A B C D E F G] Un Nn HO H1 H2 H3 HI. constructor.
  - intros x Hx. destruct (Z.eq_dec x n) as [->|N]; [apply H1, Hx|]. destruct (HO x N) as (O1 & O2 & O3 & O4 & O5 & O6). rewrite O6, O3. apply A, O1, Hx.
  - intros x Ux Hx. destruct (Z.eq_dec x n) as [->|N]; [apply H2, Hx|]. destruct (HO x N) as (O1 & O2 & O3 & O4 & O5 & O6). rewrite O6. apply B; tauto.
  - intros x Hx. destruct (Z.eq_dec x n) as [->|N]; [apply H1, Hx|]. destruct (HO x N) as (O1 & O2 & O3 & O4 & O5 & O6). rewrite O6, O2. apply C, O1, Hx.
  - intros x Ux. destruct (Z.eq_dec x n) as [->|N]; [apply H3|]. destruct (HO x N) as (O1 & O2 & O3 & O4 & O5 & O6). rewrite O6, O4. apply D, Ux.
  - intros x Hx. destruct (Z.eq_dec x n) as [->|N]; [apply H1, Hx|]. destruct (HO x N) as (O1 & O2 & O3 & O4 & O5 & O6). rewrite O6, O5. apply E, O1, Hx.
  - intros x Hx. destruct HI as [(I1 & I2 & I3)|(r & Er & I1 & I2 & I3 & I4)].
    + assert (N : x <> n) by (intros ->; contradiction). destruct (HO x N) as (_ & _ & _ & _ & _ & O6). rewrite O6. specialize (F x (I2 x Hx)). lia.
    + rewrite Er in Hx. destruct Hx as [<-|Hx]; [lia|]. assert (N : x <> n) by (intros ->; contradiction). destruct (HO x N) as (_ & _ & _ & _ & _ & O6). rewrite O6. specialize (F x (I2 x Hx)). lia.
  - destruct HI as [(I1 & I2 & I3)|(r & Er & I1 & I2 & I3 & I4)].
    + revert I3. apply ss_ext. intros x Hx. symmetry. apply HO. intros ->. contradiction.
    + rewrite Er. assert (Q : forall x, In x r -> L' x = L x) by (intros x Hx; apply HO; intros ->; contradiction). constructor.
      * revert I3. apply ss_ext. intros x Hx. symmetry. apply Q, Hx.
      * apply Forall_forall. intros x Hx. rewrite (Q x Hx), I4. apply F, I2, Hx.
Qed.
Ltac ne H := rewrite (proj2 (Z.eqb_neq _ _) H); cbn [negb orb andb].
Ltac lv := rewrite ?in_live in *; kred; repeat (rewrite ?in_app_iff in *; cbn [In] in *); intuition congruence.
Theorem known_step L len s s' o r : sane s -> sane s' -> callowed s o -> cstep s o r s' -> known L len s -> known (fun n => life_step n len (L n) (o, r)) (S len) s'.
Proof.
  intros SA SA' Ha Hc HK. pose proof HK as [A B C D E F G]. assert (LU : incl (live s) U) by (intros x Hx; apply (live_U cf s x SA Hx)).
  assert (NN : forall x, x <> NULL -> (NULL =? x) = false) by (intros x Hx; apply Z.eqb_neq; congruence). assert (UN : forall x, In x U -> x <> NULL) by (intros x Hx ->; contradiction).
  destruct Hc; try (eapply known_same; [exact HK|exact LU|exact UN|intros x Hx; cbn [life_step]; rewrite ?(NN x Hx); cbn [negb]; try reflexivity|reflexivity..]).
  - (* early *) assert (Hl : In n (live s)) by lv. assert (Un := LU n Hl). destruct (dj cf NDU s SA n) as (D1 & D2 & D3 & D4). destruct (D2 H0) as [Nb Ni]. apply (known_one L _ len s _ n HK Un (UN n Un)); kred.
    + intros x N. rewrite put_at_other by exact N. assert (N' : n <> x) by congruence. cbn [life_step]. ne N'. repeat split; lv.
    + intros _. cbn [life_step]. rewrite Z.eqb_refl. cbn [negb]. rewrite (A n Hl). cbn [same_tag]. rewrite H1, Z.eqb_refl. cbn [negb l_tag l_pend l_uses]. split; [reflexivity|]. split; [apply C, Hl|]. rewrite (proj2 (C n Hl) H0). apply E, Hl.
    + intros X. exfalso. apply X. lv.
    + cbn [life_step]. rewrite Z.eqb_refl. cbn [negb]. rewrite (A n Hl). cbn [same_tag]. rewrite H1, Z.eqb_refl. cbn [negb l_refs]. rewrite put_at_same, (D n Un). reflexivity.
    + left. split; [exact Ni|]. split; [apply incl_refl|exact G].
  - (* busy *) assert (Hb : In n (s_busy s)) by (rewrite H0; apply in_mid). assert (Hl : In n (live s)) by lv. assert (Un := LU n Hl). destruct (dj cf NDU s SA n) as (D1 & D2 & D3 & D4). destruct (D3 Hb) as [Np Ni]. apply (known_one L _ len s _ n HK Un (UN n Un)); kred.
    + intros x N. rewrite !put_at_other by exact N. assert (N' : n <> x) by congruence. cbn [life_step]. ne N'. rewrite !in_live. kred. rewrite H0. repeat split; lv.
    + intros _. cbn [life_step]. rewrite Z.eqb_refl. cbn [negb]. rewrite (A n Hl). cbn [same_tag]. rewrite H1, Z.eqb_refl. cbn [negb l_tag l_pend l_uses]. rewrite put_at_same. split; [reflexivity|]. split; [apply C, Hl|]. destruct (l_pend (L n)) eqn:Ep; [exfalso; apply Np, (C n Hl); exact Ep|]. rewrite (E n Hl). reflexivity.
    + intros X. exfalso. apply X. lv.
    + cbn [life_step]. rewrite Z.eqb_refl. cbn [negb]. rewrite (A n Hl). cbn [same_tag]. rewrite H1, Z.eqb_refl. cbn [negb l_refs]. rewrite put_at_same, (D n Un). reflexivity.
    + left. split; [exact Ni|]. split; [apply incl_refl|exact G].
  - (* idle *) assert (Hb : In n (s_idle s)) by (rewrite H0; apply in_mid). assert (Hl : In n (live s)) by lv. assert (Un := LU n Hl). destruct (dj cf NDU s SA n) as (D1 & D2 & D3 & D4). destruct (D4 Hb) as [Np Nb]. pose proof (dj_in cf NDU s l1 n l2 (s_idle s) SA H0 ltac:(tauto)) as Nr. apply (known_one L _ len s _ n HK Un (UN n Un)); kred.
    + intros x N. rewrite !put_at_other by exact N. assert (N' : n <> x) by congruence. cbn [life_step]. ne N'. rewrite !in_live. kred. rewrite H0. repeat split; lv.
    + intros _. cbn [life_step]. rewrite Z.eqb_refl. cbn [negb]. rewrite (A n Hl). cbn [same_tag]. rewrite H1, Z.eqb_refl. cbn [negb l_tag l_pend l_uses]. rewrite put_at_same. split; [reflexivity|]. split; [apply C, Hl|]. destruct (l_pend (L n)) eqn:Ep; [exfalso; apply Np, (C n Hl); exact Ep|]. rewrite (E n Hl). reflexivity.
    + intros X. exfalso. apply X. lv.
    + cbn [life_step]. rewrite Z.eqb_refl. cbn [negb]. rewrite (A n Hl). cbn [same_tag]. rewrite H1, Z.eqb_refl. cbn [negb l_refs]. rewrite put_at_same, (D n Un), (i_zero cf s SA n) by (apply in_or_app; right; exact Hb). reflexivity.
    + left. split; [exact Nr|]. rewrite H0 in G. split; [intros x Hx; rewrite H0; apply in_wo, Hx|apply (ss_wo _ _ _ _ G)].
  - (* a free node *) assert (Hf : In n (s_free s)) by (rewrite H3; left; reflexivity). destruct (dj cf NDU s SA n) as (D1 & D2 & D3 & D4). pose proof (D1 Hf) as Nl. assert (Un : In n U) by (apply (in_U cf s n SA), in_or_app; left; exact Hf).
    assert (Et : same_tag (l_tag (L n)) t = false) by (rewrite (B n (UN n Un) Nl); reflexivity). apply (known_one L _ len s _ n HK Un (UN n Un)); kred.
    + intros x N. rewrite !put_at_other by exact N. assert (N' : n <> x) by congruence. cbn [life_step]. ne N'. repeat split; lv.
    + intros _. cbn [life_step]. rewrite Z.eqb_refl, Et. cbn [negb l_tag l_pend l_uses]. rewrite !put_at_same. split; [reflexivity|]. split; [|reflexivity]. split; [intros _; left; reflexivity|reflexivity].
    + intros X. exfalso. apply X. lv.
    + cbn [life_step]. rewrite Z.eqb_refl, Et. cbn [negb l_refs]. rewrite put_at_same. reflexivity.
    + left. split; [intros X; apply Nl; lv|]. split; [apply incl_refl|exact G].
  - (* eviction *) assert (Hb : In n (s_idle s)) by (rewrite H4; apply in_mid). assert (Hl : In n (live s)) by lv. assert (Un := LU n Hl). pose proof (dj_in cf NDU s l1 n l2 (s_idle s) SA H4 ltac:(tauto)) as Nr.
    assert (Et : same_tag (l_tag (L n)) t = false) by (rewrite (A n Hl); cbn [same_tag]; apply Z.eqb_neq, H0, Hl). apply (known_one L _ len s _ n HK Un (UN n Un)); kred.
    + intros x N. rewrite !put_at_other by exact N. assert (N' : n <> x) by congruence. cbn [life_step]. ne N'. rewrite !in_live. kred. rewrite H4. repeat split; lv.
    + intros _. cbn [life_step]. rewrite Z.eqb_refl, Et. cbn [negb l_tag l_pend l_uses]. rewrite !put_at_same. split; [reflexivity|]. split; [|reflexivity]. split; [intros _; left; reflexivity|reflexivity].
    + intros X. exfalso. apply X. lv.
    + cbn [life_step]. rewrite Z.eqb_refl, Et. cbn [negb l_refs]. rewrite put_at_same. reflexivity.
    + left. split; [exact Nr|]. rewrite H4 in G. split; [intros x Hx; rewrite H4; apply in_wo, Hx|apply (ss_wo _ _ _ _ G)].
  - (* put *) assert (Hl : In n (live s)) by lv. assert (Un := LU n Hl). destruct (dj cf NDU s SA n) as (D1 & D2 & D3 & D4). destruct (D3 H) as [Np Ni]. pose proof (i_pos cf s SA n ltac:(apply in_or_app; right; exact H)) as Hp.
    assert (Er : (2 ^ 63 <=? s_refs s n - 1) = false) by (apply Z.leb_gt; lia). assert (Er0 : (s_refs s n - 1 =? 0) = false) by (apply Z.eqb_neq; lia). apply (known_one L _ len s _ n HK Un (UN n Un)); kred.
    + intros x N. rewrite !put_at_other by exact N. assert (N' : n <> x) by congruence. cbn [life_step]. ne N'. repeat split; lv.
    + intros _. cbn [life_step]. rewrite Z.eqb_refl, Er. cbn [negb orb l_tag l_pend l_uses]. split; [apply A, Hl|]. split; [apply C, Hl|apply E, Hl].
    + intros X. exfalso. apply X. lv.
    + cbn [life_step]. rewrite Z.eqb_refl, Er. cbn [negb orb l_refs]. rewrite put_at_same, (D n Un). reflexivity.
    + left. split; [exact Ni|]. split; [apply incl_refl|exact G].
  - (* the last reference *) assert (Hb : In n (s_busy s)) by (rewrite H; apply in_mid). assert (Hl : In n (live s)) by lv. assert (Un := LU n Hl). destruct (dj cf NDU s SA n) as (D1 & D2 & D3 & D4). destruct (D3 Hb) as [Np Ni]. apply (known_one L _ len s _ n HK Un (UN n Un)); kred.
    + intros x N. rewrite !put_at_other by exact N. assert (N' : n <> x) by congruence. cbn [life_step]. ne N'. rewrite !in_live. kred. rewrite H. repeat split; lv.
    + intros _. cbn [life_step]. rewrite Z.eqb_refl. cbn [negb orb l_tag l_pend l_uses]. change (2 ^ 63 <=? 0) with false. cbn iota. cbn [l_tag l_pend l_uses]. split; [apply A, Hl|]. split; [apply C, Hl|apply E, Hl].
    + intros X. exfalso. apply X. lv.
    + cbn [life_step]. rewrite Z.eqb_refl. cbn [negb orb]. change (2 ^ 63 <=? 0) with false. cbn iota. cbn [l_refs]. rewrite put_at_same, (D n Un), H0. reflexivity.
    + right. exists (s_idle s). split; [reflexivity|]. split; [exact Ni|]. split; [apply incl_refl|]. split; [exact G|]. cbn [life_step]. rewrite Z.eqb_refl. reflexivity.
  - (* refused put *) change (2 ^ 63 <=? w64 (- EINVAL)) with true. rewrite Bool.orb_true_r. reflexivity.
  - (* renaming *) assert (Hb : In n (s_idle s)) by (rewrite H; apply in_mid). assert (Hl : In n (live s)) by lv. assert (Un := LU n Hl). destruct (dj cf NDU s SA n) as (D1 & D2 & D3 & D4). destruct (D4 Hb) as [Np Nb]. pose proof (dj_in cf NDU s l1 n l2 (s_idle s) SA H ltac:(tauto)) as Nr. apply (known_one L _ len s _ n HK Un (UN n Un)); kred.
    + intros x N. rewrite !put_at_other by exact N. assert (N' : n <> x) by congruence. cbn [life_step]. ne N'. rewrite !in_live. kred. rewrite H. repeat split; lv.
    + intros _. cbn [life_step]. rewrite !Z.eqb_refl. cbn [negb orb l_tag l_pend l_uses]. rewrite !put_at_same. split; [reflexivity|]. split; [apply C, Hl|rewrite (E n Hl); reflexivity].
    + intros X. exfalso. apply X. lv.
    + cbn [life_step]. rewrite !Z.eqb_refl. cbn [negb orb l_refs]. apply D, Un.
    + right. exists (l1 ++ l2). split; [reflexivity|]. split; [exact Nr|]. rewrite H in G. split; [intros x Hx; rewrite H; apply in_wo, Hx|]. split; [apply (ss_wo _ _ _ _ G)|]. cbn [life_step]. rewrite !Z.eqb_refl. reflexivity.
  - (* refused renaming *) rewrite Bool.orb_true_r. reflexivity.
  - (* deletion *) assert (Hb : In n (s_idle s)) by (rewrite H; apply in_mid). assert (Hl : In n (live s)) by lv. assert (Un := LU n Hl). destruct (dj cf NDU s SA n) as (D1 & D2 & D3 & D4). destruct (D4 Hb) as [Np Nb]. pose proof (dj_in cf NDU s l1 n l2 (s_idle s) SA H ltac:(tauto)) as Nr. apply (known_one L _ len s _ n HK Un (UN n Un)); kred.
    + intros x N. assert (N' : n <> x) by congruence. cbn [life_step]. ne N'. rewrite !in_live. kred. rewrite H. repeat split; lv.
    + intros X. exfalso. apply in_live in X. kred. tauto.
    + intros _. cbn [life_step]. rewrite !Z.eqb_refl. reflexivity.
    + cbn [life_step]. rewrite !Z.eqb_refl. cbn [negb orb l_refs]. apply D, Un.
    + left. split; [exact Nr|]. rewrite H in G. split; [intros x Hx; rewrite H; apply in_wo, Hx|apply (ss_wo _ _ _ _ G)].
  - (* refused deletion *) rewrite Bool.orb_true_r. reflexivity.
  - (* commit *) assert (EL : forall x, In x (live (move (note s (s_dirty s) (s_starving s) (w64 (s_changed s + zlen (s_pend s))) (s_starve s) (s_hits s) (s_misses s)) (s_free s) [] (rev (s_pend s) ++ s_busy s) (s_idle s) (s_tag s) (s_refs s) (s_uses s))) <-> In x (live s)).
    { intros x. rewrite !in_live. kred. rewrite in_app_iff, <- in_rev. cbn [In]. tauto. }
    constructor; cbn [life_step l_tag l_pend l_refs l_uses l_last]; [intros x Hx; apply EL in Hx; apply A, Hx|intros x Ux Hx; rewrite EL in Hx; apply B; assumption|intros x _; kred; cbn [In]; split; [discriminate|tauto]|exact D|intros x Hx; apply EL in Hx; apply E, Hx|intros x Hx; apply F in Hx; lia|exact G].
  - (* reset *) constructor; cbn [life_step l_tag l_pend l_refs l_uses l_last]; [intros x []|reflexivity|intros x []|reflexivity|intros x []|intros x []|constructor].
Qed.
End Hist.

(** ** Runs *)
Section Run.
Variables (cf : conf) (al : algo) (fuel : nat) (dat : Z -> Z) (rep : mem -> list Z -> (Z -> Z) -> Prop) (victim : policy) (bits : Z).
Notation U := (c_nodes cf).
Hypothesis LA : laws al U rep victim.
Hypothesis LW : lawful cf dat.
Hypothesis HS : 1 <= bits < 60 /\ c_size cf = 2 ^ bits.
Hypothesis NDU : NoDup U.
Hypothesis LU : zlen U = c_size cf.
Hypothesis DU : forall q, in_array (c_taghash cf) (c_size cf) q = true -> ~ In q U.
Hypothesis NU : ~ In NULL U.
Hypothesis FU : (length U <= fuel)%nat.
Hypothesis HM : 0 <= c_maxpend cf.
Variable prog : list (cop * cres) -> cop.
Hypothesis HP : polite (c_maxpend cf) U victim prog.
Notation inv := (inv cf dat rep).
Notation reach := (reach (c_maxpend cf) U victim).
Notation apply_cop := (apply_cop cf al fuel dat).
Notation run_cops := (run_cops cf al fuel dat).
Definition here (k : cache) (h : list (cop * cres)) (s : cs) : Prop := reach h s /\ inv k s /\ known cf (life_of h) (length h) s.
Theorem go_on k h s : here k h s -> exists k' r s', apply_cop k (prog h) = Some (k', r) /\ cstep (c_maxpend cf) U victim s (prog h) r s' /\ here k' (h ++ [(prog h, r)]) s'.
Proof.
  intros (H1 & H2 & H3). pose proof (HP h s H1) as Ha. destruct (step_ok cf al fuel dat rep victim bits LA LW HS NDU LU DU NU FU HM k s (prog h) H2 Ha) as (k' & r & s' & E & C & I').
  exists k', r, s'. split; [exact E|]. split; [exact C|]. split; [apply (reach_step _ _ _ h s _ _ s' H1 Ha C)|]. split; [exact I'|]. rewrite app_length. cbn [length]. rewrite Nat.add_1_r.
  pose proof (known_step cf NDU NU victim (life_of h) (length h) s s' (prog h) r (i_sane _ _ _ _ _ H2) (i_sane _ _ _ _ _ I') Ha C H3) as K. destruct K as [A B C' D E' F G]. constructor; try (intros n; rewrite life_snoc); auto. revert G. apply ss_ext. intros x _. symmetry. apply life_snoc.
Qed.
Theorem run_ok n : forall k h s, here k h s -> exists k' h' s', run_cops n prog k h = Some (k', h') /\ here k' h' s' /\ length h' = (n + length h)%nat.
Proof.
  induction n as [|n IH]; intros k h s HH; [exists k, h, s; auto|]. destruct (go_on k h s HH) as (k1 & r & s1 & E & _ & H1). destruct (IH k1 _ s1 H1) as (k' & h' & s' & E' & H' & L'). exists k', h', s'. cbn [CacheModel.run_cops]. rewrite E. split; [exact E'|]. split; [exact H'|]. rewrite app_length in L'. cbn [length] in L'. lia.
Qed.
Lemma run_snoc n : forall k h, run_cops (S n) prog k h = let* (k1, h1) := run_cops n prog k h in let* (k2, r) := apply_cop k1 (prog h1) in Some (k2, h1 ++ [(prog h1, r)]).
Proof.
  induction n as [|n IH]; intros k h; [cbn; destruct (apply_cop k (prog h)) as [[k2 r]|]; reflexivity|]. change (run_cops (S (S n)) prog k h) with (let* (k1, r) := apply_cop k (prog h) in run_cops (S n) prog k1 (h ++ [(prog h, r)])).
  change (run_cops (S n) prog k h) with (let* (k1, r) := apply_cop k (prog h) in run_cops n prog k1 (h ++ [(prog h, r)])). destruct (apply_cop k (prog h)) as [[k2 r]|]; [apply IH|reflexivity].
Qed.
Theorem last_ok n k0 s0 k' h e : here k0 [] s0 -> run_cops (S n) prog k0 [] = Some (k', h ++ [e]) -> exists k s s', here k h s /\ here k' (h ++ [e]) s' /\ cstep (c_maxpend cf) U victim s (fst e) (snd e) s'.
Proof.
  intros H0 E. rewrite run_snoc in E. destruct (run_ok n k0 [] s0 H0) as (k1 & h1 & s1 & E1 & H1 & _). rewrite E1 in E. destruct (go_on k1 h1 s1 H1) as (k2 & r & s2 & E2 & C2 & H2). rewrite E2 in E. injection E as Ek Eh. apply app_inj_tail in Eh. destruct Eh as [-> <-]. subst k'. exists k1, s1, s2. auto.
Qed.
End Run.

(** *** What a past tells *)
Section Past.
Variables (cf : conf) (dat : Z -> Z) (rep : mem -> list Z -> (Z -> Z) -> Prop) (victim : policy).
Notation U := (c_nodes cf).
Notation here := (here cf dat rep victim).
Hypothesis NDU : NoDup U.
Hypothesis LU : zlen U = c_size cf.
Lemma tag_live k h s n : here k h s -> n <> NULL -> l_tag (life_of h n) <> None -> In n (live s).
Proof. intros (_ & _ & K) N H. destruct (in_dec Z.eq_dec n (live s)) as [Hn|Hn]; [exact Hn|]. destruct H. apply (n_none _ _ _ _ K n N Hn). Qed.
Lemma some_tag k h s n t : here k h s -> n <> NULL -> l_tag (life_of h n) = Some t -> In n (live s) /\ s_tag s n = t.
Proof. intros H N E. assert (Hl : In n (live s)) by (apply (tag_live k h s n H N); congruence). split; [exact Hl|]. destruct H as (_ & _ & K). rewrite (n_tag _ _ _ _ K n Hl) in E. congruence. Qed.
Theorem at_most k h s l : here k h s -> NoDup l -> ~ In NULL l -> (forall n, In n l -> l_tag (life_of h n) <> None) -> zlen l <= c_size cf.
Proof.
  intros H D N T. rewrite <- LU. unfold zlen. assert ((length l <= length U)%nat); [|lia]. apply (NoDup_incl_length D). intros x Hx. destruct H as (A & B & C). apply (live_U cf s x (i_sane _ _ _ _ _ B)). apply (tag_live k h s x (conj A (conj B C))); [intros ->; contradiction|apply T, Hx].
Qed.
Theorem one_tag k h s a b t : here k h s -> a <> NULL -> b <> NULL -> l_tag (life_of h a) = Some t -> l_tag (life_of h b) = Some t -> a = b.
Proof.
  intros H Na Nb Ea Eb. destruct (some_tag _ _ _ _ _ H Na Ea) as [La Ta]. destruct (some_tag _ _ _ _ _ H Nb Eb) as [Lb Tb]. destruct H as (_ & B & _). apply (i_tags cf s (i_sane _ _ _ _ _ B)); congruence.
Qed.
Lemma idle_refs k h s n : here k h s -> n <> NULL -> l_tag (life_of h n) <> None -> l_refs (life_of h n) = 0 -> In n (s_idle s).
Proof.
  intros H N T R. pose proof (tag_live _ _ _ _ H N T) as Hl. destruct H as (_ & B & K). pose proof (i_sane _ _ _ _ _ B) as SA. rewrite (n_refs _ _ _ _ K n (live_U cf s n SA Hl)) in R. apply in_live in Hl. destruct Hl as [Hl|[Hl|Hl]]; [|..|exact Hl]; pose proof (i_pos cf s SA n ltac:(apply in_or_app; tauto)); lia.
Qed.
(** A request that gives a node to a tag that it did not have. *)
Theorem taken k h s t fl v s' : here k h s -> cstep (c_maxpend cf) U victim s (CObtain t fl) (RNode v) s' -> v <> NULL -> l_tag (life_of h v) <> Some t ->
  In v U /\ l_refs (life_of h v) = 0 /\ (forall x, x <> NULL -> l_tag (life_of h x) <> Some t) /\
  (l_tag (life_of h v) <> None -> (forall x, In x U -> l_tag (life_of h x) <> None) /\ In v (s_idle s) /\ victim (s_idle s) (s_uses s) v).
Proof.
  intros H C Nv Nt. pose proof H as (_ & B & K). pose proof (i_sane _ _ _ _ _ B) as SA.
  assert (AB : absent s t -> forall x, x <> NULL -> l_tag (life_of h x) <> Some t) by (intros Ab x Nx Ex; destruct (some_tag _ _ _ _ _ H Nx Ex) as [Lx Tx]; apply (Ab x Lx Tx)).
  assert (HIT : forall n, In n (live s) -> s_tag s n = t -> n = v -> False) by (intros n Hn Et ->; apply Nt; rewrite (n_tag _ _ _ _ K v Hn), Et; reflexivity).
  inversion C as [| |t0 f0 Hs|t0 f0 n Hs Hn Ht Hf|t0 f0 n Hs Hn Ht Hf|t0 f0 l1 n l2 Hs Hb Ht|t0 f0 l1 n l2 Hs Hb Ht|t0 f0 Hs Ab Hf|t0 f0 Hs Ab Hf|t0 f0 Hs Ab Hf|t0 f0 n l Hs Ab Hf Hm Hfr|t0 f0 l1 n l2 Hs Ab Hf Hm Hfr Hb Hv| | | | | | | | | | ]; subst; try congruence.
  - exfalso. apply (HIT v); auto. apply in_live. tauto.
  - exfalso. apply (HIT v); auto. apply in_live. right. left. rewrite Hb. apply in_mid.
  - exfalso. apply (HIT v); auto. apply in_live. right. right. rewrite Hb. apply in_mid.
  - assert (Hfv : In v (s_free s)) by (rewrite Hfr; left; reflexivity). assert (Uv : In v U) by (apply (in_U cf s v SA), in_or_app; left; exact Hfv). split; [exact Uv|]. split; [rewrite (n_refs _ _ _ _ K v Uv); apply (i_zero cf s SA), in_or_app; left; exact Hfv|]. split; [apply AB, Ab|].
    intros X. exfalso. apply (proj1 (dj cf NDU s SA v) Hfv). apply (tag_live _ _ _ _ H Nv X).
  - assert (Hi : In v (s_idle s)) by (rewrite Hb; apply in_mid). assert (Hl : In v (live s)) by (apply in_live; tauto). pose proof (live_U cf s v SA Hl) as Uv. split; [exact Uv|]. split; [rewrite (n_refs _ _ _ _ K v Uv); apply (i_zero cf s SA), in_or_app; right; exact Hi|]. split; [apply AB, Ab|].
    intros _. split; [|split; [exact Hi|exact Hv]]. intros x Ux. pose proof (i_all cf s SA) as P. rewrite Hfr in P. cbn [app] in P. apply (Permutation_in _ (Permutation_sym P)) in Ux. rewrite (n_tag _ _ _ _ K x Ux). discriminate.
Qed.
End Past.
