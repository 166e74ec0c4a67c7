(** * Lock-free list: the invariant *)
From Verif Require Import Lib Ptr ListProofs SlistModel SlistSpec SlistProofs LlistModel LlistSpec.
From Coq Require Import Sorting.Permutation.

Lemma set_same A (f : nat -> A) t v : set f t v t = v.
Proof. unfold set. rewrite Nat.eqb_refl. reflexivity. Qed.
Lemma set_other A (f : nat -> A) t v u : u <> t -> set f t v u = f u.
Proof. intros H. unfold set. rewrite (proj2 (Nat.eqb_neq _ _) H). reflexivity. Qed.
Lemma mem_z_in x l : mem_z x l = true <-> In x l.
Proof. unfold mem_z. rewrite existsb_exists. split; [intros (y & H & E); apply Z.eqb_eq in E; congruence|]. intros H. exists x. split; [exact H|apply Z.eqb_refl]. Qed.
Lemma distinct_ok l : distinct l = true -> NoDup l.
Proof.
  induction l as [|x l IH]; cbn [distinct]; intros H; [constructor|]. apply andb_prop in H. destruct H as [H1 H2]. constructor; [|auto].
  intros C. apply mem_z_in in C. rewrite C in H1. discriminate H1.
Qed.
Lemma minus_in x l b : In x (minus l b) <-> In x l /\ ~ In x b.
Proof.
  unfold minus. rewrite filter_In, negb_true_iff. split; intros [H1 H2]; (split; [exact H1|]).
  - intros C. apply mem_z_in in C. congruence.
  - destruct (mem_z x b) eqn:E; [|reflexivity]. apply mem_z_in in E. contradiction.
Qed.

(** The nodes of a batch under way. *)
Definition batch (p : pc) : list Z := match p with SRead b | SWrite b _ | SCas b _ => b | _ => [] end.
Definition chain (m : mem) (b : list Z) : Prop := match b with [] => False | x :: r => spairs m x r end.
Definition popping (p : pc) : Prop := match p with DRead | DNext _ | DCas _ _ => True | _ => False end.
Definition taking (p : pc) : Prop := match p with XRead | XCas _ | Got _ => True | _ => popping p end.
Definition pcok (m : mem) (s : list Z) (p : pc) (pl : list Z) : Prop :=
  match p with
  | SRead b | SWrite b _ => chain m b /\ pl = []
  | SCas b e => chain m b /\ m (last b NULL) LINK = Some e /\ pl = []
  | Got q => q = hd NULL pl /\ srest m pl
  | DNext e => e <> NULL /\ In e s /\ pl = []
  | DCas e n => e <> NULL /\ In e s /\ m e LINK = Some n /\ pl = []
  | _ => pl = []
  end.
Definition modeok (M : option nat) (t : nat) (p : pc) : Prop := (popping p -> M = Some t) /\ (taking p -> M = None \/ M = Some t).
Definition hold (c : cfg) (pend : nat -> list Z) (t : nat) : list Z := cown c t ++ batch (cpc c t) ++ pend t.

Lemma spairs_frame_in m m' : forall l a, (forall x, In x (a :: l) -> m' x LINK = m x LINK) -> spairs m a l -> spairs m' a l.
Proof. intros l a H. apply spairs_frame. intros x Hx. apply H, removelast_in, Hx. Qed.
Lemma last_app_in (l : list Z) d : l <> [] -> In (last l d) l.
Proof. destruct l as [|x l]; [contradiction|]. intros _. rewrite last_cons. apply last_in. Qed.
Lemma pcok_frame m m' s s' p pl : (forall x, In x (batch p ++ pl) -> m' x LINK = m x LINK) -> (popping p -> incl s s' /\ forall x, In x s -> m' x LINK = m x LINK) ->
  pcok m s p pl -> pcok m' s' p pl.
Proof.
  intros F D. destruct p; cbn [pcok batch popping] in *; auto.
  - intros [H1 H2]. split; [|exact H2]. destruct b as [|x r]; [contradiction|]. cbn [chain] in *. revert H1. apply spairs_frame_in. intros y Hy. apply F, in_or_app; auto.
  - intros [H1 H2]. split; [|exact H2]. destruct b as [|x r]; [contradiction|]. cbn [chain] in *. revert H1. apply spairs_frame_in. intros y Hy. apply F, in_or_app; auto.
  - intros (H1 & H2 & H3). destruct b as [|x r]; [contradiction|]. split; [|split; [|exact H3]].
    + cbn [chain] in *. revert H1. apply spairs_frame_in. intros y Hy. apply F, in_or_app; auto.
    + rewrite F; [exact H2|]. apply in_or_app. left. apply last_app_in. discriminate.
  - intros [H1 H2]. split; [exact H1|]. revert H2. apply srest_frame. exact F.
  - intros (H1 & H2 & H3). destruct D as [D1 D2]; [exact I|]. auto.
  - intros (H1 & H2 & H3 & H4). destruct D as [D1 D2]; [exact I|]. rewrite D2 by exact H2. auto.
Qed.

Section Inv.
Variable h : Z.
Variable M : option nat.
Definition inv (c : cfg) (s : list Z) (pend : nat -> list Z) : Prop :=
  spec_run ([], fun _ => []) (clog c) (s, pend) /\ slist (cm c) h s /\
  (forall t, NoDup (hold c pend t)) /\ (forall t u x, In x (hold c pend t) -> In x (hold c pend u) -> t = u) /\
  (forall t x, In x (hold c pend t) -> x <> h /\ x <> NULL /\ has (cm c) x LINK /\ ~ In x s) /\
  (forall t, pcok (cm c) s (cpc c t) (pend t)) /\ (forall t, modeok M t (cpc c t)).

Lemma slist_has m s x : slist m h s -> In x s -> x <> h /\ x <> NULL /\ has m x LINK.
Proof.
  intros H Hx. pose proof H as [Hd _]. apply in_split in Hx. destruct Hx as (a & b & ->). destruct (slist_next _ _ _ _ _ H) as [H1 H2].
  split; [intros ->; apply NoDup_cons_iff in Hd; apply (proj1 Hd), in_or_app; cbn; auto|]. split; [exact H1|]. eexists. exact H2.
Qed.
(** One thread moves; the others only see the shared part change. *)
Lemma build c s pend t c' s' pend' : inv c s pend ->
  spec_run ([], fun _ => []) (clog c') (s', pend') -> slist (cm c') h s' ->
  (forall u, u <> t -> cpc c' u = cpc c u /\ cown c' u = cown c u /\ pend' u = pend u) ->
  NoDup (hold c' pend' t) -> (forall x, In x (hold c' pend' t) -> (In x (hold c pend t) \/ In x s) /\ ~ In x s') ->
  (forall x, In x s' -> In x s \/ In x (hold c pend t)) ->
  (forall x, ~ In x (hold c pend t) -> x <> h -> cm c' x LINK = cm c x LINK) -> (forall x, has (cm c) x LINK -> has (cm c') x LINK) ->
  pcok (cm c') s' (cpc c' t) (pend' t) -> modeok M t (cpc c' t) ->
  (incl s s' \/ (forall u, u <> t -> ~ popping (cpc c u))) -> inv c' s' pend'.
Proof.
  intros (I1 & I2 & I3 & I4 & I5 & I6 & I7) L R O Nd Hh Hs F Hm P Mo D.
  assert (Oh : forall u, u <> t -> hold c' pend' u = hold c pend u) by (intros u Hu; unfold hold; destruct (O u Hu) as (-> & -> & ->); reflexivity).
  assert (X : forall u x, u <> t -> In x (hold c' pend' t) -> In x (hold c pend u) -> False).
  { intros u x Hu Hx Hy. destruct (Hh x Hx) as [[C|C] _]; [apply Hu, (I4 _ _ _ Hy C)|]. destruct (I5 _ _ Hy) as (_ & _ & _ & N). contradiction. }
  split; [exact L|]. split; [exact R|]. split; [|split; [|split; [|split]]].
  - intros u. destruct (Nat.eq_dec u t) as [->|Hu]; [exact Nd|]. rewrite (Oh u Hu). apply I3.
  - intros u v x Hx Hy. destruct (Nat.eq_dec u t) as [->|Hu], (Nat.eq_dec v t) as [->|Hv]; [reflexivity| | |].
    + rewrite (Oh v Hv) in Hy. exfalso. apply (X v x Hv Hx Hy).
    + rewrite (Oh u Hu) in Hx. exfalso. apply (X u x Hu Hy Hx).
    + rewrite (Oh u Hu) in Hx. rewrite (Oh v Hv) in Hy. apply (I4 _ _ _ Hx Hy).
  - intros u x Hx. destruct (Nat.eq_dec u t) as [->|Hu].
    + destruct (Hh x Hx) as [[C|C] N].
      * destruct (I5 _ _ C) as (A1 & A2 & A3 & _). auto.
      * destruct (slist_has _ _ _ I2 C) as (A1 & A2 & A3). auto.
    + rewrite (Oh u Hu) in Hx. destruct (I5 _ _ Hx) as (A1 & A2 & A3 & A4). split; [exact A1|]. split; [exact A2|]. split; [auto|]. intros C. destruct (Hs x C) as [C'|C']; [contradiction|]. apply Hu, (I4 _ _ _ Hx C').
  - intros u. destruct (Nat.eq_dec u t) as [->|Hu]; [exact P|]. destruct (O u Hu) as (-> & _ & ->). apply (pcok_frame (cm c) _ s); [| |apply I6].
    + intros x Hx. assert (In x (hold c pend u)) by (unfold hold; apply in_or_app; auto). apply F; [intros C; apply Hu, (I4 _ _ _ H C)|apply (I5 _ _ H)].
    + intros Pp. destruct D as [D|D]; [|exfalso; apply (D u Hu Pp)]. split; [exact D|]. intros x Hx. destruct (slist_has _ _ _ I2 Hx) as (A1 & _ & _). apply F; [|exact A1]. intros C. apply (I5 _ _ C), Hx.
  - intros u. destruct (Nat.eq_dec u t) as [->|Hu]; [exact Mo|]. destruct (O u Hu) as (-> & _ & _). apply I7.
Qed.
(** A step that leaves the stack alone. *)
Lemma local c s pend t c' : inv c s pend -> clog c' = clog c ->
  (forall u, u <> t -> cpc c' u = cpc c u /\ cown c' u = cown c u) ->
  Permutation (cown c' t ++ batch (cpc c' t)) (cown c t ++ batch (cpc c t)) ->
  (forall x, ~ In x (cown c t ++ batch (cpc c t)) -> cm c' x LINK = cm c x LINK) -> (forall x, has (cm c) x LINK -> has (cm c') x LINK) ->
  pcok (cm c') s (cpc c' t) (pend t) -> modeok M t (cpc c' t) -> inv c' s pend.
Proof.
  intros H L O Pm F Hm P Mo. pose proof H as (I1 & I2 & I3 & I4 & I5 & I6 & I7).
  assert (Pm' : Permutation (hold c' pend t) (hold c pend t)) by (unfold hold; rewrite !app_assoc; apply Permutation_app_tail, Pm).
  assert (Sub : forall x, In x (cown c t ++ batch (cpc c t)) -> In x (hold c pend t)) by (intros x Hx; unfold hold; rewrite app_assoc; apply in_or_app; auto).
  apply (build c s pend t c' s pend H); auto.
  - rewrite L. exact I1.
  - destruct I2 as [Hd Hp]. split; [exact Hd|]. revert Hp. apply spath_frame. intros x Hx. apply F. intros C. apply Sub in C. destruct (I5 _ _ C) as (A1 & _ & _ & A2). destruct Hx as [<-|Hx]; contradiction.
  - intros u Hu. destruct (O u Hu). auto.
  - apply (Permutation_NoDup (Permutation_sym Pm')), I3.
  - intros x Hx. apply (Permutation_in _ Pm') in Hx. split; [auto|]. apply (I5 _ _ Hx).
  - left. intros x Hx. exact Hx.
Qed.
Lemma chained_ok m b : (forall x, In x b -> x <> NULL) -> chained m b = true -> match b with [] => True | _ => chain m b end.
Proof.
  induction b as [|x b IH]; intros N H; [exact I|]. cbn [chain]. destruct b as [|y b]; [exact I|]. cbn [chained] in H. cbn [spairs].
  destruct (m x LINK) as [v|]; [|discriminate]. apply andb_prop in H. destruct H as [H1 H2]. apply Z.eqb_eq in H1. subst v. split; [reflexivity|]. split; [apply N; cbn; auto|]. apply IH; [intros z Hz; apply N; cbn; auto|exact H2].
Qed.
Lemma hd_is_nil (s : list Z) : (hd NULL s <> NULL \/ s = []) -> (hd NULL s =? NULL) = is_nil s.
Proof. destruct s as [|x s]; [reflexivity|]. cbn [hd is_nil]. intros [H|H]; [apply Z.eqb_neq, H|discriminate]. Qed.
Lemma has_upd' m p f v q g : has m q g -> has (upd m p f v) q g.
Proof. apply upd_ex. Qed.

Definition allowed (a : action) : Prop :=
  match a with CDel t => M = Some t | CDestroy t => M = None \/ M = Some t | _ => True end.
Lemma take_popping c s pend t : inv c s pend -> taking (cpc c t) -> (forall u, u <> t -> ~ popping (cpc c u)).
Proof.
  intros (_ & _ & _ & _ & _ & _ & I7) T u Hu C. destruct (I7 u) as [P _]. destruct (I7 t) as [_ Q]. specialize (P C). destruct (Q T) as [E|E]; congruence.
Qed.
Lemma emit_run l s p e s' p' : spec_run ([], fun _ => []) l (s, p) -> spec_step (s, p) e (s', p') -> spec_run ([], fun _ => []) (l ++ [e]) (s', p').
Proof. intros H1 H2. econstructor; eassumption. Qed.

Ltac other := lazymatch goal with |- forall u, u <> _ -> _ /\ _ => intros u Hu; cbn [cpc cown with_pc with_mem with_own emit]; rewrite ?set_other by exact Hu; auto end.
Lemma step_ok c s pend a : inv c s pend -> allowed a -> exists c' s' pend', step h c a = Some c' /\ inv c' s' pend'.
Proof.
  intros H Al. pose proof H as (I1 & I2 & I3 & I4 & I5 & I6 & I7).
  assert (Hh : cm c h LINK = Some (hd NULL s)) by (apply spath_link, I2).
  assert (Hnil : (hd NULL s =? NULL) = is_nil s).
  { apply hd_is_nil. destruct s as [|y r]; [auto|]. left. apply (slist_has _ _ _ I2). cbn; auto. }
  assert (Stay : exists c' s' pend', Some c = Some c' /\ inv c' s' pend') by (exists c, s, pend; auto).
  assert (I5h : forall u x, In x (hold c pend u) -> x <> h) by (intros u x Hx; apply (I5 _ _ Hx)).
  assert (I2h : forall x, In x s -> x <> h) by (intros x Hx; apply (slist_has _ _ _ I2 Hx)).
  destruct a as [t x v|t b|t|t|t fuel]; cbn [step allowed] in *.
  - (* CWrite *)
    destruct (cpc c t) eqn:Ep; try exact Stay. destruct (mem_z x (cown c t)) eqn:Ex; [|exact Stay]. apply mem_z_in in Ex.
    assert (Hx : In x (hold c pend t)) by (unfold hold; apply in_or_app; auto). destruct (I5 _ _ Hx) as (A1 & A2 & A3 & A4). rewrite (st_ex _ _ _ _ A3).
    eexists _, s, pend. split; [reflexivity|]. apply (local c s pend t); cbn; auto.
    + intros y Hy. apply upd_other. left. intros ->. apply Hy, in_or_app; auto.
    + intros y Hy. apply has_upd', Hy.
    + specialize (I6 t). rewrite Ep in *. exact I6.
  - (* CAdd *)
    destruct (cpc c t) eqn:Ep; try exact Stay. destruct b as [|b0 b]; [exact Stay|]. set (bb := b0 :: b) in *.
    destruct (forallb _ bb && distinct bb && chained (cm c) bb) eqn:E; [|exact Stay]. apply andb_prop in E. destruct E as [E E3]. apply andb_prop in E. destruct E as [E1 E2].
    rewrite forallb_forall in E1. apply distinct_ok in E2.
    assert (Hb : incl bb (cown c t)) by (intros y Hy; apply mem_z_in, E1, Hy).
    assert (Nb : forall y, In y bb -> y <> NULL) by (intros y Hy; apply (I5 t y); unfold hold; apply in_or_app; auto).
    pose proof (chained_ok _ _ Nb E3) as Ch. cbn [chain] in Ch.
    eexists _, s, pend. split; [reflexivity|]. apply (local c s pend t); cbn [with_own with_pc cm cpc cown clog]; rewrite ?set_same; auto; try other; try solve [split; cbn; auto; tauto]; try solve [cbn [pcok]; auto].
    + rewrite Ep. cbn [batch]. rewrite app_nil_r. apply NoDup_Permutation.
      * apply nodup_join; [apply NoDup_filter; specialize (I3 t); unfold hold in I3; apply nodup_l in I3; exact I3|exact E2|]. intros y Hy. apply minus_in in Hy. tauto.
      * specialize (I3 t). unfold hold in I3. apply nodup_l in I3. exact I3.
      * intros y. rewrite in_app_iff, minus_in. split; [intros [[C _]|C]; auto|]. intros Hy. destruct (in_dec Z.eq_dec y bb); auto.
    + cbn [pcok]. specialize (I6 t). rewrite Ep in I6. cbn [pcok] in I6. split; [exact Ch|exact I6].
  - (* CDestroy *)
    destruct (cpc c t) eqn:Ep; try exact Stay. eexists _, s, pend. split; [reflexivity|]. apply (local c s pend t); cbn [with_pc cm cpc cown clog]; rewrite ?set_same; auto; try other; try solve [split; cbn; auto; tauto]; try solve [cbn [pcok]; auto].
    + rewrite Ep. apply Permutation_refl.
    + specialize (I6 t). rewrite Ep in I6. exact I6.
  - (* CDel *)
    destruct (cpc c t) eqn:Ep; try exact Stay. eexists _, s, pend. split; [reflexivity|]. apply (local c s pend t); cbn [with_pc cm cpc cown clog]; rewrite ?set_same; auto; try other; try solve [split; cbn; auto; tauto]; try solve [cbn [pcok]; auto].
    + rewrite Ep. apply Permutation_refl.
    + specialize (I6 t). rewrite Ep in I6. exact I6.
  - (* Run *)
    pose proof (I6 t) as Pt. pose proof (I7 t) as Mt. destruct (cpc c t) as [|b|b e|b e| |p|p| |e|e n] eqn:Ep; cbn [pcok batch] in Pt; try exact Stay.
    + (* SRead *) unfold ld. rewrite Hh. eexists _, s, pend. split; [reflexivity|]. apply (local c s pend t); cbn [with_pc cm cpc cown clog]; rewrite ?set_same; auto; try other; try solve [split; cbn; auto; tauto]; try solve [cbn [pcok]; auto].
      rewrite Ep. apply Permutation_refl.
    + (* SWrite *) destruct Pt as [Ch Pl]. destruct b as [|b0 b]; [contradiction|]. set (bb := b0 :: b) in *.
      assert (Lin : In (last bb NULL) bb) by (apply last_app_in; discriminate).
      assert (Hl : In (last bb NULL) (hold c pend t)) by (unfold hold; rewrite Ep; cbn [batch]; apply in_or_app; right; apply in_or_app; auto).
      destruct (I5 _ _ Hl) as (A1 & A2 & A3 & A4). rewrite (st_ex _ _ _ _ A3). eexists _, s, pend. split; [reflexivity|].
      apply (local c s pend t); cbn [with_pc with_mem cm cpc cown clog]; rewrite ?set_same; auto; try other; try solve [split; cbn; auto; tauto]; try solve [cbn [pcok]; auto].
      * rewrite Ep. apply Permutation_refl.
      * intros y Hy. apply upd_other. left. intros ->. apply Hy. rewrite Ep. apply in_or_app; auto.
      * intros y Hy. apply has_upd', Hy.
      * cbn [pcok]. split; [|split; [apply upd_same|exact Pl]]. subst bb. cbn [chain] in *. revert Ch. apply spairs_frame. intros y Hy. apply upd_other. left. intros ->. rewrite last_cons in Hy. revert Hy. apply last_not_removelast.
        specialize (I3 t). unfold hold in I3. rewrite Ep in I3. cbn [batch] in I3. apply nodup_r, nodup_l in I3. exact I3.
    + (* SCas *) destruct Pt as (Ch & Le & Pl). unfold ld. rewrite Hh. destruct (Z.eqb_spec (hd NULL s) e) as [E|E].
      * destruct b as [|b0 b]; [contradiction|]. set (bb := b0 :: b) in *. rewrite st_ex by eauto. cbn [hd bb].
        assert (Hb : forall y, In y bb -> In y (hold c pend t)) by (intros y Hy; unfold hold; rewrite Ep; cbn [batch]; apply in_or_app; right; apply in_or_app; auto).
        pose proof (I3 t) as Nt. unfold hold in Nt. rewrite Ep in Nt. cbn [batch] in Nt. rewrite Pl, app_nil_r in Nt.
        eexists _, (bb ++ s), pend. split; [reflexivity|].
        assert (Rn : slist (upd (cm c) h LINK b0) h (bb ++ s)).
        { pose proof I2 as [Hd Hp]. split.
          - change (h :: bb ++ s) with ((h :: bb) ++ s). apply nodup_join.
            + constructor; [intros C; apply Hb in C; apply (I5h _ _ C); reflexivity|apply nodup_r in Nt; exact Nt].
            + apply NoDup_cons_iff in Hd. apply Hd.
            + intros y [<-|Hy] Hy2; [apply NoDup_cons_iff in Hd; apply (proj1 Hd Hy2)|]. apply Hb in Hy. apply (I5 _ _ Hy), Hy2.
          - change (bb ++ s) with (b0 :: b ++ s). cbn [spath]. split; [apply upd_same|]. split; [apply (I5 t); apply Hb; cbn; auto|].
            apply spath_app. split.
            + cbn [bb chain] in Ch. revert Ch. apply spairs_frame_in. intros y Hy. apply upd_other. left. intros ->. apply Hb in Hy. apply (I5h _ _ Hy); reflexivity.
            + unfold bb in Le. rewrite last_cons in Le. apply spath_rest. split.
              * rewrite upd_other; [rewrite Le, E; reflexivity|]. left. intros C. assert (In h bb) by (rewrite <- C; apply last_in). apply Hb in H0. apply (I5h _ _ H0); reflexivity.
              * apply spath_rest in Hp. destruct Hp as [_ Hp]. revert Hp. apply srest_frame. intros y Hy. apply upd_other. left. intros ->. apply (I2h _ Hy); reflexivity. }
        apply (build c s pend t _ (bb ++ s) pend H); cbn [emit with_pc with_mem cm cpc cown clog]; rewrite ?set_same; auto; try other; try solve [split; cbn; auto; tauto]; try solve [cbn [pcok]; auto].
        -- apply (emit_run _ _ _ _ _ _ I1). cbn. split; [rewrite <- E, Hnil; reflexivity|reflexivity].
        -- unfold hold. cbn. rewrite set_same, Pl. cbn. rewrite app_nil_r. apply nodup_l in Nt. exact Nt.
        -- unfold hold at 1. cbn. rewrite set_same, Pl. cbn [batch app]. rewrite app_nil_r. intros x Hx. assert (Hx' : In x (hold c pend t)) by (unfold hold; apply in_or_app; auto). split; [auto|].
           intros C. destruct C as [<-|C]; [apply (nodup_disj _ _ Nt b0 Hx); cbn; auto|]. apply in_app_iff in C. destruct C as [C|C]; [apply (nodup_disj _ _ Nt x Hx); cbn; auto|]. apply (I5 _ _ Hx'), C.
        -- intros x Hx. apply in_app_iff in Hx. destruct Hx as [Hx|Hx]; auto.
        -- intros x _ Hx. apply upd_other. left. exact Hx.
        -- intros y Hy. apply has_upd', Hy.
        -- left. intros x Hx. apply in_or_app. auto.
      * eexists _, s, pend. split; [reflexivity|]. apply (local c s pend t); cbn [with_pc cm cpc cown clog]; rewrite ?set_same; auto; try other; try solve [split; cbn; auto; tauto]; try solve [cbn [pcok]; auto].
        -- rewrite Ep. apply Permutation_refl.
    + (* XRead *) unfold ld. rewrite Hh. eexists _, s, pend. split; [reflexivity|]. apply (local c s pend t); cbn [with_pc cm cpc cown clog]; rewrite ?set_same; auto; try other; try solve [split; cbn; auto; tauto]; try solve [cbn [pcok]; auto].
      rewrite Ep. apply Permutation_refl.
    + (* XCas *) unfold ld. rewrite Hh. destruct (Z.eqb_spec (hd NULL s) p) as [E|E].
      * rewrite st_ex by eauto. eexists _, [], (set pend t s). split; [reflexivity|]. pose proof I2 as [Hd Hp].
        pose proof (I3 t) as Nt. unfold hold in Nt. rewrite Ep in Nt. cbn [batch] in Nt. rewrite Pt in Nt. cbn in Nt. rewrite app_nil_r in Nt.
        apply (build c s pend t _ [] (set pend t s) H); cbn [emit with_pc with_mem cm cpc cown clog]; rewrite ?set_same.
        -- apply (emit_run _ _ _ _ _ _ I1). cbn. auto.
        -- split; [constructor; [intros []|constructor]|]. cbn. apply upd_same.
        -- other.
        -- unfold hold. cbn. rewrite !set_same. cbn [batch app]. apply nodup_join; [exact Nt|apply NoDup_cons_iff in Hd; apply Hd|]. intros x Hx Hy. assert (Hx' : In x (hold c pend t)) by (unfold hold; apply in_or_app; auto). apply (I5 _ _ Hx'), Hy.
        -- unfold hold at 1. cbn. rewrite !set_same. cbn [batch app]. intros x Hx. split; [|tauto]. apply in_app_iff in Hx. destruct Hx as [Hx|Hx]; [left; unfold hold; apply in_or_app; auto|auto].
        -- intros x [].
        -- intros x _ Hx. apply upd_other. left. exact Hx.
        -- intros y Hy. apply has_upd', Hy.
        -- cbn [pcok]. split; [congruence|]. apply spath_rest in Hp. destruct Hp as [_ Hp]. revert Hp. apply srest_frame. intros y Hy. apply upd_other. left. intros ->. apply (I2h _ Hy); reflexivity.
        -- split; [cbn; tauto|]. intros _. apply Mt. exact I.
        -- right. apply (take_popping c s pend t H). rewrite Ep. exact I.
      * eexists _, s, pend. split; [reflexivity|]. apply (local c s pend t); cbn [with_pc cm cpc cown clog]; rewrite ?set_same; auto; try other; try solve [split; cbn; auto; tauto]; try solve [cbn [pcok]; auto].
        rewrite Ep. apply Permutation_refl.
    + (* Got *) destruct Pt as [Pp Pr]. destruct (each_from fuel (cm c) p) as [l|] eqn:Ew; [|exact Stay].
      assert (l = pend t) as ->.
      { clear - Ew Pp Pr. subst p. revert fuel l Ew. induction (pend t) as [|x r IH]; intros fuel l Ew.
        - destruct fuel; cbn in Ew; congruence.
        - cbn [srest] in Pr. destruct Pr as [Nx Pr]. apply spath_rest in Pr. destruct Pr as [P1 P2]. destruct fuel as [|fuel]; cbn [each_from hd] in Ew; rewrite (proj2 (Z.eqb_neq _ _) Nx) in Ew; [discriminate|]. unfold ld in Ew. rewrite P1 in Ew.
          destruct (each_from fuel (cm c) (hd NULL r)) as [l'|] eqn:E'; [|discriminate]. rewrite (IH P2 _ _ E') in Ew. congruence. }
      eexists _, s, (set pend t []). split; [reflexivity|].
      apply (build c s pend t _ s (set pend t []) H); cbn [emit with_pc with_own with_mem cm cpc cown clog]; rewrite ?set_same; auto; try other; try solve [split; cbn; auto; tauto]; try solve [cbn [pcok]; auto].
      * apply (emit_run _ _ _ _ _ _ I1). cbn. auto.
      * unfold hold. cbn. rewrite !set_same. cbn [batch app]. rewrite app_nil_r. specialize (I3 t). unfold hold in I3. rewrite Ep in I3. exact I3.
      * unfold hold at 1. cbn. rewrite !set_same. cbn [batch app]. rewrite app_nil_r. intros x Hx. assert (Hx' : In x (hold c pend t)) by (unfold hold; rewrite Ep; exact Hx). split; [auto|apply (I5 _ _ Hx')].
      * left. intros x Hx. exact Hx.
    + (* DRead *) unfold ld. rewrite Hh. unfold del_entry. rewrite Hnil. destruct s as [|x s]; cbn [is_nil hd].
      * eexists _, [], pend. split; [reflexivity|].
        apply (build c [] pend t _ [] pend H); cbn [emit with_pc cm cpc cown clog]; rewrite ?set_same; auto; try other; try solve [split; cbn; auto; tauto]; try solve [cbn [pcok]; auto].
        -- apply (emit_run _ _ _ _ _ _ I1). cbn. auto.
        -- unfold hold. cbn. rewrite set_same. specialize (I3 t). unfold hold in I3. rewrite Ep in I3. exact I3.
        -- unfold hold at 1. cbn. rewrite set_same. intros y Hy. split; [|tauto]. left. unfold hold. rewrite Ep. exact Hy.
        -- left. intros y Hy. exact Hy.
      * eexists _, (x :: s), pend. split; [reflexivity|]. apply (local c (x :: s) pend t); cbn [with_pc cm cpc cown clog]; rewrite ?set_same; auto; try other; try solve [split; cbn; auto; tauto]; try solve [cbn [pcok]; auto].
        -- rewrite Ep. apply Permutation_refl.
        -- cbn [pcok]. split; [apply (slist_has _ _ _ I2); cbn; auto|]. cbn. auto.
    + (* DNext *) destruct Pt as (Ne & He & Pl). destruct (slist_has _ _ _ I2 He) as (_ & _ & [n Hn]). unfold ld. rewrite Hn. eexists _, s, pend. split; [reflexivity|].
      apply (local c s pend t); cbn [with_pc cm cpc cown clog]; rewrite ?set_same; auto; try other; try solve [split; cbn; auto; tauto]; try solve [cbn [pcok]; auto].
      * rewrite Ep. apply Permutation_refl.
    + (* DCas *) destruct Pt as (Ne & He & Hn & Pl). unfold ld. rewrite Hh. destruct (Z.eqb_spec (hd NULL s) e) as [E|E].
      * destruct s as [|x s]; [cbn in E; congruence|]. cbn [hd] in E. subst x. rewrite st_ex by eauto. eexists _, s, pend. split; [reflexivity|]. pose proof I2 as [Hd Hp]. cbn [spath] in Hp. destruct Hp as (_ & _ & Hp). apply spath_rest in Hp. destruct Hp as [Hp1 Hp2].
        assert (n = hd NULL s) by congruence. subst n.
        pose proof (I3 t) as Nt. unfold hold in Nt. rewrite Ep in Nt. cbn [batch] in Nt. rewrite Pl in Nt. cbn in Nt. rewrite app_nil_r in Nt.
        assert (Ho : forall y, In y (cown c t) -> In y (hold c pend t)) by (intros y Hy; unfold hold; apply in_or_app; auto).
        apply NoDup_cons_iff in Hd. destruct Hd as [Nh Hd]. apply NoDup_cons_iff in Hd as Hd'. destruct Hd' as [Nes Hds].
        apply (build c (e :: s) pend t _ s pend H); cbn [emit with_pc with_own with_mem cm cpc cown clog]; rewrite ?set_same; auto; try other; try solve [split; cbn; auto; tauto]; try solve [cbn [pcok]; auto].
        -- apply (emit_run _ _ _ _ _ _ I1). cbn. exists s. auto.
        -- split; [constructor; [intros C; apply Nh; cbn; auto|exact Hds]|]. apply spath_rest. split; [apply upd_same|]. revert Hp2. apply srest_frame. intros y Hy. apply upd_other. left. intros ->. apply Nh. cbn; auto.
        -- unfold hold. cbn. rewrite !set_same, Pl. cbn [batch app]. rewrite app_nil_r. apply nodup_join; [exact Nt|constructor; [intros []|constructor]|]. intros x Hx [<-|[]]. apply (I5 _ _ (Ho _ Hx)). cbn; auto.
        -- unfold hold at 1. cbn. rewrite !set_same, Pl. cbn [batch app]. rewrite app_nil_r. intros x Hx. apply in_app_iff in Hx. destruct Hx as [Hx|[<-|[]]].
           ++ split; [auto|]. intros C. apply (I5 _ _ (Ho _ Hx)). cbn; auto.
           ++ split; [cbn; auto|exact Nes].
        -- intros x Hx. cbn; auto.
        -- intros x _ Hx. apply upd_other. left. exact Hx.
        -- intros y Hy. apply has_upd', Hy.
        -- right. apply (take_popping c (e :: s) pend t H). rewrite Ep. exact I.
      * unfold del_entry. rewrite Hnil. destruct s as [|x s]; [destruct He|]. cbn [is_nil hd]. eexists _, (x :: s), pend. split; [reflexivity|].
        apply (local c (x :: s) pend t); cbn [with_pc cm cpc cown clog]; rewrite ?set_same; auto; try other; try solve [split; cbn; auto; tauto]; try solve [cbn [pcok]; auto].
        -- rewrite Ep. apply Permutation_refl.
        -- cbn [pcok]. split; [apply (slist_has _ _ _ I2); cbn; auto|]. cbn. auto.
Qed.
Lemma run_ok : forall sch c s pend, inv c s pend -> Forall allowed sch -> exists c' s' pend', run h c sch = Some c' /\ inv c' s' pend'.
Proof.
  induction sch as [|a sch IH]; intros c s pend H F; [exists c, s, pend; auto|]. inversion_clear F. cbn [run]. destruct (step_ok c s pend a H H0) as (c1 & s1 & p1 & -> & H2). apply (IH c1 s1 p1); assumption.
Qed.
End Inv.

Lemma start_inv h M c : start h c -> inv h M c [] (fun _ => []).
Proof.
  intros (S1 & S2 & S3 & S4 & S5 & S6).
  assert (Hd : forall t, hold c (fun _ => []) t = cown c t) by (intros t; unfold hold; rewrite S3; cbn; apply app_nil_r).
  split; [rewrite S2; constructor|]. split; [split; [constructor; [intros []|constructor]|exact S1]|]. split; [intros t; rewrite Hd; apply S4|].
  split; [intros t u x; rewrite !Hd; apply S5|]. split; [intros t x; rewrite Hd; intros Hx; destruct (S6 _ _ Hx) as (A1 & A2 & A3); auto|].
  split; intros t; rewrite S3; [reflexivity|split; cbn; tauto].
Qed.
Lemma mode_allowed s : many_takers s \/ (exists k, one_consumer k s) -> exists M, Forall (allowed M) s.
Proof.
  intros [H|[k H]]; [exists None|exists (Some k)]; apply Forall_forall; intros a Ha; destruct a as [t x v|t b|t|t|t f]; cbn; auto.
  - exfalso. apply (H t Ha).
  - right. f_equal. symmetry. apply H. auto.
  - f_equal. symmetry. apply H. auto.
Qed.
Definition pending (x : Z) (pend : nat -> list Z) (n : nat) : nat := list_sum (map (fun t => occ x (pend t)) (seq 0 n)).
Lemma pending_ext x f g : forall n s, (forall t, (s <= t < s + n)%nat -> f t = g t) -> list_sum (map (fun t => occ x (f t)) (seq s n)) = list_sum (map (fun t => occ x (g t)) (seq s n)).
Proof. induction n as [|n IH]; intros s H; [reflexivity|]. unfold list_sum. cbn. rewrite (H s) by lia. f_equal. apply IH. intros t Ht. apply H. lia. Qed.
Lemma pending_set x f t l n : (t < n)%nat -> (pending x (set f t l) n + occ x (f t) = pending x f n + occ x l)%nat.
Proof.
  intros Ht. unfold pending. assert (E : seq 0 n = seq 0 t ++ t :: seq (S t) (n - t - 1)).
  { replace n with (t + (1 + (n - t - 1)))%nat at 1 by lia. rewrite !seq_app. cbn [seq app]. replace (0 + t + 1)%nat with (S t) by lia. reflexivity. }
  rewrite E, !map_app, !list_sum_app. cbn [map].
  rewrite (pending_ext x (set f t l) f t 0) by (intros u Hu; apply set_other; lia).
  pose proof (pending_ext x (set f t l) f (n - t - 1) (S t) (fun u Hu => set_other _ f t l u ltac:(lia))) as E2.
  unfold list_sum in *. cbn [fold_right]. rewrite set_same. lia.
Qed.
Definition ev_thread (e : ev) : nat := match e with EAdd t _ _ | ETake t _ | EWalk t _ | EPop t _ | EPopNone t => t end.
Lemma occ_app x l m : occ x (l ++ m) = (occ x l + occ x m)%nat.
Proof. apply count_occ_app. Qed.
Lemma spec_count x : forall l s p n, spec_run ([], fun _ => []) l (s, p) -> (forall e, In e l -> (ev_thread e < n)%nat) -> added x l = (taken x l + occ x s + pending x p n)%nat.
Proof.
  intros l s p n H. remember ([], fun _ => []) as a0. remember (s, p) as a. revert s p Heqa. induction H as [a|a l a1 e a2 H IH St]; intros s p E B.
  - subst a. injection E as <- <-. unfold pending. replace (map _ _) with (map (fun _ : nat => 0%nat) (seq 0 n)) by reflexivity. induction (seq 0 n); cbn in *; auto.
  - destruct a1 as [s1 p1]. specialize (IH Heqa0 s1 p1 eq_refl (fun e' He => B e' (in_or_app _ _ _ (or_introl He)))). specialize (B e (in_elt e l [])).
    unfold added, taken in *. rewrite !map_app, !list_sum_app. subst a2. destruct e as [t b w|t q|t w|t y|t]; cbn [ev_thread spec_step] in *; cbn [map list_sum fold_right] in *; unfold list_sum in *; cbn [map fold_right] in *.
    + destruct St as [_ St]. injection St as -> ->. rewrite occ_app. lia.
    + destruct St as (_ & Pn & St). injection St as -> ->. pose proof (pending_set x p1 t s1 n B). rewrite Pn in H0. cbn in *. lia.
    + destruct St as (-> & St). injection St as -> ->. pose proof (pending_set x p1 t [] n B). cbn in *. lia.
    + destruct St as (r & -> & St). injection St as -> ->. cbn [occ count_occ] in *. unfold occ in *. cbn [count_occ] in *. destruct (Z.eq_dec y x); lia.
    + destruct St as (-> & St). injection St as -> ->. lia.
Qed.
Lemma thread_bound (l : list ev) : exists n, forall e, In e l -> (ev_thread e < n)%nat.
Proof.
  induction l as [|e l [n IH]]; [exists 0%nat; intros e []|]. exists (S (ev_thread e) + n)%nat. intros e' [<-|He]; [lia|]. specialize (IH _ He). lia.
Qed.
