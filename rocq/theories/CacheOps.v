(** * Caches: one operation *)
From Verif Require Import Lib BitsModel BloomModel BloomProps RespoolProps Ptr ListModel ListSpec ListProofs ListProofs2 SlistModel SlistSpec SlistProofs HashmapModel HashmapSpec HashmapProofs HashmapProps.
From Verif Require Import CacheModel CacheSpec CacheProofs.

(** ** What the cache needs of its algorithm *)
Definition opt (g : option (mem -> Z -> option mem)) (m : mem) (n : Z) : option mem := match g with Some g => g m n | None => Some m end.
Record laws (al : algo) (U : list Z) (rep : mem -> list Z -> (Z -> Z) -> Prop) (victim : policy) : Prop := {
  l_starving : forall m l u, rep m l u -> a_starving al m = Some (match l with [] => true | _ => false end);
  l_obtain : forall m l u, rep m l u -> l <> [] -> exists m' l1 v l2, a_obtain al m = Some (m', v) /\ l = l1 ++ v :: l2 /\ rep m' (l1 ++ l2) u /\ victim l u v;
  l_get : forall m l1 n l2 u, rep m (l1 ++ n :: l2) u -> exists m', a_get al m n = Some m' /\ rep m' (l1 ++ l2) u;
  l_put : forall m l n u, rep m l u -> In n U -> ~ In n l -> exists m', a_put al m n = Some m' /\ rep m' (n :: l) u;
  l_update : forall m l n u, rep m l u -> In n U -> ~ In n l -> exists m', opt (a_update al) m n = Some m' /\ rep m' l (put_at u n (w64 (u n + 1)));
  l_clear : forall m l n u, rep m l u -> In n U -> ~ In n l -> exists m', opt (a_clear al) m n = Some m' /\ rep m' l (put_at u n 0);
  l_reset : forall m l u, rep m l u -> exists m', a_reset al m = Some m' /\ rep m' [] (fun _ => 0) }.
Lemma ocall_opt k g n : ocall k g n = let* m := opt g (k_algo k) n in Some (with_algo k m).
Proof. destruct g as [g|]; [reflexivity|]. destruct k. reflexivity. Qed.

Ltac kred := cbn [k_hash k_list k_algo k_node k_flags k_used k_pending k_changed k_starve k_hits k_misses with_hash with_list with_algo with_node with_counts with_flags with_used with_pending with_changed with_starve with_hits with_misses
                  s_free s_pend s_busy s_idle s_tag s_refs s_uses s_dirty s_starving s_changed s_starve s_hits s_misses move note hit miss calm] in *.

Section Ops.
Variables (cf : conf) (al : algo) (fuel : nat) (dat : Z -> Z) (rep : mem -> list Z -> (Z -> Z) -> Prop) (victim : policy) (bits : Z).
Notation U := (c_nodes cf).
Hypothesis LA : laws al U rep victim.
Hypothesis LW : lawful cf dat.
Hypothesis HS : 1 <= bits < 60 /\ c_size cf = 2 ^ bits.
Hypothesis NDU : NoDup U.
Hypothesis LU : zlen U = c_size cf.
Hypothesis DU : forall q, in_array (c_taghash cf) (c_size cf) q = true -> ~ In q U.
Hypothesis NU : ~ In NULL U.
Hypothesis FU : (length U <= fuel)%nat.
Hypothesis HM : 0 <= c_maxpend cf.
Notation hinv := (hinv (c_taghash cf) (c_size cf) (c_hash cf) U).
Notation fields := (fields U).
Notation cstep := (cstep (c_maxpend cf) U victim).

Definition kinds (s : cs) (stt tg dt : Z -> Z) : Prop :=
  (forall n, In n (s_pend s) -> stt n = PENDING) /\ (forall n, In n (s_busy s) -> stt n = USING) /\ (forall n, In n (s_idle s) -> stt n = MANAGED) /\
  forall n, In n (live s) -> tg n = s_tag s n /\ dt n = dat (s_tag s n).
Record sane (s : cs) : Prop := {
  i_all : Permutation (s_free s ++ live s) U;
  i_zero : forall n, In n (s_free s ++ s_idle s) -> s_refs s n = 0;
  i_pos : forall n, In n (s_pend s ++ s_busy s) -> 1 <= s_refs s n < 2 ^ 63;
  i_tags : forall a b, In a (live s) -> In b (live s) -> s_tag s a = s_tag s b -> a = b;
  i_starv : s_starving s = true -> s_free s = [] /\ s_idle s = [];
  i_pend : zlen (s_pend s) <= c_maxpend cf;
  i_chg : 0 <= s_changed s < 2 ^ 64 }.
Record inv (k : cache) (s : cs) : Prop := {
  i_sane : sane s;
  i_ring : rls (k_list k) ((c_using cf, s_busy s) :: (c_freed cf, s_free s) :: (c_changing cf, s_pend s) :: own (s_idle s));
  i_hash : hinv (k_hash k) (s_tag s) (live s);
  i_algo : rep (k_algo k) (s_idle s) (s_uses s);
  i_node : exists stt tg dt, fields (k_node k) stt (s_refs s) tg dt /\ kinds s stt tg dt;
  i_stats : [k_flags k; k_used k; k_pending k; k_changed k; k_starve k; k_hits k; k_misses k] = stats s }.

(** *** The lists are disjoint *)
Lemma all_nodup s : sane s -> NoDup (s_free s ++ live s).
Proof. intros H. apply (Permutation_NoDup (Permutation_sym (i_all s H)) NDU). Qed.
Lemma in_live s n : In n (live s) <-> In n (s_pend s) \/ In n (s_busy s) \/ In n (s_idle s).
Proof. unfold live. rewrite !in_app_iff. reflexivity. Qed.
Lemma dj s : sane s -> forall n, (In n (s_free s) -> ~ In n (live s)) /\ (In n (s_pend s) -> ~ In n (s_busy s) /\ ~ In n (s_idle s)) /\ (In n (s_busy s) -> ~ In n (s_pend s) /\ ~ In n (s_idle s)) /\ (In n (s_idle s) -> ~ In n (s_pend s) /\ ~ In n (s_busy s)).
Proof.
  intros H n. pose proof (all_nodup s H) as D. pose proof (nodup_disj _ _ D n) as D1. apply nodup_r in D. unfold live in *. pose proof (nodup_disj _ _ D n) as D2. apply nodup_r in D. pose proof (nodup_disj _ _ D n) as D3. rewrite !in_app_iff in *. clear - D1 D2 D3. tauto.
Qed.
Lemma dj_in s (l1 : list Z) n l2 l : sane s -> l = l1 ++ n :: l2 -> l = s_busy s \/ l = s_idle s \/ l = s_free s \/ l = s_pend s -> ~ In n (l1 ++ l2).
Proof.
  intros H E Hl. assert (D : NoDup l). { pose proof (all_nodup s H) as D. unfold live in D. destruct Hl as [->|[->|[->| ->]]]; [apply nodup_r, nodup_r, nodup_l in D|apply nodup_r, nodup_r, nodup_r in D|apply nodup_l in D|apply nodup_r, nodup_l in D]; exact D. }
  rewrite E in D. apply NoDup_remove_2 in D. exact D.
Qed.
Lemma in_U s n : sane s -> In n (s_free s ++ live s) -> In n U.
Proof. intros H Hn. apply (Permutation_in _ (i_all s H)), Hn. Qed.
Lemma live_U s n : sane s -> In n (live s) -> In n U.
Proof. intros H Hn. apply (in_U s n H), in_or_app. right. exact Hn. Qed.
Lemma nonnull n : In n U -> n <> NULL.
Proof. intros H ->. contradiction. Qed.
Lemma count_used s : sane s -> 0 <= zlen (s_pend s) + zlen (s_busy s) < 2 ^ 60.
Proof.
  intros H. pose proof (Permutation_length (i_all s H)) as L. unfold live in L. rewrite !app_length in L. assert (c_size cf < 2 ^ 60) by (destruct HS as [? ->]; apply Z.pow_lt_mono_r; lia). unfold zlen in *. lia.
Qed.
Lemma stats_get k s : inv k s -> k_flags k = Z.b2z (s_dirty s) + 2 * Z.b2z (s_starving s) /\ k_used k = zlen (s_pend s) + zlen (s_busy s) /\ k_pending k = zlen (s_pend s) /\ k_changed k = s_changed s /\ k_starve k = s_starve s /\ k_hits k = s_hits s /\ k_misses k = s_misses s.
Proof. intros [_ _ _ _ _ H]. unfold stats in H. injection H. auto 10. Qed.
Lemma starv_bit s : Z.testbit (Z.b2z (s_dirty s) + 2 * Z.b2z (s_starving s)) STARVING = s_starving s.
Proof. destruct (s_dirty s), (s_starving s); reflexivity. Qed.

(** *** Lookup *)
Lemma lookup_from_ok k stt rf tg dt t ch (tag : Z -> Z) : fields (k_node k) stt rf tg dt -> forall b h n, hpath (k_hash k) h b -> (length b <= n)%nat -> incl b U -> (forall x, In x b -> dt x = dat (tag x)) ->
  exists r, lookup_from cf n k t ch (hd NULL b) = Some r /\
   ((r = NULL /\ ((forall x, In x b -> tag x <> t) \/ ch = false /\ exists x, In x b /\ tag x = t /\ stt x = PENDING)) \/ (r <> NULL /\ In r b /\ tag r = t /\ (ch = true \/ stt r <> PENDING))).
Proof.
  intros HF. induction b as [|x b IH]; intros h n Hp Hn HI HD; cbn [hd].
  - exists NULL. split; [destruct n; reflexivity|]. left. split; [reflexivity|]. left. intros x [].
  - cbn [hpath length] in *. destruct Hp as (_ & Nx & _ & Hp). destruct n as [|n]; [lia|]. cbn [lookup_from]. rewrite (proj2 (Z.eqb_neq _ _) Nx). destruct (HF x (HI x (or_introl eq_refl))) as (F1 & F2 & F3 & F4). unfold ld. rewrite F4, (HD x (or_introl eq_refl)).
    destruct (Z.eqb_spec (c_find cf (dat (tag x)) t) 0) as [E|N]; cbn [negb].
    + apply (proj1 (LW _ _)) in E. rewrite F1. destruct (Z.eqb_spec (stt x) PENDING) as [Es|Ns]; cbn [negb orb].
      * destruct ch; [exists x; split; [reflexivity|]; right; split; [exact Nx|split; [left; reflexivity|split; [exact E|left; reflexivity]]]|]. exists NULL. split; [reflexivity|]. left. split; [reflexivity|]. right. split; [reflexivity|]. exists x. split; [left; reflexivity|split; assumption].
      * exists x. split; [reflexivity|]. right. split; [exact Nx|split; [left; reflexivity|split; [exact E|right; exact Ns]]].
    + rewrite (proj1 (proj1 (hpath_rest _ _ _) Hp)). destruct (IH x n Hp ltac:(lia)) as (r & E & D); [intros y Hy; apply HI; right; exact Hy|intros y Hy; apply HD; right; exact Hy|]. exists r. split; [exact E|].
      destruct D as [[-> [D|(D1 & y & D2 & D3 & D4)]]|(D1 & D2 & D3 & D4)].
      * left. split; [reflexivity|]. left. intros y [<-|Hy]; [|apply D, Hy]. intros C. apply N. apply (proj2 (LW _ _)). exact C.
      * left. split; [reflexivity|]. right. split; [exact D1|]. exists y. split; [right; exact D2|]. split; assumption.
      * right. split; [exact D1|split; [right; exact D2|split; assumption]].
Qed.
Lemma lookup_ok k s t ch : inv k s -> exists r, cache_lookup cf fuel k t ch = Some r /\
   ((r = NULL /\ (absent s t \/ ch = false /\ exists x, In x (s_pend s) /\ s_tag s x = t)) \/ (r <> NULL /\ In r (live s) /\ s_tag s r = t /\ (ch = true \/ ~ In r (s_pend s)))).
Proof.
  intros [HSa _ HH _ (stt & tg & dt & HF & K1 & K2 & K3 & K4) _]. destruct (hinv_bucket _ _ _ U bits HS DU _ _ _ t HH) as (i & b & E1 & E2 & Hp & Hi & ND & Hb). unfold cache_lookup. rewrite E1, E2.
  assert (Lb : (length b <= fuel)%nat). { eapply Nat.le_trans; [|exact FU]. apply NoDup_incl_length; [exact ND|]. intros x Hx. apply (live_U s x HSa), Hi, Hx. }
  destruct (lookup_from_ok k stt (s_refs s) tg dt t ch (s_tag s) HF b _ fuel Hp Lb) as (r & E & D); [intros x Hx; apply (live_U s x HSa), Hi, Hx|intros x Hx; apply K4, Hi, Hx|]. exists r. split; [exact E|].
  destruct D as [[-> [D|(D1 & y & D2 & D3 & D4)]]|(D1 & D2 & D3 & D4)].
  - left. split; [reflexivity|]. left. intros x Hx Ex. apply (D x); [apply Hb; assumption|exact Ex].
  - left. split; [reflexivity|]. right. split; [exact D1|]. exists y. split; [|exact D3]. pose proof (Hi y D2) as Ly. apply in_live in Ly. destruct Ly as [Ly|[Ly|Ly]]; [exact Ly|exfalso|exfalso]; [rewrite (K2 y Ly) in D4|rewrite (K3 y Ly) in D4]; discriminate.
  - right. split; [exact D1|]. split; [apply Hi, D2|]. split; [exact D3|]. destruct D4 as [D4|D4]; [left; exact D4|right]. intros C. apply D4, K1, C.
Qed.
Theorem find_ok k s t : inv k s -> exists n, find cf fuel k t = Some n /\ cstep s (CFind t) (RNode n) s.
Proof.
  intros HI. pose proof (i_sane k s HI) as SA. destruct (lookup_ok k s t false HI) as (r & E & D). exists r. split; [exact E|]. destruct D as [[-> D]|(D1 & D2 & D3 & D4)].
  - apply find_miss. intros n Hn Et. destruct D as [D|(_ & x & Hx & Ex)]; [apply (D n); [unfold live; apply in_or_app; right; exact Hn|exact Et]|].
    assert (n = x) by (apply (i_tags s SA); [unfold live; apply in_or_app; right; exact Hn|apply in_live; left; exact Hx|congruence]). subst x. destruct (dj s SA n) as (_ & P & _). apply in_app_iff in Hn. destruct (P Hx). tauto.
  - apply find_hit; [|exact D3]. destruct D4 as [D4|D4]; [discriminate|]. apply in_live in D2. apply in_app_iff. tauto.
Qed.

(** *** Requests *)
Ltac cases x n := destruct (Z.eq_dec x n) as [->|?]; [rewrite ?put_at_same|rewrite ?put_at_other by assumption].
Lemma in_mid (l1 : list Z) n l2 : In n (l1 ++ n :: l2).
Proof. apply in_or_app. right. left. reflexivity. Qed.
Lemma in_wo (l1 : list Z) n l2 x : In x (l1 ++ l2) -> In x (l1 ++ n :: l2).
Proof. clear. rewrite !in_app_iff. cbn. tauto. Qed.
Lemma in_w (l1 : list Z) n l2 x : In x (l1 ++ n :: l2) -> x <> n -> In x (l1 ++ l2).
Proof. clear. rewrite !in_app_iff. cbn. intros [H|[->|H]]; tauto. Qed.
Lemma nst_def k n f v : nst k n f v = let* m := st (k_node k) n f v in Some (with_node k m). Proof. reflexivity. Qed.
Lemma w64_small x : 0 <= x < 2 ^ 64 -> w64 x = x. Proof. intros H. unfold w64. apply Z.mod_small, H. Qed.
Notation apply_cop := (apply_cop cf al fuel dat).

Lemma obtain_pend_ok k s n fl : inv k s -> s_starving s = false -> In n (s_pend s) -> s_refs s n < 2 ^ 63 - 1 ->
  exists k' r s', (let* (k, q) := obtain_hit cf al k n fl in
      if q =? NULL then Some (k, RNode q) else
      let* status := ld (k_node k) q STATUS in
      if status =? PENDING then let* k := nst k q DATA (dat (s_tag s n)) in Some (k, RNode q) else Some (k, RNode q)) = Some (k', r) /\ cstep s (CObtain (s_tag s n) fl) r s' /\ inv k' s'.
Proof.
  intros HI Hs Hn Hr. pose proof (stats_get k s HI) as (T1 & T2 & T3 & T4 & T5 & T6 & T7). pose proof HI as [SA HR HH HA (stt & tg & dt & HF & K1 & K2 & K3 & K4) HT]. unfold obtain_hit. kred.
  assert (Hl : In n (live s)) by (apply in_live; left; exact Hn). pose proof (live_U s n SA Hl) as Un. destruct (HF n Un) as (F1 & F2 & F3 & F4). destruct (K4 n Hl) as [E1 E2].
  unfold ld at 1. rewrite F1, (K1 n Hn). change (PENDING =? PENDING) with true. cbn iota. destruct (Z.testbit fl UNCOMMITTED) eqn:Eb; cbn [negb].
  - unfold ld at 1. rewrite F2. rewrite (w64_small (s_refs s n + 1)) by (pose proof (i_pos s SA n ltac:(apply in_or_app; left; exact Hn)); lia). rewrite nst_def. kred.
    destruct (set_refs U (k_node k) stt (s_refs s) tg dt n (s_refs s n + 1) HF Un) as (m1 & E3 & HF1). rewrite E3. rewrite (proj2 (Z.eqb_neq _ _) (nonnull n Un)). unfold ld. kred. destruct (HF1 n Un) as (G1 & _). rewrite G1, (K1 n Hn). change (PENDING =? PENDING) with true. cbn iota.
    rewrite nst_def. kred. destruct (set_data U m1 stt _ tg dt n (dat (s_tag s n)) HF1 Un) as (m2 & E4 & HF2). rewrite E4. eexists. eexists. eexists. split; [reflexivity|]. split; [apply obtain_early; auto|]. constructor; kred.
    + destruct SA. constructor; kred; auto.
      * intros x Hx. cases x n; [|apply i_zero0, Hx]. exfalso. destruct (dj s (i_sane k s HI) n) as (D1 & D2 & _). apply in_app_iff in Hx. destruct Hx as [Hx|Hx]; [apply (D1 Hx Hl)|destruct (D2 Hn); contradiction].
      * intros x Hx. cases x n; [|apply i_pos0, Hx]. specialize (i_pos0 n ltac:(apply in_or_app; left; exact Hn)). lia.
    + exact HR.
    + exact HH.
    + exact HA.
    + exists stt, tg, (put_at dt n (dat (s_tag s n))). split; [exact HF2|]. split; [exact K1|]. split; [exact K2|]. split; [exact K3|]. kred. intros x Hx. cases x n; [split; [exact E1|reflexivity]|apply K4, Hx].
    + unfold stats in *. kred. congruence.
  - cbn. eexists. eexists. eexists. split; [reflexivity|]. split; [apply (obtain_pending _ _ _ _ _ fl n); auto|]. constructor; kred; auto.
    + destruct SA. constructor; auto.
    + exists stt, tg, dt. split; [exact HF|]. split; [exact K1|]. split; [exact K2|]. split; [exact K3|]. exact K4.
    + unfold stats in *. kred. congruence.
Qed.
Lemma obtain_busy_ok k s l1 n l2 fl : inv k s -> s_starving s = false -> s_busy s = l1 ++ n :: l2 -> s_refs s n < 2 ^ 63 - 1 ->
  exists k' r s', (let* (k, q) := obtain_hit cf al k n fl in
      if q =? NULL then Some (k, RNode q) else
      let* status := ld (k_node k) q STATUS in
      if status =? PENDING then let* k := nst k q DATA (dat (s_tag s n)) in Some (k, RNode q) else Some (k, RNode q)) = Some (k', r) /\ cstep s (CObtain (s_tag s n) fl) r s' /\ inv k' s'.
Proof.
  intros HI Hs Eb Hr. pose proof (stats_get k s HI) as (T1 & T2 & T3 & T4 & T5 & T6 & T7). pose proof HI as [SA HR HH HA (stt & tg & dt & HF & K1 & K2 & K3 & K4) HT]. unfold obtain_hit. kred.
  assert (Hn : In n (s_busy s)) by (rewrite Eb; apply in_mid). assert (Hl : In n (live s)) by (apply in_live; right; left; exact Hn). pose proof (live_U s n SA Hl) as Un. destruct (HF n Un) as (F1 & F2 & F3 & F4).
  destruct (dj s SA n) as (D1 & _ & D3 & _). destruct (D3 Hn) as [Np Ni]. pose proof (i_pos s SA n ltac:(apply in_or_app; right; exact Hn)) as Hp.
  unfold ld at 1. rewrite F1, (K2 n Hn). change (USING =? PENDING) with false. change (USING =? MANAGED) with false. cbn iota. rewrite ocall_opt. kred.
  destruct (l_update _ _ _ _ LA _ _ n _ HA Un Ni) as (m1 & E1 & HA1). rewrite E1. kred. unfold ld at 1. rewrite F2. rewrite (w64_small (s_refs s n + 1)) by lia. rewrite nst_def. kred.
  destruct (set_refs U (k_node k) stt (s_refs s) tg dt n (s_refs s n + 1) HF Un) as (m2 & E2 & HF2). rewrite E2. rewrite (proj2 (Z.eqb_neq (s_refs s n) 0)) by lia. kred.
  rewrite Eb in HR. destruct (rls_same _ _ _ _ _ _ HR) as (m3 & E3 & HR3). rewrite E3. rewrite nst_def. kred. destruct (set_status U m2 stt _ tg dt n USING HF2 Un) as (m4 & E4 & HF4). rewrite E4. rewrite (proj2 (Z.eqb_neq _ _) (nonnull n Un)).
  unfold ld. kred. destruct (HF4 n Un) as (G1 & _). rewrite G1, put_at_same. change (USING =? PENDING) with false. cbn iota. eexists. eexists. eexists. split; [reflexivity|]. split; [apply (obtain_busy _ _ _ _ _ fl l1 n l2); auto|].
  assert (PL : Permutation (live s) (s_pend s ++ (n :: l1 ++ l2) ++ s_idle s)) by (unfold live; rewrite Eb; psolve).
  assert (IB : forall x, In x (n :: l1 ++ l2) <-> In x (s_busy s)) by (intros x; rewrite Eb; cbn [In]; rewrite !in_app_iff; cbn [In]; tauto).
  constructor; kred.
  - destruct SA. constructor; kred; auto.
    + unfold live at 1. kred. eapply Permutation_trans; [|exact i_all0]. apply Permutation_app_head, Permutation_sym, PL.
    + intros x Hx. cases x n; [|apply i_zero0, Hx]. exfalso. apply in_app_iff in Hx. destruct Hx as [Hx|Hx]; [apply (D1 Hx Hl)|contradiction].
    + intros x Hx. cases x n; [lia|apply i_pos0]. rewrite in_app_iff in *. rewrite <- IB. exact Hx.
    + intros a b Ha Hb. apply i_tags0; apply (Permutation_in _ (Permutation_sym PL)); assumption.
  - exact HR3.
  - apply (hinv_perm _ _ _ _ _ _ _ _ PL HH).
  - exact HA1.
  - exists (put_at stt n USING), tg, dt. split; [exact HF4|]. split; [|split; [|split]]; kred.
    + intros x Hx. cases x n; [contradiction|apply K1, Hx].
    + intros x Hx. cases x n; [reflexivity|apply K2, IB, Hx].
    + intros x Hx. cases x n; [contradiction|apply K3, Hx].
    + intros x Hx. apply K4, (Permutation_in _ (Permutation_sym PL)), Hx.
  - unfold stats in *. kred. rewrite Eb in *. rewrite T1, T2, T3, T4, T5, T6, T7. f_equal. f_equal. f_equal. unfold zlen. cbn [length]. rewrite !app_length. cbn [length]. lia.
Qed.
Lemma obtain_idle_ok k s l1 n l2 fl : inv k s -> s_starving s = false -> s_idle s = l1 ++ n :: l2 ->
  exists k' r s', (let* (k, q) := obtain_hit cf al k n fl in
      if q =? NULL then Some (k, RNode q) else
      let* status := ld (k_node k) q STATUS in
      if status =? PENDING then let* k := nst k q DATA (dat (s_tag s n)) in Some (k, RNode q) else Some (k, RNode q)) = Some (k', r) /\ cstep s (CObtain (s_tag s n) fl) r s' /\ inv k' s'.
Proof.
  intros HI Hs Eb. pose proof (stats_get k s HI) as (T1 & T2 & T3 & T4 & T5 & T6 & T7). pose proof HI as [SA HR HH HA (stt & tg & dt & HF & K1 & K2 & K3 & K4) HT]. unfold obtain_hit. kred.
  assert (Hn : In n (s_idle s)) by (rewrite Eb; apply in_mid). assert (Hl : In n (live s)) by (apply in_live; right; right; exact Hn). pose proof (live_U s n SA Hl) as Un. destruct (HF n Un) as (F1 & F2 & F3 & F4).
  destruct (dj s SA n) as (D1 & _ & _ & D3). destruct (D3 Hn) as [Np Ni]. pose proof (i_zero s SA n ltac:(apply in_or_app; right; exact Hn)) as Hz.
  pose proof (dj_in s l1 n l2 (s_idle s) SA Eb ltac:(tauto)) as Nr. pose proof (count_used s SA) as CU.
  unfold ld at 1. rewrite F1, (K3 n Hn). change (MANAGED =? PENDING) with false. change (MANAGED =? MANAGED) with true. cbn iota. unfold acall. kred. rewrite Eb in HA. destruct (l_get _ _ _ _ LA _ _ _ _ _ HA) as (m0 & E0 & HA0). rewrite E0. rewrite ocall_opt. kred.
  destruct (l_update _ _ _ _ LA _ _ n _ HA0 Un Nr) as (m1 & E1 & HA1). rewrite E1. kred. unfold ld at 1. rewrite F2, Hz. change (w64 (0 + 1)) with 1. rewrite nst_def. kred.
  destruct (set_refs U (k_node k) stt (s_refs s) tg dt n 1 HF Un) as (m2 & E2 & HF2). rewrite E2. change (0 =? 0) with true. cbn iota. kred.
  rewrite Eb in HR. assert (PR : Permutation ((c_using cf, s_busy s) :: (c_freed cf, s_free s) :: (c_changing cf, s_pend s) :: own (l1 ++ n :: l2)) ((n, []) :: (c_using cf, s_busy s) :: (c_freed cf, s_free s) :: (c_changing cf, s_pend s) :: own (l1 ++ l2))).
  { eapply Permutation_trans; [apply perm_skip, perm_skip, perm_skip, own_pull|]. apply (Permutation_sym (Permutation_middle [(c_using cf, s_busy s); (c_freed cf, s_free s); (c_changing cf, s_pend s)] (own (l1 ++ l2)) (n, []))). }
  destruct (rls_alone _ _ _ _ _ (rls_perm _ _ _ PR HR)) as (m3 & E3 & HR3). rewrite E3. rewrite nst_def. kred. destruct (set_status U m2 stt _ tg dt n USING HF2 Un) as (m4 & E4 & HF4). rewrite E4. rewrite (proj2 (Z.eqb_neq _ _) (nonnull n Un)).
  unfold ld. kred. destruct (HF4 n Un) as (G1 & _). rewrite G1, put_at_same. change (USING =? PENDING) with false. cbn iota. eexists. eexists. eexists. split; [reflexivity|]. split; [apply (obtain_idle _ _ _ _ _ fl l1 n l2); auto|].
  assert (PL : Permutation (live s) (s_pend s ++ (n :: s_busy s) ++ l1 ++ l2)) by (unfold live; rewrite Eb; psolve).
  constructor; kred.
  - destruct SA. constructor; kred; auto.
    + unfold live at 1. kred. eapply Permutation_trans; [|exact i_all0]. apply Permutation_app_head, Permutation_sym, PL.
    + intros x Hx. cases x n; [exfalso; apply in_app_iff in Hx; destruct Hx as [Hx|Hx]; [apply (D1 Hx Hl)|contradiction]|]. apply i_zero0. rewrite in_app_iff in *. destruct Hx as [Hx|Hx]; [left; exact Hx|right; rewrite Eb; apply in_wo, Hx].
    + intros x Hx. cases x n; [lia|apply i_pos0]. rewrite in_app_iff in *. destruct Hx as [Hx|[<-|Hx]]; [left; exact Hx|contradiction|right; exact Hx].
    + intros a b Ha Hb. apply i_tags0; apply (Permutation_in _ (Permutation_sym PL)); assumption.
    + intros C. congruence.
  - exact HR3.
  - apply (hinv_perm _ _ _ _ _ _ _ _ PL HH).
  - exact HA1.
  - exists (put_at stt n USING), tg, dt. split; [exact HF4|]. split; [|split; [|split]]; kred.
    + intros x Hx. cases x n; [contradiction|apply K1, Hx].
    + intros x Hx. cases x n; [reflexivity|]. destruct Hx as [<-|Hx]; [contradiction|apply K2, Hx].
    + intros x Hx. cases x n; [contradiction|apply K3]. rewrite Eb. apply in_wo, Hx.
    + intros x Hx. apply K4, (Permutation_in _ (Permutation_sym PL)), Hx.
  - unfold stats in *. kred. rewrite T1, T2, T3, T4, T5, T6, T7. rewrite (w64_small (_ + _ + 1)) by lia. f_equal. f_equal. unfold zlen. cbn [length]. lia.
Qed.

Definition counts (k : cache) : list Z := [k_flags k; k_used k; k_pending k; k_changed k; k_starve k; k_hits k; k_misses k].
Lemma fill k (s : cs) (I : list Z) n t stt tg dt m3 : In n U -> ~ In n (s_pend s ++ s_busy s ++ I) -> ~ In n I ->
  list_move (k_list k) (c_changing cf) n = Some m3 -> hinv (k_hash k) (s_tag s) (s_pend s ++ s_busy s ++ I) -> rep (k_algo k) I (s_uses s) -> fields (k_node k) stt (s_refs s) tg dt ->
  exists k', (let* k := ocall k (a_clear al) n in
              let* k := nst k n TAG t in
              let* k := nst k n STATUS PENDING in
              let* m := list_move (k_list k) (c_changing cf) n in
              let k := with_list k m in
              let* k := cache_insert cf k n in
              Some (k, n)) = Some (k', n) /\ counts k' = counts k /\ k_list k' = m3 /\ hinv (k_hash k') (put_at (s_tag s) n t) (n :: s_pend s ++ s_busy s ++ I) /\ rep (k_algo k') I (put_at (s_uses s) n 0) /\
     fields (k_node k') (put_at stt n PENDING) (s_refs s) (put_at tg n t) dt.
Proof.
  intros Un Nl Ni E3 HH HA HF. rewrite ocall_opt. destruct (l_clear _ _ _ _ LA _ _ n _ HA Un Ni) as (m1 & E1 & HA1). rewrite E1. rewrite nst_def. kred.
  destruct (set_tag U _ _ _ _ _ n t HF Un) as (m2 & E2 & HF2). rewrite E2. rewrite nst_def. kred. destruct (set_status U _ _ _ _ _ n PENDING HF2 Un) as (m4 & E4 & HF4). rewrite E4. kred. rewrite E3. unfold cache_insert. unfold ld. kred. destruct (HF4 n Un) as (_ & _ & G & _). rewrite G, put_at_same.
  assert (HH' : hinv (k_hash k) (put_at (s_tag s) n t) (s_pend s ++ s_busy s ++ I)) by (revert HH; apply hinv_tag; intros x Hx; apply put_at_other; intros ->; contradiction).
  destruct (hinv_add _ _ _ U bits HS DU NU _ _ _ n HH' Un Nl) as (m5 & E5 & HH5). rewrite put_at_same in E5. rewrite E5. eexists. split; [reflexivity|]. split; [reflexivity|]. split; [reflexivity|]. split; [exact HH5|]. split; [exact HA1|exact HF4].
Qed.
Lemma cache_obtain_ok k s t stt tg dt : sane s -> rls (k_list k) ((c_using cf, s_busy s) :: (c_freed cf, s_free s) :: (c_changing cf, s_pend s) :: own (s_idle s)) -> hinv (k_hash k) (s_tag s) (live s) -> rep (k_algo k) (s_idle s) (s_uses s) ->
  fields (k_node k) stt (s_refs s) tg dt -> s_free s <> [] \/ s_idle s <> [] ->
  exists k' n F I, cache_obtain cf al k t = Some (k', n) /\ In n (s_free s ++ s_idle s) /\
    (s_free s = n :: F /\ I = s_idle s \/ s_free s = [] /\ F = [] /\ exists l1 l2, s_idle s = l1 ++ n :: l2 /\ I = l1 ++ l2 /\ victim (s_idle s) (s_uses s) n) /\
    Permutation (s_free s ++ live s) (F ++ n :: s_pend s ++ s_busy s ++ I) /\
    counts k' = counts k /\ rls (k_list k') ((c_using cf, s_busy s) :: (c_freed cf, F) :: (c_changing cf, n :: s_pend s) :: own I) /\ hinv (k_hash k') (put_at (s_tag s) n t) (n :: s_pend s ++ s_busy s ++ I) /\ rep (k_algo k') I (put_at (s_uses s) n 0) /\
     fields (k_node k') (put_at stt n PENDING) (s_refs s) (put_at tg n t) dt.
Proof.
  intros SA HR HH HA HF Hne. unfold cache_obtain. assert (HR1 : rls (k_list k) ((c_freed cf, s_free s) :: (c_using cf, s_busy s) :: (c_changing cf, s_pend s) :: own (s_idle s))) by (revert HR; apply rls_perm, perm_swap).
  pose proof (rls_hd _ _ _ _ HR1) as R1. rewrite (check_empty_ok _ _ _ R1). destruct (s_free s) as [|n F] eqn:Ef.
  - destruct Hne as [C|Hne]; [contradiction|]. destruct (l_obtain _ _ _ _ LA _ _ _ HA Hne) as (m1 & l1 & n & l2 & E1 & Ei & HA1 & Hv). rewrite E1. kred.
    assert (Hl : In n (live s)) by (apply in_live; right; right; rewrite Ei; apply in_mid). pose proof (live_U s n SA Hl) as Un.
    pose proof (dj_in s l1 n l2 (s_idle s) SA Ei ltac:(tauto)) as Nr. destruct (dj s SA n) as (_ & _ & _ & D3). destruct (D3 ltac:(rewrite Ei; apply in_mid)) as [Np Nb].
    assert (PL : Permutation (live s) (n :: s_pend s ++ s_busy s ++ l1 ++ l2)) by (unfold live; rewrite Ei; psolve).
    destruct (hinv_del _ _ _ U bits HS _ _ _ _ n HH PL) as (m2 & E2 & HH2). rewrite E2.
    assert (PR : Permutation ((c_using cf, s_busy s) :: (c_freed cf, []) :: (c_changing cf, s_pend s) :: own (s_idle s)) ((n, []) :: (c_changing cf, s_pend s) :: (c_using cf, s_busy s) :: (c_freed cf, []) :: own (l1 ++ l2))).
    { rewrite Ei. eapply Permutation_trans; [apply perm_skip, perm_skip, perm_skip, own_pull|]. eapply Permutation_trans; [apply (Permutation_sym (Permutation_middle [(c_using cf, s_busy s); (c_freed cf, []); (c_changing cf, s_pend s)] (own (l1 ++ l2)) (n, [])))|]. apply perm_skip.
      apply (Permutation_sym (Permutation_middle [(c_using cf, s_busy s); (c_freed cf, [])] (own (l1 ++ l2)) (c_changing cf, s_pend s))). }
    destruct (rls_alone _ _ _ _ _ (rls_perm _ _ _ PR HR)) as (m3 & E3 & HR3).
    destruct (fill (with_hash (with_algo k m1) m2) s (l1 ++ l2) n t stt tg dt m3) as (k' & E & C & L & H1 & H2 & H3); kred; auto.
    { rewrite !in_app_iff in *. tauto. }
    exists k', n, [], (l1 ++ l2). split; [exact E|]. split; [rewrite Ei; apply in_mid|]. split; [right; split; [reflexivity|]; split; [reflexivity|]; exists l1, l2; auto|]. split; [exact PL|]. split; [exact C|]. split; [|split; [exact H1|split; [exact H2|exact H3]]].
    rewrite L. revert HR3. apply rls_perm. apply (Permutation_middle [(c_using cf, s_busy s); (c_freed cf, [])] (own (l1 ++ l2)) (c_changing cf, n :: s_pend s)).
  - unfold ld at 1. rewrite (ring_next _ _ _ R1). cbn [hd].
    assert (Hf : In n (s_free s)) by (rewrite Ef; left; reflexivity). destruct (dj s SA n) as (D1 & _). pose proof (D1 Hf) as Nl. assert (Un : In n U) by (apply (in_U s n SA), in_or_app; left; exact Hf).
    assert (Ni : ~ In n (s_idle s)) by (intros C; apply Nl, in_live; tauto).
    assert (PR : Permutation ((c_freed cf, n :: F) :: (c_using cf, s_busy s) :: (c_changing cf, s_pend s) :: own (s_idle s)) ((c_freed cf, [] ++ n :: F) :: (c_changing cf, s_pend s) :: (c_using cf, s_busy s) :: own (s_idle s))) by (apply perm_skip, perm_swap).
    destruct (rls_move _ _ _ _ _ _ _ _ (rls_perm _ _ _ PR HR1)) as (m3 & E3 & HR3). cbn [app] in HR3.
    destruct (fill k s (s_idle s) n t stt tg dt m3) as (k' & E & C & L & H1 & H2 & H3); auto.
    exists k', n, F, (s_idle s). split; [exact E|]. split; [left; reflexivity|]. split; [left; auto|]. split; [unfold live; psolve|]. split; [exact C|]. split; [|split; [exact H1|split; [exact H2|exact H3]]].
    rewrite L. revert HR3. apply rls_perm. eapply Permutation_trans; [apply perm_skip, perm_swap|]. apply perm_swap.
Qed.
Lemma obtain_miss_ok k s t fl : inv k s -> s_starving s = false -> absent s t ->
  exists k' r s', (let* (k, n) := obtain_miss cf al k t fl in
      if n =? NULL then Some (k, RNode n) else
      let* status := ld (k_node k) n STATUS in
      if status =? PENDING then let* k := nst k n DATA (dat t) in Some (k, RNode n) else Some (k, RNode n)) = Some (k', r) /\ cstep s (CObtain t fl) r s' /\ inv k' s'.
Proof.
  intros HI Hs Hab. pose proof (stats_get k s HI) as (T1 & T2 & T3 & T4 & T5 & T6 & T7). pose proof HI as [SA HR HH HA (stt & tg & dt & HF & KK) HT]. unfold obtain_miss. kred.
  assert (NOTE : forall d v, (v = true -> s_free s = [] /\ s_idle s = []) -> inv (with_flags (with_misses k (w64 (k_misses k + 1))) (Z.b2z d + 2 * Z.b2z v)) (miss s d v)).
  { intros d v Hv. constructor; kred; auto; [destruct SA; constructor; auto|exists stt, tg, dt; split; [exact HF|exact KK]|]. unfold stats. kred. congruence. }
  assert (Eflag : Z.setbit (k_flags k) DIRTY = 1 /\ Z.setbit 1 STARVING = 3) by (rewrite T1, Hs; destruct (s_dirty s); split; reflexivity). destruct Eflag as [Ef1 Ef2].
  destruct (Z.testbit fl CHANGE) eqn:Ec; cbn [negb].
  2:{ cbn. eexists. eexists. exists (miss s (s_dirty s) false). split; [reflexivity|]. split; [apply miss_only; auto|]. pose proof (NOTE (s_dirty s) false ltac:(discriminate)) as G. rewrite <- Hs in G at 1. rewrite <- T1 in G. exact G. }
  unfold cache_starving. kred. rewrite Ef1. assert (HR1 : rls (k_list k) ((c_freed cf, s_free s) :: (c_using cf, s_busy s) :: (c_changing cf, s_pend s) :: own (s_idle s))) by (revert HR; apply rls_perm, perm_swap).
  pose proof (rls_hd _ _ _ _ HR1) as R1. rewrite (check_empty_ok _ _ _ R1). rewrite (l_starving _ _ _ _ LA _ _ _ HA).
  assert (D : (s_free s = [] /\ s_idle s = []) \/ (s_free s <> [] \/ s_idle s <> [])) by (destruct (s_free s); [destruct (s_idle s)|]; [left; auto|right; right; discriminate|right; left; discriminate]).
  destruct D as [[D1 D2]|D].
  - rewrite D1, D2. cbn. eexists. eexists. exists (miss s true true). split; [reflexivity|]. split; [apply miss_starving; auto|]. apply (NOTE true true). auto.
  - assert (E0 : (if match s_free s with [] => true | _ :: _ => false end then Some (match s_idle s with [] => true | _ :: _ => false end) else Some false) = Some false).
    { destruct (s_free s); [|reflexivity]. destruct (s_idle s); [exfalso; destruct D as [D|D]; apply D; reflexivity|reflexivity]. }
    rewrite E0. kred. rewrite T3. destruct (Z.geb_spec (zlen (s_pend s)) (c_maxpend cf)) as [Hp|Hp].
    { cbn. eexists. eexists. exists (miss s true false). split; [reflexivity|]. split; [apply miss_full; auto|]. apply (NOTE true false). discriminate. }
    set (k1 := with_flags (with_misses k (w64 (k_misses k + 1))) 1).
    destruct (cache_obtain_ok k1 s t stt tg dt) as (k2 & n & F & I & E & Hn & HC & HP & CT & HR2 & HH2 & HA2 & HF2); auto. rewrite E.
    assert (Un : In n U) by (apply (in_U s n SA); revert Hn; unfold live; rewrite !in_app_iff; tauto). rewrite (proj2 (Z.eqb_neq _ _) (nonnull n Un)). unfold ld at 1. kred. destruct (HF2 n Un) as (_ & G2 & _). rewrite G2. pose proof (i_zero s SA n Hn) as Hz. rewrite Hz. change (w64 (0 + 1)) with 1.
    rewrite nst_def. kred. destruct (set_refs U _ _ _ _ _ n 1 HF2 Un) as (m3 & E3 & HF3). rewrite E3. kred. rewrite (proj2 (Z.eqb_neq _ _) (nonnull n Un)). unfold ld. kred. destruct (HF3 n Un) as (G3 & _). rewrite G3, put_at_same. change (PENDING =? PENDING) with true. cbn iota. rewrite nst_def. kred.
    destruct (set_data U _ _ _ _ _ n (dat t) HF3 Un) as (m4 & E4 & HF4). rewrite E4.
    set (s' := move (miss s true false) F (n :: s_pend s) (s_busy s) I (put_at (s_tag s) n t) (put_at (s_refs s) n 1) (put_at (s_uses s) n 0)).
    eexists. eexists. exists s'. split; [reflexivity|]. split.
    { unfold s'. destruct HC as [[H1 ->]|(H1 & -> & l1 & l2 & H2 & -> & H3)]; [apply miss_free; auto|apply (miss_evict _ _ _ _ t fl l1 n l2); auto]. }
    destruct (dj s SA n) as (D1 & _ & _ & D4). assert (Np : ~ In n (s_pend s) /\ ~ In n (s_busy s)).
    { apply in_app_iff in Hn. destruct Hn as [Hn|Hn]; [split; intros C; apply (D1 Hn), in_live; tauto|apply D4, Hn]. }
    assert (Nn : NoDup (F ++ n :: s_pend s ++ s_busy s ++ I)) by (apply (Permutation_NoDup HP), (all_nodup s SA)).
    assert (NI : ~ In n I /\ ~ In n F). { apply NoDup_remove_2 in Nn. rewrite !in_app_iff in Nn. tauto. } destruct NI as [NI NF].
    assert (IF : forall x, In x F -> In x (s_free s)) by (intros x Hx; destruct HC as [[H1 _]|(_ & -> & _)]; [rewrite H1; right; exact Hx|destruct Hx]).
    assert (II : forall x, In x I -> In x (s_idle s)) by (intros x Hx; destruct HC as [[_ ->]|(_ & _ & l1 & l2 & H2 & -> & _)]; [exact Hx|rewrite H2; apply in_wo, Hx]).
    assert (IL : forall x, In x (live s') <-> x = n \/ (x <> n /\ In x (s_pend s ++ s_busy s ++ I))).
    { intros x. unfold live, s'. kred. cbn [app In]. destruct (Z.eq_dec x n) as [->|N0]; [tauto|]. split; [intros [C|C]; [congruence|right; split; assumption]|tauto]. }
    assert (LL : forall x, In x (s_pend s ++ s_busy s ++ I) -> In x (live s)) by (intros x; unfold live; rewrite !in_app_iff; intros [H|[H|H]]; auto).
    destruct KK as (K1 & K2 & K3 & K4). constructor; unfold s'; kred; fold s'.
    + destruct SA. constructor; unfold s'; kred; fold s'.
      * eapply Permutation_trans; [|exact i_all0]. apply Permutation_sym. exact HP.
      * intros x Hx. apply in_app_iff in Hx. cases x n; [exfalso; tauto|]. apply i_zero0, in_or_app. destruct Hx as [Hx|Hx]; [left; apply IF, Hx|right; apply II, Hx].
      * intros x Hx. cases x n; [lia|]. apply i_pos0. rewrite in_app_iff in *. destruct Hx as [[Hx|Hx]|Hx]; [congruence|left; exact Hx|right; exact Hx].
      * intros a b Ha Hb. apply IL in Ha, Hb. destruct Ha as [->|[Na Ha]], Hb as [->|[Nb Hb]]; rewrite ?put_at_same, ?put_at_other by assumption; intros Et; [reflexivity|exfalso; apply (Hab b (LL b Hb)); congruence|exfalso; apply (Hab a (LL a Ha)); congruence|apply i_tags0; auto].
      * discriminate.
      * rewrite zlen_cons. lia.
      * assumption.
    + exact HR2.
    + exact HH2.
    + exact HA2.
    + exists (put_at stt n PENDING), (put_at tg n t), (put_at dt n (dat t)). split; [exact HF4|]. split; [|split; [|split]]; unfold s'; kred; fold s'.
      * intros x Hx. cases x n; [reflexivity|]. destruct Hx as [Hx|Hx]; [congruence|apply K1, Hx].
      * intros x Hx. cases x n; [tauto|apply K2, Hx].
      * intros x Hx. cases x n; [contradiction|apply K3, II, Hx].
      * intros x Hx. apply IL in Hx. destruct Hx as [->|[Nx Hx]]; rewrite ?put_at_same, ?put_at_other by assumption; [auto|apply K4, LL, Hx].
    + unfold counts, k1 in CT. kred. injection CT as C1 C2 C3 C4 C5 C6 C7. pose proof (count_used s SA) as CU. rewrite C1, C2, C3, C4, C5, C6, C7, T2, T3, T4, T5, T6, T7. unfold stats, s'. kred. rewrite !zlen_cons. rewrite (w64_small (zlen (s_pend s) + zlen (s_busy s) + 1)) by lia. rewrite (w64_small (zlen (s_pend s) + 1)) by (unfold zlen in *; lia). change (Z.clearbit 1 STARVING) with 1. replace (zlen (s_pend s) + 1 + zlen (s_busy s)) with (zlen (s_pend s) + zlen (s_busy s) + 1) by lia. reflexivity.
Qed.
Theorem obtain_ok k s t fl : inv k s -> callowed s (CObtain t fl) -> exists k' r s', apply_cop k (CObtain t fl) = Some (k', r) /\ cstep s (CObtain t fl) r s' /\ inv k' s'.
Proof.
  intros HI Ha. pose proof (stats_get k s HI) as (T1 & T2 & T3 & T4 & T5 & T6 & T7). pose proof (i_sane k s HI) as SA. cbn [CacheModel.apply_cop]. unfold obtain. rewrite T1, starv_bit. destruct (s_starving s) eqn:Hs.
  - cbn. eexists. eexists. eexists. split; [reflexivity|]. split; [apply obtain_starved, Hs|]. destruct HI as [_ HR HH HA HN HT]. constructor; kred; auto; [destruct SA; constructor; kred; auto|]. unfold stats in *. kred. rewrite ?Hs in *. congruence.
  - destruct (lookup_ok k s t true HI) as (r & E & D). rewrite E. destruct D as [[-> D]|(D1 & D2 & D3 & _)].
    + change (NULL =? NULL) with true. cbn [negb]. destruct D as [D|[D _]]; [|discriminate]. apply (obtain_miss_ok k s t fl HI Hs D).
    + rewrite (proj2 (Z.eqb_neq _ _) D1). cbn [negb]. subst t. pose proof D2 as D2'. apply in_live in D2'. destruct D2' as [H|[H|H]].
      * apply (obtain_pend_ok k s r fl HI Hs H). apply (Ha r D2 eq_refl).
      * apply in_split in H. destruct H as (l1 & l2 & H). apply (obtain_busy_ok k s l1 r l2 fl HI Hs H). apply (Ha r D2 eq_refl).
      * apply in_split in H. destruct H as (l1 & l2 & H). apply (obtain_idle_ok k s l1 r l2 fl HI Hs H).
Qed.

(** *** Release, renaming, deletion *)
Lemma note_same k s : inv k s -> s_starving s = true \/ s_starving s = false. Proof. intros _. destruct (s_starving s); auto. Qed.
Theorem put_ok k s n : inv k s -> callowed s (CPut n) -> exists k' r s', apply_cop k (CPut n) = Some (k', r) /\ cstep s (CPut n) r s' /\ inv k' s'.
Proof.
  intros HI Hl. cbn [callowed] in Hl. pose proof (stats_get k s HI) as (T1 & T2 & T3 & T4 & T5 & T6 & T7). pose proof HI as [SA HR HH HA (stt & tg & dt & HF & KK) HT]. pose proof KK as (K1 & K2 & K3 & K4). cbn [CacheModel.apply_cop]. unfold put.
  pose proof (live_U s n SA Hl) as Un. destruct (HF n Un) as (F1 & F2 & F3 & F4). unfold ld at 1. rewrite F1. destruct (dj s SA n) as (D1 & D2 & D3 & D4). apply in_live in Hl. destruct Hl as [Hl|[Hl|Hl]].
  - rewrite (K1 n Hl). cbn. eexists. eexists. exists s. split; [reflexivity|]. split; [apply put_not, D2, Hl|exact HI].
  - rewrite (K2 n Hl). change (USING =? USING) with true. cbn [negb]. unfold ld at 1. rewrite F2. pose proof (i_pos s SA n ltac:(apply in_or_app; right; exact Hl)) as Hp. rewrite (w64_small (s_refs s n - 1)) by lia. rewrite nst_def. kred.
    destruct (set_refs U _ _ _ _ _ n (s_refs s n - 1) HF Un) as (m1 & E1 & HF1). rewrite E1. destruct (D3 Hl) as [Np Ni]. assert (Hlv : In n (live s)) by (apply in_live; tauto).
    destruct (Z.eqb_spec (s_refs s n - 1) 0) as [Ez|Nz].
    + kred. pose proof Hl as Hl'. apply in_split in Hl'. destruct Hl' as (l1 & l2 & Eb). rewrite Eb in HR. destruct (rls_own _ _ _ _ _ _ HR) as (m2 & E2 & HR2). rewrite E2. unfold acall. kred. destruct (l_put _ _ _ _ LA _ _ n _ HA Un Ni) as (m3 & E3 & HA3). rewrite E3. rewrite nst_def. kred.
      destruct (set_status U _ _ _ _ _ n MANAGED HF1 Un) as (m4 & E4 & HF4). rewrite E4. unfold ld. kred. destruct (HF4 n Un) as (_ & G2 & _). rewrite G2, put_at_same, Ez. rewrite Ez in HF4. eexists. eexists. eexists. split; [reflexivity|]. split; [apply (put_last _ _ _ _ l1 n l2); [exact Eb|lia]|].
      pose proof (dj_in s l1 n l2 (s_busy s) SA Eb ltac:(tauto)) as Nr. assert (PL : Permutation (live s) (s_pend s ++ (l1 ++ l2) ++ n :: s_idle s)) by (unfold live; rewrite Eb; psolve). pose proof (count_used s SA) as CU.
      constructor; kred.
      * destruct SA. constructor; kred; auto.
        -- unfold live at 1. kred. eapply Permutation_trans; [|exact i_all0]. apply Permutation_app_head, Permutation_sym, PL.
        -- intros x Hx. cases x n; [reflexivity|]. apply i_zero0. rewrite in_app_iff in *. destruct Hx as [Hx|[Hx|Hx]]; [tauto|congruence|tauto].
        -- intros x Hx. cases x n; [exfalso; apply in_app_iff in Hx; tauto|]. apply i_pos0. rewrite in_app_iff in *. destruct Hx as [Hx|Hx]; [tauto|right; rewrite Eb; apply in_wo, Hx].
        -- intros a b Ha Hb. apply i_tags0; apply (Permutation_in _ (Permutation_sym PL)); assumption.
        -- discriminate.
      * revert HR2. apply rls_perm. apply perm_skip. apply (Permutation_middle [(c_freed cf, s_free s); (c_changing cf, s_pend s)] (own (s_idle s)) (n, [])).
      * apply (hinv_perm _ _ _ _ _ _ _ _ PL HH).
      * exact HA3.
      * exists (put_at stt n MANAGED), tg, dt. split; [exact HF4|]. split; [|split; [|split]]; kred.
        -- intros x Hx. cases x n; [contradiction|apply K1, Hx].
        -- intros x Hx. cases x n; [contradiction|]. apply K2. rewrite Eb. apply in_wo, Hx.
        -- intros x Hx. cases x n; [reflexivity|]. destruct Hx as [Hx|Hx]; [congruence|apply K3, Hx].
        -- intros x Hx. apply K4, (Permutation_in _ (Permutation_sym PL)), Hx.
      * unfold stats. kred. rewrite Eb in *. assert (EL : zlen (l1 ++ n :: l2) = zlen (l1 ++ l2) + 1) by (unfold zlen; rewrite !app_length; cbn [length]; lia). rewrite T1, T2, T3, T4, T5, T6, T7, EL. rewrite (w64_small (zlen (s_pend s) + (zlen (l1 ++ l2) + 1) - 1)) by (clear - CU EL; unfold zlen in *; lia). replace (zlen (s_pend s) + (zlen (l1 ++ l2) + 1) - 1) with (zlen (s_pend s) + zlen (l1 ++ l2)) by lia. f_equal. destruct (s_dirty s), (s_starving s); reflexivity.
    + unfold ld. kred. destruct (HF1 n Un) as (_ & G2 & _). rewrite G2, put_at_same. eexists. eexists. eexists. split; [reflexivity|]. split; [apply put_one; [exact Hl|lia]|]. constructor; kred; auto.
      * destruct SA. constructor; kred; auto.
        -- intros x Hx. cases x n; [|apply i_zero0, Hx]. exfalso. apply in_app_iff in Hx. destruct Hx as [Hx|Hx]; [apply (D1 Hx Hlv)|contradiction].
        -- intros x Hx. cases x n; [lia|apply i_pos0, Hx].
      * exists stt, tg, dt. split; [exact HF1|exact KK].
  - rewrite (K3 n Hl). cbn. eexists. eexists. exists s. split; [reflexivity|]. split; [apply put_not, D4, Hl|exact HI].
Qed.
Lemma not_idle_status s stt tg dt n : sane s -> kinds s stt tg dt -> In n (live s) -> (In n (s_idle s) /\ stt n = MANAGED) \/ (~ In n (s_idle s) /\ stt n <> MANAGED).
Proof.
  intros SA (K1 & K2 & K3 & K4) Hl. destruct (dj s SA n) as (D1 & D2 & D3 & D4). apply in_live in Hl. destruct Hl as [Hl|[Hl|Hl]]; [right; split; [apply D2, Hl|rewrite (K1 n Hl); discriminate]|right; split; [apply D3, Hl|rewrite (K2 n Hl); discriminate]|left; split; [exact Hl|apply K3, Hl]].
Qed.
Theorem set_ok k s n t : inv k s -> callowed s (CSet n t) -> exists k' r s', apply_cop k (CSet n t) = Some (k', r) /\ cstep s (CSet n t) r s' /\ inv k' s'.
Proof.
  intros HI [Hl Ht]. pose proof (stats_get k s HI) as (T1 & T2 & T3 & T4 & T5 & T6 & T7). pose proof HI as [SA HR HH HA (stt & tg & dt & HF & KK) HT]. pose proof KK as (K1 & K2 & K3 & K4). cbn [CacheModel.apply_cop]. unfold set.
  pose proof (live_U s n SA Hl) as Un. destruct (HF n Un) as (F1 & F2 & F3 & F4). unfold ld at 1. rewrite F1. destruct (not_idle_status s stt tg dt n SA KK Hl) as [[Hi Es]|[Ni Es]].
  2:{ rewrite (proj2 (Z.eqb_neq _ _) Es). cbn. eexists. eexists. exists s. split; [reflexivity|]. split; [apply set_not, Ni|exact HI]. }
  rewrite Es. change (MANAGED =? MANAGED) with true. cbn [negb]. rewrite nst_def. destruct (set_tag U _ _ _ _ _ n t HF Un) as (m1 & E1 & HF1). rewrite E1. unfold acall at 1. kred. pose proof Hi as Hi'. apply in_split in Hi'. destruct Hi' as (l1 & l2 & Eb).
  pose proof (dj_in s l1 n l2 (s_idle s) SA Eb ltac:(tauto)) as Nr. destruct (dj s SA n) as (D1 & D2 & D3 & D4). destruct (D4 Hi) as [Np Nb].
  rewrite Eb in HA. destruct (l_get _ _ _ _ LA _ _ _ _ _ HA) as (m2 & E2 & HA2). rewrite E2. kred.
  assert (PL : Permutation (live s) (n :: s_pend s ++ s_busy s ++ l1 ++ l2)) by (unfold live; rewrite Eb; psolve). destruct (hinv_del _ _ _ U bits HS _ _ _ _ n HH PL) as (m3 & E3 & HH3). rewrite E3. unfold cache_insert. unfold ld. kred. destruct (HF1 n Un) as (_ & _ & G3 & _). rewrite G3, put_at_same.
  assert (Nl : ~ In n (s_pend s ++ s_busy s ++ l1 ++ l2)) by (rewrite !in_app_iff in *; tauto).
  assert (HH' : hinv m3 (put_at (s_tag s) n t) (s_pend s ++ s_busy s ++ l1 ++ l2)) by (revert HH3; apply hinv_tag; intros x Hx; apply put_at_other; intros ->; contradiction).
  destruct (hinv_add _ _ _ U bits HS DU NU _ _ _ n HH' Un Nl) as (m5 & E5 & HH5). rewrite put_at_same in E5. rewrite E5. rewrite ocall_opt. kred. destruct (l_update _ _ _ _ LA _ _ n _ HA2 Un Nr) as (m6 & E6 & HA6). rewrite E6. unfold acall. kred.
  destruct (l_put _ _ _ _ LA _ _ n _ HA6 Un Nr) as (m7 & E7 & HA7). rewrite E7. change (0 =? 0) with true. cbn iota. rewrite nst_def. kred. destruct (set_data U _ _ _ _ _ n (dat t) HF1 Un) as (m8 & E8 & HF8). rewrite E8. eexists. eexists. eexists. split; [reflexivity|]. split; [apply (set_idle _ _ _ _ l1 n l2 t Eb)|].
  assert (PL' : Permutation (live s) (s_pend s ++ s_busy s ++ n :: l1 ++ l2)) by (unfold live; rewrite Eb; psolve). constructor; kred.
  - destruct SA. constructor; kred; auto.
    + unfold live at 1. kred. eapply Permutation_trans; [|exact i_all0]. apply Permutation_app_head, Permutation_sym, PL'.
    + intros x Hx. apply i_zero0. rewrite in_app_iff in *. destruct Hx as [Hx|[<-|Hx]]; [tauto|tauto|]. right. rewrite Eb. apply in_wo, Hx.
    + intros a b Ha Hb. apply (Permutation_in _ (Permutation_sym PL')) in Ha, Hb. cases a n; cases b n; intros Et; [reflexivity|exfalso; apply (Ht b Hb); congruence|exfalso; apply (Ht a Ha); congruence|apply i_tags0; assumption].
    + intros C. destruct (i_starv0 C) as [C1 C2]. rewrite C2 in Eb. destruct l1; discriminate.
  - revert HR. rewrite Eb. apply rls_perm. do 3 apply perm_skip. apply own_pull.
  - revert HH5. apply hinv_perm. unfold live. kred. psolve.
  - exact HA7.
  - exists stt, (put_at tg n t), (put_at dt n (dat t)). split; [exact HF8|]. split; [exact K1|]. split; [exact K2|]. split; kred.
    + intros x [<-|Hx]; [exact Es|]. apply K3. rewrite Eb. apply in_wo, Hx.
    + intros x Hx. cases x n; [auto|]. apply K4, (Permutation_in _ (Permutation_sym PL')), Hx.
  - unfold stats in *. kred. congruence.
Qed.
Theorem del_ok k s n : inv k s -> callowed s (CDel n) -> exists k' r s', apply_cop k (CDel n) = Some (k', r) /\ cstep s (CDel n) r s' /\ inv k' s'.
Proof.
  intros HI Hl. cbn [callowed] in Hl. pose proof (stats_get k s HI) as (T1 & T2 & T3 & T4 & T5 & T6 & T7). pose proof HI as [SA HR HH HA (stt & tg & dt & HF & KK) HT]. pose proof KK as (K1 & K2 & K3 & K4). cbn [CacheModel.apply_cop]. unfold del.
  pose proof (live_U s n SA Hl) as Un. destruct (HF n Un) as (F1 & F2 & F3 & F4). unfold ld at 1. rewrite F1. destruct (not_idle_status s stt tg dt n SA KK Hl) as [[Hi Es]|[Ni Es]].
  2:{ rewrite (proj2 (Z.eqb_neq _ _) Es). cbn. eexists. eexists. exists s. split; [reflexivity|]. split; [apply del_not, Ni|exact HI]. }
  rewrite Es. change (MANAGED =? MANAGED) with true. cbn [negb]. rewrite nst_def. destruct (set_status U _ _ _ _ _ n FREED HF Un) as (m1 & E1 & HF1). rewrite E1. unfold acall. kred. pose proof Hi as Hi'. apply in_split in Hi'. destruct Hi' as (l1 & l2 & Eb).
  pose proof (dj_in s l1 n l2 (s_idle s) SA Eb ltac:(tauto)) as Nr. destruct (dj s SA n) as (D1 & D2 & D3 & D4). destruct (D4 Hi) as [Np Nb].
  rewrite Eb in HA. destruct (l_get _ _ _ _ LA _ _ _ _ _ HA) as (m2 & E2 & HA2). rewrite E2. kred.
  assert (PL : Permutation (live s) (n :: s_pend s ++ s_busy s ++ l1 ++ l2)) by (unfold live; rewrite Eb; psolve). destruct (hinv_del _ _ _ U bits HS _ _ _ _ n HH PL) as (m3 & E3 & HH3). rewrite E3. kred.
  rewrite Eb in HR. assert (PR : Permutation ((c_using cf, s_busy s) :: (c_freed cf, s_free s) :: (c_changing cf, s_pend s) :: own (l1 ++ n :: l2)) ((n, []) :: (c_freed cf, s_free s) :: (c_using cf, s_busy s) :: (c_changing cf, s_pend s) :: own (l1 ++ l2))).
  { eapply Permutation_trans; [apply perm_skip, perm_skip, perm_skip, own_pull|]. eapply Permutation_trans; [apply (Permutation_sym (Permutation_middle [(c_using cf, s_busy s); (c_freed cf, s_free s); (c_changing cf, s_pend s)] (own (l1 ++ l2)) (n, [])))|]. apply perm_skip, perm_swap. }
  destruct (rls_alone _ _ _ _ _ (rls_perm _ _ _ PR HR)) as (m4 & E4 & HR4). rewrite E4. eexists. eexists. eexists. split; [reflexivity|]. split; [apply (del_idle _ _ _ _ l1 n l2 Eb)|].
  assert (PL' : Permutation (s_free s ++ live s) ((n :: s_free s) ++ s_pend s ++ s_busy s ++ l1 ++ l2)) by (unfold live; rewrite Eb; psolve).
  assert (LL : forall x, In x (s_pend s ++ s_busy s ++ l1 ++ l2) -> In x (live s)) by (intros x Hx; apply (Permutation_in _ (Permutation_sym PL)); right; exact Hx).
  constructor; kred.
  - destruct SA. constructor; kred; auto.
    + unfold live at 1. kred. eapply Permutation_trans; [|exact i_all0]. apply Permutation_sym, PL'.
    + intros x Hx. apply i_zero0. rewrite in_app_iff in *. destruct Hx as [[<-|Hx]|Hx]; [tauto|tauto|]. right. rewrite Eb. apply in_wo, Hx.
    + intros C. destruct (i_starv0 C) as [C1 C2]. rewrite C2 in Eb. destruct l1; discriminate.
  - revert HR4. apply rls_perm, perm_swap.
  - exact HH3.
  - exact HA2.
  - exists (put_at stt n FREED), tg, dt. split; [exact HF1|]. split; [|split; [|split]]; kred.
    + intros x Hx. cases x n; [contradiction|apply K1, Hx].
    + intros x Hx. cases x n; [contradiction|apply K2, Hx].
    + intros x Hx. cases x n; [contradiction|]. apply K3. rewrite Eb. apply in_wo, Hx.
    + intros x Hx. apply K4, LL, Hx.
  - unfold stats in *. kred. congruence.
Qed.

(** *** Commit *)
Lemma commit_loop B F I : forall P n k acc stt rf tg dt tmp, (length P <= n)%nat -> rls (k_list k) ((c_using cf, acc) :: (c_freed cf, F) :: (c_changing cf, P) :: own I) -> fields (k_node k) stt rf tg dt -> incl P U -> (P <> [] -> tmp = hd (c_changing cf) (tl P)) ->
  B = rev P ++ acc ->
  exists k' stt', commit_from cf n k (hd (c_changing cf) P) tmp = Some k' /\ rls (k_list k') ((c_using cf, B) :: (c_freed cf, F) :: (c_changing cf, []) :: own I) /\ fields (k_node k') stt' rf tg dt /\
    (forall x, In x P -> stt' x = USING) /\ (forall x, ~ In x P -> stt' x = stt x) /\ k_hash k' = k_hash k /\ k_algo k' = k_algo k /\
    k_flags k' = k_flags k /\ k_used k' = k_used k /\ k_pending k' = k_pending k /\ k_starve k' = k_starve k /\ k_hits k' = k_hits k /\ k_misses k' = k_misses k /\ (0 <= k_changed k < 2 ^ 64 -> k_changed k' = w64 (k_changed k + zlen P)).
Proof.
  induction P as [|x P IH]; intros n k acc stt rf tg dt tmp Hn HR HF HI Ht EB; cbn [hd].
  - exists k, stt. split; [destruct n; cbn [commit_from]; rewrite Z.eqb_refl; reflexivity|]. subst B. split; [exact HR|]. split; [exact HF|]. split; [intros x []|]. split; [auto|]. do 8 (split; [reflexivity|]). change (zlen (@nil Z)) with 0. rewrite Z.add_0_r. intros H. symmetry. apply w64_small, H.
  - assert (PR : Permutation ((c_using cf, acc) :: (c_freed cf, F) :: (c_changing cf, x :: P) :: own I) ((c_changing cf, [] ++ x :: P) :: (c_using cf, acc) :: (c_freed cf, F) :: own I)).
    { apply (Permutation_sym (Permutation_middle [(c_using cf, acc); (c_freed cf, F)] (own I) (c_changing cf, x :: P))). }
    pose proof (rls_perm _ _ _ PR HR) as HR1. pose proof (rls_hd _ _ _ _ HR1) as [D1 _]. apply NoDup_cons_iff in D1. destruct D1 as [D1 D2]. cbn [app] in D1, D2. apply NoDup_cons_iff in D2. destruct D2 as [Nx _].
    destruct n as [|n]; [cbn [length] in Hn; lia|]. cbn [commit_from]. rewrite (proj2 (Z.eqb_neq x (c_changing cf))) by (intros ->; apply D1; left; reflexivity).
    destruct (rls_move _ _ _ _ _ _ _ _ HR1) as (m1 & E1 & HR2). rewrite E1. cbn [app] in HR2. rewrite nst_def. kred. assert (Ux : In x U) by (apply HI; left; reflexivity). destruct (set_status U _ _ _ _ _ x USING HF Ux) as (m2 & E2 & HF2). rewrite E2. kred.
    pose proof (Ht ltac:(discriminate)) as Et. cbn [tl] in Et. pose proof (rls_hd _ _ _ _ HR2) as R2. assert (Hnx : exists t', ld m1 tmp NEXT = Some t' /\ (P <> [] -> t' = hd (c_changing cf) (tl P))).
    { subst tmp. destruct P as [|y P]; cbn [hd tl]; unfold ld; [rewrite (ring_next _ _ _ R2); eexists; split; [reflexivity|congruence]|]. rewrite (next_at _ _ [] y P R2). eexists. split; [reflexivity|auto]. }
    destruct Hnx as (t' & E3 & Ht'). rewrite E3. subst tmp.
    set (k1 := with_changed (with_node (with_list k m1) m2) (w64 (k_changed k + 1))).
    assert (PR' : Permutation ((c_changing cf, P) :: (c_using cf, x :: acc) :: (c_freed cf, F) :: own I) ((c_using cf, x :: acc) :: (c_freed cf, F) :: (c_changing cf, P) :: own I)) by (apply (Permutation_middle [(c_using cf, x :: acc); (c_freed cf, F)] (own I) (c_changing cf, P))).
    destruct (IH n k1 (x :: acc) (put_at stt x USING) rf tg dt t') as (k' & stt' & E & A1 & A2 & A3 & A4 & A5 & A6 & A7 & A8 & A9 & A10 & A11 & A12 & A13).
    { cbn [length] in Hn. lia. } { apply (rls_perm _ _ _ PR' HR2). } { exact HF2. } { intros y Hy. apply HI. right. exact Hy. } { exact Ht'. } { rewrite EB. cbn [rev]. rewrite <- app_assoc. reflexivity. }
    exists k', stt'. split; [exact E|]. split; [exact A1|]. split; [exact A2|]. split; [intros y [<-|Hy]; [rewrite (A4 x Nx); apply put_at_same|apply A3, Hy]|]. split; [intros y Hy; rewrite A4 by (intros C; apply Hy; right; exact C); apply put_at_other; intros ->; apply Hy; left; reflexivity|].
    do 8 (split; [assumption|]). intros Hc. rewrite A13 by (unfold k1; kred; unfold w64; apply Z.mod_pos_bound; reflexivity). unfold k1. kred. unfold w64. rewrite Zplus_mod_idemp_l. f_equal. rewrite zlen_cons. lia.
Qed.
Theorem commit_ok k s : inv k s -> exists k' r s', apply_cop k CCommit = Some (k', r) /\ cstep s CCommit r s' /\ inv k' s'.
Proof.
  intros HI. pose proof (stats_get k s HI) as (T1 & T2 & T3 & T4 & T5 & T6 & T7). pose proof HI as [SA HR HH HA (stt & tg & dt & HF & KK) HT]. pose proof KK as (K1 & K2 & K3 & K4). cbn [CacheModel.apply_cop]. unfold committed.
  assert (HR1 : rls (k_list k) ((c_changing cf, s_pend s) :: (c_using cf, s_busy s) :: (c_freed cf, s_free s) :: own (s_idle s))) by (revert HR; apply rls_perm; apply (Permutation_sym (Permutation_middle [(c_using cf, s_busy s); (c_freed cf, s_free s)] (own (s_idle s)) (c_changing cf, s_pend s)))).
  pose proof (rls_hd _ _ _ _ HR1) as R1. unfold ld at 1. rewrite (ring_next _ _ _ R1). assert (Hnx : exists t', ld (k_list k) (hd (c_changing cf) (s_pend s)) NEXT = Some t' /\ (s_pend s <> [] -> t' = hd (c_changing cf) (tl (s_pend s)))).
  { unfold ld. destruct (s_pend s) as [|y P]; cbn [hd tl]; [rewrite (ring_next _ _ _ R1); eexists; split; [reflexivity|congruence]|]. rewrite (next_at _ _ [] y P R1). eexists. split; [reflexivity|auto]. }
  destruct Hnx as (t' & E3 & Ht'). rewrite E3.
  assert (IP : incl (s_pend s) U) by (intros x Hx; apply (live_U s x SA), in_live; left; exact Hx). assert (LP : (length (s_pend s) <= fuel)%nat).
  { pose proof (Permutation_length (i_all s SA)) as L. unfold live in L. rewrite !app_length in L. lia. }
  destruct (commit_loop (rev (s_pend s) ++ s_busy s) (s_free s) (s_idle s) (s_pend s) fuel k (s_busy s) stt (s_refs s) tg dt t' LP HR HF IP Ht' eq_refl) as (k' & stt' & E & A1 & A2 & A3 & A4 & A5 & A6 & A7 & A8 & A9 & A10 & A11 & A12 & A13).
  rewrite E. eexists. eexists. eexists. split; [reflexivity|]. split; [apply commit|].
  assert (PL : Permutation (live s) ([] ++ (rev (s_pend s) ++ s_busy s) ++ s_idle s)) by (unfold live; psolve). constructor; kred.
  - destruct SA. constructor; kred; auto.
    + unfold live at 1. kred. eapply Permutation_trans; [|exact i_all0]. apply Permutation_app_head, Permutation_sym, PL.
    + intros x Hx. apply i_pos0. cbn [app] in Hx. rewrite in_app_iff in *. rewrite <- in_rev in Hx. exact Hx.
    + intros a b Ha Hb. apply i_tags0; apply (Permutation_in _ (Permutation_sym PL)); assumption.
    + unfold w64. apply Z.mod_pos_bound. reflexivity.
  - exact A1.
  - rewrite A5. apply (hinv_perm _ _ _ _ _ _ _ _ PL HH).
  - rewrite A6. exact HA.
  - exists stt', tg, dt. split; [exact A2|]. split; [intros x []|]. split; [|split]; kred.
    + intros x Hx. apply in_app_iff in Hx. rewrite <- in_rev in Hx. destruct Hx as [Hx|Hx]; [apply A3, Hx|]. destruct (dj s SA x) as (_ & _ & D3 & _). rewrite A4; [apply K2, Hx|exact (proj1 (D3 Hx))].
    + intros x Hx. destruct (dj s SA x) as (_ & _ & _ & D4). rewrite A4; [apply K3, Hx|exact (proj1 (D4 Hx))].
    + intros x Hx. apply K4, (Permutation_in _ (Permutation_sym PL)), Hx.
  - unfold stats. kred. rewrite A7, A8, A10, A11, A12, A13, T1, T2, T4, T5, T6, T7 by (rewrite T4; apply (i_chg s SA)). change (zlen (@nil Z)) with 0. do 2 f_equal. unfold zlen. rewrite app_length, rev_length. lia.
Qed.

(** *** Clearing and creating *)
Lemma rls_node m L x : rls m L -> In x (flat L) -> node m x.
Proof. intros [_ F] H. apply in_flat_map in H. destruct H as (p & Hp & Hx). rewrite Forall_forall in F. apply (ring_nodes _ _ _ (F p Hp) x Hx). Qed.
Lemma init_heads_ok m : NoDup [c_using cf; c_freed cf; c_changing cf] -> (forall p, In p [c_using cf; c_freed cf; c_changing cf] -> node m p) ->
  exists m', init_heads cf m = Some m' /\ rls m' [(c_using cf, []); (c_freed cf, []); (c_changing cf, [])] /\ frame [c_using cf; c_freed cf; c_changing cf] m m'.
Proof.
  intros D N. set (u := c_using cf) in *. set (f := c_freed cf) in *. set (c := c_changing cf) in *. unfold init_heads. fold u f c.
  assert (Nuf : u <> f /\ u <> c /\ f <> c) by (inversion_clear D as [|? ? H1 D']; inversion_clear D' as [|? ? H2 _]; cbn in *; intuition congruence). destruct Nuf as (N1 & N2 & N3).
  destruct (init_ring m u) as (m1 & E1 & R1 & F1); [apply N; left; reflexivity|]. rewrite E1.
  destruct (init_ring m1 f) as (m2 & E2 & R2 & F2); [apply (frame_node [u] m m1 f F1); [intros [C|[]]; congruence|apply N; right; left; reflexivity]|]. rewrite E2.
  destruct (init_ring m2 c) as (m3 & E3 & R3 & F3); [apply (frame_node [f] m1 m2 c F2); [intros [C|[]]; congruence|apply (frame_node [u] m m1 c F1); [intros [C|[]]; congruence|apply N; right; right; left; reflexivity]]|]. exists m3. split; [exact E3|]. split.
  - split; [exact D|]. constructor; [|constructor; [|constructor; [exact R3|constructor]]]; cbn [fst snd].
    + apply (ring_other m2 m3 u [] [c] F3); [intros x [<-|[]] [C|[]]; congruence|]. apply (ring_other m1 m2 u [] [f] F2); [intros x [<-|[]] [C|[]]; congruence|exact R1].
    + apply (ring_other m2 m3 f [] [c] F3); [intros x [<-|[]] [C|[]]; congruence|exact R2].
  - apply (frame_trans _ m m2 m3); [apply (frame_trans _ m m1 m2)|]; [apply (frame_incl [u])|apply (frame_incl [f])|apply (frame_incl [c])]; try assumption; intros x [<-|[]]; cbn; auto.
Qed.
Lemma add_nodes_ok R : forall l m A, rls m ((c_freed cf, A) :: R) -> NoDup l -> (forall x, In x l -> node m x /\ ~ In x (flat ((c_freed cf, A) :: R))) -> exists m', add_nodes cf m l = Some m' /\ rls m' ((c_freed cf, rev l ++ A) :: R).
Proof.
  induction l as [|x l IH]; intros m A HR D N; cbn [add_nodes rev]; [exists m; split; [reflexivity|exact HR]|]. destruct (N x (or_introl eq_refl)) as [Nx Nf]. destruct (rls_add _ _ _ _ _ HR Nx Nf) as (m1 & E1 & HR1). rewrite E1. apply NoDup_cons_iff in D. destruct D as [D1 D2].
  pose proof (keeps_add m (c_freed cf) x m1 E1) as KP.
  destruct (IH m1 (x :: A) HR1 D2) as (m' & E & HR'); [intros y Hy; destruct (N y (or_intror Hy)) as [Ny Nyf]; split; [apply (keeps_node _ _ _ KP Ny)|]|].
  { intros C. cbn [flat flat_map fst snd app In] in *. destruct C as [C|[C|C]]; [tauto|subst y; contradiction|tauto]. }
  exists m'. split; [exact E|]. rewrite <- app_assoc. exact HR'.
Qed.
Lemma heads_nodup k s : inv k s -> NoDup [c_using cf; c_freed cf; c_changing cf] /\ (forall x, In x U -> ~ In x [c_using cf; c_freed cf; c_changing cf]).
Proof.
  intros HI. pose proof HI as [SA HR _ _ _ _]. destruct HR as [D _].
  assert (D' : NoDup ([c_using cf; c_freed cf; c_changing cf] ++ s_free s ++ live s)).
  { apply (Permutation_NoDup (l := flat ((c_using cf, s_busy s) :: (c_freed cf, s_free s) :: (c_changing cf, s_pend s) :: own (s_idle s)))); [|exact D]. change (flat ((c_using cf, s_busy s) :: (c_freed cf, s_free s) :: (c_changing cf, s_pend s) :: own (s_idle s))) with ((c_using cf :: s_busy s) ++ (c_freed cf :: s_free s) ++ (c_changing cf :: s_pend s) ++ flat (own (s_idle s))). rewrite flat_own. unfold live. psolve. }
  split; [apply (nodup_l _ _ D')|]. intros x Hx C. apply (nodup_disj _ _ D' x C). apply (Permutation_in _ (Permutation_sym (i_all s SA))), Hx.
Qed.
Theorem reset_ok k s : inv k s -> callowed s CReset -> exists k' r s', apply_cop k CReset = Some (k', r) /\ cstep s CReset r s' /\ inv k' s'.
Proof.
  intros HI [Ep Eb]. pose proof (stats_get k s HI) as (T1 & T2 & T3 & T4 & T5 & T6 & T7). destruct (heads_nodup k s HI) as [DH DHU]. pose proof HI as [SA HR HH HA (stt & tg & dt & HF & KK) HT]. cbn [CacheModel.apply_cop]. unfold reset. kred.
  assert (FL : forall x, In x [c_using cf; c_freed cf; c_changing cf] \/ In x U -> node (k_list k) x).
  { intros x Hx. apply (rls_node _ _ _ HR). change (flat ((c_using cf, s_busy s) :: (c_freed cf, s_free s) :: (c_changing cf, s_pend s) :: own (s_idle s))) with ((c_using cf :: s_busy s) ++ (c_freed cf :: s_free s) ++ (c_changing cf :: s_pend s) ++ flat (own (s_idle s))). rewrite flat_own.
    assert (Hx' : In x [c_using cf; c_freed cf; c_changing cf] \/ In x (s_free s ++ live s)) by (destruct Hx as [Hx|Hx]; [left; exact Hx|right; apply (Permutation_in _ (Permutation_sym (i_all s SA))), Hx]). unfold live in Hx'. repeat (rewrite in_app_iff in * || cbn [In] in *). tauto. }
  destruct (init_heads_ok (k_list k) DH (fun p Hp => FL p (or_introl Hp))) as (m1 & E1 & R1 & F1). rewrite E1. destruct (l_reset _ _ _ _ LA _ _ _ HA) as (m2 & E2 & HA2). rewrite E2. kred.
  assert (SL : 2 <= c_size cf < 2 ^ 64) by (destruct HS as [HS1 ->]; split; [apply (Z.pow_le_mono_r 2 1); lia|apply Z.pow_lt_mono_r; lia]). destruct HH as (H1 & H2 & b & HL & HP & HQ).
  destruct (hashtbl_init_ok (Z.to_nat (c_size cf)) (k_hash k) (c_taghash cf) 0) as (m3 & E3 & Z3 & _).
  { intros j Hj. apply (lists_has _ _ _ HL), flat_table. left. exists j. split; [lia|reflexivity]. }
  rewrite E3. kred. assert (PR : Permutation [(c_using cf, []); (c_freed cf, []); (c_changing cf, [])] [(c_freed cf, @nil Z); (c_using cf, []); (c_changing cf, [])]) by apply perm_swap.
  destruct (add_nodes_ok _ U m1 [] (rls_perm _ _ _ PR R1) NDU) as (m4 & E4 & R4).
  { intros x Hx. split; [apply (frame_node _ _ _ _ F1); [apply DHU, Hx|apply FL; right; exact Hx]|]. intros C. apply (DHU x Hx). cbn in *. tauto. }
  rewrite E4. eexists. eexists. eexists. split; [reflexivity|]. split; [apply cleared|]. rewrite app_nil_r in R4. constructor; kred.
  - destruct SA. constructor; kred; auto.
    + unfold live. kred. cbn [app]. rewrite app_nil_r. apply Permutation_sym, Permutation_rev.
    + intros x [].
    + intros a b0 [].
    + discriminate.
  - revert R4. apply rls_perm, perm_swap.
  - apply (hinv_init _ _ _ U bits HS DU); [intros n Hn; destruct (H1 n Hn); split; apply (keeps_hinit _ _ _ _ _ E3); assumption|]. intros j Hj. apply Z3. lia.
  - exact HA2.
  - exists stt, tg, dt. split; [|split; [intros x []|split; [intros x []|split; [intros x []|intros x []]]]]. intros n Hn. destruct (HF n Hn) as (G1 & G2 & G3 & G4). split; [exact G1|]. split; [|split; assumption]. rewrite G2. f_equal. apply (i_zero s SA). apply (Permutation_in _ (Permutation_sym (i_all s SA))) in Hn. unfold live in Hn. rewrite Ep, Eb in Hn. exact Hn.
  - unfold stats. kred. rewrite T4. reflexivity.
Qed.
Theorem step_ok k s o : inv k s -> callowed s o -> exists k' r s', apply_cop k o = Some (k', r) /\ cstep s o r s' /\ inv k' s'.
Proof.
  intros HI Ha. destruct o as [t|t fl|n|n t|n| | |].
  - cbn [CacheModel.apply_cop]. destruct (find_ok k s t HI) as (n & E & C). rewrite E. exists k, (RNode n), s. auto.
  - apply obtain_ok; assumption.
  - apply put_ok; assumption.
  - apply set_ok; assumption.
  - apply del_ok; assumption.
  - apply commit_ok; assumption.
  - apply reset_ok; assumption.
  - exists k, (RStat (stats s)), s. split; [cbn; rewrite <- (i_stats k s HI); reflexivity|]. split; [apply stat|exact HI].
Qed.

Theorem create_ok hm lm am nm am' : NoDup (c_using cf :: c_freed cf :: c_changing cf :: U) -> (forall p, In p (c_using cf :: c_freed cf :: c_changing cf :: U) -> node lm p) ->
  (forall j, 0 <= j < c_size cf -> hm (head_at (c_taghash cf) j) LINK = Some NULL) -> (forall n, In n U -> has hm n LINK /\ has hm n PPREV) ->
  (forall p f, In p U -> 0 <= f < 4 -> nm p f = Some 0) -> a_reset al am = Some am' -> rep am' [] (fun _ => 0) ->
  exists k, create cf al hm lm am nm = Some k /\ inv k (fresh U).
Proof.
  intros D N H1 H2 H3 E HA. unfold create. rewrite E. change (NoDup ([c_using cf; c_freed cf; c_changing cf] ++ U)) in D.
  destruct (init_heads_ok lm (nodup_l _ _ D)) as (m1 & E1 & R1 & F1); [intros p Hp; apply N; change (In p ([c_using cf; c_freed cf; c_changing cf] ++ U)); apply in_or_app; left; exact Hp|]. rewrite E1.
  assert (PR : Permutation [(c_using cf, []); (c_freed cf, []); (c_changing cf, [])] [(c_freed cf, @nil Z); (c_using cf, []); (c_changing cf, [])]) by apply perm_swap.
  destruct (add_nodes_ok _ U m1 [] (rls_perm _ _ _ PR R1) NDU) as (m4 & E4 & R4).
  { intros x Hx. assert (Nx : ~ In x [c_using cf; c_freed cf; c_changing cf]) by (intros C; apply (nodup_disj _ _ D x C Hx)). split; [apply (frame_node _ _ _ _ F1 Nx), N; do 3 right; exact Hx|]. intros C. apply Nx. cbn in *. tauto. }
  rewrite E4. eexists. split; [reflexivity|]. rewrite app_nil_r in R4. unfold fresh. constructor; kred.
  - constructor; kred.
    + unfold live. kred. cbn [app]. rewrite app_nil_r. apply Permutation_sym, Permutation_rev.
    + reflexivity.
    + intros x [].
    + intros a b0 [].
    + discriminate.
    + exact HM.
    + lia.
  - revert R4. apply rls_perm, perm_swap.
  - apply (hinv_init _ _ _ U bits HS DU); assumption.
  - exact HA.
  - exists (fun _ => 0), (fun _ => 0), (fun _ => 0). split; [intros n Hn; repeat split; apply H3; (assumption || (unfold STATUS, REFCNT, TAG, DATA; lia))|]. split; [intros x []|split; [intros x []|split; [intros x []|intros x []]]].
  - reflexivity.
Qed.

End Ops.
