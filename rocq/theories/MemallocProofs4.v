(** * Proofs about the pool allocator: resizing and set-up *)
From Coq Require Import Sorting.Permutation.
From Verif Require Import Lib MemallocModel MemallocProofs MemallocProofs2 MemallocProofs3.
Notation chunk := (Z * Z * bool)%type.
Notation used := (filter cu).
Lemma used_none (l : list chunk) : Forall (fun c => cu c = false) l -> used l = [].
Proof. induction 1 as [|c l H F IH]; [reflexivity|]. cbn. rewrite H. exact IH. Qed.
Lemma used_mid l n s r : Permutation (used (l ++ (n, s, true) :: r)) ((n, s, true) :: used l ++ used r).
Proof. rewrite filter_mid. cbn [cu snd app]. symmetry. apply Permutation_middle. Qed.
Lemma used_split cs n s : In (n, s, true) (used cs) -> exists l r, cs = l ++ (n, s, true) :: r.
Proof. intros H. apply filter_In in H. apply in_split. apply H. Qed.
Lemma free_ok' h cs n s e d : rep h cs e d -> In (n, s, true) (used cs) ->
  exists h' cs', free h (n + HDR) = Some h' /\ same h h' /\ rep h' cs' e d /\ Permutation (used cs) ((n, s, true) :: used cs').
Proof.
  intros R I. destruct (used_split _ _ _ I) as (l & r & ->). destruct (free_ok _ _ _ _ _ _ _ R) as (h' & cs' & E & S & R' & F). exists h', cs'. split; [exact E|]. split; [exact S|]. split; [exact R'|]. rewrite F. apply used_mid.
Qed.
Section Ops.
Variable find : heap -> Z -> option (option Z).
Hypothesis FO : find_ok find.
Lemma alloc_ok' h cs e d size : rep h cs e d -> 0 <= size < 2 ^ 64 ->
  exists h' p, alloc find h size = Some (h', p) /\ same h h' /\
  ((p = 0 /\ h' = h) \/
   exists cs' n s, p = n + HDR /\ align_up size <= s /\ (exists t, In (n, t, false) cs /\ s <= t) /\ rep h' cs' e d /\ Permutation (used cs') ((n, s, true) :: used cs)).
Proof.
  intros R Hs. destruct (alloc_ok find FO _ _ _ _ _ R Hs) as (h' & p & E & B1 & B2 & B3 & O). exists h', p. split; [exact E|]. split; [repeat split; assumption|]. destruct O as [O|(l & n & s & s' & rest & r & -> & -> & L & R' & F)]; [left; exact O|]. right. exists (l ++ (n, s', true) :: rest ++ r), n, s'. split; [reflexivity|]. split; [lia|]. split; [exists s; split; [apply in_or_app; right; left; reflexivity|lia]|]. split; [exact R'|]. rewrite used_mid. rewrite !filter_app. cbn [filter cu snd]. rewrite (used_none rest F). cbn [app]. reflexivity.
Qed.
Lemma grow_words h l n s u1 b s2 u2 r e d : core h (l ++ (n, s, u1) :: (b, s2, u2) :: r) e d ->
  usz h n = s + Z.b2z u1 /\ usz h b = s2 + Z.b2z u2 /\ even s /\ even s2 /\ in_pool h n = true /\ in_pool h b = true /\ b = n + HDR + s /\ b + HDR + s2 <= e /\ base h <= n /\
  ~ In n (map ca l) /\ ~ In b (map ca l) /\ (n - base h) mod 8 = 0 /\ tiles (base h) n l /\ tiles (b + HDR + s2) e r /\ Forall (good (usz h) (base h)) l /\ Forall (good (usz h) (base h)) r /\ blocks h = (map ca l ++ [n]) ++ b :: map ca r /\ ~ In b (map ca l ++ [n]).
Proof.
  intros R. destruct (core_mid _ _ _ _ _ _ _ _ R) as (Tl & Tr & Bn & En & Ev & An & Un & Pn & Nl & Nr & Gl & Gr & Bl).
  assert (R' : core h ((l ++ [(n, s, u1)]) ++ (b, s2, u2) :: r) e d) by (rewrite <- app_assoc; exact R). destruct (core_mid _ _ _ _ _ _ _ _ R') as (Tl2 & Tr2 & Bn2 & En2 & Ev2 & An2 & Un2 & Pn2 & Nl2 & Nr2 & Gl2 & Gr2 & Bl2).
  cbn [tiles] in Tr. unfold ca at 1, cz in Tr. cbn [fst snd] in Tr. destruct Tr as (Eb & Zs2 & Tr). rewrite map_app in Bl2, Nl2. cbn [map] in Bl2, Nl2. unfold ca at 2 in Bl2. unfold ca at 2 in Nl2. cbn [fst] in Bl2, Nl2.
  repeat (split; [assumption|]). split; [intros H; apply Nl2, in_or_app; left; exact H|]. tauto.
Qed.
Lemma realloc_ok h cs n s e d resize : rep h cs e d -> In (n, s, true) (used cs) -> 0 <= resize < 2 ^ 64 ->
  exists h' q, realloc find h (n + HDR) resize = Some (h', q) /\ base h' = base h /\ psize h' = psize h /\
  ((q = 0 /\ h' = h) \/
   exists cs' m t U, q = m + HDR /\ align_up resize <= t /\ rep h' cs' e d /\ Permutation (used cs) ((n, s, true) :: U) /\ Permutation (used cs') ((m, t, true) :: U) /\
   ((m = n /\ s <= t /\ dat h' = dat h) \/ (s <= t /\ dat h' = copy (dat h) (m + HDR) (n + HDR) s /\ exists t', In (m, t', false) cs /\ t <= t'))).
Proof.
  intros R I Hr. unfold realloc. destruct (align_up_ok resize Hr) as (Ar & Am & _). set (rs := align_up resize) in *. clearbody rs. cbv zeta.
  destruct (Z.ltb_spec (avail h) rs) as [La|La]; [exists h, 0; do 3 (split; [reflexivity|]); left; split; reflexivity|].
  replace (n + HDR - HDR) with n by lia. destruct (used_split _ _ _ I) as (l & r & E). pose proof R as R0. rewrite E in R0. pose proof (rep_core _ _ _ _ R0) as C0. destruct (core_mid _ _ _ _ _ _ _ _ C0) as (Tl & Tr & Bn & En & Ev & An & Un & Pn & Nl & Nr & Gl & Gr & Bl).
  unfold get_hdr at 1. rewrite Pn, Un, !get_size_ok by exact Ev.
  assert (Perm : exists U, Permutation (used cs) ((n, s, true) :: U)) by (rewrite E; eexists; apply used_mid). destruct Perm as [U PU].
  destruct (Z.leb_spec rs s) as [Ls|Ls].
  { exists h, (n + HDR). do 3 (split; [reflexivity|]). right. exists cs, n, s, U. split; [reflexivity|]. split; [exact Ls|]. split; [exact R|]. split; [exact PU|]. split; [exact PU|]. left. repeat split; lia. }
  assert (Ln : lnext n (blocks h) = Some (match map ca r with [] => None | z :: _ => Some z end)) by (rewrite Bl; apply lnext_ok; exact Nl). rewrite Ln.
  assert (MV : exists h' q, (let* (h0, newblk) := alloc find h rs in if newblk =? 0 then Some (h0, 0) else let* h1 := free (set_dat h0 (copy (dat h0) newblk (n + HDR) s)) (n + HDR) in Some (h1, newblk)) = Some (h', q) /\ base h' = base h /\ psize h' = psize h /\
    ((q = 0 /\ h' = h) \/
    exists cs' m t U, q = m + HDR /\ rs <= t /\ rep h' cs' e d /\ Permutation (used cs) ((n, s, true) :: U) /\ Permutation (used cs') ((m, t, true) :: U) /\
    ((m = n /\ s <= t /\ dat h' = dat h) \/ (s <= t /\ dat h' = copy (dat h) (m + HDR) (n + HDR) s /\ exists t', In (m, t', false) cs /\ t <= t')))).
  { destruct (alloc_ok' h cs e d rs R Ar) as (h1 & p & -> & (S1 & S2 & S3) & [[-> ->]|(cs1 & m & t & -> & Lt & Old & R1 & P1)]); [exists h, 0; do 3 (split; [reflexivity|]); left; split; reflexivity|].
    assert (Bm : base h <= m). { destruct Old as (t' & Old & _). pose proof (tiles_in _ _ _ _ (r_tiles _ _ _ _ R) Old) as (X & _). exact X. } pose proof (r_base _ _ _ _ R) as B0.
    rewrite (proj2 (Z.eqb_neq (m + HDR) 0)) by (unfold HDR; lia).
    assert (R2 : rep (set_dat h1 (copy (dat h1) (m + HDR) (n + HDR) s)) cs1 e d) by (destruct R1; constructor; assumption).
    assert (I2 : In (n, s, true) (used cs1)) by (eapply Permutation_in; [apply Permutation_sym, P1|right; exact I]).
    destruct (free_ok' _ _ _ _ _ _ R2 I2) as (h2 & cs2 & -> & (Q1 & Q2 & Q3) & R3 & P2). cbn in Q1, Q2, Q3. exists h2, (m + HDR). split; [reflexivity|]. split; [congruence|]. split; [congruence|]. right. exists cs2, m, t, U.
    destruct (align_up_ok rs Ar) as (_ & _ & Up). assert (rs <= 2 ^ 64 - 32) by (clear - Ar Am; Z.div_mod_to_equations; lia). specialize (Up H).
    split; [reflexivity|]. split; [lia|]. split; [exact R3|]. split; [exact PU|]. split; [|right; split; [lia|]; split; [congruence|exact Old]].
    apply Permutation_cons_inv with (n, s, true). rewrite <- P2, P1, PU. apply perm_swap. }
  destruct r as [|[[b s2] u2] r]; cbn [map]; [exact MV|]. change (ca (b, s2, u2)) with b.
  destruct (grow_words _ _ _ _ _ _ _ _ _ _ _ C0) as (_ & U2 & _ & Ev2 & _ & P2 & Eb & Eb2 & _ & _ & Nbl & _ & _ & Tr2 & _ & Gr2 & Bl2 & Nb).
  unfold get_hdr at 1. rewrite P2, U2, !get_used_ok by exact Ev2. rewrite get_size_ok by exact Ev2. destruct u2; [exact MV|]. cbn [orb].
  pose proof (r_end _ _ _ _ R). pose proof (r_top _ _ _ _ R). pose proof (r_base _ _ _ _ R). pose proof (rep_avail _ _ _ _ R0) as (Av & Sf & Dd). pose proof (r_avail _ _ _ _ R0) as Ea. rewrite sumfree_app in Ea, Sf. cbn [sumfree] in Ea, Sf. unfold cu at 1, cu at 1, cz at 2 in Ea. cbn [fst snd] in Ea.
  pose proof (sumfree_bound _ _ _ Tl) as [Sl _]. pose proof (sumfree_bound _ _ _ Tr2) as [Sr _]. pose proof (r_adj _ _ _ _ R0) as Ad. apply noadj_app in Ad. cbn [noadj] in Ad. unfold cu at 1 2, cfree, cu in Ad. cbn [snd negb] in Ad. destruct Ad as (Adl & Ad1 & Ad2 & Adr).
  assert (Exs : w64 (rs - s) = rs - s) by (apply w64_small; destruct Ev; unfold u64; lia). rewrite Exs. assert (Ws : w64 (HDR + s2) = HDR + s2) by (apply w64_small; destruct Ev, Ev2; unfold u64, HDR in *; lia). rewrite Ws.
  destruct (Z.ltb_spec (HDR + s2) (rs - s)) as [Lx|Lx]; [exact MV|]. clear MV.
  assert (Ww : w64 (HDR + s2 - (rs - s)) = HDR + s2 - (rs - s)) by (apply w64_small; destruct Ev2, Ev; unfold u64, HDR in *; lia). rewrite Ww. rewrite (w64_small (avail h - s2)) by (destruct Ev2; unfold u64; lia).
  cbn [set_avail frees blocks]. assert (Rf : Permutation (frees h) (map ca (filter cfree ((l ++ [(n, s, true)]) ++ (b, s2, false) :: r)))) by (rewrite <- app_assoc; exact (r_free _ _ _ _ R0)). destruct (free_perm _ _ _ _ _ Rf) as (f' & Ef & Pf). rewrite Ef.
  assert (Ed : ldel b (blocks h) = Some ((map ca l ++ [n]) ++ map ca r)) by (rewrite Bl2; apply ldel_ok; exact Nb). rewrite Ed.
  rewrite filter_app, map_app in Pf. cbn [filter cfree cu snd negb map] in Pf. rewrite app_nil_r in Pf.
  assert (Np : n <> b) by (unfold HDR in *; destruct Ev; lia).
  destruct (Z.ltb_spec (HDR + s2 - (rs - s)) (HDR + ALIGN)) as [Lb|Lb].
  - assert (W3 : w64 (s + (HDR + s2)) = s + HDR + s2) by (rewrite w64_small by (destruct Ev2, Ev; unfold u64, HDR in *; lia); lia). rewrite W3.
    assert (Ev3 : even (s + HDR + s2)). { destruct Ev as [E1 E2], Ev2 as [E3 E4]. apply even_of; [unfold HDR in *; lia|]. replace (s + HDR + s2) with (s - (- 40 - s2)) by (unfold HDR; lia). apply zmod_sub; [lia|exact E2|]. apply zmod_sub; [lia|reflexivity|exact E4]. }
    unfold get_hdr. change (in_pool (set_frees _ _) n) with (in_pool h n). rewrite Pn. rewrite put_some by exact Pn. cbn [usz set_frees set_usz set_blocks set_avail]. rewrite Un, set_size_ok by assumption.
    eexists _, (n + HDR). split; [reflexivity|]. do 2 (split; [reflexivity|]). right. exists (l ++ (n, s + HDR + s2, true) :: r), n, (s + HDR + s2), U. split; [reflexivity|]. split; [unfold HDR in *; lia|]. split; [|split; [exact PU|split]].
    + destruct R0. constructor; cbn [base psize blocks frees avail usz set_frees set_usz set_avail set_blocks]; try assumption.
      * rewrite map_mid, <- app_assoc. reflexivity.
      * apply tiles_join; unfold ca, cz; cbn [fst snd]; [exact Tl|destruct Ev3; lia|]. replace (n + HDR + (s + HDR + s2)) with (b + HDR + s2) by (unfold HDR in *; lia). exact Tr2.
      * apply forall_mid. split; [apply good_upd; [exact Gl|]|split; [|apply good_upd; [exact Gr2|]]].
        -- eapply Forall_impl; [|apply (tiles_before _ _ _ Tl)]. unfold HDR. cbn. lia.
        -- split; [unfold ca, cz, cu; cbn [fst snd]; rewrite Z.eqb_refl; reflexivity|]. unfold ca, cz; cbn [fst snd]. split; assumption.
        -- eapply Forall_impl; [|apply (tiles_after _ _ _ Tr2)]. unfold HDR in *. destruct Ev, Ev2. cbn. lia.
      * rewrite free_filter. exact Pf.
      * rewrite Ea. rewrite sumfree_app. cbn. lia.
      * apply noadj_app. split; [exact Adl|]. cbn [noadj]. split; [intros _; reflexivity|]. apply noadj_w. exact Adr.
    + apply Permutation_cons_inv with (n, s, true). apply Permutation_trans with ((n, s + HDR + s2, true) :: (n, s, true) :: U); [|apply perm_swap]. rewrite used_mid. rewrite perm_swap. apply perm_skip. rewrite <- PU, E, used_mid. cbn [filter cu snd app]. reflexivity.
    + left. split; [reflexivity|]. split; [destruct Ev2; unfold HDR; lia|reflexivity].
  - unfold HDR, ALIGN in Lb. assert (Efr : w64 (b + (rs - s)) = n + HDR + rs) by (rewrite w64_small by (unfold u64, HDR in *; destruct Ev; lia); lia). rewrite Efr. set (fr := n + HDR + rs). assert (Efs : w64 (HDR + s2 - (rs - s) - HDR) = s2 - (rs - s)) by (rewrite w64_small by (unfold u64, HDR in *; destruct Ev2; lia); lia). rewrite Efs. set (fs := s2 - (rs - s)).
    assert (Evf : even fs). { destruct Ev as [E1 E2], Ev2 as [E3 E4]. apply even_of; [unfold fs; lia|]. unfold fs. apply zmod_sub; [lia|exact E4|]. apply zmod_sub; [lia|apply m32_2, Am|exact E2]. }
    assert (Evz : even rs) by (apply even_of; [lia|apply m32_2, Am]).
    assert (Pfr : in_pool h fr = true) by (unfold in_pool; rewrite andb_true_iff, !Z.leb_le; unfold fr, HDR in *; destruct Ev; lia).
    rewrite put_some by exact Pfr. rewrite pnode_ok by exact Evf. cbn [set_usz set_avail set_frees set_blocks usz avail blocks frees].
    assert (Ela : ladd n fr ((map ca l ++ [n]) ++ map ca r) = Some (map ca l ++ n :: fr :: map ca r)) by (rewrite <- app_assoc; cbn [app]; apply ladd_ok; exact Nl). rewrite Ela.
    rewrite (w64_small (avail h - s2 + fs)) by (unfold u64, fs, HDR in *; lia).
    assert (Nfr : n =? fr = false) by (apply Z.eqb_neq; unfold fr, HDR; lia).
    unfold get_hdr. change (in_pool (set_frees _ _) n) with (in_pool h n). rewrite Pn. rewrite put_some by exact Pn. cbn [usz set_frees set_usz set_blocks set_avail]. rewrite Nfr, Un, set_size_ok by assumption.
    eexists _, (n + HDR). split; [reflexivity|]. do 2 (split; [reflexivity|]). right. exists (l ++ (n, rs, true) :: (fr, fs, false) :: r), n, rs, U. split; [reflexivity|]. split; [lia|]. split; [|split; [exact PU|split]].
    + destruct R0. constructor; cbn [base psize blocks frees avail usz set_frees set_usz set_avail set_blocks]; try assumption.
      * rewrite map_mid. reflexivity.
      * apply tiles_join; unfold ca, cz; cbn [fst snd]; [exact Tl|lia|]. cbn [tiles]. unfold ca, cz; cbn [fst snd]. split; [reflexivity|]. split; [destruct Evf; lia|]. replace (n + HDR + rs + HDR + fs) with (b + HDR + s2) by (unfold fs, HDR in *; lia). exact Tr2.
      * apply forall_mid. split; [|split; [|constructor]].
        -- apply good_upd; [apply good_upd; [exact Gl|]|]; (eapply Forall_impl; [|apply (tiles_before _ _ _ Tl)]); unfold fr, HDR; cbn; lia.
        -- split; [unfold ca, cz, cu; cbn [fst snd]; rewrite Z.eqb_refl; reflexivity|]. unfold ca, cz; cbn [fst snd]. split; assumption.
        -- split; [unfold ca, cz, cu; cbn [fst snd]; rewrite Z.eqb_sym, Nfr, Z.eqb_refl; reflexivity|]. unfold ca, cz; cbn [fst snd]. split; [exact Evf|]. replace (fr - base h) with (n - base h - (- 40 - rs)) by (unfold fr, HDR; lia). apply zmod_sub; [lia|exact An|]. apply zmod_sub; [lia|reflexivity|apply m32_8, Am].
        -- apply good_upd; [apply good_upd; [exact Gr2|]|]; (eapply Forall_impl; [|apply (tiles_after _ _ _ Tr2)]); unfold fr, HDR in *; destruct Ev, Ev2; cbn; lia.
      * rewrite filter_mid. cbn [cfree cu snd negb app filter]. rewrite map_app. cbn [map]. unfold ca at 2. cbn [fst]. rewrite Pf. apply Permutation_middle.
      * rewrite Ea, sumfree_app. cbn. fold fs. unfold fs. lia.
      * apply noadj_app. split; [exact Adl|]. cbn [noadj]. unfold cfree, cu. cbn [snd negb]. split; [intros _; reflexivity|]. split; [discriminate|exact Adr].
    + apply Permutation_cons_inv with (n, s, true). apply Permutation_trans with ((n, rs, true) :: (n, s, true) :: U); [|apply perm_swap]. rewrite used_mid. rewrite perm_swap. apply perm_skip. rewrite <- PU, E, used_mid. cbn [filter cu snd app]. reflexivity.
    + left. split; [reflexivity|]. split; [lia|reflexivity].
Qed.
End Ops.
