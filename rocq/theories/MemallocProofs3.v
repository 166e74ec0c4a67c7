(** * Proofs about the pool allocator: release *)
From Coq Require Import Sorting.Permutation.
From Verif Require Import Lib MemallocModel MemallocProofs MemallocProofs2.
Notation chunk := (Z * Z * bool)%type.
(** the invariant without the condition on neighbours *)
Record core (h : heap) (cs : list chunk) (e d : Z) : Prop := {
  c_base : 0 < base h; c_top : base h + psize h <= 2 ^ 64; c_end : e <= base h + psize h; c_d : 0 <= d <= base h + psize h - e;
  c_blocks : blocks h = map ca cs; c_tiles : tiles (base h) e cs; c_good : Forall (good (usz h) (base h)) cs;
  c_free : Permutation (frees h) (map ca (filter cfree cs)); c_avail : avail h = sumfree cs + d }.
Lemma rep_core h cs e d : rep h cs e d -> core h cs e d.
Proof. intros []; constructor; assumption. Qed.
Lemma core_rep h cs e d : core h cs e d -> noadj false cs -> rep h cs e d.
Proof. intros [] N; constructor; assumption. Qed.
Lemma core_mid h l n s u r e d : core h (l ++ (n, s, u) :: r) e d ->
  tiles (base h) n l /\ tiles (n + HDR + s) e r /\ base h <= n /\ n + HDR + s <= e /\ even s /\
  (n - base h) mod 8 = 0 /\ usz h n = s + Z.b2z u /\ in_pool h n = true /\ ~ In n (map ca l) /\ ~ In n (map ca r) /\
  Forall (good (usz h) (base h)) l /\ Forall (good (usz h) (base h)) r /\ blocks h = map ca l ++ n :: map ca r.
Proof.
  intros R. pose proof (c_tiles _ _ _ _ R) as T. pose proof (tiles_split _ _ _ _ _ T) as (Tl & Z0 & Tr). unfold ca, cz in Tl, Z0, Tr. cbn [fst snd] in *.
  pose proof (c_good _ _ _ _ R) as G. apply forall_mid in G. destruct G as (Gl & Gc & Gr). destruct Gc as (Gu & Ge & Ga). unfold ca, cz, cu in Gu, Ge, Ga. cbn [fst snd] in *.
  assert (I : In (n, s, u) (l ++ (n, s, u) :: r)) by (apply in_or_app; right; left; reflexivity).
  pose proof (tiles_le _ _ _ Tl). pose proof (tiles_le _ _ _ Tr). pose proof (c_blocks _ _ _ _ R) as B. rewrite map_mid in B. unfold ca at 2 in B. cbn [fst snd] in B. pose proof (c_end _ _ _ _ R).
  assert (Ip : in_pool h n = true) by (unfold in_pool; rewrite andb_true_iff, !Z.leb_le; lia).
  do 8 (split; [assumption || lia|]). split; [eapply not_in_addr; [apply (tiles_before _ _ _ Tl)|unfold HDR; cbn; lia]|]. split; [eapply not_in_addr; [apply (tiles_after _ _ _ Tr)|unfold HDR; destruct Ge; cbn; lia]|]. tauto.
Qed.
Lemma core_avail h cs e d : core h cs e d -> 0 <= avail h /\ avail h + HDR * zlen cs < 2 ^ 64.
Proof. intros R. pose proof (sumfree_bound _ _ _ (c_tiles _ _ _ _ R)) as [A B]. pose proof (c_avail _ _ _ _ R). destruct R. unfold HDR in *. assert (0 <= zlen cs) by (unfold zlen; lia). lia. Qed.
Lemma mark_core h l n s r e d : core h (l ++ (n, s, true) :: r) e d ->
  core (set_avail (set_frees (set_usz h (fun b => if b =? n then s + Z.b2z false else usz h b)) (n :: frees h)) (avail h + s)) (l ++ (n, s, false) :: r) e d.
Proof.
  intros R. destruct (core_mid _ _ _ _ _ _ _ _ R) as (Tl & Tr & Bn & En & Ev & An & Un & Pn & Nl & Nr & Gl & Gr & Bl). destruct R as [Rb Rt Re Rd Rbl Rti Rg Rf Ra].
  constructor; cbn [base psize blocks frees avail usz set_frees set_usz set_avail]; try assumption.
  - rewrite map_mid. exact Bl.
  - apply tiles_join; unfold ca, cz; cbn [fst snd]; [exact Tl|destruct Ev; lia|exact Tr].
  - apply forall_mid. split; [apply good_upd; [exact Gl|]|split; [|apply good_upd; [exact Gr|]]].
    + eapply Forall_impl; [|apply (tiles_before _ _ _ Tl)]. unfold HDR. cbn. lia.
    + split; [unfold ca, cz, cu; cbn [fst snd]; rewrite Z.eqb_refl; reflexivity|]. unfold ca, cz; cbn [fst snd]. split; assumption.
    + eapply Forall_impl; [|apply (tiles_after _ _ _ Tr)]. unfold HDR. destruct Ev. cbn. lia.
  - rewrite free_filter in Rf. rewrite filter_mid. cbn [cfree cu snd negb app]. rewrite map_app. cbn [map]. unfold ca at 2. cbn [fst]. rewrite Rf. apply Permutation_middle.
  - rewrite sumfree_app in *. cbn in *. lia.
Qed.
Lemma merge_core h l a s1 b s2 r e d : core h (l ++ (a, s1, false) :: (b, s2, false) :: r) e d ->
  exists f bl, ldel b (frees h) = Some f /\ ldel b (blocks h) = Some bl /\ even (s1 + HDR + s2) /\
  core (set_avail (set_usz (set_frees (set_blocks h bl) f) (fun x => if x =? a then s1 + HDR + s2 + Z.b2z false else usz h x)) (avail h + HDR)) (l ++ (a, s1 + HDR + s2, false) :: r) e d.
Proof.
  intros R. destruct (core_mid _ _ _ _ _ _ _ _ R) as (Tl & Tr & Bn & En & Ev & An & Un & Pn & Nl & Nr & Gl & Gr & Bl).
  assert (R' : core h ((l ++ [(a, s1, false)]) ++ (b, s2, false) :: r) e d) by (rewrite <- app_assoc; exact R). destruct (core_mid _ _ _ _ _ _ _ _ R') as (Tl2 & Tr2 & Bn2 & En2 & Ev2 & An2 & Un2 & Pn2 & Nl2 & Nr2 & Gl2 & Gr2 & Bl2).
  destruct R' as [Rb Rt Re Rd Rbl Rti Rg Rf Ra]. destruct (free_perm _ _ _ _ _ Rf) as (f & Ef & Pf). exists f, (map ca (l ++ [(a, s1, false)]) ++ map ca r).
  split; [exact Ef|]. split; [rewrite Bl2; apply ldel_ok; exact Nl2|].
  cbn [tiles] in Tr. unfold ca at 1, cz in Tr. cbn [fst snd] in Tr. destruct Tr as (Eb & Zs2 & Tr).
  assert (Ev3 : even (s1 + HDR + s2)). { destruct Ev as [E1 E2], Ev2 as [E3 E4]. apply even_of; [unfold HDR in *; lia|]. replace (s1 + HDR + s2) with (s1 - (- 40 - s2)) by (unfold HDR; lia). apply zmod_sub; [lia|exact E2|]. apply zmod_sub; [lia|reflexivity|exact E4]. }
  split; [exact Ev3|].
  constructor; cbn [base psize blocks frees avail usz set_frees set_usz set_avail set_blocks]; try assumption.
  - rewrite map_app, <- app_assoc. rewrite map_mid. reflexivity.
  - apply tiles_join; unfold ca, cz; cbn [fst snd]; [exact Tl|destruct Ev3; lia|]. replace (a + HDR + (s1 + HDR + s2)) with (b + HDR + s2) by (unfold HDR in *; lia). exact Tr2.
  - apply forall_mid. split; [apply good_upd; [exact Gl|]|split; [|apply good_upd; [exact Gr2|]]].
    + eapply Forall_impl; [|apply (tiles_before _ _ _ Tl)]. unfold HDR. cbn. lia.
    + split; [unfold ca, cz, cu; cbn [fst snd]; rewrite Z.eqb_refl; reflexivity|]. unfold ca, cz; cbn [fst snd]. split; assumption.
    + eapply Forall_impl; [|apply (tiles_after _ _ _ Tr2)]. unfold HDR in *. destruct Ev. cbn. lia.
  - rewrite Pf. rewrite !filter_app, !map_app. cbn [filter cfree cu snd negb map]. rewrite <- app_assoc. reflexivity.
  - rewrite Ra, !sumfree_app. cbn. unfold HDR. lia.
Qed.
Definition step_next (h : heap) (node : Z) : option heap :=
  let* side := lnext node (blocks h) in
  match side with
  | None => Some h
  | Some side =>
    let* us := get_hdr h side in
    if get_used us then Some h else
    let* f := ldel side (frees h) in
    let* b := ldel side (blocks h) in
    let h := set_frees (set_blocks h b) f in
    let fsize := w64 (HDR + get_size us) in
    let* u := get_hdr h node in
    let* h := put_hdr h node (set_size u (w64 (get_size u + fsize))) in
    Some (set_avail h (w64 (avail h + HDR)))
  end.
Definition step_prev (h : heap) (node : Z) : option heap :=
  let* side := lprev None node (blocks h) in
  match side with
  | None => Some h
  | Some side =>
    let* us := get_hdr h side in
    if get_used us then Some h else
    let* f := ldel node (frees h) in
    let* b := ldel node (blocks h) in
    let h := set_frees (set_blocks h b) f in
    let* u := get_hdr h node in
    let fsize := w64 (HDR + get_size u) in
    let* h := put_hdr h side (set_size us (w64 (get_size us + fsize))) in
    Some (set_avail h (w64 (avail h + HDR)))
  end.
Lemma free_steps h block : free h block =
  (let node := block - HDR in
   let* u := get_hdr h node in
   let* h := put_hdr h node (set_used u false) in
   let h := set_frees h (node :: frees h) in
   let* u := get_hdr h node in
   let nsize := get_size u in
   let h := set_avail h (w64 (avail h + nsize)) in
   let* h := step_next h node in step_prev h node).
Proof.
  unfold free, step_next, step_prev. cbv zeta. destruct (get_hdr h (block - HDR)) as [u|]; [|reflexivity]. destruct (put_hdr h (block - HDR) (set_used u false)) as [h1|]; [|reflexivity].
  destruct (get_hdr (set_frees h1 _) (block - HDR)) as [u1|]; [|reflexivity]. destruct (lnext (block - HDR) (blocks _)) as [side|]; reflexivity.
Qed.
Definition same (h h' : heap) : Prop := base h' = base h /\ psize h' = psize h /\ dat h' = dat h.
Lemma zlen2 (a b : chunk) l r : 2 <= zlen (l ++ a :: b :: r).
Proof. unfold zlen. rewrite app_length. cbn [length]. lia. Qed.
Lemma merge_words h l a s1 b s2 r e d : core h (l ++ (a, s1, false) :: (b, s2, false) :: r) e d ->
  usz h a = s1 + Z.b2z false /\ usz h b = s2 + Z.b2z false /\ even s1 /\ even s2 /\ in_pool h a = true /\ in_pool h b = true /\ a <> b /\
  w64 (s1 + w64 (HDR + s2)) = s1 + HDR + s2 /\ w64 (avail h + HDR) = avail h + HDR.
Proof.
  intros R. pose proof (zlen2 (a, s1, false) (b, s2, false) l r) as Zl. pose proof (core_avail _ _ _ _ R) as [A1 A2]. destruct (core_mid _ _ _ _ _ _ _ _ R) as (Tl & Tr & Bn & En & Ev & An & Un & Pn & Nl & Nr & Gl & Gr & Bl).
  assert (R' : core h ((l ++ [(a, s1, false)]) ++ (b, s2, false) :: r) e d) by (rewrite <- app_assoc; exact R). destruct (core_mid _ _ _ _ _ _ _ _ R') as (Tl2 & Tr2 & Bn2 & En2 & Ev2 & An2 & Un2 & Pn2 & Nl2 & Nr2 & Gl2 & Gr2 & Bl2).
  cbn [tiles] in Tr. unfold ca at 1, cz in Tr. cbn [fst snd] in Tr. destruct Tr as (Eb & Zs2 & Tr). pose proof (c_end _ _ _ _ R). pose proof (c_top _ _ _ _ R). pose proof (c_base _ _ _ _ R).
  repeat (split; [assumption|]). destruct Ev, Ev2. unfold HDR in *. split; [lia|]. split; [|apply w64_small; unfold u64; lia]. rewrite (w64_small (40 + s2)) by (unfold u64; lia). rewrite w64_small by (unfold u64; lia). lia.
Qed.
Lemma step_next_ok h l n s r e d : core h (l ++ (n, s, false) :: r) e d -> noadj false r ->
  exists h' s' r', step_next h n = Some h' /\ same h h' /\ core h' (l ++ (n, s', false) :: r') e d /\ noadj true r' /\ filter cu r' = filter cu r.
Proof.
  intros R N. destruct (core_mid _ _ _ _ _ _ _ _ R) as (Tl & Tr & Bn & En & Ev & An & Un & Pn & Nl & Nr & Gl & Gr & Bl). unfold step_next. assert (Ln : lnext n (blocks h) = Some (match map ca r with [] => None | z :: _ => Some z end)) by (rewrite Bl; apply lnext_ok; exact Nl). rewrite Ln. destruct r as [|[[b s2] u] r]; cbn [map]; [exists h, s, []; split; [reflexivity|]; split; [repeat split|]; split; [exact R|]; split; [exact I|reflexivity]|].
  change (ca (b, s2, u)) with b.
  assert (R' : core h ((l ++ [(n, s, false)]) ++ (b, s2, u) :: r) e d) by (rewrite <- app_assoc; exact R). destruct (core_mid _ _ _ _ _ _ _ _ R') as (_ & _ & _ & _ & Ev2 & _ & Un2 & Pn2 & _). unfold get_hdr at 1. rewrite Pn2, Un2. rewrite get_used_ok by exact Ev2. destruct u.
  - exists h, s, ((b, s2, true) :: r). split; [reflexivity|]. split; [repeat split|]. split; [exact R|]. split; [|reflexivity]. cbn [noadj] in *. split; [intros _; reflexivity|]. tauto.
  - destruct (merge_words _ _ _ _ _ _ _ _ _ R) as (U1 & U2 & E1 & E2 & P1 & P2 & Nab & W1 & W2). destruct (merge_core _ _ _ _ _ _ _ _ _ R) as (f & bl & -> & -> & E3 & C). cbv zeta. unfold get_hdr. change (in_pool (set_frees (set_blocks h bl) f) n) with (in_pool h n). rewrite P1. cbn [usz set_frees set_blocks]. rewrite U1. rewrite put_some by exact P1. rewrite !get_size_ok by assumption. rewrite W1, set_size_ok by assumption. cbn [avail set_usz set_frees set_blocks usz]. rewrite W2.
    eexists _, _, r. split; [reflexivity|]. split; [repeat split|]. split; [exact C|]. cbn [noadj] in N. unfold cfree at 1, cu at 1 in N. cbn [snd negb] in N. split; [apply N|reflexivity].
Qed.
Lemma noadj_w b r : noadj true r -> noadj b r.
Proof. destruct r as [|c r]; [trivial|]. cbn [noadj]. intros [A B]. split; [intros _; apply A; reflexivity|exact B]. Qed.
Lemma exists_last_or (l : list chunk) : l = [] \/ exists l' x, l = l' ++ [x].
Proof. destruct l as [|y l]; [left; reflexivity|]. right. destruct (exists_last (l := y :: l)) as (l' & x & E); [discriminate|]. exists l', x. exact E. Qed.
Lemma step_prev_ok h l n s r e d : core h (l ++ (n, s, false) :: r) e d -> noadj false l -> noadj true r ->
  exists h' cs', step_prev h n = Some h' /\ same h h' /\ rep h' cs' e d /\ filter cu cs' = filter cu l ++ filter cu r.
Proof.
  intros R NL N. destruct (core_mid _ _ _ _ _ _ _ _ R) as (Tl & Tr & Bn & En & Ev & An & Un & Pn & Nl & Nr & Gl & Gr & Bl). unfold step_prev.
  destruct (exists_last_or l) as [->|(l' & [[a s1] u] & ->)].
  - cbn [map app] in Bl. assert (Ln : lprev None n (blocks h) = Some None) by (rewrite Bl; apply lprev_nil). rewrite Ln. exists h, ((n, s, false) :: r). split; [reflexivity|]. split; [repeat split|]. split; [apply core_rep; [exact R|]; cbn [noadj]; split; [discriminate|exact N]|reflexivity].
  - rewrite map_app in Bl, Nl. cbn [map] in Bl, Nl. assert (Ln : lprev None n (blocks h) = Some (Some a)) by (rewrite Bl; apply lprev_ok; exact Nl). rewrite Ln. rewrite <- app_assoc in R. cbn [app] in R. destruct (core_mid _ _ _ _ _ _ _ _ R) as (_ & _ & _ & _ & Ev2 & _ & Un2 & Pn2 & _). unfold get_hdr at 1. rewrite Pn2, Un2. rewrite get_used_ok by exact Ev2. apply noadj_app in NL. cbn [noadj] in NL. destruct NL as [NL1 NL2]. destruct u.
    + exists h, (l' ++ (a, s1, true) :: (n, s, false) :: r). split; [reflexivity|]. split; [repeat split|]. split; [apply core_rep; [exact R|]|rewrite !filter_app; cbn; rewrite <- !app_assoc; reflexivity]. apply noadj_app. split; [exact NL1|]. cbn [noadj]. split; [intros _; reflexivity|]. split; [discriminate|exact N].
    + destruct (merge_words _ _ _ _ _ _ _ _ _ R) as (U1 & U2 & E1 & E2 & P1 & P2 & Nab & W1 & W2). destruct (merge_core _ _ _ _ _ _ _ _ _ R) as (f & bl & -> & -> & E3 & C). cbv zeta. unfold get_hdr. change (in_pool (set_frees (set_blocks h bl) f) n) with (in_pool h n). rewrite P2. cbn [usz set_frees set_blocks]. rewrite U2. rewrite put_some by exact P1. rewrite !get_size_ok by assumption. rewrite W1, set_size_ok by assumption. cbn [avail set_usz set_frees set_blocks usz]. rewrite W2.
      eexists _, _. split; [reflexivity|]. split; [repeat split|]. split; [apply core_rep; [exact C|]|rewrite !filter_app; cbn; rewrite app_nil_r; reflexivity]. apply noadj_app. split; [exact NL1|]. cbn [noadj]. split; [apply NL2|exact N].
Qed.
Lemma free_ok h l n s r e d : rep h (l ++ (n, s, true) :: r) e d ->
  exists h' cs', free h (n + HDR) = Some h' /\ same h h' /\ rep h' cs' e d /\ filter cu cs' = filter cu l ++ filter cu r.
Proof.
  intros R. pose proof (r_adj _ _ _ _ R) as Ad. apply noadj_app in Ad. destruct Ad as [Al Ar]. cbn [noadj] in Ar. destruct Ar as [_ Ar]. unfold cfree, cu in Ar. cbn [snd negb] in Ar.
  apply rep_core in R. destruct (core_mid _ _ _ _ _ _ _ _ R) as (Tl & Tr & Bn & En & Ev & An & Un & Pn & Nl & Nr & Gl & Gr & Bl).
  pose proof (mark_core _ _ _ _ _ _ _ R) as M. pose proof (core_avail _ _ _ _ M) as [A1 A2]. cbn [avail set_avail] in A1, A2. assert (A3 : 0 <= HDR * zlen (l ++ (n, s, false) :: r)) by (unfold HDR, zlen; lia).
  rewrite free_steps. cbv zeta. replace (n + HDR - HDR) with n by lia. unfold get_hdr at 1. rewrite Pn, Un. rewrite put_some by exact Pn. rewrite set_used_ok by exact Ev. unfold get_hdr. change (in_pool (set_frees _ _) n) with (in_pool h n). rewrite Pn. cbn [usz set_frees set_usz frees avail]. rewrite Z.eqb_refl, get_size_ok by exact Ev. rewrite w64_small by (unfold u64; lia).
  destruct (step_next_ok _ _ _ _ _ _ _ M Ar) as (h1 & s1 & r1 & -> & S1 & C1 & N1 & F1). destruct (step_prev_ok _ _ _ _ _ _ _ C1 Al N1) as (h2 & cs & -> & S2 & C2 & F2). exists h2, cs. split; [reflexivity|]. split; [|split; [exact C2|rewrite F2, F1; reflexivity]].
  unfold same in *. cbn in S1. destruct S1 as (-> & -> & E1) || idtac. intuition congruence.
Qed.
