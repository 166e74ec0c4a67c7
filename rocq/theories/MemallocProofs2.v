(** * Proofs about the pool allocator: the operations keep the invariant *)
From Coq Require Import Sorting.Permutation.
From Verif Require Import Lib MemallocModel MemallocProofs.
Notation chunk := (Z * Z * bool)%type.
Lemma filter_mid (f : chunk -> bool) l c r : filter f (l ++ c :: r) = filter f l ++ (if f c then [c] else []) ++ filter f r.
Proof. rewrite filter_app. cbn [filter]. destruct (f c); reflexivity. Qed.
Lemma map_mid (l : list chunk) c r : map ca (l ++ c :: r) = map ca l ++ ca c :: map ca r.
Proof. rewrite map_app. reflexivity. Qed.
Lemma put_some h a v : in_pool h a = true -> put_hdr h a v = Some (set_usz h (fun b => if b =? a then v else usz h b)).
Proof. intros H. unfold put_hdr. rewrite H. reflexivity. Qed.
Lemma forall_mid (P : chunk -> Prop) l c r : Forall P (l ++ c :: r) <-> Forall P l /\ P c /\ Forall P r.
Proof. rewrite Forall_app, Forall_cons_iff. tauto. Qed.
(** what the invariant says around one chunk *)
Lemma rep_mid h l n s u r e d : rep h (l ++ (n, s, u) :: r) e d ->
  tiles (base h) n l /\ tiles (n + HDR + s) e r /\ base h <= n /\ n + HDR + s <= e /\ even s /\
  (n - base h) mod 8 = 0 /\ usz h n = s + Z.b2z u /\ in_pool h n = true /\ ~ In n (map ca l) /\ ~ In n (map ca r) /\
  Forall (good (usz h) (base h)) l /\ Forall (good (usz h) (base h)) r /\ blocks h = map ca l ++ n :: map ca r.
Proof.
  intros R. pose proof (r_tiles _ _ _ _ R) as T. pose proof (tiles_split _ _ _ _ _ T) as (Tl & Z0 & Tr). unfold ca, cz in Tl, Z0, Tr. cbn [fst snd] in *.
  pose proof (r_good _ _ _ _ R) as G. apply forall_mid in G. destruct G as (Gl & Gc & Gr). destruct Gc as (Gu & Ge & Ga). unfold ca, cz, cu in Gu, Ge, Ga. cbn [fst snd] in *.
  assert (I : In (n, s, u) (l ++ (n, s, u) :: r)) by (apply in_or_app; right; left; reflexivity). pose proof (rep_pool _ _ _ _ R _ I) as Ip. unfold ca in Ip. cbn in Ip.
  pose proof (tiles_le _ _ _ Tl). pose proof (tiles_le _ _ _ Tr). pose proof (r_blocks _ _ _ _ R) as B. rewrite map_mid in B. unfold ca at 2 in B. cbn [fst snd] in B.
  do 8 (split; [assumption || lia|]). split; [eapply not_in_addr; [apply (tiles_before _ _ _ Tl)|unfold HDR; cbn; lia]|]. split; [eapply not_in_addr; [apply (tiles_after _ _ _ Tr)|unfold HDR; destruct Ge; cbn; lia]|]. tauto.
Qed.
Lemma free_perm f l n s r : Permutation f (map ca (filter cfree (l ++ (n, s, false) :: r))) -> exists f', ldel n f = Some f' /\ Permutation f' (map ca (filter cfree l) ++ map ca (filter cfree r)).
Proof.
  rewrite filter_mid. cbn [cfree cu snd negb app]. rewrite map_app. cbn [map]. unfold ca at 2. cbn [fst]. intros P. destruct (ldel_perm n f) as (f' & E & P'); [eapply Permutation_in; [apply Permutation_sym, P|]; apply in_or_app; right; left; reflexivity|].
  exists f'. split; [exact E|]. apply Permutation_cons_inv with n. rewrite <- P', P. symmetry. apply Permutation_middle.
Qed.
Lemma free_filter l n s r : map ca (filter cfree (l ++ (n, s, true) :: r)) = map ca (filter cfree l) ++ map ca (filter cfree r).
Proof. rewrite filter_mid. cbn. apply map_app. Qed.
Lemma rep_avail h cs e d : rep h cs e d -> 0 <= avail h < 2 ^ 64 /\ 0 <= sumfree cs /\ 0 <= d.
Proof. intros R. pose proof (sumfree_bound _ _ _ (r_tiles _ _ _ _ R)) as [A B]. pose proof (r_avail _ _ _ _ R). destruct R. unfold HDR in *. assert (0 <= zlen cs) by (unfold zlen; lia). lia. Qed.
Lemma zmod_sub a b m : 0 < m -> a mod m = 0 -> b mod m = 0 -> (a - b) mod m = 0.
Proof. intros M A B. rewrite Zminus_mod, A, B. reflexivity. Qed.
Lemma even_of x : 0 <= x < 2 ^ 64 -> x mod 2 = 0 -> even x.
Proof. split; assumption. Qed.
Lemma m32_2 x : x mod 32 = 0 -> x mod 2 = 0.
Proof. intros H. apply Z.mod_divide in H; [|lia]. destruct H as [k ->]. replace (k * 32) with (k * 16 * 2) by lia. apply Z_mod_mult. Qed.
Lemma m32_8 x : x mod 32 = 0 -> x mod 8 = 0.
Proof. intros H. apply Z.mod_divide in H; [|lia]. destruct H as [k ->]. replace (k * 32) with (k * 4 * 8) by lia. apply Z_mod_mult. Qed.
(** ** Allocation *)
Section Alloc.
Variable find : heap -> Z -> option (option Z).
Hypothesis FO : find_ok find.
Lemma alloc_ok h cs e d size : rep h cs e d -> 0 <= size < 2 ^ 64 ->
  exists h' p, alloc find h size = Some (h', p) /\ base h' = base h /\ psize h' = psize h /\ dat h' = dat h /\
  ((p = 0 /\ h' = h) \/
   exists l n s s' rest r, cs = l ++ (n, s, false) :: r /\ p = n + HDR /\ align_up size <= s' <= s /\ rep h' (l ++ (n, s', true) :: rest ++ r) e d /\ Forall (fun c => cu c = false) rest).
Proof.
  intros R Hs. unfold alloc. destruct (align_up_ok size Hs) as (Ar & Am & _). set (sz := align_up size) in *. clearbody sz.
  destruct (Z.ltb_spec (avail h) sz) as [La|La]; [exists h, 0; do 4 (split; [reflexivity|]); left; split; reflexivity|].
  destruct (FO h cs e d sz R) as (o & -> & Ho). destruct o as [n|]; [|exists h, 0; do 4 (split; [reflexivity|]); left; split; reflexivity].
  destruct Ho as (l & s & r & -> & Ls). pose proof (rep_mid _ _ _ _ _ _ _ _ R) as (Tl & Tr & Bn & En & Ev & An & Un & Pn & Nl & Nr & Gl & Gr & Bl).
  pose proof (rep_avail _ _ _ _ R) as (Av & Sf & Dd). pose proof (r_avail _ _ _ _ R) as Ea. rewrite sumfree_app in Ea, Sf. cbn [sumfree] in Ea, Sf. unfold cu at 1, cz at 1 in Ea. unfold cu at 1, cz at 1 in Sf. cbn [fst snd] in Ea, Sf.
  pose proof (sumfree_bound _ _ _ Tl) as [Sl _]. pose proof (sumfree_bound _ _ _ Tr) as [Sr _]. pose proof (r_adj _ _ _ _ R) as Ad. apply noadj_app in Ad. cbn [noadj] in Ad. unfold cu at 1, cfree at 1, cu at 1 in Ad. cbn [snd negb] in Ad. destruct Ad as (Adl & Ad1 & Adr).
  destruct R as [Rb Rt Re Rd Rbl Rti Rg Rf Ra Rad]. destruct (free_perm _ _ _ _ _ Rf) as (f' & Ef & Pf).
  unfold get_hdr at 1. rewrite Pn, Un. rewrite get_size_ok by exact Ev. rewrite (w64_small (s - sz)) by (destruct Ev; unfold u64; lia). rewrite (w64_small (avail h - s)) by (unfold u64; lia).
  cbv zeta. destruct (Z.ltb_spec (s - sz) (HDR + ALIGN)) as [Lb|Lb].
  - unfold get_hdr. change (in_pool (set_avail h (avail h - s)) n) with (in_pool h n). rewrite Pn. rewrite put_some by exact Pn. cbn [usz set_avail]. rewrite Un, set_used_ok by exact Ev. cbn [frees set_usz set_avail]. rewrite Ef.
    eexists. exists (n + HDR). split; [reflexivity|]. do 3 (split; [reflexivity|]). right. exists l, n, s, s, [], r. split; [reflexivity|]. split; [reflexivity|]. split; [lia|]. split; [|constructor]. cbn [app].
    constructor; cbn [base psize blocks frees avail usz set_frees set_usz set_avail]; try assumption.
    + rewrite map_mid. exact Bl.
    + apply tiles_join; unfold ca, cz; cbn [fst snd]; [exact Tl|destruct Ev; lia|exact Tr].
    + apply forall_mid. split; [apply good_upd; [exact Gl|]|split; [|apply good_upd; [exact Gr|]]].
      * eapply Forall_impl; [|apply (tiles_before _ _ _ Tl)]. unfold HDR. cbn. lia.
      * split; [unfold ca, cz, cu; cbn [fst snd]; rewrite Z.eqb_refl; reflexivity|]. unfold ca, cz; cbn [fst snd]. split; assumption.
      * eapply Forall_impl; [|apply (tiles_after _ _ _ Tr)]. unfold HDR. destruct Ev. cbn. lia.
    + rewrite free_filter. exact Pf.
    + rewrite sumfree_app. cbn. lia.
    + apply noadj_app. split; [exact Adl|]. cbn [noadj]. split; [intros _; reflexivity|]. unfold cfree, cu. cbn [snd negb]. destruct r as [|c r]; [exact I|]. cbn [noadj] in *. split; [discriminate|tauto].
  - unfold HDR, ALIGN in Lb. set (fr := n + HDR + sz) in *. assert (Efr : w64 fr = fr) by (apply w64_small; unfold u64, fr, HDR in *; lia). rewrite Efr. rewrite (w64_small (s - sz - HDR)) by (destruct Ev; unfold u64, HDR; lia).
    set (fs := s - sz - HDR). assert (Evf : even fs). { destruct Ev as [Ev1 Ev2]. apply even_of; [unfold fs, HDR; lia|]. unfold fs. apply zmod_sub; [lia| |reflexivity]. apply zmod_sub; [lia|exact Ev2|apply m32_2, Am]. }
    assert (Evz : even sz) by (apply even_of; [destruct Ev; lia|apply m32_2, Am]).
    assert (Pfr : in_pool h fr = true) by (unfold in_pool; rewrite andb_true_iff, !Z.leb_le; unfold fr, HDR in *; lia).
    rewrite put_some by exact Pfr. rewrite pnode_ok by exact Evf. cbn [set_usz set_avail set_frees set_blocks usz avail blocks frees]. rewrite Bl, ladd_ok by exact Nl.
    rewrite (w64_small (avail h - s + fs)) by (unfold u64, fs, HDR; lia).
    unfold get_hdr at 1. change (in_pool (set_frees _ _) n) with (in_pool h n). rewrite Pn. cbn [set_usz set_avail set_frees set_blocks usz avail blocks frees].
    assert (Nfr : n =? fr = false) by (apply Z.eqb_neq; unfold fr, HDR; lia). rewrite Nfr, Un. rewrite put_some by exact Pn. rewrite set_size_ok by assumption. unfold get_hdr. change (in_pool (set_usz _ _) n) with (in_pool h n). rewrite Pn. rewrite put_some by exact Pn. cbn [set_usz set_avail set_frees set_blocks usz avail blocks frees]. rewrite Z.eqb_refl, set_used_ok by exact Evz.
    cbn [ldel]. rewrite Z.eqb_sym, Nfr, Ef. eexists. exists (n + HDR). split; [reflexivity|]. do 3 (split; [reflexivity|]). right. exists l, n, s, sz, [(fr, fs, false)], r. split; [reflexivity|]. split; [reflexivity|]. split; [destruct Ev; lia|]. split; [|constructor; [reflexivity|constructor]]. cbn [app].
    constructor; cbn [base psize blocks frees avail usz set_frees set_usz set_avail set_blocks]; try assumption.
    + rewrite map_mid. cbn [map]. reflexivity.
    + apply tiles_join; unfold ca, cz; cbn [fst snd]; [exact Tl|lia|]. cbn [tiles]. unfold ca, cz; cbn [fst snd]. split; [reflexivity|]. split; [unfold fs, HDR; lia|]. replace (n + HDR + sz + HDR + fs) with (n + HDR + s) by (unfold fs, HDR; lia). exact Tr.
    + apply forall_mid. split; [|split; [|constructor]].
      * apply good_upd; [apply good_upd; [apply good_upd; [exact Gl|]|]|]; (eapply Forall_impl; [|apply (tiles_before _ _ _ Tl)]); unfold fr, HDR; cbn; lia.
      * split; [unfold ca, cz, cu; cbn [fst snd]; rewrite Z.eqb_refl; reflexivity|]. unfold ca, cz; cbn [fst snd]. split; assumption.
      * split; [unfold ca, cz, cu; cbn [fst snd]; rewrite Z.eqb_sym, Nfr, Z.eqb_refl; reflexivity|]. unfold ca, cz; cbn [fst snd]. split; [exact Evf|]. replace (fr - base h) with (n - base h - (- 40 - sz)) by (unfold fr, HDR; lia). apply zmod_sub; [lia|exact An|]. apply zmod_sub; [lia|reflexivity|apply m32_8, Am].
      * apply good_upd; [apply good_upd; [apply good_upd; [exact Gr|]|]|]; (eapply Forall_impl; [|apply (tiles_after _ _ _ Tr)]); unfold fr, HDR in *; destruct Ev; cbn; lia.
    + rewrite filter_mid. cbn [cfree cu snd negb app filter]. rewrite map_app. cbn [map]. unfold ca at 2. cbn [fst]. rewrite Pf. apply Permutation_middle.
    + rewrite sumfree_app. cbn. fold fs. unfold fs, HDR in *. lia.
    + apply noadj_app. split; [exact Adl|]. cbn [noadj]. unfold cfree at 1 2, cu at 1 2 3. cbn [snd negb]. split; [intros _; reflexivity|]. split; [discriminate|exact Adr].
Qed.
End Alloc.
