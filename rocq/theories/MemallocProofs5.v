(** * Proofs about the pool allocator: histories of a client *)
From Coq Require Import Sorting.Permutation.
From Verif Require Import Lib MemallocModel MemallocProofs MemallocProofs2 MemallocProofs3 MemallocProofs4 MemallocSpec.
Notation chunk := (Z * Z * bool)%type.
Notation used := (filter cu).
Definition holds (d : Z -> Z) (b : block) (c : chunk) : Prop :=
  cu c = true /\ ptr b = ca c + HDR /\ 0 <= req b <= cz c /\ (forall k v, held b k = Some v -> 0 <= k < req b /\ d (ptr b + k) = v).
Definition inv (h : heap) (live : list block) (cs : list chunk) (e d : Z) : Prop :=
  rep h cs e d /\ exists us, Permutation us (used cs) /\ Forall2 (holds (dat h)) live us.
Lemma nth_split2 (P : block -> chunk -> Prop) : forall i live us b, Forall2 P live us -> nth_error live i = Some b ->
  exists l1 l2 u1 c u2, live = l1 ++ b :: l2 /\ us = u1 ++ c :: u2 /\ P b c /\ Forall2 P l1 u1 /\ Forall2 P l2 u2 /\
  del_nth i live = l1 ++ l2 /\ forall x, set_nth i x live = l1 ++ x :: l2.
Proof.
  induction i as [|i IH]; intros live us b F E; destruct F as [|a c live us H F]; cbn [nth_error] in E; try discriminate.
  - injection E as ->. exists [], live, [], c, us. repeat split; try constructor; assumption.
  - destruct (IH _ _ _ F E) as (l1 & l2 & u1 & c' & u2 & -> & -> & Hc & F1 & F2 & D & S). exists (a :: l1), l2, (c :: u1), c', u2. cbn [app del_nth set_nth]. rewrite D. repeat split; try assumption; [constructor; assumption|]. intros x. rewrite S. reflexivity.
Qed.
(** two used chunks do not overlap *)
Lemma tiles_disj : forall cs a e c c' l1 l2, tiles a e cs -> Permutation cs (c :: c' :: l1 ++ l2) -> ca c + HDR + cz c <= ca c' \/ ca c' + HDR + cz c' <= ca c.
Proof.
  intros cs a e c c' l1 l2 T P. assert (I : In c cs) by (eapply Permutation_in; [apply Permutation_sym, P|left; reflexivity]). apply in_split in I. destruct I as (l & r & ->).
  apply Permutation_sym in P. apply Permutation_cons_app_inv in P. assert (I : In c' (l ++ r)) by (eapply Permutation_in; [exact P|left; reflexivity]). destruct (tiles_split _ _ _ _ _ T) as (Tl & Z0 & Tr). apply in_app_or in I. destruct I as [I|I].
  - right. exact (proj2 (proj2 (tiles_in _ _ _ _ Tl I))).
  - left. exact (proj1 (tiles_in _ _ _ _ Tr I)).
Qed.
Lemma used_perm (cs : list chunk) : Permutation cs (used cs ++ filter cfree cs).
Proof. induction cs as [|c cs IH]; [constructor|]. cbn [filter]. unfold cfree at 1. destruct (cu c); cbn [negb app]; [apply perm_skip, IH|]. apply Permutation_cons_app, IH. Qed.
Lemma used_disj cs a e u1 c u2 c' : tiles a e cs -> Permutation (u1 ++ c :: u2) (used cs) -> In c' (u1 ++ u2) -> ca c + HDR + cz c <= ca c' \/ ca c' + HDR + cz c' <= ca c.
Proof.
  intros T P I. apply in_split in I. destruct I as (v1 & v2 & E). eapply tiles_disj with (l1 := v1 ++ v2) (l2 := filter cfree cs); [exact T|]. rewrite (used_perm cs) at 1. rewrite <- P. rewrite <- Permutation_middle. rewrite E. rewrite <- Permutation_middle. reflexivity.
Qed.
Lemma chunk_eta c : cu c = true -> c = (ca c, cz c, true).
Proof. destruct c as [[a z] u]. cbn. intros ->. reflexivity. Qed.
Lemma holds_dat d d' b c : holds d b c -> (forall k, 0 <= k < cz c -> d' (ca c + HDR + k) = d (ca c + HDR + k)) -> holds d' b c.
Proof. intros (A & B & C & D) E. split; [exact A|]. split; [exact B|]. split; [exact C|]. intros k v K. destruct (D k v K) as [R V]. split; [exact R|]. rewrite B in *. rewrite E by lia. exact V. Qed.
Lemma forall2_dat d d' : forall live us, Forall2 (holds d) live us -> (forall c, In c us -> forall k, 0 <= k < cz c -> d' (ca c + HDR + k) = d (ca c + HDR + k)) -> Forall2 (holds d') live us.
Proof. induction 1 as [|b c live us H F IH]; intros E; constructor; [apply (holds_dat d); [exact H|apply E; left; reflexivity]|apply IH; intros c' I; apply E; right; exact I]. Qed.
Lemma align_le v : 0 <= v <= 2 ^ 64 - 32 -> v <= align_up v.
Proof. intros V. destruct (align_up_ok v) as (_ & _ & H); [lia|]. apply H. lia. Qed.
Section Step.
Variable find : heap -> Z -> option (option Z).
Hypothesis FO : find_ok find.
Lemma step_ok h live cs e d o : inv h live cs e d -> 0 <= asked o <= 2 ^ 64 - 32 ->
  exists h' live' cs', step find (h, live) o = Some (h', live') /\ base h' = base h /\ psize h' = psize h /\ inv h' live' cs' e d.
Proof.
  intros (R & us & P & F) A. destruct o as [size|i|i size|i k v]; cbn [step asked] in *.
  - destruct (alloc_ok' find FO h cs e d size R ltac:(lia)) as (h' & p & -> & (S1 & S2 & S3) & [[-> ->]|(cs' & n & s & -> & L & (t & It & Lt) & R' & P')]).
    + exists h, live, cs. split; [reflexivity|]. do 2 (split; [reflexivity|]). split; [exact R|]. exists us. split; assumption.
    + pose proof (proj1 (tiles_in _ _ _ _ (r_tiles _ _ _ _ R) It)) as Bn. unfold ca in Bn. cbn in Bn. pose proof (r_base _ _ _ _ R). rewrite (proj2 (Z.eqb_neq (n + HDR) 0)) by (unfold HDR; lia). eexists _, _, cs'. split; [reflexivity|]. split; [exact S1|]. split; [exact S2|]. split; [exact R'|].
      exists ((n, s, true) :: us). split; [rewrite P'; apply perm_skip, P|]. constructor; [|rewrite S3; exact F]. split; [reflexivity|]. split; [reflexivity|]. cbn [req held ptr]. split; [|discriminate]. pose proof (align_le size ltac:(lia)). unfold cz. cbn [fst snd]. lia.
  - destruct (nth_error live i) as [b|] eqn:E; [|exists h, live, cs; split; [reflexivity|]; do 2 (split; [reflexivity|]); split; [exact R|]; exists us; split; assumption].
    destruct (nth_split2 _ _ _ _ _ F E) as (l1 & l2 & u1 & c & u2 & -> & -> & (H1 & H2 & H3 & H4) & F1 & F2 & D & _). rewrite H2, D. assert (Ic : In (ca c, cz c, true) (used cs)) by (rewrite <- chunk_eta by exact H1; eapply Permutation_in; [exact P|apply in_or_app; right; left; reflexivity]).
    destruct (free_ok' _ _ _ _ _ _ R Ic) as (h' & cs' & -> & (S1 & S2 & S3) & R' & P'). eexists _, _, cs'. split; [reflexivity|]. split; [exact S1|]. split; [exact S2|]. split; [exact R'|]. exists (u1 ++ u2). split.
    + apply Permutation_cons_inv with c. rewrite (chunk_eta c H1) at 2. rewrite <- P', <- P. apply Permutation_middle.
    + rewrite S3. apply Forall2_app; assumption.
  - destruct (nth_error live i) as [b|] eqn:E; [|exists h, live, cs; split; [reflexivity|]; do 2 (split; [reflexivity|]); split; [exact R|]; exists us; split; assumption].
    destruct (nth_split2 _ _ _ _ _ F E) as (l1 & l2 & u1 & c & u2 & -> & -> & (H1 & H2 & H3 & H4) & F1 & F2 & _ & D). rewrite H2. assert (Ic : In (ca c, cz c, true) (used cs)) by (rewrite <- chunk_eta by exact H1; eapply Permutation_in; [exact P|apply in_or_app; right; left; reflexivity]).
    destruct (realloc_ok find FO _ _ _ _ _ _ size R Ic ltac:(lia)) as (h' & q & -> & S1 & S2 & [[-> ->]|(cs' & m & t & U & -> & L & R' & PU & PU' & O)]); [eexists _, _, cs; split; [reflexivity|]; do 2 (split; [reflexivity|]); split; [exact R|]; exists (u1 ++ c :: u2); split; [exact P|apply Forall2_app; [exact F1|constructor; [exact (conj H1 (conj H2 (conj H3 H4)))|exact F2]]]|].
    assert (Im : In (m, t, true) cs'). { assert (X : In (m, t, true) (used cs')) by (eapply Permutation_in; [apply Permutation_sym, PU'|left; reflexivity]). apply filter_In in X. apply X. }
    pose proof (proj1 (tiles_in _ _ _ _ (r_tiles _ _ _ _ R') Im)) as Bn. unfold ca at 1 in Bn. cbn in Bn. pose proof (r_base _ _ _ _ R'). rewrite (proj2 (Z.eqb_neq (m + HDR) 0)) by (unfold HDR; lia). rewrite D.
    eexists _, _, cs'. split; [reflexivity|]. split; [exact S1|]. split; [exact S2|]. split; [exact R'|]. exists (u1 ++ (m, t, true) :: u2).
    assert (PU2 : Permutation (u1 ++ u2) U). { apply Permutation_cons_inv with c. rewrite (chunk_eta c H1) at 2. rewrite <- PU, <- P. apply Permutation_middle. }
    assert (PW : Permutation (u1 ++ (m, t, true) :: u2) (used cs')) by (rewrite PU', <- PU2; symmetry; apply Permutation_middle). split; [exact PW|].
    pose proof (align_le size ltac:(lia)) as Le.
    assert (Fr : (forall c', In c' (u1 ++ u2) -> forall k, 0 <= k < cz c' -> dat h' (ca c' + HDR + k) = dat h (ca c' + HDR + k)) /\ (forall k, 0 <= k < cz c -> dat h' (m + HDR + k) = dat h (ca c + HDR + k))).
    { destruct O as [(-> & Lt & ->)|(Lt & -> & _)]; [split; reflexivity|]. split.
      - intros c' I k K. unfold copy. pose proof (used_disj _ _ _ _ _ _ c' (r_tiles _ _ _ _ R') PW I) as Dj. change (ca (m, t, true)) with m in Dj. change (cz (m, t, true)) with t in Dj. destruct (Z.leb_spec (m + HDR) (ca c' + HDR + k)), (Z.ltb_spec (ca c' + HDR + k) (m + HDR + cz c)); cbn [andb]; try reflexivity. unfold HDR in *. lia.
      - intros k K. unfold copy. destruct (Z.leb_spec (m + HDR) (m + HDR + k)), (Z.ltb_spec (m + HDR + k) (m + HDR + cz c)); cbn [andb]; try lia. f_equal. lia. }
    destruct Fr as [Fr1 Fr2]. apply Forall2_app; [apply (forall2_dat (dat h)); [exact F1|intros c' I; apply Fr1, in_or_app; left; exact I]|]. constructor; [|apply (forall2_dat (dat h)); [exact F2|intros c' I; apply Fr1, in_or_app; right; exact I]].
    split; [reflexivity|]. split; [reflexivity|]. cbn [req held ptr]. unfold cz at 1. cbn [fst snd]. split; [lia|]. intros k v K. destruct (Z.ltb_spec k (req b)) as [K1|K1], (Z.ltb_spec k size) as [K2|K2]; cbn [andb] in K; try discriminate. destruct (H4 k v K) as [K3 K4]. split; [lia|]. change (ca (m, t, true)) with m. rewrite Fr2 by lia. rewrite H2 in K4. exact K4.
  - destruct (nth_error live i) as [b|] eqn:E; [|exists h, live, cs; split; [reflexivity|]; do 2 (split; [reflexivity|]); split; [exact R|]; exists us; split; assumption].
    destruct (Z.leb_spec 0 k) as [K0|K0], (Z.ltb_spec k (req b)) as [K1|K1]; cbn [andb]; try (exists h, live, cs; split; [reflexivity|]; do 2 (split; [reflexivity|]); split; [exact R|]; exists us; split; assumption).
    destruct (nth_split2 _ _ _ _ _ F E) as (l1 & l2 & u1 & c & u2 & -> & -> & (H1 & H2 & H3 & H4) & F1 & F2 & _ & D). rewrite D. eexists _, _, cs. split; [reflexivity|]. do 2 (split; [reflexivity|]). split; [destruct R; constructor; assumption|]. exists (u1 ++ c :: u2). split; [exact P|]. cbn [dat set_dat].
    assert (Fr : forall c', In c' (u1 ++ u2) -> forall j, 0 <= j < cz c' -> (if ca c' + HDR + j =? ptr b + k then v else dat h (ca c' + HDR + j)) = dat h (ca c' + HDR + j)).
    { intros c' I j K. pose proof (used_disj _ _ _ _ _ _ c' (r_tiles _ _ _ _ R) P I) as Dj. rewrite (proj2 (Z.eqb_neq _ _)); [reflexivity|]. unfold HDR in *. lia. }
    apply Forall2_app; [apply (forall2_dat (dat h)); [exact F1|intros c' I; apply Fr, in_or_app; left; exact I]|]. constructor; [|apply (forall2_dat (dat h)); [exact F2|intros c' I; apply Fr, in_or_app; right; exact I]].
    split; [exact H1|]. split; [exact H2|]. cbn [req held ptr]. split; [exact H3|]. intros j w. destruct (Z.eqb_spec j k) as [->|Nj]; [intros [= ->]; split; [lia|rewrite Z.eqb_refl; reflexivity]|]. intros J. destruct (H4 j w J) as [J1 J2]. split; [exact J1|]. rewrite (proj2 (Z.eqb_neq _ _)) by lia. exact J2.
Qed.
Lemma run_ok e d : forall os h live cs, inv h live cs e d -> Forall (fun o => 0 <= asked o <= 2 ^ 64 - 32) os ->
  exists h' live' cs', run find (h, live) os = Some (h', live') /\ base h' = base h /\ psize h' = psize h /\ inv h' live' cs' e d.
Proof.
  induction os as [|o os IH]; intros h live cs V A; cbn [run]; [exists h, live, cs; split; [reflexivity|]; do 2 (split; [reflexivity|]); exact V|]. inversion_clear A as [|? ? A1 A2]. destruct (step_ok _ _ _ _ _ _ V A1) as (h1 & l1 & c1 & -> & B1 & B2 & V1). destruct (IH _ _ _ V1 A2) as (h' & l' & c' & E & B3 & B4 & V'). exists h', l', c'. split; [exact E|]. split; [congruence|]. split; [congruence|exact V'].
Qed.
End Step.
Lemma init_ok b z u dt : 0 < b -> 40 <= z -> b + z <= 2 ^ 64 -> exists h, init b z u dt = Some h /\ base h = b /\ psize h = z /\ inv h [] [(b, z - 40 - z mod 2, false)] (b + z - z mod 2) (z mod 2).
Proof.
  intros B Z1 T. unfold init, put_hdr, in_pool. cbn [base psize]. rewrite (proj2 (Z.leb_le b b)), (proj2 (Z.leb_le (b + HDR) (b + z))) by (unfold HDR; lia). cbn [andb]. rewrite (w64_small (z - HDR)) by (unfold u64, HDR; lia).
  assert (Hm : 0 <= z mod 2 < 2) by (apply Z.mod_pos_bound; lia). assert (Ev : even (z - 40 - z mod 2)). { apply even_of; [clear - Z1 T B Hm; Z.div_mod_to_equations; lia|]. clear. Z.div_mod_to_equations. lia. }
  eexists. split; [reflexivity|]. do 2 (split; [reflexivity|]). split; [|exists []; split; constructor]. constructor; cbn [base psize blocks frees avail usz set_frees set_usz set_avail set_blocks]; try assumption; try lia; try reflexivity.
  - cbn [tiles]. unfold ca, cz; cbn [fst snd]. split; [reflexivity|]. split; [destruct Ev; lia|]. unfold HDR. lia.
  - constructor; [|constructor]. split; [|split; [exact Ev|unfold ca; cbn; rewrite Z.sub_diag; reflexivity]]. unfold ca, cz, cu. cbn [fst snd]. rewrite Z.eqb_refl. unfold pnode. rewrite mask_ok by (unfold HDR; lia). cbn [Z.b2z]. rewrite Z.lor_0_r, Z.add_0_r. unfold HDR. replace ((z - 40) mod 2) with (z mod 2); [lia|]. clear. Z.div_mod_to_equations. lia.
  - cbn. unfold HDR. lia.
  - cbn. split; [discriminate|exact I].
Qed.

(** ** What the client sees *)
Lemma word_size h c : good (usz h) (base h) c -> size_of h (ca c) = cz c /\ is_free h (ca c) = cfree c.
Proof. intros (U & [E1 E2] & _). unfold size_of, is_free. rewrite U. replace ((cz c + Z.b2z (cu c)) mod 2) with (Z.b2z (cu c)); [unfold cfree; destruct (cu c); cbn; split; lia || reflexivity|]. rewrite Z.add_mod, E2 by lia. cbn [Z.add]. rewrite Z.mod_mod by lia. destruct (cu c); reflexivity. Qed.
Lemma walk_tiles h : forall cs a e, tiles a e cs -> Forall (good (usz h) (base h)) cs -> walk h a (map ca cs) = Some e.
Proof.
  induction cs as [|c cs IH]; intros a e T G; cbn [tiles map walk] in *; [rewrite T; reflexivity|]. destruct T as (A & Z0 & T). inversion_clear G as [|? ? Gc Gr]. destruct (word_size h c Gc) as [S _]. rewrite A, Z.eqb_refl. rewrite A in S. rewrite S. apply IH; [|exact Gr]. exact T.
Qed.
Lemma noadj_pair : forall l b x y r, noadj b (l ++ x :: y :: r) -> cfree x = true -> cfree y = false.
Proof. intros l b x y r N F. apply noadj_app in N. destruct N as [_ N]. cbn [noadj] in N. destruct N as (_ & N & _). unfold cfree in *. rewrite N by exact F. reflexivity. Qed.
Lemma total_cons h x l : total h (x :: l) = size_of h x + total h l.
Proof. reflexivity. Qed.
Lemma total_free h : forall cs, Forall (good (usz h) (base h)) cs -> total h (map ca (filter cfree cs)) = sumfree cs.
Proof. induction cs as [|c cs IH]; intros G; [reflexivity|]. inversion_clear G as [|? ? Gc Gr]. specialize (IH Gr). cbn [filter sumfree]. destruct (word_size h c Gc) as [S _]. unfold cfree at 1. destruct (cu c); cbn [negb map]; [lia|]. rewrite total_cons. lia. Qed.
Lemma total_perm h l l' : Permutation l l' -> total h l = total h l'.
Proof. induction 1; rewrite ?total_cons; lia. Qed.
Lemma filter_free h : forall cs, Forall (good (usz h) (base h)) cs -> filter (is_free h) (map ca cs) = map ca (filter cfree cs).
Proof. induction cs as [|c cs IH]; intros G; [reflexivity|]. inversion_clear G as [|? ? Gc Gr]. cbn [map filter]. destruct (word_size h c Gc) as [_ ->]. rewrite IH by exact Gr. destruct (cfree c); reflexivity. Qed.
(** ** The policies *)
Lemma mask_size u : 0 <= u < 2 ^ 64 -> get_size u = u - u mod 2.
Proof. intros H. unfold get_size. apply mask_ok. exact H. Qed.
Definition hdrs (h : heap) (l : list Z) : Prop := Forall (fun n => in_pool h n = true /\ 0 <= usz h n < 2 ^ 64) l.
Lemma hdr_size h n : in_pool h n = true /\ 0 <= usz h n < 2 ^ 64 -> exists u, get_hdr h n = Some u /\ get_size u = size_of h n.
Proof. intros [A B]. exists (usz h n). unfold get_hdr. rewrite A. split; [reflexivity|apply mask_size; exact B]. Qed.
Lemma first_spec h size : forall l, hdrs h l -> exists r, first_from h l size = Some r /\
  match r with None => Forall (fun n => size_of h n < size) l | Some n => exists l1 l2, l = l1 ++ n :: l2 /\ size <= size_of h n /\ Forall (fun m => size_of h m < size) l1 end.
Proof.
  induction l as [|n l IH]; intros H; cbn [first_from]; [exists None; split; [reflexivity|constructor]|]. inversion_clear H as [|? ? H1 H2]. destruct (hdr_size h n H1) as (u & -> & ->). destruct (Z.leb_spec size (size_of h n)) as [L|L]; [exists (Some n); split; [reflexivity|]; exists [], l; repeat split; [exact L|constructor]|].
  destruct (IH H2) as (r & -> & R). exists r. split; [reflexivity|]. destruct r as [m|]; [|constructor; assumption]. destruct R as (l1 & l2 & -> & R1 & R2). exists (n :: l1), l2. repeat split; [exact R1|constructor; assumption].
Qed.
Lemma best_spec h size : forall l best bs, hdrs h l -> exists r, best_from h l size best bs = Some r /\
  match r with
  | None => best = None /\ Forall (fun n => size_of h n < size \/ bs <= size_of h n) l
  | Some n => (In n l /\ size <= size_of h n /\ (size_of h n = size \/ size_of h n < bs) /\ Forall (fun m => size <= size_of h m -> size_of h n <= size_of h m) l) \/
              (best = Some n /\ Forall (fun m => size <= size_of h m -> bs <= size_of h m) l)
  end.
Proof.
  induction l as [|n l IH]; intros best bs H; cbn [best_from]; [exists best; split; [reflexivity|]; destruct best as [b|]; [right; split; constructor|split; constructor]|].
  inversion_clear H as [|? ? H1 H2]. destruct (hdr_size h n H1) as (u & -> & ->). destruct (Z.leb_spec size (size_of h n)) as [L|L].
  - destruct (Z.eqb_spec (size_of h n) size) as [E|E]; [exists (Some n); split; [reflexivity|]; left; split; [left; reflexivity|]; split; [exact L|]; split; [left; exact E|]; apply Forall_forall; intros; lia|].
    destruct (Z.leb_spec bs (size_of h n)) as [B|B].
    + destruct (IH best bs H2) as (r & -> & R). exists r. split; [reflexivity|]. destruct r as [m|].
      * destruct R as [(R1 & R2 & R3 & R4)|(R1 & R2)]; [left|right]; [split; [right; exact R1|]; split; [exact R2|]; split; [exact R3|]; constructor; [intros _; lia|exact R4]|split; [exact R1|]; constructor; [intros _; exact B|exact R2]].
      * destruct R as [R1 R2]. split; [exact R1|]. constructor; [right; exact B|exact R2].
    + destruct (IH (Some n) (size_of h n) H2) as (r & -> & R). exists r. split; [reflexivity|]. destruct r as [m|]; [|destruct R; discriminate].
      left. destruct R as [(R1 & R2 & R3 & R4)|(R1 & R2)].
      * split; [right; exact R1|]. split; [exact R2|]. split; [lia|]. constructor; [intros _; lia|exact R4].
      * injection R1 as <-. split; [left; reflexivity|]. split; [exact L|]. split; [lia|]. constructor; [intros _; lia|exact R2].
  - destruct (IH best bs H2) as (r & -> & R). exists r. split; [reflexivity|]. destruct r as [m|].
    + destruct R as [(R1 & R2 & R3 & R4)|(R1 & R2)]; [left|right]; [split; [right; exact R1|]; split; [exact R2|]; split; [exact R3|]; constructor; [intros; lia|exact R4]|split; [exact R1|]; constructor; [intros; lia|exact R2]].
    + destruct R as [R1 R2]. split; [exact R1|]. constructor; [left; exact L|exact R2].
Qed.
Lemma worst_spec h size : forall l worst bs, hdrs h l -> Forall (fun n => size_of h n <= avail h) l -> bs <= avail h -> exists r, worst_from h l size worst bs = Some r /\
  match r with
  | None => worst = None /\ Forall (fun n => size_of h n < size \/ size_of h n <= bs) l
  | Some n => (In n l /\ size <= size_of h n /\ (bs <= size_of h n) /\ Forall (fun m => size <= size_of h m -> size_of h m <= size_of h n) l) \/
              (worst = Some n /\ Forall (fun m => size <= size_of h m -> size_of h m <= bs) l)
  end.
Proof.
  induction l as [|n l IH]; intros best bs H Hv Hb; cbn [worst_from]; [exists best; split; [reflexivity|]; destruct best as [b|]; [right; split; constructor|split; constructor]|].
  inversion_clear H as [|? ? H1 H2]. inversion_clear Hv as [|? ? V1 V2]. destruct (hdr_size h n H1) as (u & -> & ->). destruct (Z.leb_spec size (size_of h n)) as [L|L].
  - destruct (Z.eqb_spec (size_of h n) (avail h)) as [E|E]; [exists (Some n); split; [reflexivity|]; left; split; [left; reflexivity|]; split; [exact L|]; split; [lia|]; constructor; [lia|]; eapply Forall_impl; [|exact V2]; cbn; intros; lia|].
    destruct (Z.leb_spec (size_of h n) bs) as [B|B].
    + destruct (IH best bs H2 V2 Hb) as (r & -> & R). exists r. split; [reflexivity|]. destruct r as [m|].
      * destruct R as [(R1 & R2 & R3 & R4)|(R1 & R2)]; [left|right]; [split; [right; exact R1|]; split; [exact R2|]; split; [exact R3|]; constructor; [intros _; lia|exact R4]|split; [exact R1|]; constructor; [intros _; exact B|exact R2]].
      * destruct R as [R1 R2]. split; [exact R1|]. constructor; [right; exact B|exact R2].
    + destruct (IH (Some n) (size_of h n) H2 V2 V1) as (r & -> & R). exists r. split; [reflexivity|]. destruct r as [m|]; [|destruct R; discriminate].
      left. destruct R as [(R1 & R2 & R3 & R4)|(R1 & R2)].
      * split; [right; exact R1|]. split; [exact R2|]. split; [lia|]. constructor; [intros _; lia|exact R4].
      * injection R1 as <-. split; [left; reflexivity|]. split; [exact L|]. split; [lia|]. constructor; [intros _; lia|exact R2].
  - destruct (IH best bs H2 V2 Hb) as (r & -> & R). exists r. split; [reflexivity|]. destruct r as [m|].
    + destruct R as [(R1 & R2 & R3 & R4)|(R1 & R2)]; [left|right]; [split; [right; exact R1|]; split; [exact R2|]; split; [exact R3|]; constructor; [intros; lia|exact R4]|split; [exact R1|]; constructor; [intros; lia|exact R2]].
    + destruct R as [R1 R2]. split; [exact R1|]. constructor; [left; exact L|exact R2].
Qed.
Lemma rep_hdrs h cs e d : rep h cs e d -> hdrs h (frees h) /\ Forall (fun n => 0 <= size_of h n <= avail h) (frees h).
Proof.
  intros R. assert (G : forall n, In n (frees h) -> (in_pool h n = true /\ 0 <= usz h n < 2 ^ 64) /\ 0 <= size_of h n <= avail h).
  { intros n I. destruct (free_in _ _ _ _ R n I) as (l & s & r & ->). destruct (rep_mid _ _ _ _ _ _ _ _ R) as (Tl & Tr & Bn & En & Ev & An & Un & Pn & _). rewrite Un. cbn [Z.b2z]. rewrite Z.add_0_r. split; [split; [exact Pn|exact (proj1 Ev)]|].
    unfold size_of. rewrite Un. cbn [Z.b2z]. rewrite Z.add_0_r. destruct Ev as [E1 E2]. rewrite E2. pose proof (r_avail _ _ _ _ R) as A. rewrite sumfree_app in A. cbn [sumfree] in A. change (cu (n, s, false)) with false in A. change (cz (n, s, false)) with s in A. pose proof (sumfree_bound _ _ _ Tl) as [S1 _]. pose proof (sumfree_bound _ _ _ Tr) as [S2 _]. pose proof (r_d _ _ _ _ R). cbv iota in A. lia. }
  split; apply Forall_forall; intros n I; apply G; exact I.
Qed.
