(** * Proofs about the edit distance *)
From Verif Require Import Lib LevModel LevSpec KmpProofs.
Section P.
Variables (s w a d : Z).
Hypothesis Hs : 0 <= s. Hypothesis Hw : 0 <= w. Hypothesis Ha : 0 <= a. Hypothesis Hd : 0 <= d.
Notation al := (align s w a d).
Notation opt := (cheapest s w a d).
Lemma al_nonneg u v c : al u v c -> 0 <= c.
Proof. induction 1; lia. Qed.
Lemma opt_unique u v c c' : opt u v c -> opt u v c' -> c = c'.
Proof. intros [A B] [C D]. specialize (B _ C). specialize (D _ A). lia. Qed.
Lemma snoc_ne (A : Type) (u : list A) x : u ++ [x] <> [].
Proof. destruct u; discriminate. Qed.
Lemma snoc2 (A : Type) (u : list A) x y : u ++ [x; y] = (u ++ [x]) ++ [y].
Proof. rewrite <- app_assoc. reflexivity. Qed.
Lemma al_left : forall v, al [] v (zlen v * a).
Proof. induction v as [|y v IH] using rev_ind; [apply al_nil|]. replace (zlen (v ++ [y]) * a) with (zlen v * a + a) by (unfold zlen; rewrite app_length; cbn; lia). apply al_add, IH. Qed.
Lemma al_top : forall u, al u [] (zlen u * d).
Proof. induction u as [|y u IH] using rev_ind; [apply al_nil|]. replace (zlen (u ++ [y]) * d) with (zlen u * d + d) by (unfold zlen; rewrite app_length; cbn; lia). apply al_del, IH. Qed.
Lemma opt_left v : opt [] v (zlen v * a).
Proof.
  split; [apply al_left|]. intros c' A. remember [] as u eqn:Eu. revert Eu. induction A; intros Eu; try (exfalso; eapply snoc_ne; exact Eu); [unfold zlen; cbn; lia| |].
  - rewrite snoc2 in Eu. exfalso. eapply snoc_ne; exact Eu.
  - specialize (IHA Eu). unfold zlen in *. rewrite app_length. cbn. lia.
Qed.
Lemma opt_top u : opt u [] (zlen u * d).
Proof.
  split; [apply al_top|]. intros c' A. remember [] as v eqn:Eu. revert Eu. induction A; intros Eu; try (exfalso; eapply snoc_ne; exact Eu); [unfold zlen; cbn; lia| |].
  - rewrite snoc2 in Eu. exfalso. eapply snoc_ne; exact Eu.
  - specialize (IHA Eu). unfold zlen in *. rewrite app_length. cbn. lia.
Qed.
(** the last step of an alignment *)
Lemma al_inv u v x y c : al (u ++ [x]) (v ++ [y]) c ->
  (exists c0, al u v c0 /\ c0 + s * (if x =? y then 0 else 1) <= c) \/
  (exists u' v' c0, u = u' ++ [y] /\ v = v' ++ [x] /\ al u' v' c0 /\ c = c0 + w) \/
  (exists c0, al (u ++ [x]) v c0 /\ c = c0 + a) \/ (exists c0, al u (v ++ [y]) c0 /\ c = c0 + d).
Proof.
  intros A. inversion A as [E1 E2|u0 v0 c0 x0 A0 E1 E2|u0 v0 c0 x0 y0 A0 E1 E2|u0 v0 c0 x0 y0 A0 E1 E2|u0 v0 c0 y0 A0 E1 E2|u0 v0 c0 x0 A0 E1 E2]; subst.
  - symmetry in E1. exfalso. eapply snoc_ne. exact E1.
  - apply app_inj_tail in E1. apply app_inj_tail in E2. destruct E1 as [-> ->]. destruct E2 as [-> ->]. left. exists c. split; [exact A0|]. rewrite Z.eqb_refl. lia.
  - apply app_inj_tail in E1. apply app_inj_tail in E2. destruct E1 as [-> ->]. destruct E2 as [-> ->]. left. exists c0. split; [exact A0|]. destruct (x =? y); lia.
  - rewrite snoc2 in E1, E2. apply app_inj_tail in E1. apply app_inj_tail in E2. destruct E1 as [<- ->]. destruct E2 as [<- ->]. right. left. exists u0, v0, c0. repeat split. exact A0.
  - apply app_inj_tail in E2. destruct E2 as [-> ->]. right. right. left. exists c0. split; [exact A0|reflexivity].
  - apply app_inj_tail in E1. destruct E1 as [-> ->]. right. right. right. exists c0. split; [exact A0|reflexivity].
Qed.
Lemma lower_min v u : lower v u = Z.min v u.
Proof. unfold lower. destruct (Z.ltb_spec u v); lia. Qed.
(** the recurrence *)
Definition swapped (u v : list Z) (x y : Z) (cs : option Z) : Prop :=
  match cs with
  | Some c => exists u' v', u = u' ++ [y] /\ v = v' ++ [x] /\ opt u' v' c
  | None => forall u' v', u = u' ++ [y] -> v = v' ++ [x] -> False
  end.
Definition best (x y c1 c2 c3 : Z) (cs : option Z) : Z :=
  let v := c1 + s * (if x =? y then 0 else 1) in
  let v := match cs with Some c => Z.min v (c + w) | None => v end in
  Z.min (Z.min v (c2 + a)) (c3 + d).
Lemma opt_step u v x y c1 c2 c3 cs : opt u v c1 -> opt (u ++ [x]) v c2 -> opt u (v ++ [y]) c3 -> swapped u v x y cs -> opt (u ++ [x]) (v ++ [y]) (best x y c1 c2 c3 cs).
Proof.
  intros [A1 M1] [A2 M2] [A3 M3] Sw. split.
  - assert (C1 : al (u ++ [x]) (v ++ [y]) (c1 + s * (if x =? y then 0 else 1))). { destruct (Z.eqb_spec x y) as [->|]; [rewrite Z.mul_0_r, Z.add_0_r; apply al_keep, A1|rewrite Z.mul_1_r; apply al_sub, A1]. }
    pose proof (al_add s w a d _ _ _ y A2) as C2. pose proof (al_del s w a d _ _ _ x A3) as C3.
    unfold best. destruct cs as [c|]; cbn [swapped] in Sw; cbv zeta.
    + destruct Sw as (u' & v' & -> & -> & [A4 _]). pose proof (al_swap s w a d _ _ _ y x A4) as C4. rewrite !snoc2 in C4.
      destruct (Z.min_spec (Z.min (Z.min (c1 + s * (if x =? y then 0 else 1)) (c + w)) (c2 + a)) (c3 + d)) as [[_ ->]|[_ ->]]; [|exact C3].
      destruct (Z.min_spec (Z.min (c1 + s * (if x =? y then 0 else 1)) (c + w)) (c2 + a)) as [[_ ->]|[_ ->]]; [|exact C2].
      destruct (Z.min_spec (c1 + s * (if x =? y then 0 else 1)) (c + w)) as [[_ ->]|[_ ->]]; assumption.
    + destruct (Z.min_spec (Z.min (c1 + s * (if x =? y then 0 else 1)) (c2 + a)) (c3 + d)) as [[_ ->]|[_ ->]]; [|exact C3].
      destruct (Z.min_spec (c1 + s * (if x =? y then 0 else 1)) (c2 + a)) as [[_ ->]|[_ ->]]; assumption.
  - intros c' A. apply al_inv in A. unfold best. cbv zeta. destruct A as [(c0 & A & L)|[(u' & v' & c0 & Eu & Ev & A & ->)|[(c0 & A & ->)|(c0 & A & ->)]]].
    + apply M1 in A. destruct cs; lia.
    + destruct cs as [c|]; cbn [swapped] in Sw; [|exfalso; eapply Sw; eassumption]. destruct Sw as (u2 & v2 & Eu2 & Ev2 & [_ M4]). rewrite Eu in Eu2. rewrite Ev in Ev2. apply app_inj_tail in Eu2. apply app_inj_tail in Ev2. destruct Eu2 as [-> _]. destruct Ev2 as [-> _]. apply M4 in A. lia.
    + apply M2 in A. lia.
    + apply M3 in A. lia.
Qed.
Lemma opt_bound u v c : opt u v c -> 0 <= c <= zlen u * d + zlen v * a.
Proof.
  intros [A M]. split; [eapply al_nonneg; exact A|]. apply M. clear. induction v as [|y v IH] using rev_ind; [replace (zlen u * d + zlen (@nil Z) * a) with (zlen u * d) by (unfold zlen; cbn; lia); apply al_top|].
  replace (zlen u * d + zlen (v ++ [y]) * a) with ((zlen u * d + zlen v * a) + a) by (unfold zlen; rewrite app_length; cbn; lia). apply al_add, IH.
Qed.
(** ** The rows *)
Variables (str1 str2 : list Z).
Notation n1 := (length str1).
Notation n2 := (length str2).
Hypothesis HB : zlen str1 * d + zlen str2 * a + s + w + a + d < 2 ^ 32.
Notation D i j c := (opt (firstn i str1) (firstn j str2) c).
(** a row holds the column [j] up to index [k] *)
Definition holds (row : list Z) (j k : nat) : Prop := forall i, (i <= k)%nat -> exists c, nth_error row i = Some c /\ D i j c.
Lemma D_bound i j c : (i <= n1)%nat -> (j <= n2)%nat -> D i j c -> 0 <= c <= zlen str1 * d + zlen str2 * a.
Proof. intros Hi Hj O. apply opt_bound in O. unfold zlen in *. rewrite !firstn_length, !Nat.min_l in O by lia. nia. Qed.
Lemma rd_nat' A (l : list A) i : rd l (Z.of_nat i) = nth_error l i.
Proof. unfold rd. rewrite (proj2 (Z.ltb_ge _ _)) by lia. rewrite Nat2Z.id. reflexivity. Qed.
(** what the cell above may hold: the right value, or, in the first row, anything that does not win *)
Definition above (j i : nat) (v : Z) : Prop := D (S i) j v \/ (j = 0%nat /\ i = (n1 - 1)%nat /\ 0 <= v < 2 ^ 32 /\ forall c, D (S i) 1 c -> c <= w32 (v + a)).
Lemma wr_step (row : list Z) i v : (i < length row)%nat -> exists row', wr row (Z.of_nat i) v = Some row' /\ length row' = length row /\ nth_error row' i = Some v /\ forall j, j <> i -> nth_error row' j = nth_error row j.
Proof.
  intros H. destruct (wr_spec Z row (Z.of_nat i) v) as (row' & E & L & R); [unfold zlen; lia|]. exists row'. split; [exact E|]. split; [unfold zlen in L; lia|]. split.
  - specialize (R (Z.of_nat i)). rewrite Z.eqb_refl, rd_nat' in R. exact R.
  - intros j J. specialize (R (Z.of_nat j)). rewrite !rd_nat', (proj2 (Z.eqb_neq _ _)) in R by lia. exact R.
Qed.
Lemma firstn_snoc_inv (l u : list Z) i y : firstn (S i) l = u ++ [y] -> (S i <= length l)%nat -> u = firstn i l /\ nth_error l i = Some y.
Proof.
  intros E L. destruct (nth_error l i) as [z|] eqn:N; [|apply nth_error_None in N; lia]. rewrite (firstn_S _ _ _ N) in E. apply app_inj_tail in E. destruct E as [-> ->]. split; reflexivity.
Qed.
Lemma inner_ok j row1 row2 : (j < n2)%nat -> length row1 = S n1 -> length row2 = S n1 -> (j <> 0%nat -> holds row1 (j - 1) (n1 - 1)) -> holds row2 j (n1 - 1) ->
  (forall v, nth_error row2 n1 = Some v -> above j (n1 - 1) v) ->
  forall n i row3, (i + n = n1)%nat -> length row3 = S n1 -> holds row3 (S j) i ->
  exists row3', lev_inner str1 str2 s w a d n (Z.of_nat i) (Z.of_nat j) row1 row2 row3 = Some row3' /\ length row3' = S n1 /\ holds row3' (S j) n1.
Proof.
  intros Hj L1 L2 H1 H2 H2'. induction n as [|n IH]; intros i row3 E L3 H3.
  - exists row3. split; [reflexivity|]. split; [exact L3|]. replace n1 with i by lia. exact H3.
  - cbn [lev_inner]. rewrite !rd_nat'. destruct (nth_error str1 i) as [c1|] eqn:N1; [|apply nth_error_None in N1; lia]. destruct (nth_error str2 j) as [c2|] eqn:N2; [|apply nth_error_None in N2; lia].
    destruct (H2 i ltac:(lia)) as (x & Ex & Dx). rewrite Ex. replace (Z.of_nat i + 1) with (Z.of_nat (S i)) by lia. rewrite rd_nat'.
    destruct (H3 i ltac:(lia)) as (le & El & Dl). rewrite El.
    destruct (nth_error row2 (S i)) as [up|] eqn:Eu; [|apply nth_error_None in Eu; lia].
    pose proof (D_bound i j x ltac:(lia) ltac:(lia) Dx) as Bx. pose proof (D_bound i (S j) le ltac:(lia) ltac:(lia) Dl) as Bl.
    assert (HA : above j i up).
    { destruct (Nat.eq_dec i (n1 - 1)) as [->|Ni]; [apply H2'; rewrite <- Eu; f_equal; lia|]. left. destruct (H2 (S i) ltac:(lia)) as (c & Ec & Dc). congruence. }
    (* the swap *)
    assert (exists cs, swapped (firstn i str1) (firstn j str2) c1 c2 cs /\ (if (Z.of_nat j =? 0) || (Z.of_nat i =? 0) then Some (w32 (x + w32 (s * (if c1 =? c2 then 0 else 1)))) else
      let* q2 := rd str2 (Z.of_nat j - 1) in if negb (c1 =? q2) then Some (w32 (x + w32 (s * (if c1 =? c2 then 0 else 1)))) else
      let* q1 := rd str1 (Z.of_nat i - 1) in if negb (q1 =? c2) then Some (w32 (x + w32 (s * (if c1 =? c2 then 0 else 1)))) else
      let* y := rd row1 (Z.of_nat i - 1) in Some (lower (w32 (x + w32 (s * (if c1 =? c2 then 0 else 1)))) (w32 (y + w)))) =
      Some (match cs with Some c => Z.min (x + s * (if c1 =? c2 then 0 else 1)) (c + w) | None => x + s * (if c1 =? c2 then 0 else 1) end)) as (cs & Sw & ->).
    { assert (W1 : w32 (x + w32 (s * (if c1 =? c2 then 0 else 1))) = x + s * (if c1 =? c2 then 0 else 1)) by (destruct (c1 =? c2); rewrite !w32_small by (unfold u32; try rewrite w32_small by (unfold u32; nia); nia); reflexivity). rewrite W1.
      destruct (Z.eqb_spec (Z.of_nat j) 0) as [J|J]; cbn [orb].
      { exists None. split; [|reflexivity]. cbn. intros u' v' _ Ev. assert (j = 0%nat) by lia. subst j. symmetry in Ev. eapply snoc_ne. exact Ev. }
      destruct (Z.eqb_spec (Z.of_nat i) 0) as [I|I]; cbn [orb].
      { exists None. split; [|reflexivity]. cbn. intros u' v' Eu' _. assert (i = 0%nat) by lia. subst i. symmetry in Eu'. eapply snoc_ne. exact Eu'. }
      destruct i as [|i']; [lia|]. destruct j as [|j']; [lia|]. replace (Z.of_nat (S j') - 1) with (Z.of_nat j') by lia. replace (Z.of_nat (S i') - 1) with (Z.of_nat i') by lia. rewrite !rd_nat'.
      destruct (nth_error str2 j') as [q2|] eqn:Q2; [|apply nth_error_None in Q2; lia]. destruct (nth_error str1 i') as [q1|] eqn:Q1; [|apply nth_error_None in Q1; lia].
      destruct (Z.eqb_spec c1 q2) as [->|Nq2]; cbn [negb].
      2: { exists None. split; [|reflexivity]. cbn. intros u' v' _ Ev. apply firstn_snoc_inv in Ev; [|lia]. destruct Ev as [_ Ev]. congruence. }
      destruct (Z.eqb_spec q1 c2) as [->|Nq1]; cbn [negb].
      2: { exists None. split; [|reflexivity]. cbn. intros u' v' Ev _. apply firstn_snoc_inv in Ev; [|lia]. destruct Ev as [_ Ev]. congruence. }
      destruct (H1 ltac:(lia) i' ltac:(lia)) as (y & -> & Dy). replace (S j' - 1)%nat with j' in Dy by lia. pose proof (D_bound i' j' y ltac:(lia) ltac:(lia) Dy) as By.
      exists (Some y). split; [exists (firstn i' str1), (firstn j' str2); repeat split; [apply firstn_S, Q1|apply firstn_S, Q2|apply Dy|apply Dy]|]. rewrite lower_min, (w32_small (y + w)) by (unfold u32; lia). reflexivity. }
    assert (V : exists v, lower (lower (match cs with Some c => Z.min (x + s * (if c1 =? c2 then 0 else 1)) (c + w) | None => x + s * (if c1 =? c2 then 0 else 1) end) (w32 (up + a))) (w32 (le + d)) = v /\ D (S i) (S j) v).
    { eexists. split; [reflexivity|]. rewrite !lower_min. rewrite (w32_small (le + d)) by (unfold u32; lia). rewrite (firstn_S _ _ _ N1), (firstn_S _ _ _ N2). rewrite (firstn_S _ _ _ N2) in Dl.
      assert (St : forall c2', D (S i) j c2' -> opt (firstn i str1 ++ [c1]) (firstn j str2 ++ [c2]) (best c1 c2 x c2' le cs)) by (intros c2' Dc; rewrite (firstn_S _ _ _ N1) in Dc; apply opt_step; assumption).
      destruct HA as [Du|(J & I & Bv & W)].
      - pose proof (D_bound (S i) j up ltac:(lia) ltac:(lia) Du) as Bu. rewrite (w32_small (up + a)) by (unfold u32; lia). exact (St _ Du).
      - subst j. change (firstn 0 str2) with (@nil Z) in *. cbn [app] in *. specialize (St (Z.of_nat (S i) * d)). assert (Dt : opt (firstn (S i) str1) [] (Z.of_nat (S i) * d)). { pose proof (opt_top (firstn (S i) str1)) as T. unfold zlen in T. rewrite firstn_length, Nat.min_l in T by lia. exact T. }
        specialize (St Dt). assert (Wv : best c1 c2 x (Z.of_nat (S i) * d) le cs <= w32 (up + a)). { apply W. rewrite (firstn_S _ _ _ N1). destruct str2 as [|z zs]; [discriminate N2|]. cbn in N2. injection N2 as ->. exact St. }
        assert (Ll : le <= Z.of_nat i * d + a). { apply opt_bound in Dl. unfold zlen in Dl. rewrite firstn_length, Nat.min_l in Dl by lia. cbn [length] in Dl. lia. }
        replace (Z.min (Z.min _ (w32 (up + a))) (le + d)) with (best c1 c2 x (Z.of_nat (S i) * d) le cs); [exact St|]. revert Wv. unfold best. cbv zeta. generalize (w32 (up + a)). intros r. clear - Ll. destruct cs; lia. }
    destruct V as (v & -> & Dv). destruct (wr_step row3 (S i) v ltac:(lia)) as (r' & -> & Lr & Nr & Or).
    destruct (IH (S i) r') as (r2 & -> & L' & H'); [lia|lia| |].
    { intros k Hk. destruct (Nat.eq_dec k (S i)) as [->|Nk]; [exists v; split; assumption|]. rewrite Or by exact Nk. apply H3. lia. }
    exists r2. split; [reflexivity|]. split; assumption.
Qed.
Lemma outer_ok : (0 < n1)%nat -> forall n j row1 row2 row3, (j + n = n2)%nat -> length row1 = S n1 -> length row2 = S n1 -> length row3 = S n1 -> (j <> 0%nat -> holds row1 (j - 1) (n1 - 1)) -> holds row2 j (n1 - 1) ->
  (forall v, nth_error row2 n1 = Some v -> (n = 0%nat -> D n1 j v) /\ (n <> 0%nat -> above j (n1 - 1) v)) ->
  exists row, lev_outer str1 str2 s w a d n (Z.of_nat j) row1 row2 row3 = Some row /\ exists c, nth_error row n1 = Some c /\ D n1 n2 c.
Proof.
  intros Hn. induction n as [|n IH]; intros j row1 row2 row3 E L1 L2 L3 H1 H2 H2'.
  - exists row2. split; [reflexivity|]. destruct (nth_error row2 n1) as [v|] eqn:N; [|apply nth_error_None in N; lia]. exists v. split; [reflexivity|]. replace n2 with j by lia. apply (H2' v eq_refl). reflexivity.
  - cbn [lev_outer]. destruct (wr_step row3 0 (w32 ((Z.of_nat j + 1) * a)) ltac:(lia)) as (r3 & E3 & L3' & N3 & O3). change (Z.of_nat 0) with 0 in E3. rewrite E3.
    destruct (inner_ok j row1 row2 ltac:(lia) L1 L2 H1 H2 ltac:(intros v V; apply (H2' v V); lia) n1 0%nat r3) as (r & Er & Lr & Hr); [lia|lia| |].
    { intros i Hi. assert (i = 0%nat) by lia. subst i. exists ((Z.of_nat j + 1) * a). split; [rewrite N3; f_equal; apply w32_small; unfold u32, zlen in *; nia|]. pose proof (opt_left (firstn (S j) str2)) as O. unfold zlen in O. rewrite firstn_length, Nat.min_l in O by lia. replace (Z.of_nat j + 1) with (Z.of_nat (S j)) by lia. exact O. }
    change (Z.of_nat 0) with 0 in Er. rewrite Er. replace (Z.of_nat j + 1) with (Z.of_nat (S j)) by lia.
    assert (Hc : forall v, nth_error r n1 = Some v -> D n1 (S j) v) by (intros v V; destruct (Hr n1 ltac:(lia)) as (c & Ec & Dc); congruence).
    apply IH; try lia; try assumption.
    + intros _. replace (S j - 1)%nat with j by lia. exact H2.
    + intros i Hi. apply Hr. lia.
    + intros v V. split; [intros _; exact (Hc v V)|intros _; left]. replace (S (n1 - 1)) with n1 by lia. exact (Hc v V).
Qed.
Lemma init_ok : forall n i row, (i + n = n1)%nat -> length row = S n1 -> (forall k, (k < i)%nat -> exists c, nth_error row k = Some c /\ D k 0 c) ->
  exists row', lev_init d n (Z.of_nat i) row = Some row' /\ length row' = S n1 /\ nth_error row' n1 = nth_error row n1 /\ (forall k, (k < n1)%nat -> exists c, nth_error row' k = Some c /\ D k 0 c).
Proof.
  induction n as [|n IH]; intros i row E L H; [exists row; split; [reflexivity|]; split; [exact L|]; split; [reflexivity|]; intros k K; apply H; lia|]. cbn [lev_init].
  destruct (wr_step row i (w32 (Z.of_nat i * d)) ltac:(lia)) as (r & -> & Lr & Nr & Or). replace (Z.of_nat i + 1) with (Z.of_nat (S i)) by lia.
  destruct (IH (S i) r) as (r' & -> & L' & N' & H'); [lia|lia| |exists r'; split; [reflexivity|]; split; [exact L'|]; split; [rewrite N'; apply Or; lia|exact H']].
  intros k K. destruct (Nat.eq_dec k i) as [->|Nk]; [|rewrite Or by exact Nk; apply H; lia]. exists (Z.of_nat i * d). split; [rewrite Nr; f_equal; apply w32_small; unfold u32, zlen in *; nia|].
  pose proof (opt_top (firstn i str1)) as O. unfold zlen in O. rewrite firstn_length, Nat.min_l in O by lia. exact O.
Qed.
Lemma lev_ok row1 row2 row3 junk : length row1 = S n1 -> length row2 = S n1 -> length row3 = S n1 -> nth_error row2 n1 = Some junk -> 0 <= junk < 2 ^ 32 ->
  (forall y c, nth_error str2 0 = Some y -> opt str1 [y] c -> c <= w32 (junk + a)) ->
  exists c, levenshtein_len str1 str2 s w a d (Some (row1, row2, row3)) = Some c /\ opt str1 str2 c.
Proof.
  intros L1 L2 L3 N B W. unfold levenshtein_len. destruct (Z.eqb_spec (zlen str1) 0) as [E1|N1].
  - assert (E : str1 = []) by (destruct str1; [reflexivity|unfold zlen in E1; cbn in E1; lia]). exists (zlen str2 * a). split; [f_equal; apply w32_small; unfold u32, zlen in *; nia|]. rewrite E. apply opt_left.
  - destruct (Z.eqb_spec (zlen str2) 0) as [E2|N2].
    + assert (E : str2 = []) by (destruct str2; [reflexivity|unfold zlen in E2; cbn in E2; lia]). exists (zlen str1 * d). split; [f_equal; apply w32_small; unfold u32, zlen in *; nia|]. rewrite E. apply opt_top.
    + unfold zlen in N1, N2. destruct (init_ok n1 0 row2) as (r & Er & Lr & Nr & Hr); [lia|exact L2|intros; lia|]. change (Z.of_nat 0) with 0 in Er. rewrite Er.
      destruct (outer_ok ltac:(lia) n2 0 row1 r row3) as (r' & Eo & c & Nc & Dc); try assumption; try lia.
      * intros i Hi. apply Hr. lia.
      * rewrite Nr, N. intros v V. injection V as <-. split; [lia|]. intros _. right. split; [reflexivity|]. split; [reflexivity|]. split; [exact B|]. intros c Dc. replace (S (n1 - 1)) with n1 in Dc by lia. rewrite firstn_all in Dc. destruct str2 as [|y l]; [cbn in N2; lia|]. exact (W y c eq_refl Dc).
      * change (Z.of_nat 0) with 0 in Eo. rewrite Eo. unfold zlen. rewrite rd_nat', Nc. exists c. split; [reflexivity|]. rewrite !firstn_all in Dc. exact Dc.
Qed.
End P.
