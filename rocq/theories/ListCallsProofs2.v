(** * Bottom-up merge sort with any comparison function: the loops *)
From Verif Require Import Lib Ptr ListModel ListSpec ListProofs ListProofs2 ListSortModel ListSortSpec ListSortProofs ListSortProofs2 ListSortProofs3 ListSortProofs4 ListCallsModel ListCallsProofs.
Ltac Zify.zify_post_hook ::= Z.div_mod_to_equations.

(** ** Sizes of the waiting chains
    After [c] nodes there is a chain of one node and, for every binary digit of [c] but the highest, a chain of 2^i nodes if
    digit [i] is 0 and of 2^(i+1) nodes if it is 1. *)
Fixpoint upper (i : Z) (c : positive) : list Z :=
  match c with
  | xH => []
  | xO p => i :: upper (i + 1) p
  | xI p => i + 1 :: upper (i + 1) p
  end.
Definition pow_len (L : list Z) (k : Z) : Prop := 0 <= k /\ zlen L = 2 ^ k.
Definition at_level (i bits : Z) (Ls : list (list Z)) : Prop :=
  match bits with Z0 => Ls = [] | Zpos c => Forall2 pow_len Ls (i :: upper i c) | Zneg _ => False end.
Lemma pos_half c : Zpos (xI c) / 2 = Zpos c /\ Zpos (xO c) / 2 = Zpos c.
Proof. lia. Qed.
(** What a round of the main loop does to the sizes. *)
Lemma walk_shape_ok m pending : forall fuel bits Ls tail p, 0 <= bits < 2 ^ Z.of_nat fuel -> bits < 2 ^ zlen Ls -> tail_load m pending tail = Some p -> pend m p Ls ->
  exists A B bits' p', tail_walk fuel m pending tail bits = Some (slot A tail, bits') /\ Ls = A ++ B /\ tail_load m pending (slot A tail) = Some p' /\ pend m p' B /\
  (bits' <> 0 -> (2 <= length B)%nat /\ bits + 1 < 2 ^ zlen Ls) /\
  (forall i, 0 <= i -> at_level i bits Ls -> (bits' = 0 -> Forall2 pow_len Ls (upper i (Z.to_pos (bits + 1)))) /\
     forall L2 L1 B', bits' <> 0 -> B = L2 :: L1 :: B' -> zlen L2 = zlen L1 /\ (exists k, pow_len L1 k) /\
       forall M, zlen M = 2 * zlen L1 -> Forall2 pow_len (A ++ M :: B') (upper i (Z.to_pos (bits + 1)))).
Proof.
  induction fuel as [|fuel IH]; intros bits Ls tail p Hb Hl Ht Hp.
  - change (2 ^ Z.of_nat 0) with 1 in Hb. assert (bits = 0) by lia. subst. exists [], Ls, 0, p. cbn [slot app tail_walk Z.odd].
    split; [reflexivity|]. split; [reflexivity|]. split; [exact Ht|]. split; [exact Hp|]. split; [contradiction|].
    intros i Hi A0. cbn [at_level] in A0. subst Ls. split; [intros _; constructor|]. intros L2 L1 B' C. contradiction.
  - cbn [tail_walk]. destruct (Z.odd bits) eqn:Eo.
    + rewrite Ht. destruct Ls as [|L Ls]; [change (2 ^ zlen []) with 1 in Hl; assert (bits = 0) by lia; subst; discriminate|].
      rewrite zlen_cons in Hl. cbn [pend] in Hp. destruct Hp as (N & C & q & E & Hp).
      pose proof (chain_hd _ _ _ C) as Eh.
      assert (Hh : bits = 2 * (bits / 2) + 1) by (pose proof (Zmod_odd bits) as Q; rewrite Eo in Q; pose proof (Z.div_mod bits 2); lia).
      assert (Hp2 : 2 ^ (zlen Ls + 1) = 2 * 2 ^ zlen Ls) by (rewrite Z.pow_add_r; [lia|apply zlen_nonneg|lia]).
      assert (Hp3 : 2 ^ Z.of_nat (S fuel) = 2 * 2 ^ Z.of_nat fuel) by (rewrite Nat2Z.inj_succ, Z.pow_succ_r by lia; reflexivity).
      destruct (IH (bits / 2) Ls (Some p) q) as (A & B & b' & p' & E1 & E2 & E3 & E4 & E5 & E6); [lia|lia|exact E|exact Hp|].
      rewrite E1. exists (L :: A), B, b', p'. subst p. rewrite (slot_cons L A tail) in *. split; [reflexivity|]. split; [cbn; rewrite E2; reflexivity|].
      split; [exact E3|]. split; [exact E4|]. split; [intros Hb'; destruct (E5 Hb') as [E7 E8]; split; [exact E7|]; rewrite zlen_cons, Hp2; lia|].
      intros i Hi A0.
      assert (X : pow_len L i /\ at_level (i + 1) (bits / 2) Ls /\ upper i (Z.to_pos (bits + 1)) = i :: upper (i + 1) (Z.to_pos (bits / 2 + 1))).
      { destruct bits as [|[c|c|]|c]; [discriminate Eo| |discriminate Eo| |]; cbn [at_level upper] in A0; try contradiction.
        - inversion A0 as [|? ? ? ? A1 A2]; subst. rewrite (proj1 (pos_half c)). split; [exact A1|]. split; [exact A2|]. cbn [Z.add Z.to_pos Pos.add Pos.succ upper]. rewrite Pos.add_1_r. reflexivity.
        - inversion A0 as [|? ? ? ? A1 A2]; subst. inversion A2; subst. split; [exact A1|]. split; [reflexivity|reflexivity]. }
      destruct X as (X1 & X2 & X3). rewrite X3. destruct (E6 (i + 1) ltac:(lia) X2) as [Y1 Y2]. split.
      * intros Z0. constructor; [exact X1|exact (Y1 Z0)].
      * intros L2 L1 B' Nz EB. destruct (Y2 L2 L1 B' Nz EB) as (W1 & W2 & W3). split; [exact W1|]. split; [exact W2|]. intros M HM. cbn [app]. constructor; [exact X1|exact (W3 M HM)].
    + exists [], Ls, bits, p. cbn [slot]. split; [reflexivity|]. split; [reflexivity|]. split; [exact Ht|]. split; [exact Hp|]. split.
      * intros Hz. assert (He : bits mod 2 = 0) by (rewrite Zmod_odd, Eo; reflexivity).
        destruct Ls as [|L1 [|L2 Ls]].
        -- change (2 ^ zlen []) with 1 in Hl. lia.
        -- change (2 ^ zlen [L1]) with 2 in Hl. assert (bits = 0 \/ bits = 1) by lia. destruct H as [->| ->]; [lia|discriminate].
        -- split; [cbn; lia|]. rewrite !zlen_cons in *. assert (Q : 2 ^ (zlen Ls + 1 + 1) = 2 * 2 ^ (zlen Ls + 1)) by (assert (0 <= zlen Ls) by apply zlen_nonneg; rewrite (Z.pow_add_r 2 (zlen Ls + 1)); lia).
           rewrite Q in *. pose proof (Z.div_mod bits 2). lia.
      * intros i Hi A0. split; [intros ->; cbn [at_level] in A0; subst Ls; constructor|]. intros L2 L1 B' Nz ->.
        destruct bits as [|[c|c|]|c]; [contradiction|discriminate Eo| |discriminate Eo|contradiction A0]. cbn [at_level upper] in A0.
        inversion A0 as [|? ? ? ? [_ A1] A2]; subst. inversion A2 as [|? ? ? ? A3 A4]; subst. destruct A3 as [_ A3]. split; [congruence|]. split; [exists i; split; assumption|].
        intros M HM. cbn [app Z.add Z.to_pos Pos.add upper]. constructor; [|exact A4]. split; [lia|]. rewrite HM, A3, Z.pow_add_r by lia. lia.
Qed.
(** ** Counting the calls *)
Definition cost (L : list Z) : Z := (Z.log2 (zlen L) - 1) * zlen L + 1.
Fixpoint costs (Ls : list (list Z)) : Z := match Ls with [] => 0 | L :: Ls => cost L + costs Ls end.
Lemma costs_app A B : costs (A ++ B) = costs A + costs B.
Proof. induction A as [|L A IH]; [reflexivity|]. cbn [app costs]. lia. Qed.
Lemma cost_merge L1 L2 M k : pow_len L1 k -> zlen L2 = zlen L1 -> zlen M = 2 * zlen L1 -> cost M = cost L1 + cost L2 + zlen L1 + zlen L2 - 1.
Proof.
  intros [Hk E1] E2 EM. unfold cost. rewrite EM, E2, E1. replace (2 * 2 ^ k) with (2 ^ (k + 1)) by (rewrite Z.pow_add_r; lia). rewrite !Z.log2_pow2 by lia. rewrite Z.pow_add_r by lia. lia.
Qed.
(** The sizes follow the count and the calls made are paid for. *)
Definition tally (count : Z) (Ls : list (list Z)) (tr : lcalls) : Prop := at_level 0 count Ls /\ zlen tr <= costs Ls.
(** The chains hold the processed nodes [done]; only these were shown to the comparison function. *)
Definition held (S : list Z) (tr0 tr : lcalls) : Prop := exists new, tr = new ++ tr0 /\ forall x y, In (x, y) new -> In x S /\ In y S.
Lemma held_refl S tr : held S tr tr.
Proof. exists []. split; [reflexivity|]. intros x y []. Qed.
Lemma held_trans S a b c : held S a b -> held S b c -> held S a c.
Proof. intros (n1 & -> & H1) (n2 & -> & H2). exists (n2 ++ n1). split; [apply app_assoc|]. intros x y H. apply in_app_or in H. destruct H; auto. Qed.
Lemma held_incl S S' a b : incl S S' -> held S a b -> held S' a b.
Proof. intros I (n & E & H). exists n. split; [exact E|]. intros x y Hx. destruct (H x y Hx). auto. Qed.
Lemma perm_concat_any (A : list (list Z)) L2 L1 B M : Permutation (L1 ++ L2) M -> Permutation (concat (A ++ L2 :: L1 :: B)) (concat (A ++ M :: B)).
Proof.
  intros P. rewrite !concat_app. cbn [concat]. apply Permutation_app_head. rewrite app_assoc. apply Permutation_app_tail.
  apply Permutation_trans with (L1 ++ L2); [apply Permutation_app_comm|exact P].
Qed.

Section Calls.
Variable orc : lcalls -> Z -> Z -> Z.
Lemma step_o_ok fuel tr m p count x rest Ls :
  NoDup (concat Ls ++ x :: rest) -> whole m (concat Ls ++ x :: rest) -> (length (concat Ls) <= fuel)%nat ->
  pend m p Ls -> chain m x (x :: rest) -> 0 <= count < 2 ^ 32 -> count < 2 ^ zlen Ls ->
  exists m' Ls' tr', sort_step_o orc fuel tr m p count x = Some (m', x, hd NULL rest, tr') /\ (tally count Ls tr -> tally (count + 1) Ls' tr') /\ held (concat Ls) tr tr' /\
  pend m' x Ls' /\ chain m' (hd NULL rest) rest /\ whole m' (concat Ls ++ x :: rest) /\ frame (concat Ls ++ [x]) m m' /\
  Permutation (concat Ls ++ [x]) (concat Ls') /\
  count + 1 < 2 ^ zlen Ls' /\ (length Ls <= length Ls')%nat /\ (count <= 1 -> length Ls' = S (length Ls)).
Proof.
  intros Hd Hw Hf Hp Hc Hcnt Hl. unfold sort_step_o.
  destruct (walk_shape_ok m p 64 count Ls None p) as (A & B & bits & p' & E1 & E2 & E3 & E4 & E5 & E6); [change (2 ^ Z.of_nat 64) with (2 ^ 64); lia|exact Hl|reflexivity|exact Hp|].
  assert (Hsmall : count <= 1 -> bits = 0).
  { intros Hs. assert (count = 0 \/ count = 1) as [->| ->] by lia.
    - change (tail_walk 64 m p None 0) with (Some (@None Z, 0)) in E1. injection E1 as _ <-. reflexivity.
    - change (tail_walk 64 m p None 1) with (Some (Some p, 0)) in E1. injection E1 as _ <-. reflexivity. }
  rewrite E1.
  assert (Hdx : NoDup (x :: rest)) by apply (nodup_r _ _ Hd).
  pose proof (nodup_disj _ _ Hd) as DX.
  assert (Mid : exists m1 p1 Ls1 tr1, (if bits =? 0 then Some (m, p, tr) else
     let* node2 := tail_load m p (slot A None) in
     let* node1 := ld m node2 PREV in
     let* (m, node2, tr) := list_merge_o orc fuel tr m node1 node2 in
     let* p' := ld m node1 PREV in
     let* m := st m node2 PREV p' in
     match slot A None with
     | None => Some (m, node2, tr)
     | Some t => let* m := st m t PREV node2 in Some (m, p, tr)
     end) = Some (m1, p1, tr1) /\ (tally count Ls tr -> Forall2 pow_len Ls1 (upper 0 (Z.to_pos (count + 1))) /\ zlen tr1 <= costs Ls1) /\ held (concat Ls) tr tr1 /\ pend m1 p1 Ls1 /\ whole m1 (concat Ls) /\ frame (concat Ls) m m1 /\ Permutation (concat Ls) (concat Ls1) /\
     count + 1 < 2 ^ (zlen Ls1 + 1) /\ (length Ls <= S (length Ls1))%nat /\ (count <= 1 -> length Ls1 = length Ls)).
  { destruct (Z.eqb_spec bits 0) as [Eb|Eb].
    - exists m, p, Ls, tr. split; [reflexivity|]. split; [intros [T1 T2]; split; [exact (proj1 (E6 0 (Z.le_refl 0) T1) Eb)|exact T2]|]. split; [apply held_refl|]. split; [exact Hp|]. split; [intros y Hy; apply Hw; apply in_or_app; auto|]. split; [intros q g _; reflexivity|].
      split; [apply Permutation_refl|]. split; [rewrite Z.pow_add_r; [lia|apply zlen_nonneg|lia]|]. split; [lia|auto].
    - destruct (E5 Eb) as [Hb2 Hb3]. destruct B as [|L2 [|L1 B]]; [cbn in Hb2; lia|cbn in Hb2; lia|]. subst Ls. rewrite E3.
      destruct (step_merge_o orc fuel tr m A L2 L1 B p p') as (m1 & p1 & M & tr1 & X1 & J & X2 & X3 & X4); try assumption; [apply (nodup_l _ _ Hd)|intros y Hy; apply Hw; apply in_or_app; auto|].
      pose proof (joined_len _ _ _ _ _ J) as JL. destruct J as (JP & JC & new & Jn & Jin).
      exists m1, p1, (A ++ M :: B), tr1. split; [exact X1|]. split.
      { intros [T1 T2]. destruct (proj2 (E6 0 (Z.le_refl 0) T1) L2 L1 B Eb eq_refl) as (K1 & (k & K2) & K3).
        assert (HM : zlen M = 2 * zlen L1) by (unfold zlen in *; lia). split; [exact (K3 M HM)|].
        pose proof (cost_merge L1 L2 M k K2 K1 HM) as Kc. rewrite costs_app in *. cbn [costs] in *. unfold zlen in *. lia. }
      split.
      { exists new. split; [exact Jn|]. intros y z Hyz. destruct (Jin y z Hyz) as [H1 H2]. rewrite !concat_app. cbn [concat]. rewrite !in_app_iff in *. tauto. } split; [exact X2|]. split; [exact X3|]. split; [exact X4|].
      split; [apply perm_concat_any, JP|]. split; [|split].
      + replace (zlen (A ++ M :: B) + 1) with (zlen (A ++ L2 :: L1 :: B)); [exact Hb3|]. rewrite !zlen_app, !zlen_cons. lia.
      + rewrite !app_length. cbn [length]. lia.
      + intros Hs. specialize (Hsmall Hs). contradiction. }
  destruct Mid as (m1 & p1 & Ls1 & tr1 & Em & S1 & H1' & P1 & W1 & F1 & Pm & N1 & N2 & N3). rewrite Em.
  assert (Dx : ~ In x (concat Ls)) by (intros C; apply (DX x C); cbn; auto).
  assert (Dx1 : ~ In x (concat Ls1)) by (intros C; apply Dx; apply (Permutation_in _ (Permutation_sym Pm)), C).
  assert (Hnx : node m1 x).
  { destruct (Hw x) as [H1 H2]; [apply in_or_app; cbn; auto|]. split; rewrite F1; auto. }
  destruct Hnx as [Hx1 Hx2]. rewrite (st_ex _ _ _ _ Hx2). unfold ld.
  destruct Hc as (_ & Nx & q & Eq & Cq). pose proof (chain_hd _ _ _ Cq) as ->.
  rewrite (upd_other m1 x PREV p1 x NEXT) by (right; discriminate). rewrite F1 by auto. rewrite Eq.
  rewrite st_ex by (apply upd_ex, Hx1). set (m2 := upd (upd m1 x PREV p1) x NEXT NULL).
  assert (F2 : forall y f, y <> x -> m2 y f = m1 y f) by (intros y f Hy; unfold m2; rewrite !upd_other by auto; reflexivity).
  exists m2, ([x] :: Ls1), tr1. split; [reflexivity|]. split.
  { intros T. destruct (S1 T) as [T1 T2]. destruct T as [T _]. split.
    - destruct count as [|c|c]; [| |contradiction T]; cbn [Z.add at_level].
      + change (upper 0 1) with (@nil Z). constructor; [split; [lia|reflexivity]|exact T1].
      + constructor; [split; [lia|reflexivity]|exact T1].
    - cbn [costs]. change (cost [x]) with 0. lia. }
  split; [exact H1'|]. split; [|split; [|split; [|split; [|split; [|split; [|split]]]]]].
  - cbn [pend]. split; [discriminate|]. split; [apply (chain_cons m2 x NULL []); [exact Nx|unfold m2; apply upd_same|reflexivity]|].
    exists p1. split; [unfold m2; rewrite upd_other by (right; discriminate); apply upd_same|]. revert P1. apply pend_frame. intros y f Hy. apply F2. intros ->. contradiction.
  - revert Cq. apply chain_frame. intros y Hy. inversion_clear Hdx. rewrite F2 by (intros ->; contradiction). apply F1. left. intros C. apply (DX y C). cbn; auto.
  - intros y Hy. unfold m2. destruct (in_dec Z.eq_dec y (concat Ls)) as [Hi|Hi].
    + destruct (W1 y Hi). split; repeat apply upd_ex; assumption.
    + destruct (Hw y Hy). split; repeat apply upd_ex; rewrite F1; auto.
  - intros y f Hy. assert (Hyx : y <> x \/ (f <> PREV /\ f <> NEXT)) by (destruct Hy as [Hy|Hy]; [left; intros ->; apply Hy; apply in_or_app; cbn; auto|auto]).
    unfold m2. rewrite !upd_other by tauto. apply F1. destruct Hy as [Hy|Hy]; [left; intros C; apply Hy; apply in_or_app; auto|auto].
  - cbn [concat]. apply Permutation_trans with ([x] ++ concat Ls); [apply Permutation_app_comm|]. apply Permutation_app_head, Pm.
  - rewrite zlen_cons. exact N1.
  - cbn [length]. lia.
  - intros Hs. cbn [length]. rewrite (N3 Hs). reflexivity.
Qed.
Lemma sort_nodes_o_ok : forall rest fuel tr m p count Ls,
  NoDup (concat Ls ++ rest) -> whole m (concat Ls ++ rest) -> (length (concat Ls) + 2 * length rest <= fuel)%nat ->
  pend m p Ls -> chain m (hd NULL rest) rest -> 0 <= count < 2 ^ 32 -> count < 2 ^ zlen Ls -> ((2 <= length Ls)%nat \/ count = zlen Ls) ->
  exists m' p' Ls' tr', sort_nodes_o orc fuel tr m p count (hd NULL rest) = Some (m', p', tr') /\ (count + zlen rest < 2 ^ 32 -> tally count Ls tr -> at_level 0 (count + zlen rest) Ls' /\ zlen tr' <= costs Ls') /\ held (concat Ls ++ rest) tr tr' /\ Permutation (concat Ls ++ rest) (concat Ls') /\
  pend m' p' Ls' /\ whole m' (concat Ls ++ rest) /\ frame (concat Ls ++ rest) m m' /\ ((2 <= length Ls')%nat \/ zlen Ls' = zlen Ls + zlen rest).
Proof.
  induction rest as [|x rest IH]; intros fuel tr m p count Ls Hd Hw Hf Hp Hc Hcnt Hl H2.
  - exists m, p, Ls, tr. rewrite !app_nil_r in *. split; [destruct fuel; reflexivity|]. split; [intros _; rewrite zlen_nil, Z.add_0_r; auto|]. split; [apply held_refl|]. split; [apply Permutation_refl|]. split; [exact Hp|]. split; [exact Hw|]. split; [intros q g _; reflexivity|]. right. rewrite zlen_nil. lia.
  - cbn [hd] in *. cbn [length] in Hf. destruct fuel as [|fuel]; [lia|]. cbn [sort_nodes_o]. rewrite (proj2 (Z.eqb_neq _ _) (chain_nz _ _ _ _ Hc)).
    destruct (step_o_ok (S fuel) tr m p count x rest Ls) as (m1 & Ls1 & tr1 & E & S1 & H1 & P1 & C1 & W1 & F1 & Pm & N1 & N2 & N3); try assumption; [lia|].
    cbv beta iota in E. rewrite E.
    assert (Pm' : Permutation (concat Ls ++ x :: rest) (concat Ls1 ++ rest)).
    { change (x :: rest) with ([x] ++ rest). rewrite app_assoc. apply Permutation_app_tail, Pm. }
    destruct (IH fuel tr1 m1 x (w32 (count + 1)) Ls1) as (m2 & p2 & Ls2 & tr2 & E2 & S2 & H2' & Q2 & P2 & W2 & F2 & N4); try assumption.
    + apply (Permutation_NoDup Pm' Hd).
    + intros y Hy. apply W1. apply (Permutation_in _ (Permutation_sym Pm') Hy).
    + apply Permutation_length in Pm. rewrite app_length in Pm. cbn [length] in Pm. lia.
    + apply w32_range.
    + assert (w32 (count + 1) <= count + 1) by (unfold w32, wrap; apply Z.mod_le; lia). lia.
    + destruct H2 as [H2|H2]; [left; lia|]. destruct (Z_le_gt_dec count 1) as [Hs|Hs].
      * specialize (N3 Hs). right. rewrite w32_small by lia. unfold zlen in *. lia.
      * left. unfold zlen in H2. lia.
    + rewrite E2. exists m2, p2, Ls2, tr2. split; [reflexivity|]. split.
      { rewrite zlen_cons. intros Hn T.
        rewrite w32_small in S2 by (pose proof (zlen_nonneg _ rest); lia). replace (count + (zlen rest + 1)) with (count + 1 + zlen rest) by lia. apply S2; [lia|exact (S1 T)]. }
      split.
      { apply held_trans with tr1; [revert H1; apply held_incl; intros y Hy; apply in_or_app; auto|]. revert H2'. apply held_incl. intros y Hy. apply (Permutation_in _ (Permutation_sym Pm') Hy). }
      split; [apply (Permutation_trans Pm'), Q2|]. split; [exact P2|].
      split; [intros y Hy; apply W2, (Permutation_in _ Pm' Hy)|]. split.
      * apply (frame_trans _ m m1 m2).
        -- revert F1. apply frame_incl. intros y Hy. apply in_app_or in Hy. apply in_or_app. cbn in *. tauto.
        -- revert F2. apply frame_incl. intros y Hy. apply (Permutation_in _ (Permutation_sym Pm') Hy).
      * destruct N4 as [N4|N4]; [auto|]. destruct (le_lt_dec 2 (length Ls2)) as [|Hlt]; [auto|]. right. rewrite zlen_cons.
        assert (length Ls1 <= 1)%nat by (unfold zlen in *; lia). destruct (Z_le_gt_dec count 1) as [Hs|Hs]; [specialize (N3 Hs); unfold zlen in *; lia|].
        destruct H2 as [H2|H2]; [lia|]. unfold zlen in H2. lia.
Qed.
(** Calls still to be made when the chains [Ls] are merged one by one into a chain of [n] nodes. *)
Fixpoint bill (n : Z) (Ls : list (list Z)) : Z := match Ls with [] => 0 | L :: Ls => n + zlen L - 1 + bill (n + zlen L) Ls end.
Lemma collect_o_ok : forall Ls fuel tr m p n L N,
  NoDup (concat (N :: L :: Ls)) -> whole m (concat (N :: L :: Ls)) -> (length Ls + length (concat (N :: L :: Ls)) < fuel)%nat ->
  N <> [] -> chain m n N -> pend m p (L :: Ls) ->
  exists m' p' n' L' N' tr', sort_collect_o orc fuel tr m p n = Some (m', p', n', tr') /\ zlen tr' + (zlen N' + zlen L' - 1) <= zlen tr + bill (zlen N) (L :: Ls) /\ held (concat (N :: L :: Ls)) tr tr' /\ Permutation (concat (N :: L :: Ls)) (N' ++ L') /\ N' <> [] /\ L' <> [] /\ chain m' n' N' /\ chain m' p' L' /\
  whole m' (concat (N :: L :: Ls)) /\ frame (concat (N :: L :: Ls)) m m'.
Proof.
  induction Ls as [|L2 Ls IH]; intros fuel tr m p n L N Hd Hw Hf HN Cn Hp; (destruct fuel as [|fuel]; [lia|]); cbn [sort_collect_o].
  - destruct Hp as (NL & C & q & E & Hq). cbn [pend] in Hq. subst q. unfold ld. rewrite E. rewrite Z.eqb_refl.
    exists m, p, n, L, N, tr. split; [reflexivity|]. split; [cbn [bill]; lia|]. split; [apply held_refl|]. split; [cbn [concat]; rewrite app_nil_r; apply Permutation_refl|]. split; [exact HN|]. split; [exact NL|]. split; [exact Cn|]. split; [exact C|]. split; [exact Hw|]. intros q g _. reflexivity.
  - destruct Hp as (NL & C & q & E & Hq). unfold ld. rewrite E. rewrite (proj2 (Z.eqb_neq _ _) (pend_nz _ _ _ _ Hq)).
    destruct L as [|a l1]; [contradiction|]. destruct N as [|b l2]; [contradiction|].
    pose proof (chain_hd _ _ _ C) as Q. cbn [hd] in Q. subst a. pose proof (chain_hd _ _ _ Cn) as Q. cbn [hd] in Q. subst b.
    set (T := concat (L2 :: Ls)) in *. change (concat ((n :: l2) :: (p :: l1) :: L2 :: Ls)) with ((n :: l2) ++ (p :: l1) ++ T) in *.
    pose proof (nodup_disj _ _ Hd) as D1. pose proof (nodup_r _ _ Hd) as Hd2. pose proof (nodup_disj _ _ Hd2) as D2.
    destruct (merge_o_ok orc (S fuel) tr l1 l2 m p n) as (m1 & r & M & tr1 & Em & J & Er & Cm & Fm).
    { rewrite !app_length in Hf. cbn [length] in Hf. lia. }
    { rewrite app_assoc in Hd. apply nodup_l in Hd. revert Hd. apply Permutation_NoDup, Permutation_app_comm. }
    { exact C. } { exact Cn. }
    cbn [sort_collect_o] in Em |- *. rewrite Em.
    assert (HM : forall x, In x M <-> In x (p :: l1) \/ In x (n :: l2)) by (exact (joined_in _ _ _ _ _ J)).
    assert (NM : M <> []) by (intros X; assert (Y : In p []) by (rewrite <- X; apply HM; cbn; auto); destruct Y).
    assert (Pm : Permutation ((n :: l2) ++ (p :: l1) ++ T) (concat (M :: L2 :: Ls))).
    { change (concat (M :: L2 :: Ls)) with (M ++ T). rewrite app_assoc. apply Permutation_app_tail. apply Permutation_trans with ((p :: l1) ++ n :: l2); [apply Permutation_app_comm|exact (proj1 J)]. }
    assert (Hw1 : whole m1 ((n :: l2) ++ (p :: l1) ++ T)).
    { apply (whole_nframe m m1 _ _ Fm); [|exact Hw]. intros x Hx. apply (chain_present _ _ _ _ Cm). apply HM. apply in_app_or in Hx. tauto. }
    destruct (IH fuel tr1 m1 q r L2 M) as (m2 & p2 & n2 & L' & N' & tr2 & E2 & S2 & H2 & Q2 & N2 & N3 & C2 & C3 & W2 & F2).
    + apply (Permutation_NoDup Pm Hd).
    + intros x Hx. apply Hw1. apply (Permutation_in _ (Permutation_sym Pm) Hx).
    + rewrite <- (Permutation_length Pm). cbn [length] in *. lia.
    + exact NM.
    + exact Cm.
    + revert Hq. apply pend_frame. intros x f Hx. apply Fm. left. intros X. apply in_app_or in X. destruct X as [X|X]; [apply (D2 x X Hx)|apply (D1 x X); apply in_or_app; auto].
    + exists m2, p2, n2, L', N', tr2. split; [exact E2|]. split.
      { pose proof (joined_len _ _ _ _ _ J) as JL. destruct J as (_ & JC & _). change (bill (zlen (n :: l2)) ((p :: l1) :: L2 :: Ls)) with (zlen (n :: l2) + zlen (p :: l1) - 1 + bill (zlen (n :: l2) + zlen (p :: l1)) (L2 :: Ls)).
        replace (zlen (n :: l2) + zlen (p :: l1)) with (zlen M) by (unfold zlen; lia). clear - S2 JC JL. unfold zlen in *. lia. }
      split.
      { apply held_trans with tr1.
        - destruct J as (_ & _ & new & Jn & Jin). exists new. split; [exact Jn|]. intros y z Hyz. destruct (Jin y z Hyz) as [H3 H4]. rewrite !in_app_iff in *. tauto.
        - revert H2. apply held_incl. intros y Hy. apply (Permutation_in _ (Permutation_sym Pm) Hy). }
      split; [apply (Permutation_trans Pm), Q2|]. split; [exact N2|]. split; [exact N3|]. split; [exact C2|]. split; [exact C3|]. split.
      * intros x Hx. apply W2. apply (Permutation_in _ Pm Hx).
      * apply (frame_trans _ m m1 m2).
        -- intros x f Hx. apply Fm. destruct Hx as [Hx|[_ Hx]]; [left; intros X; apply Hx; rewrite !in_app_iff in *; tauto|auto].
        -- revert F2. apply frame_incl. intros x Hx. apply (Permutation_in _ (Permutation_sym Pm) Hx).
Qed.
Lemma finish_loop_o_ok : forall fuel tr l1 l2 m tail a b, (length l1 + length l2 < fuel)%nat -> NoDup (tail :: (a :: l1) ++ b :: l2) ->
  whole m (tail :: (a :: l1) ++ b :: l2) -> chain m a (a :: l1) -> chain m b (b :: l2) ->
  exists m' t' r out rest tr', list_finish_loop_o orc fuel tr m tail a b = Some (m', t', r, tr') /\ joined tr tr' (a :: l1) (b :: l2) (out ++ rest) /\ t' = last out tail /\ rest <> [] /\
  chain m' r rest /\ inner m' (tail :: out) /\ m' tail PREV = m tail PREV /\ frame (tail :: (a :: l1) ++ b :: l2) m m' /\ whole m' (tail :: (a :: l1) ++ b :: l2).
Proof.
  induction fuel as [|fuel IH]; intros tr l1 l2 m tail a b Hf Hd Hw C1 C2; [lia|].
  apply NoDup_cons_iff in Hd; destruct Hd as [Dt Hd2]. pose proof (nodup_disj _ _ Hd2) as D12.
  assert (Na : tail <> a) by (intros ->; apply Dt; cbn; auto). assert (Nb : tail <> b) by (intros ->; apply Dt; apply in_or_app; cbn; auto).
  pose proof (chain_nz _ _ _ _ C1) as Za. pose proof (chain_nz _ _ _ _ C2) as Zb.
  cbn [list_finish_loop_o].
  assert (Wt : node m tail) by (apply Hw; cbn; auto).
  destruct (orc tr a b <=? 0) eqn:Ec.
  - assert (Wa : node m a) by (apply Hw; cbn; auto).
    rewrite st_ex by apply Wt. rewrite st_ex by (apply upd_ex, Wa). set (m2 := upd (upd m tail NEXT a) a PREV tail).
    assert (F2 : forall q g, q <> tail -> q <> a -> m2 q g = m q g) by (intros; unfold m2; rewrite !upd_other by auto; reflexivity).
    assert (Ea : m2 a NEXT = m a NEXT) by (unfold m2; rewrite !upd_other by (first [left; congruence|right; discriminate]); reflexivity).
    assert (Lk : linked m2 tail a) by (split; unfold m2; [rewrite upd_other by (left; exact Na); apply upd_same|apply upd_same]).
    assert (Pt : m2 tail PREV = m tail PREV) by (unfold m2; rewrite !upd_other by (first [left; congruence|right; discriminate]); reflexivity).
    assert (W2 : whole m2 (tail :: (a :: l1) ++ b :: l2)) by (unfold m2; repeat apply whole_upd; exact Hw).
    assert (Fr : frame (tail :: (a :: l1) ++ b :: l2) m m2).
    { intros q g Hq. unfold m2. rewrite !upd_other; [reflexivity| |]; (destruct Hq as [Hq|[Hq1 Hq2]]; [left; intros ->; apply Hq; cbn; auto|right; assumption]). }
    destruct C1 as (_ & _ & q & Eq & C1). unfold ld. rewrite Ea, Eq.
    assert (C2' : chain m2 b (b :: l2)).
    { revert C2. apply chain_frame. intros x Hx. apply F2; intros ->; [apply Dt; apply in_or_app; auto|apply (D12 a); cbn; auto]. }
    destruct l1 as [|a' l1].
    + cbn in C1. subst q. rewrite Z.eqb_refl. exists m2, a, b, [a], (b :: l2), ((a, b) :: tr). split; [reflexivity|]. split; [apply joined_one; [cbn; auto|cbn; auto|cbn; lia|apply Permutation_refl]|]. split; [reflexivity|]. split; [discriminate|].
      split; [exact C2'|]. split; [cbn; auto|]. split; [exact Pt|]. split; [exact Fr|exact W2].
    + pose proof (chain_hd _ _ _ C1) as Q. cbn [hd] in Q. subst q. rewrite (proj2 (Z.eqb_neq _ _) (chain_nz _ _ _ _ C1)).
      assert (C1' : chain m2 a' (a' :: l1)).
      { revert C1. apply chain_frame. intros x Hx. apply F2; intros ->; [apply Dt; right; apply (in_or_app (a' :: l1)); auto|]. apply (proj1 (proj1 (NoDup_cons_iff a ((a' :: l1) ++ b :: l2)) Hd2)). apply in_or_app; auto. }
      destruct (IH ((a, b) :: tr) l1 l2 m2 a a' b) as (m3 & t & r & out & rest & tr' & E3 & Eo & Et & Nr & Cr & Ir & Pr & Fr3 & W3).
      * cbn [length] in Hf; lia.
      * exact Hd2.
      * intros x Hx. apply W2. right. exact Hx.
      * exact C1'.
      * exact C2'.
      * rewrite E3. exists m3, t, r, (a :: out), rest, tr'. split; [reflexivity|]. split; [eapply joined_more; [| |apply Permutation_refl|exact Eo]; [cbn; auto|apply in_or_app; cbn; auto]|]. split; [rewrite last_cons; exact Et|]. split; [exact Nr|].
        split; [exact Cr|]. assert (Gt : forall g, m3 tail g = m2 tail g) by (intros g; apply Fr3; left; exact Dt).
        split; [rewrite inner_cons; split; [|exact Ir]; destruct Lk as [Lk1 Lk2]; split; [rewrite Gt; exact Lk1|rewrite Pr; exact Lk2]|].
        split; [rewrite Gt; exact Pt|]. split; [apply (frame_trans _ m m2 m3); [exact Fr|revert Fr3; apply frame_incl; intros x Hx; right; exact Hx]|].
        intros x [<-|Hx]; [destruct (W2 tail ltac:(cbn; auto)); split; rewrite Gt; assumption|apply W3; exact Hx].
  - assert (Wb : node m b) by (apply Hw; right; apply in_or_app; cbn; auto).
    rewrite st_ex by apply Wt. rewrite st_ex by (apply upd_ex, Wb). set (m2 := upd (upd m tail NEXT b) b PREV tail).
    assert (F2 : forall q g, q <> tail -> q <> b -> m2 q g = m q g) by (intros; unfold m2; rewrite !upd_other by auto; reflexivity).
    assert (Ea : m2 b NEXT = m b NEXT) by (unfold m2; rewrite !upd_other by (first [left; congruence|right; discriminate]); reflexivity).
    assert (Lk : linked m2 tail b) by (split; unfold m2; [rewrite upd_other by (left; exact Nb); apply upd_same|apply upd_same]).
    assert (Pt : m2 tail PREV = m tail PREV) by (unfold m2; rewrite !upd_other by (first [left; congruence|right; discriminate]); reflexivity).
    assert (W2 : whole m2 (tail :: (a :: l1) ++ b :: l2)) by (unfold m2; repeat apply whole_upd; exact Hw).
    assert (Fr : frame (tail :: (a :: l1) ++ b :: l2) m m2).
    { intros q g Hq. unfold m2. rewrite !upd_other; [reflexivity| |]; (destruct Hq as [Hq|[Hq1 Hq2]]; [left; intros ->; apply Hq; cbn; rewrite ?in_app_iff; cbn; auto|right; assumption]). }
    destruct C2 as (_ & _ & q & Eq & C2). unfold ld. rewrite Ea, Eq.
    assert (C1' : chain m2 a (a :: l1)).
    { revert C1. apply chain_frame. intros x Hx. apply F2; intros ->; [apply Dt; apply in_or_app; auto|apply (D12 b); cbn; auto]. }
    assert (Pm : Permutation ((a :: l1) ++ b :: l2) (b :: (a :: l1) ++ l2)) by (apply Permutation_sym, (Permutation_middle (a :: l1))).
    destruct l2 as [|b' l2].
    + cbn in C2. subst q. rewrite Z.eqb_refl. exists m2, b, a, [b], (a :: l1), ((a, b) :: tr). split; [reflexivity|]. split; [apply joined_one; [cbn; auto|apply in_or_app; cbn; auto|cbn; lia|apply (Permutation_app_comm (a :: l1) [b])]|]. split; [reflexivity|]. split; [discriminate|].
      split; [exact C1'|]. split; [cbn; auto|]. split; [exact Pt|]. split; [exact Fr|exact W2].
    + pose proof (chain_hd _ _ _ C2) as Q. cbn [hd] in Q. subst q. rewrite (proj2 (Z.eqb_neq _ _) (chain_nz _ _ _ _ C2)).
      pose proof (Permutation_NoDup Pm Hd2) as Hd3.
      assert (C2' : chain m2 b' (b' :: l2)).
      { revert C2. apply chain_frame. intros x Hx. apply F2; intros ->; [apply Dt; apply in_or_app; right; right; exact Hx|]. apply NoDup_cons_iff in Hd3. apply (proj1 Hd3). apply in_or_app; auto. }
      destruct (IH ((a, b) :: tr) l1 l2 m2 b a b') as (m3 & t & r & out & rest & tr' & E3 & Eo & Et & Nr & Cr & Ir & Pr & Fr3 & W3).
      * cbn [length] in Hf; lia.
      * exact Hd3.
      * intros x Hx. apply W2. right. apply (Permutation_in _ (Permutation_sym Pm) Hx).
      * exact C1'.
      * exact C2'.
      * rewrite E3. exists m3, t, r, (b :: out), rest, tr'. split; [reflexivity|]. split; [eapply joined_more; [| |exact Pm|exact Eo]; [cbn; auto|apply in_or_app; cbn; auto]|]. split; [rewrite last_cons; exact Et|]. split; [exact Nr|].
        split; [exact Cr|]. assert (Gt : forall g, m3 tail g = m2 tail g) by (intros g; apply Fr3; left; intros X; apply Dt, (Permutation_in _ (Permutation_sym Pm) X)).
        split; [rewrite inner_cons; split; [|exact Ir]; destruct Lk as [Lk1 Lk2]; split; [rewrite Gt; exact Lk1|rewrite Pr; exact Lk2]|].
        split; [rewrite Gt; exact Pt|]. split; [apply (frame_trans _ m m2 m3); [exact Fr|revert Fr3; apply frame_incl; intros x Hx; right; apply (Permutation_in _ (Permutation_sym Pm) Hx)]|].
        intros x [<-|Hx]; [destruct (W2 tail ltac:(cbn; auto)); split; rewrite Gt; assumption|apply W3, (Permutation_in _ Pm Hx)].
Qed.
Lemma finish_o_ok fuel tr m head a l1 b l2 : (length l1 + length l2 + 2 <= fuel)%nat -> NoDup (head :: (a :: l1) ++ b :: l2) ->
  whole m (head :: (a :: l1) ++ b :: l2) -> chain m a (a :: l1) -> chain m b (b :: l2) ->
  exists m' M tr', list_finish_o orc fuel tr m head a b = Some (m', tr') /\ joined tr tr' (a :: l1) (b :: l2) M /\ ring m' head M /\ frame (head :: (a :: l1) ++ b :: l2) m m'.
Proof.
  intros Hf Hd Hw C1 C2. unfold list_finish_o.
  destruct (finish_loop_o_ok fuel tr l1 l2 m head a b) as (m1 & t & r & out & rest & tr' & E1 & J & Et & Nr & Cr & Ir & Pr & F1 & W1); try assumption; [lia|].
  rewrite E1. set (M := out ++ rest) in *.
  assert (HM : forall x, In x M <-> In x ((a :: l1) ++ b :: l2)) by (intros x; rewrite in_app_iff; exact (joined_in _ _ _ _ _ J x)).
  assert (NDM : NoDup (head :: M)).
  { inversion_clear Hd. constructor; [rewrite HM; assumption|apply (Permutation_NoDup (proj1 J)); assumption]. }
  pose proof (joined_len _ _ _ _ _ J) as JL. assert (Eo : M = out ++ rest) by reflexivity. clearbody M. destruct rest as [|r' rest]; [contradiction|]. pose proof (chain_hd _ _ _ Cr) as Q. cbn [hd] in Q. subst r'.
  assert (It : In t (head :: out)) by (subst t; apply last_in).
  assert (Hout : forall x, In x out -> In x M) by (intros x Hx; rewrite Eo; apply in_or_app; auto).
  assert (Hrest : forall x, In x (r :: rest) -> In x M) by (intros x Hx; rewrite Eo; apply in_or_app; auto).
  assert (WM : forall m', whole m' (head :: (a :: l1) ++ b :: l2) -> whole m' (head :: M)).
  { intros m' W x [<-|Hx]; [apply W; cbn; auto|]. apply W. right. apply HM, Hx. }
  assert (ItM : In t (head :: M)) by (destruct It as [<-|It]; [cbn; auto|right; auto]).
  assert (Wt : node m1 t) by (apply (WM m1 W1), ItM). rewrite st_ex by apply Wt. set (m2 := upd m1 t NEXT r).
  rewrite Eo in NDM. change (head :: out ++ r :: rest) with ((head :: out) ++ r :: rest) in NDM.
  pose proof (nodup_disj _ _ NDM) as DO. pose proof (nodup_r _ _ NDM) as NDr. pose proof (nodup_l _ _ NDM) as NDo.
  assert (Dtr : ~ In t (r :: rest)) by (intros X; apply (DO t It X)).
  assert (W2 : whole m2 (head :: M)) by (apply whole_upd, WM, W1).
  destruct (finish_rest_ok fuel rest m2 t r) as (m3 & E3 & I3 & F3 & W3).
  { assert (length M = (length out + S (length rest))%nat) by (rewrite Eo, app_length; reflexivity). rewrite JL in H. cbn [length] in H. lia. }
  { constructor; assumption. }
  { intros x [<-|Hx]; apply W2; [exact ItM|right; auto]. }
  { revert Cr. apply chain_frame. intros x Hx. apply upd_other. left. intros ->. contradiction. }
  { apply upd_same. }
  rewrite E3.
  assert (W3' : whole m3 (head :: M)).
  { intros x Hx. destruct (in_dec Z.eq_dec x (t :: r :: rest)) as [Hi|Hi]; [apply W3, Hi|]. destruct (W2 x Hx). split; rewrite F3; try assumption; intros [X _]; apply Hi; cbn in *; tauto. }
  set (t' := last rest r). assert (It' : In t' (r :: rest)) by apply last_in.
  assert (Elast : t' = last M head) by (rewrite Eo, last_app_cons; reflexivity).
  rewrite st_ex by (apply W3'; right; auto). rewrite st_ex by (apply upd_ex, W3'; cbn; auto).
  set (m4 := upd (upd m3 t' NEXT head) head PREV t'). exists m4, M, tr'. split; [reflexivity|]. split; [exact J|].
  assert (I2 : inner m3 (head :: out)).
  { revert Ir. apply inner_frame.
    - intros x Hx. rewrite F3 by (intros [_ X]; discriminate X). unfold m2. apply upd_other. left. intros ->. subst t. revert Hx. apply last_not_removelast, NDo.
    - intros x Hx. cbn [tl] in Hx. rewrite F3 by (intros [X _]; apply (DO x); cbn; auto). unfold m2. apply upd_other. right. discriminate. }
  assert (I4 : inner m3 (head :: M)).
  { rewrite Eo. change (head :: out ++ r :: rest) with ((head :: out) ++ r :: rest). apply inner_app. split; [exact I2|]. rewrite inner_cons in I3. subst t. exact I3. }
  assert (NhM : ~ In head M) by (inversion_clear Hd; rewrite HM; assumption).
  assert (Nht : head <> t') by (intros X; apply NhM; rewrite X; auto).
  split; [split|].
  - rewrite Eo. exact NDM.
  - apply seg_inner. change (head :: M ++ [head]) with ((head :: M) ++ [head]). apply inner_app. split; [|split; [|exact I]].
    + revert I4. apply inner_frame.
      * intros x Hx. unfold m4. rewrite upd_other by (right; discriminate). apply upd_other. left. intros ->. rewrite Elast in Hx. revert Hx. apply last_not_removelast. rewrite Eo. exact NDM.
      * intros x Hx. cbn [tl] in Hx. unfold m4. rewrite upd_other by (left; intros ->; contradiction). apply upd_other. right. discriminate.
    + rewrite <- Elast. split; unfold m4; [rewrite upd_other by (right; discriminate); apply upd_same|apply upd_same].
  - intros x g Hx. assert (Hx' : ~ In x (head :: M) \/ g <> PREV /\ g <> NEXT).
    { destruct Hx as [Hx|Hx]; [left; intros X; apply Hx; destruct X as [<-|X]; [cbn; auto|right; apply HM, X]|auto]. }
    assert (A1 : x <> head \/ g <> PREV) by (destruct Hx' as [Hx'|[? ?]]; [left; intros ->; apply Hx'; cbn; auto|auto]).
    assert (A2 : x <> t' \/ g <> NEXT) by (destruct Hx' as [Hx'|[? ?]]; [left; intros ->; apply Hx'; right; auto|auto]).
    assert (A3 : x <> t \/ g <> NEXT) by (destruct Hx' as [Hx'|[? ?]]; [left; intros ->; contradiction|auto]).
    unfold m4. rewrite upd_other by exact A1. rewrite upd_other by exact A2. rewrite F3.
    + unfold m2. rewrite upd_other by exact A3. apply F1. exact Hx.
    + intros [X ->]. destruct Hx' as [Hx'|[Hx' _]]; [apply Hx'; right; auto|contradiction].
Qed.
End Calls.
