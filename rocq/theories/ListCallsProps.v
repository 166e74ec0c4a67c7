(** * C127, second part: list sort with any comparison function *)
From Verif Require Import Lib Ptr ListModel ListSpec ListProofs ListProofs2 ListProps ListSortModel ListSortSpec ListSortProofs ListSortProofs2 ListSortProofs3 ListSortProofs4 ListCallsModel ListCallsProofs ListCallsProofs2.
Ltac Zify.zify_post_hook ::= Z.div_mod_to_equations.

Lemma upper_len : forall c i, zlen (upper i c) = Z.log2 (Zpos c).
Proof.
  induction c as [c IH|c IH|]; intros i; cbn [upper]; [rewrite zlen_cons, IH; change (Zpos c~1) with (2 * Zpos c + 1); rewrite Z.log2_succ_double by lia; lia|rewrite zlen_cons, IH; change (Zpos c~0) with (2 * Zpos c); rewrite Z.log2_double by lia; lia|reflexivity].
Qed.
Lemma forall2_zlen {A B} (R : A -> B -> Prop) l l' : Forall2 R l l' -> zlen l = zlen l'.
Proof. induction 1 as [|x y l l' _ _ IH]; [reflexivity|]. rewrite !zlen_cons. lia. Qed.
(** All merges together. *)
Lemma bill_ok : forall c i n Ls, 0 <= n -> 0 <= i -> Forall2 pow_len Ls (upper i c) -> costs Ls + bill n Ls <= n * zlen Ls + (i + zlen Ls) * zlen (concat Ls).
Proof.
  assert (G : forall c i k n L Ls, 0 <= n -> 0 <= i -> k <= i + 1 -> pow_len L k -> Forall2 pow_len Ls (upper (i + 1) c) ->
    (forall n, 0 <= n -> costs Ls + bill n Ls <= n * zlen Ls + (i + 1 + zlen Ls) * zlen (concat Ls)) ->
    costs (L :: Ls) + bill n (L :: Ls) <= n * zlen (L :: Ls) + (i + zlen (L :: Ls)) * zlen (concat (L :: Ls))).
  { intros c i k n L Ls Hn Hi Hk [K1 K2] F IH. specialize (IH (n + zlen L) ltac:(pose proof (zlen_nonneg _ L); lia)).
    cbn [costs bill concat]. rewrite zlen_cons, zlen_app. unfold cost. rewrite K2 at 1. rewrite Z.log2_pow2 by exact K1.
    pose proof (zlen_nonneg _ L). pose proof (zlen_nonneg _ Ls). clear - IH Hk H Hn. nia. }
  induction c as [c IH|c IH|]; intros i n Ls Hn Hi F; cbn [upper] in F; inversion F as [|L k Ls' ks PL F' E1 E2]; subst.
  - eapply G; [exact Hn|exact Hi| |exact PL|exact F'|]; [lia|]. intros n' Hn'. apply IH; [exact Hn'|lia|exact F'].
  - eapply G; [exact Hn|exact Hi| |exact PL|exact F'|]; [lia|]. intros n' Hn'. apply IH; [exact Hn'|lia|exact F'].
  - cbn. lia.
Qed.
Lemma list_sort_o_ok orc fuel m h l : ring m h l -> ~ In NULL l -> (2 * length l + 2 <= fuel)%nat ->
  exists m' l' tr, list_sort_o orc fuel [] m h = Some (m', tr) /\ ring m' h l' /\ Permutation l l' /\ frame (h :: l) m m' /\
    (forall x y, In (x, y) tr -> In x l /\ In y l) /\ (zlen l < 2 ^ 32 -> zlen tr <= zlen l * Z.log2 (zlen l)).
Proof.
  intros Hr Hz Hf. unfold list_sort_o, ld. rewrite (ring_next _ _ _ Hr), (ring_prev _ _ _ Hr).
  assert (Small : (hd h l =? last l h) = true <-> (length l <= 1)%nat).
  { destruct l as [|x l]; [cbn; rewrite Z.eqb_refl; intuition lia|]. cbn [hd]. rewrite last_cons. rewrite Z.eqb_eq. destruct l as [|y l]; [cbn; intuition lia|]. rewrite last_cons.
    split; [|cbn; lia]. intros E. exfalso. destruct Hr as [Hd _]. inversion_clear Hd. inversion_clear H0. apply H1. rewrite E. apply last_in. }
  destruct (hd h l =? last l h) eqn:Es.
  - exists m, l, []. split; [reflexivity|]. split; [exact Hr|]. split; [apply Permutation_refl|]. split; [intros q g _; reflexivity|]. split; [intros x y []|]. intros _. change (zlen []) with 0. pose proof (zlen_nonneg _ l). pose proof (Z.log2_nonneg (zlen l)). clear - H H0. nia.
  - assert (L2 : (2 <= length l)%nat). { destruct (le_lt_dec 2 (length l)); [assumption|]. assert (false = true) by (apply Small; lia). discriminate. }
    destruct (snoc_cases _ l) as [->|(l0 & b & El)]; [cbn in L2; lia|].
    assert (Eb : last l h = b) by (rewrite El; apply last_snoc). rewrite Eb.
    assert (Wl : whole m (h :: l)) by (exact (ring_nodes _ _ _ Hr)).
    assert (Ib : In b l) by (rewrite El; apply in_or_app; cbn; auto).
    rewrite st_ex by (apply Wl; right; exact Ib). set (m0 := upd m b NEXT NULL).
    assert (C0 : chain m0 (hd NULL l) l) by (unfold m0; rewrite El; apply (cut_chain _ h); rewrite <- El; assumption).
    assert (Hhd : hd h l = hd NULL l) by (destruct l; [cbn in L2; lia|reflexivity]). rewrite Hhd.
    pose proof Hr as [Hd _]. inversion_clear Hd as [|? ? Hh Hd'].
    destruct (sort_nodes_o_ok orc l fuel [] m0 NULL 0 []) as (m1 & p1 & Ls & tr1 & E1 & S1 & H1 & Pm & P1 & W1 & F1 & N1).
    { exact Hd'. } { apply whole_upd. intros x Hx. apply Wl. right. exact Hx. }
    { cbn [concat length]. lia. } { reflexivity. } { exact C0. } { lia. } { change (2 ^ zlen []) with 1. lia. } { right. reflexivity. }
    rewrite E1. cbn [concat app] in *. rewrite zlen_nil in N1.
    assert (N2 : (2 <= length Ls)%nat) by (destruct N1 as [N1|N1]; [exact N1|unfold zlen in N1; lia]).
    destruct Ls as [|N [|L Ls]]; [cbn in N2; lia|cbn in N2; lia|]. destruct P1 as (NN & CN & q & Eq & PL). rewrite Eq.
    destruct (collect_o_ok orc Ls fuel tr1 m1 q p1 L N) as (m2 & p2 & n2 & L' & N' & tr2 & E2 & S2 & H2 & Pm2 & NN' & NL' & CN' & CL' & W2 & F2).
    { apply (Permutation_NoDup Pm Hd'). } { intros x Hx. apply W1, (Permutation_in _ (Permutation_sym Pm) Hx). }
    { assert (Q : (length Ls <= length (concat Ls))%nat).
      { destruct PL as (_ & _ & q' & _ & PL). clear - PL. revert q' PL. induction Ls as [|X Ls IH]; intros q' PL; [cbn; lia|]. destruct PL as (NX & _ & q & _ & PL). cbn [concat]. rewrite app_length. destruct X; [contradiction|]. cbn [length]. specialize (IH q PL). lia. }
      assert (QN : (1 <= length N)%nat) by (destruct N; [contradiction|cbn; lia]). apply Permutation_length in Pm. rewrite <- Pm.
      cbn [concat] in Pm. rewrite !app_length in Pm. lia. }
    { exact NN. } { exact CN. } { exact PL. }
    rewrite E2. apply (Permutation_trans Pm) in Pm2.
    destruct N' as [|b' l2]; [contradiction|]. destruct L' as [|a' l1]; [contradiction|].
    pose proof (chain_hd _ _ _ CN') as Q. cbn [hd] in Q. subst n2. pose proof (chain_hd _ _ _ CL') as Q. cbn [hd] in Q. subst p2.
    assert (Pm3 : Permutation l ((a' :: l1) ++ b' :: l2)) by (apply (Permutation_trans Pm2), Permutation_app_comm).
    assert (Hh3 : ~ In h ((a' :: l1) ++ b' :: l2)) by (intros X; apply Hh, (Permutation_in _ (Permutation_sym Pm3) X)).
    assert (Gh : forall g, m2 h g = m h g).
    { intros g. rewrite F2 by (left; intros X; apply Hh, (Permutation_in _ (Permutation_sym Pm) X)). rewrite F1 by auto. apply upd_other. left. intros ->. contradiction. }
    destruct (finish_o_ok orc fuel tr2 m2 h a' l1 b' l2) as (m3 & M & tr3 & E3 & J & R3 & F3).
    { apply Permutation_length in Pm3. rewrite app_length in Pm3. cbn [length] in Pm3. lia. }
    { constructor; [exact Hh3|apply (Permutation_NoDup Pm3 Hd')]. }
    { intros x [<-|Hx]; [destruct (Wl h ltac:(cbn; auto)); split; rewrite Gh; assumption|]. apply W2. apply (Permutation_in _ Pm), (Permutation_in _ (Permutation_sym Pm3) Hx). }
    { exact CL'. } { exact CN'. }
    exists m3, M, tr3. split; [exact E3|]. split; [exact R3|]. split; [apply (Permutation_trans Pm3), (proj1 J)|]. split; [|split].
    + apply (frame_trans _ m m0 m3).
      * intros x g Hx. apply upd_other. destruct Hx as [Hx|[_ Hx]]; [left; intros ->; apply Hx; cbn; auto|auto].
      * apply (frame_trans _ m0 m1 m3); [revert F1; apply frame_incl; intros x Hx; right; exact Hx|].
        apply (frame_trans _ m1 m2 m3); [revert F2|revert F3]; apply frame_incl; intros x Hx.
        -- right. apply (Permutation_in _ (Permutation_sym Pm) Hx).
        -- destruct Hx as [<-|Hx]; [cbn; auto|]. right. apply (Permutation_in _ (Permutation_sym Pm3) Hx).
    + destruct J as (_ & _ & new & Jn & Jin).
      assert (HA : held l [] tr3).
      { apply held_trans with tr1; [exact H1|]. apply held_trans with tr2; [revert H2; apply held_incl; intros y Hy; apply (Permutation_in _ (Permutation_sym Pm) Hy)|].
        exists new. split; [exact Jn|]. intros x y Hxy. destruct (Jin x y Hxy) as [J1 J2]. split; apply (Permutation_in _ (Permutation_sym Pm3)); assumption. }
      destruct HA as (all & Ea & Ha). rewrite app_nil_r in Ea. subst all. exact Ha.
    + intros Hn. destruct (S1 Hn) as [T1 T2]; [split; [reflexivity|cbn; lia]|]. rewrite Z.add_0_l in T1.
      destruct (zlen l) as [|c|c] eqn:El2; [unfold zlen in El2; lia| |contradiction T1]. cbn [at_level] in T1. inversion T1 as [|? ? ? ? [_ K1] T3]; subst. change (2 ^ 0) with 1 in K1.
      pose proof (bill_ok c 0 1 (L :: Ls) ltac:(lia) ltac:(lia) T3) as Bk. rewrite (forall2_zlen _ _ _ T3), upper_len in Bk.
      assert (Kc : zlen (concat (L :: Ls)) = Zpos c - 1).
      { apply Permutation_length in Pm. change (concat (N :: L :: Ls)) with (N ++ concat (L :: Ls)) in Pm. rewrite (app_length N) in Pm. clear - Pm K1 El2. unfold zlen in *. lia. }
      rewrite Kc in Bk. rewrite K1 in S2. cbn [costs] in T2. assert (Cn0 : cost N = 0) by (unfold cost; rewrite K1; reflexivity).
      destruct J as (_ & JC & _). clear - Bk S2 T2 Cn0 JC. change (costs (L :: Ls)) with (cost L + costs Ls) in Bk. unfold zlen in S2, T2 |- *. lia.
Qed.

(** Whatever the comparison function answers, the sort ends, leaves a circular list of the same nodes, touches nothing else,
    shows the function only nodes of the list and calls it at most n log2 n times. *)
Theorem C127_list_sort_any : forall orc fuel m h l, ring m h l -> ~ In NULL l -> (2 * length l + 2 <= fuel)%nat ->
  exists m' l' tr, list_sort_o orc fuel [] m h = Some (m', tr) /\ ring m' h l' /\ Permutation l l' /\ frame (h :: l) m m' /\
    (forall x y, In (x, y) tr -> In x l /\ In y l) /\ (zlen l < 2 ^ 32 -> zlen tr <= zlen l * Z.log2 (zlen l)).
Proof. exact list_sort_o_ok. Qed.
(** With an ordinary comparison function this is the sort of C37. *)
Theorem C127_list_sort_same : forall cmp fuel m h, option_map fst (list_sort_o (fun _ => cmp) fuel [] m h) = list_sort fuel cmp m h.
Proof.
  intros cmp fuel m h.
  assert (Mg : forall fuel tr m first t a b, option_map fst (list_merge_loop_o (fun _ => cmp) fuel tr m first t a b) = list_merge_loop fuel cmp m first t a b).
  { clear. induction fuel as [|fuel IH]; intros tr m first t a b; [reflexivity|]. cbn [list_merge_loop_o list_merge_loop]. destruct (cmp a b <=? 0).
    - destruct (tail_store m first t a) as [[m1 f1]|]; [|reflexivity]. destruct (ld m1 a NEXT) as [q|]; [|reflexivity]. destruct (q =? NULL); [|apply IH]. destruct (tail_store m1 f1 (Some a) b); reflexivity.
    - destruct (tail_store m first t b) as [[m1 f1]|]; [|reflexivity]. destruct (ld m1 b NEXT) as [q|]; [|reflexivity]. destruct (q =? NULL); [|apply IH]. destruct (tail_store m1 f1 (Some b) a); reflexivity. }
  assert (Fl : forall fuel tr m t a b, option_map fst (list_finish_loop_o (fun _ => cmp) fuel tr m t a b) = list_finish_loop fuel cmp m t a b).
  { clear. induction fuel as [|fuel IH]; intros tr m t a b; [reflexivity|]. cbn [list_finish_loop_o list_finish_loop]. destruct (cmp a b <=? 0).
    - destruct (st m t NEXT a) as [m1|]; [|reflexivity]. destruct (st m1 a PREV t) as [m2|]; [|reflexivity]. destruct (ld m2 a NEXT) as [q|]; [|reflexivity]. destruct (q =? NULL); [reflexivity|apply IH].
    - destruct (st m t NEXT b) as [m1|]; [|reflexivity]. destruct (st m1 b PREV t) as [m2|]; [|reflexivity]. destruct (ld m2 b NEXT) as [q|]; [|reflexivity]. destruct (q =? NULL); [reflexivity|apply IH]. }
  assert (Fi : forall fuel tr m t a b, option_map fst (list_finish_o (fun _ => cmp) fuel tr m t a b) = list_finish fuel cmp m t a b).
  { intros f tr m0 t a b. unfold list_finish_o, list_finish. rewrite <- (Fl f tr). destruct (list_finish_loop_o _ f tr m0 t a b) as [[[[m1 t1] n2] tr1]|]; [|reflexivity]. cbn [option_map fst].
    destruct (st m1 t1 NEXT n2) as [m2|]; [|reflexivity]. destruct (list_finish_rest f m2 t1 n2) as [[m3 t3]|]; [|reflexivity]. destruct (st m3 t3 NEXT t) as [m4|]; [|reflexivity]. destruct (st m4 t PREV t3); reflexivity. }
  assert (St : forall fuel tr m p c n, option_map fst (sort_step_o (fun _ => cmp) fuel tr m p c n) = sort_step fuel cmp m p c n).
  { intros f tr m0 p c n. unfold sort_step_o, sort_step. destruct (tail_walk 64 m0 p None c) as [[t bits]|]; [|reflexivity].
    assert (Tl : forall m1 p1 tr1, option_map fst (let* m := st m1 n PREV p1 in let* node := ld m n NEXT in let* m := st m n NEXT NULL in Some (m, n, node, tr1 : lcalls)) =
      (let* m := st m1 n PREV p1 in let* node := ld m n NEXT in let* m := st m n NEXT NULL in Some (m, n, node))).
    { intros m1 p1 tr1. destruct (st m1 n PREV p1) as [m2|]; [|reflexivity]. destruct (ld m2 n NEXT); [|reflexivity]. destruct (st m2 n NEXT NULL); reflexivity. }
    destruct (bits =? 0); [apply Tl|]. destruct (tail_load m0 p t) as [n2|]; [|reflexivity]. destruct (ld m0 n2 PREV) as [n1|]; [|reflexivity].
    unfold list_merge_o, list_merge. rewrite <- (Mg f tr). destruct (list_merge_loop_o _ f tr m0 NULL None n1 n2) as [[[m1 r] tr1]|]; [|reflexivity]. cbn [option_map fst].
    destruct (ld m1 n1 PREV) as [q|]; [|reflexivity]. destruct (st m1 r PREV q) as [m2|]; [|reflexivity]. destruct t as [t|]; [|apply Tl]. destruct (st m2 t PREV r) as [m3|]; [apply Tl|reflexivity]. }
  assert (Nd : forall fuel tr m p c n, option_map fst (sort_nodes_o (fun _ => cmp) fuel tr m p c n) = sort_nodes fuel cmp m p c n).
  { induction fuel0 as [|f IH]; intros tr m0 p c n; cbn [sort_nodes_o sort_nodes]; (destruct (n =? NULL); [reflexivity|]); [reflexivity|].
    rewrite <- (St (S f) tr). destruct (sort_step_o _ (S f) tr m0 p c n) as [[[[m1 p1] n1] tr1]|]; [|reflexivity]. cbn [option_map fst]. apply IH. }
  assert (Co : forall fuel tr m p n, option_map fst (sort_collect_o (fun _ => cmp) fuel tr m p n) = sort_collect fuel cmp m p n).
  { induction fuel0 as [|f IH]; intros tr m0 p n; [reflexivity|]. cbn [sort_collect_o sort_collect]. destruct (ld m0 p PREV) as [q|]; [|reflexivity]. destruct (q =? NULL); [reflexivity|].
    unfold list_merge_o, list_merge. rewrite <- (Mg (S f) tr). destruct (list_merge_loop_o _ (S f) tr m0 NULL None p n) as [[[m1 r] tr1]|]; [|reflexivity]. cbn [option_map fst]. apply IH. }
  unfold list_sort_o, list_sort. destruct (ld m h NEXT) as [n|]; [|reflexivity]. destruct (ld m h PREV) as [l|]; [|reflexivity]. destruct (n =? l); [reflexivity|].
  destruct (st m l NEXT NULL) as [m1|]; [|reflexivity]. rewrite <- (Nd fuel []). destruct (sort_nodes_o _ fuel [] m1 NULL 0 n) as [[[m2 p2] tr2]|]; [|reflexivity]. cbn [option_map fst].
  destruct (ld m2 p2 PREV) as [q|]; [|reflexivity]. rewrite <- (Co fuel tr2). destruct (sort_collect_o _ fuel tr2 m2 q p2) as [[[[m3 p3] n3] tr3]|]; [|reflexivity]. cbn [option_map fst]. apply Fi.
Qed.
(** A function that answers by the parity of the number of calls, on the list of three nodes of C58. *)
Example C127_list_case : ring demo 10 [20; 30; 40] /\ option_map snd (list_sort_o (fun tr _ _ => if Z.odd (zlen tr) then 1 else -1) 20 [] demo 10) = Some [(20, 40); (20, 30)].
Proof. split; [exact (proj1 C58_demo)|vm_compute; reflexivity]. Qed.
Print Assumptions C127_list_sort_any.
Print Assumptions C127_list_sort_same.
