(** * Bottom-up merge sort: the chains waiting to be merged *)
From Verif Require Import Lib Ptr ListModel ListSpec ListProofs ListProofs2 ListSortModel ListSortSpec ListSortProofs.

(** The chains [Ls], most recent first, linked through the backward links of their first nodes. *)
Fixpoint pend (m : mem) (p : Z) (Ls : list (list Z)) : Prop :=
  match Ls with
  | [] => p = NULL
  | L :: Ls' => L <> [] /\ chain m p L /\ exists q, m p PREV = Some q /\ pend m q Ls'
  end.
Lemma pend_frame m m' Ls : forall p, (forall x f, In x (concat Ls) -> m' x f = m x f) -> pend m p Ls -> pend m' p Ls.
Proof.
  induction Ls as [|L Ls IH]; intros p H P; [exact P|]. cbn [pend concat] in *. destruct P as (N & C & q & E & P).
  split; [exact N|]. split; [revert C; apply chain_frame; intros x Hx; apply H; apply in_or_app; auto|]. exists q. split.
  - rewrite H; [exact E|]. apply in_or_app. left. destruct L as [|y L]; [contradiction|]. cbn in C. destruct C as [-> _]. cbn; auto.
  - apply IH; [intros x f Hx; apply H; apply in_or_app; auto|exact P].
Qed.
Lemma chain_hd_in m p L : L <> [] -> chain m p L -> In p L.
Proof. destruct L; [contradiction|]. cbn. intros _ [-> _]. auto. Qed.
Lemma pend_nz m p L Ls : pend m p (L :: Ls) -> p <> NULL.
Proof. cbn. intros (N & C & _). destruct L; [contradiction|]. cbn in C. destruct C as (-> & C & _). exact C. Qed.
(** Which node owns the slot behind the chains [A]. *)
Definition slot (A : list (list Z)) (tail : option Z) : option Z := match A with [] => tail | _ => Some (hd NULL (last A [])) end.
Lemma slot_cons L A t : slot A (Some (hd NULL L)) = slot (L :: A) t.
Proof. unfold slot. destruct A; reflexivity. Qed.
Lemma walk_tail_ok m pending : forall fuel bits Ls tail p, 0 <= bits < 2 ^ Z.of_nat fuel -> bits < 2 ^ zlen Ls -> tail_load m pending tail = Some p -> pend m p Ls ->
  exists A B bits' p', tail_walk fuel m pending tail bits = Some (slot A tail, bits') /\ Ls = A ++ B /\ tail_load m pending (slot A tail) = Some p' /\ pend m p' B /\
  (bits' <> 0 -> (2 <= length B)%nat /\ bits + 1 < 2 ^ zlen Ls).
Proof.
  induction fuel as [|fuel IH]; intros bits Ls tail p Hb Hl Ht Hp.
  - change (2 ^ Z.of_nat 0) with 1 in Hb. assert (bits = 0) by lia. subst. exists [], Ls, 0, p. cbn. repeat split; try assumption; lia.
  - cbn [tail_walk]. destruct (Z.odd bits) eqn:Eo.
    + rewrite Ht. destruct Ls as [|L Ls]; [change (2 ^ zlen []) with 1 in Hl; assert (bits = 0) by lia; subst; discriminate|].
      rewrite zlen_cons in Hl. cbn [pend] in Hp. destruct Hp as (N & C & q & E & Hp).
      pose proof (chain_hd _ _ _ C) as Eh.
      assert (Hh : bits = 2 * (bits / 2) + 1) by (pose proof (Zmod_odd bits) as Q; rewrite Eo in Q; pose proof (Z.div_mod bits 2); lia).
      assert (Hp2 : 2 ^ (zlen Ls + 1) = 2 * 2 ^ zlen Ls) by (rewrite Z.pow_add_r; [lia|apply zlen_nonneg|lia]).
      assert (Hp3 : 2 ^ Z.of_nat (S fuel) = 2 * 2 ^ Z.of_nat fuel) by (rewrite Nat2Z.inj_succ, Z.pow_succ_r by lia; reflexivity).

      destruct (IH (bits / 2) Ls (Some p) q) as (A & B & b' & p' & E1 & E2 & E3 & E4 & E5); [lia| |exact E|exact Hp|].
      { lia. }
      rewrite E1. exists (L :: A), B, b', p'. subst p. rewrite (slot_cons L A tail) in *. split; [reflexivity|]. split; [cbn; rewrite E2; reflexivity|].
      split; [exact E3|]. split; [exact E4|]. intros Hb'. destruct (E5 Hb') as [E6 E7]. split; [exact E6|]. rewrite zlen_cons. rewrite Hp2. lia.
    + exists [], Ls, bits, p. cbn [slot]. split; [reflexivity|]. split; [reflexivity|]. split; [exact Ht|]. split; [exact Hp|].
      intros Hz. assert (He : bits mod 2 = 0) by (rewrite Zmod_odd, Eo; reflexivity).
      destruct Ls as [|L1 [|L2 Ls]].
      * change (2 ^ zlen []) with 1 in Hl. lia.
      * change (2 ^ zlen [L1]) with 2 in Hl. assert (bits = 0 \/ bits = 1) by lia. destruct H as [->| ->]; [lia|discriminate].
      * split; [cbn; lia|]. rewrite !zlen_cons in *. assert (Q : 2 ^ (zlen Ls + 1 + 1) = 2 * 2 ^ (zlen Ls + 1)) by (assert (0 <= zlen Ls) by apply zlen_nonneg; rewrite (Z.pow_add_r 2 (zlen Ls + 1)); lia).
        rewrite Q in *. pose proof (Z.div_mod bits 2). lia.
Qed.
Lemma pend_replace m m' B B' v : forall A p, NoDup (concat A) -> pend m p (A ++ B) ->
  (forall x, In x (concat A) -> m' x NEXT = m x NEXT) ->
  (forall x, In x (concat A) -> Some x <> slot A None -> m' x PREV = m x PREV) ->
  (forall t, slot A None = Some t -> m' t PREV = Some v) ->
  pend m' v B' -> pend m' (match A with [] => v | _ => p end) (A ++ B').
Proof.
  induction A as [|L A IH]; intros p Hd P HN HP HS HB; [exact HB|]. cbn [app pend] in *. destruct P as (N & C & q & E & P).
  cbn [concat] in *.
  split; [exact N|]. split; [revert C; apply chain_frame; intros x Hx; apply HN; apply in_or_app; auto|].
  pose proof (chain_hd _ _ _ C) as Eh. destruct A as [|L' A].
  - exists v. split; [|exact HB]. apply HS. cbn. subst p. reflexivity.
  - exists q. split.
    + rewrite HP; [exact E|apply in_or_app; left; apply (chain_hd_in m p L N C)|].
      intros Q. cbn [slot] in Q. injection Q as Q. apply (nodup_disj _ _ Hd p); [apply (chain_hd_in m p L N C)|]. rewrite Q.
      change (last (L :: L' :: A) []) with (last (L' :: A) []). clear - P. revert L' q P. induction A as [|L2 A IH]; intros L' q P.
      * cbn [last concat]. rewrite app_nil_r. cbn [app pend] in P. destruct P as (N & C & _). rewrite <- (chain_hd _ _ _ C). apply (chain_hd_in _ _ _ N C).
      * change (last (L' :: L2 :: A) []) with (last (L2 :: A) []). change (concat (L' :: L2 :: A)) with (L' ++ concat (L2 :: A)). apply in_or_app. right. cbn [app pend] in P. destruct P as (_ & _ & q' & _ & P). apply (IH _ q'). exact P.
    + apply (IH q); [apply (nodup_r _ _ Hd)|exact P| | | |exact HB].
      * intros x Hx. apply HN. apply in_or_app; auto.
      * intros x Hx Hs. apply HP; [apply in_or_app; auto|exact Hs].
      * intros t Ht. apply HS. exact Ht.
Qed.
Lemma slot_in m p A B : pend m p (A ++ B) -> forall t, slot A None = Some t -> In t (concat A).
Proof.
  revert p. induction A as [|L A IH]; intros p P t; cbn [slot]; [discriminate|]. intros H. injection H as <-. cbn [app pend concat] in *.
  destruct P as (N & C & q & E & P). apply in_or_app. destruct A as [|L' A].
  - left. cbn [last]. rewrite <- (chain_hd _ _ _ C). apply (chain_hd_in _ _ _ N C).
  - right. apply (IH q P). reflexivity.
Qed.
