(** * Proofs about the radix array: release *)
From Verif Require Import Lib BitsModel BitsProofs BitmapSpec BitmapProofs RadixModel RadixSpec RadixProofs RadixOps.
Ltac Zify.zify_post_hook ::= Z.div_mod_to_equations.

Definition under (l p l' p' : Z) : Prop := 0 <= l' <= l /\ p' / 2 ^ (5 * (l - l')) = p.
Lemma under_self : forall l p, 0 <= l -> under l p l p.
Proof. intros l p H. split; [lia|]. rewrite Z.sub_diag. apply Z.div_1_r. Qed.
Lemma under_child : forall l p j l' p', 1 <= l -> 0 <= j < 32 -> under (l - 1) (32 * p + j) l' p' -> under l p l' p'.
Proof.
  intros l p j l' p' Hl Hj [A B]. split; [lia|]. replace (5 * (l - l')) with (5 * (l - 1 - l') + 5) by lia. rewrite Z.pow_add_r by lia.
  rewrite <- Z.div_div by (try lia; apply pow_pos; lia). rewrite B. change (2 ^ 5) with 32. lia.
Qed.
Lemma under_split : forall l p l' p', 1 <= l -> under l p l' p' -> l' = l /\ p' = p \/ exists j, 0 <= j < 32 /\ under (l - 1) (32 * p + j) l' p'.
Proof.
  intros l p l' p' Hl [A B]. destruct (Z.eq_dec l' l) as [->|N].
  - left. split; [reflexivity|]. rewrite Z.sub_diag in B. rewrite Z.mul_0_r, Z.pow_0_r, Z.div_1_r in B. exact B.
  - right. replace (5 * (l - l')) with (5 * (l - 1 - l') + 5) in B by lia. rewrite Z.pow_add_r in B by lia.
    rewrite <- Z.div_div in B by (try lia; apply pow_pos; lia). change (2 ^ 5) with 32 in B. set (q := p' / 2 ^ (5 * (l - 1 - l'))) in *.
    exists (q mod 32). split; [lia|]. split; [lia|]. fold q. lia.
Qed.
Lemma under_apart : forall l a b l' p', under l a l' p' -> under l b l' p' -> a = b.
Proof. intros l a b l' p' [_ A] [_ B]. congruence. Qed.

Section Inv.
Context {X : Z -> Z -> Prop} {E : Z -> Z -> Z} {h : heap} {r L : Z} {loc : Z -> Z -> Z}.
Hypothesis I : inv X E h r L loc.
Definition kills (h1 h2 : heap) (K : Z -> Z -> Prop) : Prop :=
  (forall m, h2 m = h1 m \/ h2 m = None) /\ (forall l p, loc l p <> 0 -> K l p -> h2 (loc l p) = None) /\ (forall l p, loc l p <> 0 -> ~ K l p -> h2 (loc l p) = h1 (loc l p)).
Lemma destroy_ok : forall n h1 p, Z.of_nat n <= L -> loc (Z.of_nat n) p <> 0 -> (forall l' p', loc l' p' <> 0 -> under (Z.of_nat n) p l' p' -> h1 (loc l' p') = h (loc l' p')) ->
  exists h2, destroy n h1 (loc (Z.of_nat n) p) = Some h2 /\ kills h1 h2 (under (Z.of_nat n) p).
Proof.
  induction n as [|n IH]; intros h1 p Hn Hnz H1.
  - cbn [destroy Z.of_nat] in *. unfold free_node, NULL. destruct (Z.eqb_spec (loc 0 p) 0) as [|_]; [contradiction|].
    destruct (i_leaf _ _ _ _ _ _ I p Hnz) as (nd & Hd & _). rewrite H1, Hd by (try apply under_self; lia). eexists. split; [reflexivity|]. split; [|split].
    + intros m. unfold hdel. destruct (m =? loc 0 p); auto.
    + intros l p' A [B1 B2]. assert (l = 0) by lia. subst l. change (2 ^ (5 * (0 - 0))) with 1 in B2. rewrite Z.div_1_r in B2. subst p'. unfold hdel. rewrite Z.eqb_refl. reflexivity.
    + intros l p' A B. unfold hdel. destruct (Z.eqb_spec (loc l p') (loc 0 p)) as [Q|]; [|reflexivity]. destruct (i_inj _ _ _ _ _ _ I _ _ _ _ A Q) as [-> ->]. exfalso. apply B. apply under_self. lia.
  - set (l := Z.of_nat (S n)) in *. assert (Hl : Z.of_nat n = l - 1) by (unfold l; lia). rewrite Hl in IH.
    set (node := loc l p) in *.
    set (each := fix each (index : nat) (h0 : heap) {struct index} : option heap :=
      match index with
      | O => Some h0
      | S index0 => let* child := get_child h0 node (31 - Z.of_nat index0) in let* h2 := (if child =? NULL then Some h0 else destroy n h0 child) in each index0 h2
      end).
    assert (CH : forall j, 0 <= j < 32 -> get_child h node j = Some (loc (l - 1) (32 * p + j))). { intros j Hj. exact (branch_child I l p ltac:(lia) Hnz j Hj). }
    assert (EACH : forall index (h0 : heap), (index <= 32)%nat -> h0 node = h node -> (forall j, 32 - Z.of_nat index <= j < 32 -> forall l' p', loc l' p' <> 0 -> under (l - 1) (32 * p + j) l' p' -> h0 (loc l' p') = h (loc l' p')) ->
      exists h2, each index h0 = Some h2 /\ kills h0 h2 (fun l' p' => exists j, 32 - Z.of_nat index <= j < 32 /\ under (l - 1) (32 * p + j) l' p')).
    { induction index as [|index IHi]; intros h0 Hi Hh Hj.
      - exists h0. split; [reflexivity|]. split; [auto|]. split; [|auto]. intros l' p' _ (j & ? & _). lia.
      - set (j := 31 - Z.of_nat index). replace (32 - Z.of_nat (S index)) with j in * by (unfold j; lia).
        assert (Hj0 : 0 <= j < 32) by (unfold j; lia).
        assert (STEP : exists h2 : heap, (if loc (l - 1) (32 * p + j) =? NULL then Some h0 else destroy n h0 (loc (l - 1) (32 * p + j))) = Some h2 /\ kills h0 h2 (under (l - 1) (32 * p + j))).
        { unfold NULL. destruct (Z.eqb_spec (loc (l - 1) (32 * p + j)) 0) as [Z0|NZ].
          - exists h0. split; [reflexivity|]. split; [auto|]. split; [|auto]. intros l' p' A [B1 B2]. exfalso.
            pose proof (loc_up I (l - 1 - l') l' p' A ltac:(lia) ltac:(lia)) as U. rewrite B2 in U. replace (l' + (l - 1 - l')) with (l - 1) in U by lia. contradiction.
          - apply IH; [lia|exact NZ|]. intros l' p' A B. apply (Hj j); [lia|exact A|exact B]. }
        destruct STEP as (h2 & D & K1 & K2 & K3).
        assert (N0 : forall j', 0 <= j' < 32 -> ~ under (l - 1) (32 * p + j') l p). { intros j' _ [Q _]. lia. }
        destruct (IHi h2) as (h3 & D3 & J1 & J2 & J3).
        + lia.
        + rewrite <- Hh. apply K3; [exact Hnz|]. apply N0, Hj0.
        + intros j' Hj' l' p' A B. rewrite K3; [apply (Hj j'); [lia|exact A|exact B]|exact A|]. intros B'. pose proof (under_apart _ _ _ _ _ B B'). lia.
        + exists h3. split.
          * cbn [each]. fold j. unfold get_child at 1. rewrite Hh. unfold get_child in CH. rewrite CH by exact Hj0. cbv beta iota. rewrite D. exact D3.
          * split; [|split].
            -- intros m. destruct (J1 m) as [Q|Q]; rewrite Q; auto.
            -- intros l' p' A (j' & Hj' & B). destruct (Z.eq_dec j' j) as [->|Nj].
               ++ destruct (J1 (loc l' p')) as [Q|Q]; [rewrite Q; apply K2; assumption|exact Q].
               ++ apply J2; [exact A|]. exists j'. split; [lia|exact B].
            -- intros l' p' A B. rewrite J3; [apply K3; [exact A|]|exact A|].
               ++ intros C. apply B. exists j. split; [lia|exact C].
               ++ intros (j' & Hj' & C). apply B. exists j'. split; [lia|exact C]. }
    destruct (EACH 32%nat h1) as (h2 & D & K1 & K2 & K3).
    + lia.
    + apply H1; [exact Hnz|]. apply under_self. lia.
    + intros j Hj l' p' A B. apply H1; [exact A|]. apply (under_child l p j); [lia|lia|exact B].
    + change (destroy (S n) h1 node) with (let* h0 := each 32%nat h1 in free_node h0 node). rewrite D.
      assert (N2 : h2 node = h node). { unfold node. rewrite (K3 l p Hnz); [apply H1; [exact Hnz|apply under_self; unfold l; lia]|]. intros (j & _ & [_ Q] & _). clear - Q. lia. }
      unfold free_node, NULL. destruct (Z.eqb_spec node 0) as [|_]; [contradiction|]. rewrite N2. destruct (h node) eqn:Hd; [|exfalso; revert Hd; apply (loc_live I); exact Hnz].
      eexists. split; [reflexivity|]. split; [|split].
      * intros m. unfold hdel. destruct (m =? node); auto.
      * intros l' p' A B. unfold hdel. destruct (Z.eqb_spec (loc l' p') node) as [|NN]; [reflexivity|]. destruct (under_split l p l' p' ltac:(lia) B) as [[-> ->]|(j & Hj & C)]; [contradiction|].
        apply K2; [exact A|]. exists j. split; [lia|exact C].
      * intros l' p' A B. unfold hdel. destruct (Z.eqb_spec (loc l' p') node) as [Q|NN].
        -- destruct (i_inj _ _ _ _ _ _ I _ _ _ _ A Q) as [-> ->]. exfalso. apply B, under_self. lia.
        -- apply K3; [exact A|]. intros (j & Hj & C). apply B. apply (under_child l p j); [lia|lia|exact C].
Qed.
End Inv.
Lemma release_ok : forall X E h r L loc, inv X E h r L loc -> exists h2, destroy (Z.to_nat L) h r = Some h2 /\ forall n, h2 n = None.
Proof.
  intros X E h r L loc I. pose proof (i_level _ _ _ _ _ _ I) as HL. destruct (Z.eq_dec r 0) as [R|R].
  - pose proof (i_none _ _ _ _ _ _ I R) as L0. subst L. subst r. cbn. exists h. split; [reflexivity|]. apply (heap_none I eq_refl).
  - pose proof (i_root _ _ _ _ _ _ I) as Rt. destruct (destroy_ok I (Z.to_nat L) h 0) as (h2 & D & K1 & K2 & _); rewrite ?Z2Nat.id in * by lia; [lia|congruence|auto|].
    exists h2. split; [rewrite <- Rt; exact D|]. intros n. destruct (K1 n) as [Q|Q]; [|exact Q]. destruct (h n) eqn:Hn; [|exact Q].
    destruct (i_only _ _ _ _ _ _ I n ltac:(congruence)) as (A & l & p & B). subst n. apply K2; [lia|]. destruct (i_range _ _ _ _ _ _ I l p ltac:(lia)) as [C1 C2]. split; [exact C1|]. apply Z.div_small. exact C2.
Qed.
