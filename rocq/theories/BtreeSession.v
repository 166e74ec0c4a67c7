(** * B+tree proofs: the sessions refine the ordered map *)
From Verif Require Import Lib BtreeModel BtreeCells BtreeFill BtreeTower BtreeSpec BtreeState BtreeInsert BtreeRemove BtreeIter.
Ltac Zify.zify_post_hook ::= Z.div_mod_to_equations.

Section Session.
Variable K H : Z.
Hypothesis KH : K - 2 * H = 0.
Hypothesis HK : 4 <= K < 2 ^ 31.
Variable al : nat -> heap -> Z.
Hypothesis AL : allocator al.
Variable clash : option (Z -> Z -> Z).
Variable remove : option (Z -> Z).
Local Notation shape := (shape K H al).
Local Notation bare := (bare al).
Definition rel (s : root) (m : bmap) : Prop := bare s /\ m = [] \/ shape s m.
Local Notation step := (bstep (may_fail al) clash remove).

Lemma rel_init : rel btree_init [].
Proof. left. split; [|reflexivity]. split; [reflexivity|]. split; [reflexivity|]. split; [reflexivity|]. intros a Ha. cbn in Ha. congruence. Qed.
Lemma get_in : forall k (m : bmap) v, get k m = Some v -> In (k, v) m.
Proof. intros k m v G. unfold get in G. destruct (find (fun e => fst e =? k) m) as [[k' v']|] eqn:E; [|discriminate]. injection G as <-. apply find_some in E. destruct E as [I E]. cbn [fst] in E. apply Z.eqb_eq in E. subst. exact I. Qed.
Lemma split_at : forall s m k v, shape s m -> get k m = Some v -> 0 <= k < 2 ^ 64 /\ exists A C, m = A ++ (k, v) :: C /\ Forall (fun e => k < fst e) A /\ Forall (fun e => fst e < k) C.
Proof.
  intros s m k v Sh G. destruct (shape_range K H al s m Sh) as [_ RG]. assert (Hk : 0 <= k < 2 ^ 64) by (rewrite Forall_forall in RG; apply (RG _ (get_in _ _ _ G))). split; [exact Hk|]. destruct (leaf_split K H KH HK al s m k Sh Hk) as (A & C & FA & FC & [->|(w & _ & ->)]).
  - rewrite get_gap in G by assumption. discriminate.
  - rewrite get_at in G by assumption. injection G as ->. exists A, C. auto.
Qed.
Lemma insert_exec : forall s m k v, rel s m -> 0 <= k < 2 ^ 64 -> v <> NULL -> exists s' c m', btree_insert K al clash s k v = Some (s', c) /\ step m (BInsert k v) (RCode c) m' /\ rel s' m'.
Proof.
  intros s m k v R Hk Nv. unfold btree_insert. destruct (Z.eqb_spec v NULL) as [Q|_]; [contradiction|]. pose proof (BtreeTower.H2 K H KH HK) as HH.
  assert (PR : exists T, (length T < Z.to_nat (b_height s) + 2)%nat /\ FE (upper [] T) = m /\ pre K H al s T [] 1 (Val k) k v (fun _ => H) [] /\ (T = [] \/ shape s m)).
  { destruct R as [[(E1 & E2 & E3 & Bo) ->]|Sh].
    - exists []. split; [cbn; lia|]. split; [reflexivity|]. split; [|left; reflexivity]. split; [lia|]. split; [rewrite zlen_nil; lia|]. split; [left; auto|]. split; [split; [constructor|split; [intros a []|]]; intros a; rewrite E3; cbn; split; [congruence|intros [[]|[]]]|]. split; [exact Bo|]. split; [exact Hk|]. split; [exact Nv|]. split; [lia|reflexivity].
    - pose proof Sh as (B & T & W & Ow & Bo & Hh & Em). exists (B :: T). split; [unfold zlen in Hh; cbn [length]; lia|]. split; [exact Em|]. split; [|right; exact Sh]. split; [lia|]. split; [rewrite zlen_cons; lia|]. split; [split; [exact W|apply (Jn_const K H KH HK)]|]. split; [exact Ow|]. split; [exact Bo|]. split; [exact Hk|]. split; [exact Nv|]. split; [lia|reflexivity]. }
  destruct PR as (T & LT & Em & PR & CS). destruct (insert_ok K H KH HK al AL clash (Z.to_nat (b_height s) + 2) T LT [] s 1 (Val k) k v (fun _ => H) [] PR) as (s' & c & E & T' & Bo & _ & Ow & Hh & Q). rewrite E. exists s', c.
  assert (SHAPE : tower K H (b_heap s') (b_node s') T' -> shape s' (FE (top T'))). { intros W. destruct T' as [|B' T']; [destruct W|]. exists B', T'. split; [exact W|]. split; [exact Ow|]. split; [exact Bo|]. split; [rewrite zlen_cons in Hh; lia|reflexivity]. }
  destruct Q as [(-> & W & _ & ((F1 & F2 & EF & EF' & G1 & G2) & _))|(ST & Q)].
  - exists (put k v m). split; [reflexivity|]. rewrite Em in EF. split; [apply insert_new; [exact Nv|rewrite EF; apply get_gap; assumption]|]. right. rewrite EF, put_gap by assumption. rewrite <- EF'. apply SHAPE, W.
  - exists m. split; [reflexivity|]. assert (RL : rel s' m).
    { unfold stays in ST. destruct T as [|B T].
      - destruct ST as [-> EN]. left. destruct PR as (_ & Hh0 & S0 & _). destruct S0 as [[_ S0]|(cc & es & S0 & _)]; [|discriminate]. split; [|symmetry; exact Em]. split; [rewrite zlen_nil in Hh; lia|]. split; [congruence|]. split; [|exact Bo]. intros a. destruct Ow as (_ & _ & D). destruct (b_heap s' a) eqn:Ea; [|reflexivity]. exfalso. assert (Q2 : b_heap s' a <> None) by congruence. apply D in Q2. destruct Q2 as [[]|[]].
      - destruct ST as (W & _ & L). right. rewrite <- Em. cbn [upper]. rewrite <- (lowered_FE _ _ L). apply SHAPE, W. }
    split; [|exact RL]. destruct Q as [(-> & MF & _ & F)|(old & IO & ->)].
    + apply insert_full; [exact Nv| |exact MF]. rewrite <- Em. unfold get. rewrite find_none; [reflexivity|]. eapply Forall_impl; [|exact F]. cbn beta. intros e Ne. apply Z.eqb_neq, Ne.
    + assert (G : get k m = Some old). { destruct CS as [->|Sh]; [destruct IO|]. destruct T as [|B T]; [destruct IO|]. cbn [top hd] in IO. cbn [upper] in Em. rewrite Em in IO. destruct (leaf_split K H KH HK al s m k Sh Hk) as (A & C & FA & FC & [EM|(w & _ & EM)]); rewrite EM in IO |- *.
        - exfalso. rewrite Forall_forall in FA, FC. apply in_app_or in IO. destruct IO as [IO|IO]; [specialize (FA _ IO)|specialize (FC _ IO)]; cbn [fst] in *; lia.
        - rewrite get_at by assumption. rewrite Forall_forall in FA, FC. apply in_app_or in IO. destruct IO as [IO|[IO|IO]]; [specialize (FA _ IO); cbn [fst] in *; lia|injection IO as ->; reflexivity|specialize (FC _ IO); cbn [fst] in *; lia]. }
      apply insert_clash; assumption.
Qed.
Lemma exec_ok : forall s m o, rel s m -> ballowed remove m o -> exists s' r m', btree_exec K al clash remove s o = Some (s', r) /\ step m o r m' /\ rel s' m'.
Proof.
  intros s m o R AW. destruct o as [k|k v|k v|k| | |k|k|n]; cbn [btree_exec ballowed] in *.
  - destruct R as [[Ba ->]|Sh].
    + pose proof Ba as (E1 & _). unfold btree_lookup, node_lookup. rewrite E1. exists s, (RVal NULL), []. split; [reflexivity|]. split; [apply (step_lookup _ _ _ [] k)|left; auto].
    + rewrite (lookup_ok K H HK al s m k Sh AW). eexists. eexists. exists m. split; [reflexivity|]. split; [apply step_lookup|right; exact Sh].
  - destruct AW as (Hk & Nv & N0). destruct R as [[Ba ->]|Sh].
    + pose proof Ba as (E1 & _). unfold btree_update, node_lookup. rewrite E1. eexists. eexists. exists []. split; [reflexivity|]. split; [apply update_miss; reflexivity|left; auto].
    + destruct (update_ok K H KH HK al s m k v Sh Hk Nv N0) as (s' & c & E & [(G & -> & Sh')|(G & -> & ->)]); rewrite E.
      * exists s', (RCode 0), (put k v m). split; [reflexivity|]. split; [apply update_hit, G|right; exact Sh'].
      * exists s, (RCode (- ENOENT)), m. split; [reflexivity|]. split; [apply update_miss, G|right; exact Sh].
  - destruct (Z.eq_dec v NULL) as [->|Nv].
    + exists s, (RCode (- EINVAL)), m. split; [reflexivity|]. split; [apply insert_null|exact R].
    + destruct (insert_exec s m k v R AW Nv) as (s' & c & m' & E & S & R'). rewrite E. exists s', (RCode c), m'. auto.
  - destruct AW as (Hk & AW). destruct R as [[Ba ->]|Sh].
    + pose proof Ba as (E1 & _). unfold btree_remove. rewrite E1. exists s, (RVal NULL), []. split; [reflexivity|]. split; [apply remove_miss; reflexivity|left; auto].
    + destruct (get k m) as [v|] eqn:G.
      * destruct (split_at s m k v Sh G) as (_ & A & C & -> & FA & FC). destruct (remove_present K H KH HK al remove s A v C k Sh Hk FA FC) as (s' & E & Sh'). rewrite E. destruct (Z.eqb_spec (verdict remove v) NULL) as [EV|NV].
        -- exists s', (RVal v), (A ++ C). split; [reflexivity|]. split; [|right; exact Sh']. rewrite <- (del_at k A C FA FC v). apply remove_hit; assumption.
        -- exists s', (RVal (verdict remove v)), (A ++ (k, v) :: C). split; [reflexivity|]. split; [|right; exact Sh']. apply remove_refused; assumption.
      * destruct AW as [AW|[N0 AW]]; [congruence|]. destruct (remove_absent K H KH HK al remove s m k Sh Hk G N0 AW) as (s' & E & Sh'). rewrite E. exists s', (RVal NULL), m. split; [reflexivity|]. split; [apply remove_miss, G|right; exact Sh'].
  - destruct R as [[Ba ->]|Sh].
    + pose proof Ba as (E1 & _). unfold btree_first. rewrite E1. eexists. eexists. exists []. split; [reflexivity|]. split; [apply (step_first _ _ _ [])|left; auto].
    + destruct (first_ok K H HK al s m 0 Sh) as (v & k & E & Q). rewrite E. exists s, (RAt v k), m. split; [reflexivity|]. split; [|right; exact Sh]. replace (RAt v k) with (report 0 (hd_error m)); [apply step_first|]. destruct m as [|[k1 v1] m]; destruct Q as [-> ->]; reflexivity.
  - destruct R as [[Ba ->]|Sh]; [congruence|]. destruct (last_ok K H KH HK al s m 0 Sh AW) as (v & k & E & Q). rewrite E. exists s, (RAt v k), m. split; [reflexivity|]. split; [|right; exact Sh]. replace (RAt v k) with (report 0 (last_of m)); [apply step_last|]. rewrite Q. reflexivity.
  - destruct R as [[Ba ->]|Sh]; [exfalso; apply AW; reflexivity|]. destruct (get k m) as [v|] eqn:G; [|congruence]. destruct (split_at s m k v Sh G) as (_ & A & C & -> & FA & FC). destruct (next_ok K H KH HK al s A v C k Sh FA FC) as (s' & v' & k' & E & Sh' & RP). rewrite E. exists s', (RAt v' k'), (A ++ (k, v) :: C). split; [reflexivity|]. split; [|right; exact Sh']. rewrite RP. rewrite <- (below_at k A C FA FC v) at 2. apply step_next.
  - destruct AW as (Hk & N0). destruct R as [[Ba ->]|Sh].
    + pose proof Ba as (E1 & _). unfold btree_prev. rewrite E1. eexists. eexists. exists []. split; [reflexivity|]. split; [apply (step_prev _ _ _ [] k)|left; auto].
    + destruct (leaf_split K H KH HK al s m k Sh Hk) as (A & C & FA & FC & CS). assert (CS' : exists R, m = A ++ R /\ Forall (fun e => fst e <= k) R /\ above k m = A).
      { assert (FC' : Forall (fun e => fst e <= k) C) by (eapply Forall_impl; [|exact FC]; cbn beta; intros; lia). destruct CS as [->|(w & _ & ->)]; [exists C|exists ((k, w) :: C)]; (split; [reflexivity|]); (split; [|first [apply above_gap; assumption|apply above_at; assumption]]); [exact FC'|constructor; [cbn [fst]; lia|exact FC']]. }
      destruct CS' as (R & EM & FR & EA). rewrite EM in Sh. destruct (prev_ok K H KH HK al s A R k Sh Hk N0 FA FR) as (s' & v' & k' & E & Sh' & RP). rewrite E. rewrite <- EM in Sh'. exists s', (RAt v' k'), m. split; [reflexivity|]. split; [|right; exact Sh']. rewrite RP, <- EA. apply step_prev.
  - destruct AW as (LN & VE). destruct R as [[Ba ->]|Sh].
    + pose proof Ba as (E1 & E2 & E3 & Bo). unfold btree_release, btree_first. rewrite E1. cbn. unfold node_free. rewrite E2. cbn. eexists. eexists. exists []. split; [reflexivity|]. split; [apply (step_release _ _ _ [] n)|]. left. split; [|reflexivity]. split; [reflexivity|]. split; [reflexivity|]. split; [exact E3|exact Bo].
    + destruct (release_ok K H KH HK al remove m n s Sh LN VE) as (s' & E & Ba). rewrite E. exists s', (RList (map snd m)), []. split; [reflexivity|]. split; [apply step_release|left; auto].
Qed.
Lemma run_ok : forall prog, polite (may_fail al) clash remove prog -> forall n s h m, reach (may_fail al) clash remove h m -> rel s m -> exists s' h' m', run_ops K al clash remove n s prog h = Some (s', h') /\ reach (may_fail al) clash remove h' m' /\ rel s' m'.
Proof.
  intros prog PO. induction n as [|n IH]; intros s h m RE R; cbn [run_ops]; [exists s, h, m; auto|]. destruct (exec_ok s m (prog h) R (PO h m RE)) as (s1 & r & m1 & E & S & R1). rewrite E. apply (IH s1 _ m1); [|exact R1]. apply (reach_step _ _ _ _ _ _ _ _ RE S).
Qed.
(** what the heap holds: as many nodes as the tree needs, nothing once it is released *)
Lemma rel_bare : forall s m, rel s m -> b_height s = 0 -> forall a, b_heap s a = None.
Proof. intros s m [[(_ & _ & E & _) _]|(B & T & _ & _ & _ & Hh & _)] E0; [exact E|]. pose proof (zlen_nonneg _ T). lia. Qed.
End Session.
