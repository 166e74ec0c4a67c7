(** * Interval trees: queries, insertion and deletion *)
From Coq Require Import Sorting.Sorted.
From Verif Require Import Lib Ptr Tree TiterModel TiterProofs RbModel RbProofs RbRotate RbSpec RbInsert RbRemove RbFrame RbOps RbOps2 SegModel SegProofs SegProofs2.

Section Seg.
Variable sta en : Z -> Z.
Variable rt : Z.
Notation aug := (aug sta en).
Notation augk := (augk sta en).
Notation top := (top en).
Definition by_start (l : list Z) : Prop := StronglySorted (fun x y => sta x <= sta y) l.
Lemma by_start_app l1 l2 : by_start (l1 ++ l2) -> by_start l1 /\ by_start l2 /\ forall x y, In x l1 -> In y l2 -> sta x <= sta y.
Proof.
  induction l1 as [|a l1 IH]; cbn [app]; intros H; [split; [constructor|split; [exact H|intros x y []]]|]. apply StronglySorted_inv in H. destruct H as [H1 H2]. destruct (IH H1) as (A & B & C).
  apply Forall_app in H2. destruct H2 as [H2 H3]. split; [constructor; assumption|]. split; [exact B|]. intros x y [<-|Hx] Hy; [rewrite Forall_forall in H3; apply H3, Hy|apply C; assumption].
Qed.
Lemma top_le t a : In a (inorder t) -> en a <= top t.
Proof.
  induction t as [|x l IHl b r IHr]; cbn [inorder SegProofs.top]; [intros []|]. intros H. unfold val. apply in_app_or in H. destruct H as [H|[<-|H]]; [specialize (IHl H)| |specialize (IHr H)]; lia.
Qed.
Lemma top_ex z m t : aug z m t -> t <> E -> exists a, In a (inorder t) /\ en a = top t.
Proof.
  induction t as [|x l IHl b r IHr]; intros HA N; [congruence|]. cbn [SegProofs.aug inorder SegProofs.top] in *. destruct HA as (_ & _ & H0 & _ & Hl & Hr). unfold val.
  assert (L0 : top l = 0 /\ l = E \/ exists a, In a (inorder l) /\ en a = top l) by (destruct l; [left; auto|right; apply IHl; [exact Hl|discriminate]]).
  assert (R0 : top r = 0 /\ r = E \/ exists a, In a (inorder r) /\ en a = top r) by (destruct r; [left; auto|right; apply IHr; [exact Hr|discriminate]]).
  destruct (Z.max_spec (en b) (Z.max (top l) (top r))) as [[A ->]|[A ->]].
  - destruct (Z.max_spec (top l) (top r)) as [[B C]|[B C]]; rewrite C in *.
    + destruct R0 as [[R0 _]|(a & R1 & R2)]; [lia|]. exists a. split; [apply in_or_app; right; right; exact R1|exact R2].
    + destruct L0 as [[L0 _]|(a & L1 & L2)]; [lia|]. exists a. split; [apply in_or_app; left; exact L1|exact L2].
  - exists b. split; [apply in_or_app; right; left; reflexivity|reflexivity].
Qed.

(** ** Queries *)
Section Query.
Variable qs qe : Z.
(** The interval of the node meets [qs, qe]. *)
Definition meets (a : Z) : bool := (sta a <=? qe) && (qs <=? en a).
Lemma none_low l : (forall a, In a l -> en a < qs) -> filter meets l = [].
Proof.
  induction l as [|a l IH]; intros H; cbn [filter]; [reflexivity|]. rewrite IH by (intros b Hb; apply H; right; exact Hb). unfold meets.
  rewrite (proj2 (Z.leb_gt qs (en a))) by (apply H; left; reflexivity). rewrite andb_false_r. reflexivity.
Qed.
Lemma none_high l : (forall a, In a l -> qe < sta a) -> filter meets l = [].
Proof.
  induction l as [|a l IH]; intros H; cbn [filter]; [reflexivity|]. rewrite IH by (intros b Hb; apply H; right; exact Hb). unfold meets.
  rewrite (proj2 (Z.leb_gt (sta a) qe)) by (apply H; left; reflexivity). reflexivity.
Qed.
(** If an interval of the first part reaches the query then the answer is there. *)
Lemma commit l1 l2 a : by_start (l1 ++ l2) -> In a l1 -> qs <= en a -> hd 0 (filter meets (l1 ++ l2)) = hd 0 (filter meets l1).
Proof.
  intros Hs Ha Hq. rewrite filter_app. destruct (filter meets l1) as [|b l] eqn:E1; [|reflexivity]. cbn [app hd].
  assert (Hx : meets a = false). { destruct (meets a) eqn:E2; [|reflexivity]. assert (In a (filter meets l1)) by (apply filter_In; tauto). rewrite E1 in H. destruct H. }
  unfold meets in Hx. rewrite (proj2 (Z.leb_le _ _) Hq), andb_true_r in Hx. apply Z.leb_gt in Hx. rewrite none_high; [reflexivity|].
  intros b Hb. destruct (by_start_app _ _ Hs) as (_ & _ & H). specialize (H a b Ha Hb). lia.
Qed.
Lemma nzb (t : utree) : t <> E -> cnt 0 t = 0%nat -> (addr t =? NULL) = false.
Proof. destruct t as [|x l a r]; [congruence|]. cbn [addr cnt]. intros _ H. apply Z.eqb_neq. intros ->. unfold NULL in H. rewrite ind_refl in H. lia. Qed.
Lemma sub_read m (t : utree) : t <> E -> cnt 0 t = 0%nat -> aug 0 m t -> m (addr t) SUBTREE = Some (top t).
Proof.
  destruct t as [|x l a r]; [congruence|]. cbn [addr SegProofs.aug cnt]. intros _ H0 (_ & _ & _ & (w & H1 & H2) & _). rewrite H1, H2; [reflexivity|]. intros ->. rewrite ind_refl in H0. lia.
Qed.
Lemma search_ok m u : forall fuel p, (size u <= fuel)%nat -> u <> E -> rep U m p u -> aug 0 m u -> by_start (inorder u) -> cnt 0 u = 0%nat ->
  seg_search fuel m (addr u) qs qe = Some (hd 0 (filter meets (inorder u))).
Proof.
  induction u as [|x l IHl a r IHr]; intros fuel p Hf N HR HA Hs H0; [congruence|]. destruct fuel as [|fuel]; cbn [size] in Hf; [lia|]. cbn [rep SegProofs.aug addr inorder cnt] in *.
  destruct HR as (R1 & R2 & R3 & _ & R4 & R5). destruct HA as (A1 & A2 & A3 & _ & Al & Ar). destruct (by_start_app _ _ Hs) as (Sl & Sr & Sx). apply StronglySorted_inv in Sr. destruct Sr as [Sr Sa]. rewrite Forall_forall in Sa.
  cbn [seg_search]. unfold ld. rewrite R2.
  assert (Hgo : (if negb (addr l =? NULL) then match m (addr l) SUBTREE with Some s => Some (s >=? qs) | None => None end else Some false) = Some (negb (addr l =? NULL) && (top l >=? qs))).
  { destruct l as [|y ll b lr]; [reflexivity|]. rewrite (nzb (T y ll b lr)) by (try discriminate; lia). cbn [negb andb]. rewrite sub_read by (try discriminate; try assumption; lia). reflexivity. }
  rewrite Hgo. destruct (negb (addr l =? NULL) && (top l >=? qs)) eqn:B.
  - apply andb_true_iff in B. destruct B as [B1 B2]. rewrite Z.geb_leb in B2. apply Z.leb_le in B2. assert (Nl : l <> E) by (intros ->; discriminate B1).
    destruct (top_ex 0 m l Al Nl) as (b & Hb & Eb). rewrite (commit (inorder l) (a :: inorder r) b Hs Hb) by lia. apply (IHl fuel a); try assumption; lia.
  - assert (Hl : filter meets (inorder l) = []).
    { apply none_low. intros b Hb. pose proof (top_le l b Hb). destruct l as [|y ll c lr]; [destruct Hb|]. rewrite (nzb (T y ll c lr)) in B by (try discriminate; lia). cbn [negb andb] in B. rewrite Z.geb_leb in B. apply Z.leb_gt in B. lia. }
    rewrite filter_app, Hl. cbn [app filter]. rewrite A1. destruct (Z.leb_spec (sta a) qe) as [B1|B1].
    + rewrite A2. destruct (Z.leb_spec qs (en a)) as [B2|B2].
      * assert (Hm : meets a = true) by (unfold meets; apply andb_true_iff; split; apply Z.leb_le; assumption). rewrite Hm. reflexivity.
      * assert (Hm : meets a = false) by (unfold meets; rewrite (proj2 (Z.leb_gt qs (en a)) B2), andb_false_r; reflexivity). rewrite Hm, R3.
        destruct r as [|y rl b rr]; [reflexivity|]. rewrite (nzb (T y rl b rr)) by (try discriminate; lia). cbn [negb]. rewrite sub_read by (try discriminate; try assumption; lia).
        rewrite Z.geb_leb. destruct (Z.leb_spec qs (top (T y rl b rr))) as [B3|B3].
        -- apply (IHr fuel a); try assumption; try discriminate; lia.
        -- rewrite none_low; [reflexivity|]. intros c Hc. pose proof (top_le _ c Hc). lia.
    + assert (Hm : meets a = false) by (unfold meets; rewrite (proj2 (Z.leb_gt (sta a) qe) B1); reflexivity). rewrite Hm. rewrite none_high; [reflexivity|]. intros b Hb. specialize (Sa b Hb). lia.
Qed.
Theorem seg_first_ok m (t : utree) fuel : (size t < fuel)%nat -> tree_at U rt m t -> m rt LEFTMOST = Some (hd 0 (inorder t)) -> aug 0 m t -> by_start (inorder t) ->
  seg_first fuel m rt qs qe = Some (hd 0 (filter meets (inorder t))).
Proof.
  intros Hf (H1 & H2 & D) HL HA Hs. assert (H0 := uzero rt [] t D). unfold seg_first, ld. rewrite H1. destruct t as [|x l a r]; [reflexivity|]. set (t := T x l a r) in *.
  rewrite (nzb t) by (try discriminate; assumption). rewrite sub_read by (try discriminate; assumption). destruct (Z.ltb_spec (top t) qs) as [B|B].
  - rewrite none_low; [reflexivity|]. intros b Hb. pose proof (top_le _ b Hb). lia.
  - rewrite HL. assert (Hst : forall b, In b (inorder t) -> m b START = Some (sta b)).
    { clear - HA. revert HA. generalize t. intros u. induction u as [|y ul IHl b ur IHr]; cbn [SegProofs.aug inorder]; [intros _ ? []|]. intros (A1 & _ & _ & _ & A2 & A3) c Hc. apply in_app_or in Hc. destruct Hc as [Hc|[<-|Hc]]; auto. }
    assert (Nl : inorder t <> []) by (apply inorder_ne; discriminate). destruct (inorder t) as [|h ll] eqn:El; [congruence|]. cbn [hd]. rewrite Hst by (left; reflexivity). rewrite Z.gtb_ltb. destruct (Z.ltb_spec qe (sta h)) as [B1|B1].
    + apply StronglySorted_inv in Hs. destruct Hs as [_ Hs]. rewrite Forall_forall in Hs. rewrite none_high; [reflexivity|]. intros b [<-|Hb]; [exact B1|]. specialize (Hs b Hb). lia.
    + rewrite <- El in *. apply (search_ok m t fuel 0); try assumption; [lia|discriminate].
Qed.
Lemma seg_climb_ok m (k : uctx) : forall fuel t, t <> E -> (length k < fuel)%nat -> apart rt k t -> m (addr t) PARENT = Some (cpar k) -> crep U rt m k (addr t) ->
  (after k = [] /\ seg_climb fuel m (addr t) = Some None) \/
  exists k2 x t' b s, seg_climb fuel m (addr t) = Some (Some (b, addr s)) /\ after k = b :: inorder s ++ after k2 /\ plug k t = plug k2 (T x t' b s) /\ (length k2 < length k)%nat.
Proof.
  induction k as [|[d x a s] k IH]; intros fuel t Nt Hf D H1 H2; (destruct fuel as [|fuel]; [cbn [length] in Hf; lia|]); cbn [seg_climb]; unfold ld; rewrite H1; cbn [cpar length crep] in *.
  - left. auto.
  - assert (Na : (a =? NULL) = false) by (apply Z.eqb_neq; intros ->; specialize (D NULL); cbn [cntk] in D; unfold NULL in D; rewrite !ind_refl in D; lia). rewrite Na.
    destruct H2 as (C1 & C2 & C3 & C4 & C5 & C6). destruct d; cbn [side opp after] in *.
    + rewrite C3. assert (Ns : (addr s =? addr t) = false).
      { apply Z.eqb_neq. intros E0. destruct t as [|y l b r]; [congruence|]. specialize (D b). cbn [addr cnt cntk] in *. rewrite ind_refl in D.
        destruct s; cbn [addr cnt] in *; subst b; rewrite ind_refl in D; lia. }
      rewrite Ns. right. exists k, x, t, a, s. conj; [reflexivity|reflexivity|reflexivity|lia].
    + rewrite C2, Z.eqb_refl. change a with (addr (up (F R x a s) t)).
      destruct (IH fuel (up (F R x a s) t)) as [[A B]|(k2 & x' & t' & b & s' & A & B & C & L0)].
      * discriminate.
      * lia.
      * intros z. specialize (D z). cbn [up cnt cntk] in *. lia.
      * exact C1.
      * exact C6.
      * left. auto.
      * right. exists k2, x', t', b, s'. conj; [exact A|exact B|exact C|lia].
Qed.
Lemma by_start_plug (k : uctx) x l a r : by_start (inorder (plug k (T x l a r))) -> by_start (inorder r ++ after k) /\ forall y, In y (inorder r ++ after k) -> sta a <= sta y.
Proof.
  intros H. rewrite inorder_plug in H. destruct (by_start_app _ _ H) as (_ & H1 & _). cbn [inorder] in H1. rewrite <- app_assoc in H1. destruct (by_start_app _ _ H1) as (_ & H2 & _).
  rewrite <- app_comm_cons in H2. apply StronglySorted_inv in H2. destruct H2 as [H2 H3]. split; [exact H2|]. rewrite Forall_forall in H3. exact H3.
Qed.
Lemma next_loop_ok m t0 : tree_at U rt m t0 -> aug 0 m t0 -> by_start (inorder t0) -> forall fuel (k : uctx) x l a r, (size t0 + length k < fuel)%nat -> plug k (T x l a r) = t0 ->
  seg_next_loop fuel m a (addr r) qs qe = Some (hd 0 (filter meets (inorder r ++ after k))).
Proof.
  intros HT HA Hs. induction fuel as [|fuel IH]; intros k x l a r Hf E0; [lia|]. cbn [seg_next_loop].
  pose proof HT as HF. rewrite <- E0 in HF. apply tree_at_focus in HF. destruct HF as (Hk & Hr & D). cbn [rep addr] in *. destruct Hr as (R1 & R2 & R3 & _ & R4 & R5).
  pose proof HA as HB. rewrite <- E0 in HB. apply aug_plug in HB. destruct HB as [HB HK]. cbn [SegProofs.aug] in HB. destruct HB as (A1 & A2 & A3 & _ & Al & Ar).
  pose proof Hs as Hs'. rewrite <- E0 in Hs'. apply by_start_plug in Hs'. destruct Hs' as [Hs1 Hs2]. assert (D0 := D 0). cbn [cnt] in D0. rewrite ind_refl in D0.
  assert (Hgo : (if negb (addr r =? NULL) then match m (addr r) SUBTREE with Some s => Some (s >=? qs) | None => None end else Some false) = Some (negb (addr r =? NULL) && (top r >=? qs))).
  { destruct r as [|y ll b lr]; [reflexivity|]. rewrite (nzb (T y ll b lr)) by (try discriminate; lia). cbn [negb andb]. rewrite sub_read by (try discriminate; try assumption; lia). reflexivity. }
  unfold ld. rewrite Hgo. destruct (negb (addr r =? NULL) && (top r >=? qs)) eqn:B.
  - apply andb_true_iff in B. destruct B as [B1 B2]. rewrite Z.geb_leb in B2. apply Z.leb_le in B2. assert (Nr : r <> E) by (intros ->; discriminate B1).
    destruct (top_ex 0 m r Ar Nr) as (b & Hb & Eb). rewrite (commit (inorder r) (after k) b Hs1 Hb) by lia. apply (search_ok m r fuel a); try assumption; try lia.
    + pose proof (size_plug k (T x l a r)). rewrite E0 in H. cbn [size] in H. lia.
    + apply (by_start_app _ _ Hs1).
  - assert (Hlow : filter meets (inorder r) = []).
    { apply none_low. intros b Hb. pose proof (top_le r b Hb). destruct r as [|y ll c lr]; [destruct Hb|]. rewrite (nzb (T y ll c lr)) in B by (try discriminate; lia). cbn [negb andb] in B. rewrite Z.geb_leb in B. apply Z.leb_gt in B. lia. }
    rewrite filter_app, Hlow. cbn [app].
    assert (Nt : T x l a r <> E) by discriminate.
    destruct (seg_climb_ok m k (S fuel) (T x l a r) Nt) as [[C1 C2]|(k2 & x' & t' & b & s & C1 & C2 & C3 & C4)]; try assumption; [lia| |].
    + change (addr (T x l a r)) with a in C2. rewrite C2, C1. reflexivity.
    + change (addr (T x l a r)) with a in C1. rewrite C1, C2. cbn [filter].
      pose proof HA as HB'. rewrite <- E0, C3 in HB'. apply aug_plug in HB'. destruct HB' as [HB' _]. cbn [SegProofs.aug] in HB'. destruct HB' as (A1' & A2' & _).
      pose proof Hs as Hs'. rewrite <- E0, C3 in Hs'. apply by_start_plug in Hs'. destruct Hs' as [Hs3 Hs4].
      rewrite A1'. destruct (Z.ltb_spec qe (sta b)) as [B1|B1].
      * assert (Hm : meets b = false) by (unfold meets; rewrite (proj2 (Z.leb_gt (sta b) qe) B1); reflexivity). rewrite Hm. rewrite none_high; [reflexivity|]. intros c Hc. specialize (Hs4 c Hc). lia.
      * rewrite A2'. destruct (Z.leb_spec qs (en b)) as [B2|B2].
        -- assert (Hm : meets b = true) by (unfold meets; apply andb_true_iff; split; apply Z.leb_le; assumption). rewrite Hm. reflexivity.
        -- assert (Hm : meets b = false) by (unfold meets; rewrite (proj2 (Z.leb_gt qs (en b)) B2), andb_false_r; reflexivity). rewrite Hm. apply (IH k2 x' t' b s); [lia|]. rewrite <- C3. exact E0.
Qed.
Theorem seg_next_ok m t0 fuel l1 a l2 : tree_at U rt m t0 -> aug 0 m t0 -> by_start (inorder t0) -> (2 * size t0 < fuel)%nat -> inorder t0 = l1 ++ a :: l2 ->
  seg_next fuel m qs qe a = Some (hd 0 (filter meets l2)).
Proof.
  intros HT HA Hs Hf Ho. assert (Hin : In a (inorder t0)) by (rewrite Ho; apply in_or_app; right; left; reflexivity). apply cnt_pos_in in Hin. destruct (find_ctx a t0 Hin) as (k & x & l & r & E0).
  assert (ND := at_nodup U rt m t0 HT). assert (E1 : l1 = before k ++ inorder l /\ l2 = inorder r ++ after k).
  { apply (nodup_split _ _ _ _ a); [rewrite <- Ho; exact ND|]. rewrite <- Ho, E0, inorder_plug. cbn [inorder]. rewrite <- !app_assoc. reflexivity. }
  destruct E1 as [_ ->]. pose proof HT as HF. rewrite E0 in HF. apply tree_at_focus in HF. destruct HF as (_ & Hr & _). cbn [rep] in Hr. destruct Hr as (_ & _ & R3 & _). unfold seg_next, ld. rewrite R3.
  apply (next_loop_ok m t0 HT HA Hs fuel k x l a r); [|symmetry; exact E0]. pose proof (size_plug k (T x l a r)). rewrite <- E0 in H. lia.
Qed.
(** [bfdev_segtree_for_each] visits exactly the intervals that meet the query, in the order of the tree. *)
Theorem seg_each_ok m t fuel : (2 * size t < fuel)%nat -> tree_at U rt m t -> m rt LEFTMOST = Some (hd 0 (inorder t)) -> aug 0 m t -> by_start (inorder t) ->
  exists p, seg_first fuel m rt qs qe = Some p /\ visit (seg_next fuel m qs qe) fuel p = Some (filter meets (inorder t)).
Proof.
  intros Hf HT HL HA Hs. exists (hd 0 (filter meets (inorder t))). split; [apply seg_first_ok; try assumption; lia|].
  assert (G : forall l2 l1 f, inorder t = l1 ++ l2 -> (length l2 < f)%nat -> visit (seg_next fuel m qs qe) f (hd 0 (filter meets l2)) = Some (filter meets l2)).
  { induction l2 as [|a l2 IH]; intros l1 f E0 Hl; (destruct f as [|f]; [cbn [length] in Hl; lia|]); cbn [length] in *; [reflexivity|]. cbn [filter].
    assert (E1 : inorder t = (l1 ++ [a]) ++ l2) by (rewrite <- app_assoc; exact E0). destruct (meets a) eqn:M.
    - cbn [hd visit]. assert (Na : (a =? NULL) = false).
      { apply Z.eqb_neq. intros ->. assert (H0 := uzero rt [] t (proj2 (proj2 HT))). apply cnt_zero_in in H0. apply H0. rewrite E0. apply in_or_app. right. left. reflexivity. }
      rewrite Na. rewrite (seg_next_ok m t fuel l1 a l2 HT HA Hs Hf E0). rewrite (IH (l1 ++ [a]) f E1) by lia. reflexivity.
    - apply (IH (l1 ++ [a]) (S f) E1). lia. }
  apply (G (inorder t) [] fuel); [reflexivity|]. rewrite <- size_inorder. lia.
Qed.
End Query.
End Seg.
