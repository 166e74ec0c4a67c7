From Verif Require Import Lib BitsModel CreateModel CreateSpec.

Lemma wf_perm l l' : Permutation l l' -> wf l -> wf l'.
Proof.
  intros P (A & B & C). pose proof (Permutation_sym P) as P'. split; [|split].
  - apply (Permutation_NoDup (l := map fst l)); [apply Permutation_map, P|exact A].
  - intros x y Hx Hy. apply B; apply (Permutation_in _ P'); assumption.
  - intros x Hx. apply C, (Permutation_in _ P'), Hx.
Qed.
Lemma own_perm m l l' : Permutation l l' -> own m l -> own m l'.
Proof. intros P [A B]. split; [rewrite A; exact P|exact (wf_perm _ _ P B)]. Qed.
Lemma own_live m l : own m l -> wf (live m).
Proof. intros [A B]. apply (wf_perm l); [symmetry; exact A|exact B]. Qed.
Lemma wf_cons x l : wf (x :: l) -> wf l /\ (forall y, In y l -> apart x y) /\ 0 < fst x /\ 0 < snd x.
Proof.
  intros (A & B & C). cbn [map] in A. apply NoDup_cons_iff in A. destruct A as [A1 A2]. split; [|split].
  - split; [exact A2|]. split; [intros u v Hu Hv; apply B; cbn; auto|intros u Hu; apply C; cbn; auto].
  - intros y Hy. apply B; cbn; auto. intros <-. apply A1, in_map, Hy.
  - apply C. cbn; auto.
Qed.
Lemma apart_sym x y : apart x y -> apart y x.
Proof. unfold apart. tauto. Qed.
Lemma wf_split a b x y : wf (a ++ b) -> In x a -> In y b -> apart x y.
Proof.
  induction a as [|z a IH]; intros W Hx Hy; [destruct Hx|]. apply wf_cons in W. destruct W as (W & K & _).
  destruct Hx as [<- | Hx]; [apply K, in_or_app; auto|apply IH; assumption].
Qed.
Lemma inside_ok m l x a : own m l -> In x l -> fst x <= a -> a + 8 <= fst x + snd x -> inside (live m) a = true.
Proof.
  intros [P _] Hx A B. unfold inside. apply existsb_exists. exists x. split; [apply (Permutation_in _ (Permutation_sym P)), Hx|].
  apply andb_true_intro. split; apply Z.leb_le; assumption.
Qed.
Lemma get_ok m l x a : own m l -> In x l -> fst x <= a -> a + 8 <= fst x + snd x -> get m a = Some (cell m a).
Proof. intros O Hx A B. unfold get. rewrite (inside_ok _ _ _ _ O Hx A B). reflexivity. Qed.
Definition setc (m : rmem) (a v : Z) : rmem := {| live := live m; cell := fun x => if x =? a then v else cell m x; tick := tick m |}.
Lemma put_ok m l x a v : own m l -> In x l -> fst x <= a -> a + 8 <= fst x + snd x -> put m a v = Some (setc m a v).
Proof. intros O Hx A B. unfold put. rewrite (inside_ok _ _ _ _ O Hx A B). reflexivity. Qed.
Lemma setc_same m a v : cell (setc m a v) a = v.
Proof. cbn. rewrite Z.eqb_refl. reflexivity. Qed.
Lemma setc_other m a v b : b <> a -> cell (setc m a v) b = cell m b.
Proof. intros H. cbn. rewrite (proj2 (Z.eqb_neq _ _) H). reflexivity. Qed.
Lemma own_setc m a v l : own (setc m a v) l <-> own m l.
Proof. reflexivity. Qed.
Lemma drop_block_ok p : forall l s, NoDup (map fst l) -> In (p, s) l -> exists l', drop_block p l = Some l' /\ Permutation l ((p, s) :: l').
Proof.
  induction l as [|[b t] l IH]; intros s N H; [destruct H|]. cbn [map fst] in N. apply NoDup_cons_iff in N. destruct N as [N1 N2]. cbn [drop_block].
  destruct (Z.eqb_spec b p) as [-> | Hb].
  - exists l. split; [reflexivity|]. destruct H as [H | H]; [injection H as <-; reflexivity|]. exfalso. apply N1. apply (in_map fst) in H. exact H.
  - destruct H as [H | H]; [congruence|]. destruct (IH s N2 H) as (l' & E & P). rewrite E. exists ((b, t) :: l'). split; [reflexivity|].
    rewrite P. apply perm_swap.
Qed.
Lemma free_ok m p s l : own m ((p, s) :: l) -> exists m', free m p = Some m' /\ own m' l /\ cell m' = cell m.
Proof.
  intros O. pose proof O as [P W]. destruct (wf_cons _ _ W) as (W' & _ & Hp & _). cbn [fst] in Hp. unfold free.
  rewrite (proj2 (Z.eqb_neq p 0)) by lia.
  destruct (drop_block_ok p (live m) s) as (l' & E & Q); [apply (own_live _ _ O)|apply (Permutation_in _ (Permutation_sym P)); cbn; auto|].
  rewrite E. eexists. split; [reflexivity|]. split; [|reflexivity]. split; [|exact W']. cbn [live].
  apply (Permutation_cons_inv (a := (p, s))). rewrite <- Q. exact P.
Qed.

Section Proofs.
Variable ask : nat -> rmem -> Z -> option Z.
Hypothesis Honest : honest ask.

Lemma zalloc_ok m size l : own m l -> 0 < size -> exists p m', zalloc ask m size = (p, m') /\
  ((p = 0 /\ own m' l /\ cell m' = cell m /\ ~ generous ask) \/ (0 < p /\ own m' ((p, size) :: l) /\ keep l m m')).
Proof.
  intros O S. unfold zalloc. rewrite (proj2 (Z.eqb_neq size 0)) by lia. pose proof O as [P W]. destruct (ask (tick m) m size) as [p|] eqn:E.
  - eexists _, _. split; [reflexivity|]. right. destruct (Honest _ _ _ _ S (own_live _ _ O) E) as [Hp K].
    assert (K' : forall x, In x l -> apart (p, size) x) by (intros x Hx; apply K, (Permutation_in _ (Permutation_sym P)), Hx).
    split; [exact Hp|]. split; [split|].
    + cbn [live]. constructor. exact P.
    + destruct W as (A & B & C). split; [|split].
      * cbn [map fst]. constructor; [|exact A]. intros Hi. apply in_map_iff in Hi. destruct Hi as (x & Ex & Hx). pose proof (K' x Hx) as Q. destruct (C x Hx) as [C1 C2].
        unfold apart in Q. cbn [fst snd] in Q. lia.
      * intros x y [<- | Hx] [<- | Hy] N; [contradiction|apply K', Hy|apply apart_sym, K', Hx|apply B; assumption].
      * intros x [<- | Hx]; [cbn [fst snd]; lia|apply C, Hx].
    + intros x a Hx Ha. cbn [cell]. pose proof (K' x Hx) as Q. unfold apart in Q. cbn [fst snd] in Q.
      destruct (Z.leb_spec p a), (Z.ltb_spec a (p + size)); cbn [andb]; try reflexivity. lia.
  - eexists _, _. split; [reflexivity|]. left. split; [reflexivity|]. split; [exact O|]. split; [reflexivity|]. intros G. exact (G _ _ _ E).
Qed.

Lemma blk_perm k (ns : list Z) p B : Permutation ((p, node_size k) :: map (fun p => (p, node_size k)) ns ++ B) (map (fun p => (p, node_size k)) (ns ++ [p]) ++ B).
Proof. rewrite map_app. cbn [map]. rewrite <- app_assoc. cbn [app]. apply Permutation_middle. Qed.
Lemma zlen_snoc (ns : list Z) p : zlen (ns ++ [p]) = zlen ns + 1.
Proof. unfold zlen. rewrite app_length. cbn [length]. lia. Qed.
Lemma stored_snoc m arr ns p : stored m arr ns -> cell m (arr + 8 * zlen ns) = p -> stored m arr (ns ++ [p]).
Proof.
  intros S E i Hi. rewrite app_length in Hi. cbn [length] in Hi. destruct (Nat.eq_dec i (length ns)) as [-> | Ne].
  - rewrite nth_middle. exact E.
  - rewrite app_nth1 by lia. apply S. lia.
Qed.
Lemma stored_ext m m' arr ns : (forall i, (i < length ns)%nat -> cell m' (arr + 8 * Z.of_nat i) = cell m (arr + 8 * Z.of_nat i)) -> stored m arr ns -> stored m' arr ns.
Proof. intros H S i Hi. rewrite H by exact Hi. apply S, Hi. Qed.

Section Nodes.
Variables (k : algo) (h arr size : Z) (L : list (Z * Z)).
Definition base := (arr, 8 * size) :: (h, head_size k) :: L.
Definition nblk (ns : list Z) := map (fun p => (p, node_size k)) ns.

Lemma hs : head_size k = 184.
Proof. destruct k; reflexivity. Qed.
Lemma ns_pos : 0 < node_size k.
Proof. destruct k; reflexivity. Qed.
Lemma in_h ns : In (h, head_size k) (nblk ns ++ base).
Proof. apply in_or_app. right. cbn; auto. Qed.
Lemma in_arr ns : In (arr, 8 * size) (nblk ns ++ base).
Proof. apply in_or_app. right. cbn; auto. Qed.

Lemma create_nodes_ok : forall n m ns, own m (nblk ns ++ base) -> stored m arr ns -> cell m (h + NODES) = arr -> zlen ns + Z.of_nat n = size ->
  exists ns' m', create_nodes ask k n m h (zlen ns) = Some (zlen ns', m') /\ own m' (nblk ns' ++ base) /\ stored m' arr ns' /\ cell m' (h + NODES) = arr /\
    zlen ns' <= size /\ (generous ask -> zlen ns' = size) /\ keep ((h, head_size k) :: L) m m'.
Proof.
  induction n as [|n IH]; intros m ns O S A Z1.
  - exists ns, m. cbn [create_nodes]. split; [reflexivity|]. repeat (split; [assumption|]). split; [lia|]. split; [lia|]. intros x a _ _. reflexivity.
  - cbn [create_nodes]. destruct (zalloc_ok m (node_size k) _ O ns_pos) as (p & m1 & E & [(-> & O1 & C1 & G) | (Hp & O1 & K1)]); rewrite E.
    + rewrite Z.eqb_refl. exists ns, m1. split; [reflexivity|]. split; [exact O1|]. split; [intros i Hi; rewrite C1; apply S, Hi|]. split; [rewrite C1; exact A|].
      split; [lia|]. split; [intros Gn; contradiction|]. intros x a _ _. rewrite C1. reflexivity.
    + rewrite (proj2 (Z.eqb_neq p 0)) by lia. assert (L0 : 0 <= zlen ns) by (unfold zlen; lia).
      assert (Ki : forall x, In x base -> In x (nblk ns ++ base)) by (intros; apply in_or_app; auto).
      assert (A1 : cell m1 (h + NODES) = arr).
      { rewrite <- A. apply (K1 (h, head_size k)); [apply in_h|]. cbn [fst snd]. rewrite hs. unfold NODES. lia. }
      rewrite (get_ok _ _ (h, head_size k) _ O1); [|right; apply in_h|cbn [fst]; unfold NODES; lia|cbn [fst snd]; rewrite hs; unfold NODES; lia]. rewrite A1.
      rewrite (put_ok _ _ (arr, 8 * size) _ _ O1); [|right; apply in_arr|cbn [fst]; lia|cbn [fst snd]; lia].
      set (m2 := setc m1 (arr + 8 * zlen ns) p).
      assert (W : wf base). { destruct O1 as [_ W]. apply wf_cons in W. destruct W as [W _]. clear - W. induction (nblk ns) as [|z u IH]; [exact W|]. cbn [app] in W. apply wf_cons in W. apply IH, W. }
      assert (D : forall x, In x ((h, head_size k) :: L) -> apart (arr, 8 * size) x). { apply (wf_cons _ _ W). }
      assert (D2 : forall x a, In x ((h, head_size k) :: L) -> fst x <= a < fst x + snd x -> a <> arr + 8 * zlen ns).
      { intros x a Hx Ha. pose proof (D x Hx) as Q. unfold apart in Q. cbn [fst snd] in Q. lia. }
      assert (K2 : keep ((h, head_size k) :: L) m m2).
      { intros x a Hx Ha. unfold m2. rewrite setc_other by (apply (D2 x); assumption). apply (K1 x); [apply Ki; right; exact Hx|exact Ha]. }
      destruct (IH m2 (ns ++ [p])) as (ns' & m' & E' & O' & S' & A' & Q1 & Q2 & K').
      * apply (own_perm _ _ _ (blk_perm k ns p base)). exact O1.
      * apply stored_snoc; [|apply setc_same]. intros i Hi. unfold m2. rewrite setc_other by (unfold zlen; lia). rewrite (K1 (arr, 8 * size)); [apply S, Hi|apply in_arr|].
        cbn [fst snd]. unfold zlen in *. lia.
      * unfold m2. rewrite setc_other; [exact A1|]. apply (D2 (h, head_size k)); [cbn; auto|]. cbn [fst snd]. rewrite hs. unfold NODES. lia.
      * rewrite zlen_snoc. lia.
      * rewrite zlen_snoc in E'. exists ns', m'. split; [exact E'|]. repeat (split; [assumption|]). intros x a Hx Ha. rewrite (K' x a Hx Ha). apply (K2 x a Hx Ha).
Qed.
Lemma free_down_ok : forall ns m, own m (nblk ns ++ base) -> stored m arr ns -> cell m (h + NODES) = arr -> zlen ns <= size ->
  exists m', free_down (length ns) m h = Some m' /\ own m' base /\ cell m' = cell m.
Proof.
  induction ns as [|p ns IH] using rev_ind; intros m O S A Z1; [exists m; cbn; auto|].
  rewrite app_length. cbn [length]. rewrite Nat.add_1_r. cbn [free_down].
  rewrite (get_ok _ _ (h, head_size k) _ O); [|apply in_h|cbn [fst]; unfold NODES; lia|cbn [fst snd]; rewrite hs; unfold NODES; lia]. rewrite A.
  rewrite zlen_snoc in Z1. unfold zlen in Z1.
  rewrite (get_ok _ _ (arr, 8 * size) _ O); [|apply in_arr|cbn [fst]; lia|cbn [fst snd]; lia].
  rewrite S by (rewrite app_length; cbn; lia). rewrite nth_middle.
  apply (own_perm _ _ _ (Permutation_sym (blk_perm k ns p base))) in O.
  destruct (free_ok _ _ _ _ O) as (m1 & E & O1 & C1). rewrite E.
  destruct (IH m1 O1) as (m' & E' & O' & C'); [|rewrite C1; exact A|unfold zlen; lia|].
  - intros i Hi. rewrite C1. rewrite S by (rewrite app_length; lia). apply app_nth1, Hi.
  - exists m'. rewrite C', C1 in *. auto.
Qed.
Lemma free_up_ok : forall rest pre m n, own m (nblk rest ++ base) -> stored m arr (pre ++ rest) -> cell m (h + NODES) = arr -> cell m (h + SIZE) = size ->
  zlen (pre ++ rest) = size -> (length rest <= n)%nat -> exists m', free_up n m h (zlen pre) = Some m' /\ own m' base /\ cell m' = cell m.
Proof.
  induction rest as [|p rest IH]; intros pre m n O S A Sz Z1 F.
  - rewrite app_nil_r in Z1. exists m. split; [|auto].
    destruct n; cbn [free_up]; (rewrite (get_ok _ _ (h, head_size k) _ O); [|apply in_h|cbn [fst]; unfold SIZE; lia|cbn [fst snd]; rewrite hs; unfold SIZE; lia]); rewrite Sz, Z1, Z.ltb_irrefl; reflexivity.
  - destruct n as [|n]; [cbn in F; lia|]. cbn [free_up].
    rewrite (get_ok _ _ (h, head_size k) _ O); [|apply in_h|cbn [fst]; unfold SIZE; lia|cbn [fst snd]; rewrite hs; unfold SIZE; lia]. rewrite Sz.
    assert (Zp : 0 <= zlen pre < size) by (rewrite <- Z1; unfold zlen; rewrite app_length; cbn [length]; lia).
    rewrite (proj2 (Z.ltb_lt _ _)) by lia.
    rewrite (get_ok _ _ (h, head_size k) _ O); [|apply in_h|cbn [fst]; unfold NODES; lia|cbn [fst snd]; rewrite hs; unfold NODES; lia]. rewrite A.
    rewrite (get_ok _ _ (arr, 8 * size) _ O); [|apply in_arr|cbn [fst]; lia|cbn [fst snd]; lia].
    unfold zlen at 1. rewrite S by (rewrite app_length; cbn; lia). rewrite nth_middle. cbn [nblk map app] in O.
    destruct (free_ok _ _ _ _ O) as (m1 & E & O1 & C1). rewrite E.
    replace (zlen pre + 1) with (zlen (pre ++ [p])) by (rewrite zlen_snoc; reflexivity).
    destruct (IH (pre ++ [p]) m1 n O1) as (m' & E' & O' & C'); rewrite <- ?app_assoc, ?C1; try assumption; [|cbn in F; lia|].
    + intros i Hi. rewrite C1. apply S, Hi.
    + exists m'. rewrite C', C1 in *. auto.
Qed.
End Nodes.
End Proofs.
