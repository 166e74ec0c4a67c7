(** * C127: sorting and searching with any comparison function, and how often it is called *)
From Verif Require Import Lib SortModel SortSpec SortProofs SortCallsModel.
From Coq Require Import Sorting.Permutation.
Ltac Zify.zify_post_hook ::= Z.div_mod_to_equations.

(** [y] is a descendant of [i], [d] levels below *)
Inductive below (i : Z) : Z -> nat -> Prop :=
| below_here : below i i 0
| below_child y d c : below i y d -> (c = 2 * y + 1 \/ c = 2 * y + 2) -> below i c (S d).
Lemma below_ge i y d : 0 <= i -> below i y d -> i <= y /\ 2 ^ Z.of_nat d <= y + 1.
Proof.
  intros Hi. induction 1 as [|y d c B (IH1 & IH2) C]; [cbn; lia|]. rewrite Nat2Z.inj_succ, Z.pow_succ_r by lia. lia.
Qed.
Lemma below_depth i y d sz : 0 <= i -> below i y d -> y < sz -> Z.of_nat d <= Z.log2 sz.
Proof.
  intros Hi B Hy. destruct (below_ge i y d Hi B) as [H1 H2]. apply Z.log2_le_pow2; lia.
Qed.
Section Heap.
Context {A : Type}.
Variable orc : calls A -> A -> A -> Z.
Variable cells : Z.
Hypothesis Hc : 0 < cells.
Hypothesis Hm : cells mod 2 ^ 32 <> 0.
Variable N : Z.
Hypothesis HN : N * cells < 2 ^ 63.
Variable P : A -> Prop.
Let lsbit := Z.land cells (w64 (- cells)).
(** an array of [N] elements that all satisfy [P] *)
Definition full (arr : list A) : Prop := zlen arr = N /\ Forall P arr.
Definition seen (tr : calls A) : Prop := Forall (fun c => P (fst c) /\ P (snd c)) tr.
Lemma full_get arr x : full arr -> 0 <= x < N -> exists v, at_ cells arr (x * cells) = Some v /\ P v.
Proof.
  intros [L F] Hx. rewrite (at_off cells Hc). destruct (rd_some A arr x) as [v E]; [lia|]. exists v. split; [exact E|]. rewrite Forall_forall in F. apply F. eapply rd_in, E.
Qed.
Lemma full_swap arr a b : full arr -> 0 <= a < N -> 0 <= b < N -> exists arr', sort_swap cells arr (a * cells) (b * cells) = Some arr' /\ Permutation arr arr' /\ full arr'.
Proof.
  intros [L F] Ha Hb. destruct arr as [|d0 arr0]; [unfold zlen in L; cbn in L; lia|]. set (arr := d0 :: arr0) in *.
  assert (R : rep arr N (fun x => nth (Z.to_nat x) arr d0)).
  { split; [exact L|]. intros x Hx. unfold rd. destruct (Z.ltb_spec x 0); [lia|]. apply nth_error_nth'. unfold zlen in L. lia. }
  destruct (rep_swap cells Hc Hm arr N _ a b R Ha Hb) as (arr' & E & Pm & L' & _). exists arr'. split; [exact E|]. split; [exact Pm|]. split; [exact L'|]. exact (Permutation_Forall Pm F).
Qed.
Section Sift.
Variables (sz i : Z) (arr : list A).
Hypothesis Hr : full arr.
Hypothesis Hsz : sz <= N.
Hypothesis Hi : 0 <= i < sz.
Lemma descend_o_ok : forall fuel tr y d, below i y d -> y < sz -> sz - y < Z.of_nat fuel -> seen tr ->
  exists z e tr', descend_o orc cells fuel tr arr (sz * cells) (y * cells) = Some (z * cells, tr') /\ below i z e /\ z < sz /\ (length tr' + d <= length tr + e)%nat /\ seen tr'.
Proof.
  induction fuel as [|fuel IH]; intros tr y d B Hy Hf Sn; [lia|]. cbn [descend_o]. destruct (below_ge i y d (proj1 Hi) B) as [Hge _].
  assert (E3 : w64 (2 * (y * cells) + cells) = (2 * y + 1) * cells) by (rewrite w64_small; nia).
  rewrite E3. assert (E4 : w64 ((2 * y + 1) * cells + cells) = (2 * y + 2) * cells) by (rewrite w64_small; nia).
  rewrite E4. destruct (Z.ltb_spec ((2 * y + 2) * cells) (sz * cells)) as [L|L].
  - assert (L' : 2 * y + 2 < sz) by nia. destruct (full_get arr (2 * y + 1) Hr) as (u & -> & Pu); [lia|]. destruct (full_get arr (2 * y + 2) Hr) as (v & -> & Pv); [lia|].
    assert (Go : forall c, c = 2 * y + 1 \/ c = 2 * y + 2 -> exists z e tr', descend_o orc cells fuel ((u, v) :: tr) arr (sz * cells) (c * cells) = Some (z * cells, tr') /\ below i z e /\ z < sz /\ (length tr' + d <= length tr + e)%nat /\ seen tr').
    { intros c Hch. destruct (IH ((u, v) :: tr) c (S d)) as (z & e & tr' & E & B' & Hz & Cn & Sn'); [econstructor; eassumption|lia|lia|constructor; [cbn; auto|exact Sn]|].
      exists z, e, tr'. split; [exact E|]. split; [exact B'|]. split; [exact Hz|]. split; [cbn [length] in Cn; lia|exact Sn']. }
    destruct (0 <=? orc tr u v); apply Go; auto.
  - assert (L' : sz <= 2 * y + 2) by nia. destruct (Z.eqb_spec ((2 * y + 2) * cells) (sz * cells)) as [E|E].
    + exists (2 * y + 1), (S d), tr. split; [reflexivity|]. split; [econstructor; [exact B|auto]|]. split; [nia|]. split; [lia|exact Sn].
    + exists y, d, tr. split; [reflexivity|]. split; [exact B|]. split; [exact Hy|]. split; [lia|exact Sn].
Qed.
Lemma below_parent y d : below i y (S d) -> below i ((y - 1) / 2) d /\ i < y.
Proof.
  intros B. inversion B as [|y' d' c B' Hch]; subst. destruct (below_ge i y' d (proj1 Hi) B') as [Hg _]. replace ((y - 1) / 2) with y' by lia. split; [exact B'|lia].
Qed.
Lemma below_zero y : below i y 0 -> y = i.
Proof. intros B. inversion B. reflexivity. Qed.
Lemma climb_o_ok : forall e fuel tr z, below i z e -> z < sz -> (e < fuel)%nat -> seen tr ->
  exists k x tr', climb_o orc cells fuel tr arr lsbit (i * cells) (z * cells) = Some (x * cells, tr') /\ below i x k /\ x < sz /\ (k <= e)%nat /\ (length tr' <= length tr + e)%nat /\ seen tr'.
Proof.
  induction e as [|e IH]; intros fuel tr z B Hz Hf Sn; (destruct fuel as [|fuel]; [lia|]); cbn [climb_o].
  - rewrite (below_zero z B), Z.eqb_refl. exists O, i, tr. split; [reflexivity|]. split; [constructor|]. split; [lia|]. split; [lia|]. split; [lia|exact Sn].
  - destruct (below_parent z e B) as [B' Hlt]. destruct (Z.eqb_spec (i * cells) (z * cells)); [nia|].
    destruct (full_get arr i Hr) as (u & -> & Pu); [lia|]. destruct (full_get arr z Hr) as (v & -> & Pv); [lia|].
    assert (Sn' : seen ((u, v) :: tr)) by (constructor; [cbn; auto|exact Sn]).
    destruct (0 <=? orc tr u v).
    + unfold lsbit. rewrite parent_at; [|nia|exact Hm|lia|nia]. fold lsbit. destruct (below_ge i _ e (proj1 Hi) B') as [Hg _].
      destruct (IH fuel ((u, v) :: tr) ((z - 1) / 2) B' ltac:(lia) ltac:(lia) Sn') as (k & x & tr' & E & Bk & Hx & Kl & Cn & S2).
      exists k, x, tr'. split; [exact E|]. split; [exact Bk|]. split; [exact Hx|]. split; [lia|]. split; [cbn [length] in Cn; lia|exact S2].
    + exists (S e), z, ((u, v) :: tr). split; [reflexivity|]. split; [exact B|]. split; [exact Hz|]. split; [lia|]. split; [cbn [length]; lia|exact Sn'].
Qed.
Lemma rotate_any : forall k fuel ar x top, below i x k -> x < sz -> 0 <= top < N -> (k < fuel)%nat -> full ar ->
  exists ar', rotate cells fuel ar lsbit (i * cells) (x * cells) (top * cells) = Some ar' /\ Permutation ar ar' /\ full ar'.
Proof.
  induction k as [|k IH]; intros fuel ar x top B Hx Ht Hf Fl; (destruct fuel as [|fuel]; [lia|]); cbn [rotate].
  - rewrite (below_zero x B), Z.eqb_refl. exists ar. auto.
  - destruct (below_parent x k B) as [B' Hlt]. destruct (Z.eqb_spec (i * cells) (x * cells)); [nia|].
    unfold lsbit. rewrite parent_at; [|nia|exact Hm|lia|nia]. fold lsbit. destruct (below_ge i _ k (proj1 Hi) B') as [Hg _].
    destruct (full_swap ar ((x - 1) / 2) top Fl ltac:(lia) Ht) as (a1 & E1 & P1 & F1). rewrite E1.
    destruct (IH fuel a1 ((x - 1) / 2) top B' ltac:(lia) Ht ltac:(lia) F1) as (a2 & E2 & P2 & F2). exists a2. split; [exact E2|]. split; [eapply Permutation_trans; eassumption|exact F2].
Qed.
Lemma sift_o_ok fuel tr : sz < Z.of_nat fuel -> seen tr ->
  exists ar tr', sift_o orc cells fuel tr arr lsbit (sz * cells) (i * cells) = Some (ar, tr') /\ Permutation arr ar /\ full ar /\ seen tr' /\
    Z.of_nat (length tr') <= Z.of_nat (length tr) + 2 * Z.log2 sz.
Proof.
  intros Hf Sn. unfold sift_o. destruct (descend_o_ok fuel tr i 0 (below_here i) (proj2 Hi) ltac:(lia) Sn) as (z & e & t1 & -> & B1 & Hz & C1 & S1).
  assert (De := below_depth i z e sz (proj1 Hi) B1 Hz). destruct (below_ge i z e (proj1 Hi) B1) as [_ Pe].
  assert (Le : Z.of_nat e < sz). { pose proof (Z.pow_gt_lin_r 2 (Z.of_nat e)). lia. }
  destruct (climb_o_ok e fuel t1 z B1 Hz ltac:(lia) S1) as (k & x & t2 & -> & B2 & Hx & Kl & C2 & S2).
  destruct (below_ge i x k (proj1 Hi) B2) as [Gx _]. destruct (rotate_any k fuel arr x x B2 Hx ltac:(lia) ltac:(lia) Hr) as (ar & -> & Pm & Fl).
  exists ar, t2. split; [reflexivity|]. split; [exact Pm|]. split; [exact Fl|]. split; [exact S2|]. lia.
Qed.
End Sift.
Variable fuel : nat.
Hypothesis Hf : N < Z.of_nat fuel.
Lemma phase2_o : forall s n tr arr, (1 <= s)%nat -> (s <= n)%nat -> Z.of_nat s <= N -> full arr -> seen tr ->
  exists arr' tr', sort_loop_o orc cells fuel n tr arr lsbit (Z.of_nat s * cells) 0 = Some (arr', tr') /\ Permutation arr arr' /\ seen tr' /\
    Z.of_nat (length tr') <= Z.of_nat (length tr) + 2 * Z.log2 N * (Z.of_nat s - 1).
Proof.
  induction s as [|s IH]; intros n tr arr Hs Hn HsN Hr Sn; [lia|]. destruct n as [|n]; [lia|]. cbn [sort_loop_o Z.eqb negb].
  replace (w64 (Z.of_nat (S s) * cells - cells)) with (Z.of_nat s * cells) by (rewrite w64_small; nia).
  destruct (Z.eqb_spec (Z.of_nat s * cells) 0) as [E|E]; cbn [negb].
  - assert (s = O) by nia. subst s. exists arr, tr. split; [reflexivity|]. split; [apply Permutation_refl|]. split; [exact Sn|]. change (Z.of_nat 1 - 1) with 0. lia.
  - assert (1 <= s)%nat by nia.
    destruct (full_swap arr 0 (Z.of_nat s) Hr) as (a1 & S1 & P1 & R1); [lia|lia|]. rewrite Z.mul_0_l in S1. rewrite S1.
    destruct (sift_o_ok (Z.of_nat s) 0 a1 R1 ltac:(lia) ltac:(lia) fuel tr ltac:(lia) Sn) as (a2 & t2 & E2 & P2 & R2 & Sn2 & C2). rewrite Z.mul_0_l in E2. rewrite E2.
    destruct (IH n t2 a2 ltac:(lia) ltac:(lia) ltac:(lia) R2 Sn2) as (a3 & t3 & E3 & P3 & S3 & C3). rewrite E3.
    exists a3, t3. split; [reflexivity|]. split; [eapply Permutation_trans; [exact P1|eapply Permutation_trans; eassumption]|]. split; [exact S3|].
    assert (Z.log2 (Z.of_nat s) <= Z.log2 N) by (apply Z.log2_le_mono; lia). clear - C2 C3 H0. nia.
Qed.
Lemma phase1_o : forall k n tr arr, 1 <= N -> Z.of_nat k <= N / 2 -> Z.of_nat k + N <= Z.of_nat n -> full arr -> seen tr ->
  exists arr' tr', sort_loop_o orc cells fuel n tr arr lsbit (N * cells) (Z.of_nat k * cells) = Some (arr', tr') /\ Permutation arr arr' /\ seen tr' /\
    Z.of_nat (length tr') <= Z.of_nat (length tr) + 2 * Z.log2 N * (Z.of_nat k + N - 1).
Proof.
  induction k as [|k IH]; intros n tr arr H1 Hk Hn Hr Sn.
  - change (Z.of_nat 0) with 0. rewrite Z.mul_0_l. destruct (phase2_o (Z.to_nat N) n tr arr) as (a & t & E & P' & S' & C'); [lia|lia|lia|exact Hr|exact Sn|].
    rewrite Z2Nat.id in * by lia. exists a, t. split; [exact E|]. split; [exact P'|]. split; [exact S'|]. replace (0 + N - 1) with (N - 1) by lia. exact C'.
  - destruct n as [|n]; [lia|]. cbn [sort_loop_o]. destruct (Z.eqb_spec (Z.of_nat (S k) * cells) 0); [nia|]. cbn [negb].
    replace (w64 (Z.of_nat (S k) * cells - cells)) with (Z.of_nat k * cells) by (rewrite w64_small; nia).
    destruct (sift_o_ok N (Z.of_nat k) arr Hr ltac:(lia) ltac:(lia) fuel tr ltac:(lia) Sn) as (a2 & t2 & E2 & P2 & R2 & S2 & C2). rewrite E2.
    destruct (IH n t2 a2 H1 ltac:(lia) ltac:(lia) R2 S2) as (a3 & t3 & E3 & P3 & S3 & C3). rewrite E3.
    exists a3, t3. split; [reflexivity|]. split; [eapply Permutation_trans; eassumption|]. split; [exact S3|]. clear - C2 C3. nia.
Qed.
End Heap.

(** Whatever the comparison function answers - also when it contradicts itself - the sort ends, stays inside the array, only
    moves elements, shows the function only elements of the array, and calls it at most 3 n log2 n times. *)
Theorem C127_sort_any : forall A (orc : calls A -> A -> A -> Z) cells arr, 0 < cells -> cells mod 2 ^ 32 <> 0 -> 2 <= zlen arr -> zlen arr * cells < 2 ^ 63 ->
  exists arr' tr, heap_sort_o orc cells [] arr = Some (- ENOERR, arr', tr) /\ Permutation arr arr' /\
    (forall x y, In (x, y) tr -> In x arr /\ In y arr) /\ zlen tr <= 3 * zlen arr * Z.log2 (zlen arr).
Proof.
  intros A orc cells arr Hc Hm H2 HN. unfold heap_sort_o. rewrite Z.shiftr_div_pow2 by lia. change (2 ^ 1) with 2.
  assert (H0 : 0 < zlen arr / 2) by lia. rewrite (w64_small (zlen arr / 2 * cells)) by nia.
  destruct (Z.eqb_spec (zlen arr / 2 * cells) 0); [nia|]. rewrite (w64_small (zlen arr * cells)) by nia.
  destruct (phase1_o orc cells Hc Hm (zlen arr) HN (fun x => In x arr) (S (length arr)) ltac:(unfold zlen; lia) (Z.to_nat (zlen arr / 2)) (S (length arr) + S (length arr)) [] arr) as (a & t & E & P' & S' & C').
  - lia.
  - lia.
  - unfold zlen in *. lia.
  - split; [reflexivity|]. apply Forall_forall. auto.
  - constructor.
  - rewrite Z2Nat.id in * by lia. rewrite E. exists a, t. split; [reflexivity|]. split; [exact P'|]. split.
    + intros x y I. unfold seen in S'. rewrite Forall_forall in S'. apply (S' (x, y) I).
    + unfold zlen at 1. cbn [length] in C'. assert (0 <= Z.log2 (zlen arr)) by apply Z.log2_nonneg. revert C' H. generalize (Z.log2 (zlen arr)). intros g C' H.
      assert (Q : 2 * (zlen arr / 2 + zlen arr - 1) <= 3 * zlen arr) by lia. clear - C' H Q. nia.
Qed.
(** With an ordinary comparison function this is the sort of C35. *)
Theorem C127_sort_same : forall A (cmp : A -> A -> Z) cells arr,
  option_map fst (heap_sort_o (fun _ => cmp) cells [] arr) = heap_sort cmp cells arr.
Proof.
  intros A cmp cells arr.
  assert (D : forall fuel tr ar size i, option_map fst (descend_o (fun _ => cmp) cells fuel tr ar size i) = descend cmp cells fuel ar size i).
  { induction fuel as [|fuel IH]; intros tr ar size i; [reflexivity|]. cbn [descend_o descend]. destruct (_ <? size); [|reflexivity]. destruct (at_ cells ar _); [|reflexivity]. destruct (at_ cells ar _); [|reflexivity]. apply IH. }
  assert (C : forall fuel tr ar ls i j, option_map fst (climb_o (fun _ => cmp) cells fuel tr ar ls i j) = climb cmp cells fuel ar ls i j).
  { induction fuel as [|fuel IH]; intros tr ar ls i j; [reflexivity|]. cbn [climb_o climb]. destruct (i =? j); [reflexivity|]. destruct (at_ cells ar i); [|reflexivity]. destruct (at_ cells ar j); [|reflexivity]. destruct (0 <=? _); [apply IH|reflexivity]. }
  assert (S : forall fuel tr ar ls size i, option_map fst (sift_o (fun _ => cmp) cells fuel tr ar ls size i) = sift cmp cells fuel ar ls size i).
  { intros fuel tr ar ls size i. unfold sift_o, sift. rewrite <- (D fuel tr). destruct (descend_o _ cells fuel tr ar size i) as [[z t1]|]; [|reflexivity]. cbn [option_map fst]. rewrite <- (C fuel t1).
    destruct (climb_o _ cells fuel t1 ar ls i z) as [[x t2]|]; [|reflexivity]. cbn [option_map fst]. destruct (rotate cells fuel ar ls i x x); reflexivity. }
  assert (L : forall fuel n tr ar ls size i, option_map fst (sort_loop_o (fun _ => cmp) cells fuel n tr ar ls size i) = sort_loop cmp cells fuel n ar ls size i).
  { intros fuel. induction n as [|n IH]; intros tr ar ls size i; [reflexivity|]. cbn [sort_loop_o sort_loop]. destruct (negb (i =? 0)).
    - rewrite <- (S fuel tr). destruct (sift_o _ cells fuel tr ar ls size _) as [[a t]|]; [|reflexivity]. cbn [option_map fst]. apply IH.
    - destruct (negb _); [|reflexivity]. destruct (sort_swap cells ar 0 _) as [a0|]; [|reflexivity]. rewrite <- (S fuel tr). destruct (sift_o _ cells fuel tr a0 ls _ i) as [[a t]|]; [|reflexivity]. cbn [option_map fst]. apply IH. }
  unfold heap_sort_o, heap_sort. destruct (_ =? 0); [reflexivity|]. rewrite <- (L _ _ []). destruct (sort_loop_o _ cells _ _ [] arr _ _ _) as [[a t]|]; reflexivity.
Qed.
(** The same for the binary search: at most log2 n + 1 calls, each with an element of the array; a position is returned only
    if the function just answered 0 for the element there. *)
Theorem C127_bsearch_any : forall A (find : list A -> A -> Z) esize arr, 0 < esize -> zlen arr < 2 ^ 64 ->
  exists r tr, bsearch_o find esize [] arr = Some (r, tr) /\ (forall x, In x tr -> In x arr) /\ (arr <> [] -> zlen tr <= Z.log2 (zlen arr) + 1) /\ (arr = [] -> tr = []) /\
    match r with Some off => exists k x tr', off = k * esize /\ rd arr k = Some x /\ tr = x :: tr' /\ find tr' x = 0 | None => forall x tr0 tr', tr = tr0 ++ x :: tr' -> find tr' x <> 0 end.
Proof.
  intros A find esize arr He Hn. unfold bsearch_o.
  assert (G : forall fuel b num tr, 0 <= b -> 0 <= num < 2 ^ Z.of_nat fuel -> b + num <= zlen arr -> (forall x, In x tr -> In x arr) -> (forall x tr0 tr', tr = tr0 ++ x :: tr' -> find tr' x <> 0) ->
    exists r tr', bsearch_loop_o find esize fuel tr arr (b * esize) num = Some (r, tr') /\ (forall x, In x tr' -> In x arr) /\ zlen tr' <= zlen tr + (if num =? 0 then 0 else Z.log2 num + 1) /\
      match r with Some off => exists k x tr'', off = k * esize /\ rd arr k = Some x /\ tr' = x :: tr'' /\ find tr'' x = 0 | None => forall x tr0 tr'', tr' = tr0 ++ x :: tr'' -> find tr'' x <> 0 end).
  { induction fuel as [|fuel IH]; intros b num tr Hb Hnum Hl Ht Hnz; cbn [bsearch_loop_o].
    - assert (num = 0) by (change (2 ^ Z.of_nat 0) with 1 in Hnum; lia). subst num. exists None, tr. cbn [Z.eqb]. split; [reflexivity|]. split; [exact Ht|]. split; [lia|exact Hnz].
    - destruct (Z.eqb_spec num 0) as [E0|E0]; [exists None, tr; split; [reflexivity|]; split; [exact Ht|]; split; [lia|exact Hnz]|].
      rewrite Z.shiftr_div_pow2 by lia. change (2 ^ 1) with 2. replace (b * esize + num / 2 * esize) with ((b + num / 2) * esize) by lia. rewrite (at_off esize He).
      destruct (rd_some A arr (b + num / 2)) as [x Ex]; [lia|]. rewrite Ex. assert (Hp : 2 ^ Z.of_nat (S fuel) = 2 * 2 ^ Z.of_nat fuel) by (rewrite Nat2Z.inj_succ, Z.pow_succ_r by lia; reflexivity).
      assert (Hin : In x arr) by (eapply rd_in, Ex).
      assert (Lg : forall k, 0 <= k <= num / 2 -> (if k =? 0 then 0 else Z.log2 k + 1) <= Z.log2 num).
      { intros k Hk. destruct (Z.eqb_spec k 0); [apply Z.log2_nonneg|]. assert (Z.log2 (2 * k) <= Z.log2 num) by (apply Z.log2_le_mono; lia). rewrite Z.log2_double in H by lia. lia. }
      destruct (Z.eqb_spec (find tr x) 0) as [F|F].
      { exists (Some ((b + num / 2) * esize)), (x :: tr). split; [reflexivity|]. split; [intros y [<-|Hy]; auto|]. split; [unfold zlen; cbn [length]; pose proof (Z.log2_nonneg num); lia|]. exists (b + num / 2), x, tr. auto. }
      assert (Ht' : forall y, In y (x :: tr) -> In y arr) by (intros y [<-|Hy]; auto).
      assert (Hnz' : forall y tr0 tr', x :: tr = tr0 ++ y :: tr' -> find tr' y <> 0) by (intros y [|z tr0] tr' Q; injection Q as Q1 Q2; [subst; exact F|subst z; exact (Hnz y tr0 tr' Q2)]).
      destruct (Z.ltb_spec (find tr x) 0) as [L|L].
      + rewrite Z.shiftr_div_pow2 by lia. change (2 ^ 1) with 2. replace ((b + num / 2) * esize + esize) with ((b + num / 2 + 1) * esize) by lia.
        destruct (IH (b + num / 2 + 1) ((num - 1) / 2) (x :: tr) ltac:(lia) ltac:(lia) ltac:(lia) Ht' Hnz') as (r & tr' & E & I1 & I2 & I3). exists r, tr'. split; [exact E|]. split; [exact I1|]. split; [|exact I3].
        specialize (Lg ((num - 1) / 2) ltac:(lia)). unfold zlen in *. cbn [length] in I2. lia.
      + destruct (IH b (num / 2) (x :: tr) ltac:(lia) ltac:(lia) ltac:(lia) Ht' Hnz') as (r & tr' & E & I1 & I2 & I3). exists r, tr'. split; [exact E|]. split; [exact I1|]. split; [|exact I3].
        specialize (Lg (num / 2) ltac:(lia)). unfold zlen in *. cbn [length] in I2. lia. }
  destruct (G 64%nat 0 (zlen arr) []) as (r & tr & E & I1 & I2 & I3); [lia|pose proof (zlen_nonneg A arr); change (Z.of_nat 64) with 64; lia|lia|intros x []|intros x [|y tr0] tr' Q; discriminate Q|].
  rewrite Z.mul_0_l in E. exists r, tr. split; [exact E|]. split; [exact I1|]. split; [|split; [|exact I3]].
  - intros Na. destruct (Z.eqb_spec (zlen arr) 0) as [Z0|]; [destruct arr; [contradiction|unfold zlen in Z0; cbn [length] in Z0; lia]|]. unfold zlen at 2 in I2. cbn [length] in I2. lia.
  - intros ->. change (zlen []) with 0 in I2. cbn [Z.eqb] in I2. destruct tr as [|y tr]; [reflexivity|]. unfold zlen in I2. cbn [length] in I2. lia.
Qed.
Theorem C127_bsearch_same : forall A (find : A -> Z) esize arr, option_map fst (bsearch_o (fun _ => find) esize [] arr) = bsearch find esize arr.
Proof.
  intros A find esize arr. unfold bsearch_o, bsearch.
  assert (G : forall fuel tr b num, option_map fst (bsearch_loop_o (fun _ => find) esize fuel tr arr b num) = bsearch_loop find esize fuel arr b num).
  { induction fuel as [|fuel IH]; intros tr b num; cbn [bsearch_loop_o bsearch_loop]; (destruct (num =? 0); [reflexivity|]); [reflexivity|].
    destruct (at_ esize arr _); [|reflexivity]. destruct (find a =? 0); [reflexivity|]. destruct (find a <? 0); apply IH. }
  apply G.
Qed.
(** A comparison function that answers by the parity of the number of calls, and one that counts. *)
Example C127_case : exists tr, heap_sort_o (fun tr _ _ => if Z.odd (zlen tr) then 1 else -1) 8 [] [4; 1; 3; 2] = Some (0, [4; 3; 1; 2], tr) /\ zlen tr = 6 /\
  option_map (fun r => (fst (fst r), snd (fst r), zlen (snd r))) (heap_sort_o (fun _ a b => a - b) 8 [] [5; 3; 9; 1; 3; 7]) = Some (0, [1; 3; 3; 5; 7; 9], 12) /\
  bsearch_o (fun _ x => x - 7) 8 [] [1; 4; 7; 7; 9] = Some (Some 16, [7]).
Proof. eexists. vm_compute. repeat split; reflexivity. Qed.
Print Assumptions C127_sort_any.
Print Assumptions C127_sort_same.
Print Assumptions C127_bsearch_any.
Print Assumptions C127_bsearch_same.
