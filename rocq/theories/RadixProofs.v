(** * Proofs about the radix array: the shape of the tree *)
From Verif Require Import Lib BitsModel BitmapSpec RadixModel RadixSpec.
Ltac Zify.zify_post_hook ::= Z.div_mod_to_equations.

(** ** Counting the children *)
Definition nz (x : Z) : bool := negb (x =? 0).
Definition cnt (c : list Z) : Z := zlen (filter nz c).
Lemma cnt_cons : forall x c, cnt (x :: c) = (if x =? 0 then 0 else 1) + cnt c.
Proof. intros. unfold cnt, nz. cbn [filter]. destruct (x =? 0); cbn [negb]; [lia|rewrite zlen_cons; lia]. Qed.
Lemma cnt_app : forall a b, cnt (a ++ b) = cnt a + cnt b.
Proof. intros. unfold cnt. rewrite filter_app, zlen_app. reflexivity. Qed.
Lemma cnt_range : forall c, 0 <= cnt c <= zlen c.
Proof. induction c as [|x c IH]; [cbn; lia|]. rewrite cnt_cons, zlen_cons. destruct (x =? 0); lia. Qed.
Lemma rd_split : forall A (c : list A) i x, rd c i = Some x -> exists a b, c = a ++ x :: b /\ zlen a = i.
Proof.
  intros A c i x H. unfold rd in H. destruct (Z.ltb_spec i 0); [discriminate|]. apply nth_error_split in H. destruct H as (a & b & -> & H).
  exists a, b. split; [reflexivity|]. unfold zlen. lia.
Qed.
Lemma cnt_wr : forall c i x v c', rd c i = Some x -> wr c i v = Some c' -> cnt c' = cnt c - (if x =? 0 then 0 else 1) + (if v =? 0 then 0 else 1).
Proof.
  intros c i x v c' R W. destruct (rd_split _ _ _ _ R) as (a & b & -> & Ha). rewrite wr_app_len in W by auto. injection W as <-.
  rewrite !cnt_app, !cnt_cons. lia.
Qed.
Lemma cnt_zero : forall c i x, cnt c = 0 -> rd c i = Some x -> x = 0.
Proof.
  intros c i x H R. destruct (rd_split _ _ _ _ R) as (a & b & -> & Ha). rewrite cnt_app, cnt_cons in H.
  pose proof (cnt_range a). pose proof (cnt_range b). destruct (Z.eqb_spec x 0); lia.
Qed.
Lemma cnt_pos : forall c, 0 < cnt c -> exists i x, rd c i = Some x /\ x <> 0.
Proof.
  induction c as [|x c IH]; intros H; [cbn in H; lia|]. rewrite cnt_cons in H. destruct (Z.eqb_spec x 0) as [E|E].
  - destruct IH as (i & y & R & Y); [lia|]. exists (i + 1), y. split; [|exact Y]. pose proof (rd_range _ _ _ _ R). unfold rd in *.
    destruct (Z.ltb_spec i 0); [discriminate|]. destruct (Z.ltb_spec (i + 1) 0); [lia|]. replace (Z.to_nat (i + 1)) with (S (Z.to_nat i)) by lia. exact R.
  - exists 0, x. split; [reflexivity|exact E].
Qed.
Lemma cnt_one : forall c i x j y, cnt c <= 1 -> rd c i = Some x -> x <> 0 -> rd c j = Some y -> j <> i -> y = 0.
Proof.
  intros c i x j y H R X R' N. destruct (wr_spec _ c i 0 (rd_range _ _ _ _ R)) as (c' & W & _ & Rc).
  pose proof (cnt_wr _ _ _ _ _ R W) as C. destruct (Z.eqb_spec x 0); [lia|]. cbn in C. pose proof (cnt_range c').
  apply (cnt_zero c' j y); [lia|]. rewrite Rc. destruct (Z.eqb_spec j i); [lia|exact R'].
Qed.

(** ** The shape: [loc l p] is the node of level [l] for the offsets with [o / 2^(5 l + 8) = p], NULL if there is none *)
Definition leaf_ok (h : heap) (n : Z) : Prop :=
  exists nd, h n = Some nd /\ zlen (n_child nd) = 32 /\ zlen (n_bits nd) = 4 /\ Forall u64 (n_bits nd).
Definition branch_ok (h : heap) (loc : Z -> Z -> Z) (l p e : Z) : Prop :=
  exists nd, h (loc l p) = Some nd /\ zlen (n_child nd) = 32 /\ (forall j, 0 <= j < 32 -> rd (n_child nd) j = Some (loc (l - 1) (32 * p + j))) /\
    n_bits nd = [cnt (n_child nd) + e; 0; 0; 0].
Definition some_bit (h : heap) (n : Z) : Prop := exists nd i, h n = Some nd /\ 0 <= i < 256 /\ mbit (n_bits nd) 0 i = true.
(** [E]: by how much the reference count of a branch exceeds the number of children; [X]: nodes that may be empty *)
Record inv (X : Z -> Z -> Prop) (E : Z -> Z -> Z) (h : heap) (r L : Z) (loc : Z -> Z -> Z) : Prop := {
  i_level : 0 <= L <= 11;
  i_root : loc L 0 = r;
  i_none : r = 0 -> L = 0;
  i_range : forall l p, loc l p <> 0 -> 0 <= l <= L /\ 0 <= p < 2 ^ (5 * (L - l));
  i_up : forall l p, loc l p <> 0 -> l < L -> loc (l + 1) (p / 32) <> 0;
  i_inj : forall l p l' p', loc l p <> 0 -> loc l p = loc l' p' -> l = l' /\ p = p';
  i_leaf : forall p, loc 0 p <> 0 -> leaf_ok h (loc 0 p);
  i_branch : forall l p, 0 < l -> loc l p <> 0 -> branch_ok h loc l p (E l p);
  i_left : r <> 0 -> forall l, 0 <= l <= L -> loc l 0 <> 0;
  i_leaf_full : forall p, 0 < p -> loc 0 p <> 0 -> ~ X 0 p -> some_bit h (loc 0 p);
  i_branch_full : forall l p, 0 < l -> 0 < p -> loc l p <> 0 -> ~ X l p -> exists j, 0 <= j < 32 /\ loc (l - 1) (32 * p + j) <> 0;
  i_only : forall n, h n <> None -> 0 < n /\ exists l p, loc l p = n;
  i_apart : forall n m, h n <> None -> h m <> None -> n <> m -> NODE <= Z.abs (n - m) }.
Definition upd2 {A} (f : Z -> Z -> A) (l p : Z) (x : A) : Z -> Z -> A := fun l' p' => if (l' =? l) && (p' =? p) then x else f l' p'.
Lemma upd2_same : forall A (f : Z -> Z -> A) l p x, upd2 f l p x l p = x.
Proof. intros. unfold upd2. rewrite !Z.eqb_refl. reflexivity. Qed.
Lemma upd2_other : forall A (f : Z -> Z -> A) l p x l' p', l' <> l \/ p' <> p -> upd2 f l p x l' p' = f l' p'.
Proof. intros. unfold upd2. destruct (Z.eqb_spec l' l), (Z.eqb_spec p' p); cbn [andb]; try reflexivity. lia. Qed.
Lemma upd2_cases : forall A (f : Z -> Z -> A) l p x l' p', l' = l /\ p' = p /\ upd2 f l p x l' p' = x \/ (l' <> l \/ p' <> p) /\ upd2 f l p x l' p' = f l' p'.
Proof. intros. unfold upd2. destruct (Z.eqb_spec l' l), (Z.eqb_spec p' p); cbn [andb]; auto. Qed.
Ltac upd2 l p := match goal with |- context [upd2 ?f ?a ?b ?x l p] => let E := fresh "U" in destruct (upd2_cases _ f a b x l p) as [(? & ? & E)|[? E]]; rewrite ?E in * end.

Definition no_e : Z -> Z -> Z := fun _ _ => 0.
Definition no_x : Z -> Z -> Prop := fun _ _ => False.

Section Inv.
Context {X : Z -> Z -> Prop} {E : Z -> Z -> Z} {h : heap} {r L : Z} {loc : Z -> Z -> Z}.
Hypothesis I : inv X E h r L loc.

Lemma loc_live : forall l p, loc l p <> 0 -> h (loc l p) <> None.
Proof.
  intros l p H. destruct (i_range _ _ _ _ _ _ I l p H) as [[Hl _] _]. destruct (Z.eq_dec l 0) as [->|N].
  - destruct (i_leaf _ _ _ _ _ _ I p H) as (nd & -> & _). discriminate.
  - destruct (i_branch _ _ _ _ _ _ I l p ltac:(lia) H) as (nd & -> & _). discriminate.
Qed.
Lemma loc_pos : forall l p, loc l p <> 0 -> 0 < loc l p.
Proof. intros l p H. apply (i_only _ _ _ _ _ _ I). apply loc_live, H. Qed.
Lemma loc_up : forall k l p, loc l p <> 0 -> 0 <= k -> l + k <= L -> loc (l + k) (p / 2 ^ (5 * k)) <> 0.
Proof.
  intros k l p H Hk. revert l p H. pattern k. apply natlike_ind; [|clear k Hk|exact Hk].
  - intros l p H _. rewrite Z.add_0_r. change (2 ^ (5 * 0)) with 1. rewrite Z.div_1_r. exact H.
  - intros k Hk IH l p H Hl. pose proof (i_range _ _ _ _ _ _ I l p H). pose proof (IH (l + 1) (p / 32) (i_up _ _ _ _ _ _ I l p H ltac:(lia)) ltac:(lia)) as G.
    replace (l + Z.succ k) with (l + 1 + k) by lia. replace (5 * Z.succ k) with (5 + 5 * k) by lia. rewrite Z.pow_add_r by lia. rewrite <- Z.div_div by lia. exact G.
Qed.
Lemma loc_none : r = 0 -> forall l p, loc l p = 0.
Proof.
  intros R l p. destruct (Z.eq_dec (loc l p) 0) as [|N]; [assumption|exfalso]. destruct (i_range _ _ _ _ _ _ I l p N) as [Hl Hp].
  pose proof (loc_up (L - l) l p N ltac:(lia) ltac:(lia)) as G. replace (l + (L - l)) with L in G by lia. rewrite Z.div_small in G by lia.
  rewrite (i_root _ _ _ _ _ _ I) in G. exact (G R).
Qed.
Lemma heap_none : r = 0 -> forall n, h n = None.
Proof. intros R n. destruct (h n) eqn:Hn; [|reflexivity]. destruct (i_only _ _ _ _ _ _ I n ltac:(congruence)) as [Hp (l & p & H)]. rewrite (loc_none R) in H. lia. Qed.
Lemma child_of : forall l p j, loc (l - 1) (32 * p + j) <> 0 -> 0 <= j < 32 -> l <= L -> loc l p <> 0.
Proof. intros l p j H Hj Hl. pose proof (i_up _ _ _ _ _ _ I _ _ H ltac:(lia)) as G. replace (l - 1 + 1) with l in G by lia. replace ((32 * p + j) / 32) with p in G by lia. exact G. Qed.

Lemma inv_weaken : forall X' : Z -> Z -> Prop, (forall l p, X l p -> X' l p) -> inv X' E h r L loc.
Proof.
  intros X' H. destruct I. constructor; auto.
Qed.
Lemma inv_ext : forall h', (forall n, h' n = h n) -> inv X E h' r L loc.
Proof.
  intros h' H. destruct I. constructor; auto.
  - intros p Hp. destruct (i_leaf0 p Hp) as (nd & A). exists nd. rewrite H. exact A.
  - intros l p Hl Hp. destruct (i_branch0 l p Hl Hp) as (nd & A). exists nd. rewrite H. exact A.
  - intros p Hp A B. destruct (i_leaf_full0 p Hp A B) as (nd & i & C). exists nd, i. rewrite H. exact C.
  - intros n. rewrite H. apply i_only0.
  - intros n m. rewrite !H. apply i_apart0.
Qed.
(** nodes shown not to be empty *)
Lemma inv_filled : forall X' : Z -> Z -> Prop,
  (forall l p, X l p -> ~ X' l p -> 0 < p -> loc l p <> 0 -> if l =? 0 then some_bit h (loc l p) else exists j, 0 <= j < 32 /\ loc (l - 1) (32 * p + j) <> 0) ->
  (forall l p, X l p \/ ~ X l p) -> inv X' E h r L loc.
Proof.
  intros X' H D. destruct I. constructor; auto.
  - intros p Hp A B. destruct (D 0 p) as [x|x]; [exact (H 0 p x B Hp A)|auto].
  - intros l p Hl Hp A B. destruct (D l p) as [x|x]; [|auto]. specialize (H l p x B Hp A). destruct (Z.eqb_spec l 0); [lia|exact H].
Qed.

(** *** A new root *)
Lemma add_leaf_root : forall n, r = 0 -> 0 < n -> inv X E (hset h n zeros) n 0 (upd2 loc 0 0 n).
Proof.
  intros n R Hn. pose proof (loc_none R) as Z0. pose proof (heap_none R) as H0.
  constructor; try lia.
  - apply upd2_same.
  - intros l p. upd2 l p; [|rewrite Z0; lia]. intros _. subst l p. change (2 ^ (5 * (0 - 0))) with 1. lia.
  - intros l p. upd2 l p; [lia|]. rewrite Z0. lia.
  - intros l p l' p'. upd2 l p; [|rewrite Z0; lia]. upd2 l' p'; [lia|]. rewrite Z0. lia.
  - intros p. upd2 0 p; [|rewrite Z0; lia]. intros _. exists zeros. unfold hset. rewrite Z.eqb_refl. split; [reflexivity|]. cbn. split; [reflexivity|]. split; [reflexivity|].
    repeat constructor; unfold u64; lia.
  - intros l p Hl. upd2 l p; [lia|]. rewrite Z0. lia.
  - intros _ l Hl. upd2 l 0; lia.
  - intros p Hp. upd2 0 p; [lia|]. rewrite Z0. lia.
  - intros l p Hl Hp. upd2 l p; [lia|]. rewrite Z0. lia.
  - intros m. unfold hset. destruct (Z.eqb_spec m n) as [->|]; [|rewrite H0; congruence]. intros _. split; [exact Hn|]. exists 0, 0. apply upd2_same.
  - intros m m'. unfold hset. destruct (Z.eqb_spec m n), (Z.eqb_spec m' n); rewrite ?H0; try congruence; lia.
Qed.
Definition root_of (c : Z) : rnode := {| n_child := c :: repeat 0 31; n_bits := [1; 0; 0; 0] |}.
Lemma rd_root_of : forall c j, 0 <= j < 32 -> rd (c :: repeat 0 31) j = Some (if j =? 0 then c else 0).
Proof.
  intros c j Hj. destruct (Z.eqb_spec j 0) as [->|N]; [reflexivity|]. unfold rd. destruct (Z.ltb_spec j 0); [lia|]. replace (Z.to_nat j) with (S (Z.to_nat (j - 1))) by lia. cbn [nth_error].
  apply (nth_error_repeat 0). lia.
Qed.
Lemma add_root : forall n, r <> 0 -> L < 11 -> 0 < n -> h n = None -> (forall m, h m <> None -> NODE <= Z.abs (n - m)) -> E (L + 1) 0 = 0 ->
  inv X E (hset h n (root_of r)) n (L + 1) (upd2 loc (L + 1) 0 n).
Proof.
  intros n R HL Hn Hf Ha HE.
  assert (O : forall l p, L < l -> loc l p = 0). { intros l p Hl. destruct (Z.eq_dec (loc l p) 0) as [|N]; [assumption|]. pose proof (i_range _ _ _ _ _ _ I l p N). lia. }
  assert (F : forall l p, loc l p <> 0 -> hset h n (root_of r) (loc l p) = h (loc l p)).
  { intros l p H. unfold hset. destruct (Z.eqb_spec (loc l p) n) as [G|]; [|reflexivity]. pose proof (loc_live l p H) as A. rewrite G in A. contradiction. }
  assert (NE : forall l p, loc l p <> 0 -> loc l p <> n). { intros l p H G. pose proof (loc_live l p H) as A. rewrite G in A. contradiction. }
  constructor.
  - pose proof (i_level _ _ _ _ _ _ I). lia.
  - apply upd2_same.
  - lia.
  - intros l p. upd2 l p.
    + intros _. subst. split; [pose proof (i_level _ _ _ _ _ _ I); lia|]. replace (5 * (L + 1 - (L + 1))) with 0 by lia. cbn. lia.
    + intros H1. destruct (i_range _ _ _ _ _ _ I l p H1) as [A B]. split; [lia|]. replace (5 * (L + 1 - l)) with (5 * (L - l) + 5) by lia. rewrite Z.pow_add_r by lia. change (2 ^ 5) with 32.
      assert (0 < 2 ^ (5 * (L - l))) by (apply Z.pow_pos_nonneg; lia). lia.
  - intros l p. upd2 l p; [lia|]. intros H1 H2. destruct (i_range _ _ _ _ _ _ I l p H1) as [A B]. destruct (Z.eq_dec l L) as [->|].
    + replace (5 * (L - L)) with 0 in B by lia. cbn in B. replace (p / 32) with 0 by lia. rewrite upd2_same. lia.
    + rewrite upd2_other by lia. apply (i_up _ _ _ _ _ _ I); [assumption|lia].
  - intros l p l' p'. upd2 l p; upd2 l' p'; intros A B; try lia.
    + destruct (Z.eq_dec (loc l' p') 0) as [G|G]; [lia|]. exfalso. exact (NE _ _ G (eq_sym B)).
    + exfalso. exact (NE _ _ A B).
    + exact (i_inj _ _ _ _ _ _ I _ _ _ _ A B).
  - intros p. pose proof (i_level _ _ _ _ _ _ I). upd2 0 p; [lia|]. intros H1. destruct (i_leaf _ _ _ _ _ _ I p H1) as (nd & A). exists nd. rewrite F by exact H1. exact A.
  - intros l p Hl H1. destruct (Z.eq_dec l (L + 1)) as [->|Nl].
    + destruct (upd2_cases _ loc (L + 1) 0 n (L + 1) p) as [(_ & -> & U)|[_ U]]; [|rewrite U, O in H1 by lia; lia].
      exists (root_of r). rewrite U. unfold hset. rewrite Z.eqb_refl. split; [reflexivity|]. split; [reflexivity|]. rewrite HE. split.
      * intros j Hj. cbn [root_of n_child]. rewrite rd_root_of by exact Hj. rewrite upd2_other by lia. replace (L + 1 - 1) with L by lia. replace (32 * 0 + j) with j by lia.
        destruct (Z.eqb_spec j 0) as [->|Nj]; [rewrite (i_root _ _ _ _ _ _ I); reflexivity|]. f_equal.
        destruct (Z.eq_dec (loc L j) 0) as [|G]; [congruence|]. destruct (i_range _ _ _ _ _ _ I L j G) as [_ B]. replace (5 * (L - L)) with 0 in B by lia. cbn in B. lia.
      * cbn [root_of n_bits n_child]. rewrite cnt_cons. destruct (Z.eqb_spec r 0); [contradiction|]. reflexivity.
    + rewrite upd2_other in H1 by lia. destruct (i_branch _ _ _ _ _ _ I l p Hl H1) as (nd & A1 & A2 & A3 & A4). exists nd. rewrite upd2_other by lia. rewrite F by exact H1.
      split; [exact A1|]. split; [exact A2|]. split; [|exact A4]. intros j Hj. pose proof (i_range _ _ _ _ _ _ I l p H1). rewrite upd2_other by lia. auto.
  - intros _ l Hl. upd2 l 0; [lia|]. apply (i_left _ _ _ _ _ _ I); [exact R|]. lia.
  - intros p Hp. pose proof (i_level _ _ _ _ _ _ I). upd2 0 p; [lia|]. intros A B. destruct (i_leaf_full _ _ _ _ _ _ I p Hp A B) as (nd & i & C). exists nd, i. rewrite F by exact A. exact C.
  - intros l p Hl Hp. upd2 l p; [lia|]. intros A B. destruct (i_branch_full _ _ _ _ _ _ I l p Hl Hp A B) as (j & Hj & C). exists j. split; [exact Hj|].
    pose proof (i_range _ _ _ _ _ _ I l p A). rewrite upd2_other by lia. exact C.
  - intros m. unfold hset. destruct (Z.eqb_spec m n) as [->|Nm].
    + intros _. split; [exact Hn|]. exists (L + 1), 0. apply upd2_same.
    + intros Hm. destruct (i_only _ _ _ _ _ _ I m Hm) as (A & l & p & B). split; [exact A|]. exists l, p. destruct (Z.eq_dec l (L + 1)) as [->|]; [rewrite O in B by lia; lia|]. rewrite upd2_other by lia. exact B.
  - intros m m'. unfold hset. destruct (Z.eqb_spec m n) as [->|], (Z.eqb_spec m' n) as [->|]; intros A B C; try congruence.
    + apply Ha, B.
    + rewrite <- Z.abs_opp. replace (- (m - n)) with (n - m) by lia. apply Ha, A.
    + apply (i_apart _ _ _ _ _ _ I); assumption.
Qed.

(** *** A new child *)
Lemma add_child : forall n l q nd c, 0 < n -> h n = None -> (forall m, h m <> None -> NODE <= Z.abs (n - m)) ->
  0 <= l -> loc l q = 0 -> loc (l + 1) (q / 32) <> 0 -> E l q = 0 ->
  h (loc (l + 1) (q / 32)) = Some nd -> wr (n_child nd) (q mod 32) n = Some c ->
  forall h', (forall m, h' m = if m =? n then Some zeros else if m =? loc (l + 1) (q / 32) then Some {| n_child := c; n_bits := [cnt (n_child nd) + E (l + 1) (q / 32) + 1; 0; 0; 0] |} else h m) ->
  inv (fun l' p' => X l' p' \/ l' = l /\ p' = q) E h' r L (upd2 loc l q n).
Proof.
  intros n l q nd c Hn Hf Ha Hl Hq Hpar HE Hnd Hc h' Hh'. set (par := loc (l + 1) (q / 32)) in *.
  pose proof (i_range _ _ _ _ _ _ I _ _ Hpar) as [HL Hp].
  assert (NE : forall l p, loc l p <> 0 -> loc l p <> n). { intros l' p H G. pose proof (loc_live l' p H) as A. rewrite G in A. contradiction. }
  assert (F : forall l' p, loc l' p <> 0 -> (l' <> l + 1 \/ p <> q / 32) -> h' (loc l' p) = h (loc l' p)).
  { intros l' p H D. rewrite Hh'. destruct (Z.eqb_spec (loc l' p) n) as [G|]; [destruct (NE _ _ H G)|]. destruct (Z.eqb_spec (loc l' p) par) as [G|]; [|reflexivity].
    destruct (i_inj _ _ _ _ _ _ I _ _ _ _ H G). lia. }
  assert (Q : 0 <= q < 2 ^ (5 * (L - l))).
  { replace (5 * (L - l)) with (5 * (L - (l + 1)) + 5) by lia. rewrite Z.pow_add_r by lia. change (2 ^ 5) with 32. lia. }
  destruct (wr_inv _ _ _ _ _ Hc) as (Hi & Lc & Rc).
  destruct (i_branch _ _ _ _ _ _ I (l + 1) (q / 32) ltac:(lia) Hpar) as (nd0 & B1 & B2 & B3 & B4). fold par in B1. rewrite Hnd in B1. injection B1 as <-.
  assert (R0 : rd (n_child nd) (q mod 32) = Some 0). { rewrite B3 by lia. replace (l + 1 - 1) with l by lia. replace (32 * (q / 32) + q mod 32) with q by lia. rewrite Hq. reflexivity. }
  constructor.
  - exact (i_level _ _ _ _ _ _ I).
  - upd2 L 0; [lia|]. exact (i_root _ _ _ _ _ _ I).
  - exact (i_none _ _ _ _ _ _ I).
  - intros l' p. upd2 l' p; [intros _; subst; lia|]. apply (i_range _ _ _ _ _ _ I).
  - intros l' p. upd2 l' p.
    + intros _ H1. subst. rewrite upd2_other by lia. exact Hpar.
    + intros A B. pose proof (i_up _ _ _ _ _ _ I l' p A B) as G. destruct (upd2_cases _ loc l q n (l' + 1) (p / 32)) as [(E1 & E2 & U1)|[_ U1]]; rewrite U1; [lia|exact G].
  - intros l1 p1 l2 p2. upd2 l1 p1; upd2 l2 p2; intros A B; try lia.
    + destruct (Z.eq_dec (loc l2 p2) 0) as [G|G]; [lia|]. exfalso. exact (NE _ _ G (eq_sym B)).
    + exfalso. exact (NE _ _ A B).
    + exact (i_inj _ _ _ _ _ _ I _ _ _ _ A B).
  - intros p. destruct (upd2_cases _ loc l q n 0 p) as [(E1 & E2 & U1)|[N1 U1]]; rewrite U1.
    + intros _. exists zeros. rewrite Hh', Z.eqb_refl. split; [reflexivity|]. split; [reflexivity|]. split; [reflexivity|]. repeat constructor; unfold u64; lia.
    + intros A. destruct (i_leaf _ _ _ _ _ _ I p A) as (nd1 & C). exists nd1. rewrite F by (try assumption; lia). exact C.
  - intros l1 p1 Hl1. destruct (upd2_cases _ loc l q n l1 p1) as [(E1 & E2 & U1)|[N1 U1]]; intros A.
    + (* the new node, as a branch *)
      exists zeros. rewrite U1, Hh', Z.eqb_refl. split; [reflexivity|]. split; [reflexivity|]. split.
      * intros j Hj. subst l1 p1. rewrite upd2_other by lia. cbn [zeros n_child]. replace (rd (repeat 0 32) j) with (Some 0).
        { f_equal. destruct (Z.eq_dec (loc (l - 1) (32 * q + j)) 0) as [|G]; [congruence|]. pose proof (child_of l q j G Hj ltac:(lia)). contradiction. }
        symmetry. unfold rd. destruct (Z.ltb_spec j 0); [lia|]. apply nth_error_repeat. lia.
      * cbn [zeros n_bits n_child]. rewrite E1, E2, HE. reflexivity.
    + rewrite U1 in A. destruct (Z.eq_dec l1 (l + 1)) as [El|Nl]; [destruct (Z.eq_dec p1 (q / 32)) as [Ep|Np]|].
      * subst l1 p1. exists {| n_child := c; n_bits := [cnt (n_child nd) + E (l + 1) (q / 32) + 1; 0; 0; 0] |}. rewrite U1, Hh'.
        destruct (Z.eqb_spec (loc (l + 1) (q / 32)) n) as [G|]; [destruct (NE _ _ Hpar G)|]. fold par. rewrite Z.eqb_refl. split; [reflexivity|]. cbn [n_child n_bits].
        split; [lia|]. split.
        -- intros j Hj. rewrite Rc. replace (l + 1 - 1) with l by lia. destruct (Z.eqb_spec j (q mod 32)) as [->|Nj].
           ++ replace (32 * (q / 32) + q mod 32) with q by lia. rewrite upd2_same. reflexivity.
           ++ rewrite upd2_other by lia. rewrite B3 by exact Hj. do 2 f_equal; lia.
        -- rewrite (cnt_wr _ _ _ _ _ R0 Hc). destruct (Z.eqb_spec n 0); [lia|]. cbn. f_equal. lia.
      * destruct (i_branch _ _ _ _ _ _ I l1 p1 Hl1 A) as (nd1 & C1 & C2 & C3 & C4). exists nd1. rewrite U1, F by (try assumption; lia). split; [exact C1|]. split; [exact C2|]. split; [|exact C4].
        intros j Hj. rewrite upd2_other by lia. auto.
      * destruct (i_branch _ _ _ _ _ _ I l1 p1 Hl1 A) as (nd1 & C1 & C2 & C3 & C4). exists nd1. rewrite U1, F by (try assumption; lia). split; [exact C1|]. split; [exact C2|]. split; [|exact C4].
        intros j Hj. rewrite upd2_other by lia. auto.
  - intros R l1 H1. upd2 l1 0; [lia|]. apply (i_left _ _ _ _ _ _ I R). exact H1.
  - intros p Hp1. upd2 0 p; [intros _ A; exfalso; apply A; right; lia|]. intros A B. destruct (i_leaf_full _ _ _ _ _ _ I p Hp1 A ltac:(tauto)) as (nd1 & i & C). exists nd1, i. rewrite F by (try assumption; lia). exact C.
  - intros l1 p1 H1 H2. upd2 l1 p1; [intros _ A; exfalso; apply A; right; lia|]. intros A B. destruct (i_branch_full _ _ _ _ _ _ I l1 p1 H1 H2 A ltac:(tauto)) as (j & Hj & C). exists j. split; [exact Hj|].
    destruct (upd2_cases _ loc l q n (l1 - 1) (32 * p1 + j)) as [(_ & _ & U1)|[_ U1]]; rewrite U1; [lia|exact C].
  - intros m. rewrite Hh'. destruct (Z.eqb_spec m n) as [->|Nm].
    + intros _. split; [exact Hn|]. exists l, q. apply upd2_same.
    + intros Hm. assert (Hm' : h m <> None). { destruct (Z.eqb_spec m par) as [->|]; [congruence|exact Hm]. }
      destruct (i_only _ _ _ _ _ _ I m Hm') as (A & l1 & p1 & B). split; [exact A|]. exists l1, p1. upd2 l1 p1; [subst; lia|exact B].
  - intros m m' A B C. assert (H1 : forall x, h' x <> None -> x = n \/ h x <> None).
    { intros x. rewrite Hh'. destruct (Z.eqb_spec x n); [auto|]. destruct (Z.eqb_spec x par) as [->|]; [right; congruence|auto]. }
    destruct (H1 m A) as [->|A'], (H1 m' B) as [->|B']; [congruence|apply Ha, B'| |apply (i_apart _ _ _ _ _ _ I); assumption].
    rewrite <- Z.abs_opp. replace (- (m - n)) with (n - m) by lia. apply Ha, A'.
Qed.

(** *** A child taken out *)
Lemma del_child : forall l q nd c, 0 <= l < L -> 0 < q -> loc l q <> 0 -> (0 < l -> forall j, 0 <= j < 32 -> loc (l - 1) (32 * q + j) = 0) ->
  h (loc (l + 1) (q / 32)) = Some nd -> wr (n_child nd) (q mod 32) 0 = Some c ->
  forall h', (forall m, h' m = if m =? loc l q then None else if m =? loc (l + 1) (q / 32) then Some {| n_child := c; n_bits := n_bits nd |} else h m) ->
  inv (fun l' p' => X l' p' \/ l' = l + 1 /\ p' = q / 32) (upd2 E (l + 1) (q / 32) (E (l + 1) (q / 32) + 1)) h' r L (upd2 loc l q 0).
Proof.
  intros l q nd c Hl Hq0 Hq Hch Hnd Hc h' Hh'. pose proof (i_up _ _ _ _ _ _ I l q Hq ltac:(lia)) as Hpar. set (par := loc (l + 1) (q / 32)) in *.
  pose proof (i_range _ _ _ _ _ _ I _ _ Hq) as [_ HQ].
  assert (F : forall l' p, loc l' p <> 0 -> (l' <> l \/ p <> q) -> (l' <> l + 1 \/ p <> q / 32) -> h' (loc l' p) = h (loc l' p)).
  { intros l' p H D1 D2. rewrite Hh'. destruct (Z.eqb_spec (loc l' p) (loc l q)) as [G|]; [destruct (i_inj _ _ _ _ _ _ I _ _ _ _ H G); lia|].
    destruct (Z.eqb_spec (loc l' p) par) as [G|]; [|reflexivity]. destruct (i_inj _ _ _ _ _ _ I _ _ _ _ H G). lia. }
  destruct (wr_inv _ _ _ _ _ Hc) as (Hi & Lc & Rc).
  destruct (i_branch _ _ _ _ _ _ I (l + 1) (q / 32) ltac:(lia) Hpar) as (nd0 & B1 & B2 & B3 & B4). fold par in B1. rewrite Hnd in B1. injection B1 as <-.
  assert (R0 : rd (n_child nd) (q mod 32) = Some (loc l q)). { rewrite B3 by lia. replace (l + 1 - 1) with l by lia. replace (32 * (q / 32) + q mod 32) with q by lia. reflexivity. }
  constructor.
  - exact (i_level _ _ _ _ _ _ I).
  - upd2 L 0; [lia|]. exact (i_root _ _ _ _ _ _ I).
  - exact (i_none _ _ _ _ _ _ I).
  - intros l' p. upd2 l' p; [lia|]. apply (i_range _ _ _ _ _ _ I).
  - intros l' p. upd2 l' p; [lia|]. intros A B. pose proof (i_up _ _ _ _ _ _ I l' p A B) as G.
    destruct (upd2_cases _ loc l q 0 (l' + 1) (p / 32)) as [(E1 & E2 & U1)|[_ U1]]; rewrite U1; [|exact G].
    exfalso. apply A. replace l' with (l - 1) by lia. replace p with (32 * q + p mod 32) by lia. apply Hch; [|lia]. pose proof (i_range _ _ _ _ _ _ I l' p A). lia.
  - intros l1 p1 l2 p2. upd2 l1 p1; upd2 l2 p2; intros A B; try lia. exact (i_inj _ _ _ _ _ _ I _ _ _ _ A B).
  - intros p. destruct (upd2_cases _ loc l q 0 0 p) as [(E1 & E2 & U1)|[N1 U1]]; rewrite U1; [lia|]. intros A.
    destruct (i_leaf _ _ _ _ _ _ I p A) as (nd1 & C). exists nd1. rewrite F by (try assumption; lia). exact C.
  - intros l1 p1 Hl1. destruct (upd2_cases _ loc l q 0 l1 p1) as [(E1 & E2 & U1)|[N1 U1]]; intros A; [rewrite U1 in A; lia|]. rewrite U1 in A.
    destruct (upd2_cases _ E (l + 1) (q / 32) (E (l + 1) (q / 32) + 1) l1 p1) as [(-> & -> & U2)|[N2 U2]]; rewrite U2.
    + exists {| n_child := c; n_bits := n_bits nd |}. rewrite U1, Hh'. fold par. destruct (Z.eqb_spec par (loc l q)) as [G|]; [destruct (i_inj _ _ _ _ _ _ I _ _ _ _ Hpar G); lia|].
      rewrite Z.eqb_refl. split; [reflexivity|]. cbn [n_child n_bits]. split; [lia|]. split.
      * intros j Hj. rewrite Rc. replace (l + 1 - 1) with l by lia. destruct (Z.eqb_spec j (q mod 32)) as [->|Nj].
        -- replace (32 * (q / 32) + q mod 32) with q by lia. rewrite upd2_same. reflexivity.
        -- rewrite upd2_other by lia. rewrite B3 by exact Hj. do 2 f_equal; lia.
      * rewrite (cnt_wr _ _ _ _ _ R0 Hc). destruct (Z.eqb_spec (loc l q) 0); [lia|]. rewrite B4. f_equal. cbn. lia.
    + destruct (i_branch _ _ _ _ _ _ I l1 p1 Hl1 A) as (nd1 & C1 & C2 & C3 & C4). exists nd1. rewrite U1, F by (try assumption; lia). split; [exact C1|]. split; [exact C2|]. split; [|exact C4].
      intros j Hj. rewrite C3 by exact Hj. destruct (upd2_cases _ loc l q 0 (l1 - 1) (32 * p1 + j)) as [(E1 & E2 & _)|[_ U3]]; [lia|rewrite U3; reflexivity].
  - intros R l1 H1. upd2 l1 0; [lia|]. apply (i_left _ _ _ _ _ _ I R). exact H1.
  - intros p Hp1. upd2 0 p; [lia|]. intros A B. destruct (i_leaf_full _ _ _ _ _ _ I p Hp1 A ltac:(tauto)) as (nd1 & i & C). exists nd1, i. rewrite F by (try assumption; lia). exact C.
  - intros l1 p1 H1 H2. upd2 l1 p1; [lia|]. intros A B. destruct (i_branch_full _ _ _ _ _ _ I l1 p1 H1 H2 A ltac:(tauto)) as (j & Hj & C). exists j. split; [exact Hj|].
    destruct (upd2_cases _ loc l q 0 (l1 - 1) (32 * p1 + j)) as [(E1 & E2 & U1)|[_ U1]]; rewrite U1; [|exact C]. exfalso. apply B. right. lia.
  - intros m. rewrite Hh'. destruct (Z.eqb_spec m (loc l q)) as [|Nm]; [congruence|].
    intros Hm. assert (Hm' : h m <> None). { destruct (Z.eqb_spec m par) as [->|]; [congruence|exact Hm]. }
    destruct (i_only _ _ _ _ _ _ I m Hm') as (A & l1 & p1 & B). split; [exact A|]. exists l1, p1. upd2 l1 p1; [subst; congruence|exact B].
  - intros m m' A B C. assert (H1 : forall x, h' x <> None -> h x <> None).
    { intros x. rewrite Hh'. destruct (Z.eqb_spec x (loc l q)); [congruence|]. destruct (Z.eqb_spec x par) as [->|]; [congruence|auto]. }
    apply (i_apart _ _ _ _ _ _ I); auto.
Qed.

(** *** The reference count of a branch set right *)
Lemma set_count : forall l p nd e, 0 < l -> loc l p <> 0 -> h (loc l p) = Some nd ->
  forall h', (forall m, h' m = if m =? loc l p then Some {| n_child := n_child nd; n_bits := [cnt (n_child nd) + e; 0; 0; 0] |} else h m) ->
  inv X (upd2 E l p e) h' r L loc.
Proof.
  intros l p nd e Hl Hp Hnd h' Hh'.
  assert (F : forall l' p', loc l' p' <> 0 -> (l' <> l \/ p' <> p) -> h' (loc l' p') = h (loc l' p')).
  { intros l' p' H D. rewrite Hh'. destruct (Z.eqb_spec (loc l' p') (loc l p)) as [G|]; [destruct (i_inj _ _ _ _ _ _ I _ _ _ _ H G); lia|reflexivity]. }
  assert (H1 : forall x, h' x <> None -> h x <> None). { intros x. rewrite Hh'. destruct (Z.eqb_spec x (loc l p)) as [->|]; [congruence|auto]. }
  destruct (i_branch _ _ _ _ _ _ I l p Hl Hp) as (nd0 & B1 & B2 & B3 & B4). rewrite Hnd in B1. injection B1 as <-.
  pose proof I as J. destruct J. constructor; auto.
  - intros q A. destruct (i_leaf0 q A) as (nd1 & C). exists nd1. rewrite F by (try assumption; lia). exact C.
  - intros l1 p1 Hl1 A. destruct (upd2_cases _ E l p e l1 p1) as [(-> & -> & U)|[N U]]; rewrite U.
    + exists {| n_child := n_child nd; n_bits := [cnt (n_child nd) + e; 0; 0; 0] |}. rewrite Hh', Z.eqb_refl. auto.
    + destruct (i_branch0 l1 p1 Hl1 A) as (nd1 & C). exists nd1. rewrite F by assumption. exact C.
  - intros q Hq A B. destruct (i_leaf_full0 q Hq A B) as (nd1 & i & C). exists nd1, i. rewrite F by (try assumption; lia). exact C.
Qed.
(** *** The contents of a leaf changed *)
Lemma set_leaf : forall q nd, loc 0 q <> 0 -> zlen (n_child nd) = 32 -> zlen (n_bits nd) = 4 -> Forall u64 (n_bits nd) ->
  forall h', (forall m, h' m = if m =? loc 0 q then Some nd else h m) ->
  inv (fun l' p' => X l' p' \/ l' = 0 /\ p' = q) E h' r L loc.
Proof.
  intros q nd Hq C1 C2 C3 h' Hh'.
  assert (F : forall l' p', loc l' p' <> 0 -> (l' <> 0 \/ p' <> q) -> h' (loc l' p') = h (loc l' p')).
  { intros l' p' H D. rewrite Hh'. destruct (Z.eqb_spec (loc l' p') (loc 0 q)) as [G|]; [destruct (i_inj _ _ _ _ _ _ I _ _ _ _ H G); lia|reflexivity]. }
  assert (H1 : forall x, h' x <> None -> h x <> None). { intros x. rewrite Hh'. destruct (Z.eqb_spec x (loc 0 q)) as [->|]; [intros _; apply loc_live, Hq|auto]. }
  pose proof I as J. destruct J. constructor; auto.
  - intros p A. destruct (Z.eq_dec p q) as [->|N].
    + exists nd. rewrite Hh', Z.eqb_refl. auto.
    + destruct (i_leaf0 p A) as (nd1 & C). exists nd1. rewrite F by (try assumption; lia). exact C.
  - intros l1 p1 Hl1 A. destruct (i_branch0 l1 p1 Hl1 A) as (nd1 & C). exists nd1. rewrite F by (try assumption; lia). exact C.
  - intros p Hp A B. destruct (Z.eq_dec p q) as [->|N]; [exfalso; apply B; auto|]. destruct (i_leaf_full0 p Hp A ltac:(tauto)) as (nd1 & i & C). exists nd1, i. rewrite F by (try assumption; lia). exact C.
Qed.
(** *** The root taken off *)
Lemma del_root : 0 < L -> E L 0 = 0 -> (forall j, 0 < j < 32 -> loc (L - 1) j = 0) ->
  forall h', (forall m, h' m = if m =? r then None else h m) -> r <> 0 -> inv X E h' (loc (L - 1) 0) (L - 1) (upd2 loc L 0 0).
Proof.
  intros HL HE Hj h' Hh' R. pose proof (i_root _ _ _ _ _ _ I) as Rt.
  pose proof (i_left _ _ _ _ _ _ I R (L - 1) ltac:(lia)) as LF.
  assert (F : forall l' p', loc l' p' <> 0 -> (l' <> L \/ p' <> 0) -> h' (loc l' p') = h (loc l' p')).
  { intros l' p' H D. rewrite Hh'. destruct (Z.eqb_spec (loc l' p') r) as [G|]; [|reflexivity]. rewrite <- Rt in G. destruct (i_inj _ _ _ _ _ _ I _ _ _ _ H G). lia. }
  assert (RG : forall l p, loc l p <> 0 -> l <> L \/ p <> 0 -> 0 <= l <= L - 1 /\ 0 <= p < 2 ^ (5 * (L - 1 - l))).
  { intros l p A B. destruct (i_range _ _ _ _ _ _ I l p A) as [C D]. destruct (Z.eq_dec l L) as [->|NL].
    { replace (5 * (L - L)) with 0 in D by lia. cbn in D. lia. }
    split; [lia|]. pose proof (loc_up (L - 1 - l) l p A ltac:(lia) ltac:(lia)) as G. replace (l + (L - 1 - l)) with (L - 1) in G by lia.
    destruct (Z.eq_dec (p / 2 ^ (5 * (L - 1 - l))) 0) as [Z0|N0].
    - assert (P : 0 < 2 ^ (5 * (L - 1 - l))) by (apply Z.pow_pos_nonneg; lia). apply Z.div_small_iff in Z0; [|lia]. lia.
    - exfalso. apply G, Hj. assert (P : 0 < 2 ^ (5 * (L - 1 - l))) by (apply Z.pow_pos_nonneg; lia).
      assert (0 <= p / 2 ^ (5 * (L - 1 - l))) by (apply Z.div_pos; lia).
      assert (p / 2 ^ (5 * (L - 1 - l)) < 32). { apply Z.div_lt_upper_bound; [exact P|]. replace (5 * (L - l)) with (5 * (L - 1 - l) + 5) in D by lia. rewrite Z.pow_add_r in D by lia. change (2 ^ 5) with 32 in D. lia. }
      lia. }
  constructor.
  - pose proof (i_level _ _ _ _ _ _ I). lia.
  - rewrite upd2_other by lia. reflexivity.
  - congruence.
  - intros l p. upd2 l p; [lia|]. intros A. apply RG; assumption.
  - intros l p. upd2 l p; [lia|]. intros A B. rewrite upd2_other by lia. apply (i_up _ _ _ _ _ _ I); [exact A|lia].
  - intros l1 p1 l2 p2. upd2 l1 p1; upd2 l2 p2; intros A B; try lia. exact (i_inj _ _ _ _ _ _ I _ _ _ _ A B).
  - intros p. upd2 0 p; [lia|]. intros A. destruct (i_leaf _ _ _ _ _ _ I p A) as (nd1 & C). exists nd1. rewrite F by (try assumption; lia). exact C.
  - intros l1 p1 Hl1. destruct (upd2_cases _ loc L 0 0 l1 p1) as [(E1 & E2 & U1)|[N1 U1]]; intros A; rewrite U1 in A; [lia|].
    pose proof (RG _ _ A N1). destruct (i_branch _ _ _ _ _ _ I l1 p1 Hl1 A) as (nd1 & C1 & C2 & C3 & C4). exists nd1. rewrite U1, F by assumption.
    split; [exact C1|]. split; [exact C2|]. split; [|exact C4]. intros j Hj'. rewrite upd2_other by lia. auto.
  - intros _ l H1. rewrite upd2_other by lia. apply (i_left _ _ _ _ _ _ I R). lia.
  - intros p Hp. upd2 0 p; [lia|]. intros A B. destruct (i_leaf_full _ _ _ _ _ _ I p Hp A B) as (nd1 & i & C). exists nd1, i. rewrite F by (try assumption; lia). exact C.
  - intros l1 p1 H1 H2. upd2 l1 p1; [lia|]. intros A B. destruct (i_branch_full _ _ _ _ _ _ I l1 p1 H1 H2 A B) as (j & Hj' & C). exists j. split; [exact Hj'|].
    pose proof (RG l1 p1 A ltac:(lia)). rewrite upd2_other by lia. exact C.
  - intros m. rewrite Hh'. destruct (Z.eqb_spec m r) as [|Nm]; [congruence|]. intros Hm. destruct (i_only _ _ _ _ _ _ I m Hm) as (A & l1 & p1 & B).
    split; [exact A|]. exists l1, p1. upd2 l1 p1; [subst; congruence|exact B].
  - intros m m'. rewrite !Hh'. destruct (m =? r); [congruence|]. destruct (m' =? r); [congruence|]. apply (i_apart _ _ _ _ _ _ I).
Qed.
End Inv.
