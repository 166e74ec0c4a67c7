(** * B+tree proofs: the contents of one node *)
From Verif Require Import Lib BtreeModel.
Ltac Zify.zify_post_hook ::= Z.div_mod_to_equations.

Definition slot (es : list (Z * Z)) (i : Z) : Z * Z := nth (Z.to_nat i) es (0, 0).
Lemma slot_app_l : forall e1 e2 i, 0 <= i < zlen e1 -> slot (e1 ++ e2) i = slot e1 i.
Proof. intros e1 e2 i H. unfold slot, zlen in *. apply app_nth1. lia. Qed.
Lemma slot_app_r : forall e1 e2 i, zlen e1 <= i -> slot (e1 ++ e2) i = slot e2 (i - zlen e1).
Proof. intros e1 e2 i H. unfold slot, zlen in *. rewrite app_nth2 by lia. f_equal. lia. Qed.
Lemma slot_0 : forall x es, slot (x :: es) 0 = x.
Proof. reflexivity. Qed.
Lemma slot_S : forall x es i, 0 < i -> slot (x :: es) i = slot es (i - 1).
Proof. intros x es i H. unfold slot. replace (Z.to_nat i) with (S (Z.to_nat (i - 1))) by lia. reflexivity. Qed.
Lemma slot_over : forall es i, zlen es <= i -> slot es i = (0, 0).
Proof. intros es i H. unfold slot, zlen in *. apply nth_overflow. lia. Qed.
Lemma slot_in : forall es i, 0 <= i < zlen es -> In (slot es i) es.
Proof. intros es i H. unfold slot, zlen in *. apply nth_In. lia. Qed.
Lemma slot_mid : forall e1 x e2, slot (e1 ++ x :: e2) (zlen e1) = x.
Proof. intros. rewrite slot_app_r by lia. rewrite Z.sub_diag. apply slot_0. Qed.

Section Cells.
Variable K : Z.
Hypothesis HK : 2 <= K < 2 ^ 31.

Definition cells (h : heap) (a : Z) (f : Z -> Z * Z) : Prop :=
  exists b, h a = Some b /\ zlen b = 2 * K /\ forall i, 0 <= i < K -> rd b i = Some (fst (f i)) /\ rd b (K + i) = Some (snd (f i)).
Definition only (h h' : heap) (a : Z) : Prop := forall n, n <> a -> h' n = h n.
Definition fput (f : Z -> Z * Z) (i : Z) (x : Z * Z) : Z -> Z * Z := fun j => if j =? i then x else f j.

Lemma cells_ext : forall h a f g, (forall i, 0 <= i < K -> f i = g i) -> cells h a f -> cells h a g.
Proof. intros h a f g E (b & H1 & H2 & H3). exists b. split; [exact H1|]. split; [exact H2|]. intros i Hi. rewrite <- E by exact Hi. auto. Qed.
Lemma cells_frame : forall h h' a f, h' a = h a -> cells h a f -> cells h' a f.
Proof. intros h h' a f E (b & H & R). exists b. rewrite E. auto. Qed.
Lemma cells_some : forall h a f, cells h a f -> h a <> None.
Proof. intros h a f (b & H & _). congruence. Qed.
Lemma only_refl : forall h a, only h h a.
Proof. intros h a n _. reflexivity. Qed.
Lemma only_trans : forall h1 h2 h3 a, only h1 h2 a -> only h2 h3 a -> only h1 h3 a.
Proof. intros h1 h2 h3 a A B n N. rewrite B, A by exact N. reflexivity. Qed.
Lemma word_rd : forall b i x, rd b i = Some x -> word b i = Some x.
Proof. intros b i x H. unfold word. pose proof (rd_range _ _ _ _ H). destruct (Z.ltb_spec i (zlen b)); [exact H|lia]. Qed.
Lemma get_key_ok : forall h a f i, cells h a f -> 0 <= i < K -> get_key h a i = Some (fst (f i)).
Proof. intros h a f i (b & H & _ & R) Hi. unfold get_key. rewrite H, w32_small by lia. apply word_rd, R, Hi. Qed.
Lemma get_value_ok : forall h a f i, cells h a f -> 0 <= i < K -> get_value K h a i = Some (snd (f i)).
Proof. intros h a f i (b & H & _ & R) Hi. unfold get_value. rewrite H, w32_small by lia. apply word_rd, R, Hi. Qed.
(** one past the last key slot is the first value *)
Lemma get_key_over : forall h a f, cells h a f -> get_key h a K = Some (snd (f 0)).
Proof. intros h a f (b & H & _ & R). unfold get_key. rewrite H, w32_small by lia. apply word_rd. replace K with (K + 0) at 1 by lia. apply R. lia. Qed.
Lemma hset_same : forall h a b, hset h a b a = b.
Proof. intros. unfold hset. rewrite Z.eqb_refl. reflexivity. Qed.
Lemma hset_other : forall h a b n, n <> a -> hset h a b n = h n.
Proof. intros. unfold hset. destruct (Z.eqb_spec n a); [contradiction|reflexivity]. Qed.
Lemma set_key_ok : forall h a f i k, cells h a f -> 0 <= i < K -> exists h', set_key h a i k = Some h' /\ cells h' a (fput f i (k, snd (f i))) /\ only h h' a.
Proof.
  intros h a f i k (b & H & L & R) Hi. unfold set_key. rewrite H, w32_small by lia. unfold store. destruct (Z.ltb_spec i (zlen b)) as [_|G]; [|lia].
  destruct (wr_spec _ b i k ltac:(lia)) as (b' & E & L' & R'). rewrite E. eexists. split; [reflexivity|]. split; [|intros n N; apply hset_other, N].
  exists b'. rewrite hset_same. split; [reflexivity|]. split; [lia|]. intros j Hj. rewrite !R'. destruct (R j Hj) as [R1 R2]. unfold fput. destruct (Z.eqb_spec (K + j) i); [lia|]. destruct (Z.eqb_spec j i) as [->|]; cbn [fst snd]; auto.
Qed.
Lemma set_value_ok : forall h a f i v, cells h a f -> 0 <= i < K -> exists h', set_value K h a i v = Some h' /\ cells h' a (fput f i (fst (f i), v)) /\ only h h' a.
Proof.
  intros h a f i v (b & H & L & R) Hi. unfold set_value. rewrite H, w32_small by lia. unfold store. destruct (Z.ltb_spec (K + i) (zlen b)) as [_|G]; [|lia].
  destruct (wr_spec _ b (K + i) v ltac:(lia)) as (b' & E & L' & R'). rewrite E. eexists. split; [reflexivity|]. split; [|intros n N; apply hset_other, N].
  exists b'. rewrite hset_same. split; [reflexivity|]. split; [lia|]. intros j Hj. rewrite !R'. destruct (R j Hj) as [R1 R2]. unfold fput. destruct (Z.eqb_spec j (K + i)); [lia|]. destruct (Z.eqb_spec (K + j) (K + i)), (Z.eqb_spec j i); try lia; subst; cbn [fst snd]; auto.
Qed.
Lemma set_both : forall h a f i k v, cells h a f -> 0 <= i < K -> exists h1 h', set_key h a i k = Some h1 /\ set_value K h1 a i v = Some h' /\ cells h' a (fput f i (k, v)) /\ only h h' a /\ only h h1 a.
Proof.
  intros h a f i k v C Hi. destruct (set_key_ok h a f i k C Hi) as (h1 & E1 & C1 & O1). destruct (set_value_ok h1 a _ i v C1 Hi) as (h' & E2 & C2 & O2). exists h1, h'.
  split; [exact E1|]. split; [exact E2|]. split; [|split; [apply (only_trans _ _ _ _ O1 O2)|exact O1]]. refine (cells_ext _ _ _ _ _ C2). intros j _. unfold fput. rewrite Z.eqb_refl. cbn [fst]. destruct (j =? i); reflexivity.
Qed.
Lemma clear_ok : forall h a f i, cells h a f -> 0 <= i < K -> exists h', clear_index K h a i = Some h' /\ cells h' a (fput f i (0, 0)) /\ only h h' a.
Proof.
  intros h a f i C Hi. unfold clear_index, NULL. destruct (set_value_ok h a f i 0 C Hi) as (h1 & E1 & C1 & O1). destruct (set_key_ok h1 a _ i 0 C1 Hi) as (h' & E2 & C2 & O2). rewrite E1, E2. eexists. split; [reflexivity|].
  split; [|apply (only_trans _ _ _ _ O1 O2)]. refine (cells_ext _ _ _ _ _ C2). intros j _. unfold fput. rewrite Z.eqb_refl. cbn [snd]. destruct (j =? i); reflexivity.
Qed.
Lemma migrate_self : forall h a f i j, cells h a f -> 0 <= i < K -> 0 <= j < K -> i <> j -> exists h', migrate K h a i a j = Some h' /\ cells h' a (fput f i (f j)) /\ only h h' a.
Proof.
  intros h a f i j C Hi Hj N. unfold migrate. rewrite (get_key_ok h a f j C Hj). destruct (set_key_ok h a f i (fst (f j)) C Hi) as (h1 & E1 & C1 & O1). rewrite E1. rewrite (get_value_ok h1 a _ j C1 Hj).
  unfold fput at 1. destruct (Z.eqb_spec j i); [congruence|]. destruct (set_value_ok h1 a _ i (snd (f j)) C1 Hi) as (h' & E2 & C2 & O2). rewrite E2. eexists. split; [reflexivity|].
  split; [|apply (only_trans _ _ _ _ O1 O2)]. refine (cells_ext _ _ _ _ _ C2). intros x _. unfold fput. rewrite Z.eqb_refl. cbn [fst]. destruct (x =? i); [|reflexivity]. destruct (f j); reflexivity.
Qed.
Lemma migrate_other : forall h a f c g i j, cells h a f -> cells h c g -> a <> c -> 0 <= i < K -> 0 <= j < K -> exists h', migrate K h a i c j = Some h' /\ cells h' a (fput f i (g j)) /\ only h h' a.
Proof.
  intros h a f c g i j C D N Hi Hj. unfold migrate. rewrite (get_key_ok h c g j D Hj). destruct (set_both h a f i (fst (g j)) (snd (g j)) C Hi) as (h1 & h' & E1 & E2 & C2 & O2 & O1). rewrite E1.
  assert (D1 : cells h1 c g) by (apply (cells_frame h); [apply O1; congruence|exact D]). rewrite (get_value_ok h1 c g j D1 Hj). rewrite E2. eexists. split; [reflexivity|]. split; [|exact O2]. destruct (g j); exact C2.
Qed.

(** ** Loops over the slots *)
Lemma fill_ok : forall h a es start, cells h a (slot es) -> Forall (fun e => snd e <> 0) es -> zlen es <= K -> 0 <= start <= zlen es -> fill_index K h a start = Some (zlen es).
Proof.
  intros h a es start C V L Hs. unfold fill_index. remember (Z.to_nat (K - start)) as n eqn:En. revert start Hs En. induction n as [|n IH]; intros start Hs En; cbn [fill_from].
  - f_equal. lia.
  - rewrite (get_value_ok h a _ start C) by lia. unfold NULL. destruct (Z.eq_dec start (zlen es)) as [->|N].
    + rewrite slot_over by lia. reflexivity.
    + rewrite Forall_forall in V. pose proof (V _ (slot_in es start ltac:(lia))) as Nz. destruct (Z.eqb_spec (snd (slot es start)) 0); [contradiction|]. apply IH; lia.
Qed.
Lemma key_find_le : forall a b, (key_find a b <=? 0) = (a <=? b).
Proof. intros. unfold key_find. destruct (Z.ltb_spec a b), (Z.ltb_spec b a), (Z.leb_spec a b); cbn; try reflexivity; lia. Qed.
Lemma find_ok : forall h a e1 e2 key k, cells h a (slot (e1 ++ e2)) -> deref h key = Some k -> zlen (e1 ++ e2) <= K -> 0 <= k ->
  Forall (fun e => k < fst e) e1 -> (forall x r, e2 = x :: r -> fst x <= k) -> find_index K h a key = Some (zlen e1).
Proof.
  intros h a e1 e2 key k C D L Hk G1 G2. unfold find_index. pose proof (zlen_app _ e1 e2) as LA. pose proof (zlen_nonneg _ e1) as N1. pose proof (zlen_nonneg _ e2) as N2.
  assert (G : forall n i, 0 <= i <= zlen e1 -> Z.of_nat n = K - i -> find_from n h a key i = Some (zlen e1)).
  { induction n as [|n IH]; intros i Hi Hn; cbn [find_from]; [f_equal; lia|]. unfold cmp_key. rewrite (get_key_ok h a _ i C), D, key_find_le by lia. destruct (Z.eq_dec i (zlen e1)) as [->|N].
    - replace (fst (slot (e1 ++ e2) (zlen e1)) <=? k) with true; [reflexivity|]. symmetry. apply Z.leb_le. rewrite slot_app_r, Z.sub_diag by lia. destruct e2 as [|x r]; [exact Hk|]. rewrite slot_0. eapply G2; reflexivity.
    - rewrite slot_app_l by lia. rewrite Forall_forall in G1. pose proof (G1 _ (slot_in e1 i ltac:(lia))). destruct (Z.leb_spec (fst (slot e1 i)) k); [lia|]. apply IH; lia. }
  apply G; lia.
Qed.
Lemma key_index_ok : forall h a e1 e2 k, cells h a (slot (e1 ++ e2)) -> zlen (e1 ++ e2) <= K -> 0 <= k ->
  Forall (fun e => k < fst e) e1 -> (forall x r, e2 = x :: r -> fst x <= k) ->
  key_index K h a (Val k) = Some match e2 with x :: _ => if fst x =? k then zlen e1 else K | [] => if (k =? 0) then zlen e1 else K end.
Proof.
  intros h a e1 e2 k C L Hk G1 G2. unfold key_index. pose proof (zlen_app _ e1 e2) as LA. pose proof (zlen_nonneg _ e1) as N1. pose proof (zlen_nonneg _ e2) as N2.
  assert (G : forall n i, 0 <= i <= zlen e1 -> Z.of_nat n = K - i -> key_from K n h a (Val k) i = Some match e2 with x :: _ => if fst x =? k then zlen e1 else K | [] => if (k =? 0) then zlen e1 else K end).
  { induction n as [|n IH]; intros i Hi Hn; cbn [key_from].
    - destruct e2 as [|x r]; [|rewrite zlen_cons in *; pose proof (zlen_nonneg _ r); lia]. change (zlen (@nil (Z * Z))) with 0 in *. destruct (k =? 0); f_equal; lia.
    - unfold cmp_key. rewrite (get_key_ok h a _ i C) by lia. cbn [deref]. destruct (Z.eq_dec i (zlen e1)) as [->|N].
      + rewrite slot_app_r, Z.sub_diag by lia. destruct e2 as [|x r].
        * cbn [slot fst nth Z.to_nat]. unfold slot. cbn. unfold key_find. destruct (Z.ltb_spec 0 k), (Z.ltb_spec k 0), (Z.eqb_spec k 0); cbn; try reflexivity; lia.
        * rewrite slot_0. pose proof (G2 x r eq_refl). unfold key_find. destruct (Z.ltb_spec (fst x) k), (Z.ltb_spec k (fst x)), (Z.eqb_spec (fst x) k); cbn; try reflexivity; lia.
      + rewrite slot_app_l by lia. rewrite Forall_forall in G1. pose proof (G1 _ (slot_in e1 i ltac:(lia))). unfold key_find. destruct (Z.ltb_spec (fst (slot e1 i)) k), (Z.ltb_spec k (fst (slot e1 i))); try lia. cbn. apply IH; lia. }
  apply G; lia.
Qed.
Lemma shift_up_ok : forall n h a f c, cells h a f -> Z.of_nat n <= c < K ->
  exists h', shift_up K n h a c = Some h' /\ cells h' a (fun i => if (c - Z.of_nat n <? i) && (i <=? c) then f (i - 1) else f i) /\ only h h' a.
Proof.
  induction n as [|n IH]; intros h a f c C Hc; cbn [shift_up].
  - eexists. split; [reflexivity|]. split; [|apply only_refl]. refine (cells_ext _ _ _ _ _ C). intros i _. destruct (Z.ltb_spec (c - Z.of_nat 0) i), (Z.leb_spec i c); try reflexivity; lia.
  - destruct (migrate_self h a f c (c - 1) C ltac:(lia) ltac:(lia) ltac:(lia)) as (h1 & E1 & C1 & O1). rewrite E1. destruct (IH h1 a _ (c - 1) C1 ltac:(lia)) as (h' & E2 & C2 & O2). rewrite E2. eexists. split; [reflexivity|].
    split; [|apply (only_trans _ _ _ _ O1 O2)]. refine (cells_ext _ _ _ _ _ C2). intros i _. unfold fput.
    destruct (Z.ltb_spec (c - 1 - Z.of_nat n) i), (Z.leb_spec i (c - 1)), (Z.ltb_spec (c - Z.of_nat (S n)) i), (Z.leb_spec i c); cbn [andb]; try lia.
    + destruct (Z.eqb_spec (i - 1) c); [lia|reflexivity].
    + destruct (Z.eqb_spec i c) as [->|]; [reflexivity|lia].
    + destruct (Z.eqb_spec i c); [lia|reflexivity].
    + destruct (Z.eqb_spec i c); [lia|reflexivity].
Qed.
Lemma insert_cells : forall h a e1 e2 key k v, cells h a (slot (e1 ++ e2)) -> zlen (e1 ++ e2) < K -> (forall h', only h h' a -> deref h' key = Some k) ->
  exists h1 h2 h', shift_up K (Z.to_nat (zlen (e1 ++ e2) - zlen e1)) h a (zlen (e1 ++ e2)) = Some h1 /\ deref h1 key = Some k /\ set_key h1 a (zlen e1) k = Some h2 /\ set_value K h2 a (zlen e1) v = Some h' /\
    cells h' a (slot (e1 ++ (k, v) :: e2)) /\ only h h' a.
Proof.
  intros h a e1 e2 key k v C L D. pose proof (zlen_app _ e1 e2) as LA. pose proof (zlen_nonneg _ e1) as N1. pose proof (zlen_nonneg _ e2) as N2.
  destruct (shift_up_ok (Z.to_nat (zlen (e1 ++ e2) - zlen e1)) h a _ (zlen (e1 ++ e2)) C ltac:(lia)) as (h1 & E1 & C1 & O1). destruct (set_both h1 a _ (zlen e1) k v C1 ltac:(lia)) as (h2 & h' & E2 & E3 & C2 & O2 & _).
  exists h1, h2, h'. split; [exact E1|]. split; [apply D, O1|]. split; [exact E2|]. split; [exact E3|]. split; [|apply (only_trans _ _ _ _ O1 O2)]. refine (cells_ext _ _ _ _ _ C2). intros i Hi. unfold fput.
  destruct (Z.eqb_spec i (zlen e1)) as [->|N]; [rewrite slot_mid; reflexivity|]. destruct (Z.ltb_spec (zlen (e1 ++ e2) - Z.of_nat (Z.to_nat (zlen (e1 ++ e2) - zlen e1))) i) as [G|G]; cbn [andb].
  - rewrite (slot_app_r e1 (_ :: _)) by lia. rewrite slot_S by lia. destruct (Z.leb_spec i (zlen (e1 ++ e2))).
    + rewrite slot_app_r by lia. f_equal. lia.
    + rewrite !slot_over by lia. reflexivity.
  - rewrite !slot_app_l by lia. reflexivity.
Qed.
Lemma shift_down_ok : forall n h a f c, cells h a f -> 0 <= c -> c + Z.of_nat n < K ->
  exists h', shift_down K n h a c = Some h' /\ cells h' a (fun i => if (c <=? i) && (i <? c + Z.of_nat n) then f (i + 1) else f i) /\ only h h' a.
Proof.
  induction n as [|n IH]; intros h a f c C Hc Hn; cbn [shift_down].
  - eexists. split; [reflexivity|]. split; [|apply only_refl]. refine (cells_ext _ _ _ _ _ C). intros i _. destruct (Z.leb_spec c i), (Z.ltb_spec i (c + Z.of_nat 0)); try reflexivity; lia.
  - destruct (migrate_self h a f c (c + 1) C ltac:(lia) ltac:(lia) ltac:(lia)) as (h1 & E1 & C1 & O1). rewrite E1. destruct (IH h1 a _ (c + 1) C1 ltac:(lia) ltac:(lia)) as (h' & E2 & C2 & O2). rewrite E2. eexists. split; [reflexivity|].
    split; [|apply (only_trans _ _ _ _ O1 O2)]. refine (cells_ext _ _ _ _ _ C2). intros i _. unfold fput.
    destruct (Z.leb_spec (c + 1) i), (Z.ltb_spec i (c + 1 + Z.of_nat n)), (Z.leb_spec c i), (Z.ltb_spec i (c + Z.of_nat (S n))); cbn [andb]; try lia.
    + destruct (Z.eqb_spec (i + 1) c); [lia|reflexivity].
    + destruct (Z.eqb_spec i c); [lia|reflexivity].
    + destruct (Z.eqb_spec i c) as [->|]; [reflexivity|lia].
    + destruct (Z.eqb_spec i c); [lia|reflexivity].
Qed.
Lemma remove_cells : forall h a e1 x e2, cells h a (slot (e1 ++ x :: e2)) -> zlen (e1 ++ x :: e2) <= K ->
  let last := w32 (zlen (e1 ++ x :: e2) - 1) in
  last = zlen (e1 ++ e2) /\ exists h1 h', shift_down K (Z.to_nat (last - zlen e1)) h a (zlen e1) = Some h1 /\ clear_index K h1 a (Z.max (zlen e1) last) = Some h' /\ cells h' a (slot (e1 ++ e2)) /\ only h h' a.
Proof.
  intros h a e1 x e2 C L last. pose proof (zlen_app _ e1 e2) as LA. rewrite zlen_app, zlen_cons in L. pose proof (zlen_nonneg _ e1) as N1. pose proof (zlen_nonneg _ e2) as N2.
  assert (EL : last = zlen (e1 ++ e2)) by (unfold last; rewrite zlen_app, zlen_cons, w32_small by lia; lia). split; [exact EL|]. rewrite EL.
  destruct (shift_down_ok (Z.to_nat (zlen (e1 ++ e2) - zlen e1)) h a _ (zlen e1) C ltac:(lia) ltac:(lia)) as (h1 & E1 & C1 & O1). replace (Z.max (zlen e1) (zlen (e1 ++ e2))) with (zlen (e1 ++ e2)) by lia.
  destruct (clear_ok h1 a _ (zlen (e1 ++ e2)) C1 ltac:(lia)) as (h' & E2 & C2 & O2). exists h1, h'. split; [exact E1|]. split; [exact E2|]. split; [|apply (only_trans _ _ _ _ O1 O2)]. refine (cells_ext _ _ _ _ _ C2). intros i Hi. unfold fput.
  destruct (Z.eqb_spec i (zlen (e1 ++ e2))) as [->|N]; [rewrite slot_over by lia; reflexivity|]. destruct (Z.leb_spec (zlen e1) i); cbn [andb].
  - destruct (Z.ltb_spec i (zlen e1 + Z.of_nat (Z.to_nat (zlen (e1 ++ e2) - zlen e1)))).
    + rewrite (slot_app_r e1 (x :: e2)) by lia. rewrite slot_S by lia. rewrite slot_app_r by lia. f_equal. lia.
    + rewrite !slot_over by (rewrite ?zlen_app, ?zlen_cons; lia). reflexivity.
  - rewrite !slot_app_l by lia. reflexivity.
Qed.
Lemma append_ok : forall n h l f r g lf c, cells h l f -> cells h r g -> l <> r -> 0 <= lf -> 0 <= c -> lf + c + Z.of_nat n <= K ->
  exists h', append_from K n h l lf r c = Some h' /\ cells h' l (fun i => if (lf + c <=? i) && (i <? lf + c + Z.of_nat n) then g (i - lf) else f i) /\ only h h' l.
Proof.
  induction n as [|n IH]; intros h l f r g lf c C D N Hf Hc Hn; cbn [append_from].
  - eexists. split; [reflexivity|]. split; [|apply only_refl]. refine (cells_ext _ _ _ _ _ C). intros i _. destruct (Z.leb_spec (lf + c) i), (Z.ltb_spec i (lf + c + Z.of_nat 0)); try reflexivity; lia.
  - destruct (migrate_other h l f r g (lf + c) c C D N ltac:(lia) ltac:(lia)) as (h1 & E1 & C1 & O1). rewrite E1.
    destruct (IH h1 l _ r g lf (c + 1) C1) as (h' & E2 & C2 & O2); try lia; try exact N; [apply (cells_frame h); [apply O1; congruence|exact D]|]. rewrite E2. eexists. split; [reflexivity|].
    split; [|apply (only_trans _ _ _ _ O1 O2)]. refine (cells_ext _ _ _ _ _ C2). intros i _. unfold fput.
    destruct (Z.leb_spec (lf + (c + 1)) i), (Z.ltb_spec i (lf + (c + 1) + Z.of_nat n)), (Z.leb_spec (lf + c) i), (Z.ltb_spec i (lf + c + Z.of_nat (S n))); cbn [andb]; try lia; try reflexivity.
    + destruct (Z.eqb_spec i (lf + c)); [lia|reflexivity].
    + destruct (Z.eqb_spec i (lf + c)) as [->|]; [f_equal; lia|lia].
    + destruct (Z.eqb_spec i (lf + c)); [lia|reflexivity].
Qed.
Lemma append_cells : forall h l e1 r e2, cells h l (slot e1) -> cells h r (slot e2) -> l <> r -> zlen e2 + zlen e1 <= K ->
  exists h', append_from K (Z.to_nat (zlen e2)) h l (zlen e1) r 0 = Some h' /\ cells h' l (slot (e1 ++ e2)) /\ only h h' l.
Proof.
  intros h l e1 r e2 C D N L. pose proof (zlen_app _ e1 e2) as LA. pose proof (zlen_nonneg _ e1) as N1. pose proof (zlen_nonneg _ e2) as N2.
  destruct (append_ok (Z.to_nat (zlen e2)) h l _ r _ (zlen e1) 0 C D N ltac:(lia) ltac:(lia) ltac:(lia)) as (h' & E & C' & O). exists h'. split; [exact E|]. split; [|exact O]. refine (cells_ext _ _ _ _ _ C'). intros i Hi.
  destruct (Z.leb_spec (zlen e1 + 0) i); cbn [andb].
  - destruct (Z.ltb_spec i (zlen e1 + 0 + Z.of_nat (Z.to_nat (zlen e2)))); [rewrite slot_app_r by lia; reflexivity|]. rewrite !slot_over by lia. reflexivity.
  - rewrite slot_app_l by lia. reflexivity.
Qed.
Lemma split_ok : forall n h a f b g c H, cells h a f -> cells h b g -> a <> b -> 0 <= c -> c + Z.of_nat n <= H -> 2 * H <= K ->
  exists h', split_from K n h a b c H = Some h' /\
    cells h' a (fun i => if (c <=? i) && (i <? c + Z.of_nat n) then g i else f i) /\
    cells h' b (fun i => if (c <=? i) && (i <? c + Z.of_nat n) then g (i + H) else if (c + H <=? i) && (i <? c + H + Z.of_nat n) then (0, 0) else g i) /\
    (forall x, x <> a -> x <> b -> h' x = h x).
Proof.
  induction n as [|n IH]; intros h a f b g c H C D N Hc Hn HH; cbn [split_from].
  - eexists. split; [reflexivity|]. split; [|split]; [| |reflexivity].
    + refine (cells_ext _ _ _ _ _ C). intros i _. destruct (Z.leb_spec c i), (Z.ltb_spec i (c + Z.of_nat 0)); try reflexivity; lia.
    + refine (cells_ext _ _ _ _ _ D). intros i _. destruct (Z.leb_spec c i), (Z.ltb_spec i (c + Z.of_nat 0)), (Z.leb_spec (c + H) i), (Z.ltb_spec i (c + H + Z.of_nat 0)); try reflexivity; lia.
  - destruct (migrate_other h a f b g c c C D N ltac:(lia) ltac:(lia)) as (h1 & E1 & C1 & O1). rewrite E1.
    assert (D1 : cells h1 b g) by (apply (cells_frame h); [apply O1; congruence|exact D]).
    destruct (migrate_self h1 b g c (c + H) D1 ltac:(lia) ltac:(lia) ltac:(lia)) as (h2 & E2 & D2 & O2). rewrite E2.
    destruct (clear_ok h2 b _ (c + H) D2 ltac:(lia)) as (h3 & E3 & D3 & O3). rewrite E3.
    assert (C3 : cells h3 a (fput f c (g c))) by (apply (cells_frame h2); [apply O3, N|]; apply (cells_frame h1); [apply O2, N|exact C1]).
    destruct (IH h3 a _ b _ (c + 1) H C3 D3 N ltac:(lia) ltac:(lia) HH) as (h' & E4 & C4 & D4 & O4). rewrite E4. eexists. split; [reflexivity|]. split; [|split].
    + refine (cells_ext _ _ _ _ _ C4). intros i _. unfold fput. destruct (Z.leb_spec (c + 1) i), (Z.ltb_spec i (c + 1 + Z.of_nat n)), (Z.leb_spec c i), (Z.ltb_spec i (c + Z.of_nat (S n))); cbn [andb]; try lia; try reflexivity;
        try (destruct (Z.eqb_spec i c); [lia|]; destruct (Z.eqb_spec i (c + H)); [lia|reflexivity]).
      * destruct (Z.eqb_spec i c); [lia|reflexivity].
      * destruct (Z.eqb_spec i c) as [->|]; [reflexivity|lia].
    + refine (cells_ext _ _ _ _ _ D4). intros i _. unfold fput. destruct (Z.leb_spec (c + 1) i), (Z.ltb_spec i (c + 1 + Z.of_nat n)), (Z.leb_spec c i), (Z.ltb_spec i (c + Z.of_nat (S n))); cbn [andb]; try lia.
      * destruct (Z.eqb_spec (i + H) (c + H)); [lia|]. destruct (Z.eqb_spec (i + H) c); [lia|reflexivity].
      * destruct (Z.leb_spec (c + 1 + H) i), (Z.ltb_spec i (c + 1 + H + Z.of_nat n)), (Z.leb_spec (c + H) i), (Z.ltb_spec i (c + H + Z.of_nat (S n))); cbn [andb]; try lia; try reflexivity; destruct (Z.eqb_spec i (c + H)), (Z.eqb_spec i c); try lia; try reflexivity.
      * destruct (Z.leb_spec (c + 1 + H) i), (Z.ltb_spec i (c + 1 + H + Z.of_nat n)); cbn [andb]; try lia; destruct (Z.eqb_spec i (c + H)), (Z.eqb_spec i c); try lia; subst; try reflexivity.
      * destruct (Z.leb_spec (c + 1 + H) i), (Z.ltb_spec i (c + 1 + H + Z.of_nat n)), (Z.leb_spec (c + H) i), (Z.ltb_spec i (c + H + Z.of_nat (S n))); cbn [andb]; try lia; try reflexivity; destruct (Z.eqb_spec i (c + H)), (Z.eqb_spec i c); try lia; try reflexivity.
    + intros x Na Nb. rewrite O4, O3, O2, O1 by assumption. reflexivity.
Qed.
Lemma split_cells : forall h a b e1 e2, cells h a (slot []) -> cells h b (slot (e1 ++ e2)) -> a <> b -> zlen e1 = zlen e2 -> zlen (e1 ++ e2) = K ->
  exists h', split_from K (Z.to_nat (K / 2)) h a b 0 (K / 2) = Some h' /\ cells h' a (slot e1) /\ cells h' b (slot e2) /\ (forall x, x <> a -> x <> b -> h' x = h x).
Proof.
  intros h a b e1 e2 C D N L1 L2. rewrite zlen_app in L2. assert (E : K / 2 = zlen e1) by lia. rewrite E.
  destruct (split_ok (Z.to_nat (zlen e1)) h a _ b _ 0 (zlen e1) C D N ltac:(lia) ltac:(lia) ltac:(lia)) as (h' & E1 & C1 & D1 & O1). exists h'. split; [exact E1|]. split; [|split; [|exact O1]].
  - refine (cells_ext _ _ _ _ _ C1). intros i Hi. destruct (Z.leb_spec 0 i), (Z.ltb_spec i (0 + Z.of_nat (Z.to_nat (zlen e1)))); cbn [andb]; try lia; [rewrite slot_app_l by lia; reflexivity|]. rewrite !slot_over by (rewrite ?zlen_nil; lia). reflexivity.
  - refine (cells_ext _ _ _ _ _ D1). intros i Hi. destruct (Z.leb_spec 0 i), (Z.ltb_spec i (0 + Z.of_nat (Z.to_nat (zlen e1)))); cbn [andb]; try lia; [rewrite slot_app_r by lia; f_equal; lia|].
    destruct (Z.leb_spec (0 + zlen e1) i), (Z.ltb_spec i (0 + zlen e1 + Z.of_nat (Z.to_nat (zlen e1)))); cbn [andb]; try lia. rewrite slot_over by lia. reflexivity.
Qed.
Lemma fresh_cells : forall h a, cells (hset h a (Some (repeat 0 (Z.to_nat (2 * K))))) a (slot []).
Proof.
  intros h a. eexists. rewrite hset_same. split; [reflexivity|]. assert (L : zlen (repeat 0 (Z.to_nat (2 * K))) = 2 * K) by (unfold zlen; rewrite repeat_length; lia). split; [exact L|].
  assert (G : forall i, 0 <= i < 2 * K -> rd (repeat 0 (Z.to_nat (2 * K))) i = Some 0). { intros i Hi. destruct (rd_some _ (repeat 0 (Z.to_nat (2 * K))) i ltac:(lia)) as (x & E). rewrite E. apply rd_in, repeat_spec in E. congruence. }
  intros i Hi. rewrite slot_over by (rewrite zlen_nil; lia). cbn [fst snd]. split; apply G; lia.
Qed.
End Cells.
