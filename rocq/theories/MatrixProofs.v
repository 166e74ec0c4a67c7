(** * Proofs about src/matrix.c *)
From Verif Require Import Lib MpiModel MatrixModel MatrixSpec.
Ltac Zify.zify_post_hook ::= Z.div_mod_to_equations.

Lemma rd_nth : forall l i, 0 <= i < zlen l -> rd l i = Some (nth (Z.to_nat i) l 0).
Proof.
  intros l i H. unfold rd, zlen in *. destruct (Z.ltb_spec i 0); [lia|]. apply nth_error_nth'. lia.
Qed.
Lemma rd_nth_inv : forall l i x, rd l i = Some x -> nth (Z.to_nat i) l 0 = x.
Proof. intros l i x H. pose proof (rd_range _ _ _ _ H). rewrite rd_nth in H by lia. congruence. Qed.
Lemma resize_len : forall junk d n, 0 <= n -> zlen (resize junk d n) = n.
Proof.
  intros. unfold resize, zlen. rewrite app_length, firstn_length, repeat_length. lia.
Qed.
Lemma resize_same : forall junk d, resize junk d (zlen d) = d.
Proof.
  intros. unfold resize, zlen. rewrite Nat2Z.id, firstn_all, Nat.sub_diag. apply app_nil_r.
Qed.
Lemma Forall_rd : forall (P : Z -> Prop) (l : list Z), (forall i x, rd l i = Some x -> P x) -> Forall P l.
Proof.
  intros P l H. apply Forall_forall. intros x Hx. destruct (In_nth_error _ _ Hx) as [n E].
  apply (H (Z.of_nat n)). unfold rd. destruct (Z.ltb_spec (Z.of_nat n) 0); [lia|]. rewrite Nat2Z.id. exact E.
Qed.
Lemma rd_Forall : forall (P : Z -> Prop) (l : list Z) i x, Forall P l -> rd l i = Some x -> P x.
Proof. intros P l i x H E. rewrite Forall_forall in H. apply H. eapply rd_in; eauto. Qed.

(** The source still reads as the list [a] at all cells from [k] on. *)
Definition srcat (s : src) (d a : list Z) (k : Z) : Prop := forall i, k <= i -> rds s d i = rd a i.
Lemma srcat_wr : forall s d d' a k v, srcat s d a k -> wr d k v = Some d' -> srcat s d' a (k + 1).
Proof.
  intros s d d' a k v H W i Hi. destruct (wr_inv _ _ _ _ _ W) as (_ & _ & R).
  destruct s; cbn [rds] in *; [apply (H i); lia|]. rewrite R. destruct (Z.eqb_spec i k); [lia|]. apply (H i). lia.
Qed.
Lemma cell_loop_ok : forall op n k d sa sb a b, 0 <= k -> k + Z.of_nat n = zlen d -> zlen a = zlen d -> zlen b = zlen d ->
  srcat sa d a k -> srcat sb d b k ->
  exists d', cell_loop op n k d sa sb = Some d' /\ zlen d' = zlen d /\
    forall i, rd d' i = if i <? k then rd d i else let* x := rd a i in let* y := rd b i in Some (w64 (op x y)).
Proof.
  intros op n. induction n as [|n IH]; intros k d sa sb a b Hk Hn La Lb Ha Hb; cbn [cell_loop].
  - exists d. split; [reflexivity|]. split; [reflexivity|]. intros i. destruct (Z.ltb_spec i k); [reflexivity|].
    replace (rd a i) with (@None Z) by (symmetry; apply rd_none_iff; lia). apply rd_none_iff. lia.
  - rewrite (Ha k), (Hb k) by lia. rewrite !rd_nth by lia.
    destruct (wr_spec _ d k (w64 (op (nth (Z.to_nat k) a 0) (nth (Z.to_nat k) b 0)))) as (d1 & W & L1 & R1); [lia|].
    rewrite W.
    destruct (IH (k + 1) d1 sa sb a b) as (d' & E & L & R); [lia|lia|lia|lia| | |].
    { eapply srcat_wr; eauto. } { eapply srcat_wr; eauto. }
    exists d'. split; [exact E|]. split; [lia|]. intros i. rewrite R, R1.
    destruct (Z.ltb_spec i (k + 1)), (Z.ltb_spec i k), (Z.eqb_spec i k); try lia; try reflexivity.
    subst i. rewrite !rd_nth by lia. reflexivity.
Qed.

Lemma w32_size : forall m, wfm m -> w32 (row m * col m) = row m * col m.
Proof. intros m (A & B & C & D & E). apply w32_small. nia. Qed.
Lemma entry_idx : forall c i j r, 0 <= i < r -> 0 <= j < c -> 0 <= i * c + j < r * c.
Proof. intros. nia. Qed.

Lemma matrix_addsub_ok : forall op junk al dest va vb, wfm va -> wfm vb -> row va = row vb -> col va = col vb ->
  (al = DestAB -> va = vb) ->
  exists r, matrix_addsub op true junk al dest va vb = Some (0, r) /\ wfm r /\ row r = row va /\ col r = col va /\
    forall i j, 0 <= i < row va -> 0 <= j < col va -> entry r i j = (op (entry va i j) (entry vb i j)) mod 2 ^ 64.
Proof.
  intros op junk al dest va vb Ha Hb Er Ec Eab. unfold matrix_addsub.
  rewrite Er, Ec, !Z.eqb_refl. cbn [negb orb]. rewrite <- Er, <- Ec. rewrite w32_size by assumption.
  destruct Ha as (A1 & A2 & A3 & A4 & A5), Hb as (B1 & B2 & B3 & B4 & B5).
  set (d0 := cells (match al with DestA | DestAB => va | DestB => vb | Distinct => dest end)).
  set (sz := row va * col va) in *.
  assert (Lb : zlen (cells vb) = sz) by (unfold sz; rewrite B4, Er, Ec; reflexivity).
  destruct (cell_loop_ok op (Z.to_nat sz) 0 (resize junk d0 sz) (srcof (isA al) (cells va)) (srcof (isB al) (cells vb)) (cells va) (cells vb)) as (d' & E & L & R).
  - lia.
  - rewrite resize_len by (unfold sz; nia). rewrite Z2Nat.id by (unfold sz; nia). lia.
  - rewrite resize_len by (unfold sz; nia). exact A4.
  - rewrite resize_len by (unfold sz; nia). exact Lb.
  - intros i _. subst d0. destruct al; cbn [isA srcof rds]; try reflexivity.
    + fold sz in A4. rewrite <- A4, resize_same. reflexivity.
    + fold sz in A4. rewrite <- A4, resize_same. reflexivity.
  - intros i _. subst d0. destruct al; cbn [isB srcof rds]; try reflexivity.
    + rewrite <- Lb, resize_same. reflexivity.
    + rewrite <- (Eab eq_refl) in *. rewrite <- Lb, resize_same. reflexivity.
  - rewrite resize_len in L by (unfold sz; nia). rewrite E. eexists. split; [reflexivity|].
    split; [|split; [reflexivity|split; [reflexivity|]]].
    + unfold wfm. cbn [row col cells]. repeat split; try assumption.
      apply Forall_rd. intros i x Hx. rewrite R in Hx. destruct (Z.ltb_spec i 0).
      { pose proof (rd_range _ _ _ _ Hx). lia. }
      destruct (rd (cells va) i); [|discriminate]. destruct (rd (cells vb) i); [|discriminate].
      injection Hx as <-. apply w64_range.
    + intros i j Hi Hj. unfold entry. cbn [row col cells]. rewrite <- Ec.
      pose proof (entry_idx (col va) i j (row va) Hi Hj) as Ix. fold sz in Ix.
      specialize (R (i * col va + j)). destruct (Z.ltb_spec (i * col va + j) 0); [lia|].
      rewrite !rd_nth in R by lia. injection R as R. exact R.
Qed.

(** ** Products *)
Lemma mul_row_ok : forall n k adr arow adb brow v, 0 <= k -> 0 <= arow -> 0 <= brow ->
  arow + k + Z.of_nat n <= zlen adr -> brow + k + Z.of_nat n <= zlen adb ->
  exists adr', mul_row n k adr arow adb brow v = Some adr' /\ zlen adr' = zlen adr /\
    forall i, rd adr' i = if (arow + k <=? i) && (i <? arow + k + Z.of_nat n)
                          then Some (w64 (nth (Z.to_nat i) adr 0 + v * nth (Z.to_nat (brow + (i - arow))) adb 0))
                          else rd adr i.
Proof.
  induction n as [|n IH]; intros k adr arow adb brow v Hk Har Hbr La Lb; cbn [mul_row].
  - exists adr. split; [reflexivity|]. split; [reflexivity|]. intros i.
    destruct (Z.leb_spec (arow + k) i), (Z.ltb_spec i (arow + k + Z.of_nat 0)); try lia; reflexivity.
  - rewrite !rd_nth by lia.
    match goal with |- context [wr adr ?i ?v] => destruct (wr_spec _ adr i v) as (d1 & W & L1 & R1); [lia|]; rewrite W end.
    destruct (IH (k + 1) d1 arow adb brow v) as (d' & E & L & R); [lia|lia|lia|lia|lia|].
    exists d'. split; [exact E|]. split; [lia|]. intros i. rewrite R.
    destruct (Z.leb_spec (arow + (k + 1)) i), (Z.ltb_spec i (arow + (k + 1) + Z.of_nat n)),
      (Z.leb_spec (arow + k) i), (Z.ltb_spec i (arow + k + Z.of_nat (S n))); try lia; cbn [andb].
    + f_equal. f_equal. f_equal. specialize (R1 i). destruct (Z.eqb_spec i (arow + k)); [lia|].
      rewrite !rd_nth in R1 by lia. congruence.
    + rewrite R1. destruct (Z.eqb_spec i (arow + k)); [lia|reflexivity].
    + rewrite R1. destruct (Z.eqb_spec i (arow + k)); [|lia]. subst i. do 4 f_equal. f_equal. lia.
    + rewrite R1. destruct (Z.eqb_spec i (arow + k)); [lia|reflexivity].
Qed.

Lemma w64_add_mul : forall x v y, w64 (w64 x + v * y) = w64 (x + v * y).
Proof. intros. unfold w64. apply Zplus_mod_idemp_l. Qed.

(** Row [r] accumulates columns [c ..] of [ada]; the other rows are untouched. *)
Lemma mul_cols_ok : forall n c adr ada adb r acol bcol rows,
  0 <= c -> 0 <= r < rows -> 0 <= bcol -> 0 <= acol -> c + Z.of_nat n <= acol ->
  zlen adr = rows * bcol -> rows * acol <= zlen ada -> acol * bcol <= zlen adb ->
  exists adr', mul_cols n c adr ada adb r acol bcol = Some adr' /\ zlen adr' = zlen adr /\
    (forall j, 0 <= j < bcol -> exists x, rd adr (r * bcol + j) = Some x /\ rd adr' (r * bcol + j) =
      Some (if (n =? 0)%nat then x else w64 (x + sum n (fun k => nth (Z.to_nat (r * acol + (c + k))) ada 0 * nth (Z.to_nat ((c + k) * bcol + j)) adb 0)))) /\
    (forall i, ~ (r * bcol <= i < (r + 1) * bcol) -> rd adr' i = rd adr i).
Proof.
  induction n as [|n IH] using nat_ind; intros c adr ada adb r acol bcol rows Hc Hr Hb Ha Hn L La Lb; cbn [mul_cols].
  - exists adr. split; [reflexivity|]. split; [reflexivity|]. split; [|reflexivity].
    intros j Hj. assert (0 <= r * bcol + j < zlen adr) by nia. exists (nth (Z.to_nat (r * bcol + j)) adr 0).
    cbn [Nat.eqb]. split; apply rd_nth; lia.
  - rewrite (rd_nth ada) by nia.
    destruct (mul_row_ok (Z.to_nat bcol) 0 adr (r * bcol) adb (c * bcol) (nth (Z.to_nat (r * acol + c)) ada 0)) as (d1 & E1 & L1 & R1); [lia|nia|nia|nia|nia|].
    rewrite E1.
    destruct (IH (c + 1) d1 ada adb r acol bcol rows) as (d' & E & L' & R & Rest); [lia|lia|lia|lia|lia|lia|lia|lia|].
    exists d'. split; [exact E|]. split; [lia|]. split.
    + intros j Hj. destruct (R j Hj) as (x1 & X1 & X2). rewrite R1 in X1.
      destruct (Z.leb_spec (r * bcol + 0) (r * bcol + j)), (Z.ltb_spec (r * bcol + j) (r * bcol + 0 + Z.of_nat (Z.to_nat bcol))); try lia.
      cbn [andb] in X1. injection X1 as <-. rewrite X2.
      assert (0 <= r * bcol + j < zlen adr) by nia.
      exists (nth (Z.to_nat (r * bcol + j)) adr 0). split; [apply rd_nth; lia|].
      replace (r * bcol + j - r * bcol) with j by lia.
      change ((S n =? 0)%nat) with false. cbv iota. f_equal.
      assert (Shift : forall m f, sum (S m) f = f 0 + sum m (fun k => f (1 + k))).
      { clear. induction m as [|m IHm]; intros f; [cbn; lia|]. cbn [sum] in *. rewrite IHm. rewrite <- Z.add_assoc. do 3 f_equal. lia. }
      rewrite Shift. rewrite !Z.add_0_r.
      destruct (Nat.eqb_spec n 0) as [En|Nz].
      * rewrite En. cbn [sum]. rewrite Z.add_0_r. reflexivity.
      * unfold w64. rewrite Zplus_mod_idemp_l. f_equal. rewrite <- Z.add_assoc. f_equal. f_equal.
        clear. induction n as [|m IHm]; [reflexivity|]. cbn [sum]. rewrite IHm.
        replace (c + (1 + Z.of_nat m)) with (c + 1 + Z.of_nat m) by lia. reflexivity.
    + intros i Hi. rewrite Rest by exact Hi. rewrite R1.
      destruct (Z.leb_spec (r * bcol + 0) i), (Z.ltb_spec i (r * bcol + 0 + Z.of_nat (Z.to_nat bcol))); try reflexivity.
      exfalso. apply Hi. lia.
Qed.
Lemma mul_rows_ok : forall n r adr ada adb acol bcol rows,
  0 <= r -> 0 <= bcol -> 0 <= acol -> r + Z.of_nat n <= rows ->
  zlen adr = rows * bcol -> rows * acol <= zlen ada -> acol * bcol <= zlen adb ->
  exists adr', mul_rows n r adr ada adb acol bcol = Some adr' /\ zlen adr' = zlen adr /\
    (forall i j, r <= i < r + Z.of_nat n -> 0 <= j < bcol -> exists x, rd adr (i * bcol + j) = Some x /\ rd adr' (i * bcol + j) =
      Some (if (Z.to_nat acol =? 0)%nat then x else w64 (x + sum (Z.to_nat acol) (fun k => nth (Z.to_nat (i * acol + k)) ada 0 * nth (Z.to_nat (k * bcol + j)) adb 0)))) /\
    (forall i, ~ (r * bcol <= i < (r + Z.of_nat n) * bcol) -> rd adr' i = rd adr i).
Proof.
  induction n as [|n IH]; intros r adr ada adb acol bcol rows Hr Hb Ha Hn L La Lb; cbn [mul_rows].
  - exists adr. split; [reflexivity|]. split; [reflexivity|]. split; [intros; lia|reflexivity].
  - destruct (mul_cols_ok (Z.to_nat acol) 0 adr ada adb r acol bcol rows) as (d1 & E1 & L1 & R1 & Rest1); try lia.
    rewrite E1.
    destruct (IH (r + 1) d1 ada adb acol bcol rows) as (d' & E & L' & R & Rest); try lia.
    exists d'. split; [exact E|]. split; [lia|]. split.
    + intros i j Hi Hj. destruct (Z.eq_dec i r) as [->|Ne].
      * destruct (R1 j Hj) as (x & X1 & X2). exists x. split; [exact X1|].
        rewrite Rest by nia. rewrite X2. reflexivity.
      * destruct (R i j ltac:(lia) Hj) as (x & X1 & X2). exists x. split; [|exact X2].
        rewrite <- X1. symmetry. apply Rest1. nia.
    + intros i Hi. rewrite Rest by nia. apply Rest1. nia.
Qed.

Lemma sum_ext : forall n f g, (forall k, 0 <= k < Z.of_nat n -> f k = g k) -> sum n f = sum n g.
Proof.
  induction n as [|n IH]; intros f g H; [reflexivity|]. cbn [sum]. rewrite (IH f g), H by (intros; try apply H; lia). reflexivity.
Qed.

Lemma matrix_mul_ok : forall al dest va vb, wfm va -> wfm vb -> col va = row vb -> row va * col vb < 2 ^ 32 ->
  exists r, matrix_mul true true al dest va vb = Some (0, r) /\ wfm r /\ row r = row va /\ col r = col vb /\
    forall i j, 0 <= i < row va -> 0 <= j < col vb -> entry r i j = product_entry va vb i j.
Proof.
  intros al dest va vb (A1 & A2 & A3 & A4 & A5) (B1 & B2 & B3 & B4 & B5) Ec Hs. unfold matrix_mul.
  rewrite Ec, Z.eqb_refl. cbn [negb]. rewrite <- Ec. rewrite w32_small by nia.
  set (sz := row va * col vb).
  assert (Lz : zlen (repeat 0 (Z.to_nat sz)) = sz) by (unfold zlen; rewrite repeat_length; unfold sz; nia).
  destruct (mul_rows_ok (Z.to_nat (row va)) 0 (repeat 0 (Z.to_nat sz)) (cells va) (cells vb) (col va) (col vb) (row va)) as (adr & E & L & R & _).
  { lia. } { lia. } { lia. } { lia. } { exact Lz. } { lia. } { rewrite Ec. lia. }
  rewrite E. rewrite Lz in L.
  set (r := Matrix (row va) (col vb) adr).
  assert (Rr : forall i j, 0 <= i < row va -> 0 <= j < col vb -> entry r i j = product_entry va vb i j).
  { intros i j Hi Hj. unfold entry, product_entry, r. cbn [row col cells].
    destruct (R i j ltac:(lia) Hj) as (x & X1 & X2).
    assert (x = 0).
    { apply rd_in in X1. apply repeat_spec in X1. exact X1. }
    subst x. apply rd_nth_inv in X2. rewrite X2.
    destruct (Nat.eqb_spec (Z.to_nat (col va)) 0) as [->|_]; [reflexivity|].
    rewrite Z.add_0_l. unfold w64, entry. reflexivity. }
  assert (Wr : wfm r).
  { unfold wfm, r. cbn [row col cells]. repeat split; try assumption.
    apply Forall_rd. intros i x Hx. pose proof (rd_range _ _ _ _ Hx) as Ix. rewrite L in Ix.
    assert (0 < col vb) by (unfold sz in Ix; nia).
    assert (Q1 : 0 <= i / col vb < row va) by (split; [apply Z.div_pos; lia|apply Z.div_lt_upper_bound; unfold sz in Ix; nia]).
    assert (Q2 : 0 <= i mod col vb < col vb) by (apply Z.mod_pos_bound; lia).
    specialize (Rr _ _ Q1 Q2). unfold entry, r in Rr. cbn [row col cells] in Rr.
    replace (i / col vb * col vb + i mod col vb) with i in Rr by (rewrite (Z.mul_comm (i / col vb)), <- Z_div_mod_eq_full; reflexivity).
    apply rd_nth_inv in Hx. rewrite Hx in Rr. rewrite Rr. unfold product_entry, u64. apply Z.mod_pos_bound. lia. }
  exists r. split; [|repeat split; try reflexivity; try assumption; apply Wr].
  destruct al; cbn beta iota.
  - reflexivity.
  - unfold matrix_set, r. cbn [row col cells negb]. rewrite w32_small by (unfold sz in *; nia).
    fold sz. rewrite L, Z.ltb_irrefl. replace (Z.to_nat sz) with (length adr) by (unfold zlen in L; lia). rewrite firstn_all. reflexivity.
  - unfold matrix_set, r. cbn [row col cells negb]. rewrite w32_small by (unfold sz in *; nia).
    fold sz. rewrite L, Z.ltb_irrefl. replace (Z.to_nat sz) with (length adr) by (unfold zlen in L; lia). rewrite firstn_all. reflexivity.
  - unfold matrix_set, r. cbn [row col cells negb]. rewrite w32_small by (unfold sz in *; nia).
    fold sz. rewrite L, Z.ltb_irrefl. replace (Z.to_nat sz) with (length adr) by (unfold zlen in L; lia). rewrite firstn_all. reflexivity.
Qed.
