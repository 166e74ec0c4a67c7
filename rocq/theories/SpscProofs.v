From Coq Require Import Lia Permutation.
From Verif Require Import Lib Mem FifoModel FifoSpec FifoProofs SpscModel SpscSpec.

Lemma rd_repeat0 : forall n (i : Z), 0 <= i < Z.of_nat n -> rd (repeat 0 n) i = Some 0.
Proof.
  intros n i H. unfold rd. destruct (Z.ltb_spec i 0); [lia|]. assert (X : (Z.to_nat i < n)%nat) by lia. clear H H0. revert X. generalize (Z.to_nat i) as j. induction n as [|n IH]; intros [|j] X; [lia|lia|reflexivity|]. cbn [repeat nth_error]. apply IH. lia.
Qed.
Lemma rd_app_l : forall A (a b : list A) i, 0 <= i < zlen a -> rd (a ++ b) i = rd a i.
Proof. intros A a b i H. unfold rd, zlen in *. destruct (Z.ltb_spec i 0); [reflexivity|]. apply nth_error_app1. lia. Qed.
Lemma rd_app_r : forall A (a b : list A) i, zlen a <= i -> rd (a ++ b) i = rd b (i - zlen a).
Proof.
  intros A a b i H. unfold rd, zlen in *. destruct (Z.ltb_spec i 0); [lia|]. destruct (Z.ltb_spec (i - Z.of_nat (length a)) 0); [lia|]. rewrite nth_error_app2 by lia. f_equal. lia.
Qed.
Lemma nth_error_skipn' : forall A n (l : list A) i, nth_error (skipn n l) i = nth_error l (n + i).
Proof. intros A n. induction n as [|n IH]; intros [|x l] i; cbn [skipn Nat.add nth_error]; try reflexivity; [destruct i; reflexivity|apply IH]. Qed.
Lemma nth_error_firstn' : forall A n (l : list A) i, (i < n)%nat -> nth_error (firstn n l) i = nth_error l i.
Proof. intros A n. induction n as [|n IH]; intros [|x l] [|i] H; cbn [firstn nth_error]; try reflexivity; try lia. apply IH. lia. Qed.
Lemma rd_skipn : forall A (l : list A) n i, 0 <= n -> 0 <= i -> rd (skipn (Z.to_nat n) l) i = rd l (n + i).
Proof. intros A l n i Hn Hi. unfold rd. destruct (Z.ltb_spec i 0); [lia|]. destruct (Z.ltb_spec (n + i) 0); [lia|]. rewrite nth_error_skipn'. f_equal. lia. Qed.
Lemma rd_firstn : forall A (l : list A) n i, 0 <= i < n -> rd (firstn (Z.to_nat n) l) i = rd l i.
Proof. intros A l n i H. unfold rd. destruct (Z.ltb_spec i 0); [lia|]. apply nth_error_firstn'. lia. Qed.
Lemma zlen_zseq : forall n a, zlen (zseq a n) = Z.of_nat n.
Proof. induction n as [|n IH]; intros a; [reflexivity|]. cbn [zseq]. rewrite zlen_cons, IH. lia. Qed.
Lemma rd_zseq : forall n a i, 0 <= i < Z.of_nat n -> rd (zseq a n) i = Some (a + i).
Proof.
  induction n as [|n IH]; intros a i H; [lia|]. cbn [zseq]. unfold rd. destruct (Z.ltb_spec i 0); [lia|]. destruct (Z.eq_dec i 0) as [->|N].
  - cbn. f_equal. lia.
  - replace (Z.to_nat i) with (Datatypes.S (Z.to_nat (i - 1))) by lia. cbn [nth_error]. specialize (IH (a + 1) (i - 1) ltac:(lia)). unfold rd in IH. destruct (Z.ltb_spec (i - 1) 0); [lia|]. rewrite IH. f_equal. lia.
Qed.
Lemma rd_combine : forall A B (a : list A) (b : list B) i x y, rd a i = Some x -> rd b i = Some y -> rd (combine a b) i = Some (x, y).
Proof.
  intros A B a b i x y Ha Hb. unfold rd in *. destruct (Z.ltb_spec i 0); [discriminate|]. revert b Ha Hb. generalize (Z.to_nat i) as j. clear. intros j b. revert j b.
  induction a as [|a0 a IH]; intros j b Ha Hb; [destruct j; discriminate|]. destruct b as [|b0 b]; [destruct j; discriminate|]. destruct j as [|j]; cbn in *; [congruence|]. apply IH; assumption.
Qed.
Lemma zlen_combine : forall A B (a : list A) (b : list B), zlen a = zlen b -> zlen (combine a b) = zlen a.
Proof. intros A B a b H. unfold zlen in *. rewrite combine_length. lia. Qed.
Lemma In_rd : forall A (x : A) l, In x l -> exists i, 0 <= i < zlen l /\ rd l i = Some x.
Proof. intros A x l H. apply In_nth_error in H as [n E]. exists (Z.of_nat n). unfold rd, zlen. destruct (Z.ltb_spec (Z.of_nat n) 0); [lia|]. rewrite Nat2Z.id. split; [|exact E]. assert (n < length l)%nat by (apply nth_error_Some; congruence). lia. Qed.
Lemma pick_perm : forall A k (l : list A), match pick k l with Some (x, r) => Permutation l (x :: r) | None => l = [] end.
Proof.
  intros A k l. revert k. induction l as [|x r IH]; intros k; [destruct k; reflexivity|]. destruct k as [|k]; cbn [pick]; [reflexivity|]. specialize (IH k). destruct (pick k r) as [[y r']|]; [|reflexivity].
  rewrite IH. apply perm_swap.
Qed.

(** ** Where the bytes are *)
Section Addr.
Variable f : fifo.
Hypothesis W : wf f.
Let es := f_esize f.
Let T := cap f * es.
Definition addr (f : fifo) (c i : Z) : Z := (c * f_esize f + i) mod (cap f * f_esize f).
Lemma addr_range : forall c i, 0 <= addr f c i < zlen (f_data f).
Proof. intros c i. pose proof (wf_cap f W) as (C & E & D & S). rewrite D. apply Z.mod_pos_bound. nia. Qed.
Lemma mul_mod' : forall c, (c mod cap f) * es = (c * es) mod T.
Proof. intros c. pose proof (wf_cap f W) as (C & E & D & S). unfold T, es. rewrite Z.mul_mod_distr_r by lia. reflexivity. Qed.
Lemma addr_w64 : forall c i, addr f (w64 c) i = addr f c i.
Proof.
  intros c i. pose proof (wf_cap f W) as (C & E & D & S). unfold addr. fold es T. rewrite <- (Zplus_mod_idemp_l (w64 c * es)), <- (Zplus_mod_idemp_l (c * es)). rewrite <- !mul_mod'. rewrite (mod_w64 f W). reflexivity.
Qed.
Lemma addr_add : forall c n i, addr f (c + n) i = addr f c (n * es + i).
Proof. intros c n i. unfold addr. fold es T. f_equal. lia. Qed.
Lemma in_eq : f_in f = w64 (f_out f + fifo_valid f).
Proof.
  pose proof (wf_in f W) as I. pose proof (wf_out f W) as O. unfold fifo_valid. unfold w64. rewrite Zplus_mod_idemp_r. replace (f_out f + (f_in f - f_out f)) with (f_in f) by lia. rewrite Z.mod_small; [reflexivity|exact I].
Qed.
Lemma addr_in : forall i, addr f (f_in f) i = addr f (f_out f) (fifo_valid f * es + i).
Proof. intros i. rewrite in_eq at 1. rewrite addr_w64. apply addr_add. Qed.
Lemma addr_inj : forall c i j, 0 <= i < T -> 0 <= j < T -> addr f c i = addr f c j -> i = j.
Proof.
  intros c i j Hi Hj E. pose proof (wf_cap f W) as (C & E1 & D & S). unfold addr in E. fold es T in E. assert (T <> 0) by lia.
  pose proof (Z.div_mod (c * es + i) T ltac:(lia)) as X. pose proof (Z.div_mod (c * es + j) T ltac:(lia)) as Y. rewrite E in X.
  set (a := (c * es + i) / T) in *. set (b := (c * es + j) / T) in *. assert (i - j = T * (a - b)) by lia. assert (a - b = 0) by nia. lia.
Qed.
Lemma apart : forall k i, 0 <= k < fifo_valid f * es -> 0 <= i < fifo_unused f * es -> addr f (f_out f) k <> addr f (f_in f) i.
Proof.
  intros k i Hk Hi E. rewrite (wf_unused f W) in Hi. pose proof (wf_cap f W) as (C & E1 & D & S). pose proof (wf_valid f W) as V. fold es in E1, D, S.
  rewrite addr_in in E. apply addr_inj in E; unfold T; nia.
Qed.
Lemma contents_zlen : zlen (contents f) = fifo_valid f * es.
Proof. apply (contents_length f W). Qed.
Lemma view : forall k, 0 <= k < fifo_valid f * es -> rd (contents f) k = rd (f_data f) (addr f (f_out f) k).
Proof.
  intros k Hk. pose proof (wf_cap f W) as (C & E & D & S). pose proof (wf_valid f W) as V. pose proof (Z.mod_pos_bound (f_out f) (cap f) ltac:(lia)) as B. unfold contents. fold es in E, D, S |- *. rewrite rd_firstn by exact Hk.
  assert (A : addr f (f_out f) k = (f_out f mod cap f * es + k) mod T). { unfold addr. fold es T. rewrite <- Zplus_mod_idemp_l, <- mul_mod'. reflexivity. }
  rewrite A. set (o := f_out f mod cap f * es) in *. assert (0 <= o < T) by (unfold o, T; nia). assert (k < T) by (unfold T; nia). unfold rot. assert (L : zlen (skipn (Z.to_nat o) (f_data f)) = T - o). { unfold zlen in *. rewrite skipn_length. unfold T in *. lia. }
  destruct (Z_lt_dec (o + k) T) as [Q|Q].
  - rewrite rd_app_l by lia. rewrite rd_skipn by lia. rewrite Z.mod_small by lia. reflexivity.
  - rewrite rd_app_r by lia. rewrite L. rewrite rd_firstn by lia. f_equal. symmetry. transitivity ((o + k + (-1) * T) mod T); [symmetry; apply Z.mod_add; lia|]. rewrite Z.mod_small by lia. lia.
Qed.
(** ** The plans of the copies *)
Lemma positions_ok : forall n o, 0 <= n <= cap f -> zlen (positions f n o) = n * es /\ forall i, 0 <= i < n * es -> rd (positions f n o) i = Some (addr f o i).
Proof.
  intros n o Hn. pose proof (wf_cap f W) as (C & E & D & S). pose proof (Z.mod_pos_bound o (cap f) ltac:(lia)) as B. unfold positions. rewrite (copy_plan_wf f W) by exact Hn. fold es in E, D, S |- *. fold T.
  set (off := o mod cap f * es). assert (0 <= off < T) by (unfold off, T; nia). assert (0 <= n * es <= T) by (unfold T; nia). set (l := Z.min (n * es) (T - off)). assert (l <= n * es /\ l <= T - off /\ 0 <= l) by lia.
  assert (T < 2 ^ 63) by exact S. rewrite w64_small by lia. rewrite zlen_app, !zlen_zseq. split; [lia|]. intros i Hi.
  assert (A : addr f o i = (off + i) mod T). { unfold addr. fold es T. rewrite <- Zplus_mod_idemp_l, <- mul_mod'. reflexivity. }
  rewrite A. destruct (Z_lt_dec i l) as [Q|Q].
  - rewrite rd_app_l by (rewrite zlen_zseq; lia). rewrite rd_zseq by lia. rewrite Z.mod_small by lia. reflexivity.
  - rewrite rd_app_r by (rewrite zlen_zseq; lia). rewrite zlen_zseq. rewrite rd_zseq by lia. f_equal. assert (l = T - off) by lia. symmetry. transitivity ((off + i + (-1) * T) mod T); [symmetry; apply Z.mod_add; lia|]. rewrite Z.mod_small by lia. lia.
Qed.
Lemma cell_ok : forall o, zlen (cell f o) = es /\ forall i, 0 <= i < es -> rd (cell f o) i = Some (addr f o i).
Proof.
  intros o. pose proof (wf_cap f W) as (C & E & D & S). pose proof (Z.mod_pos_bound o (cap f) ltac:(lia)) as B. unfold cell. fold es in E, D, S |- *. rewrite zlen_zseq. split; [lia|]. intros i Hi. rewrite rd_zseq by lia. f_equal.
  rewrite (wf_land f W). unfold addr. fold es T. rewrite <- Zplus_mod_idemp_l, <- mul_mod'. symmetry. apply Z.mod_small. unfold T. nia.
Qed.
Lemma in_plan_ok : forall src n, 0 <= n <= cap f -> n * es <= zlen src -> exists todo, in_plan f src n = Some todo /\ zlen todo = n * es /\
  forall i, 0 <= i < n * es -> exists v, rd src i = Some v /\ rd todo i = Some (addr f (f_in f) i, v).
Proof.
  intros src n Hn Hs. pose proof (wf_cap f W) as (C & E & D & S). destruct (positions_ok n (f_in f) Hn) as (PL & PR). pose proof (Z.mod_pos_bound (f_in f) (cap f) ltac:(lia)) as B.
  unfold in_plan. rewrite (copy_plan_wf f W) by exact Hn. fold es in E, D, S |- *. fold T. set (off := f_in f mod cap f * es). assert (0 <= off < T) by (unfold off, T; nia). assert (0 <= n * es <= T) by (unfold T; nia).
  set (l := Z.min (n * es) (T - off)). assert (l <= n * es /\ 0 <= l) by lia. assert (T < 2 ^ 63) by exact S. rewrite w64_small by lia. rewrite !rdn_some by lia. cbn [skipn Z.to_nat].
  assert (EQ : firstn (Z.to_nat l) src ++ firstn (Z.to_nat (n * es - l)) (skipn (Z.to_nat l) src) = firstn (Z.to_nat (n * es)) src). { rewrite <- firstn_plus. f_equal. lia. }
  rewrite EQ. assert (L : zlen (firstn (Z.to_nat (n * es)) src) = n * es) by (unfold zlen in *; rewrite firstn_length; lia).
  eexists. split; [reflexivity|]. split; [rewrite zlen_combine; lia|]. intros i Hi. destruct (rd_some _ src i ltac:(lia)) as [v Hv]. exists v. split; [exact Hv|]. apply rd_combine; [apply PR; exact Hi|]. rewrite rd_firstn by lia. exact Hv.
Qed.
Lemma put_plan_ok : forall e : list Z, zlen e = es -> let todo := combine (cell f (f_in f)) e in zlen todo = es /\
  forall i, 0 <= i < es -> exists v, rd e i = Some v /\ rd todo i = Some (addr f (f_in f) i, v).
Proof.
  intros e He. destruct (cell_ok (f_in f)) as (PL & PR). cbv zeta. split; [rewrite zlen_combine; lia|]. intros i Hi. destruct (rd_some _ e i ltac:(lia)) as [v Hv]. exists v. split; [exact Hv|]. apply rd_combine; [apply PR; exact Hi|exact Hv].
Qed.
Lemma out_plan_ok : forall n, 0 <= n <= cap f -> zlen (out_plan f n) = n * es /\ forall i, 0 <= i < n * es -> rd (out_plan f n) i = Some (addr f (f_out f) i, i).
Proof.
  intros n Hn. destruct (positions_ok n (f_out f) Hn) as (PL & PR). unfold out_plan. cbv zeta. assert (ZL : zlen (zseq 0 (length (positions f n (f_out f)))) = n * es) by (rewrite zlen_zseq; exact PL).
  split; [rewrite zlen_combine; lia|]. intros i Hi. apply rd_combine; [apply PR; exact Hi|]. rewrite rd_zseq by (unfold zlen in PL; lia). reflexivity.
Qed.
Lemma get_plan_ok : let todo := combine (cell f (f_out f)) (zseq 0 (Z.to_nat (f_esize f))) in zlen todo = es /\ forall i, 0 <= i < es -> rd todo i = Some (addr f (f_out f) i, i).
Proof.
  pose proof (wf_cap f W) as (C & E & D & S). destruct (cell_ok (f_out f)) as (PL & PR). cbv zeta. fold es in E |- *. assert (ZL : zlen (zseq 0 (Z.to_nat es)) = es) by (rewrite zlen_zseq; lia).
  split; [rewrite zlen_combine; lia|]. intros i Hi. apply rd_combine; [apply PR; exact Hi|]. rewrite rd_zseq by lia. reflexivity.
Qed.
End Addr.
(** ** What the stores do *)
Lemma store_byte : forall f i v, wf f -> 0 <= i < fifo_unused f * f_esize f -> exists d, wr (f_data f) (addr f (f_in f) i) v = Some d /\
  zlen d = zlen (f_data f) /\ wf (set_data f d) /\ contents (set_data f d) = contents f /\ (forall a, rd d a = if a =? addr f (f_in f) i then Some v else rd (f_data f) a) /\
  forall k, 0 <= k < fifo_valid f * f_esize f -> rd d (addr f (f_out f) k) = rd (f_data f) (addr f (f_out f) k).
Proof.
  intros f i v W Hi. destruct (wr_spec _ (f_data f) _ v (addr_range f W (f_in f) i)) as (d & E & L & R). exists d. split; [exact E|]. split; [exact L|].
  assert (W' : wf (set_data f d)). { apply (wf_change f (f_in f) (f_out f) d W); [unfold zlen in L; lia|apply wf_in; exact W|apply wf_out; exact W|apply (wf_valid f W)]. }
  assert (K : forall k, 0 <= k < fifo_valid f * f_esize f -> rd d (addr f (f_out f) k) = rd (f_data f) (addr f (f_out f) k)).
  { intros k Hk. rewrite R. destruct (Z.eqb_spec (addr f (f_out f) k) (addr f (f_in f) i)) as [X|X]; [|reflexivity]. exfalso. exact (apart f W k i Hk Hi X). }
  split; [exact W'|]. split; [|split; [exact R|exact K]].
  apply rd_ext. intros k. pose proof (contents_zlen f W) as Z1. pose proof (contents_zlen _ W') as Z2. change (fifo_valid (set_data f d)) with (fifo_valid f) in Z2. change (f_esize (set_data f d)) with (f_esize f) in Z2.
  destruct (Z_lt_dec k 0); [|destruct (Z_lt_dec k (fifo_valid f * f_esize f))].
  - transitivity (@None Z); [|symmetry]; apply rd_none_iff; lia.
  - rewrite (view f W) by lia. rewrite (view _ W') by (change (fifo_valid (set_data f d)) with (fifo_valid f); cbn [set_data f_esize]; lia). change (rd d (addr f (f_out f) k) = rd (f_data f) (addr f (f_out f) k)). apply K. lia.
  - transitivity (@None Z); [|symmetry]; apply rd_none_iff; lia.
Qed.
Lemma publish : forall f n src, wf f -> 0 <= n <= fifo_unused f -> n * f_esize f <= zlen src ->
  (forall i, 0 <= i < n * f_esize f -> rd (f_data f) (addr f (f_in f) i) = rd src i) ->
  let f' := set_in f (w64 (f_in f + n)) in wf f' /\ fifo_valid f' = fifo_valid f + n /\ contents f' = contents f ++ firstn (Z.to_nat (n * f_esize f)) src.
Proof.
  intros f n src W Hn Hs Hd f'. pose proof (wf_cap f W) as (C & E & D & S). pose proof (wf_valid f W) as V. pose proof (wf_unused f W) as U.
  assert (V' : fifo_valid f' = fifo_valid f + n). { unfold fifo_valid, f'. cbn [set_in f_in f_out]. unfold w64 in *. rewrite Zminus_mod_idemp_l. replace (f_in f + n - f_out f) with ((f_in f - f_out f) + n) by lia. rewrite <- Zplus_mod_idemp_l. unfold fifo_valid, w64 in *. apply Z.mod_small. lia. }
  assert (W' : wf f'). { apply (wf_change f (w64 (f_in f + n)) (f_out f) (f_data f) W); [reflexivity|apply u64_w64|apply wf_out; exact W|]. change (fifo_valid f' <= cap f). lia. }
  split; [exact W'|]. split; [exact V'|]. apply rd_ext. intros k. pose proof (contents_zlen f W) as Z1. pose proof (contents_zlen _ W') as Z2. rewrite V' in Z2. change (f_esize f') with (f_esize f) in Z2.
  assert (LS : zlen (firstn (Z.to_nat (n * f_esize f)) src) = n * f_esize f) by (unfold zlen in *; rewrite firstn_length; nia).
  destruct (Z_lt_dec k 0); [|destruct (Z_lt_dec k (fifo_valid f * f_esize f)); [|destruct (Z_lt_dec k ((fifo_valid f + n) * f_esize f))]].
  - transitivity (@None Z); [|symmetry]; apply rd_none_iff; lia.
  - rewrite rd_app_l by lia. rewrite (view f W) by lia. rewrite (view _ W') by (rewrite V'; cbn [f' set_in f_esize]; nia). reflexivity.
  - rewrite rd_app_r by lia. rewrite Z1. rewrite rd_firstn by lia. rewrite (view _ W') by (rewrite V'; cbn [f' set_in f_esize]; nia). rewrite <- Hd by lia. change (rd (f_data f) (addr f (f_out f) k) = rd (f_data f) (addr f (f_in f) (k - fifo_valid f * f_esize f))). rewrite (addr_in f W). do 2 f_equal. lia.
  - transitivity (@None Z); [|symmetry]; apply rd_none_iff; [lia|rewrite zlen_app; lia].
Qed.
Lemma consume : forall f n, wf f -> 0 <= n <= fifo_valid f ->
  let f' := set_out f (w64 (f_out f + n)) in wf f' /\ fifo_valid f' = fifo_valid f - n /\ contents f' = skipn (Z.to_nat (n * f_esize f)) (contents f).
Proof.
  intros f n W Hn f'. pose proof (wf_cap f W) as (C & E & D & S). pose proof (wf_valid f W) as V.
  assert (V' : fifo_valid f' = fifo_valid f - n). { unfold fifo_valid, f'. cbn [set_out f_in f_out]. unfold w64 in *. rewrite Zminus_mod_idemp_r. replace (f_in f - (f_out f + n)) with ((f_in f - f_out f) - n) by lia. rewrite <- Zminus_mod_idemp_l. unfold fifo_valid, w64 in *. apply Z.mod_small. lia. }
  assert (W' : wf f'). { apply (wf_change f (f_in f) (w64 (f_out f + n)) (f_data f) W); [reflexivity|apply wf_in; exact W|apply u64_w64|]. change (fifo_valid f' <= cap f). lia. }
  split; [exact W'|]. split; [exact V'|]. apply rd_ext. intros k. pose proof (contents_zlen f W) as Z1. pose proof (contents_zlen _ W') as Z2. rewrite V' in Z2. change (f_esize f') with (f_esize f) in Z2.
  assert (LS : zlen (skipn (Z.to_nat (n * f_esize f)) (contents f)) = (fifo_valid f - n) * f_esize f) by (unfold zlen in *; rewrite skipn_length; nia).
  destruct (Z_lt_dec k 0); [|destruct (Z_lt_dec k ((fifo_valid f - n) * f_esize f))].
  - transitivity (@None Z); [|symmetry]; apply rd_none_iff; lia.
  - rewrite rd_skipn by nia. rewrite (view f W) by nia. rewrite (view _ W') by (rewrite V'; cbn [f' set_out f_esize]; nia). change (rd (f_data f) (addr f (w64 (f_out f + n)) k) = rd (f_data f) (addr f (f_out f) (n * f_esize f + k))). rewrite (addr_w64 f W), addr_add. reflexivity.
  - transitivity (@None Z); [|symmetry]; apply rd_none_iff; lia.
Qed.
