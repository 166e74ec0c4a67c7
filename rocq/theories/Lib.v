(** * Common vocabulary: machine words, byte lists, checked array access

    Nothing in this file models a particular function of /repo; it fixes how C
    objects are represented everywhere else:
    - machine words and bytes are [Z] values in [0, 2^w);
    - C arrays are lists, read by [rd] and written by [wr], which answer [None]
      when the index is outside the array (undefined behaviour in C). *)
From Coq Require Export ZArith Znumtheory List Lia Bool.
Export ListNotations.
Open Scope Z_scope.

(** ** Words *)
Definition wrap (w x : Z) : Z := x mod 2 ^ w.
Definition w8 (x : Z) : Z := x mod 2 ^ 8.
Definition w16 (x : Z) : Z := x mod 2 ^ 16.
Definition w32 (x : Z) : Z := x mod 2 ^ 32.
Definition w64 (x : Z) : Z := x mod 2 ^ 64.

Definition byte (x : Z) : Prop := 0 <= x < 256.
Definition u32 (x : Z) : Prop := 0 <= x < 2 ^ 32.
Definition u64 (x : Z) : Prop := 0 <= x < 2 ^ 64.
Definition bytes (l : list Z) : Prop := Forall byte l.

(** ** Checked array access *)
Definition rd {A} (l : list A) (i : Z) : option A :=
  if i <? 0 then None else nth_error l (Z.to_nat i).

Fixpoint wr_nat {A} (l : list A) (i : nat) (v : A) : option (list A) :=
  match l, i with
  | [], _ => None
  | _ :: t, O => Some (v :: t)
  | h :: t, S i' => match wr_nat t i' v with Some t' => Some (h :: t') | None => None end
  end.

Definition wr {A} (l : list A) (i : Z) (v : A) : option (list A) :=
  if i <? 0 then None else wr_nat l (Z.to_nat i) v.

Definition zlen {A} (l : list A) : Z := Z.of_nat (length l).

(** Error numbers, include/bfdev/errno.h:13-107 (only those used by the models). *)
Definition ENOERR : Z := 0.
Definition ENOENT : Z := 2.
Definition EAGAIN : Z := 11.
Definition ENOMEM : Z := 12.
Definition EBUSY : Z := 16.
Definition EEXIST : Z := 17.
Definition EINVAL : Z := 22.
Definition ENOSPC : Z := 28.
Definition EPROTO : Z := 71.
Definition EOVERFLOW : Z := 75.
Definition EALREADY : Z := 114.

(** Option monad used by the models ([None] is undefined behaviour). *)
Notation "'let*' x ':=' e 'in' k" :=
  (match e with Some x => k | None => None end)
  (at level 200, x pattern, e at level 100, k at level 200).

(** ** Finite ranges, for exhaustive checks of finite quantifiers *)
Fixpoint zseq (a : Z) (n : nat) : list Z :=
  match n with O => [] | S n' => a :: zseq (a + 1) n' end.

Lemma zseq_in : forall n a x, In x (zseq a n) <-> a <= x < a + Z.of_nat n.
Proof.
  induction n as [|n IH]; intros a x.
  - cbn [zseq In]. lia.
  - cbn [zseq In]. rewrite IH. lia.
Qed.

Definition all_below (n : Z) (P : Z -> bool) : bool := forallb P (zseq 0 (Z.to_nat n)).

Lemma all_below_spec : forall n P, all_below n P = true -> forall x, 0 <= x < n -> P x = true.
Proof.
  unfold all_below. intros n P H x Hx.
  rewrite forallb_forall in H. apply H. apply zseq_in. lia.
Qed.

Lemma all_below2_spec : forall n m P,
  all_below n (fun x => all_below m (P x)) = true ->
  forall x y, 0 <= x < n -> 0 <= y < m -> P x y = true.
Proof.
  intros n m P H x y Hx Hy.
  pose proof (all_below_spec n _ H x Hx) as H'. cbv beta in H'.
  exact (all_below_spec m _ H' y Hy).
Qed.

Lemma all_below3_spec : forall n m k P,
  all_below n (fun x => all_below m (fun y => all_below k (P x y))) = true ->
  forall x y z, 0 <= x < n -> 0 <= y < m -> 0 <= z < k -> P x y z = true.
Proof.
  intros n m k P H x y z Hx Hy Hz.
  pose proof (all_below2_spec n m _ H x y Hx Hy) as H'. cbv beta in H'.
  exact (all_below_spec k _ H' z Hz).
Qed.

(** ** Facts about [rd] and [wr] *)
Lemma rd_app_len : forall A (p : list A) x q i, i = zlen p -> rd (p ++ x :: q) i = Some x.
Proof.
  intros A p x q i ->. unfold rd, zlen.
  destruct (Z.ltb_spec (Z.of_nat (length p)) 0); [lia|].
  rewrite Nat2Z.id, nth_error_app2, Nat.sub_diag; auto.
Qed.

Lemma wr_nat_app : forall A (p : list A) x q v,
  wr_nat (p ++ x :: q) (length p) v = Some (p ++ v :: q).
Proof.
  induction p as [|h p IH]; intros x q v; cbn [app length wr_nat]; [reflexivity|].
  rewrite IH. reflexivity.
Qed.

Lemma wr_app_len : forall A (p : list A) x q i v,
  i = zlen p -> wr (p ++ x :: q) i v = Some (p ++ v :: q).
Proof.
  intros A p x q i v ->. unfold wr, zlen.
  destruct (Z.ltb_spec (Z.of_nat (length p)) 0); [lia|].
  rewrite Nat2Z.id. apply wr_nat_app.
Qed.

Lemma rd_some : forall A (l : list A) i, 0 <= i < zlen l -> exists x, rd l i = Some x.
Proof.
  intros A l i Hi. unfold rd, zlen in *.
  destruct (Z.ltb_spec i 0); [lia|].
  destruct (nth_error l (Z.to_nat i)) as [x|] eqn:E; [eauto|].
  apply nth_error_None in E. lia.
Qed.

Lemma rd_none_iff : forall A (l : list A) i, rd l i = None <-> ~ (0 <= i < zlen l).
Proof.
  intros A l i. unfold rd, zlen.
  destruct (Z.ltb_spec i 0); [split; intros; [lia|reflexivity]|].
  rewrite nth_error_None. lia.
Qed.

Lemma rd_range : forall A (l : list A) i x, rd l i = Some x -> 0 <= i < zlen l.
Proof.
  intros A l i x H. destruct (Z_lt_dec i 0).
  - unfold rd in H. destruct (Z.ltb_spec i 0); [discriminate|lia].
  - destruct (Z_lt_dec i (zlen l)); [lia|].
    assert (rd l i = None) by (apply rd_none_iff; lia). congruence.
Qed.

Lemma rd_in : forall A (l : list A) i x, rd l i = Some x -> In x l.
Proof.
  intros A l i x H. unfold rd in H. destruct (i <? 0); [discriminate|].
  eapply nth_error_In; eauto.
Qed.

Lemma wr_nat_spec : forall A (l : list A) i v,
  (i < length l)%nat ->
  exists l', wr_nat l i v = Some l' /\ length l' = length l /\
    forall j, nth_error l' j = if Nat.eqb j i then Some v else nth_error l j.
Proof.
  induction l as [|h t IH]; intros i v Hi; cbn [length] in Hi; [lia|].
  destruct i as [|i].
  - exists (v :: t). cbn. repeat split. intros [|j]; reflexivity.
  - destruct (IH i v) as (t' & E & L & N); [lia|].
    exists (h :: t'). cbn [wr_nat]. rewrite E. cbn [length]. repeat split; [lia|].
    intros [|j]; cbn; [reflexivity|apply N].
Qed.

Lemma wr_spec : forall A (l : list A) i v,
  0 <= i < zlen l ->
  exists l', wr l i v = Some l' /\ zlen l' = zlen l /\
    forall j, rd l' j = if j =? i then Some v else rd l j.
Proof.
  intros A l i v Hi. unfold wr, zlen in *.
  destruct (Z.ltb_spec i 0); [lia|].
  destruct (wr_nat_spec A l (Z.to_nat i) v) as (l' & E & L & N); [lia|].
  exists l'. split; [exact E|]. split; [lia|].
  intros j. unfold rd. destruct (Z.ltb_spec j 0).
  - destruct (Z.eqb_spec j i); [lia|reflexivity].
  - rewrite N. destruct (Z.eqb_spec j i); destruct (Nat.eqb_spec (Z.to_nat j) (Z.to_nat i)); try lia; reflexivity.
Qed.

Lemma wr_none_iff : forall A (l : list A) i v, wr l i v = None <-> ~ (0 <= i < zlen l).
Proof.
  intros A l i v. split.
  - intros H Hi. destruct (wr_spec A l i v Hi) as (l' & E & _). congruence.
  - intros H. unfold wr. destruct (Z.ltb_spec i 0); [reflexivity|].
    unfold zlen in H. destruct (wr_nat l (Z.to_nat i) v) eqn:E; [|reflexivity].
    exfalso. assert (Hl : (length l <= Z.to_nat i)%nat) by lia. clear H H0.
    revert l0 E Hl. generalize (Z.to_nat i) as k.
    induction l as [|h t IH]; intros k l0 E Hl; [discriminate|].
    cbn [length] in Hl. destruct k as [|k]; [lia|]. cbn [wr_nat] in E.
    destruct (wr_nat t k v) eqn:E'; [|discriminate]. eapply IH; [exact E'|lia].
Qed.

Lemma wr_inv : forall A (l l' : list A) i v,
  wr l i v = Some l' ->
  0 <= i < zlen l /\ zlen l' = zlen l /\ (forall j, rd l' j = if j =? i then Some v else rd l j).
Proof.
  intros A l l' i v H.
  assert (Hi : 0 <= i < zlen l).
  { destruct (Z_lt_dec i 0) as [|H0]; [|destruct (Z_lt_dec i (zlen l)) as [|H1]; [lia|]].
    - exfalso. assert (wr l i v = None) by (apply wr_none_iff; lia). congruence.
    - exfalso. assert (wr l i v = None) by (apply wr_none_iff; lia). congruence. }
  split; [exact Hi|]. destruct (wr_spec A l i v Hi) as (l2 & E & L & R).
  rewrite H in E. injection E as ->. auto.
Qed.

Lemma nth_error_ext' : forall A (l l' : list A),
  (forall n, nth_error l n = nth_error l' n) -> l = l'.
Proof.
  induction l as [|h t IH]; intros [|h' t'] H; [reflexivity| | |].
  - specialize (H O). discriminate.
  - specialize (H O). discriminate.
  - f_equal.
    + specialize (H O). cbn in H. congruence.
    + apply IH. intros n. exact (H (S n)).
Qed.

Lemma rd_ext : forall A (l l' : list A), (forall i, rd l i = rd l' i) -> l = l'.
Proof.
  intros A l l' H. apply nth_error_ext'. intros n.
  specialize (H (Z.of_nat n)). unfold rd in H.
  destruct (Z.ltb_spec (Z.of_nat n) 0); [lia|]. rewrite Nat2Z.id in H. exact H.
Qed.

Lemma zlen_app : forall A (a b : list A), zlen (a ++ b) = zlen a + zlen b.
Proof. intros. unfold zlen. rewrite app_length. lia. Qed.
Lemma zlen_cons : forall A (x : A) l, zlen (x :: l) = zlen l + 1.
Proof. intros. unfold zlen. cbn [length]. lia. Qed.
Lemma zlen_nil : forall A, zlen (@nil A) = 0.
Proof. reflexivity. Qed.
Lemma zlen_nonneg : forall A (l : list A), 0 <= zlen l.
Proof. intros. unfold zlen. lia. Qed.

(** ** Facts about words *)
Lemma w64_range : forall x, 0 <= w64 x < 2 ^ 64.
Proof. intros. unfold w64. apply Z.mod_pos_bound. lia. Qed.
Lemma w64_small : forall x, 0 <= x < 2 ^ 64 -> w64 x = x.
Proof. intros. unfold w64. apply Z.mod_small. lia. Qed.
Lemma w32_range : forall x, 0 <= w32 x < 2 ^ 32.
Proof. intros. unfold w32. apply Z.mod_pos_bound. lia. Qed.
Lemma w32_small : forall x, 0 <= x < 2 ^ 32 -> w32 x = x.
Proof. intros. unfold w32. apply Z.mod_small. lia. Qed.
Lemma w8_range : forall x, 0 <= w8 x < 2 ^ 8.
Proof. intros. unfold w8. apply Z.mod_pos_bound. lia. Qed.
