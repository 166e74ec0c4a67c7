(** * Block copies (memcpy) and rotations of a buffer *)
From Verif Require Import Lib.

(** [bfport_memcpy] reading [n] bytes at [off]: [None] if outside the object. *)
Definition rdn {A} (l : list A) (off n : Z) : option (list A) :=
  if (0 <=? off) && (0 <=? n) && (off + n <=? zlen l)
  then Some (firstn (Z.to_nat n) (skipn (Z.to_nat off) l)) else None.

(** [bfport_memcpy] storing [s] at [off]: [None] if outside the object. *)
Definition wrn {A} (l : list A) (off : Z) (s : list A) : option (list A) :=
  if (0 <=? off) && (off + zlen s <=? zlen l)
  then Some (firstn (Z.to_nat off) l ++ s ++ skipn (Z.to_nat off + length s) l) else None.

Lemma rdn_some : forall A (l : list A) off n, 0 <= off -> 0 <= n -> off + n <= zlen l ->
  rdn l off n = Some (firstn (Z.to_nat n) (skipn (Z.to_nat off) l)).
Proof.
  intros. unfold rdn.
  replace (0 <=? off) with true by (symmetry; apply Z.leb_le; lia).
  replace (0 <=? n) with true by (symmetry; apply Z.leb_le; lia).
  replace (off + n <=? zlen l) with true by (symmetry; apply Z.leb_le; lia). reflexivity.
Qed.

Lemma wrn_some : forall A (l : list A) off s, 0 <= off -> off + zlen s <= zlen l ->
  wrn l off s = Some (firstn (Z.to_nat off) l ++ s ++ skipn (Z.to_nat off + length s) l).
Proof.
  intros. unfold wrn.
  replace (0 <=? off) with true by (symmetry; apply Z.leb_le; lia).
  replace (off + zlen s <=? zlen l) with true by (symmetry; apply Z.leb_le; lia). reflexivity.
Qed.

Lemma rdn_inv : forall A (l r : list A) off n, rdn l off n = Some r ->
  0 <= off /\ 0 <= n /\ off + n <= zlen l /\ r = firstn (Z.to_nat n) (skipn (Z.to_nat off) l).
Proof.
  intros A l r off n H. unfold rdn in H.
  destruct (Z.leb_spec 0 off), (Z.leb_spec 0 n), (Z.leb_spec (off + n) (zlen l)); cbn in H; try discriminate.
  injection H as <-. auto.
Qed.

Lemma wrn_inv : forall A (l r s : list A) off, wrn l off s = Some r ->
  0 <= off /\ off + zlen s <= zlen l /\
  r = firstn (Z.to_nat off) l ++ s ++ skipn (Z.to_nat off + length s) l.
Proof.
  intros A l r s off H. unfold wrn in H.
  destruct (Z.leb_spec 0 off), (Z.leb_spec (off + zlen s) (zlen l)); cbn in H; try discriminate.
  injection H as <-. auto.
Qed.

(** Rotation to the left by [n]. *)
Definition rot {A} (n : nat) (l : list A) : list A := skipn n l ++ firstn n l.

Lemma rot_length : forall A n (l : list A), length (rot n l) = length l.
Proof.
  intros. unfold rot. rewrite app_length, skipn_length, firstn_length. lia.
Qed.

Lemma rot_0 : forall A (l : list A), rot 0 l = l.
Proof. intros. unfold rot. cbn. apply app_nil_r. Qed.

Lemma rot_full : forall A (l : list A), rot (length l) l = l.
Proof. intros. unfold rot. rewrite skipn_all, firstn_all. reflexivity. Qed.

Lemma skipn_skipn' : forall A a b (l : list A), skipn a (skipn b l) = skipn (b + a) l.
Proof.
  intros A a b. revert a. induction b as [|b IH]; intros a l; [reflexivity|].
  destruct l; [rewrite !skipn_nil; reflexivity|]. cbn [skipn Nat.add]. apply IH.
Qed.

Lemma skipn_firstn_le : forall A a b (l : list A), skipn a (firstn (a + b) l) = firstn b (skipn a l).
Proof.
  intros A a b l. revert l. induction a as [|a IH]; intros l; [reflexivity|].
  destruct l; [rewrite !skipn_nil, !firstn_nil; reflexivity|]. cbn [skipn Nat.add firstn]. apply IH.
Qed.

Lemma firstn_app_le : forall A n (a b : list A), (n <= length a)%nat -> firstn n (a ++ b) = firstn n a.
Proof.
  intros. rewrite firstn_app. replace (n - length a)%nat with O by lia. cbn. apply app_nil_r.
Qed.
Lemma firstn_app_ge : forall A n (a b : list A), (length a <= n)%nat ->
  firstn n (a ++ b) = a ++ firstn (n - length a) b.
Proof.
  intros. rewrite firstn_app, firstn_all2 by lia. reflexivity.
Qed.
Lemma skipn_app_le : forall A n (a b : list A), (n <= length a)%nat -> skipn n (a ++ b) = skipn n a ++ b.
Proof.
  intros. rewrite skipn_app. replace (n - length a)%nat with O by lia. reflexivity.
Qed.
Lemma skipn_app_ge : forall A n (a b : list A), (length a <= n)%nat ->
  skipn n (a ++ b) = skipn (n - length a) b.
Proof.
  intros. rewrite skipn_app, skipn_all2 by lia. reflexivity.
Qed.

Lemma firstn_plus : forall A a b (l : list A), firstn (a + b) l = firstn a l ++ firstn b (skipn a l).
Proof.
  intros A a b. induction a as [|a IH]; intros l; [reflexivity|].
  destruct l; [cbn; rewrite firstn_nil; reflexivity|]. cbn. f_equal. apply IH.
Qed.

(** Two successive rotations. *)
Lemma rot_rot : forall A a b (l : list A), (a <= length l)%nat -> (b <= length l)%nat ->
  rot b (rot a l) = if Nat.leb (a + b) (length l) then rot (a + b) l else rot (a + b - length l) l.
Proof.
  intros A a b l Ha Hb. unfold rot.
  assert (L : length (skipn a l) = (length l - a)%nat) by apply skipn_length.
  destruct (Nat.leb_spec (a + b) (length l)).
  - rewrite skipn_app_le, firstn_app_le by lia. rewrite skipn_skipn', firstn_plus.
    rewrite <- app_assoc. reflexivity.
  - rewrite skipn_app_ge, firstn_app_ge by lia. rewrite L.
    replace (b - (length l - a))%nat with (a + b - length l)%nat by lia.
    set (c := (a + b - length l)%nat). assert (Hc : (c <= a)%nat) by lia. clearbody c.
    replace a with (c + (a - c))%nat by lia.
    rewrite skipn_firstn_le. rewrite <- (skipn_skipn' _ (a - c) c).
    rewrite app_assoc, firstn_skipn, firstn_firstn. f_equal. f_equal. lia.
Qed.

(** Writing [b] at the start of the rotated view. *)
Lemma rot_inj : forall A n (l m : list A), (n <= length l)%nat -> length l = length m ->
  rot n l = rot n m -> l = m.
Proof.
  intros A n l m Hn Hl H. unfold rot in H.
  assert (E : skipn n l = skipn n m /\ firstn n l = firstn n m).
  { assert (length (skipn n l) = length (skipn n m)) by (rewrite !skipn_length; lia).
    remember (skipn n l) as x. remember (skipn n m) as y. remember (firstn n l) as u. remember (firstn n m) as v.
    clear - H H0. revert y H H0. induction x as [|h x IH]; intros [|k y] H H0; cbn in *; try discriminate.
    - auto.
    - injection H as -> H. injection H0 as H0. destruct (IH y H H0) as [-> ->]. auto. }
  destruct E as [E1 E2]. rewrite <- (firstn_skipn n l), <- (firstn_skipn n m), E1, E2. reflexivity.
Qed.
