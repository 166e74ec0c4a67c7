(** * C89: names of error numbers *)
From Verif Require Import Lib SortModel SortSpec SortProps ErrnameModel.

(** ** Specification: what the header says, errname.h:26-32 *)
Definition documented (n : Z) (name info : string) : Prop := In (n, String "-"%char name, info) table.
Definition printed (error : Z) (name : string) : string := if 0 <? error then name else String "-"%char name.

Definition ascends (l : list (Z * string * string)) : bool :=
  (fix go (p : Z) l := match l with [] => true | e :: l => (p <? fst (fst e)) && go (fst (fst e)) l end) (-1) l.
Lemma table_ascends : ascends table = true. Proof. vm_compute. reflexivity. Qed.
Lemma ascends_go : forall l p, (fix go (p : Z) l := match l with [] => true | e :: l => (p <? fst (fst e)) && go (fst (fst e)) l end) p l = true -> Forall (fun e : Z * string * string => p < fst (fst e)) l.
Proof.
  induction l as [|e l IH]; intros p E; [constructor|]. apply andb_prop in E. destruct E as [E1 E2]. apply Z.ltb_lt in E1. constructor; [exact E1|]. eapply Forall_impl; [|apply (IH _ E2)]. cbn beta. intros; lia.
Qed.
Lemma table_bisects : forall v, bisects (errname_search v) table.
Proof.
  intros v. pose proof table_ascends as E. unfold ascends in E. revert E. generalize (-1). generalize table. induction l as [|e l IH]; intros p E; [constructor|]. apply andb_prop in E. destruct E as [_ E]. constructor; [apply (IH _ E)|].
  apply ascends_go in E. eapply Forall_impl; [|exact E]. cbn beta. intros e' L. unfold errname_search. repeat match goal with |- context [?a =? ?b] => destruct (Z.eqb_spec a b) | |- context [?a <? ?b] => destruct (Z.ltb_spec a b) end; lia.
Qed.
Lemma table_once : forall n a b a' b', In (n, a, b) table -> In (n, a', b') table -> a = a' /\ b = b'.
Proof.
  pose proof table_ascends as E. unfold ascends in E. revert E. generalize (-1). generalize table. induction l as [|e l IH]; intros p E n a b a' b' I1 I2; [destruct I1|]. apply andb_prop in E. destruct E as [_ E]. pose proof (ascends_go _ _ E) as F. rewrite Forall_forall in F.
  destruct I1 as [->|I1], I2 as [I2|I2].
  - injection I2 as -> ->. auto.
  - specialize (F _ I2). cbn in F. lia.
  - rewrite I2 in F. specialize (F _ I1). cbn in F. lia.
  - apply (IH _ E n a b a' b' I1 I2).
Qed.
Lemma table_dash : Forall (fun e => exists r, snd (fst e) = String "-"%char r) table.
Proof.
  assert (B : forallb (fun e : Z * string * string => match snd (fst e) with String c _ => Ascii.eqb c "-"%char | EmptyString => false end) table = true) by (vm_compute; reflexivity).
  rewrite forallb_forall in B. apply Forall_forall. intros e I. specialize (B e I). destruct (snd (fst e)) as [|c r]; [discriminate|]. apply Ascii.eqb_eq in B. subst c. eexists. reflexivity.
Qed.
Fixpoint distinct (l : list string) : bool := match l with [] => true | x :: l => negb (existsb (String.eqb x) l) && distinct l end.
Lemma distinct_nodup : forall l, distinct l = true -> NoDup l.
Proof.
  induction l as [|x l IH]; intros E; [constructor|]. cbn [distinct] in E. apply andb_prop in E. destruct E as [E1 E2]. constructor; [|apply (IH E2)]. intros I. apply negb_true_iff in E1. assert (Q : existsb (String.eqb x) l = true) by (apply existsb_exists; exists x; split; [exact I|apply String.eqb_refl]). congruence.
Qed.

(** ** Every number of the table gets its own name, with the minus sign exactly if the number is not positive, and its
    text; every other number gets NULL *)
Theorem C89_errname : forall error, - 2 ^ 31 < error < 2 ^ 31 ->
  exists r, errname error = Some r /\
    (forall name info, documented (Z.abs error) name info -> r = Some (printed error name, info)) /\
    ((forall name info, ~ documented (Z.abs error) name info) -> r = None).
Proof.
  intros error Hr. unfold errname, errname_find. assert (EA : (if error <? 0 then if error =? - 2 ^ 31 then None else Some (- error) else Some error) = Some (Z.abs error)). { destruct (Z.ltb_spec error 0); [destruct (Z.eqb_spec error (- 2 ^ 31)); [lia|]|]; f_equal; lia. }
  rewrite EA. destruct (C36_bsearch _ (errname_search (Z.abs error)) 24 table ltac:(lia) ltac:(vm_compute; reflexivity)) as (q & E & S & C). rewrite E. specialize (C (table_bisects _)). destruct q as [off|]; cbn [option_map].
  - destruct (S off eq_refl) as (k & x & -> & R & F). rewrite Z.div_mul by lia. rewrite R. pose proof (rd_in _ _ _ _ R) as I. pose proof table_dash as TD. rewrite Forall_forall in TD. destruct (TD _ I) as (nm & En). rewrite En. cbn [tail].
    assert (FX : fst (fst x) = Z.abs error) by (unfold errname_search in F; destruct (Z.eqb_spec (fst (fst x)) (Z.abs error)); [assumption|]; destruct (Z.abs error <? fst (fst x)); discriminate).
    assert (EX : x = (Z.abs error, String "-"%char nm, snd x)) by (destruct x as [[a b] c]; cbn [fst snd] in *; subst; reflexivity).
    exists (Some (printed error nm, snd x)). split; [unfold printed; destruct (0 <? error); reflexivity|]. split.
    + intros name info D. unfold documented in D. rewrite EX in I. destruct (table_once _ _ _ _ _ I D) as [Q1 Q2]. injection Q1 as ->. rewrite Q2. reflexivity.
    + intros N. exfalso. apply (N nm (snd x)). unfold documented. rewrite <- EX. exact I.
  - exists None. split; [reflexivity|]. split; [|reflexivity]. intros name info D. exfalso. destruct C as [C _]. apply (C eq_refl _ D). unfold errname_search. cbn [fst]. rewrite Z.eqb_refl. reflexivity.
Qed.
(** ** No two numbers share a name *)
Theorem C89_unique : forall n n' name info info', documented n name info -> documented n' name info' -> n = n' /\ info = info'.
Proof.
  assert (ND : NoDup (map (fun e : Z * string * string => snd (fst e)) table)). { apply distinct_nodup. vm_compute. reflexivity. }
  intros n n' name info info' D D'. unfold documented in *. revert ND D D'. generalize table. induction l as [|e l IH]; intros ND I1 I2; [destruct I1|]. cbn [map] in ND. apply NoDup_cons_iff in ND. destruct ND as [NI ND].
  destruct I1 as [->|I1], I2 as [I2|I2].
  - injection I2 as -> ->. auto.
  - exfalso. apply NI. apply in_map_iff. eexists. split; [|exact I2]. reflexivity.
  - exfalso. subst e. apply NI. apply in_map_iff. eexists. split; [|exact I1]. reflexivity.
  - apply (IH ND I1 I2).
Qed.
Example C89_case : documented 22 "EINVAL"%string "Invalid argument"%string /\ errname 22 = Some (Some ("EINVAL"%string, "Invalid argument"%string)) /\ errname (-22) = Some (Some ("-EINVAL"%string, "Invalid argument"%string)) /\ errname 40 = Some None /\ errname 0 = Some (Some ("-ENOERR"%string, "No error"%string)).
Proof. split; [unfold documented; apply (rd_in _ _ 22); vm_compute; reflexivity|]. vm_compute. repeat split; reflexivity. Qed.
(** The least int cannot be negated. *)
Theorem C89_min_refuted : exists error, - 2 ^ 31 <= error < 2 ^ 31 /\ errname error = None.
Proof. exists (- 2 ^ 31). split; [lia|]. vm_compute. reflexivity. Qed.
Print Assumptions C89_errname.
Print Assumptions C89_unique.
Print Assumptions C89_min_refuted.
