(** * Frame property of the red-black tree code
    A run that succeeds on a part of the memory does the same on the whole memory and leaves the rest as it
    is. No field appears or disappears. *)
From Verif Require Import Lib Ptr Tree TiterModel RbModel.

(** [M] is [m] completed by [M0]. *)
Definition Rel (M0 m M : mem) : Prop := forall a f, M a f = match m a f with Some v => Some v | None => M0 a f end.
Definition dom (m m' : mem) : Prop := forall a f, m' a f = None <-> m a f = None.
Lemma dom_refl m : dom m m.
Proof. intros a f. tauto. Qed.
Lemma dom_trans m1 m2 m3 : dom m1 m2 -> dom m2 m3 -> dom m1 m3.
Proof. intros H1 H2 a f. rewrite (H2 a f). apply H1. Qed.

(** Readers, writers, and functions that return a memory and a value. *)
Definition Lr {X} (p : mem -> option X) : Prop := forall M0 m M x, Rel M0 m M -> p m = Some x -> p M = Some x.
Definition Lm (p : mem -> option mem) : Prop := forall M0 m M m', Rel M0 m M -> p m = Some m' -> dom m m' /\ exists M', p M = Some M' /\ Rel M0 m' M'.
Definition Lx {X} (p : mem -> option (mem * X)) : Prop :=
  forall M0 m M m' x, Rel M0 m M -> p m = Some (m', x) -> dom m m' /\ exists M', p M = Some (M', x) /\ Rel M0 m' M'.

Section Comb.
Context {X Y : Type}.
Lemma Lr_ld a f : Lr (fun m => ld m a f).
Proof. intros M0 m M x H. unfold ld. intros E. rewrite H, E. reflexivity. Qed.
Lemma Lr_ret (x : X) : Lr (fun _ => Some x).
Proof. intros M0 m M y H E. exact E. Qed.
Lemma Lr_none : Lr (fun _ => @None X).
Proof. intros M0 m M y H E. discriminate. Qed.
Lemma Lr_bind (p : mem -> option X) (q : X -> mem -> option Y) : Lr p -> (forall x, Lr (q x)) -> Lr (fun m => match p m with Some x => q x m | None => None end).
Proof. intros Hp Hq M0 m M y H E. destruct (p m) as [x|] eqn:E1; [|discriminate]. rewrite (Hp _ _ _ _ H E1). apply (Hq x _ _ _ _ H E). Qed.
Lemma Lr_if (b : bool) (p q : mem -> option X) : Lr p -> Lr q -> Lr (fun m => if b then p m else q m).
Proof. destruct b; auto. Qed.
Lemma Lm_st a f v : Lm (fun m => st m a f v).
Proof.
  intros M0 m M m' H E. apply st_inv in E. destruct E as [[x E] ->]. split.
  - intros b g. unfold upd. destruct ((b =? a) && (g =? f)) eqn:B; [|tauto]. apply andb_true_iff in B. destruct B as [B1 B2]. apply Z.eqb_eq in B1, B2. subst. rewrite E. split; discriminate.
  - exists (upd M a f v). split; [apply (st_some _ _ _ _ x); rewrite H, E; reflexivity|]. intros b g. unfold upd. destruct ((b =? a) && (g =? f)); [reflexivity|]. apply H.
Qed.
Lemma Lm_ret : Lm (fun m => Some m).
Proof. intros M0 m M m' H E. injection E as <-. split; [apply dom_refl|]. exists M. auto. Qed.
Lemma Lm_none : Lm (fun _ => None).
Proof. intros M0 m M m' H E. discriminate. Qed.
Lemma Lm_if (b : bool) (p q : mem -> option mem) : Lm p -> Lm q -> Lm (fun m => if b then p m else q m).
Proof. destruct b; auto. Qed.
Lemma Lm_bind_r (p : mem -> option X) (q : X -> mem -> option mem) : Lr p -> (forall x, Lm (q x)) -> Lm (fun m => match p m with Some x => q x m | None => None end).
Proof. intros Hp Hq M0 m M y H E. destruct (p m) as [x|] eqn:E1; [|discriminate]. rewrite (Hp _ _ _ _ H E1). apply (Hq x _ _ _ _ H E). Qed.
Lemma Lm_bind (p : mem -> option mem) (q : mem -> option mem) : Lm p -> Lm q -> Lm (fun m => match p m with Some m => q m | None => None end).
Proof.
  intros Hp Hq M0 m M y H E. destruct (p m) as [x|] eqn:E1; [|discriminate]. destruct (Hp _ _ _ _ H E1) as (D1 & M1 & -> & R1).
  destruct (Hq _ _ _ _ R1 E) as (D2 & M2 & E2 & R2). split; [eapply dom_trans; eassumption|]. eauto.
Qed.
Lemma Lm_bind_x (p : mem -> option (mem * X)) (q : mem * X -> option mem) : Lx p -> (forall x, Lm (fun m => q (m, x))) -> Lm (fun m => match p m with Some mx => q mx | None => None end).
Proof.
  intros Hp Hq M0 m M y H E. destruct (p m) as [[x1 x2]|] eqn:E1; [|discriminate]. destruct (Hp _ _ _ _ _ H E1) as (D1 & M1 & -> & R1).
  destruct (Hq x2 _ _ _ _ R1 E) as (D2 & M2 & E2 & R2). split; [eapply dom_trans; eassumption|]. eauto.
Qed.
Lemma Lx_ret (x : X) : Lx (fun m => Some (m, x)).
Proof. intros M0 m M m' y H E. injection E as <- <-. split; [apply dom_refl|]. exists M. auto. Qed.
Lemma Lx_none : Lx (fun _ => @None (mem * X)).
Proof. intros M0 m M m' x H E. discriminate. Qed.
Lemma Lx_if (b : bool) (p q : mem -> option (mem * X)) : Lx p -> Lx q -> Lx (fun m => if b then p m else q m).
Proof. destruct b; auto. Qed.
Lemma Lx_bind_r (p : mem -> option X) (q : X -> mem -> option (mem * Y)) : Lr p -> (forall x, Lx (q x)) -> Lx (fun m => match p m with Some x => q x m | None => None end).
Proof. intros Hp Hq M0 m M y z H E. destruct (p m) as [x|] eqn:E1; [|discriminate]. rewrite (Hp _ _ _ _ H E1). apply (Hq x _ _ _ _ _ H E). Qed.
Lemma Lx_bind (p : mem -> option mem) (q : mem -> option (mem * Y)) : Lm p -> Lx q -> Lx (fun m => match p m with Some m => q m | None => None end).
Proof.
  intros Hp Hq M0 m M y z H E. destruct (p m) as [x|] eqn:E1; [|discriminate]. destruct (Hp _ _ _ _ H E1) as (D1 & M1 & -> & R1).
  destruct (Hq _ _ _ _ _ R1 E) as (D2 & M2 & E2 & R2). split; [eapply dom_trans; eassumption|]. eauto.
Qed.
Lemma Lx_bind_x (p : mem -> option (mem * X)) (q : mem * X -> option (mem * Y)) : Lx p -> (forall x, Lx (fun m => q (m, x))) -> Lx (fun m => match p m with Some mx => q mx | None => None end).
Proof.
  intros Hp Hq M0 m M y z H E. destruct (p m) as [[x1 x2]|] eqn:E1; [|discriminate]. destruct (Hp _ _ _ _ _ H E1) as (D1 & M1 & -> & R1).
  destruct (Hq x2 _ _ _ _ _ R1 E) as (D2 & M2 & E2 & R2). split; [eapply dom_trans; eassumption|]. eauto.
Qed.
End Comb.

Ltac lstep := cbn beta iota zeta; cbn [fst snd];
  first [assumption | apply Lr_ld | apply Lm_st | apply Lm_ret | apply Lx_ret | apply Lr_ret | apply Lr_none | apply Lm_none | apply Lx_none
    | apply Lm_if | apply Lx_if | apply Lr_if
    | apply Lm_bind | apply Lx_bind
    | apply Lm_bind_x; [|intros ?] | apply Lx_bind_x; [|intros ?]
    | apply Lm_bind_r; [|intros ?] | apply Lx_bind_r; [|intros ?] | apply Lr_bind; [|intros ?]
    | match goal with |- context [match ?x with _ => _ end] => is_var x; destruct x end].

Definition cb_local (cb : callbacks) : Prop :=
  (forall a b, Lm (fun m => rotate cb m a b)) /\ (forall a b, Lm (fun m => copy cb m a b)) /\ (forall a b, Lm (fun m => propagate cb m a b)).
Lemma dummy_local : cb_local dummy_callbacks.
Proof. split; [|split]; intros a b; exact Lm_ret. Qed.

Section Cb.
Variable cb : callbacks.
Hypothesis HL : cb_local cb.
Lemma child_change_local root p o n : Lm (fun m => child_change m root p o n).
Proof. unfold child_change. repeat lstep. Qed.
Lemma rotate_set_local root a b c d e : Lm (fun m => rotate_set cb m root a b c d e).
Proof. unfold rotate_set. repeat first [apply child_change_local | apply HL | lstep]. Qed.
Lemma left_rotate_local root a c d : Lx (fun m => left_rotate cb m root a c d).
Proof. unfold left_rotate. repeat first [apply rotate_set_local | lstep]. Qed.
Lemma right_rotate_local root a c d : Lx (fun m => right_rotate cb m root a c d).
Proof. unfold right_rotate. repeat first [apply rotate_set_local | lstep]. Qed.
Lemma is_red_local p : Lr (fun m => is_red m p).
Proof. unfold is_red. repeat lstep. Qed.
Lemma is_black_local p : Lr (fun m => is_black m p).
Proof. unfold is_black. repeat lstep. Qed.
Lemma fixup_local root : forall fuel node, Lm (fun m => fixup cb fuel m root node).
Proof. induction fuel as [|fuel IH]; intros node; cbn [fixup]; [apply Lm_none|]. repeat first [apply IH | apply left_rotate_local | apply right_rotate_local | apply is_red_local | lstep]. Qed.
Lemma erase_loop_local root : forall fuel p node, Lm (fun m => erase_loop cb fuel m root p node).
Proof. induction fuel as [|fuel IH]; intros p node; cbn [erase_loop]; [apply Lm_none|]. repeat first [apply IH | apply left_rotate_local | apply right_rotate_local | apply is_black_local | lstep]. Qed.
Lemma erase_local root fuel p : Lm (fun m => erase cb fuel m root p).
Proof. apply erase_loop_local. Qed.
Lemma succ_loop_local : forall fuel a b, Lr (fun m => succ_loop fuel m a b).
Proof. induction fuel as [|fuel IH]; intros a b; cbn [succ_loop]; [apply Lr_none|]. repeat first [apply IH | lstep]. Qed.
Lemma remove_local root fuel n : Lx (fun m => remove cb fuel m root n).
Proof. unfold remove. repeat first [apply succ_loop_local | apply child_change_local | apply HL | lstep]. Qed.
Lemma link_local p lp n : Lm (fun m => link m p lp n).
Proof. unfold link. repeat lstep. Qed.
Lemma insert_node_local root fuel p lp n : Lm (fun m => insert_node cb fuel m root p lp n).
Proof. unfold insert_node. repeat first [apply link_local | apply fixup_local | lstep]. Qed.
Lemma unlink_local root fuel n : Lm (fun m => let* mr := remove cb fuel m root n in let '(m, reb) := mr in if negb (reb =? NULL) then erase cb fuel m root reb else Some m).
Proof. repeat first [apply remove_local | apply erase_local | lstep]. Qed.
Lemma replace_local root o n : Lm (fun m => replace m root o n).
Proof. unfold replace. repeat first [apply child_change_local | lstep]. Qed.
End Cb.
