(** * Lock-free list on store buffers: all runs *)
From Coq Require Import Lia.
From Verif Require Import Lib AtomicModel AtomicSpec AtomicProofs FenceModel FenceSpec FenceProofs LlistFenceModel LlistFenceSpec LlistFenceProofs LlistFenceProofs2.
From Verif Require LlistModel LlistSpec LlistProofs.

Lemma explains_none : forall f g, explains f [] g -> g = f.
Proof. intros f g X. inversion X; reflexivity. Qed.
Lemma explains_one : forall f t op r g, explains f [(t, op, r)] g -> atspec op f = (g, r).
Proof. intros f t op r g X. inversion X as [|? ? ? ? ? f' ? EA X3]; subst. apply explains_none in X3. subst. exact EA. Qed.
Section All.
Variables (n : Z) (E : env) (f0 : Z -> Z).
Hypothesis EO : env_ok n E f0.
Notation inv := (inv E). Notation ti := (ti E).
Definition good (g : gst) (f : Z -> Z) (t : nat) (op : aop) : Prop :=
  let r := snd (atspec op f) in
  inv (gstep E g (t, op, r)) (fst (atspec op f)) /\ op_ok n op /\ (if opw op =? ehead E then ~ is_store op else gwho g (ehome E (opw op)) = Some t) /\
  moves g (gwho (gstep E g (t, op, r))) t op r.
Lemma same_moves : forall g t op r, moves g (gwho g) t op r.
Proof. intros g t op r x. left; reflexivity. Qed.
Lemma own_word : forall g f t w, inv g f -> In (ehome E w) (lheld (gl g t) ++ gpend g t) -> 0 <= w < n /\ (w =? ehead E) = false /\ gwho g (ehome E w) = Some t.
Proof.
  intros g f t w J I. pose proof (j_node E g f J t _ I) as Nw. destruct (eo_word _ _ _ EO w Nw) as (R & NH). split; [exact R|]. split; [apply Z.eqb_neq, NH|]. apply (j_who E g f J t), I.
Qed.
Lemma own_node : forall g f t x, inv g f -> In x (lheld (gl g t) ++ gpend g t) -> 0 <= x < n /\ (x =? ehead E) = false /\ gwho g (ehome E x) = Some t.
Proof. intros g f t x J I. apply (own_word g f t x J). destruct (node_ok n E f0 EO x (j_node E g f J t _ I)) as (_ & _ & -> & _). exact I. Qed.
Lemma upd_node : forall g f t x v y, inv g f -> In x (lheld (gl g t)) -> is_node E y -> ~ In y (lheld (gl g t)) -> upd f x v y = f y.
Proof. intros g f t x v y J I Ny NI. apply upd_other. intros ->. exact (NI I). Qed.
Lemma del_top_good : forall g f f' t e, inv g f -> f' = f -> f (ehead E) = e -> ti t f (gstk g) TDel (lheld (gl g t)) (gpend g t) ->
  inv {| gl := tset (gl g) t (fst (del_top t (gl g t) e)); gstk := gstk g; gwho := gwho g; gpend := gpend g; gev := gev g ++ snd (del_top t (gl g t) e) |} f'.
Proof.
  intros g f f' t e J -> FE (P & M). pose proof (j_head E g f J) as C. rewrite FE in C. unfold del_top. destruct (Z.eqb_spec e 0) as [Z|Z]; cbn [fst snd].
  - apply (step_private E g f f t); try reflexivity; [exact J|exact P|]. right. split; [reflexivity|]. destruct (gstk g) as [|x s] eqn:Es; [reflexivity|]. destruct C as (C & _). exfalso.
    destruct (node_ok n E f0 EO x) as (_ & _ & _ & _ & NZ); [apply (j_snode E g f J); rewrite Es; left; reflexivity|]. congruence.
  - apply (step_private E g f f t); try reflexivity; [exact J| |left; reflexivity]. cbn [goto ltask lheld LlistFenceProofs.ti]. split; [exact P|]. split; [exact M|].
    destruct (gstk g) as [|x s]; [contradiction (Z C)|]. destruct C as (-> & _). left; reflexivity.
Qed.
Lemma gstep_good : forall g f t op, inv g f -> access E (begin E t (gl g t)) = Some op -> good g f t op.
Proof.
  intros g f t op J A. pose proof (ti_begin E t f (gstk g) (gl g t) (gpend g t) (j_task E g f J t)) as T.
  pose proof (head_ptr E g f J) as HP. destruct (eo_head _ _ _ EO) as (HR & _).
  unfold good, gstep. destruct (begin E t (gl g t)) as [|w|w v|b rest|b|b e|b e| |p acc| |e|e nx]; cbn [access] in A; cbn [LlistFenceProofs.ti] in T; [discriminate A| | | | | | | | | | |].
  - (* TLoad *) injection A as <-. cbn [atspec fst snd opw op_ok]. destruct T as (P & I). destruct (own_word g f t w J) as (Rw & NH & Ow); [apply in_or_app; left; exact I|]. rewrite NH.
    split; [|split; [exact Rw|split; [exact Ow|exact (same_moves g t _ _)]]]. cbn [after fst snd]. apply (step_private E g f f t); try reflexivity; [exact J|exact P|left; reflexivity].
  - (* TStore *) injection A as <-. cbn [atspec fst snd opw op_ok]. destruct T as (P & I & V). destruct (own_word g f t w J) as (Rw & NH & Ow); [apply in_or_app; left; exact I|]. rewrite NH.
    split; [|split; [split; [exact Rw|exact V]|split; [exact Ow|exact (same_moves g t _ _)]]]. cbn [after fst snd]. apply (step_private E g f _ t); try reflexivity; [exact J| | |exact P|left; reflexivity].
    + apply upd_other. apply Z.eqb_neq in NH. congruence.
    + intros x Nx NI. apply upd_other. intros ->. apply NI. destruct (node_ok n E f0 EO w Nx) as (_ & _ & Hw & _). rewrite Hw in I. exact I.
  - (* TLink *) destruct T as (P & (BN & BD & BI) & x & y & r & d & E1 & E2 & L). subst rest. injection A as <-. cbn [atspec fst snd opw op_ok].
    assert (Ix : In x b) by (rewrite E2; apply in_or_app; right; left; reflexivity). assert (Iy : In y b) by (rewrite E2; apply in_or_app; right; right; left; reflexivity).
    assert (Mx : In x (lheld (gl g t) ++ gpend g t)) by (apply in_or_app; left; apply BI, Ix). assert (My : In y (lheld (gl g t) ++ gpend g t)) by (apply in_or_app; left; apply BI, Iy).
    destruct (own_node g f t x J Mx) as (Rx & NH & Ox). rewrite NH.
    split; [|split; [split; [exact Rx|apply (node_ok n E f0 EO y), (j_node E g f J t), My]|split; [exact Ox|exact (same_moves g t _ _)]]]. cbn [after fst snd].
    apply (step_private E g f _ t); try reflexivity; [exact J| | | |left; reflexivity].
    + apply upd_other. apply Z.eqb_neq in NH. congruence.
    + intros z Nz NI. apply (upd_node g f t x y z J); [apply BI, Ix|exact Nz|exact NI].
    + assert (L' : linked (upd f x y) (d ++ [x; y])).
      { apply linked_snoc; [|apply upd_same]. destruct d as [|d0 d1] eqn:Ed; [exact Logic.I|]. rewrite <- Ed in *. clear Ed. 
        assert (ND : ~ In x d). { rewrite E2 in BD. apply NoDup_app_iff in BD. destruct BD as (_ & _ & D). intros K. apply (D x K). left; reflexivity. }
        clear - L ND. revert L ND. induction d as [|z d IH]; intros L ND; [exact Logic.I|]. cbn [app linked] in *. destruct d as [|z' d]; cbn [app] in *.
        - destruct L as (L & _). split; [|exact Logic.I]. rewrite upd_other; [exact L|]. intros ->. apply ND. left; reflexivity.
        - destruct L as (L1 & L2). split; [rewrite upd_other; [exact L1|intros ->; apply ND; left; reflexivity]|]. apply IH; [exact L2|]. intros K. apply ND. right; exact K. }
      assert (B : batch_ok b (lheld (gl g t))) by (split; [exact BN|split; [exact BD|exact BI]]).
      unfold link. destruct r as [|z r]; cbn [goto ltask lheld LlistFenceProofs.ti]; (split; [exact P|split; [exact B|]]); [rewrite E2; exact L'|].
      exists y, z, r, (d ++ [x]). split; [reflexivity|]. split; [rewrite E2, <- app_assoc; reflexivity|]. rewrite <- app_assoc. exact L'.
  - (* TRead *) injection A as <-. cbn [atspec fst snd opw op_ok]. rewrite Z.eqb_refl. split; [|split; [exact HR|split; [intros []|exact (same_moves g t _ _)]]]. cbn [after fst snd].
    destruct T as (P & B & L). apply (step_private E g f f t); try reflexivity; [exact J| |left; reflexivity]. split; [exact P|]. split; [exact B|]. split; [exact L|exact HP].
  - (* TWrite *) injection A as <-. destruct T as (P & B & L & PE). pose proof (last_in b (proj1 B)) as LI. cbn [atspec fst snd opw op_ok].
    assert (ML : In (last b 0) (lheld (gl g t) ++ gpend g t)) by (apply in_or_app; left; apply B, LI). destruct (own_node g f t _ J ML) as (Rx & NH & Ox). rewrite NH.
    split; [|split; [split; [exact Rx|apply (ptr_u64 n E f0 EO), PE]|split; [exact Ox|exact (same_moves g t _ _)]]]. cbn [after fst snd].
    apply (step_private E g f _ t); try reflexivity; [exact J| | | |left; reflexivity].
    + apply upd_other. apply Z.eqb_neq in NH. congruence.
    + intros z Nz NI. apply (upd_node g f t _ e z J); [apply B, LI|exact Nz|exact NI].
    + cbn [goto ltask lheld LlistFenceProofs.ti]. split; [exact P|]. split; [exact B|]. split; [|split; [exact PE|apply upd_same]].
      destruct B as (BN & BD & _). clear - L BD. revert L BD. induction b as [|x b IH]; intros L BD; [exact Logic.I|]. cbn [linked] in *. destruct b as [|y b]; [exact Logic.I|]. destruct L as (L1 & L2).
      apply NoDup_cons_iff in BD. destruct BD as (N1 & N2). assert (NL : x <> last (x :: y :: b) 0). { intros K. apply N1. rewrite K. change (last (x :: y :: b) 0) with (last (y :: b) 0). apply last_in. discriminate. }
      split; [rewrite upd_other by exact NL; exact L1|]. change (last (x :: y :: b) 0) with (last (y :: b) 0). apply IH; assumption.
  - (* TCas *) injection A as <-. pose proof T as T'. destruct T as (P & B & L & PE & LE). cbn [atspec fst snd opw op_ok]. rewrite Z.eqb_refl.
    assert (OK : 0 <= ehead E < n /\ u64v e /\ u64v (hd 0 b)). { split; [exact HR|]. split; [apply (ptr_u64 n E f0 EO), PE|]. apply (node_ok n E f0 EO). apply (j_node E g f J t). apply in_or_app; left. apply B. destruct b; [destruct (proj1 B eq_refl)|left; reflexivity]. }
    destruct (Z.eqb_spec (f (ehead E)) e) as [FE|FE]; cbn [after fst snd].
    + destruct (step_add n E f0 EO g f t b e (LAdded (e =? 0)) J T' FE) as (J' & M'). split; [exact J'|]. split; [exact OK|]. split; [intros []|exact M'].
    + split; [|split; [exact OK|split; [intros []|exact (same_moves g t _ _)]]]. apply (step_private E g f f t); try reflexivity; [exact J| |left; reflexivity].
      split; [exact P|]. split; [exact B|]. split; [exact L|exact HP].
  - (* TXchg *) injection A as <-. cbn [atspec fst snd opw op_ok]. rewrite Z.eqb_refl. destruct (step_destroy n E f0 EO g f t (RVal (f (ehead E))) J T) as (J' & M'). cbn zeta in J', M'. cbn [after].
    split; [exact J'|]. split; [split; [exact HR|split; lia]|]. split; [intros []|exact M'].
  - (* TWalk *) injection A as <-. pose proof T as T'. destruct T as (rest & P & C). cbn [atspec fst snd opw op_ok].
    assert (Mp : In p (lheld (gl g t) ++ gpend g t)) by (apply in_or_app; right; rewrite P; apply in_or_app; right; left; reflexivity). destruct (own_node g f t p J Mp) as (Rx & NH & Ox). rewrite NH.
    split; [|split; [exact Rx|split; [exact Ox|exact (same_moves g t _ _)]]]. cbn [after]. unfold walk. destruct (Z.eqb_spec (f p) 0) as [Z|Z]; cbn [fst snd].
    + apply (step_walked n E f0 EO g f t p acc J T' Z).
    + apply (step_private E g f f t); try reflexivity; [exact J| |left; reflexivity]. cbn [goto ltask lheld LlistFenceProofs.ti]. destruct rest as [|x rest]; [contradiction (Z C)|]. destruct C as (C1 & C2).
      exists rest. split; [rewrite P, C1, <- app_assoc; reflexivity|]. rewrite C1. exact C2.
  - (* TDel *) injection A as <-. cbn [atspec fst snd opw op_ok]. rewrite Z.eqb_refl. split; [|split; [exact HR|split; [intros []|exact (same_moves g t _ _)]]]. cbn [after]. apply (del_top_good g f f t _ J eq_refl eq_refl T).
  - (* TNext *) injection A as <-. destruct T as (P & M & I). cbn [atspec fst snd opw op_ok]. pose proof (j_snode E g f J e I) as Ne. destruct (node_ok n E f0 EO e Ne) as (Re & _ & He & NH & _).
    rewrite (proj2 (Z.eqb_neq _ _) NH). split; [|split; [exact Re|split; [|exact (same_moves g t _ _)]]].
    + cbn [after fst snd]. apply (step_private E g f f t); try reflexivity; [exact J| |left; reflexivity]. split; [exact P|]. split; [exact M|]. split; [exact I|reflexivity].
    + rewrite He, (j_stk E g f J e I). unfold may_del in M. destruct (econs E) as [k|]; [|discriminate M]. apply Nat.eqb_eq in M. congruence.
  - (* TTake *) injection A as <-. pose proof T as T'. destruct T as (P & M & I & FX). cbn [atspec fst snd opw op_ok]. rewrite Z.eqb_refl.
    assert (OK : 0 <= ehead E < n /\ u64v e /\ u64v nx).
    { split; [exact HR|]. split; [apply (node_ok n E f0 EO), (j_snode E g f J), I|]. apply (ptr_u64 n E f0 EO). rewrite <- FX. destruct (chain_next f _ _ e (j_head E g f J) I) as [Z|K]; [left; exact Z|right; apply (j_snode E g f J), K]. }
    destruct (Z.eqb_spec (f (ehead E)) e) as [FE|FE]; cbn [after].
    + split; [apply (step_del n E f0 EO g f t e nx J T' FE)|]. split; [exact OK|]. split; [intros []|exact (same_moves g t _ _)].
    + split; [|split; [exact OK|split; [intros []|exact (same_moves g t _ _)]]]. apply (del_top_good g f f t _ J eq_refl eq_refl). split; [exact P|exact M].
Qed.
Variable who0 : Z -> option nat.
Hypothesis W0 : forall t x, In x (emine E t) -> who0 x = Some t.
Lemma init_inv : inv (ginit E who0) f0.
Proof.
  constructor; cbn [ginit gl gstk gwho gpend gev linit lheld ltask].
  - apply (eo_head _ _ _ EO).
  - intros x [].
  - intros t x I. rewrite app_nil_r in I. apply W0, I.
  - intros t. cbn [app]. rewrite app_nil_r. apply (eo_distinct _ _ _ EO).
  - intros x [].
  - intros t x I. rewrite app_nil_r in I. exists t. exact I.
  - intros x (t & I). right. exists t. rewrite app_nil_r. exact I.
  - intros t. reflexivity.
  - exists (fun _ => []). split; [apply LlistSpec.spec_nil|reflexivity].
Qed.
Lemma ghost_snoc : forall l x, ghost E who0 (l ++ [x]) = gstep E (ghost E who0 l) x.
Proof. intros l x. unfold ghost. rewrite fold_left_app. reflexivity. Qed.
Lemma gstep_local : forall g t op r u, gl (gstep E g (t, op, r)) u = if Nat.eqb t u then lstep E t (gl g t) (op, r) else gl g u.
Proof.
  intros g t op r u. assert (K : gl (gstep E g (t, op, r)) = tset (gl g) t (lstep E t (gl g t) (op, r))).
  { unfold gstep, lstep. cbn [snd]. destruct (begin E t (gl g t)); try reflexivity; destruct r as [|?|?|[|] ?]; reflexivity. }
  rewrite K. unfold tset. rewrite (Nat.eqb_sym u t). reflexivity.
Qed.
Lemma ghost_local : forall l u, gl (ghost E who0 l) u = local_of E u (proj u l).
Proof.
  intros l u. induction l as [|[[t op] r] l IH] using rev_ind; [reflexivity|]. rewrite ghost_snoc, gstep_local, proj_snoc. unfold local_of. rewrite fold_left_app. fold (local_of E u (proj u l)). rewrite <- IH.
  destruct (Nat.eqb_spec t u) as [->|N]; reflexivity.
Qed.
Lemma gstep_ev : forall g t op r, gev (gstep E g (t, op, r)) = gev g ++ snd (after E t (gl g t) (begin E t (gl g t)) r).
Proof. intros g t op r. unfold gstep. destruct (begin E t (gl g t)); try reflexivity; destruct r as [|?|?|[|] ?]; reflexivity. Qed.
Lemma ghost_events : forall l, gev (ghost E who0 l) = events E l.
Proof.
  intros l. unfold events. assert (K : forall l, (forall u, fst (fold_left (estep E) l (linit E, [])) u = gl (ghost E who0 l) u) /\ snd (fold_left (estep E) l (linit E, [])) = gev (ghost E who0 l)).
  2:{ symmetry. apply K. }
  clear l. intros l. induction l as [|[[t op] r] l (IH1 & IH2)] using rev_ind; [split; reflexivity|]. rewrite fold_left_app. cbn [fold_left]. set (a := fold_left (estep E) l (linit E, [])) in *.
  unfold estep. rewrite IH1, ghost_snoc. pose proof (gstep_ev (ghost E who0 l) t op r) as GE. destruct (after E t (gl (ghost E who0 l) t) (begin E t (gl (ghost E who0 l) t)) r) as [s ev] eqn:Ea. cbn [fst snd] in *. split.
  - intros u. rewrite gstep_local. unfold lstep. cbn [snd]. rewrite Ea. unfold tset. rewrite (Nat.eqb_sym u t). destruct (Nat.eqb t u); [reflexivity|apply IH1].
  - rewrite GE, IH2. reflexivity.
Qed.
Lemma ghost_inv : forall l f, issued (list_client E) l -> explains f0 l f -> inv (ghost E who0 l) f.
Proof.
  intros l f IS. revert f. induction IS as [|l t op r IS IH EC]; intros f X.
  - rewrite (explains_none _ _ X). exact init_inv.
  - destruct (explains_app _ _ _ _ X) as (f1 & X1 & X2). apply explains_one in X2. rename X2 into EA. specialize (IH _ X1). unfold list_client in EC. rewrite <- ghost_local in EC.
    destruct (gstep_good _ _ _ _ IH EC) as (K & _). rewrite EA in K. cbn [fst snd] in K. rewrite ghost_snoc. exact K.
Qed.
Definition node_own : ownership := fun l w => if w =? ehead E then None else gwho (ghost E who0 l) (ehome E w).
Lemma list_respects : respects (fun w => w =? ehead E) node_own (list_client E) f0.
Proof.
  intros l f t op IS X EC. pose proof (ghost_inv l f IS X) as J. unfold list_client in EC. rewrite <- ghost_local in EC. destruct (gstep_good _ _ _ _ J EC) as (_ & _ & OW & MV).
  unfold node_own. split; [destruct (opw op =? ehead E); exact OW|]. intros w. rewrite ghost_snoc. destruct (w =? ehead E); [left; reflexivity|]. apply MV.
Qed.
Lemma list_ok : forall l f t op, issued (list_client E) l -> explains f0 l f -> list_client E t (proj t l) = Some op -> op_ok n op.
Proof. intros l f t op IS X EC. pose proof (ghost_inv l f IS X) as J. unfold list_client in EC. rewrite <- ghost_local in EC. apply (gstep_good _ _ _ _ J EC). Qed.
End All.
