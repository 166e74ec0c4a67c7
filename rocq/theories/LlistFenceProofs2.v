(** * Lock-free list on store buffers: every access keeps the invariant *)
From Coq Require Import Lia.
From Verif Require Import Lib AtomicModel AtomicSpec AtomicProofs FenceModel FenceSpec FenceProofs LlistFenceModel LlistFenceSpec LlistFenceProofs.
From Verif Require LlistModel LlistSpec LlistProofs.

Section Step.
Variables (n : Z) (E : env) (f0 : Z -> Z).
Hypothesis EO : env_ok n E f0.
Notation inv := (inv E). Notation ti := (ti E).
Lemma upd_same : forall f w v, upd f w v w = v.
Proof. intros. unfold upd. rewrite Z.eqb_refl. reflexivity. Qed.
Lemma upd_other : forall f w v u, u <> w -> upd f w v u = f u.
Proof. intros f w v u N. unfold upd. rewrite (proj2 (Z.eqb_neq _ _) N). reflexivity. Qed.
Lemma node_ok : forall x, is_node E x -> 0 <= x < n /\ u64v x /\ ehome E x = x /\ x <> ehead E /\ x <> 0.
Proof.
  intros x Nx. destruct (eo_node _ _ _ EO x Nx) as (N0 & U & Hx). assert (W : is_node E (ehome E x)) by (rewrite Hx; exact Nx). destruct (eo_word _ _ _ EO x W) as (R & NH).
  repeat (split; [assumption|]). assumption.
Qed.
Lemma ptr_u64 : forall e, ptr E e -> u64v e.
Proof. intros e [->|K]; [split; lia|]. apply node_ok, K. Qed.
Lemma NoDup_app_l : forall (a b : list Z), NoDup (a ++ b) -> NoDup a.
Proof. induction a as [|x a IH]; intros b N; [constructor|]. inversion N as [|? ? N1 N2]; subst. constructor; [intros I; apply N1, in_or_app; left; exact I|exact (IH _ N2)]. Qed.
Lemma NoDup_app_r : forall (a b : list Z), NoDup (a ++ b) -> NoDup b.
Proof. induction a as [|x a IH]; intros b N; [exact N|]. inversion N; subst. apply IH. assumption. Qed.
Lemma NoDup_app_iff : forall (a b : list Z), NoDup (a ++ b) <-> NoDup a /\ NoDup b /\ forall x, In x a -> ~ In x b.
Proof.
  induction a as [|x a IH]; intros b; [split; [intros N; split; [constructor|]; split; [exact N|intros ? []]|intros (_ & N & _); exact N]|]. cbn [app]. rewrite !NoDup_cons_iff, IH. split.
  - intros (N & A & B & D). split; [split; [intros I; apply N, in_or_app; left; exact I|exact A]|]. split; [exact B|]. intros y [<-|Hy]; [intros I; apply N, in_or_app; right; exact I|apply D, Hy].
  - intros ((N & A) & B & D). split; [intros I; apply in_app_or in I; destruct I as [I|I]; [exact (N I)|exact (D x (or_introl eq_refl) I)]|]. split; [exact A|]. split; [exact B|]. intros y Hy. apply D. right; exact Hy.
Qed.
(** the tasks of the other threads after a step of [t] that may have changed the stack and the head *)
Lemma ti_others : forall g f f' stk' t u, inv g f -> u <> t -> ti u f (gstk g) (ltask (gl g u)) (lheld (gl g u)) (gpend g u) ->
  (forall x, is_node E x -> f' x = f x) -> (may_del E u = true -> incl (gstk g) stk') -> ti u f' stk' (ltask (gl g u)) (lheld (gl g u)) (gpend g u).
Proof.
  intros g f f' stk' t u J N T F I. apply (ti_frame E u f f' (gstk g)); [exact T| |].
  - intros x Hx. apply F. apply (j_node E g f J u). apply in_or_app. exact Hx.
  - intros M. split; [exact (I M)|]. intros x Hx. apply F. apply (j_snode E g f J x Hx).
Qed.
Definition moves (g : gst) (who' : Z -> option nat) (t : nat) (op : aop) (r : ret) : Prop :=
  forall x, who' x = gwho g x \/ gwho g x = None \/ (gwho g x = Some t /\ fence op r).
(** ** The four steps that move nodes *)
Lemma step_add : forall g f t b e r, inv g f -> ti t f (gstk g) (TCas b e) (lheld (gl g t)) (gpend g t) -> f (ehead E) = e ->
  let g' := {| gl := tset (gl g) t (done (gl g t) (LlistModel.minus (lheld (gl g t)) b) r); gstk := b ++ gstk g; gwho := fun x => if LlistModel.mem_z x b then econs E else gwho g x;
               gpend := gpend g; gev := gev g ++ [LlistModel.EAdd t b (e =? 0)] |} in
  inv g' (upd f (ehead E) (hd 0 b)) /\ moves g (gwho g') t (ATry (ehead E) e (hd 0 b)) (RTry true e).
Proof.
  intros g f t b e r J (P & (BN & BD & BI) & L & PE & LE) FE g'. cbn zeta in g'.
  assert (FN : forall x, is_node E x -> upd f (ehead E) (hd 0 b) x = f x). { intros x Nx. apply upd_other. apply (node_head n E f0 EO x Nx). }
  assert (BM : forall x, In x b -> In x (lheld (gl g t) ++ gpend g t)) by (intros x Hx; apply in_or_app; left; apply BI, Hx).
  assert (BS : forall x, In x b -> ~ In x (gstk g)) by (intros x Hx; apply (not_stk E g f t x J), BM, Hx).
  assert (NB : forall x, In x b -> is_node E x) by (intros x Hx; apply (j_node E g f J t), BM, Hx).
  assert (ML : forall x, LlistModel.mem_z x b = false -> ~ In x b) by (intros x M I; apply LlistProofs.mem_z_in in I; congruence).
  assert (LT : forall u, u <> t -> tset (gl g) t (done (gl g t) (LlistModel.minus (lheld (gl g t)) b) r) u = gl g u) by (intros u N; apply tset_other, N).
  split.
  2:{ intros x. subst g'. cbn [gwho]. destruct (LlistModel.mem_z x b) eqn:M; [|left; reflexivity]. right; right. apply LlistProofs.mem_z_in in M. split; [apply (j_who E g f J t), BM, M|exact Logic.I]. }
  constructor; subst g'; cbn [gl gstk gwho gpend gev].
  - rewrite upd_same. apply linked_chain; [exact BN|apply (linked_ext f); [intros x Hx; apply FN, NB, Hx|exact L]|].
    rewrite FN by (apply NB, last_in, BN). rewrite LE. apply (chain_ext f); [intros x Hx; apply FN, (j_snode E g f J x Hx)|]. rewrite <- FE. apply (j_head E g f J).
  - intros x Hx. destruct (LlistModel.mem_z x b) eqn:M; [reflexivity|]. apply ML in M. apply in_app_or in Hx. destruct Hx as [Hx|Hx]; [contradiction|apply (j_stk E g f J x Hx)].
  - intros u x Hx. destruct (Nat.eq_dec u t) as [->|N].
    + rewrite tset_same in Hx. cbn [done lheld] in Hx. rewrite P, app_nil_r in Hx. apply LlistProofs.minus_in in Hx. destruct Hx as (Hx & Nx).
      destruct (LlistModel.mem_z x b) eqn:M; [apply LlistProofs.mem_z_in in M; contradiction|]. apply (j_who E g f J t). apply in_or_app. left; exact Hx.
    + rewrite LT in Hx by exact N. destruct (LlistModel.mem_z x b) eqn:M; [|apply (j_who E g f J u), Hx]. apply LlistProofs.mem_z_in in M. contradiction (not_mine E g f t u x J N Hx (BM x M)).
  - intros u. rewrite <- app_assoc. apply NoDup_app_iff. split; [exact BD|]. destruct (Nat.eq_dec u t) as [->|N].
    + rewrite tset_same. cbn [done lheld]. rewrite P, app_nil_r. pose proof (j_nd E g f J t) as ND. rewrite P, app_nil_r in ND. apply NoDup_app_iff in ND. destruct ND as (N1 & N2 & N3).
      split.
      * apply NoDup_app_iff. split; [exact N1|]. split; [apply NoDup_filter, N2|]. intros x Hx I. apply LlistProofs.minus_in in I. exact (N3 x Hx (proj1 I)).
      * intros x Hx I. apply in_app_or in I. destruct I as [I|I]; [exact (BS x Hx I)|]. apply LlistProofs.minus_in in I. exact (proj2 I Hx).
    + rewrite LT by exact N. split; [apply (j_nd E g f J u)|]. intros x Hx I. apply in_app_or in I. destruct I as [I|I]; [exact (BS x Hx I)|]. exact (not_mine E g f t u x J N I (BM x Hx)).
  - intros x Hx. apply in_app_or in Hx. destruct Hx as [Hx|Hx]; [apply NB, Hx|apply (j_snode E g f J x Hx)].
  - intros u x Hx. destruct (Nat.eq_dec u t) as [->|N].
    + rewrite tset_same in Hx. cbn [done lheld] in Hx. apply (j_node E g f J t). apply in_app_or in Hx. apply in_or_app. destruct Hx as [Hx|Hx]; [left; apply LlistProofs.minus_in in Hx; apply Hx|right; exact Hx].
    + rewrite LT in Hx by exact N. apply (j_node E g f J u), Hx.
  - intros x Nx. destruct (j_all E g f J x Nx) as [I|(u & I)]; [left; apply in_or_app; right; exact I|]. destruct (Nat.eq_dec u t) as [->|N]; [|right; exists u; rewrite LT by exact N; exact I].
    destruct (LlistModel.mem_z x b) eqn:M; [left; apply in_or_app; left; apply LlistProofs.mem_z_in, M|]. apply ML in M. right. exists t. rewrite tset_same. cbn [done lheld].
    apply in_app_or in I. apply in_or_app. destruct I as [I|I]; [left; apply LlistProofs.minus_in; split; assumption|right; exact I].
  - intros u. destruct (Nat.eq_dec u t) as [->|N].
    + rewrite tset_same. cbn [done ltask lheld LlistFenceProofs.ti]. exact P.
    + rewrite LT by exact N. apply (ti_others g f _ _ t u J N); [apply (j_task E g f J u)|exact FN|intros _ x Hx; apply in_or_app; right; exact Hx].
  - destruct (j_spec E g f J) as (p & R & Pp). exists p. split; [|exact Pp]. apply (LlistSpec.spec_snoc _ _ (gstk g, p)); [exact R|]. split; [|reflexivity].
    pose proof (j_head E g f J) as C. rewrite FE in C. destruct (gstk g) as [|x s] eqn:Es; cbn [chain LlistSpec.is_nil] in *; [rewrite C; reflexivity|]. destruct C as (-> & _).
    apply Z.eqb_neq. apply (node_ok x). apply (j_snode E g f J). rewrite Es. left; reflexivity.
Qed.
(** destroy: the stack becomes the chain of [t] *)
Lemma may_unique : forall t u, may_take E t = true -> may_del E u = true -> u = t.
Proof. intros t u. unfold may_take, may_del. destruct (econs E) as [k|]; [|discriminate]. intros A B. apply Nat.eqb_eq in A, B. congruence. Qed.
Lemma step_destroy : forall g f t r, inv g f -> ti t f (gstk g) TXchg (lheld (gl g t)) (gpend g t) ->
  let p := f (ehead E) in
  let who' := fun x => if LlistModel.mem_z x (gstk g) then Some t else gwho g x in
  inv {| gl := tset (gl g) t (fst (let '(s, l) := walk t (gl g t) p [] in (s, LlistModel.ETake t p :: l))); gstk := []; gwho := who';
         gpend := if p =? 0 then gpend g else tset (gpend g) t (gstk g); gev := gev g ++ snd (let '(s, l) := walk t (gl g t) p [] in (s, LlistModel.ETake t p :: l)) |} (upd f (ehead E) 0) /\
  moves g who' t (AXchg (ehead E) 0) r.
Proof.
  intros g f t r J (P & M) p who'.
  assert (FN : forall x, is_node E x -> upd f (ehead E) 0 x = f x). { intros x Nx. apply upd_other. apply (node_head n E f0 EO x Nx). }
  pose proof (j_head E g f J) as C. fold p in C.
  assert (WS : forall x, In x (gstk g) -> who' x = Some t) by (intros x Hx; unfold who'; apply LlistProofs.mem_z_in in Hx; rewrite Hx; reflexivity).
  assert (WM : forall u x, In x (lheld (gl g u) ++ gpend g u) -> who' x = Some u).
  { intros u x Hx. unfold who'. destruct (LlistModel.mem_z x (gstk g)) eqn:Mx; [|apply (j_who E g f J u), Hx]. apply LlistProofs.mem_z_in in Mx. contradiction (not_stk E g f u x J Hx Mx). }
  split.
  2:{ intros x. unfold who'. destruct (LlistModel.mem_z x (gstk g)) eqn:Mx; [|left; reflexivity]. apply LlistProofs.mem_z_in in Mx. rewrite (j_stk E g f J x Mx). unfold may_take in M.
      destruct (econs E) as [k|]; [|right; left; reflexivity]. left. apply Nat.eqb_eq in M. congruence. }
  assert (TU : forall u, u <> t -> ti u (upd f (ehead E) 0) [] (ltask (gl g u)) (lheld (gl g u)) (gpend g u)).
  { intros u N. apply (ti_others g f _ _ t u J N); [apply (j_task E g f J u)|exact FN|]. intros D. contradiction (N (may_unique t u M D)). }
  unfold walk. destruct (Z.eqb_spec p 0) as [Ep|Ep].
  - assert (Es : gstk g = []). { destruct (gstk g) as [|x s] eqn:Es; [reflexivity|]. destruct C as (C & _). exfalso. destruct (node_ok x) as (_ & _ & _ & _ & NZ); [apply (j_snode E g f J); rewrite Es; left; reflexivity|]. congruence. }
    cbn [fst snd]. rewrite app_nil_r.
    assert (HU : forall u, lheld (tset (gl g) t (done (gl g t) (lheld (gl g t)) (LGot [])) u) = lheld (gl g u)).
    { intros u. destruct (Nat.eq_dec u t) as [->|N]; [rewrite tset_same; reflexivity|rewrite tset_other by exact N; reflexivity]. }
    constructor; cbn [gl gstk gwho gpend gev].
    + rewrite upd_same. reflexivity.
    + intros x [].
    + intros u x Hx. rewrite HU in Hx. exact (WM u x Hx).
    + intros u. rewrite HU. pose proof (j_nd E g f J u) as ND. rewrite Es in ND. exact ND.
    + intros x [].
    + intros u x Hx. rewrite HU in Hx. exact (j_node E g f J u x Hx).
    + intros x Nx. destruct (j_all E g f J x Nx) as [I|(u & I)]; [rewrite Es in I; destruct I|]. right. exists u. rewrite HU. exact I.
    + intros u. destruct (Nat.eq_dec u t) as [->|N]; [rewrite tset_same; exact P|]. rewrite tset_other by exact N. exact (TU u N).
    + destruct (j_spec E g f J) as (q & R & Pq). exists (LlistModel.set (LlistModel.set q t []) t []). split.
      * change [LlistModel.ETake t p; LlistModel.EWalk t []] with ([LlistModel.ETake t p] ++ [LlistModel.EWalk t []]). rewrite app_assoc.
        apply (LlistSpec.spec_snoc _ _ ([], LlistModel.set q t [])); [apply (LlistSpec.spec_snoc _ _ (gstk g, q)); [exact R|]|].
        -- rewrite Es. split; [exact Ep|]. split; [rewrite Pq; exact P|reflexivity].
        -- split; [rewrite LlistProofs.set_same; reflexivity|reflexivity].
      * intros u. unfold LlistModel.set. destruct (Nat.eqb_spec u t) as [->|N]; [symmetry; exact P|apply Pq].
  - cbn [fst snd]. destruct (gstk g) as [|x s] eqn:Es; [contradiction (Ep C)|]. rewrite <- Es in *.
    assert (HU : forall u, lheld (tset (gl g) t (goto (gl g t) (TWalk p [])) u) = lheld (gl g u)).
    { intros u. destruct (Nat.eq_dec u t) as [->|N]; [rewrite tset_same; reflexivity|rewrite tset_other by exact N; reflexivity]. }
    constructor; cbn [gl gstk gwho gpend gev].
    + rewrite upd_same. reflexivity.
    + intros y [].
    + intros u y Hy. rewrite HU in Hy. destruct (Nat.eq_dec u t) as [->|N]; [rewrite tset_same in Hy|rewrite tset_other in Hy by exact N; exact (WM u y Hy)].
      apply in_app_or in Hy. destruct Hy as [Hy|Hy]; [apply WM, in_or_app; left; exact Hy|exact (WS y Hy)].
    + intros u. rewrite HU. cbn [app]. destruct (Nat.eq_dec u t) as [->|N].
      * rewrite tset_same. pose proof (j_nd E g f J t) as ND. rewrite P, app_nil_r in ND. apply NoDup_app_iff in ND. destruct ND as (N1 & N2 & N3). apply NoDup_app_iff. split; [exact N2|]. split; [exact N1|].
        intros y Hy I. exact (N3 y I Hy).
      * rewrite tset_other by exact N. apply NoDup_app_r with (gstk g). apply (j_nd E g f J u).
    + intros y [].
    + intros u y Hy. rewrite HU in Hy. destruct (Nat.eq_dec u t) as [->|N]; [rewrite tset_same in Hy|rewrite tset_other in Hy by exact N; exact (j_node E g f J u y Hy)].
      apply in_app_or in Hy. destruct Hy as [Hy|Hy]; [apply (j_node E g f J t), in_or_app; left; exact Hy|apply (j_snode E g f J y Hy)].
    + intros y Ny. right. destruct (j_all E g f J y Ny) as [I|(u & I)]; [exists t; rewrite HU, tset_same; apply in_or_app; right; exact I|]. exists u. rewrite HU. destruct (Nat.eq_dec u t) as [->|N].
      * rewrite P, app_nil_r in I. apply in_or_app. left; exact I.
      * rewrite tset_other by exact N. exact I.
    + intros u. destruct (Nat.eq_dec u t) as [->|N]; [rewrite !tset_same|rewrite !tset_other by exact N; exact (TU u N)]. cbn [goto ltask lheld LlistFenceProofs.ti].
      rewrite Es in C |- *. destruct C as (C1 & C2). exists s. split; [rewrite C1; reflexivity|]. rewrite C1. rewrite FN by (apply (j_snode E g f J); rewrite Es; left; reflexivity).
      apply (chain_ext f); [|exact C2]. intros y Hy. apply FN. apply (j_snode E g f J). rewrite Es. right; exact Hy.
    + destruct (j_spec E g f J) as (q & R & Pq). exists (LlistModel.set q t (gstk g)). split.
      * apply (LlistSpec.spec_snoc _ _ (gstk g, q)); [exact R|]. split; [symmetry; apply (chain_hd f _ _ C)|]. split; [rewrite Pq; exact P|reflexivity].
      * intros u. unfold LlistModel.set, tset. destruct (Nat.eqb u t); [reflexivity|apply Pq].
Qed.
(** the end of the walk *)
Lemma step_walked : forall g f t p acc, inv g f -> ti t f (gstk g) (TWalk p acc) (lheld (gl g t)) (gpend g t) -> f p = 0 ->
  inv {| gl := tset (gl g) t (done (gl g t) (lheld (gl g t) ++ acc ++ [p]) (LGot (acc ++ [p]))); gstk := gstk g; gwho := gwho g; gpend := tset (gpend g) t [];
         gev := gev g ++ [LlistModel.EWalk t (acc ++ [p])] |} f.
Proof.
  intros g f t p acc J (rest & P & C) Z. assert (R0 : rest = []).
  { destruct rest as [|x rest]; [reflexivity|]. destruct C as (C & _). exfalso. destruct (node_ok x) as (_ & _ & _ & _ & NZ); [|congruence]. apply (j_node E g f J t). rewrite P. apply in_or_app; right. apply in_or_app; right. right; left; reflexivity. }
  subst rest.
  assert (SAME : forall u, lheld (tset (gl g) t (done (gl g t) (lheld (gl g t) ++ acc ++ [p]) (LGot (acc ++ [p]))) u) ++ tset (gpend g) t [] u = lheld (gl g u) ++ gpend g u).
  { intros u. destruct (Nat.eq_dec u t) as [->|N]; [rewrite !tset_same; cbn [done lheld]; rewrite app_nil_r, P; reflexivity|rewrite !tset_other by exact N; reflexivity]. }
  constructor; cbn [gl gstk gwho gpend gev]; try (apply J).
  - intros u x. rewrite SAME. apply (j_who E g f J).
  - intros u. rewrite SAME. apply (j_nd E g f J).
  - intros u x. rewrite SAME. apply (j_node E g f J).
  - intros x Nx. destruct (j_all E g f J x Nx) as [I|(u & I)]; [left; exact I|]. right. exists u. rewrite SAME. exact I.
  - intros u. destruct (Nat.eq_dec u t) as [->|N]; [rewrite !tset_same; reflexivity|rewrite !tset_other by exact N; apply (j_task E g f J)].
  - destruct (j_spec E g f J) as (q & R & Pq). exists (LlistModel.set q t []). split.
    + apply (LlistSpec.spec_snoc _ _ (gstk g, q)); [exact R|]. split; [rewrite Pq; symmetry; exact P|reflexivity].
    + intros u. unfold LlistModel.set, tset. destruct (Nat.eqb u t); [reflexivity|apply Pq].
Qed.
(** del: the top of the stack *)
Lemma step_del : forall g f t e nx, inv g f -> ti t f (gstk g) (TTake e nx) (lheld (gl g t)) (gpend g t) -> f (ehead E) = e ->
  inv {| gl := tset (gl g) t (done (gl g t) (lheld (gl g t) ++ [e]) (LDel e)); gstk := tl (gstk g); gwho := gwho g; gpend := gpend g; gev := gev g ++ [LlistModel.EPop t e] |} (upd f (ehead E) nx).
Proof.
  intros g f t e nx J (P & M & I & FX) FE.
  assert (FN : forall x, is_node E x -> upd f (ehead E) nx x = f x). { intros x Nx. apply upd_other. apply (node_head n E f0 EO x Nx). }
  pose proof (j_head E g f J) as C. destruct (gstk g) as [|x s] eqn:Es; [destruct I|]. destruct C as (C1 & C2). rewrite FE in C1. subst x. cbn [tl].
  assert (WE : gwho g e = Some t). { rewrite (j_stk E g f J e) by (rewrite Es; left; reflexivity). unfold may_del in M. destruct (econs E) as [k|]; [|discriminate M]. apply Nat.eqb_eq in M. congruence. }
  assert (SN : forall y, In y (e :: s) -> is_node E y) by (intros y Hy; apply (j_snode E g f J); rewrite Es; exact Hy).
  constructor; cbn [gl gstk gwho gpend gev].
  - rewrite upd_same. apply (chain_ext f); [intros y Hy; apply FN, SN; right; exact Hy|rewrite <- FX; exact C2].
  - intros y Hy. apply (j_stk E g f J). rewrite Es. right; exact Hy.
  - intros u y Hy. destruct (Nat.eq_dec u t) as [->|N]; [rewrite tset_same in Hy|rewrite tset_other in Hy by exact N; apply (j_who E g f J u), Hy].
    cbn [done lheld] in Hy. rewrite P, app_nil_r in Hy. apply in_app_or in Hy. destruct Hy as [Hy|[<-|[]]]; [|exact WE]. apply (j_who E g f J t), in_or_app. left; exact Hy.
  - intros u. pose proof (j_nd E g f J u) as ND. rewrite Es in ND. cbn [app] in ND. apply NoDup_cons_iff in ND. destruct ND as (N1 & N2). destruct (Nat.eq_dec u t) as [->|N]; [rewrite tset_same|rewrite tset_other by exact N; exact N2].
    cbn [done lheld]. rewrite P, app_nil_r in N1, N2 |- *. rewrite app_assoc. apply NoDup_app_iff. split; [exact N2|]. split; [constructor; [intros []|constructor]|]. intros y Hy [<-|[]]. exact (N1 Hy).
  - intros y Hy. apply SN. right; exact Hy.
  - intros u y Hy. destruct (Nat.eq_dec u t) as [->|N]; [rewrite tset_same in Hy|rewrite tset_other in Hy by exact N; apply (j_node E g f J u), Hy].
    cbn [done lheld] in Hy. rewrite P, app_nil_r in Hy. apply in_app_or in Hy. destruct Hy as [Hy|[<-|[]]]; [|apply SN; left; reflexivity]. apply (j_node E g f J t), in_or_app. left; exact Hy.
  - intros y Ny. destruct (j_all E g f J y Ny) as [K|(u & K)].
    + rewrite Es in K. destruct K as [<-|K]; [|left; exact K]. right. exists t. rewrite tset_same. cbn [done lheld]. apply in_or_app; left. apply in_or_app; right. left; reflexivity.
    + right. exists u. destruct (Nat.eq_dec u t) as [->|N]; [rewrite tset_same|rewrite tset_other by exact N; exact K]. cbn [done lheld]. rewrite P, app_nil_r in K |- *. apply in_or_app; left; exact K.
  - intros u. destruct (Nat.eq_dec u t) as [->|N]; [rewrite tset_same; exact P|]. rewrite tset_other by exact N. apply (ti_others g f _ _ t u J N); [apply (j_task E g f J u)|exact FN|].
    intros D. contradiction N. unfold may_del in M, D. destruct (econs E) as [k|]; [|discriminate D]. apply Nat.eqb_eq in M, D. congruence.
  - destruct (j_spec E g f J) as (q & R & Pq). exists q. split; [|exact Pq]. apply (LlistSpec.spec_snoc _ _ (gstk g, q)); [exact R|]. rewrite Es. exists s. split; reflexivity.
Qed.
End Step.
