(** * Notification chains whose callbacks register and unregister nodes: proofs *)
From Verif Require Import Lib RespoolProps Ptr ListModel ListSpec ListProofs ListProofs2 IlistModel IlistSpec IlistProofs IlistProofs2 ListSortSpec NotifierModel NotifierSpec NotifierProps ReentModel ReentSpec.
Import Permutation Sorted.
Section Abs.
Variable prio : Z -> Z.
Variable entry : Z -> bool.
Variable orc : list Z -> Z -> Z.
Variable act : list Z -> Z -> list act1.
Variable AU : list Z.
Notation chain := (NotifierSpec.chain prio).
Notation place := (NotifierSpec.place prio).
Notation effect := (ReentSpec.effect entry orc act).
Notation round := (ReentSpec.round prio entry orc act).
Notation safe := (ReentSpec.safe prio entry orc act AU).
Notation acted := (ReentSpec.acted entry).
Lemma place_low n b : forall A B, prio n <= prio b -> exists A', place n (A ++ b :: B) = A' ++ b :: B.
Proof.
  induction A as [|a A IH]; intros B H; cbn [app NotifierSpec.place].
  - rewrite (proj2 (Z.leb_le _ _) H). exists [n]. reflexivity.
  - destruct (prio n <=? prio a); [exists (n :: a :: A); reflexivity|]. destruct (IH B H) as [A' ->]. exists (a :: A'). reflexivity.
Qed.
Lemma place_high n b : forall A B, asc prio (A ++ b :: B) -> prio b < prio n -> place n (A ++ b :: B) = A ++ b :: place n B.
Proof.
  induction A as [|a A IH]; intros B H L; cbn [app NotifierSpec.place].
  - destruct (Z.leb_spec (prio n) (prio b)); [lia|]. reflexivity.
  - apply StronglySorted_inv in H. destruct H as [H F]. rewrite Forall_forall in F. specialize (F b (in_elt b A B)). destruct (Z.leb_spec (prio n) (prio a)); [lia|]. f_equal. apply IH; assumption.
Qed.
Lemma place_in n l x : In x (place n l) <-> x = n \/ In x l.
Proof. split; intros H. - apply (Permutation_in _ (Permutation_sym (place_perm prio n l))) in H. destruct H as [<-|H]; auto. - apply (Permutation_in _ (place_perm prio n l)). destruct H as [->|H]; [left; reflexivity|right; exact H]. Qed.
Definition past_ok (V : list Z) (b : Z) (B : list Z) : Prop := forall v, In v V -> ~ In v (b :: B) /\ prio v <= prio b.
Lemma acts_keep : forall l w A b B V, acts_allowed entry AU w l -> ~ In (AUnreg b) l -> chain (regs w) = A ++ b :: B -> past_ok V b B ->
  exists A' B', chain (regs (acted w l)) = A' ++ b :: B' /\ past_ok V b B' /\ (forall z, In z B -> ~ In (AUnreg z) l -> In z B').
Proof.
  induction l as [|a l IH]; intros w A b B V Al Nb E P.
  - exists A, B. split; [exact E|]. split; [exact P|]. trivial.
  - destruct Al as [A1 A2]. assert (G : exists A1 B1, chain (regs (acted1 entry w a)) = A1 ++ b :: B1 /\ past_ok V b B1 /\ (forall z, In z B -> a <> AUnreg z -> In z B1)).
    { destruct a as [n|n]; cbn [acted1 act_allowed] in *.
      - destruct (entry n); [|exists A, B; split; [exact E|split; [exact P|trivial]]]. destruct (A1 eq_refl) as [_ Hn]. change (regs {| regs := n :: regs w; seen := n :: seen w; calls := calls w |}) with (n :: regs w). change (chain (n :: regs w)) with (place n (chain (regs w))). rewrite E.
        destruct (Z.le_gt_cases (prio n) (prio b)) as [L|L].
        + destruct (place_low n b A B L) as [A' ->]. exists A', B. split; [reflexivity|]. split; [exact P|trivial].
        + rewrite place_high; [|rewrite <- E; apply chain_asc|lia]. exists A, (place n B). split; [reflexivity|]. split.
          * intros v Hv. destruct (P v Hv) as [P1 P2]. split; [|exact P2]. intros [->|C]; [apply P1; left; reflexivity|]. apply place_in in C. destruct C as [->|C]; [lia|]. apply P1. right. exact C.
          * intros z Hz _. apply place_in. right. exact Hz.
      - cbn [regs]. rewrite chain_filter, E, filter_app. cbn [filter]. assert (Nn : b <> n) by (intros ->; apply Nb; left; reflexivity). rewrite (proj2 (Z.eqb_neq _ _) Nn). cbn [negb]. eexists _, _. split; [reflexivity|]. split.
        + intros v Hv. destruct (P v Hv) as [P1 P2]. split; [|exact P2]. intros [->|C]; [apply P1; left; reflexivity|]. apply filter_In in C. apply P1. right. apply C.
        + intros z Hz D. apply filter_In. split; [exact Hz|]. apply negb_true_iff, Z.eqb_neq. intros ->. apply D. reflexivity. }
    destruct G as (A' & B' & E' & P' & K'). destruct (IH (acted1 entry w a) A' b B' V A2 ltac:(intros C; apply Nb; right; exact C) E' P') as (A'' & B'' & E'' & P'' & K''). exists A'', B''. split; [exact E''|]. split; [exact P''|].
    intros z Hz Nz. apply K''; [|intros C; apply Nz; right; exact C]. apply K'; [exact Hz|]. intros ->. apply Nz. left. reflexivity.
Qed.
Lemma asc_mid A x b B : asc prio (A ++ x :: b :: B) -> prio x <= prio b.
Proof. induction A as [|a A IH]; cbn [app]; intros H; apply StronglySorted_inv in H; destruct H as [H F]; [inversion F; assumption|apply IH, H]. Qed.
(** one call leaves the node whose turn is next in the chain, with nodes behind it that have not been called *)
Lemma effect_keep w A x b B V : acts_allowed entry AU w (act (calls w) x) -> ~ In (AUnreg b) (act (calls w) x) -> NoDup (chain (regs w)) -> chain (regs w) = A ++ x :: b :: B -> past_ok V x (b :: B) ->
  exists A' B', chain (regs (effect w x)) = A' ++ b :: B' /\ past_ok (x :: V) b B' /\ (forall z, In z B -> ~ In (AUnreg z) (act (calls w) x) -> In z B').
Proof.
  intros Al Nb D E P. assert (Nx : ~ In x (b :: B)) by (rewrite E in D; apply NoDup_remove_2 in D; intros C; apply D, in_or_app; right; exact C).
  assert (P1 : past_ok (x :: V) b B).
  { pose proof (chain_asc prio (regs w)) as As. rewrite E in As. apply asc_mid in As. intros v [<-|Hv]; [split; assumption|]. destruct (P v Hv) as [Pa Pb]. split; [intros C; apply Pa; right; exact C|lia]. }
  destruct (acts_keep _ w (A ++ [x]) b B (x :: V) Al Nb ltac:(rewrite <- app_assoc; exact E) P1) as (A' & B' & E' & P' & K'). unfold ReentSpec.effect. cbn [regs]. destruct (Z.testbit (orc (calls w) x) 0); [|exists A', B'; auto].
  rewrite chain_filter, E', filter_app. cbn [filter]. assert (Nxb : b <> x) by (intros ->; apply Nx; left; reflexivity). rewrite (proj2 (Z.eqb_neq _ _) Nxb). cbn [negb]. eexists _, _. split; [reflexivity|].
  assert (Fx : filter (fun y => negb (y =? x)) B' = B') by (apply filter_all; intros y Hy; apply negb_true_iff, Z.eqb_neq; intros ->; apply (proj1 (P' x (or_introl eq_refl))); right; exact Hy). rewrite Fx. split; assumption.
Qed.
Lemma behind_at b : forall A B, ~ In b A -> behind b (A ++ b :: B) = first B.
Proof. induction A as [|a A IH]; intros B H; cbn [app behind]; [rewrite Z.eqb_refl; destruct B; reflexivity|]. rewrite (proj2 (Z.eqb_neq a b)) by (intros ->; apply H; left; reflexivity). apply IH. intros C. apply H. right. exact C. Qed.
Definition settled (w : world) (V : list Z) (x y : option Z) : Prop :=
  match x with None => True | Some x => exists A B, chain (regs w) = A ++ x :: B /\ y = first B /\ past_ok V x B end.
Definition next (w : world) (x : Z) (y : option Z) : option Z := match y with Some b => behind b (chain (regs (effect w x))) | None => None end.
Lemma settled_next w V x y : NoDup (chain (regs w)) -> NoDup (chain (regs (effect w x))) -> settled w V (Some x) y -> acts_allowed entry AU w (act (calls w) x) -> (forall b, y = Some b -> ~ In (AUnreg b) (act (calls w) x)) ->
  settled (effect w x) (x :: V) y (next w x y).
Proof.
  intros D D' (A & B & E & -> & P) Al N. destruct B as [|b B]; [exact I|]. cbn [first]. destruct (effect_keep w A x b B V Al (N b eq_refl) D E P) as (A' & B' & E' & P' & _). exists A', B'. split; [exact E'|]. split; [|exact P']. unfold next. cbn [first]. rewrite E' in *. apply behind_at. apply NoDup_remove_2 in D'. intros C. apply D', in_or_app. left. exact C.
Qed.
(** what is registered is registered once *)
Lemma nodup_acted : forall l w, acts_allowed entry AU w l -> NoDup (regs w) -> NoDup (regs (acted w l)).
Proof.
  induction l as [|a l IH]; intros w Al D; [exact D|]. destruct Al as [A1 A2]. apply (IH (acted1 entry w a) A2). destruct a as [n|n]; cbn [acted1 act_allowed] in *; [|cbn [regs]; apply NoDup_filter, D]. destruct (entry n); [|exact D]. cbn [regs]. constructor; [apply A1; reflexivity|exact D].
Qed.
Lemma nodup_effect w x : acts_allowed entry AU w (act (calls w) x) -> NoDup (regs w) -> NoDup (regs (effect w x)).
Proof. intros Al D. unfold ReentSpec.effect. cbn [regs]. destruct (Z.testbit _ 0); [apply NoDup_filter|]; apply nodup_acted; assumption. Qed.
Lemma nodup_c s : NoDup s -> NoDup (chain s).
Proof. intros D. apply (Permutation_NoDup (chain_perm prio s)), D. Qed.
Lemma safe_inv k w num x y : num <> 0 -> safe (S k) w num (Some x) y -> acts_allowed entry AU w (act (calls w) x).
Proof. intros N [C|[H _]]; [contradiction|exact H]. Qed.
Lemma safe_next w num x y : num <> 0 -> num <> 1 -> Z.testbit (orc (calls w) x) 1 = false -> (forall k, safe k w num (Some x) y) ->
  (forall b, y = Some b -> ~ In (AUnreg b) (act (calls w) x)) /\ forall k, safe k (effect w x) (num - 1) y (next w x y).
Proof.
  intros N1 N2 Hs H. assert (G : forall k, (forall b, y = Some b -> ~ In (AUnreg b) (act (calls w) x)) /\ safe k (effect w x) (num - 1) y (next w x y)).
  { intros k. destruct (H (S k)) as [C|[_ [C|[C|C]]]]; [contradiction|congruence|contradiction|exact C]. }
  split; [apply (G O)|]. intros k. apply G.
Qed.
(** what a round is worth to its client *)
Lemma round_facts : forall w num ret x y tr w' r, round w num ret x y tr w' r -> forall V, NoDup (regs w) -> settled w V x y \/ num = 0 -> (forall k, safe k w num x y) -> 0 <= num ->
  NoDup (map snd tr) /\ (forall v, In v V -> ~ In v (map snd tr)) /\
  asc prio (map snd tr) /\ (forall v a, In v V -> In a (map snd tr) -> prio v <= prio a) /\ (forall a b, x = Some a -> In b (map snd tr) -> prio a <= prio b) /\
  Forall (fun p => In (snd p) (regs (fst p))) tr /\ zlen tr <= num /\ NoDup (regs w') /\
  (zlen tr < num -> Forall (fun p => Z.testbit (orc (calls (fst p)) (snd p)) 1 = false) tr ->
   forall z a A B, x = Some a -> chain (regs w) = A ++ a :: B -> In z (a :: B) -> (forall v p, In (v, p) tr -> ~ In (AUnreg z) (act (calls v) p)) -> In z (map snd tr)).
Proof.
  intros w num ret x y tr w' r R. induction R as [w num ret y|w ret x y|w num ret x y N Hs|w num ret x y tr w' ret' N Hs R IH]; intros V D S Sf Hn.
  - cbn [map]. split; [constructor|]. split; [intros v _ []|]. split; [constructor|]. split; [intros v a _ []|]. split; [discriminate|]. split; [constructor|]. split; [exact Hn|]. split; [exact D|]. intros _ _ z a A B C. discriminate C.
  - cbn [map]. split; [constructor|]. split; [intros v _ []|]. split; [constructor|]. split; [intros v a _ []|]. split; [intros a b _ []|]. split; [constructor|]. split; [cbn; lia|]. split; [exact D|]. unfold zlen. cbn [length]. lia.
  - destruct S as [S|S]; [|contradiction]. destruct S as (A & B & E & Ey & P). cbn [map snd]. split; [repeat constructor; intros []|]. split; [intros v Hv [->|[]]; apply (proj1 (P v Hv)); left; reflexivity|]. split; [repeat constructor|]. split; [intros v a Hv [<-|[]]; apply (P v Hv)|]. split; [intros a b [= <-] [<-|[]]; lia|].
    split; [repeat constructor; cbn; apply (in_chain prio); rewrite E; apply in_elt|]. split; [unfold zlen; cbn [length]; lia|]. split; [apply nodup_effect; [apply (safe_inv 0 w num x y N (Sf _))|exact D]|]. intros _ F. apply Forall_inv in F. cbn [fst snd] in F. congruence.
  - destruct S as [S|S]; [|contradiction]. pose proof (safe_inv 0 w num x y N (Sf _)) as Al. pose proof (nodup_effect w x Al D) as D'.
    assert (G : (settled (effect w x) (x :: V) y (next w x y) \/ num - 1 = 0) /\ forall k, safe k (effect w x) (num - 1) y (next w x y)).
    { destruct (Z.eq_dec num 1) as [->|N1]; [split; [right; reflexivity|]; intros [|k]; [exact I|destruct y; [left; reflexivity|exact I]]|]. destruct (safe_next w num x y N N1 Hs Sf) as [Ny Sf']. split; [left|exact Sf']. apply settled_next; try assumption; apply nodup_c; assumption. }
    destruct G as [S' Sf']. destruct (IH (x :: V) D' S' Sf' ltac:(lia)) as (I1 & I2 & I3 & I4 & _ & I5 & I6 & I7 & I8). destruct S as (A & B & E & Ey & P). cbn [map snd].
    split; [constructor; [apply I2; left; reflexivity|exact I1]|].
    split; [intros v Hv [->|C]; [apply (proj1 (P v Hv)); left; reflexivity|revert C; apply I2; right; exact Hv]|].
    split; [constructor; [exact I3|apply Forall_forall; intros a Ha; apply I4; [left; reflexivity|exact Ha]]|].
    split; [intros v a Hv [<-|Ha]; [apply (P v Hv)|apply I4; [right; exact Hv|exact Ha]]|].
    split; [intros a b [= <-] [<-|Hb]; [lia|apply I4; [left; reflexivity|exact Hb]]|].
    split; [constructor; [cbn; apply (in_chain prio); rewrite E; apply in_elt|exact I5]|].
    assert (Lz : zlen ((w, x) :: tr) = zlen tr + 1) by (unfold zlen; cbn [length]; lia).
    split; [lia|]. split; [exact I7|]. intros Lt F z a A0 B0 Ha E0 Hz Nz. injection Ha as <-.
    assert (EB : B0 = B). { rewrite E in E0. apply nodup_c in D. rewrite E in D. clear - E0 D. revert A0 E0 D. induction A as [|c A IH]; intros [|c0 A0] E0 D; cbn [app] in *; [congruence|injection E0 as E1 E2|injection E0 as E1 E2|injection E0 as E1 E2].
      - subst c0. exfalso. apply NoDup_cons_iff in D. apply (proj1 D). rewrite E2. apply in_elt.
      - subst c. exfalso. apply NoDup_cons_iff in D. apply (proj1 D). apply in_elt.
      - apply (IH A0 E2). apply NoDup_cons_iff in D. apply D. }
    subst B0. destruct Hz as [<-|Hz]; [left; reflexivity|right]. destruct B as [|b B]; [destruct Hz|]. cbn [first] in Ey. subst y.
    assert (N1 : num <> 1) by (unfold zlen in *; lia). destruct (safe_next w num x (Some b) N N1 Hs Sf) as [Ny _].
    destruct (effect_keep w A x b B V Al (Ny b eq_refl) (nodup_c _ D) E P) as (A' & B' & E' & P' & K'). apply (I8 ltac:(lia) (Forall_inv_tail F) z b A' B' eq_refl E').
    + destruct Hz as [<-|Hz]; [left; reflexivity|right; apply K'; [exact Hz|apply (Nz w x); left; reflexivity]].
    + intros v p Hp. apply Nz. right. exact Hp.
Qed.
End Abs.
