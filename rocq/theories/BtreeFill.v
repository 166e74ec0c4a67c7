(** * B+tree proofs: how far nodes are filled
    [J H xs]: the sizes [xs] of the children of a node allow every deletion to go on: no child is empty, and two children
    together, as well as the first or the last H of them, have H - 1 entries more than one each. *)
From Verif Require Import Lib.

Fixpoint ex (xs : list Z) : Z := match xs with [] => 0 | x :: r => x - 1 + ex r end.
Lemma ex_app : forall a b, ex (a ++ b) = ex a + ex b.
Proof. induction a as [|x a IH]; intros b; cbn [ex app]; [lia|]. rewrite IH. lia. Qed.
Lemma ex_pos : forall xs, Forall (fun x => 1 <= x) xs -> 0 <= ex xs.
Proof. induction 1; cbn [ex]; lia. Qed.
Lemma ex_rev : forall xs, ex (rev xs) = ex xs.
Proof. induction xs as [|x r IH]; cbn [rev ex]; [reflexivity|]. rewrite ex_app. cbn [ex]. lia. Qed.
Lemma zlen_rev : forall A (l : list A), zlen (rev l) = zlen l.
Proof. intros. unfold zlen. rewrite rev_length. reflexivity. Qed.

Lemma app_mid : forall A (a z p s : list A) x, a ++ x :: z = p ++ s -> (exists q, a = p ++ q /\ s = q ++ x :: z) \/ (exists q, p = a ++ x :: q /\ z = q ++ s).
Proof.
  induction a as [|y a IH]; intros z p s x E.
  - destruct p as [|w p]; cbn [app] in E.
    + left. exists []. split; [reflexivity|]. symmetry. exact E.
    + injection E as <- ->. right. exists p. split; reflexivity.
  - destruct p as [|w p]; cbn [app] in E.
    + left. exists (y :: a). split; [reflexivity|]. symmetry. exact E.
    + injection E as <- E. destruct (IH _ _ _ _ E) as [(q & -> & ->)|(q & -> & ->)]; [left|right]; exists q; split; reflexivity.
Qed.
Lemma app_two : forall A (a z p s : list A), a ++ z = p ++ s -> (exists q, a = p ++ q /\ s = q ++ z) \/ (exists q, p = a ++ q /\ z = q ++ s).
Proof.
  induction a as [|y a IH]; intros z p s E.
  - right. exists p. split; [reflexivity|exact E].
  - destruct p as [|w p]; cbn [app] in E.
    + left. exists (y :: a). split; [reflexivity|]. symmetry. exact E.
    + injection E as <- E. destruct (IH _ _ _ E) as [(q & -> & ->)|(q & -> & ->)]; [left|right]; exists q; split; reflexivity.
Qed.

Section J.
Variable H : Z.
Hypothesis H2 : 2 <= H.
Definition J (xs : list Z) : Prop :=
  Forall (fun x => 1 <= x) xs /\ (2 <= zlen xs -> H - 1 <= ex xs) /\
  (forall p s, xs = p ++ s -> H <= zlen p -> H - 1 <= ex p) /\ (forall p s, xs = p ++ s -> H <= zlen s -> H - 1 <= ex s).
Definition strong (xs : list Z) : Prop := xs <> [] -> H - 1 <= ex xs.

Lemma J_rev : forall xs, J xs -> J (rev xs).
Proof.
  intros xs (P & E & F & G). split; [apply Forall_rev, P|]. split; [rewrite zlen_rev, ex_rev; exact E|]. split; intros p s E1 L; apply (f_equal (@rev Z)) in E1; rewrite rev_involutive, rev_app_distr in E1; rewrite <- ex_rev; [eapply G|eapply F]; try exact E1; rewrite zlen_rev; exact L.
Qed.
Lemma ex_split : forall p s, Forall (fun x => 1 <= x) (p ++ s) -> 0 <= ex p /\ 0 <= ex s.
Proof. intros p s F. apply Forall_app in F. destruct F. split; apply ex_pos; assumption. Qed.
Ltac parts F := let F1 := fresh "P1" in let F2 := fresh "P2" in pose proof (proj1 (proj1 (Forall_app _ _ _) F)) as F1; pose proof (proj2 (proj1 (Forall_app _ _ _) F)) as F2; pose proof (ex_pos _ F1); pose proof (ex_pos _ F2).
Ltac norm := repeat (rewrite ?ex_app in *; cbn [ex] in *; rewrite ?zlen_app, ?zlen_cons in *).

Lemma J_ins : forall A x Z, J (A ++ Z) -> H <= x -> J (A ++ x :: Z).
Proof.
  intros A x Z (P & E & F & G) Hx. pose proof (ex_split _ _ P) as [PA PZ]. apply Forall_app in P. destruct P as [P1 P2].
  split; [apply Forall_app; split; [exact P1|constructor; [lia|exact P2]]|]. split; [intros _; norm; lia|]. split; intros p s E1 L; destruct (app_mid _ _ _ _ _ _ E1) as [(q & -> & ->)|(q & -> & ->)].
  - apply (F p (q ++ Z)); [rewrite app_assoc; reflexivity|exact L].
  - pose proof (ex_split _ _ P2). norm. lia.
  - pose proof (ex_split _ _ P1). norm. lia.
  - apply (G (A ++ q) s); [rewrite app_assoc; reflexivity|exact L].
Qed.
Lemma J_upd : forall A x y Z, J (A ++ x :: Z) -> x <= y \/ H <= y -> J (A ++ y :: Z).
Proof.
  intros A x y Z (P & E & F & G) Hy. pose proof (ex_split _ _ P) as [PA PZ]. apply Forall_app in P. destruct P as [P1 P2]. inversion P2 as [|? ? X P3]; subst. pose proof (ex_pos _ P3).
  split; [apply Forall_app; split; [exact P1|constructor; [lia|exact P3]]|]. split; [intros L; norm; lia|]. split; intros p s E1 L; destruct (app_mid _ _ _ _ _ _ E1) as [(q & -> & ->)|(q & -> & ->)].
  - apply (F p (q ++ x :: Z)); [rewrite app_assoc; reflexivity|exact L].
  - pose proof (ex_split _ _ P3). pose proof (F (A ++ x :: q) s) as F'. rewrite <- app_assoc in F'. specialize (F' eq_refl). norm. lia.
  - pose proof (ex_split _ _ P1). pose proof (G p (q ++ x :: Z)) as G'. rewrite app_assoc in G'. specialize (G' eq_refl). norm. lia.
  - apply (G (A ++ x :: q) s); [rewrite <- app_assoc; reflexivity|exact L].
Qed.
Lemma J_low : forall A x y Z, J (A ++ x :: Z) -> 1 <= y -> (forall A' a, A = A' ++ [a] -> H <= a) -> (forall z Z', Z = z :: Z' -> H <= z) -> J (A ++ y :: Z).
Proof.
  intros A x y Z (P & E & F & G) Hy HA HZ. pose proof (ex_split _ _ P) as [PA PZ]. apply Forall_app in P. destruct P as [P1 P2]. inversion P2 as [|? ? X P3]; subst. pose proof (ex_pos _ P3) as PZ'.
  assert (EA : A = [] \/ H - 1 <= ex A).
  { destruct (List.rev A) as [|a A'] eqn:R; apply (f_equal (@rev _)) in R; rewrite rev_involutive in R; [left; exact R|right]. cbn [rev] in R. pose proof (HA _ _ R). rewrite R in P1 |- *. pose proof (ex_split _ _ P1). norm. lia. }
  split; [apply Forall_app; split; [exact P1|constructor; [lia|exact P3]]|]. split.
  { intros L. norm. destruct EA as [->|EA]; [|lia]. destruct Z as [|z Z']; [rewrite zlen_nil in L; cbn in L; lia|]. pose proof (HZ _ _ eq_refl). inversion P3 as [|? ? Q1 Q2]; subst. pose proof (ex_pos _ Q2). cbn [ex] in *. lia. }
  split; intros p s E1 L; destruct (app_mid _ _ _ _ _ _ E1) as [(q & -> & ->)|(q & -> & ->)].
  - apply (F p (q ++ x :: Z)); [rewrite app_assoc; reflexivity|exact L].
  - pose proof (ex_split _ _ P3). norm. destruct EA as [->|EA]; [|lia]. destruct q as [|z q]; [rewrite zlen_nil in L; lia|]. cbn [app] in HZ. pose proof (HZ _ _ eq_refl). inversion P3 as [|? ? Q1 Q2]; subst. pose proof (ex_split _ _ Q2). cbn [ex] in *. lia.
  - pose proof (ex_split _ _ P1). norm. destruct Z as [|z Z'].
    + destruct q as [|a q] using rev_ind; [rewrite !zlen_nil in L; lia|]. pose proof (HA (p ++ q) a (app_assoc _ _ _)). apply Forall_app in P1. destruct P1 as [_ P1]. pose proof (ex_split _ _ P1). norm. lia.
    + pose proof (HZ _ _ eq_refl). inversion P3 as [|? ? Q1 Q2]; subst. pose proof (ex_pos _ Q2). cbn [ex] in *. lia.
  - apply (G (A ++ x :: q) s); [rewrite <- app_assoc; reflexivity|exact L].
Qed.
Lemma J_drop : forall A Z, J (A ++ 1 :: Z) -> J (A ++ Z) /\ strong (A ++ Z).
Proof.
  intros A Z (P & E & F & G). apply Forall_app in P. destruct P as [P1 P2]. inversion P2 as [|? ? X P3]; subst. norm.
  assert (S : strong (A ++ Z)). { intros N. norm. assert (1 <= zlen A + zlen Z). { rewrite <- zlen_app. destruct (A ++ Z) as [|w W]; [contradiction|]. rewrite zlen_cons. pose proof (zlen_nonneg _ W). lia. } lia. }
  split; [|exact S]. split; [apply Forall_app; split; assumption|]. split; [intros L; apply S; intros N; rewrite N in L; cbn in L; lia|]. split; intros p s E1 L; destruct (app_two _ _ _ _ _ E1) as [(q & -> & ->)|(q & -> & ->)].
  - apply (F p (q ++ 1 :: Z)); [rewrite app_assoc; reflexivity|exact L].
  - pose proof (F (A ++ 1 :: q) s) as F'. rewrite <- app_assoc in F'. specialize (F' eq_refl). norm. lia.
  - pose proof (G p (q ++ 1 :: Z)) as G'. rewrite app_assoc in G'. specialize (G' eq_refl). norm. lia.
  - apply (G (A ++ 1 :: q) s); [rewrite <- app_assoc; reflexivity|exact L].
Qed.
Lemma J_merge : forall A a b Z, J (A ++ a :: b :: Z) -> J (A ++ a + b - 1 :: Z) /\ strong (A ++ a + b - 1 :: Z).
Proof.
  intros A a b Z (P & E & F & G). apply Forall_app in P. destruct P as [P1 P2]. inversion P2 as [|? ? Xa P3]; subst. inversion P3 as [|? ? Xb P4]; subst. pose proof (zlen_nonneg _ A) as NA. pose proof (zlen_nonneg _ Z) as NZ. norm.
  assert (S : strong (A ++ a + b - 1 :: Z)) by (intros N; norm; lia).
  split; [|exact S]. split; [apply Forall_app; split; [assumption|constructor; [lia|assumption]]|]. split; [intros L; apply S; intros N; apply (f_equal (@length _)) in N; rewrite app_length in N; cbn in N; lia|]. split; intros p s E1 L; destruct (app_mid _ _ _ _ _ _ E1) as [(q & -> & ->)|(q & -> & ->)].
  - apply (F p (q ++ a :: b :: Z)); [rewrite app_assoc; reflexivity|exact L].
  - pose proof (F (A ++ a :: b :: q) s) as F'. rewrite <- app_assoc in F'. specialize (F' eq_refl). norm. lia.
  - pose proof (G p (q ++ a :: b :: Z)) as G'. rewrite app_assoc in G'. specialize (G' eq_refl). norm. lia.
  - apply (G (A ++ a :: b :: q) s); [rewrite <- app_assoc; reflexivity|exact L].
Qed.
Lemma J_glue_l : forall A B, J A -> strong A -> A <> [] -> zlen A < H -> J B -> B <> [] -> J (A ++ B).
Proof.
  intros A B (P & E & F & G) S N L (P' & E' & F' & G') N'. specialize (S N). pose proof (ex_pos _ P). pose proof (ex_pos _ P').
  split; [apply Forall_app; split; assumption|]. split; [intros _; norm; lia|]. split; intros p s E1 Lp; destruct (app_two _ _ _ _ _ E1) as [(q & -> & ->)|(q & -> & ->)].
  - pose proof (zlen_nonneg _ q). norm. lia.
  - pose proof (ex_split _ _ P'). norm. lia.
  - pose proof (ex_split _ _ P). norm. destruct (Z_lt_dec 1 (zlen B)); [specialize (E' ltac:(lia)); lia|]. pose proof (zlen_nonneg _ p). assert (p = []) as -> by (destruct p; [reflexivity|norm; pose proof (zlen_nonneg _ p); lia]). cbn [app ex] in *. lia.
  - apply (G' q s eq_refl Lp).
Qed.
Lemma J_glue_r : forall A B, J A -> strong A -> A <> [] -> zlen A < H -> J B -> B <> [] -> J (B ++ A).
Proof.
  intros A B JA S N L JB N'. rewrite <- (rev_involutive (B ++ A)). apply J_rev. rewrite rev_app_distr. apply J_glue_l; try (apply J_rev; assumption).
  - intros M. rewrite ex_rev. apply S, N.
  - intros M. apply (f_equal (@rev Z)) in M. rewrite rev_involutive in M. contradiction.
  - rewrite zlen_rev. exact L.
  - intros M. apply (f_equal (@rev Z)) in M. rewrite rev_involutive in M. contradiction.
Qed.
Lemma J_big : forall xs, Forall (fun x => H <= x) xs -> J xs /\ strong xs.
Proof.
  intros xs F. assert (S : forall ys, Forall (fun x => H <= x) ys -> ys <> [] -> H - 1 <= ex ys).
  { intros ys Fy N. destruct Fy as [|y r Hy Fr]; [contradiction|]. cbn [ex]. assert (Forall (fun x => 1 <= x) r) by (eapply Forall_impl; [|exact Fr]; cbn beta; intros; lia). pose proof (ex_pos _ H0). lia. }
  assert (NZ : forall ys : list Z, H <= zlen ys -> ys <> []) by (intros ys L ->; rewrite zlen_nil in L; lia).
  split; [|intros N; apply S; assumption]. split; [eapply Forall_impl; [|exact F]; cbn beta; intros; lia|]. split; [intros L; apply S; [exact F|intros ->; rewrite zlen_nil in L; lia]|].
  split; intros p s -> L; apply Forall_app in F; destruct F; apply S; auto.
Qed.
Lemma J_mono : forall xs ys, Forall2 (fun x y => x <= y \/ H <= y) xs ys -> J xs -> J ys.
Proof.
  assert (G : forall xs ys, Forall2 (fun x y => x <= y \/ H <= y) xs ys -> forall A, J (A ++ xs) -> J (A ++ ys)).
  { induction 1 as [|x y xs ys R F IH]; intros A HJ; [exact HJ|]. apply (J_upd _ x y) in HJ; [|exact R]. specialize (IH (A ++ [y])). rewrite <- !app_assoc in IH. apply IH, HJ. }
  intros xs ys F. apply (G xs ys F []).
Qed.
Lemma J_half : forall A B, J (A ++ B) -> zlen A = H -> zlen B = H -> J A /\ J B.
Proof.
  intros A B (P & E & F & G) LA LB. apply Forall_app in P. destruct P as [P1 P2].
  assert (EA : H - 1 <= ex A) by (apply (F A B eq_refl); lia). assert (EB : H - 1 <= ex B) by (apply (G A B eq_refl); lia).
  assert (NIL : forall l : list Z, zlen l = 0 -> l = []) by (intros [|y l] Hl; [reflexivity|rewrite zlen_cons in Hl; pose proof (zlen_nonneg _ l); lia]).
  split; (split; [assumption|]; split; [intros _; assumption|]; split; intros p s Eq L).
  - assert (s = []) as -> by (apply NIL; rewrite Eq, zlen_app in LA; pose proof (zlen_nonneg _ s); lia). rewrite app_nil_r in Eq. subst. exact EA.
  - assert (p = []) as -> by (apply NIL; rewrite Eq, zlen_app in LA; pose proof (zlen_nonneg _ p); lia). cbn [app] in Eq. subst. exact EA.
  - assert (s = []) as -> by (apply NIL; rewrite Eq, zlen_app in LB; pose proof (zlen_nonneg _ s); lia). rewrite app_nil_r in Eq. subst. exact EB.
  - assert (p = []) as -> by (apply NIL; rewrite Eq, zlen_app in LB; pose proof (zlen_nonneg _ p); lia). cbn [app] in Eq. subst. exact EB.
Qed.
End J.
