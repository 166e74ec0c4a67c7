(** * Red-black trees: unlinking a node with two children *)
From Verif Require Import Lib Ptr Tree TiterModel RbModel RbProofs RbRotate RbSpec RbInsert RbErase RbRemove.

Definition leftf (f : frame bool) : Prop := match f with F d _ _ _ => d = L end.
Lemma same4_upd m m' a f v : same4 m m' -> same4 (upd m a f v) (upd m' a f v).
Proof. intros H b g Hg. unfold upd. destruct ((b =? a) && (g =? f)); [reflexivity|]. apply H, Hg. Qed.
Lemma same4_ex m m' a f : f < 4 -> same4 m m' -> (exists x, m a f = Some x) -> exists x, m' a f = Some x.
Proof. intros Hf H [x Hx]. exists x. rewrite H by exact Hf. exact Hx. Qed.
Lemma cpar_in (k : bctx) : k <> [] -> (cntk (cpar k) k > 0)%nat.
Proof. destruct k as [|[d x a s] k]; [congruence|]. intros _. cbn [cpar cntk]. rewrite ind_refl. lia. Qed.
Lemma root_in (k : bctx) t : k <> [] -> (cntk (addr (plug k t)) k > 0)%nat.
Proof.
  revert t. induction k as [|f k IH]; intros t H; [congruence|]. cbn [plug]. destruct k as [|g k].
  - destruct f as [[|] x a s]; cbn [plug up addr cntk]; rewrite ind_refl; lia.
  - specialize (IH (up f t) ltac:(discriminate)). destruct f as [d x a s], g as [d' x' a' s']. cbn [cntk] in *. lia.
Qed.
Lemma cntk_app (k k' : bctx) z : cntk z (k ++ k') = (cntk z k + cntk z k')%nat.
Proof. induction k as [|[? ? ? ?] k IH]; cbn [app cntk]; lia. Qed.
Lemma cpar_app (k k' : bctx) : k <> [] -> cpar (k ++ k') = cpar k.
Proof. destruct k as [|[d x a s] k]; [congruence|]. reflexivity. Qed.
Lemma lfield_app (k k' : bctx) : k <> [] -> lfield (k ++ k') = lfield k.
Proof. destruct k as [|[d x a s] k]; [congruence|]. reflexivity. Qed.
(** rbtree.c:465-469 finds the leftmost node and its parent. *)
Lemma succ_loop_ok m cs s b kr : forall fuel x y w, (length kr < fuel)%nat -> Forall leftf kr -> (forall z, cntk z kr + cnt z (T cs E s b) + ind z 0 <= 1)%nat ->
  rep V m y (plug kr (T cs E s b)) ->
  succ_loop fuel m y (addr (plug kr (T cs E s b))) = Some (cpar (kr ++ [F L x y w]), s).
Proof.
  induction kr as [|f kr IH] using rev_ind; intros fuel x y w Hf HL D Hr; (destruct fuel as [|fuel]; [lia|]).
  - cbn [plug addr succ_loop app cpar]. cbn [plug Tree.rep] in Hr. unfold ld. rewrite (proj1 (proj2 Hr)). reflexivity.
  - rewrite app_length in Hf. cbn [length] in Hf. apply Forall_app in HL. destruct HL as [HL HL2]. apply Forall_inv in HL2. destruct f as [d x2 y2 w2]. cbn [leftf] in HL2. subst d.
    rewrite plug_app in *. cbn [plug up addr] in *. cbn [Tree.rep] in Hr. destruct Hr as (_ & R2 & _ & _ & R5 & _).
    cbn [succ_loop]. unfold ld. rewrite R2.
    assert (Dk : forall z, (cntk z kr + cnt z (T cs E s b) + ind z 0 <= 1)%nat).
    { intros z. specialize (D z). rewrite cntk_app in D. lia. }
    assert (N : addr (plug kr (T cs E s b)) <> NULL).
    { destruct kr as [|g kr]; [cbn [plug addr]; intros ->; specialize (Dk NULL); cbn [cnt] in Dk; rewrite !ind_refl in Dk; lia|].
      intros E0. pose proof (root_in (g :: kr) (T cs E s b) ltac:(discriminate)) as H. rewrite E0 in H. specialize (Dk NULL). rewrite ind_refl in Dk. lia. }
    rewrite (proj2 (Z.eqb_neq _ _) N). cbn [negb]. rewrite (IH fuel x2 y2 w2 ltac:(lia) HL Dk R5).
    rewrite (cpar_app (kr ++ [F L x2 y2 w2])); [reflexivity|destruct kr; discriminate].
Qed.

Section Rt.
Variable rt : Z.
Variable cb : callbacks.
Variable Q : mem -> tree unit -> Prop.
Hypothesis ok : cb_ok rt cb Q.
Notation tree_at := (tree_at V rt).
Notation St := (St rt Q).
Notation rep := (rep V).
Notation crep := (crep V rt).
Notation apart := (apart rt).
Ltac go := repeat first [rewrite upd_same | rewrite upd_other by first [right; discriminate | left; assumption | left; apply not_eq_sym; assumption]].

Ltac apf D a :=
  first [match a with loc _ ?k => generalize (loc_in rt k) | _ => idtac end]; generalize (D a); clear; cbn [cnt cntk addr up]; rewrite ?cnt_paint; rewrite ?ind_refl; lia.
Ltac zfast D :=
  match goal with
  | |- ?a <> ?b => first [solve [apply ind0_ne; apf D a] | solve [apply not_eq_sym; apply ind0_ne; apf D b]]
  | |- cnt ?a _ = _ => apf D a
  | |- ind ?a _ = _ => apf D a
  | |- cntk ?a _ = _ => apf D a
  end.
Ltac zf := first [assumption | apply ind_ne; assumption | match goal with D : forall z, (ind z 0 + ind z rt + cntk z _ + _ <= 1)%nat |- _ => zfast D end].
(** The leftmost node of the right subtree takes the place of the node: rbtree.c:449-496 *)
Lemma remove_far fuel m k c l n kr cs s b : l <> E -> kr <> [] -> Forall leftf kr -> (length kr < fuel)%nat ->
  St m (plug k (T c l n (plug kr (T cs E s b)))) ->
  exists m', remove cb fuel m rt n = Some (m', if nilb b && cs then cpar kr else NULL) /\ St m' (plug k (T c l s (plug kr (paint (Some true) b)))).
Proof.
  intros Hl Hkr HL Hf [H HQ]. assert (HS0 := HQ).
  destruct (copy_far _ _ _ ok m _ (shapek k) (shape l) n (shapek kr) s (shape b) (addr (plug kr (T cs E s b))) H) as (m2 & m3 & Ec & Ep & S4 & Hp).
  { rewrite shape_plug. cbn [shape]. rewrite shape_plug. reflexivity. }
  { exact HQ. }
  { destruct kr as [|[? ? ? ?] ?]; [congruence|discriminate]. }
  { clear - HL. induction HL as [|[d x a v] kr H HL IH]; cbn [shapek]; constructor; [exact H|exact IH]. }
  { clear. change (T tt E s (shape b)) with (shape (T cs E s b)). rewrite <- shape_plug. destruct (plug kr (T cs E s b)); reflexivity. }
  assert (Eab : addr (shape b) = addr b) by (destruct b; reflexivity). rewrite Eab, cpar_shapek in *. clear Eab.
  apply tree_at_focus in H. destruct H as (Hk & Ht & D0). destruct l as [|cl ll q lr]; [congruence|]. cbn [addr Tree.rep] in *.
  destruct Ht as (H1 & H2 & H3 & H4 & (L1 & L2 & L3 & L4 & L5 & L6) & Hr). unfold V in H4, L4.
  assert (D : forall z, (ind z 0 + ind z rt + cntk z k + (ind z n + cnt z (T cl ll q lr) + (cntk z kr + (ind z s + cnt z b))) <= 1)%nat).
  { intros z. specialize (D0 z). cbn [cnt] in *. rewrite cnt_plug in D0. cbn [cnt] in D0. lia. }
  assert (Dk : forall z, (ind z 0 + ind z rt + cntk z k <= 1)%nat) by (intros z; specialize (D z); lia).
  pose proof (cpar_in kr Hkr) as Hp0. pose proof (root_in kr (T cs E s b) Hkr) as Hy0.
  remember (cpar kr) as p eqn:Ep0. remember (addr (plug kr (T cs E s b))) as y eqn:Ey0.
  assert (Hne : forall z, (cntk z kr > 0)%nat -> z <> 0 /\ z <> rt /\ z <> n /\ z <> q /\ z <> s /\ loc rt k <> z /\ cnt z ll = 0%nat /\ cnt z lr = 0%nat /\ cnt z b = 0%nat /\ cntk z k = 0%nat).
  { intros z Hz. pose proof (D z) as Dz. cbn [cnt] in Dz. conj; try (intros E0; rewrite E0 in Dz; rewrite ?ind_refl in Dz; rewrite <- ?E0 in Dz; clear - Hz Dz; lia);
      try (clear - Hz Dz; lia). intros E0. pose proof (loc_in rt k) as LI. rewrite E0 in LI. clear - Hz Dz LI. lia. }
  destruct (Hne p Hp0) as (P0 & P1 & P2 & P3 & P4 & P5 & P6 & P7 & P8 & P9). destruct (Hne y Hy0) as (Y0 & Y1 & Y2 & Y3 & Y4 & Y5 & Y6 & Y7 & Y8 & Y9).
  assert (q <> n) by zf. assert (loc rt k <> q) by zf. assert (loc rt k <> n) by zf. assert (loc rt k <> s) by zf.
  assert (n <> s) by zf. assert (q <> s) by zf. assert (q <> 0) by zf. assert (s <> 0) by zf.
  assert (Hbot : rep m p (T cs E s b) /\ m p LEFT = Some s /\ exists v, m y PARENT = Some v).
  { destruct kr as [|fr kr']; [congruence|]. destruct (rep_focus m n fr kr' _ Hr) as [X Y]. rewrite <- Ep0 in X, Y. split; [exact X|]. split.
    - apply Forall_inv in HL. destruct fr as [d x a v]. cbn [leftf] in HL. subst d. cbn [lfield side addr] in Y. exact Y.
    - rewrite Ey0 in Y0 |- *. destruct (plug (fr :: kr') (T cs E s b)) as [|? ? a ?]; [exfalso; apply Y0; reflexivity|]. cbn [addr Tree.rep] in *. exists n. tauto. }
  destruct Hbot as ((B1 & B2 & B3 & B4 & _ & Hb) & Hpl & Hyp). unfold V in B4.
  assert (Hyl : exists v, m y LEFT = Some v /\ v <> 0 /\ succ_loop fuel m y v = Some (p, s)).
  { destruct kr as [|fr kr' _] using rev_ind; [congruence|]. apply Forall_app in HL. destruct HL as [HL HL2]. apply Forall_inv in HL2.
    destruct fr as [d x a v]. cbn [leftf] in HL2. subst d. subst p y. rewrite plug_app in *. cbn [plug up addr Tree.rep] in *. destruct Hr as (_ & R2 & _ & _ & R5 & _).
    rewrite app_length in Hf. cbn [length] in Hf.
    assert (Dz : forall z, (cntk z kr' + cnt z (T cs E s b) + ind z 0 <= 1)%nat).
    { intros z. pose proof (D z) as Dz. rewrite cntk_app in Dz. cbn [cnt] in *. clear - Dz. lia. }
    exists (addr (plug kr' (T cs E s b))). split; [exact R2|]. split.
    - destruct kr' as [|g kr']; [cbn [plug addr]; assumption|]. intros E0. pose proof (root_in (g :: kr') (T cs E s b) ltac:(discriminate)) as HH.
      rewrite E0 in HH. specialize (Dz 0). rewrite ind_refl in Dz. clear - Dz HH. lia.
    - apply (succ_loop_ok m cs s b kr' fuel x a v); [clear - Hf; lia|exact HL|exact Dz|exact R5]. }
  destruct Hyl as (yl & Hyl & Nyl & Hsl).
  pose (m1 := upd (upd (upd m p LEFT (addr b)) s RIGHT y) y PARENT s). fold m1 in Ec, S4.
  unfold remove, ld. rewrite H1, H2, H3. unfold NULL in *. rewrite (proj2 (Z.eqb_neq q 0)) by assumption. rewrite (proj2 (Z.eqb_neq y 0)) by assumption. cbn [andb].
  rewrite Hyl. rewrite (proj2 (Z.eqb_neq yl 0)) by assumption. rewrite Hsl. rewrite B3. stz. stz. stz. fold m1. rewrite Ec, Ep.
  assert (R3 : forall a f, f < 4 -> m3 a f = m1 a f) by exact S4.
  rewrite (R3 n LEFT) by reflexivity. unfold m1 at 1. go. rewrite H2.
  rewrite st_ex by (apply (same4_ex m1); [reflexivity|exact S4|unfold m1; repeat apply upd_ex; eauto]).
  rewrite st_ex by (apply upd_ex; apply (same4_ex m1); [reflexivity|exact S4|unfold m1; repeat apply upd_ex; eauto]).
  go. rewrite (R3 n PARENT) by reflexivity. unfold m1 at 1. go. rewrite H1.
  pose (g2 := fun x : mem => upd (upd x s LEFT q) q PARENT s). fold (g2 m3).
  assert (Hk1 : crep (g2 m1) k n).
  { unfold g2, m1. repeat (apply crep_upd; [exact V_frame| | |]); try exact Hk; zf. }
  assert (S42 : same4 (g2 m1) (g2 m3)) by (unfold g2; do 2 apply same4_upd; exact S4).
  assert (Hk2 : crep (g2 m3) k n).
  { revert Hk1. clear - S42. generalize n as h. induction k as [|[d x a v] k IH]; intros h; cbn [Tree.crep].
    - intros H. rewrite S42 by reflexivity. exact H.
    - intros (X1 & X2 & X3 & X4 & X5 & X6). unfold V in *. rewrite !S42 by (try reflexivity; destruct d; reflexivity). conj; try assumption.
      + apply (rep_same4 (g2 m1)); assumption.
      + apply IH, X6. }
  rewrite (child_change_ok rt (g2 m3) k n s Dk); [|zf|zf|exact Hk2].
  pose (g3 := fun x : mem => upd (g2 x) (loc rt k) (lfield k) s). fold (g3 m3).
  assert (S43 : same4 (g3 m1) (g3 m3)) by (unfold g3; apply same4_upd; exact S42).
  assert (Hk3 : crep (g3 m1) k s) by (apply (crep_relink V V_frame rt (g2 m1) k n); [intros z; generalize (Dk z); clear; lia|exact Hk1]).
  assert (X : g3 m3 s COLOR = Some (zc cs)).
  { rewrite S43 by reflexivity. unfold g3, g2, m1. go. exact B4. }
  rewrite X. rewrite zc_black.
  pose (g4 := fun x : mem => match b with E => g3 x | T _ _ t _ => upd (upd (g3 x) t PARENT p) t COLOR BLACK end).
  assert (S44 : same4 (g4 m1) (g4 m3)) by (unfold g4; destruct b; [exact S43|]; do 2 apply same4_upd; exact S43).
  assert (Eb : (if negb (addr b =? 0) then let* m' := st (g3 m3) (addr b) PARENT p in let* m' := st m' (addr b) COLOR BLACK in Some (m', 0) else Some (g3 m3, if cs then p else 0)) =
    Some (g4 m3, if nilb b && cs then p else 0)).
  { unfold g4. destruct b as [|cbb bl t br]; cbn [addr negb nilb andb Z.eqb]; [reflexivity|].
    assert (Nt : t <> 0) by zf. rewrite (proj2 (Z.eqb_neq _ _) Nt). cbn [negb]. cbn [Tree.rep] in Hb. destruct Hb as (C1 & C2 & C3 & C4 & _). unfold V in C4.
    rewrite st_ex by (apply (same4_ex (g3 m1)); [reflexivity|exact S43|unfold g3, g2, m1; repeat apply upd_ex; eauto]).
    rewrite st_ex by (apply upd_ex; apply (same4_ex (g3 m1)); [reflexivity|exact S43|unfold g3, g2, m1; repeat apply upd_ex; eauto]). reflexivity. }
  rewrite Eb.
  assert (G1 : exists x, g4 m3 s PARENT = Some x).
  { apply (same4_ex (g4 m1)); [reflexivity|exact S44|]. unfold g4, g3, g2, m1. destruct b; repeat apply upd_ex; eauto. }
  assert (G2 : exists x, g4 m3 s COLOR = Some x).
  { apply (same4_ex (g4 m1)); [reflexivity|exact S44|]. unfold g4, g3, g2, m1. destruct b; repeat apply upd_ex; eauto. }
  rewrite st_ex by exact G1. rewrite upd_other by (right; discriminate).
  assert (N4 : g4 m3 n COLOR = Some (zc c)).
  { rewrite S44 by reflexivity. unfold g4, g3, g2, m1. destruct b as [|cbb bl t br]; [|assert (t <> n) by zf]; go; assumption. }
  rewrite N4. rewrite st_ex by (apply upd_ex; exact G2).
  pose (g5 := fun x : mem => upd (upd (g4 x) s PARENT (cpar k)) s COLOR (zc c)). fold (g5 m3).
  assert (S45 : same4 (g5 m1) (g5 m3)) by (unfold g5; do 2 apply same4_upd; exact S44).
  assert (HT1 : tree_at (g5 m1) (plug k (T c (T cl ll q lr) s (plug kr (paint (Some true) b))))).
  { apply tree_at_focus. split; [|split].
    - cbn [addr]. unfold g5, g4. destruct b as [|cbb bl t br]; repeat (apply crep_upd; [exact V_frame|zf|zf|]); exact Hk3.
    - assert (Hyy : forall u, addr (plug kr u) = y).
      { intros u. rewrite Ey0. clear - Hkr. revert Hkr u. generalize (T cs E s b). induction kr as [|f kr IH]; intros v Hkr u; [congruence|]. cbn [plug].
        destruct kr as [|g kr]; [destruct f as [[|] ? ? ?]; reflexivity|]. apply IH. discriminate. }
      cbn [Tree.rep]. rewrite Hyy. change (addr (T cl ll q lr)) with q. cbn [Tree.rep].
      assert (Hb' : rep (g5 m1) p (paint (Some true) b)).
      { unfold g5, g4, g3, g2, m1. destruct b as [|cbb bl t br]; cbn [paint Tree.rep]; [exact I|]. cbn [Tree.rep] in Hb. destruct Hb as (C1 & C2 & C3 & C4 & C5 & C6).
        assert (t <> n) by zf. assert (t <> s) by zf. assert (t <> q) by zf. assert (loc rt k <> t) by zf.
        assert (t <> p) by (intros ->; clear - P8; cbn [cnt] in P8; rewrite ind_refl in P8; lia). assert (t <> y) by (intros ->; clear - Y8; cbn [cnt] in Y8; rewrite ind_refl in Y8; lia).
        assert (Z1 : cnt p bl = 0%nat /\ cnt p br = 0%nat) by (clear - P8; cbn [cnt] in P8; lia). assert (Z2 : cnt y bl = 0%nat /\ cnt y br = 0%nat) by (clear - Y8; cbn [cnt] in Y8; lia).
        destruct Z1, Z2. conj; unfold V; go; try assumption; try reflexivity;
        repeat (apply rep_upd; [exact V_frame|zf|]); assumption. }
      assert (Hrr : rep (g5 m1) s (plug kr (paint (Some true) b)) /\ addr (plug kr (paint (Some true) b)) = y).
      { rewrite Ey0. apply (rep_plug_change m (g5 m1) n s kr (T cs E s b) (paint (Some true) b) Hkr).
        - intros z. generalize (D z). clear. cbn [cnt]. lia.
        - exact Hr.
        - intros a f Ha N1 N2. destruct (Hne a Ha) as (A0 & A1 & A2 & A3 & A4 & A5 & A6 & A7 & A8 & A9). unfold g5, g4, g3, g2, m1.
          rewrite <- Ep0 in N1. rewrite <- Ey0 in N2. assert (Nl : ~ (a = p /\ f = LEFT)).
          { intros [-> ->]. apply N1. split; [reflexivity|]. destruct kr as [|[d x v w] ?]; [congruence|]. apply Forall_inv in HL. cbn [leftf] in HL. subst d. reflexivity. }
          assert (Eq : forall y' v (mm : mem) g, ~ (a = y' /\ f = g) -> upd mm y' g v a f = mm a f).
          { intros y' v mm g Hn. apply upd_other. destruct (Z.eq_dec a y'); [right|left; assumption]. intros ->. apply Hn. tauto. }
          destruct b as [|cbb bl t br].
          + repeat (rewrite Eq; [|clear - A2 A3 A4 A5 N2 Nl; intuition congruence]); reflexivity.
          + assert (Nt : a <> t) by (intros ->; clear - A8; cbn [cnt] in A8; rewrite ind_refl in A8; lia).
            repeat (rewrite Eq; [|clear - A2 A3 A4 A5 N2 Nl Nt; intuition congruence]); reflexivity.
        - assert (lfield kr = LEFT) as -> by (destruct kr as [|[d x v w] ?]; [congruence|]; apply Forall_inv in HL; cbn [leftf] in HL; subst d; reflexivity).
          rewrite <- Ep0. rewrite addr_paint. unfold g5, g4, g3, g2, m1. destruct b as [|cbb bl t br]; [|assert (t <> p) by (intros ->; clear - P8; cbn [cnt] in P8; rewrite ind_refl in P8; lia)];
            go; reflexivity.
        - rewrite <- Ey0. unfold g5, g4, g3, g2, m1. destruct b as [|cbb bl t br]; [|assert (t <> y) by (intros ->; clear - Y8; cbn [cnt] in Y8; rewrite ind_refl in Y8; lia)]; go; reflexivity.
        - rewrite <- Ep0. exact Hb'. }
      destruct Hrr as [Hrr _]. unfold g5, g4, g3, g2, m1.
      destruct b as [|cbb bl t br]; [|assert (t <> n) by zf; assert (t <> s) by zf; assert (t <> q) by zf; assert (loc rt k <> t) by zf];
      conj; unfold V; go; try reflexivity; try assumption; try exact Hrr;
        repeat (apply rep_upd; [exact V_frame|zf|]); assumption.
    - intros z. generalize (D z). clear. cbn [cnt]. rewrite cnt_plug, cnt_paint. lia. }
  pose proof (tree_at_same4 _ _ _ _ S45 HT1) as HT.
  destruct (Hp _ _ HT) as (m5 & E5 & S5 & HQ5).
  - rewrite shape_plug. cbn [shape]. rewrite shape_plug, shape_paint. reflexivity.
  - unfold g5, g4, g3, g2. repeat (apply rest4_upd; [reflexivity|]). destruct b; repeat (apply rest4_upd; [reflexivity|]); apply rest4_link; repeat (apply rest4_upd; [reflexivity|]); apply rest4_refl.
  - rewrite E5. exists m5. split; [reflexivity|]. split; [apply (tree_at_same4 _ _ _ _ S5 HT)|exact HQ5].
Qed.
End Rt.
