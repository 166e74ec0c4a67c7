(** * B+tree proofs: lookup and iteration *)
From Verif Require Import Lib BtreeModel BtreeCells BtreeFill BtreeTower BtreeSpec BtreeState BtreeInsert BtreeRemove.
Ltac Zify.zify_post_hook ::= Z.div_mod_to_equations.

(** ** The specification on split lists *)
Lemma filter_all : forall (f : Z * Z -> bool) l, Forall (fun e => f e = true) l -> filter f l = l.
Proof. induction 1 as [|e l E F IH]; [reflexivity|]. cbn [filter]. rewrite E, IH. reflexivity. Qed.
Lemma filter_none : forall (f : Z * Z -> bool) l, Forall (fun e => f e = false) l -> filter f l = [].
Proof. induction 1 as [|e l E F IH]; [reflexivity|]. cbn [filter]. rewrite E. exact IH. Qed.
Lemma find_none : forall (f : Z * Z -> bool) l, Forall (fun e => f e = false) l -> find f l = None.
Proof. induction 1 as [|e l E F IH]; [reflexivity|]. cbn [find]. rewrite E. exact IH. Qed.
Lemma find_app : forall (f : Z * Z -> bool) a b, find f (a ++ b) = match find f a with Some x => Some x | None => find f b end.
Proof. induction a as [|x a IH]; intros b; [reflexivity|]. cbn [app find]. destruct (f x); [reflexivity|apply IH]. Qed.
Lemma find_none_in : forall (f : Z * Z -> bool) l, find f l = None -> forall x, In x l -> f x = false.
Proof. induction l as [|y l IH]; intros E x I; [destruct I|]. cbn [find] in E. destruct (f y) eqn:Q; [discriminate|]. destruct I as [<-|I]; [exact Q|apply IH; assumption]. Qed.
Section Lists.
Variables (k : Z) (A C : list (Z * Z)).
Hypothesis FA : Forall (fun e => k < fst e) A.
Hypothesis FC : Forall (fun e => fst e < k) C.
Lemma A_above : filter (fun e => k <? fst e) A = A.
Proof. apply filter_all. eapply Forall_impl; [|exact FA]. cbn beta. intros; lia. Qed.
Lemma A_below : filter (fun e => fst e <? k) A = [].
Proof. apply filter_none. eapply Forall_impl; [|exact FA]. cbn beta. intros; lia. Qed.
Lemma C_above : filter (fun e => k <? fst e) C = [].
Proof. apply filter_none. eapply Forall_impl; [|exact FC]. cbn beta. intros; lia. Qed.
Lemma C_below : filter (fun e => fst e <? k) C = C.
Proof. apply filter_all. eapply Forall_impl; [|exact FC]. cbn beta. intros; lia. Qed.
Lemma A_find : find (fun e => fst e =? k) A = None.
Proof. apply find_none. eapply Forall_impl; [|exact FA]. cbn beta. intros; lia. Qed.
Lemma C_find : find (fun e => fst e =? k) C = None.
Proof. apply find_none. eapply Forall_impl; [|exact FC]. cbn beta. intros; lia. Qed.
Lemma get_gap : get k (A ++ C) = None.
Proof. unfold get. rewrite find_app, A_find, C_find. reflexivity. Qed.
Lemma above_gap : above k (A ++ C) = A.
Proof. unfold above. rewrite filter_app, A_above, C_above. apply app_nil_r. Qed.
Lemma below_gap : below k (A ++ C) = C.
Proof. unfold below. rewrite filter_app, A_below, C_below. reflexivity. Qed.
Lemma put_gap : forall v, put k v (A ++ C) = A ++ (k, v) :: C.
Proof. intros v. unfold put. rewrite above_gap, below_gap. reflexivity. Qed.
Variable v : Z.
Lemma get_at : get k (A ++ (k, v) :: C) = Some v.
Proof. unfold get. rewrite find_app, A_find. cbn [find fst]. rewrite Z.eqb_refl. reflexivity. Qed.
Lemma above_at : above k (A ++ (k, v) :: C) = A.
Proof. unfold above. rewrite filter_app, A_above. cbn [filter fst]. rewrite Z.ltb_irrefl, C_above. apply app_nil_r. Qed.
Lemma below_at : below k (A ++ (k, v) :: C) = C.
Proof. unfold below. rewrite filter_app, A_below. cbn [filter fst app]. rewrite Z.ltb_irrefl, C_below. reflexivity. Qed.
Lemma put_at : forall w, put k w (A ++ (k, v) :: C) = A ++ (k, w) :: C.
Proof. intros w. unfold put. rewrite above_at, below_at. reflexivity. Qed.
Lemma del_at : del k (A ++ (k, v) :: C) = A ++ C.
Proof. unfold del. rewrite above_at, below_at. reflexivity. Qed.
End Lists.
Lemma find_none_iff_aux : forall (k v : Z) (m : list (Z * Z)), In (k, v) m -> find (fun e => fst e =? k) m = None -> False.
Proof. intros k v m I E. apply (find_none_in _ _ E) in I. cbn [fst] in I. rewrite Z.eqb_refl in I. discriminate. Qed.
Lemma last_of_snoc : forall m e, last_of (m ++ [e]) = Some e.
Proof. induction m as [|x m IH]; intros e; [reflexivity|]. cbn [app]. specialize (IH e). destruct m; [reflexivity|exact IH]. Qed.

Section Iter.
Variable K H : Z.
Hypothesis KH : K - 2 * H = 0.
Hypothesis HK : 4 <= K < 2 ^ 31.
Variable al : nat -> heap -> Z.
Local Notation tower := (tower K H).
Local Notation node_ok := (node_ok K).
Local Notation cells := (cells K).
Local Notation HK' := (HK2 K HK).
Local Notation shape := (shape K H al).

(** ** Removal at the leaves *)
Lemma leaf_split : forall s m k, shape s m -> 0 <= k < 2 ^ 64 -> exists A C, Forall (fun e => k < fst e) A /\ Forall (fun e => fst e < k) C /\ (m = A ++ C \/ exists v, v <> 0 /\ m = A ++ (k, v) :: C).
Proof.
  intros s m k Sh Hk. destruct (leaf_start K H KH HK al s m k Sh Hk) as (h1 & B1 & n & B2 & T & e1 & e2 & FP & W1 & Ow1 & Bo1 & Hh & Sh1 & Em & En & Hp & A1 & A2 & G1 & G2 & Op & FI & FL). destruct Op as (_ & _ & _ & _ & _ & D & _ & V). rewrite En in D, V. rewrite desc_app in D. destruct D as [_ D].
  assert (GA : Forall (fun e => k < fst e) (FE B1 ++ e1)) by (apply Forall_app; split; assumption). destruct e2 as [|[k' v] e2].
  - exists (FE B1 ++ e1), (FE B2). split; [exact GA|]. split; [exact A2|]. left. rewrite Em, app_nil_r, app_assoc. reflexivity.
  - pose proof (G2 _ _ eq_refl) as G3. cbn [fst] in G3. destruct D as [_ D]. apply desc_below in D. cbn [fst] in D. destruct (Z.eq_dec k' k) as [->|N].
    + exists (FE B1 ++ e1), (e2 ++ FE B2). split; [exact GA|]. split; [apply Forall_app; split; assumption|]. right. exists v. split; [apply Forall_app in V; destruct V as [_ V]; apply Forall_cons_iff in V; apply V|]. rewrite Em, <- !app_assoc. reflexivity.
    + exists (FE B1 ++ e1), (((k', v) :: e2) ++ FE B2). split; [exact GA|]. split; [|left; rewrite Em, <- !app_assoc; reflexivity]. apply Forall_app. split; [|exact A2]. constructor; [cbn [fst]; lia|]. eapply Forall_impl; [|exact D]. cbn beta. intros; lia.
Qed.
Lemma left_shape : forall s L s', left_over K H al s L 1 (fun _ => H) [] s' -> shape s' (map (fun x => (klo x, kad x)) L).
Proof.
  intros s L s' (T1 & Bo & _ & Ow & Hh & Q). destruct T1 as [|B T1]; [destruct Q as [Q _]; lia|]. destruct Q as (W & _ & G & _). exists B, T1. split; [exact W|]. split; [exact Ow|]. split; [exact Bo|]. split; [rewrite zlen_cons in Hh; lia|]. rewrite FE_KL. apply (grown_FE _ _ G).
Qed.
Lemma remove_present : forall remove s A v C k, shape s (A ++ (k, v) :: C) -> 0 <= k < 2 ^ 64 -> Forall (fun e => k < fst e) A -> Forall (fun e => fst e < k) C ->
  exists s', btree_remove K remove s k = Some (s', if verdict remove v =? NULL then v else verdict remove v) /\ shape s' (if verdict remove v =? NULL then A ++ C else A ++ (k, v) :: C).
Proof.
  intros remove s A v C k Sh Hk FA FC. destruct (leaf_start K H KH HK al s _ k Sh Hk) as (h1 & B1 & n & B2 & T & e1 & e2 & FP & W1 & Ow1 & Bo1 & Hh & Sh1 & Em & En & Hp & A1 & A2 & G1 & G2 & Op & FI & FL).
  assert (E2 : exists e3, e2 = (k, v) :: e3 /\ A = FE B1 ++ e1 /\ C = e3 ++ FE B2).
  { assert (GA : Forall (fun e => k < fst e) (FE B1 ++ e1)) by (apply Forall_app; split; assumption). rewrite <- app_assoc, app_assoc in Em. assert (G : forall y r, e2 ++ FE B2 = y :: r -> fst y <= k). { intros y r E. destruct e2 as [|z e2]; cbn [app] in E; [rewrite E in A2; apply Forall_cons_iff in A2; lia|]. injection E as <- _. apply (G2 _ _ eq_refl). }
    destruct (ent_unique k A (k, v) C _ _ Em FA ltac:(cbn; lia) GA G) as (<- & E). destruct e2 as [|z e2]; cbn [app] in E; [exfalso; rewrite E in A2; apply Forall_cons_iff in A2; cbn [fst] in A2; lia|]. injection E as -> <-. exists e2. auto. }
  destruct E2 as (e3 & -> & -> & ->). pose proof (zlen_nonneg _ T). unfold btree_remove. destruct (Z.eqb_spec (b_height s) 0) as [Q|_]; [lia|]. rewrite Nat.add_1_r. rewrite (remove_step K) by (apply Z.ltb_ge; lia). rewrite FP. cbn [with_heap b_heap]. rewrite FI, FL. change (1 =? 1) with true. cbn iota.
  pose proof Op as (Pn & Cn & Ln & _). rewrite En in Cn, Ln. rewrite zlen_app, zlen_cons in Ln. pose proof (zlen_nonneg _ e1). pose proof (zlen_nonneg _ e3). unfold cmp_key. rewrite (get_key_ok K HK' _ _ _ _ Cn), slot_mid by lia. cbn [deref fst]. replace (key_find k k) with 0 by (unfold key_find; rewrite Z.ltb_irrefl; reflexivity). cbn [negb Z.eqb]. rewrite (get_value_ok K HK' _ _ _ _ Cn), slot_mid by lia. cbn [snd].
  assert (CUT : exists s', cut K (remove_level K remove (Z.to_nat (b_height s))) (with_heap s h1) 1 (Val k) (adr n) (zlen e1) (w32 (zlen (ent n) - 1)) = Some s' /\ shape s' ((FE B1 ++ e1) ++ e3 ++ FE B2)).
  { destruct (cut_ok K H KH HK al (remove_level K remove (Z.to_nat (b_height s))) (with_heap s h1) 1 (Val k) k (fun _ => H) [] B1 n B2 T e1 k v e3) as (s' & E & LO); try assumption; cbn [with_heap b_heap b_node b_height].
    - intros _. apply (remove_ok K H KH HK). unfold zlen in *. lia.
    - lia.
    - apply (Jn_const K H KH HK).
    - apply (Jn_const K H KH HK).
    - apply (J_big H (BtreeTower.H2 K H KH HK)). apply Forall_forall. intros y Hy. apply in_map_iff in Hy. destruct Hy as (? & <- & _). lia.
    - apply (J_big H (BtreeTower.H2 K H KH HK)). apply Forall_forall. intros y Hy. apply in_map_iff in Hy. destruct Hy as (? & <- & _). lia.
    - left. reflexivity.
    - lia.
    - exists s'. split; [exact E|]. apply left_shape in LO. rewrite !map_app, <- !FE_KL, kids_FE, <- !app_assoc in LO. rewrite <- !app_assoc. exact LO. }
  destruct CUT as (s' & E & SH'). unfold verdict.
  destruct remove as [f|]; [|exists s'; rewrite E; split; [reflexivity|exact SH']]. destruct (Z.eqb_spec (f v) NULL) as [_|N].
  - exists s'. rewrite E. split; [reflexivity|exact SH'].
  - exists (with_heap s h1). split; [reflexivity|]. exact Sh1.
Qed.
Lemma remove_absent : forall remove s m k, shape s m -> 0 <= k < 2 ^ 64 -> get k m = None -> k <> 0 -> (forall e, In e m -> snd e <> k) -> exists s', btree_remove K remove s k = Some (s', NULL) /\ shape s' m.
Proof.
  intros remove s m k Sh Hk GN N0 NV. destruct (leaf_start K H KH HK al s _ k Sh Hk) as (h1 & B1 & n & B2 & T & e1 & e2 & FP & W1 & Ow1 & Bo1 & Hh & Sh1 & Em & En & Hp & A1 & A2 & G1 & G2 & Op & FI & FL).
  pose proof (zlen_nonneg _ T). unfold btree_remove. destruct (Z.eqb_spec (b_height s) 0) as [Q|_]; [lia|]. rewrite Nat.add_1_r. rewrite (remove_step K) by (apply Z.ltb_ge; lia). rewrite FP. cbn [with_heap b_heap]. rewrite FI, FL. change (1 =? 1) with true. cbn iota.
  pose proof Op as (Pn & Cn & Ln & _). rewrite En in Cn, Ln. rewrite zlen_app in Ln. pose proof (zlen_nonneg _ e1). pose proof (zlen_nonneg _ e2).
  assert (CK : exists x, get_key h1 (adr n) (zlen e1) = Some x /\ x <> k).
  { destruct e2 as [|[k' v'] e2].
    - destruct (Z.eq_dec (zlen e1) K) as [EK|NK].
      + rewrite EK, (get_key_over K HK' _ _ _ Cn). eexists. split; [reflexivity|]. apply NV. rewrite Em. apply in_or_app. right. apply in_or_app. left. apply slot_in. rewrite app_nil_r. lia.
      + rewrite zlen_nil in Ln. rewrite (get_key_ok K HK' _ _ _ _ Cn) by lia. eexists. split; [reflexivity|]. rewrite slot_over by (rewrite zlen_app, zlen_nil; lia). cbn [fst]. lia.
    - rewrite zlen_cons in Ln. pose proof (zlen_nonneg _ e2). rewrite (get_key_ok K HK' _ _ _ _ Cn) by lia. eexists. split; [reflexivity|]. rewrite slot_mid. cbn [fst]. intros ->. unfold get in GN. destruct (find (fun e => fst e =? k) m) eqn:E; [discriminate|]. apply (find_none_iff_aux k v' m); [|exact E]. rewrite Em. apply in_or_app. right. apply in_or_app. left. apply in_or_app. right. left. reflexivity. }
  destruct CK as (x & EX & NX). unfold cmp_key. rewrite EX. cbn [deref]. assert (KF : key_find x k =? 0 = false) by (unfold key_find; destruct (Z.ltb_spec x k), (Z.ltb_spec k x); try reflexivity; lia). rewrite KF. cbn [negb]. exists (with_heap s h1). split; [reflexivity|exact Sh1].
Qed.

(** ** Lookup *)
Definition look_step (h : heap) (key : kref) (node : Z) : option Z :=
  let* index := find_index K h node key in if index =? K then Some NULL else let* node := get_value K h node index in Some node.
Lemma look_snoc : forall n h key r, r <> NULL -> look K (S n) h r key = let* a := look K n h r key in if a =? NULL then Some NULL else look_step h key a.
Proof.
  induction n as [|n IH]; intros h key r NR.
  - cbn [look]. destruct (Z.eqb_spec r NULL) as [E|_]; [congruence|]. unfold look_step. destruct (find_index K h r key) as [i|]; [|reflexivity]. destruct (i =? K); [reflexivity|]. destruct (get_value K h r i) as [a|]; [|reflexivity]. destruct (Z.eqb_spec a NULL) as [E|_]; [rewrite E|]; reflexivity.
  - change (look K (S (S n)) h r key) with (let* index := find_index K h r key in if index =? K then Some NULL else let* node := get_value K h r index in if node =? NULL then Some NULL else look K (S n) h node key).
    change (look K (S n) h r key) with (let* index := find_index K h r key in if index =? K then Some NULL else let* node := get_value K h r index in if node =? NULL then Some NULL else look K n h node key).
    destruct (find_index K h r key) as [i|]; [|reflexivity]. destruct (i =? K); [reflexivity|]. destruct (get_value K h r i) as [a|]; [|reflexivity]. destruct (Z.eqb_spec a NULL) as [E|N]; [reflexivity|]. apply IH, N.
Qed.
Lemma root_pos : forall T h r, tower h r T -> 0 < r.
Proof.
  induction T as [|B T IH]; intros h r W; [destruct W|]. destruct T as [|U T]; [|apply (IH h), W]. destruct W as [F (n & -> & <- & _)]. apply Forall_cons_iff in F. apply F.
Qed.
Lemma inside_kids : forall es b l k x, desc b es -> Forall (fun e => l <= fst e) es -> In x (kids b es) -> inside k x -> l <= k < b.
Proof.
  induction es as [|e r IH]; intros b l k x D F I X; [destruct I|]. destruct D as [D1 D2]. apply Forall_cons_iff in F. destruct F as [F1 F2]. destruct I as [<-|I]; [unfold inside, klo, kup in X; cbn [fst snd] in X; lia|]. specialize (IH _ _ _ _ D2 F2 I X). lia.
Qed.
Lemma look_ok : forall T B h r k, tower h r (B :: T) -> 0 <= k < 2 ^ 64 ->
  exists a, look K (length T) h r (Val k) = Some a /\ (a = NULL /\ Forall (fun x => ~ inside k x) (map head B) \/ exists B1 n B2, B = B1 ++ n :: B2 /\ a = adr n /\ lo n <= k < up n).
Proof.
  induction T as [|U T IH]; intros B h r k W Hk.
  - destruct W as [_ (n & -> & <- & E1 & E2)]. exists (adr n). split; [reflexivity|]. right. exists [], n, []. split; [reflexivity|]. split; [reflexivity|lia].
  - pose proof W as (F & W1 & W2 & W3 & W4 & W5). pose proof (root_pos _ _ _ W) as RP. destruct (IH _ _ _ _ W5 Hk) as (a & E & Q). change (length (U :: T)) with (S (length T)). rewrite look_snoc by (unfold NULL; lia). rewrite E. pose proof (proj1 W5) as FU.
    assert (IN : forall x, In x (map head B) -> inside k x -> exists u, In u U /\ lo u <= k < up u /\ In x (kids (up u) (ent u))).
    { intros x Ix X. rewrite <- W2 in Ix. apply in_flat_map in Ix. destruct Ix as (u & Iu & Ix). exists u. split; [exact Iu|]. split; [|exact Ix]. rewrite Forall_forall in FU. destruct (FU u Iu) as (_ & _ & _ & _ & _ & D & G & _). apply (inside_kids _ _ _ _ _ D G Ix X). }
    destruct Q as [(-> & NO)|(U1 & u & U2 & -> & -> & Hu)].
    + exists NULL. split; [reflexivity|]. left. split; [reflexivity|]. apply Forall_forall. intros x Ix X. destruct (IN x Ix X) as (u & Iu & Hu & _). rewrite Forall_forall in NO. apply (NO (head u)); [apply in_map, Iu|exact Hu].
    + assert (Ou : node_ok h u) by (rewrite Forall_forall in FU; apply FU, in_mid). pose proof Ou as (Pu & Cu & Lu & L0 & LU & Du & Gu & Vu). destruct (Z.eqb_spec (adr u) NULL) as [Q|_]; [unfold NULL in Q; lia|]. destruct (desc_find _ _ k Du) as (e1 & e2 & Eu & F1 & F2 & F3). unfold look_step.
      rewrite Eu in Cu, Lu. rewrite (find_ok K HK' h (adr u) e1 e2 (Val k) k Cu eq_refl Lu ltac:(lia) F1 F2). rewrite zlen_app in Lu. pose proof (zlen_nonneg _ e1). pose proof (zlen_nonneg _ e2). destruct e2 as [|[s c] e3].
      * exists NULL. split. { destruct (Z.eqb_spec (zlen e1) K) as [_|N]; [reflexivity|]. rewrite zlen_nil in Lu. rewrite (get_value_ok K HK' _ _ _ _ Cu) by lia. rewrite slot_over by (rewrite zlen_app, zlen_nil; lia). reflexivity. }
        left. split; [reflexivity|]. apply Forall_forall. intros x Ix X. destruct (IN x Ix X) as (u' & Iu' & Hu' & Ix'). apply in_split in Iu'. destruct Iu' as (A & Z' & EA). destruct (node_unique (2 ^ 64) k _ _ _ _ _ _ (tower_chain _ _ _ _ _ _ W5) EA Hu Hu') as (_ & <- & _). apply kids_keys in Ix'. rewrite Eu, app_nil_r in Ix'. rewrite Forall_forall in F1. specialize (F1 _ Ix'). cbn [fst] in F1. destruct X. lia.
      * rewrite zlen_cons in Lu. pose proof (zlen_nonneg _ e3). destruct (Z.eqb_spec (zlen e1) K) as [Q|_]; [lia|]. rewrite (get_value_ok K HK' _ _ _ _ Cu), slot_mid by lia. exists c. split; [reflexivity|]. right.
        assert (EK : KL (U1 ++ u :: U2) = (KL U1 ++ kids (up u) e1) ++ (c, s, bot (up u) e1) :: kids s e3 ++ KL U2). { rewrite KL_app, KL_cons, Eu, kids_app. cbn [kids fst snd]. rewrite <- !app_assoc. reflexivity. }
        rewrite W2 in EK. symmetry in EK. destruct (map_split _ _ _ _ _ _ _ EK) as (B1 & n & B2 & -> & _ & Hd & _). unfold head in Hd. injection Hd as -> -> Ub. exists B1, n, B2. split; [reflexivity|]. split; [reflexivity|]. pose proof (F2 _ _ eq_refl) as Q. cbn [fst] in Q. split; [exact Q|]. rewrite <- Ub. apply bot_gt; [lia|exact F1].
Qed.
(** the leaf for [k], or the certainty that [k] is not there *)
Lemma node_lookup_ok : forall s m k, shape s m -> 0 <= k < 2 ^ 64 -> exists a, node_lookup K s (Val k) = Some a /\
  (a = NULL /\ get k m = None \/ exists B1 n B2 T e1 e2, a = adr n /\ tower (b_heap s) (b_node s) ((B1 ++ n :: B2) :: T) /\ owned (b_heap s) ((B1 ++ n :: B2) :: T) [] /\ born al s /\ b_height s = 1 + zlen T /\ m = FE B1 ++ (e1 ++ e2) ++ FE B2 /\ ent n = e1 ++ e2 /\ lo n <= k < up n /\ Forall (fun e => k < fst e) (FE B1) /\ Forall (fun e => fst e < k) (FE B2) /\ Forall (fun e => k < fst e) e1 /\ (forall x r, e2 = x :: r -> fst x <= k) /\ node_ok (b_heap s) n).
Proof.
  intros s m k (B & T & W & Ow & Bo & Hh & Em) Hk. pose proof (zlen_nonneg _ T). unfold node_lookup. destruct (Z.eqb_spec (b_height s) 0) as [Q|_]; [lia|]. replace (Z.to_nat (b_height s - 1)) with (length T) by (unfold zlen in *; lia). destruct (look_ok T B _ _ k W Hk) as (a & E & Q). exists a. split; [exact E|]. destruct Q as [(-> & NO)|(B1 & n & B2 & -> & -> & Hn)].
  - left. split; [reflexivity|]. unfold get. rewrite find_none; [reflexivity|]. rewrite <- Em. apply Forall_forall. intros [k' v'] I. cbn [fst]. apply Z.eqb_neq. intros ->. apply in_flat_map in I. destruct I as (n & In' & I). rewrite Forall_forall in NO. apply (NO (head n)); [apply in_map, In'|]. pose proof (proj1 W) as F. rewrite Forall_forall in F. destruct (F n In') as (_ & _ & _ & _ & _ & D & G & _). apply desc_below in D. rewrite Forall_forall in D, G. specialize (D _ I). specialize (G _ I). cbn [fst] in *. unfold inside, klo, kup, head. cbn [fst snd]. lia.
  - right. assert (On : node_ok (b_heap s) n) by (pose proof (proj1 W) as F; rewrite Forall_forall in F; apply F, in_mid). pose proof On as (_ & _ & _ & _ & _ & D & _). destruct (desc_find _ _ k D) as (e1 & e2 & En & F1 & F2 & _). destruct (around K _ B1 n B2 k (proj1 W) (tower_chain _ _ _ _ _ _ W) Hn) as (A1 & A2 & _).
    exists B1, n, B2, T, e1, e2. split; [reflexivity|]. split; [exact W|]. split; [exact Ow|]. split; [exact Bo|]. split; [exact Hh|]. split; [rewrite <- Em, FE_app; cbn [FE flat_map]; rewrite En; reflexivity|]. auto 10.
Qed.
Lemma lookup_ok : forall s m k, shape s m -> 0 <= k < 2 ^ 64 -> btree_lookup K s k = Some (value_or_null (get k m)).
Proof.
  intros s m k Sh Hk. unfold btree_lookup. destruct (node_lookup_ok s m k Sh Hk) as (a & E & Q). rewrite E. destruct Q as [(-> & G)|(B1 & n & B2 & T & e1 & e2 & -> & W & Ow & Bo & Hh & Em & En & Hn & A1 & A2 & F1 & F2 & (Pn & Cn & Ln & _ & _ & Dn & _))]; [rewrite G; reflexivity|].
  destruct (Z.eqb_spec (adr n) NULL) as [Q|_]; [unfold NULL in Q; lia|]. rewrite En in *. rewrite (key_index_ok K HK' _ _ e1 e2 k Cn Ln ltac:(lia) F1 F2). rewrite zlen_app in Ln. pose proof (zlen_nonneg _ e1). assert (FA : Forall (fun e => k < fst e) (FE B1 ++ e1)) by (apply Forall_app; split; assumption). destruct e2 as [|[k' v] e2].
  - rewrite zlen_nil in Ln. assert (G : get k m = None) by (rewrite Em, app_nil_r, app_assoc; apply get_gap; assumption). rewrite G. cbn [value_or_null]. destruct (Z.eqb_spec k 0) as [_|_]; [|rewrite Z.eqb_refl; reflexivity]. destruct (Z.eqb_spec (zlen e1) K) as [_|N]; [reflexivity|]. rewrite (get_value_ok K HK' _ _ _ _ Cn) by lia. rewrite slot_over by (rewrite zlen_app, zlen_nil; lia). reflexivity.
  - pose proof (F2 _ _ eq_refl) as F3. cbn [fst] in *. rewrite zlen_cons in Ln. pose proof (zlen_nonneg _ e2). rewrite desc_app in Dn. destruct Dn as [_ [_ Dn]]. apply desc_below in Dn. cbn [fst] in Dn. destruct (Z.eqb_spec k' k) as [->|N].
    + destruct (Z.eqb_spec (zlen e1) K) as [Q|_]; [lia|]. rewrite (get_value_ok K HK' _ _ _ _ Cn), slot_mid by lia. cbn [snd]. assert (G : get k m = Some v). { rewrite Em, <- app_assoc. cbn [app]. rewrite app_assoc. apply get_at. exact FA. } rewrite G. reflexivity.
    + rewrite Z.eqb_refl. assert (G : get k m = None). { rewrite Em, <- app_assoc, app_assoc. apply get_gap; [exact FA|]. apply Forall_app. split; [|exact A2]. constructor; [cbn [fst]; lia|]. eapply Forall_impl; [|exact Dn]. cbn beta. intros; lia. } rewrite G. reflexivity.
Qed.
Lemma update_ok : forall s m k v, shape s m -> 0 <= k < 2 ^ 64 -> v <> NULL -> k <> 0 \/ get k m <> None -> exists s' c, btree_update K s k v = Some (s', c) /\ (get k m <> None /\ c = 0 /\ shape s' (put k v m) \/ get k m = None /\ c = - ENOENT /\ s' = s).
Proof.
  intros s m k v Sh Hk Nv N0. unfold btree_update. destruct (node_lookup_ok s m k Sh Hk) as (a & E & Q). rewrite E. destruct Q as [(-> & G)|(B1 & n & B2 & T & e1 & e2 & -> & W & Ow & Bo & Hh & Em & En & Hn & A1 & A2 & F1 & F2 & (Pn & Cn & Ln & L0 & LU & Dn & Gn & Vn))]; [exists s, (- ENOENT); split; [reflexivity|]; right; auto|].
  destruct (Z.eqb_spec (adr n) NULL) as [Q|_]; [unfold NULL in Q; lia|]. rewrite En in Cn, Ln, Dn, Gn, Vn. rewrite (key_index_ok K HK' _ _ e1 e2 k Cn Ln ltac:(lia) F1 F2). pose proof Ln as Ln'. rewrite zlen_app in Ln. pose proof (zlen_nonneg _ e1). assert (FA : Forall (fun e => k < fst e) (FE B1 ++ e1)) by (apply Forall_app; split; assumption). destruct e2 as [|[k' w] e2].
  - rewrite zlen_nil in Ln. assert (G : get k m = None) by (rewrite Em, app_nil_r, app_assoc; apply get_gap; assumption). destruct N0 as [N0|N0]; [|congruence]. destruct (Z.eqb_spec k 0) as [Q|_]; [lia|]. rewrite Z.eqb_refl. exists s, (- ENOENT). split; [reflexivity|]. right. auto.
  - pose proof (F2 _ _ eq_refl) as F3. cbn [fst] in *. rewrite zlen_cons in Ln. pose proof (zlen_nonneg _ e2). pose proof Dn as Dn'. rewrite desc_app in Dn'. destruct Dn' as [_ [_ Dn']]. apply desc_below in Dn'. cbn [fst] in Dn'. destruct (Z.eqb_spec k' k) as [->|N].
    + destruct (Z.eqb_spec (zlen e1) K) as [Q|_]; [lia|]. destruct (set_value_ok K HK' _ _ _ (zlen e1) v Cn ltac:(lia)) as (h' & E' & C' & O'). rewrite E'. rewrite slot_mid in C'. cbn [fst] in C'. apply (cells_ext K _ _ _ (slot (e1 ++ (k, v) :: e2))) in C'; [|intros i Hi; apply slot_fput; lia].
      exists (with_heap s h'), (- ENOERR). split; [reflexivity|]. left. assert (FC : Forall (fun e => fst e < k) (e2 ++ FE B2)) by (apply Forall_app; split; assumption). assert (Em' : m = (FE B1 ++ e1) ++ (k, w) :: e2 ++ FE B2) by (rewrite Em, <- !app_assoc; reflexivity).
      split; [rewrite Em', get_at by assumption; discriminate|]. split; [reflexivity|]. rewrite Em', put_at by assumption. set (n' := {| adr := adr n; lo := lo n; up := up n; ent := e1 ++ (k, v) :: e2 |}).
      assert (N' : node_ok h' n'). { split; [exact Pn|]. split; [exact C'|]. cbn [n' lo up ent]. split; [rewrite zlen_app, zlen_cons in *; exact Ln'|]. split; [exact L0|]. split; [exact LU|]. split; [rewrite desc_app in *; exact Dn|]. apply Forall_app in Gn. destruct Gn as [Ga Gb]. apply Forall_cons_iff in Gb. apply Forall_app in Vn. destruct Vn as [Va Vb]. apply Forall_cons_iff in Vb. cbn [fst snd] in *. split; apply Forall_app; (split; [assumption|]); constructor; cbn [fst snd]; tauto. }
      exists (B1 ++ n' :: B2), T. cbn [with_heap b_heap b_node b_height]. split; [|split; [|split; [|split; [exact Hh|]]]].
      * apply (swap_bottom K H KH HK T B1 n n' B2 (b_heap s) h'); try assumption; [apply Ow|reflexivity|]. cbn [n' ent]. rewrite En, !zlen_app, !zlen_cons. reflexivity.
      * apply (owned_dom (b_heap s) h' ((B1 ++ n :: B2) :: T) _ [] []); [exact Ow|rewrite !addrs_cons, !map_app; reflexivity| |reflexivity]. intros a. destruct (Z.eq_dec a (adr n)) as [->|Na]; [|rewrite (O' a Na); reflexivity]. split; intros _; [apply (cells_some K _ _ _ Cn)|apply (cells_some K _ _ _ C')].
      * apply (born_sub al s); [exact Bo| |cbn; lia]. cbn [with_heap b_heap]. intros a. destruct (Z.eq_dec a (adr n)) as [->|Na]; [intros _; apply (cells_some K _ _ _ Cn)|rewrite (O' a Na); auto].
      * rewrite FE_app. cbn [FE flat_map n' ent]. rewrite <- !app_assoc. reflexivity.
    + rewrite Z.eqb_refl. exists s, (- ENOENT). split; [reflexivity|]. right. split; [|auto]. rewrite Em, <- app_assoc, app_assoc. apply get_gap; [exact FA|]. apply Forall_app. split; [|exact A2]. constructor; [cbn [fst]; lia|]. eapply Forall_impl; [|exact Dn']. cbn beta. intros; lia.
Qed.

(** ** The ends *)
Lemma go_first_snoc : forall n h r, go_first K (S n) h r = let* a := go_first K n h r in get_value K h a 0.
Proof. induction n as [|n IH]; intros h r; [cbn; destruct (get_value K h r 0); reflexivity|]. change (go_first K (S (S n)) h r) with (let* node := get_value K h r 0 in go_first K (S n) h node). cbn [go_first]. destruct (get_value K h r 0) as [a|]; [apply IH|reflexivity]. Qed.
Lemma go_first_ok : forall T B h r, tower h r (B :: T) -> exists n B', B = n :: B' /\ go_first K (length T) h r = Some (adr n).
Proof.
  induction T as [|U T IH]; intros B h r W.
  - destruct W as [_ (n & -> & <- & _)]. exists n, []. auto.
  - pose proof W as (F & W1 & W2 & W3 & W4 & W5). destruct (IH _ _ _ W5) as (u & U' & -> & E). change (length ((u :: U') :: T)) with (S (length T)). rewrite go_first_snoc, E. pose proof (bottom_nonempty K H _ _ _ _ _ W) as NE. apply Forall_cons_iff in NE. destruct NE as [NE _]. pose proof (proj1 W5) as FU. apply Forall_cons_iff in FU. destruct FU as [(_ & C & _) _].
    rewrite (get_value_ok K HK' _ _ _ 0 C) by lia. rewrite KL_cons in W2. destruct (ent u) as [|e es]; [congruence|]. rewrite slot_0. cbn [kids app] in W2. destruct B as [|n B']; [discriminate|]. assert (Q := f_equal (hd (0, 0, 0)) W2). cbn [hd map] in Q. unfold head in Q. injection Q as -> _ _. exists n, B'. auto.
Qed.
Lemma go_last_snoc : forall n h r, go_last K (S n) h r = let* a := go_last K n h r in let* fill := fill_index K h a 0 in get_value K h a (w32 (fill - 1)).
Proof.
  induction n as [|n IH]; intros h r; [cbn [go_last]; destruct (fill_index K h r 0) as [f|]; [|reflexivity]; destruct (get_value K h r (w32 (f - 1))); reflexivity|].
  change (go_last K (S (S n)) h r) with (let* fill := fill_index K h r 0 in let* node := get_value K h r (w32 (fill - 1)) in go_last K (S n) h node). cbn [go_last]. destruct (fill_index K h r 0) as [f|]; [|reflexivity]. destruct (get_value K h r (w32 (f - 1))) as [a|]; [apply IH|reflexivity].
Qed.
Lemma last_slot : forall h u es e, node_ok h u -> ent u = es ++ [e] -> fill_index K h (adr u) 0 = Some (zlen es + 1) /\ w32 (zlen es + 1 - 1) = zlen es /\ 0 <= zlen es < K /\ slot (ent u) (zlen es) = e.
Proof.
  intros h u es e (_ & C & L & _ & _ & _ & _ & V) E. pose proof (zlen_nonneg _ es). assert (LE : zlen (ent u) = zlen es + 1) by (rewrite E, zlen_app, zlen_cons, zlen_nil; lia). rewrite (fill_ok K HK' _ _ (ent u) 0 C V L) by lia. split; [congruence|]. split; [rewrite w32_small by lia; lia|]. split; [lia|]. rewrite E. apply slot_mid.
Qed.
Lemma go_last_ok : forall T B h r, tower h r (B :: T) -> exists n B', B = B' ++ [n] /\ go_last K (length T) h r = Some (adr n).
Proof.
  induction T as [|U T IH]; intros B h r W.
  - destruct W as [_ (n & -> & <- & _)]. exists n, []. auto.
  - pose proof W as (F & W1 & W2 & W3 & W4 & W5). destruct (IH _ _ _ W5) as (u & U' & -> & E). change (length ((U' ++ [u]) :: T)) with (S (length T)). rewrite go_last_snoc, E. pose proof (bottom_nonempty K H _ _ _ _ _ W) as NE. apply Forall_app in NE. destruct NE as [_ NE]. apply Forall_cons_iff in NE. destruct NE as [NE _]. pose proof (proj1 W5) as FU. apply Forall_app in FU. destruct FU as [_ FU]. apply Forall_cons_iff in FU. destruct FU as [Ou _].
    assert (EU : exists es e, ent u = es ++ [e]) by (destruct (ent u) as [|e es _] using rev_ind; [congruence|exists es, e; reflexivity]). destruct EU as (es & e & EU). destruct (last_slot h u es e Ou EU) as (Q1 & Q2 & Q3 & Q4). pose proof Ou as (_ & C & _). rewrite Q1, Q2. rewrite (get_value_ok K HK' _ _ _ (zlen es) C Q3), Q4.
    rewrite KL_app, KL_cons in W2. cbn [KL flat_map] in W2. rewrite app_nil_r, EU, kids_app, app_assoc in W2. cbn [kids] in W2. destruct (map_split _ _ _ _ _ _ _ W2) as (B' & n & Z' & -> & _ & Hd & Q). destruct Z'; [|discriminate]. unfold head in Hd. injection Hd as -> _ _. exists n, B'. auto.
Qed.
Lemma leaf_empty : forall T B h r n, tower h r (B :: T) -> In n B -> ent n = [] -> T = [] /\ B = [n].
Proof.
  intros T B h r n W I E. destruct T as [|U T].
  - destruct W as [_ (n' & -> & _)]. destruct I as [->|[]]. auto.
  - destruct W as (_ & W1 & _). rewrite Forall_forall in W1. exfalso. apply (W1 n I E).
Qed.
Lemma first_ok : forall s m k0, shape s m -> exists v k, btree_first K s k0 = Some (v, k) /\ match m with [] => v = NULL /\ k = 0 | e :: _ => v = snd e /\ k = fst e end.
Proof.
  intros s m k0 (B & T & W & Ow & Bo & Hh & <-). pose proof (zlen_nonneg _ T). unfold btree_first. destruct (Z.eqb_spec (b_height s) 0) as [Q|_]; [lia|]. replace (Z.to_nat (b_height s - 1)) with (length T) by (unfold zlen in *; lia). destruct (go_first_ok T B _ _ W) as (n & B' & -> & E). rewrite E. pose proof (proj1 W) as F. apply Forall_cons_iff in F. destruct F as [(_ & C & _) _].
  rewrite (get_key_ok K HK' _ _ _ 0 C), (get_value_ok K HK' _ _ _ 0 C) by lia. eexists. eexists. split; [reflexivity|]. cbn [FE flat_map]. destruct (ent n) as [|e es] eqn:En.
  - destruct (leaf_empty _ _ _ _ n W (or_introl eq_refl) En) as [_ Q]. injection Q as ->. cbn. auto.
  - rewrite slot_0. cbn [app]. auto.
Qed.
Lemma last_ok : forall s m k0, shape s m -> m <> [] -> exists v k, btree_last K s k0 = Some (v, k) /\ last_of m = Some (k, v).
Proof.
  intros s m k0 (B & T & W & Ow & Bo & Hh & <-) NM. pose proof (zlen_nonneg _ T). unfold btree_last. destruct (Z.eqb_spec (b_height s) 0) as [Q|_]; [lia|]. replace (Z.to_nat (b_height s - 1)) with (length T) by (unfold zlen in *; lia). destruct (go_last_ok T B _ _ W) as (n & B' & -> & E). rewrite E. pose proof (proj1 W) as F. apply Forall_app in F. destruct F as [_ F]. apply Forall_cons_iff in F. destruct F as [On _].
  assert (NE : ent n <> []). { intros En. destruct (leaf_empty _ _ _ _ n W ltac:(apply in_or_app; right; left; reflexivity) En) as [_ Q]. apply NM. rewrite Q. cbn [FE flat_map]. rewrite En. reflexivity. }
  assert (EN : exists es e, ent n = es ++ [e]) by (destruct (ent n) as [|e es _] using rev_ind; [congruence|exists es, e; reflexivity]). destruct EN as (es & e & EN). destruct (last_slot _ n es e On EN) as (Q1 & Q2 & Q3 & Q4). pose proof On as (_ & C & _). rewrite Q1, Q2. rewrite (get_key_ok K HK' _ _ _ (zlen es) C Q3), (get_value_ok K HK' _ _ _ (zlen es) C Q3), Q4.
  exists (snd e), (fst e). split; [reflexivity|]. rewrite FE_app. cbn [FE flat_map]. rewrite app_nil_r, EN, app_assoc, last_of_snoc. destruct e; reflexivity.
Qed.

(** ** Walking *)
Lemma addrs_app : forall P Q, addrs (P ++ Q) = addrs P ++ addrs Q.
Proof. intros P Q. unfold addrs. rewrite concat_app, map_app. reflexivity. Qed.
Lemma nodup_app : forall (a b : list Z), NoDup (a ++ b) <-> NoDup a /\ NoDup b /\ forall x, In x a -> ~ In x b.
Proof.
  induction a as [|y a IH]; intros b; cbn [app].
  - split; [intros N; split; [constructor|split; [exact N|intros x []]]|tauto].
  - rewrite !NoDup_cons_iff, IH, in_app_iff. split.
    + intros (N1 & N2 & N3 & N4). split; [tauto|]. split; [exact N3|]. intros x [<-|I]; [tauto|apply N4, I].
    + intros ((N1 & N2) & N3 & N4). split; [|split; [exact N2|split; [exact N3|intros x I; apply N4; right; exact I]]]. intros [I|I]; [contradiction|]. apply (N4 y); [left; reflexivity|exact I].
Qed.
Lemma tower_suffix : forall P T h r, T <> [] -> tower h r (P ++ T) -> tower h r T.
Proof.
  induction P as [|B P IH]; intros T h r NT W; [exact W|]. apply (IH T h r NT). cbn [app] in W. destruct (P ++ T) as [|U Q] eqn:E; [apply app_eq_nil in E; destruct E; congruence|]. apply W.
Qed.
Lemma reglue : forall P B T h r h' B' T', tower h r (P ++ B :: T) -> tower h' r (B' :: T') -> lowered B B' -> (forall a, In a (addrs P) -> h' a = h a) -> tower h' r (P ++ B' :: T').
Proof.
  induction P as [|C P IH]; intros B T h r h' B' T' W W' L Fr; [exact W'|]. cbn [app] in *. assert (FC : forall a, In a (map adr C) -> h' a = h a) by (intros a Ha; apply Fr; rewrite addrs_cons; apply in_or_app; left; exact Ha). assert (FP : forall a, In a (addrs P) -> h' a = h a) by (intros a Ha; apply Fr; rewrite addrs_cons; apply in_or_app; right; exact Ha).
  destruct P as [|D P]; cbn [app] in *.
  - destruct W as (F & W1 & W2 & W3 & (sz & W4 & W4') & W5). split; [apply (nodes_frame K h); assumption|]. split; [exact W1|]. split; [rewrite (lowered_KL _ _ L); exact W2|]. split; [exact W3|]. split; [|exact W']. exists sz. split; [exact W4|]. apply (lowered_Jn H sz _ _ L W4').
  - destruct W as (F & W1 & W2 & W3 & W4 & W5). split; [apply (nodes_frame K h); assumption|]. split; [exact W1|]. split; [exact W2|]. split; [exact W3|]. split; [exact W4|]. apply (IH B T h r h' B' T' W5 W' L FP).
Qed.
Lemma owned_split : forall h P T, owned h (P ++ T) [] <-> NoDup (addrs P) /\ owned h T (addrs P).
Proof.
  intros h P T. unfold owned. rewrite addrs_app, nodup_app. split.
  - intros ((N1 & N2 & N3) & _ & D). split; [exact N1|]. split; [exact N2|]. split; [intros a I J; apply (N3 a J I)|]. intros a. rewrite D, in_app_iff. cbn [In]. tauto.
  - intros (N1 & N2 & N3 & D). split; [split; [exact N1|split; [exact N2|intros a I J; apply (N3 a J I)]]|]. split; [intros a _ []|]. intros a. rewrite D, in_app_iff. cbn [In]. tauto.
Qed.
Lemma part_unique : forall (k : Z) (A Z' A' Z'' : list (Z * Z * Z)), A ++ Z' = A' ++ Z'' -> Forall (fun x => k < klo x) A -> Forall (fun x => klo x <= k) Z' -> Forall (fun x => k < klo x) A' -> Forall (fun x => klo x <= k) Z'' -> A = A' /\ Z' = Z''.
Proof.
  induction A as [|x A IH]; intros Z' A' Z'' E F1 F2 G1 G2; cbn [app] in E.
  - destruct A' as [|y A']; [auto|]. exfalso. subst Z'. apply Forall_cons_iff in F2. apply Forall_cons_iff in G1. lia.
  - apply Forall_cons_iff in F1. destruct F1 as [Fx F1]. destruct A' as [|y A']; cbn [app] in E.
    + exfalso. subst Z''. apply Forall_cons_iff in G2. lia.
    + injection E as <- E. apply Forall_cons_iff in G1. destruct G1 as [_ G1]. destruct (IH _ _ _ E F1 F2 G1 G2) as [-> ->]. auto.
Qed.
Lemma FE_klo : forall (P : Z -> Prop) B, Forall (fun e => P (fst e)) (FE B) -> Forall (fun x => P (klo x)) (KL B).
Proof. intros P B F. rewrite FE_KL in F. rewrite Forall_map in F. exact F. Qed.
Lemma kids_klo : forall (P : Z -> Prop) es b, Forall (fun e => P (fst e)) es -> Forall (fun x => P (klo x)) (kids b es).
Proof. intros P es b F. rewrite Forall_forall in *. intros x Ix. apply (F _ (kids_keys _ _ _ Ix)). Qed.
(** the path to [k] at one level of the tree *)
Lemma level_step : forall P B T s depth k A Z', tower (b_heap s) (b_node s) (P ++ B :: T) -> owned (b_heap s) (P ++ B :: T) [] -> born al s -> b_height s = depth + zlen T -> 0 <= k < 2 ^ 64 -> KL B = A ++ Z' -> Forall (fun x => k < klo x) A -> Forall (fun x => klo x <= k) Z' ->
  exists h' B1 n B2 T' e1 e2, find_parent K s (Val k) depth = Some (with_heap s h', adr n) /\ tower h' (b_node s) (P ++ (B1 ++ n :: B2) :: T') /\ owned h' (P ++ (B1 ++ n :: B2) :: T') [] /\ born al (with_heap s h') /\ length T' = length T /\ (forall a, In a (addrs P) -> h' a = b_heap s a) /\ lowered B (B1 ++ n :: B2) /\
    lo n <= k < up n /\ ent n = e1 ++ e2 /\ node_ok h' n /\ find_index K h' (adr n) (Val k) = Some (zlen e1) /\ fill_index K h' (adr n) (zlen e1) = Some (zlen (ent n)) /\ A = KL B1 ++ kids (up n) e1 /\ Z' = kids (bot (up n) e1) e2 ++ KL B2 /\ chain (lo n) (KL B2) /\ Forall (fun x => k < klo x) (map head B1) /\ Forall (fun x => klo x <= k) (head n :: map head B2).
Proof.
  intros P B T s depth k A Z' W Ow Bo Hh Hk EK FA FZ. apply owned_split in Ow. destruct Ow as [NP Ow]. pose proof (tower_suffix P (B :: T) _ _ ltac:(discriminate) W) as WS.
  destruct (round_start K H KH HK al T B s depth (Val k) k (fun _ => H) (addrs P)) as (h1 & B1 & n & B2 & T' & e1 & e2 & FP & W1 & _ & Ow1 & Bo1 & LW & EA & EL & Fr & Dk & Hp & Ep & G1 & G2 & G3 & Op & FI & FL); try assumption; [apply (Jn_const K H KH HK)|reflexivity|].
  assert (FrP : forall a, In a (addrs P) -> h1 a = b_heap s a). { intros a Ha. apply Fr. intros I. destruct Ow as (_ & O2 & _). apply (O2 a); [rewrite addrs_cons; apply in_or_app; right; exact I|exact Ha]. }
  destruct (around K h1 B1 n B2 k (proj1 W1) (tower_chain _ _ _ _ _ _ W1) Hp) as (A1 & A2 & A3). pose proof (tower_chain _ _ _ _ _ _ W1) as CH. rewrite map_app in CH. cbn [map] in CH. destruct (chain_mid _ _ _ _ CH) as (_ & _ & C1 & C2).
  assert (EQ : A = KL B1 ++ kids (up n) e1 /\ Z' = kids (bot (up n) e1) e2 ++ KL B2).
  { apply (part_unique k); try assumption.
    - rewrite <- EK, <- (lowered_KL _ _ LW), KL_app, KL_cons, Ep, kids_app, <- !app_assoc. reflexivity.
    - apply Forall_app. split; [apply (FE_klo (fun x => k < x)), A1|apply (kids_klo (fun x => k < x)), G1].
    - apply Forall_app. split; [apply (kids_klo (fun x => x <= k)), G3|]. eapply Forall_impl; [|apply (FE_klo (fun x => x < k)), A2]. cbn beta. intros; lia. }
  exists h1, B1, n, B2, T', e1, e2. split; [exact FP|]. split; [apply (reglue P B T (b_heap s)); assumption|]. split; [apply owned_split; split; assumption|]. split; [exact Bo1|]. split; [exact EL|]. split; [exact FrP|]. split; [exact LW|]. split; [exact Hp|]. split; [exact Ep|]. split; [exact Op|]. split; [exact FI|]. split; [apply FL; rewrite Ep, zlen_app; pose proof (zlen_nonneg _ e1); pose proof (zlen_nonneg _ e2); lia|].
  split; [apply EQ|]. split; [apply EQ|]. split; [exact A3|]. split.
  - eapply Forall_impl; [|exact C1]. cbn beta. unfold kup, head. cbn [snd]. intros; lia.
  - constructor; [unfold klo, head; cbn [fst snd]; lia|]. rewrite Forall_forall in *. intros x Ix. specialize (C2 x Ix). destruct (chain_mid _ _ _ _ CH) as (_ & _ & _ & _). apply in_map_iff in Ix. destruct Ix as (m & <- & Im). unfold kup, klo, head in *. cbn [fst snd] in *.
    assert (CB : exists b', chain b' (map head B2)) by (destruct (chain_tail _ _ _ CH) as (b' & Q); destruct Q as (_ & _ & Q); exists (lo n); exact Q). destruct CB as (b' & CB). apply in_split in Im. destruct Im as (Y1 & Y2 & ->). rewrite map_app in CB. cbn [map] in CB. destruct (chain_mid _ _ _ _ CB) as (Q & _). unfold klo, kup, head in Q. cbn [fst snd] in Q. lia.
Qed.
(** entries hanging below a list of children, [Ds] being the levels from there down to the leaves *)
Fixpoint hang (h : heap) (Z' : list (Z * Z * Z)) (Ds : list (list node)) (G : list (Z * Z)) : Prop :=
  match Ds with
  | [] => map (fun x => (klo x, kad x)) Z' = G
  | D :: Ds => map kad Z' = map adr D /\ Forall (node_ok h) D /\ Forall (fun n => ent n <> []) D /\ hang h (KL D) Ds G
  end.
Lemma hang_frame : forall Ds h h' Z' G, (forall a, In a (addrs Ds) -> h' a = h a) -> hang h Z' Ds G -> hang h' Z' Ds G.
Proof.
  induction Ds as [|D Ds IH]; intros h h' Z' G Fr Hg; [exact Hg|]. destruct Hg as (Q1 & Q2 & Q3 & Q4). split; [exact Q1|]. split; [apply (nodes_frame K h); [|exact Q2]; intros a Ha; apply Fr; rewrite addrs_cons; apply in_or_app; left; exact Ha|]. split; [exact Q3|]. apply (IH h); [|exact Q4]. intros a Ha. apply Fr. rewrite addrs_cons. apply in_or_app. right. exact Ha.
Qed.
Lemma hang_nil : forall Ds h G, hang h [] Ds G -> G = [].
Proof. induction Ds as [|D Ds IH]; intros h G Hg; [symmetry; exact Hg|]. destruct Hg as (Q1 & _ & _ & Q4). destruct D; [|discriminate]. apply (IH h G Q4). Qed.
Lemma next_down_ok : forall Ds h x Z' G a es i, hang h (x :: Z') Ds G -> cells h a (slot es) -> 0 <= i < K -> slot es i = (klo x, kad x) ->
  exists a' i' e G', next_down K (length Ds) h a i = Some (a', i') /\ G = e :: G' /\ get_key h a' i' = Some (fst e) /\ get_value K h a' i' = Some (snd e).
Proof.
  induction Ds as [|D Ds IH]; intros h x Z' G a es i Hg C Hi E.
  - cbn [hang map] in Hg. exists a, i, (klo x, kad x), (map (fun x => (klo x, kad x)) Z'). split; [reflexivity|]. split; [symmetry; exact Hg|]. rewrite (get_key_ok K HK' _ _ _ _ C Hi), (get_value_ok K HK' _ _ _ _ C Hi), E. auto.
  - destruct Hg as (Q1 & Q2 & Q3 & Q4). cbn [length next_down]. rewrite (get_value_ok K HK' _ _ _ _ C Hi), E. cbn [snd]. destruct D as [|d D]; [discriminate|]. cbn [map] in Q1. injection Q1 as -> _. apply Forall_cons_iff in Q2. destruct Q2 as [(_ & Cd & _) _]. apply Forall_cons_iff in Q3. destruct Q3 as [NE _]. rewrite KL_cons in Q4. destruct (ent d) as [|[s c] r]; [congruence|]. cbn [kids app fst snd] in Q4. apply (IH h _ _ G (adr d) _ 0 Q4 Cd ltac:(lia)). rewrite slot_0. reflexivity.
Qed.
Lemma prev_down_ok : forall Ds h x Z' G a es i, hang h (Z' ++ [x]) Ds G -> cells h a (slot es) -> 0 <= i < K -> slot es i = (klo x, kad x) ->
  exists a' i' e G', prev_down K (length Ds) h a i = Some (a', i') /\ G = G' ++ [e] /\ get_key h a' i' = Some (fst e) /\ get_value K h a' i' = Some (snd e).
Proof.
  induction Ds as [|D Ds IH]; intros h x Z' G a es i Hg C Hi E.
  - cbn [hang] in Hg. rewrite map_app in Hg. exists a, i, (klo x, kad x), (map (fun x => (klo x, kad x)) Z'). split; [reflexivity|]. split; [symmetry; exact Hg|]. rewrite (get_key_ok K HK' _ _ _ _ C Hi), (get_value_ok K HK' _ _ _ _ C Hi), E. auto.
  - destruct Hg as (Q1 & Q2 & Q3 & Q4). cbn [length prev_down]. rewrite (get_value_ok K HK' _ _ _ _ C Hi), E. cbn [snd]. rewrite map_app in Q1. cbn [map] in Q1. destruct (map_split _ _ _ _ _ _ _ Q1) as (D1 & d & D2 & -> & _ & Ed & Q). destruct D2; [|discriminate]. rewrite Ed. apply Forall_app in Q2. destruct Q2 as [_ Q2]. apply Forall_cons_iff in Q2. destruct Q2 as [Od _]. apply Forall_app in Q3. destruct Q3 as [_ Q3]. apply Forall_cons_iff in Q3. destruct Q3 as [NE _].
    assert (EN : exists es0 s c, ent d = es0 ++ [(s, c)]) by (destruct (ent d) as [|[s c] es0 _] using rev_ind; [congruence|exists es0, s, c; reflexivity]). destruct EN as (es0 & s & c & EN). destruct (last_slot _ d es0 _ Od EN) as (L1 & L2 & L3 & L4). rewrite L1, L2. pose proof Od as (_ & Cd & _).
    rewrite KL_app, KL_cons in Q4. cbn [KL flat_map] in Q4. rewrite app_nil_r, EN, kids_app, app_assoc in Q4. cbn [kids fst snd] in Q4. apply (IH h _ _ G (adr d) _ (zlen es0) Q4 Cd L3). rewrite L4. reflexivity.
Qed.
(** the tree after a walk *)
Definition walked (s : root) (P : list (list node)) (B : list node) (s' : root) : Prop :=
  exists B' T', tower (b_heap s') (b_node s') (P ++ B' :: T') /\ owned (b_heap s') (P ++ B' :: T') [] /\ born al s' /\ b_height s' = zlen (P ++ B' :: T') /\ lowered B B' /\ (forall a, In a (addrs P) -> b_heap s' a = b_heap s a).
Lemma addrs_nodes : forall Ds P, incl Ds P -> forall a, In a (addrs Ds) -> In a (addrs P).
Proof. intros Ds P I a Ha. unfold addrs in *. apply in_map_iff in Ha. destruct Ha as (n & <- & Hn). apply in_map. apply in_concat in Hn. destruct Hn as (D & HD & Hn). apply in_concat. exists D. split; [apply I, HD|exact Hn]. Qed.
Lemma walked_up : forall s h' P B B' V s', lowered B B' -> (forall a, In a (addrs P) -> h' a = b_heap s a) -> walked (with_heap s h') (P ++ [B']) V s' -> walked s P B s'.
Proof.
  intros s h' P B B' V s' L Fr (B'' & T'' & W & Ow & Bo & Hh & _ & Fr'). rewrite <- app_assoc in W, Ow, Hh. cbn [app] in W, Ow, Hh. exists B', (B'' :: T''). split; [exact W|]. split; [exact Ow|]. split; [exact Bo|]. split; [exact Hh|]. split; [exact L|]. intros a Ha. rewrite Fr'; [apply Fr, Ha|]. rewrite addrs_app. apply in_or_app. left. exact Ha.
Qed.
Lemma walked_here : forall s h' P B B' T' depth, tower h' (b_node s) (P ++ B' :: T') -> owned h' (P ++ B' :: T') [] -> born al (with_heap s h') -> b_height s = depth + zlen T' -> depth = zlen P + 1 -> lowered B B' -> (forall a, In a (addrs P) -> h' a = b_heap s a) -> walked s P B (with_heap s h').
Proof. intros s h' P B B' T' depth W Ow Bo Hh Hd L Fr. exists B', T'. cbn [with_heap b_heap b_node b_height]. split; [exact W|]. split; [exact Ow|]. split; [exact Bo|]. split; [rewrite zlen_app, zlen_cons; lia|]. auto. Qed.
(** the level above and what hangs there *)
Lemma level_up : forall h r P B1 n B2 V T, tower h r (P ++ (B1 ++ n :: B2) :: V :: T) -> KL V = map head B1 ++ head n :: map head B2 /\ Forall (node_ok h) B1 /\ Forall (node_ok h) B2 /\ Forall (fun n => ent n <> []) B1 /\ Forall (fun n => ent n <> []) B2.
Proof.
  intros h r P B1 n B2 V T W. apply tower_suffix in W; [|discriminate]. destruct W as (F & W1 & W2 & _). rewrite map_app in W2. cbn [map] in W2. split; [exact W2|]. apply Forall_app in F. destruct F as [F1 F2]. apply Forall_cons_iff in F2. apply Forall_app in W1. destruct W1 as [N1 N2]. apply Forall_cons_iff in N2. tauto.
Qed.
Lemma single : forall h r P B1 n B2, tower h r (P ++ [B1 ++ n :: B2]) -> B1 = [] /\ B2 = [].
Proof. intros h r P B1 n B2 W. apply tower_suffix in W; [|discriminate]. destruct W as [_ (m & E & _)]. destruct B1 as [|y B1]; [injection E as _ ->; auto|]. destruct B1; discriminate. Qed.
Lemma hang_up : forall h D Ds G, Forall (node_ok h) D -> Forall (fun n => ent n <> []) D -> hang h (KL D) Ds G -> hang h (map head D) (D :: Ds) G.
Proof. intros h D Ds G F N Hg. split; [rewrite map_map; reflexivity|]. auto. Qed.
Definition found (go : nat -> heap -> Z -> Z -> option (Z * Z)) (s : root) (r : option (Z * Z * nat)) (e : option (Z * Z)) : Prop :=
  match r, e with
  | None, None => True
  | Some (node, index, below), Some e => exists a i, go below (b_heap s) node index = Some (a, i) /\ get_key (b_heap s) a i = Some (fst e) /\ get_value K (b_heap s) a i = Some (snd e)
  | _, _ => False
  end.
Lemma next_up_ok : forall N T P B s depth k A x Z' Ds G, length T = N -> tower (b_heap s) (b_node s) (P ++ B :: T) -> owned (b_heap s) (P ++ B :: T) [] -> born al s -> b_height s = depth + zlen T -> depth = zlen P + 1 -> 0 <= k < 2 ^ 64 ->
  KL B = A ++ x :: Z' -> Forall (fun x => k < klo x) A -> Forall (fun x => klo x <= k) (x :: Z') -> inside k x -> hang (b_heap s) Z' Ds G -> (forall a, In a (addrs Ds) -> In a (addrs P)) -> length Ds = length P ->
  exists s' r, next_up K (S N) s (Val k) depth = Some (s', r) /\ walked s P B s' /\ found (next_down K) s' r (hd_error G).
Proof.
  induction N as [|N IH]; intros T P B s depth k A x Z' Ds G LT W Ow Bo Hh Hd Hk EK FA FZ IX HG SUB LD;
    destruct (level_step P B T s depth k A (x :: Z') W Ow Bo Hh Hk EK FA FZ) as (h' & B1 & n & B2 & T' & e1 & e2 & FP & W1 & Ow1 & Bo1 & EL & Fr & LW & Hn & En & On & FI & FL & EA & EZ & CH & H1' & H2');
    pose proof On as (_ & Cn & Ln & _); pose proof (zlen_nonneg _ e1) as Z1;
    assert (Hh' : b_height s = depth + zlen T') by (unfold zlen in *; rewrite EL; exact Hh); pose proof (walked_here s h' P B (B1 ++ n :: B2) T' depth W1 Ow1 Bo1 Hh' Hd LW Fr) as WK;
    assert (HG' : hang h' Z' Ds G) by (apply (hang_frame _ (b_heap s)); [intros a Ha; apply Fr, SUB, Ha|exact HG]).
  all: assert (E2 : exists s c e3, e2 = (s, c) :: e3 /\ x = (c, s, bot (up n) e1) /\ Z' = kids s e3 ++ KL B2).
  all: try (destruct e2 as [|[s2 c2] e3]; cbn [kids app fst snd] in EZ; [exfalso; apply chain_all in CH; rewrite <- EZ in CH; apply Forall_cons_iff in CH; destruct CH as [CH _]; destruct IX; lia|injection EZ as -> ->; exists s2, c2, e3; auto]).
  all: destruct E2 as (s2 & c2 & e3 & -> & Ex & EZ'); rewrite En, zlen_app, zlen_cons in Ln; pose proof (zlen_nonneg _ e3) as Z3.
  all: cbn [next_up]; rewrite FP; cbn [with_heap b_heap]; rewrite FI, FL, En, zlen_app, zlen_cons.
  all: destruct (Z.ltb_spec (zlen e1 + 1) (zlen e1 + (zlen e3 + 1))) as [LT3|GE3].
  all: try (exists (with_heap s h'), (Some (adr n, zlen e1 + 1, Z.to_nat (depth - 1))); split; [reflexivity|]; split; [exact WK|]).
  1,3: destruct e3 as [|[s3 c3] e3]; [rewrite zlen_nil in LT3; lia|]; cbn [kids fst snd app] in EZ'; rewrite EZ' in HG'.
  1,2: destruct (next_down_ok Ds h' _ _ G (adr n) (ent n) (zlen e1 + 1) HG' Cn ltac:(rewrite zlen_cons in *; pose proof (zlen_nonneg _ e3); lia)) as (a' & i' & e & G' & D1 & -> & D2 & D3); [unfold klo, kad; cbn [fst snd]; rewrite En; change (e1 ++ (s2, c2) :: (s3, c3) :: e3) with (e1 ++ [(s2, c2)] ++ (s3, c3) :: e3); rewrite app_assoc; replace (zlen e1 + 1) with (zlen (e1 ++ [(s2, c2)])) by (rewrite zlen_app, zlen_cons, zlen_nil; lia); apply slot_mid|].
  1,2: cbn [found hd_error with_heap b_heap]; exists a', i'; split; [|auto]; rewrite <- D1; f_equal; unfold zlen in Hd; lia.
  all: assert (E3 : e3 = []) by (destruct e3; [reflexivity|]; rewrite zlen_cons in GE3; pose proof (zlen_nonneg _ e3); lia); rewrite E3 in EZ'; cbn [kids app] in EZ'.
  - destruct T'; [|cbn [length] in EL; lia]. destruct (single _ _ _ _ _ _ W1) as [-> ->]. cbn [KL flat_map] in EZ'. rewrite EZ' in HG'. apply hang_nil in HG'. subst G. exists (with_heap s h'), None. split; [reflexivity|]. split; [exact WK|exact I].
  - destruct T' as [|V T']; [cbn [length] in EL; lia|]. destruct (level_up _ _ _ _ _ _ _ _ W1) as (EV & N1 & N2 & E1' & E2'). rewrite EZ' in HG'.
    destruct (IH T' (P ++ [B1 ++ n :: B2]) V (with_heap s h') (depth + 1) k (map head B1) (head n) (map head B2) (B2 :: Ds) G) as (s' & r & E & WK' & FD); cbn [with_heap b_heap b_node b_height]; try assumption.
    + cbn [length] in EL. lia.
    + rewrite <- app_assoc. exact W1.
    + rewrite <- app_assoc. exact Ow1.
    + rewrite zlen_cons in Hh'. lia.
    + rewrite zlen_app, zlen_cons, zlen_nil. lia.
    + apply hang_up; assumption.
    + intros a Ha. rewrite addrs_cons in Ha. rewrite addrs_app, addrs_cons. apply in_app_or in Ha. apply in_or_app. destruct Ha as [Ha|Ha]; [right; apply in_or_app; left; rewrite map_app; apply in_or_app; right; right; exact Ha|left; apply SUB, Ha].
    + rewrite app_length. cbn [length]. lia.
    + exists s', r. split; [exact E|]. split; [|exact FD]. apply (walked_up s h' P B (B1 ++ n :: B2) V s'); assumption.
Qed.
Lemma prev_up_ok : forall N T P B s depth k A Z' Ds G, length T = N -> tower (b_heap s) (b_node s) (P ++ B :: T) -> owned (b_heap s) (P ++ B :: T) [] -> born al s -> b_height s = depth + zlen T -> depth = zlen P + 1 -> 0 <= k < 2 ^ 64 ->
  KL B = A ++ Z' -> Forall (fun x => k < klo x) A -> Forall (fun x => klo x <= k) Z' -> hang (b_heap s) A Ds G -> (forall a, In a (addrs Ds) -> In a (addrs P)) -> length Ds = length P ->
  exists s' r, prev_up K (S N) s (Val k) depth = Some (s', r) /\ walked s P B s' /\ found (prev_down K) s' r (last_of G).
Proof.
  induction N as [|N IH]; intros T P B s depth k A Z' Ds G LT W Ow Bo Hh Hd Hk EK FA FZ HG SUB LD;
    destruct (level_step P B T s depth k A Z' W Ow Bo Hh Hk EK FA FZ) as (h' & B1 & n & B2 & T' & e1 & e2 & FP & W1 & Ow1 & Bo1 & EL & Fr & LW & Hn & En & On & FI & FL & EA & EZ & CH & H1' & H2');
    pose proof On as (_ & Cn & Ln & _); pose proof (zlen_nonneg _ e1) as Z1; pose proof (zlen_nonneg _ e2) as Z2;
    assert (Hh' : b_height s = depth + zlen T') by (unfold zlen in *; rewrite EL; exact Hh); pose proof (walked_here s h' P B (B1 ++ n :: B2) T' depth W1 Ow1 Bo1 Hh' Hd LW Fr) as WK;
    assert (HG' : hang h' A Ds G) by (apply (hang_frame _ (b_heap s)); [intros a Ha; apply Fr, SUB, Ha|exact HG]).
  all: rewrite En, zlen_app in Ln; cbn [prev_up]; rewrite FP; cbn [with_heap b_heap]; rewrite FI.
  all: destruct (Z.eqb_spec (zlen e1) 0) as [E0|N0]; cbn [negb].
  all: try (exists (with_heap s h'), (Some (adr n, zlen e1 - 1, Z.to_nat (depth - 1))); split; [reflexivity|]; split; [exact WK|]).
  2,4: assert (E1 : exists e0 s1 c1, e1 = e0 ++ [(s1, c1)]) by (destruct e1 as [|[s1 c1] e0 _] using rev_ind; [rewrite zlen_nil in N0; lia|exists e0, s1, c1; reflexivity]); destruct E1 as (e0 & s1 & c1 & ->); rewrite zlen_app, zlen_cons, zlen_nil in *; pose proof (zlen_nonneg _ e0) as Z0.
  2,3: rewrite kids_app, app_assoc in EA; cbn [kids fst snd] in EA; rewrite EA in HG'; destruct (prev_down_ok Ds h' _ _ G (adr n) (ent n) (zlen e0) HG' Cn ltac:(lia)) as (a' & i' & e & G' & D1 & -> & D2 & D3); [unfold klo, kad; cbn [fst snd]; rewrite En, <- app_assoc; apply slot_mid|].
  2,3: rewrite last_of_snoc; cbn [found with_heap b_heap]; exists a', i'; split; [|auto]; rewrite <- D1; f_equal; [unfold zlen in Hd; lia|lia].
  all: assert (E1 : e1 = []) by (destruct e1; [reflexivity|]; rewrite zlen_cons in E0; pose proof (zlen_nonneg _ e1); lia); rewrite E1 in EA; cbn [kids] in EA; rewrite app_nil_r in EA.
  - destruct T'; [|cbn [length] in EL; lia]. destruct (single _ _ _ _ _ _ W1) as [-> ->]. cbn [KL flat_map] in EA. rewrite EA in HG'. apply hang_nil in HG'. subst G. exists (with_heap s h'), None. split; [reflexivity|]. split; [exact WK|exact I].
  - destruct T' as [|V T']; [cbn [length] in EL; lia|]. destruct (level_up _ _ _ _ _ _ _ _ W1) as (EV & N1 & N2 & E1' & E2'). rewrite EA in HG'.
    destruct (IH T' (P ++ [B1 ++ n :: B2]) V (with_heap s h') (depth + 1) k (map head B1) (head n :: map head B2) (B1 :: Ds) G) as (s' & r & E & WK' & FD); cbn [with_heap b_heap b_node b_height]; try assumption.
    + cbn [length] in EL. lia.
    + rewrite <- app_assoc. exact W1.
    + rewrite <- app_assoc. exact Ow1.
    + rewrite zlen_cons in Hh'. lia.
    + rewrite zlen_app, zlen_cons, zlen_nil. lia.
    + apply hang_up; assumption.
    + intros a Ha. rewrite addrs_cons in Ha. rewrite addrs_app, addrs_cons. apply in_app_or in Ha. apply in_or_app. destruct Ha as [Ha|Ha]; [right; apply in_or_app; left; rewrite map_app; apply in_or_app; left; exact Ha|left; apply SUB, Ha].
    + rewrite app_length. cbn [length]. lia.
    + exists s', r. split; [exact E|]. split; [|exact FD]. apply (walked_up s h' P B (B1 ++ n :: B2) V s'); assumption.
Qed.
Lemma walked_shape : forall s B s', walked s [] B s' -> shape s' (FE B).
Proof. intros s B s' (B' & T' & W & Ow & Bo & Hh & L & _). exists B', T'. cbn [app] in *. split; [exact W|]. split; [exact Ow|]. split; [exact Bo|]. split; [rewrite zlen_cons in Hh; lia|]. apply (lowered_FE _ _ L). Qed.
Lemma shape_range : forall s m, shape s m -> desc (2 ^ 64) m /\ Forall (fun e => 0 <= fst e < 2 ^ 64 /\ snd e <> 0) m.
Proof.
  intros s m (B & T & W & Ow & Bo & Hh & <-). pose proof (tower_desc K H _ _ _ _ W) as D. split; [exact D|]. apply desc_below in D. rewrite Forall_forall in *. intros e Ie. specialize (D e Ie). apply in_flat_map in Ie. destruct Ie as (n & In' & Ie). pose proof (proj1 W) as F. rewrite Forall_forall in F. destruct (F n In') as (_ & _ & _ & L0 & _ & _ & G & V). rewrite Forall_forall in G, V. specialize (G e Ie). specialize (V e Ie). lia.
Qed.
Lemma map_split2 : forall X Y (f : X -> Y) l A Z', A ++ Z' = map f l -> exists A1 Z1, l = A1 ++ Z1 /\ A = map f A1 /\ Z' = map f Z1.
Proof. intros X Y f l A. revert l. induction A as [|y A IH]; intros l Z' E; cbn [app] in E; [exists [], l; auto|]. destruct l as [|x l]; [discriminate|]. cbn [map] in E. injection E as -> E. destruct (IH _ _ E) as (A1 & Z1 & -> & -> & ->). exists (x :: A1), Z1. auto. Qed.
Lemma next_ok : forall s A v C k, shape s (A ++ (k, v) :: C) -> Forall (fun e => k < fst e) A -> Forall (fun e => fst e < k) C -> exists s' v' k', btree_next K s k = Some (s', (v', k')) /\ shape s' (A ++ (k, v) :: C) /\ RAt v' k' = report k (hd_error C).
Proof.
  intros s A v C k Sh FA FC. destruct (shape_range _ _ Sh) as [_ RG]. assert (Hk : 0 <= k < 2 ^ 64) by (rewrite Forall_forall in RG; apply (RG (k, v)), in_or_app; right; left; reflexivity). destruct Sh as (B & T & W & Ow & Bo & Hh & Em). pose proof (zlen_nonneg _ T). unfold btree_next. destruct (Z.eqb_spec (b_height s) 0) as [Q|_]; [lia|]. destruct (Z.eqb_spec k 0) as [K0|N0].
  - assert (C = []). { destruct C as [|e C]; [reflexivity|]. apply Forall_cons_iff in FC. apply Forall_app in RG. destruct RG as [_ RG]. apply Forall_cons_iff in RG. destruct RG as [_ RG]. apply Forall_cons_iff in RG. lia. } subst C. exists s, NULL, k. split; [reflexivity|]. split; [exists B, T; auto|reflexivity].
  - pose proof Em as Em'. rewrite FE_KL in Em'. symmetry in Em'. destruct (map_split _ _ _ _ _ _ _ Em') as (A1 & x & Z1 & EK & EA & Ex & EZ). injection Ex as Ek Ev. pose proof (chain_KL K _ _ _ (proj1 W) (tower_chain _ _ _ _ _ _ W)) as CK. rewrite EK in CK. destruct (chain_mid _ _ _ _ CK) as (CX & _).
    replace (Z.to_nat (b_height s)) with (S (length T)) by (unfold zlen in *; lia).
    destruct (next_up_ok (length T) T [] B s 1 k A1 x Z1 [] C) as (s' & r & E & WK & FD); try assumption; try reflexivity.
    + rewrite EA in FA. rewrite Forall_map in FA. exact FA.
    + constructor; [lia|]. rewrite EZ in FC. rewrite Forall_map in FC. eapply Forall_impl; [|exact FC]. cbn [fst]. intros; lia.
    + split; lia.
    + symmetry. exact EZ.
    + intros a [].
    + rewrite E. apply walked_shape in WK. rewrite Em in WK. destruct r as [[[node index] below']|], C as [|e C]; cbn [found hd_error] in FD; try contradiction.
      * destruct FD as (a & i & D1 & D2 & D3). rewrite D1, D2, D3. exists s', (snd e), (fst e). split; [reflexivity|]. split; [exact WK|]. destruct e; reflexivity.
      * exists s', NULL, k. split; [reflexivity|]. split; [exact WK|reflexivity].
Qed.
Lemma prev_ok : forall s A R k, shape s (A ++ R) -> 0 <= k < 2 ^ 64 -> k <> 0 -> Forall (fun e => k < fst e) A -> Forall (fun e => fst e <= k) R -> exists s' v' k', btree_prev K s k = Some (s', (v', k')) /\ shape s' (A ++ R) /\ RAt v' k' = report k (last_of A).
Proof.
  intros s A R k (B & T & W & Ow & Bo & Hh & Em) Hk N0 FA FR. pose proof (zlen_nonneg _ T). unfold btree_prev. destruct (Z.eqb_spec (b_height s) 0) as [Q|_]; [lia|]. destruct (Z.eqb_spec k 0) as [K0|_]; [contradiction|].
  pose proof Em as Em'. rewrite FE_KL in Em'. symmetry in Em'. destruct (map_split2 _ _ _ _ _ _ Em') as (A1 & Z1 & EK & EA & EZ). replace (Z.to_nat (b_height s)) with (S (length T)) by (unfold zlen in *; lia).
  destruct (prev_up_ok (length T) T [] B s 1 k A1 Z1 [] A) as (s' & r & E & WK & FD); try assumption; try reflexivity.
  - rewrite EA in FA. rewrite Forall_map in FA. exact FA.
  - rewrite EZ in FR. rewrite Forall_map in FR. exact FR.
  - symmetry. exact EA.
  - intros a [].
  - rewrite E. apply walked_shape in WK. rewrite Em in WK. destruct r as [[[node index] below']|], (last_of A) as [e|]; cbn [found] in FD; try contradiction.
    + destruct FD as (a & i & D1 & D2 & D3). rewrite D1, D2, D3. exists s', (snd e), (fst e). split; [reflexivity|]. split; [exact WK|]. destruct e; reflexivity.
    + exists s', NULL, k. split; [reflexivity|]. split; [exact WK|reflexivity].
Qed.
(** an emptied tree is one empty node *)
Lemma shape_empty : forall s, shape s [] -> exists n, 0 < b_node s /\ b_height s = 1 /\ adr n = b_node s /\ tower (b_heap s) (b_node s) [[n]] /\ ent n = [] /\ (forall a, b_heap s a <> None <-> a = b_node s) /\ born al s.
Proof.
  intros s (B & T & W & (O1 & O2 & O3) & Bo & Hh & Em). pose proof (root_pos _ _ _ W) as RP. destruct T as [|U T].
  - pose proof W as [_ (n & -> & En & _)]. exists n. cbn [FE flat_map] in Em. rewrite app_nil_r in Em. split; [exact RP|]. split; [rewrite zlen_nil in Hh; lia|]. split; [exact En|]. split; [exact W|]. split; [exact Em|]. split; [|exact Bo]. intros a. rewrite O3. cbn [addrs concat map app In]. rewrite En. split; [intros [[->|[]]|[]]; reflexivity|intros ->; auto].
  - exfalso. destruct W as (_ & W1 & _ & W3 & _). destruct B as [|n B]; [cbn in W3; lia|]. apply Forall_cons_iff in W1. destruct W1 as [W1 _]. cbn [FE flat_map] in Em. destruct (ent n); [congruence|discriminate].
Qed.
Lemma next_empty : forall s k, shape s [] -> 0 <= k < 2 ^ 64 -> exists s' v' k', btree_next K s k = Some (s', (v', k')) /\ shape s' [].
Proof.
  intros s k Sh Hk. destruct (shape_empty s Sh) as (n & RP & Hh & _). unfold btree_next. rewrite Hh. cbn [Z.eqb]. destruct (Z.eqb_spec k 0) as [K0|N0]; [exists s, NULL, k; auto|].
  destruct (leaf_start K H KH HK al s _ k Sh Hk) as (h1 & B1 & n1 & B2 & T & e1 & e2 & FP & W1 & Ow1 & Bo1 & Hh1 & Sh1 & Em & En & Hp & A1 & A2 & G1 & G2 & Op & FI & FL).
  change (Z.to_nat 1) with 1%nat. cbn [next_up]. rewrite FP. cbn [with_heap b_heap]. rewrite FI, FL, En. symmetry in Em. apply app_eq_nil in Em. destruct Em as [_ Em]. apply app_eq_nil in Em. destruct Em as [Em _]. rewrite Em. apply app_eq_nil in Em. destruct Em as [-> _]. cbn. exists (with_heap s h1), NULL, k. auto.
Qed.
Lemma release_loop : forall remove m n s key value tkey tval, shape s m -> (length m <= n)%nat -> (forall e, In e m -> verdict remove (snd e) = NULL) ->
  match m with [] => value = NULL | e :: m' => key = fst e /\ value = snd e /\ RAt tval tkey = report key (hd_error m') end ->
  exists s', release_from K remove n s key value tkey tval = Some (s', map snd m) /\ shape s' [].
Proof.
  intros remove. induction m as [|[k v] m IH]; intros n s key value tkey tval Sh LN VE Q.
  - subst value. exists s. destruct n; (split; [reflexivity|exact Sh]).
  - cbn [fst snd] in Q. destruct Q as (-> & -> & QT). destruct (shape_range _ _ Sh) as [D RG]. pose proof (proj2 D) as D2. cbn [fst] in D2. apply desc_below in D2. apply Forall_cons_iff in RG. destruct RG as [[Rk Rv] RG]. cbn [fst snd] in *. destruct n as [|n]; cbn [length] in LN; [lia|]. cbn [release_from]. destruct (Z.eqb_spec v NULL) as [Q|_]; [unfold NULL in Q; lia|].
    destruct (remove_present remove s [] v m k Sh Rk ltac:(constructor) D2) as (s1 & E1 & Sh1). rewrite E1. pose proof (VE (k, v) (or_introl eq_refl)) as V0. cbn [snd] in V0. rewrite V0 in Sh1. cbn [app] in Sh1. change (NULL =? NULL) with true in Sh1. cbn iota in Sh1.
    assert (VE' : forall e, In e m -> verdict remove (snd e) = NULL) by (intros e I; apply VE; right; exact I). destruct m as [|[k1 v1] m].
    + cbn [hd_error report] in QT. injection QT as -> ->. destruct (next_empty s1 k Sh1 Rk) as (s2 & v2 & k2 & E2 & Sh2). rewrite E2. destruct (IH n s2 k NULL k2 v2 Sh2 ltac:(cbn; lia) VE' eq_refl) as (s3 & E3 & Sh3). rewrite E3. exists s3. split; [reflexivity|exact Sh3].
    + cbn [hd_error report] in QT. injection QT as -> ->. destruct (shape_range _ _ Sh1) as [D1 _]. pose proof (proj2 D1) as D3. cbn [fst] in D3. apply desc_below in D3. destruct (next_ok s1 [] v1 m k1 Sh1 ltac:(constructor) D3) as (s2 & v2 & k2 & E2 & Sh2 & R2). rewrite E2. destruct (IH n s2 k1 v1 k2 v2 Sh2 ltac:(lia) VE' (conj eq_refl (conj eq_refl R2))) as (s3 & E3 & Sh3). rewrite E3. exists s3. split; [reflexivity|exact Sh3].
Qed.
Definition bare (s : root) : Prop := b_height s = 0 /\ b_node s = 0 /\ (forall a, b_heap s a = None) /\ born al s.
Lemma release_ok : forall remove m n s, shape s m -> (length m <= n)%nat -> (forall e, In e m -> verdict remove (snd e) = NULL) -> exists s', btree_release K remove n s = Some (s', map snd m) /\ bare s'.
Proof.
  intros remove m n s Sh LN VE. unfold btree_release. destruct (first_ok s m 0 Sh) as (v & k & E & Q). rewrite E.
  assert (L : exists s1, (if v =? NULL then Some (s, []) else let* (s, (tval, tkey)) := btree_next K s k in release_from K remove n s k v tkey tval) = Some (s1, map snd m) /\ shape s1 []).
  { destruct m as [|[k1 v1] m].
    - destruct Q as [-> ->]. exists s. auto.
    - cbn [fst snd] in Q. destruct Q as [-> ->]. destruct (shape_range _ _ Sh) as [D RG]. pose proof (proj2 D) as D3. cbn [fst] in D3. apply desc_below in D3. apply Forall_cons_iff in RG. destruct RG as [[_ Rv] _]. cbn [snd] in Rv. destruct (Z.eqb_spec v1 NULL) as [C|_]; [unfold NULL in C; lia|].
      destruct (next_ok s [] v1 m k1 Sh ltac:(constructor) D3) as (s2 & v2 & k2 & E2 & Sh2 & R2). rewrite E2. apply (release_loop remove ((k1, v1) :: m)); [exact Sh2|exact LN|exact VE|]. cbn [fst snd]. auto. }
  destruct L as (s1 & E1 & Sh1). rewrite E1. destruct (shape_empty s1 Sh1) as (n1 & RP & Hh & En & W & _ & DOM & Bo). unfold node_free. destruct (Z.eqb_spec (b_node s1) NULL) as [C|_]; [unfold NULL in C; lia|]. destruct (b_heap s1 (b_node s1)) as [b|] eqn:Eb; [|exfalso; apply (proj2 (DOM (b_node s1)) eq_refl), Eb].
  eexists. split; [reflexivity|]. unfold bare. cbn [with_heap b_heap b_node b_height]. split; [reflexivity|]. split; [reflexivity|]. assert (ND : forall a, hset (b_heap s1) (b_node s1) None a = None). { intros a. destruct (Z.eq_dec a (b_node s1)) as [->|N]; [apply hset_same|]. rewrite hset_other by exact N. destruct (b_heap s1 a) eqn:Ea; [|reflexivity]. exfalso. apply N, DOM. congruence. }
  split; [exact ND|]. intros a Ha. cbn [b_heap] in Ha. rewrite ND in Ha. congruence.
Qed.
End Iter.
