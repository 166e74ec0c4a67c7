(** * Index list: adding, deleting, histories *)
From Verif Require Import Lib Ptr ListModel ListSpec ListProofs ListProofs2 IlistModel IlistSpec IlistProofs.

(** ** Facts about stable sorts *)
Lemma filter_sorted A (R : A -> A -> Prop) f l : StronglySorted R l -> StronglySorted R (filter f l).
Proof.
  induction l as [|a l IH]; intros H; [constructor|]. apply StronglySorted_inv in H. destruct H as [H1 H2]. cbn [filter]. destruct (f a); [|auto].
  constructor; [auto|]. rewrite Forall_forall in *. intros y Hy. apply filter_In in Hy. apply H2, Hy.
Qed.
Lemma filter_perm A (f : A -> bool) l l' : Permutation l l' -> Permutation (filter f l) (filter f l').
Proof.
  induction 1; cbn [filter]; [constructor| | |eapply Permutation_trans; eassumption].
  - destruct (f x); auto.
  - destruct (f x), (f y); try apply Permutation_refl. apply perm_swap.
Qed.
Lemma filter_comm A (f g : A -> bool) l : filter f (filter g l) = filter g (filter f l).
Proof. induction l as [|a l IH]; [reflexivity|]. cbn [filter]. destruct (g a) eqn:Eg, (f a) eqn:Ef; cbn [filter]; rewrite ?Eg, ?Ef, IH; reflexivity. Qed.
Lemma stable_filter (cmp : Z -> Z -> Z) f s l : stable_sort cmp s l -> stable_sort cmp (filter f s) (filter f l).
Proof.
  intros (A & P & O). split; [apply filter_sorted, A|]. split; [apply filter_perm, P|]. intros k. rewrite filter_comm, (filter_comm _ _ _ l). f_equal. apply O.
Qed.
Lemma filter_none A (f : A -> bool) l : (forall x, In x l -> f x = false) -> filter f l = [].
Proof. induction l as [|a l IH]; intros H; [reflexivity|]. cbn [filter]. rewrite H by (cbn; auto). apply IH. intros; apply H; cbn; auto. Qed.
Lemma filter_all A (f : A -> bool) l : (forall x, In x l -> f x = true) -> filter f l = l.
Proof. induction l as [|a l IH]; intros H; [reflexivity|]. cbn [filter]. rewrite H by (cbn; auto). f_equal. apply IH. intros; apply H; cbn; auto. Qed.
Lemma remove_mid (x : Z) A B : ~ In x (A ++ B) -> filter (fun y => negb (y =? x)) (A ++ x :: B) = A ++ B.
Proof.
  intros H. rewrite filter_app. cbn [filter]. rewrite Z.eqb_refl. cbn [negb]. f_equal; apply filter_all; intros y Hy; apply negb_true_iff, Z.eqb_neq; intros ->; apply H, in_or_app; auto.
Qed.
Lemma stable_insert (cmp : Z -> Z -> Z) s A B n : preorder cmp -> stable_sort cmp s (A ++ B) -> Forall (fun a => cmp a n <= 0) A -> Forall (fun b => cmp n b < 0) B ->
  stable_sort cmp (s ++ [n]) (A ++ n :: B).
Proof.
  intros PO (As & P & O) FA FB. rewrite Forall_forall in FA, FB. unfold ascending in As. apply sorted_app in As. destruct As as (S1 & S2 & S3). split; [|split].
  - apply sorted_app. split; [exact S1|]. split; [constructor; [exact S2|apply Forall_forall; intros y Hy; specialize (FB y Hy); lia]|].
    intros x y Hx [<-|Hy]; auto.
  - apply Permutation_trans with (n :: s); [apply Permutation_sym, Permutation_cons_append|]. apply Permutation_trans with (n :: A ++ B); [constructor; exact P|apply Permutation_middle].
  - intros k. rewrite !filter_app, O. cbn [filter]. rewrite filter_app, <- app_assoc. f_equal. destruct (Z.eqb_spec (cmp k n) 0) as [E|E].
    + rewrite (filter_none _ _ B); [reflexivity|]. intros b Hb. apply Z.eqb_neq. specialize (FB b Hb). pose proof (cmp_eq_l _ PO k n b E). lia.
    + rewrite app_nil_r. reflexivity.
Qed.

Section Cmp.
Variable cmp : Z -> Z -> Z.
Hypothesis PO : preorder cmp.
Variables (h : Z) (U : list Z).
Hypothesis AP : apart h U.

Lemma fst_last (G : list (Z * list Z)) d : G <> [] -> exists G1 p l, G = G1 ++ [(p, l)] /\ last (leads G) d = p.
Proof.
  intros H. destruct (snoc_cases _ G) as [->|(G1 & [p l] & ->)]; [contradiction|]. exists G1, p, l. split; [reflexivity|]. rewrite leads_app. apply last_snoc.
Qed.
Lemma le_nodes n (G : list (Z * list Z)) : Forall (fun g => Forall (fun y => cmp (fst g) y = 0) (snd g)) G -> Forall (fun g => 0 <= cmp n (fst g)) G -> Forall (fun a => cmp a n <= 0) (nodes G).
Proof.
  induction G as [|[a l] G IH]; intros H1 H2; [constructor|]. inversion_clear H1. inversion_clear H2. cbn [nodes flat_map fst snd] in *. apply Forall_app. split; [|apply IH; assumption].
  assert (cmp a n <= 0) by (apply (cmp_sym _ PO); assumption). constructor; [assumption|]. apply Forall_forall. intros y Hy. rewrite Forall_forall in H. pose proof (cmp_eq_l _ PO a y n (H y Hy)). lia.
Qed.
Lemma gt_nodes n (G : list (Z * list Z)) : Forall (fun g => Forall (fun y => cmp (fst g) y = 0) (snd g)) G -> Forall (fun g => cmp n (fst g) < 0) G -> Forall (fun b => cmp n b < 0) (nodes G).
Proof.
  induction G as [|[a l] G IH]; intros H1 H2; [constructor|]. inversion_clear H1. inversion_clear H2. cbn [nodes flat_map fst snd] in *. apply Forall_app. split; [|apply IH; assumption].
  constructor; [assumption|]. apply Forall_forall. intros y Hy. rewrite Forall_forall in H. pose proof (cmp_eq_r _ PO a y n (H y Hy)). lia.
Qed.
Lemma grouped_insert_lead G1 G2 n : grouped cmp (G1 ++ G2) -> Forall (fun g => cmp (fst g) n < 0) G1 -> Forall (fun g => cmp n (fst g) < 0) G2 -> grouped cmp (G1 ++ (n, []) :: G2).
Proof.
  intros [S F] F1 F2. rewrite Forall_forall in F1, F2. apply sorted_app in S. destruct S as (S1 & S2 & S3). apply Forall_app in F. destruct F as [FA FB]. split.
  - apply sorted_app. split; [exact S1|]. split; [constructor; [exact S2|apply Forall_forall; exact F2]|]. intros x y Hx [<-|Hy]; cbn [fst]; auto.
  - apply Forall_app. split; [exact FA|]. constructor; [constructor|exact FB].
Qed.
Lemma grouped_insert_follow G1 p l G2 n : grouped cmp (G1 ++ (p, l) :: G2) -> cmp p n = 0 -> grouped cmp (G1 ++ (p, l ++ [n]) :: G2).
Proof.
  intros [S F] E. apply sorted_app in S. destruct S as (S1 & S2 & S3). apply Forall_app in F. destruct F as [FA FB]. inversion_clear FB. apply StronglySorted_inv in S2. destruct S2 as [S2 F2]. split.
  - apply sorted_app. split; [exact S1|]. split; [constructor; [exact S2|exact F2]|]. intros x y Hx [<-|Hy]; [apply (S3 x (p, l)); cbn; auto|apply S3; cbn; auto].
  - apply Forall_app. split; [exact FA|]. constructor; [|assumption]. cbn [fst snd] in *. apply Forall_app. auto.
Qed.
Lemma add_ok m G n fuel : grouped cmp G -> il m h U G -> In n U -> ~ In n (nodes G) -> (length U < fuel)%nat ->
  exists m' G' A B, ilist_add cmp fuel m h n = Some m' /\ il m' h U G' /\ grouped cmp G' /\ nodes G = A ++ B /\ nodes G' = A ++ n :: B /\
    Forall (fun a => cmp a n <= 0) A /\ Forall (fun b => cmp n b < 0) B.
Proof.
  intros HG H Hn Ni Hf. pose proof (members _ _ _ _ H) as [I1 I2]. pose proof H as (R & _ & IR & RI & RN).
  assert (Nl : ~ In n (leads G)) by (intros C; apply Ni, leads_nodes, C).
  unfold ilist_add. rewrite (check_empty_ok _ _ _ (RN n Hn Ni)), (check_empty_ok _ _ _ (RI n Hn Nl)). cbn [negb orb].
  unfold ilist_head_empty. rewrite (check_empty_ok _ _ _ R).
  destruct G as [|g0 G0] eqn:EG.
  - cbn [nodes flat_map] in *. destruct (add_node h U AP m [] n [] [] R eq_refl I1 Hn Ni (ring_node _ _ _ (RN n Hn Ni))) as (m' & E & R' & F). cbn [hd app] in *.
    exists m', [(n, [])], [], []. split; [exact E|]. split; [|split; [|cbn; auto]].
    + unfold il. cbn [nodes leads flat_map map fst snd app iring]. split; [exact R'|]. split; [intros y [<-|[]]; exact Hn|].
      assert (Q : forall x, In x U -> ring m' (IDX x) []).
      { intros x Hx. apply (ring_other m m' _ _ _ F); [|apply RI; auto]. intros y [<-|[]]. apply (out_idx h U AP); [intros z [<-|[<-|[]]]; cbn; auto|exact Hx]. }
      split; [apply Q, Hn|]. split; [intros x Hx _; apply Q, Hx|]. intros x Hx Nx. apply (ring_other m m' _ _ _ F); [|apply RN; auto].
      intros y [<-|[]] [C|[C|[]]]; [apply Nx; cbn; auto|]. destruct AP as (_ & Hh & _). congruence.
    + split; [repeat constructor|]. repeat constructor.
  - destruct (nodes (g0 :: G0)) as [|a0 r0] eqn:EN; [destruct g0; discriminate|]. cbv iota. rewrite <- EN in *. clear a0 r0 EN. rewrite <- EG in *. assert (Ne : G <> []) by (rewrite EG; discriminate). clear EG g0 G0.
    unfold ilist_first, ld. rewrite (ring_next _ _ _ R). rewrite hd_nodes.
    pose proof HG as [HS HF]. destruct (split_groups cmp PO n G HS) as (G1 & G2 & -> & F1 & F2).
    assert (Hh : hd h (leads (G1 ++ G2)) = hd 0 (leads (G1 ++ G2))) by (destruct (G1 ++ G2); [contradiction|reflexivity]). rewrite Hh.
    pose proof HF as HF'. apply Forall_app in HF'. destruct HF' as [HF1 HF2].
    assert (Len : (length (leads G1) < fuel)%nat).
    { apply Nat.le_lt_trans with (length U); [|exact Hf]. apply NoDup_incl_length; [rewrite leads_app in IR; apply (nodup_l _ (leads G2)), (iring_nodup _ _ IR)|].
      intros y Hy. apply I2. rewrite leads_app. apply in_or_app; auto. }
    assert (L : ilist_find cmp fuel m h n (hd 0 (leads (G1 ++ G2))) (hd 0 (leads (G1 ++ G2))) NULL = Some (hd h (leads G2), last (leads G1) NULL, hd (hd 0 (leads (G1 ++ G2))) (leads G2))).
    { rewrite (leads_app G1 G2) at 2. apply (find_ok cmp m h n _ IR (leads G1) [] (leads G2)); auto.
      - cbn. apply leads_app.
      - rewrite <- leads_app. destruct (G1 ++ G2); [contradiction|discriminate].
      - unfold leads. apply Forall_map. exact F1.
      - destruct F2; [exact I|]. cbn. assumption. }
    rewrite L. clear L.
    assert (Split : nodes (G1 ++ G2) = nodes G1 ++ nodes G2 /\ Forall (fun a => cmp a n <= 0) (nodes G1) /\ Forall (fun b => cmp n b < 0) (nodes G2)).
    { split; [apply nodes_app|]. split; [apply le_nodes; assumption|apply gt_nodes; assumption]. }
    destruct Split as (SP1 & SP2 & SP3).
    destruct ((last (leads G1) NULL =? NULL) || negb (cmp (last (leads G1) NULL) n =? 0)) eqn:EB.
    + destruct (il_insert_lead h U AP m G1 G2 n H Ne Hn Ni) as (m1 & m' & E1 & E2 & H'). rewrite E1, E2.
      exists m', (G1 ++ (n, []) :: G2), (nodes G1), (nodes G2). split; [reflexivity|]. split; [exact H'|]. split; [|split; [exact SP1|split; [rewrite nodes_app; reflexivity|auto]]].
      apply grouped_insert_lead; [exact HG| |exact F2]. destruct G1 as [|g1 G1'] eqn:EG1; [constructor|]. rewrite <- EG1 in *. assert (Ne1 : G1 <> []) by (rewrite EG1; discriminate). clear EG1.
      destruct (fst_last G1 NULL Ne1) as (G1a & p & l & E & Ep). rewrite Ep in EB.
      assert (Np : p <> NULL). { intros ->. destruct AP as (_ & _ & Nz & _). apply Nz, I2. rewrite leads_app, E, leads_app. apply in_or_app. left. apply in_or_app. right. cbn; auto. }
      rewrite (proj2 (Z.eqb_neq _ _) Np) in EB. cbn [orb] in EB. apply negb_true_iff, Z.eqb_neq in EB.
      assert (Hp : cmp p n < 0). { rewrite E in F1. apply Forall_app in F1. destruct F1 as [_ F1]. inversion_clear F1. cbn [fst] in *. apply (cmp_sym _ PO) in H0. lia. }
      rewrite E. apply Forall_app. split; [|constructor; [exact Hp|constructor]]. apply sorted_app in HS. destruct HS as (HS & _ & _). rewrite E in HS. apply sorted_app in HS. destruct HS as (_ & _ & HS).
      apply Forall_forall. intros g Hg. specialize (HS g (p, l) Hg ltac:(cbn; auto)). cbn [fst] in HS.
      pose proof (cmp_trans _ PO (fst g) p n). pose proof (cmp_trans _ PO n (fst g) p). pose proof (cmp_sym _ PO n (fst g)). pose proof (cmp_sym _ PO p n). pose proof (cmp_sym _ PO n p). pose proof (cmp_sym _ PO (fst g) n). lia.
    + apply orb_false_iff in EB. destruct EB as [EB1 EB2]. apply negb_false_iff, Z.eqb_eq in EB2.
      assert (Ne1 : G1 <> []) by (intros ->; discriminate EB1). destruct (fst_last G1 NULL Ne1) as (G1a & p & l & E & Ep). rewrite Ep in EB2. subst G1.
      assert (EA : forall X : list (Z * list Z), (G1a ++ [(p, l)]) ++ X = G1a ++ (p, l) :: X) by (intros; rewrite <- app_assoc; reflexivity).
      rewrite EA in *. destruct (il_insert_follow h U AP m G1a p l G2 n H Hn Ni) as (m' & E' & H'). rewrite E'.
      exists m', (G1a ++ (p, l ++ [n]) :: G2), (nodes (G1a ++ [(p, l)])), (nodes G2). split; [reflexivity|]. split; [exact H'|]. split; [apply grouped_insert_follow; assumption|].
      split; [exact SP1|]. split; [|auto]. rewrite !nodes_app. cbn [nodes flat_map fst snd]. rewrite app_nil_r. cbn. rewrite <- !app_assoc. cbn. rewrite <- ?app_assoc. reflexivity.
Qed.

(** ** Deletion *)
Lemma self_del m x : ring m x [] -> exists m', list_del_init m x = Some m' /\ ring m' x [] /\ frame [x] m m'.
Proof.
  intros H. pose proof H as [_ [H1 H2]]. unfold list_del_init, list_deluf, ld. rewrite H2, H1. rewrite st_ex by eauto. rewrite upd_same. rewrite upd_other by (right; discriminate). rewrite H2.
  rewrite st_ex by (apply upd_ex; eauto). destruct (init_ring (upd (upd m x NEXT x) x PREV x) x) as (m' & E & R & F).
  { split; do 2 apply upd_ex; eauto. }
  exists m'. split; [exact E|]. split; [exact R|]. intros q g Hq. rewrite (F q g Hq). rewrite !upd_other; [reflexivity| |]; cbn in Hq; destruct Hq as [Hq|Hq]; try (left; intros ->; apply Hq; cbn; auto; fail); right; tauto.
Qed.
Lemma del_absent m G x : il m h U G -> In x U -> ~ In x (nodes G) -> exists m', ilist_del m h x = Some m' /\ il m' h U G.
Proof.
  intros H Hx Nx. pose proof (members _ _ _ _ H) as [I1 I2]. destruct H as (R & I & IR & RI & RN).
  assert (Nl : ~ In x (leads G)) by (intros C; apply Nx, leads_nodes, C).
  unfold ilist_del, ilist_node_empty. rewrite (check_empty_ok _ _ _ (RI x Hx Nl)). cbn [negb].
  destruct (self_del m x (RN x Hx Nx)) as (m' & E & R' & F). exists m'. split; [exact E|]. assert (IS : incl [x] (h :: U)) by (intros y [<-|[]]; cbn; auto).
  split; [|split; [exact I|split; [|split]]].
  - apply (ring_other m m' _ _ _ F); [|exact R]. intros y [<-|Hy] [C|[]]; [|subst y; contradiction]. destruct AP as (_ & Hh & _). congruence.
  - apply (iring_other h U AP m m' _ _ F IS I2 IR).
  - intros y Hy Ny. apply (ring_other m m' _ _ _ F); [|apply RI; assumption]. intros z [<-|[]]. apply (out_idx h U AP); assumption.
  - intros y Hy Ny. destruct (Z.eq_dec y x) as [->|D]; [exact R'|]. apply (ring_other m m' _ _ _ F); [|apply RN; assumption]. intros z [<-|[]] [C|[]]. congruence.
Qed.
(** The node leaves the node list; the index is already what it should be in [m1]. *)
Lemma del_node m1 G G' x : ring m1 h (nodes G) -> incl (nodes G) U -> In x (nodes G) -> nodes G' = filter (fun y => negb (y =? x)) (nodes G) ->
  iring m1 (leads G') -> (forall y, In y U -> ~ In y (leads G') -> ring m1 (IDX y) []) -> (forall y, In y U -> ~ In y (nodes G) -> ring m1 y []) ->
  exists m', list_del_init m1 x = Some m' /\ il m' h U G'.
Proof.
  intros R I Hx E IR RI RN. apply in_split in Hx. destruct Hx as (A & B & EN). rewrite EN in *.
  assert (Nx : ~ In x (A ++ B)) by (intros C; apply (ring_notin _ _ _ _ _ R); cbn; auto). rewrite (remove_mid x A B Nx) in E.
  destruct (del_init_at _ _ _ _ _ R) as (m' & E' & R' & R2 & F). exists m'. split; [exact E'|].
  assert (IS : incl (h :: A ++ x :: B) (h :: U)) by (intros y [<-|Hy]; cbn; auto).
  assert (IN : incl (nodes G') U) by (rewrite E; intros y Hy; apply I; rewrite in_app_iff in *; cbn; tauto).
  split; [rewrite E; exact R'|]. split; [exact IN|]. split; [|split].
  - apply (iring_other h U AP m1 m' _ _ F IS); [|exact IR]. intros y Hy. apply IN, leads_nodes, Hy.
  - intros y Hy Ny. apply (ring_other m1 m' _ _ _ F); [|apply RI; assumption]. intros z [<-|[]]. apply (out_idx h U AP); assumption.
  - intros y Hy Ny. destruct (Z.eq_dec y x) as [->|D]; [exact R2|]. rewrite E in Ny. assert (Ny' : ~ In y (A ++ x :: B)) by (rewrite in_app_iff in *; cbn; intuition congruence).
    apply (ring_other m1 m' _ _ _ F); [|apply RN; assumption]. intros z [<-|[]] [C|C]; [|contradiction]. destruct AP as (_ & Hh & _). congruence.
Qed.
Lemma grouped_mid G1 a l l' G2 : grouped cmp (G1 ++ (a, l) :: G2) -> incl l' l -> grouped cmp (G1 ++ (a, l') :: G2).
Proof.
  intros [S F] I. apply sorted_app in S. destruct S as (S1 & S2 & S3). apply Forall_app in F. destruct F as [FA FB]. inversion_clear FB. apply StronglySorted_inv in S2. destruct S2 as [S2 F2]. split.
  - apply sorted_app. split; [exact S1|]. split; [constructor; [exact S2|exact F2]|]. intros x y Hx [<-|Hy]; [apply (S3 x (a, l)); cbn; auto|apply S3; cbn; auto].
  - apply Forall_app. split; [exact FA|]. constructor; [|assumption]. cbn [fst snd] in *. rewrite Forall_forall in *. auto.
Qed.
Lemma grouped_drop G1 g G2 : grouped cmp (G1 ++ g :: G2) -> grouped cmp (G1 ++ G2).
Proof.
  intros [S F]. apply sorted_app in S. destruct S as (S1 & S2 & S3). apply Forall_app in F. destruct F as [FA FB]. inversion_clear FB. apply StronglySorted_inv in S2. destruct S2 as [S2 F2]. split.
  - apply sorted_app. split; [exact S1|]. split; [exact S2|]. intros x y Hx Hy. apply S3; cbn; auto.
  - apply Forall_app. auto.
Qed.
Lemma del_ok m G x : grouped cmp G -> il m h U G -> In x (nodes G) -> ~ oldest_of_many cmp (nodes G) x ->
  exists m' G', ilist_del m h x = Some m' /\ il m' h U G' /\ grouped cmp G' /\ nodes G' = filter (fun y => negb (y =? x)) (nodes G).
Proof.
  intros HG H Hx NB. pose proof (members _ _ _ _ H) as [I1 I2]. pose proof H as (R & I & IR & RI & RN). pose proof R as [Hd _]. apply NoDup_cons_iff in Hd. destruct Hd as [_ Hd].
  pose proof Hx as Hg. apply in_flat_map in Hg. destruct Hg as ([a l] & Hg & Hxg). apply in_split in Hg. destruct Hg as (G1 & G2 & ->). cbn [fst snd] in Hxg.
  assert (EN : nodes (G1 ++ (a, l) :: G2) = nodes G1 ++ (a :: l) ++ nodes G2) by (rewrite nodes_app; reflexivity).
  assert (EL : leads (G1 ++ (a, l) :: G2) = leads G1 ++ a :: leads G2) by (rewrite leads_app; reflexivity).
  unfold ilist_del, ilist_node_empty. destruct Hxg as [->|Hxl].
  - (* the leader *)
    destruct (leads G1 ++ leads G2) as [|b0 r0] eqn:E12.
    + (* the only group *)
      apply app_eq_nil in E12. destruct E12 as [EG1 EG2]. apply map_eq_nil in EG1, EG2. subst G1 G2. cbn [app] in *. cbn [leads map fst iring] in IR. rewrite (check_empty_ok _ _ _ IR). cbn [negb].
      assert (EN' : nodes [(x, l)] = [] ++ x :: l) by (cbn; rewrite app_nil_r; reflexivity).
      assert (Nxl : ~ In x ([] ++ l)) by (rewrite EN' in Hd; apply NoDup_remove_2 in Hd; exact Hd).
      destruct l as [|y l].
      * destruct (del_node m [(x, [])] [] x R I Hx) as (m' & E' & H'); [rewrite EN', remove_mid by exact Nxl; reflexivity|exact Logic.I| |exact RN|].
        { intros y Hy _. destruct (Z.eq_dec y x) as [->|D]; [exact IR|]. apply RI; [exact Hy|]. intros [C|[]]. cbn in C. congruence. }
        exists m', []. split; [exact E'|]. split; [exact H'|]. split; [split; constructor|]. rewrite EN', remove_mid by exact Nxl. reflexivity.
      * assert (Nyx : y <> x) by (intros ->; apply Nxl; cbn; auto).
        destruct (del_node m [(x, y :: l)] [(y, l)] x R I Hx) as (m' & E' & H').
        { rewrite EN', remove_mid by exact Nxl. cbn. rewrite app_nil_r. reflexivity. }
        { cbn [leads map fst iring]. apply RI; [apply I; cbn; auto|]. intros [C|[]]. cbn in C. congruence. }
        { intros z Hz Nz. destruct (Z.eq_dec z x) as [->|D]; [exact IR|]. apply RI; [exact Hz|]. intros [C|[]]. cbn in C. congruence. }
        { exact RN. }
        exists m', [(y, l)]. split; [exact E'|]. split; [exact H'|]. split.
        { split; [repeat constructor|]. constructor; [|constructor]. cbn [fst snd]. destruct HG as [_ HF]. inversion_clear HF. cbn [fst snd] in *. inversion_clear H0. rewrite Forall_forall in *. intros z Hz.
          pose proof (cmp_eq_l _ PO x y z H2). specialize (H3 z Hz). lia. }
        rewrite EN', remove_mid by exact Nxl. cbn. rewrite app_nil_r. reflexivity.
    + assert (NE : leads G1 ++ leads G2 <> []) by (rewrite E12; discriminate). clear E12 b0 r0.
      assert (l = []) as ->.
      { destruct l as [|y l]; [reflexivity|]. exfalso. apply NB. pose proof HG as [HS HF]. apply sorted_app in HS. destruct HS as (_ & HS2 & HS3). apply StronglySorted_inv in HS2. destruct HS2 as [_ HS2]. apply Forall_app in HF. destruct HF as [HF1 HF2]. inversion_clear HF2. rename H0 into HFx. rename H1 into HF2.
        assert (LT : Forall (fun b => cmp b x < 0) (nodes G1)).
        { apply Forall_forall. intros b Hb. apply in_flat_map in Hb. destruct Hb as ([c lc] & Hc & Hb). specialize (HS3 (c, lc) (x, y :: l) Hc ltac:(cbn; auto)). cbn [fst snd] in *. destruct Hb as [<-|Hb]; [exact HS3|].
          rewrite Forall_forall in HF1. specialize (HF1 _ Hc). cbn [fst snd] in HF1. rewrite Forall_forall in HF1. pose proof (cmp_eq_l _ PO c b x (HF1 b Hb)). lia. }
        assert (GT : Forall (fun b => cmp x b < 0) (nodes G2)) by (apply gt_nodes; [exact HF2|exact HS2]).
        rewrite Forall_forall in LT, GT, HFx. cbn [fst snd] in HFx.
        assert (exists z, In z (nodes G1 ++ nodes G2)) as [z Hz].
        { destruct G1 as [|[g lg] G1]; [|exists g; cbn; auto]. destruct G2 as [|[g lg] G2]; [contradiction|]. exists g. cbn; auto. }
        exists y, l, z. rewrite EN. split; [|split].
        - rewrite !filter_app. rewrite (filter_none _ _ (nodes G1)), (filter_none _ _ (nodes G2)).
          + cbn [app]. rewrite app_nil_r. apply filter_all. intros b [<-|Hb]; [rewrite (cmp_refl _ PO); reflexivity|]. apply Z.eqb_eq, HFx, Hb.
          + intros b Hb. apply Z.eqb_neq. specialize (GT b Hb). lia.
          + intros b Hb. apply Z.eqb_neq. specialize (LT b Hb). pose proof (cmp_swap _ PO x b). lia.
        - rewrite !in_app_iff in *. tauto.
        - apply in_app_iff in Hz. destruct Hz as [Hz|Hz]; [specialize (LT z Hz); pose proof (cmp_swap _ PO x z); lia|specialize (GT z Hz); lia]. }
      rewrite EL in *. 
      assert (Nring : forall y T D, leads G1 ++ x :: leads G2 = T ++ y :: D -> list_check_empty m (IDX y) = Some false).
      { intros y T D E. unfold list_check_empty, ld. rewrite E in IR. rewrite (iring_next _ _ _ _ IR). f_equal. apply Z.eqb_neq. intros C. apply idx_inj in C. pose proof (iring_nodup _ _ IR) as HdL.
        assert (L2 : (2 <= length (T ++ y :: D))%nat).
        { rewrite <- E. rewrite app_length. cbn [length]. destruct G1, G2; cbn in *; try contradiction; lia. }
        destruct D as [|d D]; cbn [hd] in C.
        - destruct T as [|t T]; [cbn in L2; lia|]. cbn [hd] in C. subst t. cbn [app] in HdL. apply NoDup_cons_iff in HdL. apply (proj1 HdL). apply in_or_app. cbn; auto.
        - subst d. apply nodup_r in HdL. apply NoDup_cons_iff in HdL. apply (proj1 HdL). cbn; auto. }
      rewrite (Nring x (leads G1) (leads G2) eq_refl). cbn [negb].
      assert (Mid : (let* n := ld m x NEXT in let* m0 := (if negb (n =? h) then let* q := ld m (IDX x) NEXT in let next := of_idx q in let* e := list_check_empty m (IDX next) in
          if e then list_add m (IDX x) (IDX x) else Some m else Some m) in list_del_init m0 (IDX x)) = list_del_init m (IDX x)).
      { apply in_split in Hx. destruct Hx as (A & B & EAB). unfold ld. rewrite EAB in R. rewrite (next_at _ _ _ _ _ R). destruct (hd h B =? h); cbn [negb]; [reflexivity|].
        rewrite (iring_next _ _ _ _ IR). cbv zeta. rewrite of_idx_idx. set (y := hd (hd x (leads G1)) (leads G2)).
        assert (Hy : In y (leads G1 ++ x :: leads G2)).
        { unfold y. destruct (leads G2) as [|d D]; cbn [hd]; [destruct (leads G1); cbn; auto|]. apply in_or_app. cbn; auto. }
        apply in_split in Hy. destruct Hy as (T & D & E). rewrite (Nring y T D E). reflexivity. }
      cbv zeta in Mid |- *. rewrite Mid. clear Mid.
      destruct (iring_del m (leads G1) x (leads G2) IR NE) as (m1 & E1 & R1 & R1x & F1). rewrite E1.
      assert (IS : incl (x :: leads G1 ++ leads G2) U) by (intros y Hy; apply I2; rewrite in_app_iff; cbn in *; rewrite in_app_iff in Hy; tauto).
      assert (EF : nodes (G1 ++ G2) = filter (fun y => negb (y =? x)) (nodes (G1 ++ (x, []) :: G2))).
      { rewrite EN, nodes_app. cbn [app]. rewrite remove_mid; [reflexivity|]. rewrite EN in Hd. cbn [app] in Hd. apply NoDup_remove_2 in Hd. exact Hd. }
      destruct (del_node m1 (G1 ++ (x, []) :: G2) (G1 ++ G2) x) as (m' & E' & H'); [|exact I|exact Hx|exact EF| | | |].
      * apply (nring_other h U AP m m1 _ _ _ F1 IS); [|exact R]. intros y [<-|Hy]; cbn; auto.
      * rewrite leads_app. exact R1.
      * intros y Hy Ny. destruct (Z.eq_dec y x) as [->|D]; [exact R1x|]. rewrite leads_app in Ny. apply (ring_other m m1 _ _ _ F1).
        { intros z [<-|[]] C. apply in_idx in C. destruct C as [C|C]; [congruence|contradiction]. }
        apply RI; [exact Hy|]. rewrite in_app_iff in *. cbn. intuition congruence.
      * intros y Hy Ny. apply (nring_other h U AP m m1 _ _ _ F1 IS); [|apply RN; assumption]. intros z [<-|[]]. cbn; auto.
      * exists m', (G1 ++ G2). split; [exact E'|]. split; [exact H'|]. split; [apply (grouped_drop _ _ _ HG)|exact EF].
  - (* a follower *)
    assert (Nl : ~ In x (leads (G1 ++ (a, l) :: G2))).
    { intros C. rewrite EN in Hd. rewrite EL in C. apply in_app_iff in C. destruct C as [C|[C|C]].
      - apply leads_nodes in C. apply (nodup_disj _ _ Hd x C). apply in_or_app. cbn; auto.
      - subst a. apply nodup_r in Hd. cbn [app] in Hd. apply NoDup_cons_iff in Hd. apply (proj1 Hd), in_or_app; auto.
      - apply leads_nodes in C. apply nodup_r in Hd. apply (nodup_disj _ _ Hd x); cbn; auto. }
    rewrite (check_empty_ok _ _ _ (RI x (I x Hx) Nl)). cbn [negb].
    apply in_split in Hxl. destruct Hxl as (l1 & l2 & ->).
    assert (EF : nodes (G1 ++ (a, l1 ++ l2) :: G2) = filter (fun y => negb (y =? x)) (nodes (G1 ++ (a, l1 ++ x :: l2) :: G2))).
    { assert (E3 : nodes (G1 ++ (a, l1 ++ x :: l2) :: G2) = (nodes G1 ++ a :: l1) ++ x :: l2 ++ nodes G2) by (rewrite EN; cbn; rewrite <- !app_assoc; reflexivity).
      rewrite E3. rewrite remove_mid; [rewrite nodes_app; cbn; rewrite <- !app_assoc; reflexivity|]. rewrite E3 in Hd. apply NoDup_remove_2 in Hd. exact Hd. }
    assert (EL' : leads (G1 ++ (a, l1 ++ l2) :: G2) = leads (G1 ++ (a, l1 ++ x :: l2) :: G2)) by (rewrite !leads_app; reflexivity).
    destruct (del_node m (G1 ++ (a, l1 ++ x :: l2) :: G2) (G1 ++ (a, l1 ++ l2) :: G2) x R I Hx EF) as (m' & E' & H'); [rewrite EL'; exact IR|rewrite EL'; exact RI|exact RN|].
    exists m', (G1 ++ (a, l1 ++ l2) :: G2). split; [exact E'|]. split; [exact H'|]. split; [|exact EF]. apply (grouped_mid _ _ _ _ _ HG). intros y Hy. rewrite in_app_iff in *. cbn. tauto.
Qed.
End Cmp.
