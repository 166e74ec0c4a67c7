(** * Index list: the key groups behind the two rings *)
From Verif Require Import Lib Ptr ListModel ListSpec ListProofs ListProofs2 IlistModel IlistSpec.

(** A group is the leader (the node in the index) and its followers with the same key. *)
Definition nodes (G : list (Z * list Z)) : list Z := flat_map (fun g => fst g :: snd g) G.
Definition leads (G : list (Z * list Z)) : list Z := map fst G.
Definition iring (m : mem) (l : list Z) : Prop := match l with [] => True | a :: r => ring m (IDX a) (map IDX r) end.
Definition il (m : mem) (h : Z) (U : list Z) (G : list (Z * list Z)) : Prop :=
  ring m h (nodes G) /\ incl (nodes G) U /\ iring m (leads G) /\
  (forall x, In x U -> ~ In x (leads G) -> ring m (IDX x) []) /\ (forall x, In x U -> ~ In x (nodes G) -> ring m x []).

Lemma nodes_app G1 G2 : nodes (G1 ++ G2) = nodes G1 ++ nodes G2.
Proof. apply flat_map_app. Qed.
Lemma leads_app G1 G2 : leads (G1 ++ G2) = leads G1 ++ leads G2.
Proof. apply map_app. Qed.
Lemma leads_nodes G x : In x (leads G) -> In x (nodes G).
Proof. intros H. apply in_map_iff in H. destruct H as (g & <- & H). apply in_flat_map. exists g. cbn; auto. Qed.
Lemma hd_nodes h G : hd h (nodes G) = hd h (leads G).
Proof. destruct G as [|[a l] G]; reflexivity. Qed.
Lemma idx_inj x y : IDX x = IDX y -> x = y.
Proof. unfold IDX. lia. Qed.
Lemma in_idx x l : In (IDX x) (map IDX l) -> In x l.
Proof. intros H. apply in_map_iff in H. destruct H as (y & E & H). apply idx_inj in E. congruence. Qed.
Lemma of_idx_idx x : of_idx (IDX x) = x.
Proof. unfold of_idx, IDX. lia. Qed.
Lemma hd_map_idx d l : hd (IDX d) (map IDX l) = IDX (hd d l).
Proof. destruct l; reflexivity. Qed.
Lemma iring_next m pre t R : iring m (pre ++ t :: R) -> m (IDX t) NEXT = Some (IDX (hd (hd t pre) R)).
Proof.
  destruct pre as [|a pre]; cbn [app iring]; intros H.
  - rewrite (ring_next _ _ _ H), hd_map_idx. reflexivity.
  - rewrite map_app in H. cbn [map] in H. rewrite (next_at _ _ _ _ _ H), hd_map_idx. reflexivity.
Qed.
Lemma iring_nodup m l : iring m l -> NoDup l.
Proof. destruct l as [|a l]; [constructor|]. intros [H _]. change (IDX a :: map IDX l) with (map IDX (a :: l)) in H. apply NoDup_map_inv in H. exact H. Qed.
Lemma iring_insert m T D n : iring m (T ++ D) -> T ++ D <> [] -> node m (IDX n) -> ~ In n (T ++ D) ->
  exists m', list_add_prev m (IDX (hd (hd 0 (T ++ D)) D)) (IDX n) = Some m' /\ iring m' (T ++ n :: D) /\ frame (map IDX (n :: T ++ D)) m m'.
Proof.
  intros H Ne Hn Ni.
  assert (Ni' : ~ In (IDX n) (map IDX (T ++ D))) by (intros C; apply Ni, in_idx, C).
  destruct D as [|d D], T as [|a T]; cbn [app hd] in *.
  - contradiction.
  - rewrite app_nil_r in *. cbn [iring map] in *. destruct (add_prev_ring _ _ _ _ H Hn Ni') as (m' & E & R & F). exists m'. split; [exact E|]. split; [|exact F].
    cbn [app iring]. rewrite map_app. exact R.
  - cbn [iring map] in *. destruct (add_prev_ring _ _ _ _ H Hn Ni') as (m' & E & R & F). exists m'. split; [exact E|]. split; [|exact F].
    apply rotate in R. exact R.
  - cbn [iring map] in *. rewrite map_app in *. cbn [map] in *. destruct (add_prev_at _ _ _ _ _ _ H Hn Ni') as (m' & E & R & F). exists m'. split; [exact E|]. split; [|rewrite map_app; exact F].
    exact R.
Qed.
Lemma iring_del m T x D : iring m (T ++ x :: D) -> T ++ D <> [] ->
  exists m', list_del_init m (IDX x) = Some m' /\ iring m' (T ++ D) /\ ring m' (IDX x) [] /\ frame (map IDX (x :: T ++ D)) m m'.
Proof.
  intros H Ne.
  assert (P : forall m', frame (map IDX (T ++ x :: D)) m m' -> frame (map IDX (x :: T ++ D)) m m').
  { intros m'. apply frame_incl. intros y Hy. rewrite in_map_iff in *. destruct Hy as (z & E & Hz). exists z. split; [exact E|]. rewrite in_app_iff in Hz. cbn in *. rewrite in_app_iff. tauto. }
  destruct T as [|a T]; cbn [app] in *.
  - destruct D as [|d D]; [contradiction|]. cbn [iring map] in H. apply (rotate m (IDX x) [] (IDX d) (map IDX D)) in H.
    destruct (del_init_at _ _ _ _ _ H) as (m' & E & R & R2 & F). exists m'. split; [exact E|]. split; [rewrite app_nil_r in R; exact R|]. split; [exact R2|].
    revert F. apply frame_incl. intros y Hy. cbn in *. rewrite in_app_iff in Hy. cbn in Hy. tauto.
  - cbn [iring] in H. rewrite map_app in H. cbn [map] in H. destruct (del_init_at _ _ _ _ _ H) as (m' & E & R & R2 & F). exists m'. split; [exact E|].
    split; [cbn [iring]; rewrite map_app; exact R|]. split; [exact R2|]. apply P. cbn [map]. rewrite map_app. exact F.
Qed.

Section Cmp.
Variable cmp : Z -> Z -> Z.
Hypothesis PO : preorder cmp.
Lemma cmp_sym a b : 0 <= cmp a b <-> cmp b a <= 0.
Proof. apply PO. Qed.
Lemma cmp_refl a : cmp a a = 0.
Proof. pose proof (cmp_sym a a). lia. Qed.
Lemma cmp_trans a b c : cmp a b <= 0 -> cmp b c <= 0 -> cmp a c <= 0.
Proof. apply PO. Qed.
(** Elements with equal keys compare alike. *)
Lemma cmp_eq_l a b c : cmp a b = 0 -> Z.sgn (cmp a c) = Z.sgn (cmp b c).
Proof.
  intros H. pose proof (cmp_sym a b). pose proof (cmp_sym b a). pose proof (cmp_sym a c). pose proof (cmp_sym b c). pose proof (cmp_sym c a). pose proof (cmp_sym c b).
  pose proof (cmp_trans a b c). pose proof (cmp_trans b a c). pose proof (cmp_trans c a b). pose proof (cmp_trans c b a). lia.
Qed.
Lemma cmp_swap a b : Z.sgn (cmp a b) = - Z.sgn (cmp b a).
Proof. pose proof (cmp_sym a b). pose proof (cmp_sym b a). lia. Qed.
Lemma cmp_eq_r a b c : cmp a b = 0 -> Z.sgn (cmp c a) = Z.sgn (cmp c b).
Proof. intros H. rewrite (cmp_swap c a), (cmp_swap c b). rewrite (cmp_eq_l a b c H). reflexivity. Qed.

Definition grouped (G : list (Z * list Z)) : Prop :=
  StronglySorted (fun g g' => cmp (fst g) (fst g') < 0) G /\ Forall (fun g => Forall (fun y => cmp (fst g) y = 0) (snd g)) G.

Lemma find_ok m h n leads0 : iring m leads0 -> forall T pre D fuel prev, leads0 = pre ++ T ++ D -> T ++ D <> [] ->
  Forall (fun t => 0 <= cmp n t) T -> (match D with [] => True | d :: _ => cmp n d < 0 end) -> (length T < fuel)%nat ->
  ilist_find cmp fuel m h n (hd 0 leads0) (hd 0 (T ++ D)) prev = Some (hd h D, last T prev, hd (hd 0 leads0) D).
Proof.
  intros H. induction T as [|t T IH]; intros pre D fuel prev E Ne FT FD Fu; (destruct fuel as [|fuel]; [cbn in Fu; lia|]).
  - cbn [app hd last] in *. destruct D as [|d D]; [contradiction|]. cbn [hd ilist_find]. rewrite (proj2 (Z.ltb_lt _ _) FD). reflexivity.
  - cbn [app hd length] in *. inversion FT as [|? ? F1 F2]; subst. cbn [ilist_find]. rewrite (proj2 (Z.ltb_ge _ _) F1).
    set (l0 := pre ++ t :: T ++ D) in *. unfold ld. rewrite (iring_next m pre t (T ++ D) H). rewrite of_idx_idx.
    assert (Hf : hd t pre = hd 0 l0) by (unfold l0; destruct pre; reflexivity). rewrite Hf. rewrite last_cons.
    destruct (T ++ D) as [|y r] eqn:E2.
    + cbn [hd]. rewrite Z.eqb_refl. apply app_eq_nil in E2. destruct E2 as [-> ->]. reflexivity.
    + cbn [hd]. assert (Hne : y <> hd 0 l0).
      { intros C. pose proof (iring_nodup _ _ H) as Hd. unfold l0 in C, Hd. destruct pre as [|a pre]; cbn [hd app] in C, Hd.
        - subst y. apply NoDup_cons_iff in Hd. apply (proj1 Hd). cbn; auto.
        - subst y. apply NoDup_cons_iff in Hd. apply (proj1 Hd). apply in_or_app. cbn; auto. }
      rewrite (proj2 (Z.eqb_neq _ _) Hne). specialize (IH (pre ++ [t]) D fuel t). rewrite E2 in IH. cbn [hd] in IH. apply IH; auto; try discriminate; [|lia].
      unfold l0. rewrite <- app_assoc. reflexivity.
Qed.
Lemma split_groups n : forall G : list (Z * list Z), StronglySorted (fun g g' => cmp (fst g) (fst g') < 0) G ->
  exists G1 G2, G = G1 ++ G2 /\ Forall (fun g => 0 <= cmp n (fst g)) G1 /\ Forall (fun g => cmp n (fst g) < 0) G2.
Proof.
  induction G as [|g G IH]; intros H; [exists [], []; auto|]. apply StronglySorted_inv in H. destruct H as [H1 H2].
  destruct (Z_lt_le_dec (cmp n (fst g)) 0) as [C|C].
  - exists [], (g :: G). split; [reflexivity|]. split; [constructor|]. constructor; [exact C|]. revert H2. apply Forall_impl. intros g' Hg.
    pose proof (cmp_trans n (fst g) (fst g')). pose proof (cmp_trans (fst g') n (fst g)). pose proof (cmp_sym n (fst g')). pose proof (cmp_sym (fst g') n). pose proof (cmp_sym (fst g') (fst g)). pose proof (cmp_sym (fst g) (fst g')). lia.
  - destruct (IH H1) as (G1 & G2 & -> & F1 & F2). exists (g :: G1), G2. split; [reflexivity|]. split; [constructor; assumption|exact F2].
Qed.
Lemma sorted_app A (R : A -> A -> Prop) l1 l2 : StronglySorted R (l1 ++ l2) <-> StronglySorted R l1 /\ StronglySorted R l2 /\ forall x y, In x l1 -> In y l2 -> R x y.
Proof.
  induction l1 as [|a l1 IH]; cbn [app].
  - split; [intros H; split; [constructor|]; split; [exact H|intros x y []]|tauto].
  - split.
    + intros H. apply StronglySorted_inv in H. destruct H as [H1 H2]. apply IH in H1. destruct H1 as (S1 & S2 & S3). apply Forall_app in H2. destruct H2 as [F1 F2].
      split; [constructor; assumption|]. split; [exact S2|]. intros x y [<-|Hx] Hy; [rewrite Forall_forall in F2; auto|auto].
    + intros (S1 & S2 & S3). apply StronglySorted_inv in S1. destruct S1 as [S1 F1]. constructor.
      * apply IH. split; [exact S1|]. split; [exact S2|]. intros; apply S3; cbn; auto.
      * apply Forall_app. split; [exact F1|]. apply Forall_forall. intros y Hy. apply S3; cbn; auto.
Qed.

Variables (h : Z) (U : list Z).
Hypothesis AP : apart h U.
Lemma idx_out S p : incl S U -> In p (h :: U) -> ~ In p (map IDX S).
Proof. intros I Hp C. apply in_map_iff in C. destruct C as (y & E & Hy). destruct AP as (_ & _ & _ & A). apply (A y p); auto. Qed.
Lemma out_idx S p : incl S (h :: U) -> In p U -> ~ In (IDX p) S.
Proof. intros I Hp C. destruct AP as (_ & _ & _ & A). apply (A p (IDX p)); auto. Qed.
Lemma iring_other m m' S l : frame S m m' -> incl S (h :: U) -> incl l U -> iring m l -> iring m' l.
Proof.
  intros F I Il H. destruct l as [|a l]; [exact H|]. cbn [iring] in *. apply (ring_other m m' _ _ S F); [|exact H].
  intros x Hx. change (In x (map IDX (a :: l))) in Hx. apply in_map_iff in Hx. destruct Hx as (y & <- & Hy). apply out_idx; auto.
Qed.
Lemma nring_other m m' S p l : frame (map IDX S) m m' -> incl S U -> incl (p :: l) (h :: U) -> ring m p l -> ring m' p l.
Proof. intros F I Il H. apply (ring_other m m' _ _ (map IDX S) F); [|exact H]. intros x Hx. apply idx_out; auto. Qed.

(** Insertion of a node that is in neither ring. *)
Lemma add_node m1 G n A B : ring m1 h (A ++ B) -> nodes G = A ++ B -> incl (A ++ B) U -> In n U -> ~ In n (A ++ B) -> node m1 n ->
  exists m', list_add_prev m1 (hd h B) n = Some m' /\ ring m' h (A ++ n :: B) /\ frame (n :: h :: A ++ B) m1 m'.
Proof.
  intros R E I Hn Ni Nn. assert (Ni' : ~ In n (h :: A ++ B)) by (intros [C|C]; [|contradiction]; destruct AP as (_ & Hh & _); congruence).
  destruct B as [|b B]; cbn [hd].
  - rewrite app_nil_r in *. destruct (add_prev_ring _ _ _ _ R Nn Ni') as (m' & E' & R' & F'). exists m'. auto.
  - destruct (add_prev_at _ _ _ _ _ _ R Nn Ni') as (m' & E' & R' & F'). exists m'. auto.
Qed.
Lemma ring_node m p l : ring m p l -> node m p.
Proof. intros H. apply (ring_nodes _ _ _ H). cbn; auto. Qed.
Lemma members m G : il m h U G -> incl (nodes G) U /\ incl (leads G) U.
Proof. intros (_ & I & _). split; [exact I|]. intros x Hx. apply I, leads_nodes, Hx. Qed.

(** The two shapes of an insertion: with a new index entry, and behind the last node of an existing group. *)
Lemma il_insert_lead m G1 G2 n : il m h U (G1 ++ G2) -> G1 ++ G2 <> [] -> In n U -> ~ In n (nodes (G1 ++ G2)) ->
  exists m1 m', list_add_prev m (IDX (hd (hd 0 (leads (G1 ++ G2))) (leads G2))) (IDX n) = Some m1 /\ list_add_prev m1 (hd h (leads G2)) n = Some m' /\
  il m' h U (G1 ++ (n, []) :: G2).
Proof.
  intros H Ne Hn Ni. pose proof (members _ _ H) as [I1 I2]. destruct H as (R & _ & IR & RI & RN). rewrite nodes_app, leads_app in *.
  assert (Nl : ~ In n (leads G1 ++ leads G2)) by (intros C; apply Ni; rewrite <- nodes_app; apply leads_nodes; rewrite leads_app; exact C).
  destruct (iring_insert m (leads G1) (leads G2) n IR) as (m1 & E1 & R1 & F1).
  { rewrite <- leads_app. destruct (G1 ++ G2); [contradiction|discriminate]. }
  { apply (ring_node _ _ []). apply RI; assumption. }
  { exact Nl. }
  assert (IS : incl (n :: leads G1 ++ leads G2) U) by (intros y [<-|Hy]; auto).
  assert (Rh : ring m1 h (nodes G1 ++ nodes G2)) by (apply (nring_other m m1 _ _ _ F1 IS); [intros y [<-|Hy]; cbn; auto|exact R]).
  assert (Rn : ring m1 n []) by (apply (nring_other m m1 _ _ _ F1 IS); [intros y [<-|[]]; cbn; auto|apply RN; assumption]).
  destruct (add_node m1 (G1 ++ G2) n (nodes G1) (nodes G2) Rh (nodes_app _ _) I1 Hn Ni (ring_node _ _ _ Rn)) as (m' & E2 & R2 & F2).
  rewrite hd_nodes in E2. exists m1, m'. split; [exact E1|]. split; [exact E2|].
  assert (IS2 : incl (n :: h :: nodes G1 ++ nodes G2) (h :: U)) by (intros y [<-|[<-|Hy]]; cbn; auto).
  unfold il. rewrite nodes_app, leads_app. cbn [nodes leads flat_map map fst snd app]. fold (nodes G2) (leads G2).
  split; [exact R2|]. split.
  { intros y Hy. rewrite in_app_iff in Hy. destruct Hy as [Hy|[<-|Hy]]; auto; apply I1; apply in_or_app; auto. }
  split.
  { apply (iring_other m1 m' _ _ F2 IS2); [|exact R1]. intros y Hy. rewrite in_app_iff in Hy. destruct Hy as [Hy|[<-|Hy]]; auto; apply I2; apply in_or_app; auto. }
  split.
  - intros x Hx Nx. apply (ring_other m1 m' _ _ _ F2); [intros y [<-|[]]; apply out_idx; auto|].
    apply (ring_other m m1 _ _ _ F1); [|apply RI; [exact Hx|]].
    + intros y [<-|[]] C. apply in_idx in C. rewrite in_app_iff in Nx. cbn in Nx. cbn in C. rewrite in_app_iff in C. tauto.
    + intros C. apply Nx. rewrite in_app_iff in *. cbn. tauto.
  - intros x Hx Nx. rewrite in_app_iff in Nx. cbn in Nx. apply (ring_other m1 m' _ _ _ F2).
    + intros y [<-|[]] C. cbn in C. rewrite in_app_iff in C. destruct C as [C|[C|C]]; [tauto| |tauto]. destruct AP as (_ & Hh & _). congruence.
    + apply (nring_other m m1 _ _ _ F1 IS); [intros y [<-|[]]; cbn; auto|]. apply RN; [exact Hx|]. rewrite in_app_iff. tauto.
Qed.
Lemma il_insert_follow m G1 p l G2 n : il m h U (G1 ++ (p, l) :: G2) -> In n U -> ~ In n (nodes (G1 ++ (p, l) :: G2)) ->
  exists m', list_add_prev m (hd h (leads G2)) n = Some m' /\ il m' h U (G1 ++ (p, l ++ [n]) :: G2).
Proof.
  intros H Hn Ni. pose proof (members _ _ H) as [I1 I2]. destruct H as (R & _ & IR & RI & RN).
  assert (En : nodes (G1 ++ (p, l) :: G2) = (nodes G1 ++ p :: l) ++ nodes G2) by (rewrite nodes_app; cbn; rewrite <- app_assoc; reflexivity).
  assert (En' : nodes (G1 ++ (p, l ++ [n]) :: G2) = (nodes G1 ++ p :: l) ++ n :: nodes G2) by (rewrite nodes_app; cbn; rewrite <- !app_assoc; cbn; rewrite <- ?app_assoc; reflexivity).
  assert (El : leads (G1 ++ (p, l ++ [n]) :: G2) = leads (G1 ++ (p, l) :: G2)) by (rewrite !leads_app; reflexivity).
  assert (Nl : ~ In n (leads (G1 ++ (p, l) :: G2))) by (intros C; apply Ni, leads_nodes, C).
  rewrite En in *. set (A := nodes G1 ++ p :: l) in *.
  destruct (add_node m (G1 ++ (p, l) :: G2) n A (nodes G2) R En I1 Hn Ni) as (m' & E2 & R2 & F2); [apply (ring_node _ _ []), RN; assumption|].
  rewrite hd_nodes in E2. exists m'. split; [exact E2|]. unfold il. rewrite En', El.
  assert (IS2 : incl (n :: h :: A ++ nodes G2) (h :: U)) by (intros y [<-|[<-|Hy]]; cbn; auto).
  split; [exact R2|]. split.
  { intros y Hy. rewrite in_app_iff in Hy. destruct Hy as [Hy|[<-|Hy]]; auto; apply I1; apply in_or_app; auto. }
  split; [apply (iring_other m m' _ _ F2 IS2); assumption|]. split.
  - intros x Hx Nx. apply (ring_other m m' _ _ _ F2); [intros y [<-|[]]; apply out_idx; auto|]. apply RI; assumption.
  - intros x Hx Nx. rewrite in_app_iff in Nx. cbn in Nx. apply (ring_other m m' _ _ _ F2).
    + intros y [<-|[]] C. cbn in C. rewrite in_app_iff in C. destruct C as [C|[C|C]]; [tauto| |tauto]. destruct AP as (_ & Hh & _). congruence.
    + apply RN; [exact Hx|]. rewrite in_app_iff. tauto.
Qed.
End Cmp.
