(** * Notification chains: proofs *)
From Verif Require Import Lib RespoolProps Ptr ListModel ListSpec ListProofs ListProofs2 IlistModel IlistSpec IlistProofs IlistProofs2 ListSortSpec NotifierModel NotifierSpec.
Import Permutation Sorted.

(** ** The chain as a list *)
Section Lists.
Variable prio : Z -> Z.
Notation place := (place prio). Notation chain := (chain prio).
Definition asc (l : list Z) : Prop := StronglySorted (fun a b => prio a <= prio b) l.
Lemma place_perm n l : Permutation (n :: l) (place n l).
Proof. induction l as [|x l IH]; cbn [NotifierSpec.place]; [apply Permutation_refl|]. destruct (prio n <=? prio x); [apply Permutation_refl|]. eapply Permutation_trans; [apply perm_swap|apply perm_skip, IH]. Qed.
Lemma place_asc n l : asc l -> asc (place n l).
Proof.
  induction l as [|x l IH]; intros H; cbn [NotifierSpec.place]; [repeat constructor|]. apply StronglySorted_inv in H. destruct H as [H F]. destruct (Z.leb_spec (prio n) (prio x)).
  - constructor; [constructor; assumption|]. constructor; [assumption|]. rewrite Forall_forall in *. intros y Hy. specialize (F y Hy). lia.
  - constructor; [apply IH, H|]. rewrite Forall_forall in *. intros y Hy. apply (Permutation_in _ (Permutation_sym (place_perm n l))) in Hy. destruct Hy as [<-|Hy]; [lia|apply F, Hy].
Qed.
Lemma chain_perm s : Permutation s (chain s).
Proof. induction s as [|n s IH]; [apply Permutation_refl|]. cbn [chain fold_right]. eapply Permutation_trans; [apply perm_skip, IH|apply place_perm]. Qed.
Lemma chain_asc s : asc (chain s).
Proof. induction s as [|n s IH]; [constructor|]. apply place_asc, IH. Qed.
Lemma place_filter_eq n l k : asc l -> filter (fun y => by_prio prio k y =? 0) (place n l) = filter (fun y => by_prio prio k y =? 0) (n :: l).
Proof.
  unfold by_prio. induction l as [|x l IH]; intros H; cbn [NotifierSpec.place]; [reflexivity|]. apply StronglySorted_inv in H. destruct H as [H F]. destruct (Z.leb_spec (prio n) (prio x)) as [L|L]; [reflexivity|].
  cbn [filter]. rewrite (IH H). cbn [filter]. destruct (Z.eqb_spec (prio k - prio x) 0), (Z.eqb_spec (prio k - prio n) 0); try reflexivity. lia.
Qed.
(** The computed chain is the one specified. *)
Theorem C67_chain s : chain_is prio s (chain s).
Proof.
  split; [|split; [apply chain_perm|]].
  - pose proof (chain_asc s) as H. unfold asc, ascending, by_prio in *. revert H. generalize (chain s). induction l as [|x l IH]; intros H; constructor; apply StronglySorted_inv in H; destruct H as [H F]; [apply IH, H|]. rewrite Forall_forall in *. intros y Hy. specialize (F y Hy). lia.
  - intros k. induction s as [|n s IH]; [reflexivity|]. cbn [chain fold_right]. rewrite place_filter_eq by apply chain_asc. cbn [filter]. rewrite IH. reflexivity.
Qed.
Lemma place_filter f n l : asc l -> filter f (place n l) = if f n then place n (filter f l) else filter f l.
Proof.
  induction l as [|x l IH]; intros H; cbn [NotifierSpec.place filter]; [reflexivity|]. apply StronglySorted_inv in H. destruct H as [H F]. destruct (Z.leb_spec (prio n) (prio x)) as [L|L].
  - cbn [filter]. destruct (f n); [|reflexivity]. destruct (f x); cbn [NotifierSpec.place]; [rewrite (proj2 (Z.leb_le _ _) L); reflexivity|].
    assert (G : forall l', Forall (fun b => prio n <= prio b) l' -> place n (filter f l') = n :: filter f l').
    { induction l' as [|y l' IHl]; intros G; [reflexivity|]. inversion_clear G. cbn [filter]. destruct (f y); [cbn [NotifierSpec.place]; rewrite (proj2 (Z.leb_le _ _) H0); reflexivity|apply IHl; assumption]. }
    symmetry. apply G. rewrite Forall_forall in *. intros y Hy. specialize (F y Hy). lia.
  - cbn [filter]. rewrite (IH H). destruct (f x), (f n); try reflexivity. cbn [NotifierSpec.place]. rewrite (proj2 (Z.leb_gt _ _) L). reflexivity.
Qed.
Lemma chain_filter f s : chain (filter f s) = filter f (chain s).
Proof. induction s as [|n s IH]; [reflexivity|]. cbn [chain fold_right]. rewrite place_filter by apply chain_asc. cbn [filter]. destruct (f n); [cbn [chain fold_right]; fold (chain (filter f s)); rewrite IH|]; [reflexivity|exact IH]. Qed.
Lemma place_split n l : exists A B, l = A ++ B /\ place n l = A ++ n :: B /\ Forall (fun a => prio a < prio n) A /\ match B with [] => True | b :: _ => prio n <= prio b end.
Proof.
  induction l as [|x l (A & B & -> & E & F & G)]; cbn [NotifierSpec.place]; [exists [], []; repeat split; constructor|]. destruct (Z.leb_spec (prio n) (prio x)) as [L|L].
  - exists [], (x :: A ++ B). repeat split; [constructor|exact L].
  - exists (x :: A), B. rewrite E. repeat split; [constructor; assumption|exact G].
Qed.
End Lists.

(** ** The linked chain: every node has an index entry of its own *)
Definition singles (l : list Z) : list (Z * list Z) := map (fun x => (x, [])) l.
Lemma nodes_singles l : nodes (singles l) = l.
Proof. induction l as [|x l IH]; [reflexivity|]. cbn. f_equal. exact IH. Qed.
Lemma leads_singles l : leads (singles l) = l.
Proof. unfold leads, singles. rewrite map_map. apply map_id. Qed.
(** Comparison by position. *)
Fixpoint pos (x : Z) (l : list Z) : Z := match l with [] => 0 | y :: l => if y =? x then 0 else pos x l + 1 end.
Definition pcmp (l : list Z) (a b : Z) : Z := pos a l - pos b l.
Lemma pcmp_ok l : preorder (pcmp l).
Proof. unfold pcmp. split; intros; lia. Qed.
Lemma pos_nonneg x l : 0 <= pos x l.
Proof. induction l as [|y l IH]; cbn [pos]; [lia|]. destruct (y =? x); lia. Qed.
Lemma pos_inj l a b : In a l -> In b l -> pos a l = pos b l -> a = b.
Proof.
  induction l as [|y l IH]; [intros []|]. cbn [pos]. intros Ha Hb. pose proof (pos_nonneg a l). pose proof (pos_nonneg b l). destruct (Z.eqb_spec y a), (Z.eqb_spec y b); intros E; try congruence; try lia. destruct Ha as [Ha|Ha]; [congruence|]. destruct Hb as [Hb|Hb]; [congruence|]. apply IH; [exact Ha|exact Hb|lia].
Qed.
Lemma pos_app x A l : ~ In x A -> pos x (A ++ l) = zlen A + pos x l.
Proof. induction A as [|y A IH]; intros H; cbn [pos app]; [reflexivity|]. destruct (Z.eqb_spec y x) as [->|N]; [exfalso; apply H; left; reflexivity|]. rewrite IH by (intros C; apply H; right; exact C). unfold zlen. cbn [length]. lia. Qed.
Lemma sorted_pos l : forall A B, l = A ++ B -> NoDup l -> StronglySorted (fun a b => pcmp l a b < 0) B.
Proof.
  intros A B. revert A. induction B as [|b B IH]; intros A E D; [constructor|]. constructor; [apply (IH (A ++ [b])); [rewrite <- app_assoc; exact E|exact D]|].
  rewrite Forall_forall. intros y Hy. unfold pcmp. rewrite E in *. apply in_split in Hy. destruct Hy as (B1 & B2 & ->).
  assert (~ In b A) by (intros C; apply (nodup_disj _ _ D b C); left; reflexivity). assert (~ In y (A ++ b :: B1)).
  { rewrite app_comm_cons, app_assoc in D. intros C. apply (nodup_disj _ _ D y C). left; reflexivity. }
  assert (P1 : pos b (A ++ b :: B1 ++ y :: B2) = zlen A) by (rewrite pos_app by assumption; cbn [pos]; rewrite Z.eqb_refl; lia).
  assert (P2 : pos y (A ++ b :: B1 ++ y :: B2) = zlen (A ++ b :: B1)) by (rewrite app_comm_cons, app_assoc, pos_app by assumption; cbn [pos]; rewrite Z.eqb_refl; lia).
  rewrite P1, P2. unfold zlen. rewrite app_length. cbn [length]. lia.
Qed.
Lemma grouped_singles l : NoDup l -> grouped (pcmp l) (singles l).
Proof.
  intros D. split.
  - pose proof (sorted_pos l [] l eq_refl D) as H. revert H. generalize (pcmp l). intros c. unfold singles. induction l as [|x l IH]; intros H; cbn [map]; [constructor|]. apply StronglySorted_inv in H. destruct H as [H F]. apply NoDup_cons_iff in D. constructor; [apply IH; tauto|]. rewrite Forall_forall in *. intros g Hg. apply in_map_iff in Hg. destruct Hg as (y & <- & Hy). cbn [fst]. apply F, Hy.
  - unfold singles. rewrite Forall_forall. intros g Hg. apply in_map_iff in Hg. destruct Hg as (y & <- & Hy). constructor.
Qed.
Lemma groups_single l G : incl (nodes G) l -> NoDup (nodes G) -> grouped (pcmp l) G -> G = singles (nodes G).
Proof.
  intros I D [_ F]. revert I D F. induction G as [|[a f] G IH]; intros I D F; [reflexivity|]. inversion_clear F. cbn [nodes flat_map fst snd] in *. fold (nodes G) in *.
  destruct f as [|b f].
  - cbn [app singles map]. f_equal. apply IH; [intros y Hy; apply I; right; exact Hy|cbn [app] in D; apply NoDup_cons_iff in D; tauto|assumption].
  - exfalso. inversion_clear H. unfold pcmp in H1. assert (a = b) by (apply (pos_inj l); [apply I; left; reflexivity|apply I; right; left; reflexivity|lia]). subst b. cbn [app] in D. apply NoDup_cons_iff in D. apply (proj1 D). left. reflexivity.
Qed.

Section Chain.
Variable prio : Z -> Z.
Variable entry : Z -> bool.
Variable orc : list Z -> Z -> Z.
Variable h : Z.
Notation cmp := (chain_cmp prio).
Notation chain := (NotifierSpec.chain prio).
Definition linked_chain (m : mem) (U l : list Z) : Prop := il m h U (singles l).

Lemma add_chain m U l n fuel : apart h U -> linked_chain m U l -> In n U -> ~ In n l -> (length U < fuel)%nat ->
  exists m', ilist_add cmp fuel m h n = Some m' /\ linked_chain m' U (place prio n l).
Proof.
  intros AP H Hn Ni Hf. unfold linked_chain in *. destruct l as [|x0 l0].
  - destruct (add_ok (fun _ _ => 0) ltac:(split; intros; lia) h U AP m [] n fuel) as (m' & G' & A & B & E & H' & HG & EA & EB & _); try assumption; [split; constructor|].
    destruct A, B; try discriminate. cbn [app] in EB. exists m'. split.
    + revert E. pose proof H as (R & _ & _ & RI & RN). unfold ilist_add. rewrite (check_empty_ok _ _ _ (RN n Hn Ni)), (check_empty_ok _ _ _ (RI n Hn ltac:(intros []))). cbn [negb orb]. unfold ilist_head_empty. rewrite (check_empty_ok _ _ _ R). cbn. trivial.
    + cbn [place]. destruct G' as [|[a f] G']; [discriminate EB|]. cbn [nodes flat_map fst snd] in EB. injection EB as -> EB. destruct f; [|discriminate EB]. destruct G' as [|[? ?] ?]; [exact H'|discriminate EB].
  - set (l := x0 :: l0) in *. assert (Ne : l <> []) by discriminate. clearbody l. destruct (place_split prio n l) as (A & B & E & EP & FA & FB). rewrite EP.
    pose proof H as (R & I1 & IR & RI & RN). rewrite nodes_singles, ?leads_singles in *. assert (Nn : ~ In n (nodes (singles l))) by (rewrite nodes_singles; exact Ni). assert (Nl : ~ In n (leads (singles l))) by (rewrite leads_singles; exact Ni).
    unfold ilist_add. rewrite (check_empty_ok _ _ _ (RN n Hn Ni)), (check_empty_ok _ _ _ (RI n Hn Ni)). cbn [negb orb]. unfold ilist_head_empty. rewrite (check_empty_ok _ _ _ R). destruct l as [|y0 r0] eqn:El; [contradiction|]. rewrite <- El in *.
    unfold ilist_first, ld. rewrite (ring_next _ _ _ R).
    assert (Hh : hd h l = hd 0 l) by (rewrite El; reflexivity). rewrite Hh.
    assert (L : ilist_find cmp fuel m h n (hd 0 l) (hd 0 (A ++ B)) NULL = Some (hd h B, last A NULL, hd (hd 0 l) B)).
    { apply (find_ok cmp m h n l IR A [] B); [exact E|rewrite <- E; rewrite El; discriminate| | |].
      - rewrite Forall_forall in *. intros a Ha. specialize (FA a Ha). unfold chain_cmp. destruct (Z.gtb_spec (prio n) (prio a)); lia.
      - destruct B as [|b B]; [exact I|]. unfold chain_cmp. destruct (Z.gtb_spec (prio n) (prio b)); lia.
      - apply Nat.le_lt_trans with (length U); [|exact Hf]. apply NoDup_incl_length.
        + destruct R as [D _]. apply NoDup_cons_iff in D. destruct D as [_ D]. rewrite E in D. apply (nodup_l _ _ D).
        + intros y Hy. apply I1. rewrite E. apply in_or_app. left. exact Hy. }
    rewrite <- E in L. rewrite L. clear L.
    assert (C : (last A NULL =? NULL) || negb (cmp (last A NULL) n =? 0) = true).
    { apply orb_true_iff. right. unfold chain_cmp. destruct (prio (last A NULL) >? prio n); reflexivity. }
    rewrite C. assert (ES : singles l = singles A ++ singles B) by (rewrite E; apply map_app). rewrite ES in *.
    destruct (il_insert_lead h U AP m (singles A) (singles B) n H) as (m1 & m' & E1 & E2 & H'); try assumption.
    + rewrite <- ES, El. discriminate.
    + rewrite <- ES, leads_singles in E1. rewrite leads_singles in E1, E2. rewrite E1, E2. exists m'. split; [reflexivity|]. unfold singles in *. rewrite map_app. exact H'.
Qed.
Lemma ring_linked m U l : linked_chain m U l -> ring m h l /\ incl l U.
Proof. intros (R & I & _). rewrite nodes_singles in *. split; assumption. Qed.
Lemma nodup_chain m U l : linked_chain m U l -> NoDup l.
Proof. intros H. apply ring_linked in H. destruct H as [[D _] _]. apply NoDup_cons_iff in D. tauto. Qed.
Lemma del_chain m U l x : apart h U -> linked_chain m U l -> In x U -> exists m', ilist_del m h x = Some m' /\ linked_chain m' U (filter (fun y => negb (y =? x)) l).
Proof.
  intros AP H Hx. pose proof (nodup_chain _ _ _ H) as D. unfold linked_chain in *. destruct (in_dec Z.eq_dec x l) as [Hl|Hl].
  - destruct (del_ok (pcmp l) (pcmp_ok l) h U AP m (singles l) x) as (m' & G' & E & H' & HG & EN); try assumption; [apply grouped_singles, D|rewrite nodes_singles; exact Hl| |].
    + rewrite nodes_singles. intros (y & r & z & E & _). assert (Hy : In y (x :: y :: r)) by (right; left; reflexivity). rewrite <- E in Hy. apply filter_In in Hy. destruct Hy as [Hy Hc]. apply Z.eqb_eq in Hc. unfold pcmp in Hc. assert (x = y) by (apply (pos_inj l); [exact Hl|exact Hy|lia]). subst y.
      pose proof (NoDup_filter (fun y => pcmp l x y =? 0) D) as N. rewrite E in N. apply NoDup_cons_iff in N. apply (proj1 N). left. reflexivity.
    + rewrite nodes_singles in EN. exists m'. split; [exact E|]. rewrite <- EN. rewrite <- (groups_single l G'); [exact H'|rewrite EN; intros y Hy; apply filter_In in Hy; tauto|rewrite EN; apply NoDup_filter, D|exact HG].
  - destruct (del_absent h U AP m (singles l) x H Hx) as (m' & E & H'); [rewrite nodes_singles; exact Hl|]. exists m'. split; [exact E|]. rewrite filter_all; [exact H'|]. intros y Hy. apply negb_true_iff, Z.eqb_neq. intros ->. contradiction.
Qed.

Lemma visit_called : forall l past num, 0 <= num -> called orc past num l (visit orc past num l).
Proof.
  induction l as [|x l IH]; intros past num Hn; cbn [visit].
  - exists []. split; [reflexivity|]. split; [exact Hn|]. split; [exact I|left; reflexivity].
  - destruct (Z.eqb_spec num 0) as [->|N]; [exists (x :: l); split; [reflexivity|]; split; [cbn; lia|]; split; [exact I|right; left; reflexivity]|].
    destruct (Z.testbit (orc past x) 1) eqn:Eb.
    + exists l. split; [reflexivity|]. split; [unfold zlen; cbn [length]; lia|]. split; [exact I|]. right. right. exists [], x. split; [reflexivity|]. rewrite app_nil_r. exact Eb.
    + destruct (IH (past ++ [x]) (num - 1) ltac:(lia)) as (rest & E & L & G & D). exists rest. split; [cbn [app]; f_equal; exact E|]. split; [unfold zlen in *; cbn [length]; lia|]. split.
      * destruct (visit orc (past ++ [x]) (num - 1) l) as [|y v]; [exact I|]. change (removelast (x :: y :: v)) with (x :: removelast (y :: v)). split; [exact Eb|exact G].
      * destruct D as [D|[D|(v' & y & D & Dy)]]; [left; exact D|right; left; unfold zlen in *; cbn [length]; lia|]. right. right. exists (x :: v'), y. rewrite D. split; [reflexivity|]. rewrite <- app_assoc in Dy. exact Dy.
Qed.
(** [called] has one solution. *)
Lemma called_unique : forall l past num v, called orc past num l v -> v = visit orc past num l.
Proof.
  induction l as [|x l IH]; intros past num v (rest & E & L & G & D).
  - symmetry in E. apply app_eq_nil in E. apply E.
  - cbn [visit]. destruct v as [|y v].
    + destruct (Z.eqb_spec num 0) as [|N]; [reflexivity|]. destruct D as [->|[D|(v' & y & D & _)]]; [discriminate E|cbn in D; congruence|destruct v'; discriminate D].
    + injection E as <- E. unfold zlen in L. cbn [length] in L. destruct (Z.eqb_spec num 0) as [->|N]; [lia|]. destruct v as [|z v].
      * destruct (Z.testbit (orc past x) 1) eqn:Eb; [reflexivity|]. f_equal. apply IH. exists rest. split; [exact E|]. split; [cbn in *; lia|]. split; [exact I|]. destruct D as [D|[D|(v' & z & D & Dz)]]; [left; exact D|right; left; cbn in *; lia|]. exfalso. destruct v' as [|? v']; [|destruct v'; discriminate D]. injection D as <-. rewrite app_nil_r in Dz. congruence.
      * change (removelast (x :: z :: v)) with (x :: removelast (z :: v)) in G. destruct G as [Eb G]. rewrite Eb. f_equal. apply IH. exists rest. split; [exact E|]. split; [unfold zlen; cbn [length] in *; lia|]. split; [exact G|]. destruct D as [D|[D|(v' & w & D & Dz)]]; [left; exact D|right; left; unfold zlen in *; cbn [length] in *; lia|]. right. right. destruct v' as [|u v']; [discriminate D|]. injection D as <- D. exists v', w. split; [exact D|]. rewrite <- app_assoc. exact Dz.
Qed.
Lemma bit_land r k : 0 <= k -> negb (Z.land r (2 ^ k) =? 0) = Z.testbit r k.
Proof.
  intros Hk. destruct (Z.testbit r k) eqn:E.
  - apply negb_true_iff, Z.eqb_neq. intros C. assert (H : Z.testbit (Z.land r (2 ^ k)) k = true) by (rewrite Z.land_spec, E, Z.pow2_bits_true by exact Hk; reflexivity). rewrite C, Z.bits_0 in H. discriminate.
  - apply negb_false_iff, Z.eqb_eq. apply Z.bits_inj_0. intros i. rewrite Z.land_spec. destruct (Z.eqb_spec i k) as [->|N]; [rewrite E; reflexivity|]. rewrite Z.pow2_bits_false by congruence. apply andb_false_r.
Qed.
Lemma remaining_cons past x v l : ~ In x l -> remaining orc past (x :: v) (x :: l) = (if Z.testbit (orc past x) 0 then [] else if existsb (Z.eqb x) (removed orc (past ++ [x]) v) then [] else [x]) ++ remaining orc (past ++ [x]) v l.
Proof.
  intros N. unfold remaining. cbn [filter removed]. assert (E : filter (fun y => negb (existsb (Z.eqb y) ((if Z.testbit (orc past x) 0 then [x] else []) ++ removed orc (past ++ [x]) v))) l = filter (fun y => negb (existsb (Z.eqb y) (removed orc (past ++ [x]) v))) l).
  { apply filter_ext_in. intros y Hy. destruct (Z.testbit (orc past x) 0); [|reflexivity]. cbn [app existsb]. destruct (Z.eqb_spec y x) as [->|]; [contradiction|reflexivity]. }
  rewrite E. destruct (Z.testbit (orc past x) 0); [cbn [app existsb]; rewrite Z.eqb_refl; reflexivity|]. cbn [app]. destruct (existsb (Z.eqb x) (removed orc (past ++ [x]) v)); reflexivity.
Qed.
Lemma removed_in past v x : In x (removed orc past v) -> In x v.
Proof. revert past. induction v as [|y v IH]; intros past; cbn [removed]; [trivial|]. intros H. apply in_app_iff in H. destruct H as [H|H]; [destruct (Z.testbit (orc past y) 0); [destruct H as [<-|[]]; left; reflexivity|destruct H]|right; apply (IH _ H)]. Qed.
Lemma visit_in past num l x : In x (visit orc past num l) -> In x l.
Proof. revert past num. induction l as [|y l IH]; intros past num; cbn [visit]; [trivial|]. destruct (num =? 0); [intros []|]. destruct (Z.testbit (orc past y) 1); [intros [<-|[]]; left; reflexivity|]. intros [<-|H]; [left; reflexivity|right; apply (IH _ _ H)]. Qed.
Lemma not_removed past num l x : ~ In x l -> existsb (Z.eqb x) (removed orc past (visit orc past num l)) = false.
Proof. intros H. apply not_true_is_false. intros C. apply existsb_exists in C. destruct C as (y & Hy & E). apply Z.eqb_eq in E. subst y. apply H, (visit_in past num), (removed_in past), Hy. Qed.
Lemma remaining_nil past l : remaining orc past [] l = l.
Proof. unfold remaining. cbn [removed existsb]. apply filter_all. reflexivity. Qed.
Lemma w32_w32 a b : w32 (w32 a + b) = w32 (a + b).
Proof. unfold w32. apply Z.add_mod_idemp_l. lia. Qed.
Lemma call_ok U : apart h U -> forall rest m past ret num cnt kept fuel tmp, linked_chain m U (kept ++ rest) -> 0 <= num -> (length rest <= fuel)%nat -> (rest <> [] -> tmp = hd h (tl rest)) -> w32 cnt = cnt ->
  exists m', let v := visit orc past num rest in
  call_from orc fuel m h past ret num cnt (hd h rest) tmp = Some (m', past ++ v, Z.ldiff (last (answers orc past v) ret) (match v with [] => 0 | _ => 1 end), w32 (cnt + zlen v)) /\
  linked_chain m' U (kept ++ remaining orc past v rest).
Proof.
  intros AP. induction rest as [|x r IH]; intros m past ret num cnt kept fuel tmp H Hn Hf Ht Hw.
  - exists m. cbn [visit hd remaining filter answers last]. split; [|exact H]. rewrite app_nil_r, Z.ldiff_0_r. unfold zlen. cbn [length]. replace (cnt + Z.of_nat 0) with cnt by lia. rewrite Hw. destruct fuel; cbn [call_from]; rewrite Z.eqb_refl; reflexivity.
  - cbn [hd length] in *. specialize (Ht ltac:(discriminate)). cbn [tl] in Ht. destruct fuel as [|fuel]; [lia|]. pose proof (ring_linked _ _ _ H) as [R IU]. pose proof (nodup_chain _ _ _ H) as D.
    assert (Hx : x <> h) by (destruct R as [Dh _]; apply NoDup_cons_iff in Dh; intros ->; apply (proj1 Dh), in_or_app; right; left; reflexivity).
    cbn [call_from visit]. rewrite (proj2 (Z.eqb_neq _ _) Hx). destruct (Z.eqb_spec num 0) as [->|N].
    { exists m. split; [|rewrite remaining_nil; exact H]. cbn [answers last]. rewrite app_nil_r, Z.ldiff_0_r. unfold zlen. cbn [length]. replace (cnt + Z.of_nat 0) with cnt by lia. rewrite Hw. reflexivity. }
    set (a := orc past x). change REMOVE with (2 ^ 0). change STOP with (2 ^ 1). rewrite (bit_land a 0) by lia.
    assert (Nx : ~ In x (kept ++ r)) by apply (NoDup_remove_2 _ _ _ D). assert (Nr : ~ In x r) by (intros C; apply Nx, in_or_app; right; exact C).
    set (kept' := if Z.testbit a 0 then kept else kept ++ [x]).
    assert (St : exists m1, (if Z.testbit a 0 then let* m := ilist_del m h x in Some (m, Z.land a (Z.lnot (2 ^ 0))) else Some (m, a)) = Some (m1, Z.ldiff a 1) /\ linked_chain m1 U (kept' ++ r)).
    { unfold kept'. destruct (Z.testbit a 0) eqn:Ea.
      - destruct (del_chain m U (kept ++ x :: r) x AP H) as (m1 & -> & H1); [apply IU, in_or_app; right; left; reflexivity|]. exists m1. rewrite <- Z.ldiff_land. split; [reflexivity|].
        rewrite filter_app in H1. cbn [filter] in H1. rewrite Z.eqb_refl in H1. cbn [negb] in H1. rewrite <- filter_app, filter_all in H1; [exact H1|]. intros y Hy. apply negb_true_iff, Z.eqb_neq. intros ->. contradiction.
      - exists m. split; [|rewrite <- app_assoc; exact H]. f_equal. f_equal. apply Z.bits_inj'. intros i Hi. rewrite Z.ldiff_spec. change 1 with (2 ^ 0). destruct (Z.eqb_spec i 0) as [->|Ni]; [rewrite Ea; reflexivity|]. rewrite (Z.pow2_bits_false 0 i) by congruence. rewrite andb_true_r. reflexivity. }
    destruct St as (m1 & -> & H1). cbv beta iota. assert (E2 : negb (Z.land (Z.ldiff a 1) (2 ^ 1) =? 0) = Z.testbit a 1) by (rewrite bit_land by lia; rewrite Z.ldiff_spec; change 1 with (2 ^ 0) at 2; rewrite (Z.pow2_bits_false 0 1) by lia; apply andb_true_r).
    rewrite E2. destruct (Z.testbit a 1) eqn:Es.
    + exists m1. cbv zeta. split; [unfold zlen; cbn [length answers last]; reflexivity|]. rewrite remaining_cons by exact Nr. fold a. cbn [removed existsb]. rewrite remaining_nil. unfold kept' in H1. destruct (Z.testbit a 0); [exact H1|]. rewrite <- app_assoc in H1. exact H1.
    + assert (Ht' : exists tmp', ld m1 tmp NEXT = Some tmp' /\ (r <> [] -> tmp' = hd h (tl r))).
      { pose proof (ring_linked _ _ _ H1) as [R1 _]. unfold ld. rewrite Ht. destruct r as [|y r]; cbn [hd tl].
        - rewrite (ring_next _ _ _ R1). eexists. split; [reflexivity|]. intros C; contradiction.
        - rewrite (next_at _ _ _ _ _ R1). eexists. split; [reflexivity|]. trivial. }
      destruct Ht' as (tmp' & -> & Ht'). rewrite Ht. destruct (IH m1 (past ++ [x]) (Z.ldiff a 1) (num - 1) (w32 (cnt + 1)) kept' fuel tmp' H1 ltac:(lia) ltac:(lia) Ht') as (m' & E' & H').
      { unfold w32. apply Z.mod_mod. lia. }
      exists m'. cbv zeta in *. rewrite E'. split.
      * cbn [answers]. fold a. set (v := visit orc (past ++ [x]) (num - 1) r) in *. f_equal. f_equal; [f_equal; [rewrite <- app_assoc; reflexivity|]|].
        -- destruct v as [|y v]; [cbn [answers last]; apply Z.ldiff_0_r|]. cbn [answers]. rewrite !last_cons. reflexivity.
        -- rewrite w32_w32. f_equal. unfold zlen. cbn [length]. lia.
      * rewrite remaining_cons by exact Nr. fold a. rewrite (not_removed (past ++ [x]) (num - 1) r x Nr). unfold kept' in H'. destruct (Z.testbit a 0); [exact H'|]. rewrite <- app_assoc in H'. exact H'.
Qed.
(** A call: at most [num] nodes in the order of the chain, up to the first that asks to stop; those that ask to be
    removed, and no others, are removed; the reply is the last answer without the remove bit. *)
Theorem C67_call : forall U m l past num fuel cnt, apart h U -> linked_chain m U l -> 0 <= num -> (length l <= fuel)%nat -> w32 cnt = cnt ->
  exists v m', called orc past num l v /\ NotifierModel.call orc fuel m h past num cnt = Some (m', past ++ v, reply orc past v, w32 (cnt + zlen v)) /\ linked_chain m' U (remaining orc past v l).
Proof.
  intros U m l past num fuel cnt AP H Hn Hf Hw. pose proof (ring_linked _ _ _ H) as [R IU]. unfold NotifierModel.call, ld. rewrite (ring_next _ _ _ R).
  assert (T : exists tmp, m (hd h l) NEXT = Some tmp /\ (l <> [] -> tmp = hd h (tl l))).
  { destruct l as [|x l]; cbn [hd tl]; [rewrite (ring_next _ _ _ R); eexists; split; [reflexivity|intros C; contradiction]|]. rewrite (next_at m h [] x l R). eexists. split; [reflexivity|]. trivial. }
  destruct T as (tmp & -> & Ht). destruct (call_ok U AP l m past 0 num cnt [] fuel tmp H Hn Hf Ht Hw) as (m' & E & H'). exists (visit orc past num l), m'. split; [apply visit_called, Hn|]. cbv zeta in *. rewrite E. split; [|exact H'].
  unfold reply. destruct (visit orc past num l); reflexivity.
Qed.

(** ** Histories *)
Lemma keeps_add_prev m a n m' : list_add_prev m a n = Some m' -> keeps m m'.
Proof. unfold list_add_prev, list_insert. intros H. chase. chain. Qed.
Lemma keeps_del_init m n m' : list_del_init m n = Some m' -> keeps m m'.
Proof. unfold list_del_init, list_head_init, list_deluf. intros H. chase. chain. Qed.
Lemma keeps_idel m n m' : ilist_del m h n = Some m' -> keeps m m'.
Proof.
  unfold ilist_del. intros H. repeat match goal with
  | H : (let* _ := ?e in _) = Some _ |- _ => let E := fresh "E" in destruct e eqn:E; [|discriminate H]
  | H : (if ?c then _ else _) = Some _ |- _ => destruct c
  | H : Some _ = Some _ |- _ => injection H as <-
  | H : list_add _ _ _ = Some _ |- _ => apply keeps_add in H
  | H : list_del_init _ _ = Some _ |- _ => apply keeps_del_init in H
  end; first [chain | apply keeps_refl].
Qed.
Lemma keeps_iadd c fuel m n m' : ilist_add c fuel m h n = Some m' -> keeps m m'.
Proof.
  unfold ilist_add. intros H. repeat match goal with
  | H : (let* _ := ?e in _) = Some _ |- _ => let E := fresh "E" in destruct e as [?x|] eqn:E; [|discriminate H]
  | H : (let '(_, _) := ?e in _) = Some _ |- _ => destruct e
  | H : (if ?c then _ else _) = Some _ |- _ => destruct c
  | H : Some _ = Some _ |- _ => injection H as <-
  | H : list_add_prev _ _ _ = Some _ |- _ => apply keeps_add_prev in H
  end; first [chain | apply keeps_refl].
Qed.
Lemma keeps_ninit m n m' : ilist_node_init m n = Some m' -> keeps m m'.
Proof. unfold ilist_node_init, list_head_init. intros H. chase. chain. Qed.
Lemma keeps_call : forall fuel m past ret num cnt p tmp m' a b c, call_from orc fuel m h past ret num cnt p tmp = Some (m', a, b, c) -> keeps m m'.
Proof.
  induction fuel as [|fuel IH]; intros m past ret num cnt p tmp m' a b c; cbn [call_from]; (destruct (p =? h); [intros E; injection E as <- _ _ _; apply keeps_refl|]); [discriminate|].
  destruct (num =? 0); [intros E; injection E as <- _ _ _; apply keeps_refl|]. intros E.
  assert (G : exists m1 r, keeps m m1 /\ (if negb (Z.land r STOP =? 0) then Some (m1, past ++ [p], r, w32 (cnt + 1)) else let* tmp' := ld m1 tmp NEXT in call_from orc fuel m1 h (past ++ [p]) r (num - 1) (w32 (cnt + 1)) tmp tmp') = Some (m', a, b, c)).
  { destruct (negb (Z.land (orc past p) REMOVE =? 0)); [destruct (ilist_del m h p) as [m1|] eqn:Ed; [|discriminate E]; exists m1, (Z.land (orc past p) (Z.lnot REMOVE)); split; [apply (keeps_idel _ _ _ Ed)|exact E]|exists m, (orc past p); split; [apply keeps_refl|exact E]]. }
  clear E. destruct G as (m1 & r & K & E). destruct (negb (Z.land r STOP =? 0)); [injection E as <- _ _ _; exact K|]. destruct (ld m1 tmp NEXT); [|discriminate E]. apply IH in E. apply (keeps_trans _ _ _ K E).
Qed.
Lemma node_init_chain m U l n : apart h (n :: U) -> linked_chain m U l -> node m n -> node m (IDX n) -> exists m', ilist_node_init m n = Some m' /\ linked_chain m' (n :: U) l.
Proof.
  intros AP (R & I1 & IR & RI & RN) Hn Hi. unfold linked_chain. unfold ilist_node_init. rewrite nodes_singles, leads_singles in *. assert (AU : apart h U).
  { destruct AP as (D & Hh & Hz & Hd). apply NoDup_cons_iff in D. split; [tauto|]. split; [intros C; apply Hh; right; exact C|]. split; [intros C; apply Hz; right; exact C|]. intros p q Hp Hq. apply Hd; [right; exact Hp|]. destruct Hq as [Hq|Hq]; [left; exact Hq|right; right; exact Hq]. }
  destruct AP as (D & Hh & _ & Hd). apply NoDup_cons_iff in D. destruct D as [Nn _].
  destruct (init_ring m n Hn) as (m1 & E1 & R1 & F1). rewrite E1. assert (Hi1 : node m1 (IDX n)) by (apply (keeps_node m m1); [apply (keeps_init _ _ _ E1)|exact Hi]).
  destruct (init_ring m1 (IDX n) Hi1) as (m2 & E2 & R2 & F2). exists m2. split; [exact E2|].
  assert (T : forall p l', (forall x, In x (p :: l') -> x <> n /\ x <> IDX n) -> ring m p l' -> ring m2 p l').
  { intros p l' N Hr. apply (ring_other m1 m2 _ _ [IDX n] F2); [intros x Hx [C|[]]; apply (proj2 (N x Hx)); congruence|]. apply (ring_other m m1 _ _ [n] F1); [intros x Hx [C|[]]; apply (proj1 (N x Hx)); congruence|exact Hr]. }
  assert (Ii : forall x, IDX x = IDX n -> x = n) by (unfold IDX; intros; lia).
  assert (Nh : h <> n /\ h <> IDX n) by (split; [intros C; apply Hh; left; symmetry; exact C|intros C; apply (Hd n h); [left; reflexivity|left; reflexivity|symmetry; exact C]]).
  assert (NU : forall x, In x U -> x <> n /\ x <> IDX n) by (intros x Hx; split; [intros ->; contradiction|intros C; apply (Hd n x); [left; reflexivity|right; right; exact Hx|symmetry; exact C]]).
  assert (NI : forall x, In x U -> IDX x <> n /\ IDX x <> IDX n) by (intros x Hx; split; [apply Hd; [right; exact Hx|right; left; reflexivity]|intros C; apply Ii in C; subst x; contradiction]).
  unfold il. rewrite nodes_singles, leads_singles. split; [|split; [|split; [|split]]].
  - apply T; [|exact R]. intros x [<-|Hx]; [exact Nh|apply NU, I1, Hx].
  - intros x Hx. right. apply I1, Hx.
  - destruct l as [|a l]; [exact IR|]. cbn [iring] in *. apply T; [|exact IR]. intros x Hx. change (In x (map IDX (a :: l))) in Hx. apply in_map_iff in Hx. destruct Hx as (y & <- & Hy). apply NI, I1, Hy.
  - intros x [<-|Hx] Nx; [exact R2|]. apply T; [|apply RI; assumption]. intros y [<-|[]]. apply NI, Hx.
  - intros x [<-|Hx] Nx; [|apply T; [intros y [<-|[]]; apply NU, Hx|apply RN; assumption]].
    apply (ring_other m1 m2 _ _ [IDX n] F2); [|exact R1]. intros y [<-|[]] [C|[]]. apply (Hd n n); [left; reflexivity|right; left; reflexivity|exact C].
Qed.
(** A node known already and not in the chain. *)
Lemma node_init_known m U l n : apart h U -> linked_chain m U l -> In n U -> ~ In n l -> exists m', ilist_node_init m n = Some m' /\ linked_chain m' U l.
Proof.
  intros AP H Hn Nl. apply in_split in Hn. destruct Hn as (U1 & U2 & ->). set (V := U1 ++ U2).
  assert (P : forall x, In x (U1 ++ n :: U2) <-> In x (n :: V)) by (intros x; unfold V; cbn [In]; rewrite !in_app_iff; cbn [In]; tauto).
  assert (AV : apart h (n :: V)).
  { destruct AP as (D & Hh & Hz & Hd). split; [apply NoDup_remove in D; constructor; tauto|]. split; [rewrite <- P; exact Hh|]. split; [rewrite <- P; exact Hz|]. intros p q Hp Hq. apply Hd; [apply P, Hp|]. destruct Hq as [Hq|Hq]; [left; exact Hq|right; apply P, Hq]. }
  destruct H as (R & I1 & IR & RI & RN). rewrite nodes_singles, leads_singles in *.
  assert (H : linked_chain m V l).
  { unfold linked_chain, il. rewrite nodes_singles, leads_singles. split; [exact R|]. split; [intros x Hx; destruct (proj1 (P x) (I1 x Hx)) as [<-|C]; [contradiction|exact C]|]. split; [exact IR|]. split; intros x Hx; [apply RI|apply RN]; apply P; right; exact Hx. }
  assert (Hn : In n (U1 ++ n :: U2)) by (apply in_or_app; right; left; reflexivity).
  destruct (node_init_chain m V l n AV H) as (m' & E & H'); [apply (ring_node _ _ _ (RN n Hn Nl))|apply (ring_node _ _ _ (RI n Hn Nl))|]. exists m'. split; [exact E|].
  destruct H' as (R' & I1' & IR' & RI' & RN'). unfold linked_chain, il. split; [exact R'|]. split; [intros x Hx; apply P, I1', Hx|]. split; [exact IR'|]. split; intros x Hx; [apply RI'|apply RN']; apply P, Hx.
Qed.
Lemma apart_sub U V : apart h V -> NoDup U -> incl U V -> apart h U.
Proof. intros (D & Hh & Hz & Hd) DU I. split; [exact DU|]. split; [intros C; apply Hh, I, C|]. split; [intros C; apply Hz, I, C|]. intros p q Hp [<-|Hq]; apply Hd; [apply I, Hp|left; reflexivity|apply I, Hp|right; apply I, Hq]. Qed.

Section Hist.
Variable AU : list Z.
Hypothesis AP : apart h AU.
Definition fields (m : mem) : Prop := forall n, In n AU -> node m n /\ node m (IDX n).
Definition inv (m : mem) (w : world) : Prop :=
  exists U, NoDup U /\ incl U AU /\ (forall x, In x U <-> In x (seen w)) /\ linked_chain m U (chain (regs w)) /\ incl (regs w) (seen w).
Notation abs_step := (abs_step prio orc entry). Notation abs_run := (abs_run prio orc entry).
Notation allowed := (allowed entry). Notation allowed_all := (allowed_all prio orc entry).
Lemma fields_keeps m m' : keeps m m' -> fields m -> fields m'.
Proof. intros K F n Hn. destruct (F n Hn). split; apply (keeps_node m m'); assumption. Qed.
Lemma in_chain s x : In x (chain s) <-> In x s.
Proof. split; apply Permutation_in; [apply Permutation_sym|]; apply chain_perm. Qed.
Lemma step_ok fuel m w o : (length AU < fuel)%nat -> fields m -> inv m w -> allowed AU w o ->
  exists m', let (w', out) := abs_step w o in apply_nop prio entry orc fuel h (m, calls w) o = Some (m', calls w', out) /\ fields m' /\ inv m' w'.
Proof.
  intros Hf HF (U & D & IU & HU & HL & IR) Al. pose proof (apart_sub U AU AP D IU) as APU. assert (LU : (length U <= length AU)%nat) by (apply NoDup_incl_length; assumption). destruct o as [n|n|num]; cbn [NotifierSpec.abs_step NotifierSpec.allowed apply_nop] in *.
  - unfold register. destruct (entry n); cbn [negb].
    2:{ exists m. split; [reflexivity|]. split; [exact HF|]. exists U. split; [exact D|]. split; [exact IU|]. split; [exact HU|]. split; assumption. }
    destruct (Al eq_refl) as [HnA Hnr]. assert (Nc : ~ In n (chain (regs w))) by (rewrite in_chain; exact Hnr). cbn [calls].
    assert (G : exists U' m1, ilist_node_init m n = Some m1 /\ linked_chain m1 U' (chain (regs w)) /\ NoDup U' /\ incl U' AU /\ (forall x, In x U' <-> In x (n :: seen w)) /\ In n U').
    { destruct (in_dec Z.eq_dec n U) as [C|C].
      - destruct (node_init_known m U _ n APU HL C Nc) as (m1 & E & H1). exists U, m1. split; [exact E|]. split; [exact H1|]. split; [exact D|]. split; [exact IU|]. split; [|exact C]. intros x. cbn [In]. rewrite <- HU. split; [auto|]. intros [<-|G]; assumption.
      - assert (D' : NoDup (n :: U)) by (constructor; assumption). assert (I' : incl (n :: U) AU) by (intros x [<-|Hx]; [exact HnA|apply IU, Hx]).
        destruct (HF n HnA) as [N1 N2]. destruct (node_init_chain m U _ n (apart_sub _ _ AP D' I') HL N1 N2) as (m1 & E & H1). exists (n :: U), m1. split; [exact E|]. split; [exact H1|]. split; [exact D'|]. split; [exact I'|]. split; [|left; reflexivity]. intros x. cbn [In]. rewrite HU. tauto. }
    destruct G as (U' & m1 & E1 & H1 & D' & I' & HU' & Hn'). rewrite E1. assert (LU' : (length U' <= length AU)%nat) by (apply NoDup_incl_length; assumption).
    destruct (add_chain m1 U' (chain (regs w)) n fuel (apart_sub _ _ AP D' I') H1 Hn' Nc) as (m2 & E2 & H2); [lia|]. rewrite E2. exists m2. split; [reflexivity|]. split; [apply (fields_keeps m); [apply (keeps_trans _ m1); [apply (keeps_ninit _ _ _ E1)|apply (keeps_iadd _ _ _ _ _ E2)]|exact HF]|].
    exists U'. cbn [regs seen]. split; [exact D'|]. split; [exact I'|]. split; [exact HU'|]. split; [exact H2|]. intros x [<-|Hx]; [left; reflexivity|right; apply IR, Hx].
  - unfold unregister. destruct (del_chain m U (chain (regs w)) n APU HL) as (m1 & E & H1); [apply HU, Al|]. rewrite E. exists m1. cbn [calls]. split; [reflexivity|]. split; [apply (fields_keeps m); [apply (keeps_idel _ _ _ E)|exact HF]|]. exists U. cbn [regs seen]. split; [exact D|]. split; [exact IU|]. split; [exact HU|]. split; [rewrite chain_filter; exact H1|]. intros x Hx. apply filter_In in Hx. apply IR, Hx.
  - destruct (C67_call U m (chain (regs w)) (calls w) num fuel 0 APU HL ltac:(lia)) as (v & m' & HC & E & H'); [|reflexivity|].
    { pose proof (nodup_chain _ _ _ HL) as ND. pose proof (proj2 (ring_linked _ _ _ HL)) as IC. pose proof (NoDup_incl_length ND IC). lia. }
    pose proof (called_unique _ _ _ _ HC) as Ev. rewrite E. cbv beta iota. rewrite <- Ev. exists m'. cbn [calls]. assert (Ew : w32 (0 + zlen v) = zlen v).
    { unfold w32. rewrite Z.mod_small; [reflexivity|]. destruct HC as (rest & _ & Lv & _). unfold zlen in *. lia. }
    rewrite Ew. split; [reflexivity|]. split.
    { unfold call in E. destruct (ld m h NEXT) as [p|]; [|discriminate E]. destruct (ld m p NEXT) as [tmp|]; [|discriminate E]. apply (fields_keeps m); [apply (keeps_call _ _ _ _ _ _ _ _ _ _ _ _ E)|exact HF]. }
    exists U. cbn [regs seen]. split; [exact D|]. split; [exact IU|]. split; [exact HU|]. split; [unfold remaining in *; rewrite chain_filter; exact H'|]. intros x Hx. apply filter_In in Hx. apply IR, Hx.
Qed.
Lemma run_ok fuel : (length AU < fuel)%nat -> forall ops m w, fields m -> inv m w -> allowed_all AU w ops ->
  exists m', let (w', outs) := abs_run w ops in run_nops prio entry orc fuel h (m, calls w) ops = Some (m', calls w', outs) /\ inv m' w'.
Proof.
  intros Hf. induction ops as [|o ops IH]; intros m w HF HI HA; cbn [NotifierSpec.abs_run run_nops]; [exists m; split; [reflexivity|exact HI]|]. destruct HA as [A1 A2].
  destruct (step_ok fuel m w o Hf HF HI A1) as (m1 & S1). destruct (abs_step w o) as [w1 out]. destruct S1 as (E1 & F1 & I1). cbn [fst] in A2. rewrite E1. destruct (IH m1 w1 F1 I1 A2) as (m2 & S2). destruct (abs_run w1 ops) as [w2 outs]. destruct S2 as [E2 I2]. exists m2. rewrite E2. split; [reflexivity|exact I2].
Qed.
End Hist.
End Chain.

(** Every history from raw memory: registrations, unregistrations and calls have the results of the abstract chain, and
    the list that is left is the chain of the registered nodes. *)
Theorem C67_history : forall prio entry orc h U m fuel ops, apart h U -> raw m h U -> (length U < fuel)%nat -> allowed_all prio orc entry U nobody ops ->
  exists m1 m' w, chain_init m h = Some m1 /\
    run_nops prio entry orc fuel h (m1, []) ops = Some (m', calls w, snd (abs_run prio orc entry nobody ops)) /\ w = fst (abs_run prio orc entry nobody ops) /\
    ring m' h (chain prio (regs w)).
Proof.
  intros prio entry orc h U m fuel ops AP [Hh Hr] Hf HA. destruct (init_ring m h Hh) as (m1 & E1 & R1 & F1).
  assert (K : keeps m m1) by apply (keeps_init _ _ _ E1).
  destruct (run_ok prio entry orc h U AP fuel Hf ops m1 nobody) as (m' & S); [|exists []; cbn [regs seen nobody chain fold_right singles map]; split; [constructor|split; [intros x []|split; [reflexivity|split; [|intros x []]]]]|exact HA|].
  - intros n Hn. destruct (Hr n Hn). split; apply (keeps_node m m1); assumption.
  - split; [exact R1|]. split; [intros x []|]. split; [exact I|]. split; intros x [].
  - destruct (abs_run prio orc entry nobody ops) as [w outs]. destruct S as [E (V & _ & _ & _ & HL & _)]. exists m1, m', w. split; [exact E1|]. split; [exact E|]. split; [reflexivity|apply (ring_linked _ _ _ _ HL)].
Qed.

(** Concrete data: head 100, nodes 200, 300, 400 with priorities 5, 5, 3; 300 asks to be removed, 200 (only at its
    second call) to stop. *)
Definition eprio (n : Z) : Z := if n =? 400 then 3 else 5.
Definition eorc (past : list Z) (n : Z) : Z := if n =? 300 then 5 else if (n =? 200) && existsb (Z.eqb 200) past then 6 else 8.
Definition emem : mem := fun p f => if existsb (Z.eqb p) [100; 200; 216; 300; 316; 400; 416] && existsb (Z.eqb f) [NEXT; PREV] then Some 7 else None.
Definition eops : list nop := [NRegister 200; NRegister 300; NRegister 400; NCall 10; NCall 1; NRegister 300; NCall 10; NUnregister 300; NRegister 300; NUnregister 400; NCall 0].
Example C67_setup : apart 100 [200; 300; 400] /\ raw emem 100 [200; 300; 400] /\ allowed_all eprio eorc (fun _ => true) [200; 300; 400] nobody eops.
Proof.
  split; [|split].
  - split; [repeat constructor; cbn; lia|]. split; [cbn; lia|]. split; [unfold NULL; cbn; lia|]. intros p q Hp Hq. unfold IDX. cbn in Hp, Hq. lia.
  - split; [split; eexists; reflexivity|]. intros n [<-|[<-|[<-|[]]]]; split; split; eexists; reflexivity.
  - cbn. repeat split; intros; repeat match goal with |- ~ _ => intro end; cbn in *; tauto || lia.
Qed.
Example C67_run : option_map (fun r => (snd (fst r), snd r)) (let* m := chain_init emem 100 in run_nops eprio (fun _ => true) eorc 9 100 (m, []) eops) =
  Some ([400; 300; 200; 400; 400; 300; 200], [[0]; [0]; [0]; [8; 3]; [8; 1]; [0]; [6; 3]; []; [0]; []; [0; 0]]).
Proof. vm_compute. reflexivity. Qed.

(** The order: ascending priorities. But two nodes of one priority are called with the newest first, not in the order of
    their registration. *)
Theorem C67_refuted : exists prio entry orc h U m fuel ops a b m' past outs,
  apart h U /\ raw m h U /\ (length U < fuel)%nat /\ allowed_all prio orc entry U nobody ops /\ ops = [NRegister a; NRegister b; NCall 9] /\ prio a = prio b /\
  (let* m := chain_init m h in run_nops prio entry orc fuel h (m, []) ops) = Some (m', past, outs) /\ past = [b; a] /\ a <> b.
Proof.
  exists (fun _ => 5), (fun _ => true), (fun _ _ => 0), 100, [200; 300], emem, 9%nat, [NRegister 200; NRegister 300; NCall 9], 200, 300.
  destruct (let* m := chain_init emem 100 in run_nops (fun _ => 5) (fun _ => true) (fun _ _ => 0) 9 100 (m, []) [NRegister 200; NRegister 300; NCall 9]) as [[[m' past] outs]|] eqn:E; [|vm_compute in E; discriminate].
  exists m', past, outs. split; [|split; [|split; [cbn; lia|split; [|split; [reflexivity|split; [reflexivity|split; [reflexivity|split; [|lia]]]]]]]].
  - split; [repeat constructor; cbn; lia|]. split; [cbn; lia|]. split; [unfold NULL; cbn; lia|]. intros p q Hp Hq. unfold IDX. cbn in Hp, Hq. lia.
  - split; [split; eexists; reflexivity|]. intros n [<-|[<-|[]]]; split; split; eexists; reflexivity.
  - cbn. repeat split; intros; repeat match goal with |- ~ _ => intro end; cbn in *; tauto || lia.
  - assert (G : option_map (fun r => snd (fst r)) (Some (m', past, outs)) = Some [300; 200]) by (rewrite <- E; vm_compute; reflexivity). cbn in G. congruence.
Qed.
Print Assumptions C67_chain. Print Assumptions C67_call. Print Assumptions C67_history. Print Assumptions C67_refuted.
