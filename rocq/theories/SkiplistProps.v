(** * Skip lists: properties *)
From Verif Require Import Lib RespoolProps Ptr ListModel ListSpec ListProofs ListProofs2 SkiplistModel SkiplistSpec SkiplistProofs.

(** ** Heights *)
Lemma random_from_ok : forall n level levels rand, 1 <= level <= levels -> 1 <= random_from n level levels rand <= levels.
Proof. induction n as [|n IH]; intros level levels rand H; cbn [random_from]; [lia|]. destruct (Z.ltb_spec level levels); [|lia]. destruct (rand O >? _); [lia|]. apply IH. lia. Qed.
Theorem C54_height : forall levels, 1 <= levels -> (forall rand, 1 <= random_level levels rand <= levels) /\ forall l, 1 <= l <= levels -> exists rand, random_level levels rand = l.
Proof.
  intros levels H. split; [intros rand; apply random_from_ok; lia|]. intros l Hl. exists (fun k => if Z.of_nat k <? l - 1 then 0 else 2147483647).
  assert (G : forall n level, (Z.to_nat (l - level) <= n)%nat -> 1 <= level <= l -> random_from n level levels (fun k => if Z.of_nat k <? l - level then 0 else 2147483647) = l \/ l = levels /\ random_from n level levels (fun k => if Z.of_nat k <? l - level then 0 else 2147483647) = l).
  { induction n as [|n IH]; intros level Hn Hlv; cbn [random_from]; [left; lia|]. destruct (Z.ltb_spec level levels); [|left; lia]. change (Z.of_nat 0) with 0. destruct (Z.ltb_spec 0 (l - level)).
    - rewrite Z.gtb_ltb, (proj2 (Z.ltb_ge _ _)) by (apply Z.div_pos; lia). specialize (IH (level + 1) ltac:(lia) ltac:(lia)).
      assert (E : forall n lv f g, (forall k, f k = g k) -> random_from n lv levels f = random_from n lv levels g).
      { clear. induction n as [|n IH]; intros lv f g E; cbn [random_from]; [reflexivity|]. rewrite (E O). destruct (lv <? levels); [|reflexivity]. destruct (g O >? _); [reflexivity|]. apply IH. intros k. apply E. }
      rewrite (E n (level + 1) _ (fun k => if Z.of_nat k <? l - (level + 1) then 0 else 2147483647)); [exact IH|]. intros k. replace (Z.of_nat (S k)) with (Z.of_nat k + 1) by lia. destruct (Z.ltb_spec (Z.of_nat k + 1) (l - level)), (Z.ltb_spec (Z.of_nat k) (l - (level + 1))); try reflexivity; lia.
    - rewrite Z.gtb_ltb, (proj2 (Z.ltb_lt _ _)) by (apply Z.div_lt; lia). left. lia. }
  destruct (G (Z.to_nat levels) 1 ltac:(lia) ltac:(lia)) as [E|[_ E]]; exact E.
Qed.

(** ** Order *)
Lemma split_sorted cmp s test : in_order cmp s -> (forall a b, cmp b a >= 0 -> test a >= 0 -> test b >= 0) -> exists L R, s = L ++ R /\ (forall e, In e L -> test (e_key e) < 0) /\ forall e, In e R -> test (e_key e) >= 0.
Proof.
  intros HS HM. induction HS as [|e s HS (L & R & -> & HL & HR) HF]; [exists [], []; split; [reflexivity|]; split; intros e []|]. rewrite Forall_forall in HF. destruct (Z.lt_ge_cases (test (e_key e)) 0) as [H|H].
  - exists (e :: L), R. split; [reflexivity|]. split; [intros x [<-|Hx]; [exact H|apply HL, Hx]|exact HR].
  - exists [], (e :: L ++ R). split; [reflexivity|]. split; [intros x []|]. intros x [<-|Hx]; [lia|]. apply (HM (e_key e)); [apply HF, Hx|lia].
Qed.
Lemma sorted_app cmp L R : in_order cmp (L ++ R) <-> in_order cmp L /\ in_order cmp R /\ forall a b, In a L -> In b R -> cmp (e_key b) (e_key a) >= 0.
Proof.
  unfold in_order. induction L as [|e L IH]; cbn [app].
  - split; [intros H; split; [constructor|]; split; [exact H|intros a b []]|intros (_ & H & _); exact H].
  - split.
    + intros H. apply StronglySorted_inv in H. destruct H as [H1 H2]. apply IH in H1. destruct H1 as (A & B & C). rewrite Forall_forall in H2. split; [constructor; [exact A|]; rewrite Forall_forall; intros x Hx; apply H2, in_or_app; left; exact Hx|]. split; [exact B|]. intros a b [<-|Ha] Hb; [apply H2, in_or_app; right; exact Hb|apply C; assumption].
    + intros (A & B & C). apply StronglySorted_inv in A. destruct A as [A1 A2]. constructor; [apply IH; split; [exact A1|]; split; [exact B|]; intros a b Ha Hb; apply C; [right; exact Ha|exact Hb]|]. rewrite Forall_forall in *. intros x Hx. apply in_app_iff in Hx. destruct Hx as [Hx|Hx]; [apply A2, Hx|apply C; [left; reflexivity|exact Hx]].
Qed.
Lemma sorted_insert cmp L e R : ordering cmp -> in_order cmp (L ++ R) -> (forall x, In x L -> cmp (e_key x) (e_key e) < 0) -> (forall x, In x R -> cmp (e_key x) (e_key e) >= 0) -> in_order cmp (L ++ e :: R).
Proof.
  intros O H HL HR. apply sorted_app in H. destruct H as (A & B & C). apply sorted_app. split; [exact A|]. split; [constructor; [exact B|rewrite Forall_forall; exact HR]|]. intros a b Ha [<-|Hb]; [apply (ord_asym _ O), HL, Ha|apply C; assumption].
Qed.
Lemma sorted_drop cmp L e R : in_order cmp (L ++ e :: R) -> in_order cmp (L ++ R).
Proof.
  intros H. apply sorted_app in H. destruct H as (A & B & C). apply StronglySorted_inv in B. apply sorted_app. split; [exact A|]. split; [apply B|]. intros a b Ha Hb. apply C; [exact Ha|right; exact Hb].
Qed.

(** ** Memory that comes and goes *)
Lemma in_cells_spec p n q : in_cells p n q = true <-> exists i, 0 <= i < n /\ q = p + 16 * i.
Proof.
  unfold in_cells. rewrite !andb_true_iff, Z.leb_le, Z.ltb_lt, Z.eqb_eq. split.
  - intros ((H1 & H2) & H3). exists ((q - p) / 16). apply Z.div_exact in H3; [|lia]. split; lia.
  - intros (i & Hi & ->). replace (p + 16 * i - p) with (i * 16) by lia. rewrite Z.mod_mul by lia. lia.
Qed.
Lemma owns_link p n q g : g = NEXT \/ g = PREV -> owns p n q g = true -> exists i, 0 <= i < n /\ q = cell p i.
Proof.
  intros Hg H. unfold owns in H. apply orb_true_iff in H. destruct H as [H|H].
  - exfalso. apply andb_true_iff in H. destruct H as [_ H]. destruct Hg as [->| ->]; discriminate H.
  - apply andb_true_iff in H. destruct H as [H _]. apply in_cells_spec in H. exact H.
Qed.
Lemma owns_cell p n i g : 0 <= i < n -> g = NEXT \/ g = PREV -> owns p n (cell p i) g = true.
Proof.
  intros Hi Hg. unfold owns. assert (E : in_cells (p + 8) n (cell p i) = true) by (apply in_cells_spec; exists i; split; [exact Hi|reflexivity]). rewrite E. apply orb_true_iff. right. unfold is_link. destruct Hg as [->| ->]; reflexivity.
Qed.
Lemma owns_data p n q g : g = KEY \/ g = BLOCK -> owns p n q g = (q =? p).
Proof.
  intros Hg. unfold owns, is_link. destruct Hg as [->| ->]; cbn [Z.eqb KEY BLOCK NEXT PREV orb Pos.eqb]; rewrite andb_false_r, orb_false_r, andb_true_r; reflexivity.
Qed.
Lemma init_heads_ok h : forall n m i, (forall j, i <= j < i + Z.of_nat n -> node m (hcell h j)) ->
  exists m', init_heads n m h i = Some m' /\ (forall j, i <= j < i + Z.of_nat n -> ring m' (hcell h j) []) /\
  (forall q g, (forall j, i <= j < i + Z.of_nat n -> q <> hcell h j) \/ (g <> PREV /\ g <> NEXT) -> m' q g = m q g).
Proof.
  induction n as [|n IH]; intros m i H; cbn [init_heads]; [exists m; split; [reflexivity|]; split; [intros; lia|reflexivity]|].
  destruct (init_ok m (hcell h i) (H i ltac:(lia))) as (m1 & E & HL & HF). rewrite E. destruct (IH m1 (i + 1)) as (m' & E' & A & B); [intros j Hj; apply (keeps_node _ _ _ (keeps_init _ _ _ E)), H; lia|]. exists m'. split; [exact E'|]. split.
  - intros j Hj. destruct (Z.eq_dec j i) as [->|N]; [|apply A; lia]. split; [constructor; [intros []|constructor]|]. cbn [seg]. unfold linked in *. assert (K : forall j, i + 1 <= j < i + 1 + Z.of_nat n -> hcell h i <> hcell h j) by (intros j Hj'; unfold hcell; lia). rewrite !B by (left; exact K). exact HL.
  - intros q g Hq. rewrite B; [|destruct Hq as [Hq|Hq]; [left; intros j Hj; apply Hq; lia|right; exact Hq]]. apply HF. intros [-> Hg]. destruct Hq as [Hq|Hq]; [apply (Hq i); [lia|reflexivity]|tauto].
Qed.

Section Skip.
Variable al : mem -> Z -> Z.
Variable cmp : Z -> Z -> Z.
Variable fuel : nat.
Hypothesis ORD : ordering cmp.
Hypothesis AL : allocator al.
Definition sinv (m : mem) (h : skip) (s : list entry) (ok : bool) : Prop :=
  1 <= s_levels h /\ 0 <= s_curr h <= s_levels h /\ rings m (s_head h) (s_levels h) (fun i => lvl i s) /\
  (forall e, In e s -> 1 <= e_height e <= s_curr h /\ m (e_node e) KEY = Some (e_key e) /\ m (e_node e) BLOCK = Some (e_height e) /\ e_node e <> NULL) /\
  NoDup (map e_node s) /\ in_order cmp s /\ (ok = true -> s_curr h = tallest s).
Lemma top_left h c s : (forall e, In e s -> e_height e <= c) -> last (lvl c s) (hcell h c) - 16 = hcell h (c - 1).
Proof. intros H. apply lvl_nil in H. rewrite H. cbn [last]. unfold hcell. lia. Qed.
Lemma top_right h c s : (forall e, In e s -> e_height e <= c) -> hd (hcell h c) (lvl c s) - 16 = hcell h (c - 1).
Proof. intros H. apply lvl_nil in H. rewrite H. cbn [hd]. unfold hcell. lia. Qed.
Lemma ring_has m h cap c i x g : rings m h cap c -> 0 <= i < cap -> In x (hcell h i :: c i) -> g = NEXT \/ g = PREV -> exists v, m x g = Some v.
Proof. intros [R _] Hi Hx Hg. destruct (ring_nodes _ _ _ (R i Hi) x Hx) as [A B]. destruct Hg as [->| ->]; assumption. Qed.

(** ** Insertion *)
Lemma insert_ok m h s ok k rand : sinv m h s ok -> (length s <= fuel)%nat ->
  let lv := random_level (s_levels h) rand in let h' := with_curr h (Z.max (s_curr h) lv) in
  (skip_insert al cmp fuel m h k rand = Some (m, h', - ENOMEM) /\ al m (8 + 16 * lv) = NULL /\ sinv m h' s (ok && (lv <=? tallest s))) \/
  exists m' n L R, skip_insert al cmp fuel m h k rand = Some (m', h', 0) /\ s = L ++ R /\ (forall e, In e L -> cmp (e_key e) k < 0) /\ (forall e, In e R -> cmp (e_key e) k >= 0) /\ n <> NULL /\ ~ In n (map e_node s) /\
    sinv m' h' (L ++ {| e_node := n; e_key := k; e_height := lv |} :: R) ok.
Proof.
  intros (Hl & Hc & HR & HE & HD & HO & HT) Hf lv h'. assert (Hlv : 1 <= lv <= s_levels h) by (apply C54_height, Hl). unfold skip_insert. fold lv. cbv zeta. set (p := al m (8 + 16 * lv)). fold (with_curr h (Z.max (s_curr h) lv)). fold h'.
  destruct (Z.eqb_spec p NULL) as [E0|N0].
  - left. split; [reflexivity|]. split; [exact E0|]. split; [exact Hl|]. unfold h', with_curr. cbn [s_curr s_levels s_head]. split; [lia|]. split; [exact HR|]. split; [intros e He; destruct (HE e He) as (A & B); split; [lia|exact B]|]. split; [exact HD|]. split; [exact HO|].
    intros Hok. apply andb_true_iff in Hok. destruct Hok as [H1 H2]. rewrite (HT H1). lia.
  - right. destruct (AL m (8 + 16 * lv)) as [C|FR]; [contradiction|]. fold p in FR.
    destruct (split_sorted cmp s (fun x => cmp x k) HO) as (L & R & Es & HL & HRR); [intros a b A B; apply (ord_trans _ ORD k a b); assumption|]. set (e0 := {| e_node := p; e_key := k; e_height := lv |}).
    set (m1 := alloc_node m p lv). assert (K1 : m1 p KEY = Some 7) by (unfold m1, alloc_node; rewrite owns_data, Z.eqb_refl by (left; reflexivity); reflexivity). rewrite (st_some _ _ _ _ _ K1). set (m2 := upd m1 p KEY k).
    assert (Np : ~ In p (map e_node s)). { intros C. apply in_map_iff in C. destruct C as (e & Ee & He). destruct (HE e He) as (_ & A & _). rewrite Ee in A. destruct (FR p ltac:(lia)) as [B _]. congruence. }
    assert (Nc : forall i j, 0 <= i < s_levels h -> ~ In (cell p j) (hcell (s_head h) i :: lvl i s) \/ ~ 0 <= j < lv).
    { intros i j Hi. destruct (Z.lt_ge_cases j 0); [right; lia|]. destruct (Z.lt_ge_cases j lv); [|right; lia]. left. intros C. destruct (ring_has _ _ _ _ i (cell p j) NEXT HR Hi C (or_introl eq_refl)) as [v Hv]. destruct (FR (cell p j)) as [_ B]; [unfold cell; lia|congruence]. }
    assert (M2 : forall q g, owns p lv q g = false -> m2 q g = m q g). { intros q g Ho. unfold m2. destruct (Z.eq_dec q p) as [->|N]; [destruct (Z.eq_dec g KEY) as [->|N]; [rewrite owns_data, Z.eqb_refl in Ho by (left; reflexivity); discriminate|]|]; (rewrite upd_other by tauto); unfold m1, alloc_node; rewrite Ho; reflexivity. }
    assert (R2 : rings m2 (s_head h) (s_levels h) (fun i => lvl i (L ++ R))).
    { rewrite <- Es. apply (rings_keep m); [exact HR|]. intros i x g Hi Hx Hg. apply M2. destruct (owns p lv x g) eqn:Ho; [|reflexivity]. exfalso. apply owns_link in Ho; [|exact Hg]. destruct Ho as (j & Hj & ->). destruct (Nc i j Hi); [contradiction|lia]. }
    assert (D2 : forall e g, In e s -> g = KEY \/ g = BLOCK -> m2 (e_node e) g = m (e_node e) g).
    { intros e g He Hg. apply M2. rewrite owns_data by exact Hg. apply Z.eqb_neq. intros C. apply Np. rewrite <- C. apply in_map, He. }
    assert (HhL : forall e, In e s -> e_height e <= s_curr h') by (intros e He; destruct (HE e He) as (A & _); unfold h', with_curr; cbn [s_curr]; lia).
    destruct (insert_down_ok fuel (fun x => cmp x k) (s_head h) (s_levels h) L e0 R HL HRR) with (n := Z.to_nat (s_curr h')) (m := m2) (walk := 0) (rv := @None Z) as (m' & E & RR & DD & KK).
    + rewrite <- Es. exact Hf.
    + rewrite <- Es. exact Nc.
    + unfold h', with_curr. cbn [s_curr]. lia.
    + apply (rings_ext _ _ _ _ _) with (2 := R2). intros i Hi. cbn beta. destruct (Z.leb_spec (Z.of_nat (Z.to_nat (s_curr h'))) i) as [H|H]; [|reflexivity]. rewrite lvl_mid, lvl_app. cbn [e0 e_height]. rewrite (proj2 (Z.ltb_ge i lv)); [reflexivity|]. unfold h', with_curr in H. cbn [s_curr] in H. lia.
    + rewrite <- Es. intros e He. rewrite D2 by auto. apply HE, He.
    + intros i Hi _. cbn [e0 e_node e_height] in *. assert (G : forall g, g = NEXT \/ g = PREV -> exists x, m2 (cell p i) g = Some x).
      { intros g Hg. unfold m2. rewrite upd_other by (right; destruct Hg as [->| ->]; discriminate). unfold m1, alloc_node. rewrite owns_cell by assumption. eexists. reflexivity. }
      split; apply G; auto.
    + rewrite Z2Nat.id in E by (unfold h', with_curr; cbn [s_curr]; lia). rewrite top_left, top_right in E by (intros e He; apply HhL; rewrite Es; apply in_or_app; auto). cbn [e0 e_node e_height] in E. change (s_head h') with (s_head h). rewrite E. exists m', p, L, R. split; [reflexivity|]. split; [exact Es|]. split; [exact HL|]. split; [exact HRR|]. split; [exact N0|]. split; [exact Np|]. fold e0.
      assert (KB : forall g, g = KEY \/ g = BLOCK -> g <> NEXT /\ g <> PREV) by (intros g [->| ->]; split; discriminate).
      split; [exact Hl|]. split; [unfold h', with_curr; cbn [s_curr s_levels]; lia|]. split; [exact RR|]. split.
      * intros e He. rewrite !DD by discriminate. apply in_app_iff in He. cbn [In] in He. assert (He' : e0 = e \/ In e s) by (rewrite Es, in_app_iff; tauto). destruct He' as [<-|He'].
        -- cbn [e0 e_node e_key e_height]. split; [unfold h', with_curr; cbn [s_curr]; lia|]. split; [unfold m2; apply upd_same|]. split; [|exact N0]. unfold m2. rewrite upd_other by (right; discriminate). unfold m1, alloc_node. rewrite owns_data, Z.eqb_refl by auto. reflexivity.
        -- rewrite !D2 by auto. destruct (HE e He') as (A & B & C & D). split; [unfold h', with_curr; cbn [s_curr]; lia|]. auto.
      * split; [|split; [apply sorted_insert; [exact ORD|rewrite <- Es; exact HO|exact HL|exact HRR]|intros Hok; rewrite tallest_mid, <- Es, <- (HT Hok); unfold h', with_curr; cbn [s_curr e0 e_height]; lia]].
        rewrite map_app. cbn [map]. apply NoDup_Add with (a := p) (l := map e_node s); [|split; assumption]. rewrite Es, map_app. apply Add_app.
Qed.

(** ** Search *)
Lemma find_ok m h s f : sinv m h s true -> monotone cmp f -> (length s <= fuel)%nat ->
  (skipnode_find fuel m h f = Some (NULL, 0) /\ forall e, In e s -> f (e_key e) <> 0) \/
  exists e, In e s /\ match_top f s e /\ skipnode_find fuel m h f = Some (e_node e, e_height e).
Proof.
  intros (Hl & Hc & HR & HE & HD & HO & HT) HM Hf. specialize (HT eq_refl). unfold skipnode_find.
  destruct (Z.eqb_spec (s_curr h) 0) as [E0|N0].
  - left. split; [reflexivity|]. intros e He. destruct (HE e He) as (A & _). lia.
  - destruct (split_sorted cmp s f HO (fun a b H => proj1 (HM a b H))) as (L & R & Es & HL & HRR). pose proof HO as HO'. rewrite Es in HO'. apply sorted_app in HO'. destruct HO' as (_ & HO' & _).
    destruct (split_sorted cmp R (fun x => f x - 1) HO') as (E & G & Er & HEE & HG).
    { intros a b A B. destruct (HM a b A) as [_ C]. assert (f b > 0) by (apply C; lia). lia. }
    assert (HE0 : forall e, In e E -> f (e_key e) = 0). { intros e He. specialize (HEE e He). specialize (HRR e ltac:(rewrite Er; apply in_or_app; left; exact He)). cbn beta in HEE. lia. }
    assert (HG0 : forall e, In e G -> f (e_key e) > 0). { intros e He. specialize (HG e He). cbn beta in HG. lia. }
    assert (HH : forall e, In e s -> e_height e <= s_curr h) by (intros e He; destruct (HE e He) as (A & _); lia).
    assert (En : Z.of_nat (Z.to_nat (s_curr h)) = s_curr h) by lia. assert (Es2 : s = L ++ E ++ G) by (rewrite Es, Er; reflexivity).
    destruct (find_down_ok fuel m f (s_head h) (s_levels h) s L E G HR Es2) with (n := Z.to_nat (s_curr h)) (walk := 0) (rv := @None Z) as [[E1 E2]|(e & E1 & E2 & E3)].
    + intros e He. apply HE, He.
    + intros e He. destruct (HE e He) as (A & _). lia.
    + exact HL.
    + exact HE0.
    + exact HG0.
    + exact Hf.
    + lia.
    + rewrite En. apply lvl_nil. intros e He. apply HH. rewrite Es2, !in_app_iff. auto.
    + intros _. rewrite En. split; [apply lvl_nil, HH|]. intros C. pose proof (proj2 (tallest_le s (s_curr h - 1) ltac:(lia)) (proj1 (lvl_nil _ _) C)). lia.
    + discriminate.
    + rewrite En, <- Er in E2. rewrite top_left, top_right in E2 by (intros e He; apply HH; rewrite Es; apply in_or_app; auto). left. split; [exact E2|]. intros e He. rewrite Es2, E1 in He. apply in_app_iff in He. destruct He as [He|He]; [specialize (HL e He); lia|specialize (HG0 e He); lia].
    + rewrite En, <- Er in E2. rewrite top_left, top_right in E2 by (intros x Hx; apply HH; rewrite Es; apply in_or_app; auto). right. exists e. split; [rewrite Es2, !in_app_iff; auto|]. split; [|exact E2]. split; [apply HE0, E1|]. intros e' He' Hz. apply E3. rewrite Es2, !in_app_iff in He'. destruct He' as [He'|[He'|He']]; [specialize (HL e' He'); lia|exact He'|specialize (HG0 e' He'); lia].
Qed.

(** ** Deletion *)
Lemma delete_ok m h L e R ok : sinv m h (L ++ e :: R) true -> ok = true ->
  exists m1 m', del_down (Z.to_nat (e_height e)) m h (e_node e) = Some (m1, with_curr h (tallest (L ++ R))) /\ free_node m1 (e_node e) = Some m' /\ sinv m' (with_curr h (tallest (L ++ R))) (L ++ R) ok.
Proof.
  intros (Hl & Hc & HR & HE & HD & HO & HT) _. specialize (HT eq_refl). rewrite tallest_mid in HT. set (s := L ++ e :: R) in *. assert (Hes : In e s) by (apply in_or_app; right; left; reflexivity). destruct (HE e Hes) as (He1 & He2 & He3 & He4).
  assert (Sub : forall x, In x (L ++ R) -> In x s) by (intros x Hx; unfold s; rewrite in_app_iff in *; cbn [In]; tauto).
  destruct (del_down_ok L e R (Z.to_nat (e_height e)) m h) as (m1 & E & RR & DD & KK); [lia|lia| |rewrite Z2Nat.id by lia; lia|].
  { apply (rings_ext _ _ _ _ _) with (2 := HR). intros i Hi. cbn beta. destruct (Z.leb_spec (Z.of_nat (Z.to_nat (e_height e))) i) as [H|H]; [|reflexivity]. unfold s. rewrite lvl_mid, lvl_app, (proj2 (Z.ltb_ge i (e_height e))) by lia. reflexivity. }
  exists m1. unfold free_node, ld. rewrite DD, He3 by discriminate. eexists. split; [exact E|]. split; [reflexivity|].
  assert (Hnd : ~ In (e_node e) (map e_node (L ++ R))) by (unfold s in HD; rewrite map_app in *; cbn [map] in HD; apply NoDup_remove_2 in HD; exact HD).
  split; [exact Hl|]. unfold with_curr. cbn [s_curr s_levels s_head]. pose proof (tallest_pos (L ++ R)). split; [lia|]. split; [|split; [|split; [|split; [apply (sorted_drop cmp L e R HO)|reflexivity]]]].
  - apply (rings_keep m1); [exact RR|]. intros i x g Hi Hx Hg. destruct (owns (e_node e) (e_height e) x g) eqn:Ho; [exfalso|reflexivity]. apply owns_link in Ho; [|exact Hg]. destruct Ho as (j & Hj & ->).
    assert (Hcj : In (cell (e_node e) j) (lvl j s)) by (apply lvl_in; exists e; split; [exact Hes|split; [lia|reflexivity]]). assert (Hxs : In (cell (e_node e) j) (hcell (s_head h) i :: lvl i s)).
    { destruct Hx as [Hx|Hx]; [left; exact Hx|right]. apply lvl_in in Hx. apply lvl_in. destruct Hx as (y & A & B). exists y. split; [apply Sub, A|exact B]. }
    destruct HR as [HR HX]. destruct (Z.eq_dec i j) as [->|N]; [|apply (HX j i (cell (e_node e) j)); [lia|exact Hi|auto|right; exact Hcj|exact Hxs]].
    pose proof (HR j Hi) as RJ. unfold s in RJ. rewrite lvl_mid, (proj2 (Z.ltb_lt j (e_height e))) in RJ by lia. cbn [app] in RJ. apply ring_notin in RJ. apply RJ. rewrite <- lvl_app. exact Hx.
  - intros x Hx. assert (Nx : e_node x <> e_node e) by (intros C; apply Hnd; rewrite <- C; apply in_map, Hx). rewrite !owns_data by auto. rewrite (proj2 (Z.eqb_neq _ _) Nx), !DD by discriminate. destruct (HE x (Sub x Hx)) as (A & B). split; [|exact B]. split; [apply A|]. apply (proj1 (tallest_le (L ++ R) _ (tallest_pos _)) (Z.le_refl _) x Hx).
  - unfold s in HD. rewrite map_app in *. cbn [map] in HD. apply NoDup_remove_1 in HD. exact HD.
Qed.

(** ** Release *)
Definition wiped (s : list entry) (m : mem) : mem := fun q g => if existsb (fun e => owns (e_node e) (e_height e) q g) s then None else m q g.
Lemma wiped_other s m q g : (forall e, In e s -> owns (e_node e) (e_height e) q g = false) -> wiped s m q g = m q g.
Proof.
  intros H. unfold wiped. destruct (existsb _ s) eqn:E; [|reflexivity]. apply existsb_exists in E. destruct E as (e & He & Ho). rewrite (H e He) in Ho. discriminate.
Qed.
Lemma lvl0 s : (forall e, In e s -> 1 <= e_height e) -> lvl 0 s = cells 0 s.
Proof.
  intros H. unfold lvl, cells. f_equal. induction s as [|e s IH]; [reflexivity|]. cbn [filter]. rewrite (proj2 (Z.ltb_lt 0 (e_height e))) by (specialize (H e (or_introl eq_refl)); lia). f_equal. apply IH. intros x Hx. apply H. right. exact Hx.
Qed.
Lemma release_from_ok m0 h s : sinv m0 h s true \/ sinv m0 h s false -> forall s2 s1 n m tmp, s = s1 ++ s2 -> (forall q g, m q g = wiped s1 m0 q g) -> (length s2 <= n)%nat ->
  (s2 <> [] -> tmp = hd (hcell (s_head h) 0) (cells 0 (tl s2))) ->
  exists m', release_from n m (hcell (s_head h) 0) (hd (hcell (s_head h) 0) (cells 0 s2)) tmp = Some (m', map e_key s2) /\ forall q g, m' q g = wiped s m0 q g.
Proof.
  intros HI. assert (I : 1 <= s_levels h /\ rings m0 (s_head h) (s_levels h) (fun i => lvl i s) /\ (forall e, In e s -> 1 <= e_height e <= s_levels h /\ m0 (e_node e) KEY = Some (e_key e) /\ m0 (e_node e) BLOCK = Some (e_height e)) /\ NoDup (map e_node s)).
  { destruct HI as [(A & B & C & D & E & _)|(A & B & C & D & E & _)]; (split; [exact A|]); (split; [exact C|]); (split; [|exact E]); intros e He; destruct (D e He) as (F1 & F2 & F3 & _); (split; [lia|]); auto. }
  clear HI. destruct I as (Hl & HR & HE & HD). set (hc := hcell (s_head h) 0). assert (R0 : ring m0 hc (cells 0 s)) by (rewrite <- lvl0 by (intros e He; apply HE, He); apply (proj1 HR 0); lia).
  induction s2 as [|e s2 IH]; intros s1 n m tmp Es Em Hn Ht; [exists m; split; [destruct n; cbn [release_from cells map hd]; rewrite Z.eqb_refl; reflexivity|]; rewrite Es, app_nil_r; exact Em|].
  destruct n as [|n]; [cbn in Hn; lia|]. cbn [release_from cells map hd]. fold (cells 0 s2). specialize (Ht ltac:(discriminate)). cbn [tl] in Ht.
  assert (Hes : In e s) by (rewrite Es; apply in_or_app; right; left; reflexivity). assert (Ec : cells 0 s = cells 0 s1 ++ cell (e_node e) 0 :: cells 0 s2) by (rewrite Es; unfold cells; rewrite map_app; reflexivity).
  assert (Nh : cell (e_node e) 0 <> hc). { intros C. destruct R0 as [D _]. apply NoDup_cons_iff in D. apply (proj1 D). rewrite Ec. apply in_or_app. right. left. exact C. }
  rewrite (proj2 (Z.eqb_neq _ _) Nh). replace (cell (e_node e) 0 - 8) with (e_node e) by (unfold cell; lia).
  assert (Nd : forall x, In x s1 -> e_node x <> e_node e). { intros x Hx C. rewrite Es, map_app in HD. cbn [map] in HD. apply NoDup_remove_2 in HD. apply HD, in_or_app. left. rewrite <- C. apply in_map, Hx. }
  assert (Ed : forall g, g = KEY \/ g = BLOCK -> m (e_node e) g = m0 (e_node e) g). { intros g Hg. rewrite Em. apply wiped_other. intros x Hx. rewrite owns_data by exact Hg. apply Z.eqb_neq. intros C. apply (Nd x Hx). auto. }
  destruct (HE e Hes) as (HE1 & HE2 & HE3). unfold ld at 1. rewrite Ed, HE2 by auto. unfold free_node. unfold ld at 1. rewrite Ed, HE3 by auto. set (m1 := fun q g => if owns (e_node e) (e_height e) q g then None else m q g).
  assert (Em1 : forall q g, m1 q g = wiped (s1 ++ [e]) m0 q g). { intros q g. unfold m1. rewrite Em. unfold wiped. rewrite existsb_app. cbn [existsb]. destruct (existsb _ s1), (owns (e_node e) (e_height e) q g); reflexivity. }
  assert (Et : m1 tmp NEXT = m0 tmp NEXT).
  { rewrite Em1. apply wiped_other. intros x Hx. destruct (owns (e_node x) (e_height x) tmp NEXT) eqn:Ho; [exfalso|reflexivity]. apply owns_link in Ho; [|auto]. destruct Ho as (j & Hj & Ex).
    assert (Hxs : In x s) by (rewrite Es, in_app_iff; apply in_app_iff in Hx; cbn [In] in *; tauto). destruct (HE x Hxs) as (HX1 & _). assert (T0 : In tmp (hc :: cells 0 s2)) by (rewrite Ht; destruct (cells 0 s2) as [|y l]; [left; reflexivity|right; left; reflexivity]).
    destruct (Z.eq_dec j 0) as [->|Nj].
    - destruct R0 as [D _]. rewrite Ec in D. replace (cells 0 s1 ++ cell (e_node e) 0 :: cells 0 s2) with (cells 0 (s1 ++ [e]) ++ cells 0 s2) in D by (unfold cells; rewrite map_app, <- app_assoc; reflexivity). assert (T1 : In tmp (cells 0 (s1 ++ [e]))) by (rewrite Ex; unfold cells; apply in_map_iff; exists x; split; [reflexivity|exact Hx]).
      apply NoDup_cons_iff in D. destruct D as [D1 D2]. destruct T0 as [T0|T0]; [apply D1; rewrite T0; apply in_or_app; left; exact T1|]. apply (nodup_disj _ _ D2 tmp T1 T0).
    - apply ((proj2 HR) j 0 tmp); [lia|lia|exact Nj|right; apply lvl_in; exists x; split; [exact Hxs|split; [lia|exact Ex]]|]. destruct T0 as [T0|T0]; [left; exact T0|right]. rewrite lvl0 by (intros y Hy; apply HE, Hy). rewrite Ec. apply in_or_app. right. right. exact T0. }
  assert (Hseg : seg m0 (cell (e_node e) 0) (cells 0 s2) hc). { destruct R0 as [_ Q]. rewrite Ec in Q. change (cells 0 s1 ++ cell (e_node e) 0 :: cells 0 s2) with (cells 0 s1 ++ [cell (e_node e) 0] ++ cells 0 s2) in Q. rewrite app_assoc in Q. apply seg_from in Q. rewrite last_snoc in Q. exact Q. }
  assert (Hnx : exists nx, m0 tmp NEXT = Some nx /\ (s2 <> [] -> nx = hd hc (cells 0 (tl s2)))).
  { rewrite Ht. destruct s2 as [|e2 s2]; cbn [cells map hd tl] in *.
    - destruct (ring_nodes _ _ _ R0 hc (or_introl eq_refl)) as [[nx Hx] _]. exists nx. split; [exact Hx|contradiction].
    - cbn [seg] in Hseg. destruct Hseg as [_ Hseg]. exists (hd hc (cells 0 s2)). split; [apply (seg_next _ _ _ _ Hseg)|reflexivity]. }
  destruct Hnx as (nx & Hnx1 & Hnx2). unfold ld at 1. rewrite Et, Hnx1. destruct (IH (s1 ++ [e]) n m1 nx) as (m' & E & Em'); [rewrite Es, <- app_assoc; reflexivity|exact Em1|cbn [length] in Hn; lia|exact Hnx2|].
  rewrite Ht. rewrite E. exists m'. split; [reflexivity|exact Em'].
Qed.
Lemma release_all_ok m h s ok : sinv m h s ok -> (length s <= fuel)%nat -> exists m', release_all fuel m h = Some (m', map e_key s) /\ forall q g, m' q g = wiped s m q g.
Proof.
  intros HI Hf. pose proof HI as (Hl & Hc & HR & HE & _). unfold release_all. set (hc := hcell (s_head h) 0). assert (R0 : ring m hc (cells 0 s)) by (rewrite <- lvl0 by (intros e He; destruct (HE e He) as (A & _); lia); apply (proj1 HR 0); lia).
  unfold ld. rewrite (ring_next _ _ _ R0). assert (Hnx : exists nx, m (hd hc (cells 0 s)) NEXT = Some nx /\ (s <> [] -> nx = hd hc (cells 0 (tl s)))).
  { destruct s as [|e s]; cbn [cells map hd tl] in *; [destruct (ring_nodes _ _ _ R0 hc (or_introl eq_refl)) as [[nx Hx] _]; exists nx; split; [exact Hx|contradiction]|]. destruct R0 as [_ [_ Q]]. exists (hd hc (cells 0 s)). split; [apply (seg_next _ _ _ _ Q)|reflexivity]. }
  destruct Hnx as (nx & -> & Hnx). apply (release_from_ok m h s ltac:(destruct ok; auto) s [] fuel m nx eq_refl ltac:(reflexivity) Hf Hnx).
Qed.
Lemma heads_ne h i j : i <> j -> hcell h i <> hcell h j. Proof. unfold hcell. lia. Qed.
Lemma fresh_heads m h l : 1 <= l -> (forall j, 0 <= j < l -> node m (hcell h j)) -> exists m', init_heads (Z.to_nat l) m h 0 = Some m' /\ sinv m' {| s_head := h; s_curr := 0; s_levels := l |} [] true.
Proof.
  intros Hl HN. destruct (init_heads_ok h (Z.to_nat l) m 0) as (m' & E & A & B); [intros j Hj; apply HN; lia|]. exists m'. split; [exact E|]. split; [exact Hl|]. cbn [s_curr s_levels s_head]. split; [lia|]. split; [|split; [intros e []|split; [constructor|split; [constructor|reflexivity]]]].
  split; [intros i Hi; apply A; lia|]. intros i j x _ _ N [<-|[]] [C|[]]. apply (heads_ne h j i); auto.
Qed.
Lemma reset_ok m h s ok : sinv m h s ok -> (length s <= fuel)%nat -> exists m', skip_reset fuel m h = Some (m', with_curr h 0, map e_key s) /\ sinv m' (with_curr h 0) [] true.
Proof.
  intros HI Hf. destruct (release_all_ok m h s ok HI Hf) as (m1 & E & Em). unfold skip_reset. rewrite E. pose proof HI as (Hl & Hc & HR & HE & _). destruct (fresh_heads m1 (s_head h) (s_levels h) Hl) as (m' & E' & HI').
  - intros j Hj. destruct (ring_nodes _ _ _ (proj1 HR j Hj) (hcell (s_head h) j) (or_introl eq_refl)) as [A B]. assert (G : forall g, g = NEXT \/ g = PREV -> m1 (hcell (s_head h) j) g = m (hcell (s_head h) j) g).
    { intros g Hg. rewrite Em. apply wiped_other. intros e He. destruct (owns (e_node e) (e_height e) (hcell (s_head h) j) g) eqn:Ho; [exfalso|reflexivity]. apply owns_link in Ho; [|exact Hg]. destruct Ho as (i & Hi & Ei). destruct (HE e He) as (HE1 & _).
      assert (Hin : In (hcell (s_head h) j) (lvl i s)) by (apply lvl_in; exists e; split; [exact He|split; [lia|exact Ei]]). destruct (Z.eq_dec i j) as [->|N].
      - destruct (proj1 HR j Hj) as [D _]. apply NoDup_cons_iff in D. apply (proj1 D), Hin.
      - apply (proj2 HR i j (hcell (s_head h) j)); [lia|exact Hj|exact N|right; exact Hin|left; reflexivity]. }
    unfold node. rewrite !G by auto. split; assumption.
  - rewrite E'. exists m'. split; [reflexivity|exact HI'].
Qed.

(** ** One operation *)
(** Whatever heights are drawn and whatever the allocator answers, every operation does to the sorted list what it says. *)
Theorem C54_step : forall m h s o, sinv m h (st_list s) (st_ok s) -> sallowed cmp (s_levels h) s o -> (length (st_list s) <= fuel)%nat ->
  exists m' h' r s', apply_sop al cmp fuel m h o = Some (m', h', r) /\ sstep cmp (s_levels h) (exists size, al m size = NULL) s o r s' /\ sinv m' h' (st_list s') (st_ok s') /\ s_levels h' = s_levels h /\ s_head h' = s_head h /\ (r = RCode (- ENOMEM) -> m' = m).
Proof.
  intros m h [s ok] o HI HA Hf. cbn [st_list st_ok] in *. destruct o as [k rand|f|f|i|i|]; cbn [apply_sop sallowed st_list st_ok] in *.
  - destruct (insert_ok m h s ok k rand HI Hf) as [(E & E0 & HI')|(m' & n & L & R & E & Es & HL & HR & N1 & N2 & HI')]; rewrite E.
    + eexists _, _, _, _. split; [reflexivity|]. split; [apply insert_full; eexists; exact E0|]. cbn [st_list st_ok]. split; [exact HI'|]. auto.
    + eexists _, _, _, _. split; [reflexivity|]. split; [apply insert_new with (n := n) (L := L) (R := R); assumption|]. cbn [st_list st_ok]. split; [exact HI'|]. split; [reflexivity|]. split; [reflexivity|discriminate].
  - destruct HA as [-> HM]. unfold skip_find. destruct (find_ok m h s f HI HM Hf) as [(E & G)|(e & He & G & E)]; rewrite E.
    + eexists _, _, _, {| st_list := s; st_ok := true |}. split; [reflexivity|]. split; [apply find_none, G|]. split; [exact HI|]. split; [reflexivity|]. split; [reflexivity|discriminate].
    + eexists _, _, _, {| st_list := s; st_ok := true |}. split; [reflexivity|]. split; [apply find_one; assumption|]. split; [exact HI|]. split; [reflexivity|]. split; [reflexivity|discriminate].
  - destruct HA as [-> HM]. unfold skip_delete. destruct (find_ok m h s f HI HM Hf) as [(E & G)|(e & He & G & E)]; rewrite E.
    + rewrite Z.eqb_refl. eexists _, _, _, {| st_list := s; st_ok := true |}. split; [reflexivity|]. split; [apply del_none, G|]. split; [exact HI|]. split; [reflexivity|]. split; [reflexivity|discriminate].
    + assert (Ne : e_node e <> NULL) by (pose proof HI as (_ & _ & _ & HE & _); apply HE, He). rewrite (proj2 (Z.eqb_neq _ _) Ne). apply in_split in He. destruct He as (L & R & ->). destruct (delete_ok m h L e R true HI eq_refl) as (m1 & m' & E1 & E2 & HI'). rewrite E1, E2.
      eexists _, _, _, {| st_list := L ++ R; st_ok := true |}. split; [reflexivity|]. split; [apply del_one with (e := e); [reflexivity|exact G]|]. split; [exact HI'|]. split; [reflexivity|]. split; [reflexivity|discriminate].
  - unfold skip_each. pose proof HI as (_ & _ & HR & _). assert (Hl : (length (lvl i s) <= fuel)%nat) by (unfold lvl; rewrite map_length; pose proof (filter_length_le (fun e => i <? e_height e) s); lia). rewrite (for_each_ok _ _ _ fuel (proj1 HR i HA) Hl). rewrite lvl_nodes.
    eexists _, _, _, {| st_list := s; st_ok := ok |}. split; [reflexivity|]. split; [apply each_level|]. split; [exact HI|]. split; [reflexivity|]. split; [reflexivity|discriminate].
  - unfold skip_each_reverse. pose proof HI as (_ & _ & HR & _). assert (Hl : (length (lvl i s) <= fuel)%nat) by (unfold lvl; rewrite map_length; pose proof (filter_length_le (fun e => i <? e_height e) s); lia). rewrite (for_each_reverse_ok _ _ _ fuel (proj1 HR i HA) Hl). rewrite map_rev, lvl_nodes.
    eexists _, _, _, {| st_list := s; st_ok := ok |}. split; [reflexivity|]. split; [apply back_level|]. split; [exact HI|]. split; [reflexivity|]. split; [reflexivity|discriminate].
  - destruct (reset_ok m h s ok HI Hf) as (m' & E & HI'). rewrite E. eexists _, _, _, {| st_list := []; st_ok := true |}. split; [reflexivity|]. split; [apply reset_all|]. split; [exact HI'|]. split; [reflexivity|]. split; [reflexivity|discriminate].
Qed.
Lemma step_len levels full s o r s' : sstep cmp levels full s o r s' -> (length (st_list s') <= S (length (st_list s)))%nat.
Proof.
  intros H. destruct H; cbn [st_list]; try lia.
  - rewrite H, !app_length. cbn [length]. lia.
  - rewrite H, !app_length. cbn [length]. lia.
  - cbn. lia.
Qed.
Lemma run_ok levels prog : polite cmp levels prog -> forall n m h past s, s_levels h = levels -> sinv m h (st_list s) (st_ok s) -> reach cmp levels past s -> (length (st_list s) + n <= fuel)%nat ->
  exists m' h' past' s', run_sops al cmp fuel n prog m h past = Some (m', h', past') /\ sinv m' h' (st_list s') (st_ok s') /\ reach cmp levels past' s' /\ length past' = (length past + n)%nat.
Proof.
  intros HP. induction n as [|n IH]; intros m h past s Hl HI HR Hf; cbn [run_sops]; [exists m, h, past, s; split; [reflexivity|]; split; [exact HI|]; split; [exact HR|lia]|].
  assert (HA : sallowed cmp (s_levels h) s (prog past)) by (rewrite Hl; apply HP, HR). destruct (C54_step m h s (prog past) HI HA ltac:(lia)) as (m1 & h1 & r & s1 & E & HS & HI1 & Hl1 & _). rewrite E. cbn [fst snd]. pose proof (step_len _ _ _ _ _ _ HS) as Hlen. rewrite Hl in HS.
  destruct (IH m1 h1 (past ++ [(prog past, r)]) s1) as (m' & h' & past' & s' & E' & HI' & HR' & Hl'); [congruence|exact HI1| |lia|].
  - apply (reach_step cmp levels past s (prog past) r s1 HR). revert HS. clear. generalize (exists size, al m size = NULL). intros P H. destruct H; [eapply insert_new|eapply insert_full|eapply find_one|eapply find_none|eapply del_one|eapply del_none|eapply each_level|eapply back_level|eapply reset_all]; eauto.
  - exists m', h', past', s'. split; [exact E'|]. split; [exact HI'|]. split; [exact HR'|]. rewrite Hl', app_length. cbn [length]. lia.
Qed.
(** Creation. *)
Lemma create_ok m levels : 0 <= levels -> (skip_create al m levels = Some (m, None) /\ (levels = 0 \/ al m (16 + 16 * levels) = NULL)) \/
  exists m' h, skip_create al m levels = Some (m', Some h) /\ s_levels h = levels /\ sinv m' h [] true.
Proof.
  intros Hl. unfold skip_create. destruct (Z.eqb_spec levels 0) as [E|N]; [left; auto|]. destruct (Z.eqb_spec (al m (16 + 16 * levels)) NULL) as [E|N']; [left; auto|]. right. set (h := al m (16 + 16 * levels)) in *.
  destruct (fresh_heads (alloc_head m h levels) h levels ltac:(lia)) as (m' & E & HI).
  - intros j Hj. unfold node, alloc_head. assert (Ej : in_cells (h + 16) levels (hcell h j) = true) by (apply in_cells_spec; exists j; split; [exact Hj|reflexivity]). rewrite Ej. split; eexists; reflexivity.
  - rewrite E. eexists _, _. split; [reflexivity|]. split; [reflexivity|exact HI].
Qed.
(** Destruction hands every key to [release] once, in order. *)
Theorem C54_destroy : forall m h s ok, sinv m h s ok -> (length s <= fuel)%nat -> exists m', skip_destroy fuel m h = Some (m', map e_key s).
Proof. intros m h s ok HI Hf. destruct (release_all_ok m h s ok HI Hf) as (m1 & E & _). unfold skip_destroy. rewrite E. eexists. reflexivity. Qed.
End Skip.

(** A client that keeps to the rules, deciding from what it sees, is never stuck and sees a sorted list of nodes. *)
Theorem C54_history : forall al cmp levels fuel prog m n, ordering cmp -> allocator al -> 1 <= levels -> polite cmp levels prog -> (n <= fuel)%nat ->
  (skip_create al m levels = Some (m, None) /\ al m (16 + 16 * levels) = NULL) \/
  exists m1 h m' h' past s, skip_create al m levels = Some (m1, Some h) /\ run_sops al cmp fuel n prog m1 h [] = Some (m', h', past) /\ reach cmp levels past s /\ length past = n.
Proof.
  intros al cmp levels fuel prog m n O A Hl HP Hf. destruct (create_ok al cmp m levels ltac:(lia)) as [(E & D)|(m1 & h & E & El & HI)]; [left; split; [exact E|]; destruct D; [lia|assumption]|]. right.
  destruct (run_ok al cmp fuel O A levels prog HP n m1 h [] {| st_list := []; st_ok := true |} El HI (reach_nil cmp levels) ltac:(cbn; lia)) as (m' & h' & past & s & E' & HI' & HR & Hlen).
  exists m1, h, m', h', past, s. split; [exact E|]. split; [exact E'|]. split; [exact HR|exact Hlen].
Qed.
(** In every state that can be reached the nodes are distinct and in order, and every level is a sublist of the one below. *)
Lemma level_sub i s : sublist (level (i + 1) s) (level i s).
Proof.
  unfold level. induction s as [|e s IH]; [constructor|]. cbn [filter]. destruct (Z.ltb_spec (i + 1) (e_height e)), (Z.ltb_spec i (e_height e)); try lia; cbn [map]; [apply sub_take|apply sub_skip|]; exact IH.
Qed.
Theorem C54_sorted : forall cmp levels past s, ordering cmp -> 1 <= levels -> reach cmp levels past s ->
  in_order cmp (st_list s) /\ NoDup (map e_node (st_list s)) /\ level 0 (st_list s) = map e_node (st_list s) /\ (forall i, sublist (level (i + 1) (st_list s)) (level i (st_list s))) /\ forall e, In e (st_list s) -> 1 <= e_height e <= levels.
Proof.
  intros cmp levels past s O Hl HR. assert (G : in_order cmp (st_list s) /\ NoDup (map e_node (st_list s)) /\ forall e, In e (st_list s) -> 1 <= e_height e <= levels).
  { induction HR as [|past s o r s' HR (A & B & C) HS]; [split; [constructor|]; split; [constructor|intros e []]|]. destruct HS; cbn [st_list] in *; try (split; [exact A|]; split; [exact B|exact C]).
    - rewrite H in *. split; [apply sorted_insert; assumption|]. split; [rewrite map_app in *; cbn [map e_node]; apply NoDup_Add with (a := n) (l := map e_node L ++ map e_node R); [apply Add_app|split; assumption]|]. intros e He. rewrite in_app_iff in He. cbn [In] in He. destruct He as [He|[<-|He]]; [apply C, in_or_app; left; exact He|apply C54_height, Hl|apply C, in_or_app; right; exact He].
    - rewrite H in *. split; [apply (sorted_drop cmp L e R A)|]. split; [rewrite map_app in *; cbn [map] in B; apply NoDup_remove_1 in B; exact B|]. intros x Hx. apply C. rewrite in_app_iff in *. cbn [In]. tauto.
    - split; [constructor|]. split; [constructor|intros e []]. }
  destruct G as (A & B & C). split; [exact A|]. split; [exact B|]. split; [|split; [intros i; apply level_sub|exact C]]. unfold level. f_equal. revert C. clear. induction (st_list s) as [|e l IH]; intros C; [reflexivity|]. cbn [filter]. rewrite (proj2 (Z.ltb_lt 0 (e_height e))) by (specialize (C e (or_introl eq_refl)); lia). f_equal. apply IH. intros x Hx. apply C. right. exact Hx.
Qed.

(** ** A concrete history, and the failed insertion *)
Definition ex_cmp (a b : Z) : Z := a / 10 - b / 10.
Definition ex_free (m : mem) (b size : Z) : bool := forallb (fun q => match m q KEY, m q NEXT with None, None => true | _, _ => false end) (zseq b (Z.to_nat size)).
Fixpoint ex_try (n : nat) (m : mem) (b size : Z) : Z := match n with O => 0 | S n => if ex_free m b size then b else ex_try n m (b + 1000) size end.
Definition ex_al (m : mem) (size : Z) : Z := ex_try 5 m 1000 size.
Definition ex_m : mem := fun _ _ => None.
Definition low : nat -> Z := fun _ => 2000000000.
Definition mid : nat -> Z := fun k => match k with O => 0 | _ => 2000000000 end.
Definition high : nat -> Z := fun _ => 0.
Definition ex_find (k : Z) : Z -> Z := fun x => ex_cmp x k.
Definition ex_prog (past : list (sop * sres)) : sop :=
  nth (length past) [SInsert 50 low; SInsert 30 high; SInsert 70 mid; SInsert 31 low; SEach 0; SEach 1; SEach 2; SInsert 90 low; SReset] (SEach 0).
Example C54_law : ordering ex_cmp /\ allocator ex_al /\ polite ex_cmp 3 ex_prog /\ monotone ex_cmp (ex_find 30).
Proof.
  assert (G : forall n m b size, 0 < b -> ex_try n m b size = NULL \/ forall q, ex_try n m b size <= q < ex_try n m b size + size -> m q KEY = None /\ m q NEXT = None).
  { induction n as [|n IH]; intros m b size Hb; cbn [ex_try]; [left; reflexivity|]. destruct (ex_free m b size) eqn:E; [|apply IH; lia]. right. intros q Hq. unfold ex_free in E. rewrite forallb_forall in E. specialize (E q ltac:(apply zseq_in; lia)). destruct (m q KEY), (m q NEXT); try discriminate. auto. }
  split; [split; unfold ex_cmp; intros; lia|]. split; [intros m size; apply G; lia|]. split; [|intros a b H; unfold ex_find, ex_cmp in *; lia].
  intros h s _. unfold ex_prog. generalize (length h). intros n. do 10 (destruct n as [|n]; [cbn; (exact I || lia)|]). cbn. destruct n; lia.
Qed.
Example C54_ex : match skip_create ex_al ex_m 3 with Some (m, Some h) => option_map (fun r => map snd (snd r)) (run_sops ex_al ex_cmp 10 9 ex_prog m h []) | _ => None end =
  Some [RCode 0; RCode 0; RCode 0; RCode 0; RList [5000; 3000; 2000; 4000]; RList [3000; 4000]; RList [3000]; RCode (- ENOMEM); RList [31; 30; 50; 70]].
Proof. vm_compute. reflexivity. Qed.
Example C54_ex2 : match skip_create ex_al ex_m 3 with Some (m, Some h) =>
    match run_sops ex_al ex_cmp 10 4 ex_prog m h [] with
    | Some (m, h, _) => match skip_find 10 m h (ex_find 30), skip_delete 10 m h (ex_find 30) with Some n, Some (m', h') => option_map (fun l => (n, l)) (skip_each 10 m' h' 0) | _, _ => None end
    | None => None end | _ => None end = Some (3000, [5000; 2000; 4000]).
Proof. vm_compute. reflexivity. Qed.
(** A search after an insertion that failed reads a variable before it is set: the number of levels was raised first. *)
Theorem C54_refuted : exists al cmp levels m k rand f, ordering cmp /\ allocator al /\ monotone cmp f /\
  exists m1 h m2 h2, skip_create al m levels = Some (m1, Some h) /\ skip_insert al cmp 10 m1 h k rand = Some (m2, h2, - ENOMEM) /\ skip_find 10 m2 h2 f = None.
Proof.
  exists (fun m size => if size =? 64 then ex_al m size else 0), ex_cmp, 3, ex_m, 5, low, (ex_find 5). split; [apply C54_law|]. split; [intros m size; destruct (size =? 64); [apply C54_law|left; reflexivity]|]. split; [intros a b H; unfold ex_find, ex_cmp in *; lia|].
  eexists _, _, _, _. split; [vm_compute; reflexivity|]. split; [vm_compute; reflexivity|]. vm_compute. reflexivity.
Qed.
Print Assumptions C54_height.
Print Assumptions C54_step.
Print Assumptions C54_history.
Print Assumptions C54_sorted.
Print Assumptions C54_destroy.
Print Assumptions C54_refuted.
