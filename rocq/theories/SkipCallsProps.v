(** * C132: a skip list survives any comparison function *)
From Verif Require Import Lib RespoolProps Ptr ListModel ListSpec ListProofs ListProofs2 SkiplistModel SkiplistSpec SkiplistProofs SkiplistProps SkipCallsModel SkipCallsSpec SkipCallsProofs.

(** an order in which everything is in order *)
Definition flat (a b : Z) : Z := 0.
Lemma flat_order s : in_order flat s.
Proof. unfold in_order. induction s as [|e s IH]; constructor; [exact IH|]. apply Forall_forall. intros x _. unfold flat. lia. Qed.
Lemma flat_ordering : ordering flat. Proof. split; unfold flat; intros; lia. Qed.

Section Calls.
Variable al : mem -> Z -> Z.
Variable orc : list call -> call -> Z.
Variable fuel : nat.
Hypothesis AL : allocator al.
Lemma insert_o_ok tr m h s ok k rand : sinv flat m h s ok -> (length s <= fuel)%nat ->
  let lv := random_level (s_levels h) rand in let h' := with_curr h (Z.max (s_curr h) lv) in
  (skip_insert_o al orc fuel tr m h k rand = Some (m, h', - ENOMEM, tr) /\ al m (8 + 16 * lv) = NULL /\ sinv flat m h' s (ok && (lv <=? tallest s))) \/
  exists m' n L R cs, skip_insert_o al orc fuel tr m h k rand = Some (m', h', 0, cs ++ tr) /\ s = L ++ R /\ n <> NULL /\ ~ In n (map e_node s) /\ shown (cmp_with k) cs s /\
    sinv flat m' h' (L ++ {| e_node := n; e_key := k; e_height := lv |} :: R) ok.
Proof.
  intros (Hl & Hc & HR & HE & HD & HO & HT) Hf lv h'. assert (Hlv : 1 <= lv <= s_levels h) by (apply C54_height, Hl). unfold skip_insert_o. fold lv. cbv zeta. set (p := al m (8 + 16 * lv)). fold (with_curr h (Z.max (s_curr h) lv)). fold h'.
  destruct (Z.eqb_spec p NULL) as [E0|N0].
  - left. split; [reflexivity|]. split; [exact E0|]. split; [exact Hl|]. unfold h', with_curr. cbn [s_curr s_levels s_head]. split; [lia|]. split; [exact HR|]. split; [intros e He; destruct (HE e He) as (A & B); split; [lia|exact B]|]. split; [exact HD|]. split; [exact HO|].
    intros Hok. apply andb_true_iff in Hok. destruct Hok as [H1 H2]. rewrite (HT H1). lia.
  - right. destruct (AL m (8 + 16 * lv)) as [C|FR]; [contradiction|]. fold p in FR. set (e0 := {| e_node := p; e_key := k; e_height := lv |}).
    set (m1 := alloc_node m p lv). assert (K1 : m1 p KEY = Some 7) by (unfold m1, alloc_node; rewrite owns_data, Z.eqb_refl by (left; reflexivity); reflexivity). rewrite (st_some _ _ _ _ _ K1). set (m2 := upd m1 p KEY k).
    assert (Np : ~ In p (map e_node s)). { intros C. apply in_map_iff in C. destruct C as (e & Ee & He). destruct (HE e He) as (_ & A & _). rewrite Ee in A. destruct (FR p ltac:(lia)) as [B _]. congruence. }
    assert (Nc : forall i j, 0 <= i < s_levels h -> ~ In (cell p j) (hcell (s_head h) i :: lvl i s) \/ ~ 0 <= j < lv).
    { intros i j Hi. destruct (Z.lt_ge_cases j 0); [right; lia|]. destruct (Z.lt_ge_cases j lv); [|right; lia]. left. intros C. destruct (ring_has _ _ _ _ i (cell p j) NEXT HR Hi C (or_introl eq_refl)) as [v Hv]. destruct (FR (cell p j)) as [_ B]; [unfold cell; lia|congruence]. }
    assert (M2 : forall q g, owns p lv q g = false -> m2 q g = m q g). { intros q g Ho. unfold m2. destruct (Z.eq_dec q p) as [->|N]; [destruct (Z.eq_dec g KEY) as [->|N]; [rewrite owns_data, Z.eqb_refl in Ho by (left; reflexivity); discriminate|]|]; (rewrite upd_other by tauto); unfold m1, alloc_node; rewrite Ho; reflexivity. }
    assert (R2 : rings m2 (s_head h) (s_levels h) (fun i => lvl i s)).
    { apply (rings_keep m); [exact HR|]. intros i x g Hi Hx Hg. apply M2. destruct (owns p lv x g) eqn:Ho; [|reflexivity]. exfalso. apply owns_link in Ho; [|exact Hg]. destruct Ho as (j & Hj & ->). destruct (Nc i j Hi); [contradiction|lia]. }
    assert (D2 : forall e g, In e s -> g = KEY \/ g = BLOCK -> m2 (e_node e) g = m (e_node e) g).
    { intros e g He Hg. apply M2. rewrite owns_data by exact Hg. apply Z.eqb_neq. intros C. apply Np. rewrite <- C. apply in_map, He. }
    assert (HhL : forall e, In e s -> e_height e <= s_curr h') by (intros e He; destruct (HE e He) as (A & _); unfold h', with_curr; cbn [s_curr]; lia).
    assert (Hcz : Z.of_nat (Z.to_nat (s_curr h')) = s_curr h') by (rewrite Z2Nat.id; [reflexivity|unfold h', with_curr; cbn [s_curr]; lia]).
    destruct (insert_any orc fuel (cmp_with k) (s_head h) (s_levels h) s e0) with (n := Z.to_nat (s_curr h')) (tr := tr) (m := m2) (A := @nil entry) (B := s) (C := @nil entry) (walk := 0) (rv := @None Z) as (m' & L & R & cs & E & Es & Hcs & Has & RR & DD & KK).
    + intros x Hx. apply HE, Hx.
    + exact Hf.
    + exact Nc.
    + rewrite app_nil_r. reflexivity.
    + rewrite Hcz. unfold h', with_curr. cbn [s_curr]. lia.
    + rewrite Hcz. exact HhL.
    + left. reflexivity.
    + left. reflexivity.
    + apply (rings_ext _ _ _ _ _) with (2 := R2). intros i Hi. cbn beta. rewrite Hcz. destruct (Z.leb_spec (s_curr h') i) as [H|H]; [|reflexivity]. cbn [app]. assert (E1 : lvl i s = []) by (apply lvl_nil; intros x Hx; specialize (HhL x Hx); lia). rewrite E1. symmetry. apply lvl_nil. intros x [<-|[]]. cbn [e0 e_height]. unfold h', with_curr in H. cbn [s_curr] in H. lia.
    + intros e He. rewrite D2 by auto. apply HE, He.
    + intros i Hi _. cbn [e0 e_node e_height] in *. assert (G : forall g, g = NEXT \/ g = PREV -> exists x, m2 (cell p i) g = Some x).
      { intros g Hg. unfold m2. rewrite upd_other by (right; destruct Hg as [->| ->]; discriminate). unfold m1, alloc_node. rewrite owns_cell by assumption. eexists. reflexivity. }
      split; apply G; auto.
    + rewrite Hcz in E. rewrite top_left, top_right in E by (intros e []). cbn [e0 e_node e_height] in E. change (s_head h') with (s_head h). unfold cmp_with in E. rewrite E. exists m', p, L, R, cs. split; [reflexivity|]. split; [exact Es|]. split; [exact N0|]. split; [exact Np|]. split; [split; [exact Hcs|exact Has]|]. fold e0.
      split; [exact Hl|]. split; [unfold h', with_curr; cbn [s_curr s_levels]; lia|]. split; [exact RR|]. split.
      * intros e He. rewrite !DD by discriminate. apply in_app_iff in He. cbn [In] in He. assert (He' : e0 = e \/ In e s) by (rewrite Es, in_app_iff; tauto). destruct He' as [<-|He'].
        -- cbn [e0 e_node e_key e_height]. split; [unfold h', with_curr; cbn [s_curr]; lia|]. split; [unfold m2; apply upd_same|]. split; [|exact N0]. unfold m2. rewrite upd_other by (right; discriminate). unfold m1, alloc_node. rewrite owns_data, Z.eqb_refl by auto. reflexivity.
        -- rewrite !D2 by auto. destruct (HE e He') as (A & B & C & D). split; [unfold h', with_curr; cbn [s_curr]; lia|]. auto.
      * split; [|split; [apply flat_order|intros Hok; rewrite tallest_mid, <- Es, <- (HT Hok); unfold h', with_curr; cbn [s_curr e0 e_height]; lia]].
        rewrite map_app. cbn [map]. apply NoDup_Add with (a := p) (l := map e_node s); [|split; assumption]. rewrite Es, map_app. apply Add_app.
Qed.
Lemma tallest_reached s : s <> [] -> (forall e, In e s -> 1 <= e_height e) -> exists e, In e s /\ e_height e = tallest s.
Proof.
  induction s as [|e s IH]; intros N H; [congruence|]. cbn [tallest fold_right]. fold (tallest s). destruct (Z.max_spec (e_height e) (tallest s)) as [[A ->]|[A ->]]; [|exists e; split; [left; reflexivity|reflexivity]].
  destruct s as [|x s]; [specialize (H e (or_introl eq_refl)); cbn in A; lia|]. destruct IH as (y & Hy & Ey); [discriminate|intros z Hz; apply H; right; exact Hz|]. exists y. split; [right; exact Hy|exact Ey].
Qed.
Lemma find_o_ok tr m h s p : sinv flat m h s true -> (length s <= fuel)%nat ->
  exists cs, shown (find_with p) cs s /\
    ((skipnode_find_o orc fuel tr m h (find_with p) = Some (NULL, 0, cs ++ tr) /\ never_zero orc tr cs) \/
     exists e cs', In e s /\ cs = CFind (e_key e) p :: cs' /\ orc (cs' ++ tr) (CFind (e_key e) p) = 0 /\ never_zero orc tr cs' /\ skipnode_find_o orc fuel tr m h (find_with p) = Some (e_node e, e_height e, cs ++ tr)).
Proof.
  intros (Hl & Hc & HR & HE & HD & HO & HT) Hf. specialize (HT eq_refl). unfold skipnode_find_o. destruct (Z.eqb_spec (s_curr h) 0) as [E0|N0].
  - exists []. split; [split; [cbn; lia|intros c []]|]. left. split; [reflexivity|apply nonz_nil].
  - assert (Hcz : Z.of_nat (Z.to_nat (s_curr h)) = s_curr h) by (rewrite Z2Nat.id; lia).
    destruct (find_any orc fuel m (find_with p) (s_head h) (s_levels h) s HR) with (n := Z.to_nat (s_curr h)) (tr := tr) (A := @nil entry) (B := s) (C := @nil entry) (walk := 0) (rv := @None Z) as (cs & Hcs & Has & HQ).
    + intros e He. apply HE, He.
    + exact Hf.
    + rewrite app_nil_r. reflexivity.
    + lia.
    + rewrite Hcz. intros e He. apply HE, He.
    + left. reflexivity.
    + left. reflexivity.
    + intros _. rewrite Hcz, HT. apply tallest_reached; [|intros e He; apply HE, He]. intros ->. cbn in HT. lia.
    + discriminate.
    + exists cs. split; [split; [exact Hcs|exact Has]|]. rewrite Hcz in HQ. rewrite top_left, top_right in HQ by (intros e []). exact HQ.
Qed.
(** Every operation, in every state, does what it says on some arrangement of the nodes. *)
Theorem C132_step : forall tr m h s o, sinv flat m h (st_list s) (st_ok s) -> callowed (s_levels h) s o -> (length (st_list s) <= fuel)%nat ->
  exists m' h' r cs s', apply_cop al orc fuel tr m h o = Some (m', h', r, cs ++ tr) /\ cstep orc (s_levels h) (exists size, al m size = NULL) tr s o r cs s' /\ sinv flat m' h' (st_list s') (st_ok s') /\ s_levels h' = s_levels h.
Proof.
  intros tr m h [s ok] o HI HA Hf. cbn [st_list st_ok] in *. destruct o as [k rand|p|p|i|i|]; cbn [apply_cop callowed st_list st_ok] in *.
  - destruct (insert_o_ok tr m h s ok k rand HI Hf) as [(E & E0 & HI')|(m' & n & L & R & cs & E & Es & N1 & N2 & HS & HI')]; rewrite E; cbn [fst snd].
    + eexists _, _, _, [], _. split; [reflexivity|]. split; [apply c_full; eexists; exact E0|]. cbn [st_list st_ok]. split; [exact HI'|reflexivity].
    + eexists _, _, _, cs, _. split; [reflexivity|]. split; [apply c_insert with (n := n) (L := L) (R := R); assumption|]. cbn [st_list st_ok]. split; [exact HI'|reflexivity].
  - subst ok. unfold skip_find_o. destruct (find_o_ok tr m h s p HI Hf) as (cs & HS & [(E & G)|(e & cs' & He & Ec & G1 & G2 & E)]); unfold find_with in E at 1; rewrite E; cbn [fst].
    + eexists _, _, _, cs, {| st_list := s; st_ok := true |}. split; [reflexivity|]. split; [apply c_find_none; assumption|]. split; [exact HI|reflexivity].
    + eexists _, _, _, cs, {| st_list := s; st_ok := true |}. split; [reflexivity|]. split; [rewrite Ec in *; apply c_find_one; assumption|]. split; [exact HI|reflexivity].
  - subst ok. unfold skip_delete_o. destruct (find_o_ok tr m h s p HI Hf) as (cs & HS & [(E & G)|(e & cs' & He & Ec & G1 & G2 & E)]); unfold find_with in E at 1; rewrite E.
    + rewrite Z.eqb_refl. eexists _, _, _, cs, {| st_list := s; st_ok := true |}. split; [reflexivity|]. split; [apply c_del_none; assumption|]. split; [exact HI|reflexivity].
    + assert (Ne : e_node e <> NULL) by (pose proof HI as (_ & _ & _ & HE & _); apply HE, He). rewrite (proj2 (Z.eqb_neq _ _) Ne). apply in_split in He. destruct He as (L & R & ->). destruct (delete_ok flat m h L e R true HI eq_refl) as (m1 & m' & E1 & E2 & HI'). rewrite E1, E2.
      eexists _, _, _, cs, {| st_list := L ++ R; st_ok := true |}. split; [reflexivity|]. split; [rewrite Ec in *; apply (c_del_one orc (s_levels h) _ tr {| st_list := L ++ e :: R; st_ok := true |} p L e R cs'); [reflexivity|assumption|assumption|assumption]|]. split; [exact HI'|reflexivity].
  - unfold skip_each. pose proof HI as (_ & _ & HR & _). assert (Hl : (length (lvl i s) <= fuel)%nat) by (unfold lvl; rewrite map_length; pose proof (filter_length_le (fun e => i <? e_height e) s); lia). rewrite (for_each_ok _ _ _ fuel (proj1 HR i HA) Hl). rewrite lvl_nodes.
    eexists _, _, _, [], {| st_list := s; st_ok := ok |}. split; [reflexivity|]. split; [apply c_each|]. split; [exact HI|reflexivity].
  - unfold skip_each_reverse. pose proof HI as (_ & _ & HR & _). assert (Hl : (length (lvl i s) <= fuel)%nat) by (unfold lvl; rewrite map_length; pose proof (filter_length_le (fun e => i <? e_height e) s); lia). rewrite (for_each_reverse_ok _ _ _ fuel (proj1 HR i HA) Hl). rewrite map_rev, lvl_nodes.
    eexists _, _, _, [], {| st_list := s; st_ok := ok |}. split; [reflexivity|]. split; [apply c_back|]. split; [exact HI|reflexivity].
  - destruct (reset_ok flat fuel m h s ok HI Hf) as (m' & E & HI'). rewrite E. eexists _, _, _, [], {| st_list := []; st_ok := true |}. split; [reflexivity|]. split; [apply c_reset|]. split; [exact HI'|reflexivity].
Qed.
Lemma cstep_len levels full tr s o r cs s' : cstep orc levels full tr s o r cs s' -> (length (st_list s') <= S (length (st_list s)))%nat.
Proof.
  intros H. destruct H; cbn [st_list]; try lia.
  - rewrite H, !app_length. cbn [length]. lia.
  - rewrite H, !app_length. cbn [length]. lia.
  - cbn. lia.
Qed.
Lemma cstep_full levels full tr s o r cs s' : cstep orc levels full tr s o r cs s' -> cstep orc levels True tr s o r cs s'.
Proof. intros H. destruct H; [eapply c_insert|eapply c_full|eapply c_find_one|eapply c_find_none|eapply c_del_one|eapply c_del_none|eapply c_each|eapply c_back|eapply c_reset]; eauto. Qed.
Lemma run_o_ok levels prog : cpolite orc levels prog -> forall n tr m h past s, s_levels h = levels -> sinv flat m h (st_list s) (st_ok s) -> creach orc levels past tr s -> (length (st_list s) + n <= fuel)%nat ->
  exists m' h' past' tr' s', run_cops al orc fuel n prog tr m h past = Some (m', h', past', tr') /\ sinv flat m' h' (st_list s') (st_ok s') /\ creach orc levels past' tr' s' /\ length past' = (length past + n)%nat /\ (length (st_list s') <= fuel)%nat.
Proof.
  intros HP. induction n as [|n IH]; intros tr m h past s Hl HI HR Hf; cbn [run_cops]; [exists m, h, past, tr, s; split; [reflexivity|]; split; [exact HI|]; split; [exact HR|lia]|].
  assert (HA : callowed (s_levels h) s (prog past tr)) by (rewrite Hl; apply HP, HR). destruct (C132_step tr m h s (prog past tr) HI HA ltac:(lia)) as (m1 & h1 & r & cs & s1 & E & HS & HI1 & Hl1). rewrite E. cbn [fst snd]. pose proof (cstep_len _ _ _ _ _ _ _ _ HS) as Hlen. rewrite Hl in HS.
  destruct (IH (cs ++ tr) m1 h1 (past ++ [(prog past tr, r)]) s1) as (m' & h' & past' & tr' & s' & E' & HI' & HR' & Hl' & Hf'); [congruence|exact HI1|apply (creach_step orc levels past tr s _ _ _ _ HR (cstep_full _ _ _ _ _ _ _ _ HS))|lia|].
  exists m', h', past', tr', s'. split; [exact E'|]. split; [exact HI'|]. split; [exact HR'|]. rewrite Hl', app_length. cbn [length]. lia.
Qed.
End Calls.

(** A client with any comparison functions at all, deciding from everything it has seen: no call goes wrong, the list is always
    an arrangement of the nodes inserted and not deleted since, nodes are found and deleted only where a function answered 0,
    and destroy releases every key once. *)
Theorem C132_any : forall al orc levels fuel prog m n, allocator al -> 1 <= levels -> cpolite orc levels prog -> (n <= fuel)%nat ->
  (skip_create al m levels = Some (m, None) /\ al m (16 + 16 * levels) = NULL) \/
  exists m1 h m' h' past tr s m2, skip_create al m levels = Some (m1, Some h) /\ run_cops al orc fuel n prog [] m1 h [] = Some (m', h', past, tr) /\ creach orc levels past tr s /\ length past = n /\
    skip_destroy fuel m' h' = Some (m2, map e_key (st_list s)).
Proof.
  intros al orc levels fuel prog m n A Hl HP Hf. destruct (create_ok al flat m levels ltac:(lia)) as [(E & D)|(m1 & h & E & El & HI)]; [left; split; [exact E|]; destruct D; [lia|assumption]|]. right.
  destruct (run_o_ok al orc fuel A levels prog HP n [] m1 h [] {| st_list := []; st_ok := true |} El HI (creach_nil orc levels) ltac:(cbn; lia)) as (m' & h' & past & tr & s & E' & HI' & HR & Hlen & Hf').
  destruct (C54_destroy flat fuel m' h' (st_list s) (st_ok s) HI' Hf') as (m2 & E2). exists m1, h, m', h', past, tr, s, m2. split; [exact E|]. split; [exact E'|]. split; [exact HR|]. split; [exact Hlen|exact E2].
Qed.
(** In all these states the nodes are distinct, the lowest level has all of them, every level is a sublist of the one below. *)
Theorem C132_shape : forall orc levels past tr s, 1 <= levels -> creach orc levels past tr s ->
  NoDup (map e_node (st_list s)) /\ level 0 (st_list s) = map e_node (st_list s) /\ (forall i, sublist (level (i + 1) (st_list s)) (level i (st_list s))) /\ forall e, In e (st_list s) -> 1 <= e_height e <= levels.
Proof.
  intros orc levels past tr s Hl HR. assert (G : NoDup (map e_node (st_list s)) /\ forall e, In e (st_list s) -> 1 <= e_height e <= levels).
  { induction HR as [|past tr s o r cs s' HR (B & C) HS]; [split; [constructor|intros e []]|]. destruct HS; cbn [st_list] in *; try (split; [exact B|exact C]).
    - rewrite H in *. split; [rewrite map_app in *; cbn [map e_node]; apply NoDup_Add with (a := n) (l := map e_node L ++ map e_node R); [apply Add_app|split; assumption]|]. intros e He. rewrite in_app_iff in He. cbn [In] in He. destruct He as [He|[<-|He]]; [apply C, in_or_app; left; exact He|apply C54_height, Hl|apply C, in_or_app; right; exact He].
    - rewrite H in *. split; [rewrite map_app in *; cbn [map] in B; apply NoDup_remove_1 in B; exact B|]. intros x Hx. apply C. rewrite in_app_iff in *. cbn [In]. tauto.
    - split; [constructor|intros e []]. }
  destruct G as (B & C). split; [exact B|]. split; [|split; [intros i; apply level_sub|exact C]]. unfold level. f_equal. revert C. clear. induction (st_list s) as [|e l IH]; intros C; [reflexivity|]. cbn [filter]. rewrite (proj2 (Z.ltb_lt 0 (e_height e))) by (specialize (C e (or_introl eq_refl)); lia). f_equal. apply IH. intros x Hx. apply C. right. exact Hx.
Qed.

(** ** With ordinary functions these are the functions of C54 *)
Section Same.
Variable al : mem -> Z -> Z.
Variable cmp : Z -> Z -> Z.
Variable find : Z -> Z -> Z.
Variable fuel : nat.
Definition plain (tr : list call) (c : call) : Z := match c with CCmp k new => cmp k new | CFind k pdata => find k pdata end.
Lemma scan_from_same m ask test i (T : forall tr k, plain tr (ask k) = test k) : forall n tr pos lst walk rv, option_map fst (scan_from_o plain n tr m ask i pos lst walk rv) = scan_from n m test i pos lst walk rv.
Proof.
  induction n as [|n IH]; intros tr pos lst walk rv; cbn [scan_from_o scan_from]; (destruct (lst =? pos); [reflexivity|]); [reflexivity|]. destruct (ld m (pos - 8 - 16 * i) KEY) as [k|]; [|reflexivity]. cbv zeta. rewrite T. destruct (test k >=? 0); [reflexivity|]. destruct (ld m pos NEXT); [apply IH|reflexivity].
Qed.
Lemma scan_same m ask test i (T : forall tr k, plain tr (ask k) = test k) tr pos lst walk rv : option_map fst (scan_o plain fuel tr m ask i pos lst walk rv) = scan fuel m test i pos lst walk rv.
Proof. unfold scan_o, scan. destruct (ld m pos NEXT); [apply scan_from_same, T|reflexivity]. Qed.
Lemma find_same m ask test (T : forall tr k, plain tr (ask k) = test k) : forall n tr pos lst walk rv, option_map fst (find_down_o plain fuel n tr m ask pos lst walk rv) = find_down fuel n m test pos lst walk rv.
Proof.
  induction n as [|n IH]; intros tr pos lst walk rv; cbn [find_down_o find_down]; [reflexivity|]. rewrite <- (scan_same m ask test _ T tr). destruct (scan_o plain fuel tr m ask (Z.of_nat n) pos lst walk rv) as [[[[l w] r] tr']|]; cbn [option_map fst]; [|reflexivity]. destruct r as [r|]; [|reflexivity]. destruct (r =? 0); [reflexivity|]. destruct (ld m l PREV); [apply IH|reflexivity].
Qed.
Lemma insert_same ask test node level (T : forall tr k, plain tr (ask k) = test k) : forall n tr m pos lst walk rv, option_map fst (insert_down_o plain fuel n tr m ask node level pos lst walk rv) = insert_down fuel n m test node level pos lst walk rv.
Proof.
  induction n as [|n IH]; intros tr m pos lst walk rv; cbn [insert_down_o insert_down]; [reflexivity|]. rewrite <- (scan_same m ask test _ T tr). destruct (scan_o plain fuel tr m ask (Z.of_nat n) pos lst walk rv) as [[[[l w] r] tr']|]; cbn [option_map fst]; [|reflexivity]. destruct (ld m l PREV) as [q|]; [|reflexivity]. destruct (if Z.of_nat n <? level then list_add m q (cell node (Z.of_nat n)) else Some m); [apply IH|reflexivity].
Qed.
Theorem C132_same : forall tr m h,
  (forall k rand, option_map fst (skip_insert_o al plain fuel tr m h k rand) = skip_insert al cmp fuel m h k rand) /\
  (forall p, option_map fst (skip_find_o plain fuel tr m h p) = skip_find fuel m h (fun k => find k p)) /\
  (forall p, option_map fst (skip_delete_o plain fuel tr m h p) = skip_delete fuel m h (fun k => find k p)).
Proof.
  intros tr m h. assert (F : forall p, option_map fst (skipnode_find_o plain fuel tr m h (fun k => CFind k p)) = skipnode_find fuel m h (fun k => find k p)) by (intros p; unfold skipnode_find_o, skipnode_find; destruct (s_curr h =? 0); [reflexivity|apply find_same; reflexivity]).
  split; [|split].
  - intros k rand. unfold skip_insert_o, skip_insert. cbv zeta. set (lv := random_level (s_levels h) rand). destruct (al m (8 + 16 * lv) =? NULL); [reflexivity|]. destruct (st (alloc_node m (al m (8 + 16 * lv)) lv) (al m (8 + 16 * lv)) KEY k) as [m1|]; [|reflexivity]. cbn [s_curr s_head].
    rewrite <- (insert_same (fun x => CCmp x k) (fun x => cmp x k) _ _ (fun _ _ => eq_refl) _ tr). destruct (insert_down_o plain fuel _ tr m1 _ _ lv _ _ 0 None) as [[m' tr']|]; reflexivity.
  - intros p. unfold skip_find_o, skip_find. rewrite <- F. destruct (skipnode_find_o plain fuel tr m h (fun k => CFind k p)) as [[[n l] tr']|]; reflexivity.
  - intros p. unfold skip_delete_o, skip_delete. rewrite <- F. destruct (skipnode_find_o plain fuel tr m h (fun k => CFind k p)) as [[[n l] tr']|]; cbn [option_map fst]; [|reflexivity]. destruct (n =? NULL); [reflexivity|]. destruct (del_down (Z.to_nat l) m h n) as [[m1 h1]|]; [|reflexivity]. destruct (free_node m1 n); reflexivity.
Qed.
End Same.

(** ** A function that changes its mind, and a client that looks at the results *)
Definition ex_orc (tr : list call) (c : call) : Z := match c with CCmp _ _ => if Nat.even (length tr) then 1 else -1 | CFind k p => if k =? p then 0 else 1 end.
Definition failed (x : cop * sres) : bool := match snd x with RCode r => negb (r =? 0) | _ => false end.
Definition ex_cprog (past : list (cop * sres)) (tr : list call) : cop :=
  if existsb failed past then OEach 0 else nth (length past) [OInsert 5 mid; OInsert 3 low; OInsert 4 high; OEach 0; OEach 1; ODel 5; OEach 0; OEach 1] (OEach 0).
Lemma no_failure orc levels past tr s : creach orc levels past tr s -> existsb failed past = false -> st_ok s = true.
Proof.
  induction 1 as [|past tr s o r cs s' HR IH HS]; intros E; [reflexivity|]. rewrite existsb_app in E. apply orb_false_iff in E. destruct E as [E1 E2]. specialize (IH E1). destruct HS; cbn [st_ok]; try assumption; [discriminate E2|reflexivity].
Qed.
Example C132_law : allocator ex_al /\ cpolite ex_orc 3 ex_cprog /\
  match skip_create ex_al ex_m 3 with Some (m, Some h) => option_map (fun r => (map snd (snd (fst r)), snd r)) (run_cops ex_al ex_orc 10 8 ex_cprog [] m h []) | _ => None end =
  Some ([RCode 0; RCode 0; RCode 0; RList [3000; 2000; 4000]; RList [2000; 4000]; RUnit; RList [3000; 4000]; RList [4000]], [CFind 5 5; CFind 4 5; CCmp 5 4; CCmp 5 3]).
Proof.
  split; [apply C54_law|]. split; [|vm_compute; reflexivity]. intros h tr s HR. unfold ex_cprog. destruct (existsb failed h) eqn:Ef; [cbn; lia|]. pose proof (no_failure _ _ _ _ _ HR Ef) as Ok. generalize (length h). intros n. do 9 (destruct n as [|n]; [cbn; (exact I || exact Ok || lia)|]). cbn. destruct n; cbn; lia.
Qed.
Print Assumptions C132_step.
Print Assumptions C132_any.
Print Assumptions C132_shape.
Print Assumptions C132_same.
