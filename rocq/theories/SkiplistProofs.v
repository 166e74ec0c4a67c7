(** * Skip lists: families of rings, one level *)
From Verif Require Import Lib RespoolProps Ptr ListModel ListSpec ListProofs ListProofs2 SkiplistModel SkiplistSpec.

(** ** Several disjoint rings *)
Definition rings (m : mem) (h cap : Z) (c : Z -> list Z) : Prop :=
  (forall i, 0 <= i < cap -> ring m (hcell h i) (c i)) /\
  forall i j x, 0 <= i < cap -> 0 <= j < cap -> i <> j -> In x (hcell h i :: c i) -> ~ In x (hcell h j :: c j).
Definition setl (c : Z -> list Z) (i : Z) (l : list Z) : Z -> list Z := fun j => if j =? i then l else c j.
Lemma rings_ext m h cap c c' : (forall i, 0 <= i < cap -> c i = c' i) -> rings m h cap c -> rings m h cap c'.
Proof.
  intros E [R D]. split; [intros i Hi; rewrite <- (E i Hi); apply R, Hi|]. intros i j x Hi Hj N. rewrite <- (E i Hi), <- (E j Hj). apply D; assumption.
Qed.
Lemma rings_step m m' h cap c i l S : rings m h cap c -> 0 <= i < cap -> ring m' (hcell h i) l -> frame S m m' ->
  (forall x, In x S -> In x (hcell h i :: c i) \/ In x l) -> (forall x, In x l -> In x (c i) \/ forall j, 0 <= j < cap -> j <> i -> ~ In x (hcell h j :: c j)) ->
  rings m' h cap (setl c i l).
Proof.
  intros [R D] Hi R' F HS Hl.
  assert (G : forall j x, 0 <= j < cap -> j <> i -> In x (hcell h i :: l) -> ~ In x (hcell h j :: c j)).
  { intros j x Hj N [<-|Hx]; [apply (D i j); auto; left; reflexivity|]. destruct (Hl x Hx) as [H|H]; [apply (D i j); auto; right; exact H|apply H; assumption]. }
  split.
  - intros j Hj. unfold setl. destruct (Z.eqb_spec j i) as [->|N]; [exact R'|]. apply (ring_other m m' _ _ S F); [|apply R, Hj]. intros x Hx C. destruct (HS x C) as [H|H]; [apply (D i j x Hi Hj ltac:(auto) H Hx)|]. apply (G j x Hj N); [right; exact H|exact Hx].
  - intros j k x Hj Hk N. unfold setl. destruct (Z.eqb_spec j i) as [->|Nj], (Z.eqb_spec k i) as [->|Nk]; [contradiction| |intros H1 H2; apply (G j x Hj Nj H2 H1)|apply D; assumption]. apply G; auto.
Qed.
Lemma rings_keep m m' h cap c : rings m h cap c -> (forall i x g, 0 <= i < cap -> In x (hcell h i :: c i) -> g = NEXT \/ g = PREV -> m' x g = m x g) -> rings m' h cap c.
Proof.
  intros [R D] E. split; [|exact D]. intros i Hi. destruct (R i Hi) as [HD HS]. split; [exact HD|]. revert HS. apply seg_frame; intros x Hx; apply (E i); auto. apply in_app_iff in Hx. cbn in *. tauto.
Qed.

(** ** Positions in a ring *)
Lemma seg_from m : forall u a w b, seg m a (u ++ w) b -> seg m (last u a) w b.
Proof.
  induction u as [|x u IH]; intros a w b H; [exact H|]. cbn [app seg] in H. destruct H as [_ H]. specialize (IH _ _ _ H). rewrite last_cons. exact IH.
Qed.
Lemma seg_prev m : forall u a w b, seg m a (u ++ w) b -> m (hd b w) PREV = Some (last u a).
Proof.
  induction u as [|x u IH]; intros a w b H; [destruct w; cbn in *; apply H|]. cbn [app seg] in H. destruct H as [_ H]. rewrite last_cons. apply IH, H.
Qed.
Lemma seg_next m a w b : seg m a w b -> m a NEXT = Some (hd b w).
Proof. destruct w; cbn; intros H; apply H. Qed.

(** ** The cells of a level *)
Definition lvl (i : Z) (s : list entry) : list Z := map (fun e => cell (e_node e) i) (filter (fun e => i <? e_height e) s).
Lemma lvl_app i a b : lvl i (a ++ b) = lvl i a ++ lvl i b.
Proof. unfold lvl. rewrite filter_app, map_app. reflexivity. Qed.
Lemma lvl_in i s x : In x (lvl i s) <-> exists e, In e s /\ i < e_height e /\ x = cell (e_node e) i.
Proof.
  unfold lvl. rewrite in_map_iff. split.
  - intros (e & <- & H). apply filter_In in H. exists e. split; [apply H|]. split; [lia|reflexivity].
  - intros (e & H1 & H2 & ->). exists e. split; [reflexivity|]. apply filter_In. split; [exact H1|lia].
Qed.
Lemma lvl_nodes i s : map (fun c => c - 8 - 16 * i) (lvl i s) = level i s.
Proof. unfold lvl, level. rewrite map_map. apply map_ext. intros e. unfold cell. lia. Qed.
Lemma lvl_nil i s : lvl i s = [] <-> forall e, In e s -> e_height e <= i.
Proof.
  split.
  - intros H e He. destruct (Z.le_gt_cases (e_height e) i) as [L|L]; [exact L|]. assert (C : In (cell (e_node e) i) (lvl i s)) by (apply lvl_in; exists e; split; [exact He|split; [lia|reflexivity]]). rewrite H in C. destruct C.
  - intros H. destruct (lvl i s) as [|x l] eqn:E; [reflexivity|]. assert (C : In x (lvl i s)) by (rewrite E; left; reflexivity). apply lvl_in in C. destruct C as (e & H1 & H2 & _). specialize (H e H1). lia.
Qed.
Lemma tallest_le s t : 0 <= t -> (tallest s <= t <-> forall e, In e s -> e_height e <= t).
Proof.
  intros Ht. induction s as [|e s IH]; cbn [tallest fold_right]; [split; [intros _ e []|lia]|]. change (fold_right _ 0 s) with (tallest s). split.
  - intros H e' [<-|He]; [lia|]. apply IH; [lia|exact He].
  - intros H. assert (tallest s <= t) by (apply IH; intros e' He; apply H; right; exact He). specialize (H e (or_introl eq_refl)). lia.
Qed.
Lemma tallest_pos s : 0 <= tallest s.
Proof. induction s as [|e s IH]; cbn [tallest fold_right]; [lia|]. change (fold_right _ 0 s) with (tallest s). lia. Qed.
Lemma tallest_mid a e b : tallest (a ++ e :: b) = Z.max (e_height e) (tallest (a ++ b)).
Proof.
  induction a as [|x a IH]; [reflexivity|]. cbn [app tallest fold_right]. change (fold_right _ 0 (a ++ e :: b)) with (tallest (a ++ e :: b)). change (fold_right _ 0 (a ++ b)) with (tallest (a ++ b)). rewrite IH. lia.
Qed.

(** ** Going down one level *)
Lemma down_right h j R : exists R0 R1, R = R0 ++ R1 /\ lvl j R0 = [] /\ hd (hcell h j) (lvl j R) - 16 = hd (hcell h (j - 1)) (lvl (j - 1) R1) /\ (R1 = [] \/ exists x R', R1 = x :: R' /\ j < e_height x).
Proof.
  induction R as [|e R IH]; [exists [], []; split; [reflexivity|]; split; [reflexivity|]; split; [unfold lvl; cbn [filter map hd last]; unfold hcell; lia|left; reflexivity]|].
  destruct (Z.ltb_spec j (e_height e)) as [H|H].
  - exists [], (e :: R). split; [reflexivity|]. split; [reflexivity|]. split; [|right; eauto]. unfold lvl. cbn [filter]. rewrite (proj2 (Z.ltb_lt _ _) H). rewrite (proj2 (Z.ltb_lt (j - 1) (e_height e))) by lia. cbn [map hd]. unfold cell. lia.
  - destruct IH as (R0 & R1 & -> & H0 & H1 & H2). exists (e :: R0), R1. split; [reflexivity|]. unfold lvl in *. cbn [app filter]. rewrite (proj2 (Z.ltb_ge _ _) H). split; [assumption|]. split; assumption.
Qed.
Lemma down_left h j : forall L, exists L0 L1, L = L0 ++ L1 /\ lvl j L1 = [] /\ last (lvl j L) (hcell h j) - 16 = last (lvl (j - 1) L0) (hcell h (j - 1)) /\ (L0 = [] \/ exists x, In x L0 /\ j < e_height x).
Proof.
  apply rev_ind; [exists [], []; split; [reflexivity|]; split; [reflexivity|]; split; [unfold lvl; cbn [filter map hd last]; unfold hcell; lia|left; reflexivity]|]. intros e L (L0 & L1 & E & H0 & H1 & H2). destruct (Z.ltb_spec j (e_height e)) as [H|H].
  - exists (L ++ [e]), []. split; [rewrite app_nil_r; reflexivity|]. split; [reflexivity|]. split; [|right; exists e; split; [apply in_or_app; right; left; reflexivity|exact H]]. rewrite !lvl_app. unfold lvl at 2 4. cbn [filter]. rewrite (proj2 (Z.ltb_lt _ _) H). rewrite (proj2 (Z.ltb_lt (j - 1) (e_height e))) by lia. cbn [map]. rewrite !last_snoc. unfold cell. lia.
  - exists L0, (L1 ++ [e]). split; [rewrite E, app_assoc; reflexivity|]. assert (G : lvl j [e] = []) by (unfold lvl; cbn [filter]; rewrite (proj2 (Z.ltb_ge _ _) H); reflexivity). rewrite !lvl_app, G, H0, !app_nil_r. split; [reflexivity|]. split; [exact H1|exact H2].
Qed.

(** ** Scanning one level *)
Definition keyed (m : mem) (s : list entry) : Prop := forall e, In e s -> m (e_node e) KEY = Some (e_key e).
Definition cells (i : Z) (l : list entry) : list Z := map (fun e => cell (e_node e) i) l.
Lemma hd_ne (h c : Z) l1 l2 : NoDup (h :: l1 ++ c :: l2) -> forall k k', l2 = k ++ k' -> hd h k' <> c.
Proof.
  intros D k k' ->. change (NoDup ((h :: l1) ++ c :: k ++ k')) in D. apply NoDup_remove_2 in D. intros E. apply D. destruct k' as [|x k']; cbn [hd] in E; [left; exact E|]. subst x. apply in_or_app. right. apply in_or_app. right. left. reflexivity.
Qed.
Definition scan_res (test : Z -> Z) (V X : list entry) (walk : Z) (rv : option Z) (walk' : Z) (rv' : option Z) : Prop :=
  match X with
  | e :: _ => walk' = e_node e /\ rv' = Some (test (e_key e))
  | [] => match V with [] => walk' = walk /\ rv' = rv | _ => exists r, rv' = Some r /\ r < 0 end
  end.
Lemma scan_from_ok m test i h : forall V X Y a n walk rv, NoDup (h :: cells i (V ++ X ++ Y)) -> seg m a (cells i (V ++ X ++ Y)) h -> keyed m (V ++ X) ->
  (forall e, In e V -> test (e_key e) < 0) -> (forall e, In e X -> test (e_key e) >= 0) -> (length (V ++ X) <= n)%nat ->
  exists walk' rv', scan_from n m test i (hd h (cells i (V ++ X ++ Y))) (hd h (cells i Y)) walk rv = Some (hd h (cells i (X ++ Y)), walk', rv') /\ scan_res test V X walk rv walk' rv'.
Proof.
  induction V as [|v V IH]; intros X Y a n walk rv D HS HK HV HX Hn.
  - destruct X as [|x X]; cbn [app] in *.
    + exists walk, rv. split; [|split; reflexivity]. destruct n; cbn [scan_from]; rewrite Z.eqb_refl; reflexivity.
    + destruct n as [|n]; [cbn in Hn; lia|]. cbn [scan_from cells map hd]. fold (cells i (X ++ Y)) (cells i Y). assert (N : hd h (cells i Y) <> cell (e_node x) i) by (apply (hd_ne h _ [] (cells i (X ++ Y)) D (cells i X)); apply map_app).
      rewrite (proj2 (Z.eqb_neq _ _) N). replace (cell (e_node x) i - 8 - 16 * i) with (e_node x) by (unfold cell; lia). unfold ld. rewrite (HK x) by (left; reflexivity). rewrite (proj2 (Z.geb_le _ _)) by (specialize (HX x (or_introl eq_refl)); lia).
      eexists _, _. split; [reflexivity|]. split; reflexivity.
  - destruct n as [|n]; [cbn in Hn; lia|]. cbn [app scan_from cells map hd] in *. fold (cells i (V ++ X ++ Y)) in *. fold (cells i Y). assert (N : hd h (cells i Y) <> cell (e_node v) i) by (apply (hd_ne h _ [] (cells i (V ++ X ++ Y)) D (cells i (V ++ X))); unfold cells; rewrite <- map_app, app_assoc; reflexivity).
    rewrite (proj2 (Z.eqb_neq _ _) N). replace (cell (e_node v) i - 8 - 16 * i) with (e_node v) by (unfold cell; lia). unfold ld at 1. rewrite (HK v) by (left; reflexivity). pose proof (HV v (or_introl eq_refl)) as Hv. assert (G : test (e_key v) >=? 0 = false) by (rewrite Z.geb_leb; apply Z.leb_gt; lia). rewrite G.
    cbn [seg] in HS. destruct HS as [_ HS]. unfold ld. rewrite (seg_next _ _ _ _ HS).
    destruct (IH X Y (cell (e_node v) i) n (e_node v) (Some (test (e_key v)))) as (w & r & E & HR); try assumption.
    + apply NoDup_cons_iff in D. destruct D as [D1 D2]. apply NoDup_cons_iff in D2. constructor; [intros C; apply D1; right; exact C|apply D2].
    + intros e He. apply HK. right. exact He.
    + intros e He. apply HV. right. exact He.
    + cbn [length] in Hn. lia.
    + exists w, r. split; [exact E|]. unfold scan_res in *. destruct X as [|x X]; [|exact HR]. destruct V as [|v' V]; [|exact HR]. destruct HR as [_ ->]. eexists. split; [reflexivity|exact Hv].
Qed.
Lemma filter_length_le {A} (f : A -> bool) l : (length (filter f l) <= length l)%nat.
Proof. induction l as [|x l IH]; [apply le_n|]. cbn [filter]. destruct (f x); cbn [length]; lia. Qed.
Definition up (i : Z) (s : list entry) : list entry := filter (fun e => i <? e_height e) s.
Lemma scan_ok fuel m test i h s L0 L1 R0 R1 walk rv : ring m (hcell h i) (lvl i s) -> s = (L0 ++ L1) ++ R0 ++ R1 -> keyed m s ->
  (forall e, In e (L0 ++ L1) -> test (e_key e) < 0) -> (forall e, In e (R0 ++ R1) -> test (e_key e) >= 0) -> (length s <= fuel)%nat ->
  exists walk' rv', scan fuel m test i (last (lvl i L0) (hcell h i)) (hd (hcell h i) (lvl i R1)) walk rv = Some (hd (hcell h i) (lvl i (R0 ++ R1)), walk', rv') /\
    scan_res test (up i L1) (up i R0) walk rv walk' rv' /\ ld m (hd (hcell h i) (lvl i (R0 ++ R1))) PREV = Some (last (lvl i (L0 ++ L1)) (hcell h i)).
Proof.
  intros [D HS] -> HK HL HR Hf. unfold scan. pose proof HS as HS2. rewrite lvl_app in HS2. apply seg_prev in HS2. rewrite <- app_assoc, lvl_app in D, HS. pose proof (seg_from _ _ _ _ _ HS) as HS1. unfold ld. rewrite (seg_next _ _ _ _ HS1), HS2.
  assert (E : lvl i (L1 ++ R0 ++ R1) = cells i (up i L1 ++ up i R0 ++ up i R1)) by (unfold lvl, cells, up; rewrite !filter_app; reflexivity). rewrite E in *.
  destruct (scan_from_ok m test i (hcell h i) (up i L1) (up i R0) (up i R1) (last (lvl i L0) (hcell h i)) fuel walk rv) as (w & r & E' & HR').
  - apply NoDup_cons_iff in D. destruct D as [D1 D2]. constructor; [intros C; apply D1, in_or_app; right; exact C|apply (nodup_r _ _ D2)].
  - exact HS1.
  - intros e He. apply HK. apply in_app_iff in He. unfold up in He. rewrite !filter_In in He. rewrite !in_app_iff. tauto.
  - intros e He. apply filter_In in He. apply HL, in_or_app. right. apply He.
  - intros e He. apply filter_In in He. apply HR, in_or_app. left. apply He.
  - eapply Nat.le_trans; [|exact Hf]. rewrite !app_length. unfold up. pose proof (filter_length_le (fun e => i <? e_height e) L1). pose proof (filter_length_le (fun e => i <? e_height e) R0). lia.
  - exists w, r. split; [|split; [exact HR'|reflexivity]]. assert (E1 : lvl i R1 = cells i (up i R1)) by reflexivity. assert (E2 : lvl i (R0 ++ R1) = cells i (up i R0 ++ up i R1)) by (unfold lvl, cells, up; rewrite filter_app; reflexivity). rewrite E1, E2. exact E'.
Qed.

(** ** Searching *)
Lemma up_nil i s : lvl i s = [] -> up i s = [].
Proof. unfold lvl, up. destruct (filter _ s); [reflexivity|discriminate]. Qed.
Lemma find_down_ok fuel m f h cap s L E G : rings m h cap (fun i => lvl i s) -> s = L ++ E ++ G -> keyed m s -> (forall e, In e s -> 1 <= e_height e) ->
  (forall e, In e L -> f (e_key e) < 0) -> (forall e, In e E -> f (e_key e) = 0) -> (forall e, In e G -> f (e_key e) > 0) -> (length s <= fuel)%nat ->
  forall n walk rv, Z.of_nat n <= cap -> lvl (Z.of_nat n) E = [] -> (rv = None -> lvl (Z.of_nat n) s = [] /\ lvl (Z.of_nat n - 1) s <> []) -> rv <> Some 0 ->
  let pos := last (lvl (Z.of_nat n) L) (hcell h (Z.of_nat n)) - 16 in let lst := hd (hcell h (Z.of_nat n)) (lvl (Z.of_nat n) (E ++ G)) - 16 in
  (E = [] /\ find_down fuel n m f pos lst walk rv = Some (NULL, 0)) \/
  exists e, In e E /\ find_down fuel n m f pos lst walk rv = Some (e_node e, e_height e) /\ forall e', In e' E -> e_height e' <= e_height e.
Proof.
  intros [HR _] Es HK Hh HL HE HG Hf. induction n as [|n IH]; intros walk rv Hn HEn Hr0 Hr; cbv zeta.
  - left. split; [|reflexivity]. destruct E as [|e E]; [reflexivity|]. assert (A : e_height e <= 0) by (apply (proj1 (lvl_nil _ _) HEn); left; reflexivity). specialize (Hh e ltac:(rewrite Es; apply in_or_app; right; left; reflexivity)). lia.
  - replace (Z.of_nat (S n)) with (Z.of_nat n + 1) in * by lia. set (i := Z.of_nat n) in *. destruct (down_left h (i + 1) L) as (L0 & L1 & EL & HL1 & -> & HX0). destruct (down_right h (i + 1) (E ++ G)) as (R0 & R1 & ER & HR0 & -> & HX1). replace (i + 1 - 1) with i in * by lia.
    cbn [find_down]. fold i. destruct (scan_ok fuel m f i h s L0 L1 R0 R1 walk rv) as (w & r & ES & HS & HP); [apply HR; lia|rewrite <- EL, <- ER; exact Es|exact HK|rewrite <- EL; exact HL| |exact Hf|].
    { rewrite <- ER. intros e He. apply in_app_iff in He. destruct He as [He|He]; [rewrite (HE e He); lia|specialize (HG e He); lia]. }
    rewrite ES. rewrite HP.
    (* where the nodes that match are *)
    assert (K : up i E <> [] -> exists e, hd_error (up i R0) = Some e /\ In e E /\ e_height e = i + 1).
    { intros K. destruct (up i E) as [|e E'] eqn:Eu; [contradiction|]. assert (He : In e (up i E)) by (rewrite Eu; left; reflexivity). apply filter_In in He. destruct He as [He1 He2]. pose proof (proj1 (lvl_nil _ _) HEn e He1) as He3.
      exists e. split; [|split; [exact He1|lia]]. assert (Q : up i R0 ++ up i R1 = up i E ++ up i G) by (unfold up; rewrite <- !filter_app, ER; reflexivity). rewrite Eu in Q.
      destruct (up i R0) as [|x R0'] eqn:Er; [exfalso|cbn [app] in Q; injection Q as -> _; reflexivity]. cbn [app] in Q.
      destruct HX1 as [->|(x & R' & -> & Hx)]; [discriminate Q|]. unfold up in Q at 1. cbn [filter] in Q. rewrite (proj2 (Z.ltb_lt _ _)) in Q by lia. injection Q as <- _. lia. }
    destruct (up i E) as [|e0 E0] eqn:Eu.
    + clear K. assert (EN : forall e, In e E -> e_height e <= i).
      { apply lvl_nil. unfold lvl. fold (up i E). rewrite Eu. reflexivity. }
      assert (Hr1 : exists v, r = Some v /\ v <> 0).
      { unfold scan_res in HS. destruct (up i R0) as [|x R0'] eqn:Er.
        - destruct (up i L1) as [|y L1'] eqn:El; [|destruct HS as (v & -> & Hv); exists v; split; [reflexivity|lia]]. destruct HS as [_ ->]. destruct rv as [v|]; [exists v; split; [reflexivity|congruence]|]. exfalso. destruct (Hr0 eq_refl) as [A B]. apply B.
          pose proof (proj1 (lvl_nil _ _) A) as A'. unfold lvl. assert (C : up i s = []); [|unfold up in C; rewrite C; reflexivity]. rewrite Es, EL, ER.
          assert (E1 : L0 = []) by (destruct HX0 as [->|(x & Hx & Hx')]; [reflexivity|]; specialize (A' x ltac:(rewrite Es, EL; apply in_or_app; left; apply in_or_app; left; exact Hx)); lia).
          assert (E2 : R1 = []) by (destruct HX1 as [->|(x & R' & -> & Hx')]; [reflexivity|]; specialize (A' x ltac:(rewrite Es, ER; apply in_or_app; right; apply in_or_app; right; left; reflexivity)); lia).
          rewrite E1, E2. unfold up in *. cbn [app]. rewrite app_nil_r, filter_app, El, Er. reflexivity.
        - destruct HS as [_ ->]. exists (f (e_key x)). split; [reflexivity|]. assert (Hx : In x (up i R0)) by (rewrite Er; left; reflexivity). apply filter_In in Hx. destruct Hx as [Hx1 Hx2]. assert (Hx : In x (E ++ G)) by (rewrite ER; apply in_or_app; left; exact Hx1).
          apply in_app_iff in Hx. destruct Hx as [Hx|Hx]; [specialize (EN x Hx); lia|specialize (HG x Hx); lia]. }
      destruct Hr1 as (v & -> & Hv). rewrite (proj2 (Z.eqb_neq _ _) Hv). rewrite <- EL, <- ER. apply IH; [lia|apply lvl_nil, EN|discriminate|congruence].
    + destruct K as (e & K1 & K2 & K3); [discriminate|]. right. exists e. split; [exact K2|]. unfold scan_res in HS. destruct (up i R0) as [|x R0']; [discriminate|]. injection K1 as ->. destruct HS as [-> ->]. rewrite (HE e K2), Z.eqb_refl, <- K3. split; [reflexivity|].
      intros e' He'. rewrite K3. apply (proj1 (lvl_nil _ _) HEn e' He').
Qed.

(** ** Inserting on the way down *)
Lemma node_keep S m m' x : frame S m m' -> ~ In x S -> node m x -> node m' x.
Proof. apply frame_node. Qed.
Lemma lvl_mid i L e R : lvl i (L ++ e :: R) = lvl i L ++ (if i <? e_height e then [cell (e_node e) i] else []) ++ lvl i R.
Proof. change (e :: R) with ([e] ++ R). rewrite !lvl_app. f_equal. f_equal. unfold lvl. cbn [filter]. destruct (i <? e_height e); reflexivity. Qed.
Lemma insert_down_ok fuel test h cap L e R : (forall x, In x L -> test (e_key x) < 0) -> (forall x, In x R -> test (e_key x) >= 0) -> (length (L ++ R) <= fuel)%nat ->
  (forall i j, 0 <= i < cap -> ~ In (cell (e_node e) j) (hcell h i :: lvl i (L ++ R)) \/ ~ 0 <= j < e_height e) ->
  forall n m walk rv, Z.of_nat n <= cap -> rings m h cap (fun i => if Z.of_nat n <=? i then lvl i (L ++ e :: R) else lvl i (L ++ R)) -> keyed m (L ++ R) ->
  (forall i, 0 <= i < e_height e -> i < Z.of_nat n -> node m (cell (e_node e) i)) ->
  exists m', insert_down fuel n m test (e_node e) (e_height e) (last (lvl (Z.of_nat n) L) (hcell h (Z.of_nat n)) - 16) (hd (hcell h (Z.of_nat n)) (lvl (Z.of_nat n) R) - 16) walk rv = Some m' /\
    rings m' h cap (fun i => lvl i (L ++ e :: R)) /\ (forall q g, g <> NEXT -> g <> PREV -> m' q g = m q g) /\ keeps m m'.
Proof.
  intros HL HR Hf HF. induction n as [|n IH]; intros m walk rv Hn HG HK HN.
  - exists m. split; [reflexivity|]. split; [|split; [reflexivity|apply keeps_refl]]. apply (rings_ext _ _ _ _ _) with (2 := HG). intros i Hi. cbn beta. rewrite (proj2 (Z.leb_le (Z.of_nat 0) i)) by lia. reflexivity.
  - replace (Z.of_nat (S n)) with (Z.of_nat n + 1) in * by lia. set (i := Z.of_nat n) in *. destruct (down_left h (i + 1) L) as (L0 & L1 & EL & _ & -> & _). destruct (down_right h (i + 1) R) as (R0 & R1 & ER & _ & -> & _). replace (i + 1 - 1) with i in * by lia.
    cbn [insert_down]. fold i. pose proof (proj1 HG i ltac:(lia)) as Ri. cbn beta in Ri. rewrite (proj2 (Z.leb_gt (i + 1) i)) in Ri by lia.
    destruct (scan_ok fuel m test i h (L ++ R) L0 L1 R0 R1 walk rv Ri) as (w & r & ES & _ & HP); [rewrite <- EL, <- ER; reflexivity|exact HK|rewrite <- EL; exact HL|rewrite <- ER; exact HR|exact Hf|]. rewrite ES, HP. rewrite <- EL, <- ER in *.
    destruct (Z.ltb_spec i (e_height e)) as [Hi|Hi].
    + rewrite lvl_app in Ri. assert (Ni : ~ In (cell (e_node e) i) (hcell h i :: lvl i L ++ lvl i R)) by (rewrite <- lvl_app; destruct (HF i i ltac:(lia)) as [H|H]; [exact H|lia]).
      destruct (add_last m (hcell h i) (lvl i L) (lvl i R) (cell (e_node e) i) Ri (HN i ltac:(lia) ltac:(lia)) Ni) as (m1 & E1 & R1' & F1). rewrite E1.
      assert (HG1 : rings m1 h cap (fun j => if i <=? j then lvl j (L ++ e :: R) else lvl j (L ++ R))).
      { eapply rings_ext; [|eapply (rings_step m m1 h cap _ i (lvl i L ++ cell (e_node e) i :: lvl i R) _ HG ltac:(lia) R1' F1)].
        - intros j Hj. unfold setl. destruct (Z.eqb_spec j i) as [->|N].
          + rewrite Z.leb_refl, lvl_mid, (proj2 (Z.ltb_lt _ _) Hi). reflexivity.
          + destruct (Z.leb_spec i j), (Z.leb_spec (i + 1) j); try reflexivity; lia.
        - cbn beta. rewrite (proj2 (Z.leb_gt (i + 1) i)) by lia. rewrite lvl_app. intros x [<-|[<-|Hx]]; [right; apply in_or_app; right; left; reflexivity|left; left; reflexivity|left; right; exact Hx].
        - cbn beta. rewrite (proj2 (Z.leb_gt (i + 1) i)) by lia. rewrite lvl_app. intros x Hx. apply in_app_iff in Hx. destruct Hx as [Hx|[<-|Hx]]; [left; apply in_or_app; left; exact Hx| |left; apply in_or_app; right; exact Hx]. right. intros j Hj N C.
          assert (Nj : ~ In (cell (e_node e) i) (hcell h j :: lvl j (L ++ R))) by (destruct (HF j i ltac:(lia)) as [H|H]; [exact H|lia]). destruct C as [C|C]; [apply Nj; left; exact C|]. destruct (i + 1 <=? j); [|apply Nj; right; exact C].
          rewrite lvl_mid in C. rewrite lvl_app in Nj. rewrite !in_app_iff in C. destruct C as [C|[C|C]]; [apply Nj; right; apply in_or_app; left; exact C| |apply Nj; right; apply in_or_app; right; exact C].
          destruct (j <? e_height e); [|destruct C]. destruct C as [C|[]]. unfold cell in C. lia. }
      destruct (IH m1 w r ltac:(lia) HG1) as (m' & E2 & A & B & C).
      * intros x Hx. rewrite F1; [apply HK, Hx|]. right. split; unfold KEY, PREV, NEXT; discriminate.
      * intros j Hj1 Hj2. apply (keeps_node m m1); [apply (keeps_add _ _ _ _ E1)|]. apply HN; lia.
      * exists m'. split; [exact E2|]. split; [exact A|]. split; [intros q g H1 H2; rewrite (B q g H1 H2); apply F1; right; split; assumption|]. apply (keeps_trans _ _ _ (keeps_add _ _ _ _ E1) C).
    + destruct (IH m w r ltac:(lia)) as (m' & E2 & A & B & C).
      * apply (rings_ext m h cap _ _) with (2 := HG). intros j Hj. cbn beta. destruct (Z.leb_spec i j), (Z.leb_spec (i + 1) j); try reflexivity; try lia. replace j with i by lia. rewrite lvl_mid, (proj2 (Z.ltb_ge _ _)) by lia. rewrite lvl_app. reflexivity.
      * exact HK.
      * intros j Hj1 Hj2. apply HN; lia.
      * exists m'. split; [exact E2|]. split; [exact A|]. split; [exact B|exact C].
Qed.

(** ** Deleting on the way down *)
Definition with_curr (h : skip) (c : Z) : skip := {| s_head := s_head h; s_curr := c; s_levels := s_levels h |}.
Lemma del_down_ok L e R : forall n m h, Z.of_nat n <= e_height e -> e_height e <= s_levels h -> rings m (s_head h) (s_levels h) (fun i => if Z.of_nat n <=? i then lvl i (L ++ R) else lvl i (L ++ e :: R)) ->
  s_curr h = Z.max (tallest (L ++ R)) (Z.of_nat n) ->
  exists m', del_down n m h (e_node e) = Some (m', with_curr h (tallest (L ++ R))) /\ rings m' (s_head h) (s_levels h) (fun i => lvl i (L ++ R)) /\ (forall q g, g <> NEXT -> g <> PREV -> m' q g = m q g) /\ keeps m m'.
Proof.
  induction n as [|n IH]; intros m h Hn Hl HG Hc.
  - exists m. cbn [del_down]. pose proof (tallest_pos (L ++ R)). split; [unfold with_curr; destruct h; cbn in *; f_equal; f_equal; f_equal; lia|]. split; [|split; [reflexivity|apply keeps_refl]].
    apply (rings_ext _ _ _ _ _) with (2 := HG). intros i Hi. cbn beta. rewrite (proj2 (Z.leb_le (Z.of_nat 0) i)) by lia. reflexivity.
  - replace (Z.of_nat (S n)) with (Z.of_nat n + 1) in * by lia. cbn [del_down]. set (i := Z.of_nat n) in *. pose proof (proj1 HG i ltac:(lia)) as Ri. cbn beta in Ri. rewrite (proj2 (Z.leb_gt (i + 1) i)) in Ri by lia. rewrite lvl_mid, (proj2 (Z.ltb_lt i (e_height e))) in Ri by lia. cbn [app] in Ri.
    destruct (del_at _ _ _ _ _ Ri) as (m1 & E1 & R1 & _ & _ & F1). rewrite E1. rewrite <- lvl_app in R1. unfold list_check_empty, ld. rewrite (ring_next _ _ _ R1).
    assert (Ee : (hd (hcell (s_head h) i) (lvl i (L ++ R)) =? hcell (s_head h) i) = (tallest (L ++ R) <=? i)).
    { destruct (Z.leb_spec (tallest (L ++ R)) i) as [T|T].
      - pose proof (proj1 (tallest_le (L ++ R) i ltac:(lia)) T) as T'. apply lvl_nil in T'. rewrite T'. apply Z.eqb_refl.
      - apply Z.eqb_neq. intros C. destruct (lvl i (L ++ R)) as [|x l] eqn:El; [|cbn [hd] in C; destruct R1 as [D _]; apply NoDup_cons_iff in D; apply (proj1 D); left; exact C]. pose proof (proj2 (tallest_le (L ++ R) i ltac:(lia)) (proj1 (lvl_nil _ _) El)). lia. }
    rewrite Ee.
    assert (HG1 : rings m1 (s_head h) (s_levels h) (fun j => if i <=? j then lvl j (L ++ R) else lvl j (L ++ e :: R))).
    { eapply rings_ext; [|eapply (rings_step m m1 _ _ _ i (lvl i (L ++ R)) _ HG ltac:(lia) R1 F1)].
      - intros j Hj. unfold setl. destruct (Z.eqb_spec j i) as [->|N]; [rewrite Z.leb_refl; reflexivity|]. destruct (Z.leb_spec i j), (Z.leb_spec (i + 1) j); try reflexivity; lia.
      - cbn beta. rewrite (proj2 (Z.leb_gt (i + 1) i)) by lia. rewrite lvl_mid, (proj2 (Z.ltb_lt i (e_height e))) by lia. intros x Hx. left. exact Hx.
      - cbn beta. rewrite (proj2 (Z.leb_gt (i + 1) i)) by lia. rewrite lvl_mid. intros x Hx. left. rewrite lvl_app in Hx. rewrite !in_app_iff in *. tauto. }
    set (h1 := if tallest (L ++ R) <=? i then _ else h).
    assert (Eh : s_head h1 = s_head h /\ s_levels h1 = s_levels h /\ s_curr h1 = Z.max (tallest (L ++ R)) i).
    { unfold h1. destruct (Z.leb_spec (tallest (L ++ R)) i); cbn [s_head s_levels s_curr]; (split; [reflexivity|]); (split; [reflexivity|]); lia. }
    destruct Eh as (Eh1 & Eh2 & Eh3). destruct (IH m1 h1) as (m' & E2 & A & B & C); [lia|lia|rewrite Eh1, Eh2; exact HG1|exact Eh3|]. rewrite Eh1, Eh2 in A. exists m'. split; [rewrite E2; unfold with_curr; rewrite Eh1, Eh2; reflexivity|]. split; [exact A|].
    split; [intros q g H1 H2; rewrite (B q g H1 H2); apply F1; right; split; assumption|]. apply (keeps_trans _ _ _ (keeps_del _ _ _ E1) C).
Qed.
