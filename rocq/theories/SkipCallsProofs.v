(** * Skip lists under any comparison function: one level, the way down *)
From Verif Require Import Lib RespoolProps Ptr ListModel ListSpec ListProofs ListProofs2 SkiplistModel SkiplistSpec SkiplistProofs SkipCallsModel SkipCallsSpec.

(** ** Splitting a list along a level *)
Lemma filter_split {A} (f : A -> bool) : forall l V X, filter f l = V ++ X -> exists l1 l2, l = l1 ++ l2 /\ filter f l1 = V /\ filter f l2 = X.
Proof.
  induction l as [|x l IH]; intros V X E; cbn [filter] in E.
  - symmetry in E. apply app_eq_nil in E. destruct E as [-> ->]. exists [], []. split; [reflexivity|]. split; reflexivity.
  - destruct (f x) eqn:Ef.
    + destruct V as [|v V]; cbn [app] in E; [exists [], (x :: l); split; [reflexivity|]; split; [reflexivity|]; cbn [filter]; rewrite Ef; exact E|]. injection E as -> E. destruct (IH V X E) as (l1 & l2 & -> & E1 & E2). exists (v :: l1), l2. split; [reflexivity|]. split; [cbn [filter]; rewrite Ef, E1; reflexivity|exact E2].
    + destruct (IH V X E) as (l1 & l2 & -> & E1 & E2). exists (x :: l1), l2. split; [reflexivity|]. split; [cbn [filter]; rewrite Ef; exact E1|exact E2].
Qed.
Definition ends (n : Z) (A : list entry) : Prop := A = [] \/ exists A0 x, A = A0 ++ [x] /\ n < e_height x.
Definition starts (n : Z) (C : list entry) : Prop := C = [] \/ exists x C0, C = x :: C0 /\ n < e_height x.
Lemma up_app i a b : up i (a ++ b) = up i a ++ up i b. Proof. apply filter_app. Qed.
Lemma trim_r i : forall l, exists A T, l = A ++ T /\ up i T = [] /\ ends i A.
Proof.
  apply rev_ind; [exists [], []; split; [reflexivity|]; split; [reflexivity|left; reflexivity]|]. intros x l (A & T & -> & H1 & H2). destruct (Z.ltb_spec i (e_height x)) as [H|H].
  - exists ((A ++ T) ++ [x]), []. split; [rewrite app_nil_r; reflexivity|]. split; [reflexivity|]. right. exists (A ++ T), x. auto.
  - exists A, (T ++ [x]). split; [rewrite app_assoc; reflexivity|]. split; [|exact H2]. rewrite up_app, H1. unfold up. cbn [filter]. rewrite (proj2 (Z.ltb_ge _ _) H). reflexivity.
Qed.
Lemma trim_l i : forall l, exists T C, l = T ++ C /\ up i T = [] /\ starts i C.
Proof.
  induction l as [|x l (T & C & -> & H1 & H2)]; [exists [], []; split; [reflexivity|]; split; [reflexivity|left; reflexivity]|]. destruct (Z.ltb_spec i (e_height x)) as [H|H].
  - exists [], (x :: T ++ C). split; [reflexivity|]. split; [reflexivity|]. right. eauto.
  - exists (x :: T), C. split; [reflexivity|]. split; [|exact H2]. unfold up in *. cbn [filter]. rewrite (proj2 (Z.ltb_ge _ _) H). exact H1.
Qed.
Lemma up_split i B V X : up i B = V ++ X -> exists A1 M C1, B = A1 ++ M ++ C1 /\ up i A1 = V /\ up i M = [] /\ up i C1 = X /\ ends i A1 /\ starts i C1.
Proof.
  intros E. destruct (filter_split _ _ _ _ E) as (B1 & B2 & -> & E1 & E2). destruct (trim_r i B1) as (A1 & T1 & -> & F1 & G1). destruct (trim_l i B2) as (T2 & C1 & -> & F2 & G2). exists A1, (T1 ++ T2), C1. fold (up i (A1 ++ T1)) in E1. fold (up i (T2 ++ C1)) in E2.
  rewrite up_app, F1, app_nil_r in E1. rewrite up_app, F2 in E2. split; [rewrite !app_assoc; reflexivity|]. split; [exact E1|]. split; [rewrite up_app, F1, F2; reflexivity|]. split; [exact E2|]. split; assumption.
Qed.
Lemma up_none i s : up i s = [] <-> forall e, In e s -> e_height e <= i.
Proof. rewrite <- lvl_nil. unfold lvl, up. destruct (filter _ s); split; intros H; try reflexivity; discriminate. Qed.
Lemma ends_le n n' A : n' <= n -> ends n A -> ends n' A.
Proof. intros H [->|(A0 & x & -> & Hx)]; [left; reflexivity|right; exists A0, x; split; [reflexivity|lia]]. Qed.
Lemma starts_le n n' A : n' <= n -> starts n A -> starts n' A.
Proof. intros H [->|(x & A0 & -> & Hx)]; [left; reflexivity|right; exists x, A0; split; [reflexivity|lia]]. Qed.
Lemma ends_app n A A1 : ends n A -> ends n A1 -> ends n (A ++ A1).
Proof. intros H [->|(A0 & x & -> & Hx)]; [rewrite app_nil_r; exact H|right; exists (A ++ A0), x; split; [apply app_assoc|exact Hx]]. Qed.
Lemma starts_app n C C1 : starts n C -> starts n C1 -> starts n (C1 ++ C).
Proof. intros H [->|(x & A0 & -> & Hx)]; [exact H|right; exists x, (A0 ++ C); split; [reflexivity|exact Hx]]. Qed.
Lemma ends_down h j A : ends j A -> last (lvl j A) (hcell h j) - 16 = last (lvl (j - 1) A) (hcell h (j - 1)).
Proof.
  intros [->|(A0 & x & -> & Hx)]; [cbn; unfold hcell; lia|]. rewrite !lvl_app. unfold lvl at 2 4. cbn [filter]. rewrite (proj2 (Z.ltb_lt j (e_height x))), (proj2 (Z.ltb_lt (j - 1) (e_height x))) by lia. cbn [map]. rewrite !last_snoc. unfold cell. lia.
Qed.
Lemma starts_down h j C : starts j C -> hd (hcell h j) (lvl j C) - 16 = hd (hcell h (j - 1)) (lvl (j - 1) C).
Proof.
  intros [->|(x & C0 & -> & Hx)]; [cbn; unfold hcell; lia|]. unfold lvl. cbn [filter]. rewrite (proj2 (Z.ltb_lt j (e_height x))), (proj2 (Z.ltb_lt (j - 1) (e_height x))) by lia. cbn [map hd]. unfold cell. lia.
Qed.

Section Calls.
Variable orc : list call -> call -> Z.
Variable fuel : nat.
Definition nonz : list call -> list call -> Prop := never_zero orc.
Definition asked (ask : Z -> call) (cs : list call) (s : list entry) : Prop := forall c, In c cs -> exists e, In e s /\ c = ask (e_key e).
Lemma nonz_nil tr : nonz tr []. Proof. intros cs1 c cs2 E. destruct cs1; discriminate. Qed.
Lemma nonz_cons tr c cs : nonz tr cs -> orc (cs ++ tr) c <> 0 -> nonz tr (c :: cs).
Proof. intros H Hc [|d cs1] c' cs2 E; cbn [app] in E; [injection E as <- <-; exact Hc|injection E as _ E; apply (H _ _ _ E)]. Qed.
Lemma nonz_app tr cs : nonz tr cs -> forall cs', nonz (cs ++ tr) cs' -> nonz tr (cs' ++ cs).
Proof.
  intros H. induction cs' as [|c cs' IH]; intros H'; [exact H|]. cbn [app]. apply nonz_cons.
  - apply IH. intros cs1 d cs2 E. apply (H' (c :: cs1) d cs2). cbn [app]. rewrite E. reflexivity.
  - rewrite <- app_assoc. apply (H' [] c cs' eq_refl).
Qed.
Lemma asked_app ask a b s : asked ask a s -> asked ask b s -> asked ask (a ++ b) s.
Proof. intros Ha Hb c Hc. apply in_app_iff in Hc. destruct Hc; auto. Qed.
Lemma asked_sub ask cs s s' : asked ask cs s -> (forall e, In e s -> In e s') -> asked ask cs s'.
Proof. intros H HS c Hc. destruct (H c Hc) as (e & He & Ec). exists e. auto. Qed.
(** how a scan of the nodes [B] ends, the last of them with a non-negative answer first in [X] *)
Definition outcome (ask : Z -> call) (tr cs : list call) (B X : list entry) (walk' : Z) (rv rv' : option Z) : Prop :=
  (exists x X' cs', X = x :: X' /\ walk' = e_node x /\ rv' = Some 0 /\ cs = ask (e_key x) :: cs' /\ orc (cs' ++ tr) (ask (e_key x)) = 0 /\ nonz tr cs') \/
  (nonz tr cs /\ ((exists r, rv' = Some r /\ r <> 0) \/ (B = [] /\ rv' = rv))).
Lemma scan_from_any m ask i h Y : forall B a n tr walk rv, NoDup (h :: cells i (B ++ Y)) -> seg m a (cells i (B ++ Y)) h -> keyed m B -> (length B <= n)%nat ->
  exists V X walk' rv' cs, B = V ++ X /\ scan_from_o orc n tr m ask i (hd h (cells i (B ++ Y))) (hd h (cells i Y)) walk rv = Some (hd h (cells i (X ++ Y)), walk', rv', cs ++ tr) /\
    (length cs <= length B)%nat /\ asked ask cs B /\ outcome ask tr cs B X walk' rv rv'.
Proof.
  induction B as [|b B IH]; intros a n tr walk rv D HS HK Hn.
  - exists [], [], walk, rv, []. split; [reflexivity|]. split; [destruct n; cbn [scan_from_o app]; rewrite Z.eqb_refl; reflexivity|]. split; [apply le_n|]. split; [intros c []|]. right. split; [apply nonz_nil|right; split; reflexivity].
  - destruct n as [|n]; [cbn in Hn; lia|]. cbn [app scan_from_o cells map hd] in *. fold (cells i (B ++ Y)) in *. fold (cells i Y). assert (N : hd h (cells i Y) <> cell (e_node b) i) by (apply (hd_ne h _ [] (cells i (B ++ Y)) D (cells i B)); apply map_app).
    rewrite (proj2 (Z.eqb_neq _ _) N). replace (cell (e_node b) i - 8 - 16 * i) with (e_node b) by (unfold cell; lia). unfold ld at 1. rewrite (HK b) by (left; reflexivity). cbv zeta. set (r := orc tr (ask (e_key b))). destruct (r >=? 0) eqn:Er.
    + exists [], (b :: B), (e_node b), (Some r), [ask (e_key b)]. split; [reflexivity|]. split; [reflexivity|]. split; [cbn [length]; lia|]. split; [intros c [<-|[]]; exists b; split; [left; reflexivity|reflexivity]|]. destruct (Z.eq_dec r 0) as [E0|N0].
      * left. exists b, B, []. split; [reflexivity|]. split; [reflexivity|]. split; [rewrite E0; reflexivity|]. split; [reflexivity|]. split; [exact E0|apply nonz_nil].
      * right. split; [apply nonz_cons; [apply nonz_nil|exact N0]|]. left. exists r. auto.
    + assert (Hr : r < 0) by (rewrite Z.geb_leb in Er; apply Z.leb_gt in Er; exact Er). cbn [seg] in HS. destruct HS as [_ HS]. unfold ld. rewrite (seg_next _ _ _ _ HS).
      destruct (IH (cell (e_node b) i) n (ask (e_key b) :: tr) (e_node b) (Some r)) as (V & X & w & rv' & cs & EB & E & Hc & Ha & HO).
      * apply NoDup_cons_iff in D. destruct D as [D1 D2]. apply NoDup_cons_iff in D2. constructor; [intros C; apply D1; right; exact C|apply D2].
      * exact HS.
      * intros e He. apply HK. right. exact He.
      * cbn [length] in Hn. lia.
      * exists (b :: V), X, w, rv', (cs ++ [ask (e_key b)]). split; [rewrite EB; reflexivity|]. split; [rewrite E, <- app_assoc; reflexivity|]. split; [rewrite app_length; cbn [length]; lia|]. split.
        { apply asked_app; [apply (asked_sub _ _ _ _ Ha); intros e He; right; exact He|]. intros c [<-|[]]. exists b. split; [left; reflexivity|reflexivity]. }
        assert (N1 : nonz tr [ask (e_key b)]) by (apply nonz_cons; [apply nonz_nil|fold r; cbn [app]; fold r; lia]).
        destruct HO as [(x & X' & cs' & EX & Ew & Ev & Ec & E0 & Hz)|[Hz HO]].
        -- left. exists x, X', (cs' ++ [ask (e_key b)]). split; [exact EX|]. split; [exact Ew|]. split; [exact Ev|]. split; [rewrite Ec; reflexivity|]. split; [rewrite <- app_assoc; exact E0|]. apply (nonz_app tr _ N1 cs' Hz).
        -- right. split; [apply (nonz_app tr _ N1 cs Hz)|]. left. destruct HO as [HO|[_ ->]]; [exact HO|]. exists r. split; [reflexivity|lia].
Qed.
Lemma scan_any m ask i h A B C tr walk rv : ring m (hcell h i) (lvl i (A ++ B ++ C)) -> keyed m B -> (length B <= fuel)%nat ->
  exists A1 M C1 walk' rv' cs, B = A1 ++ M ++ C1 /\ up i M = [] /\ ends i A1 /\ starts i C1 /\
    scan_o orc fuel tr m ask i (last (lvl i A) (hcell h i)) (hd (hcell h i) (lvl i C)) walk rv = Some (hd (hcell h i) (lvl i (C1 ++ C)), walk', rv', cs ++ tr) /\
    ld m (hd (hcell h i) (lvl i (C1 ++ C))) PREV = Some (last (lvl i (A ++ A1)) (hcell h i)) /\ (length cs + length M <= length B)%nat /\ asked ask cs B /\
    outcome ask tr cs (up i B) C1 walk' rv rv'.
Proof.
  intros [D HS] HK Hf. unfold scan_o. rewrite lvl_app in D. pose proof HS as HS0. rewrite lvl_app in HS0. pose proof (seg_from _ _ _ _ _ HS0) as HS1. unfold ld at 1. rewrite (seg_next _ _ _ _ HS1).
  assert (E : lvl i (B ++ C) = cells i (up i B ++ up i C)) by (unfold lvl, cells, up; rewrite filter_app; reflexivity). rewrite E in *.
  destruct (scan_from_any m ask i (hcell h i) (up i C) (up i B) (last (lvl i A) (hcell h i)) fuel tr walk rv) as (V & X & w & r & cs & EB & ES & Hc & Ha & HO).
  - apply NoDup_cons_iff in D. destruct D as [D1 D2]. constructor; [intros Q; apply D1, in_or_app; right; exact Q|apply (nodup_r _ _ D2)].
  - exact HS1.
  - intros e He. apply HK. apply filter_In in He. apply He.
  - eapply Nat.le_trans; [apply filter_length_le|exact Hf].
  - destruct (up_split i B V X EB) as (A1 & M & C1 & EB' & EV & EM & EX & H1 & H2). exists A1, M, C1, w, r, cs. split; [exact EB'|]. split; [exact EM|]. split; [exact H1|]. split; [exact H2|].
    assert (EC : lvl i C = cells i (up i C)) by reflexivity. assert (EC' : lvl i (C1 ++ C) = cells i (X ++ up i C)) by (unfold lvl; fold (up i (C1 ++ C)); rewrite up_app, EX; reflexivity).
    split; [rewrite EC, EC'; exact ES|]. split.
    { rewrite EB' in HS. replace (A ++ (A1 ++ M ++ C1) ++ C) with ((A ++ A1) ++ M ++ C1 ++ C) in HS by (rewrite <- !app_assoc; reflexivity). rewrite lvl_app, (lvl_app i M) in HS. assert (L0 : lvl i M = []) by (apply lvl_nil, up_none, EM). rewrite L0 in HS. apply seg_prev in HS. exact HS. }
    split.
    { assert (Hu : (length (up i B) = length (up i A1) + length (up i C1))%nat) by (rewrite EB', !up_app, EM, !app_length; reflexivity). rewrite EB', !app_length. pose proof (filter_length_le (fun e => i <? e_height e) A1). pose proof (filter_length_le (fun e => i <? e_height e) C1). unfold up in *. lia. }
    split; [apply (asked_sub _ _ _ _ Ha); intros e He; apply filter_In in He; apply He|].
    destruct HO as [(x & X' & cs' & E1 & E2)|HO]; [|right; exact HO]. left. destruct H2 as [->|(y & C0 & -> & Hy)]; [rewrite <- EX in E1; discriminate E1|]. unfold up in EX. cbn [filter] in EX. rewrite (proj2 (Z.ltb_lt _ _) Hy) in EX. rewrite <- EX in E1. injection E1 as -> _. exists x, C0, cs'. split; [reflexivity|exact E2].
Qed.

(** ** Searching *)
Lemma find_any m ask h cap s : rings m h cap (fun i => lvl i s) -> keyed m s -> (length s <= fuel)%nat ->
  forall n tr A B C walk rv, s = A ++ B ++ C -> Z.of_nat n <= cap -> (forall e, In e B -> e_height e <= Z.of_nat n) -> ends (Z.of_nat n) A -> starts (Z.of_nat n) C ->
  (rv = None -> exists e, In e B /\ e_height e = Z.of_nat n) -> rv <> Some 0 ->
  exists cs, (length cs <= length B)%nat /\ asked ask cs B /\
    ((find_down_o orc fuel n tr m ask (last (lvl (Z.of_nat n) A) (hcell h (Z.of_nat n)) - 16) (hd (hcell h (Z.of_nat n)) (lvl (Z.of_nat n) C) - 16) walk rv = Some (NULL, 0, cs ++ tr) /\ nonz tr cs) \/
     exists e cs', In e B /\ cs = ask (e_key e) :: cs' /\ orc (cs' ++ tr) (ask (e_key e)) = 0 /\ nonz tr cs' /\
       find_down_o orc fuel n tr m ask (last (lvl (Z.of_nat n) A) (hcell h (Z.of_nat n)) - 16) (hd (hcell h (Z.of_nat n)) (lvl (Z.of_nat n) C) - 16) walk rv = Some (e_node e, e_height e, cs ++ tr)).
Proof.
  intros [HR _] HK Hf. induction n as [|n IH]; intros tr A B C walk rv Es Hn HB HA HC Hr0 Hr.
  - exists []. split; [cbn; lia|]. split; [intros c []|]. left. split; [reflexivity|apply nonz_nil].
  - replace (Z.of_nat (S n)) with (Z.of_nat n + 1) in * by lia. set (i := Z.of_nat n) in *. rewrite (ends_down h _ _ HA), (starts_down h _ _ HC). replace (i + 1 - 1) with i by lia. cbn [find_down_o]. fold i.
    assert (Hlen : (length B <= fuel)%nat) by (rewrite Es, !app_length in Hf; lia).
    destruct (scan_any m ask i h A B C tr walk rv) as (A1 & M & C1 & w & r & cs & EB & EM & H1 & H2 & ES & HP & Hc & Ha & HO); [rewrite <- Es; apply HR; lia|intros e He; apply HK; rewrite Es, !in_app_iff; tauto|exact Hlen|]. rewrite ES, HP.
    destruct HO as [(x & X' & cs' & E1 & E2 & E3 & E4 & E5 & E6)|[Hz HO]].
    + rewrite E3. cbn [Z.eqb]. exists cs. split; [lia|]. split; [exact Ha|]. right. exists x, cs'. assert (Hx : In x B) by (rewrite EB, E1, !in_app_iff; right; right; left; reflexivity). split; [exact Hx|]. split; [exact E4|]. split; [exact E5|]. split; [exact E6|].
      rewrite E2. destruct H2 as [H2|(y & C0 & H2 & Hy)]; [rewrite H2 in E1; discriminate|]. rewrite H2 in E1. injection E1 as -> _. specialize (HB x Hx). replace (e_height x) with (i + 1) by lia. reflexivity.
    + assert (Hr1 : exists v, r = Some v /\ v <> 0).
      { destruct HO as [HO|[HB0 ->]]; [exact HO|]. destruct rv as [v|]; [exists v; split; [reflexivity|congruence]|]. exfalso. destruct (Hr0 eq_refl) as (e & He & Hh). pose proof (proj1 (up_none i B) HB0 e He). lia. }
      destruct Hr1 as (v & -> & Hv). rewrite (proj2 (Z.eqb_neq _ _) Hv).
      destruct (IH (cs ++ tr) (A ++ A1) M (C1 ++ C) w (Some v)) as (cs2 & Hc2 & Ha2 & HQ).
      * rewrite Es, EB, <- !app_assoc. reflexivity.
      * lia.
      * apply up_none, EM.
      * apply ends_app; [apply (ends_le (i + 1)); [lia|exact HA]|exact H1].
      * apply starts_app; [apply (starts_le (i + 1)); [lia|exact HC]|exact H2].
      * discriminate.
      * congruence.
      * fold i in HQ. exists (cs2 ++ cs). split; [rewrite app_length; lia|]. assert (SubM : forall e, In e M -> In e B) by (intros e He; rewrite EB, !in_app_iff; tauto). split; [apply asked_app; [apply (asked_sub _ _ _ _ Ha2 SubM)|exact Ha]|]. destruct HQ as [[Q1 Q2]|(e & cs' & He & Q1 & Q2 & Q3 & Q4)].
        -- left. rewrite Q1, <- app_assoc. split; [reflexivity|apply nonz_app; assumption].
        -- right. exists e, (cs' ++ cs). split; [apply SubM, He|]. split; [rewrite Q1; reflexivity|]. split; [rewrite <- app_assoc; exact Q2|]. split; [apply nonz_app; assumption|]. rewrite Q4, <- app_assoc. reflexivity.
Qed.

(** ** Inserting on the way down *)
Lemma insert_any ask h cap s e : (forall x, In x s -> 1 <= e_height x) -> (length s <= fuel)%nat ->
  (forall i j, 0 <= i < cap -> ~ In (cell (e_node e) j) (hcell h i :: lvl i s) \/ ~ 0 <= j < e_height e) ->
  forall n tr m A B C walk rv, s = A ++ B ++ C -> Z.of_nat n <= cap -> (forall x, In x B -> e_height x <= Z.of_nat n) -> ends (Z.of_nat n) A -> starts (Z.of_nat n) C ->
  rings m h cap (fun i => if Z.of_nat n <=? i then lvl i (A ++ e :: C) else lvl i s) -> keyed m s ->
  (forall i, 0 <= i < e_height e -> i < Z.of_nat n -> node m (cell (e_node e) i)) ->
  exists m' L R cs, insert_down_o orc fuel n tr m ask (e_node e) (e_height e) (last (lvl (Z.of_nat n) A) (hcell h (Z.of_nat n)) - 16) (hd (hcell h (Z.of_nat n)) (lvl (Z.of_nat n) C) - 16) walk rv = Some (m', cs ++ tr) /\
    s = L ++ R /\ (length cs <= length B)%nat /\ asked ask cs B /\
    rings m' h cap (fun i => lvl i (L ++ e :: R)) /\ (forall q g, g <> NEXT -> g <> PREV -> m' q g = m q g) /\ keeps m m'.
Proof.
  intros Hh Hf HF. induction n as [|n IH]; intros tr m A B C walk rv Es Hn HB HA HC HG HK HN.
  - assert (EB : B = []). { destruct B as [|b B]; [reflexivity|]. pose proof (HB b (or_introl eq_refl)). specialize (Hh b ltac:(rewrite Es, !in_app_iff; right; left; left; reflexivity)). lia. } subst B. cbn [app] in Es.
    exists m, A, C, []. split; [reflexivity|]. split; [exact Es|]. split; [apply le_n|]. split; [intros c []|]. split; [|split; [reflexivity|apply keeps_refl]]. apply (rings_ext _ _ _ _ _) with (2 := HG). intros i Hi. cbn beta. rewrite (proj2 (Z.leb_le (Z.of_nat 0) i)) by lia. reflexivity.
  - replace (Z.of_nat (S n)) with (Z.of_nat n + 1) in * by lia. set (i := Z.of_nat n) in *. rewrite (ends_down h _ _ HA), (starts_down h _ _ HC). replace (i + 1 - 1) with i by lia. cbn [insert_down_o]. fold i.
    pose proof (proj1 HG i ltac:(lia)) as Ri. cbn beta in Ri. rewrite (proj2 (Z.leb_gt (i + 1) i)) in Ri by lia.
    assert (Hlen : (length B <= fuel)%nat) by (rewrite Es, !app_length in Hf; lia).
    destruct (scan_any m ask i h A B C tr walk rv) as (A1 & M & C1 & w & r & cs & EB & EM & H1 & H2 & ES & HP & Hc & Ha & _); [rewrite <- Es; exact Ri|intros x Hx; apply HK; rewrite Es, !in_app_iff; tauto|exact Hlen|]. rewrite ES, HP.
    set (A' := A ++ A1) in *. set (C' := C1 ++ C) in *. assert (Es' : s = A' ++ M ++ C') by (rewrite Es, EB; unfold A', C'; rewrite <- !app_assoc; reflexivity).
    assert (LM : lvl i M = []) by (apply lvl_nil, up_none, EM). assert (Ls : lvl i s = lvl i A' ++ lvl i C') by (rewrite Es', !lvl_app, LM; reflexivity).
    assert (Lu : forall j, i + 1 <= j -> lvl j (A' ++ e :: C') = lvl j (A ++ e :: C)).
    { intros j Hj. assert (LA : lvl j A1 = []) by (apply lvl_nil; intros x Hx; specialize (HB x ltac:(rewrite EB, !in_app_iff; tauto)); lia). assert (LC : lvl j C1 = []) by (apply lvl_nil; intros x Hx; specialize (HB x ltac:(rewrite EB, !in_app_iff; tauto)); lia).
      rewrite !lvl_mid. unfold A', C'. rewrite !lvl_app, LA, LC, app_nil_r. reflexivity. }
    assert (HA' : ends i A') by (apply ends_app; [apply (ends_le (i + 1)); [lia|exact HA]|exact H1]). assert (HC' : starts i C') by (apply starts_app; [apply (starts_le (i + 1)); [lia|exact HC]|exact H2]).
    assert (SubM : forall x, In x M -> In x B) by (intros x Hx; rewrite EB, !in_app_iff; tauto).
    assert (Step : forall m1, rings m1 h cap (fun j => if i <=? j then lvl j (A' ++ e :: C') else lvl j s) -> (forall q g, g <> NEXT -> g <> PREV -> m1 q g = m q g) -> keeps m m1 ->
      exists m' L R cs0, insert_down_o orc fuel n (cs ++ tr) m1 ask (e_node e) (e_height e) (last (lvl i A') (hcell h i) - 16) (hd (hcell h i) (lvl i C') - 16) w r = Some (m', cs0 ++ tr) /\
        s = L ++ R /\ (length cs0 <= length B)%nat /\ asked ask cs0 B /\ rings m' h cap (fun i => lvl i (L ++ e :: R)) /\ (forall q g, g <> NEXT -> g <> PREV -> m' q g = m q g) /\ keeps m m').
    { intros m1 G1 D1 K1. destruct (IH (cs ++ tr) m1 A' M C' w r Es' ltac:(lia) (proj1 (up_none i M) EM) HA' HC' G1) as (m' & L & R & cs2 & Q1 & Q2 & Q3 & Q4 & Q5 & Q6 & Q7).
      - intros x Hx. rewrite D1 by discriminate. apply HK, Hx.
      - intros j Hj1 Hj2. apply (keeps_node m m1 _ K1), HN; lia.
      - exists m', L, R, (cs2 ++ cs). split; [rewrite Q1, <- app_assoc; reflexivity|]. split; [exact Q2|]. split; [rewrite app_length; lia|]. split; [apply asked_app; [apply (asked_sub _ _ _ _ Q4 SubM)|exact Ha]|]. split; [exact Q5|]. split; [intros q g G G'; rewrite Q6, D1 by assumption; reflexivity|]. apply (keeps_trans _ _ _ K1 Q7). }
    destruct (Z.ltb_spec i (e_height e)) as [Hi|Hi].
    + rewrite Ls in Ri. assert (Ni : ~ In (cell (e_node e) i) (hcell h i :: lvl i A' ++ lvl i C')) by (rewrite <- Ls; destruct (HF i i ltac:(lia)) as [H|H]; [exact H|lia]).
      destruct (add_last m (hcell h i) (lvl i A') (lvl i C') (cell (e_node e) i) Ri (HN i ltac:(lia) ltac:(lia)) Ni) as (m1 & E1 & R1' & F1). rewrite E1. apply Step.
      * eapply rings_ext; [|eapply (rings_step m m1 h cap _ i (lvl i A' ++ cell (e_node e) i :: lvl i C') _ HG ltac:(lia) R1' F1)].
        -- intros j Hj. unfold setl. destruct (Z.eqb_spec j i) as [->|N].
           ++ rewrite Z.leb_refl, lvl_mid, (proj2 (Z.ltb_lt _ _) Hi). reflexivity.
           ++ destruct (Z.leb_spec i j), (Z.leb_spec (i + 1) j); try reflexivity; try lia. symmetry. apply Lu. lia.
        -- cbn beta. rewrite (proj2 (Z.leb_gt (i + 1) i)) by lia. rewrite Ls. intros x [<-|[<-|Hx]]; [right; apply in_or_app; right; left; reflexivity|left; left; reflexivity|left; right; exact Hx].
        -- cbn beta. rewrite (proj2 (Z.leb_gt (i + 1) i)) by lia. rewrite Ls. intros x Hx. apply in_app_iff in Hx. destruct Hx as [Hx|[<-|Hx]]; [left; apply in_or_app; left; exact Hx| |left; apply in_or_app; right; exact Hx]. right. intros j Hj N Q.
           assert (Nj : ~ In (cell (e_node e) i) (hcell h j :: lvl j s)) by (destruct (HF j i ltac:(lia)) as [H|H]; [exact H|lia]). destruct Q as [Q|Q]; [apply Nj; left; exact Q|]. destruct (i + 1 <=? j); [|apply Nj; right; exact Q].
           rewrite lvl_mid in Q. rewrite Es, !lvl_app in Nj. rewrite !in_app_iff in Q. destruct Q as [Q|[Q|Q]]; [apply Nj; right; rewrite !in_app_iff; tauto| |apply Nj; right; rewrite !in_app_iff; tauto].
           destruct (j <? e_height e); [|destruct Q]. destruct Q as [Q|[]]. unfold cell in Q. lia.
      * intros q g G G'. apply F1. right. split; assumption.
      * apply (keeps_add _ _ _ _ E1).
    + apply Step; [|reflexivity|apply keeps_refl]. apply (rings_ext m h cap _ _) with (2 := HG). intros j Hj. cbn beta. destruct (Z.leb_spec i j), (Z.leb_spec (i + 1) j); try reflexivity; try lia; [symmetry; apply Lu; lia|]. replace j with i by lia. rewrite lvl_mid, (proj2 (Z.ltb_ge i (e_height e))) by lia. exact Ls.
Qed.
End Calls.
