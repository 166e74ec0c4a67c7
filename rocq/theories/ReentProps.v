(** * Notification chains whose callbacks register and unregister nodes: theorems *)
From Verif Require Import Lib RespoolProps Ptr ListModel ListSpec ListProofs ListProofs2 IlistModel IlistSpec IlistProofs IlistProofs2 ListSortSpec NotifierModel NotifierSpec NotifierProps ReentModel ReentSpec ReentProofs.
Import Permutation Sorted.
Section Mem.
Variable prio : Z -> Z.
Variable entry : Z -> bool.
Variable orc : list Z -> Z -> Z.
Variable act : list Z -> Z -> list act1.
Variable h : Z.
Variable AU : list Z.
Hypothesis AP : apart h AU.
Notation chain := (NotifierSpec.chain prio).
Notation inv := (NotifierProps.inv prio h AU).
Notation fields := (NotifierProps.fields AU).
Notation effect := (ReentSpec.effect entry orc act).
Notation round := (ReentSpec.round prio entry orc act).
Notation safe := (ReentSpec.safe prio entry orc act AU).
Notation next := (ReentProofs.next prio entry orc act).
Lemma act_ok fuel m w a : (length AU < fuel)%nat -> fields m -> inv m w -> act_allowed entry AU w a ->
  exists m', do_act prio entry fuel h m a = Some m' /\ fields m' /\ inv m' (acted1 entry w a).
Proof.
  intros Hf F I Al. destruct a as [n|n].
  - destruct (NotifierProps.step_ok prio entry orc h AU AP fuel m w (NRegister n) Hf F I Al) as (m' & S). cbn [abs_step apply_nop acted1 do_act] in *. destruct (register prio entry fuel m h n) as [[m1 r]|]; [|destruct (entry n); destruct S as [S _]; discriminate S].
    destruct (entry n); destruct S as (E & F' & I'); injection E as -> _; exists m'; auto.
  - destruct (NotifierProps.step_ok prio entry orc h AU AP fuel m w (NUnregister n) Hf F I Al) as (m' & S). cbn [abs_step apply_nop acted1 do_act] in *. destruct (unregister m h n) as [m1|]; destruct S as (E & F' & I'); [|discriminate E]. injection E as ->. exists m'; auto.
Qed.
Lemma acts_ok fuel : (length AU < fuel)%nat -> forall l m w, fields m -> inv m w -> acts_allowed entry AU w l ->
  exists m', do_acts prio entry fuel h m l = Some m' /\ fields m' /\ inv m' (acted entry w l).
Proof.
  intros Hf. induction l as [|a l IH]; intros m w F I Al; [exists m; auto|]. destruct Al as [A1 A2]. destruct (act_ok fuel m w a Hf F I A1) as (m1 & E1 & F1 & I1). cbn [do_acts]. rewrite E1. apply (IH m1 (acted1 entry w a) F1 I1 A2).
Qed.
Lemma seen_acted : forall l w x, In x (seen w) -> In x (seen (acted entry w l)).
Proof. induction l as [|a l IH]; intros w x H; [exact H|]. apply (IH (acted1 entry w a)). destruct a as [n|n]; cbn [acted1]; [destruct (entry n); [right|]; exact H|exact H]. Qed.
Lemma inv_calls m w c : inv m w -> inv m {| regs := regs w; seen := seen w; calls := c |}.
Proof. intros H. exact H. Qed.
Lemma inv_del m w x : inv m w -> fields m -> In x (seen w) ->
  exists m', ilist_del m h x = Some m' /\ fields m' /\ inv m' {| regs := filter (fun y => negb (y =? x)) (regs w); seen := seen w; calls := calls w |}.
Proof.
  intros (U & D & IU & HU & HL & IR) F Hx. destruct (del_chain prio entry orc h m U (chain (regs w)) x (apart_sub h U AU AP D IU) HL) as (m1 & E & H1); [apply HU, Hx|]. exists m1. split; [exact E|]. split; [apply (fields_keeps AU m); [apply (keeps_idel h _ _ _ E)|exact F]|].
  exists U. cbn [regs seen]. split; [exact D|]. split; [exact IU|]. split; [exact HU|]. split; [rewrite chain_filter; exact H1|]. intros y Hy. apply filter_In in Hy. apply IR, Hy.
Qed.
Lemma inv_facts m w : inv m w -> ring m h (chain (regs w)) /\ incl (chain (regs w)) AU /\ NoDup (regs w).
Proof.
  intros (U & D & IU & HU & HL & IR). pose proof (ring_linked _ _ _ _ HL) as [R I1]. split; [exact R|]. split; [intros x Hx; apply IU, I1, Hx|]. apply (Permutation_NoDup (Permutation_sym (chain_perm prio (regs w)))). apply (nodup_chain prio (fun _ => true) (fun _ _ => 0) _ _ _ _ HL).
Qed.
Definition ptr (x : option Z) : Z := match x with Some x => x | None => h end.
(** one call, on memory *)
Lemma effect_ok fuel m w x : (length AU < fuel)%nat -> fields m -> inv m w -> In x (seen w) -> acts_allowed entry AU w (act (calls w) x) ->
  exists m1, (let* m := do_acts prio entry fuel h m (act (calls w) x) in
    if negb (Z.land (orc (calls w) x) REMOVE =? 0) then let* m := ilist_del m h x in Some (m, Z.land (orc (calls w) x) (Z.lnot REMOVE)) else Some (m, orc (calls w) x)) = Some (m1, Z.ldiff (orc (calls w) x) 1) /\ fields m1 /\ inv m1 (effect w x).
Proof.
  intros Hf F I Hx Al. destruct (acts_ok fuel Hf _ m w F I Al) as (m1 & E1 & F1 & I1). rewrite E1. cbn beta iota. set (a := orc (calls w) x). change REMOVE with (2 ^ 0). rewrite (bit_land a 0) by lia. unfold ReentSpec.effect. fold a. destruct (Z.testbit a 0) eqn:Ea.
  - destruct (inv_del m1 _ x I1 F1 (seen_acted _ _ _ Hx)) as (m2 & E2 & F2 & I2). rewrite E2. exists m2. rewrite <- Z.ldiff_land. split; [reflexivity|]. split; [exact F2|exact I2].
  - exists m1. split; [|split; [exact F1|exact I1]]. f_equal. f_equal. apply Z.bits_inj'. intros i Hi. rewrite Z.ldiff_spec. change 1 with (2 ^ 0). destruct (Z.eqb_spec i 0) as [->|Ni]; [rewrite Ea; reflexivity|]. rewrite (Z.pow2_bits_false 0 i) by congruence. rewrite andb_true_r. reflexivity.
Qed.
Lemma loop_ok afuel : (length AU < afuel)%nat -> forall fuel m w ret num cnt V x y tmp, fields m -> inv m w -> 0 <= num -> w32 cnt = cnt -> settled prio w V x y \/ num = 0 -> (forall a, x = Some a -> a <> h) ->
  (settled prio w V x y -> x <> None -> tmp = ptr y) -> NoDup V -> incl V AU -> (length AU < fuel + length V)%nat -> (forall k, safe k w num x y) ->
  exists tr w' r m', rcall_from prio entry orc act afuel fuel m h (calls w) ret num cnt (ptr x) tmp = Some (m', calls w', r, w32 (cnt + zlen tr)) /\ round w num ret x y tr w' r /\ fields m' /\ inv m' w'.
Proof.
  intros Haf. induction fuel as [|fuel IH]; intros m w ret num cnt V x y tmp F I Hn Hc S Hx Ht DV IV Hl Sf.
  { exfalso. pose proof (NoDup_incl_length DV IV). cbn in Hl. lia. }
  destruct x as [x|]; cbn [ptr rcall_from].
  2:{ exists [], w, ret, m. rewrite Z.eqb_refl. unfold zlen. cbn [length]. replace (cnt + Z.of_nat 0) with cnt by lia. rewrite Hc. split; [reflexivity|]. split; [constructor|]. auto. }
  rewrite (proj2 (Z.eqb_neq _ _) (Hx x eq_refl)). destruct (Z.eqb_spec num 0) as [->|N].
  { exists [], w, ret, m. unfold zlen. cbn [length]. replace (cnt + Z.of_nat 0) with cnt by lia. rewrite Hc. split; [reflexivity|]. split; [constructor|]. auto. }
  destruct S as [S|S]; [|contradiction]. pose proof (inv_facts m w I) as (R & IC & D). pose proof (safe_inv prio entry orc act AU 0 w num x y N (Sf _)) as Al.
  pose proof S as (A & B & E & Ey & P). assert (Hxc : In x (chain (regs w))) by (rewrite E; apply in_elt). assert (Hxs : In x (seen w)) by (destruct I as (U & _ & _ & _ & _ & IR); apply IR, (in_chain prio), Hxc).
  destruct (effect_ok afuel m w x Haf F I Hxs Al) as (m1 & E1 & F1 & I1). specialize (Ht S ltac:(discriminate)). subst tmp.
  destruct (do_acts prio entry afuel h m (act (calls w) x)) as [m0|]; [|discriminate E1]. cbn beta iota in E1 |- *. rewrite E1. cbn beta iota zeta. clear E1.
  set (a := orc (calls w) x) in *. assert (E2 : negb (Z.land (Z.ldiff a 1) STOP =? 0) = Z.testbit a 1) by (change STOP with (2 ^ 1); rewrite bit_land by lia; rewrite Z.ldiff_spec; change 1 with (2 ^ 0) at 2; rewrite (Z.pow2_bits_false 0 1) by lia; apply andb_true_r). rewrite E2. destruct (Z.testbit a 1) eqn:Es.
  { exists [(w, x)], (effect w x), (Z.ldiff a 1), m1. split; [reflexivity|]. split; [apply r_stop; assumption|]. auto. }
  pose proof (inv_facts m1 _ I1) as (R1 & IC1 & D1). assert (HxV : ~ In x V) by (intros C; apply (proj1 (P x C)); left; reflexivity).
  assert (HyA : forall b, y = Some b -> In b AU). { intros b ->. apply IC. rewrite E. apply in_or_app. right. right. destruct B as [|b' B]; [discriminate Ey|]. injection Ey as ->. left. reflexivity. }
  assert (Hy : forall b, y = Some b -> b <> h) by (intros b Hb ->; destruct AP as (_ & Hh & _); apply Hh, HyA, Hb).
  assert (T : exists tmp', m1 (ptr y) NEXT = Some tmp' /\ (settled prio (effect w x) (x :: V) y (next w x y) -> y <> None -> tmp' = ptr (next w x y))).
  { destruct y as [b|]; cbn [ptr].
    - destruct (F1 b (HyA b eq_refl)) as [[[tmp' Eb] _] _]. exists tmp'. split; [exact Eb|]. intros (A' & B' & E' & En & _) _. rewrite En. rewrite E' in R1. rewrite (next_at _ _ _ _ _ R1) in Eb. injection Eb as <-. destruct B'; reflexivity.
    - rewrite (ring_next _ _ _ R1). eexists. split; [reflexivity|]. intros _ C. contradiction. }
  destruct T as (tmp' & Et & Ht'). unfold ld. rewrite Et. cbn beta iota.
  assert (G : (settled prio (effect w x) (x :: V) y (next w x y) \/ num - 1 = 0) /\ forall k, safe k (effect w x) (num - 1) y (next w x y)).
  { destruct (Z.eq_dec num 1) as [->|N1]; [split; [right; reflexivity|]; intros [|k]; [exact Logic.I|destruct y; [left; reflexivity|exact Logic.I]]|]. destruct (safe_next prio entry orc act AU w num x y N N1 Es Sf) as [Ny Sf']. split; [left|exact Sf']. apply (settled_next prio entry orc act AU); try assumption; apply nodup_c; assumption. }
  destruct G as [S' Sf'].
  assert (Hcall : calls (effect w x) = calls w ++ [x]) by reflexivity. rewrite <- Hcall.
  destruct (IH m1 (effect w x) (Z.ldiff a 1) (num - 1) (w32 (cnt + 1)) (x :: V) y (next w x y) tmp' F1 I1 ltac:(lia)) as (tr & w' & r & m' & Er & Rr & F' & I'); try assumption.
  - unfold w32. apply Z.mod_mod. lia.
  - constructor; assumption.
  - intros z [<-|Hz]; [apply IC, Hxc|apply IV, Hz].
  - cbn [length]. lia.
  - exists ((w, x) :: tr), w', r, m'. rewrite Er. split; [|split; [apply r_next; assumption|auto]]. rewrite w32_w32. do 2 f_equal. f_equal. unfold zlen. cbn [length]. lia.
Qed.
Definition settled0 w : starts prio w (settled prio w []).
Proof. unfold starts. destruct (chain (regs w)) as [|a l] eqn:E; [exact I|]. cbn [first]. exists [], l. split; [exact E|]. split; [cbn [behind]; rewrite Z.eqb_refl; destruct l; reflexivity|]. intros v []. Qed.
Lemma call_ok fuel m w num : (length AU < fuel)%nat -> fields m -> inv m w -> 0 <= num -> (forall k, starts prio w (safe k w num)) ->
  exists tr w' r m', rcall prio entry orc act fuel fuel m h (calls w) num 0 = Some (m', calls w', r, w32 (zlen tr)) /\ starts prio w (fun x y => round w num 0 x y tr w' r) /\ fields m' /\ inv m' w'.
Proof.
  intros Hf F I Hn Sf. pose proof (inv_facts m w I) as (R & IC & D). unfold rcall, ld. rewrite (ring_next _ _ _ R). cbn beta iota. pose proof (settled0 w) as S0. unfold starts in *. destruct (chain (regs w)) as [|a l] eqn:E; cbn [hd first] in *.
  - rewrite (ring_next _ _ _ R). cbn beta iota. destruct (loop_ok fuel Hf fuel m w 0 num 0 [] None None h F I Hn eq_refl (or_introl Logic.I)) as (tr & w' & r & m' & G); [discriminate|intros _ C; contradiction|constructor|intros v []|cbn [length]; lia|exact Sf|]. exists tr, w', r, m'. exact G.
  - rewrite (next_at m h [] a l R). cbn beta iota. destruct (loop_ok fuel Hf fuel m w 0 num 0 [] (Some a) (behind a (a :: l)) (hd h l) F I Hn eq_refl (or_introl S0)) as (tr & w' & r & m' & G); [| |constructor|intros v []|cbn [length]; lia|exact Sf|exists tr, w', r, m'; exact G].
    + intros b [= <-] ->. destruct AP as (_ & Hh & _). apply Hh, IC. left. reflexivity.
    + intros _ _. cbn [behind]. rewrite Z.eqb_refl. destruct l; reflexivity.
Qed.
Lemma run_ok fuel : (length AU < fuel)%nat -> forall ops m w, fields m -> inv m w -> hist_allowed prio entry orc act AU w ops ->
  exists m' w' outs, run_rops prio entry orc act fuel h (m, calls w) ops = Some (m', calls w', outs) /\ hist prio entry orc act w ops outs w' /\ inv m' w'.
Proof.
  intros Hf. induction ops as [|o ops IH]; intros m w F I HA; [exists m, w, []; split; [reflexivity|split; [constructor|exact I]]|]. destruct o as [n|n|num]; cbn [hist_allowed run_rops apply_rop] in *.
  - destruct HA as [A1 A2]. destruct (NotifierProps.step_ok prio entry orc h AU AP fuel m w (NRegister n) Hf F I A1) as (m1 & S). cbn [abs_step acted1] in *. destruct (entry n) eqn:En; destruct S as (E1 & F1 & I1); rewrite E1; cbn beta iota.
    + destruct (IH m1 _ F1 I1 A2) as (m' & w' & outs & E' & H' & I'). rewrite E'. exists m', w', ([0] :: outs). split; [reflexivity|]. split; [|exact I']. pose proof (h_reg prio entry orc act w n ops outs w') as Q. cbn [acted1] in Q. rewrite En in Q. apply Q, H'.
    + destruct (IH m1 _ F1 I1 A2) as (m' & w' & outs & E' & H' & I'). rewrite E'. exists m', w', ([-22] :: outs). split; [reflexivity|]. split; [|exact I']. pose proof (h_reg prio entry orc act w n ops outs w') as Q. cbn [acted1] in Q. rewrite En in Q. apply Q, H'.
  - destruct HA as [A1 A2]. destruct (NotifierProps.step_ok prio entry orc h AU AP fuel m w (NUnregister n) Hf F I A1) as (m1 & S). cbn [abs_step acted1] in *. destruct S as (E1 & F1 & I1). rewrite E1. cbn beta iota. destruct (IH m1 _ F1 I1 A2) as (m' & w' & outs & E' & H' & I'). rewrite E'. exists m', w', ([] :: outs). split; [reflexivity|]. split; [|exact I']. apply h_unreg, H'.
  - destruct HA as (An & As & A2). destruct (call_ok fuel m w num Hf F I ltac:(lia) As) as (tr & w1 & r & m1 & E1 & R1 & F1 & I1). rewrite E1. cbn beta iota. destruct (IH m1 w1 F1 I1 (A2 tr w1 r R1)) as (m' & w' & outs & E' & H' & I'). rewrite E'.
    assert (Lz : w32 (zlen tr) = zlen tr). { unfold w32. apply Z.mod_small. pose proof (inv_facts m w I) as (_ & _ & D). destruct (round_facts prio entry orc act AU _ _ _ _ _ _ _ _ R1 [] D (or_introl (settled0 w)) As ltac:(lia)) as (_ & _ & _ & _ & _ & _ & L & _). unfold zlen in *. lia. }
    rewrite Lz. exists m', w', ([r; zlen tr] :: outs). split; [reflexivity|]. split; [|exact I']. apply (h_call _ _ _ _ w num tr w1 r); assumption.
Qed.
End Mem.
(** Every history from raw memory in which no callback unregisters the node whose turn is next: the code runs, its results are those of the
    rounds, and the list that is left is the chain of the registered nodes, each registered once. *)
Theorem C113_history : forall prio entry orc act h U m fuel ops, apart h U -> raw m h U -> (length U < fuel)%nat -> hist_allowed prio entry orc act U nobody ops ->
  exists m1 m' w outs, chain_init m h = Some m1 /\
    run_rops prio entry orc act fuel h (m1, []) ops = Some (m', calls w, outs) /\ hist prio entry orc act nobody ops outs w /\
    ring m' h (chain prio (regs w)) /\ NoDup (regs w).
Proof.
  intros prio entry orc act h U m fuel ops AP [Hh Hr] Hf HA. destruct (init_ring m h Hh) as (m1 & E1 & R1 & F1).
  assert (K : keeps m m1) by apply (keeps_init _ _ _ E1).
  destruct (run_ok prio entry orc act h U AP fuel Hf ops m1 nobody) as (m' & w & outs & E & H & I'); [|exists []; cbn [regs seen nobody chain fold_right singles map]; split; [constructor|split; [intros x []|split; [reflexivity|split; [|intros x []]]]]|exact HA|].
  - intros n Hn. destruct (Hr n Hn). split; apply (keeps_node m m1); assumption.
  - split; [exact R1|]. split; [intros x []|]. split; [exact I|]. split; intros x [].
  - exists m1, m', w, outs. destruct (inv_facts prio h U m' w I') as (R & _ & D). auto.
Qed.
(** What such a round is: every node is called at most once, in ascending priorities, and while it is registered; at most [num] calls; and a node that was
    registered before the round and that no callback unregisters is called, unless a callback asks to stop or the number of calls runs out. *)
Theorem C113_round : forall prio entry orc act U w num ret tr w' r, NoDup (regs w) -> 0 <= num -> (forall k, starts prio w (safe prio entry orc act U k w num)) ->
  starts prio w (fun x y => round prio entry orc act w num ret x y tr w' r) ->
  NoDup (map snd tr) /\ StronglySorted (fun a b => prio a <= prio b) (map snd tr) /\ Forall (fun p => In (snd p) (regs (fst p))) tr /\ zlen tr <= num /\ NoDup (regs w') /\
  (zlen tr < num -> Forall (fun p => Z.testbit (orc (calls (fst p)) (snd p)) 1 = false) tr ->
   forall z, In z (regs w) -> (forall v p, In (v, p) tr -> ~ In (AUnreg z) (act (calls v) p)) -> In z (map snd tr)).
Proof.
  intros prio entry orc act U w num ret tr w' r D Hn Sf R. pose proof (settled0 prio w) as S0. unfold starts in *.
  destruct (round_facts prio entry orc act U _ _ _ _ _ _ _ _ R [] D (or_introl S0) Sf Hn) as (H1 & _ & H2 & _ & _ & H3 & H4 & H5 & H6).
  split; [exact H1|]. split; [exact H2|]. split; [exact H3|]. split; [exact H4|]. split; [exact H5|]. intros Lt F z Hz Nz. apply (in_chain prio) in Hz. destruct (chain prio (regs w)) as [|a l]; [destruct Hz|]. apply (H6 Lt F z a [] l eq_refl eq_refl Hz Nz).
Qed.
(** A callback that unregisters the node behind it: that node, no longer registered, is called again and again until the number of calls the caller
    allowed is used up, although each node was registered once and every call is allowed by itself. *)
Definition xact (past : list Z) (n : Z) : list act1 := if n =? 200 then [AUnreg 300] else [].
Definition xprio (n : Z) : Z := n.
Lemma spin prio entry orc h y : y <> h -> (forall past, orc past y = 0) -> forall afuel fuel m past ret k cnt, m y NEXT = Some y -> (k < fuel)%nat ->
  exists r c, rcall_from prio entry orc xact afuel fuel m h past ret (Z.of_nat k) cnt y y = Some (m, past ++ repeat y k, r, c) \/ y = 200.
Proof.
  intros Ny Ho afuel. destruct (Z.eq_dec y 200) as [->|N2]; [intros; exists 0, 0; right; reflexivity|]. induction fuel as [|fuel IH]; intros m past ret k cnt Hm Hk; [lia|]. cbn [rcall_from]. rewrite (proj2 (Z.eqb_neq _ _) Ny). destruct k as [|k].
  - exists ret, cnt. left. cbn [Z.of_nat repeat]. rewrite app_nil_r. reflexivity.
  - destruct (Z.eqb_spec (Z.of_nat (S k)) 0); [lia|]. unfold xact at 1. rewrite (proj2 (Z.eqb_neq _ _) N2). cbn [do_acts]. rewrite Ho. cbn beta iota. replace (Z.land 0 REMOVE =? 0) with true by reflexivity. replace (Z.land 0 STOP =? 0) with true by reflexivity. cbn beta iota zeta delta [negb]. unfold ld. rewrite Hm. cbn beta iota. replace (Z.of_nat (S k) - 1) with (Z.of_nat k) by lia.
    destruct (IH m (past ++ [y]) 0 k (w32 (cnt + 1)) Hm ltac:(lia)) as (r & c & [E|E]); [|contradiction]. exists r, c. left. rewrite E. rewrite <- app_assoc. reflexivity.
Qed.
Theorem C113_refuted : exists prio entry orc act h U m x y,
  apart h U /\ raw m h U /\ x <> y /\ (forall past, orc past x = 0 /\ orc past y = 0 /\ act past x = [AUnreg y] /\ act past y = []) /\
  forall k fuel, (k + 5 < fuel)%nat -> exists m' r c, (let* m := chain_init m h in run_rops prio entry orc act fuel h (m, []) [NRegister x; NRegister y; NCall (Z.of_nat (S (S k)))]) =
    Some (m', x :: repeat y (S k), [[0]; [0]; [r; c]]).
Proof.
  exists xprio, (fun _ => true), (fun _ _ => 0), xact, 100, [200; 300], emem, 200, 300. split; [|split; [|split; [lia|split; [intros past; auto|]]]].
  - split; [repeat constructor; cbn; lia|]. split; [cbn; lia|]. split; [unfold NULL; cbn; lia|]. intros p q Hp Hq. unfold IDX. cbn in Hp, Hq. lia.
  - split; [split; eexists; reflexivity|]. intros n [<-|[<-|[]]]; split; split; eexists; reflexivity.
  - intros k fuel Hf. assert (E0 : exists m0, chain_init emem 100 = Some m0) by (eexists; reflexivity).
    do 6 (destruct fuel as [|fuel]; [lia|]).
    set (f := S (S (S (S (S (S fuel)))))).
    assert (G : exists m2 m3, (let* m := chain_init emem 100 in run_rops xprio (fun _ => true) (fun _ _ => 0) xact f 100 (m, []) [NRegister 200; NRegister 300]) = Some (m2, [], [[0]; [0]]) /\
      ld m2 100 NEXT = Some 200 /\ ld m2 200 NEXT = Some 300 /\ do_acts xprio (fun _ => true) f 100 m2 (xact [] 200) = Some m3 /\ ld m3 300 NEXT = Some 300).
    { subst f. eexists. eexists. split; [vm_compute; reflexivity|]. split; [vm_compute; reflexivity|]. split; [vm_compute; reflexivity|]. split; [vm_compute; reflexivity|]. vm_compute. reflexivity. }
    destruct G as (m2 & m3 & E2 & L1 & L2 & E3 & L3). destruct (chain_init emem 100) as [m0|]; [|discriminate E2]. cbn beta iota in E2 |- *.
    cbn [run_rops] in E2 |- *. destruct (apply_rop xprio (fun _ => true) (fun _ _ => 0) xact f 100 (m0, []) (NRegister 200)) as [[s1 o1]|]; [|discriminate E2]. cbn beta iota in E2 |- *. destruct (apply_rop xprio (fun _ => true) (fun _ _ => 0) xact f 100 s1 (NRegister 300)) as [[s2 o2]|]; [|discriminate E2]. cbn beta iota in E2 |- *. injection E2 as -> -> ->.
    cbn [apply_rop]. unfold rcall. rewrite L1. cbn beta iota. rewrite L2. cbn beta iota.
    assert (St : exists c, rcall_from xprio (fun _ => true) (fun _ _ => 0) xact f f m2 100 [] 0 (Z.of_nat (S (S k))) 0 200 300 = rcall_from xprio (fun _ => true) (fun _ _ => 0) xact f (S (S (S (S (S fuel))))) m3 100 [200] 0 (Z.of_nat (S k)) c 300 300).
    { exists (w32 (0 + 1)). unfold f at 2. cbn [rcall_from]. replace (200 =? 100) with false by reflexivity. destruct (Z.eqb_spec (Z.of_nat (S (S k))) 0); [lia|]. rewrite E3. cbn beta iota. replace (Z.land 0 REMOVE =? 0) with true by reflexivity. replace (Z.land 0 STOP =? 0) with true by reflexivity. cbn beta iota zeta delta [negb]. rewrite L3. cbn beta iota. replace (Z.of_nat (S (S k)) - 1) with (Z.of_nat (S k)) by lia. reflexivity. }
    destruct St as [c St]. rewrite St. destruct (spin xprio (fun _ => true) (fun _ _ => 0) 100 300 ltac:(lia) (fun _ => eq_refl) f (S (S (S (S (S fuel))))) m3 [200] 0 (S k) c L3 ltac:(lia)) as (r & c' & [E|E]); [|lia].
    rewrite E. cbn beta iota. exists m3, r, c'. reflexivity.
Qed.
(** Concrete data: head 100, nodes 200, 300, 400 of priorities 5, 5, 3.  The order is 400, 300, 200.  400 unregisters itself and 200, 300 registers both
    again; they are in front of it then.  The second round ends with its first call, which may therefore unregister its successor. *)
Definition yact (past : list Z) (n : Z) : list act1 := if n =? 400 then [AUnreg 400; AUnreg 200] else if n =? 300 then [AReg 400; AReg 200] else [].
Definition yops : list nop := [NRegister 200; NRegister 300; NRegister 400; NCall 10; NCall 1].
Lemma round_det prio entry orc act w num ret x y tr w' r : round prio entry orc act w num ret x y tr w' r -> forall tr2 w2 r2, round prio entry orc act w num ret x y tr2 w2 r2 -> tr2 = tr /\ w2 = w' /\ r2 = r.
Proof.
  intros R. induction R as [w num ret y|w ret x y|w num ret x y N Hs|w num ret x y tr w' ret' N Hs R IH]; intros tr2 w2 r2 R2; inversion R2; subst; auto; try congruence. destruct (IH _ _ _ ltac:(eassumption)) as (-> & -> & ->). auto.
Qed.
Example C113_case : apart 100 [200; 300; 400] /\ raw emem 100 [200; 300; 400] /\ hist_allowed eprio (fun _ => true) (fun _ _ => 0) yact [200; 300; 400] nobody yops /\
  option_map (fun r => (snd (fst r), snd r)) (let* m := chain_init emem 100 in run_rops eprio (fun _ => true) (fun _ _ => 0) yact 9 100 (m, []) yops) = Some ([400; 300; 400], [[0]; [0]; [0]; [0; 2]; [0; 1]]).
Proof.
  split; [|split; [|split]].
  - split; [repeat constructor; cbn; lia|]. split; [cbn; lia|]. split; [unfold NULL; cbn; lia|]. intros p q Hp Hq. unfold IDX. cbn in Hp, Hq. lia.
  - split; [split; eexists; reflexivity|]. intros n [<-|[<-|[<-|[]]]]; split; split; eexists; reflexivity.
  - cbn [hist_allowed yops]. split; [cbn; tauto|]. split; [cbn; intuition lia|]. split; [cbn; intuition lia|]. split; [lia|]. split.
    + intros k. unfold starts. cbn. destruct k as [|[|[|k]]]; [exact I| | |]; cbn; right; (split; [intuition lia|]); right; right; (split; [intros b [= <-] [C|[C|[]]]; discriminate C|]); [exact I| |]; right; (split; [intuition lia|]); right; right; (split; [intros b C; discriminate C|exact I]).
    + intros tr w1 r R. assert (E : exists tr0, starts eprio (acted1 (fun _ => true) (acted1 (fun _ => true) (acted1 (fun _ => true) nobody (AReg 200)) (AReg 300)) (AReg 400)) (fun x y => round eprio (fun _ => true) (fun _ _ => 0) yact (acted1 (fun _ => true) (acted1 (fun _ => true) (acted1 (fun _ => true) nobody (AReg 200)) (AReg 300)) (AReg 400)) 10 0 x y tr0 {| regs := [200; 400; 300]; seen := [200; 400; 400; 300; 200]; calls := [400; 300] |} 0)).
      { eexists. unfold starts. cbn. apply r_next; [lia|reflexivity|]. cbn. apply r_next; [lia|reflexivity|]. cbn. apply r_end. }
      destruct E as [tr0 E]. unfold starts in E, R. destruct (round_det _ _ _ _ _ _ _ _ _ _ _ _ E _ _ _ R) as (_ & -> & _). split; [lia|]. split; [|auto]. intros k. unfold starts. cbn. destruct k as [|k]; [exact I|]. cbn. right. split; [intuition lia|]. right. left. reflexivity.
  - vm_compute. reflexivity.
Qed.
Print Assumptions C113_history. Print Assumptions C113_round. Print Assumptions C113_refuted.
