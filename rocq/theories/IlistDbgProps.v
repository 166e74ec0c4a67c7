(** * C122: the debug build of the index list *)
From Verif Require Import Lib Ptr ListModel ListSpec ListProofs IlistModel IlistSpec IlistDbgModel IlistDbgSpec IlistDbgProofs IlistDbgProofs2.
From Verif Require IlistProps.

(** The walk over a list ends on any memory whatsoever (with finitely many objects, [D]), and passes a list exactly if it
    is whole. *)
Theorem C122_walk : forall m h D fuel, (forall q, m q PREV <> None -> In q D) -> In h D -> (length D <= fuel)%nat ->
  check_list fuel m h <> Spin /\ (check_list fuel m h = Ret true <-> whole m h) /\ (check_list fuel m h = Ret false -> ~ whole m h).
Proof.
  intros m h D fuel HD Hh Hf. assert (K : forall q n, In q D -> m q NEXT = Some n -> m n PREV <> None -> In n D) by (intros q n _ _ H; apply HD, H).
  split; [apply (check_ends m h D); assumption|]. split; [split; [apply check_true|apply (whole_passes m h D); assumption]|].
  intros E H. rewrite (whole_passes m h D fuel Hh K Hf H) in E. discriminate.
Qed.
(** Without wild pointers it answers. *)
Theorem C122_walk_answers : forall m h D fuel, within m D -> In h D -> (length D <= fuel)%nat ->
  exists b, check_list fuel m h = Ret b /\ (b = true <-> whole m h).
Proof. intros m h D fuel. apply check_answers. Qed.
(** A call on a head whose node list is damaged changes nothing and logs; on any other it does what the plain build does.
    A message is logged exactly if one of the two lists is not whole before or after. *)
Theorem C122_add : forall cmp h U m n fuel, apart h U -> no_wild m h U -> In n U -> (length U < fuel)%nat ->
  (~ whole m h -> dilist_add cmp fuel m h n = Some (m, true)) /\
  (whole m h -> option_map fst (dilist_add cmp fuel m h n) = ilist_add cmp fuel m h n) /\
  (forall m' b, dilist_add cmp fuel m h n = Some (m', b) -> b = false <-> sound m h /\ sound m' h).
Proof.
  intros cmp h U m n fuel AP W Hn Hf. unfold dilist_add.
  assert (Hw : forall m' e, (let* b := busy m n in let* m' := ilist_add cmp fuel m h n in Some (m', b)) = Some (m', e) -> no_wild m' h U /\ (e = true -> m' = m)).
  { intros m' e E. destruct (busy m n) as [b|] eqn:Eb; [|discriminate]. destruct (ilist_add cmp fuel m h n) as [m1|] eqn:Ea; [|discriminate]. injection E as <- <-.
    split; [exact (add_no_wild h U AP cmp fuel m n m1 W Hn Ea)|]. intros ->. unfold busy in Eb. unfold ilist_add in Ea.
    destruct (list_check_empty m n) as [e1|]; [|discriminate]. destruct (list_check_empty m (IDX n)) as [e2|]; [|discriminate]. injection Eb as Eb. rewrite Eb in Ea. injection Ea as <-. reflexivity. }
  destruct (checked_ok h U m fuel (fun m => let* b := busy m n in let* m' := ilist_add cmp fuel m h n in Some (m', b)) W Hf Hw) as (A & B & C). split; [exact A|]. split; [|exact C]. intros H. rewrite (B H).
  unfold busy. unfold ilist_add. destruct (list_check_empty m n) as [e1|]; [|reflexivity]. destruct (list_check_empty m (IDX n)) as [e2|]; [|reflexivity].
  destruct (negb e1 || negb e2); [reflexivity|]. match goal with |- option_map fst (let* m' := ?x in Some (m', false)) = _ => destruct x; reflexivity end.
Qed.
Theorem C122_del : forall h U m n fuel, apart h U -> no_wild m h U -> In n U -> (length U < fuel)%nat ->
  (~ whole m h -> dilist_del fuel m h n = Some (m, true)) /\
  (whole m h -> option_map fst (dilist_del fuel m h n) = ilist_del m h n) /\
  (forall m' b, dilist_del fuel m h n = Some (m', b) -> b = false <-> sound m h /\ sound m' h).
Proof.
  intros h U m n fuel AP W Hn Hf. unfold dilist_del.
  assert (Hw : forall m' e, (let* m' := ilist_del m h n in Some (m', false)) = Some (m', e) -> no_wild m' h U /\ (e = true -> m' = m)).
  { intros m' e E. destruct (del_no_wild h U AP m n W Hn) as (m1 & Ed & W1). rewrite Ed in E. injection E as <- <-. split; [exact W1|discriminate]. }
  destruct (checked_ok h U m fuel (fun m => let* m' := ilist_del m h n in Some (m', false)) W Hf Hw) as (A & B & C). split; [exact A|]. split; [|exact C]. intros H. rewrite (B H).
  destruct (ilist_del m h n); reflexivity.
Qed.
(** From fresh nodes on, whatever the comparison and the history, the debug build does what the plain build does and logs
    nothing: no false alarm. *)
Theorem C122_history : forall cmp h U m fuel ops, apart h U -> fresh m h U -> (length U < fuel)%nat -> Forall (uses U) ops ->
  dilist_run fuel cmp h m ops = option_map (fun m' => (m', false)) (ilist_run fuel cmp h m ops).
Proof.
  intros cmp h U m fuel ops AP [F1 F2] Hf HU.
  assert (I0 : wound2 h U m).
  { assert (G : forall D, (forall q, In q D -> ring m q []) -> wound m D).
    { intros D H. split; [|split].
      - intros q Hq. destruct (H q Hq) as [_ [A B]]. exists q, q. auto.
      - intros q n Hq E. destruct (H q Hq) as [_ [A B]]. rewrite A in E. injection E as <-. exact B.
      - intros q n Hq E. destruct (H q Hq) as [_ [A B]]. rewrite B in E. injection E as <-. exact A. }
    split; apply G.
    - intros q [<- | Hq]; [exact F1|apply F2, Hq].
    - intros q Hq. apply in_map_iff in Hq. destruct Hq as (p & <- & Hp). apply F2, Hp. }
  clear F1 F2. revert m I0. induction HU as [|op ops Hop HU IH]; intros m I0; [reflexivity|]. cbn [dilist_run ilist_run].
  pose proof (wound2_no_wild h U m I0) as W. pose proof (wound2_sound h U m I0) as So. destruct op as [n|n]; cbn [uses] in Hop.
  - destruct (C122_add cmp h U m n fuel AP W Hop Hf) as (_ & B & C). specialize (B (proj1 So)). destruct (dilist_add cmp fuel m h n) as [[m1 b]|]; cbn [option_map fst] in B; rewrite <- B; [|reflexivity].
    symmetry in B. pose proof (add_wound2 h U AP cmp fuel m n m1 I0 Hop B) as I1. assert (b = false) as -> by (apply (C m1 b eq_refl); split; [exact So|apply (wound2_sound h U); exact I1]).
    cbn [fst snd orb]. rewrite (IH m1 I1). destruct (ilist_run fuel cmp h m1 ops); reflexivity.
  - destruct (C122_del h U m n fuel AP W Hop Hf) as (_ & B & C). specialize (B (proj1 So)). destruct (del_wound2 h U AP m n I0 Hop) as (m1 & E1 & I1). rewrite E1 in B. rewrite E1.
    destruct (dilist_del fuel m h n) as [[m2 b]|]; cbn [option_map fst] in B; [|discriminate]. injection B as ->.
    assert (b = false) as -> by (apply (C m1 b eq_refl); split; [exact So|apply (wound2_sound h U); exact I1]).
    cbn [fst snd orb]. rewrite (IH m1 I1). destruct (ilist_run fuel cmp h m1 ops); reflexivity.
Qed.

(** A head, two nodes and their index links, with a wrong link of the head resp. of an index. *)
Definition dm (wrong_head wrong_idx : Z) : mem := fun p f =>
  match find (fun e => (fst (fst e) =? p) && (snd (fst e) =? f))
    [((10, NEXT), 100); ((100, NEXT), 200); ((200, NEXT), 10); ((10, PREV), wrong_head); ((100, PREV), 10); ((200, PREV), 100);
     ((116, NEXT), 216); ((216, NEXT), 116); ((116, PREV), 216); ((216, PREV), wrong_idx);
     ((300, NEXT), 300); ((300, PREV), 300); ((316, NEXT), 316); ((316, PREV), 316)] with
  | Some e => Some (snd e)
  | None => None
  end.
Definition dU : list Z := [100; 200; 300].
Lemma dm_apart : apart 10 dU.
Proof.
  split; [repeat constructor; cbn; intuition lia|]. split; [cbn; intuition lia|]. split; [cbn; unfold NULL; intuition lia|].
  intros p q Hp Hq. unfold IDX. cbn in Hp, Hq. intuition lia.
Qed.
Lemma dm_wild a b : In a (10 :: dU) -> In b (map IDX dU) -> no_wild (dm a b) 10 dU.
Proof.
  intros Ha Hb. split; intros q Hq.
  - cbn in Hq. repeat (destruct Hq as [<- | Hq]; [eexists; eexists; split; [reflexivity|]; split; [cbn; tauto|]; split; [reflexivity|]; first [exact Ha | cbn; tauto]|]). destruct Hq.
  - cbn in Hq. repeat (destruct Hq as [<- | Hq]; [eexists; eexists; split; [reflexivity|]; split; [cbn; tauto|]; split; [reflexivity|]; first [exact Hb | cbn; tauto]|]). destruct Hq.
Qed.
Definition dcmp (a b : Z) : Z := a - b.
Example C122_whole_case : whole (dm 200 116) 10 /\ check_list 9 (dm 200 116) 10 = Ret true /\ check_list 9 (dm 200 116) 116 = Ret true.
Proof. split; [exists [100; 200]; split; [repeat constructor; cbn; intuition lia|repeat split]|]. split; vm_compute; reflexivity. Qed.
(** A wrong link of the head: both calls are refused. *)
Example C122_damaged_case : ~ whole (dm 100 116) 10 /\ dilist_add dcmp 9 (dm 100 116) 10 300 = Some (dm 100 116, true) /\ dilist_del 9 (dm 100 116) 10 100 = Some (dm 100 116, true).
Proof.
  assert (W : no_wild (dm 100 116) 10 dU) by (apply dm_wild; cbn; tauto).
  assert (N : ~ whole (dm 100 116) 10).
  { destruct (C122_walk_answers (dm 100 116) 10 (10 :: dU) 9 (proj1 W)) as (b & E & H); [cbn; auto|cbn; lia|]. assert (E' : check_list 9 (dm 100 116) 10 = Ret false) by (vm_compute; reflexivity).
    rewrite E' in E. injection E as <-. intros X. apply H in X. discriminate. }
  split; [exact N|]. split.
  - apply (C122_add dcmp 10 dU (dm 100 116) 300 9 dm_apart W); [cbn; tauto|cbn; lia|exact N].
  - apply (C122_del 10 dU (dm 100 116) 100 9 dm_apart W); [cbn; tauto|cbn; lia|exact N].
Qed.
Example C122_history_case : exists m', dilist_run 10 IlistProps.icmp 10 IlistProps.imem [IAdd 300; IAdd 100; IAdd 200; IDel 200; IAdd 400] = Some (m', false) /\ for_each 9 m' 10 = Some [100; 400; 300].
Proof. destruct IlistProps.C61_setup as (_ & A & B). rewrite (C122_history IlistProps.icmp 10 [100; 200; 300; 400]); [|exact A|exact B|cbn; lia|repeat (apply Forall_cons; [cbn; auto 6|]); apply Forall_nil]. eexists. split; [vm_compute; reflexivity|vm_compute; reflexivity]. Qed.

(** Refuted: "a call on a damaged head changes nothing". If only the index list is damaged, the damage is found and
    logged, and the call goes ahead. *)
Theorem C122_refuse_refuted : exists cmp h U m n fuel m', apart h U /\ no_wild m h U /\ In n U /\ (length U < fuel)%nat /\ ~ sound m h /\
  dilist_add cmp fuel m h n = Some (m', true) /\ m' h PREV <> m h PREV.
Proof.
  exists dcmp, 10, dU, (dm 200 216), 300, 9%nat. assert (W : no_wild (dm 200 216) 10 dU) by (apply dm_wild; cbn; tauto).
  assert (E : exists m', dilist_add dcmp 9 (dm 200 216) 10 300 = Some (m', true) /\ m' 10 PREV <> dm 200 216 10 PREV).
  { eexists. split; [vm_compute; reflexivity|]. vm_compute. discriminate. }
  destruct E as (m' & E1 & E2). exists m'. split; [exact dm_apart|]. split; [exact W|]. split; [cbn; tauto|]. split; [cbn; lia|]. split; [|split; [exact E1|exact E2]].
  intros So. destruct So as [_ H]. specialize (H 100 eq_refl ltac:(lia)).
  destruct (C122_walk_answers (dm 200 216) 116 (map IDX dU) 9 (proj2 W)) as (b & E & Hb); [cbn; auto|cbn; lia|]. assert (E' : check_list 9 (dm 200 216) 116 = Ret false) by (vm_compute; reflexivity).
  rewrite E' in E. injection E as <-. apply Hb in H. discriminate.
Qed.
(** Refuted: "a list that passed all checks is in order". A delete that loses an index entry passes every check. *)
Theorem C122_blind_refuted : exists cmp h U m fuel ops m' l, preorder cmp /\ apart h U /\ fresh m h U /\ (length U < fuel)%nat /\ Forall (uses U) ops /\
  dilist_run fuel cmp h m ops = Some (m', false) /\ for_each 9 m' h = Some l /\ ~ ascending cmp l.
Proof.
  destruct IlistProps.C61_refuted as (cmp & h & U & m & fuel & ops & A & B & C & D & E & m' & l & F & G & H).
  exists cmp, h, U, m, fuel, ops, m', l. split; [exact A|]. split; [exact B|]. split; [exact C|]. split; [exact D|]. split; [exact E|]. split; [|split; assumption].
  rewrite (C122_history cmp h U m fuel ops B C D E), F. reflexivity.
Qed.
Print Assumptions C122_walk.
Print Assumptions C122_walk_answers.
Print Assumptions C122_add.
Print Assumptions C122_del.
Print Assumptions C122_history.
Print Assumptions C122_refuse_refuted.
Print Assumptions C122_blind_refuted.
