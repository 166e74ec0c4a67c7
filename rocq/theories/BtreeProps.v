(** * B+tree: a session refines an ordered map (C70) *)
From Verif Require Import Lib BtreeModel BtreeCells BtreeFill BtreeTower BtreeSpec BtreeState BtreeInsert BtreeRemove BtreeIter BtreeSession.

Section C70.
Variable K : Z.
Hypothesis even : Z.even K = true.
Hypothesis room : 4 <= K < 2 ^ 31.
Variable al : nat -> heap -> Z.
Hypothesis AL : allocator al.
Variable clash : option (Z -> Z -> Z).
Variable remove : option (Z -> Z).
Variable prog : list (bop * bres) -> bop.
Hypothesis PO : polite (may_fail al) clash remove prog.

Lemma halves : K - 2 * (K / 2) = 0.
Proof. apply Z.even_spec in even. destruct even as [q ->]. replace (2 * q / 2) with q by (rewrite Z.mul_comm, Z.div_mul; lia). lia. Qed.
Lemma session : forall n, exists s h m, run_ops K al clash remove n btree_init prog [] = Some (s, h) /\ reach (may_fail al) clash remove h m /\ rel K (K / 2) al s m.
Proof. intros n. apply (run_ok K (K / 2) halves room al AL clash remove prog PO n btree_init [] []); [apply reach_nil|apply rel_init]. Qed.
Lemma run_length : forall n s h s' h', run_ops K al clash remove n s prog h = Some (s', h') -> length h' = (length h + n)%nat.
Proof.
  induction n as [|n IH]; intros s h s' h' E; cbn [run_ops] in E; [injection E as <- <-; lia|]. destruct (btree_exec K al clash remove s (prog h)) as [[s1 r]|]; [|discriminate]. apply IH in E. rewrite app_length in E. cbn [length] in E. lia.
Qed.

(** ** Every operation of every session does what the ordered map does
    Missing: odd layouts, absent keys in remove/next and key 0 in update/remove/prev as [ballowed] says (false there, see
    the refutations), and keys of more than one word or with the client's own order (not modelled). *)
Theorem C70_session_partial : forall n, exists s h m, run_ops K al clash remove n btree_init prog [] = Some (s, h) /\ length h = n /\ reach (may_fail al) clash remove h m.
Proof. intros n. destruct (session n) as (s & h & m & E & R & _). exists s, h, m. split; [exact E|]. split; [|exact R]. apply run_length in E. exact E. Qed.
(** ** The entries of the tree in order: the greatest key first, each key once, no null value *)
Inductive descending : bmap -> Prop :=
| desc_nil : descending []
| desc_one k v : descending [(k, v)]
| desc_more k v k' v' m : k' < k -> descending ((k', v') :: m) -> descending ((k, v) :: (k', v') :: m).
Lemma desc_descending : forall m d, desc d m -> descending m.
Proof.
  induction m as [|[k v] m IH]; intros d D; [constructor|]. destruct D as [_ D]. specialize (IH _ D). destruct m as [|[k' v'] m]; constructor; [destruct D as [D _]; cbn [fst] in D; lia|exact IH].
Qed.
Lemma rel_facts : forall s m, rel K (K / 2) al s m -> desc (2 ^ 64) m /\ Forall (fun e => 0 <= fst e < 2 ^ 64 /\ snd e <> 0) m.
Proof. intros s m [[_ ->]|Sh]; [split; [exact I|constructor]|]. apply (shape_range _ _ _ _ _ Sh). Qed.
(** the states a session can be in, and what the map then is *)
Definition visits (s : root) (m : bmap) : Prop :=
  exists n h, run_ops K al clash remove n btree_init prog [] = Some (s, h) /\ reach (may_fail al) clash remove h m.

(** what the client knows is enough to know the map *)
Definition replay1 (m : bmap) (e : bop * bres) : bmap :=
  match e with
  | (BUpdate k v, RCode c) => match get k m with Some _ => put k v m | None => m end
  | (BInsert k v, RCode c) => if v =? NULL then m else match get k m with Some _ => m | None => if c =? 0 then put k v m else m end
  | (BRemove k, RVal r) => match get k m with Some v => if verdict remove v =? NULL then del k m else m | None => m end
  | (BRelease n, _) => []
  | _ => m
  end.
Lemma replay_ok : forall h m, reach (may_fail al) clash remove h m -> fold_left replay1 h [] = m.
Proof.
  intros h m R. induction R as [|h m o r m' R IH S]; [reflexivity|]. rewrite fold_left_app, IH. cbn [fold_left].
  inversion S; subst; cbn [replay1 report]; try reflexivity.
  - destruct (get k (fold_left replay1 h [])); [reflexivity|congruence].
  - destruct (get k (fold_left replay1 h [])); [congruence|reflexivity].
  - apply Z.eqb_neq in H. rewrite H, H0. reflexivity.
  - apply Z.eqb_neq in H. rewrite H, H0. reflexivity.
  - apply Z.eqb_neq in H. rewrite H, H0. reflexivity.
  - rewrite H, H0. reflexivity.
  - apply Z.eqb_neq in H0. rewrite H, H0. reflexivity.
  - rewrite H. reflexivity.
Qed.
Lemma visits_rel : forall s m, visits s m -> rel K (K / 2) al s m.
Proof.
  intros s m (n & h & E & R). destruct (session n) as (s1 & h1 & m1 & E1 & R1 & L). rewrite E in E1. injection E1 as <- <-. rewrite <- (replay_ok _ _ R), (replay_ok _ _ R1). exact L.
Qed.
Theorem C70_sorted : forall s m, visits s m -> descending m /\ Forall (fun e => 0 <= fst e < 2 ^ 64 /\ snd e <> NULL) m.
Proof. intros s m V. destruct (rel_facts s m (visits_rel s m V)) as [D F]. split; [apply (desc_descending _ _ D)|exact F]. Qed.

(** ** "first" and then "next" visits every entry of the tree once, in order; "last" and then "prev" the other way round *)
Fixpoint forward (n : nat) (s : root) (v k : Z) : option (root * bmap) :=
  if v =? NULL then Some (s, []) else
  match n with
  | O => None
  | S n => let* (s, (v', k')) := btree_next K s k in let* (s, l) := forward n s v' k' in Some (s, (k, v) :: l)
  end.
Fixpoint backward (n : nat) (s : root) (v k : Z) : option (root * bmap) :=
  if v =? NULL then Some (s, []) else
  match n with
  | O => None
  | S n => let* (s, (v', k')) := btree_prev K s k in let* (s, l) := backward n s v' k' in Some (s, (k, v) :: l)
  end.
Lemma desc_split : forall A k v C d, desc d (A ++ (k, v) :: C) -> Forall (fun e => k < fst e) A /\ Forall (fun e => fst e < k) C.
Proof.
  induction A as [|e A IH]; intros k v C d D; cbn [app desc] in D; destruct D as [D1 D].
  - split; [constructor|]. cbn [fst] in D. clear - D. revert k D. induction C as [|e C IH]; intros k D; [constructor|]. destruct D as [D1 D]. constructor; [exact D1|]. eapply Forall_impl; [|apply (IH _ D)]. cbn beta. intros; lia.
  - destruct (IH _ _ _ _ D) as [FA FC]. split; [|exact FC]. constructor; [|exact FA]. clear - D. revert e D. induction A as [|a A IH]; intros e [D1 D]; [exact D1|]. specialize (IH _ D). lia.
Qed.
Lemma forward_ok : forall C s A k v, shape K (K / 2) al s (A ++ (k, v) :: C) -> exists s', forward (S (length C)) s v k = Some (s', (k, v) :: C) /\ shape K (K / 2) al s' (A ++ (k, v) :: C).
Proof.
  induction C as [|[k1 v1] C IH]; intros s A k v Sh; destruct (shape_range _ _ _ _ _ Sh) as [D F]; destruct (desc_split _ _ _ _ _ D) as [FA FC]; assert (Nv : v <> 0) by (rewrite Forall_forall in F; apply (F (k, v)), in_or_app; right; left; reflexivity); cbn [forward length]; destruct (Z.eqb_spec v NULL) as [Q|_]; try contradiction; destruct (next_ok K (K / 2) halves room al s A v _ k Sh FA FC) as (s' & v' & k' & E & Sh' & RP); rewrite E; cbn [hd_error report] in RP; injection RP as -> ->.
  - exists s'. split; [reflexivity|exact Sh'].
  - cbn [length] in IH. destruct (IH s' (A ++ [(k, v)]) k1 v1 ltac:(rewrite <- app_assoc; exact Sh')) as (s2 & E2 & Sh2). rewrite <- app_assoc in Sh2. cbn [forward] in E2. exists s2. split; [|exact Sh2]. rewrite E2. reflexivity.
Qed.
Lemma forward_more : forall n n' s v k r, (n <= n')%nat -> forward n s v k = Some r -> forward n' s v k = Some r.
Proof.
  induction n as [|n IH]; intros [|n'] s v k r L E; cbn [forward] in *; try exact E; try lia; destruct (v =? NULL); try exact E; try discriminate.
  destruct (btree_next K s k) as [[s1 [v1 k1]]|]; [|discriminate]. destruct (forward n s1 v1 k1) as [q|] eqn:E1; [|discriminate]. rewrite (IH n' _ _ _ _ ltac:(lia) E1). exact E.
Qed.
Theorem C70_forward : forall s m, visits s m -> exists v k s', btree_first K s 0 = Some (v, k) /\ forward (length m) s v k = Some (s', m).
Proof.
  intros s m V. destruct (visits_rel _ _ V) as [[(E0 & _) ->]|Sh].
  - exists NULL, 0, s. unfold btree_first. rewrite E0. split; reflexivity.
  - destruct (first_ok K (K / 2) room al s m 0 Sh) as (v & k & E & Q). exists v, k. destruct m as [|[k1 v1] m]; destruct Q as [-> ->].
    + exists s. split; [exact E|reflexivity].
    + destruct (forward_ok m s [] k1 v1 Sh) as (s' & E' & _). exists s'. split; [exact E|exact E'].
Qed.
Lemma backward_ok : forall A s C k v, shape K (K / 2) al s (rev A ++ (k, v) :: C) -> 0 < k -> exists s', backward (S (length A)) s v k = Some (s', (k, v) :: A).
Proof.
  induction A as [|[k1 v1] A IH]; intros s C k v Sh Pk; destruct (shape_range _ _ _ _ _ Sh) as [D F]; destruct (desc_split _ _ _ _ _ D) as [FA FC]; rewrite Forall_forall in F; pose proof (F (k, v) ltac:(apply in_or_app; right; left; reflexivity)) as [Rk Nv]; cbn [fst snd] in *; cbn [backward length]; destruct (Z.eqb_spec v NULL) as [Q|_]; try contradiction;
    (assert (FR : Forall (fun e => fst e <= k) ((k, v) :: C)) by (constructor; [cbn; lia|eapply Forall_impl; [|exact FC]; cbn beta; intros; lia])); destruct (prev_ok K (K / 2) halves room al s _ _ k Sh Rk ltac:(lia) FA FR) as (s' & v' & k' & E & Sh' & RP); rewrite E.
  - cbn in RP. injection RP as -> ->. exists s'. reflexivity.
  - cbn [rev] in RP. rewrite last_of_snoc in RP. injection RP as -> ->. cbn [rev] in Sh', FA. rewrite <- app_assoc in Sh'. cbn [app] in Sh'. apply Forall_app in FA. destruct FA as [_ FA]. apply Forall_inv in FA. cbn [fst] in FA. destruct (IH s' _ k1 v1 Sh' ltac:(lia)) as (s2 & E2). cbn [backward] in E2. exists s2. rewrite E2. reflexivity.
Qed.
Theorem C70_backward : forall s m, visits s m -> m <> [] -> Forall (fun e => fst e <> 0) m -> exists v k s', btree_last K s 0 = Some (v, k) /\ backward (length m) s v k = Some (s', rev m).
Proof.
  intros s m V NE NZ. destruct (visits_rel _ _ V) as [[_ Q]|Sh]; [contradiction|]. destruct (last_ok K (K / 2) halves room al s m 0 Sh NE) as (v & k & E & LO). exists v, k.
  destruct (exists_last NE) as (A & [k1 v1] & ->). rewrite last_of_snoc in LO. injection LO as -> ->. destruct (shape_range _ _ _ _ _ Sh) as [_ F]. apply Forall_app in F. destruct F as [_ F]. apply Forall_inv in F. apply Forall_app in NZ. destruct NZ as [_ NZ]. apply Forall_inv in NZ. cbn [fst] in *.
  rewrite <- (rev_involutive A) in Sh. destruct (backward_ok (rev A) s [] k v Sh ltac:(lia)) as (s' & E'). exists s'. split; [exact E|]. rewrite rev_app_distr, app_length. cbn [rev app length]. rewrite rev_length in E'. rewrite Nat.add_1_r. exact E'.
Qed.
(** ** Releasing the tree hands every value to the client once, in order, and gives every node back *)
Theorem C70_release : forall s m n, visits s m -> (length m <= n)%nat -> (forall e, In e m -> verdict remove (snd e) = NULL) ->
  exists s', btree_release K remove n s = Some (s', map snd m) /\ b_node s' = NULL /\ b_height s' = 0 /\ forall a, b_heap s' a = None.
Proof.
  intros s m n V LN VE. destruct (visits_rel _ _ V) as [[(E1 & E2 & E3 & Bo) ->]|Sh].
  - unfold btree_release, btree_first. rewrite E1. cbn. unfold node_free. rewrite E2. cbn. eexists. split; [reflexivity|]. auto.
  - destruct (release_ok K (K / 2) halves room al remove m n s Sh LN VE) as (s' & E & E1 & E2 & E3 & _). exists s'. auto.
Qed.
End C70.

(** ** Clients that keep to the rules: whatever a program asks for, check it first *)
Definition okb (remove : option (Z -> Z)) (m : bmap) (o : bop) : bool :=
  let word k := (0 <=? k) && (k <? 2 ^ 64) in
  let has k := match get k m with Some _ => true | None => false end in
  match o with
  | BLookup k => word k
  | BUpdate k v => word k && negb (v =? NULL) && (negb (k =? 0) || has k)
  | BInsert k v => word k
  | BRemove k => word k && (has k || negb (k =? 0) && forallb (fun e => negb (snd e =? k)) m)
  | BFirst => true
  | BLast => negb (Nat.eqb (length m) 0)
  | BNext k => has k
  | BPrev k => word k && negb (k =? 0)
  | BRelease n => Nat.leb (length m) n && forallb (fun e => verdict remove (snd e) =? NULL) m
  end.
Definition careful (remove : option (Z -> Z)) (prog : list (bop * bres) -> bop) (h : list (bop * bres)) : bop :=
  if okb remove (fold_left (replay1 remove) h []) (prog h) then prog h else BFirst.
Lemma okb_ok : forall remove m o, okb remove m o = true -> ballowed remove m o.
Proof.
  intros remove m o E. assert (HAS : forall k, match get k m with Some _ => true | None => false end = true -> get k m <> None) by (intros k; destruct (get k m); congruence).
  destruct o; cbn [okb ballowed] in *; unfold u64; rewrite ?andb_true_iff, ?orb_true_iff, ?negb_true_iff, ?Z.leb_le, ?Z.ltb_lt, ?Z.eqb_neq in E; try (exact I); try lia.
  - destruct E as [[E1 E2] E3]. split; [exact E1|]. split; [exact E2|]. destruct E3 as [E3|E3]; [left|right; apply HAS]; exact E3.
  - destruct E as [E1 E2]. split; [exact E1|]. destruct E2 as [E2|E2]; [left; apply HAS, E2|right]. rewrite ?andb_true_iff, ?negb_true_iff, ?Z.eqb_neq, forallb_forall in E2. destruct E2 as [E2 E3]. split; [exact E2|]. intros e I. specialize (E3 e I). rewrite negb_true_iff, Z.eqb_neq in E3. exact E3.
  - intros ->. discriminate.
  - apply HAS, E.
  - rewrite Nat.leb_le, forallb_forall in E. destruct E as [E1 E2]. split; [exact E1|]. intros e I. apply Z.eqb_eq, (E2 e I).
Qed.
Example C70_careful : forall al clash remove prog, polite (may_fail al) clash remove (careful remove prog).
Proof.
  intros al clash remove prog h m R. unfold careful. rewrite (replay_ok al clash remove h m R). destruct (okb remove m (prog h)) eqn:E; [apply okb_ok, E|exact I].
Qed.

(** ** Concrete sessions with the stock layout *)
Definition ex_al (n : nat) (h : heap) : Z := 1000 * (Z.of_nat n + 1).
Example C70_al : allocator ex_al /\ ~ may_fail ex_al /\ allocator (fun n h => if Nat.eqb n 1 then 0 else ex_al n h) /\ Z.even 8 = true /\ 4 <= 8 < 2 ^ 31.
Proof.
  split; [|split; [|split; [|split; [reflexivity|lia]]]].
  - intros k h W. right. split; [unfold ex_al; lia|]. destruct (h (ex_al k h)) eqn:E; [|reflexivity]. assert (Q : h (ex_al k h) <> None) by congruence. apply W in Q. destruct Q as (j & h' & L & Q). unfold ex_al in Q. lia.
  - intros (k & h & E). unfold ex_al, NULL in E. lia.
  - intros k h W. destruct (Nat.eqb_spec k 1); [left; reflexivity|]. right. split; [unfold ex_al; lia|]. destruct (h (ex_al k h)) eqn:E; [|reflexivity]. assert (Q : h (ex_al k h) <> None) by congruence. apply W in Q. destruct Q as (j & h' & L & Q). destruct (Nat.eqb j 1); unfold ex_al in Q; lia.
Qed.
Definition script (l : list bop) : list (bop * bres) -> bop := fun h => nth (length h) l BFirst.
Definition output (K : Z) (l : list bop) : option (Z * list bres) :=
  option_map (fun r => (b_height (fst r), map snd (snd r))) (run_ops K ex_al None None (length l) btree_init (script l) []).
Definition fill_up (l : list Z) : list bop := map (fun k => BInsert k (100 + k)) l.
Example C70_ex : output 8 (fill_up (zseq 1 40) ++ map BRemove (zseq 3 33) ++ [BFirst; BNext 40; BNext 39; BNext 38; BNext 37; BNext 36; BNext 2; BNext 1; BLast; BPrev 1; BPrev 30; BInsert 2 7; BUpdate 2 7; BLookup 2; BLookup 3; BRelease 100]) =
  Some (0, repeat (RCode 0) 40 ++ map (fun k => RVal (100 + k)) (zseq 3 33) ++
    [RAt 140 40; RAt 139 39; RAt 138 38; RAt 137 37; RAt 136 36; RAt 102 2; RAt 101 1; RAt 0 1; RAt 101 1; RAt 102 2; RAt 136 36; RCode (- EALREADY); RCode 0; RVal 7; RVal 0; RList [140; 139; 138; 137; 136; 7; 101]]).
Proof. vm_compute. reflexivity. Qed.
Example C70_ex_full : option_map (fun r => map snd (snd r)) (run_ops 4 (fun n h => if Nat.eqb n 1 then 0 else ex_al n h) None None 9 btree_init (script (fill_up (zseq 1 5) ++ [BLookup 5; BInsert 5 9; BLookup 5; BFirst])) []) =
  Some [RCode 0; RCode 0; RCode 0; RCode 0; RCode (- ENOMEM); RVal 0; RCode 0; RVal 9; RAt 9 5].
Proof. vm_compute. reflexivity. Qed.

(** ** What goes wrong outside these rules *)
(** what the ordered map answers in these sessions ([None]: more than one answer, or no matter) *)
Definition expected (m : bmap) (o : bop) : option bres :=
  match o with
  | BLookup k => Some (RVal (value_or_null (get k m)))
  | BUpdate k v => Some (RCode match get k m with Some _ => 0 | None => - ENOENT end)
  | BNext k => Some (report k (hd_error (below k m)))
  | BPrev k => Some (report k (last_of (above k m)))
  | _ => None
  end.
Lemma expected_ok : forall h o r m e, reach (may_fail ex_al) None None (h ++ [(o, r)]) m -> expected (fold_left (replay1 None) h []) o = Some e -> r = e.
Proof.
  intros h o r m e R E. inversion R as [Q|h1 m1 o1 r1 m2 R1 S Q]; [destruct h; discriminate|]. apply app_inj_tail in Q. destruct Q as [-> Q]. injection Q as -> ->. rewrite (replay_ok ex_al None None _ _ R1) in E.
  inversion S; subst; cbn [expected] in E; try discriminate; injection E as <-; try reflexivity.
  - destruct (get k m1); [reflexivity|congruence].
  - rewrite H. reflexivity.
Qed.
(** the session of [l] and then [o] ends with an answer that is not the ordered map's *)
Definition wrong (K : Z) (l : list bop) (o : bop) : Prop :=
  exists s h r, run_ops K ex_al None None (S (length l)) btree_init (script (l ++ [o])) [] = Some (s, h ++ [(o, r)]) /\ forall m, ~ reach (may_fail ex_al) None None (h ++ [(o, r)]) m.
Lemma wrong_by : forall K l o s h r e, run_ops K ex_al None None (S (length l)) btree_init (script (l ++ [o])) [] = Some (s, h ++ [(o, r)]) -> expected (fold_left (replay1 None) h []) o = Some e -> r <> e -> wrong K l o.
Proof. intros K l o s h r e E X N. exists s, h, r. split; [exact E|]. intros m R. apply N, (expected_ok _ _ _ _ _ R X). Qed.
Definition answered (K : Z) (l : list bop) (o : bop) : option (bres * option bres) :=
  match run_ops K ex_al None None (S (length l)) btree_init (script (l ++ [o])) [] with
  | Some (_, h) => match rev h with (_, r) :: h => Some (r, expected (fold_left (replay1 None) (rev h) []) o) | [] => None end
  | None => None
  end.
Lemma wrong_when : forall K l o r e, answered K l o = Some (r, Some e) -> r <> e -> wrong K l o.
Proof.
  intros K l o r e A N. unfold answered in A. destruct (run_ops K ex_al None None (S (length l)) btree_init (script (l ++ [o])) []) as [[s h]|] eqn:E; [|discriminate]. destruct (rev h) as [|[o' r'] h'] eqn:EH; [discriminate|]. injection A as -> X.
  assert (EQ : h = rev h' ++ [(o', r)]) by (rewrite <- (rev_involutive h), EH; reflexivity). assert (O : o' = o).
  { assert (G : forall n s0 h0 s1 h1, run_ops K ex_al None None (S n) s0 (script (l ++ [o])) h0 = Some (s1, h1) -> exists r1 h2, h1 = h2 ++ [(nth (length h0 + n) (l ++ [o]) BFirst, r1)]).
    { induction n as [|n IH]; intros s0 h0 s1 h1 R; cbn [run_ops] in R; (destruct (btree_exec K ex_al None None s0 (script (l ++ [o]) h0)) as [[s2 r2]|]; [|discriminate]).
      - injection R as <- <-. exists r2, h0. rewrite Nat.add_0_r. reflexivity.
      - specialize (IH s2 (h0 ++ [(script (l ++ [o]) h0, r2)]) s1 h1 R). rewrite app_length in IH. cbn [length] in IH. replace (length h0 + 1 + n)%nat with (length h0 + S n)%nat in IH by lia. exact IH. }
    destruct (G _ _ _ _ _ E) as (r1 & h2 & Q). rewrite EQ in Q. apply app_inj_tail in Q. destruct Q as [_ Q]. injection Q as Q _. rewrite Q. cbn [length plus]. rewrite app_nth2 by lia. rewrite Nat.sub_diag. reflexivity. }
  subst o'. rewrite EQ in E. apply (wrong_by K l o s _ r e E X N).
Qed.
(** Nodes must hold an even number of entries: with an odd number, splitting a node puts its least entry into the upper
    half, where it is not found. *)
Theorem C70_odd_refuted : exists l k, Forall (fun o => exists k v, o = BInsert k v) l /\ wrong 7 l (BLookup k).
Proof.
  exists (fill_up (zseq 1 10)), 1. split; [apply Forall_forall; intros o I; unfold fill_up in I; apply in_map_iff in I; destruct I as (k & <- & _); eauto|].
  apply (wrong_when 7 _ _ (RVal 0) (RVal 101)); [vm_compute; reflexivity|discriminate].
Qed.
(** Removing the key 0 that is not there takes an empty slot for it, and another entry is lost. *)
Theorem C70_remove_zero_refuted : exists l k, wrong 8 (l ++ [BRemove 0]) (BLookup k) /\ Forall (fun o => exists k v, o = BInsert k v /\ 0 < k) l.
Proof.
  exists (fill_up (zseq 1 9)), 1. split.
  - apply (wrong_when 8 _ _ (RVal 0) (RVal 101)); [vm_compute; reflexivity|discriminate].
  - apply Forall_forall. intros o I. unfold fill_up in I. apply in_map_iff in I. destruct I as (k & <- & I). apply zseq_in in I. exists k, (100 + k). split; [reflexivity|lia].
Qed.
(** Updating the key 0 that is not there reports success. *)
Theorem C70_update_zero_refuted : exists l v, v <> NULL /\ wrong 8 l (BUpdate 0 v).
Proof. exists [BInsert 50 11], 9. split; [discriminate|]. apply (wrong_when 8 _ _ (RCode 0) (RCode (- ENOENT))); [vm_compute; reflexivity|discriminate]. Qed.
(** No key is before 0, even if 0 is in the tree with greater ones: going backwards stops there at once. *)
Theorem C70_prev_zero_refuted : exists l, wrong 8 l (BPrev 0).
Proof. exists [BInsert 50 11; BInsert 0 12]. apply (wrong_when 8 _ _ (RAt 0 0) (RAt 11 50)); [vm_compute; reflexivity|discriminate]. Qed.
(** "next" of a key that is not there leaves out an entry. *)
Theorem C70_next_absent_refuted : exists l k, wrong 8 l (BNext k).
Proof. exists [BInsert 50 11; BInsert 30 12], 40. apply (wrong_when 8 _ _ (RAt 0 40) (RAt 12 30)); [vm_compute; reflexivity|discriminate]. Qed.
(** Removing a key that is not there, less than all keys of a full leaf, compares it with the leaf's first value as if
    that were a key, and then writes outside the node. *)
Theorem C70_remove_absent_refuted : exists l k, Forall (fun o => exists k v, o = BInsert k v) l /\ 0 < k /\ output 8 (l ++ [BLookup k]) <> None /\ output 8 (l ++ [BRemove k]) = None.
Proof.
  exists (map (fun k => BInsert (500 + k) k) (zseq 1 8)), 8. split; [apply Forall_forall; intros o I; apply in_map_iff in I; destruct I as (k & <- & _); eauto|]. split; [lia|]. split; [vm_compute; discriminate|]. vm_compute. reflexivity.
Qed.
(** Asking for the last entry of a tree whose entries are all removed reads outside the node. *)
Theorem C70_last_empty_refuted : exists l, output 8 (l ++ [BFirst]) <> None /\ output 8 (l ++ [BLast]) = None.
Proof. exists [BInsert 50 11; BRemove 50]. split; [vm_compute; discriminate|]. vm_compute. reflexivity. Qed.
Print Assumptions C70_session_partial.
Print Assumptions C70_sorted.
Print Assumptions C70_forward.
Print Assumptions C70_backward.
Print Assumptions C70_release.
Print Assumptions C70_careful.
Print Assumptions C70_odd_refuted.
Print Assumptions C70_remove_zero_refuted.
Print Assumptions C70_update_zero_refuted.
Print Assumptions C70_prev_zero_refuted.
Print Assumptions C70_next_absent_refuted.
Print Assumptions C70_remove_absent_refuted.
Print Assumptions C70_last_empty_refuted.
