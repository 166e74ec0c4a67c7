(** * Property C47 of the dynamic array *)
From Verif Require Import Lib BitsModel BitsProps ArrayModel ArraySpec.
(** counts that stay in an int, with memory up to 2^63 bytes *)
Definition okcount (c count : Z) : Prop := 0 <= count < 2 ^ 31 /\ c * Z.max 32 count <= 2 ^ 63.
Definition okop (c len : Z) (o : aop) : Prop :=
  match o with Push _ vs => okcount c (len + zlen vs) | Resize _ n => okcount c n | Reserve _ n => 0 <= n /\ okcount c (len + n) | Pop n => 0 <= n < 2 ^ 64 | _ => True end.
Definition inv (c : Z) (a : arr) (l : list elem) : Prop :=
  cells a = c /\ 0 <= index a <= capacity a /\ contains a l /\
  match data a with Null => capacity a = 0 | Live n _ => capacity a * c <= n < 2 ^ 64 | Dangling => False end.
Lemma to_int_small x : 0 <= x < 2 ^ 31 -> to_int x = x.
Proof. intros H. unfold to_int. rewrite w32_small by (unfold u32; lia). rewrite (proj2 (Z.ltb_lt x (2 ^ 31))) by lia. reflexivity. Qed.
Lemma reqsize_ok c a count : 1 <= c -> cells a = c -> okcount c count -> exists r, reqsize a count = Some r /\ 0 < r < 2 ^ 64 /\ c * count <= r.
Proof.
  intros C E [K M]. unfold reqsize. rewrite to_int_small by exact K. rewrite (w64_small (Z.max 32 count)) by (unfold u64; lia). rewrite E. rewrite (Z.mul_comm (Z.max 32 count) c). assert (1 <= c * Z.max 32 count) by nia. rewrite w64_small by (unfold u64; lia).
  destruct (C17_roundup (c * Z.max 32 count) ltac:(lia)) as (r & -> & (k & Kr) & L & Mn). exists r. split; [reflexivity|].
  assert (r <= 2 ^ 63). { apply Mn; [|lia]. exists 63. split; [lia|reflexivity]. } split; [lia|]. nia.
Qed.
Lemma apply_ok c a l count ans : 1 <= c -> inv c a l -> okcount c count -> exists a' r, apply ans a count = Ok (a', r) /\
  ((r = 0 /\ inv c a' l /\ count <= capacity a' /\ (count <= capacity a -> a' = a) /\ (capacity a < count -> ans <> None)) \/ (r = - ENOMEM /\ a' = a /\ ans = None /\ capacity a < count)).
Proof.
  intros C (E & I & (Ci & Ct) & D) K. unfold apply. destruct (Z.leb_spec count (capacity a)) as [L|L]; [exists a, 0; split; [reflexivity|]; left; split; [reflexivity|]; split; [repeat split; assumption || lia|]; split; [exact L|]; split; [reflexivity|lia]|].
  destruct (reqsize_ok c a count C E K) as (r & -> & R & Rc). assert (Wc : w64 (count * cells a) = count * c) by (rewrite E; apply w64_small; unfold u64; destruct K; nia). rewrite Wc. rewrite (proj2 (Z.ltb_ge r (count * c))) by lia. unfold do_resize. rewrite E. rewrite (proj2 (Z.eqb_neq r 0)) by lia. rewrite (proj2 (Z.eqb_neq c 0)) by lia.
  assert (Cap : count <= r / c) by (apply Z.div_le_lower_bound; lia). assert (Cr : r / c * c <= r) by (rewrite Z.mul_comm; apply Z.mul_div_le; lia).
  destruct (data a) as [|n m|] eqn:Ed; [| |contradiction].
  - destruct ans as [g|]; [|exists a, (- ENOMEM); split; [reflexivity|]; right; repeat split; assumption]. eexists _, 0. split; [reflexivity|]. left. split; [reflexivity|]. cbn [capacity]. split; [|split; [lia|]; split; [lia|discriminate]]. unfold inv, contains. cbn [cells index capacity data]. split; [reflexivity|]. split; [lia|]. split; [|lia]. split; [exact Ci|]. intros i v V. destruct (Ct i v V) as (n & m & X & _). try rewrite Ed in X. discriminate.
  - destruct ans as [g|]; [|exists a, (- ENOMEM); split; [reflexivity|]; right; repeat split; assumption]. eexists _, 0. split; [reflexivity|]. left. split; [reflexivity|]. cbn [capacity]. split; [|split; [lia|]; split; [lia|discriminate]]. unfold inv, contains. cbn [cells index capacity data]. split; [reflexivity|]. split; [lia|]. split; [|lia]. split; [exact Ci|]. intros i v V. destruct (Ct i v V) as (n' & m' & X & B & Y). try rewrite Ed in X. injection X as <- <-. rewrite E in *.
    assert (Li : Z.of_nat i < zlen l) by (unfold zlen; assert (i < length l)%nat by (apply nth_error_Some; rewrite V; discriminate); lia).
    eexists r, _. split; [reflexivity|]. split; [nia|]. intros k K2. rewrite (proj2 (Z.ltb_lt _ _)) by nia. apply Y. exact K2.
Qed.
Lemma store_all_other c p0 : forall vs p n m, 0 <= c -> exists m', store_all c (Live n m) p vs = Live n m' /\ (p0 < p -> m' p0 = m p0) /\ (forall i v k, nth_error vs i = Some v -> 0 <= k < c -> m' (p + c * Z.of_nat i + k) = v k).
Proof.
  intros vs p n m C. revert p m p0. induction vs as [|v vs IH]; intros p m p0; cbn [store_all store].
  - exists m. split; [reflexivity|]. split; [reflexivity|]. intros [|i] v k X; discriminate.
  - set (m1 := fun k => if (p <=? k) && (k <? p + c) then v (k - p) else m k). destruct (IH (p + c) m1 p0) as (m' & E & A & B). exists m'. split; [exact E|]. split.
    + intros L. rewrite A by lia. unfold m1. rewrite (proj2 (Z.leb_gt p p0)) by lia. reflexivity.
    + intros [|i] w k X K; cbn in X; [|rewrite <- (B i w k X K); f_equal; lia]. injection X as <-. destruct (IH (p + c) m1 (p + c * Z.of_nat 0 + k)) as (m'' & E2 & A2 & _). rewrite E in E2. injection E2 as <-. rewrite A2 by lia. unfold m1. rewrite (proj2 (Z.leb_le _ _)), (proj2 (Z.ltb_lt _ _)) by lia. cbn [andb]. f_equal. lia.
Qed.
Lemma nth_snoc {A} (l r : list A) i x : nth_error (l ++ r) i = Some x -> nth_error l i = Some x \/ (exists j, i = (length l + j)%nat /\ nth_error r j = Some x).
Proof. intros H. destruct (Nat.lt_ge_cases i (length l)) as [L|L]; [left; rewrite nth_error_app1 in H by exact L; exact H|right]. rewrite nth_error_app2 in H by exact L. exists (i - length l)%nat. split; [lia|exact H]. Qed.
Lemma contains_shrink a l n : contains a l -> (n <= length l)%nat -> contains (set_index a (Z.of_nat n)) (firstn n l).
Proof.
  intros [A B] L. split; [cbn [index set_index]; unfold zlen; rewrite firstn_length; lia|]. intros i v V. cbn [data cells set_index]. apply B. destruct (Nat.lt_ge_cases i n) as [X|X]; [|exfalso; assert (Y : nth_error (firstn n l) i = None) by (apply nth_error_None; rewrite firstn_length; lia); congruence]. rewrite <- V. clear - X. revert n i X. induction l as [|y l IH]; intros [|n] [|i] X; cbn; try lia; try reflexivity. apply IH. lia.
Qed.
Lemma step_ok c a l o : 1 <= c -> inv c a l -> okop c (zlen l) o -> exists a' l', step (a, l) o = Ok (a', l') /\ inv c a' l'.
Proof.
  intros C V O. pose proof V as (E & I & (Ci & Ct) & D). destruct o as [ans vs|n|ans n|ans n| |]; cbn [step okop] in *.
  - unfold push. rewrite Ci. pose proof O as [O1 O2]. rewrite (proj2 (Z.leb_gt _ _)) by lia. destruct (apply_ok c a l (zlen l + zlen vs) ans C V O) as (a' & r & -> & [(-> & V' & L & _)|(-> & -> & _)]); [|exists a, l; split; [reflexivity|exact V]].
    cbn [Z.eqb]. pose proof V' as (E' & I' & (Ci' & Ct') & D'). unfold pointer. cbn [data set_index cells index capacity]. destruct (data a') as [|n m|] eqn:Ed; [| |contradiction].
    + assert (Zv : zlen l + zlen vs = 0) by (unfold zlen in *; lia). exists (set_index a' (zlen l + zlen vs)), l. split; [reflexivity|]. unfold inv, contains. cbn [cells index capacity data set_index]. rewrite Ed. split; [exact E'|]. split; [unfold zlen in *; lia|]. split; [|exact D']. split; [unfold zlen in *; lia|]. intros i v W. destruct (Ct' i v W) as (n & m & X & _). try rewrite Ed in X. discriminate.
    + assert (Wo : offset (set_index a' (zlen l + zlen vs)) (index a') = c * zlen l) by (unfold offset; cbn [cells set_index]; rewrite E', Ci'; apply w64_small; unfold u64, zlen in *; nia).
      assert (Wo2 : offset a' (index a') = c * zlen l) by exact Wo. eexists _, _. split; [reflexivity|]. cbn [set_data set_index cells index capacity data]. try rewrite Ed. unfold offset. cbn [cells set_index]. fold (offset a' (index a')). rewrite Wo2, E'.
      destruct (store_all_other c 0 vs (c * zlen l) n m ltac:(lia)) as (m' & Em & _ & St). rewrite Em. unfold inv, contains. cbn [cells index capacity data set_data set_index]. split; [reflexivity || exact E'|]. split; [unfold zlen in *; lia|]. split; [|exact D']. split; [unfold zlen; rewrite app_length, map_length; lia|].
      intros i v W. exists n, m'. split; [reflexivity|]. destruct (nth_snoc _ _ _ _ W) as [W1|(j & -> & W2)].
      * destruct (Ct' i v W1) as (n2 & m2 & X & B & Y). try rewrite Ed in X. injection X as <- <-. rewrite E' in *. split; [exact B|]. intros k K. assert (Li : Z.of_nat i < zlen l) by (unfold zlen; assert (i < length l)%nat by (apply nth_error_Some; rewrite W1; discriminate); lia). destruct (store_all_other c (c * Z.of_nat i + k) vs (c * zlen l) n m ltac:(lia)) as (m'' & Em2 & Fr & _). rewrite Em in Em2. injection Em2 as <-. assert (Lm : c * (Z.of_nat i + 1) <= c * zlen l) by (apply Z.mul_le_mono_nonneg_l; lia). rewrite Fr by lia. apply Y. exact K.
      * rewrite nth_error_map in W2. destruct (nth_error vs j) as [w|] eqn:Wj; [|discriminate]. injection W2 as ->. assert (Lj : (j < length vs)%nat) by (apply nth_error_Some; rewrite Wj; discriminate). split; [unfold zlen in *; nia|]. intros k K. rewrite E' in K. rewrite <- (St j v k Wj K). f_equal. rewrite E'. unfold zlen. lia.
  - unfold pop, do_peek. rewrite Ci. destruct (Z.ltb_spec (zlen l) n) as [L|L]; [eexists _, _; split; [reflexivity|exact V]|]. eexists _, _. split; [reflexivity|]. replace (zlen l - n) with (Z.of_nat (length l - Z.to_nat n)) by (unfold zlen in *; lia). unfold inv. cbn [cells index capacity data set_index]. split; [exact E|]. split; [unfold zlen in *; lia|]. split; [|exact D]. apply contains_shrink; [split; assumption|lia].
  - unfold resize. destruct (apply_ok c a l n ans C V O) as (a' & r & -> & [(-> & V' & L & _)|(-> & -> & _)]); [|exists a, l; split; [reflexivity|exact V]]. cbn [Z.eqb]. eexists _, _. split; [reflexivity|]. pose proof V' as (E' & I' & (Ci' & Ct') & D'). unfold inv. cbn [cells index capacity data set_index]. destruct O as [O _]. split; [exact E'|]. split; [lia|]. split; [|exact D']. unfold contains. cbn [cells index data set_index]. split; [unfold zlen; rewrite app_length, firstn_length, repeat_length; lia|].
    intros i v W. destruct (nth_snoc _ _ _ _ W) as [W1|(j & _ & W2)]; [|apply nth_error_In, repeat_spec in W2; discriminate]. assert (Cs := contains_shrink a' l (Nat.min (Z.to_nat n) (length l)) (conj Ci' Ct') ltac:(lia)). destruct Cs as [_ Cs]. cbn [data cells set_index] in Cs. apply Cs. rewrite <- W1. f_equal. destruct (Nat.le_gt_cases (Z.to_nat n) (length l)) as [X|X]; [rewrite Nat.min_l by lia; reflexivity|rewrite Nat.min_r, firstn_all, firstn_all2 by lia; reflexivity].
  - unfold reserve. rewrite Ci. destruct O as [O0 O]. pose proof O as [O1 O2]. rewrite (proj2 (Z.leb_gt _ _)) by lia. destruct (apply_ok c a l (zlen l + n) ans C V O) as (a' & r & -> & [(-> & V' & _)|(-> & -> & _)]); eexists _, _; (split; [reflexivity|]); assumption.
  - eexists _, _. split; [reflexivity|]. unfold inv, contains, reset. cbn [cells index capacity data set_index]. split; [exact E|]. split; [lia|]. split; [|exact D]. split; [reflexivity|]. intros [|i] v W; discriminate.
  - unfold release. destruct (data a) eqn:Ed; [| |contradiction]; (eexists _, _; split; [reflexivity|]; unfold inv, contains; cbn [cells index capacity data]; split; [exact E|]; split; [lia|]; split; [|reflexivity]; split; [reflexivity|]; intros [|i] v W; discriminate).
Qed.
(** the calls of a history that ask for a count in range whenever they are reached *)
Definition sane (c : Z) (os : list aop) : Prop := forall os1 o os2 a l, os = os1 ++ o :: os2 -> run (arr_init c, []) os1 = Ok (a, l) -> okop c (zlen l) o.
Lemma run_app : forall os1 os2 st, run st (os1 ++ os2) = match run st os1 with Ok st => run st os2 | Abort => Abort | Undef => Undef end.
Proof. induction os1 as [|o os1 IH]; intros os2 st; cbn [app run]; [reflexivity|]. destruct (step st o); [apply IH|reflexivity|reflexivity]. Qed.
Lemma run_inv c : 1 <= c -> forall os, sane c os -> exists a l, run (arr_init c, []) os = Ok (a, l) /\ inv c a l.
Proof.
  intros C. apply (rev_ind (fun os => sane c os -> exists a l, run (arr_init c, []) os = Ok (a, l) /\ inv c a l)).
  - intros _. exists (arr_init c), []. split; [reflexivity|]. unfold inv, contains, arr_init. cbn. repeat split; try lia. intros [|i] v W; discriminate.
  - intros o os IH S. destruct IH as (a & l & E & V); [intros os1 o1 os2 a l X; apply (S os1 o1 (os2 ++ [o]) a l); rewrite X, <- app_assoc; reflexivity|]. destruct (step_ok c a l o C V) as (a' & l' & E' & V'); [exact (S os o [] a l eq_refl E)|]. exists a', l'. split; [|exact V']. rewrite run_app, E. cbn [run]. rewrite E'. reflexivity.
Qed.
(** ** C47: any history of calls, with any answers of the allocator, ends with an array that holds exactly the sequence
    the client believes in (which only changes as the returned values say); nothing is undefined and nothing aborts *)
Theorem C47_sequence_partial : forall c os, 1 <= c -> sane c os -> exists a l, run (arr_init c, []) os = Ok (a, l) /\ contains a l.
Proof. intros c os C S. destruct (run_inv c C os S) as (a & l & E & (_ & _ & Ct & _)). exists a, l. split; assumption. Qed.
(** what the accessors return: the address of the element, which is inside the block; NULL exactly when there is none *)
Theorem C47_accessors_partial : forall c os, 1 <= c -> sane c os -> exists a l, run (arr_init c, []) os = Ok (a, l) /\
  (forall i, 0 <= i < zlen l -> data_at a i = Some (c * i)) /\ (forall i, zlen l <= i -> data_at a i = None) /\
  (forall n, 1 <= n <= zlen l -> peek a n = Some (c * (zlen l - n)) /\ snd (pop a n) = Some (c * (zlen l - n)) /\ contains (fst (pop a n)) (firstn (length l - Z.to_nat n) l) /\ data (fst (pop a n)) = data a) /\
  (forall n, zlen l < n -> peek a n = None /\ pop a n = (a, None)) /\
  (l <> [] -> exists n m, data a = Live n m /\ c * zlen l <= n).
Proof.
  intros c os C S. destruct (run_inv c C os S) as (a & l & Er & (E & I & (Ci & Ct) & D)). exists a, l. split; [exact Er|].
  assert (Dn : l <> [] -> exists n m, data a = Live n m /\ c * zlen l <= n /\ n < 2 ^ 64). { intros N. destruct (data a) as [|n m|]; [exfalso; destruct l; [congruence|unfold zlen in Ci; cbn [length] in Ci; lia]|exists n, m; split; [reflexivity|]; nia|contradiction]. }
  assert (Po : forall i, 0 <= i < zlen l -> pointer a (offset a i) = Some (c * i)). { intros i H. destruct Dn as (n & m & X & B & B2); [intros ->; unfold zlen in H; cbn [length] in H; lia|]. unfold pointer, offset. rewrite X, E. f_equal. apply w64_small. unfold u64. nia. }
  split; [intros i H; unfold data_at; rewrite Ci, (proj2 (Z.leb_gt _ _)) by lia; apply Po; exact H|]. split; [intros i H; unfold data_at; rewrite Ci, (proj2 (Z.leb_le _ _)) by lia; reflexivity|]. split; [|split; [intros n H; unfold peek, pop, do_peek; rewrite Ci, (proj2 (Z.ltb_lt _ _)) by lia; split; reflexivity|]].
  - intros n H. unfold peek, pop, do_peek. rewrite Ci, (proj2 (Z.ltb_ge _ _)) by lia. cbv zeta. cbn [fst snd]. rewrite Po by lia. split; [reflexivity|]. split; [reflexivity|]. split; [|reflexivity]. replace (zlen l - n) with (Z.of_nat (length l - Z.to_nat n)) by (unfold zlen in *; lia). apply contains_shrink; [split; assumption|lia].
  - intros N. destruct (Dn N) as (n & m & X & B & _). exists n, m. split; assumption.
Qed.
(** failures: a call fails only when the allocator refuses memory for a real growth, and then changes nothing; after a
    successful reservation pushes within it succeed without the allocator and do not move the block *)
Theorem C47_failure_partial : forall c os ans (vs : list (Z -> Z)), 1 <= c -> sane c os -> exists a l, run (arr_init c, []) os = Ok (a, l) /\
  (okcount c (zlen l + zlen vs) -> vs <> [] -> exists a' p, push ans a (zlen vs) = Ok (a', p) /\ (p = None <-> ans = None /\ capacity a < zlen l + zlen vs) /\ (p = None -> a' = a) /\ (p <> None -> p = Some (c * zlen l))) /\
  (forall n, okcount c (zlen l + n) -> 0 <= n -> exists a' r, reserve ans a n = Ok (a', r) /\ (r <> 0 -> r = - ENOMEM /\ ans = None /\ a' = a) /\
     (r = 0 -> zlen vs <= n -> vs <> [] -> push None a' (zlen vs) = Ok (set_index a' (zlen l + zlen vs), Some (c * zlen l)))).
Proof.
  intros c os ans vs C S. destruct (run_inv c C os S) as (a & l & Er & V). exists a, l. split; [exact Er|]. pose proof V as (E & I & (Ci & Ct) & D).
  assert (Pt : forall a', inv c a' l -> vs <> [] -> zlen l + zlen vs <= capacity a' -> pointer (set_index a' (zlen l + zlen vs)) (offset (set_index a' (zlen l + zlen vs)) (index a')) = Some (c * zlen l)).
  { intros a' (E' & I' & (Ci' & Ct') & D') N L. unfold pointer, offset. cbn [data cells set_index]. rewrite E', Ci'. assert (0 < zlen vs) by (destruct vs; [congruence|unfold zlen; cbn [length]; lia]). destruct (data a') as [|n m|]; [unfold zlen in *; lia| |contradiction]. f_equal. apply w64_small. unfold u64, zlen in *. nia. }
  split.
  - intros K N. unfold push. rewrite Ci. pose proof K as [K1 _]. rewrite (proj2 (Z.leb_gt _ _)) by lia. destruct (apply_ok c a l _ ans C V K) as (a' & r & -> & [(-> & V' & L & Same & An)|(-> & -> & -> & L)]).
    + cbn [Z.eqb]. cbv zeta. rewrite (Pt a' V' N L). eexists _, _. split; [reflexivity|]. split; [split; [discriminate|]; intros [X Y]; exfalso; exact (An Y X)|]. split; [discriminate|reflexivity].
    + eexists _, _. split; [reflexivity|]. split; [split; [intros _; split; [reflexivity|exact L]|reflexivity]|]. split; [reflexivity|congruence].
  - intros n K N. unfold reserve. rewrite Ci. pose proof K as [K1 _]. rewrite (proj2 (Z.leb_gt _ _)) by lia. destruct (apply_ok c a l _ ans C V K) as (a' & r & -> & [(-> & V' & L & Same & An)|(-> & -> & -> & L)]).
    + exists a', 0. split; [reflexivity|]. split; [congruence|]. intros _ Lv Nv. unfold push. pose proof V' as (E' & I' & (Ci' & Ct') & D'). rewrite Ci'. rewrite (proj2 (Z.leb_gt _ _)) by lia. unfold apply. rewrite (proj2 (Z.leb_le _ _)) by lia. cbn [Z.eqb]. cbv zeta. pose proof (Pt a' V' Nv ltac:(lia)) as Q. rewrite Ci' in *. rewrite Q. reflexivity.
    + exists a, (- ENOMEM). split; [reflexivity|]. split; [intros _; repeat split; reflexivity|discriminate].
Qed.
Definition ex_ops : list aop := [Push (Some (fun _ => 0)) [(fun k => k); (fun k => k + 10)]; Resize None 40; Pop 1; Push (Some (fun _ => 9)) [(fun k => k * 2)]; Reserve (Some (fun _ => 7)) 100; Pop 5].
Definition okcountb (c n : Z) : bool := (0 <=? n) && (n <? 2 ^ 31) && (c * Z.max 32 n <=? 2 ^ 63).
Definition okopb (c len : Z) (o : aop) : bool :=
  match o with Push _ vs => okcountb c (len + zlen vs) | Resize _ n => okcountb c n | Reserve _ n => (0 <=? n) && okcountb c (len + n) | Pop n => (0 <=? n) && (n <? 2 ^ 64) | _ => true end.
Fixpoint check (c : Z) (st : arr * list elem) (os : list aop) : bool :=
  match os with [] => true | o :: os => okopb c (zlen (snd st)) o && match step st o with Ok st => check c st os | _ => true end end.
Lemma okopb_ok c len o : okopb c len o = true -> okop c len o.
Proof. destruct o; cbn [okopb okop]; unfold okcountb, okcount; rewrite ?andb_true_iff, ?Z.leb_le, ?Z.ltb_lt; intuition lia. Qed.
Lemma check_sane c os : check c (arr_init c, []) os = true -> sane c os.
Proof.
  intros H os1 o os2 a l -> R. revert H R. generalize (arr_init c, @nil elem). induction os1 as [|o1 os1 IH]; intros st H R; cbn [app check run] in *.
  - injection R as ->. apply andb_prop in H. apply okopb_ok. apply H.
  - apply andb_prop in H. destruct H as [_ H]. destruct (step st o1) as [st'| |]; try discriminate. exact (IH st' H R).
Qed.
Example C47_ex_sane : sane 4 ex_ops.
Proof. apply check_sane. vm_compute. reflexivity. Qed.
Example C47_ex : match run (arr_init 4, []) ex_ops with Ok (a, l) => Some (index a, capacity a, zlen l, match data a with Live n m => map m [0; 1; 4; 5; 120] | _ => [] end) | _ => None end = Some (2, 128, 2, [0; 1; 0; 2; 0]).
Proof. vm_compute. reflexivity. Qed.
(** from 2^31 elements on the request is computed from a truncated count and the consistency check aborts the program *)
Theorem C47_abort_refuted : exists a ans num, inv 1 a [] /\ 0 <= num < 2 ^ 64 /\ push ans a num = Abort.
Proof. exists (arr_init 1), (Some (fun _ => 0)), (2 ^ 31). split; [unfold inv, contains, arr_init; cbn; repeat split; try lia; intros [|i] v W; discriminate|]. split; [lia|]. vm_compute. reflexivity. Qed.
(** a product that wraps around 2^64 passes that check: the push succeeds with a block that is too small *)
Theorem C47_wrap_refuted : exists c num a p n m, 1 <= c < 2 ^ 64 /\ push (Some (fun _ => 0)) (arr_init c) num = Ok (a, Some p) /\ data a = Live n m /\ n < c * num.
Proof. exists (2 ^ 59 + 1), 32. do 4 eexists. split; [lia|]. split; [vm_compute; reflexivity|]. split; [reflexivity|]. lia. Qed.
(** when it wraps to 0 the old block is released and the array keeps pointing to it *)
Theorem C47_dangling_refuted : exists c a1 p a2, 1 <= c < 2 ^ 64 /\ push (Some (fun _ => 0)) (arr_init c) 1 = Ok (a1, Some p) /\ push (Some (fun _ => 0)) a1 63 = Ok (a2, None) /\ data a2 = Dangling.
Proof. exists (2 ^ 58). do 3 eexists. split; [lia|]. split; [vm_compute; reflexivity|]. split; [vm_compute; reflexivity|]. reflexivity. Qed.
Print Assumptions C47_sequence_partial.
Print Assumptions C47_accessors_partial.
Print Assumptions C47_failure_partial.
Print Assumptions C47_abort_refuted.
Print Assumptions C47_wrap_refuted.
Print Assumptions C47_dangling_refuted.
