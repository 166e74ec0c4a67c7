(** * C121: loops over bits with a body that changes the bitmap; bits common to two maps *)
From Coq Require Import Lia.
From Verif Require Import Lib BitsProofs BitsModel BitmapSpec BitwalkModel BitwalkSpec BitwalkProofs BitwalkProps BitLoopModel BitLoopSpec.

Lemma bbb_skip : forall P body l l' m, (forall i, In i l -> P m i = false) -> bit_by_bit (l ++ l') P body m = bit_by_bit l' P body m.
Proof. induction l as [|i l IH]; intros l' m H; [reflexivity|]. cbn [app bit_by_bit]. rewrite (H i) by (left; reflexivity). apply IH. intros j I. apply H. right. exact I. Qed.
Lemma bbb_none : forall P body l m, (forall i, In i l -> P m i = false) -> bit_by_bit l P body m = ([], m).
Proof. intros P body l m H. rewrite <- (app_nil_r l). rewrite bbb_skip by exact H. reflexivity. Qed.
Lemma rev_zseq_S : forall n, rev (zseq 0 (S n)) = Z.of_nat n :: rev (zseq 0 n).
Proof. intros n. replace (S n) with (n + 1)%nat by lia. rewrite zseq_split, rev_app_distr. cbn. f_equal. Qed.

Section Body.
Variables (bits : Z) (body : Z -> list Z -> list Z) (P : list Z -> Z -> bool) (INV : list Z -> Prop) (step : list Z -> Z -> option Z).
Hypothesis BI : forall i m, INV m -> INV (body i m).
Lemma walkb_up : (forall m i, INV m -> 0 <= i < bits -> exists r, step m i = Some r /\ least (P m) (i + 1) bits bits r) ->
  forall fuel lo i m, INV m -> 0 <= lo -> least (P m) lo bits bits i -> Z.of_nat fuel > bits - lo ->
  walkb bits body fuel step i m = Some (bit_by_bit (zseq lo (Z.to_nat (bits - lo))) P body m).
Proof.
  intros N. induction fuel as [|fuel IH]; intros lo i m Hm Hlo L Hf; cbn [walkb].
  - destruct L as [[-> L]|[L _]]; [|lia]. rewrite Z.ltb_irrefl. replace (Z.to_nat (bits - lo)) with O by lia. reflexivity.
  - destruct L as [[-> L]|(L1 & L2 & L3)].
    + rewrite Z.ltb_irrefl. rewrite bbb_none; [reflexivity|]. intros j Hj. apply zseq_in in Hj. apply L. lia.
    + replace (i <? bits) with true by (symmetry; apply Z.ltb_lt; lia).
      destruct (N (body i m) i (BI i m Hm)) as (r & E & Lr); [lia|]. rewrite E. rewrite (IH (i + 1) r) by (auto; lia).
      replace (Z.to_nat (bits - lo)) with (Z.to_nat (i - lo) + S (Z.to_nat (bits - (i + 1))))%nat by lia.
      rewrite zseq_split. rewrite bbb_skip by (intros j Hj; apply zseq_in in Hj; apply L3; lia).
      replace (lo + Z.of_nat (Z.to_nat (i - lo))) with i by lia. cbn [zseq bit_by_bit]. rewrite L2. destruct (bit_by_bit _ P body (body i m)). reflexivity.
Qed.
Lemma walkb_down : (forall m i, INV m -> 0 <= i < bits -> exists r, step m i = Some r /\ greatest (P m) 0 i bits r) ->
  forall fuel hi i m, INV m -> 0 <= hi <= bits -> greatest (P m) 0 hi bits i -> Z.of_nat fuel > hi ->
  walkb bits body fuel step i m = Some (bit_by_bit (rev (zseq 0 (Z.to_nat hi))) P body m).
Proof.
  intros N. induction fuel as [|fuel IH]; intros hi i m Hm Hhi L Hf; cbn [walkb]; [lia|].
  destruct L as [[-> L]|(L1 & L2 & L3)].
  - rewrite Z.ltb_irrefl. rewrite bbb_none; [reflexivity|]. intros j Hj. apply in_rev, zseq_in in Hj. apply L. lia.
  - replace (i <? bits) with true by (symmetry; apply Z.ltb_lt; lia).
    destruct (N (body i m) i (BI i m Hm)) as (r & E & Lr); [lia|]. rewrite E. rewrite (IH i r) by (auto; lia).
    replace (Z.to_nat hi) with (S (Z.to_nat i) + Z.to_nat (hi - (i + 1)))%nat by lia.
    rewrite zseq_split, rev_app_distr. rewrite bbb_skip by (intros j Hj; apply in_rev, zseq_in in Hj; apply L3; lia).
    rewrite rev_zseq_S. replace (Z.of_nat (Z.to_nat i)) with i by lia. cbn [bit_by_bit]. rewrite L2. destruct (bit_by_bit _ P body (body i m)). reflexivity.
Qed.
End Body.

Lemma least_ext : forall (P Q : Z -> bool) lo hi r, (forall i, P i = Q i) -> least P lo hi hi r -> least Q lo hi hi r.
Proof. intros P Q lo hi r E [(A & B)|(A & B & C)]; [left|right]; rewrite <- ?E; repeat split; try tauto; try lia; intros i Hi; rewrite <- E; auto. Qed.
Lemma greatest_ext : forall (P Q : Z -> bool) lo hi n r, (forall i, P i = Q i) -> greatest P lo hi n r -> greatest Q lo hi n r.
Proof. intros P Q lo hi n r E [(A & B)|(A & B & C)]; [left|right]; rewrite <- ?E; repeat split; try tauto; try lia; intros i Hi; rewrite <- E; auto. Qed.

Section Main.
Variables (m : list Z) (bits a : Z) (zero : bool) (body : Z -> list Z -> list Z).
Hypothesis PRE : search_pre m bits a None.
Hypothesis BO : body_ok body.
Let inv : Z := if zero then 2 ^ 64 - 1 else 0.
Let INV (m' : list Z) : Prop := search_pre m' bits a None.
Lemma inv_body : forall i m', INV m' -> INV (body i m').
Proof.
  intros i m' (U & Hb & I1 & I2). destruct (BO i m' U) as (U' & L). split; [exact U'|]. split; [exact Hb|]. split; [|exact I2].
  unfold in_mem in *. rewrite L. exact I1.
Qed.
Lemma wanted_matches : forall m' i, wanted m' a None zero false i = matches a zero m' i.
Proof. intros. unfold wanted, matches, bit_place. rewrite andb_true_r. reflexivity. Qed.
Lemma up_ok : forall m' i, INV m' -> 0 <= i < 2 ^ 32 - 1 -> exists r, step_up bits inv a m' i = Some r /\ least (matches a zero m') (i + 1) bits bits r.
Proof.
  intros m' i H Hi. unfold step_up. rewrite w32_small by lia. destruct (C21_find_next m' bits a None zero false (i + 1) H) as (r & E & L); [lia|]. exists r. split; [exact E|]. eapply least_ext; [apply wanted_matches|exact L].
Qed.
Lemma down_ok : forall m' i, INV m' -> 0 <= i <= bits -> exists r, step_down bits inv a m' i = Some r /\ greatest (matches a zero m') 0 i bits r.
Proof.
  intros m' i H Hi. pose proof H as (_ & Hb & _). unfold step_down. destruct (Z.eq_dec i 0) as [->|N].
  - destruct (C21_find_prev m' bits a None zero false (w32 (0 - 1)) H) as (q & E & G); [apply w32_range|]. exists q. split; [exact E|].
    replace (w32 (0 - 1) <? bits) with false in G by (symmetry; apply Z.ltb_ge; change (w32 (0 - 1)) with (2 ^ 32 - 1); lia). left. split; [exact G|]. intros; lia.
  - rewrite w32_small by lia. destruct (C21_find_prev m' bits a None zero false (i - 1) H) as (q & E & G); [lia|]. exists q. split; [exact E|].
    replace (i - 1 <? bits) with true in G by (symmetry; apply Z.ltb_lt; lia). replace (i - 1 + 1) with i in G by lia. eapply greatest_ext; [apply wanted_matches|exact G].
Qed.
Lemma bits_range : 0 <= bits <= 2 ^ 32 - 64.
Proof. destruct PRE as (_ & Hb & _). lia. Qed.

(** ** Every loop does what a loop over all indices does that looks at each bit when its turn comes, whatever the body stores *)
Theorem C121_loops :
  loop_all bits inv a body m = Some (bit_by_bit (zseq 0 (Z.to_nat bits)) (matches a zero) body m) /\
  loop_reverse bits inv a body m = Some (bit_by_bit (rev (zseq 0 (Z.to_nat bits))) (matches a zero) body m) /\
  (forall index, 0 <= index < 2 ^ 32 - 1 ->
     loop_continue bits inv a body index m = Some (bit_by_bit (zseq (index + 1) (Z.to_nat (bits - (index + 1)))) (matches a zero) body m)) /\
  (forall index, 0 <= index <= bits -> loop_reverse_continue bits inv a body index m = Some (bit_by_bit (rev (zseq 0 (Z.to_nat index))) (matches a zero) body m)) /\
  (forall index, 0 <= index < bits -> exists v m', bit_by_bit (zseq (index + 1) (Z.to_nat (bits - (index + 1)))) (matches a zero) body (body index m) = (v, m') /\
     loop_form bits inv a body index m = Some (index :: v, m')) /\
  (forall index, 0 <= index < bits -> exists v m', bit_by_bit (rev (zseq 0 (Z.to_nat index))) (matches a zero) body (body index m) = (v, m') /\
     loop_reverse_form bits inv a body index m = Some (index :: v, m')).
Proof.
  pose proof bits_range as HB. assert (UP : forall m' i, INV m' -> 0 <= i < bits -> exists r, step_up bits inv a m' i = Some r /\ least (matches a zero m') (i + 1) bits bits r) by (intros; apply up_ok; [assumption|lia]).
  assert (DN : forall m' i, INV m' -> 0 <= i < bits -> exists r, step_down bits inv a m' i = Some r /\ greatest (matches a zero m') 0 i bits r) by (intros; apply down_ok; [assumption|lia]).
  split; [|split; [|split; [|split; [|split]]]].
  - unfold loop_all. destruct (C21_find_first m bits a zero false PRE) as (r & E & L). unfold inv. rewrite E. fold inv.
    rewrite (walkb_up bits body (matches a zero) INV _ inv_body UP) with (lo := 0); [rewrite Z.sub_0_r; reflexivity|exact PRE|lia|eapply least_ext; [apply wanted_matches|exact L]|unfold fuelb; lia].
  - unfold loop_reverse. destruct (C21_find_last m bits a zero false PRE) as (r & E & L). unfold inv. rewrite E. fold inv.
    apply (walkb_down bits body (matches a zero) INV _ inv_body DN); [exact PRE|lia|eapply greatest_ext; [apply wanted_matches|exact L]|unfold fuelb; lia].
  - intros index Hi. unfold loop_continue. destruct (up_ok m index PRE Hi) as (r & E & L). rewrite E. apply (walkb_up bits body (matches a zero) INV _ inv_body UP); [exact PRE|lia|exact L|unfold fuelb; lia].
  - intros index Hi. unfold loop_reverse_continue. destruct (down_ok m index PRE Hi) as (r & E & L). rewrite E. apply (walkb_down bits body (matches a zero) INV _ inv_body DN); [exact PRE|lia|exact L|unfold fuelb; lia].
  - intros index Hi. destruct (bit_by_bit _ _ body (body index m)) as (v, m') eqn:B. exists v, m'. split; [reflexivity|]. unfold loop_form, fuelb. cbn [walkb]. replace (index <? bits) with true by (symmetry; apply Z.ltb_lt; lia).
    destruct (UP (body index m) index (inv_body _ _ PRE) Hi) as (r & E & L). rewrite E. rewrite (walkb_up bits body (matches a zero) INV _ inv_body UP) with (lo := index + 1); [rewrite B; reflexivity|apply inv_body, PRE|lia|exact L|lia].
  - intros index Hi. destruct (bit_by_bit _ _ body (body index m)) as (v, m') eqn:B. exists v, m'. split; [reflexivity|]. unfold loop_reverse_form, fuelb. cbn [walkb]. replace (index <? bits) with true by (symmetry; apply Z.ltb_lt; lia).
    destruct (DN (body index m) index (inv_body _ _ PRE) Hi) as (r & E & L). rewrite E. rewrite (walkb_down bits body (matches a zero) INV _ inv_body DN) with (hi := index); [rewrite B; reflexivity|apply inv_body, PRE|lia|exact L|lia].
Qed.
End Main.
(** the body clears the bit it is given and sets the next but one: bits set ahead are visited, bits set behind are not *)
Example C121_loops_case : let body i m := match m with w :: m => Z.setbit (Z.clearbit w i) ((i + 2) mod 8) :: m | [] => [] end in
  search_pre [0x45; 7] 8 0 None /\ loop_all 8 0 0 body [0x45; 7] = Some ([0; 2; 4; 6], [1; 7]) /\ loop_reverse 8 0 0 body [0x45; 7] = Some ([6; 2; 0], [0x14; 7]) /\
  loop_form 8 0 0 body 1 [0x45; 7] = Some ([1; 2; 3; 4; 5; 6; 7], [3; 7]).
Proof. split; [|vm_compute; repeat split]. split; [repeat constructor; unfold u64; lia|]. unfold in_mem, nwords, zlen. cbn. lia. Qed.
Example C121_body_case : body_ok (fun i m => match m with w :: m => Z.lxor w 1 :: m | [] => [] end).
Proof.
  intros i [|w m] U; [split; [constructor|reflexivity]|]. inversion U as [|? ? Uw Um]; subst. split; [|reflexivity]. constructor; [|exact Um]. unfold u64 in *.
  split; [apply Z.lxor_nonneg; lia|]. destruct (Z.eq_dec (Z.lxor w 1) 0) as [->|N]; [lia|]. apply Z.log2_lt_pow2; [pose proof (proj2 (Z.lxor_nonneg w 1)); lia|].
  eapply Z.le_lt_trans; [apply Z.log2_lxor; lia|]. destruct (Z.eq_dec w 0) as [->|]; [reflexivity|]. apply Z.max_lub_lt; [apply Z.log2_lt_pow2; lia|reflexivity].
Qed.
(** ** What follows for common bodies: without changes to bits still to come, exactly the bits that matched at the start *)
Theorem C121_still : forall m bits a zero body, search_pre m bits a None -> body_ok body ->
  (forall i m' j, i < j < bits -> matches a zero (body i m') j = matches a zero m' j) ->
  exists m', loop_all bits (if zero then 2 ^ 64 - 1 else 0) a body m = Some (filter (matches a zero m) (zseq 0 (Z.to_nat bits)), m').
Proof.
  intros m bits a zero body PRE BO ST. destruct (C121_loops m bits a zero body PRE BO) as (E & _). rewrite E. clear E.
  assert (HB : 0 <= bits) by (destruct PRE as (_ & Hb & _); lia).
  assert (G : forall n lo m', (forall j, lo <= j < bits -> matches a zero m' j = matches a zero m j) -> lo + Z.of_nat n <= bits ->
            exists m'', bit_by_bit (zseq lo n) (matches a zero) body m' = (filter (matches a zero m) (zseq lo n), m'')).
  { induction n as [|n IH]; intros lo m' H L; [exists m'; reflexivity|]. cbn [zseq bit_by_bit filter]. rewrite (H lo) by lia. destruct (matches a zero m lo).
    - destruct (IH (lo + 1) (body lo m')) as (m'' & ->); [intros j Hj; rewrite ST by lia; apply H; lia|lia|]. exists m''. reflexivity.
    - apply IH; [intros j Hj; apply H; lia|lia]. }
  destruct (G (Z.to_nat bits) 0 m) as (m' & ->); [reflexivity|lia|]. exists m'. reflexivity.
Qed.
Example C121_still_case : let body i m := match m with w :: m => Z.clearbit w i :: m | [] => [] end in loop_all 8 0 0 body [0x45; 7] = Some ([0; 2; 6], [0; 7]).
Proof. vm_compute. reflexivity. Qed.
(** ** Bits common to two maps: the first at or after, the last at or before an index *)
Theorem C121_common : forall m bits a1 a2 offset, search_pre m bits a1 (Some a2) -> 0 <= offset < 2 ^ 32 ->
  (exists r, comp_find_next m bits 0 false a1 (Some a2) offset = Some r /\ least (fun i => mbit m a1 i && mbit m a2 i) offset bits bits r) /\
  (exists r, comp_find_prev m bits 0 false a1 (Some a2) offset = Some r /\ if offset <? bits then greatest (fun i => mbit m a1 i && mbit m a2 i) 0 (offset + 1) bits r else r = bits).
Proof.
  intros m bits a1 a2 offset H Ho. split.
  - destruct (C21_find_next m bits a1 (Some a2) false false offset H Ho) as (r & E & L). exists r. split; [exact E|]. eapply least_ext; [|exact L]. intros i. unfold wanted, bit_place. destruct (_ && _); reflexivity.
  - destruct (C21_find_prev m bits a1 (Some a2) false false offset H Ho) as (r & E & L). exists r. split; [exact E|]. destruct (offset <? bits); [|exact L]. eapply greatest_ext; [|exact L]. intros i. unfold wanted, bit_place. destruct (_ && _); reflexivity.
Qed.
Theorem C121_common_small : forall w1 w2 bits offset, u64 w1 -> u64 w2 -> 1 <= bits <= 64 -> 0 <= offset ->
  if offset <? bits then least (fun i => Z.testbit w1 i && Z.testbit w2 i) offset bits bits (find_next_and_small w1 w2 bits offset) /\ greatest (fun i => Z.testbit w1 i && Z.testbit w2 i) 0 (offset + 1) bits (find_prev_and_small w1 w2 bits offset)
  else find_next_and_small w1 w2 bits offset = bits /\ find_prev_and_small w1 w2 bits offset = bits.
Proof.
  intros w1 w2 bits offset U1 U2 Hb Ho.
  assert (E1 : find_next_and_small w1 w2 bits offset = find_next_small (Z.land w1 w2) bits offset) by (unfold find_next_and_small, find_next_small; destruct (bits <=? offset); [reflexivity|]; cbv zeta; destruct (_ =? 0); reflexivity).
  assert (E2 : find_prev_and_small w1 w2 bits offset = find_prev_small (Z.land w1 w2) bits offset) by (unfold find_prev_and_small, find_prev_small; destruct (bits <=? offset); [reflexivity|]; cbv zeta; destruct (_ =? 0); reflexivity).
  rewrite E1, E2. destruct (Z.ltb_spec offset bits) as [L|L].
  - destruct (C21_small_partial (Z.land w1 w2) bits offset) as (_ & _ & A & B & _); [apply land_range_l; [lia|exact U1]|exact Hb|lia|]. split.
    + eapply least_ext; [|exact A]. intros i. apply Z.land_spec.
    + eapply greatest_ext; [|exact B]. intros i. apply Z.land_spec.
  - unfold find_next_small, find_prev_small. replace (bits <=? offset) with true by (symmetry; apply Z.leb_le; lia). split; reflexivity.
Qed.
Example C121_common_case : search_pre [0xf0; 1; 0xa0; 3] 128 0 (Some 2) /\ comp_find_next [0xf0; 1; 0xa0; 3] 128 0 false 0 (Some 2) 6 = Some 7 /\ comp_find_prev [0xf0; 1; 0xa0; 3] 128 0 false 0 (Some 2) 63 = Some 7 /\
  find_next_and_small 0xf0 0xa0 8 6 = 7 /\ find_prev_and_small 0xf0 0xa0 8 6 = 5.
Proof. split; [|vm_compute; repeat split]. split; [repeat constructor; unfold u64; lia|]. unfold in_mem, nwords, zlen. cbn. lia. Qed.
Print Assumptions C121_loops.
Print Assumptions C121_still.
Print Assumptions C121_common.
Print Assumptions C121_common_small.
