(** * C40: the edit distance *)
From Verif Require Import Lib LevModel LevSpec LevProofs.

(** Full claim: for every content of the fresh memory the result is the cost of the cheapest alignment.  Missing: the
    last cell of the second row is read without having been written; the result is right whenever that content plus the
    weight of an addition does not undercut the cost of turning the first string into the first character of the
    second (and the sums stay within unsigned int). *)
Theorem C40_cheapest_partial : forall str1 str2 s w a d row1 row2 row3 junk,
  0 <= s -> 0 <= w -> 0 <= a -> 0 <= d -> zlen str1 * d + zlen str2 * a + s + w + a + d < 2 ^ 32 ->
  length row1 = S (length str1) -> length row2 = S (length str1) -> length row3 = S (length str1) ->
  nth_error row2 (length str1) = Some junk -> 0 <= junk < 2 ^ 32 ->
  (forall y c, nth_error str2 0 = Some y -> cheapest s w a d str1 [y] c -> c <= w32 (junk + a)) ->
  exists c, levenshtein_len str1 str2 s w a d (Some (row1, row2, row3)) = Some c /\ cheapest s w a d str1 str2 c.
Proof. intros. eapply lev_ok; eassumption. Qed.
(** the condition is met when the cell holds what it should, the cost of deleting the first string *)
Theorem C40_right_cell : forall str1 str2 s w a d,
  0 <= s -> 0 <= w -> 0 <= a -> 0 <= d -> zlen str1 * d + zlen str2 * a + s + w + a + d < 2 ^ 32 ->
  forall y c, nth_error str2 0 = Some y -> cheapest s w a d str1 [y] c -> c <= w32 (zlen str1 * d + a).
Proof.
  intros str1 str2 s w a d Hs Hw Ha Hd B y c N O. assert (0 < zlen str2) by (destruct str2; [discriminate|unfold zlen; cbn; lia]).
  rewrite w32_small by (unfold u32, zlen in *; nia). apply opt_bound in O; try assumption. unfold zlen in *. cbn [length] in O. lia.
Qed.
Example C40_case : levenshtein_len [97; 98; 99; 100] [98; 97; 99] 1 1 1 1 (Some (repeat 7 5, repeat 7 5, repeat 7 5)) = Some 2 /\ cheapest 1 1 1 1 [97; 98; 99; 100] [98; 97; 99] 2.
Proof.
  split; [vm_compute; reflexivity|]. destruct (C40_cheapest_partial [97; 98; 99; 100] [98; 97; 99] 1 1 1 1 (repeat 7 5) (repeat 4 5) (repeat 7 5) 4) as (c & E & O); try reflexivity; try lia.
  - intros y c N O. exact (C40_right_cell [97; 98; 99; 100] [98; 97; 99] 1 1 1 1 ltac:(lia) ltac:(lia) ltac:(lia) ltac:(lia) ltac:(reflexivity) y c N O).
  - vm_compute in E. injection E as <-. exact O.
Qed.
(** with zeros in the fresh memory the distance of "abc" and "x" comes out as 1 instead of 3 *)
Theorem C40_cheapest_refuted : exists str1 str2 rows, levenshtein_len str1 str2 1 1 1 1 (Some rows) = Some 1 /\ cheapest 1 1 1 1 str1 str2 3.
Proof.
  exists [97; 98; 99], [120], (repeat 0 4, repeat 0 4, repeat 0 4). split; [vm_compute; reflexivity|].
  destruct (C40_cheapest_partial [97; 98; 99] [120] 1 1 1 1 (repeat 0 4) (repeat 3 4) (repeat 0 4) 3) as (c & E & O); try reflexivity; try lia.
  - intros y c N O. exact (C40_right_cell [97; 98; 99] [120] 1 1 1 1 ltac:(lia) ltac:(lia) ltac:(lia) ltac:(lia) ltac:(reflexivity) y c N O).
  - vm_compute in E. injection E as <-. exact O.
Qed.
(** whatever the memory holds, no access lies outside the strings and the rows *)
Lemma inner_total str1 str2 s w a d j row1 row2 : (j < length str2)%nat -> length row1 = S (length str1) -> length row2 = S (length str1) -> forall n i row3, (i + n = length str1)%nat -> length row3 = S (length str1) ->
  exists row, lev_inner str1 str2 s w a d n (Z.of_nat i) (Z.of_nat j) row1 row2 row3 = Some row /\ length row = S (length str1).
Proof.
  intros Hj L1 L2. assert (G : forall (l : list Z) i, (i < length l)%nat -> exists v, rd l (Z.of_nat i) = Some v) by (intros l i H; apply rd_some; unfold zlen; lia).
  induction n as [|n IH]; intros i row3 E L3; [exists row3; split; [reflexivity|exact L3]|]. cbn [lev_inner].
  destruct (G str1 i ltac:(lia)) as (c1 & ->). destruct (G str2 j Hj) as (c2 & ->). destruct (G row2 i ltac:(lia)) as (x & ->). replace (Z.of_nat i + 1) with (Z.of_nat (S i)) by lia.
  destruct (G row2 (S i) ltac:(lia)) as (up & ->). destruct (G row3 i ltac:(lia)) as (le & ->).
  match goal with |- exists row, match ?e with _ => _ end = _ /\ _ => assert (exists v, e = Some v) as (v & ->) end.
  { destruct (Z.eqb_spec (Z.of_nat j) 0); cbn [orb]; [eauto|]. destruct (Z.eqb_spec (Z.of_nat i) 0); cbn [orb]; [eauto|]. replace (Z.of_nat j - 1) with (Z.of_nat (j - 1)) by lia. replace (Z.of_nat i - 1) with (Z.of_nat (i - 1)) by lia.
    destruct (G str2 (j - 1)%nat ltac:(lia)) as (q2 & ->). destruct (negb _); [eauto|]. destruct (G str1 (i - 1)%nat ltac:(lia)) as (q1 & ->). destruct (negb _); [eauto|]. destruct (G row1 (i - 1)%nat ltac:(lia)) as (y & ->). eauto. }
  match goal with |- context [wr row3 _ ?v] => destruct (wr_step row3 (S i) v ltac:(lia)) as (r & -> & Lr & _) end. apply IH; lia.
Qed.
Theorem C40_in_bounds : forall str1 str2 s w a d row1 row2 row3,
  length row1 = S (length str1) -> length row2 = S (length str1) -> length row3 = S (length str1) ->
  exists c, levenshtein_len str1 str2 s w a d (Some (row1, row2, row3)) = Some c.
Proof.
  intros str1 str2 s w a d row1 row2 row3 L1 L2 L3. unfold levenshtein_len. destruct (zlen str1 =? 0); [eauto|]. destruct (zlen str2 =? 0); [eauto|].
  assert (I : forall n i row, (i + n = length str1)%nat -> length row = S (length str1) -> exists row', lev_init d n (Z.of_nat i) row = Some row' /\ length row' = S (length str1)).
  { induction n as [|n IH]; intros i row E L; [exists row; split; [reflexivity|exact L]|]. cbn [lev_init]. destruct (wr_step row i (w32 (Z.of_nat i * d)) ltac:(lia)) as (r & -> & Lr & _). replace (Z.of_nat i + 1) with (Z.of_nat (S i)) by lia. apply IH; lia. }
  destruct (I (length str1) 0%nat row2 ltac:(lia) L2) as (r & E & Lr). change (Z.of_nat 0) with 0 in E. rewrite E.
  assert (O : forall n j row1 row2 row3, (j + n = length str2)%nat -> length row1 = S (length str1) -> length row2 = S (length str1) -> length row3 = S (length str1) -> exists row, lev_outer str1 str2 s w a d n (Z.of_nat j) row1 row2 row3 = Some row /\ length row = S (length str1)).
  { clear. induction n as [|n IH]; intros j row1 row2 row3 E L1 L2 L3; [exists row2; split; [reflexivity|exact L2]|]. cbn [lev_outer]. destruct (wr_step row3 0 (w32 ((Z.of_nat j + 1) * a)) ltac:(lia)) as (r & Er & Lr & _). change (Z.of_nat 0) with 0 in Er. rewrite Er.
    destruct (inner_total str1 str2 s w a d j row1 row2 ltac:(lia) L1 L2 (length str1) 0%nat r ltac:(lia) ltac:(lia)) as (r' & Er' & Lr'). change (Z.of_nat 0) with 0 in Er'. rewrite Er'. replace (Z.of_nat j + 1) with (Z.of_nat (S j)) by lia. apply IH; lia. }
  destruct (O (length str2) 0%nat row1 r row3 ltac:(lia) L1 Lr L3) as (r2 & E2 & L2'). change (Z.of_nat 0) with 0 in E2. rewrite E2. apply rd_some. unfold zlen. lia.
Qed.
Example C40_in_bounds_case : length (repeat 0 4) = S (length [97; 98; 99]).
Proof. reflexivity. Qed.
(** Without memory the answer is the greatest unsigned int, and only for two strings that are not empty. *)
Theorem C40_no_memory : forall str1 str2 s w a d, str1 <> [] -> str2 <> [] -> exists c, levenshtein_len str1 str2 s w a d None = Some c /\ u32 c /\ forall c', u32 c' -> c' <= c.
Proof.
  intros str1 str2 s w a d N1 N2. unfold levenshtein_len. destruct str1, str2; try contradiction. eexists. split; [reflexivity|]. unfold u32. split; lia.
Qed.
Example C40_no_memory_case : levenshtein_len [97] [98] 1 1 1 1 None = Some 4294967295 /\ levenshtein_len [] [98] 1 1 1 1 None = Some 1.
Proof. split; reflexivity. Qed.
Print Assumptions C40_no_memory.
Print Assumptions C40_cheapest_partial.
Print Assumptions C40_right_cell.
Print Assumptions C40_cheapest_refuted.
Print Assumptions C40_in_bounds.
