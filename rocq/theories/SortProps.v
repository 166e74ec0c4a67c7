(** * C35, C36: sorting and searching of arrays *)
From Verif Require Import Lib SortModel SortSpec SortProofs.
Ltac Zify.zify_post_hook ::= Z.div_mod_to_equations.

(** ** C35. Elements of any size that is not a multiple of 2^32 bytes, arrays below 2^63 bytes.
    The order of the result needs a total preorder; that it is a permutation of the input, that
    every access is inside the array and that the loops end hold for every comparison function. *)
Theorem C35_sort : forall A (cmp : A -> A -> Z) cells arr,
  0 < cells -> cells mod 2 ^ 32 <> 0 -> 2 <= zlen arr -> zlen arr * cells < 2 ^ 63 ->
  exists arr', heap_sort cmp cells arr = Some (- ENOERR, arr') /\ Permutation arr arr' /\ (preorder cmp -> ascending cmp arr').
Proof. intros A cmp cells arr Hc Hm H2 HN. apply (sort_ok cmp cells Hc Hm arr H2 HN). Qed.
(** Fewer than two elements: refused and left alone (they are in order anyway). *)
Theorem C35_short : forall A (cmp : A -> A -> Z) cells arr, zlen arr < 2 -> heap_sort cmp cells arr = Some (- EINVAL, arr) /\ ascending cmp arr.
Proof.
  intros A cmp cells arr H. split.
  - unfold heap_sort. assert (E : Z.shiftr (zlen arr) 1 = 0) by (rewrite Z.shiftr_div_pow2 by lia; pose proof (zlen_nonneg A arr); change (2 ^ 1) with 2; lia).
    rewrite E. reflexivity.
  - destruct arr as [|x [|y arr]]; [constructor|repeat constructor|unfold zlen in H; cbn [length] in H; lia].
Qed.
Example C35_case : preorder (fun a b => a - b) /\ heap_sort (fun a b => a - b) 12 [5; 3; 9; 1; 3; 7] = Some (0, [1; 3; 3; 5; 7; 9]).
Proof. split; [split; intros; lia|]. vm_compute. reflexivity. Qed.
(** The element size is narrowed to 32 bits for the parent computation, so its condition is needed. *)
Theorem C35_huge_elements_refuted : exists arr, zlen arr * 2 ^ 32 < 2 ^ 63 /\ heap_sort (fun a b => a - b) (2 ^ 32) arr = None.
Proof. exists [1; 2; 3]. split; vm_compute; reflexivity. Qed.
Print Assumptions C35_sort.
Print Assumptions C35_short.

(** ** C36 *)
Lemma bsearch_ok A (find : A -> Z) esize arr : 0 < esize ->
  forall fuel b num, 0 <= b -> 0 <= num < 2 ^ Z.of_nat fuel -> b + num <= zlen arr ->
  exists r, bsearch_loop find esize fuel arr (b * esize) num = Some r /\
    match r with
    | Some off => exists k x, off = k * esize /\ b <= k < b + num /\ rd arr k = Some x /\ find x = 0
    | None => bisects find arr -> forall k x, b <= k < b + num -> rd arr k = Some x -> find x <> 0
    end.
Proof.
  intros He. induction fuel as [|fuel IH]; intros b num Hb Hn Hl; cbn [bsearch_loop].
  - assert (num = 0) by (change (2 ^ Z.of_nat 0) with 1 in Hn; lia). subst num. exists None. split; [reflexivity|]. intros; lia.
  - destruct (Z.eqb_spec num 0). { exists None. split; [reflexivity|]. intros; lia. }
    rewrite Z.shiftr_div_pow2 by lia. change (2 ^ 1) with 2.
    replace (b * esize + num / 2 * esize) with ((b + num / 2) * esize) by lia. rewrite at_off by exact He.
    destruct (rd_some A arr (b + num / 2)) as [x Ex]; [lia|]. rewrite Ex.
    assert (Hp : 2 ^ Z.of_nat (S fuel) = 2 * 2 ^ Z.of_nat fuel) by (rewrite Nat2Z.inj_succ, Z.pow_succ_r by lia; reflexivity).
    destruct (Z.eqb_spec (find x) 0) as [F|F].
    { exists (Some ((b + num / 2) * esize)). split; [reflexivity|]. exists (b + num / 2), x. repeat split; auto; lia. }
    destruct (Z.ltb_spec (find x) 0) as [L|L].
    + rewrite Z.shiftr_div_pow2 by lia. change (2 ^ 1) with 2. replace ((b + num / 2) * esize + esize) with ((b + num / 2 + 1) * esize) by lia.
      destruct (IH (b + num / 2 + 1) ((num - 1) / 2)) as (r & E & S); [lia|lia|lia|]. exists r. split; [exact E|].
      destruct r as [off|].
      * destruct S as (k & y & S1 & S2 & S3). exists k, y. repeat split; try tauto; lia.
      * intros Hbi k y Hk Rk. destruct (Z.lt_ge_cases k (b + num / 2 + 1)) as [C|C]; [|apply (S Hbi k y); [lia|exact Rk]].
        destruct (Z.eq_dec k (b + num / 2)); [subst k; congruence|].
        pose proof (ss_at _ _ _ Hbi k (b + num / 2) y x ltac:(lia) Rk Ex) as M. cbv beta in M. intros Z0. rewrite Z0, (Z.sgn_neg (find x)) in M by lia. cbn in M. lia.
    + destruct (IH b (num / 2)) as (r & E & S); [lia|lia|lia|]. exists r. split; [exact E|].
      destruct r as [off|].
      * destruct S as (k & y & S1 & S2 & S3). exists k, y. repeat split; try tauto; lia.
      * intros Hbi k y Hk Rk. destruct (Z.lt_ge_cases k (b + num / 2)) as [C|C]; [apply (S Hbi k y); [lia|exact Rk]|].
        destruct (Z.eq_dec k (b + num / 2)); [subst k; congruence|].
        pose proof (ss_at _ _ _ Hbi (b + num / 2) k x y ltac:(lia) Ex Rk) as M. cbv beta in M. intros Z0. rewrite Z0, (Z.sgn_pos (find x)) in M by lia. cbn in M. lia.
Qed.
(** On every array the search ends, stays inside, and only returns matching elements; on an array
    that the search function bisects it finds a match whenever there is one. *)
Theorem C36_bsearch : forall A (find : A -> Z) esize arr, 0 < esize -> zlen arr < 2 ^ 64 ->
  exists r, bsearch find esize arr = Some r /\
    (forall off, r = Some off -> exists k x, off = k * esize /\ rd arr k = Some x /\ find x = 0) /\
    (bisects find arr -> (r = None <-> forall x, In x arr -> find x <> 0)).
Proof.
  intros A find esize arr He Hn. destruct (bsearch_ok A find esize arr He 64 0 (zlen arr)) as (r & E & S); [lia|pose proof (zlen_nonneg A arr); change (Z.of_nat 64) with 64; lia|lia|].
  exists r. split; [exact E|]. destruct r as [off|].
  - destruct S as (k & x & -> & Hk & Rk & F). split.
    + intros off Eo. injection Eo as <-. eauto.
    + intros _. split; [discriminate|]. intros H. exfalso. apply (H x); [eapply rd_in, Rk|exact F].
  - split; [discriminate|]. intros Hbi. split; [|reflexivity]. intros _ x Hx. destruct (In_nth_error _ _ Hx) as [n En].
    assert (Hl : (n < length arr)%nat) by (apply nth_error_Some; congruence).
    apply (S Hbi (Z.of_nat n) x); [unfold zlen; lia|]. unfold rd. destruct (Z.ltb_spec (Z.of_nat n) 0); [lia|]. rewrite Nat2Z.id. exact En.
Qed.
Example C36_case : bisects (fun x => x - 7) [1; 4; 7; 7; 9] /\ bsearch (fun x => x - 7) 8 [1; 4; 7; 7; 9] = Some (Some 16) /\
  bsearch (fun x => x - 5) 8 [1; 4; 7; 7; 9] = Some None.
Proof. split; [repeat constructor; cbn; lia|]. split; vm_compute; reflexivity. Qed.
Print Assumptions C36_bsearch.
