(** * C41, C42: argument splitting and bounded printing *)
From Verif Require Import Lib ArgvModel ArgvSpec ArgvProofs.

(** ** C41.  Full claim: for all strings.  Missing: strings with 2^29 - 1 words or more (refuted below). *)
Theorem C41_split_partial : forall s, Forall (fun c => c <> 0) s -> zlen s < 2 ^ 30 - 4 ->
  exists ws argc count argv block, splits s ws /\ argv_split (s ++ [0]) = Some (argc, count, argv, block) /\
    argc = zlen ws /\ Forall2 (cstring block) argv ws /\ length block = length (s ++ [0]) /\ count = 8 * (argc + 1).
Proof.
  intros s F L. destruct (splits_exists s F) as [ws Sp]. pose proof (splits_len _ _ Sp) as Lw. assert (Zw : 0 <= zlen ws) by (unfold zlen; lia). destruct (loop_ok _ _ Sp []) as (argv & tail & E & Lt & Fa & _).
  exists ws, (zlen ws), (8 * (zlen ws + 1)), argv, tail. split; [exact Sp|]. unfold argv_split. rewrite (count_ok _ _ Sp) by (try rewrite app_length; cbn [length]; lia). rewrite Z.add_0_l. cbn [app] in E. change (zlen (@nil Z)) with 0 in E.
  replace (Z.to_nat (zlen ws)) with (length ws) by (unfold zlen; lia). rewrite E. split; [|split; [reflexivity|split; [exact Fa|split; [rewrite app_length, Lt; cbn; lia|reflexivity]]]].
  f_equal. f_equal. f_equal. f_equal. rewrite (w32_small (zlen ws + 1)) by (unfold u32; lia). rewrite w32_small by (unfold u32; lia). lia.
Qed.
Example C41_case : splits [32; 97; 98; 9; 32; 99; 10] [[97; 98]; [99]] /\ argv_split ([32; 97; 98; 9; 32; 99; 10] ++ [0]) = Some (2, 24, [1; 5], [32; 97; 98; 0; 32; 99; 0; 0]).
Proof.
  split; [|vm_compute; reflexivity]. assert (B : forall c, c = 32 \/ c = 9 \/ c = 13 \/ c = 10 -> blank c) by auto.
  apply (sp_cons [32] [97; 98] 9 [32; 99; 10]); [repeat constructor|split; [discriminate|repeat constructor; unfold blank; lia]|unfold blank; lia|].
  apply (sp_cons [32] [99] 10 []); [repeat constructor|split; [discriminate|repeat constructor; unfold blank; lia]|unfold blank; lia|]. apply sp_end. constructor.
Qed.
(** A string of 2^29 - 1 words: the vector's size comes out as 0 and the vector is written over the copy of the string. *)
Fixpoint many (n : nat) : list Z := match n with O => [] | S n => 97 :: 32 :: many n end.
Lemma many_splits n : splits (many n) (repeat [97] n).
Proof. induction n as [|n IH]; [apply sp_end; constructor|]. cbn [many repeat]. apply (sp_cons [] [97] 32 (many n)); [constructor|split; [discriminate|repeat constructor; unfold blank; lia]|left; reflexivity|exact IH]. Qed.
Lemma many_nz n : Forall (fun c => c <> 0) (many n).
Proof. induction n as [|n IH]; cbn [many]; [constructor|]. constructor; [lia|]. constructor; [lia|exact IH]. Qed.
Lemma huge_split n : Z.of_nat n = 2 ^ 29 - 1 -> exists argv block, argv_split (many n ++ [0]) = Some (2 ^ 29 - 1, 0, argv, block).
Proof.
  intros En. pose proof (many_splits n) as Sp. destruct (loop_ok _ _ Sp []) as (argv & tail & E & _). exists argv, tail. unfold argv_split. assert (Zr : zlen (repeat [97] n) = 2 ^ 29 - 1) by (unfold zlen; rewrite repeat_length; exact En).
  rewrite (count_ok _ _ Sp) by (try rewrite app_length; cbn [length]; lia). rewrite Z.add_0_l, Zr. cbn [app] in E. change (zlen (@nil Z)) with 0 in E. rewrite repeat_length in E. replace (Z.to_nat (2 ^ 29 - 1)) with n by lia. rewrite E. reflexivity.
Qed.
Theorem C41_huge_refuted : exists s argc count argv block, Forall (fun c => c <> 0) s /\ argv_split (s ++ [0]) = Some (argc, count, argv, block) /\ count < 8 * (argc + 1).
Proof.
  assert (X : exists n, Z.of_nat n = 2 ^ 29 - 1) by (exists (Z.to_nat (2 ^ 29 - 1)); apply Z2Nat.id; lia). destruct X as [n En].
  destruct (huge_split n En) as (argv & block & E). exists (many n), (2 ^ 29 - 1), 0, argv, block. split; [apply many_nz|]. split; [exact E|]. lia.
Qed.

(** ** C42.  The formatter: [Some text] the characters of the result, None a failure (a negative return value). *)
(** C11 7.21.6.12 vsnprintf: what is in the buffer afterwards (for a non-zero size), and the value returned *)
Definition stored (buf : list Z) (size : Z) (text : list Z) : list Z :=
  let t := firstn (Z.to_nat (size - 1)) text in t ++ 0 :: skipn (S (length t)) buf.
(** Full claim: for all sizes and all results.  Missing: failures of the formatter, refuted below. *)
Theorem C42_count_partial : forall size text buf,
  0 <= size < 2 ^ 64 -> zlen text < 2 ^ 31 -> Forall (fun c => c <> 0) text ->
  let r := scnprintf size (zlen text) in
  (size = 0 -> r = 0) /\
  (0 < size -> size <= zlen buf -> cstring (stored buf size text) 0 (firstn (Z.to_nat r) text) /\ r = zlen (firstn (Z.to_nat r) text) /\ r <= size - 1 /\ r <= zlen text /\ length (stored buf size text) = length buf).
Proof.
  intros size text buf Hs Ht Hn. cbv zeta. unfold scnprintf. split; [intros ->; reflexivity|]. intros H0 Hb. rewrite (proj2 (Z.eqb_neq _ _)) by lia. assert (Zt : 0 <= zlen text) by (unfold zlen; lia). rewrite w64_small by (unfold u64; lia).
  assert (R : (if zlen text <? size then zlen text else int_of (size - 1)) = Z.min (zlen text) (size - 1)).
  { destruct (Z.ltb_spec (zlen text) size); [lia|]. unfold int_of. rewrite Z.mod_small by lia. lia. }
  rewrite R. assert (T : firstn (Z.to_nat (Z.min (zlen text) (size - 1))) text = firstn (Z.to_nat (size - 1)) text).
  { destruct (Z.min_spec (zlen text) (size - 1)) as [[L ->]|[L ->]]; [|reflexivity]. unfold zlen in *. rewrite Nat2Z.id, firstn_all. rewrite firstn_all2 by lia. reflexivity. }
  rewrite T. split; [split; [lia|]; exists (skipn (S (length (firstn (Z.to_nat (size - 1)) text))) buf); reflexivity|].
  split; [unfold zlen in *; rewrite firstn_length; lia|]. split; [lia|]. split; [lia|]. unfold stored. rewrite app_length. cbn [length]. rewrite skipn_length, firstn_length. unfold zlen in *. lia.
Qed.
Example C42_case : scnprintf 4 (zlen [97; 98; 99; 100; 101]) = 3 /\ scnprintf 8 (zlen [97; 98; 99; 100; 101]) = 5.
Proof. split; reflexivity. Qed.
(** When the formatter fails, size - 1 characters are reported although none need be stored. *)
Theorem C42_failure_refuted : exists size len, 0 < size /\ len < 0 /\ scnprintf size len = size - 1 /\ 0 < size - 1.
Proof. exists 16, (-1). repeat split; vm_compute; congruence. Qed.
Print Assumptions C41_split_partial.
Print Assumptions C41_huge_refuted.
Print Assumptions C42_count_partial.
Print Assumptions C42_failure_refuted.
