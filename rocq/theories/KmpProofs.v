(** * Knuth-Morris-Pratt: proofs *)
From Verif Require Import Lib TextModel TextSpec.

Lemma firstn_S (l : list Z) k c : nth_error l k = Some c -> firstn (S k) l = firstn k l ++ [c].
Proof. revert k. induction l as [|x l IH]; intros [|k] H; try discriminate H; [injection H as ->; reflexivity|]. cbn [nth_error] in H. cbn [firstn app]. rewrite <- IH by exact H. reflexivity. Qed.
Lemma rd_nat (l : list Z) k : rd l (Z.of_nat k) = nth_error l k.
Proof. unfold rd. rewrite (proj2 (Z.ltb_ge _ _)) by lia. rewrite Nat2Z.id. reflexivity. Qed.
Section P.
Variable P : list Z.
Notation m := (length P).
Hypothesis Hm : (0 < m)%nat.
(** [u] ends with the first [k] bytes of the pattern *)
Definition suf (k : nat) (u : list Z) : Prop := (k <= m)%nat /\ exists v, u = v ++ firstn k P.
Definition longest (k : nat) (u : list Z) : Prop := suf k u /\ forall j, suf j u -> (j <= k)%nat.
Lemma suf0 u : suf 0 u.
Proof. split; [lia|]. exists u. rewrite app_nil_r. reflexivity. Qed.
Lemma suf_len k u : suf k u -> (k <= length u)%nat.
Proof. intros [K [v ->]]. rewrite app_length, firstn_length. lia. Qed.
Lemma sufS k u c : suf (S k) (u ++ [c]) <-> suf k u /\ nth_error P k = Some c.
Proof.
  split.
  - intros [K [v E]]. destruct (nth_error P k) as [c'|] eqn:N; [|apply nth_error_None in N; lia]. rewrite (firstn_S _ _ _ N), app_assoc in E. apply app_inj_tail in E. destruct E as [-> ->]. split; [|reflexivity]. split; [lia|]. exists v. reflexivity.
  - intros [[K [v ->]] N]. split; [apply nth_error_Some; congruence|]. exists v. rewrite (firstn_S _ _ _ N), app_assoc. reflexivity.
Qed.
Lemma suf_down k j u : suf k u -> suf j u -> (j <= k)%nat -> suf j (firstn k P).
Proof.
  intros [K [v Ev]] [J [w Ew]] L. split; [exact J|]. rewrite Ev in Ew. apply app_eq_app in Ew. destruct Ew as [l [[_ E]|[_ E]]]; [|exists l; exact E].
  exists []. assert (length l = 0%nat); [|destruct l; [symmetry; exact E|discriminate]]. apply (f_equal (@length Z)) in E. rewrite app_length, !firstn_length in E. lia.
Qed.
Lemma suf_up k j u : suf k u -> suf j (firstn k P) -> suf j u.
Proof. intros [K [v ->]] [J [w ->]]. split; [exact J|]. exists (v ++ w). rewrite app_assoc. reflexivity. Qed.
(** table entries: the longest proper border of each non-empty prefix *)
Definition tbl_ok (tab : list Z) (n : nat) : Prop :=
  length tab = m /\ forall i, (i < n)%nat -> exists k, nth_error tab i = Some (Z.of_nat k) /\ (k <= i)%nat /\ suf k (firstn (S i) P) /\ forall j, (j <= i)%nat -> suf j (firstn (S i) P) -> (j <= k)%nat.
Lemma back_ok tab n : tbl_ok tab n -> forall fuel k u c, (k <= fuel)%nat -> (k < m)%nat -> (k <= n)%nat -> suf k u -> (forall j, suf (S j) (u ++ [c]) -> (j <= k)%nat) ->
  exists k', kmp_back fuel P tab c (Z.of_nat k) = Some (Z.of_nat k') /\ (k' <= k)%nat /\ suf k' u /\ (k' = 0%nat \/ nth_error P k' = Some c) /\ forall j, suf (S j) (u ++ [c]) -> (j <= k')%nat.
Proof.
  intros [_ T]. induction fuel as [|fuel IH]; intros k u c F Km Kn S J.
  - assert (k = 0%nat) by lia. subst k. exists 0%nat. split; [reflexivity|]. auto.
  - destruct k as [|k]; [exists 0%nat; split; [reflexivity|auto]|]. cbn [kmp_back]. rewrite (proj2 (Z.eqb_neq _ 0)) by lia. rewrite rd_nat. destruct (nth_error P (Datatypes.S k)) as [p|] eqn:N; [|apply nth_error_None in N; lia].
    destruct (Z.eqb_spec p c) as [->|Ne]; [exists (Datatypes.S k); split; [reflexivity|split; [lia|split; [exact S|split; [right; exact N|exact J]]]]|].
    destruct (T k ltac:(lia)) as (k1 & E1 & L1 & S1 & M1). replace (Z.of_nat (Datatypes.S k) - 1) with (Z.of_nat k) by lia. rewrite rd_nat, E1.
    destruct (IH k1 u c) as (k' & -> & L2 & S2 & D & J2); [lia|lia|lia|apply (suf_up _ _ _ S S1)| |exists k'; split; [reflexivity|split; [lia|auto]]].
    intros j Sj. pose proof (J j Sj) as Lj. apply sufS in Sj. destruct Sj as [Sj Nj]. assert (j <> Datatypes.S k) by congruence. apply M1; [lia|]. apply (suf_down _ _ u S Sj). lia.
Qed.
Lemma step_ok tab n k u c : tbl_ok tab n -> (k < m)%nat -> (k <= n)%nat -> longest k u ->
  exists k', kmp_step P tab c (Z.of_nat k) = Some (Z.of_nat k') /\ longest k' (u ++ [c]) /\ (k' <= S k)%nat.
Proof.
  intros T Km Kn [S L]. destruct (back_ok tab n T m k u c) as (k' & E & Lk & S' & D & J); [lia|exact Km|exact Kn|exact S| |].
  { intros j Sj. apply sufS in Sj. apply L, Sj. }
  unfold kmp_step. rewrite E. rewrite rd_nat. destruct (nth_error P k') as [p|] eqn:N; [|apply nth_error_None in N; lia]. destruct (Z.eqb_spec p c) as [->|Ne].
  - exists (Datatypes.S k'). split; [f_equal; lia|]. split; [|lia]. split; [apply sufS; auto|]. intros [|j] Sj; [lia|]. apply J in Sj. lia.
  - assert (k' = 0%nat) by (destruct D as [D|D]; [exact D|congruence]). subst k'. exists 0%nat. split; [reflexivity|]. split; [|lia]. split; [apply suf0|]. intros [|j] Sj; [lia|]. pose proof (J j Sj). assert (j = 0%nat) by lia. subst j. apply sufS in Sj. destruct Sj as [_ Sj]. congruence.
Qed.
Lemma wr_nat_ok : forall (l : list Z) i v, (i < length l)%nat -> exists l', wr_nat l i v = Some l' /\ length l' = length l /\ nth_error l' i = Some v /\ forall j, j <> i -> nth_error l' j = nth_error l j.
Proof.
  induction l as [|x l IH]; intros i v H; [cbn in H; lia|]. destruct i as [|i]; cbn [wr_nat].
  - exists (v :: l). repeat split. intros [|j] J; [contradiction J; reflexivity|reflexivity].
  - destruct (IH i v) as (l' & -> & L & N & O); [cbn in H; lia|]. exists (x :: l'). cbn. repeat split; [lia|exact N|]. intros [|j] J; [reflexivity|]. cbn. apply O. lia.
Qed.
Lemma wr_ok (l : list Z) i v : (i < length l)%nat -> exists l', wr l (Z.of_nat i) v = Some l' /\ length l' = length l /\ nth_error l' i = Some v /\ forall j, j <> i -> nth_error l' j = nth_error l j.
Proof. intros H. unfold wr. rewrite (proj2 (Z.ltb_ge _ _)) by lia. rewrite Nat2Z.id. apply wr_nat_ok, H. Qed.
Lemma prefix_ok : forall r tab i k, (i + r = m)%nat -> (0 < i)%nat -> tbl_ok tab i -> longest k (firstn (i - 1) (tl P)) ->
  exists tab', kmp_prefix r P tab (Z.of_nat i) (Z.of_nat k) = Some tab' /\ tbl_ok tab' m.
Proof.
  induction r as [|r IH]; intros tab i k E I T L; [exists tab; split; [reflexivity|]; replace m with i by lia; exact T|]. cbn [kmp_prefix]. rewrite rd_nat.
  destruct (nth_error P i) as [c|] eqn:N; [|apply nth_error_None in N; lia].
  assert (Lt : length (tl P) = (m - 1)%nat) by (destruct P; cbn; lia).
  assert (Ki : (k <= i - 1)%nat) by (destruct L as [L _]; apply suf_len in L; rewrite firstn_length in L; lia).
  destruct (step_ok tab i k _ c T ltac:(lia) ltac:(lia) L) as (k' & -> & L' & _).
  assert (U : firstn (i - 1) (tl P) ++ [c] = firstn i (tl P)).
  { replace i with (S (i - 1)) at 2 by lia. symmetry. apply firstn_S. destruct P as [|p0 P']; [cbn in Hm; lia|]. cbn [tl]. destruct i as [|i']; [lia|]. cbn [nth_error] in N. replace (S i' - 1)%nat with i' by lia. exact N. }
  rewrite U in L'. destruct T as [Tl T]. destruct (wr_ok tab i (Z.of_nat k')) as (tab' & -> & Wl & Wi & Wo); [lia|].
  replace (Z.of_nat i + 1) with (Z.of_nat (S i)) by lia. apply IH; [lia|lia| |replace (S i - 1)%nat with i by lia; exact L'].
  split; [lia|]. intros q Q. destruct (Nat.eq_dec q i) as [->|Nq]; [|rewrite Wo by exact Nq; apply T; lia].
  exists k'. destruct L' as [S' M']. assert (Ui : length (firstn i (tl P)) = i) by (rewrite firstn_length; lia). split; [exact Wi|]. split; [apply suf_len in S'; lia|].
  assert (H1 : firstn (S i) P = hd 0 P :: firstn i (tl P)) by (destruct P; [cbn in Hm; lia|reflexivity]). rewrite H1. split.
  - destruct S' as [A [v B]]. split; [exact A|]. exists (hd 0 P :: v). rewrite B. reflexivity.
  - intros j J [A [v B]]. apply M'. split; [exact A|]. destruct v as [|x v]; [|injection B as _ B; exists v; exact B]. exfalso. cbn [app] in B. apply (f_equal (@length Z)) in B. cbn [length] in B. rewrite Ui, firstn_length in B. lia.
Qed.
Lemma table_ok : exists tab, kmp_prefix (m - 1) P (repeat 0 m) 1 0 = Some tab /\ tbl_ok tab m.
Proof.
  apply (prefix_ok (m - 1) (repeat 0 m) 1 0); [lia|lia| |].
  - split; [apply repeat_length|]. intros i I. assert (i = 0%nat) by lia. subst i. exists 0%nat. split; [destruct P; [cbn in Hm; lia|reflexivity]|]. split; [lia|]. split; [apply suf0|]. intros; lia.
  - cbn [Nat.sub firstn]. split; [apply suf0|]. intros j J. apply suf_len in J. exact J.
Qed.
(** ** Searching *)
Variables (tab X : list Z).
Hypothesis HT : tbl_ok tab m.
Variables (up : Z -> Z) (icase : bool).
Notation k0 := {| kpat := P; klen := Z.of_nat m; ktab := tab |}.
Definition inv (n k : nat) : Prop := (n <= length X)%nat /\ longest k (firstn n X) /\ (k < m)%nat /\ forall n', (n' <= n)%nat -> ~ suf m (firstn n' X).
Definition first_end (n : nat) : Prop := (n <= length X)%nat /\ suf m (firstn n X) /\ forall n', (n' < n)%nat -> ~ suf m (firstn n' X).
Lemma inv0 : inv 0 0.
Proof. split; [lia|]. split; [split; [apply suf0|intros j J; apply suf_len in J; exact J]|]. split; [exact Hm|]. intros n' N' S. apply suf_len in S. rewrite firstn_length in S. lia. Qed.
Lemma block_ok : forall block consumed index n k rest, inv n k -> skipn n X = map (ch up icase) block ++ rest -> 0 <= index ->
  (exists k', kmp_block up icase k0 block consumed index (Z.of_nat k) = Some (inl (Z.of_nat k')) /\ inv (n + length block) k') \/
  (exists n', kmp_block up icase k0 block consumed index (Z.of_nat k) = Some (inr (w32 (consumed + index + Z.of_nat n' - Z.of_nat n))) /\ first_end n' /\ (n < n')%nat).
Proof.
  induction block as [|t block IH]; intros consumed index n k rest I E Hi.
  - left. exists k. split; [reflexivity|]. rewrite Nat.add_0_r. exact I.
  - cbn [map app] in E. assert (N : nth_error X n = Some (ch up icase t)).
    { rewrite <- (firstn_skipn n X), E. rewrite nth_error_app2 by (rewrite firstn_length; lia). rewrite firstn_length. destruct I as [I _]. replace (n - Nat.min n (length X))%nat with 0%nat by lia. reflexivity. }
    destruct I as (In & Il & Ik & Ia). destruct (step_ok tab m k (firstn n X) (ch up icase t) HT Ik ltac:(lia) Il) as (k' & Es & L' & _). cbn [kmp_block kpat ktab klen]. rewrite Es.
    rewrite <- (firstn_S _ _ _ N) in L'. assert (Hn : (S n <= length X)%nat) by (apply nth_error_Some; congruence).
    destruct (Z.eqb_spec (Z.of_nat k') (Z.of_nat m)) as [Ek|Ek].
    + right. exists (S n). split; [f_equal; f_equal; f_equal; lia|]. split; [|lia]. split; [exact Hn|]. assert (k' = m) by lia. subst k'. split; [apply L'|]. intros n' N'. apply Ia. lia.
    + assert (I' : inv (S n) k').
      { split; [exact Hn|]. split; [exact L'|]. assert (k' <= m)%nat by (apply L'). split; [lia|]. intros n' N' Sn. destruct (Nat.eq_dec n' (S n)) as [->|]; [|apply (Ia n'); [lia|exact Sn]]. apply L' in Sn. lia. }
      assert (E' : skipn (S n) X = map (ch up icase) block ++ rest).
      { replace (S n) with (1 + n)%nat by lia. clear - E. revert n E. induction X as [|x l IH]; intros n E; [destruct n; discriminate E|]. destruct n as [|n]; [cbn in *; injection E as _ E; exact E|]. cbn [skipn Nat.add] in *. apply IH. exact E. }
      destruct (IH consumed (index + 1) (S n) k' rest I' E' ltac:(lia)) as [(k2 & -> & I2)|(n' & -> & F & Ln)].
      * left. exists k2. split; [reflexivity|]. cbn [length]. replace (n + S (length block))%nat with (S n + length block)%nat by lia. exact I2.
      * right. exists n'. split; [f_equal; f_equal; f_equal; lia|]. split; [exact F|lia].
Qed.
(** ends of matches and occurrences *)
Lemma ends_occ n : (n <= length X)%nat -> (suf m (firstn n X) <-> (m <= n)%nat /\ occurs X P (n - m)).
Proof.
  intros Hn. unfold suf, occurs. rewrite firstn_all. split.
  - intros [_ [v E]]. assert (L : (length v + m = n)%nat) by (apply (f_equal (@length Z)) in E; rewrite app_length, firstn_length in E; lia). split; [lia|].
    replace (n - m)%nat with (length v) by lia. rewrite <- (firstn_skipn n X), E, <- app_assoc. rewrite skipn_app, skipn_all, Nat.sub_diag. cbn [skipn app]. rewrite firstn_app, Nat.sub_diag, firstn_all, firstn_O. apply app_nil_r.
  - intros [L O]. split; [lia|]. exists (firstn (n - m) X). rewrite <- O at 2. replace n with ((n - m) + m)%nat at 1 by lia. generalize (n - m)%nat. intros d. generalize X. clear. induction d as [|d IH]; intros Y; [reflexivity|]. destruct Y as [|x Y]; [cbn; rewrite firstn_nil; reflexivity|]. cbn [Nat.add firstn skipn app]. f_equal. apply IH.
Qed.
Lemma occ_len j : occurs X P j -> (j + m <= length X)%nat.
Proof. unfold occurs. intros E. apply (f_equal (@length Z)) in E. rewrite firstn_length, skipn_length in E. lia. Qed.
End P.
(** finding from an offset *)
Lemma skipn_map' A B (f : A -> B) : forall n l, skipn n (map f l) = map f (skipn n l).
Proof. induction n as [|n IH]; intros l; [reflexivity|]. destruct l; [reflexivity|]. apply IH. Qed.
Lemma skipn_skipn' A : forall (a b : nat) (l : list A), skipn a (skipn b l) = skipn (b + a) l.
Proof. intros a b. induction b as [|b IH]; intros l; [reflexivity|]. destruct l; [destruct a; reflexivity|]. cbn [skipn Nat.add]. apply IH. Qed.
Section Find.
Variables (P tab text : list Z) (up : Z -> Z) (icase : bool) (next : Z -> list Z).
Hypothesis Hm : (0 < length P)%nat.
Hypothesis HT : tbl_ok P tab (length P).
Hypothesis HS : source next text.
Hypothesis HL : zlen text < 2 ^ 32.
Notation m := (length P).
Notation T := (map (ch up icase) text).
Notation k0 := {| kpat := P; klen := Z.of_nat m; ktab := tab |}.
Lemma loop_ok start : (start <= length text)%nat -> forall fuel n k, (length text - start - n < fuel)%nat -> inv P (skipn start T) n k ->
  (exists n', kmp_loop up icase fuel k0 next (Z.of_nat start) (Z.of_nat (start + n)) (Z.of_nat k) = Some (Z.of_nat (start + n'), Z.of_nat (start + n' - m)) /\ first_end P (skipn start T) n') \/
  (kmp_loop up icase fuel k0 next (Z.of_nat start) (Z.of_nat (start + n)) (Z.of_nat k) = Some (Z.of_nat start, UINT_MAX) /\ forall n', (n' <= length text - start)%nat -> ~ suf P m (firstn n' (skipn start T))).
Proof.
  intros Hs. assert (LX : length (skipn start T) = (length text - start)%nat) by (rewrite skipn_length, map_length; reflexivity).
  induction fuel as [|fuel IH]; intros n k F I; [lia|]. cbn [kmp_loop]. destruct (HS (Z.of_nat (start + n)) ltac:(lia)) as [[rest E] Ne]. rewrite Nat2Z.id in E. set (block := next (Z.of_nat (start + n))) in *. pose proof I as (In & _ & _ & Ia).
  destruct block as [|t block'] eqn:Eb.
  - cbn. right. split; [reflexivity|]. assert (n = (length text - start)%nat). { destruct (Nat.eq_dec n (length text - start)) as [|N]; [assumption|]. exfalso. apply Ne; [unfold zlen; lia|reflexivity]. } intros n' N'. apply Ia. lia.
  - rewrite (proj2 (Z.eqb_neq _ 0)) by (unfold zlen; cbn [length]; lia).
    assert (E' : skipn n (skipn start T) = map (ch up icase) (t :: block') ++ map (ch up icase) rest) by (rewrite skipn_skipn', skipn_map', E, map_app; reflexivity).
    assert (Lb : (n + length (t :: block') <= length text - start)%nat) by (apply (f_equal (@length Z)) in E; rewrite skipn_length, app_length in E; lia).
    destruct (block_ok P Hm tab (skipn start T) HT up icase (t :: block') (Z.of_nat (start + n)) 0 n k _ I E' ltac:(lia)) as [(k' & -> & I')|(n' & -> & F' & Ln)].
    + replace (w32 (Z.of_nat (start + n) + zlen (t :: block'))) with (Z.of_nat (start + (n + length (t :: block')))).
      * apply IH; [cbn [length] in *; lia|exact I'].
      * unfold zlen in *. rewrite w32_small by (unfold u32; lia). lia.
    + left. exists n'. pose proof F' as (Fn & Fs & _). rewrite LX in Fn. split; [|exact F']. apply (ends_occ P Hm) in Fs; [|rewrite LX; exact Fn]. cbn [klen]. unfold zlen in HL. replace (w32 (Z.of_nat (start + n) + 0 + Z.of_nat n' - Z.of_nat n)) with (Z.of_nat (start + n')) by (rewrite w32_small by (unfold u32; lia); lia). f_equal. f_equal. rewrite w32_small by (unfold u32; lia). lia.
Qed.
Lemma occ_skip start j : (start <= j)%nat -> occurs (skipn start T) P (j - start) <-> occurs T P j.
Proof. intros H. unfold occurs. rewrite skipn_skipn'. replace (start + (j - start))%nat with j by lia. reflexivity. Qed.
Lemma find_ok fuel start : (start <= length text)%nat -> (length text < fuel + start)%nat ->
  (exists j, kmp_find up icase fuel k0 next (Z.of_nat start) = Some (Z.of_nat (j + m), Z.of_nat j) /\ leftmost T P start j /\ (j + m <= length text)%nat) \/
  (kmp_find up icase fuel k0 next (Z.of_nat start) = Some (Z.of_nat start, UINT_MAX) /\ absent T P start).
Proof.
  intros Hs F. unfold kmp_find. assert (LX : length (skipn start T) = (length text - start)%nat) by (rewrite skipn_length, map_length; reflexivity).
  destruct (loop_ok start Hs fuel 0 0 ltac:(lia) (inv0 P Hm _)) as [(n' & E & (Fn & Fs & Fa))|[E A]]; rewrite Nat.add_0_r in E; change (Z.of_nat 0) with 0 in E.
  - left. rewrite LX in Fn. pose proof Fs as Fs'. apply (ends_occ P Hm) in Fs'; [|rewrite LX; exact Fn]. destruct Fs' as [Lm O]. exists (start + (n' - m))%nat. split; [rewrite E; f_equal; f_equal; lia|]. split; [|lia]. split; [lia|]. split.
    + apply (occ_skip start); [lia|]. replace (start + (n' - m) - start)%nat with (n' - m)%nat by lia. exact O.
    + intros i Hi Oi. apply (occ_skip start) in Oi; [|lia]. pose proof (occ_len P Hm _ _ Oi) as Lo. rewrite LX in Lo. apply (Fa (i - start + m)%nat); [lia|]. apply (ends_occ P Hm); [rewrite LX; lia|]. split; [lia|]. replace (i - start + m - m)%nat with (i - start)%nat by lia. exact Oi.
  - right. split; [exact E|]. intros i Hi Oi. apply (occ_skip start) in Oi; [|exact Hi]. pose proof (occ_len P Hm _ _ Oi) as Lo. rewrite LX in Lo. apply (A (i - start + m)%nat); [lia|]. apply (ends_occ P Hm); [rewrite LX; lia|]. split; [lia|]. replace (i - start + m - m)%nat with (i - start)%nat by lia. exact Oi.
Qed.
Lemma all_ok : forall fuel start, (start <= length text)%nat -> (length text < fuel + start)%nat -> exists l, kmp_all up icase fuel k0 next (Z.of_nat start) = Some l /\ enumerates T P start l.
Proof.
  induction fuel as [|fuel IH]; intros start Hs F; [lia|]. cbn [kmp_all]. destruct (find_ok (S fuel) start Hs F) as [(j & -> & L & Lj)|[-> A]].
  - unfold zlen in HL. rewrite (proj2 (Z.eqb_neq _ _)) by (unfold UINT_MAX; lia). destruct L as (L1 & L2). destruct (IH (j + m)%nat Lj ltac:(lia)) as (l & -> & En). exists (Z.of_nat j :: l). split; [reflexivity|]. apply en_cons; [split; assumption|exact En].
  - rewrite Z.eqb_refl. exists []. split; [reflexivity|]. apply en_nil, A.
Qed.
End Find.
Lemma prepare_ok up icase pattern : pattern <> [] -> zlen pattern < 2 ^ 30 -> (icase = true -> forall p, In p pattern -> schar (up p) = up p) ->
  exists tab, kmp_prepare up icase pattern = Some {| kpat := map (ch up icase) pattern; klen := Z.of_nat (length (map (ch up icase) pattern)); ktab := tab |} /\ tbl_ok (map (ch up icase) pattern) tab (length (map (ch up icase) pattern)).
Proof.
  intros N L C. unfold kmp_prepare. rewrite (proj2 (Z.leb_gt _ _)) by exact L.
  assert (E : (if icase then map (fun c => schar (up c)) pattern else pattern) = map (ch up icase) pattern) by (unfold ch; destruct icase; [apply map_ext_in; intros a A; apply C; auto|symmetry; apply map_id]).
  rewrite E. assert (Hm : (0 < length (map (ch up icase) pattern))%nat) by (rewrite map_length; destruct pattern; [contradiction N; reflexivity|cbn; lia]).
  destruct (table_ok _ Hm) as (tab & Et & Ht). rewrite map_length in *. rewrite Et. exists tab. split; [reflexivity|exact Ht].
Qed.
Lemma linear_source data : source (linear_next data) data.
Proof.
  intros c C. unfold linear_next. destruct (Z.ltb_spec c (zlen data)) as [L|L]; unfold zlen in L.
  - split; [exists []; rewrite app_nil_r; reflexivity|]. intros _ E. apply (f_equal (@length Z)) in E. rewrite skipn_length in E. cbn in E. lia.
  - split; [exists []; rewrite skipn_all2 by lia; reflexivity|]. unfold zlen. lia.
Qed.
