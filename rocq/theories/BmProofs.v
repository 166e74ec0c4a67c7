(** * Proofs about the Boyer-Moore search *)
From Coq Require Import Lia.
From Verif Require Import Lib TextModel TextSpec KmpProofs SundayProofs.

Lemma occurs_nth T P j : (forall k p, nth_error P k = Some p -> nth_error T (j + k) = Some p) -> occurs T P j.
Proof.
  unfold occurs. revert T j. induction P as [|p P IH]; intros T j H; [reflexivity|]. pose proof (H 0%nat p eq_refl) as H0. rewrite Nat.add_0_r in H0.
  assert (Sk : skipn j T = p :: skipn (S j) T). { clear - H0. revert T H0. induction j as [|j IH]; intros [|x T] R; try discriminate R; [injection R as ->; reflexivity|]. cbn [skipn]. apply IH. exact R. }
  rewrite Sk. cbn [length firstn]. f_equal. apply IH. intros k q N. specialize (H (S k) q N). replace (S j + k)%nat with (j + S k)%nat by lia. exact H.
Qed.
Lemma nth_occurs T P j : occurs T P j -> forall k p, nth_error P k = Some p -> nth_error T (j + k) = Some p.
Proof.
  unfold occurs. revert T j. induction P as [|q P IH]; intros T j O k p N; [destruct k; discriminate N|].
  destruct (skipn j T) as [|x t] eqn:Sk; [discriminate O|]. cbn [length firstn] in O. injection O as -> O.
  assert (HS : nth_error T j = Some q /\ skipn (S j) T = t).
  { clear - Sk. revert T Sk. induction j as [|j IHj]; intros [|y T] Sk; try discriminate Sk; cbn [skipn] in *; [injection Sk as -> ->; split; reflexivity|]. apply IHj. exact Sk. }
  destruct HS as [H1 H2]. destruct k as [|k]; [rewrite Nat.add_0_r; cbn in N; congruence|].
  replace (j + S k)%nat with (S j + k)%nat by lia. apply IH; [rewrite H2; exact O|exact N].
Qed.

Section Bm.
Variables (up low : Z -> Z) (icase : bool).
Notation c := (ch up icase).

Lemma rd_map (l : list Z) i t : rd l i = Some t -> rd (map c l) i = Some (c t).
Proof. unfold rd. destruct (i <? 0); [discriminate|]. intros H. apply map_nth_error. exact H. Qed.

(** the comparison, from the last byte *)
Lemma bm_cmp_ok mem : forall rpat pos, zlen rpat - 1 <= pos -> pos < zlen mem ->
  exists n, bm_cmp up icase rpat mem pos = Some n /\ 0 <= n <= zlen rpat /\
    (forall k p, nth_error rpat k = Some p -> Z.of_nat k < n -> rd (map c mem) (pos - Z.of_nat k) = Some p) /\
    (forall p, nth_error rpat (Z.to_nat n) = Some p -> rd (map c mem) (pos - n) <> Some p).
Proof.
  induction rpat as [|q rpat IH]; intros pos Hp L.
  - exists 0. cbn. unfold zlen. cbn. split; [reflexivity|]. split; [lia|]. split; [intros [|k] p N; discriminate N|discriminate].
  - assert (E' : zlen (q :: rpat) = zlen rpat + 1) by (unfold zlen; cbn [length]; lia). assert (Zp : 0 <= zlen rpat) by (unfold zlen; lia).
    cbn [bm_cmp]. destruct (rd_some _ mem pos) as (t & R); [lia|]. rewrite R. fold (ch up icase t). pose proof (rd_map _ _ _ R) as RM.
    destruct (Z.eqb_spec q (c t)) as [->|N].
    + assert (Hc : exists n, bm_cmp up icase rpat mem (pos - 1) = Some n /\ 0 <= n <= zlen rpat /\
        (forall k p, nth_error rpat k = Some p -> Z.of_nat k < n -> rd (map c mem) (pos - 1 - Z.of_nat k) = Some p) /\
        (forall p, nth_error rpat (Z.to_nat n) = Some p -> rd (map c mem) (pos - 1 - n) <> Some p)) by (apply IH; lia).
      destruct Hc as (n & -> & Bn & A & B). exists (n + 1). split; [reflexivity|]. split; [lia|]. split.
      * intros [|k] p Nk Hk; [injection Nk as <-; replace (pos - Z.of_nat 0) with pos by lia; exact RM|].
        replace (pos - Z.of_nat (S k)) with (pos - 1 - Z.of_nat k) by lia. apply A; [exact Nk|lia].
      * intros p Np. replace (Z.to_nat (n + 1)) with (S (Z.to_nat n)) in Np by lia. replace (pos - (n + 1)) with (pos - 1 - n) by lia. apply B. exact Np.
    + exists 0. split; [reflexivity|]. split; [lia|]. split; [intros; lia|]. intros p Np. injection Np as <-. rewrite Z.sub_0_r, RM. congruence.
Qed.

(** the table of bad characters *)
Definition bhits (p t : Z) : Prop := t = p \/ (icase = true /\ t = low p).
Lemma bm_bad_ok len : 0 < len < 2 ^ 32 -> forall n pat index tab,
  (n <= length pat)%nat -> 0 <= index -> index + Z.of_nat n + 1 = len -> zlen tab = 255 ->
  (forall t d, rd tab t = Some d -> len - index <= d <= len) ->
  (forall p, In p pat -> good_byte p /\ (icase = true -> good_byte (low p))) ->
  exists tab', bm_bad low icase len n pat index tab = Some tab' /\ zlen tab' = 255 /\
    forall t d, rd tab' t = Some d -> 1 <= d <= len /\
      forall j p, (j < n)%nat -> nth_error pat j = Some p -> bhits p t -> d <= len - (index + Z.of_nat j) - 1.
Proof.
  intros HL. assert (G : forall n pat index tab,
    (n <= length pat)%nat -> 0 <= index -> index + Z.of_nat n + 1 = len -> zlen tab = 255 ->
    (forall t d, rd tab t = Some d -> len - index <= d <= len) ->
    (forall p, In p pat -> good_byte p /\ (icase = true -> good_byte (low p))) ->
    exists tab', bm_bad low icase len n pat index tab = Some tab' /\ zlen tab' = 255 /\
      forall t d, rd tab' t = Some d -> 1 <= d /\ (forall d0, rd tab t = Some d0 -> d <= d0) /\
        forall j p, (j < n)%nat -> nth_error pat j = Some p -> bhits p t -> d <= len - (index + Z.of_nat j) - 1).
  { induction n as [|n IH]; intros pat index tab Hn Hi E HT HB HP.
    - exists tab. cbn. split; [reflexivity|]. split; [exact HT|]. intros t d R. split; [specialize (HB _ _ R); lia|].
      split; [intros d0 R0; assert (d = d0) by congruence; lia|]. intros; lia.
    - destruct pat as [|p pat]; [cbn in Hn; lia|]. destruct (HP p (or_introl eq_refl)) as [Gp Gl]. cbn [bm_bad].
      rewrite (w32_small (len - index - 1)) by (unfold u32; lia).
      destruct (wr_spec _ tab p (len - index - 1)) as (t1 & -> & L1 & R1); [unfold good_byte in Gp; lia|].
      assert (exists t2, (if icase then wr t1 (low p) (len - index - 1) else Some t1) = Some t2 /\ zlen t2 = 255 /\
        forall t d, rd t2 t = Some d -> len - index - 1 <= d <= len /\ (forall d0, rd tab t = Some d0 -> d <= d0) /\ (bhits p t -> d = len - index - 1)) as (t2 & -> & L2 & R2).
      { destruct icase eqn:Ei.
        - destruct (wr_spec _ t1 (low p) (len - index - 1)) as (t2 & -> & L2 & R2); [specialize (Gl eq_refl); unfold good_byte in Gl; lia|].
          exists t2. split; [reflexivity|]. split; [lia|]. intros t d R. rewrite R2 in R. unfold bhits. rewrite R1 in R.
          destruct (Z.eqb_spec t (low p)) as [->|N1]; [injection R as <-; split; [lia|]; split; [intros d0 R0; specialize (HB _ _ R0); lia|reflexivity]|].
          destruct (Z.eqb_spec t p) as [->|N2]; [injection R as <-; split; [lia|]; split; [intros d0 R0; specialize (HB _ _ R0); lia|reflexivity]|].
          split; [specialize (HB _ _ R); lia|]. split; [intros d0 R0; assert (d = d0) by congruence; lia|]. intros [|[_ ?]]; contradiction.
        - exists t1. split; [reflexivity|]. split; [lia|]. intros t d R. unfold bhits. rewrite R1 in R.
          destruct (Z.eqb_spec t p) as [->|N2]; [injection R as <-; split; [lia|]; split; [intros d0 R0; specialize (HB _ _ R0); lia|reflexivity]|].
          split; [specialize (HB _ _ R); lia|]. split; [intros d0 R0; assert (d = d0) by congruence; lia|]. rewrite Ei. intros [|[? _]]; [contradiction|discriminate]. }
      destruct (IH pat (index + 1) t2) as (tab' & -> & L' & R'); [cbn in Hn; lia|lia|lia|exact L2| |intros q Q; apply HP; right; exact Q|].
      { intros t d R. destruct (R2 _ _ R) as [B _]. lia. }
      exists tab'. split; [reflexivity|]. split; [exact L'|]. intros t d R. destruct (R' _ _ R) as (D1 & D2 & D3).
      destruct (rd_some _ t2 t) as (d2 & Q); [rewrite L2, <- L'; eapply rd_range; exact R|]. specialize (D2 _ Q). destruct (R2 _ _ Q) as (_ & B & C).
      split; [exact D1|]. split.
      + intros d0 R0. specialize (B _ R0). lia.
      + intros [|j] q Hj N Hh; cbn in N; [injection N as <-; specialize (C Hh); lia|]. specialize (D3 j q ltac:(lia) N Hh). lia. }
  intros n pat index tab Hn Hi E HT HB HP. destruct (G n pat index tab Hn Hi E HT HB HP) as (tab' & E' & L' & R').
  exists tab'. split; [exact E'|]. split; [exact L'|]. intros t d R. destruct (R' _ _ R) as (D1 & D2 & D3). split; [|exact D3]. split; [exact D1|].
  destruct (rd_some _ tab t) as (d0 & R0); [rewrite HT, <- L'; eapply rd_range; exact R|]. specialize (D2 _ R0). specialize (HB _ _ R0). lia.
Qed.

(** the table of good suffixes: what it holds is of no use, but it is in range *)
Lemma subpattern_total pat index j g : 1 <= index -> 1 - g <= j < index -> index + g = zlen pat -> 1 <= g ->
  exists b, subpattern pat index j g = Some b /\ (b = true -> 1 <= j).
Proof.
  intros Hi Hj E Hg. unfold subpattern.
  assert (G : forall fuel g' x y, (Z.to_nat y < fuel)%nat -> y = j + g' - 1 -> 0 <= y < zlen pat -> x - y = index - j -> 1 <= g' -> x < zlen pat ->
    exists b, subpattern_loop fuel pat index j g' x y = Some b /\ (b = true -> 1 <= j)).
  { induction fuel as [|fuel IH]; intros g' x y F Ey By Ex Hg' Bx; [lia|]. cbn [subpattern_loop].
    destruct (Z.eqb_spec y 0) as [->|Ny]; [exists false; split; [reflexivity|discriminate]|].
    destruct (rd_some _ pat x) as (a & ->); [lia|]. destruct (rd_some _ pat y) as (b & ->); [lia|].
    destruct (a =? b); [|exists false; split; [reflexivity|discriminate]].
    rewrite (proj2 (Z.ltb_ge _ _)) by lia. destruct (Z.eqb_spec (g' - 1) 0) as [E0|N0].
    - destruct (rd_some _ pat (index - 1)) as (a' & ->); [lia|]. destruct (rd_some _ pat (j - 1)) as (b' & ->); [lia|].
      eexists. split; [reflexivity|]. intros _. lia.
    - apply IH; lia. }
  apply G; unfold zlen in *; lia.
Qed.
Definition good_ok (len : Z) (good : list Z) : Prop :=
  zlen good = len /\ rd good 0 = Some 1 /\ forall i d, rd good i = Some d -> 1 <= d <= len.
Lemma bm_inner_ok pat index start : zlen pat < 2 ^ 32 -> 1 <= index -> 1 <= start -> index + start = zlen pat ->
  forall n count good, (Z.to_nat (count + start) <= n)%nat -> count < index -> good_ok (zlen pat) good ->
  exists good', bm_inner n pat index start count good = Some good' /\ good_ok (zlen pat) good'.
Proof.
  intros HL Hi Hs E. induction n as [|n IH]; intros count good F Hc G; cbn [bm_inner].
  - rewrite (proj2 (Z.ltb_lt _ _)) by lia. exists good. auto.
  - destruct (Z.ltb_spec count (1 - start)) as [L|L]; [exists good; auto|].
    destruct (subpattern_total pat index count start Hi ltac:(lia) E Hs) as (b & -> & B). destruct b.
    + specialize (B eq_refl). destruct G as (G1 & G2 & G3). rewrite w32_small by (unfold u32; lia).
      destruct (wr_spec _ good count (zlen pat - start - count)) as (good' & -> & L' & R'); [lia|]. exists good'. split; [reflexivity|].
      split; [lia|]. split; [rewrite R'; rewrite (proj2 (Z.eqb_neq _ _)) by lia; exact G2|].
      intros i d R. rewrite R' in R. destruct (Z.eqb_spec i count); [injection R as <-; lia|]. apply (G3 _ _ R).
    + apply IH; [lia|lia|exact G].
Qed.
Lemma bm_outer_ok pat : zlen pat < 2 ^ 32 -> forall n index start good, index = Z.of_nat n -> 1 <= start -> index + start = zlen pat ->
  good_ok (zlen pat) good -> exists good', bm_outer n pat index start good = Some good' /\ good_ok (zlen pat) good'.
Proof.
  intros HL. induction n as [|n IH]; intros index start good Hi Hs E G; cbn [bm_outer]; [exists good; auto|].
  destruct (bm_inner_ok pat index start HL ltac:(lia) Hs E (S (length pat)) (index - 1) good) as (good1 & -> & G1); [unfold zlen in *; lia|lia|exact G|].
  apply IH; [lia|lia|lia|exact G1].
Qed.

(** ** The scan *)
Section Scan.
Variables (pat mem bad good : list Z) (len : Z).
Hypothesis HM : 0 <= len <= zlen mem.
Hypothesis HB : Forall good_byte mem.
Hypothesis HL : zlen mem + zlen pat < 2 ^ 32.
Hypothesis HP : pat <> [].
Hypothesis HT : zlen bad = 255.
Hypothesis HD : forall t d, rd bad t = Some d -> 1 <= d <= zlen pat /\
  forall k p, (1 <= k)%nat -> nth_error (rev pat) k = Some p -> p = c t -> d <= Z.of_nat k.
Hypothesis HG : good_ok (zlen pat) good.
(** the last byte occurs nowhere else *)
Hypothesis HU : forall k p q, (1 <= k)%nat -> nth_error (rev pat) k = Some p -> nth_error (rev pat) 0 = Some q -> p <> q.
Notation b0 := {| bpat := pat; bbad := bad; bgood := good |}.
(** the pattern ends at position [e] *)
Definition ends (e : Z) : Prop := forall k p, nth_error (rev pat) k = Some p -> rd (map c mem) (e - Z.of_nat k) = Some p.
Lemma bm_scan_ok : forall fuel shift, zlen pat - 1 <= shift -> len - shift <= Z.of_nat fuel -> shift < 2 ^ 32 ->
  (forall e, zlen pat - 1 <= e < shift -> e < len -> ~ ends e) ->
  (exists r, bm_scan up icase fuel b0 mem len shift = Some (inl r) /\ forall e, zlen pat - 1 <= e < len -> ~ ends e) \/
  (exists r, bm_scan up icase fuel b0 mem len shift = Some (inr r) /\ zlen pat - 1 <= r < len /\ ends r /\ forall e, zlen pat - 1 <= e < r -> ~ ends e).
Proof.
  assert (Zp : 1 <= zlen pat) by (unfold zlen; destruct pat; [contradiction HP; reflexivity|cbn; lia]).
  assert (ZR : zlen (rev pat) = zlen pat) by (unfold zlen; rewrite rev_length; reflexivity).
  induction fuel as [|fuel IH]; intros shift Hs F Hw A; cbn [bm_scan bpat bbad bgood].
  - rewrite (proj2 (Z.ltb_ge _ _)) by lia. left. exists shift. split; [reflexivity|]. intros e He. apply A; lia.
  - destruct (Z.ltb_spec shift len) as [L|L]; [|left; exists shift; split; [reflexivity|]; intros e He; apply A; lia].
    destruct (bm_cmp_ok mem (rev pat) shift ltac:(lia) ltac:(lia)) as (n & -> & Bn & C1 & C2). rewrite ZR in Bn.
    destruct (Z.eqb_spec n (zlen pat)) as [->|Nn].
    + right. exists shift. split; [reflexivity|]. split; [lia|]. split; [|intros e He; apply A; lia].
      intros k p N. apply C1; [exact N|]. assert (k < length (rev pat))%nat by (apply nth_error_Some; congruence). unfold zlen in *. lia.
    + destruct (rd_some _ mem (shift - n)) as (t & Rt); [lia|]. rewrite Rt. pose proof (rd_map _ _ _ Rt) as RM.
      assert (Gt : good_byte t). { unfold rd in Rt. rewrite (proj2 (Z.ltb_ge _ _)) in Rt by lia. apply nth_error_In in Rt. rewrite Forall_forall in HB. apply HB, Rt. }
      destruct (rd_some _ bad t) as (d & Rd); [unfold good_byte in Gt; lia|]. rewrite Rd. destruct (HD _ _ Rd) as [Bd Cd].
      destruct HG as (G1 & G2 & G3). destruct (rd_some _ good n) as (g & Rg); [lia|]. rewrite Rg. pose proof (G3 _ _ Rg) as Bg.
      assert (Zm : 0 <= zlen mem) by (unfold zlen; lia). rewrite (w32_small (shift - n + d)), (w32_small (shift + g)) by (unfold u32; lia).
      apply IH; [lia|lia|lia|]. intros e He Hl O. destruct (Z_lt_ge_dec e shift) as [Hlt|Hge]; [apply (A e); [lia|lia|exact O]|].
      destruct (Z.eq_dec e shift) as [->|Hne].
      * destruct (nth_error (rev pat) (Z.to_nat n)) as [p|] eqn:Np; [|apply nth_error_None in Np; unfold zlen in *; lia].
        apply (C2 _ eq_refl). replace n with (Z.of_nat (Z.to_nat n)) by lia. apply O. exact Np.
      * destruct (Z_lt_ge_dec e (shift - n + d)) as [Hb|Hb].
        -- set (k := Z.to_nat (e - (shift - n))). assert (Ek : Z.of_nat k = e - (shift - n)) by (unfold k; lia). clearbody k.
           destruct (nth_error (rev pat) k) as [p|] eqn:Np; [|apply nth_error_None in Np; unfold zlen in *; lia].
           pose proof (O _ _ Np) as Op. replace (e - Z.of_nat k) with (shift - n) in Op by lia. rewrite RM in Op. injection Op as Op.
           specialize (Cd k p ltac:(lia) Np (eq_sym Op)). lia.
        -- assert (Hg : e < shift + g) by lia. destruct (Z.eq_dec n 0) as [->|N0]; [rewrite G2 in Rg; injection Rg as <-; lia|].
           set (k := Z.to_nat (e - shift)). assert (Ek : Z.of_nat k = e - shift) by (unfold k; lia). clearbody k.
           destruct (nth_error (rev pat) k) as [p|] eqn:Np; [|apply nth_error_None in Np; unfold zlen in *; lia].
           destruct (nth_error (rev pat) 0) as [q|] eqn:Nq; [|apply nth_error_None in Nq; unfold zlen in *; lia].
           pose proof (O _ _ Np) as Op. replace (e - Z.of_nat k) with shift in Op by lia.
           pose proof (C1 0%nat q Nq ltac:(lia)) as Oq. replace (shift - Z.of_nat 0) with shift in Oq by lia.
           apply (HU k p q ltac:(lia) Np eq_refl). congruence.
Qed.
End Scan.

(** what is reported is an occurrence, whatever the tables *)
Lemma bm_scan_sound b mem len : bpat b <> [] -> 0 <= len <= zlen mem -> forall fuel shift r, zlen (bpat b) - 1 <= shift ->
  bm_scan up icase fuel b mem len shift = Some (inr r) -> r < len /\ forall k p, nth_error (rev (bpat b)) k = Some p -> rd (map c mem) (r - Z.of_nat k) = Some p.
Proof.
  intros NB HL. assert (FULL : forall rpat pos, bm_cmp up icase rpat mem pos = Some (zlen rpat) ->
    forall k p, nth_error rpat k = Some p -> rd (map c mem) (pos - Z.of_nat k) = Some p).
  { assert (B : forall rpat pos n, bm_cmp up icase rpat mem pos = Some n -> 0 <= n).
    { induction rpat as [|p rpat IH]; intros pos n E; cbn [bm_cmp] in E; [injection E as <-; lia|]. destruct (rd mem pos) as [z|]; [|discriminate]. destruct (p =? _); [|injection E as <-; lia]. destruct (bm_cmp up icase rpat mem (pos - 1)) eqn:E2; [|discriminate]. injection E as <-. specialize (IH _ _ E2). lia. }
    induction rpat as [|q rpat IH]; intros pos E k p N; [destruct k; discriminate N|]. cbn [bm_cmp] in E. destruct (rd mem pos) as [t|] eqn:R; [|discriminate]. assert (zlen (q :: rpat) = zlen rpat + 1) by (unfold zlen; cbn [length]; lia). assert (0 <= zlen rpat) by (unfold zlen; lia).
    fold (ch up icase t) in E. destruct (Z.eqb_spec q (c t)) as [->|]; [|injection E as E; lia]. destruct (bm_cmp up icase rpat mem (pos - 1)) as [n|] eqn:E2; [|discriminate]. injection E as E. assert (n = zlen rpat) by lia. subst n.
    destruct k as [|k]; [injection N as <-; replace (pos - Z.of_nat 0) with pos by lia; apply rd_map; exact R|]. cbn in N. specialize (IH _ E2 _ _ N). replace (pos - Z.of_nat (S k)) with (pos - 1 - Z.of_nat k) by lia. exact IH. }
  assert (G : forall fuel shift r, bm_scan up icase fuel b mem len shift = Some (inr r) -> r < len /\ forall k p, nth_error (rev (bpat b)) k = Some p -> rd (map c mem) (r - Z.of_nat k) = Some p).
  { induction fuel as [|fuel IH]; intros shift r E; cbn [bm_scan] in E; destruct (Z.ltb_spec shift len) as [L|L]; try discriminate E.
    destruct (bm_cmp up icase (rev (bpat b)) mem shift) as [n|] eqn:Ec; [|discriminate]. destruct (Z.eqb_spec n (zlen (bpat b))) as [->|Nn].
    - injection E as <-. split; [exact L|]. apply FULL. replace (zlen (rev (bpat b))) with (zlen (bpat b)) by (unfold zlen; rewrite rev_length; reflexivity). exact Ec.
    - destruct (rd mem (shift - n)); [|discriminate]. destruct (rd (bbad b) z); [|discriminate]. destruct (rd (bgood b) n); [|discriminate]. eapply IH. exact E. }
  intros fuel shift r _ E. eapply G. exact E.
Qed.

(** from positions in the part after [offset] to occurrences in the text *)
Lemma ends_occurs P mem datalen offset e : P <> [] -> 0 <= offset <= datalen -> datalen <= zlen mem ->
  zlen P - 1 <= e < datalen - offset ->
  (ends P (skipn (Z.to_nat offset) mem) e <-> occurs (map c (firstn (Z.to_nat datalen) mem)) P (Z.to_nat (offset + e - zlen P + 1))).
Proof.
  intros NP HO HD HE. assert (Zn : 0 < zlen P) by (unfold zlen; destruct P; [contradiction NP; reflexivity|cbn; lia]).
  assert (ZZ : Z.of_nat (length P) = zlen P) by reflexivity.
  assert (R : forall k p, (k < length P)%nat -> (nth_error (rev P) (length P - 1 - k) = Some p <-> nth_error P k = Some p)).
  { intros k p Lk. assert (RL := rev_length P). rewrite (nth_error_nth' (rev P) 0) by lia. rewrite (nth_error_nth' P 0) by lia. rewrite rev_nth by lia.
    replace (length P - S (length P - 1 - k))%nat with k by lia. reflexivity. }
  assert (X : forall k, (k < length P)%nat -> rd (map c (skipn (Z.to_nat offset) mem)) (e - Z.of_nat (length P - 1 - k)) =
    nth_error (map c (firstn (Z.to_nat datalen) mem)) (Z.to_nat (offset + e - zlen P + 1) + k)).
  { intros k Lk. unfold rd. rewrite (proj2 (Z.ltb_ge _ _)) by lia. rewrite <- firstn_map, <- skipn_map.
    set (M := map c mem). rewrite <- (firstn_skipn (Z.to_nat datalen) M) at 1.
    assert (LM : length M = length mem) by apply map_length.
    assert (LF : length (firstn (Z.to_nat datalen) M) = Z.to_nat datalen) by (rewrite firstn_length, LM; unfold zlen in HD; lia).
    rewrite skipn_app, nth_error_app1 by (rewrite skipn_length, LF; lia).
    assert (NS : forall (l : list Z) a b, nth_error (skipn a l) b = nth_error l (a + b)).
    { intros l a. revert l. induction a as [|a IHa]; intros [|x l] b; cbn [skipn Nat.add nth_error]; try reflexivity; [destruct b; reflexivity|apply IHa]. }
    rewrite NS. f_equal. lia. }
  split.
  - intros H. apply occurs_nth. intros k p N. assert (Lk : (k < length P)%nat) by (apply nth_error_Some; congruence).
    rewrite <- X by exact Lk. apply H. apply R; assumption.
  - intros H k p N. assert (Lk : (k < length P)%nat) by (rewrite <- (rev_length P); apply nth_error_Some; congruence).
    replace k with (length P - 1 - (length P - 1 - k))%nat by lia. rewrite X by lia. apply (nth_occurs _ _ _ H).
    apply R; [lia|]. replace (length P - 1 - (length P - 1 - k))%nat with k by lia. exact N.
Qed.
Lemma bm_find_sound b mem datalen offset r :
  bpat b <> [] -> 0 <= offset -> datalen <= zlen mem -> zlen mem + zlen (bpat b) < 2 ^ 32 - 1 ->
  bm_find up icase b mem datalen offset = Some r -> r <> UINT_MAX ->
  offset <= r /\ occurs (map c (firstn (Z.to_nat datalen) mem)) (bpat b) (Z.to_nat r).
Proof.
  intros NB HO HD HL E NE. unfold bm_find in E. destruct (Z.ltb_spec offset datalen) as [Lo|Lo]; [|injection E as <-; contradiction NE; reflexivity].
  assert (Zn : 0 < zlen (bpat b)) by (unfold zlen; destruct (bpat b); [contradiction NB; reflexivity|cbn; lia]).
  assert (ZM : zlen (skipn (Z.to_nat offset) mem) = zlen mem - offset) by (unfold zlen in *; rewrite skipn_length; lia).
  assert (Zm : 0 <= zlen mem) by (unfold zlen; lia).
  rewrite (w32_small (zlen (bpat b) - 1)) in E by (unfold u32; lia).
  destruct (bm_scan up icase (S (Z.to_nat datalen)) b (skipn (Z.to_nat offset) mem) (datalen - offset) (zlen (bpat b) - 1)) as [[x|sh]|] eqn:Es; [injection E as <-; contradiction NE; reflexivity| |discriminate].
  injection E as <-. apply bm_scan_sound in Es; [|exact NB|lia|lia]. destruct Es as [L H].
  assert (LR : zlen (bpat b) - 1 <= sh).
  { destruct (nth_error (rev (bpat b)) (length (bpat b) - 1)) as [q|] eqn:Nq; [|apply nth_error_None in Nq; rewrite rev_length in Nq; unfold zlen in Zn; lia].
    specialize (H _ _ Nq). apply rd_range in H. unfold zlen in *. lia. }
  rewrite w32_small by (unfold u32; lia). split; [lia|].
  apply ends_occurs; [exact NB|lia|lia|lia|exact H].
Qed.
Lemma bm_ok pattern mem datalen offset P l :
  map c pattern = P ++ [l] -> ~ In l P ->
  0 <= offset <= datalen -> datalen <= zlen mem -> zlen mem + zlen pattern < 2 ^ 32 - 1 ->
  Forall good_byte mem -> Forall good_byte pattern ->
  (icase = true -> forall b, good_byte b -> good_byte (up b) /\ good_byte (low (up b)) /\ (b = up b \/ b = low (up b))) ->
  exists s, bm_prepare up low icase pattern = Some s /\
  let T := map c (firstn (Z.to_nat datalen) mem) in let P := map c pattern in
  (exists j, bm_find up icase s mem datalen offset = Some (Z.of_nat j) /\ leftmost T P (Z.to_nat offset) j) \/
  (bm_find up icase s mem datalen offset = Some UINT_MAX /\ absent T P (Z.to_nat offset)).
Proof.
  intros EL NL HO HM HL GM GP HC. unfold bm_prepare.
  assert (EP : (if icase then map (fun c => w8 (up c)) pattern else pattern) = map c pattern).
  { unfold ch. destruct icase; [|symmetry; apply map_id]. apply map_ext_in. intros a Ha. rewrite Forall_forall in GP. destruct (HC eq_refl a (GP _ Ha)) as [G _]. unfold w8, wrap, good_byte in *. rewrite Z.mod_small; [reflexivity|]. change (2 ^ 8) with 256. lia. }
  rewrite EP. assert (ZL : zlen (map c pattern) = zlen pattern) by (unfold zlen; rewrite map_length; reflexivity).
  assert (Zm : 0 <= zlen mem) by (unfold zlen; lia).
  assert (GQ : forall p, In p (map c pattern) -> good_byte p /\ (icase = true -> good_byte (low p))).
  { intros p Ip. apply in_map_iff in Ip. destruct Ip as (b & <- & Ib). rewrite Forall_forall in GP. specialize (GP _ Ib). unfold ch. destruct icase eqn:Ei; [destruct (HC eq_refl b GP) as (A & B & _); split; [exact A|intros _; exact B]|]. split; [exact GP|discriminate]. }
  set (Q := map c pattern) in *. rewrite <- ZL in HL. clear ZL EP GP. clearbody Q. clear pattern.
  assert (Zn : 0 < zlen Q) by (subst Q; unfold zlen; rewrite app_length; cbn [length]; lia).
  assert (NQ : Q <> []) by (intros X; rewrite X in Zn; unfold zlen in Zn; cbn in Zn; lia).
  destruct (bm_bad_ok (zlen Q) ltac:(lia) (length Q - 1) Q 0 (repeat (zlen Q) 255)) as (bad & -> & LB & RB); [lia|lia|unfold zlen in *; lia|reflexivity| |exact GQ|].
  { intros t d R. unfold rd in R. destruct (Z.ltb t 0); [discriminate|]. apply nth_error_In, repeat_spec in R. lia. }
  destruct (wr_spec _ (repeat (zlen Q) (length Q)) 0 1) as (g0 & -> & LG & RG); [unfold zlen in *; rewrite repeat_length; lia|].
  destruct (bm_outer_ok Q ltac:(lia) (length Q - 1) (zlen Q - 1) 1 g0) as (good & -> & HG); [unfold zlen in *; lia|lia|lia| |].
  { split; [rewrite LG; unfold zlen; rewrite repeat_length; reflexivity|]. split; [rewrite RG; reflexivity|]. intros i d R. rewrite RG in R. destruct (Z.eqb_spec i 0); [injection R as <-; lia|]. unfold rd in R. destruct (Z.ltb i 0); [discriminate|]. apply nth_error_In, repeat_spec in R. lia. }
  eexists. split; [reflexivity|]. cbv zeta. set (T := map c (firstn (Z.to_nat datalen) mem)).
  assert (LT' : length T = Z.to_nat datalen) by (unfold T; rewrite map_length, firstn_length; unfold zlen in HM; lia).
  assert (OT : forall j, occurs T Q j -> (length Q + j <= Z.to_nat datalen)%nat).
  { intros j O. apply (f_equal (@length Z)) in O. rewrite firstn_length, skipn_length, LT' in O. unfold zlen in Zn. lia. }
  unfold bm_find. destruct (Z.ltb_spec offset datalen) as [Lo|Lo].
  2: { right. split; [reflexivity|]. intros i Hi O. apply OT in O. unfold zlen in Zn. lia. }
  set (mem' := skipn (Z.to_nat offset) mem). assert (LM : zlen mem' = zlen mem - offset) by (unfold mem', zlen in *; rewrite skipn_length; lia).
  cbn [bpat]. rewrite (w32_small (zlen Q - 1)) by (unfold u32; lia).
  assert (EO : forall e, zlen Q - 1 <= e < datalen - offset -> (ends Q mem' e <-> occurs T Q (Z.to_nat (offset + e - zlen Q + 1)))).
  { intros e He. apply ends_occurs; [exact NQ|lia|lia|exact He]. }
  destruct (bm_scan_ok Q mem' bad good (datalen - offset)) with (fuel := S (Z.to_nat datalen)) (shift := zlen Q - 1) as [(r & -> & A)|(r & -> & B & O & A)].
  - lia.
  - apply Forall_forall. intros x Ix. rewrite Forall_forall in GM. apply GM. unfold mem' in Ix. rewrite <- (firstn_skipn (Z.to_nat offset) mem). apply in_or_app. right. exact Ix.
  - lia.
  - exact NQ.
  - exact LB.
  - intros t d R. destruct (RB _ _ R) as (D1 & D2). split; [exact D1|]. intros k p Hk N ->.
    assert (Lk : (k < length Q)%nat) by (rewrite <- (rev_length Q); apply nth_error_Some; congruence).
    specialize (D2 (length Q - 1 - k)%nat (c t)). assert (NQk : nth_error Q (length Q - 1 - k) = Some (c t)).
    { assert (RL := rev_length Q). rewrite (nth_error_nth' (rev Q) 0) in N by lia. rewrite (nth_error_nth' Q 0) by lia. rewrite rev_nth in N by lia. replace (length Q - 1 - k)%nat with (length Q - S k)%nat by lia. exact N. }
    assert (BH : bhits (c t) t). { pose proof (rd_range _ _ _ _ R) as Rg. unfold bhits, ch. destruct icase eqn:Ei; [|left; reflexivity]. destruct (HC eq_refl t) as (_ & _ & [H|H]); [unfold good_byte; lia|left; exact H|right; split; [reflexivity|exact H]]. }
    specialize (D2 ltac:(lia) NQk BH). unfold zlen in *. lia.
  - exact HG.
  - intros k p q Hk Np Nq. rewrite EL, rev_app_distr in Np, Nq. cbn [rev app] in Np, Nq. cbn [nth_error] in Nq. injection Nq as <-.
    destruct k as [|k]; [lia|]. cbn [nth_error] in Np. apply nth_error_In, in_rev in Np. intros ->. contradiction.
  - lia.
  - lia.
  - lia.
  - intros e He; lia.
  - right. split; [reflexivity|]. intros i Hi O. pose proof (OT _ O) as Bo.
    apply (A (Z.of_nat i - offset + zlen Q - 1)); [unfold zlen in *; lia|]. apply EO; [unfold zlen in *; lia|].
    replace (Z.to_nat (offset + (Z.of_nat i - offset + zlen Q - 1) - zlen Q + 1)) with i by lia. exact O.
  - left. exists (Z.to_nat (offset + r - zlen Q + 1)). split; [f_equal; rewrite w32_small by (unfold u32; lia); lia|].
    split; [lia|]. split; [apply EO; [lia|exact O]|]. intros i Hi Oi.
    apply (A (Z.of_nat i - offset + zlen Q - 1)); [lia|]. apply EO; [lia|].
    replace (Z.to_nat (offset + (Z.of_nat i - offset + zlen Q - 1) - zlen Q + 1)) with i by lia. exact Oi.
Qed.
End Bm.
