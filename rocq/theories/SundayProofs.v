(** * Proofs about the Sunday and Boyer-Moore searches *)
From Coq Require Import Lia.
From Verif Require Import Lib TextModel TextSpec KmpProofs.
Section Sunday.
Variables (up low : Z -> Z) (icase : bool).
Definition good_byte (c : Z) : Prop := 0 <= c < 255.
Definition hits (p t : Z) : Prop := t = p \/ (icase = true /\ t = low p).
Lemma prefix_table len : 0 <= len < 2 ^ 32 - 1 -> forall pat index tab,
  0 <= index -> index + zlen pat = len -> zlen tab = 255 ->
  (forall t d, rd tab t = Some d -> len - index + 1 <= d <= len + 1) ->
  (forall p, In p pat -> good_byte p /\ (icase = true -> good_byte (low p))) ->
  exists tab', sunday_prefix low icase len pat index tab = Some tab' /\ zlen tab' = 255 /\
    forall t d, rd tab' t = Some d -> 1 <= d /\ (forall d0, rd tab t = Some d0 -> d <= d0) /\
      forall j p, nth_error pat j = Some p -> hits p t -> d <= len - (index + Z.of_nat j).
Proof.
  intros HL. induction pat as [|p pat IH]; intros index tab Hi E HT HB HP.
  - exists tab. cbn. split; [reflexivity|]. split; [exact HT|]. intros t d R. unfold zlen in E. cbn in E. split; [specialize (HB _ _ R); lia|]. split; [intros d0 R0; assert (d = d0) by congruence; lia|]. intros [|j] p N; discriminate N.
  - assert (E' : zlen (p :: pat) = zlen pat + 1) by (unfold zlen; cbn [length]; lia). assert (Zp : 0 <= zlen pat) by (unfold zlen; lia).
    destruct (HP p (or_introl eq_refl)) as [Gp Gl]. cbn [sunday_prefix]. rewrite (w32_small (len - index)) by (unfold u32; lia).
    destruct (wr_spec _ tab p (len - index)) as (t1 & -> & L1 & R1); [unfold good_byte in Gp; lia|].
    assert (exists t2, (if icase then wr t1 (low p) (len - index) else Some t1) = Some t2 /\ zlen t2 = 255 /\ forall t d, rd t2 t = Some d -> len - index <= d <= len + 1 /\ (forall d0, rd tab t = Some d0 -> d <= d0) /\ (hits p t -> d = len - index)) as (t2 & -> & L2 & R2).
    { destruct icase eqn:Ei.
      - destruct (wr_spec _ t1 (low p) (len - index)) as (t2 & -> & L2 & R2); [specialize (Gl eq_refl); unfold good_byte in Gl; lia|]. exists t2. split; [reflexivity|]. split; [lia|]. intros t d R. rewrite R2 in R. unfold hits. rewrite R1 in R.
        destruct (Z.eqb_spec t (low p)) as [->|N1]; [injection R as <-; split; [lia|]; split; [intros d0 R0; specialize (HB _ _ R0); lia|reflexivity]|].
        destruct (Z.eqb_spec t p) as [->|N2]; [injection R as <-; split; [lia|]; split; [intros d0 R0; specialize (HB _ _ R0); lia|reflexivity]|].
        split; [specialize (HB _ _ R); lia|]. split; [intros d0 R0; assert (d = d0) by congruence; lia|]. intros [|[_ ?]]; contradiction.
      - exists t1. split; [reflexivity|]. split; [lia|]. intros t d R. unfold hits. rewrite R1 in R.
        destruct (Z.eqb_spec t p) as [->|N2]; [injection R as <-; split; [lia|]; split; [intros d0 R0; specialize (HB _ _ R0); lia|reflexivity]|].
        split; [specialize (HB _ _ R); lia|]. split; [intros d0 R0; assert (d = d0) by congruence; lia|]. rewrite Ei. intros [|[? _]]; [contradiction|discriminate]. }
    destruct (IH (index + 1) t2) as (tab' & -> & L' & R'); [lia|lia|exact L2| |intros q Q; apply HP; right; exact Q|].
    { intros t d R. destruct (R2 _ _ R) as [B _]. lia. }
    exists tab'. split; [reflexivity|]. split; [exact L'|]. intros t d R. destruct (R' _ _ R) as (D1 & D2 & D3). destruct (rd_some _ t2 t) as (d2 & Q); [rewrite L2, <- L'; eapply rd_range; exact R|]. specialize (D2 _ Q). destruct (R2 _ _ Q) as (_ & B & C). split; [exact D1|]. split.
    + intros d0 R0. specialize (B _ R0). lia.
    + intros [|j] q N Hh; cbn in N; [injection N as <-; specialize (C Hh); lia|]. specialize (D3 _ _ N Hh). lia.
Qed.
Notation c := (ch up icase).
(** the comparison *)
Lemma cmp_ok mem : forall pat pos, 0 <= pos -> pos + zlen pat <= zlen mem ->
  exists n, sunday_cmp up icase pat mem pos = Some n /\ 0 <= n <= zlen pat /\ (n = zlen pat <-> firstn (length pat) (skipn (Z.to_nat pos) (map c mem)) = pat).
Proof.
  induction pat as [|p pat IH]; intros pos Hp L.
  - exists 0. cbn. unfold zlen. cbn. split; [reflexivity|]. split; [lia|]. split; reflexivity.
  - assert (E' : zlen (p :: pat) = zlen pat + 1) by (unfold zlen; cbn [length]; lia). assert (Zp : 0 <= zlen pat) by (unfold zlen; lia).
    cbn [sunday_cmp]. destruct (rd_some _ mem pos) as (t & R); [lia|]. rewrite R. fold (ch up icase t).
    assert (Sk : skipn (Z.to_nat pos) (map c mem) = c t :: skipn (Z.to_nat (pos + 1)) (map c mem)).
    { unfold rd in R. rewrite (proj2 (Z.ltb_ge _ _)) in R by lia. replace (Z.to_nat (pos + 1)) with (S (Z.to_nat pos)) by lia. revert R. generalize (Z.to_nat pos). clear. intros n. revert mem. induction n as [|n IH]; intros [|x l] R; try discriminate R; [injection R as ->; reflexivity|]. cbn [map skipn]. apply IH. exact R. }
    rewrite Sk. destruct (IH (pos + 1) ltac:(lia) ltac:(lia)) as (n & En & Bn & Cn). destruct (Z.eqb_spec p (c t)) as [->|N].
    + rewrite En. exists (n + 1). split; [reflexivity|]. split; [lia|]. cbn [length firstn]. split.
      * intros H. f_equal. apply Cn. lia.
      * intros H. injection H as H. apply Cn in H. lia.
    + exists 0. split; [reflexivity|]. split; [lia|]. cbn [length firstn]. split; [lia|]. intros H. injection H as H _. congruence.
Qed.
(** the shifts *)
Section Scan.
Variables (pat mem tab : list Z) (length_ : Z).
Hypothesis HM : 0 <= length_ < zlen mem.
Hypothesis HB : Forall good_byte mem.
Hypothesis HL : zlen mem + zlen pat < 2 ^ 32 - 1.
Hypothesis HT : zlen tab = 255.
Hypothesis HD : forall t d, rd tab t = Some d -> 1 <= d <= zlen pat + 1 /\ forall j p, nth_error pat j = Some p -> p = c t -> d <= zlen pat - Z.of_nat j.
Notation T := (map c (firstn (Z.to_nat length_) mem)).
Notation s0 := {| spat := pat; stab := tab |}.
Lemma occ_bound j : occurs T pat j -> (length pat + j <= Z.to_nat length_)%nat \/ pat = [].
Proof. intros O. destruct pat as [|p l] eqn:E; [right; reflexivity|left]. unfold occurs in O. apply (f_equal (@length Z)) in O. rewrite firstn_length, skipn_length, map_length, firstn_length in O. cbn [length] in *. lia. Qed.
Lemma firstn_skipn_firstn A : forall (l : list A) n j k, (j + k <= n)%nat -> firstn k (skipn j (firstn n l)) = firstn k (skipn j l).
Proof. intros l n j k H. rewrite skipn_firstn_comm, firstn_firstn. f_equal. lia. Qed.
Lemma scan_ok : forall fuel shift, 0 <= shift -> length_ - shift < Z.of_nat fuel -> (forall i, (i < Z.to_nat shift)%nat -> (length pat + i <= Z.to_nat length_)%nat -> ~ occurs T pat i) ->
  (exists r, sunday_scan up icase fuel s0 mem length_ shift = Some (inl r) /\ forall i, (length pat + i <= Z.to_nat length_)%nat -> ~ occurs T pat i) \/
  (exists r, sunday_scan up icase fuel s0 mem length_ shift = Some (inr (Z.of_nat r)) /\ (length pat + r <= Z.to_nat length_)%nat /\ leftmost T pat 0 r).
Proof.
  assert (Zp : 0 <= zlen pat) by (unfold zlen; lia).
  induction fuel as [|fuel IH]; intros shift Hs F A; cbn [sunday_scan spat stab].
  - rewrite (proj2 (Z.leb_gt _ _)) by lia. left. exists shift. split; [reflexivity|]. intros i Hi. apply A; unfold zlen in *; lia.
  - destruct (Z.leb_spec (zlen pat + shift) length_) as [Le|Gt].
    2: { left. exists shift. split; [reflexivity|]. intros i Hi. apply A; unfold zlen in *; lia. }
    destruct (cmp_ok mem pat shift Hs ltac:(lia)) as (n & -> & Bn & Cn).
    assert (O : occurs T pat (Z.to_nat shift) <-> n = zlen pat).
    { rewrite Cn. unfold occurs. rewrite <- firstn_map. rewrite firstn_skipn_firstn by (unfold zlen in *; lia). reflexivity. }
    destruct (Z.eqb_spec n (zlen pat)) as [En|Nn].
    + right. exists (Z.to_nat shift). rewrite Z2Nat.id by lia. split; [reflexivity|]. split; [unfold zlen in *; lia|]. split; [lia|]. split; [apply O; exact En|]. intros i Hi. apply A; unfold zlen in *; lia.
    + destruct (Z.leb_spec length_ (zlen pat)) as [Le2|Gt2].
      * left. exists shift. split; [reflexivity|]. intros i Hi. assert (i = Z.to_nat shift) by (unfold zlen in *; lia). subst i. rewrite O. exact Nn.
      * destruct (rd_some _ mem (shift + zlen pat)) as (t & Rt); [lia|]. rewrite Rt.
        assert (Gt : good_byte t). { unfold rd in Rt. rewrite (proj2 (Z.ltb_ge _ _)) in Rt by lia. apply nth_error_In in Rt. rewrite Forall_forall in HB. apply HB, Rt. }
        destruct (rd_some _ tab t) as (d & Rd); [unfold good_byte in Gt; lia|]. rewrite Rd. destruct (HD _ _ Rd) as [Bd Cd]. rewrite w32_small by (unfold u32; lia).
        apply IH; [lia|lia|]. intros i Hi Hl Oi. destruct (Z_lt_ge_dec (Z.of_nat i) shift) as [Hlt|Hge]; [apply (A i); [lia|exact Hl|exact Oi]|].
        destruct (Z.eq_dec (Z.of_nat i) shift) as [Heq|Hne]; [apply Nn, O; replace (Z.to_nat shift) with i by lia; exact Oi|].
        set (j := Z.to_nat (shift + zlen pat - Z.of_nat i)). assert (Hj : (j < length pat)%nat) by (unfold j, zlen in *; lia).
        assert (Ej : (i + j)%nat = Z.to_nat (shift + zlen pat)) by (unfold j; lia). assert (Ej2 : Z.of_nat j = shift + zlen pat - Z.of_nat i) by (unfold j; lia). clearbody j. destruct (nth_error pat j) as [p|] eqn:Np; [|apply nth_error_None in Np; lia].
        assert (p = c t).
        { assert (Np' := Np). rewrite <- Oi in Np'. rewrite <- firstn_map, firstn_skipn_firstn in Np' by lia.
          assert (X : nth_error (firstn (length pat) (skipn i (map c mem))) j = nth_error (map c mem) (i + j)).
          { clear - Hj. revert Hj. generalize (length pat). generalize (map c mem). intros l k. revert i j l. induction k as [|k IHk]; intros i j l H; [lia|]. revert l. induction i as [|i IHi]; intros l.
            - cbn [skipn Nat.add]. destruct l as [|x l]; [destruct j; reflexivity|]. cbn [firstn]. destruct j as [|j]; [reflexivity|]. cbn [nth_error]. exact (IHk 0%nat j l ltac:(lia)).
            - destruct l as [|x l]; [cbn; destruct j; reflexivity|]. cbn [skipn Nat.add nth_error]. apply IHi. }
          rewrite X in Np'. unfold rd in Rt. rewrite (proj2 (Z.ltb_ge _ _)) in Rt by lia. rewrite Ej in Np'. rewrite (map_nth_error _ _ _ Rt) in Np'. congruence. }
        specialize (Cd _ _ Np H). lia.
Qed.
End Scan.
Lemma sunday_ok pattern mem datalen offset :
  pattern <> [] -> 0 <= offset <= datalen -> datalen < zlen mem -> zlen mem + zlen pattern < 2 ^ 32 - 1 ->
  Forall good_byte mem -> Forall good_byte pattern ->
  (icase = true -> forall b, good_byte b -> good_byte (up b) /\ good_byte (low (up b)) /\ (b = up b \/ b = low (up b))) ->
  exists s, sunday_prepare up low icase pattern = Some s /\
  let T := map c (firstn (Z.to_nat datalen) mem) in let P := map c pattern in
  (exists j, sunday_find up icase s mem datalen offset = Some (Z.of_nat j) /\ leftmost T P (Z.to_nat offset) j) \/
  (sunday_find up icase s mem datalen offset = Some UINT_MAX /\ absent T P (Z.to_nat offset)).
Proof.
  intros NP HO HM HL GM GP HC. unfold sunday_prepare.
  assert (EP : (if icase then map (fun c => w8 (up c)) pattern else pattern) = map c pattern).
  { unfold ch. destruct icase; [|symmetry; apply map_id]. apply map_ext_in. intros a Ha. rewrite Forall_forall in GP. destruct (HC eq_refl a (GP _ Ha)) as [G _]. unfold w8, wrap, good_byte in *. rewrite Z.mod_small; [reflexivity|]. change (2 ^ 8) with 256. lia. }
  rewrite EP. assert (ZL : zlen (map c pattern) = zlen pattern) by (unfold zlen; rewrite map_length; reflexivity).
  assert (Zn : 0 < zlen pattern) by (unfold zlen; destruct pattern; [contradiction NP; reflexivity|cbn; lia]).
  assert (Zm : 0 <= zlen mem) by (unfold zlen; lia).
  rewrite (w32_small (zlen pattern + 1)) by (unfold u32; lia).
  destruct (prefix_table (zlen pattern) ltac:(lia) (map c pattern) 0 (repeat (zlen pattern + 1) 255)) as (tab & -> & LT & RT); [lia|lia|reflexivity| | |].
  { intros t d R. unfold rd in R. destruct (Z.ltb t 0); [discriminate|]. apply nth_error_In, repeat_spec in R. lia. }
  { intros p Ip. apply in_map_iff in Ip. destruct Ip as (b & <- & Ib). rewrite Forall_forall in GP. specialize (GP _ Ib). unfold ch. destruct icase eqn:Ei; [destruct (HC eq_refl b GP) as (A & B & _); split; [exact A|intros _; exact B]|]. split; [exact GP|discriminate]. }
  eexists. split; [reflexivity|]. cbv zeta. set (T := map c (firstn (Z.to_nat datalen) mem)). set (P := map c pattern) in *.
  assert (LPn : length P = length pattern) by apply map_length.
  assert (LT' : length T = Z.to_nat datalen) by (unfold T; rewrite map_length, firstn_length; unfold zlen in HM; lia).
  assert (OT : forall j, occurs T P j -> (length P + j <= Z.to_nat datalen)%nat).
  { intros j O. apply (f_equal (@length Z)) in O. rewrite firstn_length, skipn_length, LT' in O. unfold zlen in Zn. lia. }
  unfold sunday_find. destruct (Z.ltb_spec offset datalen) as [Lo|Lo].
  2: { right. split; [reflexivity|]. intros i Hi O. apply OT in O. unfold zlen in Zn. lia. }
  set (mem' := skipn (Z.to_nat offset) mem). assert (LM : zlen mem' = zlen mem - offset) by (unfold mem', zlen in *; rewrite skipn_length; lia).
  assert (ET : map c (firstn (Z.to_nat (datalen - offset)) mem') = skipn (Z.to_nat offset) T).
  { unfold mem', T. rewrite skipn_map'. f_equal. rewrite skipn_firstn_comm. f_equal. lia. }
  assert (OK : forall i, occurs (skipn (Z.to_nat offset) T) P i <-> occurs T P (Z.to_nat offset + i)) by (intros i; unfold occurs; rewrite skipn_skipn'; reflexivity).
  destruct (scan_ok P mem' tab (datalen - offset) ltac:(lia)) with (fuel := S (Z.to_nat datalen)) (shift := 0) as [(r & -> & A)|(r & -> & B & L1 & L2 & L3)].
  - apply Forall_forall. intros x Ix. rewrite Forall_forall in GM. apply GM. unfold mem' in Ix. rewrite <- (firstn_skipn (Z.to_nat offset) mem). apply in_or_app. right. exact Ix.
  - lia.
  - exact LT.
  - intros t d R. destruct (RT _ _ R) as (D1 & D2 & D3). pose proof (rd_range _ _ _ _ R) as Rg. split; [split; [exact D1|]|].
    + rewrite ZL. destruct (rd_some _ (repeat (zlen pattern + 1) 255) t) as (d0 & R0); [change (zlen (repeat (zlen pattern + 1) 255)) with 255; lia|]. specialize (D2 _ R0). unfold rd in R0. destruct (Z.ltb t 0); [discriminate|]. apply nth_error_In, repeat_spec in R0. lia.
    + intros j p N ->. rewrite ZL. specialize (D3 _ _ N). rewrite Z.add_0_l in D3. apply D3. unfold hits, ch. destruct icase eqn:Ei; [|left; reflexivity]. destruct (HC eq_refl t) as (_ & _ & [H|H]); [unfold good_byte; lia|left; exact H|right; split; [reflexivity|exact H]].
  - lia.
  - lia.
  - intros i Hi. lia.
  - right. split; [reflexivity|]. intros i Hi O. pose proof (OT _ O) as Bo. apply (A (i - Z.to_nat offset)%nat); [lia|]. rewrite ET. apply OK. replace (Z.to_nat offset + (i - Z.to_nat offset))%nat with i by lia. exact O.
  - left. exists (Z.to_nat offset + r)%nat. rewrite ET in *. split; [f_equal; rewrite w32_small by (unfold u32; lia); lia|]. split; [lia|]. split; [apply OK, L2|]. intros i Hi O. apply (L3 (i - Z.to_nat offset)%nat); [lia|]. apply OK. replace (Z.to_nat offset + (i - Z.to_nat offset))%nat with i by lia. exact O.
Qed.
End Sunday.
