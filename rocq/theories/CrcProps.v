(** * C30, C31: cyclic redundancy checks *)
From Verif Require Import Lib BitsModel BitsProofs BitmapProofs CrcModel CrcSpec CrcProofs CrcProofs2 CrcProofs3.
Ltac Zify.zify_post_hook ::= Z.div_mod_to_equations.

(** ** C30. Byte-at-a-time functions (built without BFDEV_CRC_EXTEND) against bit-serial division. *)
Theorem C30_table_driven : forall a, In a algs -> exists t, crc_table a 1 = Some t /\
  forall l c, bytes l -> 0 <= c < 2 ^ width a -> crc_plain a t l c = Some (crc_spec a l c).
Proof.
  intros a Ha. destruct (table_ok a 1 Ha) as (t & E & L). exists t. split; [exact E|]. intros l c Hl Hc.
  apply (crc_plain_ok a 1 t Ha); [lia|exact L|exact Hl|exact Hc].
Qed.
(** The bit-serial register is the polynomial remainder: the crc of a message [l] from the initial
    value [c] is the polynomial of degree below the width congruent to c x^n + m x^w modulo the
    generator (n bits of message m). The reflected algorithms do the same on reflected data. *)
Theorem C30_remainder : forall a l c, In a algs -> be a = true -> bytes l -> 0 <= c < 2 ^ width a ->
  0 <= crc_spec a l c < 2 ^ width a /\
  congruent (2 ^ width a + poly a) (crc_spec a l c) (Z.lxor (c * 2 ^ (8 * zlen l)) (message l * 2 ^ width a)).
Proof. intros a l c Ha Eb Hl Hc. apply be_remainder; [exact Eb|apply algs_ok; exact Ha|exact Hl|exact Hc]. Qed.
Theorem C30_remainder_reflected : forall a l c, In a algs -> be a = false -> bytes l -> 0 <= c < 2 ^ width a ->
  let w := Z.to_nat (width a) in
  0 <= crc_spec a l c < 2 ^ width a /\
  congruent (2 ^ width a + reflect w (poly a)) (reflect w (crc_spec a l c))
    (Z.lxor (reflect w c * 2 ^ (8 * zlen l)) (message (map (reflect 8) l) * 2 ^ width a)).
Proof.
  intros a l c Ha Eb Hl Hc w. pose proof (algs_ok a Ha) as H. pose proof H as [Hw Hp]. pose proof (okw_pos _ Hw).
  assert (Ew : Z.of_nat w = width a) by (unfold w; lia).
  destruct (table_ok a 1 Ha) as (t & _ & L).
  split; [apply (fold_conj a Ha l c Hl Hc)|].
  unfold w. rewrite (le_mirror a Eb H l c Hl Hc). fold w.
  replace (zlen l) with (zlen (map (reflect 8) l)) by (unfold zlen; rewrite map_length; reflexivity).
  apply (be_remainder (mirror a)).
  - reflexivity.
  - split; [exact Hw|]. cbn [mirror poly width]. pose proof (reflect_range (Z.to_nat (width a)) (poly a)) as R. fold w in R |- *. rewrite Ew in R. exact R.
  - unfold bytes. rewrite Forall_map. apply Forall_forall. intros x _. apply (reflect_range 8 x).
  - unfold reg. cbn [mirror width]. pose proof (reflect_range w c) as R. rewrite Ew in R. exact R.
Qed.
(** Processing a message in two pieces. *)
Theorem C30_compose : forall a, In a algs -> exists t, crc_table a 1 = Some t /\
  forall l1 l2 c, bytes l1 -> bytes l2 -> 0 <= c < 2 ^ width a ->
  crc_plain a t (l1 ++ l2) c = match crc_plain a t l1 c with Some m => crc_plain a t l2 m | None => None end.
Proof.
  intros a Ha. destruct (table_ok a 1 Ha) as (t & E & L). exists t. split; [exact E|]. intros l1 l2 c H1 H2 Hc.
  assert (P : forall l c, bytes l -> 0 <= c < 2 ^ width a -> crc_plain a t l c = Some (crc_spec a l c)).
  { intros l c' Hl Hc'. apply (crc_plain_ok a 1 t Ha); [lia|exact L|exact Hl|exact Hc']. }
  rewrite (P l1), P; [|apply Forall_app; auto|exact Hc|exact H1|exact Hc].
  rewrite P; [|exact H2|apply (fold_conj a Ha l1 c H1 Hc)]. unfold crc_spec. rewrite fold_left_app. reflexivity.
Qed.
Example C30_case : In crc32 algs /\ match crc_table crc32 1 with
  | Some t => crc_plain crc32 t [49; 50; 51; 52; 53; 54; 55; 56; 57] 0xffffffff = Some (Z.lxor 0xcbf43926 0xffffffff)
  | None => False end.
Proof. split; [cbn; tauto|]. vm_compute. reflexivity. Qed.
(** Published check values (the ASCII digits 1 to 9) pin the generator parameters down. *)
Example C30_check_values :
  let d := [49; 50; 51; 52; 53; 54; 55; 56; 57] in
  crc_spec crc7 d 0 = 0x75 * 2 /\ crc_spec crc8 d 0 = 0xf4 /\ crc_spec crc16 d 0 = 0xbb3d /\ crc_spec crc_ccitt d 0 = 0x2189 /\
  Z.lxor (crc_spec crc_rocksoft d (2 ^ 64 - 1)) (2 ^ 64 - 1) = 0xae8b14860a799888.
Proof. cbv zeta. repeat split; vm_compute; reflexivity. Qed.
Example C30_case_be : crc_spec crc_itut [49; 50; 51; 52; 53; 54; 55; 56; 57] 0 = 0x31c3 /\
  crc_spec crc_t10dif [49; 50; 51; 52; 53; 54; 55; 56; 57] 0 = 0xd0db /\ crc_spec crc64 [49; 50; 51; 52; 53; 54; 55; 56; 57] 0 = 0x6c40df5f0b497347.
Proof. repeat split; vm_compute; reflexivity. Qed.

(** CRC-4: whole bytes, and a last partial byte whose low bits are taken as a full byte. *)
Lemma crc4_byte_ok : forall c b, 0 <= c < 16 -> byte b -> crc4_byte c b = Some (crc4_spec_byte c b) /\ 0 <= crc4_spec_byte c b < 16.
Proof.
  assert (C : all_below 16 (fun c => all_below 256 (fun b => match crc4_byte c b with Some v => (v =? crc4_spec_byte c b) && (0 <=? v) && (v <? 16) | None => false end)) = true) by (vm_compute; reflexivity).
  intros c b Hc Hb. pose proof (all_below2_spec 16 256 _ C c b Hc Hb) as E. cbv beta in E.
  destruct (crc4_byte c b) as [v|]; [|discriminate].
  apply andb_prop in E. destruct E as [E E3]. apply andb_prop in E. destruct E as [E1 E2].
  apply Z.eqb_eq in E1. apply Z.leb_le in E2. apply Z.ltb_lt in E3. rewrite <- E1. auto.
Qed.
Definition crc4_data (src : list Z) (bits : Z) : list Z :=
  firstn (Z.to_nat (bits / 8)) src ++ (if bits mod 8 =? 0 then [] else [nth (Z.to_nat (bits / 8)) src 0 mod 2 ^ (bits mod 8)]).
Lemma crc4_mask bits b : 0 < bits < 32 -> Z.land (LOW_MASK bits) b = b mod 2 ^ bits.
Proof.
  intros Hb. rewrite Z.land_comm. apply land_ones'; [lia|]. unfold LOW_MASK. change ULONG_MAX with (Z.ones 64).
      change 63 with (Z.ones 6). rewrite Z.land_ones by lia. unfold w64. rewrite <- Znumtheory.Zmod_div_mod; [|lia|lia|exists (2 ^ 58); lia].
      replace ((- bits) mod 2 ^ 6) with (64 - bits) by lia. rewrite Z.shiftr_div_pow2 by lia.
      rewrite !Z.ones_equiv. assert (2 ^ 64 = 2 ^ bits * 2 ^ (64 - bits)) by (rewrite <- Z.pow_add_r by lia; f_equal; lia).
      symmetry. apply (Z.div_unique _ _ _ (2 ^ (64 - bits) - 1)); [left; pose proof (Z.pow_pos_nonneg 2 (64 - bits)); lia|]. nia.
Qed.
Lemma fold_left_cons {A B} (f : A -> B -> A) b l c : fold_left f (b :: l) c = fold_left f l (f c b).
Proof. reflexivity. Qed.
Lemma crc4_spec_cons b l c : crc4_spec (b :: l) c = crc4_spec l (crc4_spec_byte c b).
Proof. unfold crc4_spec. rewrite fold_left_cons. reflexivity. Qed.
Lemma crc4_spec_nil c : crc4_spec [] c = c.
Proof. reflexivity. Qed.
Lemma crc4_tail_S fuel b src bits c : 0 < bits -> crc4_tail (S fuel) (b :: src) bits c =
  match crc4_byte c (w8 (Z.land (LOW_MASK bits) b)) with Some c' => crc4_tail fuel src (bits - Z.min bits 8) c' | None => None end.
Proof. intros H. cbn [crc4_tail]. destruct (Z.eqb_spec (Z.min bits 8) 0); [lia|]. reflexivity. Qed.
Lemma crc4_tail_0 fuel src c : crc4_tail (S fuel) src 0 c = Some c.
Proof. reflexivity. Qed.
Lemma crc4_inline_S b0 b1 b2 b3 src bits c : 32 <= bits -> crc4_inline (b0 :: b1 :: b2 :: b3 :: src) bits c =
  match crc4_byte c b0 with Some c => match crc4_byte c b1 with Some c => match crc4_byte c b2 with Some c =>
  match crc4_byte c b3 with Some c => crc4_inline src (bits - 32) c | None => None end | None => None end | None => None end | None => None end.
Proof. intros H. cbn [crc4_inline]. destruct (Z.leb_spec 32 bits); [|lia]. reflexivity. Qed.
Lemma crc4_inline_low src bits c : bits < 32 -> crc4_inline src bits c = crc4_tail 5 src bits c.
Proof. intros H. destruct src as [|b0 [|b1 [|b2 [|b3 src]]]]; cbn [crc4_inline]; destruct (Z.leb_spec 32 bits); try lia; reflexivity. Qed.
Lemma crc4_tail_ok : forall fuel src bits c, bytes src -> 0 <= c < 16 -> 0 <= bits < 8 * Z.of_nat fuel - 7 -> bits < 32 -> bits <= 8 * zlen src ->
  crc4_tail fuel src bits c = Some (crc4_spec (crc4_data src bits) c).
Proof.
  induction fuel as [|fuel IH]; intros src bits c Hs Hc Hb H32 Hl; [lia|].
  destruct (Z.eq_dec bits 0).
  - subst bits. rewrite crc4_tail_0. unfold crc4_data. cbn [firstn Z.to_nat Z.div Z.div_eucl Z.modulo Z.eqb app]. rewrite crc4_spec_nil. reflexivity.
  - destruct src as [|b src]; [unfold zlen in Hl; cbn in Hl; lia|]. rewrite zlen_cons in Hl.
    assert (Hb0 := Forall_inv Hs). assert (Hs0 := Forall_inv_tail Hs).
    rewrite crc4_tail_S by lia. assert (Em := crc4_mask bits b ltac:(lia)).
    rewrite Em.
    assert (Hm : byte (b mod 2 ^ bits)).
    { unfold byte in *. pose proof (Z.pow_pos_nonneg 2 bits ltac:(lia) ltac:(lia)). split; [apply Z.mod_pos_bound; lia|]. pose proof (Z.mod_le b (2 ^ bits)). lia. }
    unfold w8. rewrite (Z.mod_small (b mod 2 ^ bits)) by exact Hm.
    destruct (crc4_byte_ok c (b mod 2 ^ bits) Hc Hm) as [-> Rc].
    destruct (Z.le_gt_cases 8 bits).
    + replace (Z.min bits 8) with 8 by lia. rewrite IH; [|assumption|assumption|lia|lia|lia].
      assert (Eb : b mod 2 ^ bits = b).
      { apply Z.mod_small. unfold byte in Hb0. pose proof (Z.pow_le_mono_r 2 8 bits). lia. }
      rewrite Eb. unfold crc4_data. replace (Z.to_nat (bits / 8)) with (S (Z.to_nat ((bits - 8) / 8))) by lia.
      cbn [firstn nth app]. replace ((bits - 8) mod 8) with (bits mod 8) by lia. rewrite crc4_spec_cons. reflexivity.
    + replace (Z.min bits 8) with bits by lia. rewrite Z.sub_diag.
      destruct fuel as [|fuel]; [lia|]. rewrite crc4_tail_0.
      unfold crc4_data. replace (Z.to_nat (bits / 8)) with O by lia. replace (bits mod 8) with bits by lia.
      destruct (Z.eqb_spec bits 0); [lia|]. cbn [firstn nth app]. rewrite crc4_spec_cons, crc4_spec_nil. reflexivity.
Qed.
Theorem C30_crc4 : forall src bits c, bytes src -> 0 <= c < 16 -> 0 <= bits <= 8 * zlen src ->
  crc4_inline src bits c = Some (crc4_spec (crc4_data src bits) c).
Proof.
  assert (G : forall n src bits c, (length src < n)%nat -> bytes src -> 0 <= c < 16 -> 0 <= bits <= 8 * zlen src ->
    crc4_inline src bits c = Some (crc4_spec (crc4_data src bits) c)).
  { induction n as [|n IH]; intros src bits c Hn Hs Hc Hb; [lia|].
    destruct (Z.le_gt_cases 32 bits); [|rewrite crc4_inline_low by lia; apply crc4_tail_ok; [exact Hs|exact Hc|lia|lia|lia]].
    destruct src as [|b0 [|b1 [|b2 [|b3 src]]]]; try (unfold zlen in Hb; cbn [length] in Hb; lia). rewrite crc4_inline_S by lia.
    assert (H0 := Forall_inv Hs). assert (S1 := Forall_inv_tail Hs). assert (H1 := Forall_inv S1). assert (S2 := Forall_inv_tail S1).
    assert (H2 := Forall_inv S2). assert (S3 := Forall_inv_tail S2). assert (H3 := Forall_inv S3). assert (S4 := Forall_inv_tail S3).
    destruct (crc4_byte_ok c b0 Hc H0) as [-> R0]. destruct (crc4_byte_ok _ b1 R0 H1) as [-> R1].
    destruct (crc4_byte_ok _ b2 R1 H2) as [-> R2]. destruct (crc4_byte_ok _ b3 R2 H3) as [-> R3].
    rewrite !zlen_cons in Hb. rewrite IH; [|cbn [length] in Hn; lia|exact S4|exact R3|lia].
    f_equal. unfold crc4_data. replace (Z.to_nat (bits / 8)) with (S (S (S (S (Z.to_nat ((bits - 32) / 8)))))) by lia.
    cbn [firstn nth app]. replace ((bits - 32) mod 8) with (bits mod 8) by lia. rewrite !crc4_spec_cons. reflexivity. }
  intros src bits c. apply (G (S (length src))). lia.
Qed.
Example C30_crc4_case : crc4_inline [0x12; 0x34; 0x56; 0x78; 0x9a] 36 3 = Some 1.
Proof. vm_compute. reflexivity. Qed.
Print Assumptions C30_table_driven.
Print Assumptions C30_remainder.
Print Assumptions C30_remainder_reflected.
Print Assumptions C30_compose.
Print Assumptions C30_crc4.

(** ** C31. Eight bytes per step (the default build). Exact for every register of at most 32 bits,
    every address of the buffer and every length. Missing: the 64-bit algorithms, refuted below. *)
Theorem C31_slice_by_8_partial : forall a, In a algs -> width a <= 32 -> exists t1 t8,
  crc_table a 1 = Some t1 /\ crc_table a 8 = Some t8 /\
  forall addr l c, bytes l -> 0 <= c < 2 ^ width a -> crc_extend a t8 addr l c = crc_plain a t1 l c.
Proof.
  intros a Ha Hw. destruct (table_ok a 1 Ha) as (t1 & E1 & L1). destruct (table_ok a 8 Ha) as (t8 & E8 & L8).
  exists t1, t8. split; [exact E1|]. split; [exact E8|]. intros addr l c Hl Hc.
  rewrite (crc_plain_ok a 1 t1 Ha); [|lia|exact L1|exact Hl|exact Hc].
  apply (crc_extend_ok a 8 t8 Ha); [lia|exact L8|reflexivity|exact Hw|exact Hl|exact Hc].
Qed.
Example C31_case : In crc_t10dif algs /\ width crc_t10dif <= 32.
Proof. split; [cbn; tauto|cbn; lia]. Qed.
(** With a 64-bit register the upper half is dropped at every eight byte step. *)
Definition differ (x y : option Z) : bool := match x, y with Some a, Some b => negb (a =? b) | _, _ => false end.
Lemma differ_ok x y : differ x y = true -> x <> y.
Proof. destruct x, y; cbn; try discriminate. destruct (Z.eqb_spec z z0); [discriminate|]. congruence. Qed.
Theorem C31_crc64_refuted : exists t1 t8 l, crc_table crc64 1 = Some t1 /\ crc_table crc64 8 = Some t8 /\ bytes l /\
  crc_extend crc64 t8 0 l 1 <> crc_plain crc64 t1 l 1.
Proof.
  assert (C : match crc_table crc64 1, crc_table crc64 8 with
    | Some t1, Some t8 => differ (crc_extend crc64 t8 0 [0; 0; 0; 0; 0; 0; 0; 0] 1) (crc_plain crc64 t1 [0; 0; 0; 0; 0; 0; 0; 0] 1)
    | _, _ => false end = true) by (vm_compute; reflexivity).
  destruct (crc_table crc64 1) as [t1|]; [|discriminate C]. destruct (crc_table crc64 8) as [t8|]; [|discriminate C].
  exists t1, t8, [0; 0; 0; 0; 0; 0; 0; 0]. split; [reflexivity|]. split; [reflexivity|].
  split; [repeat constructor; lia|]. apply differ_ok. exact C.
Qed.
Theorem C31_rocksoft_refuted : exists t1 t8 l, crc_table crc_rocksoft 1 = Some t1 /\ crc_table crc_rocksoft 8 = Some t8 /\ bytes l /\
  crc_extend crc_rocksoft t8 0 l (2 ^ 64 - 1) <> crc_plain crc_rocksoft t1 l (2 ^ 64 - 1).
Proof.
  assert (C : match crc_table crc_rocksoft 1, crc_table crc_rocksoft 8 with
    | Some t1, Some t8 => differ (crc_extend crc_rocksoft t8 0 [0; 0; 0; 0; 0; 0; 0; 0] (2 ^ 64 - 1)) (crc_plain crc_rocksoft t1 [0; 0; 0; 0; 0; 0; 0; 0] (2 ^ 64 - 1))
    | _, _ => false end = true) by (vm_compute; reflexivity).
  destruct (crc_table crc_rocksoft 1) as [t1|]; [|discriminate C]. destruct (crc_table crc_rocksoft 8) as [t8|]; [|discriminate C].
  exists t1, t8, [0; 0; 0; 0; 0; 0; 0; 0]. split; [reflexivity|]. split; [reflexivity|].
  split; [repeat constructor; lia|]. apply differ_ok. exact C.
Qed.
Print Assumptions C31_slice_by_8_partial.
Print Assumptions C31_crc64_refuted.
Print Assumptions C31_rocksoft_refuted.
