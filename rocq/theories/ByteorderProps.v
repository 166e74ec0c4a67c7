(** * Byte order: the claims *)
From Verif Require Import Lib BitsModel BitsSpec BitsProofs BitsProps ByteorderModel ByteorderSpec ByteorderProofs.

Ltac Zify.zify_post_hook ::= Z.div_mod_to_equations.

Lemma width_nat : forall w, width w -> Z.of_nat (Z.to_nat (w / 8)) = w / 8 /\ 256 ^ (w / 8) = 2 ^ w.
Proof. intros w [-> | [-> | ->]]; split; reflexivity. Qed.

Lemma host_bytes_len : forall big n v, length (host_bytes big n v) = n.
Proof. intros [|] n v; unfold host_bytes; rewrite ?rev_length; apply bytes_le_len. Qed.
Lemma host_bytes_nth : forall big n v k, (k < n)%nat ->
  nth_error (host_bytes big n v) k = Some (byte_of v (if big then Z.of_nat n - 1 - Z.of_nat k else Z.of_nat k)).
Proof.
  intros [|] n v k Hk; unfold host_bytes.
  - rewrite rev_nth_error by (rewrite bytes_le_len; lia). rewrite bytes_le_len, bytes_le_nth by lia. f_equal. f_equal. lia.
  - apply bytes_le_nth. lia.
Qed.
Lemma host_value_bytes : forall big n v, 0 <= v < 256 ^ Z.of_nat n -> host_value big (host_bytes big n v) = v.
Proof. intros [|] n v Hv; unfold host_value, host_bytes; rewrite ?rev_involutive; apply value_bytes; exact Hv. Qed.

(** what a native store and load do *)
Definition holds_host (big : bool) (m : list Z) (p n v : Z) : Prop := if big then holds_be m p n v else holds_le m p n v.

Lemma set_type_ok : forall big w m p v, width w -> 0 <= p -> p + w / 8 <= zlen m ->
  exists m', set_type big w m p v = Some m' /\ holds_host big m' p (w / 8) (v mod 2 ^ w) /\ same_but m m' p (w / 8).
Proof.
  intros big w m p v W Hp Hl. destruct (width_nat w W) as [N _].
  assert (ZL : zlen (host_bytes big (Z.to_nat (w / 8)) (wrap w v)) = w / 8) by (unfold zlen; rewrite host_bytes_len; exact N).
  destruct (mwrite_ok (host_bytes big (Z.to_nat (w / 8)) (wrap w v)) m p Hp ltac:(lia)) as (m' & E & L & R).
  rewrite ZL in R.
  exists m'. split; [exact E|].
  assert (H : forall k, 0 <= k < w / 8 -> rd m' (p + k) = Some (byte_of (v mod 2 ^ w) (if big then w / 8 - 1 - k else k))).
  { intros k Hk. rewrite R. replace (p <=? p + k) with true by (symmetry; apply Z.leb_le; lia).
    replace (p + k <? p + w / 8) with true by (symmetry; apply Z.ltb_lt; lia). cbn [andb].
    replace (p + k - p) with k by lia. rewrite host_bytes_nth by lia. unfold wrap. rewrite N, Z2Nat.id by lia. reflexivity. }
  split; [destruct big; exact H|]. split; [exact L|]. intros i Hi. rewrite R.
  replace ((p <=? i) && (i <? p + w / 8)) with false; [reflexivity|]. symmetry. apply andb_false_iff.
  destruct (Z.leb_spec p i); [right; apply Z.ltb_ge; lia|left; reflexivity].
Qed.

Lemma get_type_ok : forall big w m p v, width w -> 0 <= v < 2 ^ w -> holds_host big m p (w / 8) v ->
  get_type big w m p = Some v.
Proof.
  intros big w m p v W Hv H. destruct (width_nat w W) as [N P]. unfold get_type.
  assert (E : mread m p (length (host_bytes big (Z.to_nat (w / 8)) v)) = Some (host_bytes big (Z.to_nat (w / 8)) v)).
  { apply mread_ok. rewrite host_bytes_len. intros k Hk. rewrite host_bytes_nth by lia. rewrite N.
    destruct big; [exact (H (Z.of_nat k) ltac:(lia))|exact (H (Z.of_nat k) ltac:(lia))]. }
  rewrite host_bytes_len in E. rewrite E. f_equal. apply host_value_bytes. rewrite N, P. exact Hv.
Qed.

Lemma get_type_some : forall big w m p, width w -> bytes m -> 0 <= p -> p + w / 8 <= zlen m ->
  exists v, get_type big w m p = Some v /\ 0 <= v < 2 ^ w /\ holds_host big m p (w / 8) v.
Proof.
  intros big w m p W B Hp Hl. destruct (width_nat w W) as [N P].
  destruct (mread_some (Z.to_nat (w / 8)) m p Hp ltac:(lia)) as (bs & E & L & R).
  assert (Hbs : bytes bs).
  { apply Forall_forall. intros x Hx. apply In_nth_error in Hx. destruct Hx as [k Hk].
    assert (k < length bs)%nat by (apply nth_error_Some; congruence). rewrite R in Hk by lia. apply rd_in in Hk.
    unfold bytes in B. rewrite Forall_forall in B. auto. }
  unfold get_type. rewrite E. exists (host_value big bs). split; [reflexivity|].
  assert (L2 : zlen bs = w / 8) by (unfold zlen; rewrite L; exact N).
  assert (L3 : length (rev bs) = Z.to_nat (w / 8)) by (rewrite rev_length; exact L).
  split.
  - rewrite <- P. unfold host_value. destruct big.
    + pose proof (value_range (rev bs) (bytes_rev bs Hbs)) as V. unfold zlen in V. rewrite L3, N in V. exact V.
    + pose proof (value_range bs Hbs) as V. rewrite L2 in V. exact V.
  - destruct big; intros k Hk; unfold host_value.
    + pose proof (value_byte (rev bs) (Z.to_nat (w / 8 - 1 - k)) (bytes_rev bs Hbs) ltac:(lia)) as V.
      rewrite rev_nth_error in V by lia. rewrite Z2Nat.id in V by lia. rewrite <- V.
      rewrite R by lia. f_equal. lia.
    + pose proof (value_byte bs (Z.to_nat k) Hbs ltac:(lia)) as V. rewrite Z2Nat.id in V by lia. rewrite <- V.
      rewrite R by lia. f_equal. lia.
Qed.

(** swapping the bytes of the value turns one order into the other *)
Lemma holds_swab : forall w m p v, width w -> 0 <= v < 2 ^ w ->
  (holds_le m p (w / 8) (swabw w v) <-> holds_be m p (w / 8) v) /\
  (holds_be m p (w / 8) (swabw w v) <-> holds_le m p (w / 8) v).
Proof.
  intros w m p v W Hv. split; split; intros H k Hk.
  - rewrite (H k Hk). f_equal. apply swabw_byte; auto.
  - rewrite (H k Hk). f_equal. symmetry. apply swabw_byte; auto.
  - rewrite (H k Hk). f_equal. rewrite swabw_byte by (auto; lia). f_equal. lia.
  - rewrite (H k Hk). f_equal. rewrite swabw_byte by (auto; lia). f_equal. lia.
Qed.

Lemma swab_le : forall w m p v, width w -> 0 <= v < 2 ^ w -> holds_be m p (w / 8) v -> holds_le m p (w / 8) (swabw w v).
Proof. intros w m p v W Hv H. apply (proj1 (holds_swab w m p v W Hv)). exact H. Qed.
Lemma swab_be : forall w m p v, width w -> 0 <= v < 2 ^ w -> holds_le m p (w / 8) v -> holds_be m p (w / 8) (swabw w v).
Proof. intros w m p v W Hv H. apply (proj2 (holds_swab w m p v W Hv)). exact H. Qed.

(** ** C101 *)
Theorem C101_store : forall big w m p v, width w -> 0 <= p -> p + w / 8 <= zlen m ->
  (exists m', set_le big big w m p v = Some m' /\ holds_le m' p (w / 8) (v mod 2 ^ w) /\ same_but m m' p (w / 8)) /\
  (exists m', set_be big big w m p v = Some m' /\ holds_be m' p (w / 8) (v mod 2 ^ w) /\ same_but m m' p (w / 8)).
Proof.
  intros big w m p v W Hp Hl. pose proof (wrap_range w v W) as R. pose proof (swabw_range w _ W R) as RS.
  unfold set_le, set_be, cpu_to_le, cpu_to_be. destruct big; split.
  - destruct (set_type_ok true w m p (swabw w (wrap w v)) W Hp Hl) as (m' & E & H & S).
    exists m'. split; [exact E|]. split; [|exact S]. rewrite Z.mod_small in H by exact RS.
    apply (proj2 (holds_swab w m' p (wrap w v) W R)). exact H.
  - destruct (set_type_ok true w m p (wrap w v) W Hp Hl) as (m' & E & H & S).
    exists m'. split; [exact E|]. split; [|exact S]. rewrite Z.mod_small in H by exact R. exact H.
  - destruct (set_type_ok false w m p (wrap w v) W Hp Hl) as (m' & E & H & S).
    exists m'. split; [exact E|]. split; [|exact S]. rewrite Z.mod_small in H by exact R. exact H.
  - destruct (set_type_ok false w m p (swabw w (wrap w v)) W Hp Hl) as (m' & E & H & S).
    exists m'. split; [exact E|]. split; [|exact S]. rewrite Z.mod_small in H by exact RS.
    apply (proj1 (holds_swab w m' p (wrap w v) W R)). exact H.
Qed.

Theorem C101_load : forall big w m p v, width w -> 0 <= v < 2 ^ w ->
  (holds_le m p (w / 8) v -> get_le big big w m p = Some v) /\
  (holds_be m p (w / 8) v -> get_be big big w m p = Some v).
Proof.
  intros big w m p v W Hv. pose proof (swabw_range w v W Hv) as RS.
  unfold get_le, get_be, le_to_cpu, be_to_cpu. destruct big; split; intros H.
  - rewrite (get_type_ok true w m p (swabw w v)) by (auto; first [apply swab_le; solve [auto] | apply swab_be; solve [auto]]).
    rewrite (wrap_small w (swabw w v)), swabw_invol by auto. reflexivity.
  - rewrite (get_type_ok true w m p v) by auto. rewrite wrap_small by auto. reflexivity.
  - rewrite (get_type_ok false w m p v) by auto. rewrite wrap_small by auto. reflexivity.
  - rewrite (get_type_ok false w m p (swabw w v)) by (auto; first [apply swab_le; solve [auto] | apply swab_be; solve [auto]]).
    rewrite (wrap_small w (swabw w v)), swabw_invol by auto. reflexivity.
Qed.

Theorem C101_load_defined : forall big w m p, width w -> bytes m -> 0 <= p -> p + w / 8 <= zlen m ->
  (exists v, get_le big big w m p = Some v /\ 0 <= v < 2 ^ w /\ holds_le m p (w / 8) v) /\
  (exists v, get_be big big w m p = Some v /\ 0 <= v < 2 ^ w /\ holds_be m p (w / 8) v).
Proof.
  intros big w m p W B Hp Hl. destruct (get_type_some big w m p W B Hp Hl) as (v & _ & Rv & H).
  pose proof (swabw_range w v W Rv) as RS.
  assert (X : exists u, 0 <= u < 2 ^ w /\ holds_le m p (w / 8) u).
  { destruct big; [exists (swabw w v)|exists v]; split; auto. first [apply swab_le; solve [auto] | apply swab_be; solve [auto]]. }
  assert (Y : exists u, 0 <= u < 2 ^ w /\ holds_be m p (w / 8) u).
  { destruct big; [exists v|exists (swabw w v)]; split; auto. first [apply swab_le; solve [auto] | apply swab_be; solve [auto]]. }
  destruct X as (u & Ru & Hu), Y as (u2 & Ru2 & Hu2). split.
  - exists u. split; [apply C101_load; auto|auto].
  - exists u2. split; [apply C101_load; auto|auto].
Qed.

Theorem C101_roundtrip : forall big w m p v, width w -> 0 <= p -> p + w / 8 <= zlen m ->
  (exists m', set_le big big w m p v = Some m' /\ get_le big big w m' p = Some (v mod 2 ^ w)) /\
  (exists m', set_be big big w m p v = Some m' /\ get_be big big w m' p = Some (v mod 2 ^ w)).
Proof.
  intros big w m p v W Hp Hl. destruct (C101_store big w m p v W Hp Hl) as [(m1 & E1 & H1 & _) (m2 & E2 & H2 & _)].
  assert (R : 0 <= v mod 2 ^ w < 2 ^ w) by exact (wrap_range w v W).
  split; [exists m1|exists m2]; (split; [assumption|]); apply C101_load; auto.
Qed.

Theorem C101_native : forall big w m p v, width w -> 0 <= p -> p + w / 8 <= zlen m ->
  exists m', set_type big w m p v = Some m' /\ get_type big w m' p = Some (v mod 2 ^ w) /\ same_but m m' p (w / 8) /\
    (if big then holds_be m' p (w / 8) (v mod 2 ^ w) else holds_le m' p (w / 8) (v mod 2 ^ w)).
Proof.
  intros big w m p v W Hp Hl. destruct (set_type_ok big w m p v W Hp Hl) as (m' & E & H & S).
  exists m'. split; [exact E|]. split; [|split; [exact S|destruct big; exact H]].
  apply get_type_ok; auto. exact (wrap_range w v W).
Qed.

(** asm-generic/byteorder.h picks little-endian.h whatever the processor: on a big-endian one a
    little-endian store writes the bytes the wrong way round. *)
Theorem C101_generic_refuted : exists m p v m',
  set_le true generic_hdr 32 m p v = Some m' /\ ~ holds_le m' p 4 v /\ holds_be m' p 4 v.
Proof.
  exists [0; 0; 0; 0; 0], 1, 0x12345678, [0; 0x12; 0x34; 0x56; 0x78].
  split; [vm_compute; reflexivity|]. split.
  - intros H. specialize (H 0 ltac:(lia)). vm_compute in H. discriminate.
  - intros k Hk. assert (C : k = 0 \/ k = 1 \/ k = 2 \/ k = 3) by lia.
    destruct C as [-> | [-> | [-> | ->]]]; vm_compute; reflexivity.
Qed.
Example C101_ex : width 32 /\ set_le false false 32 [9; 0; 0; 0; 0; 9] 1 0x12345678 = Some [9; 0x78; 0x56; 0x34; 0x12; 9] /\
  set_le true true 32 [9; 0; 0; 0; 0; 9] 1 0x12345678 = Some [9; 0x78; 0x56; 0x34; 0x12; 9] /\
  set_be false false 32 [9; 0; 0; 0; 0; 9] 1 0x12345678 = Some [9; 0x12; 0x34; 0x56; 0x78; 9] /\
  get_be true true 16 [9; 1; 2] 1 = Some 0x102.
Proof. split; [unfold width; auto|]. vm_compute. auto. Qed.

(** ** C102 *)
Lemma swab_array_ok : forall w n a i, 0 <= i -> i + Z.of_nat n <= zlen a ->
  exists a', swab_array w a i n = Some a' /\ length a' = length a /\
    forall j, rd a' j = if (i <=? j) && (j <? i + Z.of_nat n) then option_map (swabw w) (rd a j) else rd a j.
Proof.
  induction n as [|n IH]; intros a i Hi Hl.
  - exists a. split; [reflexivity|]. split; [reflexivity|]. intros j.
    replace ((i <=? j) && (j <? i + Z.of_nat 0)) with false; [reflexivity|].
    symmetry. apply andb_false_iff. destruct (Z.leb_spec i j); [right; apply Z.ltb_ge; lia|auto].
  - destruct (rd_some _ a i ltac:(lia)) as [x Hx].
    destruct (wr_spec _ a i (swabw w x) ltac:(lia)) as (a1 & E1 & L1 & R1).
    destruct (IH a1 (i + 1) ltac:(lia) ltac:(lia)) as (a' & E & L & R).
    exists a'. cbn [swab_array]. unfold swab_s. rewrite Hx, E1. split; [exact E|]. split; [unfold zlen in *; lia|].
    intros j. rewrite R, R1. destruct (Z.eqb_spec j i) as [->|N].
    + replace (i + 1 <=? i) with false by (symmetry; apply Z.leb_gt; lia).
      replace (i <=? i) with true by (symmetry; apply Z.leb_le; lia).
      replace (i <? i + Z.of_nat (S n)) with true by (symmetry; apply Z.ltb_lt; lia). cbn [andb]. rewrite Hx. reflexivity.
    + replace (i + 1 <=? j) with (i <=? j) by (destruct (Z.leb_spec i j), (Z.leb_spec (i + 1) j); auto; lia).
      replace (i + 1 + Z.of_nat n) with (i + Z.of_nat (S n)) by lia. reflexivity.
Qed.

Theorem C102_swab_array : forall w a i n, width w -> Forall (fun x => 0 <= x < 2 ^ w) a ->
  0 <= i -> i + Z.of_nat n <= zlen a ->
  exists a', swab_array w a i n = Some a' /\ same_but a a' i (Z.of_nat n) /\
    Forall (fun x => 0 <= x < 2 ^ w) a' /\
    (forall k, i <= k < i + Z.of_nat n -> exists x y, rd a k = Some x /\ rd a' k = Some y /\
      forall j, 0 <= j < w / 8 -> byte_of y j = byte_of x (w / 8 - 1 - j)) /\
    swab_array w a' i n = Some a.
Proof.
  intros w a i n W F Hi Hl. destruct (swab_array_ok w n a i Hi Hl) as (a' & E & L & R).
  assert (RX : forall k x, rd a k = Some x -> 0 <= x < 2 ^ w).
  { intros k x Hx. apply rd_in in Hx. rewrite Forall_forall in F. auto. }
  assert (F' : Forall (fun x => 0 <= x < 2 ^ w) a').
  { apply Forall_forall. intros y Hy. apply In_nth_error in Hy. destruct Hy as [k Hk].
    assert (Hr : rd a' (Z.of_nat k) = Some y).
    { unfold rd. replace (Z.of_nat k <? 0) with false by (symmetry; apply Z.ltb_ge; lia). rewrite Nat2Z.id. exact Hk. }
    rewrite R in Hr. destruct ((i <=? Z.of_nat k) && (Z.of_nat k <? i + Z.of_nat n)); [|eauto].
    destruct (rd a (Z.of_nat k)) as [x|] eqn:Ex; [|discriminate]. injection Hr as <-. apply swabw_range; eauto. }
  exists a'. split; [exact E|]. split; [|split; [exact F'|split]].
  - split; [exact L|]. intros j Hj. rewrite R.
    replace ((i <=? j) && (j <? i + Z.of_nat n)) with false; [reflexivity|]. symmetry. apply andb_false_iff.
    destruct (Z.leb_spec i j); [right; apply Z.ltb_ge; lia|auto].
  - intros k Hk. destruct (rd_some _ a k ltac:(lia)) as [x Hx]. exists x, (swabw w x). split; [exact Hx|]. split.
    + rewrite R, Hx. replace (i <=? k) with true by (symmetry; apply Z.leb_le; lia).
      replace (k <? i + Z.of_nat n) with true by (symmetry; apply Z.ltb_lt; lia). reflexivity.
    + intros j Hj. apply swabw_byte; eauto.
  - destruct (swab_array_ok w n a' i Hi) as (a2 & E2 & L2 & R2). { unfold zlen in *. rewrite L. exact Hl. }
    rewrite E2. f_equal. apply rd_ext. intros j. rewrite R2, R.
    destruct ((i <=? j) && (j <? i + Z.of_nat n)); [|reflexivity]. destruct (rd a j) as [x|] eqn:Ex; [|reflexivity].
    cbn [option_map]. rewrite swabw_invol by eauto. reflexivity.
Qed.
Example C102_ex : swab_array 16 [1; 2; 3; 0xff00] 1 3 = Some [1; 0x200; 0x300; 0xff] /\
  cpu_to_le_array true 16 [1; 2; 3; 0xff00] 0 1 3 = Some [0x200; 0x300; 0xff; 0xff00].
Proof. vm_compute. auto. Qed.

(** element-wise conversion from one place to another *)
Lemma order_array_ok : forall f n a d s, 0 <= d -> d + Z.of_nat n <= zlen a -> 0 <= s -> s + Z.of_nat n <= zlen a ->
  d <= s \/ s + Z.of_nat n <= d ->
  exists a', order_array f a d s n = Some a' /\ length a' = length a /\
    forall j, rd a' j = if (d <=? j) && (j <? d + Z.of_nat n) then option_map f (rd a (j - d + s)) else rd a j.
Proof.
  induction n as [|n IH]; intros a d s Hd Hdl Hs Hsl O.
  - exists a. split; [reflexivity|]. split; [reflexivity|]. intros j.
    replace ((d <=? j) && (j <? d + Z.of_nat 0)) with false; [reflexivity|].
    symmetry. apply andb_false_iff. destruct (Z.leb_spec d j); [right; apply Z.ltb_ge; lia|auto].
  - destruct (rd_some _ a s ltac:(lia)) as [x Hx].
    destruct (wr_spec _ a d (f x) ltac:(lia)) as (a1 & E1 & L1 & R1).
    destruct (IH a1 (d + 1) (s + 1) ltac:(lia) ltac:(lia) ltac:(lia) ltac:(lia) ltac:(lia)) as (a' & E & L & R).
    exists a'. cbn [order_array]. rewrite Hx, E1. split; [exact E|]. split; [unfold zlen in *; lia|].
    intros j. rewrite R, !R1. destruct (Z.eqb_spec j d) as [->|N].
    + replace (d + 1 <=? d) with false by (symmetry; apply Z.leb_gt; lia).
      replace (d <=? d) with true by (symmetry; apply Z.leb_le; lia).
      replace (d <? d + Z.of_nat (S n)) with true by (symmetry; apply Z.ltb_lt; lia). cbn [andb].
      replace (d - d + s) with s by lia. rewrite Hx. reflexivity.
    + replace (d + 1 <=? j) with (d <=? j) by (destruct (Z.leb_spec d j), (Z.leb_spec (d + 1) j); auto; lia).
      replace (d + 1 + Z.of_nat n) with (d + Z.of_nat (S n)) by lia.
      destruct (Z.leb_spec d j) as [A|A]; [|reflexivity]. destruct (Z.ltb_spec j (d + Z.of_nat (S n))) as [B|B]; [|reflexivity].
      cbn [andb]. replace (j - (d + 1) + (s + 1)) with (j - d + s) by lia.
      replace (j - d + s =? d) with false; [reflexivity|]. symmetry. apply Z.eqb_neq. lia.
Qed.

Theorem C102_order_array : forall big w a d s n, width w -> Forall (fun x => 0 <= x < 2 ^ w) a ->
  0 <= d -> d + Z.of_nat n <= zlen a -> 0 <= s -> s + Z.of_nat n <= zlen a ->
  d <= s \/ s + Z.of_nat n <= d ->
  exists a', cpu_to_le_array big w a d s n = Some a' /\ same_but a a' d (Z.of_nat n) /\
    (forall k, 0 <= k < Z.of_nat n -> exists x y, rd a (s + k) = Some x /\ rd a' (d + k) = Some y /\
      host_bytes big (Z.to_nat (w / 8)) y = map (byte_of x) (zseq 0 (Z.to_nat (w / 8)))) /\
    (forall b, length b = n -> (forall k, 0 <= k < Z.of_nat n -> rd b k = rd a' (d + k)) ->
      exists b', le_to_cpu_array big w b 0 0 n = Some b' /\
        forall k, 0 <= k < Z.of_nat n -> rd b' k = rd a (s + k)).
Proof.
  intros big w a d s n W F Hd Hdl Hs Hsl O.
  assert (RX : forall k x, rd a k = Some x -> 0 <= x < 2 ^ w).
  { intros k x Hx. apply rd_in in Hx. rewrite Forall_forall in F. auto. }
  destruct (order_array_ok (cpu_to_le big w) n a d s Hd Hdl Hs Hsl O) as (a' & E & L & R).
  assert (RD : forall k, 0 <= k < Z.of_nat n -> rd a' (d + k) = option_map (cpu_to_le big w) (rd a (s + k))).
  { intros k Hk. rewrite R. replace (d <=? d + k) with true by (symmetry; apply Z.leb_le; lia).
    replace (d + k <? d + Z.of_nat n) with true by (symmetry; apply Z.ltb_lt; lia). cbn [andb].
    replace (d + k - d + s) with (s + k) by lia. reflexivity. }
  exists a'. split; [exact E|]. split; [|split].
  - split; [exact L|]. intros j Hj. rewrite R.
    replace ((d <=? j) && (j <? d + Z.of_nat n)) with false; [reflexivity|]. symmetry. apply andb_false_iff.
    destruct (Z.leb_spec d j); [right; apply Z.ltb_ge; lia|auto].
  - intros k Hk. destruct (rd_some _ a (s + k) ltac:(lia)) as [x Hx]. exists x, (cpu_to_le big w x). split; [exact Hx|].
    rewrite RD, Hx by lia. split; [reflexivity|]. destruct (width_nat w W) as [N _].
    pose proof (RX _ _ Hx) as HX. apply nth_ext_err; [rewrite host_bytes_len, map_length, zseq_len; reflexivity|].
    rewrite host_bytes_len. intros j Hj. rewrite host_bytes_nth, nth_error_map, zseq_nth by lia. cbn [option_map]. f_equal.
    rewrite N, Z.add_0_l. unfold cpu_to_le. rewrite wrap_small by auto. destruct big; [|reflexivity].
    rewrite swabw_byte by (auto; lia). f_equal. lia.
  - intros b Lb Hb.
    destruct (order_array_ok (le_to_cpu big w) n b 0 0 ltac:(lia) ltac:(unfold zlen; lia) ltac:(lia) ltac:(unfold zlen; lia) ltac:(lia))
      as (b' & Eb & _ & Rb).
    exists b'. split; [exact Eb|]. intros k Hk. rewrite Rb.
    replace (0 <=? k) with true by (symmetry; apply Z.leb_le; lia).
    replace (k <? 0 + Z.of_nat n) with true by (symmetry; apply Z.ltb_lt; lia). cbn [andb].
    replace (k - 0 + 0) with k by lia. rewrite Hb, RD by lia.
    destruct (rd_some _ a (s + k) ltac:(lia)) as [x Hx]. rewrite Hx. cbn [option_map]. f_equal.
    pose proof (RX _ _ Hx) as HX. unfold cpu_to_le, le_to_cpu. rewrite !(wrap_small w x) by auto. destruct big.
    + rewrite wrap_small by (auto; apply swabw_range; auto). apply swabw_invol; auto.
    + apply wrap_small; auto.
Qed.

(** with the destination inside the source, later elements are overwritten before they are read *)
Theorem C102_overlap_refuted : exists a d s n a', cpu_to_le_array false 16 a d s n = Some a' /\
  s < d < s + Z.of_nat n /\ exists k, 0 <= k < Z.of_nat n /\ rd a' (d + k) <> rd a (s + k).
Proof.
  exists [1; 2; 3], 1, 0, 2%nat, [1; 1; 1]. split; [vm_compute; reflexivity|]. split; [lia|].
  exists 1. split; [lia|]. vm_compute. discriminate.
Qed.

(** ** C103 *)
Lemma swizzle_fact : forall k, 0 <= k ->
  Z.lxor k 56 = 64 * (k / 64) + (8 * (7 - k mod 64 / 8) + k mod 8) /\
  Z.lxor k 56 / 64 = k / 64 /\ Z.lxor k 56 mod 64 = 8 * (7 - k mod 64 / 8) + k mod 8.
Proof.
  intros k Hk.
  assert (L : Z.lxor (k mod 64) 56 = 8 * (7 - k mod 64 / 8) + k mod 8).
  { pose proof (all_below_spec 64 (fun j => Z.lxor j 56 =? 8 * (7 - j / 8) + j mod 8) ltac:(vm_compute; reflexivity)
      (k mod 64) ltac:(lia)) as T. apply Z.eqb_eq in T. rewrite T. lia. }
  assert (M : Z.lxor k 56 mod 64 = 8 * (7 - k mod 64 / 8) + k mod 8).
  { rewrite <- L. apply Z.bits_inj'. intros i Hi. change 64 with (2 ^ 6).
    rewrite Z.testbit_mod_pow2, !Z.lxor_spec, Z.testbit_mod_pow2 by lia.
    destruct (Z.ltb_spec i 6) as [A|A]; cbn [andb]; [reflexivity|].
    change 56 with (Z.ones 6 - 7). destruct (Z.testbit (Z.ones 6 - 7) i) eqn:T; [|reflexivity]. exfalso.
    change (Z.ones 6 - 7) with 56 in T. rewrite Z.bits_above_log2 in T; [discriminate|lia|]. change (Z.log2 56) with 5. lia. }
  assert (D : Z.lxor k 56 / 64 = k / 64).
  { change 64 with (2 ^ 6). rewrite <- !Z.shiftr_div_pow2, Z.shiftr_lxor by lia. change (Z.shiftr 56 6) with 0. apply Z.lxor_0_r. }
  split; [|auto]. pose proof (Z.div_mod (Z.lxor k 56) 64 ltac:(lia)) as Q. rewrite M, D in Q. exact Q.
Qed.

Lemma flat_map_rd : forall big a q r, 0 <= r < 8 ->
  rd (word_bytes big a) (8 * q + r) = match rd a q with Some w => rd (host_bytes big 8 w) r | None => None end.
Proof.
  intros big a q r Hr. unfold word_bytes. revert q. induction a as [|x a IH]; intros q.
  - cbn [flat_map]. unfold rd at 1 2. destruct (8 * q + r <? 0), (q <? 0); destruct (Z.to_nat (8 * q + r)), (Z.to_nat q); reflexivity.
  - cbn [flat_map]. destruct (Z.ltb_spec q 0) as [N|N].
    + unfold rd. replace (8 * q + r <? 0) with true by (symmetry; apply Z.ltb_lt; lia).
      replace (q <? 0) with true by (symmetry; apply Z.ltb_lt; lia). reflexivity.
    + destruct (Z.eq_dec q 0) as [->|Q].
      * change (rd (x :: a) 0) with (Some x). unfold rd. replace (8 * 0 + r) with r by lia.
        replace (r <? 0) with false by (symmetry; apply Z.ltb_ge; lia).
        rewrite nth_error_app1 by (rewrite host_bytes_len; lia). reflexivity.
      * specialize (IH (q - 1)).
        replace (rd (x :: a) q) with (rd a (q - 1)).
        2:{ unfold rd. replace (q - 1 <? 0) with false by (symmetry; apply Z.ltb_ge; lia).
            replace (q <? 0) with false by (symmetry; apply Z.ltb_ge; lia).
            replace (Z.to_nat q) with (S (Z.to_nat (q - 1))) by lia. reflexivity. }
        rewrite <- IH. unfold rd. replace (8 * q + r <? 0) with false by (symmetry; apply Z.ltb_ge; lia).
        replace (8 * (q - 1) + r <? 0) with false by (symmetry; apply Z.ltb_ge; lia).
        rewrite nth_error_app2 by (rewrite host_bytes_len; lia). rewrite host_bytes_len. f_equal. lia.
Qed.

Lemma word_bytes_len : forall big a, zlen (word_bytes big a) = 8 * zlen a.
Proof.
  intros big a. unfold word_bytes. induction a as [|x a IH]; [reflexivity|]. cbn [flat_map].
  rewrite zlen_app, zlen_cons, IH. unfold zlen at 1. rewrite host_bytes_len. lia.
Qed.

Lemma stream_abit : forall big a k, Forall u64 a -> 0 <= k < 64 * zlen a ->
  stream_bit (word_bytes big a) k = abit a (if big then Z.lxor k 56 else k).
Proof.
  intros big a k F Hk. unfold stream_bit, abit. destruct (swizzle_fact k ltac:(lia)) as (_ & SD & SM).
  destruct (rd_some _ a (k / 64) ltac:(lia)) as [w Hw].
  assert (U : u64 w) by (apply rd_in in Hw; rewrite Forall_forall in F; auto). unfold u64 in U.
  replace (rd (word_bytes big a) (k / 8)) with (rd (host_bytes big 8 w) (k / 8 mod 8)).
  2:{ pose proof (flat_map_rd big a (k / 64) (k / 8 mod 8) ltac:(lia)) as T. rewrite Hw in T. rewrite <- T. f_equal. lia. }
  assert (RB : rd (host_bytes big 8 w) (k / 8 mod 8) = Some (byte_of w (if big then 7 - k / 8 mod 8 else k / 8 mod 8))).
  { unfold rd. replace (k / 8 mod 8 <? 0) with false by (symmetry; apply Z.ltb_ge; lia). rewrite host_bytes_nth by lia.
    rewrite Z2Nat.id by lia. destruct big; reflexivity. }
  rewrite RB. destruct big.
  - rewrite SD, Hw, SM. rewrite byte_of_bit by lia. f_equal. lia.
  - rewrite Hw, byte_of_bit by lia. f_equal. lia.
Qed.

Lemma stream_update : forall (big : bool) a a' b x, Forall u64 a -> 0 <= b < 64 * zlen a -> bit_updated a (if big then Z.lxor b 56 else b) x a' ->
  stream_updated (word_bytes big a) (word_bytes big a') b x.
Proof.
  intros big a a' b x F Hb (L & F' & U).
  pose proof L as ZL.
  split. { pose proof (word_bytes_len big a) as A1. pose proof (word_bytes_len big a') as A2. unfold zlen in A1, A2, ZL. lia. }
  rewrite word_bytes_len. intros i Hi. rewrite !stream_abit by (auto; lia).
  destruct (swizzle_fact i ltac:(lia)) as (SI & SDI & SMI). destruct (swizzle_fact b ltac:(lia)) as (SB & SDB & SMB). destruct big.
  - rewrite U by lia. replace (Z.lxor i 56 =? Z.lxor b 56) with (i =? b); [reflexivity|].
    destruct (Z.eqb_spec i b) as [->|N]; [symmetry; apply Z.eqb_refl|]. symmetry. apply Z.eqb_neq. intros Q.
    apply N. rewrite <- (Z.lxor_0_r i), <- (Z.lxor_0_r b), <- (Z.lxor_nilpotent 56), <- !Z.lxor_assoc, Q. reflexivity.
  - rewrite U by lia. reflexivity.
Qed.

(** all operations at a swizzled position *)
Definition ops_at (big : bool) (pos : Z -> Z) (target : Z -> Z) : Prop := forall a b, Forall u64 a -> 0 <= b < 64 * zlen a ->
  let m := word_bytes big a in
  let old := stream_bit m (target b) in
  bit_test_at pos a b = Some old /\
  (exists a', bit_set_at pos a b = Some a' /\ bit_test_set_at pos a b = Some (old, a') /\
     stream_updated m (word_bytes big a') (target b) true) /\
  (exists a', bit_clr_at pos a b = Some a' /\ bit_test_clr_at pos a b = Some (old, a') /\
     stream_updated m (word_bytes big a') (target b) false) /\
  (exists a', bit_flip_at pos a b = Some a' /\ bit_test_flip_at pos a b = Some (old, a') /\
     stream_updated m (word_bytes big a') (target b) (negb old)) /\
  (forall x, exists a', bit_change_at pos a b x = Some a' /\ bit_test_change_at pos a b x = Some (old, a') /\
     stream_updated m (word_bytes big a') (target b) x).

Lemma ops_general : forall (big : bool) pos target,
  (forall n b, 0 <= b < 64 * n -> 0 <= target b < 64 * n /\ pos b = (if big then Z.lxor (target b) 56 else target b)) ->
  ops_at big pos target.
Proof.
  intros big pos target H a b F Hb. destruct (H (zlen a) b Hb) as [T P]. cbv zeta.
  assert (PR : 0 <= pos b < 64 * zlen a).
  { rewrite P. destruct big; [|exact T]. destruct (swizzle_fact (target b) ltac:(lia)) as (E & _ & _). rewrite E. lia. }
  rewrite stream_abit by auto. rewrite <- P.
  unfold bit_test_at, bit_set_at, bit_clr_at, bit_flip_at, bit_change_at, bit_test_set_at, bit_test_clr_at, bit_test_flip_at, bit_test_change_at.
  destruct (C77_bit_ops a (pos b) F PR) as (A & (a1 & S1 & U1 & T1) & (a2 & S2 & U2 & T2) & (a3 & S3 & U3 & T3) & X).
  split; [exact A|]. split; [|split; [|split]].
  - exists a1. split; [exact S1|]. split; [exact T1|]. apply stream_update; auto. rewrite <- P. exact U1.
  - exists a2. split; [exact S2|]. split; [exact T2|]. apply stream_update; auto. rewrite <- P. exact U2.
  - exists a3. split; [exact S3|]. split; [exact T3|]. apply stream_update; auto. rewrite <- P. exact U3.
  - intros x. destruct (X x) as (a4 & S4 & U4 & T4). exists a4. split; [exact S4|]. split; [exact T4|].
    apply stream_update; auto. rewrite <- P. exact U4.
Qed.

Theorem C103_le : forall big, ops_at big (le_bit big) (fun b => b).
Proof.
  intros big. apply ops_general. intros n b Hb. split; [lia|]. unfold le_bit, le_swizzle. destruct big; [reflexivity|].
  apply Z.lxor_0_r.
Qed.
Theorem C103_be : forall big, ops_at big (be_bit big) be_position.
Proof.
  intros big. apply ops_general. intros n b Hb. unfold be_position. split; [lia|]. unfold be_bit, be_swizzle.
  destruct (swizzle_fact b ltac:(lia)) as (E & _ & _). destruct big.
  - rewrite Z.lxor_0_r. replace (8 * (8 * (b / 64) + (7 - b mod 64 / 8)) + b mod 8) with (Z.lxor b 56) by lia.
    rewrite Z.lxor_assoc, Z.lxor_nilpotent, Z.lxor_0_r. reflexivity.
  - change (Z.land (64 - 1) (Z.lnot 7)) with 56. lia.
Qed.
Example C103_ex : bit_set_at (le_bit true) [0; 0] 67 = Some [0; 2 ^ 59] /\
  word_bytes true [0; 2 ^ 59] = [0; 0; 0; 0; 0; 0; 0; 0; 8; 0; 0; 0; 0; 0; 0; 0] /\
  bit_set_at (le_bit false) [0; 0] 67 = Some [0; 8] /\
  word_bytes false [0; 8] = [0; 0; 0; 0; 0; 0; 0; 0; 8; 0; 0; 0; 0; 0; 0; 0].
Proof. vm_compute. auto. Qed.

(** with the generic header on a big-endian processor the bit lands in another byte *)
Theorem C103_generic_refuted : exists a b a', bit_set_at (le_bit generic_hdr) a b = Some a' /\
  0 <= b < 64 * zlen a /\ stream_bit (word_bytes true a') b = false.
Proof. exists [0], 0, [1]. vm_compute. repeat split; congruence. Qed.

Print Assumptions C101_store.
Print Assumptions C101_load.
Print Assumptions C101_load_defined.
Print Assumptions C101_roundtrip.
Print Assumptions C101_native.
Print Assumptions C101_generic_refuted.
Print Assumptions C102_swab_array.
Print Assumptions C102_order_array.
Print Assumptions C102_overlap_refuted.
Print Assumptions C103_le.
Print Assumptions C103_be.
Print Assumptions C103_generic_refuted.
