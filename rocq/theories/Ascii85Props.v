(** * Properties of ascii85 (C04)

    Full statement (C04): for every byte buffer, decoding the encoded text succeeds and
    returns the buffer, zero padded to a multiple of four bytes. It is false of the code:
    a 'z' (all-zero group) is not a group of its own for the decoder
    ([ascii85_roundtrip_refuted]). What holds: the full statement for every buffer none
    of whose four-byte groups is zero ([ascii85_roundtrip_partial]). *)
From Verif Require Import Lib Ascii85Model.
Ltac Zify.zify_post_hook ::= Z.div_mod_to_equations.

(** Specification vocabulary: zero padding, groups. *)
Fixpoint pad4 (l : list Z) : list Z :=
  match l with
  | a :: b :: c :: d :: r => a :: b :: c :: d :: pad4 r
  | [] => []
  | [a] => [a; 0; 0; 0]
  | [a; b] => [a; b; 0; 0]
  | [a; b; c] => [a; b; c; 0]
  end.

Fixpoint has_zero_group (l : list Z) : Prop :=
  match l with
  | a :: b :: c :: d :: r => (a = 0 /\ b = 0 /\ c = 0 /\ d = 0) \/ has_zero_group r
  | [] => False
  | _ => Forall (eq 0) l
  end.

(** ** Arithmetic of one group *)
Lemma ascii85_group_value : forall v, 0 < v < 2 ^ 32 ->
  exists c0 c1 c2 c3 c4,
    ascii85_group v = [c0; c1; c2; c3; c4] /\
    forallb ascii85_char_ok [c0; c1; c2; c3; c4] = true /\
    c0 <> 122 /\
    ascii85_value c0 c1 c2 c3 c4 = v.
Proof.
  intros v Hv. unfold ascii85_group. destruct (Z.eqb_spec v 0) as [E|_]; [lia|].
  set (a4 := v mod 85). set (q4 := v / 85).
  set (a3 := q4 mod 85). set (q3 := q4 / 85).
  set (a2 := q3 mod 85). set (q2 := q3 / 85).
  set (a1 := q2 mod 85). set (q1 := q2 / 85).
  set (a0 := q1 mod 85).
  assert (H4 : 0 <= a4 < 85 /\ v = 85 * q4 + a4) by (unfold a4, q4; lia).
  assert (H3 : 0 <= a3 < 85 /\ q4 = 85 * q3 + a3) by (unfold a3, q3; lia).
  assert (H2 : 0 <= a2 < 85 /\ q3 = 85 * q2 + a2) by (unfold a2, q2; lia).
  assert (H1 : 0 <= a1 < 85 /\ q2 = 85 * q1 + a1) by (unfold a1, q1; lia).
  assert (H0 : 0 <= a0 < 85) by (unfold a0; lia).
  change (2 ^ 32) with 4294967296 in Hv.
  assert (Q1 : 0 <= q1 < 85) by lia.
  assert (H0' : q1 = a0) by (unfold a0; rewrite Z.mod_small; lia).
  clearbody a4 a3 a2 a1 a0 q4 q3 q2 q1.
  exists (33 + a0), (33 + a1), (33 + a2), (33 + a3), (33 + a4).
  split; [reflexivity|]. split; [|split; [lia|]].
  - unfold ascii85_char_ok. cbn [forallb].
    repeat (apply andb_true_iff; split); try apply Z.leb_le; try lia; reflexivity.
  - unfold ascii85_value.
    assert (S : forall x y, 0 <= x < 4294967296 -> y = x -> w32 y = x)
      by (intros x y Hx ->; apply w32_small; exact Hx).
    rewrite (S a0 (33 + a0 - 33)) by lia.
    rewrite (S (a0 * 85) (a0 * 85)) by lia.
    rewrite (S q2 (a0 * 85 + (33 + a1 - 33))) by lia.
    rewrite (S (q2 * 85) (q2 * 85)) by lia.
    rewrite (S q3 (q2 * 85 + (33 + a2 - 33))) by lia.
    rewrite (S (q3 * 85) (q3 * 85)) by lia.
    rewrite (S q4 (q3 * 85 + (33 + a3 - 33))) by lia.
    rewrite (S (q4 * 85) (q4 * 85)) by lia.
    rewrite (S v (q4 * 85 + (33 + a4 - 33))) by lia. reflexivity.
Qed.

Lemma be32_bytes : forall a b c d,
  byte a -> byte b -> byte c -> byte d ->
  let v := a * 2 ^ 24 + b * 2 ^ 16 + c * 2 ^ 8 + d in
  v / 2 ^ 24 mod 256 = a /\ v / 2 ^ 16 mod 256 = b /\ v / 2 ^ 8 mod 256 = c /\ v mod 256 = d /\
  0 <= v < 2 ^ 32 /\ (v = 0 -> a = 0 /\ b = 0 /\ c = 0 /\ d = 0).
Proof.
  intros a b c d Ha Hb Hc Hd v. unfold v, byte in *. clear v.
  change (2 ^ 24) with 16777216. change (2 ^ 16) with 65536. change (2 ^ 8) with 256.
  change (2 ^ 32) with 4294967296.
  repeat split; lia.
Qed.

Lemma rd_app_k : forall A (pre l : list A) k, 0 <= k -> rd (pre ++ l) (zlen pre + k) = rd l k.
Proof.
  intros A pre l k Hk. unfold rd, zlen.
  destruct (Z.ltb_spec (Z.of_nat (length pre) + k) 0); [lia|].
  destruct (Z.ltb_spec k 0); [lia|].
  rewrite nth_error_app2 by lia. f_equal. lia.
Qed.

Lemma get_be32_at : forall pre a b c d r,
  get_be32 (pre ++ a :: b :: c :: d :: r) (zlen pre)
  = Some (a * 2 ^ 24 + b * 2 ^ 16 + c * 2 ^ 8 + d).
Proof.
  intros. unfold get_be32. rewrite <- (Z.add_0_r (zlen pre)) at 1.
  rewrite !rd_app_k by lia. reflexivity.
Qed.

Lemma wr_app_k : forall A (pre l : list A) k v, 0 <= k ->
  wr (pre ++ l) (zlen pre + k) v = option_map (app pre) (wr l k v).
Proof.
  intros A pre l k v Hk. unfold wr, zlen.
  destruct (Z.ltb_spec (Z.of_nat (length pre) + k) 0); [lia|].
  destruct (Z.ltb_spec k 0); [lia|].
  replace (Z.to_nat (Z.of_nat (length pre) + k)) with (length pre + Z.to_nat k)%nat by lia.
  clear. induction pre as [|h pre IH]; cbn [app length Nat.add wr_nat].
  - destruct (wr_nat l (Z.to_nat k) v); reflexivity.
  - rewrite IH. destruct (wr_nat l (Z.to_nat k) v); reflexivity.
Qed.

Lemma set_be32_at : forall pre x0 x1 x2 x3 r v,
  set_be32 (pre ++ x0 :: x1 :: x2 :: x3 :: r) (zlen pre) v
  = Some (pre ++ v / 2 ^ 24 mod 256 :: v / 2 ^ 16 mod 256 :: v / 2 ^ 8 mod 256 :: v mod 256 :: r).
Proof.
  intros. unfold set_be32. rewrite <- (Z.add_0_r (zlen pre)) at 1.
  rewrite wr_app_k by lia. change (wr (x0 :: x1 :: x2 :: x3 :: r) 0) with (fun v => Some (v :: x1 :: x2 :: x3 :: r)).
  cbn [option_map]. cbv beta iota.
  rewrite wr_app_k by lia.
  match goal with |- context[wr (?a :: x1 :: x2 :: x3 :: r) 1 ?b] =>
    change (wr (a :: x1 :: x2 :: x3 :: r) 1 b) with (Some (a :: b :: x2 :: x3 :: r)) end.
  cbn [option_map]. rewrite wr_app_k by lia.
  match goal with |- context[wr (?a :: ?b :: x2 :: x3 :: r) 2 ?c] =>
    change (wr (a :: b :: x2 :: x3 :: r) 2 c) with (Some (a :: b :: c :: x3 :: r)) end.
  cbn [option_map]. rewrite wr_app_k by lia. reflexivity.
Qed.

(** mask of the tail: keeps the [size] leading bytes *)
Lemma tail_mask : forall n v, 0 <= v < 2 ^ 32 -> 0 <= n <= 32 ->
  w32 (Z.land v (w64 (Z.shiftl (2 ^ 64 - 1) n))) = v / 2 ^ n * 2 ^ n.
Proof.
  intros n v Hv Hn.
  assert (E : Z.land v (w64 (Z.shiftl (2 ^ 64 - 1) n)) = v / 2 ^ n * 2 ^ n).
  { rewrite <- Z.shiftr_div_pow2, <- Z.shiftl_mul_pow2 by lia.
    apply Z.bits_inj'. intros k Hk.
    rewrite Z.land_spec. unfold w64. 
    change (2 ^ 64 - 1) with (Z.ones 64).
    destruct (Z.ltb_spec k n).
    - rewrite Z.mod_pow2_bits_low, !Z.shiftl_spec_low by lia. apply andb_false_r.
    - destruct (Z.ltb_spec k 64).
      + rewrite Z.mod_pow2_bits_low, !Z.shiftl_spec by lia.
        rewrite Z.ones_spec_low by lia. rewrite andb_true_r.
        rewrite Z.shiftr_spec by lia. f_equal. lia.
      + rewrite Z.mod_pow2_bits_high by lia. rewrite andb_false_r.
        rewrite Z.shiftl_spec, Z.shiftr_spec by lia.
        replace (k - n + n) with k by lia.
        destruct (Z.eq_dec v 0) as [->|]; [rewrite Z.bits_0; reflexivity|].
        rewrite Z.bits_above_log2; auto. lia.
        assert (Z.log2 v < 32) by (apply Z.log2_lt_pow2; lia). lia. }
  rewrite E. apply w32_small.
  pose proof (Z.mul_div_le v (2 ^ n)). 
  assert (0 < 2 ^ n) by (apply Z.pow_pos_nonneg; lia).
  pose proof (Z.div_pos v (2 ^ n)). nia.
Qed.

Definition enc_fuel_ok (n : nat) (size : Z) : Prop := size / 4 <= Z.of_nat n.

(** ** Encoder on a buffer without zero groups: concatenation of five-character groups,
    each decoding to its padded group. *)
Definition decodes (t : list Z) (l : list Z) : Prop :=
  forall n pre mid post, (length t <= n)%nat -> length mid = length l ->
    ascii85_decode_loop n (pre ++ mid ++ post) t (zlen pre)
    = Some (0, pre ++ l ++ post, Some (zlen pre + zlen l)).

Lemma decodes_nil : decodes [] [].
Proof.
  intros n pre mid post _ Hm. destruct mid; [|discriminate].
  destruct n; cbn; rewrite Z.add_0_r; reflexivity.
Qed.

Lemma decodes_group : forall a b c d t l,
  byte a -> byte b -> byte c -> byte d ->
  ~ (a = 0 /\ b = 0 /\ c = 0 /\ d = 0) ->
  decodes t l ->
  decodes (ascii85_group (a * 2 ^ 24 + b * 2 ^ 16 + c * 2 ^ 8 + d) ++ t) (a :: b :: c :: d :: l).
Proof.
  intros a b c d t l Ha Hb Hc Hd Hz D n pre mid post Hn Hm.
  destruct (be32_bytes a b c d Ha Hb Hc Hd) as (Ea & Eb & Ec & Ed & Hv & Hv0).
  set (v := a * 2 ^ 24 + b * 2 ^ 16 + c * 2 ^ 8 + d) in *.
  destruct (ascii85_group_value v) as (c0 & c1 & c2 & c3 & c4 & G & OK & N & V).
  { assert (v <> 0) by (intros E; apply Hz, Hv0, E). lia. }
  rewrite G in *. cbn [app] in *. destruct n as [|n]; [cbn [length] in Hn; lia|].
  cbn [ascii85_decode_loop]. destruct (Z.eqb_spec c0 122); [contradiction|].
  rewrite OK, V.
  destruct mid as [|m0 [|m1 [|m2 [|m3 mid]]]]; try discriminate.
  cbn [app]. rewrite set_be32_at, Ea, Eb, Ec, Ed.
  replace (pre ++ a :: b :: c :: d :: mid ++ post) with ((pre ++ [a; b; c; d]) ++ mid ++ post)
    by (rewrite <- app_assoc; reflexivity).
  replace (zlen pre + 4) with (zlen (pre ++ [a; b; c; d])) by (rewrite zlen_app; reflexivity).
  rewrite D; [|cbn [length] in Hn; lia|cbn [length] in Hm; lia].
  rewrite zlen_app, !zlen_cons. rewrite <- app_assoc. cbn [app]. do 2 f_equal. f_equal.
  rewrite zlen_nil. lia.
Qed.

Lemma list_ind4' : forall (P : list Z -> Prop),
  P [] -> (forall a, P [a]) -> (forall a b, P [a; b]) -> (forall a b c, P [a; b; c]) ->
  (forall a b c d l, P l -> P (a :: b :: c :: d :: l)) -> forall l, P l.
Proof.
  intros P H0 H1 H2 H3 H4. fix IH 1. intros [|a [|b [|c [|d l]]]];
    [exact H0|apply H1|apply H2|apply H3|apply H4; apply IH].
Qed.

Lemma encode_decodes : forall data pre extra n,
  bytes data -> bytes extra -> 4 <= zlen extra -> ~ has_zero_group data ->
  (length data <= n)%nat ->
  exists t, ascii85_encode_loop n (pre ++ data ++ extra) (zlen pre) (zlen data) = Some t /\
    decodes t (pad4 data) /\ zlen t = ascii85_encode_length (zlen data).
Proof.
  induction data as [|a|a b|a b c|a b c d l IH] using list_ind4'; intros pre extra n HB HX HL HZ Hn;
    unfold bytes in HB;
    repeat match goal with H : Forall byte (_ :: _) |- _ => inversion H; clear H; subst end.
  - exists []. split; [destruct n; reflexivity|]. split; [apply decodes_nil|reflexivity].
  - destruct extra as [|x [|y [|z [|w extra]]]]; try (unfold zlen in HL; cbn [length] in HL; lia).
    unfold bytes in *. repeat match goal with H : Forall byte (_ :: _) |- _ => inversion H; clear H; subst end.
    cbn [app]. destruct n; cbn [length] in Hn; [lia|]. 
    cbn [ascii85_encode_loop]. change (zlen [a] >=? 4) with false. change (zlen [a] =? 0) with false. cbv iota.
    rewrite get_be32_at. change ((4 - zlen [a]) * 8) with 24.
    destruct (be32_bytes a x y z) as (_ & _ & _ & _ & Hv & _); auto.
    rewrite tail_mask by (auto; lia).
    replace ((a * 2 ^ 24 + x * 2 ^ 16 + y * 2 ^ 8 + z) / 2 ^ 24 * 2 ^ 24) with
       (a * 2 ^ 24 + 0 * 2 ^ 16 + 0 * 2 ^ 8 + 0).
    2:{ unfold byte in *. change (2 ^ 24) with 16777216 in *. change (2 ^ 16) with 65536 in *. change (2 ^ 8) with 256 in *. lia. }
    assert (NZ : ~ (a = 0 /\ 0 = 0 /\ 0 = 0 /\ 0 = 0)).
    { intros (-> & _). apply HZ. cbn. auto. }
    eexists. split; [reflexivity|]. split.
    + rewrite <- (app_nil_r (ascii85_group _)). cbn [pad4].
      apply decodes_group; try assumption; try (unfold byte; lia). apply decodes_nil.
    + destruct (be32_bytes a 0 0 0) as (_ & _ & _ & _ & Hw & Hw0); auto; try (unfold byte; lia).
      destruct (ascii85_group_value (a * 2 ^ 24 + 0 * 2 ^ 16 + 0 * 2 ^ 8 + 0)) as (c0 & c1 & c2 & c3 & c4 & -> & _).
      { assert (a * 2 ^ 24 + 0 * 2 ^ 16 + 0 * 2 ^ 8 + 0 <> 0) by tauto. lia. }
      reflexivity.
  - destruct extra as [|x [|y [|z [|w extra]]]]; try (unfold zlen in HL; cbn [length] in HL; lia).
    unfold bytes in *. repeat match goal with H : Forall byte (_ :: _) |- _ => inversion H; clear H; subst end.
    cbn [app]. destruct n; cbn [length] in Hn; [lia|]. 
    cbn [ascii85_encode_loop]. change (zlen [a; b] >=? 4) with false. change (zlen [a; b] =? 0) with false. cbv iota.
    rewrite get_be32_at. change ((4 - zlen [a; b]) * 8) with 16.
    destruct (be32_bytes a b x y) as (_ & _ & _ & _ & Hv & _); auto.
    rewrite tail_mask by (auto; lia).
    replace ((a * 2 ^ 24 + b * 2 ^ 16 + x * 2 ^ 8 + y) / 2 ^ 16 * 2 ^ 16) with
       (a * 2 ^ 24 + b * 2 ^ 16 + 0 * 2 ^ 8 + 0).
    2:{ unfold byte in *. change (2 ^ 24) with 16777216 in *. change (2 ^ 16) with 65536 in *. change (2 ^ 8) with 256 in *. lia. }
    assert (NZ : ~ (a = 0 /\ b = 0 /\ 0 = 0 /\ 0 = 0)).
    { intros (-> & -> & _). apply HZ. cbn. auto. }
    eexists. split; [reflexivity|]. split.
    + rewrite <- (app_nil_r (ascii85_group _)). cbn [pad4].
      apply decodes_group; try assumption; try (unfold byte; lia). apply decodes_nil.
    + destruct (be32_bytes a b 0 0) as (_ & _ & _ & _ & Hw & Hw0); auto; try (unfold byte; lia).
      destruct (ascii85_group_value (a * 2 ^ 24 + b * 2 ^ 16 + 0 * 2 ^ 8 + 0)) as (c0 & c1 & c2 & c3 & c4 & -> & _).
      { assert (a * 2 ^ 24 + b * 2 ^ 16 + 0 * 2 ^ 8 + 0 <> 0) by tauto. lia. }
      reflexivity.
  - destruct extra as [|x [|y [|z [|w extra]]]]; try (unfold zlen in HL; cbn [length] in HL; lia).
    unfold bytes in *. repeat match goal with H : Forall byte (_ :: _) |- _ => inversion H; clear H; subst end.
    cbn [app]. destruct n; cbn [length] in Hn; [lia|]. 
    cbn [ascii85_encode_loop]. change (zlen [a; b; c] >=? 4) with false. change (zlen [a; b; c] =? 0) with false. cbv iota.
    rewrite get_be32_at. change ((4 - zlen [a; b; c]) * 8) with 8.
    destruct (be32_bytes a b c x) as (_ & _ & _ & _ & Hv & _); auto.
    rewrite tail_mask by (auto; lia).
    replace ((a * 2 ^ 24 + b * 2 ^ 16 + c * 2 ^ 8 + x) / 2 ^ 8 * 2 ^ 8) with
       (a * 2 ^ 24 + b * 2 ^ 16 + c * 2 ^ 8 + 0).
    2:{ unfold byte in *. change (2 ^ 24) with 16777216 in *. change (2 ^ 16) with 65536 in *. change (2 ^ 8) with 256 in *. lia. }
    assert (NZ : ~ (a = 0 /\ b = 0 /\ c = 0 /\ 0 = 0)).
    { intros (-> & -> & -> & _). apply HZ. cbn. auto. }
    eexists. split; [reflexivity|]. split.
    + rewrite <- (app_nil_r (ascii85_group _)). cbn [pad4].
      apply decodes_group; try assumption; try (unfold byte; lia). apply decodes_nil.
    + destruct (be32_bytes a b c 0) as (_ & _ & _ & _ & Hw & Hw0); auto; try (unfold byte; lia).
      destruct (ascii85_group_value (a * 2 ^ 24 + b * 2 ^ 16 + c * 2 ^ 8 + 0)) as (c0 & c1 & c2 & c3 & c4 & -> & _).
      { assert (a * 2 ^ 24 + b * 2 ^ 16 + c * 2 ^ 8 + 0 <> 0) by tauto. lia. }
      reflexivity.
  - destruct n as [|n]; cbn [length] in Hn; [lia|].
    destruct (IH (pre ++ [a; b; c; d]) extra n) as (t & E & D & L);
      [assumption|assumption|assumption|intros H; apply HZ; cbn; auto|lia|].
    cbn [ascii85_encode_loop]. rewrite !zlen_cons.
    replace (zlen l + 1 + 1 + 1 + 1 >=? 4) with true
      by (symmetry; apply Z.geb_le; pose proof (zlen_nonneg Z l); lia).
    cbn [app]. rewrite get_be32_at.
    replace (pre ++ a :: b :: c :: d :: l ++ extra) with ((pre ++ [a; b; c; d]) ++ l ++ extra)
      by (rewrite <- app_assoc; reflexivity).
    replace (zlen pre + 4) with (zlen (pre ++ [a; b; c; d])) by (rewrite zlen_app; reflexivity).
    replace (zlen l + 1 + 1 + 1 + 1 - 4) with (zlen l) by lia.
    rewrite E. eexists. split; [reflexivity|].
    assert (NZ : ~ (a = 0 /\ b = 0 /\ c = 0 /\ d = 0)).
    { intros H. apply HZ. cbn. auto. }
    split.
    + cbn [pad4]. apply decodes_group; auto.
    + destruct (be32_bytes a b c d) as (_ & _ & _ & _ & Hw & Hw0); auto.
      destruct (ascii85_group_value (a * 2 ^ 24 + b * 2 ^ 16 + c * 2 ^ 8 + d)) as (c0 & c1 & c2 & c3 & c4 & -> & _).
      { assert (a * 2 ^ 24 + b * 2 ^ 16 + c * 2 ^ 8 + d <> 0) by tauto. lia. }
      rewrite zlen_app, L. unfold ascii85_encode_length. change (zlen [c0; c1; c2; c3; c4]) with 5.
      replace (zlen l + 1 + 1 + 1 + 1 + 4 - 1) with (zlen l + 4 - 1 + 1 * 4) by lia.
      rewrite Z.div_add by lia. lia.
Qed.

Lemma pad4_length : forall l, zlen (pad4 l) = ascii85_decode_length (ascii85_encode_length (zlen l)).
Proof.
  induction l as [|a|a b|a b c|a b c d l IH] using list_ind4'; try reflexivity.
  cbn [pad4]. rewrite !zlen_cons, IH. unfold ascii85_decode_length, ascii85_encode_length.
  pose proof (zlen_nonneg Z l). lia.
Qed.

(** C04. Round trip when no aligned group is zero; the four bytes after the data must be
    readable because the encoder reads whole words. *)
Theorem ascii85_roundtrip_partial : forall data extra buff,
  bytes data -> bytes extra -> 4 <= zlen extra -> ~ has_zero_group data ->
  ascii85_decode_length (ascii85_encode_length (zlen data)) <= zlen buff ->
  exists text,
    ascii85_encode (data ++ extra) (zlen data) = Some text /\
    zlen text = ascii85_encode_length (zlen data) /\
    ascii85_decode buff text
      = Some (0, pad4 data ++ skipn (length (pad4 data)) buff, Some (zlen (pad4 data))).
Proof.
  intros data extra buff HB HX HL HZ Hlen.
  destruct (encode_decodes data [] extra (length data) HB HX HL HZ) as (t & E & D & L); [lia|].
  exists t. unfold ascii85_encode. unfold zlen at 1. rewrite Nat2Z.id.
  split; [exact E|]. split; [exact L|]. unfold ascii85_decode.
  pose proof (pad4_length data) as PL. rewrite <- PL in Hlen.
  specialize (D (length t) [] (firstn (length (pad4 data)) buff) (skipn (length (pad4 data)) buff)).
  cbn [app zlen length Z.of_nat] in D. rewrite firstn_skipn in D. apply D; [lia|].
  rewrite firstn_length. unfold zlen in Hlen. lia.
Qed.
Print Assumptions ascii85_roundtrip_partial.
Example ascii85_roundtrip_partial_ex :
  ~ has_zero_group [77; 97; 110; 32; 0; 5] /\
  ascii85_encode ([77; 97; 110; 32; 0; 5] ++ [9; 9; 9; 9]) 6
    = Some [57; 106; 113; 111; 94; 33; 33; 78; 63; 38] /\
  ascii85_decode (repeat 1 9) [57; 106; 113; 111; 94; 33; 33; 78; 63; 38]
    = Some (0, [77; 97; 110; 32; 0; 5; 0; 0; 1], Some 8).
Proof.
  split; [|split; vm_compute; reflexivity].
  cbn. intros [H|H]; [lia|]. inversion H; subst. inversion H3; subst. lia.
Qed.

(** C04 is false: four zero bytes encode to "z", which the decoder rejects (-EPROTO);
    and a zero group followed by another group is lost: decoding succeeds with wrong data. *)
Theorem ascii85_roundtrip_refuted :
  (exists data text buff,
     bytes data /\ ascii85_encode (data ++ [0; 0; 0; 0]) (zlen data) = Some text /\
     ascii85_decode_length (zlen text) <= zlen buff /\
     exists b, ascii85_decode buff text = Some (- EPROTO, b, None)) /\
  (exists data text buff b n,
     bytes data /\ ascii85_encode (data ++ [0; 0; 0; 0]) (zlen data) = Some text /\
     ascii85_decode_length (zlen text) <= zlen buff /\
     ascii85_decode buff text = Some (0, b, Some n) /\
     n < zlen data /\ firstn (Z.to_nat n) b <> firstn (Z.to_nat n) data).
Proof.
  split.
  - exists [0; 0; 0; 0], [122], (repeat 7 4). split; [repeat constructor; unfold byte; lia|].
    split; [vm_compute; reflexivity|]. split; [vm_compute; discriminate|].
    eexists. vm_compute. reflexivity.
  - exists [0; 0; 0; 0; 77; 97; 110; 32], [122; 57; 106; 113; 111; 94], (repeat 7 8),
      [77; 97; 110; 32; 7; 7; 7; 7], 4.
    split; [repeat constructor; unfold byte; lia|].
    split; [vm_compute; reflexivity|]. split; [vm_compute; discriminate|].
    split; [vm_compute; reflexivity|]. split; [reflexivity|]. vm_compute. discriminate.
Qed.
Print Assumptions ascii85_roundtrip_refuted.

(** Beyond C04: the decoder is total and memory safe on every text (it terminates within
    the length of the text and stays inside a buffer of the advertised size), and its only
    results are success, -EINVAL and -EPROTO. *)
Lemma decode_safe : forall n data buff index,
  (length data <= n)%nat -> 0 <= index ->
  index + ascii85_decode_length (zlen data) <= zlen buff ->
  exists ret b len, ascii85_decode_loop n buff data index = Some (ret, b, len) /\
    zlen b = zlen buff /\ (ret = 0 \/ ret = - EINVAL \/ ret = - EPROTO).
Proof.
  assert (SB : forall buff pos v, 0 <= pos -> pos + 4 <= zlen buff ->
     exists b, set_be32 buff pos v = Some b /\ zlen b = zlen buff).
  { intros buff pos v H0 H1. unfold set_be32.
    destruct (wr_spec Z buff pos (v / 2 ^ 24 mod 256)) as (b1 & -> & L1 & _); [lia|].
    destruct (wr_spec Z b1 (pos + 1) (v / 2 ^ 16 mod 256)) as (b2 & -> & L2 & _); [lia|].
    destruct (wr_spec Z b2 (pos + 2) (v / 2 ^ 8 mod 256)) as (b3 & -> & L3 & _); [lia|].
    destruct (wr_spec Z b3 (pos + 3) (v mod 256)) as (b4 & -> & L4 & _); [lia|].
    exists b4. split; [reflexivity|lia]. }
  induction n as [|n IH]; intros data buff index Hn H0 HL.
  - destruct data; [|cbn in Hn; lia]. exists 0, buff, (Some index). cbn. auto.
  - destruct data as [|c rest]; [exists 0, buff, (Some index); cbn; auto|].
    cbn [ascii85_decode_loop]. unfold ascii85_decode_length in *. rewrite zlen_cons in HL.
    pose proof (zlen_nonneg Z rest) as ZN. cbn [length] in Hn.
    assert (G : index + 4 <= zlen buff) by lia.
    destruct (Z.eqb_spec c 122).
    + unfold zero4. destruct (SB buff index 0 H0 G) as (b & -> & Lb).
      destruct rest as [|c0 [|c1 [|c2 [|c3 [|c4 data']]]]];
        try (exists (- EPROTO), b, None; auto; fail).
      destruct (forallb ascii85_char_ok [c0; c1; c2; c3; c4]);
        [|exists (- EINVAL), b, None; auto].
      destruct (SB b index (ascii85_value c0 c1 c2 c3 c4)) as (b2 & -> & Lb2); [lia|lia|].
      rewrite !zlen_cons in HL, ZN.
      destruct (IH data' b2 (index + 4)) as (ret & b3 & len & E & Lb3 & R);
        [cbn [length] in Hn; lia|lia| |exists ret, b3, len; split; [exact E|split; [lia|exact R]]].
      pose proof (zlen_nonneg Z data'). rewrite Lb2, Lb. lia.
    + destruct rest as [|c1 [|c2 [|c3 [|c4 data']]]];
        try (exists (- EPROTO), buff, None; auto; fail).
      destruct (forallb ascii85_char_ok [c; c1; c2; c3; c4]);
        [|exists (- EINVAL), buff, None; auto].
      destruct (SB buff index (ascii85_value c c1 c2 c3 c4)) as (b2 & -> & Lb2); [lia|lia|].
      rewrite !zlen_cons in HL, ZN.
      destruct (IH data' b2 (index + 4)) as (ret & b3 & len & E & Lb3 & R);
        [cbn [length] in Hn; lia|lia| |exists ret, b3, len; split; [exact E|split; [lia|exact R]]].
      pose proof (zlen_nonneg Z data'). rewrite Lb2. lia.
Qed.

Theorem ascii85_decode_memory_safe : forall data buff,
  ascii85_decode_length (zlen data) <= zlen buff ->
  exists ret b len, ascii85_decode buff data = Some (ret, b, len) /\
    zlen b = zlen buff /\ (ret = 0 \/ ret = - EINVAL \/ ret = - EPROTO).
Proof. intros. apply decode_safe; [lia|lia|exact H]. Qed.
Print Assumptions ascii85_decode_memory_safe.
Example ascii85_decode_memory_safe_ex :
  ascii85_decode_length (zlen [122; 122]) <= zlen [5; 5; 5; 5] /\
  ascii85_decode [5; 5; 5; 5] [122; 122] = Some (- EPROTO, [0; 0; 0; 0], None).
Proof. split; [vm_compute; discriminate|vm_compute; reflexivity]. Qed.

(** A text that decodes without error consists of the characters '!' to 'u' and of 'z'. *)
Lemma decode_alphabet : forall n buff data index b len, ascii85_decode_loop n buff data index = Some (0, b, len) ->
  forall c, In c data -> 33 <= c <= 117 \/ c = 122.
Proof.
  induction n as [|n IH]; intros buff data index b len H c Hc; destruct data as [|c0 data]; try (destruct Hc; fail); cbn [ascii85_decode_loop] in H; [discriminate|].
  assert (P : exists buff' data', (data' = c0 :: data /\ c0 <> 122 \/ data' = data /\ c0 = 122) /\
    match data' with
      | c0 :: c1 :: c2 :: c3 :: c4 :: data'' =>
        if forallb ascii85_char_ok [c0; c1; c2; c3; c4] then
          let* buff := set_be32 buff' index (ascii85_value c0 c1 c2 c3 c4) in
          ascii85_decode_loop n buff data'' (index + 4)
        else Some (- EINVAL, buff', None)
      | _ => Some (- EPROTO, buff', None)
    end = Some (0, b, len)).
  { destruct (Z.eqb_spec c0 122) as [E|E].
    - destruct (zero4 buff index) as [bz|]; [|discriminate]. exists bz, data. auto.
    - exists buff, (c0 :: data). auto. }
  clear H. destruct P as (buff' & data' & D & H).
  assert (Q : forall x, In x data' -> 33 <= x <= 117 \/ x = 122).
  { destruct data' as [|d0 [|d1 [|d2 [|d3 [|d4 data']]]]]; try discriminate.
    destruct (forallb ascii85_char_ok [d0; d1; d2; d3; d4]) eqn:F; [|discriminate].
    destruct (set_be32 buff' index (ascii85_value d0 d1 d2 d3 d4)) as [b2|]; [|discriminate].
    specialize (IH _ _ _ _ _ H). cbn [forallb] in F. unfold ascii85_char_ok in F.
    intros x [<-|[<-|[<-|[<-|[<-|Hx]]]]]; [lia|lia|lia|lia|lia|apply IH; exact Hx]. }
  destruct D as [[-> Hn]|[-> Hn]]; [apply Q; exact Hc|]. destruct Hc as [<-|Hc]; [auto|apply Q; exact Hc].
Qed.
Theorem ascii85_decode_alphabet : forall data buff b len, ascii85_decode buff data = Some (0, b, len) ->
  forall c, In c data -> 33 <= c <= 117 \/ c = 122.
Proof. intros data buff b len H. exact (decode_alphabet _ _ _ _ _ _ H). Qed.
Print Assumptions ascii85_decode_alphabet.
Example ascii85_decode_alphabet_ex : ascii85_decode [0; 0; 0; 0] [33; 33; 33; 33; 34] = Some (0, [0; 0; 0; 1], Some 4) /\ ascii85_decode [0; 0; 0; 0] [33; 33; 118; 33; 34] = Some (- EINVAL, [0; 0; 0; 0], None).
Proof. split; vm_compute; reflexivity. Qed.
