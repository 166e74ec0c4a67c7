(** * Proofs about base64 / base32 *)
From Verif Require Import Lib BaseModel BaseSpec.

Definition is_some_eq (o : option Z) (v : Z) : bool :=
  match o with Some x => x =? v | None => false end.

Lemma is_some_eq_true : forall o v, is_some_eq o v = true -> o = Some v.
Proof.
  intros [x|] v H; cbn in H; [|discriminate].
  apply Z.eqb_eq in H. congruence.
Qed.


(** ** Encoding tables against the alphabets *)
Notation tb x i := (Z.testbit x i).

Lemma e64_0 : forall a, 0 <= a < 256 ->
  rd base64_encode_table (Z.shiftr a 2)
  = Some (alpha64 (val_of [tb a 7; tb a 6; tb a 5; tb a 4; tb a 3; tb a 2])).
Proof.
  intros a Ha. apply is_some_eq_true. revert a Ha.
  apply all_below_spec with
    (P := fun a => is_some_eq (rd base64_encode_table (Z.shiftr a 2))
       (alpha64 (val_of [tb a 7; tb a 6; tb a 5; tb a 4; tb a 3; tb a 2]))).
  vm_compute. reflexivity.
Qed.

Lemma e64_1 : forall a b, 0 <= a < 256 -> 0 <= b < 256 ->
  rd base64_encode_table (Z.lor (Z.shiftl (Z.land a 3) 4) (Z.shiftr b 4))
  = Some (alpha64 (val_of [tb a 1; tb a 0; tb b 7; tb b 6; tb b 5; tb b 4])).
Proof.
  intros a b Ha Hb. apply is_some_eq_true. revert a b Ha Hb.
  apply all_below2_spec with
    (P := fun a b => is_some_eq (rd base64_encode_table (Z.lor (Z.shiftl (Z.land a 3) 4) (Z.shiftr b 4)))
       (alpha64 (val_of [tb a 1; tb a 0; tb b 7; tb b 6; tb b 5; tb b 4]))).
  vm_compute. reflexivity.
Qed.

Lemma e64_2 : forall a b, 0 <= a < 256 -> 0 <= b < 256 ->
  rd base64_encode_table (Z.lor (Z.shiftl (Z.land a 15) 2) (Z.shiftr b 6))
  = Some (alpha64 (val_of [tb a 3; tb a 2; tb a 1; tb a 0; tb b 7; tb b 6])).
Proof.
  intros a b Ha Hb. apply is_some_eq_true. revert a b Ha Hb.
  apply all_below2_spec with
    (P := fun a b => is_some_eq (rd base64_encode_table (Z.lor (Z.shiftl (Z.land a 15) 2) (Z.shiftr b 6)))
       (alpha64 (val_of [tb a 3; tb a 2; tb a 1; tb a 0; tb b 7; tb b 6]))).
  vm_compute. reflexivity.
Qed.

Lemma e64_3 : forall a, 0 <= a < 256 ->
  rd base64_encode_table (Z.land a 63)
  = Some (alpha64 (val_of [tb a 5; tb a 4; tb a 3; tb a 2; tb a 1; tb a 0])).
Proof.
  intros a Ha. apply is_some_eq_true. revert a Ha.
  apply all_below_spec with
    (P := fun a => is_some_eq (rd base64_encode_table (Z.land a 63))
       (alpha64 (val_of [tb a 5; tb a 4; tb a 3; tb a 2; tb a 1; tb a 0]))).
  vm_compute. reflexivity.
Qed.

Lemma e64_t1 : forall a, 0 <= a < 256 ->
  rd base64_encode_table (Z.shiftl (Z.land a 3) 4)
  = Some (alpha64 (val_of [tb a 1; tb a 0; false; false; false; false])).
Proof.
  intros a Ha. apply is_some_eq_true. revert a Ha.
  apply all_below_spec with
    (P := fun a => is_some_eq (rd base64_encode_table (Z.shiftl (Z.land a 3) 4))
       (alpha64 (val_of [tb a 1; tb a 0; false; false; false; false]))).
  vm_compute. reflexivity.
Qed.

Lemma e64_t2 : forall a, 0 <= a < 256 ->
  rd base64_encode_table (Z.shiftl (Z.land a 15) 2)
  = Some (alpha64 (val_of [tb a 3; tb a 2; tb a 1; tb a 0; false; false])).
Proof.
  intros a Ha. apply is_some_eq_true. revert a Ha.
  apply all_below_spec with
    (P := fun a => is_some_eq (rd base64_encode_table (Z.shiftl (Z.land a 15) 2))
       (alpha64 (val_of [tb a 3; tb a 2; tb a 1; tb a 0; false; false]))).
  vm_compute. reflexivity.
Qed.

Lemma padding_step : forall g n, g <> O -> padding g (g + n) = padding g n.
Proof.
  intros g n Hg. unfold padding. f_equal. f_equal.
  rewrite Nat.add_comm. rewrite <- (Nat.mul_1_l g) at 1. apply Nat.mod_add. exact Hg.
Qed.

Lemma bytes_cons : forall a l, bytes (a :: l) <-> byte a /\ bytes l.
Proof. intros. unfold bytes. split; [intros H; inversion H; auto | intros [? ?]; constructor; auto]. Qed.

Lemma list_ind3 : forall (P : list Z -> Prop),
  P [] -> (forall a, P [a]) -> (forall a b, P [a; b]) ->
  (forall a b c l, P l -> P (a :: b :: c :: l)) -> forall l, P l.
Proof.
  intros P H0 H1 H2 H3. fix IH 1. intros [|a [|b [|c l]]];
    [exact H0|apply H1|apply H2|apply H3; apply IH].
Qed.

Lemma base64_encode_correct : forall data,
  bytes data -> base64_encode data = Some (spec64_encode data).
Proof.
  induction data as [|a|a b|a b c l IH] using list_ind3; intros H.
  - reflexivity.
  - apply bytes_cons in H as [Ha _]. unfold byte in *.
    cbn [base64_encode base64_tail base64_finish Z.eqb Pos.eqb tl hd_error].
    rewrite e64_0, e64_t1 by assumption. reflexivity.
  - apply bytes_cons in H as [Ha H]. apply bytes_cons in H as [Hb _]. unfold byte in *.
    cbn [base64_encode base64_tail base64_finish Z.eqb Pos.eqb tl hd_error].
    rewrite e64_0, e64_1, e64_t2 by assumption. reflexivity.
  - apply bytes_cons in H as [Ha H]. apply bytes_cons in H as [Hb H].
    apply bytes_cons in H as [Hc H]. unfold byte in *.
    cbn [base64_encode]. rewrite (IH H). unfold base64_enc3.
    rewrite e64_0, e64_1, e64_2, e64_3 by assumption.
    unfold spec64_encode.
    change (bitstream 8 (a :: b :: c :: l)) with
      (bits_of 8 a ++ bits_of 8 b ++ bits_of 8 c ++ bitstream 8 l).
    cbn [bits_of seq rev app map sextets].
    cbn [length]. change (S (S (S (S (length (map alpha64 (sextets (bitstream 8 l))))))))
      with (4 + length (map alpha64 (sextets (bitstream 8 l))))%nat.
    rewrite padding_step by discriminate. reflexivity.
Qed.

(** ** base32 encoding *)
Ltac ex1 pr := intros a Ha; apply is_some_eq_true; revert a Ha;
  apply all_below_spec with (P := pr); vm_compute; reflexivity.
Ltac ex2 pr := intros a b Ha Hb; apply is_some_eq_true; revert a b Ha Hb;
  apply all_below2_spec with (P := pr); vm_compute; reflexivity.

Notation t32 i v := (is_some_eq (rd base32_encode_table i) (alpha32 (val_of v))).

Lemma e32_0 : forall a, 0 <= a < 256 ->
  rd base32_encode_table (Z.shiftr a 3)
  = Some (alpha32 (val_of [tb a 7; tb a 6; tb a 5; tb a 4; tb a 3])).
Proof. ex1 (fun a => t32 (Z.shiftr a 3) [tb a 7; tb a 6; tb a 5; tb a 4; tb a 3]). Qed.

Lemma e32_1 : forall a b, 0 <= a < 256 -> 0 <= b < 256 ->
  rd base32_encode_table (Z.lor (Z.shiftl (Z.land a 7) 2) (Z.shiftr b 6))
  = Some (alpha32 (val_of [tb a 2; tb a 1; tb a 0; tb b 7; tb b 6])).
Proof. ex2 (fun a b => t32 (Z.lor (Z.shiftl (Z.land a 7) 2) (Z.shiftr b 6)) [tb a 2; tb a 1; tb a 0; tb b 7; tb b 6]). Qed.

Lemma e32_2 : forall a, 0 <= a < 256 ->
  rd base32_encode_table (Z.land (Z.shiftr a 1) 31)
  = Some (alpha32 (val_of [tb a 5; tb a 4; tb a 3; tb a 2; tb a 1])).
Proof. ex1 (fun a => t32 (Z.land (Z.shiftr a 1) 31) [tb a 5; tb a 4; tb a 3; tb a 2; tb a 1]). Qed.

Lemma e32_3 : forall a b, 0 <= a < 256 -> 0 <= b < 256 ->
  rd base32_encode_table (Z.lor (Z.shiftl (Z.land a 1) 4) (Z.shiftr b 4))
  = Some (alpha32 (val_of [tb a 0; tb b 7; tb b 6; tb b 5; tb b 4])).
Proof. ex2 (fun a b => t32 (Z.lor (Z.shiftl (Z.land a 1) 4) (Z.shiftr b 4)) [tb a 0; tb b 7; tb b 6; tb b 5; tb b 4]). Qed.

Lemma e32_4 : forall a b, 0 <= a < 256 -> 0 <= b < 256 ->
  rd base32_encode_table (Z.lor (Z.shiftl (Z.land a 15) 1) (Z.shiftr b 7))
  = Some (alpha32 (val_of [tb a 3; tb a 2; tb a 1; tb a 0; tb b 7])).
Proof. ex2 (fun a b => t32 (Z.lor (Z.shiftl (Z.land a 15) 1) (Z.shiftr b 7)) [tb a 3; tb a 2; tb a 1; tb a 0; tb b 7]). Qed.

Lemma e32_5 : forall a, 0 <= a < 256 ->
  rd base32_encode_table (Z.land (Z.shiftr a 2) 31)
  = Some (alpha32 (val_of [tb a 6; tb a 5; tb a 4; tb a 3; tb a 2])).
Proof. ex1 (fun a => t32 (Z.land (Z.shiftr a 2) 31) [tb a 6; tb a 5; tb a 4; tb a 3; tb a 2]). Qed.

Lemma e32_6 : forall a b, 0 <= a < 256 -> 0 <= b < 256 ->
  rd base32_encode_table (Z.lor (Z.shiftl (Z.land a 3) 3) (Z.shiftr b 5))
  = Some (alpha32 (val_of [tb a 1; tb a 0; tb b 7; tb b 6; tb b 5])).
Proof. ex2 (fun a b => t32 (Z.lor (Z.shiftl (Z.land a 3) 3) (Z.shiftr b 5)) [tb a 1; tb a 0; tb b 7; tb b 6; tb b 5]). Qed.

Lemma e32_7 : forall a, 0 <= a < 256 ->
  rd base32_encode_table (Z.land a 31)
  = Some (alpha32 (val_of [tb a 4; tb a 3; tb a 2; tb a 1; tb a 0])).
Proof. ex1 (fun a => t32 (Z.land a 31) [tb a 4; tb a 3; tb a 2; tb a 1; tb a 0]). Qed.

Lemma e32_t1 : forall a, 0 <= a < 256 ->
  rd base32_encode_table (Z.shiftl (Z.land a 7) 2)
  = Some (alpha32 (val_of [tb a 2; tb a 1; tb a 0; false; false])).
Proof. ex1 (fun a => t32 (Z.shiftl (Z.land a 7) 2) [tb a 2; tb a 1; tb a 0; false; false]). Qed.

Lemma e32_t2 : forall a, 0 <= a < 256 ->
  rd base32_encode_table (Z.shiftl (Z.land a 1) 4)
  = Some (alpha32 (val_of [tb a 0; false; false; false; false])).
Proof. ex1 (fun a => t32 (Z.shiftl (Z.land a 1) 4) [tb a 0; false; false; false; false]). Qed.

Lemma e32_t3 : forall a, 0 <= a < 256 ->
  rd base32_encode_table (Z.shiftl (Z.land a 15) 1)
  = Some (alpha32 (val_of [tb a 3; tb a 2; tb a 1; tb a 0; false])).
Proof. ex1 (fun a => t32 (Z.shiftl (Z.land a 15) 1) [tb a 3; tb a 2; tb a 1; tb a 0; false]). Qed.

Lemma e32_t4 : forall a, 0 <= a < 256 ->
  rd base32_encode_table (Z.shiftl (Z.land a 3) 3)
  = Some (alpha32 (val_of [tb a 1; tb a 0; false; false; false])).
Proof. ex1 (fun a => t32 (Z.shiftl (Z.land a 3) 3) [tb a 1; tb a 0; false; false; false]). Qed.

Lemma list_ind5 : forall (P : list Z -> Prop),
  P [] -> (forall a, P [a]) -> (forall a b, P [a; b]) -> (forall a b c, P [a; b; c]) ->
  (forall a b c d, P [a; b; c; d]) ->
  (forall a b c d e l, P l -> P (a :: b :: c :: d :: e :: l)) -> forall l, P l.
Proof.
  intros P H0 H1 H2 H3 H4 H5. fix IH 1. intros [|a [|b [|c [|d [|e l]]]]];
    [exact H0|apply H1|apply H2|apply H3|apply H4|apply H5; apply IH].
Qed.

Ltac split_bytes :=
  repeat match goal with
  | H : bytes (_ :: _) |- _ => apply bytes_cons in H as [? H]
  end; unfold byte in *.

Lemma base32_encode_correct : forall data,
  bytes data -> base32_encode data = Some (spec32_encode data).
Proof.
  induction data as [|a|a b|a b c|a b c d|a b c d e l IH] using list_ind5; intros H.
  - reflexivity.
  - split_bytes.
    cbn [base32_encode base32_tail base32_finish Z.eqb Pos.eqb tl hd_error].
    rewrite e32_0, e32_t1 by assumption. reflexivity.
  - split_bytes.
    cbn [base32_encode base32_tail base32_finish Z.eqb Pos.eqb tl hd_error].
    rewrite e32_0, e32_1, e32_2, e32_t2 by assumption. reflexivity.
  - split_bytes.
    cbn [base32_encode base32_tail base32_finish Z.eqb Pos.eqb tl hd_error].
    rewrite e32_0, e32_1, e32_2, e32_3, e32_t3 by assumption. reflexivity.
  - split_bytes.
    cbn [base32_encode base32_tail base32_finish Z.eqb Pos.eqb tl hd_error].
    rewrite e32_0, e32_1, e32_2, e32_3, e32_4, e32_5, e32_t4 by assumption. reflexivity.
  - split_bytes. cbn [base32_encode]. rewrite (IH H). unfold base32_enc5.
    rewrite e32_0, e32_1, e32_2, e32_3, e32_4, e32_5, e32_6, e32_7 by assumption.
    unfold spec32_encode.
    change (bitstream 8 (a :: b :: c :: d :: e :: l)) with
      (bits_of 8 a ++ bits_of 8 b ++ bits_of 8 c ++ bits_of 8 d ++ bits_of 8 e ++ bitstream 8 l).
    cbn [bits_of seq rev app map quintets].
    cbn [length].
    change (S (S (S (S (S (S (S (S (length (map alpha32 (quintets (bitstream 8 l))))))))))))
      with (8 + length (map alpha32 (quintets (bitstream 8 l))))%nat.
    rewrite padding_step by discriminate. reflexivity.
Qed.

(** ** Decoding *)
Lemma rd_pre : forall A (pre l : list A) k, 0 <= k -> rd (pre ++ l) (zlen pre + k) = rd l k.
Proof.
  intros A pre l k Hk. unfold rd, zlen.
  destruct (Z.ltb_spec (Z.of_nat (length pre) + k) 0); [lia|].
  destruct (Z.ltb_spec k 0); [lia|].
  rewrite nth_error_app2 by lia. f_equal. lia.
Qed.

Lemma wr_pre : forall A (pre l : list A) k v, 0 <= k ->
  wr (pre ++ l) (zlen pre + k) v = option_map (app pre) (wr l k v).
Proof.
  intros A pre l k v Hk. unfold wr, zlen.
  destruct (Z.ltb_spec (Z.of_nat (length pre) + k) 0); [lia|].
  destruct (Z.ltb_spec k 0); [lia|].
  replace (Z.to_nat (Z.of_nat (length pre) + k)) with (length pre + Z.to_nat k)%nat by lia.
  induction pre as [|h pre IH]; cbn [app length Nat.add wr_nat].
  - destruct (wr_nat l (Z.to_nat k) v); reflexivity.
  - cbn [length] in H. rewrite IH by lia. destruct (wr_nat l (Z.to_nat k) v); reflexivity.
Qed.

(** decode tables against the alphabets *)
Definition tab_of (alpha : Z -> Z) (n : nat) (c : Z) : Z :=
  match char_value alpha n c with Some v => v | None => 255 end.

Lemma lk64 : forall c, 0 <= c < 256 ->
  decode_lookup base64_decode_inits c = tab_of alpha64 64 c.
Proof.
  intros c Hc. apply Z.eqb_eq. revert c Hc.
  apply all_below_spec with
    (P := fun c => decode_lookup base64_decode_inits c =? tab_of alpha64 64 c).
  vm_compute. reflexivity.
Qed.

Lemma lk32 : forall c, 0 <= c < 256 ->
  decode_lookup base32_decode_inits c = tab_of alpha32 32 c.
Proof.
  intros c Hc. apply Z.eqb_eq. revert c Hc.
  apply all_below_spec with
    (P := fun c => decode_lookup base32_decode_inits c =? tab_of alpha32 32 c).
  vm_compute. reflexivity.
Qed.

Lemma char_value_range : forall alpha n c v,
  char_value alpha n c = Some v -> 0 <= v < Z.of_nat n /\ alpha v = c.
Proof.
  unfold char_value. intros alpha n c v H. apply find_some in H as [Hin He].
  apply zseq_in in Hin. apply Z.eqb_eq in He. split; [lia|exact He].
Qed.

Lemma char_value_none : forall alpha n c,
  char_value alpha n c = None -> ~ in_alphabet alpha n c.
Proof.
  unfold char_value. intros alpha n c H (v & Hv & He).
  apply find_none with (x := v) in H; [|apply zseq_in; lia].
  apply Z.eqb_neq in H. contradiction.
Qed.

Lemma char_value_in : forall alpha n c v,
  char_value alpha n c = Some v -> in_alphabet alpha n c.
Proof. intros alpha n c v H. apply char_value_range in H as [? ?]. exists v. auto. Qed.

Lemma cv64_eq : char_value alpha64 64 61 = None. Proof. reflexivity. Qed.
Lemma cv32_eq : char_value alpha32 32 61 = None. Proof. reflexivity. Qed.

Definition valid (alpha : Z -> Z) (n : nat) (c : Z) : bool :=
  match char_value alpha n c with Some _ => true | None => false end.

Lemma land3_next : forall b, Z.land (w32 (b + 1)) 3 = (Z.land b 3 + 1) mod 4.
Proof.
  intros b. change 3 with (Z.ones 2) at 1 2. rewrite !Z.land_ones by lia.
  unfold w32. change (2 ^ 2) with 4.
  rewrite <- Zmod_div_mod; [|lia|lia|exists (2 ^ 30); reflexivity].
  rewrite Zplus_mod_idemp_l. reflexivity.
Qed.

Lemma land7_next : forall b, Z.land (w32 (b + 1)) 7 = (Z.land b 7 + 1) mod 8.
Proof.
  intros b. change 7 with (Z.ones 3) at 1 2. rewrite !Z.land_ones by lia.
  unfold w32. change (2 ^ 3) with 8.
  rewrite <- Zmod_div_mod; [|lia|lia|exists (2 ^ 29); reflexivity].
  rewrite Zplus_mod_idemp_l. reflexivity.
Qed.

(** The decoder's stores against the bit-group reading, over all character values. *)
Ltac exz1 n pr := intros; apply Z.eqb_eq;
  match goal with H : 0 <= ?a < _ |- _ => revert a H end;
  apply all_below_spec with (P := pr); vm_compute; reflexivity.

Lemma d64_0 : forall a b, 0 <= a < 64 -> 0 <= b < 64 ->
  Z.lor (w8 (Z.shiftl a 2)) (Z.land (Z.shiftr b 4) 3)
  = val_of [tb a 5; tb a 4; tb a 3; tb a 2; tb a 1; tb a 0; tb b 5; tb b 4].
Proof.
  intros a b Ha Hb. apply Z.eqb_eq. revert a b Ha Hb.
  apply all_below2_spec with (P := fun a b => Z.lor (w8 (Z.shiftl a 2)) (Z.land (Z.shiftr b 4) 3)
   =? val_of [tb a 5; tb a 4; tb a 3; tb a 2; tb a 1; tb a 0; tb b 5; tb b 4]).
  vm_compute. reflexivity.
Qed.

Lemma d64_1 : forall a b, 0 <= a < 64 -> 0 <= b < 64 ->
  Z.lor (w8 (Z.shiftl a 4)) (Z.land (Z.shiftr b 2) 15)
  = val_of [tb a 3; tb a 2; tb a 1; tb a 0; tb b 5; tb b 4; tb b 3; tb b 2].
Proof.
  intros a b Ha Hb. apply Z.eqb_eq. revert a b Ha Hb.
  apply all_below2_spec with (P := fun a b => Z.lor (w8 (Z.shiftl a 4)) (Z.land (Z.shiftr b 2) 15)
   =? val_of [tb a 3; tb a 2; tb a 1; tb a 0; tb b 5; tb b 4; tb b 3; tb b 2]).
  vm_compute. reflexivity.
Qed.

Lemma d64_2 : forall a b, 0 <= a < 64 -> 0 <= b < 64 ->
  Z.lor (w8 (Z.shiftl a 6)) b
  = val_of [tb a 1; tb a 0; tb b 5; tb b 4; tb b 3; tb b 2; tb b 1; tb b 0].
Proof.
  intros a b Ha Hb. apply Z.eqb_eq. revert a b Ha Hb.
  apply all_below2_spec with (P := fun a b => Z.lor (w8 (Z.shiftl a 6)) b
   =? val_of [tb a 1; tb a 0; tb b 5; tb b 4; tb b 3; tb b 2; tb b 1; tb b 0]).
  vm_compute. reflexivity.
Qed.

(** [good alpha n D text pre mid post r]: what the decoder must have done. *)
Definition dec_post (alpha : Z -> Z) (n : nat) (D : list Z) (text : list Z)
  (pre mid post : list Z) (r : option (Z * list Z)) : Prop :=
  exists ret mid',
    r = Some (ret, pre ++ mid' ++ post) /\ length mid' = length mid /\
    if forallb (valid alpha n) (body text)
    then ret = 0 /\ firstn (length D) mid' = D
    else ret = -22.

Lemma list_ind4 : forall (P : list Z -> Prop),
  P [] -> (forall a, P [a]) -> (forall a b, P [a; b]) -> (forall a b c, P [a; b; c]) ->
  (forall a b c d l, P l -> P (a :: b :: c :: d :: l)) -> forall l, P l.
Proof.
  intros P H0 H1 H2 H3 H4. fix IH 1. intros [|a [|b [|c [|d l]]]];
    [exact H0|apply H1|apply H2|apply H3|apply H4; apply IH].
Qed.

Lemma wr0 : forall A (x v : A) q, wr (x :: q) 0 v = Some (v :: q). Proof. reflexivity. Qed.
Lemma wr1 : forall A (x0 x v : A) q, wr (x0 :: x :: q) 1 v = Some (x0 :: v :: q). Proof. reflexivity. Qed.
Lemma wr2 : forall A (x0 x1 x v : A) q, wr (x0 :: x1 :: x :: q) 2 v = Some (x0 :: x1 :: v :: q). Proof. reflexivity. Qed.
Lemma wr3 : forall A (x0 x1 x2 x v : A) q, wr (x0 :: x1 :: x2 :: x :: q) 3 v = Some (x0 :: x1 :: x2 :: v :: q). Proof. reflexivity. Qed.
Lemma wr4 : forall A (x0 x1 x2 x3 x v : A) q, wr (x0 :: x1 :: x2 :: x3 :: x :: q) 4 v = Some (x0 :: x1 :: x2 :: x3 :: v :: q). Proof. reflexivity. Qed.
Lemma rd0 : forall A (x : A) q, rd (x :: q) 0 = Some x. Proof. reflexivity. Qed.
Lemma rd1 : forall A (x0 x : A) q, rd (x0 :: x :: q) 1 = Some x. Proof. reflexivity. Qed.
Lemma rd2 : forall A (x0 x1 x : A) q, rd (x0 :: x1 :: x :: q) 2 = Some x. Proof. reflexivity. Qed.
Lemma rd3 : forall A (x0 x1 x2 x : A) q, rd (x0 :: x1 :: x2 :: x :: q) 3 = Some x. Proof. reflexivity. Qed.
Lemma rd4 : forall A (x0 x1 x2 x3 x : A) q, rd (x0 :: x1 :: x2 :: x3 :: x :: q) 4 = Some x. Proof. reflexivity. Qed.

Ltac mem_step :=
  first [ rewrite rd_pre by lia | rewrite wr_pre by lia ];
  first [ rewrite rd0 | rewrite rd1 | rewrite rd2 | rewrite rd3 | rewrite rd4
        | rewrite wr0 | rewrite wr1 | rewrite wr2 | rewrite wr3 | rewrite wr4 ];
  cbn [option_map]; cbv beta iota.

Ltac store_tac :=
  intros;
  match goal with H : Z.land _ _ = _ |- _ => rewrite H end;
  cbn [Z.eqb Pos.eqb];
  repeat (mem_step; rewrite <- ?Z.add_assoc; cbn [Z.add Pos.add Pos.succ]);
  reflexivity.

(** Effect of the stores of one base64 group, by the number of characters in it. *)
Lemma s64_0 : forall pre x q b v, Z.land b 3 = 0 ->
  base64_dec_store (pre ++ x :: q) (zlen pre + 0) b v
  = Some (pre ++ w8 (Z.shiftl v 2) :: q, zlen pre + 0).
Proof. unfold base64_dec_store. store_tac. Qed.
Lemma s64_1 : forall pre x y q b v, Z.land b 3 = 1 ->
  base64_dec_store (pre ++ x :: y :: q) (zlen pre + 0) b v
  = Some (pre ++ Z.lor x (Z.land (Z.shiftr v 4) 3) :: w8 (Z.shiftl v 4) :: q, zlen pre + 1).
Proof. unfold base64_dec_store. store_tac. Qed.
Lemma s64_2 : forall pre x y z q b v, Z.land b 3 = 2 ->
  base64_dec_store (pre ++ x :: y :: z :: q) (zlen pre + 1) b v
  = Some (pre ++ x :: Z.lor y (Z.land (Z.shiftr v 2) 15) :: w8 (Z.shiftl v 6) :: q, zlen pre + 2).
Proof. unfold base64_dec_store. store_tac. Qed.
Lemma s64_3 : forall pre x y z q b v, Z.land b 3 = 3 ->
  base64_dec_store (pre ++ x :: y :: z :: q) (zlen pre + 2) b v
  = Some (pre ++ x :: y :: Z.lor z v :: q, zlen pre + 3).
Proof. unfold base64_dec_store. store_tac. Qed.

Lemma firstn_exact : forall A (l m : list A) n, n = length l -> firstn n (l ++ m) = l.
Proof.
  intros A l m n ->. rewrite firstn_app, Nat.sub_diag, firstn_all. cbn [firstn]. apply app_nil_r.
Qed.

Ltac next_char lk cveq c :=
  match goal with Hc : 0 <= c < 256 |- _ =>
    rewrite (lk c Hc); unfold tab_of;
    let v := fresh "v" in let E := fresh "E" in
    destruct (char_value _ _ c) as [v|] eqn:E;
    [ let R := fresh "R" in
      pose proof (proj1 (char_value_range _ _ _ _ E)) as R;
      replace (v =? 255) with false by (symmetry; apply Z.eqb_neq; lia);
      let N := fresh "N" in
      assert (N : (c =? 61) = false)
        by (apply Z.eqb_neq; intros ->; rewrite cveq in E; discriminate);
      cbv iota
    | change (255 =? 255) with true; cbv iota;
      let N := fresh "N" in destruct (c =? 61) eqn:N; cbv iota ]
  end.

(** closes a goal [dec_post] when the decoder has stopped *)
Ltac dec_done m :=
  unfold dec_post; eexists; exists m; split; [reflexivity|]; split;
  [ cbn [length] in *; lia
  | cbn [body];
    repeat match goal with
    | N : (?c =? 61) = _ |- context[?c =? equals_sign] =>
        change (c =? equals_sign) with (c =? 61); rewrite N
    end; cbv iota; cbn [body forallb];
    repeat match goal with
    | E : char_value ?al ?n ?c = _ |- context[valid ?al ?n ?c] =>
        unfold valid at 1; rewrite E; cbv iota; cbn [andb]
    end ].

Ltac spec_body :=
  cbn [body];
  repeat match goal with
  | N : (?c =? 61) = _ |- context[?c =? equals_sign] =>
      change (c =? equals_sign) with (c =? 61); rewrite N
  end; cbv iota; cbn [body map];
  repeat match goal with
  | E : char_value ?al ?n ?c = Some ?v |- context[value_or_0 ?al ?n ?c] =>
      replace (value_or_0 al n c) with v by (unfold value_or_0; rewrite E; reflexivity)
  end.

Ltac st64 lem :=
  cbn [app]; rewrite lem by (first [assumption | rewrite !land3_next; 
     match goal with H : Z.land _ 3 = 0 |- _ => rewrite H end; reflexivity]);
  cbv beta iota zeta; cbn [base64_decode_loop].

Ltac fin64 m :=
  dec_done m;
  first [ reflexivity |
    split; [reflexivity|];
    unfold spec64_decode; spec_body;
    cbn [bitstream flat_map bits_of seq rev app map octets length firstn Z.of_nat Pos.of_succ_nat Pos.succ];
    rewrite ?d64_0, ?d64_1, ?d64_2 by assumption; reflexivity ].

Lemma dec64_loop : forall text, bytes text ->
  forall pre mid post b,
    (4 * length mid >= 3 * length text)%nat -> (exists k, length mid = 3 * k)%nat ->
    Z.land b 3 = 0 ->
    dec_post alpha64 64 (spec64_decode text) text pre mid post
      (base64_decode_loop (pre ++ mid ++ post) (zlen pre + 0) b text).
Proof.
  induction text as [|c0|c0 c1|c0 c1 c2|c0 c1 c2 c3 l IH] using list_ind4;
    intros HB pre mid post b Hlen [k Hk] Hb.
  - exists 0, mid. cbn. auto.
  - split_bytes. destruct mid as [|x [|y [|z mid]]]; [cbn [length] in *; lia..|].
    cbn [base64_decode_loop].
    next_char lk64 cv64_eq c0; [|fin64 (x :: y :: z :: mid)..].
    st64 s64_0. fin64 (w8 (Z.shiftl v 2) :: y :: z :: mid).
  - split_bytes. destruct mid as [|x [|y [|z mid]]]; [cbn [length] in *; lia..|].
    cbn [base64_decode_loop].
    next_char lk64 cv64_eq c0; [|fin64 (x :: y :: z :: mid)..].
    st64 s64_0.
    next_char lk64 cv64_eq c1; [|fin64 (w8 (Z.shiftl v 2) :: y :: z :: mid)..].
    st64 s64_1.
    fin64 (Z.lor (w8 (Z.shiftl v 2)) (Z.land (Z.shiftr v0 4) 3) :: w8 (Z.shiftl v0 4) :: z :: mid).
  - split_bytes. destruct mid as [|x [|y [|z mid]]]; [cbn [length] in *; lia..|].
    cbn [base64_decode_loop].
    next_char lk64 cv64_eq c0; [|fin64 (x :: y :: z :: mid)..].
    st64 s64_0.
    next_char lk64 cv64_eq c1; [|fin64 (w8 (Z.shiftl v 2) :: y :: z :: mid)..].
    st64 s64_1.
    next_char lk64 cv64_eq c2;
      [|fin64 (Z.lor (w8 (Z.shiftl v 2)) (Z.land (Z.shiftr v0 4) 3) :: w8 (Z.shiftl v0 4) :: z :: mid)..].
    st64 s64_2.
    fin64 (Z.lor (w8 (Z.shiftl v 2)) (Z.land (Z.shiftr v0 4) 3)
           :: Z.lor (w8 (Z.shiftl v0 4)) (Z.land (Z.shiftr v1 2) 15) :: w8 (Z.shiftl v1 6) :: mid).
  - split_bytes. destruct mid as [|x [|y [|z mid]]]; [cbn [length] in *; lia..|].
    cbn [base64_decode_loop].
    next_char lk64 cv64_eq c0; [|fin64 (x :: y :: z :: mid)..].
    st64 s64_0.
    next_char lk64 cv64_eq c1; [|fin64 (w8 (Z.shiftl v 2) :: y :: z :: mid)..].
    st64 s64_1.
    next_char lk64 cv64_eq c2;
      [|fin64 (Z.lor (w8 (Z.shiftl v 2)) (Z.land (Z.shiftr v0 4) 3) :: w8 (Z.shiftl v0 4) :: z :: mid)..].
    st64 s64_2.
    next_char lk64 cv64_eq c3;
      [|fin64 (Z.lor (w8 (Z.shiftl v 2)) (Z.land (Z.shiftr v0 4) 3)
           :: Z.lor (w8 (Z.shiftl v0 4)) (Z.land (Z.shiftr v1 2) 15) :: w8 (Z.shiftl v1 6) :: mid)..].
    st64 s64_3.
    set (B0 := Z.lor (w8 (Z.shiftl v 2)) _). set (B1 := Z.lor (w8 (Z.shiftl v0 4)) _).
    set (B2 := Z.lor (w8 (Z.shiftl v1 6)) _).
    replace (pre ++ B0 :: B1 :: B2 :: mid ++ post) with ((pre ++ [B0; B1; B2]) ++ mid ++ post)
      by (rewrite <- app_assoc; reflexivity).
    replace (zlen pre + 3) with (zlen (pre ++ [B0; B1; B2]) + 0)
      by (rewrite zlen_app; cbn; lia).
    destruct (IH HB (pre ++ [B0; B1; B2]) mid post (w32 (w32 (w32 (w32 (b + 1) + 1) + 1) + 1)))
      as (ret & mid' & -> & Lm & Hr).
    { cbn [length] in *. lia. }
    { exists (k - 1)%nat. cbn [length] in *. lia. }
    { rewrite !land3_next, Hb. reflexivity. }
    exists ret, (B0 :: B1 :: B2 :: mid'). split; [rewrite <- app_assoc; reflexivity|].
    split; [cbn [length]; lia|].
    cbn [body]. change equals_sign with 61. rewrite N, N0, N1, N2. cbn [forallb].
    unfold valid at 1 2 3 4. rewrite E, E0, E1, E2. cbn [andb].
    destruct (forallb (valid alpha64 64) (body l)); [|exact Hr].
    destruct Hr as [Hr0 Hr]. split; [exact Hr0|].
    unfold spec64_decode. spec_body.
    replace (octets (bitstream 6 (v :: v0 :: v1 :: v2 :: map (value_or_0 alpha64 64) (body l))))
      with (B0 :: B1 :: B2 :: spec64_decode l).
    + cbn [length firstn]. rewrite Hr. reflexivity.
    + unfold spec64_decode. 
      change (bitstream 6 (v :: v0 :: v1 :: v2 :: map (value_or_0 alpha64 64) (body l)))
        with (bits_of 6 v ++ bits_of 6 v0 ++ bits_of 6 v1 ++ bits_of 6 v2
               ++ bitstream 6 (map (value_or_0 alpha64 64) (body l))).
      unfold B0, B1, B2. rewrite d64_0, d64_1, d64_2 by assumption. reflexivity.
Qed.

(** ** base32 decoding *)
Lemma s32_0 : forall pre x q b v, Z.land b 7 = 0 ->
  base32_dec_store (pre ++ x :: q) (zlen pre + 0) b v
  = Some (pre ++ w8 (Z.shiftl v 3) :: q, zlen pre + 0).
Proof. unfold base32_dec_store. store_tac. Qed.
Lemma s32_1 : forall pre x y q b v, Z.land b 7 = 1 ->
  base32_dec_store (pre ++ x :: y :: q) (zlen pre + 0) b v
  = Some (pre ++ Z.lor (x) (Z.land (Z.shiftr v 2) 7) :: w8 (Z.shiftl v 6) :: q, zlen pre + 1).
Proof. unfold base32_dec_store. store_tac. Qed.
Lemma s32_2 : forall pre x y q b v, Z.land b 7 = 2 ->
  base32_dec_store (pre ++ x :: y :: q) (zlen pre + 1) b v
  = Some (pre ++ x :: w8 (Z.lor (y) (Z.shiftl (Z.land v 31) 1)) :: q, zlen pre + 1).
Proof. unfold base32_dec_store. store_tac. Qed.
Lemma s32_3 : forall pre x y z q b v, Z.land b 7 = 3 ->
  base32_dec_store (pre ++ x :: y :: z :: q) (zlen pre + 1) b v
  = Some (pre ++ x :: Z.lor (y) (Z.land (Z.shiftr v 4) 1) :: w8 (Z.shiftl v 4) :: q, zlen pre + 2).
Proof. unfold base32_dec_store. store_tac. Qed.
Lemma s32_4 : forall pre x y z w q b v, Z.land b 7 = 4 ->
  base32_dec_store (pre ++ x :: y :: z :: w :: q) (zlen pre + 2) b v
  = Some (pre ++ x :: y :: Z.lor (z) (Z.land (Z.shiftr v 1) 15) :: w8 (Z.shiftl v 7) :: q, zlen pre + 3).
Proof. unfold base32_dec_store. store_tac. Qed.
Lemma s32_5 : forall pre x y z w q b v, Z.land b 7 = 5 ->
  base32_dec_store (pre ++ x :: y :: z :: w :: q) (zlen pre + 3) b v
  = Some (pre ++ x :: y :: z :: w8 (Z.lor (w) (Z.shiftl (Z.land v 31) 2)) :: q, zlen pre + 3).
Proof. unfold base32_dec_store. store_tac. Qed.
Lemma s32_6 : forall pre x y z w u q b v, Z.land b 7 = 6 ->
  base32_dec_store (pre ++ x :: y :: z :: w :: u :: q) (zlen pre + 3) b v
  = Some (pre ++ x :: y :: z :: Z.lor (w) (Z.land (Z.shiftr v 3) 3) :: w8 (Z.shiftl v 5) :: q, zlen pre + 4).
Proof. unfold base32_dec_store. store_tac. Qed.
Lemma s32_7 : forall pre x y z w u q b v, Z.land b 7 = 7 ->
  base32_dec_store (pre ++ x :: y :: z :: w :: u :: q) (zlen pre + 4) b v
  = Some (pre ++ x :: y :: z :: w :: Z.lor (u) (Z.land v 31) :: q, zlen pre + 5).
Proof. unfold base32_dec_store. store_tac. Qed.
Lemma d32_0 : forall a b, 0 <= a < 32 -> 0 <= b < 32 ->
  Z.lor (w8 (Z.shiftl a 3)) (Z.land (Z.shiftr b 2) 7)
  = val_of [tb a 4; tb a 3; tb a 2; tb a 1; tb a 0; tb b 4; tb b 3; tb b 2].
Proof.
  intros a b Ha Hb. apply Z.eqb_eq. revert a b Ha Hb.
  apply all_below2_spec with (P := fun a b => Z.lor (w8 (Z.shiftl a 3)) (Z.land (Z.shiftr b 2) 7) =? val_of [tb a 4; tb a 3; tb a 2; tb a 1; tb a 0; tb b 4; tb b 3; tb b 2]).
  vm_compute. reflexivity.
Qed.
Lemma d32_1 : forall a b c, 0 <= a < 32 -> 0 <= b < 32 -> 0 <= c < 32 ->
  Z.lor (w8 (Z.lor (w8 (Z.shiftl a 6)) (Z.shiftl (Z.land b 31) 1))) (Z.land (Z.shiftr c 4) 1)
  = val_of [tb a 1; tb a 0; tb b 4; tb b 3; tb b 2; tb b 1; tb b 0; tb c 4].
Proof.
  intros a b c Ha Hb Hc. apply Z.eqb_eq. revert a b c Ha Hb Hc.
  apply all_below3_spec with (P := fun a b c => Z.lor (w8 (Z.lor (w8 (Z.shiftl a 6)) (Z.shiftl (Z.land b 31) 1))) (Z.land (Z.shiftr c 4) 1) =? val_of [tb a 1; tb a 0; tb b 4; tb b 3; tb b 2; tb b 1; tb b 0; tb c 4]).
  vm_compute. reflexivity.
Qed.
Lemma d32_2 : forall a b, 0 <= a < 32 -> 0 <= b < 32 ->
  Z.lor (w8 (Z.shiftl a 4)) (Z.land (Z.shiftr b 1) 15)
  = val_of [tb a 3; tb a 2; tb a 1; tb a 0; tb b 4; tb b 3; tb b 2; tb b 1].
Proof.
  intros a b Ha Hb. apply Z.eqb_eq. revert a b Ha Hb.
  apply all_below2_spec with (P := fun a b => Z.lor (w8 (Z.shiftl a 4)) (Z.land (Z.shiftr b 1) 15) =? val_of [tb a 3; tb a 2; tb a 1; tb a 0; tb b 4; tb b 3; tb b 2; tb b 1]).
  vm_compute. reflexivity.
Qed.
Lemma d32_3 : forall a b c, 0 <= a < 32 -> 0 <= b < 32 -> 0 <= c < 32 ->
  Z.lor (w8 (Z.lor (w8 (Z.shiftl a 7)) (Z.shiftl (Z.land b 31) 2))) (Z.land (Z.shiftr c 3) 3)
  = val_of [tb a 0; tb b 4; tb b 3; tb b 2; tb b 1; tb b 0; tb c 4; tb c 3].
Proof.
  intros a b c Ha Hb Hc. apply Z.eqb_eq. revert a b c Ha Hb Hc.
  apply all_below3_spec with (P := fun a b c => Z.lor (w8 (Z.lor (w8 (Z.shiftl a 7)) (Z.shiftl (Z.land b 31) 2))) (Z.land (Z.shiftr c 3) 3) =? val_of [tb a 0; tb b 4; tb b 3; tb b 2; tb b 1; tb b 0; tb c 4; tb c 3]).
  vm_compute. reflexivity.
Qed.
Lemma d32_4 : forall a b, 0 <= a < 32 -> 0 <= b < 32 ->
  Z.lor (w8 (Z.shiftl a 5)) (Z.land b 31)
  = val_of [tb a 2; tb a 1; tb a 0; tb b 4; tb b 3; tb b 2; tb b 1; tb b 0].
Proof.
  intros a b Ha Hb. apply Z.eqb_eq. revert a b Ha Hb.
  apply all_below2_spec with (P := fun a b => Z.lor (w8 (Z.shiftl a 5)) (Z.land b 31) =? val_of [tb a 2; tb a 1; tb a 0; tb b 4; tb b 3; tb b 2; tb b 1; tb b 0]).
  vm_compute. reflexivity.
Qed.

Lemma list_ind8 : forall (P : list Z -> Prop),
  P [] -> (forall a, P [a]) -> (forall a b, P [a; b]) -> (forall a b c, P [a; b; c]) ->
  (forall a b c d, P [a; b; c; d]) -> (forall a b c d e, P [a; b; c; d; e]) ->
  (forall a b c d e f, P [a; b; c; d; e; f]) -> (forall a b c d e f g, P [a; b; c; d; e; f; g]) ->
  (forall a b c d e f g h l, P l -> P (a :: b :: c :: d :: e :: f :: g :: h :: l)) -> forall l, P l.
Proof.
  intros P H0 H1 H2 H3 H4 H5 H6 H7 H8. fix IH 1.
  intros [|a [|b [|c [|d [|e [|f [|g [|h l]]]]]]]];
    [exact H0|apply H1|apply H2|apply H3|apply H4|apply H5|apply H6|apply H7|apply H8; apply IH].
Qed.

Ltac st32 lem :=
  cbn [app]; rewrite lem by (first [assumption | rewrite !land7_next;
     match goal with H : Z.land _ 7 = 0 |- _ => rewrite H end; reflexivity]);
  cbv beta iota zeta; cbn [base32_decode_loop].

Ltac fin32 m :=
  dec_done m;
  first [ reflexivity |
    split; [reflexivity|];
    unfold spec32_decode; spec_body;
    cbn [bitstream flat_map bits_of seq rev app map octets length firstn Z.of_nat Pos.of_succ_nat Pos.succ];
    rewrite ?d32_0, ?d32_1, ?d32_2, ?d32_3, ?d32_4 by assumption; reflexivity ].

Lemma dec32_loop : forall text, bytes text ->
  forall pre mid post b,
    (8 * length mid >= 5 * length text)%nat -> (exists k, length mid = 5 * k)%nat ->
    Z.land b 7 = 0 ->
    dec_post alpha32 32 (spec32_decode text) text pre mid post
      (base32_decode_loop (pre ++ mid ++ post) (zlen pre + 0) b text).
Proof.
  induction text as [|c0|c0 c1|c0 c1 c2|c0 c1 c2 c3|c0 c1 c2 c3 c4|c0 c1 c2 c3 c4 c5
    |c0 c1 c2 c3 c4 c5 c6|c0 c1 c2 c3 c4 c5 c6 c7 l IH] using list_ind8;
    intros HB pre mid post b Hlen [k Hk] Hb.
  - exists 0, mid. cbn. auto.
  - split_bytes. destruct mid as [|x [|y [|z [|w [|u mid]]]]]; [cbn [length] in *; lia..|].
    cbn [base32_decode_loop].
    next_char lk32 cv32_eq c0; [|fin32 (x :: y :: z :: w :: u :: mid)..].
    st32 s32_0.
    fin32 (w8 (Z.shiftl v 3) :: y :: z :: w :: u :: mid).
  - split_bytes. destruct mid as [|x [|y [|z [|w [|u mid]]]]]; [cbn [length] in *; lia..|].
    cbn [base32_decode_loop].
    next_char lk32 cv32_eq c0; [|fin32 (x :: y :: z :: w :: u :: mid)..].
    st32 s32_0.
    next_char lk32 cv32_eq c1; [|fin32 (w8 (Z.shiftl v 3) :: y :: z :: w :: u :: mid)..].
    st32 s32_1.
    fin32 (Z.lor (w8 (Z.shiftl v 3)) (Z.land (Z.shiftr v0 2) 7) :: w8 (Z.shiftl v0 6) :: z :: w :: u :: mid).
  - split_bytes. destruct mid as [|x [|y [|z [|w [|u mid]]]]]; [cbn [length] in *; lia..|].
    cbn [base32_decode_loop].
    next_char lk32 cv32_eq c0; [|fin32 (x :: y :: z :: w :: u :: mid)..].
    st32 s32_0.
    next_char lk32 cv32_eq c1; [|fin32 (w8 (Z.shiftl v 3) :: y :: z :: w :: u :: mid)..].
    st32 s32_1.
    next_char lk32 cv32_eq c2; [|fin32 (Z.lor (w8 (Z.shiftl v 3)) (Z.land (Z.shiftr v0 2) 7) :: w8 (Z.shiftl v0 6) :: z :: w :: u :: mid)..].
    st32 s32_2.
    fin32 (Z.lor (w8 (Z.shiftl v 3)) (Z.land (Z.shiftr v0 2) 7) :: w8 (Z.lor (w8 (Z.shiftl v0 6)) (Z.shiftl (Z.land v1 31) 1)) :: z :: w :: u :: mid).
  - split_bytes. destruct mid as [|x [|y [|z [|w [|u mid]]]]]; [cbn [length] in *; lia..|].
    cbn [base32_decode_loop].
    next_char lk32 cv32_eq c0; [|fin32 (x :: y :: z :: w :: u :: mid)..].
    st32 s32_0.
    next_char lk32 cv32_eq c1; [|fin32 (w8 (Z.shiftl v 3) :: y :: z :: w :: u :: mid)..].
    st32 s32_1.
    next_char lk32 cv32_eq c2; [|fin32 (Z.lor (w8 (Z.shiftl v 3)) (Z.land (Z.shiftr v0 2) 7) :: w8 (Z.shiftl v0 6) :: z :: w :: u :: mid)..].
    st32 s32_2.
    next_char lk32 cv32_eq c3; [|fin32 (Z.lor (w8 (Z.shiftl v 3)) (Z.land (Z.shiftr v0 2) 7) :: w8 (Z.lor (w8 (Z.shiftl v0 6)) (Z.shiftl (Z.land v1 31) 1)) :: z :: w :: u :: mid)..].
    st32 s32_3.
    fin32 (Z.lor (w8 (Z.shiftl v 3)) (Z.land (Z.shiftr v0 2) 7) :: Z.lor (w8 (Z.lor (w8 (Z.shiftl v0 6)) (Z.shiftl (Z.land v1 31) 1))) (Z.land (Z.shiftr v2 4) 1) :: w8 (Z.shiftl v2 4) :: w :: u :: mid).
  - split_bytes. destruct mid as [|x [|y [|z [|w [|u mid]]]]]; [cbn [length] in *; lia..|].
    cbn [base32_decode_loop].
    next_char lk32 cv32_eq c0; [|fin32 (x :: y :: z :: w :: u :: mid)..].
    st32 s32_0.
    next_char lk32 cv32_eq c1; [|fin32 (w8 (Z.shiftl v 3) :: y :: z :: w :: u :: mid)..].
    st32 s32_1.
    next_char lk32 cv32_eq c2; [|fin32 (Z.lor (w8 (Z.shiftl v 3)) (Z.land (Z.shiftr v0 2) 7) :: w8 (Z.shiftl v0 6) :: z :: w :: u :: mid)..].
    st32 s32_2.
    next_char lk32 cv32_eq c3; [|fin32 (Z.lor (w8 (Z.shiftl v 3)) (Z.land (Z.shiftr v0 2) 7) :: w8 (Z.lor (w8 (Z.shiftl v0 6)) (Z.shiftl (Z.land v1 31) 1)) :: z :: w :: u :: mid)..].
    st32 s32_3.
    next_char lk32 cv32_eq c4; [|fin32 (Z.lor (w8 (Z.shiftl v 3)) (Z.land (Z.shiftr v0 2) 7) :: Z.lor (w8 (Z.lor (w8 (Z.shiftl v0 6)) (Z.shiftl (Z.land v1 31) 1))) (Z.land (Z.shiftr v2 4) 1) :: w8 (Z.shiftl v2 4) :: w :: u :: mid)..].
    st32 s32_4.
    fin32 (Z.lor (w8 (Z.shiftl v 3)) (Z.land (Z.shiftr v0 2) 7) :: Z.lor (w8 (Z.lor (w8 (Z.shiftl v0 6)) (Z.shiftl (Z.land v1 31) 1))) (Z.land (Z.shiftr v2 4) 1) :: Z.lor (w8 (Z.shiftl v2 4)) (Z.land (Z.shiftr v3 1) 15) :: w8 (Z.shiftl v3 7) :: u :: mid).
  - split_bytes. destruct mid as [|x [|y [|z [|w [|u mid]]]]]; [cbn [length] in *; lia..|].
    cbn [base32_decode_loop].
    next_char lk32 cv32_eq c0; [|fin32 (x :: y :: z :: w :: u :: mid)..].
    st32 s32_0.
    next_char lk32 cv32_eq c1; [|fin32 (w8 (Z.shiftl v 3) :: y :: z :: w :: u :: mid)..].
    st32 s32_1.
    next_char lk32 cv32_eq c2; [|fin32 (Z.lor (w8 (Z.shiftl v 3)) (Z.land (Z.shiftr v0 2) 7) :: w8 (Z.shiftl v0 6) :: z :: w :: u :: mid)..].
    st32 s32_2.
    next_char lk32 cv32_eq c3; [|fin32 (Z.lor (w8 (Z.shiftl v 3)) (Z.land (Z.shiftr v0 2) 7) :: w8 (Z.lor (w8 (Z.shiftl v0 6)) (Z.shiftl (Z.land v1 31) 1)) :: z :: w :: u :: mid)..].
    st32 s32_3.
    next_char lk32 cv32_eq c4; [|fin32 (Z.lor (w8 (Z.shiftl v 3)) (Z.land (Z.shiftr v0 2) 7) :: Z.lor (w8 (Z.lor (w8 (Z.shiftl v0 6)) (Z.shiftl (Z.land v1 31) 1))) (Z.land (Z.shiftr v2 4) 1) :: w8 (Z.shiftl v2 4) :: w :: u :: mid)..].
    st32 s32_4.
    next_char lk32 cv32_eq c5; [|fin32 (Z.lor (w8 (Z.shiftl v 3)) (Z.land (Z.shiftr v0 2) 7) :: Z.lor (w8 (Z.lor (w8 (Z.shiftl v0 6)) (Z.shiftl (Z.land v1 31) 1))) (Z.land (Z.shiftr v2 4) 1) :: Z.lor (w8 (Z.shiftl v2 4)) (Z.land (Z.shiftr v3 1) 15) :: w8 (Z.shiftl v3 7) :: u :: mid)..].
    st32 s32_5.
    fin32 (Z.lor (w8 (Z.shiftl v 3)) (Z.land (Z.shiftr v0 2) 7) :: Z.lor (w8 (Z.lor (w8 (Z.shiftl v0 6)) (Z.shiftl (Z.land v1 31) 1))) (Z.land (Z.shiftr v2 4) 1) :: Z.lor (w8 (Z.shiftl v2 4)) (Z.land (Z.shiftr v3 1) 15) :: w8 (Z.lor (w8 (Z.shiftl v3 7)) (Z.shiftl (Z.land v4 31) 2)) :: u :: mid).
  - split_bytes. destruct mid as [|x [|y [|z [|w [|u mid]]]]]; [cbn [length] in *; lia..|].
    cbn [base32_decode_loop].
    next_char lk32 cv32_eq c0; [|fin32 (x :: y :: z :: w :: u :: mid)..].
    st32 s32_0.
    next_char lk32 cv32_eq c1; [|fin32 (w8 (Z.shiftl v 3) :: y :: z :: w :: u :: mid)..].
    st32 s32_1.
    next_char lk32 cv32_eq c2; [|fin32 (Z.lor (w8 (Z.shiftl v 3)) (Z.land (Z.shiftr v0 2) 7) :: w8 (Z.shiftl v0 6) :: z :: w :: u :: mid)..].
    st32 s32_2.
    next_char lk32 cv32_eq c3; [|fin32 (Z.lor (w8 (Z.shiftl v 3)) (Z.land (Z.shiftr v0 2) 7) :: w8 (Z.lor (w8 (Z.shiftl v0 6)) (Z.shiftl (Z.land v1 31) 1)) :: z :: w :: u :: mid)..].
    st32 s32_3.
    next_char lk32 cv32_eq c4; [|fin32 (Z.lor (w8 (Z.shiftl v 3)) (Z.land (Z.shiftr v0 2) 7) :: Z.lor (w8 (Z.lor (w8 (Z.shiftl v0 6)) (Z.shiftl (Z.land v1 31) 1))) (Z.land (Z.shiftr v2 4) 1) :: w8 (Z.shiftl v2 4) :: w :: u :: mid)..].
    st32 s32_4.
    next_char lk32 cv32_eq c5; [|fin32 (Z.lor (w8 (Z.shiftl v 3)) (Z.land (Z.shiftr v0 2) 7) :: Z.lor (w8 (Z.lor (w8 (Z.shiftl v0 6)) (Z.shiftl (Z.land v1 31) 1))) (Z.land (Z.shiftr v2 4) 1) :: Z.lor (w8 (Z.shiftl v2 4)) (Z.land (Z.shiftr v3 1) 15) :: w8 (Z.shiftl v3 7) :: u :: mid)..].
    st32 s32_5.
    next_char lk32 cv32_eq c6; [|fin32 (Z.lor (w8 (Z.shiftl v 3)) (Z.land (Z.shiftr v0 2) 7) :: Z.lor (w8 (Z.lor (w8 (Z.shiftl v0 6)) (Z.shiftl (Z.land v1 31) 1))) (Z.land (Z.shiftr v2 4) 1) :: Z.lor (w8 (Z.shiftl v2 4)) (Z.land (Z.shiftr v3 1) 15) :: w8 (Z.lor (w8 (Z.shiftl v3 7)) (Z.shiftl (Z.land v4 31) 2)) :: u :: mid)..].
    st32 s32_6.
    fin32 (Z.lor (w8 (Z.shiftl v 3)) (Z.land (Z.shiftr v0 2) 7) :: Z.lor (w8 (Z.lor (w8 (Z.shiftl v0 6)) (Z.shiftl (Z.land v1 31) 1))) (Z.land (Z.shiftr v2 4) 1) :: Z.lor (w8 (Z.shiftl v2 4)) (Z.land (Z.shiftr v3 1) 15) :: Z.lor (w8 (Z.lor (w8 (Z.shiftl v3 7)) (Z.shiftl (Z.land v4 31) 2))) (Z.land (Z.shiftr v5 3) 3) :: w8 (Z.shiftl v5 5) :: mid).
  - split_bytes. destruct mid as [|x [|y [|z [|w [|u mid]]]]]; [cbn [length] in *; lia..|].
    cbn [base32_decode_loop].
    next_char lk32 cv32_eq c0; [|fin32 (x :: y :: z :: w :: u :: mid)..].
    st32 s32_0.
    next_char lk32 cv32_eq c1; [|fin32 (w8 (Z.shiftl v 3) :: y :: z :: w :: u :: mid)..].
    st32 s32_1.
    next_char lk32 cv32_eq c2; [|fin32 (Z.lor (w8 (Z.shiftl v 3)) (Z.land (Z.shiftr v0 2) 7) :: w8 (Z.shiftl v0 6) :: z :: w :: u :: mid)..].
    st32 s32_2.
    next_char lk32 cv32_eq c3; [|fin32 (Z.lor (w8 (Z.shiftl v 3)) (Z.land (Z.shiftr v0 2) 7) :: w8 (Z.lor (w8 (Z.shiftl v0 6)) (Z.shiftl (Z.land v1 31) 1)) :: z :: w :: u :: mid)..].
    st32 s32_3.
    next_char lk32 cv32_eq c4; [|fin32 (Z.lor (w8 (Z.shiftl v 3)) (Z.land (Z.shiftr v0 2) 7) :: Z.lor (w8 (Z.lor (w8 (Z.shiftl v0 6)) (Z.shiftl (Z.land v1 31) 1))) (Z.land (Z.shiftr v2 4) 1) :: w8 (Z.shiftl v2 4) :: w :: u :: mid)..].
    st32 s32_4.
    next_char lk32 cv32_eq c5; [|fin32 (Z.lor (w8 (Z.shiftl v 3)) (Z.land (Z.shiftr v0 2) 7) :: Z.lor (w8 (Z.lor (w8 (Z.shiftl v0 6)) (Z.shiftl (Z.land v1 31) 1))) (Z.land (Z.shiftr v2 4) 1) :: Z.lor (w8 (Z.shiftl v2 4)) (Z.land (Z.shiftr v3 1) 15) :: w8 (Z.shiftl v3 7) :: u :: mid)..].
    st32 s32_5.
    next_char lk32 cv32_eq c6; [|fin32 (Z.lor (w8 (Z.shiftl v 3)) (Z.land (Z.shiftr v0 2) 7) :: Z.lor (w8 (Z.lor (w8 (Z.shiftl v0 6)) (Z.shiftl (Z.land v1 31) 1))) (Z.land (Z.shiftr v2 4) 1) :: Z.lor (w8 (Z.shiftl v2 4)) (Z.land (Z.shiftr v3 1) 15) :: w8 (Z.lor (w8 (Z.shiftl v3 7)) (Z.shiftl (Z.land v4 31) 2)) :: u :: mid)..].
    st32 s32_6.
    next_char lk32 cv32_eq c7; [|fin32 (Z.lor (w8 (Z.shiftl v 3)) (Z.land (Z.shiftr v0 2) 7) :: Z.lor (w8 (Z.lor (w8 (Z.shiftl v0 6)) (Z.shiftl (Z.land v1 31) 1))) (Z.land (Z.shiftr v2 4) 1) :: Z.lor (w8 (Z.shiftl v2 4)) (Z.land (Z.shiftr v3 1) 15) :: Z.lor (w8 (Z.lor (w8 (Z.shiftl v3 7)) (Z.shiftl (Z.land v4 31) 2))) (Z.land (Z.shiftr v5 3) 3) :: w8 (Z.shiftl v5 5) :: mid)..].
    st32 s32_7.
    set (B0 := Z.lor (w8 (Z.shiftl v 3)) (Z.land (Z.shiftr v0 2) 7)).
    set (B1 := Z.lor (w8 (Z.lor (w8 (Z.shiftl v0 6)) (Z.shiftl (Z.land v1 31) 1))) (Z.land (Z.shiftr v2 4) 1)).
    set (B2 := Z.lor (w8 (Z.shiftl v2 4)) (Z.land (Z.shiftr v3 1) 15)).
    set (B3 := Z.lor (w8 (Z.lor (w8 (Z.shiftl v3 7)) (Z.shiftl (Z.land v4 31) 2))) (Z.land (Z.shiftr v5 3) 3)).
    set (B4 := Z.lor (w8 (Z.shiftl v5 5)) (Z.land v6 31)).
    replace (pre ++ B0 :: B1 :: B2 :: B3 :: B4 :: mid ++ post)
      with ((pre ++ [B0; B1; B2; B3; B4]) ++ mid ++ post)
      by (rewrite <- app_assoc; reflexivity).
    replace (zlen pre + 5) with (zlen (pre ++ [B0; B1; B2; B3; B4]) + 0)
      by (rewrite zlen_app; cbn; lia).
    match goal with |- context[base32_decode_loop _ _ ?bb l] =>
      destruct (IH HB (pre ++ [B0; B1; B2; B3; B4]) mid post bb) as (ret & mid' & -> & Lm & Hr) end.
    { cbn [length] in *. lia. }
    { exists (k - 1)%nat. cbn [length] in *. lia. }
    { rewrite !land7_next, Hb. reflexivity. }
    exists ret, (B0 :: B1 :: B2 :: B3 :: B4 :: mid'). split; [rewrite <- app_assoc; reflexivity|].
    split; [cbn [length]; lia|].
    cbn [body]. change equals_sign with 61. rewrite N, N0, N1, N2, N3, N4, N5, N6. cbn [forallb].
    unfold valid at 1 2 3 4 5 6 7 8. rewrite E, E0, E1, E2, E3, E4, E5, E6. cbn [andb].
    destruct (forallb (valid alpha32 32) (body l)); [|exact Hr].
    destruct Hr as [Hr0 Hr]. split; [exact Hr0|].
    unfold spec32_decode. spec_body.
    replace (octets (bitstream 5 (v :: v0 :: v1 :: v2 :: v3 :: v4 :: v5 :: v6 :: map (value_or_0 alpha32 32) (body l))))
      with (B0 :: B1 :: B2 :: B3 :: B4 :: spec32_decode l).
    + cbn [length firstn]. rewrite Hr. reflexivity.
    + unfold spec32_decode.
      change (bitstream 5 (v :: v0 :: v1 :: v2 :: v3 :: v4 :: v5 :: v6 :: map (value_or_0 alpha32 32) (body l)))
        with (bits_of 5 v ++ bits_of 5 v0 ++ bits_of 5 v1 ++ bits_of 5 v2 ++ bits_of 5 v3 ++ bits_of 5 v4
               ++ bits_of 5 v5 ++ bits_of 5 v6
               ++ bitstream 5 (map (value_or_0 alpha32 32) (body l))).
      unfold B0, B1, B2, B3, B4. rewrite d32_0, d32_1, d32_2, d32_3, d32_4 by assumption. reflexivity.
Qed.

(** ** The specification's encoder and decoder are inverse *)
Lemma bits6_val : forall a b c d e f, bits_of 6 (val_of [a; b; c; d; e; f]) = [a; b; c; d; e; f].
Proof. intros [] [] [] [] [] []; reflexivity. Qed.
Lemma bits5_val : forall a b c d e, bits_of 5 (val_of [a; b; c; d; e]) = [a; b; c; d; e].
Proof. intros [] [] [] [] []; reflexivity. Qed.
Lemma val_bits8 : forall a, 0 <= a < 256 ->
  val_of [tb a 7; tb a 6; tb a 5; tb a 4; tb a 3; tb a 2; tb a 1; tb a 0] = a.
Proof.
  intros a Ha. apply Z.eqb_eq. revert a Ha.
  apply all_below_spec with
    (P := fun a => val_of [tb a 7; tb a 6; tb a 5; tb a 4; tb a 3; tb a 2; tb a 1; tb a 0] =? a).
  vm_compute. reflexivity.
Qed.

Lemma char_value_alpha64 : forall v, 0 <= v < 64 -> value_or_0 alpha64 64 (alpha64 v) = v.
Proof.
  intros v Hv. apply Z.eqb_eq. revert v Hv.
  apply all_below_spec with (P := fun v => value_or_0 alpha64 64 (alpha64 v) =? v).
  vm_compute. reflexivity.
Qed.
Lemma char_value_alpha32 : forall v, 0 <= v < 32 -> value_or_0 alpha32 32 (alpha32 v) = v.
Proof.
  intros v Hv. apply Z.eqb_eq. revert v Hv.
  apply all_below_spec with (P := fun v => value_or_0 alpha32 32 (alpha32 v) =? v).
  vm_compute. reflexivity.
Qed.
Lemma alpha64_byte : forall v, 0 <= v < 64 -> 0 <= alpha64 v < 256 /\ alpha64 v <> 61.
Proof. intros v Hv. unfold alpha64. 
  destruct (Z.ltb_spec v 26), (Z.ltb_spec v 52), (Z.ltb_spec v 62), (Z.eqb_spec v 62); lia. Qed.
Lemma alpha32_byte : forall v, 0 <= v < 32 -> 0 <= alpha32 v < 256 /\ alpha32 v <> 61.
Proof. intros v Hv. unfold alpha32. destruct (Z.ltb_spec v 26); lia. Qed.

Lemma val6_range : forall a b c d e f, 0 <= val_of [a; b; c; d; e; f] < 64.
Proof. intros [] [] [] [] [] []; cbv; split; congruence. Qed.
Lemma val5_range : forall a b c d e, 0 <= val_of [a; b; c; d; e] < 32.
Proof. intros [] [] [] [] []; cbv; split; congruence. Qed.

Lemma list_ind6 : forall A (P : list A -> Prop),
  P [] -> (forall a, P [a]) -> (forall a b, P [a; b]) -> (forall a b c, P [a; b; c]) ->
  (forall a b c d, P [a; b; c; d]) -> (forall a b c d e, P [a; b; c; d; e]) ->
  (forall a b c d e f l, P l -> P (a :: b :: c :: d :: e :: f :: l)) -> forall l, P l.
Proof.
  intros A P H0 H1 H2 H3 H4 H5 H6. fix IH 1. intros [|a [|b [|c [|d [|e [|f l]]]]]];
    [exact H0|apply H1|apply H2|apply H3|apply H4|apply H5|apply H6; apply IH].
Qed.
Lemma list_ind5b : forall A (P : list A -> Prop),
  P [] -> (forall a, P [a]) -> (forall a b, P [a; b]) -> (forall a b c, P [a; b; c]) ->
  (forall a b c d, P [a; b; c; d]) ->
  (forall a b c d e l, P l -> P (a :: b :: c :: d :: e :: l)) -> forall l, P l.
Proof.
  intros A P H0 H1 H2 H3 H4 H5. fix IH 1. intros [|a [|b [|c [|d [|e l]]]]];
    [exact H0|apply H1|apply H2|apply H3|apply H4|apply H5; apply IH].
Qed.

Lemma sextets_range : forall l, Forall (fun v => 0 <= v < 64) (sextets l).
Proof.
  induction l using list_ind6; cbn [sextets firstn app repeat];
  repeat constructor; try apply val6_range; assumption.
Qed.
Lemma quintets_range : forall l, Forall (fun v => 0 <= v < 32) (quintets l).
Proof.
  induction l using list_ind5b; cbn [quintets firstn app repeat];
  repeat constructor; try apply val5_range; assumption.
Qed.

Lemma body_app : forall t n, Forall (fun c => c <> 61) t -> body (t ++ repeat equals_sign n) = t.
Proof.
  induction t as [|c t IH]; intros n H.
  - destruct n; reflexivity.
  - inversion H as [|? ? Hc Ht]; subst. cbn [app body]. change equals_sign with 61.
    destruct (Z.eqb_spec c 61); [contradiction|]. f_equal. apply IH. exact Ht.
Qed.

Lemma octets_sextets : forall data, bytes data ->
  octets (bitstream 6 (sextets (bitstream 8 data))) = data.
Proof.
  induction data as [|a|a b|a b c l IH] using list_ind3; intros H; split_bytes.
  - reflexivity.
  - change (bitstream 8 [a]) with (bits_of 8 a).
    cbn [bits_of seq rev app map sextets firstn repeat].
    cbn [bitstream flat_map]. rewrite !bits6_val.
    cbn [app octets Z.of_nat Pos.of_succ_nat Pos.succ]. rewrite val_bits8 by assumption. reflexivity.
  - change (bitstream 8 [a; b]) with (bits_of 8 a ++ bits_of 8 b).
    cbn [bits_of seq rev app map sextets firstn repeat].
    cbn [bitstream flat_map]. rewrite !bits6_val.
    cbn [app octets Z.of_nat Pos.of_succ_nat Pos.succ]. rewrite !val_bits8 by assumption. reflexivity.
  - change (bitstream 8 (a :: b :: c :: l)) with
      (bits_of 8 a ++ bits_of 8 b ++ bits_of 8 c ++ bitstream 8 l).
    cbn [bits_of seq rev app map sextets].
    unfold bitstream at 1. cbn [flat_map]. rewrite !bits6_val.
    cbn [app octets Z.of_nat Pos.of_succ_nat Pos.succ]. rewrite !val_bits8 by assumption.
    do 3 f_equal. exact (IH H).
Qed.

Lemma octets_quintets : forall data, bytes data ->
  octets (bitstream 5 (quintets (bitstream 8 data))) = data.
Proof.
  induction data as [|a|a b|a b c|a b c d|a b c d e l IH] using list_ind5; intros H; split_bytes.
  - reflexivity.
  - change (bitstream 8 [a]) with (bits_of 8 a).
    cbn [bits_of seq rev app map quintets firstn repeat].
    cbn [bitstream flat_map]. rewrite !bits5_val.
    cbn [app octets Z.of_nat Pos.of_succ_nat Pos.succ]. rewrite val_bits8 by assumption. reflexivity.
  - change (bitstream 8 [a; b]) with (bits_of 8 a ++ bits_of 8 b).
    cbn [bits_of seq rev app map quintets firstn repeat].
    cbn [bitstream flat_map]. rewrite !bits5_val.
    cbn [app octets Z.of_nat Pos.of_succ_nat Pos.succ]. rewrite !val_bits8 by assumption. reflexivity.
  - change (bitstream 8 [a; b; c]) with (bits_of 8 a ++ bits_of 8 b ++ bits_of 8 c).
    cbn [bits_of seq rev app map quintets firstn repeat].
    cbn [bitstream flat_map]. rewrite !bits5_val.
    cbn [app octets Z.of_nat Pos.of_succ_nat Pos.succ]. rewrite !val_bits8 by assumption. reflexivity.
  - change (bitstream 8 [a; b; c; d]) with (bits_of 8 a ++ bits_of 8 b ++ bits_of 8 c ++ bits_of 8 d).
    cbn [bits_of seq rev app map quintets firstn repeat].
    cbn [bitstream flat_map]. rewrite !bits5_val.
    cbn [app octets Z.of_nat Pos.of_succ_nat Pos.succ]. rewrite !val_bits8 by assumption. reflexivity.
  - change (bitstream 8 (a :: b :: c :: d :: e :: l)) with
      (bits_of 8 a ++ bits_of 8 b ++ bits_of 8 c ++ bits_of 8 d ++ bits_of 8 e ++ bitstream 8 l).
    cbn [bits_of seq rev app map quintets].
    unfold bitstream at 1. cbn [flat_map]. rewrite !bits5_val.
    cbn [app octets Z.of_nat Pos.of_succ_nat Pos.succ]. rewrite !val_bits8 by assumption.
    do 5 f_equal. exact (IH H).
Qed.

Lemma Forall_map_iff : forall A B (f : A -> B) P l, Forall P (map f l) <-> Forall (fun x => P (f x)) l.
Proof.
  intros. induction l; cbn; split; intros H; inversion H; subst; constructor; auto; apply IHl; auto.
Qed.

Lemma spec64_body : forall data,
  body (spec64_encode data) = map alpha64 (sextets (bitstream 8 data)).
Proof.
  intros. unfold spec64_encode. apply body_app. apply Forall_map_iff.
  eapply Forall_impl; [|apply sextets_range]. intros v Hv. apply alpha64_byte. exact Hv.
Qed.
Lemma spec32_body : forall data,
  body (spec32_encode data) = map alpha32 (quintets (bitstream 8 data)).
Proof.
  intros. unfold spec32_encode. apply body_app. apply Forall_map_iff.
  eapply Forall_impl; [|apply quintets_range]. intros v Hv. apply alpha32_byte. exact Hv.
Qed.

Lemma map_inv : forall (f g : Z -> Z) (P : Z -> Prop) l,
  Forall P l -> (forall v, P v -> g (f v) = v) -> map g (map f l) = l.
Proof.
  intros f g P l H Hfg. induction H; cbn; [reflexivity|]. rewrite Hfg, IHForall; auto.
Qed.

Lemma spec64_roundtrip : forall data, bytes data -> spec64_decode (spec64_encode data) = data.
Proof.
  intros data H. unfold spec64_decode. rewrite spec64_body.
  rewrite (map_inv _ _ _ _ (sextets_range _) char_value_alpha64).
  apply octets_sextets. exact H.
Qed.
Lemma spec32_roundtrip : forall data, bytes data -> spec32_decode (spec32_encode data) = data.
Proof.
  intros data H. unfold spec32_decode. rewrite spec32_body.
  rewrite (map_inv _ _ _ _ (quintets_range _) char_value_alpha32).
  apply octets_quintets. exact H.
Qed.

Lemma spec64_bytes : forall data, bytes (spec64_encode data).
Proof.
  intros. unfold spec64_encode, bytes. apply Forall_app. split.
  - apply Forall_map_iff. eapply Forall_impl; [|apply sextets_range].
    intros v Hv. apply alpha64_byte. exact Hv.
  - apply Forall_forall. intros x Hx. apply repeat_spec in Hx. subst. unfold byte, equals_sign. lia.
Qed.
Lemma spec32_bytes : forall data, bytes (spec32_encode data).
Proof.
  intros. unfold spec32_encode, bytes. apply Forall_app. split.
  - apply Forall_map_iff. eapply Forall_impl; [|apply quintets_range].
    intros v Hv. apply alpha32_byte. exact Hv.
  - apply Forall_forall. intros x Hx. apply repeat_spec in Hx. subst. unfold byte, equals_sign. lia.
Qed.

Lemma spec64_length : forall data,
  zlen (spec64_encode data) = base64_encode_length (zlen data).
Proof.
  induction data as [|a|a b|a b c l IH] using list_ind3; try reflexivity.
  unfold spec64_encode in *. 
  change (bitstream 8 (a :: b :: c :: l)) with
      (bits_of 8 a ++ bits_of 8 b ++ bits_of 8 c ++ bitstream 8 l).
  cbn [bits_of seq rev app map sextets length].
  change (S (S (S (S (length (map alpha64 (sextets (bitstream 8 l))))))))
      with (4 + length (map alpha64 (sextets (bitstream 8 l))))%nat.
  rewrite padding_step by discriminate. rewrite !zlen_cons, IH.
  unfold base64_encode_length.
  replace (zlen l + 1 + 1 + 1 + 3 - 1) with (zlen l + 3 - 1 + 1 * 3) by lia.
  rewrite Z.div_add by lia. lia.
Qed.
Lemma spec32_length : forall data,
  zlen (spec32_encode data) = base32_encode_length (zlen data).
Proof.
  induction data as [|a|a b|a b c|a b c d|a b c d e l IH] using list_ind5; try reflexivity.
  unfold spec32_encode in *. 
  change (bitstream 8 (a :: b :: c :: d :: e :: l)) with
      (bits_of 8 a ++ bits_of 8 b ++ bits_of 8 c ++ bits_of 8 d ++ bits_of 8 e ++ bitstream 8 l).
  cbn [bits_of seq rev app map quintets length].
  change (S (S (S (S (S (S (S (S (length (map alpha32 (quintets (bitstream 8 l))))))))))))
      with (8 + length (map alpha32 (quintets (bitstream 8 l))))%nat.
  rewrite padding_step by discriminate. rewrite !zlen_cons, IH.
  unfold base32_encode_length.
  replace (zlen l + 1 + 1 + 1 + 1 + 1 + 5 - 1) with (zlen l + 5 - 1 + 1 * 5) by lia.
  rewrite Z.div_add by lia. lia.
Qed.

(** ** The decoders at their interface *)
Lemma forallb_valid : forall alpha n t,
  forallb (valid alpha n) t = true <-> Forall (in_alphabet alpha n) t.
Proof.
  intros alpha n t. rewrite forallb_forall, Forall_forall. split; intros H c Hc; specialize (H c Hc).
  - unfold valid in H. destruct (char_value alpha n c) eqn:E; [|discriminate].
    eapply char_value_in; eauto.
  - unfold valid. destruct (char_value alpha n c) eqn:E; [reflexivity|].
    exfalso. eapply char_value_none; eauto.
Qed.

Definition iface_ok (decode_length : Z -> Z) (alpha : Z -> Z) (n : nat)
  (D : list Z -> list Z) (dec : list Z -> list Z -> option (Z * list Z)) : Prop :=
  forall buff text,
    bytes text -> decode_length (zlen text) <= zlen buff ->
    exists ret buff',
      dec buff text = Some (ret, buff') /\
      zlen buff' = zlen buff /\
      skipn (Z.to_nat (decode_length (zlen text))) buff'
        = skipn (Z.to_nat (decode_length (zlen text))) buff /\
      (Forall (in_alphabet alpha n) (body text) ->
         ret = 0 /\ firstn (length (D text)) buff' = D text) /\
      (~ Forall (in_alphabet alpha n) (body text) -> ret = -22).

Lemma firstn_firstn_le : forall A (l : list A) n m, (n <= m)%nat -> firstn n (firstn m l) = firstn n l.
Proof. intros. rewrite firstn_firstn. f_equal. lia. Qed.

Lemma firstn_app_eq : forall A (l m d : list A), firstn (length d) l = d -> firstn (length d) (l ++ m) = d.
Proof.
  intros A l m d H. rewrite firstn_app, H.
  assert (length d <= length l)%nat.
  { rewrite <- H at 1. rewrite firstn_length. lia. }
  replace (length d - length l)%nat with O by lia. cbn. apply app_nil_r.
Qed.

Lemma skipn_len_app : forall A (l m : list A) k, length l = k -> skipn k (l ++ m) = m.
Proof.
  intros A l m k <-. rewrite skipn_app, skipn_all, Nat.sub_diag. reflexivity.
Qed.

Lemma base64_decode_correct : 
  iface_ok base64_decode_length alpha64 64 spec64_decode base64_decode.
Proof.
  intros buff text HB Hlen.
  set (dl := Z.to_nat (base64_decode_length (zlen text))) in *.
  assert (Hdl : base64_decode_length (zlen text) = Z.of_nat dl).
  { unfold dl. rewrite Z2Nat.id; [reflexivity|]. unfold base64_decode_length, zlen.
    apply Z.mul_nonneg_nonneg; [apply Z.div_pos; lia|lia]. }
  assert (Hd : (dl <= length buff)%nat) by (unfold zlen in *; lia).
  assert (Lf : length (firstn dl buff) = dl) by (rewrite firstn_length; lia).
  unfold base64_decode_length in Hdl.
  clearbody dl.
  pose proof (Z.div_mod (zlen text + 4 - 1) 4 ltac:(lia)) as DM.
  pose proof (Z.mod_pos_bound (zlen text + 4 - 1) 4 ltac:(lia)) as MB.
  destruct (dec64_loop text HB [] (firstn dl buff) (skipn dl buff) 0) as (ret & mid' & E & L & R).
  - rewrite Lf. unfold zlen in *. lia.
  - exists (Z.to_nat ((zlen text + 4 - 1) / 4)). rewrite Lf. lia.
  - reflexivity.
  - cbn [app zlen length Z.of_nat Z.add] in E. rewrite firstn_skipn in E.
    exists ret, (mid' ++ skipn dl buff). unfold base64_decode. split; [exact E|].
    split; [|split; [|split]].
    + rewrite zlen_app. unfold zlen. rewrite skipn_length. lia.
    + apply skipn_len_app. lia.
    + intros HF. apply forallb_valid in HF. rewrite HF in R. destruct R as [R0 R].
      split; [exact R0|]. apply firstn_app_eq. exact R.
    + intros HF. destruct (forallb (valid alpha64 64) (body text)) eqn:E2; [|exact R].
      apply forallb_valid in E2. contradiction.
Qed.

Lemma base32_decode_correct : 
  iface_ok base32_decode_length alpha32 32 spec32_decode base32_decode.
Proof.
  intros buff text HB Hlen.
  set (dl := Z.to_nat (base32_decode_length (zlen text))) in *.
  assert (Hdl : base32_decode_length (zlen text) = Z.of_nat dl).
  { unfold dl. rewrite Z2Nat.id; [reflexivity|]. unfold base32_decode_length, zlen.
    apply Z.mul_nonneg_nonneg; [apply Z.div_pos; lia|lia]. }
  assert (Hd : (dl <= length buff)%nat) by (unfold zlen in *; lia).
  assert (Lf : length (firstn dl buff) = dl) by (rewrite firstn_length; lia).
  unfold base32_decode_length in Hdl.
  clearbody dl.
  pose proof (Z.div_mod (zlen text + 8 - 1) 8 ltac:(lia)) as DM.
  pose proof (Z.mod_pos_bound (zlen text + 8 - 1) 8 ltac:(lia)) as MB.
  destruct (dec32_loop text HB [] (firstn dl buff) (skipn dl buff) 0) as (ret & mid' & E & L & R).
  - rewrite Lf. unfold zlen in *. lia.
  - exists (Z.to_nat ((zlen text + 8 - 1) / 8)). rewrite Lf. lia.
  - reflexivity.
  - cbn [app zlen length Z.of_nat Z.add] in E. rewrite firstn_skipn in E.
    exists ret, (mid' ++ skipn dl buff). unfold base32_decode. split; [exact E|].
    split; [|split; [|split]].
    + rewrite zlen_app. unfold zlen. rewrite skipn_length. lia.
    + apply skipn_len_app. lia.
    + intros HF. apply forallb_valid in HF. rewrite HF in R. destruct R as [R0 R].
      split; [exact R0|]. apply firstn_app_eq. exact R.
    + intros HF. destruct (forallb (valid alpha32 32) (body text)) eqn:E2; [|exact R].
      apply forallb_valid in E2. contradiction.
Qed.

Lemma spec64_valid : forall data, Forall (in_alphabet alpha64 64) (body (spec64_encode data)).
Proof.
  intros. rewrite spec64_body. apply Forall_map_iff. eapply Forall_impl; [|apply sextets_range].
  intros v Hv. cbv beta in Hv. exists v. split; [cbn; lia|reflexivity].
Qed.
Lemma spec32_valid : forall data, Forall (in_alphabet alpha32 32) (body (spec32_encode data)).
Proof.
  intros. rewrite spec32_body. apply Forall_map_iff. eapply Forall_impl; [|apply quintets_range].
  intros v Hv. cbv beta in Hv. exists v. split; [cbn; lia|reflexivity].
Qed.
