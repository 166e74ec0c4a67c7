(** * Proofs about the CRC functions *)
From Verif Require Import Lib BitsModel BitsSpec BitsProofs BitsProps CrcModel CrcSpec.
Ltac Zify.zify_post_hook ::= Z.div_mod_to_equations.

(** ** Linear maps *)
Definition linear (f : Z -> Z) : Prop := forall x y, 0 <= x -> 0 <= y -> f (Z.lxor x y) = Z.lxor (f x) (f y).
Lemma lxor_nonneg' : forall x y, 0 <= x -> 0 <= y -> 0 <= Z.lxor x y.
Proof. intros. apply Z.lxor_nonneg. tauto. Qed.
Lemma iter_linear : forall n f, linear f -> (forall x, 0 <= x -> 0 <= f x) -> linear (iter n f).
Proof.
  induction n as [|n IH]; intros f L N x y Hx Hy; cbn [iter]; [reflexivity|].
  rewrite L by assumption. apply IH; auto.
Qed.
Lemma iter_nonneg : forall n f, (forall x, 0 <= x -> 0 <= f x) -> forall x, 0 <= x -> 0 <= iter n f x.
Proof. induction n as [|n IH]; intros f N x Hx; cbn [iter]; auto. Qed.
Lemma iter_add : forall n m f x, iter (n + m) f x = iter m f (iter n f x).
Proof. induction n as [|n IH]; intros; cbn [iter Nat.add]; auto. Qed.
Lemma lxor4 : forall a b c d, Z.lxor (Z.lxor a b) (Z.lxor c d) = Z.lxor (Z.lxor a c) (Z.lxor b d).
Proof. intros. rewrite !Z.lxor_assoc. f_equal. rewrite <- !Z.lxor_assoc. f_equal. apply Z.lxor_comm. Qed.
Lemma lxor_self_r : forall a b, Z.lxor a (Z.lxor a b) = b.
Proof. intros. rewrite <- Z.lxor_assoc, Z.lxor_nilpotent, Z.lxor_0_l. reflexivity. Qed.
Lemma land_lxor : forall a b c, Z.land (Z.lxor a b) c = Z.lxor (Z.land a c) (Z.land b c).
Proof.
  intros. apply Z.bits_inj'. intros n Hn. rewrite !Z.lxor_spec, !Z.land_spec, Z.lxor_spec.
  destruct (Z.testbit a n), (Z.testbit b n), (Z.testbit c n); reflexivity.
Qed.
Lemma land255 : forall x, byte (Z.land x 255).
Proof. intros. unfold byte. change 255 with (Z.ones 8). rewrite Z.land_ones by lia. apply Z.mod_pos_bound. lia. Qed.
Lemma land255_id : forall x, byte x -> Z.land x 255 = x.
Proof. intros x H. change 255 with (Z.ones 8). rewrite Z.land_ones by lia. apply Z.mod_small. exact H. Qed.
Lemma shiftr8_byte : forall x, byte x -> Z.shiftr x 8 = 0.
Proof. intros x H. unfold byte in H. rewrite Z.shiftr_div_pow2 by lia. apply Z.div_small. lia. Qed.
Lemma byte_lxor : forall x y, byte x -> byte y -> byte (Z.lxor x y).
Proof. intros. unfold byte in *. apply (lxor_range 8); lia. Qed.
Lemma byte_nonneg : forall x, byte x -> 0 <= x.
Proof. unfold byte. lia. Qed.

(** Disjoint parts may be added or combined by exclusive or. *)
Lemma add_lxor : forall n a b, 0 <= n -> 0 <= a < 2 ^ n -> 0 <= b -> a + 2 ^ n * b = Z.lxor a (Z.shiftl b n).
Proof.
  intros n a b Hn Ha Hb. rewrite Z.mul_comm, <- Z.shiftl_mul_pow2 by lia. apply Z.add_nocarry_lxor.
  apply Z.bits_inj'. intros i Hi. rewrite Z.land_spec, Z.bits_0, Z.shiftl_spec by lia.
  destruct (Z.lt_ge_cases i n).
  - rewrite (Z.testbit_neg_r b) by lia. apply andb_false_r.
  - rewrite (testbit_small a n i) by lia. reflexivity.
Qed.

(** ** The byte step of the code, as a map of the register *)
Section Slice.
  Variable T : Z -> Z.
  Hypothesis Tlin : forall x y, byte x -> byte y -> T (Z.lxor x y) = Z.lxor (T x) (T y).
  Hypothesis Tpos : forall x, byte x -> 0 <= T x.
  Definition bstep (x : Z) : Z := Z.lxor (T (Z.land x 255)) (Z.shiftr x 8).

  Lemma T0 : T 0 = 0.
  Proof. assert (B : byte 0) by (unfold byte; lia). pose proof (Tlin 0 0 B B) as H. rewrite Z.lxor_nilpotent in H. rewrite Z.lxor_nilpotent in H. exact H. Qed.
  Lemma bstep_nonneg : forall x, 0 <= x -> 0 <= bstep x.
  Proof. intros x Hx. unfold bstep. apply lxor_nonneg'; [apply Tpos, land255|]. apply Z.shiftr_nonneg. exact Hx. Qed.
  Lemma bstep_linear : linear bstep.
  Proof.
    intros x y Hx Hy. unfold bstep. rewrite land_lxor, Z.shiftr_lxor, Tlin by apply land255. apply lxor4.
  Qed.
  Lemma bstep_shift : forall x, bstep (Z.shiftl x 8) = x.
  Proof.
    intros x. unfold bstep. change 255 with (Z.ones 8). rewrite Z.land_ones, Z.shiftl_mul_pow2 by lia.
    rewrite Z.mod_mul by lia. rewrite T0, Z.lxor_0_l. rewrite <- Z.shiftl_mul_pow2, Z.shiftr_shiftl_l by lia. apply Z.shiftl_0_r.
  Qed.
  Lemma bstep_byte : forall x, byte x -> bstep x = T x.
  Proof. intros x H. unfold bstep. rewrite land255_id, shiftr8_byte, Z.lxor_0_r by exact H. reflexivity. Qed.

  Fixpoint leval (l : list Z) : Z := match l with [] => 0 | b :: l' => Z.lxor b (Z.shiftl (leval l') 8) end.
  Lemma leval_nonneg : forall l, bytes l -> 0 <= leval l.
  Proof.
    induction l as [|b l IH]; intros H; cbn [leval]; [lia|]. inversion H; subst.
    apply lxor_nonneg'; [apply byte_nonneg; assumption|]. apply Z.shiftl_nonneg. auto.
  Qed.
  Lemma fold_iter : forall l x, bytes l -> 0 <= x ->
    fold_left (fun c b => bstep (Z.lxor c b)) l x = iter (length l) bstep (Z.lxor x (leval l)).
  Proof.
    induction l as [|b l IH]; intros x Hl Hx; cbn [fold_left length iter leval].
    - rewrite Z.lxor_0_r. reflexivity.
    - inversion Hl; subst. pose proof (byte_nonneg _ H1). pose proof (leval_nonneg l H2).
      rewrite IH; [|assumption|apply bstep_nonneg, lxor_nonneg'; assumption].
      f_equal. rewrite <- Z.lxor_assoc. rewrite (bstep_linear (Z.lxor x b) (Z.shiftl (leval l) 8)).
      + rewrite bstep_shift. reflexivity.
      + apply lxor_nonneg'; assumption.
      + apply Z.shiftl_nonneg. assumption.
  Qed.
  Lemma iter_lin2 : forall n x y, 0 <= x -> 0 <= y -> iter n bstep (Z.lxor x y) = Z.lxor (iter n bstep x) (iter n bstep y).
  Proof. intros. apply iter_linear; [exact bstep_linear|exact bstep_nonneg|assumption|assumption]. Qed.

  (** Eight byte steps at once. *)
  Lemma slice8 : forall c b0 b1 b2 b3 b4 b5 b6 b7,
    bytes [b0; b1; b2; b3; b4; b5; b6; b7] -> 0 <= c < 2 ^ 32 ->
    let v0 := w32 (Z.lxor (le32 b0 b1 b2 b3) c) in let v1 := le32 b4 b5 b6 b7 in
    fold_left (fun c b => bstep (Z.lxor c b)) [b0; b1; b2; b3; b4; b5; b6; b7] c =
    Z.lxor (iter 8 bstep (Z.land v0 255)) (Z.lxor (iter 7 bstep (Z.land (Z.shiftr v0 8) 255))
    (Z.lxor (iter 6 bstep (Z.land (Z.shiftr v0 16) 255)) (Z.lxor (iter 5 bstep (Z.land (Z.shiftr v0 24) 255))
    (Z.lxor (iter 4 bstep (Z.land v1 255)) (Z.lxor (iter 3 bstep (Z.land (Z.shiftr v1 8) 255))
    (Z.lxor (iter 2 bstep (Z.land (Z.shiftr v1 16) 255)) (iter 1 bstep (Z.land (Z.shiftr v1 24) 255)))))))).
  Proof.
    intros c b0 b1 b2 b3 b4 b5 b6 b7 Hb Hc v0 v1.
    assert (L32 : forall a b c d, byte a -> byte b -> byte c -> byte d ->
      0 <= le32 a b c d < 2 ^ 32 /\ le32 a b c d = leval [a; b; c; d]).
    { clear. intros a b c d Ha Hb Hc Hd. unfold byte in *. split; [unfold le32; lia|].
      cbn [leval]. change (Z.shiftl 0 8) with 0. rewrite Z.lxor_0_r.
      rewrite <- (add_lxor 8 c d) by lia. rewrite <- (add_lxor 8 b) by lia. rewrite <- (add_lxor 8 a) by lia. unfold le32. lia. }
    assert (B : forall i, (i < 8)%nat -> byte (nth i [b0; b1; b2; b3; b4; b5; b6; b7] 0)).
    { intros i Hi. unfold bytes in Hb. rewrite Forall_forall in Hb. apply Hb. apply nth_In. exact Hi. }
    pose proof (B 0%nat ltac:(lia)) as B0. pose proof (B 1%nat ltac:(lia)) as B1. pose proof (B 2%nat ltac:(lia)) as B2.
    pose proof (B 3%nat ltac:(lia)) as B3. pose proof (B 4%nat ltac:(lia)) as B4. pose proof (B 5%nat ltac:(lia)) as B5.
    pose proof (B 6%nat ltac:(lia)) as B6. pose proof (B 7%nat ltac:(lia)) as B7. cbn [nth] in *. clear B.
    destruct (L32 b0 b1 b2 b3 B0 B1 B2 B3) as [R0 E0]. destruct (L32 b4 b5 b6 b7 B4 B5 B6 B7) as [R1 E1].
    assert (V0 : v0 = Z.lxor (le32 b0 b1 b2 b3) c) by (apply w32_small, lxor_range; lia).
    assert (RV0 : 0 <= v0 < 2 ^ 32) by apply w32_range.
    assert (Four : forall v, 0 <= v < 2 ^ 32 -> v = leval [Z.land v 255; Z.land (Z.shiftr v 8) 255; Z.land (Z.shiftr v 16) 255; Z.land (Z.shiftr v 24) 255]).
    { intros v Hv. destruct (L32 _ _ _ _ (land255 v) (land255 (Z.shiftr v 8)) (land255 (Z.shiftr v 16)) (land255 (Z.shiftr v 24))) as [_ <-].
      unfold le32. change 255 with (Z.ones 8). rewrite !Z.land_ones, !Z.shiftr_div_pow2 by lia. clear -Hv. lia. }
    assert (App : forall a b c d l, leval (a :: b :: c :: d :: l) = Z.lxor (leval [a; b; c; d]) (Z.shiftl (leval l) 32)).
    { clear. intros. cbn [leval]. rewrite !Z.shiftl_lxor, !Z.shiftl_0_l, !Z.shiftl_shiftl by lia. cbn [Z.add].
      rewrite !Z.lxor_0_r. change (8 + 8 + 8 + 8) with 32. change (8 + 8 + 8) with 24. change (8 + 8) with 16. rewrite !Z.lxor_assoc. reflexivity. }
    rewrite fold_iter by (assumption || lia). cbn [length].
    replace (Z.lxor c (leval [b0; b1; b2; b3; b4; b5; b6; b7]))
      with (leval [Z.land v0 255; Z.land (Z.shiftr v0 8) 255; Z.land (Z.shiftr v0 16) 255; Z.land (Z.shiftr v0 24) 255;
                   Z.land v1 255; Z.land (Z.shiftr v1 8) 255; Z.land (Z.shiftr v1 16) 255; Z.land (Z.shiftr v1 24) 255]).
    2:{ rewrite (App b0 b1 b2 b3 [b4; b5; b6; b7]), (App (Z.land v0 255) _ _ _ (_ :: _)). rewrite <- Four by exact RV0. rewrite <- Four by exact R1. rewrite <- E0. rewrite <- E1. rewrite V0. rewrite (Z.lxor_comm (le32 b0 b1 b2 b3) c), Z.lxor_assoc. reflexivity. }
    clear V0 RV0 Four App E0 E1 R0 R1.
    pose proof (land255 v0) as C0. pose proof (land255 (Z.shiftr v0 8)) as C1. pose proof (land255 (Z.shiftr v0 16)) as C2.
    pose proof (land255 (Z.shiftr v0 24)) as C3. pose proof (land255 v1) as C4. pose proof (land255 (Z.shiftr v1 8)) as C5.
    pose proof (land255 (Z.shiftr v1 16)) as C6. pose proof (land255 (Z.shiftr v1 24)) as C7.
    set (x0 := Z.land v0 255) in *. set (x1 := Z.land (Z.shiftr v0 8) 255) in *. set (x2 := Z.land (Z.shiftr v0 16) 255) in *.
    set (x3 := Z.land (Z.shiftr v0 24) 255) in *. set (x4 := Z.land v1 255) in *. set (x5 := Z.land (Z.shiftr v1 8) 255) in *.
    set (x6 := Z.land (Z.shiftr v1 16) 255) in *. set (x7 := Z.land (Z.shiftr v1 24) 255) in *.
    clearbody x0 x1 x2 x3 x4 x5 x6 x7. clear -Tlin Tpos C0 C1 C2 C3 C4 C5 C6 C7.
    assert (Step : forall n x l, byte x -> bytes l -> iter (S n) bstep (leval (x :: l)) = Z.lxor (iter (S n) bstep x) (iter n bstep (leval l))).
    { intros n x l Hx Hl. cbn [leval]. pose proof (leval_nonneg l Hl). rewrite iter_lin2; [|apply byte_nonneg; exact Hx|apply Z.shiftl_nonneg; assumption].
      f_equal. cbn [iter]. rewrite bstep_shift. reflexivity. }
    rewrite Step; [|assumption|unfold bytes; auto 12].
    rewrite Step; [|assumption|unfold bytes; auto 12].
    rewrite Step; [|assumption|unfold bytes; auto 12].
    rewrite Step; [|assumption|unfold bytes; auto 12].
    rewrite Step; [|assumption|unfold bytes; auto 12].
    rewrite Step; [|assumption|unfold bytes; auto 12].
    rewrite Step; [|assumption|unfold bytes; auto 12].
    rewrite Step; [|assumption|unfold bytes; auto 12].
    cbn [leval]. cbn [iter]. rewrite Z.lxor_0_r. reflexivity.
  Qed.
End Slice.
