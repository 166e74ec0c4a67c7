(** * Proofs about the limb loops *)
From Verif Require Import Lib BitsModel DwordModel DwordSpec DwordProofs MpiModel MpiSpec.
Ltac Zify.zify_post_hook ::= Z.div_mod_to_equations.

Fixpoint Bp (n : nat) : Z := match n with O => 1 | S n => 2 ^ 64 * Bp n end.
Lemma Bp_pos : forall n, 1 <= Bp n.
Proof. induction n; cbn [Bp]; lia. Qed.
Lemma Bp_add : forall n m, Bp (n + m) = Bp n * Bp m.
Proof. induction n; intros; cbn [Bp Nat.add]; [lia|]. rewrite IHn. ring. Qed.

Lemma val_app : forall a b, val (a ++ b) = val a + Bp (length a) * val b.
Proof. induction a as [|x a IH]; intros b; cbn [val app length Bp]; [lia|]. rewrite IH. ring. Qed.
Lemma val_range : forall l, Forall u64 l -> 0 <= val l < Bp (length l).
Proof.
  induction 1 as [|x l Hx Hl IH]; cbn [val length Bp]; [lia|]. unfold u64 in Hx. lia.
Qed.
Lemma val_inj : forall a b, length a = length b -> Forall u64 a -> Forall u64 b -> val a = val b -> a = b.
Proof.
  induction a as [|x a IH]; intros [|y b] L Ha Hb E; cbn [length] in L; try discriminate; [reflexivity|].
  apply Forall_cons_iff in Ha, Hb. destruct Ha as [Hx Ha], Hb as [Hy Hb]. cbn [val] in E. unfold u64 in *.
  assert (x = y /\ val a = val b) as [-> E'] by lia. f_equal. apply IH; auto.
Qed.

(** ** One limb *)
Lemma b2z_01 : forall b, b2z b = 0 \/ b2z b = 1.
Proof. intros []; cbn; auto. Qed.
Lemma step_add : forall x y c, u64 x -> u64 y -> c = 0 \/ c = 1 -> y < 2 ^ 64 - 1 \/ c = 0 ->
  w64 (x + y + c) + 2 ^ 64 * b2z (w64 (x + y + c) <? x) = x + y + c.
Proof.
  unfold u64, w64, b2z. intros x y c Hx Hy Hc H.
  destruct (Z.ltb_spec ((x + y + c) mod 2 ^ 64) x); lia.
Qed.
Lemma step_addc : forall x c, u64 x -> c = 0 \/ c = 1 ->
  w64 (x + c) + 2 ^ 64 * b2z (w64 (x + c) <? x) = x + c.
Proof. unfold u64, w64, b2z. intros x c Hx Hc. destruct (Z.ltb_spec ((x + c) mod 2 ^ 64) x); lia. Qed.
Lemma step_addi : forall x vi, u64 x -> u64 vi ->
  w64 (x + vi) + 2 ^ 64 * b2z (w64 (x + vi) <? x) = x + vi.
Proof. unfold u64, w64, b2z. intros x c Hx Hc. destruct (Z.ltb_spec ((x + c) mod 2 ^ 64) x); lia. Qed.
Lemma step_sub : forall x y c, u64 x -> u64 y -> c = 0 \/ c = 1 -> y < 2 ^ 64 - 1 \/ c = 0 ->
  w64 (x - y - c) - 2 ^ 64 * b2z (x <? w64 (x - y - c)) = x - y - c.
Proof.
  unfold u64, w64, b2z. intros x y c Hx Hy Hc H.
  destruct (Z.ltb_spec x ((x - y - c) mod 2 ^ 64)); lia.
Qed.
Lemma step_subi : forall x c, u64 x -> u64 c ->
  w64 (x - c) - 2 ^ 64 * b2z (x <? w64 (x - c)) = x - c.
Proof. unfold u64, w64, b2z. intros x c Hx Hc. destruct (Z.ltb_spec x ((x - c) mod 2 ^ 64)); lia. Qed.

(** High and low word of a product plus a carry. *)
Lemma mul_words : forall x vi c vh vl, u64 x -> u64 vi -> u64 c -> umul_ppmm x vi = (vh, vl) ->
  let v := w64 (vl + c) in let c' := w64 (b2z (v <? c) + vh) in
  u64 v /\ u64 c' /\ v + 2 ^ 64 * c' = x * vi + c.
Proof.
  intros x vi c vh vl Hx Hv Hc E.
  pose proof (umul_ok x vi Hx Hv) as [[D1 D2] D3]. rewrite E in *. unfold dval in D3. cbn [fst snd] in *.
  assert (P : x * vi <= (2 ^ 64 - 1) * (2 ^ 64 - 1)) by (unfold u64 in *; nia).
  rewrite <- D3 in *. clear D3 E.
  unfold u64, w64, b2z in *. cbv zeta.
  destruct (Z.ltb_spec ((vl + c) mod 2 ^ 64) c).
  - assert ((vl + c) mod 2 ^ 64 = vl + c - 2 ^ 64) as -> by lia.
    rewrite Z.mod_small by lia. lia.
  - assert ((vl + c) mod 2 ^ 64 = vl + c) as -> by lia.
    rewrite Z.mod_small by lia. lia.
Qed.
Lemma mul_le : forall x vi, u64 x -> u64 vi -> x * vi <= (2 ^ 64 - 1) * (2 ^ 64 - 1).
Proof. unfold u64. intros. nia. Qed.
Lemma mac_words : forall x vi c y v c', u64 x -> u64 vi -> u64 c -> u64 y -> u64 v -> u64 c' ->
  v + 2 ^ 64 * c' = x * vi + c ->
  let v' := w64 (y + v) in let c2 := w64 (c' + b2z (v' <? y)) in
  u64 v' /\ u64 c2 /\ v' + 2 ^ 64 * c2 = y + x * vi + c.
Proof.
  intros x vi c y v c' Hx Hvi Hc Hy Hv Hc' E. pose proof (mul_le x vi Hx Hvi) as P.
  unfold u64, w64, b2z in *. cbv zeta. generalize dependent (x * vi). intros p E P.
  destruct (Z.ltb_spec ((y + v) mod 2 ^ 64) y).
  - assert ((y + v) mod 2 ^ 64 = y + v - 2 ^ 64) as -> by lia.
    rewrite Z.mod_small by lia. lia.
  - assert ((y + v) mod 2 ^ 64 = y + v) as -> by lia.
    rewrite Z.mod_small by lia. lia.
Qed.
Lemma msu_words : forall x vi c y v c', u64 x -> u64 vi -> u64 c -> u64 y -> u64 v -> u64 c' ->
  v + 2 ^ 64 * c' = x * vi + c ->
  let v' := w64 (y - v) in let c2 := w64 (c' + b2z (y <? v')) in
  u64 v' /\ u64 c2 /\ v' - 2 ^ 64 * c2 = y - x * vi - c.
Proof.
  intros x vi c y v c' Hx Hvi Hc Hy Hv Hc' E. pose proof (mul_le x vi Hx Hvi) as P.
  unfold u64, w64, b2z in *. cbv zeta. generalize dependent (x * vi). intros p E P.
  destruct (Z.ltb_spec y ((y - v) mod 2 ^ 64)).
  - assert ((y - v) mod 2 ^ 64 = y - v + 2 ^ 64) as -> by lia.
    rewrite Z.mod_small by lia. lia.
  - assert ((y - v) mod 2 ^ 64 = y - v) as -> by lia.
    rewrite Z.mod_small by lia. lia.
Qed.

(** ** Sources: another array, or the destination at the same position *)
Definition srcok (s : src) (d : list Z) (ps pa : Z) (a : list Z) : Prop :=
  (forall i, 0 <= i < zlen a -> rds s d (pa + i) = rd a i) /\ (s = Own -> pa = ps).

Lemma rd_cons0 : forall A (x : A) l, rd (x :: l) 0 = Some x.
Proof. reflexivity. Qed.
Lemma rd_cons_succ : forall A (x : A) l i, 0 <= i -> rd (x :: l) (i + 1) = rd l i.
Proof.
  intros A x l i H. unfold rd. destruct (Z.ltb_spec (i + 1) 0); [lia|]. destruct (Z.ltb_spec i 0); [lia|].
  replace (Z.to_nat (i + 1)) with (S (Z.to_nat i)) by lia. reflexivity.
Qed.
Lemma srcok_head : forall s d ps pa x a, srcok s d ps pa (x :: a) -> rds s d pa = Some x.
Proof.
  intros s d ps pa x a [H _]. specialize (H 0). rewrite Z.add_0_r in H. apply H.
  rewrite zlen_cons. pose proof (zlen_nonneg _ a). lia.
Qed.
Lemma srcok_tail : forall s d ps pa x a v d', srcok s d ps pa (x :: a) -> wr d ps v = Some d' ->
  srcok s d' (ps + 1) (pa + 1) a.
Proof.
  intros s d ps pa x a v d' [H O] W. split; [|intros E; rewrite (O E); reflexivity].
  intros i Hi. specialize (H (i + 1)). rewrite zlen_cons in H.
  rewrite rd_cons_succ in H by lia. rewrite <- H by lia.
  replace (pa + 1 + i) with (pa + (i + 1)) by lia. destruct s as [l|]; [reflexivity|].
  cbn [rds]. apply wr_inv in W. destruct W as (_ & _ & W). rewrite W.
  rewrite (O eq_refl). destruct (Z.eqb_spec (ps + (i + 1)) ps); [lia|reflexivity].
Qed.
Lemma srcok_ext : forall l d ps a b, l = a ++ b -> srcok (Ext l) d ps 0 a.
Proof.
  intros l d ps a b ->. split; [|discriminate]. intros i Hi. cbn [rds]. unfold rd, zlen in *.
  destruct (Z.ltb_spec (0 + i) 0); [lia|]. destruct (Z.ltb_spec i 0); [lia|]. rewrite nth_error_app1 by lia. reflexivity.
Qed.
Lemma srcok_own : forall p a q ps, ps = zlen p -> srcok Own (p ++ a ++ q) ps ps a.
Proof.
  intros p a q ps ->. split; [|reflexivity]. intros i Hi. cbn [rds]. unfold rd, zlen in *.
  destruct (Z.ltb_spec (Z.of_nat (length p) + i) 0); [lia|]. destruct (Z.ltb_spec i 0); [lia|].
  rewrite nth_error_app2 by lia. rewrite nth_error_app1 by lia. f_equal. lia.
Qed.

(** What a loop leaves behind: [n] fresh limbs between an untouched prefix and suffix. *)
Definition wrote (r : option (list Z * Z)) (p q : list Z) (n : nat) (P : list Z -> Z -> Prop) : Prop :=
  exists m c, r = Some (p ++ m ++ q, c) /\ length m = n /\ Forall u64 m /\ P m c.
Lemma wrote_cons : forall r p q n v (P : list Z -> Z -> Prop), u64 v ->
  wrote r (p ++ [v]) q n (fun m c => P (v :: m) c) -> wrote r p q (S n) P.
Proof.
  intros r p q n v P Hv (m & c & -> & L & U & H). exists (v :: m), c.
  rewrite <- app_assoc. cbn [app length]. auto.
Qed.
Lemma wrote_nil : forall p q c (P : list Z -> Z -> Prop), P [] c -> wrote (Some (p ++ q, c)) p q 0 P.
Proof. intros. exists [], c. auto. Qed.
Lemma wrote_imp : forall r p q n (P Q : list Z -> Z -> Prop), wrote r p q n P ->
  (forall m c, length m = n -> Forall u64 m -> P m c -> Q m c) -> wrote r p q n Q.
Proof. intros r p q n P Q (m & c & -> & L & U & H) I. exists m, c. auto. Qed.

Lemma wrote_none : forall p q n P, ~ wrote None p q n P.
Proof. intros p q n P (m & c & E & _). discriminate. Qed.

(** What [add_loop] loses. *)
Fixpoint lost (a b : list Z) (c : Z) : Z :=
  match a, b with
  | x :: a, y :: b => (if (y =? 2 ^ 64 - 1) && (c =? 1) then 2 ^ 64 else 0)
                      + 2 ^ 64 * lost a b (b2z (w64 (x + y + c) <? x))
  | _, _ => 0
  end.
Fixpoint lostb (a b : list Z) (c : Z) : Z :=
  match a, b with
  | x :: a, y :: b => (if (y =? 2 ^ 64 - 1) && (c =? 1) then 2 ^ 64 else 0)
                      + 2 ^ 64 * lostb a b (b2z (x <? w64 (x - y - c)))
  | _, _ => 0
  end.
Lemma lost_nonneg : forall a b c, 0 <= lost a b c.
Proof.
  induction a as [|x a IH]; intros [|y b] c; cbn [lost]; try lia.
  pose proof (IH b (b2z (w64 (x + y + c) <? x))). destruct ((y =? 2 ^ 64 - 1) && (c =? 1)); lia.
Qed.
Lemma lostb_nonneg : forall a b c, 0 <= lostb a b c.
Proof.
  induction a as [|x a IH]; intros [|y b] c; cbn [lostb]; try lia.
  pose proof (IH b (b2z (x <? w64 (x - y - c)))). destruct ((y =? 2 ^ 64 - 1) && (c =? 1)); lia.
Qed.
Lemma step_add' : forall x y c, u64 x -> u64 y -> c = 0 \/ c = 1 ->
  w64 (x + y + c) + 2 ^ 64 * b2z (w64 (x + y + c) <? x) + (if (y =? 2 ^ 64 - 1) && (c =? 1) then 2 ^ 64 else 0)
  = x + y + c.
Proof.
  intros x y c Hx Hy Hc. destruct (Z.eqb_spec y (2 ^ 64 - 1)); [destruct (Z.eqb_spec c 1)|]; cbn [andb].
  - subst. unfold u64, w64, b2z in *. destruct (Z.ltb_spec ((x + (2 ^ 64 - 1) + 1) mod 2 ^ 64) x); lia.
  - rewrite step_add; auto; lia.
  - rewrite step_add; auto; unfold u64 in *; lia.
Qed.
Lemma step_sub' : forall x y c, u64 x -> u64 y -> c = 0 \/ c = 1 ->
  w64 (x - y - c) - 2 ^ 64 * b2z (x <? w64 (x - y - c)) - (if (y =? 2 ^ 64 - 1) && (c =? 1) then 2 ^ 64 else 0)
  = x - y - c.
Proof.
  intros x y c Hx Hy Hc. destruct (Z.eqb_spec y (2 ^ 64 - 1)); [destruct (Z.eqb_spec c 1)|]; cbn [andb].
  - subst. unfold u64, w64, b2z in *. destruct (Z.ltb_spec x ((x - (2 ^ 64 - 1) - 1) mod 2 ^ 64)); lia.
  - rewrite step_sub; auto; lia.
  - rewrite step_sub; auto; unfold u64 in *; lia.
Qed.
Lemma lost_iff : forall a b c, Forall u64 a -> Forall u64 b -> c = 0 \/ c = 1 ->
  (lost a b c = 0 <-> carry_into_max a b c = false).
Proof.
  induction a as [|x a IH]; intros [|y b] c Ua Ub Hc; cbn [lost carry_into_max]; try tauto.
  apply Forall_cons_iff in Ua, Ub. destruct Ua as [Ux Ua], Ub as [Uy Ub].
  pose proof (lost_nonneg a b (b2z (w64 (x + y + c) <? x))) as N.
  pose proof (step_add' x y c Ux Uy Hc) as S.
  destruct ((y =? 2 ^ 64 - 1) && (c =? 1)); cbn [orb].
  - split; [lia|discriminate].
  - assert (E : (x + y + c) / 2 ^ 64 = b2z (w64 (x + y + c) <? x)) by (pose proof (w64_range (x + y + c)); lia).
    rewrite E. rewrite <- IH; auto using b2z_01. lia.
Qed.
Lemma lostb_iff : forall a b c, Forall u64 a -> Forall u64 b -> c = 0 \/ c = 1 ->
  (lostb a b c = 0 <-> borrow_into_max a b c = false).
Proof.
  induction a as [|x a IH]; intros [|y b] c Ua Ub Hc; cbn [lostb borrow_into_max]; try tauto.
  apply Forall_cons_iff in Ua, Ub. destruct Ua as [Ux Ua], Ub as [Uy Ub].
  pose proof (lostb_nonneg a b (b2z (x <? w64 (x - y - c)))) as N.
  pose proof (step_sub' x y c Ux Uy Hc) as S.
  destruct ((y =? 2 ^ 64 - 1) && (c =? 1)); cbn [orb].
  - split; [lia|discriminate].
  - assert (E : (if x <? y + c then 1 else 0) = b2z (x <? w64 (x - y - c))).
    { pose proof (w64_range (x - y - c)). unfold u64, b2z in *. destruct (Z.ltb_spec x (y + c)), (Z.ltb_spec x (w64 (x - y - c))); lia. }
    rewrite E. rewrite <- IH; auto using b2z_01. lia.
Qed.

Lemma zlen_snoc : forall A (p : list A) v i, i = zlen p -> i + 1 = zlen (p ++ [v]).
Proof. intros. rewrite zlen_app, zlen_cons, zlen_nil. lia. Qed.
Lemma wr_next : forall (p m q : list Z) z v i, i = zlen p ->
  wr (p ++ (z :: m) ++ q) i v = Some ((p ++ [v]) ++ m ++ q).
Proof. intros. rewrite <- app_assoc. cbn [app]. apply wr_app_len. assumption. Qed.
Lemma rd_next : forall (p m q : list Z) z i, i = zlen p -> rd (p ++ (z :: m) ++ q) i = Some z.
Proof. intros. cbn [app]. apply rd_app_len. assumption. Qed.

Ltac conses := repeat match goal with H : Forall _ (_ :: _) |- _ =>
    let a := fresh "U" in apply Forall_cons_iff in H; destruct H as [a H] end.
Ltac lens := cbn [length] in *; try lia.

Lemma add_loop_ok : forall a b p m q sa sb ps pa pb c,
  length b = length a -> length m = length a -> ps = zlen p -> c = 0 \/ c = 1 ->
  Forall u64 a -> Forall u64 b ->
  srcok sa (p ++ m ++ q) ps pa a -> srcok sb (p ++ m ++ q) ps pb b ->
  wrote (add_loop (length a) (p ++ m ++ q) sa sb ps pa pb c) p q (length a)
    (fun s c' => (c' = 0 \/ c' = 1) /\ val s + c' * Bp (length a) + lost a b c = val a + val b + c).
Proof.
  induction a as [|x a IH]; intros [|y b] p [|z m] q sa sb ps pa pb c Lb Lm Ep Hc Ua Ub Sa Sb;
    try discriminate; cbn [length add_loop].
  - apply wrote_nil. cbn [val Bp lost]. split; [exact Hc|lia].
  - rewrite (srcok_head _ _ _ _ _ _ Sa), (srcok_head _ _ _ _ _ _ Sb). conses.
    pose proof (step_add' x y c U0 U Hc) as St. cbn [lost].
    set (v := w64 (x + y + c)) in *. assert (Uv : u64 v) by apply w64_range.
    pose proof (wr_next p m q z v ps Ep) as W. rewrite W.
    apply wrote_cons with (v := v); [exact Uv|].
    eapply wrote_imp; [apply (IH b (p ++ [v]) m q); try assumption; lens|].
    + apply zlen_snoc. exact Ep.
    + apply b2z_01.
    + eapply srcok_tail; eassumption.
    + eapply srcok_tail; eassumption.
    + cbv beta. intros s c' _ _ [H1 H2]. split; [exact H1|]. cbn [val Bp]. lia.
Qed.
Lemma sub_loop_ok : forall a b p m q sa sb ps pa pb c,
  length b = length a -> length m = length a -> ps = zlen p -> c = 0 \/ c = 1 ->
  Forall u64 a -> Forall u64 b ->
  srcok sa (p ++ m ++ q) ps pa a -> srcok sb (p ++ m ++ q) ps pb b ->
  wrote (sub_loop (length a) (p ++ m ++ q) sa sb ps pa pb c) p q (length a)
    (fun s c' => (c' = 0 \/ c' = 1) /\ val s - c' * Bp (length a) - lostb a b c = val a - val b - c).
Proof.
  induction a as [|x a IH]; intros [|y b] p [|z m] q sa sb ps pa pb c Lb Lm Ep Hc Ua Ub Sa Sb;
    try discriminate; cbn [length sub_loop].
  - apply wrote_nil. cbn [val Bp lostb]. split; [exact Hc|lia].
  - rewrite (srcok_head _ _ _ _ _ _ Sa), (srcok_head _ _ _ _ _ _ Sb). conses.
    pose proof (step_sub' x y c U0 U Hc) as St. cbn [lostb].
    set (v := w64 (x - y - c)) in *. assert (Uv : u64 v) by apply w64_range.
    pose proof (wr_next p m q z v ps Ep) as W. rewrite W.
    apply wrote_cons with (v := v); [exact Uv|].
    eapply wrote_imp; [apply (IH b (p ++ [v]) m q); try assumption; lens|].
    + apply zlen_snoc. exact Ep.
    + apply b2z_01.
    + eapply srcok_tail; eassumption.
    + eapply srcok_tail; eassumption.
    + cbv beta. intros s c' _ _ [H1 H2]. split; [exact H1|]. cbn [val Bp]. lia.
Qed.
Lemma add_tail_ok : forall a p m q sa ps pa c,
  length m = length a -> ps = zlen p -> c = 0 \/ c = 1 -> Forall u64 a ->
  srcok sa (p ++ m ++ q) ps pa a ->
  wrote (add_tail (length a) (p ++ m ++ q) sa ps pa c) p q (length a)
    (fun s c' => (c' = 0 \/ c' = 1) /\ val s + c' * Bp (length a) = val a + c).
Proof.
  induction a as [|x a IH]; intros p [|z m] q sa ps pa c Lm Ep Hc Ua Sa; try discriminate; cbn [length add_tail].
  - apply wrote_nil. cbn [val Bp]. split; [exact Hc|lia].
  - rewrite (srcok_head _ _ _ _ _ _ Sa). conses.
    pose proof (step_addc x c U Hc) as St.
    set (v := w64 (x + c)) in *. assert (Uv : u64 v) by apply w64_range.
    pose proof (wr_next p m q z v ps Ep) as W. rewrite W.
    apply wrote_cons with (v := v); [exact Uv|].
    eapply wrote_imp; [apply (IH (p ++ [v]) m q); try assumption; lens|].
    + apply zlen_snoc. exact Ep.
    + apply b2z_01.
    + eapply srcok_tail; eassumption.
    + cbv beta. intros s c' _ _ [H1 H2]. split; [exact H1|]. cbn [val Bp]. lia.
Qed.
Lemma sub_tail_ok : forall a p m q sa ps pa c,
  length m = length a -> ps = zlen p -> c = 0 \/ c = 1 -> Forall u64 a ->
  srcok sa (p ++ m ++ q) ps pa a ->
  wrote (sub_tail (length a) (p ++ m ++ q) sa ps pa c) p q (length a)
    (fun s c' => (c' = 0 \/ c' = 1) /\ val s - c' * Bp (length a) = val a - c).
Proof.
  induction a as [|x a IH]; intros p [|z m] q sa ps pa c Lm Ep Hc Ua Sa; try discriminate; cbn [length sub_tail].
  - apply wrote_nil. cbn [val Bp]. split; [exact Hc|lia].
  - rewrite (srcok_head _ _ _ _ _ _ Sa). conses.
    assert (Uc : u64 c) by (unfold u64; lia).
    pose proof (step_subi x c U Uc) as St.
    set (v := w64 (x - c)) in *. assert (Uv : u64 v) by apply w64_range.
    pose proof (wr_next p m q z v ps Ep) as W. rewrite W.
    apply wrote_cons with (v := v); [exact Uv|].
    eapply wrote_imp; [apply (IH (p ++ [v]) m q); try assumption; lens|].
    + apply zlen_snoc. exact Ep.
    + apply b2z_01.
    + eapply srcok_tail; eassumption.
    + cbv beta. intros s c' _ _ [H1 H2]. split; [exact H1|]. cbn [val Bp]. lia.
Qed.
(** Distinct arrays: the second read of *ptra sees the operand. *)
Lemma addi_loop_ext : forall a p m q l ps pa c,
  length m = length a -> ps = zlen p -> c = 0 \/ c = 1 -> Forall u64 a ->
  srcok (Ext l) (p ++ m ++ q) ps pa a ->
  wrote (addi_loop (length a) (p ++ m ++ q) (Ext l) ps pa c) p q (length a)
    (fun s c' => (c' = 0 \/ c' = 1) /\ val s + c' * Bp (length a) = val a + c).
Proof.
  induction a as [|x a IH]; intros p [|z m] q l ps pa c Lm Ep Hc Ua Sa; try discriminate; cbn [length addi_loop].
  - apply wrote_nil. cbn [val Bp]. split; [exact Hc|lia].
  - rewrite (srcok_head _ _ _ _ _ _ Sa). conses.
    pose proof (step_addc x c U Hc) as St.
    set (v := w64 (x + c)) in *. assert (Uv : u64 v) by apply w64_range.
    pose proof (wr_next p m q z v ps Ep) as W. rewrite W.
    replace (rd ((p ++ [v]) ++ m ++ q) ps) with (Some v) by (rewrite <- app_assoc; symmetry; apply (rd_next p m q v ps Ep)).
    change (rds (Ext l) ((p ++ [v]) ++ m ++ q) pa) with (rds (Ext l) (p ++ (z :: m) ++ q) pa).
    rewrite (srcok_head _ _ _ _ _ _ Sa).
    apply wrote_cons with (v := v); [exact Uv|].
    eapply wrote_imp; [apply (IH (p ++ [v]) m q l); try assumption; lens|].
    + apply zlen_snoc. exact Ep.
    + apply b2z_01.
    + eapply srcok_tail; eassumption.
    + cbv beta. intros s c' _ _ [H1 H2]. split; [exact H1|]. cbn [val Bp]. lia.
Qed.
(** In place: *ptrs is compared with itself, no carry survives. *)
Lemma addi_loop_own0 : forall a p m q ps,
  length m = length a -> ps = zlen p -> Forall u64 a ->
  srcok Own (p ++ m ++ q) ps ps a ->
  wrote (addi_loop (length a) (p ++ m ++ q) Own ps ps 0) p q (length a)
    (fun s c' => c' = 0 /\ val s = val a).
Proof.
  induction a as [|x a IH]; intros p [|z m] q ps Lm Ep Ua Sa; try discriminate; cbn [length addi_loop].
  - apply wrote_nil. cbn [val Bp]. lia.
  - rewrite (srcok_head _ _ _ _ _ _ Sa). conses.
    set (v := w64 (x + 0)) in *. assert (Uv : u64 v) by apply w64_range.
    assert (E : v = x) by (unfold v; rewrite Z.add_0_r; apply w64_small; exact U).
    pose proof (wr_next p m q z v ps Ep) as W. rewrite W.
    assert (R : rd ((p ++ [v]) ++ m ++ q) ps = Some v) by (rewrite <- app_assoc; apply (rd_next p m q v ps Ep)).
    cbn [rds]. rewrite R. rewrite Z.ltb_irrefl. cbn [b2z].
    apply wrote_cons with (v := v); [exact Uv|].
    eapply wrote_imp; [apply (IH (p ++ [v]) m q); try assumption; lens|].
    + apply zlen_snoc. exact Ep.
    + pose proof (srcok_tail _ _ _ _ _ _ _ _ Sa W). assumption.
    + cbv beta. intros s c' _ _ [H1 H2]. split; [exact H1|]. cbn [val Bp]. lia.
Qed.
Lemma muli_ok : forall a p m q sa ps pa vi c,
  length m = length a -> ps = zlen p -> u64 vi -> u64 c -> Forall u64 a ->
  srcok sa (p ++ m ++ q) ps pa a ->
  wrote (mpa_muli (length a) (p ++ m ++ q) sa ps pa vi c) p q (length a)
    (fun s c' => u64 c' /\ val s + c' * Bp (length a) = val a * vi + c).
Proof.
  induction a as [|x a IH]; intros p [|z m] q sa ps pa vi c Lm Ep Hv Hc Ua Sa; try discriminate; cbn [length mpa_muli].
  - apply wrote_nil. cbn [val Bp]. split; [exact Hc|lia].
  - rewrite (srcok_head _ _ _ _ _ _ Sa). conses.
    destruct (umul_ppmm x vi) as [vh vl] eqn:E.
    destruct (mul_words x vi c vh vl U Hv Hc E) as (Uv & Uc & St).
    set (v := w64 (vl + c)) in *. set (c1 := w64 (b2z (v <? c) + vh)) in *.
    pose proof (wr_next p m q z v ps Ep) as W. rewrite W.
    apply wrote_cons with (v := v); [exact Uv|].
    eapply wrote_imp; [apply (IH (p ++ [v]) m q); try assumption; lens|].
    + apply zlen_snoc. exact Ep.
    + eapply srcok_tail; eassumption.
    + cbv beta. intros s c' _ _ [H1 H2]. split; [exact H1|]. cbn [val Bp].
      replace ((x + 2 ^ 64 * val a) * vi + c) with (x * vi + c + 2 ^ 64 * (val a * vi)) by ring.
      rewrite <- St. lia.
Qed.
(** The accumulating loops also read the destination limbs [m]. *)
Lemma maci_ok : forall a p m q l ps pa vi c,
  length m = length a -> ps = zlen p -> u64 vi -> u64 c -> Forall u64 a -> Forall u64 m ->
  srcok (Ext l) (p ++ m ++ q) ps pa a ->
  wrote (mpa_maci (length a) (p ++ m ++ q) (Ext l) ps pa vi c) p q (length a)
    (fun s c' => u64 c' /\ val s + c' * Bp (length a) = val m + val a * vi + c).
Proof.
  induction a as [|x a IH]; intros p [|z m] q sa ps pa vi c Lm Ep Hv Hc Ua Um Sa; try discriminate; cbn [length mpa_maci].
  - apply wrote_nil. cbn [val Bp]. split; [exact Hc|lia].
  - rewrite (srcok_head _ _ _ _ _ _ Sa). conses.
    destruct (umul_ppmm x vi) as [vh vl] eqn:E.
    destruct (mul_words x vi c vh vl U0 Hv Hc E) as (Uv & Uc & St).
    set (v := w64 (vl + c)) in *. set (c1 := w64 (b2z (v <? c) + vh)) in *.
    rewrite (rd_next p m q z ps Ep).
    destruct (mac_words x vi c z v c1 U0 Hv Hc U Uv Uc St) as (Uv2 & Uc2 & St2).
    set (v2 := w64 (z + v)) in *. set (c2 := w64 (c1 + b2z (v2 <? z))) in *.
    pose proof (wr_next p m q z v2 ps Ep) as W. rewrite W.
    apply wrote_cons with (v := v2); [exact Uv2|].
    eapply wrote_imp; [apply (IH (p ++ [v2]) m q); try assumption; lens|].
    + apply zlen_snoc. exact Ep.
    + eapply srcok_tail; eassumption.
    + cbv beta. intros s c' _ _ [H1 H2]. split; [exact H1|]. cbn [val Bp].
      replace (z + 2 ^ 64 * val m + (x + 2 ^ 64 * val a) * vi + c) with (z + x * vi + c + 2 ^ 64 * (val m + val a * vi)) by ring.
      rewrite <- St2. lia.
Qed.
Lemma msui_ok : forall a p m q l ps pa vi c,
  length m = length a -> ps = zlen p -> u64 vi -> u64 c -> Forall u64 a -> Forall u64 m ->
  srcok (Ext l) (p ++ m ++ q) ps pa a ->
  wrote (mpa_msui (length a) (p ++ m ++ q) (Ext l) ps pa vi c) p q (length a)
    (fun s c' => u64 c' /\ val s - c' * Bp (length a) = val m - val a * vi - c).
Proof.
  induction a as [|x a IH]; intros p [|z m] q sa ps pa vi c Lm Ep Hv Hc Ua Um Sa; try discriminate; cbn [length mpa_msui].
  - apply wrote_nil. cbn [val Bp]. split; [exact Hc|lia].
  - rewrite (srcok_head _ _ _ _ _ _ Sa). conses.
    destruct (umul_ppmm x vi) as [vh vl] eqn:E.
    destruct (mul_words x vi c vh vl U0 Hv Hc E) as (Uv & Uc & St).
    set (v := w64 (vl + c)) in *. set (c1 := w64 (b2z (v <? c) + vh)) in *.
    rewrite (rd_next p m q z ps Ep).
    destruct (msu_words x vi c z v c1 U0 Hv Hc U Uv Uc St) as (Uv2 & Uc2 & St2).
    set (v2 := w64 (z - v)) in *. set (c2 := w64 (c1 + b2z (z <? v2))) in *.
    pose proof (wr_next p m q z v2 ps Ep) as W. rewrite W.
    apply wrote_cons with (v := v2); [exact Uv2|].
    eapply wrote_imp; [apply (IH (p ++ [v2]) m q); try assumption; lens|].
    + apply zlen_snoc. exact Ep.
    + eapply srcok_tail; eassumption.
    + cbv beta. intros s c' _ _ [H1 H2]. split; [exact H1|]. cbn [val Bp].
      replace (z + 2 ^ 64 * val m - (x + 2 ^ 64 * val a) * vi - c) with (z - x * vi - c + 2 ^ 64 * (val m - val a * vi)) by ring.
      rewrite <- St2. lia.
Qed.

(** ** Composite loops *)
Lemma rd_app1 : forall A (a b : list A) i, i < zlen a -> rd (a ++ b) i = rd a i.
Proof.
  intros A a b i H. unfold rd, zlen in *. destruct (Z.ltb_spec i 0); [reflexivity|]. apply nth_error_app1. lia.
Qed.
Lemma rd_app2 : forall A (a b : list A) i, zlen a <= i -> rd (a ++ b) i = rd b (i - zlen a).
Proof.
  intros A a b i H. unfold rd, zlen in *. destruct (Z.ltb_spec i 0); [lia|].
  destruct (Z.ltb_spec (i - Z.of_nat (length a)) 0); [lia|]. rewrite nth_error_app2 by lia. f_equal. lia.
Qed.
Lemma srcok_prefix : forall s d ps pa a1 a2, srcok s d ps pa (a1 ++ a2) -> srcok s d ps pa a1.
Proof.
  intros s d ps pa a1 a2 [H O]. split; [|exact O]. intros i Hi.
  rewrite H by (rewrite zlen_app; pose proof (zlen_nonneg _ a2); lia). apply rd_app1. lia.
Qed.
Lemma srcok_skip : forall s p m1 m2 q m1' ps pa a1 a2, ps = zlen p ->
  length m1 = length a1 -> length m1' = length a1 ->
  srcok s (p ++ m1 ++ m2 ++ q) ps pa (a1 ++ a2) ->
  srcok s (p ++ m1' ++ m2 ++ q) (ps + zlen a1) (pa + zlen a1) a2.
Proof.
  intros s p m1 m2 q m1' ps pa a1 a2 E L1 L2 [H O]. split; [|intros Q; rewrite (O Q); reflexivity].
  intros i Hi. specialize (H (zlen a1 + i)). rewrite zlen_app in H.
  pose proof (zlen_nonneg _ a1) as N1.
  rewrite rd_app2 in H by lia. replace (zlen a1 + i - zlen a1) with i in H by lia. rewrite <- H by lia.
  replace (pa + (zlen a1 + i)) with (pa + zlen a1 + i) by lia.
  destruct s as [l|]; [reflexivity|]. cbn [rds]. rewrite (O eq_refl).
  pose proof (zlen_nonneg _ p) as N2.
  assert (Z1 : zlen m1 = zlen a1) by (unfold zlen; lia). assert (Z2 : zlen m1' = zlen a1) by (unfold zlen; lia).
  rewrite (rd_app2 _ p) by lia. rewrite (rd_app2 _ m1') by lia.
  rewrite (rd_app2 _ p) by lia. rewrite (rd_app2 _ m1) by lia. f_equal. lia.
Qed.
Lemma srcok_nil : forall s d ps pa, (s = Own -> pa = ps) -> srcok s d ps pa [].
Proof. intros. split; [intros i Hi; rewrite zlen_nil in Hi; lia|assumption]. Qed.
Lemma lost_app : forall a b a2 b2 c, length a = length b -> a2 = [] \/ b2 = [] ->
  lost (a ++ a2) (b ++ b2) c = lost a b c.
Proof.
  induction a as [|x a IH]; intros [|y b] a2 b2 c L H; try discriminate; cbn [app lost].
  - destruct H; subst; [destruct b2|destruct a2]; reflexivity.
  - rewrite IH; [reflexivity|cbn in L; lia|exact H].
Qed.
Lemma lostb_app : forall a b a2 b2 c, length a = length b -> a2 = [] \/ b2 = [] ->
  lostb (a ++ a2) (b ++ b2) c = lostb a b c.
Proof.
  induction a as [|x a IH]; intros [|y b] a2 b2 c L H; try discriminate; cbn [app lostb].
  - destruct H; subst; [destruct b2|destruct a2]; reflexivity.
  - rewrite IH; [reflexivity|cbn in L; lia|exact H].
Qed.
Lemma split_at : forall A n (l : list A), (n <= length l)%nat ->
  exists l1 l2, l = l1 ++ l2 /\ length l1 = n /\ length l2 = (length l - n)%nat.
Proof.
  intros A n l H. exists (firstn n l), (skipn n l).
  rewrite firstn_skipn, firstn_length, skipn_length. repeat split; lia.
Qed.
Lemma app_nil_len : forall A (l : list A), length l = O -> l = [].
Proof. intros A [|]; [reflexivity|discriminate]. Qed.

Lemma mpa_add_ok : forall a b p m q sa sb ps pa pb c,
  length m = Nat.max (length a) (length b) -> ps = zlen p -> c = 0 \/ c = 1 ->
  Forall u64 a -> Forall u64 b ->
  srcok sa (p ++ m ++ q) ps pa a -> srcok sb (p ++ m ++ q) ps pb b ->
  wrote (mpa_add (p ++ m ++ q) sa sb ps pa pb (zlen a) (zlen b) c) p q (length m)
    (fun s c' => (c' = 0 \/ c' = 1) /\ val s + c' * Bp (length m) + lost a b c = val a + val b + c).
Proof.
  intros a b p m q sa sb ps pa pb c Lm Ep Hc Ua Ub Sa Sb.
  remember (Nat.min (length a) (length b)) as n eqn:En.
  destruct (split_at _ n a) as (a1 & a2 & -> & La1 & La2); [lia|].
  destruct (split_at _ n b) as (b1 & b2 & -> & Lb1 & Lb2); [lia|].
  destruct (split_at _ n m) as (m1 & m2 & -> & Lm1 & Lm2); [lia|].
  rewrite !app_length in *.
  apply Forall_app in Ua, Ub. destruct Ua as [Ua1 Ua2], Ub as [Ub1 Ub2].
  rewrite <- app_assoc in *.
  unfold mpa_add.
  replace (Z.min (zlen (a1 ++ a2)) (zlen (b1 ++ b2))) with (Z.of_nat n) by (unfold zlen; rewrite !app_length; lia).
  rewrite Nat2Z.id.
  edestruct (add_loop_ok a1 b1 p m1 (m2 ++ q) sa sb ps pa pb c) as (s1 & c1 & E1 & L1 & U1 & Hc1 & V1); try assumption; try lia.
  { eapply srcok_prefix; eassumption. }
  { eapply srcok_prefix; eassumption. }
  rewrite La1 in E1. rewrite E1. clear E1. cbv zeta.
  assert (Za1 : zlen a1 = Z.of_nat n) by (unfold zlen; lia).
  assert (Zb1 : zlen b1 = Z.of_nat n) by (unfold zlen; lia).
  rewrite !zlen_app.
  set (t := if (length a2 =? 0)%nat then b2 else a2).
  assert (Lt : length t = length m2) by (unfold t; destruct (Nat.eqb_spec (length a2) 0); lia).
  assert (Ut : Forall u64 t) by (unfold t; destruct (length a2 =? 0)%nat; assumption).
  set (st := if (length a2 =? 0)%nat then sb else sa). set (pt := if (length a2 =? 0)%nat then pb else pa).
  assert (E : (if zlen a1 + zlen a2 - Z.of_nat n =? 0 then (zlen b1 + zlen b2 - Z.of_nat n, sb, pb + Z.of_nat n)
    else (zlen a1 + zlen a2 - Z.of_nat n, sa, pa + Z.of_nat n)) = (zlen t, st, pt + Z.of_nat n)).
  { rewrite Za1, Zb1. unfold t, st, pt. unfold zlen.
    destruct (Nat.eqb_spec (length a2) 0), (Z.eqb_spec (Z.of_nat n + Z.of_nat (length a2) - Z.of_nat n) 0); try lia; repeat f_equal; lia. }
  rewrite E. unfold zlen at 1. rewrite Nat2Z.id.
  assert (Sk : srcok st (p ++ s1 ++ m2 ++ q) (ps + Z.of_nat n) (pt + Z.of_nat n) t).
  { unfold st, pt, t. destruct (length a2 =? 0)%nat.
    - rewrite <- Zb1. eapply srcok_skip; [exact Ep| |lia|exact Sb]. lia.
    - rewrite <- Za1. eapply srcok_skip; [exact Ep| |lia|exact Sa]. lia. }
  rewrite app_assoc in Sk.
  assert (Eps : ps + Z.of_nat n = zlen (p ++ s1)) by (rewrite zlen_app; unfold zlen in *; lia).
  edestruct (add_tail_ok t (p ++ s1) m2 q st (ps + Z.of_nat n) (pt + Z.of_nat n) c1) as (s2 & c2 & E2 & L2 & U2 & Hc2 & V2);
    try assumption; try lia.
  rewrite <- !app_assoc in *. rewrite E2. exists (s1 ++ s2), c2. rewrite <- app_assoc. split; [reflexivity|].
  split; [rewrite app_length; lia|]. split; [apply Forall_app; auto|]. split; [exact Hc2|].
  rewrite lost_app; [|lia|].
  2:{ destruct (Nat.le_gt_cases (length a2) 0); [left|right]; apply app_nil_len; lia. }
  rewrite !val_app, L1, La1, Lb1. rewrite Lm1, Bp_add.
  assert (Vt : val t = val a2 + val b2).
  { unfold t. destruct (Nat.eqb_spec (length a2) 0) as [Q|Q].
    - rewrite (app_nil_len _ _ Q). cbn [val]. lia.
    - rewrite (app_nil_len _ b2) by lia. cbn [val]. lia. }
  rewrite La1 in V1. rewrite <- Lt.
  assert (V3 : Bp n * (val s2 + c2 * Bp (length t)) = Bp n * (val a2 + val b2 + c1)) by (rewrite V2, Vt; ring).
  lia.
Qed.
Lemma mpa_sub_ok : forall a b p m q sa sb ps pa pb c,
  length m = length a -> (length b <= length a)%nat -> ps = zlen p -> c = 0 \/ c = 1 ->
  Forall u64 a -> Forall u64 b ->
  srcok sa (p ++ m ++ q) ps pa a -> srcok sb (p ++ m ++ q) ps pb b ->
  wrote (mpa_sub (p ++ m ++ q) sa sb ps pa pb (zlen a) (zlen b) c) p q (length m)
    (fun s c' => (c' = 0 \/ c' = 1) /\ val s - c' * Bp (length m) - lostb a b c = val a - val b - c).
Proof.
  intros a b p m q sa sb ps pa pb c Lm Lb Ep Hc Ua Ub Sa Sb.
  remember (length b) as n eqn:En.
  destruct (split_at _ n a) as (a1 & a2 & -> & La1 & La2); [lia|].
  destruct (split_at _ n m) as (m1 & m2 & -> & Lm1 & Lm2); [lia|].
  rewrite !app_length in *.
  apply Forall_app in Ua. destruct Ua as [Ua1 Ua2].
  rewrite <- app_assoc in *.
  unfold mpa_sub.
  replace (Z.min (zlen (a1 ++ a2)) (zlen b)) with (Z.of_nat n) by (unfold zlen; rewrite !app_length; lia).
  rewrite Nat2Z.id.
  edestruct (sub_loop_ok a1 b p m1 (m2 ++ q) sa sb ps pa pb c) as (s1 & c1 & E1 & L1 & U1 & Hc1 & V1); try assumption; try lia.
  { eapply srcok_prefix; eassumption. }
  rewrite La1 in E1. rewrite E1. clear E1. cbv zeta.
  assert (Za1 : zlen a1 = Z.of_nat n) by (unfold zlen; lia).
  rewrite !zlen_app.
  replace (zlen a1 + zlen a2 - Z.of_nat n) with (zlen a2) by lia.
  unfold zlen at 1. rewrite Nat2Z.id.
  assert (Sk : srcok sa (p ++ s1 ++ m2 ++ q) (ps + Z.of_nat n) (pa + Z.of_nat n) a2).
  { rewrite <- Za1. eapply srcok_skip; [exact Ep| |lia|exact Sa]. lia. }
  rewrite app_assoc in Sk.
  assert (Eps : ps + Z.of_nat n = zlen (p ++ s1)) by (rewrite zlen_app; unfold zlen in *; lia).
  edestruct (sub_tail_ok a2 (p ++ s1) m2 q sa (ps + Z.of_nat n) (pa + Z.of_nat n) c1) as (s2 & c2 & E2 & L2 & U2 & Hc2 & V2);
    try assumption; try lia.
  rewrite <- !app_assoc in *. rewrite E2. exists (s1 ++ s2), c2. rewrite <- app_assoc. split; [reflexivity|].
  split; [rewrite app_length; lia|]. split; [apply Forall_app; auto|]. split; [exact Hc2|].
  replace (lostb (a1 ++ a2) b c) with (lostb a1 b c).
  2:{ rewrite <- (app_nil_r b) at 2. symmetry. apply lostb_app; [lia|right; reflexivity]. }
  rewrite !val_app, L1, La1. rewrite Lm1, Bp_add.
  rewrite La1 in V1. replace (length m2) with (length a2) by lia.
  assert (V3 : Bp n * (val s2 - c2 * Bp (length a2)) = Bp n * (val a2 - c1)) by (rewrite V2; ring).
  lia.
Qed.
