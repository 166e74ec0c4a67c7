(** * Property C46 of the bump allocator *)
From Verif Require Import Lib BitsProofs MemallocSpec MemallocProofs AllocpoolModel.
(** ** Specification: a client that frees each block once; live blocks carry the size and the alignment asked for *)
Record ablock := { a_ptr : Z; a_req : Z; a_align : Z }.
Inductive aop := AAlloc (size align : Z) | AFree (i : nat) | AReset.
Definition astep (st : apool * list ablock) (o : aop) : apool * list ablock :=
  let (p, live) := st in
  match o with
  | AAlloc size align => let (p, r) := ap_alloc p size align in (p, if r =? 0 then live else {| a_ptr := r; a_req := size; a_align := align |} :: live)
  | AFree i => match nth_error live i with None => st | Some _ => (ap_free p, del_nth i live) end
  | AReset => (ap_reset p, [])
  end.
Definition arun (st : apool * list ablock) (os : list aop) := fold_left astep os st.
Definition apow (a : Z) : Prop := a = 0 \/ exists k, 0 <= k < 64 /\ a = 2 ^ k.
(** requests that do not come near the end of the address space *)
Definition asane (z : Z) (o : aop) : Prop := match o with AAlloc s a => 0 <= s /\ apow a /\ z + Z.max 8 a + s <= 2 ^ 64 | _ => True end.
(** the smallest multiple of [a] that is not below [v] *)
Definition least_multiple (v a r : Z) : Prop := v <= r /\ r mod a = 0 /\ forall m, v <= m -> m mod a = 0 -> r <= m.
(** ** Proofs *)
Lemma align_high_pow v k : 0 <= v < 2 ^ 64 -> 0 <= k < 64 -> align_high v (2 ^ k) = 2 ^ k * (w64 (v + (2 ^ k - 1)) / 2 ^ k).
Proof.
  intros V K. unfold align_high. assert (P : 0 < 2 ^ k < 2 ^ 64) by (split; [apply Z.pow_pos_nonneg; lia|apply Z.pow_lt_mono_r; lia]). rewrite (w64_small (2 ^ k - 1)) by (unfold u64; lia).
  assert (M : w64 (Z.lnot (2 ^ k - 1)) = Z.shiftl (Z.ones (64 - k)) k). { unfold Z.lnot, Z.pred. rewrite Z.shiftl_mul_pow2, Z.ones_equiv by lia. unfold Z.pred. replace ((2 ^ (64 - k) + -1) * 2 ^ k) with (2 ^ (64 - k) * 2 ^ k - 2 ^ k) by lia. rewrite <- Z.pow_add_r by lia. replace (64 - k + k) with 64 by lia. unfold w64, wrap. replace (- (2 ^ k - 1) + -1) with (- 2 ^ k) by lia. symmetry. apply Z.mod_unique with (-1); lia. }
  rewrite M, land_high; [reflexivity|apply w64_range|lia].
Qed.
(** rounding up: the least multiple, or 0 when there is none below 2^64 *)
Lemma align_high_spec v k : 0 <= v < 2 ^ 64 -> 0 <= k < 64 -> (v + 2 ^ k <= 2 ^ 64 /\ least_multiple v (2 ^ k) (align_high v (2 ^ k)) /\ align_high v (2 ^ k) < v + 2 ^ k) \/ (2 ^ 64 < v + 2 ^ k /\ align_high v (2 ^ k) = 0).
Proof.
  intros V K. rewrite align_high_pow by assumption. assert (P : 0 < 2 ^ k < 2 ^ 64) by (split; [apply Z.pow_pos_nonneg; lia|apply Z.pow_lt_mono_r; lia]). set (a := 2 ^ k) in *. clearbody a. destruct (Z_le_gt_dec (v + a) (2 ^ 64)) as [L|L].
  - left. rewrite w64_small by (unfold u64; lia). assert (D : v + (a - 1) = a * ((v + (a - 1)) / a) + (v + (a - 1)) mod a) by (apply Z.div_mod; lia). pose proof (Z.mod_pos_bound (v + (a - 1)) a ltac:(lia)) as Mb. set (q := (v + (a - 1)) / a) in *. split; [lia|]. split; [|lia]. split; [lia|]. split; [rewrite Z.mul_comm; apply Z_mod_mult|]. intros m Hm Mm. apply Z.mod_divide in Mm; [|lia]. destruct Mm as [t ->]. assert (q <= t); [|nia]. destruct (Z_le_gt_dec q t) as [X|X]; [exact X|]. exfalso. assert (t * a <= (q - 1) * a) by (apply Z.mul_le_mono_nonneg_r; lia). lia.
  - right. split; [lia|]. unfold w64, wrap. rewrite <- (Z.mod_unique (v + (a - 1)) (2 ^ 64) 1 (v + (a - 1) - 2 ^ 64)) by lia. rewrite Z.div_small by lia. lia.
Qed.
Lemma align8 a : apow a -> exists k, 3 <= k < 64 /\ align_high (if a =? 0 then 1 else a) 8 = 2 ^ k /\ 2 ^ k = Z.max 8 a /\ (a <> 0 -> (a | 2 ^ k)).
Proof.
  intros [->|(j & J & ->)]; [exists 3; split; [lia|]; split; [vm_compute; reflexivity|]; split; [reflexivity|]; congruence|].
  assert (P : 0 < 2 ^ j < 2 ^ 64) by (split; [apply Z.pow_pos_nonneg; lia|apply Z.pow_lt_mono_r; lia]). rewrite (proj2 (Z.eqb_neq (2 ^ j) 0)) by lia. change 8 with (2 ^ 3). destruct (Z_lt_ge_dec j 3) as [L|L].
  - exists 3. split; [lia|]. assert (C : j = 0 \/ j = 1 \/ j = 2) by lia. destruct C as [ -> | [ -> | -> ] ]; (split; [vm_compute; reflexivity|]; split; [reflexivity|]; intros _); [exists 8|exists 4|exists 2]; reflexivity.
  - exists j. split; [lia|]. assert (B : 2 ^ 3 <= 2 ^ j) by (apply Z.pow_le_mono_r; lia). split; [|split; [lia|intros _; apply Z.divide_refl]]. destruct (align_high_spec (2 ^ j) 3) as [(A1 & (A2 & A3 & A4) & A5)|(A1 & A2)]; [lia|lia| |].
    + assert (Mj : 2 ^ j mod 2 ^ 3 = 0). { replace j with (j - 3 + 3) by lia. rewrite Z.pow_add_r by lia. apply Z_mod_mult. } specialize (A4 (2 ^ j) ltac:(lia) Mj). lia.
    + exfalso. assert (2 ^ j <= 2 ^ 63) by (apply Z.pow_le_mono_r; lia). lia.
Qed.
(** blocks from the newest to the oldest, downwards *)
Fixpoint desc (b hi : Z) (live : list ablock) : Prop :=
  match live with [] => b <= hi | x :: r => 1 <= a_req x /\ a_ptr x + a_req x <= hi /\ desc b (a_ptr x) r end.
Definition aligned (x : ablock) : Prop := a_ptr x mod 8 = 0 /\ (a_align x <> 0 -> a_ptr x mod a_align x = 0).
Lemma desc_le b : forall live hi hi', desc b hi live -> hi <= hi' -> desc b hi' live.
Proof. destruct live as [|x r]; cbn [desc]; intros; [lia|]. intuition lia. Qed.
Lemma desc_del b : forall i live hi, desc b hi live -> desc b hi (del_nth i live).
Proof. induction i as [|i IH]; intros [|x r] hi D; cbn [del_nth desc] in *; try assumption. - destruct D as (A & B & C). apply desc_le with (a_ptr x); [exact C|lia]. - destruct D as (A & B & C). split; [exact A|]. split; [exact B|]. apply IH. exact C. Qed.
Lemma desc_len b : forall live hi, desc b hi live -> zlen live <= hi - b.
Proof. induction live as [|x r IH]; intros hi D; cbn [desc] in D; [unfold zlen; cbn [length]; lia|]. destruct D as (A & B & C). apply IH in C. unfold zlen in *. cbn [length]. lia. Qed.
Lemma del_len {A} : forall i (l : list A) x, nth_error l i = Some x -> zlen (del_nth i l) = zlen l - 1.
Proof. induction i as [|i IH]; intros [|y l] x E; cbn in E; try discriminate; unfold zlen in *; cbn [del_nth length]; [lia|]. specialize (IH l x E). lia. Qed.
Lemma del_forall {A} (P : A -> Prop) : forall i l, Forall P l -> Forall P (del_nth i l).
Proof. induction i as [|i IH]; intros [|y l] F; cbn [del_nth]; try constructor; inversion_clear F; try assumption. apply IH. assumption. Qed.
Definition ainv (b z : Z) (p : apool) (live : list ablock) : Prop :=
  ap_block p = b /\ ap_size p = z /\ 0 <= ap_last p <= z /\ ap_count p = zlen live /\ desc b (b + ap_last p) live /\ Forall aligned live /\ (live = [] -> ap_last p = 0).
(** one allocation *)
Lemma ap_alloc_ok b z p live size a : 0 < b -> 0 <= z -> b + z <= 2 ^ 64 -> ainv b z p live -> asane z (AAlloc size a) ->
  exists p' r, ap_alloc p size a = (p', r) /\
  ((r = 0 /\ p' = p /\ (size = 0 \/ forall m, b + ap_last p <= m -> m mod Z.max 8 a = 0 -> b + z < m + size)) \/
   (0 < size /\ least_multiple (b + ap_last p) (Z.max 8 a) r /\ b < r + 1 /\ r <> 0 /\ r + size <= b + z /\ ap_last p' = r + size - b /\ ap_block p' = b /\ ap_size p' = z /\ ap_count p' = w64 (ap_count p + 1) /\ (a <> 0 -> (a | Z.max 8 a)) /\ (8 | Z.max 8 a))).
Proof.
  intros B Z0 T (I1 & I2 & I3 & I4 & I5 & I6 & I7) (S0 & Pa & Sz). unfold ap_alloc. destruct (Z.eqb_spec size 0) as [->|N]; [exists p, 0; split; [reflexivity|]; left; repeat split; left; reflexivity|].
  destruct (align8 a Pa) as (k & K & -> & Ek & Dk). cbv zeta. rewrite I1, I2.
  assert (A0 : 8 <= 2 ^ k) by (change 8 with (2 ^ 3); apply Z.pow_le_mono_r; lia). rewrite <- Ek in *. assert (D8 : (8 | 2 ^ k)). { exists (2 ^ (k - 3)). change 8 with (2 ^ 3). rewrite <- Z.pow_add_r by lia. f_equal. lia. }
  destruct (Z.eq_dec (b + ap_last p) (2 ^ 64)) as [Top|Top].
  { (* the pool ends with the address space and is full *) rewrite Top. change (w64 (2 ^ 64)) with 0. assert (E0 : align_high 0 (2 ^ k) = 0). { rewrite align_high_pow by lia. rewrite w64_small by (assert (2 ^ k < 2 ^ 64) by (apply Z.pow_lt_mono_r; lia); unfold u64; lia). rewrite Z.add_0_l, Z.div_small by lia. lia. } rewrite E0. assert (Eo : w64 (w64 (0 - b) + size) = 2 ^ 64 - b + size). { assert (E1 : w64 (0 - b) = 2 ^ 64 - b) by (unfold w64, wrap; symmetry; apply Z.mod_unique with (-1); lia). rewrite E1. apply w64_small. unfold u64. lia. } rewrite Eo. rewrite (proj2 (Z.ltb_lt z (2 ^ 64 - b + size))) by lia. exists p, 0. split; [reflexivity|]. left. split; [reflexivity|]. split; [reflexivity|]. right. intros m M _. lia. }
  rewrite (w64_small (b + ap_last p)) by (unfold u64; lia). set (r := align_high (b + ap_last p) (2 ^ k)).
  destruct (align_high_spec (b + ap_last p) k ltac:(lia) ltac:(lia)) as [(A1 & A2 & A3)|(A1 & A2)]; fold r in A2; try fold r in A3.
  - pose proof A2 as (M1 & M2 & M3). rewrite (w64_small (r - b)) by (unfold u64; lia). rewrite (w64_small (r - b + size)) by (unfold u64; lia). destruct (Z.ltb_spec z (r - b + size)) as [L|L].
    + exists p, 0. split; [reflexivity|]. left. split; [reflexivity|]. split; [reflexivity|]. right. intros m H1 H2. specialize (M3 m H1 H2). lia.
    + eexists _, r. split; [reflexivity|]. right. cbn [ap_last ap_block ap_size ap_count]. split; [lia|]. split; [exact A2|]. repeat split; try lia; assumption.
  - rewrite A2. assert (Eo : w64 (w64 (0 - b) + size) = 2 ^ 64 - b + size). { assert (E1 : w64 (0 - b) = 2 ^ 64 - b) by (unfold w64, wrap; symmetry; apply Z.mod_unique with (-1); lia). rewrite E1. apply w64_small. unfold u64. lia. } rewrite Eo. rewrite (proj2 (Z.ltb_lt z (2 ^ 64 - b + size))) by lia. exists p, 0. split; [reflexivity|]. left. split; [reflexivity|]. split; [reflexivity|]. right. intros m M1 M2.
    (* a multiple of 2^k at or above b + last is at least 2^64 *) apply Z.mod_divide in M2; [|lia]. destruct M2 as [t ->]. assert (2 ^ 64 = 2 ^ (64 - k) * 2 ^ k) by (rewrite <- Z.pow_add_r by lia; f_equal; lia). assert (2 ^ (64 - k) <= t); [|nia]. destruct (Z_le_gt_dec (2 ^ (64 - k)) t) as [X|X]; [exact X|]. exfalso. assert (t * 2 ^ k <= (2 ^ (64 - k) - 1) * 2 ^ k) by (apply Z.mul_le_mono_nonneg_r; lia). lia.
Qed.
Lemma mod_of_divide x a b : 0 < a -> (a | b) -> 0 < b -> x mod b = 0 -> x mod a = 0.
Proof. intros A [q ->] B M. apply Z.mod_divide in M; [|lia]. destruct M as [t ->]. rewrite Z.mul_assoc. apply Z_mod_mult. Qed.
Lemma astep_ok b z p live o : 0 < b -> 0 <= z -> b + z <= 2 ^ 64 -> ainv b z p live -> asane z o -> let st := astep (p, live) o in ainv b z (fst st) (snd st).
Proof.
  intros B Z0 T V S. destruct o as [size a|i|]; cbn [astep].
  - destruct (ap_alloc_ok b z p live size a B Z0 T V S) as (p' & r & -> & [(-> & -> & _)|(S0 & (M1 & M2 & M3) & R1 & R2 & R3 & L1 & L2 & L3 & L4 & D1 & D2)]); [exact V|]. rewrite (proj2 (Z.eqb_neq r 0)) by exact R2. cbv zeta. cbn [fst snd].
    destruct V as (I1 & I2 & I3 & I4 & I5 & I6 & I7). split; [exact L2|]. split; [exact L3|]. split; [lia|]. pose proof (desc_len _ _ _ I5) as Hl. split; [rewrite L4, I4, w64_small by (unfold u64, zlen in *; lia); unfold zlen; cbn [length]; lia|]. split.
    + cbn [desc a_req a_ptr]. split; [lia|]. split; [lia|]. apply desc_le with (b + ap_last p); [exact I5|exact M1].
    + split; [|discriminate]. constructor; [|exact I6]. unfold aligned. cbn [a_ptr a_align]. split; [apply (mod_of_divide r 8 (Z.max 8 a)); [lia|exact D2|lia|exact M2]|]. intros Na. apply (mod_of_divide r a (Z.max 8 a)); [|exact (D1 Na)|lia|exact M2]. destruct S as (_ & [->|(k & K & ->)] & _); [congruence|]. apply Z.pow_pos_nonneg; lia.
  - destruct (nth_error live i) as [x|] eqn:E; [|exact V]. cbv zeta. cbn [fst snd]. destruct V as (I1 & I2 & I3 & I4 & I5 & I6 & I7). pose proof (desc_len _ _ _ I5) as Hl. pose proof (del_len i live x E) as Dl. assert (0 < zlen live) by (destruct live; [destruct i; discriminate|]; unfold zlen; cbn [length]; lia).
    unfold ap_free. rewrite I4, w64_small by (unfold u64; lia). pose proof (desc_del b i live _ I5) as Dd. unfold ainv. cbn [ap_block ap_size ap_last ap_count]. split; [exact I1|]. split; [exact I2|]. destruct (Z.eqb_spec (zlen live - 1) 0) as [Z1|Z1].
    + assert (En : del_nth i live = []) by (destruct (del_nth i live); [reflexivity|unfold zlen in *; cbn [length] in Dl; lia]). rewrite En. split; [lia|]. split; [rewrite Z1; reflexivity|]. split; [cbn [desc]; lia|]. split; [constructor|reflexivity].
    + split; [lia|]. split; [lia|]. split; [exact Dd|]. split; [apply del_forall; exact I6|]. intros En. rewrite En in Dl. unfold zlen in *. cbn [length] in Dl. lia.
  - cbv zeta. cbn [fst snd]. destruct V as (I1 & I2 & I3 & _). unfold ainv, ap_reset. cbn [ap_block ap_size ap_last ap_count]. split; [exact I1|]. split; [exact I2|]. split; [lia|]. split; [reflexivity|]. split; [cbn [desc]; lia|]. split; [constructor|reflexivity].
Qed.
Lemma arun_ok b z : 0 < b -> 0 <= z -> b + z <= 2 ^ 64 -> forall os st, ainv b z (fst st) (snd st) -> Forall (asane z) os -> ainv b z (fst (arun st os)) (snd (arun st os)).
Proof.
  intros B Z0 T. induction os as [|o os IH]; intros [p live] V F; [exact V|]. inversion_clear F as [|? ? F1 F2]. unfold arun. cbn [fold_left]. apply IH; [|exact F2]. apply astep_ok; assumption.
Qed.
Lemma desc_low b : forall live hi x i, desc b hi live -> nth_error live i = Some x -> b <= a_ptr x /\ 1 <= a_req x /\ a_ptr x + a_req x <= hi.
Proof.
  induction live as [|y r IH]; intros hi x i D E; [destruct i; discriminate|]. cbn [desc] in D. destruct D as (A & B & C). destruct i as [|i]; cbn in E.
  - injection E as ->. split; [|lia]. pose proof (desc_len _ _ _ C). unfold zlen in *. lia.
  - destruct (IH _ _ _ C E). lia.
Qed.
Lemma desc_disj b : forall live hi i j x y, desc b hi live -> (i < j)%nat -> nth_error live i = Some x -> nth_error live j = Some y -> a_ptr y + a_req y <= a_ptr x.
Proof.
  induction live as [|a r IH]; intros hi i j x y D L X Y; [destruct i; discriminate|]. cbn [desc] in D. destruct D as (A & B & C). destruct j as [|j]; [lia|]. cbn in Y. destruct i as [|i]; cbn in X.
  - injection X as ->. apply (desc_low _ _ _ _ _ C Y).
  - apply (IH _ i j x y C); [lia|assumption|assumption].
Qed.
(** ** C46: after any history of allocations, releases and resets every live block is aligned as asked (and to 8), lies
    inside the pool and is disjoint from the others; the pool starts afresh when nothing is live *)
Theorem C46_blocks_partial : forall b z os, 0 < b -> 0 <= z -> b + z <= 2 ^ 64 -> Forall (asane z) os ->
  let (p, live) := arun (ap_init b z, []) os in
  (forall i x, nth_error live i = Some x -> b <= a_ptr x /\ 1 <= a_req x /\ a_ptr x + a_req x <= b + z /\ a_ptr x mod 8 = 0 /\ (a_align x <> 0 -> a_ptr x mod a_align x = 0)) /\
  (forall i j x y, i <> j -> nth_error live i = Some x -> nth_error live j = Some y -> a_ptr x + a_req x <= a_ptr y \/ a_ptr y + a_req y <= a_ptr x) /\
  (live = [] -> p = ap_init b z).
Proof.
  intros b z os B Z0 T F. assert (V0 : ainv b z (ap_init b z) []) by (unfold ainv, ap_init; cbn; repeat split; try lia; constructor). pose proof (arun_ok b z B Z0 T os (ap_init b z, []) V0 F) as V. destruct (arun (ap_init b z, []) os) as [p live]. cbn [fst snd] in V. destruct V as (I1 & I2 & I3 & I4 & I5 & I6 & I7). split; [|split].
  - intros i x X. destruct (desc_low _ _ _ _ _ I5 X) as (A1 & A2 & A3). split; [lia|]. split; [lia|]. split; [lia|]. rewrite Forall_forall in I6. exact (I6 x (nth_error_In _ _ X)).
  - intros i j x y N X Y. destruct (Nat.lt_trichotomy i j) as [L|[L|L]]; [right; exact (desc_disj _ _ _ _ _ _ _ I5 L X Y)|contradiction|left; exact (desc_disj _ _ _ _ _ _ _ I5 L Y X)].
  - intros ->. specialize (I7 eq_refl). destruct p as [p1 p2 p3 p4]. cbn in *. unfold ap_init. unfold zlen in I4. cbn in I4. congruence.
Qed.
(** an allocation fails only for size 0 or when no aligned position behind the blocks leaves enough room, and otherwise
    takes the first such position *)
Theorem C46_first_position : forall b z os size a, 0 < b -> 0 <= z -> b + z <= 2 ^ 64 -> Forall (asane z) os -> asane z (AAlloc size a) ->
  let (p, live) := arun (ap_init b z, []) os in
  exists p' r, ap_alloc p size a = (p', r) /\
  ((r = 0 /\ p' = p /\ (size = 0 \/ forall m, b + ap_last p <= m -> m mod Z.max 8 a = 0 -> b + z < m + size)) \/
   (0 < size /\ r <> 0 /\ least_multiple (b + ap_last p) (Z.max 8 a) r /\ r + size <= b + z /\ ap_last p' = r + size - b)).
Proof.
  intros b z os size a B Z0 T F S. assert (V0 : ainv b z (ap_init b z) []) by (unfold ainv, ap_init; cbn; repeat split; try lia; constructor). pose proof (arun_ok b z B Z0 T os (ap_init b z, []) V0 F) as V. destruct (arun (ap_init b z, []) os) as [p live]. cbn [fst snd] in V.
  destruct (ap_alloc_ok b z p live size a B Z0 T V S) as (p' & r & E & [O|O]); exists p', r; (split; [exact E|]); [left; exact O|right; intuition].
Qed.
Example C46_ex : Forall (asane 256) [AAlloc 10 0; AAlloc 20 64; AAlloc 1 2; AFree 1; AAlloc 100 16; AAlloc 100 16] /\
  arun (ap_init 4104 256, []) [AAlloc 10 0; AAlloc 20 64; AAlloc 1 2; AFree 1; AAlloc 100 16; AAlloc 100 16] =
  ({| ap_block := 4104; ap_size := 256; ap_last := 188; ap_count := 3 |}, [{| a_ptr := 4192; a_req := 100; a_align := 16 |}; {| a_ptr := 4184; a_req := 1; a_align := 2 |}; {| a_ptr := 4104; a_req := 10; a_align := 0 |}]).
Proof.
  split; [|vm_compute; reflexivity]. assert (P : forall k, 0 <= k < 64 -> apow (2 ^ k)) by (intros k K; right; exists k; split; [exact K|reflexivity]).
  repeat apply Forall_cons; try apply Forall_nil; cbn [asane]; try exact I; (split; [lia|]); (split; [|lia]); [left; reflexivity|apply (P 6)|apply (P 1)|apply (P 4)|apply (P 4)]; lia.
Qed.
(** a size near 2^64 makes the offset wrap: the call succeeds, and the next block overlaps a live one *)
Theorem C46_wrap_refuted : exists b z s1 s2 s3 p1 r1 p2 r2 p3 r3, 0 < b /\ b + z <= 2 ^ 64 /\ 0 < s2 < 2 ^ 64 /\
  ap_alloc (ap_init b z) s1 8 = (p1, r1) /\ ap_alloc p1 s2 8 = (p2, r2) /\ ap_alloc p2 s3 8 = (p3, r3) /\
  r1 <> 0 /\ r2 <> 0 /\ r3 <> 0 /\ z < s2 /\ r1 <= r3 < r1 + s1.
Proof. exists 4096, 256, 16, (2 ^ 64 - 8), 8. do 6 eexists. split; [lia|]. split; [lia|]. split; [lia|]. split; [vm_compute; reflexivity|]. split; [vm_compute; reflexivity|]. split; [vm_compute; reflexivity|]. lia. Qed.
Print Assumptions C46_blocks_partial.
Print Assumptions C46_first_position.
Print Assumptions C46_wrap_refuted.
