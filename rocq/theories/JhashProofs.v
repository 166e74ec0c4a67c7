(** * Jenkins hash: proofs *)
From Verif Require Import Lib BitsModel BitsProofs DigestSpec DigestProofs2 JhashModel JhashSpec.

Notation tri := (Z * Z * Z)%type (only parsing).
(** ** The mixing functions *)
Lemma w32_mod v : w32 v = v mod 2 ^ 32.
Proof. reflexivity. Qed.
Lemma mix_step_u32 t r : word3 t -> 0 < r < 32 -> word3 (mix_step t r).
Proof. destruct t as [[x z] y]. intros (X & Z0 & Y) R. cbn [mix_step word3]. split; [exact Y|split; [|apply u32_w32]]. apply u32_xor; [apply u32_w32|apply rotl_u32; assumption]. Qed.
Lemma final_step_u32 t r : word3 t -> 0 < r < 32 -> word3 (final_step t r).
Proof. destruct t as [[x z] y]. intros (X & Z0 & Y) R. cbn [final_step word3]. split; [exact Y|split; [apply u32_w32|exact Z0]]. Qed.
(** inverses of the steps *)
Definition mix_back (t : tri) (r : Z) : tri :=
  let '(y, x, z) := t in let z := (z - y) mod 2 ^ 32 in ((Z.lxor x (rotl z r) + z) mod 2 ^ 32, z, y).
Definition final_back (t : tri) (r : Z) : tri :=
  let '(y, x, z) := t in (Z.lxor ((x + rotl z r) mod 2 ^ 32) z, z, y).
Lemma add_sub x y : u32 x -> ((x + y) mod 2 ^ 32 - y) mod 2 ^ 32 = x.
Proof. intros X. rewrite Zminus_mod_idemp_l. replace (x + y - y) with x by lia. apply Z.mod_small, X. Qed.
Lemma sub_add x y : u32 x -> ((x - y) mod 2 ^ 32 + y) mod 2 ^ 32 = x.
Proof. intros X. rewrite Zplus_mod_idemp_l. replace (x - y + y) with x by lia. apply Z.mod_small, X. Qed.
Lemma xor_xor x y : Z.lxor (Z.lxor x y) y = x.
Proof. rewrite Z.lxor_assoc, Z.lxor_nilpotent. apply Z.lxor_0_r. Qed.
Lemma mix_back_l t r : word3 t -> mix_back (mix_step t r) r = t.
Proof. destruct t as [[x z] y]. intros (X & Z0 & Y). cbn [mix_step mix_back]. rewrite add_sub by exact Z0. rewrite xor_xor, sub_add by exact X. reflexivity. Qed.
Lemma mix_back_r t r : word3 t -> 0 < r < 32 -> mix_step (mix_back t r) r = t /\ word3 (mix_back t r).
Proof.
  destruct t as [[y x] z]. intros (Y & X & Z0) R. cbn [mix_step mix_back]. assert (U : u32 ((z - y) mod 2 ^ 32)) by apply u32_w32. split; [|split; [apply u32_w32|split; [exact U|exact Y]]].
  rewrite add_sub; [|apply u32_xor; [exact X|apply rotl_u32; assumption]]. rewrite xor_xor, sub_add by exact Z0. reflexivity.
Qed.
Lemma final_back_l t r : word3 t -> final_back (final_step t r) r = t.
Proof. destruct t as [[x z] y]. intros (X & Z0 & Y). cbn [final_step final_back]. rewrite sub_add by (apply u32_xor; assumption). rewrite xor_xor. reflexivity. Qed.
Lemma final_back_r t r : word3 t -> 0 < r < 32 -> final_step (final_back t r) r = t /\ word3 (final_back t r).
Proof.
  destruct t as [[y x] z]. intros (Y & X & Z0) R. cbn [final_step final_back]. split; [|split; [apply u32_xor; [apply u32_w32|exact Z0]|split; [exact Z0|exact Y]]].
  rewrite xor_xor, add_sub by exact X. reflexivity.
Qed.
Definition rots (l : list Z) : Prop := Forall (fun r => 0 < r < 32) l.
Lemma fold_inv (st bk : tri -> Z -> tri) : (forall t r, word3 t -> 0 < r < 32 -> word3 (st t r)) -> (forall t r, word3 t -> bk (st t r) r = t) -> (forall t r, word3 t -> 0 < r < 32 -> st (bk t r) r = t /\ word3 (bk t r)) ->
  forall l t, rots l -> word3 t ->
  word3 (fold_left st l t) /\ fold_left bk (List.rev l) (fold_left st l t) = t /\ word3 (fold_left bk (List.rev l) t) /\ fold_left st l (fold_left bk (List.rev l) t) = t.
Proof.
  intros Hu Hl Hr. induction l as [|r l IH]; intros t R T; [auto|]. pose proof (Forall_inv R) as R1. apply Forall_inv_tail in R. cbn [fold_left List.rev]. rewrite !fold_left_app. cbn [fold_left].
  destruct (IH (st t r) R (Hu t r T R1)) as (A & B & _ & _). destruct (IH t R T) as (_ & _ & C & D). destruct (Hr _ r C R1) as [E F]. split; [exact A|]. split; [rewrite B; apply Hl, T|]. split; [exact F|]. rewrite E. exact D.
Qed.
Definition perm (t : tri) : tri := let '(a, b, c) := t in (a, c, b).
Definition perm2 (t : tri) : tri := let '(a, b, c) := t in (c, b, a).
Lemma mix_rots : rots [4; 6; 8; 16; 19; 4].
Proof. repeat constructor; lia. Qed.
Lemma final_rots : rots [14; 11; 25; 16; 4; 14; 24].
Proof. repeat constructor; lia. Qed.
Lemma perm_w t : word3 t -> word3 (perm t) /\ word3 (perm2 t).
Proof. destruct t as [[a b] c]. cbn. tauto. Qed.
Lemma perm_i t : perm (perm t) = t /\ perm2 (perm2 t) = t.
Proof. destruct t as [[a b] c]. split; reflexivity. Qed.
Lemma mix_eq t : lookup3_mix t = perm (fold_left mix_step [4; 6; 8; 16; 19; 4] (perm t)).
Proof. destruct t as [[a b] c]. reflexivity. Qed.
Lemma final_eq t : lookup3_final t = perm (fold_left final_step [14; 11; 25; 16; 4; 14; 24] (perm2 t)).
Proof. destruct t as [[a b] c]. reflexivity. Qed.
Lemma mix_bij : bijective3 lookup3_mix.
Proof.
  pose proof (fun t => fold_inv mix_step mix_back mix_step_u32 mix_back_l mix_back_r [4; 6; 8; 16; 19; 4] t mix_rots) as X. split.
  - intros x Hx. rewrite mix_eq. apply perm_w, X, perm_w, Hx.
  - exists (fun t => perm (fold_left mix_back (List.rev [4; 6; 8; 16; 19; 4]) (perm t))). split; [|split].
    + intros x Hx. apply perm_w, X, perm_w, Hx.
    + intros x Hx. rewrite mix_eq. rewrite (proj1 (perm_i _)). destruct (X (perm x) ltac:(apply perm_w, Hx)) as (_ & -> & _). apply perm_i.
    + intros x Hx. rewrite mix_eq. rewrite (proj1 (perm_i _)). destruct (X (perm x) ltac:(apply perm_w, Hx)) as (_ & _ & _ & ->). apply perm_i.
Qed.
Lemma final_bij : bijective3 lookup3_final.
Proof.
  pose proof (fun t => fold_inv final_step final_back final_step_u32 final_back_l final_back_r [14; 11; 25; 16; 4; 14; 24] t final_rots) as X. split.
  - intros x Hx. rewrite final_eq. apply perm_w, X, perm_w, Hx.
  - exists (fun t => perm2 (fold_left final_back (List.rev [14; 11; 25; 16; 4; 14; 24]) (perm t))). split; [|split].
    + intros x Hx. apply perm_w, X, perm_w, Hx.
    + intros x Hx. rewrite final_eq. rewrite (proj1 (perm_i _)). destruct (X (perm2 x) ltac:(apply perm_w, Hx)) as (_ & -> & _). apply perm_i.
    + intros x Hx. rewrite final_eq. rewrite (proj2 (perm_i _)). destruct (X (perm x) ltac:(apply perm_w, Hx)) as (_ & _ & _ & ->). apply perm_i.
Qed.
(** the code's mixing is lookup3's *)
Definition mix_code (t : tri) (r : Z) : tri := let '(x, z, y) := t in (y, Z.lxor (w32 (x - z)) (rol32 z r), w32 (z + y)).
Definition final_code (t : tri) (r : Z) : tri := let '(x, z, y) := t in (y, w32 (Z.lxor x z - rol32 z r), z).
Lemma code_ok (f g : tri -> Z -> tri) l t : (forall t r, word3 t -> 0 < r < 32 -> f t r = g t r /\ word3 (g t r)) -> rots l -> word3 t -> fold_left f l t = fold_left g l t.
Proof. intros X. revert t. induction l as [|r l IH]; intros t R T; [reflexivity|]. cbn [fold_left]. destruct (X t r T (Forall_inv R)) as [-> T2]. apply IH; [apply (Forall_inv_tail R)|exact T2]. Qed.
Lemma mix_ok t : word3 t -> mix t = lookup3_mix t.
Proof.
  intros T. rewrite mix_eq. rewrite <- (code_ok mix_code mix_step); [destruct t as [[a b] c]; reflexivity| |exact mix_rots|apply perm_w, T].
  clear. intros [[x z] y] r (X & Z0 & Y) R. cbn [mix_code mix_step]. rewrite rol32_ok by assumption. split; [reflexivity|]. apply (mix_step_u32 (x, z, y) r); cbn; auto.
Qed.
Lemma final_ok t : word3 t -> final t = lookup3_final t.
Proof.
  intros T. rewrite final_eq. rewrite <- (code_ok final_code final_step); [destruct t as [[a b] c]; reflexivity| |exact final_rots|apply perm_w, T].
  clear. intros [[x z] y] r (X & Z0 & Y) R. cbn [final_code final_step]. rewrite rol32_ok by assumption. split; [reflexivity|]. apply (final_step_u32 (x, z, y) r); cbn; auto.
Qed.

(** ** Blocks *)
Lemma cut12_fuel : forall n m l, (length l <= n)%nat -> (length l <= m)%nat -> cut12 n l = cut12 m l.
Proof.
  induction n as [|n IH]; intros m l N M; [destruct l; [destruct m; reflexivity|cbn in N; lia]|]. destruct l as [|x l]; [destruct m; reflexivity|]. destruct m as [|m]; [cbn in M; lia|]. cbn [cut12]. f_equal. apply IH; rewrite skipn_length; cbn [length] in *; lia.
Qed.
Lemma blocks12_cons b r : length b = 12%nat -> blocks12 (b ++ r) = b :: blocks12 r.
Proof.
  intros L. unfold blocks12. destruct b as [|x b]; [discriminate L|]. cbn [length app cut12]. f_equal.
  - change (x :: b ++ r) with ((x :: b) ++ r). rewrite firstn_app, L. rewrite <- L. rewrite firstn_all, Nat.sub_diag, firstn_O, app_nil_r. reflexivity.
  - change (x :: b ++ r) with ((x :: b) ++ r). rewrite skipn_app, L. rewrite <- L at 1. rewrite skipn_all. rewrite Nat.sub_diag. cbn [skipn app]. apply cut12_fuel; rewrite ?app_length; lia.
Qed.
Lemma blocks12_one b : (0 < length b <= 12)%nat -> blocks12 b = [b].
Proof. intros L. unfold blocks12. destruct b as [|x b]; [cbn in L; lia|]. cbn [length cut12]. rewrite firstn_all2 by lia. rewrite skipn_all2 by lia. destruct (length b); reflexivity. Qed.
Lemma add3_u32 t b : word3 (add3 t b).
Proof. destruct t as [[x y] z]. cbn [add3 word3]. split; [apply u32_w32|split; apply u32_w32]. Qed.
Lemma rd_mid (pre blk post : list Z) k : (k < length blk)%nat -> rd (pre ++ blk ++ post) (zlen pre + Z.of_nat k) = Some (nth k blk 0).
Proof.
  intros K. unfold rd, zlen. rewrite (proj2 (Z.ltb_ge _ _)) by lia. replace (Z.to_nat (Z.of_nat (length pre) + Z.of_nat k)) with (length pre + k)%nat by lia. rewrite nth_error_app2 by lia. replace (length pre + k - length pre)%nat with k by lia. rewrite nth_error_app1 by exact K. apply nth_error_nth'. exact K.
Qed.
Lemma get_u32_ok pre blk post k : (k + 4 <= length blk)%nat -> get_u32 (pre ++ blk ++ post) (zlen pre + Z.of_nat k) = Some (le_word blk k).
Proof.
  intros K. unfold get_u32, le_word. rewrite rd_mid by lia. rewrite <- !Z.add_assoc. replace (Z.of_nat k + 1) with (Z.of_nat (k + 1)) by lia. replace (Z.of_nat k + 2) with (Z.of_nat (k + 2)) by lia. replace (Z.of_nat k + 3) with (Z.of_nat (k + 3)) by lia. rewrite !rd_mid by lia. f_equal. lia.
Qed.
Lemma wl x y : w32 (w32 x + y) = w32 (x + y).
Proof. apply Zplus_mod_idemp_l. Qed.
Lemma wr' x y : w32 (x + w32 y) = w32 (x + y).
Proof. apply Zplus_mod_idemp_r. Qed.
Lemma arms_ok pre blk post st : (0 < length blk <= 12)%nat -> word3 st ->
  jhash_arms (pre ++ blk ++ post) (zlen pre) (List.rev (zseq 0 (length blk))) st = Some (add3 st blk).
Proof.
  intros L W. pose proof (fun k => rd_mid pre blk post k) as R. set (D := pre ++ blk ++ post) in *. clearbody D. destruct st as [[a b] c]. destruct W as (A & B & C).
  assert (Ea : a = w32 a) by (symmetry; apply w32_small, A). assert (Eb : b = w32 b) by (symmetry; apply w32_small, B). assert (Ec : c = w32 c) by (symmetry; apply w32_small, C).
  set (off := zlen pre) in *. clearbody off.
  assert (R0 := R 0%nat). assert (R1 := R 1%nat). assert (R2 := R 2%nat). assert (R3 := R 3%nat). assert (R4 := R 4%nat). assert (R5 := R 5%nat). assert (R6 := R 6%nat). assert (R7 := R 7%nat). assert (R8 := R 8%nat). assert (R9 := R 9%nat). assert (R10 := R 10%nat). assert (R11 := R 11%nat). clear R.
  cbn [Z.of_nat Pos.of_succ_nat Pos.succ] in R0, R1, R2, R3, R4, R5, R6, R7, R8, R9, R10, R11.
  destruct blk as [|x0 [|x1 [|x2 [|x3 [|x4 [|x5 [|x6 [|x7 [|x8 [|x9 [|x10 [|x11 [|]]]]]]]]]]]]]; cbn [length] in *; try lia.
  all: cbn [zseq List.rev app jhash_arms Z.add Pos.add Pos.succ]; unfold jhash_arm; cbn [nth] in R0, R1, R2, R3, R4, R5, R6, R7, R8, R9, R10, R11.
  all: repeat match goal with H : (?n < ?m)%nat -> rd _ _ = Some _ |- _ => first [rewrite H by lia; clear H|clear H] end.
  all: cbn [Z.modulo Z.div_eucl Z.pos_div_eucl Z.leb Z.compare Pos.compare Pos.compare_cont Z.mul Pos.mul Z.sub Z.add Z.opp Z.pos_sub Pos.add Pos.pred_double Z.pred_double Z.succ_double Z.double Z.ltb Z.geb snd fst].
  all: cbn -[w32 Z.shiftl Z.add Z.mul Z.pow Z.modulo]; rewrite ?wl, ?wr', ?Z.shiftl_mul_pow2 by lia; unfold add3, le_word; cbn [nth Nat.add].
  all: clear - A B C; unfold u32 in *; f_equal; apply f_equal2; [apply f_equal2|]; unfold w32; change (2 ^ 0) with 1; change (2 ^ 8) with 256; change (2 ^ 16) with 65536; change (2 ^ 24) with 16777216; change (2 ^ 32) with 4294967296 in *; Z.div_mod_to_equations; lia.
Qed.
Lemma tail_ok pre blk post st : (0 < length blk <= 12)%nat -> word3 st -> jhash_tail (pre ++ blk ++ post) (zlen pre) (zlen blk) st = Some (absorb st [blk]).
Proof.
  intros L W. unfold jhash_tail. rewrite (proj2 (Z.leb_le 1 _)), (proj2 (Z.leb_le _ 12)) by (unfold zlen; lia). cbn [andb]. unfold zlen at 2. rewrite Nat2Z.id, arms_ok by assumption. cbn [absorb]. rewrite final_ok by apply add3_u32. reflexivity.
Qed.
Lemma loop_ok' : forall fuel pre key post st, word3 st -> (length key <= fuel)%nat ->
  (let* (off, len, st) := jhash_loop fuel (pre ++ key ++ post) (zlen pre) (zlen key) st in jhash_tail (pre ++ key ++ post) off len st) = Some (absorb st (blocks12 key)).
Proof.
  induction fuel as [|fuel IH]; intros pre key post st W F.
  - destruct key as [|x key]; [|cbn in F; lia]. reflexivity.
  - cbn [jhash_loop]. destruct (Z.ltb_spec 12 (zlen key)) as [G|G].
    + assert (Hk : exists b r, key = b ++ r /\ length b = 12%nat /\ (0 < length r)%nat).
      { exists (firstn 12 key), (skipn 12 key). rewrite firstn_skipn, firstn_length, skipn_length. unfold zlen in G. split; [reflexivity|]. lia. }
      destruct Hk as (b & r & -> & Lb & Lr). destruct st as [[x y] z]. rewrite <- !app_assoc.
      pose proof (get_u32_ok pre b (r ++ post) 0 ltac:(lia)) as E0. pose proof (get_u32_ok pre b (r ++ post) 4 ltac:(lia)) as E4. pose proof (get_u32_ok pre b (r ++ post) 8 ltac:(lia)) as E8.
      change (Z.of_nat 0) with 0 in E0. change (Z.of_nat 4) with 4 in E4. change (Z.of_nat 8) with 8 in E8. rewrite Z.add_0_r in E0. rewrite E0, E4, E8.
      rewrite blocks12_cons by exact Lb. pose proof (add3_u32 (x, y, z) b) as U. destruct mix_bij as [M _]. specialize (IH (pre ++ b) r post (lookup3_mix (add3 (x, y, z) b)) (M _ U)).
      replace (zlen (pre ++ b)) with (zlen pre + 12) in IH by (unfold zlen; rewrite app_length; lia). replace (zlen (b ++ r) - 12) with (zlen r) by (unfold zlen; rewrite app_length; lia). rewrite <- app_assoc in IH.
      change (w32 (x + le_word b 0), w32 (y + le_word b 4), w32 (z + le_word b 8)) with (add3 (x, y, z) b). rewrite mix_ok by exact U. rewrite IH by (rewrite app_length in F; lia). f_equal.
      destruct (blocks12 r) as [|q qs] eqn:Eq; [|reflexivity]. exfalso. destruct r as [|r0 r]; [cbn in Lr; lia|]. discriminate Eq.
    + destruct key as [|x key]; [reflexivity|]. rewrite tail_ok; [|unfold zlen in G; cbn [length] in *; lia|exact W]. rewrite blocks12_one by (unfold zlen in G; cbn [length] in *; lia). reflexivity.
Qed.
Lemma jhash_state_ok key post seed : jhash_state (key ++ post) (zlen key) seed = Some (lookup3 key seed).
Proof.
  unfold jhash_state, lookup3. apply (loop_ok' _ [] key post).
  - cbn [word3]. split; [|split]; apply u32_w32.
  - unfold zlen. lia.
Qed.

(** ** No information is lost *)
Lemma bij_inj f : bijective3 f -> forall x y, word3 x -> word3 y -> f x = f y -> x = y.
Proof. intros (_ & g & _ & L & _) x y X Y E. rewrite <- (L x X), <- (L y Y), E. reflexivity. Qed.
Lemma add3_inj st st' b : word3 st -> word3 st' -> add3 st b = add3 st' b -> st = st'.
Proof.
  destruct st as [[x y] z], st' as [[x' y'] z']. intros (X & Y & Z0) (X' & Y' & Z0') E. cbn [add3] in E. apply pair_equal_spec in E. destruct E as [E Ez]. apply pair_equal_spec in E. destruct E as [Ex Ey].
  assert (I : forall u v w, u32 u -> u32 v -> (u + w) mod 2 ^ 32 = (v + w) mod 2 ^ 32 -> u = v) by (intros u v w U V H; rewrite <- (add_sub u w U), <- (add_sub v w V), H; reflexivity).
  apply I in Ex, Ey, Ez; try assumption. congruence.
Qed.
Lemma absorb_inj : forall bs st st', word3 st -> word3 st' -> absorb st bs = absorb st' bs -> st = st'.
Proof.
  induction bs as [|b bs IH]; intros st st' W W' E; [exact E|]. destruct bs as [|b2 bs].
  - cbn [absorb] in E. apply (bij_inj _ final_bij) in E; [|apply add3_u32..]. apply add3_inj in E; assumption.
  - cbn [absorb] in E. change (absorb (lookup3_mix (add3 st b)) (b2 :: bs) = absorb (lookup3_mix (add3 st' b)) (b2 :: bs)) in E. apply IH in E; [|apply mix_bij, add3_u32..]. apply (bij_inj _ mix_bij) in E; [|apply add3_u32..]. apply add3_inj in E; assumption.
Qed.
Lemma le_word_inj l l' i : bytes l -> bytes l' -> le_word l i = le_word l' i -> forall k, (i <= k < i + 4)%nat -> nth k l 0 = nth k l' 0.
Proof.
  intros B B' E. assert (R : forall l k, bytes l -> 0 <= nth k l 0 < 256).
  { clear. intros l k B. destruct (Nat.lt_ge_cases k (length l)) as [L|L]; [apply (proj1 (Forall_forall _ _) B), nth_In, L|]. rewrite nth_overflow by exact L. lia. }
  unfold le_word in E. pose proof (R l i B). pose proof (R l (i + 1)%nat B). pose proof (R l (i + 2)%nat B). pose proof (R l (i + 3)%nat B). pose proof (R l' i B'). pose proof (R l' (i + 1)%nat B'). pose proof (R l' (i + 2)%nat B'). pose proof (R l' (i + 3)%nat B').
  intros k K. assert (X : k = i \/ k = (i + 1)%nat \/ k = (i + 2)%nat \/ k = (i + 3)%nat) by lia. destruct X as [ -> | [ -> | [ -> | -> ]]]; lia.
Qed.
Lemma le_word_u32 l i : bytes l -> u32 (le_word l i).
Proof.
  intros B. assert (R : forall k, 0 <= nth k l 0 < 256) by (intros k; destruct (Nat.lt_ge_cases k (length l)) as [L|L]; [apply (proj1 (Forall_forall _ _) B), nth_In, L|rewrite nth_overflow by exact L; lia]).
  unfold le_word, u32. pose proof (R i). pose proof (R (i + 1)%nat). pose proof (R (i + 2)%nat). pose proof (R (i + 3)%nat). lia.
Qed.
Lemma add3_block st b b' : bytes b -> bytes b' -> length b = length b' -> (length b <= 12)%nat -> add3 st b = add3 st b' -> b = b'.
Proof.
  destruct st as [[x y] z]. intros B B' L L12 E. cbn [add3] in E. apply pair_equal_spec in E. destruct E as [E Ez]. apply pair_equal_spec in E. destruct E as [Ex Ey].
  assert (I : forall u v w, u32 u -> u32 v -> (w + u) mod 2 ^ 32 = (w + v) mod 2 ^ 32 -> u = v) by (intros u v w U V H; rewrite <- (add_sub u w U), <- (add_sub v w V), (Z.add_comm u), (Z.add_comm v), H; reflexivity).
  apply I in Ex, Ey, Ez; try (apply le_word_u32; assumption).
  apply (nth_ext b b' 0 0 L). intros k K. destruct (Nat.lt_ge_cases k 4); [apply (le_word_inj b b' 0 B B' Ex); lia|]. destruct (Nat.lt_ge_cases k 8); [apply (le_word_inj b b' 4 B B' Ey); lia|]. apply (le_word_inj b b' 8 B B' Ez); lia.
Qed.
(** keys that differ inside one block *)
Lemma absorb_diff : forall j p x y s st, length p = (12 * j)%nat -> bytes x -> bytes y -> length x = length y -> (length x = 12%nat \/ (length x < 12)%nat /\ s = []) -> word3 st ->
  absorb st (blocks12 (p ++ x ++ s)) = absorb st (blocks12 (p ++ y ++ s)) -> x = y.
Proof.
  induction j as [|j IH]; intros p x y s st Lp Bx By L S W E.
  - destruct p; [|discriminate Lp]. cbn [app] in E. destruct (Nat.eq_dec (length x) 0) as [Z0|Z0]; [destruct x; [|discriminate Z0]; destruct y; [reflexivity|discriminate L]|].
    destruct S as [S|[S ->]].
    + rewrite !blocks12_cons in E by congruence. destruct (blocks12 s) as [|q qs]; cbn [absorb] in E.
      * apply (bij_inj _ final_bij) in E; [|apply add3_u32..]. apply (add3_block st); try assumption. lia.
      * change (absorb (lookup3_mix (add3 st x)) (q :: qs) = absorb (lookup3_mix (add3 st y)) (q :: qs)) in E. apply absorb_inj in E; [|apply mix_bij, add3_u32..]. apply (bij_inj _ mix_bij) in E; [|apply add3_u32..]. apply (add3_block st); try assumption. lia.
    + rewrite !app_nil_r, !blocks12_one in E by lia. cbn [absorb] in E. apply (bij_inj _ final_bij) in E; [|apply add3_u32..]. apply (add3_block st); try assumption. lia.
  - assert (Hp : exists b r, p = b ++ r /\ length b = 12%nat /\ length r = (12 * j)%nat).
    { exists (firstn 12 p), (skipn 12 p). rewrite firstn_skipn, firstn_length, skipn_length. split; [reflexivity|]. lia. }
    destruct Hp as (b & r & -> & Lb & Lr). rewrite <- !app_assoc, !(blocks12_cons b) in E by exact Lb.
    destruct (Nat.eq_dec (length (r ++ x ++ s)) 0) as [Z0|Z0].
    { rewrite !app_length in Z0. destruct x; [|cbn in Z0; lia]. destruct y; [reflexivity|discriminate L]. }
    assert (N : forall l, length l <> 0%nat -> exists q qs, blocks12 l = q :: qs) by (intros l Hl; destruct l; [contradiction Hl; reflexivity|]; unfold blocks12; cbn [length cut12]; eauto).
    destruct (N _ Z0) as (q & qs & Eq). destruct (N (r ++ y ++ s)) as (q' & qs' & Eq'); [rewrite !app_length in *; lia|]. rewrite Eq, Eq' in E. change (absorb (lookup3_mix (add3 st b)) (q :: qs) = absorb (lookup3_mix (add3 st b)) (q' :: qs')) in E.
    rewrite <- Eq, <- Eq' in E. apply (IH r x y s (lookup3_mix (add3 st b))); try assumption. apply mix_bij, add3_u32.
Qed.
