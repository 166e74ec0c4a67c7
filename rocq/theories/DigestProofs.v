(** * Message digests: the streaming frame *)
From Verif Require Import Lib BitsModel DigestModel DigestSpec.

Ltac Zify.zify_post_hook ::= Z.div_mod_to_equations.
Notation len64 := (fun b : list Z => length b = 64%nat).

Lemma mcpy_ok P Q T src : length Q = length src -> mcpy (P ++ Q ++ T) (zlen P) src = Some (P ++ src ++ T).
Proof.
  intros H. unfold mcpy, zlen. rewrite !app_length, H. rewrite (proj2 (Z.leb_le _ _)) by lia. rewrite (proj2 (Z.leb_le _ _)) by lia. cbn [andb]. rewrite Nat2Z.id.
  rewrite firstn_app, Nat.sub_diag, firstn_all, firstn_O, app_nil_r. do 3 f_equal. rewrite <- H. rewrite app_assoc, <- app_length, skipn_app, skipn_all, Nat.sub_diag. reflexivity.
Qed.
Lemma split3 (l : list Z) a b : (a + b <= length l)%nat -> exists P Q T, l = P ++ Q ++ T /\ length P = a /\ length Q = b.
Proof.
  intros H. exists (firstn a l), (firstn b (skipn a l)), (skipn b (skipn a l)). rewrite !firstn_skipn. split; [reflexivity|]. rewrite !firstn_length, skipn_length. lia.
Qed.
Lemma mcpy_at dst off src : (Z.to_nat off + length src <= length dst)%nat -> 0 <= off ->
  exists P Q T, dst = P ++ Q ++ T /\ zlen P = off /\ length Q = length src /\ mcpy dst off src = Some (P ++ src ++ T).
Proof.
  intros H O. destruct (split3 dst (Z.to_nat off) (length src) H) as (P & Q & T & -> & LP & LQ). exists P, Q, T. assert (zlen P = off) by (unfold zlen; lia). rewrite <- H0. rewrite mcpy_ok by exact LQ. auto.
Qed.
Lemma take_ok a b : take (a ++ b) (zlen a) = Some a.
Proof. unfold take, zlen. rewrite app_length. rewrite (proj2 (Z.leb_le _ _)) by lia. rewrite (proj2 (Z.leb_le _ _)) by lia. cbn [andb]. rewrite Nat2Z.id, firstn_app, Nat.sub_diag, firstn_all, firstn_O, app_nil_r. reflexivity. Qed.
Lemma drop_ok a b : drop (a ++ b) (zlen a) = b.
Proof. unfold drop, zlen. rewrite Nat2Z.id, skipn_app, Nat.sub_diag, skipn_all. reflexivity. Qed.
Lemma split2 (l : list Z) (a : nat) : (a <= length l)%nat -> exists P T, l = P ++ T /\ length P = a.
Proof. intros H. exists (firstn a l), (skipn a l). rewrite firstn_skipn, firstn_length. split; [reflexivity|lia]. Qed.
Lemma concat_len F : Forall len64 F -> length (concat F) = (64 * length F)%nat.
Proof. induction 1 as [|b F Hb H IH]; cbn [concat length]; [reflexivity|]. rewrite app_length. lia. Qed.
Lemma blocks_concat F : Forall len64 F -> blocks (length (concat F) / 64) (concat F) = F.
Proof.
  intros H. rewrite concat_len by exact H. rewrite Nat.mul_comm, Nat.div_mul by lia. induction H as [|b F Hb H IH]; cbn [concat length blocks]; [reflexivity|].
  rewrite firstn_app, skipn_app, Hb, Nat.sub_diag, firstn_O, app_nil_r. rewrite firstn_all2 by lia. rewrite skipn_all2 by lia. cbn [app skipn]. rewrite IH. reflexivity.
Qed.
Lemma land63 x : 0 <= x -> Z.land x 0x3f = x mod 64.
Proof. intros H. change 0x3f with (Z.ones 6). apply Z.land_ones. lia. Qed.

(** What the context says about the message so far. *)
Definition good (f : list Z -> list Z -> list Z) (iv : list Z) (c : ctx) (msg : list Z) : Prop :=
  exists F R T, msg = concat F ++ R /\ Forall len64 F /\ (length R < 64)%nat /\ dg c = fold_left f F iv /\
    blk c = R ++ T /\ length (R ++ T) = 64%nat /\ cnt c = zlen msg.
Lemma good_pos (f : list Z -> list Z -> list Z) (iv : list Z) c msg F R : msg = concat F ++ R -> Forall len64 F -> (length R < 64)%nat -> cnt c = zlen msg -> cnt c mod 64 = zlen R.
Proof. intros -> HF HR ->. unfold zlen. rewrite app_length, concat_len by exact HF. lia. Qed.
Lemma good_init f iv g : length g = 64%nat -> good f iv {| dg := iv; blk := g; cnt := 0 |} [].
Proof. intros H. exists [], [], g. cbn. repeat split; auto. lia. Qed.

(** ** MD5 *)
Lemma md5_blocks_ok : forall fuel d b data, (length data <= fuel)%nat -> length b = 64%nat ->
  exists F R T, data = concat F ++ R /\ Forall len64 F /\ (length R < 64)%nat /\ length (R ++ T) = 64%nat /\
    md5_blocks fuel d b data = Some (fold_left md5_transform_block F d, R ++ T).
Proof.
  induction fuel as [|fuel IH]; intros d b data Hf Hb.
  - destruct data; [|cbn in Hf; lia]. exists [], [], b. cbn [md5_blocks zlen length]. rewrite (proj2 (Z.leb_gt 64 (zlen []))) by (cbn; lia). pose proof (mcpy_ok [] [] b [] eq_refl) as E. cbn [app] in E. change (zlen []) with 0 in E. rewrite E. cbn. repeat split; auto; lia.
  - cbn [md5_blocks]. destruct (Z.leb_spec 64 (zlen data)) as [L|L].
    + unfold zlen in L. destruct (split2 data 64 ltac:(lia)) as (B & D & -> & LB). rewrite app_length in *. replace 64 with (zlen B) by (unfold zlen; rewrite LB; reflexivity). rewrite take_ok, drop_ok.
      destruct (split2 b 64 ltac:(lia)) as (Q & T & -> & LQ). rewrite app_length in Hb. destruct T as [|]; [|cbn in Hb; lia]. pose proof (mcpy_ok [] Q [] B ltac:(lia)) as E. cbn [app] in E. change (zlen []) with 0 in E. rewrite E.
      destruct (IH (md5_transform_block d (B ++ [])) (B ++ []) D ltac:(lia) ltac:(rewrite app_length; cbn; lia)) as (F & R & T & -> & HF & HR & LR & E2).
      exists (B :: F), R, T. split; [cbn [concat]; rewrite app_assoc; reflexivity|]. split; [constructor; [lia|exact HF]|]. split; [exact HR|]. split; [exact LR|]. rewrite E2. rewrite app_nil_r. reflexivity.
    + unfold zlen in L. destruct (split2 b (length data) ltac:(lia)) as (Q & T & -> & LQ). pose proof (mcpy_ok [] Q T data LQ) as E. cbn [app] in E. change (zlen []) with 0 in E. rewrite E.
      exists [], data, T. rewrite !app_length in *. cbn. repeat split; auto; lia.
Qed.
Lemma md5_update_ok iv c msg data : good md5_transform_block iv c msg -> zlen msg + zlen data < 2 ^ 61 ->
  exists c', md5_update c data = Some c' /\ good md5_transform_block iv c' (msg ++ data).
Proof.
  intros (F & R & T & EM & HF & HR & ED & EB & LB & EC) Bd. pose proof (good_pos md5_transform_block iv c msg F R EM HF HR EC) as EP. unfold md5_update. rewrite land63 by (rewrite EC; unfold zlen; lia). rewrite EP.
  assert (EW : w64 (cnt c + zlen data) = zlen (msg ++ data)) by (rewrite EC; unfold zlen in *; rewrite app_length, w64_small; lia). rewrite EW.
  rewrite app_length in LB. destruct (Z.gtb_spec (64 - zlen R) (zlen data)) as [L|L]; unfold zlen in L.
  - destruct (split2 T (length data) ltac:(lia)) as (Q & T' & -> & LQ). rewrite EB. replace (64 - (64 - zlen R)) with (zlen R) by lia. rewrite mcpy_ok by exact LQ. eexists. split; [reflexivity|].
    exists F, (R ++ data), T'. rewrite !app_length in *. cbn [dg blk cnt]. repeat split; auto; try lia. 1: rewrite EM, app_assoc; reflexivity. rewrite app_assoc; reflexivity.
  - destruct (split2 data (64 - length R) ltac:(lia)) as (D1 & D2 & -> & L1). replace (64 - zlen R) with (zlen D1) by (unfold zlen; lia). rewrite take_ok, drop_ok.
    rewrite EB. replace (64 - zlen D1) with (zlen R) by (unfold zlen; lia). pose proof (mcpy_ok R T [] D1 ltac:(lia)) as E. rewrite app_nil_r in E. rewrite E, app_nil_r. clear E.
    rewrite app_length in *. destruct (md5_blocks_ok (length D1 + length D2) (md5_transform_block (dg c) (R ++ D1)) (R ++ D1) D2 ltac:(lia) ltac:(rewrite app_length; lia)) as (F2 & R2 & T2 & -> & HF2 & HR2 & LR2 & E2).
    rewrite E2. eexists. split; [reflexivity|]. exists (F ++ (R ++ D1) :: F2), R2, T2. cbn [dg blk cnt]. split.
    + rewrite EM, concat_app. cbn [concat]. rewrite !app_assoc. reflexivity.
    + split; [apply Forall_app; split; [exact HF|constructor; [rewrite app_length; lia|exact HF2]]|]. split; [exact HR2|]. split; [rewrite fold_left_app; cbn [fold_left]; rewrite <- ED; reflexivity|]. auto.
Qed.
Lemma repeat_len A (x : A) n : length (repeat x n) = n.
Proof. apply repeat_length. Qed.
Lemma le_len n v : length (le_bytes n v) = n.
Proof. revert v. induction n; intros v; cbn [le_bytes length]; auto. Qed.
Lemma padded_short enc msg F R : msg = concat F ++ R -> Forall len64 F -> (length R <= 55)%nat ->
  padded enc msg = concat (F ++ [R ++ [0x80] ++ repeat 0 (55 - length R) ++ enc 8%nat (8 * zlen msg)]).
Proof.
  intros -> HF HR. unfold padded. rewrite concat_app. cbn [concat]. replace (Z.to_nat ((55 - zlen (concat F ++ R)) mod 64)) with (55 - length R)%nat by (unfold zlen; rewrite app_length, concat_len by exact HF; lia). rewrite app_nil_r, <- !app_assoc. reflexivity.
Qed.
Lemma padded_long enc msg F R : msg = concat F ++ R -> Forall len64 F -> (55 < length R < 64)%nat ->
  padded enc msg = concat (F ++ [R ++ [0x80] ++ repeat 0 (63 - length R); repeat 0 56 ++ enc 8%nat (8 * zlen msg)]).
Proof.
  intros -> HF HR. unfold padded. rewrite concat_app. cbn [concat]. replace (Z.to_nat ((55 - zlen (concat F ++ R)) mod 64)) with (63 - length R + 56)%nat by (unfold zlen; rewrite app_length, concat_len by exact HF; lia). rewrite repeat_app, app_nil_r, <- !app_assoc. reflexivity.
Qed.
Lemma mzero_ok P Q T n : length Q = Z.to_nat n -> 0 <= n -> mzero (P ++ Q ++ T) (zlen P) n = Some (P ++ repeat 0 (Z.to_nat n) ++ T).
Proof. intros H N. unfold mzero. rewrite (proj2 (Z.ltb_ge _ _)) by lia. apply mcpy_ok. rewrite repeat_length. exact H. Qed.
Lemma le32_two v : 0 <= v < 2 ^ 64 -> le32_bytes (w32 v) ++ le32_bytes (w32 (v / 2 ^ 32)) = le_bytes 8 v.
Proof.
  intros H. unfold le32_bytes, w32. cbn [le_bytes app]. change (2 ^ 32) with 4294967296 in *. change (2 ^ 64) with 18446744073709551616 in H.
  try (assert (E : (v / 4294967296) mod 4294967296 = v / 4294967296) by lia; rewrite E; clear E).
  repeat (f_equal; [repeat rewrite Z.div_div by lia; cbn [Z.mul Pos.mul Pos.add]; lia|]). f_equal; repeat rewrite Z.div_div by lia; cbn [Z.mul Pos.mul Pos.add]; lia.
Qed.
Lemma md5_finalize_ok iv c msg : good md5_transform_block iv c msg -> zlen msg < 2 ^ 61 ->
  md5_finalize c = Some (digest le_bytes md5_transform_block iv msg).
Proof.
  intros (F & R & T & EM & HF & HR & ED & EB & LB & EC) Bd. pose proof (good_pos md5_transform_block iv c msg F R EM HF HR EC) as EP. unfold md5_finalize, digest. rewrite land63 by (rewrite EC; unfold zlen; lia). rewrite EP, EB.
  rewrite app_length in LB. destruct T as [|t T]; [cbn in LB; lia|]. cbn [length] in LB. change (R ++ t :: T) with (R ++ [t] ++ T). rewrite (mcpy_ok R [t] T [0x80] eq_refl).
  assert (E8 : le32_bytes (w32 (Z.shiftl (cnt c) 3)) ++ le32_bytes (w32 (Z.shiftr (cnt c) 29)) = le_bytes 8 (8 * zlen msg)).
  { rewrite Z.shiftl_mul_pow2, Z.shiftr_div_pow2 by lia. rewrite EC. rewrite <- (le32_two (8 * zlen msg)) by (unfold zlen in *; lia). f_equal; [do 2 f_equal; lia|]. do 2 f_equal. unfold zlen in *. change (2 ^ 29) with 536870912. change (2 ^ 32) with 4294967296. lia. }
  assert (Fin : forall P T8, length P = 56%nat -> length T8 = 8%nat ->
    (let* blk := mcpy (P ++ T8) 56 (le32_bytes (w32 (Z.shiftl (cnt c) 3))) in mcpy blk 60 (le32_bytes (w32 (Z.shiftr (cnt c) 29)))) = Some (P ++ le_bytes 8 (8 * zlen msg))).
  { intros P T8 LP L8. destruct (split2 T8 4 ltac:(lia)) as (Q1 & Q2 & -> & LQ). rewrite app_length in L8. replace 56 with (zlen P) by (unfold zlen; rewrite LP; reflexivity). rewrite mcpy_ok by (rewrite LQ; reflexivity).
    rewrite <- E8. rewrite app_assoc. replace 60 with (zlen (P ++ le32_bytes (w32 (Z.shiftl (cnt c) 3)))) by (unfold zlen; rewrite app_length; cbn [length le32_bytes]; lia).
    pose proof (mcpy_ok (P ++ le32_bytes (w32 (Z.shiftl (cnt c) 3))) Q2 [] (le32_bytes (w32 (Z.shiftr (cnt c) 29))) ltac:(cbn [length le32_bytes]; lia)) as E. rewrite !app_nil_r in E. rewrite E, <- app_assoc. reflexivity. }
  assert (LT : zlen R + 1 = zlen (R ++ [0x80])) by (unfold zlen; rewrite app_length; cbn [length le32_bytes]; lia).
  destruct (Z.ltb_spec (56 - (zlen R + 1)) 0) as [L|L]; unfold zlen in L.
  - assert (EZ : mzero (R ++ [0x80] ++ T) (zlen R + 1) (56 - (zlen R + 1) + 8) = Some (R ++ [0x80] ++ repeat 0 (63 - length R))).
    { pose proof (mzero_ok (R ++ [0x80]) T [] (56 - (zlen R + 1) + 8) ltac:(unfold zlen; lia) ltac:(unfold zlen; lia)) as E. rewrite !app_nil_r, <- !app_assoc in E. rewrite LT at 1. rewrite E. do 4 f_equal. unfold zlen. lia. }
    rewrite EZ. set (b1 := R ++ [0x80] ++ repeat 0 (63 - length R)). assert (L1 : length b1 = 64%nat) by (unfold b1; rewrite !app_length, repeat_length; cbn [length]; lia).
    destruct (split2 b1 56 ltac:(lia)) as (Q & T8 & E1 & LQ). rewrite E1, app_length in L1. pose proof (mzero_ok [] Q T8 56 ltac:(exact LQ) ltac:(lia)) as EZ2. change (zlen []) with 0 in EZ2. cbn [app] in EZ2. rewrite <- E1 in EZ2. cbv beta iota. rewrite EZ2.
    specialize (Fin (repeat 0 (Z.to_nat 56)) T8 (repeat_length _ _) ltac:(lia)). destruct (mcpy _ 56 _) as [b2|]; [|discriminate]. rewrite Fin. f_equal.
    assert (LL : (55 < length R < 64)%nat) by lia. rewrite (padded_long le_bytes msg F R EM HF LL). fold b1. rewrite blocks_concat.
    + rewrite fold_left_app. cbn [fold_left]. rewrite ED. reflexivity.
    + apply Forall_app. split; [exact HF|]. constructor; [rewrite E1, app_length; lia|]. constructor; [rewrite app_length, le_len, repeat_length; reflexivity|constructor].
  - destruct (split2 T (55 - length R) ltac:(lia)) as (Q & T8 & -> & LQ). rewrite app_length in LB.
    pose proof (mzero_ok (R ++ [0x80]) Q T8 (56 - (zlen R + 1)) ltac:(unfold zlen; lia) ltac:(unfold zlen; lia)) as E. rewrite <- !app_assoc in E. rewrite <- LT in E. rewrite E. clear E.
    replace (Z.to_nat (56 - (zlen R + 1))) with (55 - length R)%nat by (unfold zlen; lia).
    specialize (Fin (R ++ [0x80] ++ repeat 0 (55 - length R)) T8 ltac:(rewrite !app_length, repeat_length; cbn [length]; lia) ltac:(lia)). rewrite <- !app_assoc in Fin.
    destruct (mcpy _ 56 _) as [b2|]; [|discriminate]. rewrite Fin. f_equal.
    assert (LL : (length R <= 55)%nat) by lia. rewrite (padded_short le_bytes msg F R EM HF LL). rewrite blocks_concat.
    + rewrite fold_left_app. cbn [fold_left]. rewrite ED. reflexivity.
    + apply Forall_app. split; [exact HF|]. repeat constructor. rewrite !app_length, le_len, repeat_length. cbn [length]. lia.
Qed.

(** ** SHA *)
Section Sha.
Variable transform : list Z -> (Z -> Z) -> list Z -> list Z * (Z -> Z).
Variable f : list Z -> list Z -> list Z.
Hypothesis indep : forall d g b, fst (transform d g b) = f d b.
Variable stack : Z -> Z.
Lemma sha_blocks_ok : forall F d g R, Forall len64 F -> sha_blocks transform (length F) d g (concat F ++ R) = Some (fold_left f F d).
Proof.
  induction F as [|b F IH]; intros d g R H; [reflexivity|]. inversion_clear H. cbn [length sha_blocks concat fold_left]. rewrite <- app_assoc. replace 64 with (zlen b) by (unfold zlen; rewrite H0; reflexivity). rewrite take_ok, drop_ok.
  pose proof (indep d g b) as E. destruct (transform d g b) as [d' g']. cbn [fst] in E. subst d'. apply IH. exact H1.
Qed.
Lemma sha_one d b : length b = 64%nat -> sha_func transform stack d b 1 = Some (f d b).
Proof. intros H. pose proof (sha_blocks_ok [b] d stack [] ltac:(repeat constructor; exact H)) as E. cbn [concat] in E. rewrite !app_nil_r in E. exact E. Qed.
Lemma cut (data : list Z) : exists F R, data = concat F ++ R /\ Forall len64 F /\ (length R < 64)%nat.
Proof.
  assert (X : forall n (l : list Z), (length l <= n)%nat -> exists F R, l = concat F ++ R /\ Forall len64 F /\ (length R < 64)%nat).
  { induction n as [|n IH]; intros l H; [exists [], l; cbn; auto with arith; repeat split; auto; lia|]. destruct (le_lt_dec 64 (length l)) as [L|L]; [|exists [], l; repeat split; auto].
    destruct (split2 l 64 L) as (B & D & -> & LB). rewrite app_length in H. destruct (IH D ltac:(lia)) as (F & R & -> & HF & HR). exists (B :: F), R. cbn [concat]. rewrite app_assoc. auto. }
  apply (X (length data) data). lia.
Qed.
Lemma sha_mid d D F1 R1 : D = concat F1 ++ R1 -> Forall len64 F1 -> (length R1 < 64)%nat ->
  (if negb (zlen D / 64 =? 0) then let* dg := sha_func transform stack d D (zlen D / 64) in Some (dg, drop D (zlen D / 64 * 64)) else Some (d, D)) = Some (fold_left f F1 d, R1) /\ zlen D mod 64 = zlen R1.
Proof.
  intros -> HF HR. pose proof (concat_len F1 HF) as L. assert (E1 : zlen (concat F1 ++ R1) / 64 = Z.of_nat (length F1)) by (unfold zlen; rewrite app_length, L; lia).
  split; [|unfold zlen; rewrite app_length, L; lia]. rewrite E1. unfold sha_func. rewrite Nat2Z.id, sha_blocks_ok by exact HF. destruct (Z.eqb_spec (Z.of_nat (length F1)) 0) as [Z0|Z0]; cbn [negb].
  - destruct F1; [reflexivity|cbn [length] in Z0; lia].
  - do 2 f_equal. replace (Z.of_nat (length F1) * 64) with (zlen (concat F1)) by (unfold zlen; rewrite L; lia). apply drop_ok.
Qed.
Lemma sha_update_ok iv c msg data : good f iv c msg -> zlen msg + zlen data < 2 ^ 61 ->
  exists c', sha_update transform stack c data = Some c' /\ good f iv c' (msg ++ data).
Proof.
  intros (F & R & T & EM & HF & HR & ED & EB & LB & EC) Bd. pose proof (good_pos f iv c msg F R EM HF HR EC) as EP. unfold sha_update. rewrite EP.
  assert (EW : w64 (cnt c + zlen data) = zlen (msg ++ data)) by (rewrite EC; unfold zlen in *; rewrite app_length, w64_small; lia). rewrite EW. rewrite (w64_small (zlen R + zlen data)) by (unfold zlen in *; lia).
  assert (Tail : forall F1 b1 R1, msg ++ data = concat (F ++ F1) ++ R1 -> Forall len64 F1 -> (length R1 < 64)%nat -> length b1 = 64%nat ->
    exists c', (if negb (zlen R1 =? 0) then let* src := take R1 (zlen R1) in let* blk := mcpy b1 0 src in Some {| dg := fold_left f F1 (dg c); blk := blk; cnt := zlen (msg ++ data) |}
       else Some {| dg := fold_left f F1 (dg c); blk := b1; cnt := zlen (msg ++ data) |}) = Some c' /\ good f iv c' (msg ++ data)).
  { intros F1 b1 R1 E1 HF1 HR1 L1. assert (G : forall T1, length (R1 ++ T1) = 64%nat -> good f iv {| dg := fold_left f F1 (dg c); blk := R1 ++ T1; cnt := zlen (msg ++ data) |} (msg ++ data)).
    { intros T1 LT. exists (F ++ F1), R1, T1. cbn [dg blk cnt]. split; [exact E1|]. split; [apply Forall_app; auto|]. split; [exact HR1|]. split; [rewrite fold_left_app, <- ED; reflexivity|]. auto. }
    destruct (Z.eqb_spec (zlen R1) 0) as [Z0|Z0]; cbn [negb].
    - destruct R1; [|unfold zlen in Z0; cbn [length] in Z0; lia]. eexists. split; [reflexivity|]. apply (G b1); auto.
    - pose proof (take_ok R1 []) as Et. rewrite app_nil_r in Et. rewrite Et. destruct (split2 b1 (length R1) ltac:(lia)) as (Q & T1 & -> & LQ). pose proof (mcpy_ok [] Q T1 R1 LQ) as E. cbn [app] in E. change (zlen []) with 0 in E. rewrite E. eexists. split; [reflexivity|]. apply G. rewrite app_length in *. lia. }
  destruct (Z.leb_spec 64 (zlen R + zlen data)) as [L|L]; unfold zlen in L.
  - destruct (Z.eqb_spec (zlen R) 0) as [Z0|Z0]; cbn [negb].
    + destruct R as [|]; [|unfold zlen in Z0; cbn [length] in Z0; lia]. destruct (cut data) as (F1 & R1 & E1 & HF1 & HR1). destruct (sha_mid (dg c) data F1 R1 E1 HF1 HR1) as [M1 M2]. rewrite M1, M2.
      apply Tail; auto; [|rewrite EB; exact LB]. rewrite EM, E1, concat_app, app_nil_r, app_assoc. reflexivity.
    + rewrite app_length in LB. destruct (split2 data (64 - length R) ltac:(lia)) as (D1 & D2 & -> & L1). replace (64 - zlen R) with (zlen D1) by (unfold zlen; lia). rewrite take_ok, drop_ok.
      rewrite EB. pose proof (mcpy_ok R T [] D1 ltac:(lia)) as E. rewrite !app_nil_r in E. rewrite E. clear E. rewrite sha_one by (rewrite app_length; lia).
      destruct (cut D2) as (F1 & R1 & E1 & HF1 & HR1). replace (zlen (D1 ++ D2) - zlen D1) with (zlen D2) by (unfold zlen; rewrite app_length; lia).
      destruct (sha_mid (f (dg c) (R ++ D1)) D2 F1 R1 E1 HF1 HR1) as [M1 M2]. rewrite M1, M2.
      change (fold_left f F1 (f (dg c) (R ++ D1))) with (fold_left f ((R ++ D1) :: F1) (dg c)). apply Tail; auto.
      * rewrite EM, E1, concat_app. cbn [concat]. rewrite !app_assoc. reflexivity.
      * constructor; [rewrite app_length; lia|exact HF1].
      * rewrite app_length. lia.
  - (* everything fits in the buffer *)
    rewrite app_length in LB. assert (G : forall b T1, b = (R ++ data) ++ T1 -> length b = 64%nat -> good f iv {| dg := dg c; blk := b; cnt := zlen (msg ++ data) |} (msg ++ data)).
    { intros b T1 -> Lb. exists F, (R ++ data), T1. cbn [dg blk cnt]. rewrite !app_length in *. split; [rewrite EM, app_assoc; reflexivity|]. split; [exact HF|]. split; [lia|]. auto. }
    destruct (Z.eqb_spec (zlen data) 0) as [Z0|Z0]; cbn [negb].
    + destruct data; [|unfold zlen in Z0; cbn [length] in Z0; lia]. eexists. split; [reflexivity|]. apply (G _ T); [rewrite app_nil_r; exact EB|rewrite EB, app_length; lia].
    + pose proof (take_ok data []) as Et. rewrite app_nil_r in Et. rewrite Et. destruct (split2 T (length data) ltac:(lia)) as (Q & T1 & -> & LQ). rewrite EB, mcpy_ok by exact LQ. eexists. split; [reflexivity|]. apply (G _ T1); [rewrite app_assoc; reflexivity|]. rewrite !app_length in *. lia.
Qed.
Lemma be64_two v : 0 <= v < 2 ^ 64 -> be64_bytes v = be_bytes 8 v.
Proof.
  intros H. unfold be64_bytes, be32_bytes, be_bytes. cbn [le_bytes List.rev app]. change (2 ^ 32) with 4294967296 in *. change (2 ^ 64) with 18446744073709551616 in H.
  try (assert (E : (v / 4294967296) mod 4294967296 = v / 4294967296) by lia; rewrite E; clear E).
  repeat (f_equal; [repeat rewrite Z.div_div by lia; cbn [Z.mul Pos.mul Pos.add]; lia|]). f_equal; repeat rewrite Z.div_div by lia; cbn [Z.mul Pos.mul Pos.add]; lia.
Qed.
Lemma be_len n v : length (be_bytes n v) = n.
Proof. unfold be_bytes. rewrite rev_length. apply le_len. Qed.
Lemma sha_finalize_ok iv c msg : good f iv c msg -> zlen msg < 2 ^ 61 -> sha_finalize transform stack c = Some (digest be_bytes f iv msg).
Proof.
  intros (F & R & T & EM & HF & HR & ED & EB & LB & EC) Bd. pose proof (good_pos f iv c msg F R EM HF HR EC) as EP. unfold sha_finalize, digest. cbv zeta. rewrite EP, EB. change (64 - 8) with 56.
  rewrite app_length in LB. destruct T as [|t T]; [cbn in LB; lia|]. cbn [length] in LB. change (R ++ t :: T) with (R ++ [t] ++ T). rewrite (mcpy_ok R [t] T [0x80] eq_refl).
  assert (E8 : be64_bytes (w64 (Z.shiftl (cnt c) 3)) = be_bytes 8 (8 * zlen msg)).
  { rewrite Z.shiftl_mul_pow2 by lia. rewrite EC, w64_small by (unfold zlen in *; lia). rewrite be64_two by (unfold zlen in *; lia). f_equal. lia. }
  rewrite E8.
  assert (Fin : forall P T8, length P = 56%nat -> length T8 = 8%nat -> mcpy (P ++ T8) 56 (be_bytes 8 (8 * zlen msg)) = Some (P ++ be_bytes 8 (8 * zlen msg))).
  { intros P T8 LP L8. pose proof (mcpy_ok P T8 [] (be_bytes 8 (8 * zlen msg)) ltac:(rewrite be_len; exact L8)) as E. rewrite !app_nil_r in E. replace 56 with (zlen P) by (unfold zlen; rewrite LP; reflexivity). exact E. }
  assert (LT : zlen R + 1 = zlen (R ++ [0x80])) by (unfold zlen; rewrite app_length; cbn [length le32_bytes]; lia).
  destruct (Z.ltb_spec 56 (zlen R + 1)) as [L|L]; unfold zlen in L.
  - assert (EZ : mzero (R ++ [0x80] ++ T) (zlen R + 1) (64 - (zlen R + 1)) = Some (R ++ [0x80] ++ repeat 0 (63 - length R))).
    { pose proof (mzero_ok (R ++ [0x80]) T [] (64 - (zlen R + 1)) ltac:(unfold zlen; lia) ltac:(unfold zlen; lia)) as E. rewrite !app_nil_r, <- !app_assoc in E. rewrite LT at 1. rewrite E. do 4 f_equal. unfold zlen. lia. }
    rewrite EZ. set (b1 := R ++ [0x80] ++ repeat 0 (63 - length R)). assert (L1 : length b1 = 64%nat) by (unfold b1; rewrite !app_length, repeat_length; cbn [length]; lia).
    rewrite sha_one by exact L1. change (56 - 0) with 56.
    destruct (split2 b1 56 ltac:(lia)) as (Q & T8 & E1 & LQ). rewrite E1, app_length in L1. pose proof (mzero_ok [] Q T8 56 ltac:(exact LQ) ltac:(lia)) as EZ2. change (zlen []) with 0 in EZ2. cbn [app] in EZ2. rewrite <- E1 in EZ2. cbv beta iota. rewrite EZ2.
    rewrite (Fin (repeat 0 (Z.to_nat 56)) T8 (repeat_length _ _) ltac:(lia)). rewrite sha_one by (rewrite app_length, be_len, repeat_length; reflexivity). f_equal.
    assert (LL : (55 < length R < 64)%nat) by lia. rewrite (padded_long be_bytes msg F R EM HF LL). fold b1. rewrite blocks_concat.
    + rewrite fold_left_app. cbn [fold_left]. rewrite ED. reflexivity.
    + apply Forall_app. split; [exact HF|]. constructor; [rewrite E1, app_length; lia|]. constructor; [rewrite app_length, be_len, repeat_length; reflexivity|constructor].
  - destruct (split2 T (55 - length R) ltac:(lia)) as (Q & T8 & -> & LQ). rewrite app_length in LB.
    pose proof (mzero_ok (R ++ [0x80]) Q T8 (56 - (zlen R + 1)) ltac:(unfold zlen; lia) ltac:(unfold zlen; lia)) as E. rewrite <- !app_assoc in E. rewrite <- LT in E. rewrite E. clear E.
    replace (Z.to_nat (56 - (zlen R + 1))) with (55 - length R)%nat by (unfold zlen; lia).
    pose proof (Fin (R ++ [0x80] ++ repeat 0 (55 - length R)) T8 ltac:(rewrite !app_length, repeat_length; cbn [length]; lia) ltac:(lia)) as Fin'. rewrite <- !app_assoc in Fin'. rewrite Fin'.
    rewrite sha_one by (rewrite !app_length, be_len, repeat_length; cbn [length]; lia). f_equal.
    assert (LL : (length R <= 55)%nat) by lia. rewrite (padded_short be_bytes msg F R EM HF LL). rewrite blocks_concat.
    + rewrite fold_left_app. cbn [fold_left]. rewrite ED. reflexivity.
    + apply Forall_app. split; [exact HF|]. repeat constructor. rewrite !app_length, be_len, repeat_length. cbn [length]. lia.
Qed.
End Sha.
(** Any sequence of updates. *)
Lemma updates_ok f iv up : (forall c msg data, good f iv c msg -> zlen msg + zlen data < 2 ^ 61 -> exists c', up c data = Some c' /\ good f iv c' (msg ++ data)) ->
  forall l c msg, good f iv c msg -> zlen (msg ++ concat l) < 2 ^ 61 -> exists c', updates up c l = Some c' /\ good f iv c' (msg ++ concat l).
Proof.
  intros U. induction l as [|d l IH]; intros c msg G B; [exists c; cbn [concat updates]; rewrite app_nil_r; auto|]. cbn [updates concat] in *.
  assert (B1 : zlen msg + zlen d < 2 ^ 61) by (unfold zlen in *; rewrite !app_length in B; lia). destruct (U c msg d G B1) as (c1 & -> & G1). rewrite app_assoc in *. apply IH; assumption.
Qed.
