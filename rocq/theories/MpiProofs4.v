(** * Proofs about the unsigned operations: multiplication and division by a word *)
From Verif Require Import Lib BitsModel DwordModel DwordSpec DwordProofs MpiModel MpiSpec MpiProofs MpiProofs2 MpiProofs3.
Ltac Zify.zify_post_hook ::= Z.div_mod_to_equations.

Lemma lost_safe : forall b a c, (c = 0 \/ c = 1) -> Forall (fun x => x <> 2 ^ 64 - 1) b -> lost a b c = 0.
Proof.
  induction b as [|y b IH]; intros [|x a] c Hc H; cbn [lost]; try reflexivity.
  conses. rewrite IH by (auto using b2z_01). destruct (Z.eqb_spec y (2 ^ 64 - 1)); [lia|reflexivity].
Qed.
Lemma lost_safe_tl : forall b a, Forall (fun x => x <> 2 ^ 64 - 1) (tl b) -> lost a b 0 = 0.
Proof.
  intros [|y b] [|x a] H; cbn [lost tl] in *; try reflexivity.
  rewrite lost_safe by (auto using b2z_01). rewrite andb_false_r. reflexivity.
Qed.
Lemma mpa_zero_ok : forall n p m q ps, length m = n -> ps = zlen p ->
  exists s, mpa_zero n (p ++ m ++ q) ps = Some (p ++ s ++ q) /\ length s = n /\ Forall u64 s /\ val s = 0.
Proof.
  induction n as [|n IH]; intros p m q ps L E; cbn [mpa_zero].
  - rewrite (app_nil_len _ _ L). exists []. auto.
  - destruct m as [|z m]; [discriminate|]. rewrite (wr_next p m q z 0 ps E).
    destruct (IH (p ++ [0]) m q (ps + 1)) as (s & -> & Ls & Us & Vs); [cbn [length] in L; lia|apply zlen_snoc; exact E|].
    exists (0 :: s). rewrite <- app_assoc. cbn [app length val].
    split; [reflexivity|]. split; [lia|]. split; [constructor; [unfold u64; lia|assumption]|lia].
Qed.
Lemma mpa_copy_ok : forall a p m q l ps pa, length m = length a -> ps = zlen p -> srcok (Ext l) (p ++ m ++ q) ps pa a ->
  mpa_copy (length a) (p ++ m ++ q) (Ext l) ps pa = Some (p ++ a ++ q).
Proof.
  induction a as [|x a IH]; intros p [|z m] q l ps pa L E S; try discriminate; cbn [length mpa_copy].
  - reflexivity.
  - rewrite (srcok_head _ _ _ _ _ _ S). pose proof (wr_next p m q z x ps E) as W. rewrite W.
    rewrite (IH (p ++ [x]) m q l); [rewrite <- app_assoc; reflexivity|cbn [length] in L; lia|apply zlen_snoc; exact E|].
    eapply srcok_tail; eassumption.
Qed.

Lemma mul_loop_ok : forall bs p m q a lb ps index,
  a <> [] -> length m = length a -> length q = length bs -> ps = zlen p ->
  Forall u64 a -> Forall u64 bs -> Forall u64 m -> (Forall (fun y => y <> 1) bs \/ Forall (fun x => x <> 2 ^ 64 - 1) (tl a)) ->
  (forall i, 0 <= i < zlen bs -> rd lb (index + i) = rd bs i) ->
  exists s, mul_loop (length bs) (p ++ m ++ q) (Ext a) (Ext lb) ps index (zlen a) = Some (p ++ s) /\
    length s = (length a + length bs)%nat /\ Forall u64 s /\ val s = val m + val a * val bs.
Proof.
  induction bs as [|y bs IH]; intros p m q a lb ps index Na Lm Lq Ep Ua Ub Um Safe R; cbn [length mul_loop].
  - rewrite (app_nil_len _ _ Lq), app_nil_r. exists m. cbn [val]. split; [reflexivity|]. repeat split; auto; lia.
  - destruct q as [|z q]; [discriminate|].
    cbn [rds]. pose proof (R 0) as R0. rewrite Z.add_0_r in R0. rewrite R0, rd_cons0 by (rewrite zlen_cons; pose proof (zlen_nonneg _ bs); lia).
    conses.
    assert (Sa : srcok (Ext a) (p ++ m ++ z :: q) ps 0 a) by (apply srcok_ext with (b := []); rewrite app_nil_r; reflexivity).
    assert (Step : wrote (if 1 <? y then mpa_maci (Z.to_nat (zlen a)) (p ++ m ++ z :: q) (Ext a) ps 0 y 0
              else if negb (y =? 0) then mpa_add (p ++ m ++ z :: q) Own (Ext a) ps ps 0 (zlen a) (zlen a) 0
              else Some (p ++ m ++ z :: q, 0)) p (z :: q) (length a)
              (fun s c => u64 c /\ val s + c * Bp (length a) = val m + val a * y)).
    { destruct (Z.ltb_spec 1 y).
      - unfold zlen. rewrite Nat2Z.id. eapply wrote_imp.
        { apply maci_ok; try assumption. unfold u64. lia. }
        cbv beta. intros s c _ _ [Hc V]. split; [exact Hc|lia].
      - destruct (Z.eqb_spec y 0) as [->|Ny]; cbn [negb].
        + exists m, 0. split; [reflexivity|]. split; [lia|]. split; [assumption|]. split; [unfold u64; lia|lia].
        + assert (y = 1) by (unfold u64 in *; lia). subst y.
          assert (Zm : zlen m = zlen a) by (unfold zlen; lia).
          replace (mpa_add (p ++ m ++ z :: q) Own (Ext a) ps ps 0 (zlen a) (zlen a) 0)
            with (mpa_add (p ++ m ++ z :: q) Own (Ext a) ps ps 0 (zlen m) (zlen a) 0) by (rewrite Zm; reflexivity).
          rewrite <- Lm.
          eapply wrote_imp.
          { apply (mpa_add_ok m a p m (z :: q)); try assumption; try lia.
            - apply srcok_own. exact Ep. }
          cbv beta. intros s c _ _ [Hc V]. split; [apply c01_u64; exact Hc|].
          rewrite lost_safe_tl in V; [lia|].
          destruct Safe as [S|S]; [|exact S]. conses. contradiction. }
    destruct Step as (s & c & -> & Ls & Us & Uc & V).
    replace (wr (p ++ s ++ z :: q) (ps + zlen a) c) with (Some (p ++ s ++ c :: q)).
    2:{ rewrite (app_assoc p s (z :: q)), (app_assoc p s (c :: q)). symmetry. apply wr_app_len. rewrite zlen_app. unfold zlen in *. lia. }
    destruct s as [|h t]; [destruct a; [contradiction|discriminate]|]. conses.
    replace (p ++ (h :: t) ++ c :: q) with ((p ++ [h]) ++ (t ++ [c]) ++ q) by (rewrite <- !app_assoc; reflexivity).
    destruct (IH (p ++ [h]) (t ++ [c]) q a lb (ps + 1) (index + 1)) as (s' & -> & Ls' & Us' & Vs'); try assumption.
    + rewrite app_length. cbn [length] in *. lia.
    + cbn [length] in Lq. lia.
    + apply zlen_snoc. exact Ep.
    + apply Forall_app. split; [assumption|repeat constructor; apply Uc].
    + destruct Safe as [S|S]; [left|right; exact S]. conses. assumption.
    + intros i Hi. specialize (R (i + 1)). rewrite zlen_cons in R. rewrite rd_cons_succ in R by lia.
      rewrite <- R by lia. f_equal. lia.
    + exists (h :: s'). rewrite <- app_assoc. split; [reflexivity|]. split; [cbn [length]; lia|].
      split; [constructor; assumption|]. cbn [val]. rewrite Vs', val_app. cbn [val length] in *.
      assert (Lt : length a = S (length t)) by lia. rewrite Lt in V. cbn [Bp] in V. cbn [val] in V.
      replace (h + 2 ^ 64 * (val t + Bp (length t) * (c + 2 ^ 64 * 0) + val a * val bs))
        with (h + 2 ^ 64 * val t + c * (2 ^ 64 * Bp (length t)) + 2 ^ 64 * (val a * val bs)) by ring.
      rewrite V. ring.
Qed.
Lemma mpa_mul_ok : forall a b d, a <> [] -> b <> [] -> length d = (length a + length b)%nat ->
  Forall u64 a -> Forall u64 b -> mul_safe a b ->
  exists s, mpa_mul d (Ext a) (Ext b) (zlen a) (zlen b) = Some s /\ Forall u64 s /\ val s = val a * val b.
Proof.
  intros a [|y bs] d Na Nb Ld Ua Ub Safe; [contradiction|]. unfold mpa_mul. cbn [rds]. rewrite rd_cons0. conses.
  destruct (split_at _ (length a) d) as (m & q & -> & Lm & Lq); [lia|].
  destruct q as [|z q]; [cbn [length] in *; lia|].
  assert (Sa : srcok (Ext a) ([] ++ m ++ z :: q) 0 0 a) by (apply srcok_ext with (b := []); rewrite app_nil_r; reflexivity).
  assert (Step : exists s c, (if 1 <? y then mpa_muli (Z.to_nat (zlen a)) (m ++ z :: q) (Ext a) 0 0 y 0
            else if negb (y =? 0) then let* d := mpa_copy (Z.to_nat (zlen a)) (m ++ z :: q) (Ext a) 0 0 in Some (d, 0)
            else let* d := mpa_zero (Z.to_nat (zlen a)) (m ++ z :: q) 0 in Some (d, 0)) = Some (s ++ z :: q, c) /\
            length s = length a /\ Forall u64 s /\ u64 c /\ val s + c * Bp (length a) = val a * y).
  { unfold zlen. rewrite Nat2Z.id. destruct (Z.ltb_spec 1 y).
    - destruct (muli_ok a [] m (z :: q) (Ext a) 0 0 y 0) as (s & c & E & Ls & Us & Uc & V); auto.
      { unfold u64; lia. }
      exists s, c. cbn [app] in E. repeat split; try assumption; try apply Uc. lia.
    - destruct (Z.eqb_spec y 0) as [->|Ny]; cbn [negb].
      + destruct (mpa_zero_ok (length a) [] m (z :: q) 0 Lm eq_refl) as (s & E & Ls & Us & V). cbn [app] in E. rewrite E.
        exists s, 0. repeat split; try assumption; lia.
      + assert (y = 1) by (unfold u64 in *; lia). subst y.
        pose proof (mpa_copy_ok a [] m (z :: q) a 0 0 Lm eq_refl Sa) as E. cbn [app] in E. rewrite E.
        exists a, 0. repeat split; try assumption; lia. }
  destruct Step as (s & c & -> & Ls & Us & Uc & V).
  rewrite wr_app_len by (unfold zlen; lia).
  replace (Z.to_nat (zlen (y :: bs) - 1)) with (length bs) by (rewrite zlen_cons; unfold zlen; lia).
  destruct s as [|h t]; [destruct a; [contradiction|discriminate]|]. conses.
  replace ((h :: t) ++ c :: q) with ([h] ++ (t ++ [c]) ++ q) by (cbn [app]; rewrite <- app_assoc; reflexivity).
  destruct (mul_loop_ok bs [h] (t ++ [c]) q a (y :: bs) 1 1) as (s' & -> & Ls' & Us' & Vs'); try assumption.
  - rewrite app_length. cbn [length] in *. lia.
  - rewrite !app_length in Ld. cbn [length] in Ld. lia.
  - reflexivity.
  - apply Forall_app. split; [assumption|repeat constructor; apply Uc].
  - intros i Hi. rewrite Z.add_comm. apply rd_cons_succ. lia.
  - eexists. split; [reflexivity|]. split; [constructor; assumption|]. cbn [app val]. rewrite Vs', val_app. cbn [val length] in *.
    assert (Lt : length a = S (length t)) by lia. rewrite Lt in V. cbn [Bp] in V.
    replace (h + 2 ^ 64 * (val t + Bp (length t) * (c + 2 ^ 64 * 0) + val a * val bs))
      with (h + 2 ^ 64 * val t + c * (2 ^ 64 * Bp (length t)) + 2 ^ 64 * (val a * val bs)) by ring.
    rewrite V. ring.
Qed.
Lemma nil_normal : normal [].
Proof. split; [constructor|cbn; lia]. Qed.
Lemma mpi_muli_ok : forall junk own d a vi, normal a -> u64 vi ->
  exists r, mpi_muli junk own d a vi = Some r /\ normal r /\ val r = val a * vi.
Proof.
  intros junk own d a vi [U N] V. unfold mpi_muli.
  destruct (Z.eqb_spec (zlen a) 0) as [E|E]; cbn [orb].
  { rewrite (zlen_zero _ _ E). exists []. split; [reflexivity|]. split; [apply nil_normal|reflexivity]. }
  destruct (Z.eqb_spec vi 0) as [->|F].
  { exists []. split; [reflexivity|]. split; [apply nil_normal|cbn [val]; lia]. }
  pose proof (srcok_resize junk own d a (zlen a + 1) ltac:(lia)) as S.
  assert (L : length (resize junk (if own then a else d) (zlen a + 1)) = Datatypes.S (length a)).
  { rewrite resize_len by (pose proof (zlen_nonneg _ a); lia). unfold zlen. lia. }
  set (d' := resize junk (if own then a else d) (zlen a + 1)) in *. clearbody d'.
  destruct (split_last d' _ L) as (m & z & -> & Lm).
  unfold zlen at 1. rewrite Nat2Z.id.
  destruct (muli_ok a [] m [z] (srcof own a) 0 0 vi 0) as (s & c & E1 & Ls & Us & Hc & Vs); auto.
  { unfold u64; lia. }
  cbn [app] in E1. rewrite E1.
  cbn [app]. rewrite store_top by (unfold zlen; lia).
  eexists. split; [reflexivity|].
  assert (Forall u64 (s ++ [c])) by (apply Forall_app; split; [exact Us|repeat constructor; apply Hc]).
  split; [apply relocation_normal; assumption|]. rewrite relocation_val, val_app, Ls. cbn [val]. lia.
Qed.
Lemma mpi_mul_ok : forall junk moved al d a b, normal a -> normal b -> (al = DestAB -> a = b) ->
  al = Distinct \/ al = DestAB \/ (length b <= 1)%nat -> mul_safe a b ->
  exists r, mpi_mul junk moved al d a b = Some r /\ normal r /\ val r = val a * val b.
Proof.
  intros junk moved al d a b Ha Hb Eab Al Safe. unfold mpi_mul.
  destruct (Z.eqb_spec (zlen a) 0) as [E|E].
  { rewrite (zlen_zero _ _ E). exists []. split; [reflexivity|]. split; [apply nil_normal|reflexivity]. }
  destruct (Z.eqb_spec (zlen b) 0) as [F|F].
  { rewrite (zlen_zero _ _ F). exists []. split; [reflexivity|]. split; [apply nil_normal|cbn [val]; lia]. }
  assert (Na : a <> []) by (intros ->; apply E; reflexivity).
  assert (Nb : b <> []) by (intros ->; apply F; reflexivity).
  destruct (Z.eqb_spec (zlen b) 1) as [G|G].
  { destruct b as [|y [|y2 b]]; [contradiction| |].
    - rewrite rd_cons0. destruct Hb as [Ub _]. conses.
      destruct (mpi_muli_ok junk (isA al) (dest0 al d a [y]) a y Ha U) as (r & -> & Nr & Vr).
      exists r. split; [reflexivity|]. split; [exact Nr|]. cbn [val]. lia.
    - rewrite !zlen_cons in G. pose proof (zlen_nonneg _ b). lia. }
  assert (exists dd, (match al with DestAB => (Distinct, []) | _ => (al, dest0 al d a b) end) = (Distinct, dd)) as (dd & ->).
  { destruct Al as [->|[->|L]]; [eexists; reflexivity|eexists; reflexivity|].
    exfalso. assert (length b <> O) by (destruct b; [contradiction|discriminate]). unfold zlen in G. lia. }
  unfold stale. cbn [isA isB andb srcof].
  destruct (mpa_mul_ok a b (resize junk dd (zlen a + zlen b))) as (s & -> & Us & Vs); auto.
  - rewrite resize_len by (pose proof (zlen_nonneg _ a); pose proof (zlen_nonneg _ b); lia). unfold zlen. lia.
  - apply Ha.
  - apply Hb.
  - eexists. split; [reflexivity|]. split; [apply relocation_normal; exact Us|]. rewrite relocation_val. exact Vs.
Qed.

(** ** Division by a word *)
Lemma rds_resize : forall junk (own : bool) d a i, 0 <= i < zlen a ->
  rds (srcof own a) (resize junk (if own then a else d) (zlen a)) i = rd a i.
Proof.
  intros junk own d a i Hi. destruct (srcok_resize junk own d a (zlen a) ltac:(lia)) as [S _].
  specialize (S i Hi). exact S.
Qed.
Lemma mpi_divi_ok : forall junk own q r a vi, normal a -> 0 < vi < 2 ^ 64 ->
  exists ql rl, mpi_divi junk own q r a vi = Some (0, ql, rl) /\ normal ql /\ normal rl /\
    val ql = val a / vi /\ val rl = val a mod vi.
Proof.
  intros junk own q r a vi [U N] V. unfold mpi_divi.
  destruct (Z.eqb_spec vi 0); [lia|].
  destruct (Z.eqb_spec (zlen a) 0) as [E|E].
  { rewrite (zlen_zero _ _ E). exists [], []. split; [reflexivity|]. cbn [val].
    rewrite Z.div_0_l, Z.mod_0_l by lia. repeat split; try constructor; cbn; lia. }
  pose proof (rds_resize junk own q a) as S.
  assert (L : length (resize junk (if own then a else q) (zlen a)) = length a).
  { rewrite resize_len by (pose proof (zlen_nonneg _ a); lia). unfold zlen. lia. }
  set (d := resize junk (if own then a else q) (zlen a)) in *. clearbody d.
  unfold mpa_divmodi. rewrite S by (pose proof (zlen_nonneg _ a); lia).
  assert (Fin : forall t rr, Forall u64 t -> 0 <= rr < vi -> val t * vi + rr = val a ->
    normal (relocation t) /\ normal (mpi_seti rr) /\ val (relocation t) = val a / vi /\ val (mpi_seti rr) = val a mod vi).
  { intros t rr Ut Hr Ev. assert (Urr : u64 rr) by (unfold u64; lia). destruct (mpi_seti_ok rr Urr) as [A B].
    rewrite relocation_val, B. split; [apply relocation_normal; exact Ut|]. split; [exact A|].
    split; [apply Z.div_unique with rr; lia|apply Z.mod_unique with (val t); lia]. }
  assert (Ea : exists a1 x, a = a1 ++ [x]).
  { destruct (exists_last (l := a)) as (a1 & x & Ex); [intros ->; apply E; reflexivity|eauto]. }
  destruct Ea as (a1 & x & Ea).
  assert (Rx : rd a (zlen a - 1) = Some x).
  { rewrite Ea. apply rd_app_len. rewrite zlen_app, zlen_cons, zlen_nil. lia. }
  rewrite Rx. destruct (Z.leb_spec vi x).
  - unfold zlen. rewrite Nat2Z.id.
    destruct (divmodi_loop_ok (length a) a d [] (srcof own a) vi 0) as (t & rr & E1 & Lt & Ut & Hr & Vt); auto; try lia.
    { intros i Hi. rewrite app_nil_r. apply S. exact Hi. }
    rewrite !app_nil_r in E1. rewrite E1. exists (relocation t), (mpi_seti rr). split; [reflexivity|]. apply Fin; auto.
  - destruct (split_at _ (length a1) d) as (m & z & -> & Lm & Lz); [rewrite L, Ea, app_length; cbn [length]; lia|].
    assert (La : length a = Datatypes.S (length a1)) by (rewrite Ea, app_length; cbn [length]; lia).
    destruct z as [|z [|]]; cbn [length] in Lz; try lia.
    rewrite store_top by (unfold zlen; lia).
    replace (Z.to_nat (zlen a - 1)) with (length a1) by (unfold zlen; lia).
    rewrite Ea in U. apply Forall_app in U. destruct U as [Ua1 Ux]. conses.
    destruct (divmodi_loop_ok (length a1) a1 m [0] (srcof own a) vi x) as (t & rr & E1 & Lt & Ut & Hr & Vt); auto; try lia.
    { unfold u64 in U. lia. }
    { intros i Hi. specialize (S i ltac:(unfold zlen; lia)). rewrite Ea in S at 2. rewrite rd_app1 in S by (unfold zlen; lia).
      rewrite <- S. destruct (srcof own a); [reflexivity|]. cbn [rds]. rewrite !rd_app1 by (unfold zlen; lia). reflexivity. }
    rewrite E1. exists (relocation (t ++ [0])), (mpi_seti rr). split; [reflexivity|]. apply Fin; auto.
    + apply Forall_app. split; [assumption|repeat constructor; unfold u64; lia].
    + rewrite Ea, !val_app. cbn [val]. rewrite Lt. lia.
Qed.
Lemma mpi_modi_ok : forall r a vi, normal a -> 0 < vi < 2 ^ 64 ->
  exists rl, mpi_modi r a vi = Some (0, rl) /\ normal rl /\ val rl = val a mod vi.
Proof.
  intros r a vi [U N] V. unfold mpi_modi.
  destruct (Z.eqb_spec vi 0); [lia|].
  destruct (Z.eqb_spec (zlen a) 0) as [E|E].
  { rewrite (zlen_zero _ _ E). exists []. split; [reflexivity|]. cbn [val]. rewrite Z.mod_0_l by lia. split; [apply nil_normal|reflexivity]. }
  assert (Ea : exists a1 x, a = a1 ++ [x]).
  { destruct (exists_last (l := a)) as (a1 & x & Ex); [intros ->; apply E; reflexivity|eauto]. }
  destruct Ea as (a1 & x & Ea).
  assert (Rx : rd a (zlen a - 1) = Some x).
  { rewrite Ea. apply rd_app_len. rewrite zlen_app, zlen_cons, zlen_nil. lia. }
  unfold mpa_modi. rewrite Rx.
  assert (Um : u64 (val a mod vi)) by (pose proof (Z.mod_pos_bound (val a) vi ltac:(lia)); unfold u64; lia).
  destruct (mpi_seti_ok _ Um) as [A B].
  exists (mpi_seti (val a mod vi)). split; [|split; assumption].
  destruct (Z.leb_spec vi x).
  - unfold zlen. rewrite Nat2Z.id. pose proof (modi_loop_ok (length a) a [] vi 0 eq_refl U V ltac:(lia)) as M.
    rewrite app_nil_r in M. rewrite M. reflexivity.
  - assert (La : length a = Datatypes.S (length a1)) by (rewrite Ea, app_length; cbn [length]; lia).
    replace (Z.to_nat (zlen a - 1)) with (length a1) by (unfold zlen; lia).
    rewrite Ea in U. apply Forall_app in U. destruct U as [Ua1 Ux]. conses.
    pose proof (modi_loop_ok (length a1) a1 [x] vi x eq_refl Ua1 V ltac:(unfold u64 in *; lia)) as M.
    rewrite Ea at 1. rewrite M. do 3 f_equal. rewrite Ea, val_app. cbn [val]. f_equal. lia.
Qed.
