(** * Proofs about the bitwise operations of multi precision integers *)
From Verif Require Import Lib BitsModel MpiModel MpiSpec MpiProofs MpiProofs2 BitmapModel BitmapSpec BitmapProofs BitmapProps MpiBitsModel.
Ltac Zify.zify_post_hook ::= Z.div_mod_to_equations.

(** ** Values and bits *)
Lemma mbit_cons : forall x l i, 0 <= i -> mbit (x :: l) 0 i = if i <? 64 then Z.testbit x i else mbit l 0 (i - 64).
Proof.
  intros x l i Hi. unfold mbit. rewrite !Z.add_0_l. destruct (Z.ltb_spec i 64).
  - replace (i / 64) with 0 by lia. rewrite rd_cons0. f_equal. lia.
  - replace (i / 64) with ((i - 64) / 64 + 1) by lia. rewrite rd_cons_succ by lia.
    replace ((i - 64) mod 64) with (i mod 64) by lia. reflexivity.
Qed.
Lemma mbit_nil : forall b i, mbit [] b i = false.
Proof. intros b i. unfold mbit, rd. destruct (_ <? 0); [reflexivity|]. destruct (Z.to_nat _); reflexivity. Qed.
Lemma val_bit : forall l, Forall u64 l -> forall i, 0 <= i -> Z.testbit (val l) i = mbit l 0 i.
Proof.
  induction 1 as [|x l Hx Hl IH]; intros i Hi.
  - rewrite mbit_nil. cbn [val]. apply Z.testbit_0_l.
  - cbn [val]. rewrite mbit_cons by assumption. unfold u64 in Hx.
    replace (x + 2 ^ 64 * val l) with (val l * 2 ^ 64 + x) by ring.
    destruct (Z.ltb_spec i 64).
    + rewrite <- (Z.mod_pow2_bits_low _ 64 i) by lia.
      replace ((val l * 2 ^ 64 + x) mod 2 ^ 64) with x; [reflexivity|].
      rewrite Z.add_comm, Z.mod_add by lia. rewrite Z.mod_small; lia.
    + rewrite <- IH by lia. replace i with ((i - 64) + 64) at 1 by lia.
      rewrite <- Z.div_pow2_bits by lia. f_equal. rewrite Z.div_add_l by lia. rewrite Z.div_small by lia. lia.
Qed.
Lemma mbit_out : forall l i, 64 * zlen l <= i -> mbit l 0 i = false.
Proof.
  intros l i Hi. unfold mbit. rewrite Z.add_0_l. destruct (rd l (i / 64)) eqn:E; [|reflexivity].
  apply rd_range in E. lia.
Qed.
Lemma mbit_same : forall m m' b b' i, rd m (b + i / 64) = rd m' (b' + i / 64) -> mbit m b i = mbit m' b' i.
Proof. intros m m' b b' i E. unfold mbit. rewrite E. reflexivity. Qed.

(** ** The layout *)
Lemma zlen_resize : forall junk l n, 0 <= n -> zlen (resize junk l n) = n.
Proof.
  intros junk l n Hn. unfold resize, zlen. rewrite app_length, repeat_length, firstn_length. lia.
Qed.
Lemma rd_resize : forall junk l n k, 0 <= k < n -> k < zlen l -> rd (resize junk l n) k = rd l k.
Proof.
  intros junk l n k Hk Hl. unfold resize. unfold zlen in Hl. unfold rd.
  destruct (Z.ltb_spec k 0); [lia|]. rewrite nth_error_app1 by (rewrite firstn_length; lia).
  rewrite <- (firstn_skipn (Z.to_nat n) l) at 2. rewrite nth_error_app1 by (rewrite firstn_length; lia). reflexivity.
Qed.
Lemma u64_firstn : forall n l, Forall u64 l -> Forall u64 (firstn n l).
Proof. intros n l H. rewrite <- (firstn_skipn n l) in H. apply Forall_app in H. tauto. Qed.
Lemma u64_resize : forall junk l n, u64 junk -> Forall u64 l -> Forall u64 (resize junk l n).
Proof.
  intros junk l n Hj Hl. unfold resize. apply Forall_app. split; [apply u64_firstn; assumption|].
  apply Forall_forall. intros x Hx. apply repeat_spec in Hx. subst. assumption.
Qed.
Lemma u64_dest0 : forall al d a b, Forall u64 d -> Forall u64 a -> Forall u64 b -> Forall u64 (dest0 al d a b).
Proof. intros []; cbn [dest0]; auto. Qed.
Lemma u64_layout : forall al d a b, Forall u64 d -> Forall u64 a -> Forall u64 b -> Forall u64 (layout al d a b).
Proof.
  intros al d a b Hd Ha Hb. unfold layout. apply Forall_app. split; [assumption|]. apply Forall_app.
  split; [destruct (isA al)|destruct (isB al)]; auto.
Qed.
Lemma zlen_app : forall A (a b : list A), zlen (a ++ b) = zlen a + zlen b.
Proof. intros. unfold zlen. rewrite app_length. lia. Qed.
Lemma layA : forall junk al d a b n k, (al = DestAB -> a = b) -> 0 <= k < zlen a -> k < n ->
  let r := resize junk (dest0 al d a b) n in rd (layout al r a b) (posA al r + k) = rd a k.
Proof.
  intros junk al d a b n k AB Hk Hn r. subst r. set (r := resize _ _ _).
  assert (L : zlen r = n) by (apply zlen_resize; lia). unfold layout, posA.
  destruct al; cbn [isA isB dest0] in *; rewrite ?app_nil_l, ?app_nil_r.
  - rewrite rd_app2 by lia. rewrite rd_app1 by lia. f_equal; lia.
  - rewrite rd_app1 by lia. unfold r. rewrite rd_resize by lia. f_equal; lia.
  - rewrite rd_app2 by lia. f_equal; lia.
  - unfold r. rewrite rd_resize by lia. f_equal; lia.
Qed.
Lemma layB : forall junk al d a b n k, (al = DestAB -> a = b) -> 0 <= k < zlen b -> k < n ->
  let r := resize junk (dest0 al d a b) n in rd (layout al r a b) (posB al r a + k) = rd b k.
Proof.
  intros junk al d a b n k AB Hk Hn r. subst r. set (r := resize _ _ _).
  assert (L : zlen r = n) by (apply zlen_resize; lia). pose proof (Zle_0_nat (length a)) as La. fold (zlen a) in La.
  unfold layout, posB.
  destruct al; cbn [isA isB dest0] in *; rewrite ?app_nil_l, ?app_nil_r.
  - rewrite rd_app2 by lia. rewrite rd_app2 by lia. f_equal; lia.
  - rewrite rd_app2 by lia. f_equal; lia.
  - rewrite rd_app1 by lia. unfold r. rewrite rd_resize by lia. f_equal; lia.
  - unfold r. rewrite <- (AB eq_refl) in *. rewrite rd_resize by lia. f_equal; lia.
Qed.
(** Sources lie in memory and are the destination or apart from it. *)
Lemma lay_pre : forall junk al d a b n k, (al = DestAB -> a = b) -> 0 <= k <= zlen a -> k <= zlen b -> k <= n -> k * 64 <= 2 ^ 32 - 64 ->
  u64 junk -> Forall u64 d -> Forall u64 a -> Forall u64 b ->
  let r := resize junk (dest0 al d a b) n in bm_pre (layout al r a b) 0 [posA al r; posB al r a] (k * 64).
Proof.
  intros junk al d a b n k AB Hk Hb Hn K Uj Ud Ua Ub r.
  assert (L : zlen r = n) by (apply zlen_resize; lia).
  assert (N : nwords (k * 64) = k) by (unfold nwords; lia).
  split; [apply u64_layout; auto; apply u64_resize; auto; apply u64_dest0; auto|]. split; [lia|].
  assert (ZN : forall l : list Z, 0 <= zlen l) by (intros; unfold zlen; lia).
  assert (Z0 : zlen (@nil Z) = 0) by reflexivity.
  unfold in_mem, same_or_disjoint. rewrite N. unfold posA, posB, layout. rewrite !zlen_app, L.
  pose proof (ZN a). pose proof (ZN b).
  split; [destruct al; cbn [isA isB]; rewrite ?Z0; lia|]. apply Forall_cons; [|apply Forall_cons; [|constructor]].
  - destruct al; cbn [isA isB]; rewrite ?Z0; lia.
  - destruct al; cbn [isA isB]; rewrite ?Z0; lia.
Qed.

Lemma mbit_taken : forall n m i, 0 <= n <= zlen m -> 0 <= i < 64 * n -> mbit (taken n m) 0 i = mbit m 0 i.
Proof.
  intros n m i Hn Hi. apply mbit_same. unfold taken. rewrite <- (firstn_skipn (Z.to_nat n) m) at 2.
  symmetry. apply rd_app1. unfold zlen in *. rewrite firstn_length. lia.
Qed.
Lemma zlen_taken : forall n m, 0 <= n <= zlen m -> zlen (taken n m) = n.
Proof. intros n m Hn. unfold taken, zlen in *. rewrite firstn_length. lia. Qed.
Lemma zlen_layout : forall al d a b, zlen d <= zlen (layout al d a b).
Proof. intros. unfold layout. rewrite !zlen_app. unfold zlen. lia. Qed.

(** ** and *)
Lemma mpi_and_ok : forall junk al d a b, (al = DestAB -> a = b) -> u64 junk -> Forall u64 d -> Forall u64 a -> Forall u64 b ->
  Z.min (zlen a) (zlen b) < 2 ^ 26 ->
  exists r, mpi_and junk al d a b = Some r /\ val r = Z.land (val a) (val b) /\ normal r.
Proof.
  intros junk al d a b AB Uj Ud Ua Ub Hl. unfold mpi_and. set (n := Z.min (zlen a) (zlen b)) in *.
  assert (Hn : 0 <= n) by (unfold n, zlen; lia).
  assert (Hw : w32 (n * 64) = n * 64) by (unfold w32; apply Z.mod_small; lia).
  destruct (Z.eqb_spec n 0) as [E|E].
  - exists []. split; [reflexivity|]. split; [|split; [constructor|cbn; lia]].
    cbn [val]. assert (a = [] \/ b = []) as [-> | ->].
    { unfold n, zlen in E. destruct a, b; cbn [length] in E; auto; lia. }
    + cbn [val]. rewrite Z.land_0_l. reflexivity.
    + cbn [val]. rewrite Z.land_0_r. reflexivity.
  - rewrite Hw.
    pose proof (lay_pre junk al d a b n n AB ltac:(unfold n; lia) ltac:(unfold n; lia) ltac:(lia) ltac:(lia) Uj Ud Ua Ub) as P.
    pose proof (layA junk al d a b n) as PA. pose proof (layB junk al d a b n) as PB. cbv zeta in *.
    set (dd := resize junk (dest0 al d a b) n) in *.
    destruct (C18_and _ _ _ _ _ P) as (m' & fl & -> & (Lm & Um & Bm & _) & _). cbn [fst].
    assert (Ld : zlen dd = n) by (apply zlen_resize; lia).
    pose proof (zlen_layout al dd a b) as LL.
    assert (Ut : Forall u64 (taken n m')) by (apply u64_firstn; assumption).
    eexists. split; [reflexivity|]. split; [|apply relocation_normal; assumption].
    rewrite relocation_val. apply Z.bits_inj'. intros i Hi.
    rewrite Z.land_spec, !val_bit by assumption.
    destruct (Z.ltb_spec i (64 * n)).
    + rewrite mbit_taken by lia. rewrite Bm by lia.
      rewrite (mbit_same _ a (posA al dd) 0 i) by (rewrite Z.add_0_l; apply PA; unfold n in *; auto; lia).
      rewrite (mbit_same _ b (posB al dd a) 0 i) by (rewrite Z.add_0_l; apply PB; unfold n in *; auto; lia).
      reflexivity.
    + rewrite mbit_out by (rewrite zlen_taken by lia; lia).
      destruct (Z.leb_spec (zlen a) (zlen b)).
      * rewrite (mbit_out a) by (unfold n in *; lia). reflexivity.
      * rewrite (mbit_out b) by (unfold n in *; lia). rewrite andb_false_r. reflexivity.
Qed.

(** ** or, xor *)
Lemma copy_limbs_spec : forall n m ps pa, 0 <= ps -> 0 <= pa -> ps + Z.of_nat n <= zlen m -> pa + Z.of_nat n <= zlen m ->
  (ps = pa \/ ps + Z.of_nat n <= pa) -> Forall u64 m ->
  exists m', copy_limbs n m ps pa = Some m' /\ zlen m' = zlen m /\ Forall u64 m' /\
    (forall k, 0 <= k < Z.of_nat n -> rd m' (ps + k) = rd m (pa + k)) /\
    (forall k, ~ (ps <= k < ps + Z.of_nat n) -> rd m' k = rd m k).
Proof.
  induction n as [|n IH]; intros m ps pa H1 H2 H3 H4 H5 U; cbn [copy_limbs].
  - exists m. repeat split; auto. intros k Hk. lia.
  - destruct (rd_some _ m pa ltac:(lia)) as (x & Ex). rewrite Ex.
    destruct (wr_spec _ m ps x) as (m1 & E1 & L1 & R1); [lia|]. rewrite E1.
    assert (U1 : Forall u64 m1). { eapply wr_u64; eauto. eapply rd_u64; eauto. }
    destruct (IH m1 (ps + 1) (pa + 1)) as (m' & E & L & Um & C & O); try lia; auto.
    exists m'. split; [exact E|]. split; [lia|]. split; [exact Um|]. split.
    + intros k Hk. destruct (Z.eq_dec k 0) as [-> |Nk].
      * rewrite O by lia. rewrite !Z.add_0_r. rewrite R1, Z.eqb_refl. congruence.
      * replace (ps + k) with (ps + 1 + (k - 1)) by lia. rewrite C by lia. rewrite R1.
        destruct (Z.eqb_spec (pa + 1 + (k - 1)) ps) as [Q|Q]; [lia|]. f_equal. lia.
    + intros k Hk. rewrite O by lia. rewrite R1. destruct (Z.eqb_spec k ps); [lia|reflexivity].
Qed.

Section Merge.
Variable comp : list Z -> Z -> Z -> Z -> Z -> option (list Z).
Variable f : bool -> bool -> bool.
Hypothesis comp_ok : forall m d s1 s2 bits, bm_pre m d [s1; s2] bits ->
  exists m', comp m d s1 s2 bits = Some m' /\ bitmap_is m d bits (fun i => f (mbit m s1 i) (mbit m s2 i)) m'.
Hypothesis f_l : forall x, f false x = x.
Hypothesis f_r : forall x, f x false = x.

Lemma merge_ok : forall junk al d a b, (al = DestAB -> a = b) -> u64 junk -> Forall u64 d -> Forall u64 a -> Forall u64 b ->
  Z.min (zlen a) (zlen b) < 2 ^ 26 ->
  exists r, merge comp junk al d a b = Some r /\ zlen r = Z.max (zlen a) (zlen b) /\ Forall u64 r /\
    forall i, 0 <= i -> mbit r 0 i = f (mbit a 0 i) (mbit b 0 i).
Proof.
  intros junk al d a b AB Uj Ud Ua Ub Hl. unfold merge. set (n := Z.min (zlen a) (zlen b)) in *.
  set (t := Z.max (zlen a) (zlen b)) in *.
  assert (Hn : 0 <= n) by (unfold n, zlen; lia).
  assert (Hw : w32 (n * 64) = n * 64) by (unfold w32; apply Z.mod_small; lia).
  rewrite Hw.
  pose proof (lay_pre junk al d a b t n AB ltac:(unfold n; lia) ltac:(unfold n; lia) ltac:(unfold n, t; lia) ltac:(lia) Uj Ud Ua Ub) as P.
  pose proof (layA junk al d a b t) as PA. pose proof (layB junk al d a b t) as PB. cbv zeta in *.
  set (dd := resize junk (dest0 al d a b) t) in *.
  destruct (comp_ok _ _ _ _ _ P) as (m' & -> & (Lm & Um & Bm & _ & Om)).
  assert (Ld : zlen dd = t) by (apply zlen_resize; unfold n, t in *; lia).
  pose proof (zlen_layout al dd a b) as LL.
  assert (Nn : nwords (n * 64) = n) by (unfold nwords; lia). rewrite Nn in Om.
  destruct P as (_ & _ & _ & PP). apply Forall_cons_iff in PP. destruct PP as [[[PA0 _] _] PP].
  apply Forall_cons_iff in PP. destruct PP as [[[PB0 _] _] _].
  (* the longer operand *)
  assert (X : exists pl l, (if zlen a <? zlen b then (posB al dd a, zlen b, zlen a) else (posA al dd, zlen a, zlen b)) = (pl, t, n) /\
            zlen l = t /\ 0 <= pl /\ (forall k, 0 <= k < t -> rd (layout al dd a b) (pl + k) = rd l k) /\ (pl = 0 \/ t <= pl) /\
            (forall i, 64 * n <= i -> mbit l 0 i = f (mbit a 0 i) (mbit b 0 i))).
  { assert (La : 0 <= zlen a) by (unfold zlen; lia). assert (Lb : 0 <= zlen b) by (unfold zlen; lia).
    destruct (Z.ltb_spec (zlen a) (zlen b)).
    - exists (posB al dd a), b. split; [unfold t, n; f_equal; [f_equal|]; lia|]. split; [unfold t; lia|]. split; [exact PB0|].
      split; [intros k Hk; apply PB; unfold t in *; auto; lia|]. split; [unfold posB; rewrite Ld; destruct al; cbn [isA isB]; lia|].
      intros i Hi. rewrite (mbit_out a) by (unfold n in *; lia). rewrite f_l. reflexivity.
    - exists (posA al dd), a. split; [unfold t, n; f_equal; [f_equal|]; lia|]. split; [unfold t; lia|]. split; [exact PA0|].
      split; [intros k Hk; apply PA; unfold t in *; auto; lia|]. split; [unfold posA; rewrite Ld; destruct al; cbn [isA isB]; lia|].
      intros i Hi. rewrite (mbit_out b) by (unfold n in *; lia). rewrite f_r. reflexivity. }
  destruct X as (pl & l & -> & Ll & Hp & Wl & Pl & Bl).
  assert (Hnt : n <= t) by (unfold n, t; lia).
  assert (In : n < t -> pl + t <= zlen (layout al dd a b)).
  { intros Q. destruct (rd_some _ l (t - 1) ltac:(lia)) as (x & Ex). rewrite <- Wl in Ex by lia. apply rd_range in Ex. lia. }
  destruct (Z.eq_dec n t) as [Et|Nt].
  { replace (Z.to_nat (t - n)) with 0%nat by lia. cbn [copy_limbs]. eexists. split; [reflexivity|].
    split; [apply zlen_taken; lia|]. split; [apply u64_firstn; assumption|]. intros i Hi.
    destruct (Z.ltb_spec i (64 * n)).
    - rewrite mbit_taken by lia. rewrite Bm by lia.
      rewrite (mbit_same _ a (posA al dd) 0 i) by (rewrite Z.add_0_l; apply PA; unfold n in *; auto; lia).
      rewrite (mbit_same _ b (posB al dd a) 0 i) by (rewrite Z.add_0_l; apply PB; unfold n in *; auto; lia).
      reflexivity.
    - rewrite <- Bl by assumption. rewrite !mbit_out; [reflexivity|lia|rewrite zlen_taken by lia; lia]. }
  destruct (copy_limbs_spec (Z.to_nat (t - n)) m' n (pl + n)) as (m2 & -> & L2 & U2 & C2 & O2); try assumption; try lia.
  eexists. split; [reflexivity|].
  split; [apply zlen_taken; lia|]. split; [apply u64_firstn; assumption|]. intros i Hi.
  destruct (Z.ltb_spec i (64 * n)).
  - rewrite mbit_taken by lia. rewrite (mbit_same m2 m' 0 0 i) by (apply O2; lia). rewrite Bm by lia.
    rewrite (mbit_same _ a (posA al dd) 0 i) by (rewrite Z.add_0_l; apply PA; unfold n in *; auto; lia).
    rewrite (mbit_same _ b (posB al dd a) 0 i) by (rewrite Z.add_0_l; apply PB; unfold n in *; auto; lia).
    reflexivity.
  - rewrite <- Bl by assumption. destruct (Z.ltb_spec i (64 * t)).
    + rewrite mbit_taken by lia. apply mbit_same. rewrite !Z.add_0_l.
      replace (i / 64) with (n + (i / 64 - n)) at 1 by lia. rewrite C2 by lia.
      rewrite Om by lia. rewrite <- Wl by lia. f_equal. lia.
    + rewrite !mbit_out; [reflexivity|lia|rewrite zlen_taken by lia; lia].
Qed.
End Merge.

Lemma mpi_xor_ok : forall junk al d a b, (al = DestAB -> a = b) -> u64 junk -> Forall u64 d -> Forall u64 a -> Forall u64 b ->
  Z.min (zlen a) (zlen b) < 2 ^ 26 ->
  exists r, mpi_xor junk al d a b = Some r /\ val r = Z.lxor (val a) (val b) /\ normal r.
Proof.
  intros junk al d a b AB Uj Ud Ua Ub Hl. unfold mpi_xor. destruct (Z.eqb_spec (Z.max (zlen a) (zlen b)) 0) as [E|E].
  - exists []. split; [reflexivity|]. split; [|split; [constructor|cbn; lia]].
    unfold zlen in E. destruct a, b; cbn [length] in E; try lia. reflexivity.
  - destruct (merge_ok comp_xor xorb C18_xor xorb_false_l xorb_false_r junk al d a b) as (r & -> & L & U & B); auto.
    eexists. split; [reflexivity|]. split; [|apply relocation_normal; assumption].
    rewrite relocation_val. apply Z.bits_inj'. intros i Hi. rewrite Z.lxor_spec, !val_bit by assumption. auto.
Qed.
Lemma mpi_or_ok : forall junk al d a b, (al = DestAB -> a = b) -> u64 junk -> Forall u64 d -> normal a -> normal b ->
  Z.min (zlen a) (zlen b) < 2 ^ 26 ->
  exists r, mpi_or junk al d a b = Some r /\ val r = Z.lor (val a) (val b) /\ normal r.
Proof.
  intros junk al d a b AB Uj Ud Na Nb Hl. pose proof (proj1 Na) as Ua. pose proof (proj1 Nb) as Ub.
  unfold mpi_or. destruct (Z.eqb_spec (Z.max (zlen a) (zlen b)) 0) as [E|E].
  - exists []. split; [reflexivity|]. split; [|split; [constructor|cbn; lia]].
    unfold zlen in E. destruct a, b; cbn [length] in E; try lia. reflexivity.
  - destruct (merge_ok comp_or orb C18_or) with (junk := junk) (al := al) (d := d) (a := a) (b := b) as (r & -> & L & U & B); auto.
    { intros []; reflexivity. }
    assert (V : val r = Z.lor (val a) (val b)).
    { apply Z.bits_inj'. intros i Hi. rewrite Z.lor_spec, !val_bit by assumption. auto. }
    assert (Nr : normal r).
    { pose proof (relocation_normal r U) as N1. pose proof (relocation_val r) as V1.
      assert (Q : (length r <= length (relocation r))%nat).
      { destruct (le_lt_dec (length r) (length (relocation r))) as [|Q]; [assumption|exfalso].
        pose proof (val_range a Ua) as Ra. pose proof (val_range b Ub) as Rb.
        assert (V2 : val a <= val r /\ val b <= val r).
        { rewrite V. split; [|rewrite Z.lor_comm]; apply Z.ldiff_le; try (apply Z.lor_nonneg; lia);
            apply Z.bits_inj'; intros i Hi; rewrite Z.ldiff_spec, Z.lor_spec, Z.bits_0;
            destruct (Z.testbit (val a) i), (Z.testbit (val b) i); reflexivity. }
        unfold zlen in L, E. destruct (Z.leb_spec (Z.of_nat (length b)) (Z.of_nat (length a))).
        - pose proof (normal_shorter (relocation r) a N1 Na ltac:(lia)). lia.
        - pose proof (normal_shorter (relocation r) b N1 Nb ltac:(lia)). lia. }
      destruct N1 as [_ N1]. clear - Q N1 U. split; [exact U|].
      assert (R : forall l, (length l <= length (relocation l))%nat -> relocation l = l).
      { induction l as [|x l IH]; intros Hl; [reflexivity|]. cbn [relocation length] in *.
        destruct (relocation l) as [|y q] eqn:Er.
        - destruct (Z.eqb_spec x 0); cbn [length] in Hl; [lia|]. destruct l; [reflexivity|]. cbn [length] in Hl. lia.
        - cbn [length] in Hl. rewrite IH by (cbn [length]; lia). reflexivity. }
      rewrite <- (R r Q) at 1. exact N1. }
    rewrite (normal_relocation r (proj2 Nr)), Z.eqb_refl. eauto.
Qed.
