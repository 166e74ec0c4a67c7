(** * Proofs about the unsigned operations, second part *)
From Verif Require Import Lib BitsModel DwordModel DwordSpec DwordProofs MpiModel MpiSpec MpiProofs MpiProofs2.
Ltac Zify.zify_post_hook ::= Z.div_mod_to_equations.

Lemma resize_len : forall junk d n, 0 <= n -> length (resize junk d n) = Z.to_nat n.
Proof. intros. unfold resize. rewrite app_length, firstn_length, repeat_length. lia. Qed.
Lemma srcok_resize : forall junk (own : bool) d a n, zlen a <= n ->
  srcok (srcof own a) (resize junk (if own then a else d) n) 0 0 a.
Proof.
  intros junk own d a n H. destruct own; cbn [srcof].
  - unfold resize. rewrite firstn_all2 by (unfold zlen in H; lia).
    apply (srcok_own [] a). reflexivity.
  - apply srcok_ext with (b := []). rewrite app_nil_r. reflexivity.
Qed.
Lemma srcok_B : forall junk al d a b n, (al = DestAB -> a = b) -> zlen b <= n ->
  srcok (srcof (isB al) b) (resize junk (dest0 al d a b) n) 0 0 b.
Proof.
  intros junk al d a b n E H.
  destruct al; cbn [isB srcof dest0].
  1, 2: apply srcok_ext with (b := []); rewrite app_nil_r; reflexivity.
  - apply (srcok_resize junk true d b n H).
  - rewrite E by reflexivity. apply (srcok_resize junk true d b n H).
Qed.
Lemma srcok_A : forall junk al d a b n, zlen a <= n ->
  srcok (srcof (isA al) a) (resize junk (dest0 al d a b) n) 0 0 a.
Proof.
  intros junk al d a b n H. destruct al; cbn [isA srcof dest0].
  1, 3: apply srcok_ext with (b := []); rewrite app_nil_r; reflexivity.
  all: apply (srcok_resize junk true d a n H).
Qed.
Lemma split_last : forall (d : list Z) n, length d = S n -> exists m z, d = m ++ [z] /\ length m = n.
Proof.
  intros d n H. destruct (split_at _ n d) as (m & z & -> & L1 & L2); [lia|].
  destruct z as [|z [|]]; cbn [length] in *; try lia. eauto.
Qed.

Lemma mpa_addi_ok : forall own l a m q vi, a <> [] -> length m = length a -> Forall u64 a -> u64 vi ->
  srcok (srcof own l) (m ++ q) 0 0 a ->
  wrote (mpa_addi (m ++ q) (srcof own l) 0 0 vi (zlen a)) [] q (length a)
    (fun s c => (c = 0 \/ c = 1) /\
      val s + c * Bp (length a) + (if own && carry_twice a vi then 2 ^ 64 * 2 ^ 64 else 0) = val a + vi).
Proof.
  intros own l [|x a] [|z m] q vi N L U V S; try contradiction; try discriminate.
  unfold mpa_addi. rewrite (srcok_head _ _ _ _ _ _ S). conses.
  pose proof (step_addi x vi U0 V) as St. set (v := w64 (x + vi)) in *. assert (Uv : u64 v) by apply w64_range.
  pose proof (wr_next [] m q z v 0 eq_refl) as W. cbn [app] in W.
  cbn [app]. rewrite W. pose proof (srcok_tail _ _ _ _ _ _ _ _ S W) as S'. clear W S.
  replace (zlen (x :: a) - 1) with (zlen a) by (rewrite zlen_cons; lia).
  unfold zlen. rewrite Nat2Z.id. cbn [length].
  apply wrote_cons with (v := v); [exact Uv|]. cbn [app].
  destruct own; cbn [srcof andb] in *.
  - (* in place *)
    destruct a as [|y t], m as [|z2 m]; try discriminate.
    + cbn [length addi_loop]. apply (wrote_nil [v] q). cbn [val Bp carry_twice]. pose proof (b2z_01 (v <? x)). lia.
    + conses. cbn [length addi_loop]. cbn [rds].
      change (v :: (z2 :: m) ++ q) with ([v] ++ (z2 :: m) ++ q).
      pose proof (srcok_head _ _ _ _ _ _ S') as R. cbn [rds] in R. change (v :: (z2 :: m) ++ q) with ([v] ++ (z2 :: m) ++ q) in R.
      change (0 + 1) with 1 in *. rewrite R.
      pose proof (step_addc y (b2z (v <? x)) U1 (b2z_01 _)) as St2.
      set (c := b2z (v <? x)) in *. set (w := w64 (y + c)) in *.
      pose proof (wr_next [v] m q z2 w 1 eq_refl) as W. rewrite W.
      pose proof (srcok_tail _ _ _ _ _ _ _ _ S' W) as S2.
      replace (rd (([v] ++ [w]) ++ m ++ q) 1) with (Some w) by reflexivity.
      rewrite Z.ltb_irrefl. cbn [b2z]. change (1 + 1) with 2 in *.
      apply wrote_cons with (v := w); [apply w64_range|].
      eapply wrote_imp.
      { apply addi_loop_own0; try assumption; [cbn [length] in L; lia|reflexivity]. }
      cbv beta. intros s c' _ _ [-> E]. split; [auto|]. cbn [val Bp carry_twice].
      assert (T : (if (2 ^ 64 <=? x + vi) && (y =? 2 ^ 64 - 1) then 2 ^ 64 * 2 ^ 64 else 0) = 2 ^ 64 * (2 ^ 64 * b2z (w <? y))).
      { subst w c v. clear - St St2 U0 V U1. unfold u64 in *. pose proof (w64_range (x + vi)) as R1.
        pose proof (w64_range (y + b2z (w64 (x + vi) <? x))) as R2.
        unfold b2z in *. destruct (Z.leb_spec (2 ^ 64) (x + vi)), (Z.ltb_spec (w64 (x + vi)) x); try lia; cbn [andb].
        - destruct (Z.eqb_spec y (2 ^ 64 - 1)), (Z.ltb_spec (w64 (y + 1)) y); try lia.
        - destruct (Z.ltb_spec (w64 (y + 0)) y); lia. }
      rewrite T. lia.
  - eapply wrote_imp.
    { apply (addi_loop_ext a [v] m q l); try assumption; [cbn [length] in L; lia|reflexivity|apply b2z_01]. }
    cbv beta. intros s c _ _ [Hc E]. split; [exact Hc|]. cbn [val Bp]. lia.
Qed.
Lemma c01_u64 : forall c, c = 0 \/ c = 1 -> u64 c.
Proof. unfold u64. intros. lia. Qed.
Lemma mpi_seti_ok : forall vi, u64 vi -> normal (mpi_seti vi) /\ val (mpi_seti vi) = vi.
Proof.
  intros vi H. unfold mpi_seti. destruct (Z.eqb_spec vi 0).
  - subst. split; [split; [constructor|cbn; lia]|reflexivity].
  - split; [split; [repeat constructor; apply H|cbn; lia]|cbn [val]; lia].
Qed.
Lemma store_top : forall m (z v : Z) i, i = zlen m -> wr (m ++ [z]) i v = Some (m ++ [v]).
Proof. intros. apply wr_app_len. assumption. Qed.

Lemma mpi_addi_ok : forall junk own d a vi, normal a -> u64 vi ->
  exists r, mpi_addi junk own d a vi = Some r /\ normal r /\
    val r + (if own && carry_twice a vi then 2 ^ 64 * 2 ^ 64 else 0) = val a + vi.
Proof.
  intros junk own d a vi [U N] V. unfold mpi_addi.
  destruct (Z.eqb_spec (zlen a) 0) as [E|E].
  - rewrite (zlen_zero _ _ E). eexists. split; [reflexivity|]. destruct (mpi_seti_ok vi V) as [A B]. split; [exact A|].
    cbn [carry_twice val]. rewrite andb_false_r. lia.
  - assert (Na : a <> []) by (intros ->; apply E; reflexivity).
    pose proof (srcok_resize junk own d a (zlen a + 1) ltac:(lia)) as S.
    assert (L : length (resize junk (if own then a else d) (zlen a + 1)) = Datatypes.S (length a)).
    { rewrite resize_len by (pose proof (zlen_nonneg _ a); lia). unfold zlen. lia. }
    set (d' := resize junk (if own then a else d) (zlen a + 1)) in *. clearbody d'.
    destruct (split_last d' _ L) as (m & z & -> & Lm).
    destruct (mpa_addi_ok own a a m [z] vi Na Lm U V S) as (s & c & -> & Ls & Us & Hc & Vs).
    cbn [app]. rewrite store_top by (unfold zlen; lia).
    eexists. split; [reflexivity|].
    assert (Forall u64 (s ++ [c])) by (apply Forall_app; split; [exact Us|repeat constructor; apply c01_u64; exact Hc]).
    split; [apply relocation_normal; assumption|]. rewrite relocation_val, val_app, Ls. cbn [val]. lia.
Qed.
Definition add_lost (al : alias) (a b : list Z) : Z :=
  match a, b with
  | [], _ | _, [] => 0
  | _, [y] => if isA al && carry_twice a y then 2 ^ 64 * 2 ^ 64 else 0
  | _, _ => lost a b 0
  end.
Lemma add_lost_iff : forall al a b, Forall u64 a -> Forall u64 b -> (add_lost al a b = 0 <-> add_loses al a b = false).
Proof.
  intros al a b Ua Ub. unfold add_lost, add_loses.
  destruct a as [|x a]; [tauto|]. destruct b as [|y [|y2 b]]; [tauto| |].
  - destruct (isA al && carry_twice (x :: a) y); lia.
  - apply lost_iff; auto.
Qed.
Lemma add_lost_nonneg : forall al a b, 0 <= add_lost al a b.
Proof.
  intros. unfold add_lost. destruct a as [|x a]; [lia|]. destruct b as [|y [|y2 b]]; [lia| |].
  - destruct (isA al && carry_twice (x :: a) y); lia.
  - apply lost_nonneg.
Qed.
Lemma rd_top : forall A (x : A) l, rd (x :: l) 0 = Some x.
Proof. reflexivity. Qed.
Lemma mpi_add_ok : forall junk moved al d a b, normal a -> normal b -> (al = DestAB -> a = b) ->
  isB al && moved = false ->
  exists r, mpi_add junk moved al d a b = Some r /\ normal r /\ val r + add_lost al a b = val a + val b.
Proof.
  intros junk moved al d a b Ha Hb Eab Mv. unfold mpi_add.
  destruct (Z.eqb_spec (zlen a) 0) as [E|E].
  { rewrite (zlen_zero _ _ E). exists b. split; [|split; [exact Hb|cbn [add_lost val]; lia]].
    destruct (isB al); [reflexivity|]. unfold mpi_set. rewrite normal_relocation by apply Hb. reflexivity. }
  destruct (Z.eqb_spec (zlen b) 0) as [F|F].
  { rewrite (zlen_zero _ _ F). exists a. split; [|split; [exact Ha|unfold add_lost; destruct a; cbn [val]; lia]].
    destruct (isA al); [reflexivity|]. unfold mpi_set. rewrite normal_relocation by apply Ha. reflexivity. }
  assert (Na : a <> []) by (intros ->; apply E; reflexivity).
  destruct (Z.eqb_spec (zlen b) 1) as [G|G].
  { destruct b as [|y [|y2 b]].
    - exfalso. apply F. reflexivity.
    - rewrite rd_cons0. destruct Hb as [Ub _]. conses.
      destruct (mpi_addi_ok junk (isA al) (dest0 al d a [y]) a y Ha U) as (r & -> & Nr & Vr).
      exists r. split; [reflexivity|]. split; [exact Nr|]. cbn [val].
      unfold add_lost. destruct a as [|x a]; [contradiction|]. lia.
    - rewrite !zlen_cons in G. pose proof (zlen_nonneg _ b). lia. }
  unfold stale. rewrite Mv. cbn [andb]. destruct Ha as [Ua La], Hb as [Ub Lb].
  pose proof (srcok_A junk al d a b (Z.max (zlen a) (zlen b) + 1) ltac:(lia)) as SA.
  pose proof (srcok_B junk al d a b (Z.max (zlen a) (zlen b) + 1) Eab ltac:(lia)) as SB.
  assert (L : length (resize junk (dest0 al d a b) (Z.max (zlen a) (zlen b) + 1)) = S (Nat.max (length a) (length b))).
  { rewrite resize_len by (pose proof (zlen_nonneg _ a); lia). unfold zlen. lia. }
  set (d' := resize junk (dest0 al d a b) (Z.max (zlen a) (zlen b) + 1)) in *. clearbody d'.
  destruct (split_last d' _ L) as (m & z & -> & Lm).
  destruct (mpa_add_ok a b [] m [z] (srcof (isA al) a) (srcof (isB al) b) 0 0 0 0) as (s & c & E1 & Ls & Us & Hc & Vs); auto.
  cbn [app] in E1. rewrite E1.
  cbn [app]. rewrite store_top by (unfold zlen; lia).
  eexists. split; [reflexivity|].
  assert (Forall u64 (s ++ [c])) by (apply Forall_app; split; [exact Us|repeat constructor; apply c01_u64; exact Hc]).
  split; [apply relocation_normal; assumption|]. rewrite relocation_val, val_app, Ls. cbn [val].
  unfold add_lost. destruct a as [|x a]; [contradiction|]. destruct b as [|y [|y2 b]].
  - exfalso. apply F. reflexivity.
  - exfalso. apply G. reflexivity.
  - lia.
Qed.

Lemma mpi_subi_ok : forall junk own d a vi, normal a -> a <> [] -> u64 vi -> vi <= val a ->
  exists r, mpi_subi junk own d a vi = Some r /\ normal r /\ val r = val a - vi.
Proof.
  intros junk own d a vi [U N] Na V Le. unfold mpi_subi.
  destruct (Z.eqb_spec (zlen a) 0) as [E|E]; [exfalso; apply Na, zlen_zero, E|].
  pose proof (srcok_resize junk own d a (zlen a) ltac:(lia)) as S.
  assert (L : length (resize junk (if own then a else d) (zlen a)) = length a).
  { rewrite resize_len by (pose proof (zlen_nonneg _ a); lia). unfold zlen. lia. }
  set (d' := resize junk (if own then a else d) (zlen a)) in *. clearbody d'.
  destruct a as [|x a], d' as [|z m]; try contradiction; try discriminate.
  unfold mpa_subi. rewrite (srcok_head _ _ _ _ _ _ S). conses.
  pose proof (step_subi x vi U0 V) as St. set (v := w64 (x - vi)) in *. assert (Uv : u64 v) by apply w64_range.
  pose proof (wr_next [] m [] z v 0 eq_refl) as W. cbn [app] in W. rewrite app_nil_r in W. rewrite W.
  pose proof (srcok_tail _ _ _ _ _ _ _ _ S W) as S'. clear W S.
  replace (zlen (x :: a) - 1) with (zlen a) by (rewrite zlen_cons; lia).
  unfold zlen. rewrite Nat2Z.id.
  destruct (sub_tail_ok a [v] m [] (srcof own (x :: a)) 1 1 (b2z (x <? v))) as (s & c & E1 & Ls & Us & Hc & Vs); auto.
  { apply b2z_01. }
  { rewrite app_nil_r. exact S'. }
  rewrite !app_nil_r in E1. cbn [app] in E1. change (0 + 1) with 1. rewrite E1.
  assert (Uvs : Forall u64 (v :: s)) by (constructor; assumption).
  pose proof (val_range _ Uvs) as R. cbn [val length Bp] in R, Le. rewrite Ls in R.
  destruct Hc as [-> | ->].
  - cbn [Z.eqb]. eexists. split; [reflexivity|]. split; [apply relocation_normal; exact Uvs|].
    rewrite relocation_val. cbn [val]. lia.
  - exfalso. lia.
Qed.
Definition sub_lost (a b : list Z) : Z := match b with [] | [_] => 0 | _ => lostb a b 0 end.
Lemma sub_lost_iff : forall a b, Forall u64 a -> Forall u64 b -> (sub_lost a b = 0 <-> sub_loses a b = false).
Proof.
  intros a b Ua Ub. unfold sub_lost, sub_loses. destruct b as [|y [|y2 b]]; [tauto|tauto|]. apply lostb_iff; auto.
Qed.
Lemma mpi_sub_ok : forall junk moved al d a b, normal a -> normal b -> (al = DestAB -> a = b) ->
  isB al && moved && (zlen b <? zlen a) = false -> val b <= val a ->
  exists r, mpi_sub junk moved al d a b = Some r /\ normal r /\ val r = val a - val b + sub_lost a b.
Proof.
  intros junk moved al d a b Ha Hb Eab Mv Le. unfold mpi_sub.
  destruct (Z.eqb_spec (zlen b) 0) as [F|F].
  { rewrite (zlen_zero _ _ F). exists a. split; [|split; [exact Ha|cbn [sub_lost val]; lia]].
    destruct (isA al); [reflexivity|]. unfold mpi_set. rewrite normal_relocation by apply Ha. reflexivity. }
  assert (Nb : b <> []) by (intros ->; apply F; reflexivity).
  assert (Na : a <> []).
  { intros ->. pose proof (normal_pos b Hb Nb). cbn [val] in Le. lia. }
  destruct (Z.eqb_spec (zlen b) 1) as [G|G].
  { destruct b as [|y [|y2 b]].
    - contradiction.
    - rewrite rd_cons0. destruct Hb as [Ub _]. conses. cbn [val] in Le.
      destruct (mpi_subi_ok junk (isA al) (dest0 al d a [y]) a y Ha Na U) as (r & -> & Nr & Vr); [lia|].
      exists r. split; [reflexivity|]. split; [exact Nr|]. cbn [val sub_lost]. lia.
    - rewrite !zlen_cons in G. pose proof (zlen_nonneg _ b). lia. }
  assert (Lab : (length b <= length a)%nat).
  { destruct (Nat.le_gt_cases (length b) (length a)); [assumption|]. pose proof (normal_shorter a b Ha Hb H). lia. }
  destruct (Z.ltb_spec (zlen a) (zlen b)) as [Q|Q]; [unfold zlen in Q; lia|].
  unfold stale. rewrite Mv. destruct Ha as [Ua La], Hb as [Ub Lb].
  pose proof (srcok_A junk al d a b (zlen a) ltac:(lia)) as SA.
  pose proof (srcok_B junk al d a b (zlen a) Eab ltac:(lia)) as SB.
  assert (L : length (resize junk (dest0 al d a b) (zlen a)) = length a).
  { rewrite resize_len by (pose proof (zlen_nonneg _ a); lia). unfold zlen. lia. }
  set (d' := resize junk (dest0 al d a b) (zlen a)) in *. clearbody d'.
  destruct (mpa_sub_ok a b [] d' [] (srcof (isA al) a) (srcof (isB al) b) 0 0 0 0) as (s & c & E1 & Ls & Us & Hc & Vs); auto.
  { rewrite app_nil_r. exact SA. }
  { rewrite app_nil_r. exact SB. }
  rewrite !app_nil_r in E1. cbn [app] in E1. rewrite E1.
  pose proof (val_range s Us) as R. rewrite Ls in R.
  pose proof (lostb_nonneg a b 0) as NN.
  destruct Hc as [-> | ->].
  - cbn [Z.eqb]. eexists. split; [reflexivity|]. split; [apply relocation_normal; exact Us|].
    rewrite relocation_val. unfold sub_lost. destruct b as [|y [|y2 b]]; [contradiction|exfalso; apply G; reflexivity|]. lia.
  - exfalso. lia.
Qed.
