(** * C24 - C28: multi precision integers *)
From Verif Require Import Lib BitsModel DwordModel DwordSpec DwordProofs MpiModel MpiSpec MpiProofs MpiProofs2 MpiProofs3 MpiProofs4.
Ltac Zify.zify_post_hook ::= Z.div_mod_to_equations.

(** ** C28 *)
Lemma zcmp_lt : forall x y, zcmp x y = -1 <-> x < y.
Proof. intros. unfold zcmp. destruct (Z.ltb_spec x y), (Z.eqb_spec x y); lia. Qed.
Lemma zcmp_gt : forall x y, zcmp x y = 1 <-> y < x.
Proof. intros. unfold zcmp. destruct (Z.ltb_spec x y), (Z.eqb_spec x y); lia. Qed.

Theorem C28_cmp : forall a b, canonical a -> canonical b -> bfdev_mpi_cmp a b = Some (zcmp (ival a) (ival b)).
Proof.
  intros [la pa] [lb pb] [Na Ca] [Nb Cb]. unfold bfdev_mpi_cmp, wf, ival in *. cbn [limbs plus] in *.
  pose proof (val_range la (proj1 Na)) as Ra. pose proof (val_range lb (proj1 Nb)) as Rb.
  destruct pa, pb; cbn [eqb negb bcmp].
  - rewrite mpi_cmp_ok by assumption. unfold zcmp.
    destruct (Z.ltb_spec (val la) (val lb)); [reflexivity|]. destruct (Z.eqb_spec (val la) (val lb)); reflexivity.
  - assert (lb <> []) by (intros E; specialize (Cb E); discriminate). pose proof (normal_pos lb Nb H).
    f_equal. symmetry. apply zcmp_gt. lia.
  - assert (la <> []) by (intros E; specialize (Ca E); discriminate). pose proof (normal_pos la Na H).
    f_equal. symmetry. apply zcmp_lt. lia.
  - rewrite mpi_cmp_ok by assumption. unfold zcmp.
    destruct (Z.ltb_spec (val la) (val lb)), (Z.ltb_spec (- val la) (- val lb)); try lia; cbn.
    + destruct (Z.eqb_spec (- val la) (- val lb)); [lia|reflexivity].
    + destruct (Z.eqb_spec (val la) (val lb)); [lia|reflexivity].
    + destruct (Z.eqb_spec (val la) (val lb)), (Z.eqb_spec (- val la) (- val lb)); try lia; reflexivity.
Qed.
Theorem C28_cmpi : forall a vi, canonical a -> u64 vi -> bfdev_mpi_cmpi a vi = Some (zcmp (ival a) vi).
Proof.
  intros [la pa] vi [Na Ca] V. unfold bfdev_mpi_cmpi, wf, ival in *. cbn [limbs plus] in *. destruct pa; cbn [negb].
  - apply mpi_cmpi_ok; assumption.
  - assert (la <> []) by (intros E; specialize (Ca E); discriminate). pose proof (normal_pos la Na H).
    f_equal. symmetry. apply zcmp_lt. unfold u64 in V. lia.
Qed.
Example C28_case : canonical (Mpi [1; 7] false) /\ canonical (Mpi [] true) /\
  bfdev_mpi_cmp (Mpi [1; 7] false) (Mpi [5] true) = Some (-1) /\ bfdev_mpi_cmpi (Mpi [9] true) 9 = Some 0.
Proof. repeat split; try (repeat constructor; unfold u64; lia); cbn; try discriminate; lia. Qed.

(** Multiplying a negative number by the word 0 stores a negative zero, which then compares as
    less than zero. *)
Theorem C28_negative_zero_refuted : exists a r,
  canonical a /\ bfdev_mpi_muli 0 false [] a 0 = Some r /\ ival r = 0 /\
  bfdev_mpi_cmp r (bfdev_mpi_seti 0) = Some (-1) /\ bfdev_mpi_cmpi r 0 = Some (-1).
Proof.
  exists (Mpi [5] false), (Mpi [] false). split; [|repeat split].
  repeat split; [repeat constructor; unfold u64; lia|cbn; lia|cbn; discriminate].
Qed.
Print Assumptions C28_cmp.
Print Assumptions C28_cmpi.
Print Assumptions C28_negative_zero_refuted.

(** ** C24 *)
Ltac lz := unfold zcmp in *; repeat match goal with
  | |- context [?a <? ?b] => destruct (Z.ltb_spec a b)
  | |- context [?a =? ?b] => destruct (Z.eqb_spec a b) end; try lia.
Lemma zcmp_cases : forall x y, (zcmp x y = 1 /\ y < x) \/ (zcmp x y = -1 /\ x < y) \/ (zcmp x y = 0 /\ x = y).
Proof. intros. unfold zcmp. destruct (Z.ltb_spec x y), (Z.eqb_spec x y); lia. Qed.

(** The common part: same signs add, different signs subtract. *)
Lemma sub_case : forall junk moved al d a b, normal a -> normal b -> (al = DestAB -> a = b) ->
  no_stale moved al a b -> val b < val a ->
  exists r, mpi_sub junk moved al d a b = Some r /\ normal r /\ (val r = val a - val b <-> sub_loses a b = false).
Proof.
  intros junk moved al d a b Ha Hb Eab NS L.
  destruct (mpi_sub_ok junk moved al d a b Ha Hb Eab) as (r & E & Nr & V); [|lia|].
  - destruct NS as [->|[->|[-> _]]]; cbn [isB andb]; try reflexivity. rewrite andb_false_r. reflexivity.
  - exists r. split; [exact E|]. split; [exact Nr|]. rewrite <- sub_lost_iff by (apply Ha || apply Hb). lia.
Qed.
Lemma sub_case_swap : forall junk moved al d a b, normal a -> normal b -> (al = DestAB -> a = b) ->
  no_stale moved al a b -> val a < val b ->
  exists r, mpi_sub junk moved (swapal al) d b a = Some r /\ normal r /\ (val r = val b - val a <-> sub_loses b a = false).
Proof.
  intros junk moved al d a b Ha Hb Eab NS L.
  destruct (mpi_sub_ok junk moved (swapal al) d b a Hb Ha) as (r & E & Nr & V); [| |lia|].
  - intros E. symmetry. apply Eab. destruct al; cbn in E; congruence.
  - destruct NS as [->|[->|[-> Le]]]; cbn [swapal isB andb]; try reflexivity.
    + rewrite andb_false_r. reflexivity.
    + destruct moved; [|reflexivity]. cbn [andb]. apply Z.ltb_ge.
      destruct (Z.le_gt_cases (zlen b) (zlen a)); [assumption|]. lia.
  - exists r. split; [exact E|]. split; [exact Nr|]. rewrite <- sub_lost_iff by (apply Ha || apply Hb). lia.
Qed.
Lemma add_case : forall junk moved al d a b, normal a -> normal b -> (al = DestAB -> a = b) ->
  isB al && moved = false ->
  exists r, mpi_add junk moved al d a b = Some r /\ normal r /\ (val r = val a + val b <-> add_loses al a b = false).
Proof.
  intros junk moved al d a b Ha Hb Eab NS.
  destruct (mpi_add_ok junk moved al d a b Ha Hb Eab NS) as (r & E & Nr & V).
  exists r. split; [exact E|]. split; [exact Nr|]. rewrite <- add_lost_iff by (apply Ha || apply Hb). lia.
Qed.

(** Addition is exact precisely when no carry or borrow is lost. Missing for the full claim: the
    cases in which [signed_loses] holds or a stale pointer is read (refuted below). *)
Theorem C24_add_partial : forall junk moved al d va vb, wf va -> wf vb -> (al = DestAB -> va = vb) ->
  no_stale moved al (limbs va) (limbs vb) ->
  exists r, bfdev_mpi_add junk moved al d va vb = Some r /\ wf r /\
    (ival r = ival va + ival vb <-> signed_loses al (limbs va) (limbs vb) (eqb (plus va) (plus vb)) = false).
Proof.
  intros junk moved al d [a pa] [b pb] Ha Hb Eab NS. unfold wf, bfdev_mpi_add in *. cbn [limbs plus] in *.
  assert (Eab' : al = DestAB -> a = b) by (intros E; specialize (Eab E); congruence).
  pose proof (val_range a (proj1 Ha)) as Ra. pose proof (val_range b (proj1 Hb)) as Rb.
  unfold signed_loses.
  destruct (Z.ltb_spec (zlen a) (zlen b)) as [Lt|Ge]; cbn [limbs plus].
  - assert (Vab : val a < val b) by (apply normal_shorter; [assumption|assumption|unfold zlen in Lt; lia]).
    assert (NS' : isB (swapal al) && moved = false).
    { destruct NS as [->|[->|[-> Q]]]; [apply andb_false_r|reflexivity|lia]. }
    destruct pa, pb; cbn [eqb].
    + destruct (add_case junk moved (swapal al) d b a Hb Ha) as (r & -> & Nr & I); [intros E; symmetry; apply Eab'; destruct al; cbn in E; congruence|exact NS'|].
      eexists. split; [reflexivity|]. split; [exact Nr|]. unfold ival. cbn [limbs plus]. rewrite <- I. lia.
    + rewrite mpi_cmp_ok by assumption. destruct (zcmp_cases (val b) (val a)) as [[-> Q]|[[-> Q]|[-> Q]]]; try lia. cbn [Z.eqb].
      destruct (mpi_sub_ok junk moved (swapal al) d b a Hb Ha) as (r & -> & Nr & V); [intros E; symmetry; apply Eab'; destruct al; cbn in E; congruence| |lia|].
      { rewrite NS'. reflexivity. }
      eexists. split; [reflexivity|]. split; [exact Nr|]. unfold ival. cbn [limbs plus].
      destruct (Z.ltb_spec (val b) (val a)); [lia|]. destruct (Z.ltb_spec (val a) (val b)); [|lia].
      rewrite <- sub_lost_iff by (apply Ha || apply Hb). lia.
    + rewrite mpi_cmp_ok by assumption. destruct (zcmp_cases (val b) (val a)) as [[-> Q]|[[-> Q]|[-> Q]]]; try lia. cbn [Z.eqb].
      destruct (mpi_sub_ok junk moved (swapal al) d b a Hb Ha) as (r & -> & Nr & V); [intros E; symmetry; apply Eab'; destruct al; cbn in E; congruence| |lia|].
      { rewrite NS'. reflexivity. }
      eexists. split; [reflexivity|]. split; [exact Nr|]. unfold ival. cbn [limbs plus].
      destruct (Z.ltb_spec (val b) (val a)); [lia|]. destruct (Z.ltb_spec (val a) (val b)); [|lia].
      rewrite <- sub_lost_iff by (apply Ha || apply Hb). lia.
    + destruct (add_case junk moved (swapal al) d b a Hb Ha) as (r & -> & Nr & I); [intros E; symmetry; apply Eab'; destruct al; cbn in E; congruence|exact NS'|].
      eexists. split; [reflexivity|]. split; [exact Nr|]. unfold ival. cbn [limbs plus]. rewrite <- I. lia.
  - assert (NS' : isB al && moved = false).
    { destruct NS as [->|[->|[-> Q]]]; [apply andb_false_r|reflexivity|reflexivity]. }
    destruct (eqb pa pb) eqn:Ep.
    + apply eqb_prop in Ep. subst pb.
      destruct (add_case junk moved al d a b Ha Hb Eab' NS') as (r & -> & Nr & I).
      eexists. split; [reflexivity|]. split; [exact Nr|]. unfold ival. cbn [limbs plus]. rewrite <- I. destruct pa; lia.
    + assert (pb = negb pa) by (destruct pa, pb; discriminate || reflexivity). subst pb.
      rewrite mpi_cmp_ok by assumption. destruct (zcmp_cases (val a) (val b)) as [[-> Q]|[[-> Q]|[-> Q]]]; cbn [Z.eqb].
      * destruct (sub_case junk moved al d a b Ha Hb Eab' NS Q) as (r & -> & Nr & I).
        eexists. split; [reflexivity|]. split; [exact Nr|]. unfold ival. cbn [limbs plus].
        destruct (Z.ltb_spec (val b) (val a)); [|lia]. rewrite <- I. destruct pa; cbn [negb]; lia.
      * destruct (sub_case_swap junk moved al d a b Ha Hb Eab' NS Q) as (r & -> & Nr & I).
        eexists. split; [reflexivity|]. split; [exact Nr|]. unfold ival. cbn [limbs plus].
        destruct (Z.ltb_spec (val b) (val a)); [lia|]. destruct (Z.ltb_spec (val a) (val b)); [|lia].
        rewrite <- I. destruct pa; cbn [negb]; lia.
      * eexists. split; [reflexivity|]. split; [apply nil_normal|]. unfold ival. cbn [limbs plus val].
        destruct (Z.ltb_spec (val b) (val a)); [lia|]. destruct (Z.ltb_spec (val a) (val b)); [lia|].
        destruct pa; cbn [negb]; lia.
Qed.
Theorem C24_sub_partial : forall junk moved al d va vb, wf va -> wf vb -> (al = DestAB -> va = vb) ->
  no_stale moved al (limbs va) (limbs vb) ->
  exists r, bfdev_mpi_sub junk moved al d va vb = Some r /\ wf r /\
    (ival r = ival va - ival vb <-> signed_sub_loses al (limbs va) (limbs vb) (eqb (plus va) (plus vb)) = false).
Proof.
  intros junk moved al d [a pa] [b pb] Ha Hb Eab NS. unfold wf, bfdev_mpi_sub in *. cbn [limbs plus] in *.
  assert (Eab' : al = DestAB -> a = b) by (intros E; specialize (Eab E); congruence).
  pose proof (val_range a (proj1 Ha)) as Ra. pose proof (val_range b (proj1 Hb)) as Rb.
  unfold signed_sub_loses.
  assert (NS' : isB al && moved = false).
  { destruct NS as [->|[->|[-> Q]]]; [apply andb_false_r|reflexivity|reflexivity]. }
  destruct (eqb pa pb) eqn:Ep; cbn [negb].
  - apply eqb_prop in Ep. subst pb.
    rewrite mpi_cmp_ok by assumption. destruct (zcmp_cases (val a) (val b)) as [[-> Q]|[[-> Q]|[-> Q]]]; cbn [Z.eqb].
    * destruct (sub_case junk moved al d a b Ha Hb Eab' NS Q) as (r & -> & Nr & I).
      eexists. split; [reflexivity|]. split; [exact Nr|]. unfold ival. cbn [limbs plus].
      destruct (Z.ltb_spec (val b) (val a)); [|lia]. rewrite <- I. destruct pa; cbn [negb]; lia.
    * destruct (sub_case_swap junk moved al d a b Ha Hb Eab' NS Q) as (r & -> & Nr & I).
      eexists. split; [reflexivity|]. split; [exact Nr|]. unfold ival. cbn [limbs plus].
      destruct (Z.ltb_spec (val b) (val a)); [lia|]. destruct (Z.ltb_spec (val a) (val b)); [|lia].
      rewrite <- I. destruct pa; cbn [negb]; lia.
    * eexists. split; [reflexivity|]. split; [apply nil_normal|]. unfold ival. cbn [limbs plus val].
      destruct (Z.ltb_spec (val b) (val a)); [lia|]. destruct (Z.ltb_spec (val a) (val b)); [lia|].
      destruct pa; cbn [negb]; lia.
  - assert (pb = negb pa) by (destruct pa, pb; discriminate || reflexivity). subst pb.
    destruct (add_case junk moved al d a b Ha Hb Eab' NS') as (r & -> & Nr & I).
    eexists. split; [reflexivity|]. split; [exact Nr|]. unfold ival. cbn [limbs plus]. rewrite <- I. destruct pa; cbn [negb]; lia.
Qed.
(** Adding a word is exact for a non-negative number unless the sum is stored in place and
    carries out of the two lowest limbs; subtracting a word likewise for a negative one, and
    always for a positive one. *)
Theorem C24_addi_partial : forall junk own d va vi, wf va -> u64 vi -> plus va = true ->
  exists r, bfdev_mpi_addi junk own d va vi = Some r /\ wf r /\
    (ival r = ival va + vi <-> own && carry_twice (limbs va) vi = false).
Proof.
  intros junk own d [a pa] vi Ha V E. unfold wf, bfdev_mpi_addi, ival in *. cbn [limbs plus] in *. subst pa.
  destruct (mpi_addi_ok junk own d a vi Ha V) as (r & -> & Nr & I).
  eexists. split; [reflexivity|]. split; [exact Nr|]. cbn [limbs plus].
  destruct (own && carry_twice a vi); split; intros; try discriminate; try lia; reflexivity.
Qed.
Theorem C24_subi_partial : forall junk own d va vi, wf va -> u64 vi -> limbs va <> [] \/ vi = 0 ->
  exists r, bfdev_mpi_subi junk own d va vi = Some r /\ wf r /\
    (ival r = ival va - vi <-> negb (plus va) && (own && carry_twice (limbs va) vi) = false).
Proof.
  intros junk own d [a pa] vi Ha V N. unfold wf, bfdev_mpi_subi, ival in *. cbn [limbs plus] in *.
  destruct pa; cbn [negb andb].
  - rewrite mpi_cmpi_ok by assumption. destruct (zcmp_cases (val a) vi) as [[-> Q]|[[-> Q]|[-> Q]]]; cbn [Z.eqb].
    + assert (Na : a <> []).
      { intros ->. cbn [val] in Q. unfold u64 in V. lia. }
      destruct (mpi_subi_ok junk own d a vi Ha Na V ltac:(lia)) as (r & -> & Nr & I).
      eexists. split; [reflexivity|]. split; [exact Nr|]. cbn [limbs plus]. tauto.
    + destruct a as [|x [|y t]].
      * destruct N as [N|N]; [contradiction|]. cbn [val] in Q. lia.
      * rewrite rd_cons0. destruct Ha as [Ua _]. conses. cbn [val] in *.
        assert (Uw : u64 (w64 (vi - x))) by apply w64_range. destruct (mpi_seti_ok _ Uw) as [A B].
        eexists. split; [reflexivity|]. split; [exact A|]. cbn [limbs plus]. rewrite B.
        unfold u64 in *. rewrite w64_small by lia. split; [reflexivity|lia].
      * exfalso. assert (NN : x :: y :: t <> []) by discriminate. pose proof (normal_low _ Ha NN) as B.
        cbn [length Nat.sub Bp] in B. pose proof (Bp_pos (length t)). unfold u64 in V. lia.
    + eexists. split; [reflexivity|]. split; [apply nil_normal|]. cbn [limbs plus val]. split; [reflexivity|lia].
  - destruct (mpi_addi_ok junk own d a vi Ha V) as (r & -> & Nr & I).
    eexists. split; [reflexivity|]. split; [exact Nr|]. cbn [limbs plus].
    destruct (own && carry_twice a vi); split; intros; try discriminate; try lia; reflexivity.
Qed.
Example C24_case : wf (Mpi [2 ^ 64 - 1; 3] true) /\ wf (Mpi [5; 2 ^ 64 - 2; 1] false) /\ no_stale true DestA [5; 6; 1] [2 ^ 64 - 1; 3] /\
  signed_loses Distinct [2 ^ 64 - 1; 3] [5; 2 ^ 64 - 2; 1] false = false /\
  bfdev_mpi_add 7 false Distinct [] (Mpi [2 ^ 64 - 1; 3] true) (Mpi [5; 2 ^ 64 - 2; 1] false) = Some (Mpi [6; 2 ^ 64 - 6; 1] false) /\
  bfdev_mpi_add 7 true DestA [] (Mpi [2 ^ 64 - 1; 2 ^ 64 - 1] true) (Mpi [1; 1] true) = Some (Mpi [0; 1; 1] true).
Proof.
  split; [split; [repeat constructor; unfold u64; lia|cbn; lia]|].
  split; [split; [repeat constructor; unfold u64; lia|cbn; lia]|].
  split; [right; right; split; [reflexivity|vm_compute; discriminate]|].
  repeat split; vm_compute; reflexivity.
Qed.

(** A carry is lost: (5 * 2^64 + 1) + (2^128 - 1) gives 5 * 2^64. *)
Theorem C24_add_carry_refuted : exists va vb r, canonical va /\ canonical vb /\
  bfdev_mpi_add 0 false Distinct [] va vb = Some r /\ ival r <> ival va + ival vb.
Proof.
  exists (Mpi [1; 5] true), (Mpi [2 ^ 64 - 1; 2 ^ 64 - 1] true), (Mpi [0; 5] true).
  split; [split; [split; [repeat constructor; unfold u64; lia|cbn; lia]|reflexivity]|].
  split; [split; [split; [repeat constructor; unfold u64; lia|cbn; lia]|reflexivity]|].
  split; [vm_compute; reflexivity|vm_compute; discriminate].
Qed.
(** A borrow is lost: 2^128 + 5 * 2^64 - (2^128 - 2^64 + 1). *)
Theorem C24_sub_borrow_refuted : exists va vb r, canonical va /\ canonical vb /\
  bfdev_mpi_sub 0 false Distinct [] va vb = Some r /\ ival r <> ival va - ival vb.
Proof.
  exists (Mpi [0; 5; 1] true), (Mpi [1; 2 ^ 64 - 1] true), (Mpi [2 ^ 64 - 1; 5; 1] true).
  split; [split; [split; [repeat constructor; unfold u64; lia|cbn; lia]|reflexivity]|].
  split; [split; [split; [repeat constructor; unfold u64; lia|cbn; lia]|reflexivity]|].
  split; [vm_compute; reflexivity|vm_compute; discriminate].
Qed.
(** In-place addition of a one-limb number: (2^128 - 1) + 1 gives 0. *)
Theorem C24_inplace_refuted : exists va vb r, canonical va /\ canonical vb /\
  bfdev_mpi_add 0 false DestA [] va vb = Some r /\ ival r <> ival va + ival vb.
Proof.
  exists (Mpi [2 ^ 64 - 1; 2 ^ 64 - 1] true), (Mpi [1] true), (Mpi [] true).
  split; [split; [split; [repeat constructor; unfold u64; lia|cbn; lia]|reflexivity]|].
  split; [split; [split; [repeat constructor; unfold u64; lia|cbn; lia]|reflexivity]|].
  split; [vm_compute; reflexivity|vm_compute; discriminate].
Qed.
(** x + x stored in x reads x's old storage when growing moved it. *)
Theorem C24_stale_refuted : exists v, canonical v /\ bfdev_mpi_add 0 true DestAB [] v v = None.
Proof.
  exists (Mpi [1; 2] true).
  split; [split; [split; [repeat constructor; unfold u64; lia|cbn; lia]|reflexivity]|vm_compute; reflexivity].
Qed.
(** -5 + 3 gives 2^64 - 2; 0 - 1 dereferences a null pointer. *)
Theorem C24_addi_negative_refuted : exists va vi r, canonical va /\ u64 vi /\
  bfdev_mpi_addi 0 false [] va vi = Some r /\ ival r <> ival va + vi.
Proof.
  exists (Mpi [5] false), 3, (Mpi [2 ^ 64 - 2] true).
  split; [split; [split; [repeat constructor; unfold u64; lia|cbn; lia]|cbn; discriminate]|].
  split; [unfold u64; lia|]. split; [vm_compute; reflexivity|vm_compute; discriminate].
Qed.
Theorem C24_subi_zero_refuted : exists va vi, canonical va /\ u64 vi /\ bfdev_mpi_subi 0 false [] va vi = None.
Proof.
  exists (Mpi [] true), 1.
  split; [split; [apply nil_normal|reflexivity]|]. split; [unfold u64; lia|reflexivity].
Qed.
Print Assumptions C24_add_partial.
Print Assumptions C24_sub_partial.
Print Assumptions C24_addi_partial.
Print Assumptions C24_subi_partial.
Print Assumptions C24_add_carry_refuted.
Print Assumptions C24_sub_borrow_refuted.
Print Assumptions C24_inplace_refuted.
Print Assumptions C24_stale_refuted.
Print Assumptions C24_addi_negative_refuted.
Print Assumptions C24_subi_zero_refuted.

(** ** C25 *)
Theorem C25_muli : forall junk own d va vi, wf va -> u64 vi ->
  exists r, bfdev_mpi_muli junk own d va vi = Some r /\ wf r /\ ival r = ival va * vi.
Proof.
  intros junk own d [a pa] vi Ha V. unfold wf, bfdev_mpi_muli, ival in *. cbn [limbs plus] in *.
  destruct (mpi_muli_ok junk own d a vi Ha V) as (r & -> & Nr & I).
  eexists. split; [reflexivity|]. split; [exact Nr|]. cbn [limbs plus]. rewrite I. destruct pa; lia.
Qed.
(** Missing: operands of two or more limbs with the product stored over one of them, and operands
    for which the loop adds with the defective [mpa_add] (both refuted below). *)
Theorem C25_mul_partial : forall junk moved al d va vb, wf va -> wf vb -> (al = DestAB -> va = vb) ->
  al = Distinct \/ al = DestAB \/ zlen (limbs va) <= 1 \/ zlen (limbs vb) <= 1 ->
  mul_safe (fst (longer (limbs va) (limbs vb))) (snd (longer (limbs va) (limbs vb))) ->
  exists r, bfdev_mpi_mul junk moved al d va vb = Some r /\ wf r /\ ival r = ival va * ival vb.
Proof.
  intros junk moved al d [a pa] [b pb] Ha Hb Eab Al Safe. unfold wf, bfdev_mpi_mul, ival, longer in *. cbn [limbs plus] in *.
  assert (Eab' : al = DestAB -> a = b) by (intros E; specialize (Eab E); congruence).
  destruct (Z.ltb_spec (zlen a) (zlen b)); cbn [fst snd limbs plus] in *.
  - destruct (mpi_mul_ok junk moved (swapal al) d b a Hb Ha) as (r & -> & Nr & V); [| |exact Safe|].
    + intros E. symmetry. apply Eab'. destruct al; cbn in E; congruence.
    + unfold zlen in *. destruct Al as [->|[->|[L|L]]]; [left; reflexivity|right; left; reflexivity|right; right; lia|right; right; lia].
    + eexists. split; [reflexivity|]. split; [exact Nr|]. cbn [limbs plus]. rewrite V. destruct pa, pb; cbn [xorb negb]; lia.
  - destruct (mpi_mul_ok junk moved al d a b Ha Hb) as (r & -> & Nr & V); [exact Eab'| |exact Safe|].
    + unfold zlen in *. destruct Al as [->|[->|[L|L]]]; [left; reflexivity|right; left; reflexivity|right; right; lia|right; right; lia].
    + eexists. split; [reflexivity|]. split; [exact Nr|]. cbn [limbs plus]. rewrite V. destruct pa, pb; cbn [xorb negb]; lia.
Qed.
Example C25_case : wf (Mpi [2 ^ 64 - 1; 2 ^ 64 - 1] true) /\ wf (Mpi [0; 1; 7] false) /\
  mul_safe (fst (longer [2 ^ 64 - 1; 2 ^ 64 - 1] [0; 1; 7])) (snd (longer [2 ^ 64 - 1; 2 ^ 64 - 1] [0; 1; 7])) /\
  bfdev_mpi_mul 9 false Distinct [4] (Mpi [2 ^ 64 - 1; 2 ^ 64 - 1] true) (Mpi [0; 1; 7] false)
    = Some (Mpi [0; 2 ^ 64 - 1; 2 ^ 64 - 8; 0; 7] false).
Proof.
  split; [split; [repeat constructor; unfold u64; lia|cbn; lia]|].
  split; [split; [repeat constructor; unfold u64; lia|cbn; lia]|].
  split; [right; vm_compute; repeat constructor; discriminate|vm_compute; reflexivity].
Qed.
Theorem C25_mul_carry_refuted : exists va vb r, canonical va /\ canonical vb /\
  bfdev_mpi_mul 0 false Distinct [] va vb = Some r /\ ival r <> ival va * ival vb.
Proof.
  exists (Mpi [2 ^ 64 - 1; 2 ^ 64 - 1] true), (Mpi [5; 1] true), (Mpi [2 ^ 64 - 5; 2 ^ 64 - 2; 4] true).
  split; [split; [split; [repeat constructor; unfold u64; lia|cbn; lia]|reflexivity]|].
  split; [split; [split; [repeat constructor; unfold u64; lia|cbn; lia]|reflexivity]|].
  split; [vm_compute; reflexivity|vm_compute; discriminate].
Qed.
(** x *= y with y of two limbs: (2 + 2^64) * (3 + 2^65) stored over the first operand. *)
Theorem C25_mul_inplace_refuted : exists va vb r, canonical va /\ canonical vb /\
  bfdev_mpi_mul 0 false DestA [] va vb = Some r /\ ival r <> ival va * ival vb.
Proof.
  exists (Mpi [2; 1] true), (Mpi [3; 2] true), (Mpi [6; 15; 30] true).
  split; [split; [split; [repeat constructor; unfold u64; lia|cbn; lia]|reflexivity]|].
  split; [split; [split; [repeat constructor; unfold u64; lia|cbn; lia]|reflexivity]|].
  split; [vm_compute; reflexivity|vm_compute; discriminate].
Qed.
Print Assumptions C25_muli.
Print Assumptions C25_mul_partial.
Print Assumptions C25_mul_carry_refuted.
Print Assumptions C25_mul_inplace_refuted.

(** ** C26 *)
Lemma quot_rem_sign : forall s a v, 0 <= a -> 0 < v ->
  Z.quot (if s : bool then a else - a) v = (if s then a / v else - (a / v)) /\
  Z.rem (if s then a else - a) v = (if s then a mod v else - (a mod v)).
Proof.
  intros s a v Ha Hv. destruct s.
  - rewrite Z.quot_div_nonneg, Z.rem_mod_nonneg by lia. auto.
  - rewrite Z.quot_opp_l, Z.rem_opp_l by lia. rewrite Z.quot_div_nonneg, Z.rem_mod_nonneg by lia. auto.
Qed.
Theorem C26_divi : forall junk own q0 r0 va vi, wf va -> 0 < vi < 2 ^ 64 ->
  exists q r, bfdev_mpi_divi junk own q0 r0 va vi = Some (0, q, r) /\ wf q /\ wf r /\
    ival q = Z.quot (ival va) vi /\ ival r = Z.rem (ival va) vi.
Proof.
  intros junk own q0 r0 [a pa] vi Ha V. unfold wf, bfdev_mpi_divi, ival in *. cbn [limbs plus] in *.
  assert (Uv : u64 vi) by (unfold u64; lia). pose proof (val_range a (proj1 Ha)) as Ra.
  destruct (quot_rem_sign pa (val a) vi ltac:(lia) ltac:(lia)) as [-> ->].
  rewrite mpi_cmpi_ok by assumption. destruct (zcmp_cases (val a) vi) as [[-> Q]|[[-> Q]|[-> Q]]]; cbn [Z.eqb].
  - destruct (mpi_divi_ok junk own (limbs q0) (limbs r0) a vi Ha V) as (ql & rl & -> & Nq & Nr & Vq & Vr). cbn [Z.eqb].
    eexists _, _. split; [reflexivity|]. cbn [limbs plus]. rewrite Vq, Vr. auto.
  - eexists _, _. split; [reflexivity|]. cbn [limbs plus val]. unfold mpi_set. rewrite normal_relocation by apply Ha.
    rewrite Z.div_small, Z.mod_small by lia. split; [apply nil_normal|]. split; [exact Ha|]. destruct pa; auto.
  - eexists _, _. split; [reflexivity|]. cbn [limbs plus val]. assert (U1 : u64 1) by (unfold u64; lia).
    destruct (mpi_seti_ok 1 U1) as [A B]. rewrite B, Q, Z.div_same, Z.mod_same by lia.
    split; [exact A|]. split; [apply nil_normal|]. destruct pa; auto.
Qed.
Theorem C26_modi : forall r0 va vi, wf va -> 0 < vi < 2 ^ 64 ->
  exists r, bfdev_mpi_modi r0 va vi = Some (0, r) /\ wf r /\ ival r = Z.rem (ival va) vi.
Proof.
  intros r0 [a pa] vi Ha V. unfold wf, bfdev_mpi_modi, ival in *. cbn [limbs plus] in *.
  assert (Uv : u64 vi) by (unfold u64; lia). pose proof (val_range a (proj1 Ha)) as Ra.
  destruct (quot_rem_sign pa (val a) vi ltac:(lia) ltac:(lia)) as [_ ->].
  rewrite mpi_cmpi_ok by assumption. destruct (zcmp_cases (val a) vi) as [[-> Q]|[[-> Q]|[-> Q]]]; cbn [Z.eqb].
  - destruct (mpi_modi_ok (limbs r0) a vi Ha V) as (rl & -> & Nr & Vr). cbn [Z.eqb].
    eexists. split; [reflexivity|]. cbn [limbs plus]. rewrite Vr. auto.
  - eexists. split; [reflexivity|]. cbn [limbs plus val]. unfold mpi_set. rewrite normal_relocation by apply Ha.
    rewrite Z.mod_small by lia. split; [exact Ha|]. destruct pa; auto.
  - eexists. split; [reflexivity|]. cbn [limbs plus val]. rewrite Q, Z.mod_same by lia. split; [apply nil_normal|destruct pa; auto].
Qed.
Example C26_case : wf (Mpi [5; 3; 9] false) /\
  bfdev_mpi_divi 1 true (Mpi [] true) (Mpi [] true) (Mpi [5; 3; 9] false) 7
  = Some (0, Mpi [0; 5270498306774157605; 1] false, Mpi [5] false).
Proof. split; [split; [repeat constructor; unfold u64; lia|cbn; lia]|vm_compute; reflexivity]. Qed.
(** Division by zero reports an error, except for 0 / 0, which answers 1 remainder 0. *)
Theorem C26_zero_divisor : forall junk own q0 r0 va, wf va -> limbs va <> [] ->
  bfdev_mpi_divi junk own q0 r0 va 0 = Some (- EOVERFLOW, q0, r0).
Proof.
  intros junk own [q0 qp] [r0 rp] [a pa] Ha N. unfold wf, bfdev_mpi_divi in *. cbn [limbs plus] in *.
  rewrite mpi_cmpi_ok by (try assumption; unfold u64; lia). pose proof (normal_pos a Ha N).
  destruct (zcmp_cases (val a) 0) as [[-> Q]|[[-> Q]|[-> Q]]]; try lia. reflexivity.
Qed.
Theorem C26_zero_by_zero_refuted : exists q, bfdev_mpi_divi 0 false (Mpi [] true) (Mpi [] true) (Mpi [] true) 0 = Some (0, q, Mpi [] true) /\ ival q = 1.
Proof. eexists. split; reflexivity. Qed.
Print Assumptions C26_divi.
Print Assumptions C26_modi.
Print Assumptions C26_zero_divisor.
Print Assumptions C26_zero_by_zero_refuted.

(** ** C27. Exact when the magnitudes compare less or equal or the divisor has one limb. Longer
    divisors are treated in MpiDivProps.v; the routine never normalises them (refuted below). *)
Lemma quot_rem_signs : forall s t a v, 0 <= a -> 0 < v ->
  Z.quot (if s : bool then a else - a) (if t : bool then v else - v) = (if negb (xorb s t) then a / v else - (a / v)) /\
  Z.rem (if s then a else - a) (if t then v else - v) = (if s then a mod v else - (a mod v)).
Proof.
  intros s t a v Ha Hv. destruct (quot_rem_sign s a v Ha Hv) as [Q R]. destruct t.
  - rewrite Q, R. destruct s; auto.
  - rewrite Z.quot_opp_r, Z.rem_opp_r by lia. rewrite Q, R. destruct s; cbn [xorb negb]; split; lia.
Qed.
Theorem C27_div_partial : forall junk q0 r0 va vb, wf va -> wf vb -> ival vb <> 0 ->
  zlen (limbs vb) = 1 \/ val (limbs va) <= val (limbs vb) ->
  exists q r, bfdev_mpi_div junk q0 r0 va vb = Some (0, q, r) /\ wf q /\ wf r /\
    ival q = Z.quot (ival va) (ival vb) /\ ival r = Z.rem (ival va) (ival vb).
Proof.
  intros junk q0 r0 [a pa] [b pb] Ha Hb Nz Hyp. unfold wf, bfdev_mpi_div, ival in *. cbn [limbs plus] in *.
  pose proof (val_range a (proj1 Ha)) as Ra. pose proof (val_range b (proj1 Hb)) as Rb.
  assert (Pb : 0 < val b) by (destruct pb; lia).
  destruct (quot_rem_signs pa pb (val a) (val b) ltac:(lia) Pb) as [-> ->].
  rewrite mpi_cmp_ok by assumption. destruct (zcmp_cases (val a) (val b)) as [[-> Q]|[[-> Q]|[-> Q]]]; cbn [Z.eqb].
  - destruct Hyp as [L|L]; [|lia].
    unfold mpi_div. rewrite L. change (1 =? 0) with false. change (1 =? 1) with true. cbv iota.
    destruct b as [|y [|y2 b]]; [discriminate| |rewrite !zlen_cons in L; pose proof (zlen_nonneg _ b); lia].
    rewrite rd_cons0. cbn [val] in *. assert (Hy : 0 < y < 2 ^ 64) by (destruct Hb as [Ub _]; conses; unfold u64 in *; lia).
    destruct (mpi_divi_ok junk false (limbs q0) (limbs r0) a y Ha Hy) as (ql & rl & -> & Nq & Nr & Vq & Vr). cbn [Z.eqb].
    eexists _, _. split; [reflexivity|]. cbn [limbs plus]. rewrite Vq, Vr. replace (y + 2 ^ 64 * 0) with y by lia. auto.
  - eexists _, _. split; [reflexivity|]. cbn [limbs plus val]. unfold mpi_set. rewrite normal_relocation by apply Ha.
    rewrite Z.div_small, Z.mod_small by lia. split; [apply nil_normal|]. split; [exact Ha|]. destruct pa, pb; auto.
  - eexists _, _. split; [reflexivity|]. cbn [limbs plus val]. assert (U1 : u64 1) by (unfold u64; lia).
    destruct (mpi_seti_ok 1 U1) as [A B]. rewrite B, Q, Z.div_same, Z.mod_same by lia.
    split; [exact A|]. split; [apply nil_normal|]. destruct pa, pb; auto.
Qed.
Example C27_case : wf (Mpi [5; 3; 9] false) /\ wf (Mpi [7] true) /\ ival (Mpi [7] true) <> 0.
Proof.
  split; [split; [repeat constructor; unfold u64; lia|cbn; lia]|].
  split; [split; [repeat constructor; unfold u64; lia|cbn; lia]|vm_compute; discriminate].
Qed.
(** 2^128 / (2^65 - 1) *)
Theorem C27_div_refuted : exists va vb q r, canonical va /\ canonical vb /\ ival vb <> 0 /\
  bfdev_mpi_div 0 (Mpi [] true) (Mpi [] true) va vb = Some (0, q, r) /\ ival va <> ival q * ival vb + ival r.
Proof.
  exists (Mpi [0; 0; 1] true), (Mpi [2 ^ 64 - 1; 1] true), (Mpi [2 ^ 64 - 2] true), (Mpi [2 ^ 64 - 2; 4] true).
  split; [split; [split; [repeat constructor; unfold u64; lia|cbn; lia]|reflexivity]|].
  split; [split; [split; [repeat constructor; unfold u64; lia|cbn; lia]|reflexivity]|].
  split; [vm_compute; discriminate|]. split; [vm_compute; reflexivity|vm_compute; discriminate].
Qed.
(** 2 * 2^128 / 2^64 leaves a remainder as large as the divisor. *)
Theorem C27_rem_refuted : exists va vb q r, canonical va /\ canonical vb /\ ival vb <> 0 /\
  bfdev_mpi_div 0 (Mpi [] true) (Mpi [] true) va vb = Some (0, q, r) /\ Z.abs (ival vb) <= Z.abs (ival r).
Proof.
  exists (Mpi [0; 0; 2] true), (Mpi [0; 1] true), (Mpi [2 ^ 64 - 1; 1] true), (Mpi [0; 1] true).
  split; [split; [split; [repeat constructor; unfold u64; lia|cbn; lia]|reflexivity]|].
  split; [split; [split; [repeat constructor; unfold u64; lia|cbn; lia]|reflexivity]|].
  split; [vm_compute; discriminate|]. split; [vm_compute; reflexivity|vm_compute; discriminate].
Qed.
Print Assumptions C27_div_partial.
Print Assumptions C27_div_refuted.
Print Assumptions C27_rem_refuted.
