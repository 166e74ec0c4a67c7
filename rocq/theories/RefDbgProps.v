(** * C120: debug reports of reference counts *)
From Coq Require Import Lia.
From Verif Require Import Lib RefcntModel RefcntSpec RefcntProps RefDbgModel RefDbgSpec.

Lemma sg_w64 : forall z, - 2 ^ 63 <= z < 2 ^ 63 -> sg (w64 z) = z.
Proof.
  intros z H. unfold sg, w64. destruct (Z_lt_le_dec z 0) as [N|N].
  - replace (z mod 2 ^ 64) with (z + 2 ^ 64) by (apply Z.mod_unique with (-1); lia). destruct (Z.ltb_spec (z + 2 ^ 64) (2 ^ 63)); lia.
  - rewrite Z.mod_small by lia. destruct (Z.ltb_spec z (2 ^ 63)); lia.
Qed.
Lemma sg_small : forall n, 0 <= n < 2 ^ 63 -> sg n = n.
Proof. intros n H. unfold sg. destruct (Z.ltb_spec n (2 ^ 63)); lia. Qed.
Lemma dmessages_app : forall a b, dmessages (a ++ b) = match dmessages a with Some x => match dmessages b with Some y => Some (x ++ y) | None => None end | None => None end.
Proof.
  induction a as [|e a IH]; intros b; [cbn; destruct (dmessages b); reflexivity|]. cbn [app dmessages]. destruct (dcheck e) as [r|]; [|reflexivity]. rewrite IH.
  destruct (dmessages a); [|reflexivity]. destruct (dmessages b); [|reflexivity]. destruct r; reflexivity.
Qed.
Lemma run_log : forall s c z, - 2 ^ 63 <= z < 2 ^ 63 -> rc c = w64 z -> countable z s ->
  exists l, rlog (rrun c s) = rlog c ++ l /\ dmessages l = Some (misuses z s).
Proof.
  induction s as [|a s IH]; intros c z Hz E C; [exists []; split; [symmetry; apply app_nil_r|reflexivity]|].
  destruct C as (C1 & C2 & C3). unfold rrun. cbn [fold_left]. fold (rrun (rstep c a) s).
  assert (ST : exists l0, rlog (rstep c a) = rlog c ++ l0 /\ dmessages l0 = Some (misuse z a) /\ rc (rstep c a) = w64 (count_after z a)).
  { destruct a as [t n|t n|t u n|t n|t]; try contradiction; cbn [rstep rlog rc count_after misuse] in *.
    - eexists. split; [reflexivity|]. split; [|rewrite E; unfold w64; rewrite Zplus_mod_idemp_l; reflexivity]. cbn [dmessages dcheck]. rewrite E, sg_w64 by lia.
      destruct (Z.eqb_spec z 0) as [|N0]; [reflexivity|]. destruct (Z.ltb_spec z 0) as [|N1]; [reflexivity|]. rewrite sg_small by lia. unfold ssum.
      destruct (Z.leb_spec (- 2 ^ 63) (z + n)); [|lia]. destruct (Z.ltb_spec (z + n) (2 ^ 63)); [|lia]. cbn [andb]. destruct (Z.ltb_spec (z + n) 0); [lia|reflexivity].
    - eexists. split; [reflexivity|]. split; [|rewrite E; unfold w64; rewrite Zminus_mod_idemp_l; reflexivity]. cbn [dmessages dcheck]. rewrite E, sg_w64, sg_small by lia.
      destruct (Z.eqb_spec z n) as [|Nn]; [destruct (Z.eqb_spec z 0); [lia|]; destruct (Z.ltb_spec z 0); [lia|]; destruct (Z.ltb_spec z n); [lia|reflexivity]|].
      destruct (Z.eqb_spec z 0) as [|N0]; [reflexivity|]. destruct (Z.ltb_spec z 0) as [|N1]; [reflexivity|]. unfold ssum.
      destruct (Z.leb_spec (- 2 ^ 63) (z - n)); [|lia]. destruct (Z.ltb_spec (z - n) (2 ^ 63)); [|lia]. cbn [andb]. destruct (Z.ltb_spec (z - n) 0), (Z.ltb_spec z n); try lia; reflexivity.
    - exists []. rewrite app_nil_r. auto. }
  destruct ST as (l0 & L0 & M0 & E0). destruct (IH _ _ C2 E0 C3) as (l & L & M). exists (l0 ++ l). rewrite L, L0, app_assoc. split; [reflexivity|]. rewrite dmessages_app, M0, M. reflexivity.
Qed.

(** ** Any history of takes and returns by any threads, right or wrong: the messages are the misuses, in order, one for each *)
Theorem C120_exact : forall z s, - 2 ^ 63 <= z < 2 ^ 63 -> countable z s ->
  dmessages (rlog (rrun {| rc := w64 z; rpcs := fun _ => RIdle; rlog := [] |} s)) = Some (misuses z s).
Proof. intros z s Hz C. destruct (run_log s {| rc := w64 z; rpcs := fun _ => RIdle; rlog := [] |} z Hz eq_refl C) as (l & -> & M). exact M. Qed.
Example C120_exact_case : countable 1 [AGet 0 2; APut 1 2; APut 0 2; AGet 1 1; APut 1 1] /\ misuses 1 [AGet 0 2; APut 1 2; APut 0 2; AGet 1 1; APut 1 1] = [SUB_OVF; ADD_LEAK; SUB_UAF].
Proof. split; [|reflexivity]. cbn. repeat split; lia. Qed.
(** ** Silence means that the counter was used well, and using it well is silent *)
Theorem C120_silent : forall z s, - 2 ^ 63 <= z < 2 ^ 63 -> countable z s ->
  (dmessages (rlog (rrun {| rc := w64 z; rpcs := fun _ => RIdle; rlog := [] |} s)) = Some [] <-> well_used z s).
Proof.
  intros z s Hz C. rewrite (C120_exact z s Hz C). clear Hz C. revert z. induction s as [|a s IH]; intros z; [cbn; split; auto|]. cbn [misuses well_used].
  assert (K : misuse z a = [] <-> match a with AGet _ _ => 0 < z | APut _ n => 0 < z /\ n <= z | _ => True end).
  { destruct a as [t n|t n|t u n|t n|t]; cbn [misuse]; try tauto.
    - destruct (Z.eqb_spec z 0), (Z.ltb_spec z 0); split; try discriminate; try lia; reflexivity.
    - destruct (Z.eqb_spec z 0), (Z.ltb_spec z 0), (Z.ltb_spec z n); split; try discriminate; try lia; reflexivity. }
  rewrite <- IH, <- K. split.
  - intros [= E]. apply app_eq_nil in E. destruct E as (-> & ->). auto.
  - intros (-> & [= ->]). reflexivity.
Qed.
Example C120_silent_case : well_used 1 [AGet 0 2; APut 1 2; APut 0 1] /\ ~ well_used 1 [APut 0 1; AGet 0 1].
Proof. cbn. lia. Qed.
(** ** Threads that hold what they give back (the rules of C63) are never reported *)
Fixpoint fits (n : nat) (refs : nat -> Z) (s : list ract) : Prop :=
  match s with [] => True | a :: r => (match a with AGet _ k => 0 < k /\ total refs n + k < 2 ^ 63 | _ => True end) /\ fits n (refs_step refs a) r end.
Lemma legal_used : forall n s refs, (forall t, 0 <= refs t) -> legal_run n refs s -> total refs n < 2 ^ 63 -> fits n refs s -> countable (total refs n) s /\ well_used (total refs n) s.
Proof.
  intros n. induction s as [|a s IH]; intros refs P L T F; [split; exact Logic.I|]. destruct L as (L1 & L2). destruct F as (F1 & F2).
  assert (G : forall c, rc c = total refs n -> good n refs c) by (intros c E; unfold good; split; [exact P|split; [exact E|lia]]).
  destruct (good_step n refs {| rc := total refs n; rpcs := fun _ => RIdle; rlog := [] |} a (G {| rc := total refs n; rpcs := fun _ => RIdle; rlog := [] |} eq_refl) L1) as ((P' & _ & _) & _).
  assert (ST : total (refs_step refs a) n = count_after (total refs n) a /\ 0 <= count_after (total refs n) a < 2 ^ 63 /\
    (match a with AGet _ n | APut _ n => 0 < n < 2 ^ 63 | AGive _ _ _ => True | _ => False end) /\ match a with AGet _ _ => 0 < total refs n | APut _ k => 0 < total refs n /\ k <= total refs n | _ => True end).
  { destruct a as [t k|t k|t u k|t k|t]; cbn [legal refs_step count_after] in *; try contradiction.
    - destruct L1 as (Ht & H1 & H2 & H3). pose proof (total_ge refs t n P Ht). rewrite total_set by exact Ht. lia.
    - destruct L1 as (Ht & H1). pose proof (total_ge refs t n P Ht). rewrite total_set by exact Ht. lia.
    - destruct L1 as (Ht & Hu & Ne & H1). pose proof (total_ge refs t n P Ht). rewrite total_set by exact Hu. rewrite total_set by exact Ht. rewrite rset_other by (intros e; apply Ne; symmetry; exact e). repeat split; lia. }
  destruct ST as (E & B & K1 & K2). destruct (IH (refs_step refs a) P' L2) as (I1 & I2); [rewrite E; lia|exact F2|]. rewrite E in I1, I2. cbn [countable well_used]. repeat split; try assumption; lia.
Qed.
Theorem C120_no_false_alarm : forall n s, (1 <= n)%nat -> legal_run n ref0 s -> fits n ref0 s -> dmessages (rlog (rrun rinit s)) = Some [].
Proof.
  intros n s H L F. destruct (good_init n H) as (P & _ & _). destruct (legal_used n s ref0 P L) as (C & U); [rewrite total_ref0 by exact H; lia|exact F|]. rewrite total_ref0 in C, U by exact H.
  change rinit with {| rc := w64 1; rpcs := fun _ => RIdle; rlog := [] |}. apply C120_silent; [lia|exact C|exact U].
Qed.
Example C120_no_false_alarm_case : let s := [AGet 0 1; AGive 0 1 1; APut 0 1; APut 1 1]%nat in legal_run 2 ref0 s /\ fits 2 ref0 s /\ rlog (rrun rinit s) = [RGet 0 1 1; RPut 0 1 2 false; RPut 1 1 1 true].
Proof. cbn. unfold total, rset, ref0. cbn. repeat split; try lia. Qed.
(** ** A count that outgrows intptr_t is not reported: no take is ever reported as overflow, the check comes after the undefined sum *)
Theorem C120_overflow_never : forall t n old, 0 <= n < 2 ^ 63 -> dcheck (RGet t n old) <> Some (Some ADD_OVF).
Proof.
  intros t n old Hn. cbn [dcheck]. destruct (sg old =? 0); [discriminate|]. destruct (Z.ltb_spec (sg old) 0); [discriminate|]. rewrite (sg_small n) by exact Hn. unfold ssum. destruct (_ && _); [|discriminate].
  destruct (Z.ltb_spec (sg old + n) 0); [lia|discriminate].
Qed.
Theorem C120_overflow_refuted : exists z s, 0 < z < 2 ^ 63 /\ well_used z s /\ dmessages (rlog (rrun {| rc := w64 z; rpcs := fun _ => RIdle; rlog := [] |} s)) = None /\
  rc (rrun {| rc := w64 z; rpcs := fun _ => RIdle; rlog := [] |} s) = 2 ^ 63.
Proof. exists (2 ^ 63 - 1), [AGet 0 1]. split; [lia|]. split; [cbn; lia|]. vm_compute. split; reflexivity. Qed.
(** ** The guarded take: alone on a live count it is silent; on a count of 0, where it rightly does nothing, it is reported as overflow *)
Theorem C120_addnz_alone : forall t n z, 0 < z -> 0 < n -> z + n < 2 ^ 63 ->
  dmessages (rlog (rrun {| rc := z; rpcs := fun _ => RIdle; rlog := [] |} [AAddnz t n; AStep t; AStep t])) = Some [].
Proof.
  intros t n z Hz Hn B. destruct (C63_addnz_alone_partial {| rc := z; rpcs := fun _ => RIdle; rlog := [] |} t n eq_refl) as (_ & _ & E); cbn [rc]; try lia. destruct E as (_ & ->); [cbn [rc]; lia|]. cbn [rc rlog app dmessages dcheck].
  rewrite !sg_small by lia. destruct (Z.ltb_spec (z + n) 0); [lia|]. unfold ssum. destruct (Z.leb_spec (- 2 ^ 63) (z + n - n)); [|lia]. destruct (Z.ltb_spec (z + n - n) (2 ^ 63)); [|lia]. cbn [andb]. destruct (Z.ltb_spec (z + n - n) 0); [lia|reflexivity].
Qed.
Theorem C120_addnz_zero_refuted : forall t n, 0 < n < 2 ^ 63 ->
  dmessages (rlog (rrun {| rc := 0; rpcs := fun _ => RIdle; rlog := [] |} [AAddnz t n])) = Some [ADDNZ_OVF] /\ rc (rrun {| rc := 0; rpcs := fun _ => RIdle; rlog := [] |} [AAddnz t n]) = 0.
Proof.
  intros t n Hn. split; [|reflexivity]. cbn [rrun fold_left rstep rpcs]. unfold addnz_loop. cbn [rc Z.eqb negb andb rlog app dmessages dcheck]. rewrite (sg_small n) by lia. change (sg 0) with 0. cbn [Z.ltb Z.compare]. rewrite Z.sub_0_l. unfold ssum.
  destruct (Z.leb_spec (- 2 ^ 63) (- n)); [|lia]. destruct (Z.ltb_spec (- n) (2 ^ 63)); [|lia]. cbn [andb]. destruct (Z.ltb_spec (- n) 0); [reflexivity|lia].
Qed.
Print Assumptions C120_exact.
Print Assumptions C120_silent.
Print Assumptions C120_no_false_alarm.
Print Assumptions C120_overflow_never.
Print Assumptions C120_overflow_refuted.
Print Assumptions C120_addnz_alone.
Print Assumptions C120_addnz_zero_refuted.
