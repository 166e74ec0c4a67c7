(** * Giving values to multi precision integers: the claims *)
From Verif Require Import Lib BitsModel MpiModel MpiSpec MpiProofs MpiProofs2 MpiProps MpiStoreModel MpiStoreSpec.

Lemma copy_words_ok : forall buffer a c, length c = length buffer ->
  copy_words (a ++ c) buffer (zlen a) = Some (a ++ buffer).
Proof.
  induction buffer as [|x b IH]; intros a c L.
  - destruct c; [reflexivity|discriminate].
  - destruct c as [|y c]; [discriminate|]. cbn [copy_words].
    assert (E : wr (a ++ y :: c) (zlen a) x = Some ((a ++ [x]) ++ c)).
    { destruct (wr_spec _ (a ++ y :: c) (zlen a) x) as (l' & E & Ln & R).
      { unfold zlen. rewrite app_length. cbn [length]. lia. }
      rewrite E. f_equal. apply rd_ext. intros i. rewrite R. unfold rd, zlen.
      destruct (Z.ltb_spec i 0); [destruct (Z.eqb_spec i (Z.of_nat (length a))); [lia|reflexivity]|].
      destruct (Z.eqb_spec i (Z.of_nat (length a))) as [->|N].
      - rewrite Nat2Z.id, <- app_assoc. rewrite nth_error_app2, Nat.sub_diag by lia. reflexivity.
      - rewrite <- app_assoc. destruct (Nat.lt_ge_cases (Z.to_nat i) (length a)) as [C|C].
        + rewrite !nth_error_app1 by lia. reflexivity.
        + rewrite !nth_error_app2 by lia. destruct (Z.to_nat i - length a)%nat eqn:D; [lia|]. reflexivity. }
    rewrite E. replace (zlen a + 1) with (zlen (a ++ [x])) by (unfold zlen; rewrite app_length; cbn [length]; lia).
    rewrite IH by (injection L; auto). rewrite <- app_assoc. reflexivity.
Qed.

Lemma resize_len : forall junk d n, 0 <= n -> length (resize junk d n) = Z.to_nat n.
Proof. intros. unfold resize. rewrite app_length, firstn_length, repeat_length. lia. Qed.

(** a copy depends neither on the old contents nor on fresh memory *)
Lemma mpi_copy_ok : forall fail junk d b, mpi_copy fail junk d b = Some (if fail then (- ENOMEM, d) else (0, relocation b)).
Proof.
  intros [|] junk d b; [reflexivity|]. unfold mpi_copy.
  pose proof (resize_len junk d (zlen b) ltac:(unfold zlen; lia)) as L. unfold zlen in L at 2. rewrite Nat2Z.id in L.
  destruct (Z.eqb_spec (zlen b) 0) as [Z0|_].
  - destruct b; [|unfold zlen in Z0; cbn [length] in Z0; lia].
    cbn [length] in L. destruct (resize junk d (zlen [])); [reflexivity|discriminate].
  - pose proof (copy_words_ok b [] (resize junk d (zlen b)) L) as C. cbn [app] in C. change (zlen []) with 0 in C.
    rewrite C. reflexivity.
Qed.
Lemma mpi_seti_f_ok : forall fail junk d vi, mpi_seti_f fail junk d vi = Some (if fail then (- ENOMEM, d) else (0, mpi_seti vi)).
Proof.
  intros [|] junk d vi; [reflexivity|]. unfold mpi_seti_f, mpi_seti. destruct (Z.eqb_spec vi 0) as [->|N].
  - pose proof (resize_len junk d 0 ltac:(lia)) as L. destruct (resize junk d 0); [reflexivity|discriminate].
  - pose proof (resize_len junk d 1 ltac:(lia)) as L. destruct (resize junk d 1) as [|x [|y l]]; try discriminate. reflexivity.
Qed.

(** the objects hold the integers *)
Definition holds_ints (s : list mpi) (v : list Z) : Prop := map ival s = v /\ Forall canonical s.

Lemma nth_var : forall s v i d, holds_ints s v -> rd s i = Some d -> get_var v i = ival d /\ canonical d.
Proof.
  intros s v i d (E & C) R. subst v. split; [|apply rd_in in R; rewrite Forall_forall in C; auto].
  unfold get_var. unfold rd in R. destruct (i <? 0); [discriminate|].
  apply nth_error_nth. apply map_nth_error. exact R.
Qed.

Lemma wr_split : forall A (l : list A) i x, 0 <= i < zlen l ->
  wr l i x = Some (firstn (Z.to_nat i) l ++ x :: skipn (S (Z.to_nat i)) l).
Proof.
  intros A l i x Hi. destruct (wr_spec A l i x Hi) as (l' & E & L & R). rewrite E. f_equal. apply rd_ext. intros j. rewrite R.
  unfold zlen in *. unfold rd. destruct (Z.ltb_spec j 0); [destruct (Z.eqb_spec j i); [lia|reflexivity]|].
  assert (LF : length (firstn (Z.to_nat i) l) = Z.to_nat i) by (rewrite firstn_length; lia).
  destruct (Z.eqb_spec j i) as [->|N].
  - rewrite nth_error_app2, LF, Nat.sub_diag by lia. reflexivity.
  - rewrite <- (firstn_skipn (Z.to_nat i) l) at 1.
    destruct (Nat.lt_ge_cases (Z.to_nat j) (Z.to_nat i)) as [C|C].
    + rewrite !nth_error_app1 by lia. reflexivity.
    + rewrite !nth_error_app2 by lia. rewrite LF. destruct (Z.to_nat j - Z.to_nat i)%nat as [|k] eqn:D; [lia|]. cbn [nth_error].
      destruct (skipn (Z.to_nat i) l) as [|y t] eqn:S1.
      * apply (f_equal (@length A)) in S1. rewrite skipn_length in S1. cbn [length] in S1. lia.
      * cbn [nth_error]. f_equal. change (S (Z.to_nat i)) with (1 + Z.to_nat i)%nat.
        replace (skipn (1 + Z.to_nat i) l) with (skipn 1 (skipn (Z.to_nat i) l)); [rewrite S1; reflexivity|].
        clear. revert l. induction (Z.to_nat i) as [|n IH]; intros l; [reflexivity|]. destruct l; [reflexivity|]. cbn [skipn]. apply IH.
Qed.

Lemma wr_ints : forall s v i d, holds_ints s v -> is_var v i -> canonical d ->
  exists s', wr s i d = Some s' /\ holds_ints s' (set_var v i (ival d)).
Proof.
  intros s v i d (E & C) Hi Cd. subst v. unfold is_var, zlen in Hi. rewrite map_length in Hi.
  eexists. split; [apply wr_split; unfold zlen; lia|]. split.
  - unfold set_var. rewrite map_app. cbn [map]. rewrite firstn_map, skipn_map. reflexivity.
  - apply Forall_app. split; [|constructor; [exact Cd|]]; rewrite Forall_forall in *; intros x Hx; apply C.
    + rewrite <- (firstn_skipn (Z.to_nat i) s). apply in_or_app. left. exact Hx.
    + rewrite <- (firstn_skipn (S (Z.to_nat i)) s). apply in_or_app. right. exact Hx.
Qed.

Lemma set_same : forall v i, is_var v i -> set_var v i (get_var v i) = v.
Proof.
  intros v i Hi. unfold is_var, zlen in Hi. unfold set_var, get_var.
  pose proof (wr_split _ v i (nth (Z.to_nat i) v 0) ltac:(unfold zlen; lia)) as W.
  destruct (wr_spec _ v i (nth (Z.to_nat i) v 0) ltac:(unfold zlen; lia)) as (l' & E & _ & R).
  rewrite E in W. apply (f_equal (fun o => match o with Some x => x | None => [] end)) in W. cbv beta iota in W. etransitivity; [symmetry; exact W|]. apply rd_ext. intros j. rewrite R. destruct (Z.eqb_spec j i) as [->|]; [|reflexivity].
  unfold rd. destruct (Z.ltb_spec i 0); [lia|]. symmetry. apply nth_error_nth'. lia.
Qed.

Lemma canonical_relocation : forall b sign, Forall u64 b -> (val b = 0 -> sign = true) ->
  canonical (Mpi (relocation b) sign) /\ ival (Mpi (relocation b) sign) = if sign then val b else - val b.
Proof.
  intros b sign U Z0. unfold ival. cbn [plus limbs]. rewrite relocation_val. split; [|reflexivity].
  split; [exact (relocation_normal b U)|]. cbn [plus limbs]. intros E. apply Z0. rewrite <- relocation_val, E. reflexivity.
Qed.
Lemma canonical_seti : forall vi, u64 vi -> canonical (Mpi (mpi_seti vi) true) /\ ival (Mpi (mpi_seti vi) true) = vi.
Proof.
  intros vi U. unfold mpi_seti, ival, canonical, wf, normal. destruct (Z.eqb_spec vi 0) as [->|N]; cbn [limbs plus val last].
  - repeat split; auto. lia.
  - repeat split; auto. lia.
Qed.

Lemma assign_ok : forall s v i d (fail : bool) d' x, holds_ints s v -> is_var v i -> rd s i = Some d ->
  canonical d' -> ival d' = x ->
  exists r s' v', store1 s i (Some (if fail then (- ENOMEM, d) else (0, d'))) = Some (r, s') /\
    assigns fail v i x r v' /\ holds_ints s' v'.
Proof.
  intros s v i d fail d' x H Hi R C E. destruct (nth_var s v i d H R) as [G Cd]. unfold store1. destruct fail; cbn [fst snd].
  - destruct (wr_ints s v i d H Hi Cd) as (s' & W & H'). rewrite W. rewrite <- G, set_same in H' by exact Hi.
    exists (Code (- ENOMEM)), s', v. split; [reflexivity|]. split; [right; auto|exact H'].
  - destruct (wr_ints s v i d' H Hi C) as (s' & W & H'). rewrite W. rewrite E in H'.
    exists (Code 0), s', (set_var v i x). split; [reflexivity|]. split; [left; auto|exact H'].
Qed.

Lemma rd_var : forall s v i, holds_ints s v -> is_var v i -> exists d, rd s i = Some d.
Proof. intros s v i (E & _) Hi. apply rd_some. subst v. unfold is_var, zlen in *. rewrite map_length in Hi. exact Hi. Qed.

Lemma mpi_eta : forall d, Mpi (limbs d) (plus d) = d.
Proof. intros []. reflexivity. Qed.

Lemma mstep_ok : forall fails junk n s v op, holds_ints s v -> proper v op ->
  exists r s' v', mstep fails junk n s op = Some (r, s') /\ does (fails n) v op r v' /\ holds_ints s' v'.
Proof.
  intros fails junk n s v op H P. destruct op as [i vi|i j|i b sign|i|i j]; cbn [proper] in P; cbn [mstep does].
  - destruct P as [Hi U]. destruct (rd_var s v i H Hi) as [d R]. rewrite R.
    destruct (canonical_seti vi U) as [C E].
    destruct (assign_ok s v i d (fails n) _ vi H Hi R C E) as (r & s' & v' & W & A & H').
    exists r, s', v'. split; [|auto]. rewrite <- W. f_equal. unfold do_seti. rewrite mpi_seti_f_ok.
    destruct (fails n); cbn [fst snd Z.eqb negb]; [rewrite mpi_eta|]; reflexivity.
  - destruct P as [Hi Hj]. destruct (rd_var s v i H Hi) as [d R]. destruct (rd_var s v j H Hj) as [a Ra]. rewrite R, Ra.
    destruct (nth_var s v j a H Ra) as [G Ca]. rewrite G.
    destruct (Z.eqb_spec i j) as [->|N].
    + assert (a = d) by congruence. subst a.
      destruct (assign_ok s v j d false d (ival d) H Hi R Ca eq_refl) as (r & s' & v' & W & A & H').
      exists r, s', v'. split; [rewrite <- W; f_equal; unfold do_set; cbn [fst snd Z.eqb negb]; rewrite mpi_eta; reflexivity|].
      split; [|exact H']. destruct A as [A|[A _]]; [left; exact A|discriminate].
    + assert (C : relocation (limbs a) = limbs a) by (apply normal_relocation; exact (proj2 (proj1 Ca))).
      destruct (assign_ok s v i d (fails n) a (ival a) H Hi R Ca eq_refl) as (r & s' & v' & W & A & H').
      exists r, s', v'. split; [|auto]. rewrite <- W. f_equal. unfold do_set. rewrite mpi_copy_ok, C.
      destruct (fails n); cbn [fst snd Z.eqb negb]; rewrite mpi_eta; reflexivity.
  - destruct P as (Hi & U & Z0). destruct (rd_var s v i H Hi) as [d R]. rewrite R.
    destruct (canonical_relocation b sign U Z0) as [C E].
    destruct (assign_ok s v i d (fails n) _ _ H Hi R C E) as (r & s' & v' & W & A & H').
    exists r, s', v'. split; [|auto]. rewrite <- W. f_equal. unfold do_import. rewrite mpi_copy_ok.
    destruct (fails n); cbn [fst snd Z.eqb negb]; [rewrite mpi_eta|]; reflexivity.
  - destruct (rd_var s v i H P) as [d R]. rewrite R. destruct (nth_var s v i d H R) as [G [[U La] Cz]].
    eexists _, s, v. split; [reflexivity|]. split; [|exact H]. split; [reflexivity|]. rewrite G. unfold ival in *. unfold do_data. cbn [fst snd].
    pose proof (val_range (limbs d) U) as VR.
    destruct (Z.eqb_spec (zlen (limbs d)) 0) as [E|E].
    + assert (LN : limbs d = []) by (destruct (limbs d); [reflexivity|unfold zlen in E; cbn [length] in E; lia]).
      rewrite LN, (Cz LN). exists [0], true. split; [reflexivity|]. split; [discriminate|]. split; [repeat constructor; unfold u64; lia|].
      split; [reflexivity|]. split; [cbn [val]; split; [lia|reflexivity]|left; reflexivity].
    + assert (NE : limbs d <> []) by (intros LN; rewrite LN in E; apply E; reflexivity).
      pose proof (normal_pos (limbs d) (conj U La) NE) as VP.
      exists (limbs d), (plus d). split; [reflexivity|]. split; [exact NE|]. split; [exact U|]. split; [reflexivity|].
      split; [destruct (plus d); split; intros; try reflexivity; try discriminate; lia|].
      right. clear - La NE. induction (limbs d) as [|x [|y l] IH]; [congruence|exact La|]. apply IH; [exact La|discriminate].
  - destruct P as [Hi Hj]. destruct (rd_var s v i H Hi) as [d R]. destruct (rd_var s v j H Hj) as [a Ra]. rewrite R, Ra.
    destruct (nth_var s v i d H R) as [Gd Cd]. destruct (nth_var s v j a H Ra) as [Ga Ca].
    rewrite (C28_cmp d a Cd Ca), Gd, Ga. eexists _, s, v. split; [reflexivity|]. auto.
Qed.

Lemma does_len : forall failed v op r v', proper v op -> does failed v op r v' -> zlen v' = zlen v.
Proof.
  assert (S : forall v i x, is_var v i -> zlen (set_var v i x) = zlen v).
  { intros v i x Hi. unfold is_var, zlen, set_var in *. rewrite app_length. cbn [length]. rewrite firstn_length, skipn_length. lia. }
  assert (A : forall f v i x r v', is_var v i -> assigns f v i x r v' -> zlen v' = zlen v).
  { intros f v i x r v' Hi [(_ & ->)|(_ & _ & ->)]; auto. }
  intros failed v [] r v' P D; cbn [proper does] in *.
  - exact (A _ _ _ _ _ _ (proj1 P) D).
  - exact (A _ _ _ _ _ _ (proj1 P) D).
  - exact (A _ _ _ _ _ _ (proj1 P) D).
  - destruct D as [-> _]. reflexivity.
  - destruct D as [-> _]. reflexivity.
Qed.
Lemma proper_len : forall v v' op, zlen v' = zlen v -> proper v op -> proper v' op.
Proof. intros v v' op E P. destruct op; cbn [proper] in *; unfold is_var in *; rewrite E; exact P. Qed.

(** ** C139 *)
(** Fresh objects hold zero, and any history of assignments, imports, exports and comparisons treats
    them as variables that hold integers, when any assignment may run out of memory. *)
Theorem C139_history_partial : forall fails junk k ops, Forall (proper (repeat 0 k)) ops ->
  exists rs s' v', mruns fails junk 0 (repeat (Mpi [] true) k) ops = Some (rs, s') /\
    trace fails 0 (repeat 0 k) ops rs v' /\ map ival s' = v'.
Proof.
  intros fails junk k ops.
  assert (G : forall ops n s v, holds_ints s v -> Forall (proper v) ops ->
    exists rs s' v', mruns fails junk n s ops = Some (rs, s') /\ trace fails n v ops rs v' /\ holds_ints s' v').
  { clear ops k. induction ops as [|op ops IH]; intros n s v H F.
    - exists [], s, v. split; [reflexivity|]. split; [constructor|exact H].
    - apply Forall_cons_iff in F. destruct F as [P F].
      destruct (mstep_ok fails junk n s v op H P) as (r & s1 & v1 & E & D & H1).
      pose proof (does_len _ _ _ _ _ P D) as L.
      destruct (IH (S n) s1 v1 H1) as (rs & s' & v' & E2 & T & H2).
      { eapply Forall_impl; [|exact F]. intros o. apply proper_len. exact L. }
      exists (r :: rs), s', v'. cbn [mruns]. rewrite E. cbn [fst snd]. rewrite E2.
      split; [reflexivity|]. split; [econstructor; eauto|exact H2]. }
  intros F. destruct (G ops 0%nat (repeat (Mpi [] true) k) (repeat 0 k)) as (rs & s' & v' & E & T & H).
  - split; [clear; induction k as [|k IH]; [reflexivity|cbn [repeat map]; rewrite IH; reflexivity]|].
    apply Forall_forall. intros x Hx. apply repeat_spec in Hx. subst x. repeat split; auto. constructor. cbn. lia.
  - exact F.
  - exists rs, s', v'. split; [exact E|]. split; [exact T|exact (proj1 H)].
Qed.

(** Zero imported with the negative sign is stored as a negative zero: it stands for 0, yet compares as
    less than 0 and is exported as negative. *)
Theorem C139_negative_zero_refuted : exists buffer s, Forall u64 buffer /\ val buffer = 0 /\
  mruns (fun _ => false) (fun _ => 0) 0 [Mpi [] true; Mpi [] true] [Import 0 buffer false; Cmp 0 1; Data 0] =
    Some ([Code 0; Code (-1); Words [0] false], s) /\ map ival s = [0; 0].
Proof.
  exists [0; 0], [Mpi [] false; Mpi [] true]. split; [repeat constructor; unfold u64; lia|]. split; [reflexivity|].
  split; [vm_compute; reflexivity|reflexivity].
Qed.

(** leading zero words, a failed assignment and an assignment to itself *)
Example C139_ex : Forall (proper (repeat 0 2)) [Import 0 [5; 7; 0; 0] false; SetTo 1 0; Seti 0 9; Data 1; SetTo 1 1; Cmp 0 1; Import 0 [] true; Data 0] /\
  mruns (fun n => Nat.eqb n 2) (fun _ => 99) 0 (repeat (Mpi [] true) 2)
    [Import 0 [5; 7; 0; 0] false; SetTo 1 0; Seti 0 9; Data 1; SetTo 1 1; Cmp 0 1; Import 0 [] true; Data 0] =
  Some ([Code 0; Code 0; Code (- ENOMEM); Words [5; 7] false; Code 0; Code 0; Code 0; Words [0] true], [Mpi [] true; Mpi [5; 7] false]).
Proof.
  split; [|vm_compute; reflexivity].
  assert (V0 : is_var (repeat 0 2) 0) by (unfold is_var, zlen; cbn [repeat length]; lia).
  assert (V1 : is_var (repeat 0 2) 1) by (unfold is_var, zlen; cbn [repeat length]; lia).
  assert (U5 : u64 5) by (unfold u64; lia). assert (U7 : u64 7) by (unfold u64; lia).
  assert (U0 : u64 0) by (unfold u64; lia). assert (U9 : u64 9) by (unfold u64; lia).
  repeat apply Forall_cons; try apply Forall_nil; cbn [proper]; auto.
  split; [exact V0|]. split; [auto|]. intros X. vm_compute in X. discriminate.
Qed.

Print Assumptions C139_history_partial.
Print Assumptions C139_negative_zero_refuted.
