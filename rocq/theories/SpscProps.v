(** * C112: one producer and one consumer share a FIFO without a lock *)
From Coq Require Import Lia.
From Verif Require Import Lib Mem FifoModel FifoSpec FifoProofs SpscModel SpscSpec SpscProofs SpscProofs2 SpscProofs3.

Lemma sinit_inv : forall cp cc f, wf f -> Sinv cp cc (f_esize f) (cap f) (contents f) (sinit f).
Proof.
  intros cp cc f W. exists (fun _ => contents f). split.
  - split; [|intros i e H; destruct i; discriminate H]. intros i _. rewrite (pending_contents f W). split; [apply (wf_valid f W)|apply (contents_zlen f W)].
  - split; [reflexivity|]. split; [reflexivity|]. split; [exact W|]. split; [reflexivity|]. split; [reflexivity|]. split; [exact I|]. split; [exact I|]. split; [reflexivity|]. split; [reflexivity|]. split; apply issued_nil.
Qed.
(** ** Every interleaving of the accesses, bytes of a copy in any order, adaptive threads, any counters: no access leaves the buffers, the completed calls
    work on one queue that never exceeds the capacity, each thread sees its own calls in order. *)
Theorem C112_spsc : forall cp cc f sched, wf f -> roles (f_esize f) cp cc ->
  exists s qs, srun cp cc sched (sinit f) = Some s /\
    explains (f_esize f) (cap f) qs (slog s) /\ qs O = contents f /\ qs (length (slog s)) = contents (sf s) /\ wf (sf s) /\
    hp s = side true (slog s) /\ hc s = side false (slog s) /\ issued cp (hp s) /\ issued cc (hc s).
Proof.
  intros cp cc f sched W R. destruct (srun_ok cp cc _ _ _ R sched _ (sinit_inv cp cc f W)) as (s & E & qs & A & B & C & D & _ & _ & _ & _ & F & G & H & K). exists s, qs. auto 20.
Qed.
(** ** The threads never have the same byte of the element buffer in hand, at any point of any interleaving *)
Theorem C112_no_race : forall cp cc f sched s a, wf f -> roles (f_esize f) cp cc -> srun cp cc sched (sinit f) = Some s ->
  In a (p_todo (sp s)) -> ~ In a (c_todo (sc s)).
Proof.
  intros cp cc f sched s a W R E. destruct (srun_ok cp cc _ _ _ R sched _ (sinit_inv cp cc f W)) as (s1 & E1 & I). assert (s1 = s) by congruence. subst s1. eapply Sinv_disjoint. exact I.
Qed.
(** ** The log is in the order of completion, and the queue by which a call is explained is not older than its beginning: of a thread that is between two
    calls when [L] calls are complete, every later call looks at the queue at [L] or after *)
Theorem C112_real_time : forall cp cc f sched s sched' s' (t : bool) i e, wf f -> roles (f_esize f) cp cc ->
  srun cp cc sched (sinit f) = Some s -> srun cp cc sched' s = Some s' -> (if t then sp s = PIdle else sc s = CIdle) ->
  (length (slog s) <= i)%nat -> nth_error (slog s') i = Some e -> e_prod e = t ->
  (exists l, slog s' = slog s ++ l) /\ (length (slog s) <= e_since e <= i)%nat.
Proof.
  intros cp cc f sched s sched' s' t i e W R E E' Idle Hi He Ht. split; [eapply log_grows; exact E'|].
  assert (RI : Rinv t (length (slog s)) s). { split; [lia|]. split; [destruct t; unfold begun; rewrite Idle; exact I|]. intros j e' Hj Hn _. assert (j < length (slog s))%nat by (apply nth_error_Some; congruence). lia. }
  destruct (Rinv_run _ _ _ _ _ _ _ RI E') as (_ & _ & H). split; [eapply H; eassumption|].
  destruct (srun_ok cp cc _ _ _ R (sched ++ sched') _ (sinit_inv cp cc f W)) as (s1 & E1 & qs & (_ & X) & _). rewrite srun_app, E, E' in E1. injection E1 as <-. apply (X i e He).
Qed.
(** ** What goes in comes out, byte by byte and in order: nothing lost, doubled or torn (without [homing], which discards) *)
Theorem C112_stream : forall cp cc f sched s, wf f -> roles (f_esize f) cp cc -> srun cp cc sched (sinit f) = Some s ->
  (forall e, In e (slog s) -> e_op e <> OHoming) ->
  contents f ++ concat (map (brought (f_esize f)) (slog s)) = concat (map took (slog s)) ++ contents (sf s).
Proof.
  intros cp cc f sched s W R E NH. destruct (C112_spsc cp cc f sched W R) as (s1 & qs & E1 & (_ & X) & Q0 & QL & W' & HP & HC & IP & IC). assert (s1 = s) by congruence. subst s1. rewrite <- Q0, <- QL. clear E E1 Q0 QL.
  assert (PO : forall e, In e (slog s) -> p_op (e_op e) \/ c_op (e_op e)).
  { intros e He. apply in_split in He as (l1 & l2 & El). destruct R as (RP & RC). destruct (e_prod e) eqn:T.
    - left. rewrite El, side_app in HP. cbn [side] in HP. rewrite T in HP. cbn [Bool.eqb] in HP. apply (RP _ _ (IP _ _ _ _ HP)).
    - right. rewrite El, side_app in HC. cbn [side] in HC. rewrite T in HC. cbn [Bool.eqb] in HC. apply (RC _ _ (IC _ _ _ _ HC)). }
  clear HP HC IP IC W'.
  assert (ST : forall i e, nth_error (slog s) i = Some e -> qs i ++ brought (f_esize f) e = took e ++ qs (Datatypes.S i)).
  { intros i e He. destruct (X i e He) as (_ & Du & _). pose proof (NH e (nth_error_In _ _ He)) as N. pose proof (PO e (nth_error_In _ _ He)) as P. destruct e as [t o [r b] since]. unfold brought, took. cbn [e_op e_ret e_since fst snd] in *.
    destruct o; cbn [during queue_step common_step] in Du; cbn [p_op c_op] in P; try (exfalso; tauto); try (injection Du as <- <- <-; rewrite ?app_nil_r; cbn [app]; reflexivity).
    - injection Du as <- <- <-. rewrite app_nil_r. symmetry. apply firstn_skipn.
    - destruct (_ =? _); injection Du as <- <- <-; cbn; rewrite ?app_nil_r; reflexivity.
    - destruct (_ =? _); injection Du as <- <- <-; rewrite ?app_nil_r; [reflexivity|symmetry; apply firstn_skipn].
    - destruct (_ =? _); injection Du as <- <- <-; rewrite ?app_nil_r; reflexivity. }
  clear X NH PO. revert qs ST. induction (slog s) as [|e l IH]; intros qs ST; [cbn; rewrite app_nil_r; reflexivity|]. cbn [map concat length]. rewrite app_assoc, (ST O e eq_refl), <- app_assoc. rewrite (IH (fun i => qs (Datatypes.S i)) (fun i e' H => ST (Datatypes.S i) e' H)). apply app_assoc.
Qed.
(** ** If every call looked only once, moved one element or moved all it was asked for, then the calls, one after the other in the order of their completion,
    are those of the bounded queue of C08 *)
Theorem C112_sequential : forall cp cc f sched s, wf f -> roles (f_esize f) cp cc -> srun cp cc sched (sinit f) = Some s -> Forall exact_call (slog s) ->
  arun (queue_step (f_esize f) (cap f)) (contents f) (ops_of (slog s)) = (rets_of (slog s), contents (sf s)).
Proof.
  intros cp cc f sched s W R E EX. destruct (C112_spsc cp cc f sched W R) as (s1 & qs & E1 & X & Q0 & QL & W' & HP & HC & IP & IC). assert (s1 = s) by congruence. subst s1. rewrite <- Q0, <- QL. apply arun_log. intros i e He.
  rewrite Forall_forall in EX. eapply exact_ok; [pose proof (wf_cap f W); lia|exact X|exact He|apply EX; eapply nth_error_In; exact He|].
  apply nth_error_In, in_split in He as (l1 & l2 & El). destruct R as (RP & RC). destruct (e_prod e) eqn:T.
  - rewrite El, side_app in HP. cbn [side] in HP. rewrite T in HP. cbn [Bool.eqb] in HP. apply (RP _ _ (IP _ _ _ _ HP)).
  - rewrite El, side_app in HC. cbn [side] in HC. rewrite T in HC. cbn [Bool.eqb] in HC. apply (RC _ _ (IC _ _ _ _ HC)).
Qed.
(** A concrete run over the wrap of the counters: elements of two bytes, capacity 2, put and get overlapping byte by byte. *)
Definition xf : fifo := {| f_in := 2 ^ 64 - 1; f_out := 2 ^ 64 - 2; f_mask := 1; f_esize := 2; f_data := [1; 2; 3; 4] |}.
Definition xp : client := fun h => match length h with O => Some (OPut [7; 8]) | 1%nat => Some (OIn [5; 6; 9; 9] 1) | 2%nat => Some OFull | _ => None end.
Definition xc : client := fun h => match length h with O => Some (OOut 1) | 1%nat => Some OGet | 2%nat => Some OEmpty | _ => None end.
Lemma xf_wf : wf xf.
Proof. exists 1. unfold cap, fifo_valid, u64. cbn. lia. Qed.
Lemma xroles : roles 2 xp xc.
Proof.
  split; intros h o E; destruct h as [|a [|b [|c h]]]; cbn in E; try discriminate E; injection E as <-; cbn; (split; [exact I|]); unfold zlen; cbn; lia.
Qed.
Definition xsched : list (bool * nat) := [(true, 0); (false, 1); (true, 1); (false, 1); (false, 0); (true, 0); (true, 0); (false, 0); (true, 0); (false, 0); (true, 0); (false, 1); (true, 1); (false, 0); (false, 0); (true, 0); (true, 0); (false, 0); (true, 0)]%nat.
Example C112_case : wf xf /\ roles (f_esize xf) xp xc /\ contents xf = [1; 2] /\
  match srun xp xc xsched (sinit xf) with
  | Some s => map (fun e => (e_prod e, e_op e, e_ret e)) (slog s) =
      [(true, OPut [7; 8], (1, [])); (false, OOut 1, (1, [1; 2])); (false, OGet, (1, [7; 8])); (true, OIn [5; 6; 9; 9] 1, (1, [])); (true, OFull, (0, [])); (false, OEmpty, (0, []))] /\ contents (sf s) = [5; 6]
  | None => False
  end.
Proof. split; [exact xf_wf|]. split; [exact xroles|]. vm_compute. repeat split. Qed.

(** ** A call that moves part of what it was asked for need not take effect at one instant: the producer finds room for one of two elements, the consumer
    empties the queue and sees it empty, then one element arrives.  No order of the three calls that keeps the order of each thread explains the results. *)
Definition yf : fifo := {| f_in := 1; f_out := 0; f_mask := 1; f_esize := 1; f_data := [1; 2] |}.
Definition yp : client := fun h => match length h with O => Some (OIn [7; 8] 2) | _ => None end.
Definition yc : client := fun h => match length h with O => Some OGet | 1%nat => Some OLen | _ => None end.
Theorem C112_linearizable_refuted : exists cp cc f sched s, wf f /\ roles (f_esize f) cp cc /\ srun cp cc sched (sinit f) = Some s /\ sp s = PIdle /\ sc s = CIdle /\
  forall h, In h (merges (side true (slog s)) (side false (slog s))) -> fst (arun (queue_step (f_esize f) (cap f)) (contents f) (map fst h)) <> map snd h.
Proof.
  exists yp, yc, yf, [(true, 0); (false, 0); (false, 0); (false, 0); (false, 0); (true, 0); (true, 0)]%nat. eexists. split; [exists 1; unfold cap, fifo_valid, u64; cbn; lia|]. split; [|split; [vm_compute; reflexivity|]].
  - split; intros h o E; destruct h as [|a [|b [|c h]]]; cbn in E; try discriminate E; injection E as <-; cbn; (split; [exact I|]); unfold zlen; cbn; lia.
  - split; [reflexivity|]. split; [reflexivity|]. intros h H. vm_compute in H. repeat (destruct H as [<-|H]; [vm_compute; intros Q; discriminate Q|]). destruct H.
Qed.
(** all orders that keep the order of each thread *)
Theorem C112_merges : forall A (a b h : list A), In h (merges a b) <-> exists c : list bool, length c = length h /\
  a = map snd (filter (fun x => fst x) (combine c h)) /\ b = map snd (filter (fun x => negb (fst x)) (combine c h)).
Proof.
  intros A a. induction a as [|x a IHa].
  - intros b h. destruct b as [|y b]; cbn [merges In].
    + split; [intros [<-|[]]; exists []; auto|]. intros (c & L & Ha & Hb). left. destruct c as [|[|] c], h as [|z h]; try discriminate; reflexivity.
    + split; [intros [<-|[]]; exists (repeat false (Datatypes.S (length b)))|].
      * split; [rewrite repeat_length; reflexivity|]. change (Datatypes.S (length b)) with (length (y :: b)). generalize (y :: b). induction l as [|z l IH]; [auto|]. cbn [length repeat combine filter fst negb map snd]. destruct IH as (P & Q). split; [exact P|congruence].
      * intros (c & L & Ha & Hb). left. rewrite Hb. clear Hb. revert c L Ha. induction h as [|z h IH]; intros [|q c] L Ha; try discriminate; [reflexivity|]. cbn [combine filter fst negb map snd] in *. destruct q; [discriminate Ha|]. cbn [negb map snd]. f_equal. apply IH; [cbn in L; lia|exact Ha].
  - induction b as [|y b IHb]; intros h.
    + cbn [merges In]. split; [intros [<-|[]]; exists (repeat true (Datatypes.S (length a)))|].
      * split; [rewrite repeat_length; reflexivity|]. change (Datatypes.S (length a)) with (length (x :: a)). generalize (x :: a). induction l as [|z l IH]; [auto|]. cbn [length repeat combine filter fst negb map snd]. destruct IH as (P & Q). split; [congruence|exact Q].
      * intros (c & L & Ha & Hb). left. rewrite Ha. clear Ha. revert c L Hb. induction h as [|z h IH]; intros [|q c] L Hb; try discriminate; [reflexivity|]. cbn [combine filter fst negb map snd] in *. destruct q; [|discriminate Hb]. cbn [map snd]. f_equal. apply IH; [cbn in L; lia|exact Hb].
    + change (merges (x :: a) (y :: b)) with (map (cons x) (merges a (y :: b)) ++ map (cons y) (merges (x :: a) b)). rewrite in_app_iff, !in_map_iff. split.
      * intros [(h' & <- & H)|(h' & <- & H)].
        -- apply IHa in H as (c & L & Ha & Hb). exists (true :: c). cbn [length combine filter fst negb map snd]. split; [lia|]. split; [congruence|exact Hb].
        -- apply IHb in H as (c & L & Ha & Hb). exists (false :: c). cbn [length combine filter fst negb map snd]. split; [lia|]. split; [exact Ha|congruence].
      * intros (c & L & Ha & Hb). destruct c as [|q c], h as [|z h]; try discriminate. cbn [combine filter fst negb map snd] in Ha, Hb. destruct q; cbn [negb map snd] in Ha, Hb.
        -- injection Ha as -> Ha. left. exists h. split; [reflexivity|]. apply IHa. exists c. cbn in L. auto.
        -- injection Hb as -> Hb. right. exists h. split; [reflexivity|]. apply IHb. exists c. cbn in L. auto.
Qed.
Print Assumptions C112_spsc.
Print Assumptions C112_no_race.
Print Assumptions C112_real_time.
Print Assumptions C112_stream.
Print Assumptions C112_sequential.
Print Assumptions C112_linearizable_refuted.
Print Assumptions C112_merges.
