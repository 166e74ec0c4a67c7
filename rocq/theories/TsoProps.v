(** * C115: one producer and one consumer on a machine with store buffers *)
From Coq Require Import Lia Permutation.
From Verif Require Import Lib Mem FifoModel FifoSpec FifoProofs SpscModel SpscSpec SpscProofs SpscProofs2 SpscProofs3 TsoModel TsoSpec TsoProofs SpscProps.

Lemma tinit_ok cp cc f : wf f -> Tinv (f_esize f) (cap f) (f_out f) (contents f) (fifo_valid f) cp cc (tinit f).
Proof.
  intros Wf. pose proof (wf_cap f Wf) as (C & E & D & S). pose proof (wf_valid f Wf) as V. exists 0, 0, (fifo_valid f), (fifo_valid f), (contents f), 0, 0.
  constructor; cbn [tinit tf tpb tcb tp tc thp thc]; try exact I; try lia; try constructor; try reflexivity.
  - exact Wf.
  - split; reflexivity.
  - unfold W. rewrite Z.add_0_r. symmetry. apply w64_small. apply (wf_out f Wf).
  - apply (in_eq f Wf).
  - apply (contents_zlen f Wf).
  - intros x Hx. unfold peekb. cbn [fold_left]. rewrite (view f Wf) by lia. unfold addr, A. reflexivity.
  - apply issued_nil.
  - apply issued_nil.
Qed.
Lemma trun_inv cp cc f sched : wf f -> roles (f_esize f) cp cc -> exists s, trun false cp cc sched (tinit f) = Some s /\ Tinv (f_esize f) (cap f) (f_out f) (contents f) (fifo_valid f) cp cc s.
Proof. intros Wf R. pose proof (wf_cap f Wf) as (C & E & D & S). apply trun_ok; [lia|lia|exact R|apply tinit_ok; exact Wf]. Qed.
(** Whatever the threads do and whenever stores reach memory: no access leaves the buffers (the run does not fail); the producer's calls make a stream of elements, the
    consumer's calls read it from the beginning, in order, each whole; each side may hear late, but never wrongly and never less than before, of how far the other is; once
    all stores have reached memory, the FIFO holds exactly what is left of the stream. *)
Theorem C115_stream : forall cp cc f sched, wf f -> roles (f_esize f) cp cc -> exists s st tot pos ps cs,
  trun false cp cc sched (tinit f) = Some s /\ p_run (f_esize f) (cap f) (contents f) (fifo_valid f) (thp s) st tot ps /\ c_run (f_esize f) (cap f) st (thc s) pos cs /\
  ps <= pos /\ cs <= tot /\ zlen st = tot * f_esize f /\ pos <= tot <= pos + cap f /\ issued cp (thp s) /\ issued cc (thc s) /\
  (tpb s = [] -> tcb s = [] -> tp s = PIdle -> wf (tf s) /\ contents (tf s) = drop (pos * f_esize f) st).
Proof.
  intros cp cc f sched Wf R. pose proof (wf_cap f Wf) as (C & E & D & S). destruct (trun_inv cp cc f sched Wf R) as (s & Es & (O & OC & II & IP & st & ps & cs & G)). exists s, st, IP, OC, ps, cs. pose proof (g_visible (f_esize f) (cap f) (f_out f) _ _ ltac:(lia) ltac:(lia) cp cc s O OC II IP st ps cs G) as Vis.
  destruct G as [(W1 & C1 & E1) Go Gi (K1 & K2 & K3 & K4) Gpb Gcb Gl Gp Gps Gc Gcs Ga Gpi Gci G1 G2]. split; [exact Es|]. do 2 (split; [assumption|]). split; [lia|]. split; [lia|]. split; [exact Gl|]. split; [lia|]. split; [exact G1|]. split; [exact G2|].
  intros P1 P2 P3. split; [exact W1|]. rewrite P1 in Gpb. rewrite P2 in Gcb. cbn [pbok cbok] in Gpb, Gcb. subst II OC. assert (V : fifo_valid (tf s) = IP - O) by (unfold fifo_valid; rewrite Go, Gi; apply (W_sub (cap f) (f_out f)); [lia|lia]).
  apply rd_ext. intros k. pose proof (contents_zlen _ W1) as Zc. rewrite V, E1 in Zc. assert (Zd : zlen (drop (O * f_esize f) st) = (IP - O) * f_esize f) by (unfold drop, zlen in *; rewrite skipn_length; nia).
  destruct (Z_lt_dec k 0); [|destruct (Z_lt_dec k ((IP - O) * f_esize f))].
  - transitivity (@None Z); [|symmetry]; apply rd_none_iff; lia.
  - rewrite (view _ W1) by (rewrite V, E1; lia). unfold drop. rewrite rd_skipn by nia. rewrite Go. rewrite (addrA (f_esize f) (cap f) (f_out f)); [|split; [exact W1|split; assumption]]. apply Vis. nia.
  - transitivity (@None Z); [|symmetry]; apply rd_none_iff; lia.
Qed.
(** The bytes the producer has still to change, in its store buffer or not yet there, are never ones the consumer has still to read. *)
Theorem C115_no_race : forall cp cc f sched s, wf f -> roles (f_esize f) cp cc -> trun false cp cc sched (tinit f) = Some s ->
  forall a, In a (pending_bytes (tpb s) ++ p_todo (tp s)) -> In a (c_todo (tc s)) -> False.
Proof.
  intros cp cc f sched s Wf R Es a Hp Hc. pose proof (wf_cap f Wf) as (C & E & D & S). destruct (trun_inv cp cc f sched Wf R) as (s1 & Es1 & (O & OC & II & IP & st & ps & cs & G)). assert (s1 = s) by congruence. subst s1.
  destruct G as [(W1 & C1 & E1) Go Gi (K1 & K2 & K3 & K4) Gpb Gcb Gl Gp Gps Gc Gcs Ga Gpi Gci G1 G2].
  assert (H1 : exists y, OC * f_esize f <= y < II * f_esize f /\ a = A (f_esize f) (cap f) (f_out f) y).
  { destruct (tc s) as [|since todo buff n adv]; [destruct Hc|]. destruct Gci as (op & c & L1 & L2 & L3 & L4 & L5 & L6 & L7 & L8 & L9 & L10 & L11 & L12 & L13). cbn [c_todo] in Hc. apply in_map_iff in Hc as ([a' k] & <- & Hk). destruct (L12 _ _ Hk) as (Hr & ->). exists (OC * f_esize f + k). split; [nia|reflexivity]. }
  assert (H2 : exists x, II * f_esize f <= x < (O + cap f) * f_esize f /\ a = A (f_esize f) (cap f) (f_out f) x).
  { apply in_app_iff in Hp as [Hp|Hp]; [apply (pbok_where (f_esize f) (cap f) (f_out f) ltac:(lia) _ _ _ _ a Gpb Hp)|]. destruct (tp s) as [|since todo n]; [destruct Hp|]. destruct Gpi as (op & c & J1 & J2 & J3 & J4 & J5 & J6 & J7 & J8 & J9). cbn [p_todo] in Hp. apply in_map_iff in Hp as ([a' w] & <- & Hw). destruct (J8 _ _ Hw) as (x & Hx & -> & _). exists x. split; [nia|reflexivity]. }
  destruct H1 as (y & Hy & ->), H2 as (x & Hx & Ex). apply (A_inj (f_esize f) (cap f) (f_out f) ltac:(lia) ltac:(lia) (O * f_esize f)) in Ex; nia.
Qed.
(** In terms of bytes: what the consumer took is the beginning of what was in the FIFO followed by what the producer was told it had put in. *)
Definition sent (es : Z) (x : op * result) : list Z := match fst x with OIn src _ => take (fst (snd x) * es) src | OPut e => if fst (snd x) =? 0 then [] else e | _ => [] end.
Definition received (x : op * result) : list Z := match fst x with OOut _ | OGet => snd (snd x) | _ => [] end.
Lemma p_run_sent es cz q0 n0 h st tot c : p_run es cz q0 n0 h st tot c -> st = q0 ++ concat (map (sent es) h).
Proof.
  induction 1 as [|h st tot c c' o r bs H IH H1 H2 H3]; [cbn; symmetry; apply app_nil_r|]. rewrite map_app, concat_app, app_assoc, <- IH. cbn [map concat]. rewrite app_nil_r. f_equal. destruct o; cbn [p_call] in H3; unfold sent; cbn [fst snd].
  all: try (injection H3 as <- <-; reflexivity). destruct (_ =? _); injection H3 as <- <-; reflexivity.
Qed.
Lemma c_run_received es cz st h pos c : 1 <= es -> c_run es cz st h pos c -> (forall o r, In (o, r) h -> c_op o /\ op_ok es o /\ o <> OHoming) -> concat (map received h) = take (pos * es) st /\ 0 <= pos /\ pos * es <= zlen st.
Proof.
  intros He. induction 1 as [|h pos c c' o r adv H IH H1 H2 H3 H4 H5]; intros NH; [cbn; pose proof (zlen_nonneg _ st); split; [reflexivity|lia]|].
  destruct IH as (J1 & J2 & J3). { intros o' r' Hi. apply (NH o' r'), in_app_iff. left. exact Hi. } destruct (NH o r) as (CO & OK & NN). { apply in_app_iff. right. left. reflexivity. }
  rewrite map_app, concat_app, J1. cbn [map concat]. rewrite app_nil_r.
  assert (K : forall n, 0 <= n -> take (pos * es) st ++ take (n * es) (drop (pos * es) st) = take ((pos + n) * es) st).
  { intros n Hn. unfold take, drop. rewrite <- firstn_plus. f_equal. nia. }
  destruct o; try contradiction; cbn [c_call op_ok] in *; unfold received; cbn [fst snd]; try (injection H5 as <- <-; cbn [snd]; rewrite ?app_nil_r, ?Z.add_0_r; split; [reflexivity|lia]).
  - injection H5 as <- <-. cbn [snd]. split; [apply K; lia|]. split; [lia|]. assert (pos + Z.min len (c' - pos) <= c') by lia. nia.
  - destruct (Z.eqb_spec (c' - pos) 0); injection H5 as <- <-; cbn [snd]; [rewrite app_nil_r, Z.add_0_r; split; [reflexivity|lia]|]. split; [rewrite <- (K 1) by lia; rewrite Z.mul_1_l; reflexivity|]. split; nia.
  - destruct (Z.eqb_spec (c' - pos) 0); injection H5 as <- <-; rewrite app_nil_r, Z.add_0_r; (split; [reflexivity|lia]).
Qed.
Theorem C115_bytes : forall cp cc f sched s, wf f -> roles (f_esize f) cp cc -> trun false cp cc sched (tinit f) = Some s -> (forall o r, In (o, r) (thc s) -> o <> OHoming) ->
  exists rest, contents f ++ concat (map (sent (f_esize f)) (thp s)) = concat (map received (thc s)) ++ rest /\
    (tpb s = [] -> tcb s = [] -> tp s = PIdle -> rest = contents (tf s)).
Proof.
  intros cp cc f sched s Wf R Es NH. pose proof (wf_cap f Wf) as (C & E & D & S). destruct (C115_stream cp cc f sched Wf R) as (s1 & st & tot & pos & ps & cs & Es1 & P & Q & _ & _ & Zl & _ & _ & IC & Z). assert (s1 = s) by congruence. subst s1.
  exists (drop (pos * f_esize f) st). rewrite <- (p_run_sent _ _ _ _ _ _ _ _ P). destruct (c_run_received (f_esize f) (cap f) st (thc s) pos cs ltac:(lia) Q) as (J1 & _ & _).
  - intros o r Hi. pose proof (NH o r Hi) as N. apply in_split in Hi as (h1 & h2 & Eh). destruct (proj2 R _ _ (IC _ _ _ _ Eh)) as (A1 & A2). auto.
  - split; [rewrite J1; unfold take, drop; symmetry; apply firstn_skipn|]. intros P1 P2 P3. symmetry. apply (Z P1 P2 P3).
Qed.
(** Concrete run over the wrap of the counters; the consumer's second call comes before the second element has reached memory. *)
Definition tsched : list (actor * nat) :=
  [(Prod, 0); (Cons, 0); (Prod, 1); (Prod, 0); (Prod, 0); (FlushP, 0); (Cons, 1); (Cons, 0); (Cons, 0); (FlushP, 0); (Cons, 0); (FlushP, 0); (Cons, 0); (FlushC, 0); (Cons, 1); (Cons, 0); (Cons, 0); (FlushC, 0)]%nat.
Definition tcc : client := fun h => match length h with O => Some (OOut 1) | 1%nat => Some OGet | 2%nat => Some OGet | _ => None end.
Example C115_case : wf xf /\ roles (f_esize xf) xp tcc /\ contents xf = [1; 2] /\
  match trun false xp tcc tsched (tinit xf) with
  | Some s => thp s = [(OPut [7; 8], (1, []))] /\ thc s = [(OOut 1, (1, [1; 2])); (OGet, (0, [])); (OGet, (1, [7; 8]))] /\ contents (tf s) = [] /\ tpb s = []
  | None => False
  end.
Proof.
  split; [exact xf_wf|]. split; [|vm_compute; repeat split].
  split; [apply xroles|]. intros h o E; destruct h as [|a [|b [|c h]]]; cbn in E; try discriminate E; injection E as <-; cbn; (split; [exact I|]); unfold zlen; cbn; lia.
Qed.
(** ** What does not hold *)
Definition zf : fifo := {| f_in := 0; f_out := 0; f_mask := 1; f_esize := 1; f_data := [0; 0] |}.
Definition zp : client := fun h => match length h with O => Some (OPut [5]) | _ => None end.
Definition zc : client := fun h => match length h with O => Some OGet | _ => None end.
Lemma zf_wf : wf zf.
Proof. exists 1. unfold cap, fifo_valid, u64. cbn. lia. Qed.
Lemma zroles : roles (f_esize zf) zp zc.
Proof. split; intros h o E; destruct h as [|a h]; cbn in E; try discriminate E; injection E as <-; cbn; (split; [exact I|]); unfold zlen; cbn; lia. Qed.
(** Where stores to different places may overtake each other the consumer gets bytes that nobody sent: the code needs a barrier between the copy and the counter. *)
Theorem C115_weak_refuted : exists cp cc f sched s, wf f /\ roles (f_esize f) cp cc /\ trun true cp cc sched (tinit f) = Some s /\
  ~ exists rest, contents f ++ concat (map (sent (f_esize f)) (thp s)) = concat (map received (thc s)) ++ rest.
Proof.
  exists zp, zc, zf, [(Prod, 0); (Prod, 0); (Prod, 0); (FlushP, 1); (Cons, 0); (Cons, 0); (Cons, 0)]%nat. eexists. split; [exact zf_wf|]. split; [exact zroles|]. split; [vm_compute; reflexivity|]. vm_compute. intros (rest & H). discriminate H.
Qed.
(** With store buffers a completed call need not be visible at once: the put has returned when the get begins, and the get finds nothing. *)
Theorem C115_late_refuted : exists cp cc f sched s sched' s', wf f /\ roles (f_esize f) cp cc /\ contents f = [] /\ trun false cp cc sched (tinit f) = Some s /\ thp s = [(OPut [5], (1, []))] /\ tc s = CIdle /\ thc s = [] /\
  trun false cp cc sched' s = Some s' /\ thc s' = [(OGet, (0, []))].
Proof.
  exists zp, zc, zf, [(Prod, 0); (Prod, 0); (Prod, 0)]%nat. eexists. exists [(Cons, 0)]%nat. eexists. split; [exact zf_wf|]. split; [exact zroles|]. split; [reflexivity|]. split; [vm_compute; reflexivity|]. vm_compute. repeat split.
Qed.
Print Assumptions C115_stream. Print Assumptions C115_no_race. Print Assumptions C115_bytes. Print Assumptions C115_weak_refuted. Print Assumptions C115_late_refuted.
