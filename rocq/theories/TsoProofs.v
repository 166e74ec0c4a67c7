From Coq Require Import Lia Permutation.
From Verif Require Import Lib Mem FifoModel FifoSpec FifoProofs SpscModel SpscSpec SpscProofs SpscProofs2 SpscProofs3 TsoModel TsoSpec.

(** the byte the producer sees at [a] *)
Definition peekb (pb : list store) (a : Z) (base : option Z) : option Z :=
  fold_left (fun x s => match s with SData b v => if b =? a then Some v else x | SIn _ => x end) pb base.
Lemma peekb_app pb s a base : peekb (pb ++ [s]) a base = match s with SData b v => if b =? a then Some v else peekb pb a base | SIn _ => peekb pb a base end.
Proof. unfold peekb. rewrite fold_left_app. reflexivity. Qed.
Lemma peekb_none : forall pb a base, ~ In a (pending_bytes pb) -> peekb pb a base = base.
Proof.
  induction pb as [|[b v|v] pb IH]; intros a base H; [reflexivity| |apply (IH a base H)]. cbn [pending_bytes In] in H. unfold peekb. cbn [fold_left]. destruct (Z.eqb_spec b a); [exfalso; apply H; left; assumption|]. apply IH. intros C. apply H. right. exact C.
Qed.
Lemma take_drop_app (S bs : list Z) n p : 0 <= p -> n + p <= zlen S -> take n (drop p (S ++ bs)) = take n (drop p S).
Proof.
  intros Hp H. unfold take, drop, zlen in *. rewrite skipn_app. rewrite firstn_app. destruct (Z_le_dec n 0).
  - replace (Z.to_nat n) with O by lia. reflexivity.
  - replace (Z.to_nat n - length (skipn (Z.to_nat p) S))%nat with O by (rewrite skipn_length; lia). cbn [firstn]. apply app_nil_r.
Qed.
Section Tso.
Variables (es cz o0 : Z) (q0 : list Z) (n0 : Z).
Hypothesis Hes : 1 <= es.
Hypothesis Hcz : 1 <= cz < 2 ^ 63.
Definition A (x : Z) : Z := (o0 * es + x) mod (cz * es).
Definition W (c : Z) : Z := w64 (o0 + c).
Lemma A_inj lo x y : lo <= x < lo + cz * es -> lo <= y < lo + cz * es -> A x = A y -> x = y.
Proof.
  intros Hx Hy E. unfold A in E. set (T := cz * es) in *. assert (0 < T) by (unfold T; nia). pose proof (Z.div_mod (o0 * es + x) T ltac:(lia)) as X. pose proof (Z.div_mod (o0 * es + y) T ltac:(lia)) as Y. rewrite E in X.
  set (a := (o0 * es + x) / T) in *. set (b := (o0 * es + y) / T) in *. assert (x - y = T * (a - b)) by lia. assert (a - b = 0) by nia. lia.
Qed.
Lemma W_add c n : w64 (W c + n) = W (c + n).
Proof. unfold W, w64. rewrite Zplus_mod_idemp_l. f_equal. lia. Qed.
Lemma W_sub i o : 0 <= i - o <= cz -> w64 (W i - W o) = i - o.
Proof. intros H. unfold W, w64. rewrite <- Zminus_mod. replace (o0 + i - (o0 + o)) with (i - o) by lia. apply Z.mod_small. lia. Qed.
Definition static (f : fifo) : Prop := wf f /\ cap f = cz /\ f_esize f = es.
Lemma addrA f c i : static f -> addr f (W c) i = A (c * es + i).
Proof. intros (W1 & C & E). unfold W. rewrite (addr_w64 f W1). unfold addr, A. rewrite C, E. f_equal. lia. Qed.
Lemma A_range f x : static f -> 0 <= A x < zlen (f_data f).
Proof. intros (W1 & C & E). pose proof (wf_cap f W1) as (_ & _ & D & _). rewrite D, C, E. apply Z.mod_pos_bound. nia. Qed.
Lemma static_in f i o : static f -> f_out f = W o -> 0 <= i - o <= cz -> static (set_in f (W i)) /\ fifo_valid (set_in f (W i)) = i - o.
Proof.
  intros (W1 & C & E) H1 H2. assert (V : fifo_valid (set_in f (W i)) = i - o) by (unfold fifo_valid; cbn [set_in f_in f_out]; rewrite H1; apply W_sub; exact H2).
  split; [|exact V]. split; [|split; [exact C|exact E]]. apply (wf_change f (W i) (f_out f) (f_data f) W1); [reflexivity|apply u64_w64|apply wf_out; exact W1|]. change (fifo_valid (set_in f (W i)) <= cap f). lia.
Qed.
Lemma static_out f i o : static f -> f_in f = W i -> 0 <= i - o <= cz -> static (set_out f (W o)) /\ fifo_valid (set_out f (W o)) = i - o.
Proof.
  intros (W1 & C & E) H1 H2. assert (V : fifo_valid (set_out f (W o)) = i - o) by (unfold fifo_valid; cbn [set_out f_in f_out]; rewrite H1; apply W_sub; exact H2).
  split; [|exact V]. split; [|split; [exact C|exact E]]. apply (wf_change f (f_in f) (W o) (f_data f) W1); [reflexivity|apply wf_in; exact W1|apply u64_w64|]. change (fifo_valid (set_out f (W o)) <= cap f). lia.
Qed.
(** ** The store buffers *)
Fixpoint pbok (hi I : Z) (pb : list store) (IP : Z) : Prop :=
  match pb with
  | [] => I = IP
  | SData a v :: pb => (exists x, I * es <= x < hi /\ a = A x) /\ pbok hi I pb IP
  | SIn v :: pb => exists I', I <= I' /\ v = W I' /\ pbok hi I' pb IP
  end.
Fixpoint cbok (O : Z) (cb : list Z) (OC : Z) : Prop :=
  match cb with [] => O = OC | v :: cb => exists O', O <= O' /\ v = W O' /\ cbok O' cb OC end.
Lemma pbok_le hi : forall pb I IP, pbok hi I pb IP -> I <= IP.
Proof. induction pb as [|[a v|v] pb IH]; cbn [pbok]; intros I IP H; [lia|apply IH; apply H|]. destruct H as (I' & H1 & _ & H2). specialize (IH _ _ H2). lia. Qed.
Lemma pbok_hi hi hi' : hi <= hi' -> forall pb I IP, pbok hi I pb IP -> pbok hi' I pb IP.
Proof.
  intros Hh. induction pb as [|[a v|v] pb IH]; cbn [pbok]; intros I IP H; [exact H| |].
  - destruct H as ((x & Hx & E) & H). split; [exists x; split; [lia|exact E]|apply IH, H].
  - destruct H as (I' & H1 & E & H2). exists I'. auto.
Qed.
Lemma pbok_data hi x v : forall pb I IP, pbok hi I pb IP -> IP * es <= x < hi -> pbok hi I (pb ++ [SData (A x) v]) IP.
Proof.
  induction pb as [|[a w|w] pb IH]; cbn [pbok app]; intros I IP H Hx.
  - subst I. split; [exists x; auto|reflexivity].
  - destruct H as (H1 & H). split; [exact H1|apply IH; assumption].
  - destruct H as (I' & H1 & E & H2). exists I'. split; [exact H1|]. split; [exact E|apply IH; assumption].
Qed.
Lemma pbok_in hi IP' : forall pb I IP, pbok hi I pb IP -> IP <= IP' -> pbok hi I (pb ++ [SIn (W IP')]) IP'.
Proof.
  induction pb as [|[a w|w] pb IH]; cbn [pbok app]; intros I IP H Hx.
  - subst I. exists IP'. auto.
  - destruct H as (H1 & H). split; [exact H1|apply (IH I IP); assumption].
  - destruct H as (I' & H1 & E & H2). exists I'. split; [exact H1|]. split; [exact E|apply (IH I' IP); assumption].
Qed.
Lemma pbok_own hi : forall pb I IP f, pbok hi I pb IP -> f_in f = W I -> own_in f pb = W IP.
Proof.
  induction pb as [|[a w|w] pb IH]; cbn [pbok]; intros I IP f H Hf; [subst; exact Hf|apply (IH I IP f); [apply H|exact Hf]|]. destruct H as (I' & H1 & -> & H2). apply (IH I' IP (set_in f (W I'))); [exact H2|reflexivity].
Qed.
Lemma pbok_where hi : forall pb I IP a, pbok hi I pb IP -> In a (pending_bytes pb) -> exists x, I * es <= x < hi /\ a = A x.
Proof.
  induction pb as [|[b w|w] pb IH]; cbn [pbok pending_bytes]; intros I IP a H Hi; [destruct Hi| |].
  - destruct H as (H1 & H). destruct Hi as [<-|Hi]; [exact H1|apply (IH I IP); assumption].
  - destruct H as (I' & H1 & E & H2). destruct (IH I' IP a H2 Hi) as (x & Hx & Ea). exists x. split; [nia|exact Ea].
Qed.
Lemma cbok_le : forall cb O OC, cbok O cb OC -> O <= OC.
Proof. induction cb as [|v cb IH]; cbn [cbok]; intros O OC H; [lia|]. destruct H as (O' & H1 & _ & H2). specialize (IH _ _ H2). lia. Qed.
Lemma cbok_app OC' : forall cb O OC, cbok O cb OC -> OC <= OC' -> cbok O (cb ++ [W OC']) OC'.
Proof. induction cb as [|v cb IH]; cbn [cbok app]; intros O OC H Hx; [subst; exists OC'; auto|]. destruct H as (O' & H1 & E & H2). exists O'. split; [exact H1|]. split; [exact E|apply (IH O' OC); assumption]. Qed.
Lemma cbok_own : forall cb O OC, cbok O cb OC -> last cb (W O) = W OC.
Proof.
  induction cb as [|v cb IH]; cbn [cbok]; intros O OC H; [subst; reflexivity|]. destruct H as (O' & H1 & -> & H2). cbn [last]. destruct cb as [|w cb]; [cbn in H2; subst; reflexivity|]. rewrite <- (IH O' OC H2). cbn. destruct cb; [reflexivity|]. clear. revert z. induction cb as [|y cb IH]; intros z; [reflexivity|]. apply (IH y).
Qed.
(** ** The invariant *)
Variables cp cc : client.
Hypothesis R : roles es cp cc.
Definition Pi (O IP ps : Z) (f : fifo) (pb : list store) (o : option op) (p : ppc) : Prop :=
  match p with
  | PIdle => True
  | PCopy _ todo n => exists op c, o = Some op /\ ps <= c <= O /\ 0 <= n /\ IP + n <= O + cz /\ 0 <= IP - c <= cz /\ p_call es cz IP c op = ((n, []), take (n * es) (psrc op)) /\ n * es <= zlen (psrc op) /\
      (forall a v, In (a, v) todo -> exists x, IP * es <= x < (IP + n) * es /\ a = A x /\ rd (psrc op) (x - IP * es) = Some v) /\
      (forall x, IP * es <= x < (IP + n) * es -> exists v, rd (psrc op) (x - IP * es) = Some v /\ (In (A x, v) todo \/ peekb pb (A x) (rd (f_data f) (A x)) = Some v))
  end.
Definition Ci (OC I cs : Z) (st : list Z) (o : option op) (p : cpc) : Prop :=
  match p with
  | CIdle => True
  | CCopy _ todo buff n adv => exists op c, o = Some op /\ cs <= c <= I /\ 0 <= n /\ OC + n <= I /\ 0 <= adv /\ OC + adv <= I /\ OC + n <= c /\ 0 <= c - OC <= cz /\ zlen buff = n * es /\
      c_call es cz st OC c op = ((n, take (n * es) (drop (OC * es) st)), adv) /\ (match op with OPeek _ | OPeek1 => adv = 0 | _ => True end) /\
      (forall a k, In (a, k) todo -> 0 <= k < n * es /\ a = A (OC * es + k)) /\
      (forall k, 0 <= k < n * es -> In (A (OC * es + k), k) todo \/ rd buff k = rd st (OC * es + k))
  end.
Record Ginv (s : tsys) (O OC I IP : Z) (st : list Z) (ps cs : Z) : Prop := {
  g_st : static (tf s);
  g_out : f_out (tf s) = W O;
  g_in : f_in (tf s) = W I;
  g_ord : 0 <= O <= OC /\ OC <= I /\ I <= IP /\ IP <= O + cz;
  g_pb : pbok ((O + cz) * es) I (tpb s) IP;
  g_cb : cbok O (tcb s) OC;
  g_len : zlen st = IP * es;
  g_prun : p_run es cz q0 n0 (thp s) st IP ps;
  g_ps : ps <= O;
  g_crun : c_run es cz st (thc s) OC cs;
  g_cs : cs <= I;
  g_all : forall x, O * es <= x < IP * es -> peekb (tpb s) (A x) (rd (f_data (tf s)) (A x)) = rd st x;
  g_p : Pi O IP ps (tf s) (tpb s) (cp (thp s)) (tp s);
  g_c : Ci OC I cs st (cc (thc s)) (tc s);
  g_ip : issued cp (thp s);
  g_ic : issued cc (thc s) }.
Lemma c_call_ext st bs pos c o : 0 <= pos -> 0 <= c - pos -> c * es <= zlen st -> c_call es cz (st ++ bs) pos c o = c_call es cz st pos c o.
Proof.
  intros Hp Hd Hc. destruct o; cbn [c_call]; try reflexivity.
  - rewrite take_drop_app; [reflexivity|nia|]. assert (Z.min len (c - pos) <= c - pos) by lia. nia.
  - rewrite take_drop_app; [reflexivity|nia|]. assert (Z.min len (c - pos) <= c - pos) by lia. nia.
  - destruct (Z.eqb_spec (c - pos) 0); [reflexivity|]. rewrite take_drop_app; [reflexivity|nia|nia].
  - destruct (Z.eqb_spec (c - pos) 0); [reflexivity|]. rewrite take_drop_app; [reflexivity|nia|nia].
Qed.
Lemma c_run_ext st bs h pos c : c_run es cz st h pos c -> c_run es cz (st ++ bs) h pos c.
Proof.
  induction 1 as [|h pos c c' o r adv H IH H1 H2 H3 H4 H5]; [constructor|]. econstructor; [exact IH|exact H1|exact H2|exact H3|rewrite zlen_app; pose proof (zlen_nonneg _ bs); lia|]. rewrite c_call_ext by (try assumption; lia). exact H5.
Qed.
Lemma g_visible s O OC I IP st ps cs : Ginv s O OC I IP st ps cs -> forall x, O * es <= x < I * es -> rd (f_data (tf s)) (A x) = rd st x.
Proof.
  intros G x Hx. destruct (g_ord _ _ _ _ _ _ _ _ G) as (K1 & K2 & K3 & K4). rewrite <- (g_all _ _ _ _ _ _ _ _ G) by nia. symmetry. apply peekb_none. intros C. destruct (pbok_where _ _ _ _ _ (g_pb _ _ _ _ _ _ _ _ G) C) as (y & Hy & E).
  apply (A_inj (O * es)) in E; nia.
Qed.
Definition mk f pb cb p c hp hc : tsys := {| tf := f; tpb := pb; tcb := cb; tp := p; tc := c; thp := hp; thc := hc |}.
Definition Tinv (s : tsys) : Prop := exists O OC I IP st ps cs, Ginv s O OC I IP st ps cs.
(** *** Moving a store to memory *)
Lemma pflush_ok s k : Tinv s -> exists s', tstep false cp cc s (FlushP, k) = Some s' /\ Tinv s'.
Proof.
  intros (O & OC & I & IP & st & ps & cs & G). pose proof (g_pb _ _ _ _ _ _ _ _ G) as B. pose proof (g_ord _ _ _ _ _ _ _ _ G) as (K1 & K2 & K3 & K4). pose proof (g_st _ _ _ _ _ _ _ _ G) as Sf. unfold tstep. cbn [fst snd]. unfold pflush.
  destruct s as [f pb cb p c hp hc]. cbn [tf tpb tcb tp tc thp thc] in *. destruct pb as [|[a v|v] pb]; cbn [pick].
  - eexists. split; [reflexivity|]. exists O, OC, I, IP, st, ps, cs. exact G.
  - cbn [pbok] in B. destruct B as ((x & Hx & ->) & B). destruct (wr_spec _ (f_data f) (A x) v (A_range f x Sf)) as (d & E & L & Rd). rewrite E. eexists. split; [reflexivity|]. exists O, OC, I, IP, st, ps, cs.
    destruct Sf as (W1 & C1 & E1). assert (W2 : wf (set_data f d)). { apply (wf_change f (f_in f) (f_out f) d W1); [unfold zlen in L; lia|apply wf_in; exact W1|apply wf_out; exact W1|apply (wf_valid f W1)]. }
    assert (PK : forall y, peekb pb y (rd d y) = peekb (SData (A x) v :: pb) y (rd (f_data f) y)). { intros y. rewrite Rd. unfold peekb. cbn [fold_left]. rewrite (Z.eqb_sym y). reflexivity. }
    destruct G; constructor; cbn [tf tpb tcb tp tc thp thc set_data f_out f_in f_data] in *; try assumption.
    + split; [exact W2|]. split; assumption.
    + intros y Hy. rewrite PK. apply g_all0. exact Hy.
    + destruct p as [|since todo n]; [exact Logic.I|]. destruct g_p0 as (op & c0 & J1 & J2 & J3 & J4 & J5 & J6 & J7 & J8 & J9). exists op, c0. do 8 (split; [assumption|]). intros y Hy. destruct (J9 y Hy) as (w & Rw & Hw). exists w. split; [exact Rw|]. cbn [f_data]. rewrite PK. exact Hw.
  - cbn [pbok] in B. destruct B as (I' & H1 & -> & B). pose proof (pbok_le _ _ _ _ B) as H2. eexists. split; [reflexivity|]. exists O, OC, I', IP, st, ps, cs.
    pose proof (g_out _ _ _ _ _ _ _ _ G) as Go. cbn [tf] in Go. destruct (static_in f I' O Sf Go ltac:(lia)) as (Sf' & _).
    destruct G; constructor; cbn [tf tpb tcb tp tc thp thc set_in f_out f_in f_data] in *; try assumption; try reflexivity; try lia.
    destruct c as [|since todo buff n adv]; [exact Logic.I|]. destruct g_c0 as (op & c0 & J1 & J2 & J3 & J4 & J5 & J6 & J7). exists op, c0. split; [exact J1|]. split; [lia|]. split; [lia|]. split; [lia|]. split; [lia|]. split; [lia|exact J7].
Qed.
Lemma cflush_ok s k : Tinv s -> exists s', tstep false cp cc s (FlushC, k) = Some s' /\ Tinv s'.
Proof.
  intros (O & OC & I & IP & st & ps & cs & G). pose proof (g_cb _ _ _ _ _ _ _ _ G) as B. pose proof (g_ord _ _ _ _ _ _ _ _ G) as (K1 & K2 & K3 & K4). pose proof (g_st _ _ _ _ _ _ _ _ G) as Sf. unfold tstep. cbn [fst snd]. unfold cflush.
  destruct s as [f pb cb p c hp hc]. cbn [tf tpb tcb tp tc thp thc] in *. destruct cb as [|v cb].
  - eexists. split; [reflexivity|]. exists O, OC, I, IP, st, ps, cs. exact G.
  - cbn [cbok] in B. destruct B as (O' & H1 & -> & B). pose proof (cbok_le _ _ _ B) as H2. eexists. split; [reflexivity|]. exists O', OC, I, IP, st, ps, cs.
    pose proof (g_in _ _ _ _ _ _ _ _ G) as Gi. cbn [tf] in Gi. destruct (static_out f I O' Sf Gi ltac:(lia)) as (Sf' & _).
    destruct G; constructor; cbn [tf tpb tcb tp tc thp thc set_out f_out f_in f_data] in *; try assumption; try reflexivity; try lia.
    + apply (pbok_hi ((O + cz) * es)); [nia|assumption].
    + intros y Hy. apply g_all0. nia.
    + destruct p as [|since todo n]; [exact Logic.I|]. destruct g_p0 as (op & c0 & J1 & J2 & J3 & J4 & J5). exists op, c0. split; [exact J1|]. split; [lia|]. split; [lia|]. split; [lia|exact J5].
Qed.
(** *** The producer *)
Lemma query_p f o r i c : wf f -> fifo_valid f = i - c -> cap f = cz -> query f o = Some r -> p_call es cz i c o = (r, []).
Proof.
  intros W1 V C H. unfold query in H. destruct o; try discriminate H; injection H as <-; cbn [p_call].
  - unfold fifo_len. fold (fifo_valid f). rewrite <- V. reflexivity.
  - rewrite (empty_ok f W1), V. reflexivity.
  - rewrite (full_ok f W1), V, C. reflexivity.
Qed.
Lemma query_c f st o r i c : wf f -> fifo_valid f = i - c -> cap f = cz -> query f o = Some r -> c_call es cz st c i o = (r, 0).
Proof.
  intros W1 V C H. unfold query in H. destruct o; try discriminate H; injection H as <-; cbn [c_call].
  - unfold fifo_len. fold (fifo_valid f). rewrite <- V. reflexivity.
  - rewrite (empty_ok f W1), V. reflexivity.
  - rewrite (full_ok f W1), V, C. reflexivity.
Qed.
Lemma p_done s O OC I IP st ps cs o r : Ginv s O OC I IP st ps cs -> cp (thp s) = Some o -> p_call es cz IP O o = (r, []) ->
  Ginv (mk (tf s) (tpb s) (tcb s) PIdle (tc s) (thp s ++ [(o, r)]) (thc s)) O OC I IP st O cs.
Proof.
  intros G Ho Hr. pose proof (g_ord _ _ _ _ _ _ _ _ G) as (K1 & K2 & K3 & K4). destruct G; constructor; cbn [mk tf tpb tcb tp tc thp thc]; try assumption; try lia.
  - pose proof (p_next es cz q0 n0 (thp s) st IP ps O o r [] g_prun0 g_ps0 ltac:(lia) Hr) as X. rewrite app_nil_r in X. change (zlen (@nil Z)) with 0 in X. rewrite Z.div_0_l, Z.add_0_r in X by lia. exact X.
  - exact Logic.I.
  - apply issued_snoc; assumption.
Qed.
Lemma prod_ok s k : Tinv s -> exists s', tstep false cp cc s (Prod, k) = Some s' /\ Tinv s'.
Proof.
  intros T0. pose proof T0 as (O & OC & I & IP & st & ps & cs & G). unfold tstep. cbn [fst snd]. destruct (cp (thp s)) as [o|] eqn:Ho; [|exists s; auto].
  pose proof (g_ord _ _ _ _ _ _ _ _ G) as (K1 & K2 & K3 & K4). pose proof (g_st _ _ _ _ _ _ _ _ G) as Sf. pose proof (g_out _ _ _ _ _ _ _ _ G) as Go. pose proof (g_pb _ _ _ _ _ _ _ _ G) as B.
  pose proof (pbok_own _ _ _ _ (tf s) B (g_in _ _ _ _ _ _ _ _ G)) as Own. destruct (proj1 R _ _ Ho) as (PO & OK).
  destruct (static_in (tf s) IP O Sf Go ltac:(lia)) as (Sv & Vv). assert (PV : pview (tf s) (tpb s) = set_in (tf s) (W IP)) by (unfold pview; rewrite Own; reflexivity).
  set (v := set_in (tf s) (W IP)) in *. destruct Sv as (Wv & Cv & Ev). pose proof (wf_unused v Wv) as Uv. rewrite Vv, Cv in Uv.
  assert (AD : forall i, addr v (f_in v) i = A (IP * es + i)) by (intros i; apply (addrA v IP i); split; [exact Wv|split; assumption]).
  assert (QR : forall r, query v o = Some r -> Tinv (mk (tf s) (tpb s) (tcb s) PIdle (tc s) (thp s ++ [(o, r)]) (thc s))).
  { intros r Hr. exists O, OC, I, IP, st, O, cs. apply (p_done s O OC I IP st ps); [exact G|exact Ho|]. apply (query_p v); assumption. }
  assert (BG : forall todo n, 0 <= n -> IP + n <= O + cz -> p_call es cz IP O o = ((n, []), take (n * es) (psrc o)) -> n * es <= zlen (psrc o) -> zlen todo = n * es ->
    (forall i, 0 <= i < n * es -> exists w, rd (psrc o) i = Some w /\ rd todo i = Some (addr v (f_in v) i, w)) -> Tinv (mk (tf s) (tpb s) (tcb s) (PCopy 0 todo n) (tc s) (thp s) (thc s))).
  { intros todo n N0 N1 PC Hz Lt Rt. exists O, OC, I, IP, st, ps, cs. destruct G; constructor; cbn [mk tf tpb tcb tp tc thp thc]; try assumption. exists o, O. do 4 (split; [first [exact Ho|lia]|]). split; [lia|]. split; [exact PC|]. split; [exact Hz|]. split.
    - intros a w Hin. apply In_rd in Hin as (i & Hi & Er). rewrite Lt in Hi. destruct (Rt i Hi) as (w' & R1 & R2). rewrite R2 in Er. injection Er as <- <-. exists (IP * es + i). split; [nia|]. split; [apply AD|]. replace (IP * es + i - IP * es) with i by lia. exact R1.
    - intros x Hx. destruct (Rt (x - IP * es) ltac:(nia)) as (w & R1 & R2). exists w. split; [exact R1|]. left. apply rd_in in R2. rewrite AD in R2. replace (IP * es + (x - IP * es)) with x in R2 by lia. exact R2. }
  destruct (tp s) as [|since todo n] eqn:Ep.
  - cbn [tpstep]. rewrite PV, Own. destruct o; try contradiction; cbn [op_ok psrc] in *.
    + set (n := Z.min len (fifo_unused v)). destruct OK as (Hlen & Hsrc). assert (HZ : n * f_esize v <= zlen src) by (rewrite Ev; assert (n <= len) by lia; nia). assert (HN : 0 <= n <= cap v) by lia.
      destruct (in_plan_ok v Wv src n HN HZ) as (todo & Et & Lt & Rt). rewrite Et. eexists. split; [reflexivity|]. rewrite Ev in Lt, HZ, Rt. apply BG; try assumption; try lia. cbn [p_call]. replace (cz - (IP - O)) with (fifo_unused v) by lia. reflexivity.
    + rewrite (full_ok v Wv), Vv, Cv. destruct (Z.eqb_spec (IP - O) cz) as [F|F].
      * eexists. split; [reflexivity|]. exists O, OC, I, IP, st, O, cs. apply (p_done s O OC I IP st ps); [exact G|exact Ho|]. cbn [p_call]. destruct (Z.eqb_spec (IP - O) cz); [reflexivity|contradiction].
      * rewrite <- Ev in OK. destruct (put_plan_ok v Wv e OK) as (Lt & Rt). rewrite Ev in Lt, Rt, OK. eexists. split; [reflexivity|]. change (W IP) with (f_in v). apply BG; try lia.
        -- cbn [p_call]. destruct (Z.eqb_spec (IP - O) cz); [contradiction|]. unfold take. rewrite firstn_all2; [reflexivity|unfold zlen in OK; lia].
        -- rewrite Z.mul_1_l. exact Rt.
    + eexists. split; [reflexivity|]. apply QR. reflexivity.
    + eexists. split; [reflexivity|]. apply QR. reflexivity.
    + eexists. split; [reflexivity|]. apply QR. reflexivity.
  - clear QR BG. pose proof (g_p _ _ _ _ _ _ _ _ G) as P. rewrite Ep in P. destruct P as (op & c & Eo & J2 & J3 & J4 & J5 & J6 & J7 & J8 & J9). rewrite Ho in Eo. injection Eo as <-. cbn [tpstep]. pose proof (pick_perm _ k todo) as PP. destruct (pick k todo) as [[[a w] rest]|].
    + destruct (J8 a w) as (x & Hx & -> & Rw). { eapply Permutation_in; [symmetry; exact PP|]. left. reflexivity. }
      eexists. split; [reflexivity|]. exists O, OC, I, IP, st, ps, cs. destruct G; constructor; cbn [tf tpb tcb tp tc thp thc]; try assumption.
      * apply pbok_data; [assumption|nia].
      * intros y Hy. rewrite peekb_app. destruct (Z.eqb_spec (A x) (A y)) as [X|X]; [apply (A_inj (O * es)) in X; nia|apply g_all0; exact Hy].
      * exists o, c. split; [exact Ho|]. do 6 (split; [assumption|]). split.
        -- intros a' w' Hin. apply J8. eapply Permutation_in; [symmetry; exact PP|]. right. exact Hin.
        -- intros y Hy. destruct (J9 y Hy) as (u & Ru & Or). exists u. split; [exact Ru|]. rewrite peekb_app. destruct (Z.eqb_spec (A x) (A y)) as [X|X].
           ++ right. apply (A_inj (O * es)) in X; [|nia|nia]. subst y. congruence.
           ++ destruct Or as [Or|Or]; [|right; exact Or]. left. eapply Permutation_in in Or; [|exact PP]. destruct Or as [Or|Or]; [|exact Or]. exfalso. congruence.
    + subst todo. rewrite Own, W_add. eexists. split; [reflexivity|]. set (bs := take (n * es) (psrc o)) in *. assert (Lb : zlen bs = n * es) by (unfold bs, take, zlen in *; rewrite firstn_length; nia).
      exists O, OC, I, (IP + n), (st ++ bs), c, cs. destruct G; constructor; cbn [tf tpb tcb tp tc thp thc]; try assumption; try lia.
      * apply (pbok_in _ (IP + n) (tpb s) I IP); [assumption|lia].
      * rewrite zlen_app. lia.
      * replace (IP + n) with (IP + zlen bs / es) by (rewrite Lb, Z.div_mul by lia; reflexivity). eapply p_next; [exact g_prun0|lia|lia|exact J6].
      * apply c_run_ext. assumption.
      * intros x Hx. rewrite peekb_app. destruct (Z_lt_dec x (IP * es)) as [Q|Q].
        -- rewrite rd_app_l by nia. apply g_all0. lia.
        -- rewrite rd_app_r by nia. rewrite g_len0. destruct (J9 x ltac:(nia)) as (w & Rw & [[]|Or]). rewrite Or. unfold bs, take. rewrite rd_firstn by nia. symmetry. exact Rw.
      * exact Logic.I.
      * destruct (tc s) as [|since' todo' buff n' adv]; [exact Logic.I|]. destruct g_c0 as (op & c' & L1 & L2 & L3 & L4 & L5 & L6 & L7 & L8 & L9 & L10 & L11 & L12 & L13). exists op, c'. do 9 (split; [assumption|]). split; [|split; [exact L11|split; [exact L12|]]].
        -- rewrite c_call_ext by (try lia; nia). rewrite take_drop_app by nia. exact L10.
        -- intros j Hj. rewrite rd_app_l by nia. apply L13. exact Hj.
      * apply issued_snoc; assumption.
Qed.
(** *** The consumer *)
Lemma c_done s O OC I IP st ps cs o r : Ginv s O OC I IP st ps cs -> cc (thc s) = Some o -> c_call es cz st OC I o = (r, 0) ->
  Ginv (mk (tf s) (tpb s) (tcb s) (tp s) CIdle (thp s) (thc s ++ [(o, r)])) O OC I IP st ps I.
Proof.
  intros G Ho Hr. pose proof (g_ord _ _ _ _ _ _ _ _ G) as (K1 & K2 & K3 & K4). destruct G; constructor; cbn [mk tf tpb tcb tp tc thp thc]; try assumption; try lia.
  - replace OC with (OC + 0) by lia. eapply c_next; [exact g_crun0|exact g_cs0|lia|lia|nia|exact Hr].
  - exact Logic.I.
  - apply issued_snoc; assumption.
Qed.
Lemma cons_ok s k : Tinv s -> exists s', tstep false cp cc s (Cons, k) = Some s' /\ Tinv s'.
Proof.
  intros T0. pose proof T0 as (O & OC & I & IP & st & ps & cs & G). unfold tstep. cbn [fst snd]. destruct (cc (thc s)) as [o|] eqn:Ho; [|exists s; auto].
  pose proof (g_ord _ _ _ _ _ _ _ _ G) as (K1 & K2 & K3 & K4). pose proof (g_st _ _ _ _ _ _ _ _ G) as Sf. pose proof (g_in _ _ _ _ _ _ _ _ G) as Gi. pose proof (g_cb _ _ _ _ _ _ _ _ G) as B. pose proof (g_len _ _ _ _ _ _ _ _ G) as Gl.
  assert (Own : own_out (tf s) (tcb s) = W OC) by (unfold own_out; rewrite (g_out _ _ _ _ _ _ _ _ G); apply (cbok_own _ O); exact B). destruct (proj2 R _ _ Ho) as (PO & OK).
  destruct (static_out (tf s) I OC Sf Gi ltac:(lia)) as (Sv & Vv). assert (PV : cview (tf s) (tcb s) = set_out (tf s) (W OC)) by (unfold cview; rewrite Own; reflexivity).
  set (v := set_out (tf s) (W OC)) in *. destruct Sv as (Wv & Cv & Ev).
  assert (AD : forall i, addr v (f_out v) i = A (OC * es + i)) by (intros i; apply (addrA v OC i); split; [exact Wv|split; assumption]).
  assert (QR : forall r, query v o = Some r -> Tinv (mk (tf s) (tpb s) (tcb s) (tp s) CIdle (thp s) (thc s ++ [(o, r)]))).
  { intros r Hr. exists O, OC, I, IP, st, ps, I. apply (c_done s O OC I IP st ps cs); [exact G|exact Ho|]. apply (query_c v); assumption. }
  assert (BG : forall todo n adv, 0 <= n -> OC + n <= I -> 0 <= adv -> OC + adv <= I -> c_call es cz st OC I o = ((n, take (n * es) (drop (OC * es) st)), adv) -> (match o with OPeek _ | OPeek1 => adv = 0 | _ => True end) -> zlen todo = n * es ->
    (forall i, 0 <= i < n * es -> rd todo i = Some (addr v (f_out v) i, i)) -> Tinv (mk (tf s) (tpb s) (tcb s) (tp s) (begin_read 0 todo n adv) (thp s) (thc s))).
  { intros todo n adv N0 N1 N2 N3 CC PK Lt Rt. exists O, OC, I, IP, st, ps, cs. destruct G; constructor; cbn [mk tf tpb tcb tp tc thp thc]; try assumption. exists o, I. do 8 (split; [first [exact Ho|lia]|]). split; [unfold zlen in *; rewrite repeat_length; exact Lt|]. split; [exact CC|]. split; [exact PK|]. split.
    - intros a j Hin. apply In_rd in Hin as (i & Hi & Er). rewrite Lt in Hi. rewrite (Rt i Hi) in Er. injection Er as <- <-. split; [exact Hi|apply AD].
    - intros j Hj. left. specialize (Rt j Hj). apply rd_in in Rt. rewrite AD in Rt. exact Rt. }
  destruct (get_plan_ok v Wv) as (GL & GR). rewrite Ev in GL, GR.
  assert (G1 : zlen (combine (cell v (W OC)) (zseq 0 (Z.to_nat (f_esize (tf s))))) = 1 * es). { destruct Sf as (_ & _ & ->). rewrite Z.mul_1_l. exact GL. }
  assert (G2 : forall i, 0 <= i < 1 * es -> rd (combine (cell v (W OC)) (zseq 0 (Z.to_nat (f_esize (tf s))))) i = Some (addr v (f_out v) i, i)). { destruct Sf as (_ & _ & ->). rewrite Z.mul_1_l. exact GR. }
  destruct (tc s) as [|since todo buff n adv] eqn:Ep.
  - cbn [tcstep]. rewrite PV, Own, ?Vv. destruct o; try contradiction; cbn [op_ok] in *.
    + destruct (out_plan_ok v Wv (Z.min len (I - OC)) ltac:(lia)) as (LL & RL). rewrite Ev in LL, RL. eexists. split; [reflexivity|]. apply BG; try assumption; try lia; reflexivity.
    + destruct (out_plan_ok v Wv (Z.min len (I - OC)) ltac:(lia)) as (LL & RL). rewrite Ev in LL, RL. eexists. split; [reflexivity|]. apply BG; try assumption; try lia; reflexivity.
    + rewrite (empty_ok v Wv), Vv. destruct (Z.eqb_spec (I - OC) 0) as [F|F].
      * eexists. split; [reflexivity|]. exists O, OC, I, IP, st, ps, I. apply (c_done s O OC I IP st ps cs); [exact G|exact Ho|]. cbn [c_call]. destruct (Z.eqb_spec (I - OC) 0); [reflexivity|contradiction].
      * eexists. split; [reflexivity|]. apply BG; try assumption; try lia; try exact Logic.I. cbn [c_call]. destruct (Z.eqb_spec (I - OC) 0); [contradiction|]. rewrite Z.mul_1_l. reflexivity.
    + rewrite (empty_ok v Wv), Vv. destruct (Z.eqb_spec (I - OC) 0) as [F|F].
      * eexists. split; [reflexivity|]. exists O, OC, I, IP, st, ps, I. apply (c_done s O OC I IP st ps cs); [exact G|exact Ho|]. cbn [c_call]. destruct (Z.eqb_spec (I - OC) 0); [reflexivity|contradiction].
      * eexists. split; [reflexivity|]. apply BG; try assumption; try lia. cbn [c_call]. destruct (Z.eqb_spec (I - OC) 0); [contradiction|]. rewrite Z.mul_1_l. reflexivity.
    + eexists. split; [reflexivity|]. apply (BG [] 0 (I - OC)); try lia; try reflexivity.
    + eexists. split; [reflexivity|]. apply QR. reflexivity.
    + eexists. split; [reflexivity|]. apply QR. reflexivity.
    + eexists. split; [reflexivity|]. apply QR. reflexivity.
  - clear QR BG G1 G2 GL GR. pose proof (g_c _ _ _ _ _ _ _ _ G) as P. rewrite Ep in P. destruct P as (op & c & Eo & L2 & L3 & L4 & L5 & L6 & L7 & L8 & L9 & L10 & L11 & L12 & L13). rewrite Ho in Eo. injection Eo as <-. cbn [tcstep]. pose proof (pick_perm _ k todo) as PP. destruct (pick k todo) as [[[a i] rest]|].
    + destruct (L12 a i) as (Hi & ->). { eapply Permutation_in; [symmetry; exact PP|]. left. reflexivity. }
      destruct (rd_some _ (f_data (tf s)) _ (A_range _ (OC * es + i) Sf)) as [w Ew]. rewrite Ew. destruct (wr_spec _ buff i w ltac:(lia)) as (b & Eb & Lb & Rb). rewrite Eb. pose proof (g_visible _ _ _ _ _ _ _ _ G (OC * es + i) ltac:(nia)) as Vi.
      eexists. split; [reflexivity|]. exists O, OC, I, IP, st, ps, cs. destruct G; constructor; cbn [tf tpb tcb tp tc thp thc]; try assumption. exists o, c. split; [exact Ho|]. do 7 (split; [assumption|]). split; [lia|]. split; [exact L10|]. split; [exact L11|]. split.
      * intros a' k' Hin. apply L12. eapply Permutation_in; [symmetry; exact PP|]. right. exact Hin.
      * intros j Hj. rewrite Rb. destruct (Z.eqb_spec j i) as [->|X]; [right; congruence|]. destruct (L13 j Hj) as [Or|Or]; [|right; exact Or]. left. eapply Permutation_in in Or; [|exact PP]. destruct Or as [Or|Or]; [|exact Or]. exfalso. congruence.
    + subst todo. rewrite Own, W_add. assert (HB : buff = take (n * es) (drop (OC * es) st)).
      { apply rd_ext. intros j. assert (LS : zlen (take (n * es) (drop (OC * es) st)) = n * es) by (unfold take, drop, zlen in *; rewrite firstn_length, skipn_length; nia).
        destruct (Z_lt_dec j 0); [|destruct (Z_lt_dec j (n * es))].
        - transitivity (@None Z); [|symmetry]; apply rd_none_iff; lia.
        - unfold take, drop. rewrite rd_firstn by lia. rewrite rd_skipn by nia. destruct (L13 j ltac:(lia)) as [[]|Rj]. exact Rj.
        - transitivity (@None Z); [|symmetry]; apply rd_none_iff; lia. }
      assert (CR : c_run es cz st (thc s ++ [(o, (n, buff))]) (OC + adv) c). { rewrite HB. eapply c_next; [exact (g_crun _ _ _ _ _ _ _ _ G)|lia|lia|lia|nia|exact L10]. }
      eexists. split; [reflexivity|]. exists O, (OC + adv), I, IP, st, ps, c. destruct G; constructor; cbn [tf tpb tcb tp tc thp thc]; try assumption; try lia.
      * destruct o; try (apply (cbok_app (OC + adv) (tcb s) O OC); [exact B|lia]); replace (OC + adv) with OC by lia; exact B.
      * exact Logic.I.
      * apply issued_snoc; assumption.
Qed.
Lemma trun_ok : forall sched s, Tinv s -> exists s', trun false cp cc sched s = Some s' /\ Tinv s'.
Proof.
  induction sched as [|[a k] sched IH]; intros s T; cbn [trun]; [eauto|].
  assert (H : exists s', tstep false cp cc s (a, k) = Some s' /\ Tinv s') by (destruct a; [apply prod_ok|apply cons_ok|apply pflush_ok|apply cflush_ok]; exact T).
  destruct H as (s' & -> & T'). apply IH. exact T'.
Qed.
End Tso.
