(** * Bitmaps from an allocator: the claims *)
From Verif Require Import Lib BitsModel BitsProofs BitmapModel CreateModel CreateSpec CreateProofs BitmapHeapModel BitmapHeapSpec.

Ltac Zify.zify_post_hook ::= Z.div_mod_to_equations.

Lemma lookup_in : forall p st x, lookup p st = Some x -> In (p, x) st.
Proof.
  induction st as [|[q y] st IH]; intros x H; [discriminate|]. cbn [lookup] in H.
  destruct (Z.eqb_spec q p) as [->|N]; [injection H as ->; left; reflexivity|right; auto].
Qed.
Lemma lookup_none : forall p st, (forall x, In x st -> fst x <> p) -> lookup p st = None.
Proof.
  induction st as [|[q y] st IH]; intros H; [reflexivity|]. cbn [lookup].
  destruct (Z.eqb_spec q p) as [->|N]; [exfalso; apply (H (p, y)); [left; reflexivity|reflexivity]|].
  apply IH. intros x Hx. apply H. right. exact Hx.
Qed.
Lemma nodup_fst : forall (st : list bitmap) (L : list (Z * Z)), wf (map blk st ++ L) -> NoDup (map fst st).
Proof.
  induction st as [|x st IH]; intros L W; [constructor|]. cbn [map app] in *.
  destruct (wf_cons _ _ W) as (W' & _ & _). constructor; [|exact (IH L W')].
  destruct W as (N & _). cbn [map] in N. apply NoDup_cons_iff in N. destruct N as [N _].
  intros Hx. apply N. apply in_map_iff in Hx. destruct Hx as (y & Ey & Hy).
  change (fst (blk x)) with (fst x). rewrite <- Ey. change (fst y) with (fst (blk y)).
  apply in_map. apply in_or_app. left. apply in_map. exact Hy.
Qed.
Lemma same_ptr : forall (st : list bitmap) x y, NoDup (map fst st) -> In x st -> In y st -> fst x = fst y -> x = y.
Proof.
  induction st as [|z st IH]; intros x y N Hx Hy E; [destruct Hx|]. cbn [map] in N. apply NoDup_cons_iff in N. destruct N as [N1 N2].
  destruct Hx as [<-|Hx], Hy as [<-|Hy]; auto.
  - exfalso. apply N1. rewrite E. apply in_map. exact Hy.
  - exfalso. apply N1. rewrite <- E. apply in_map. exact Hx.
Qed.

(** the memory of the client and of others *)
Definition holds (m : rmem) (x : bitmap) : Prop :=
  0 < fst (snd x) <= largest /\
  forall i, 0 <= i < fst (snd x) -> Z.testbit (cell m (fst x + 8 * (i / 64))) (i mod 64) = snd (snd x) i.
Definition agrees (L : list (Z * Z)) (m : rmem) (st : list bitmap) : Prop :=
  own m (map blk st ++ L) /\ forall x, In x st -> holds m x.

Lemma with_bit_blk : forall p i v st, map blk (with_bit p i v st) = map blk st.
Proof.
  intros p i v st. unfold with_bit. rewrite map_map. apply map_ext. intros x.
  destruct (Z.eqb_spec (fst x) p) as [E|]; [|reflexivity]. unfold blk. cbn [fst snd]. rewrite E. reflexivity.
Qed.

(** the words a request asks for *)
Lemma request_size : forall bits, 0 <= bits < 2 ^ 32 ->
  w64 (8 * bits_to_long bits) = if bits <=? largest then 8 * ((bits + 63) / 64) else 0.
Proof.
  intros bits Hb. unfold bits_to_long, largest, w32, w64. destruct (Z.leb_spec bits (2 ^ 32 - 64)) as [C|C].
  - rewrite (Z.mod_small (bits + 63)) by lia. rewrite Z.mod_small by lia. reflexivity.
  - replace ((bits + 63) mod 2 ^ 32) with (bits + 63 - 2 ^ 32); [|apply (Z.mod_unique _ _ 1); lia].
    replace ((bits + 63 - 2 ^ 32) / 64) with 0 by lia. reflexivity.
Qed.

Section Proofs.
Variables (ask : nat -> rmem -> Z -> option Z) (junk : nat -> Z -> Z) (L : list (Z * Z)).
Hypothesis Honest : honest ask.

Lemma get_bit : forall m st p bits f i, agrees L m st -> lookup p st = Some (bits, f) -> 0 <= i < bits ->
  get m (p + 8 * (i / 64)) = Some (cell m (p + 8 * (i / 64))) /\
  Z.testbit (cell m (p + 8 * (i / 64))) (i mod 64) = f i.
Proof.
  intros m st p bits f i (O & H) E Hi. apply lookup_in in E. destruct (H _ E) as [B C]. cbn [fst snd] in *.
  split; [|apply C; exact Hi].
  apply (get_ok m (map blk st ++ L) (blk (p, (bits, f)))); auto.
  - apply in_or_app. left. apply in_map. exact E.
  - unfold blk. cbn [fst snd]. lia.
  - unfold blk. cbn [fst snd]. lia.
Qed.

Lemma rmw_ok : forall g v m st p bits f i, agrees L m st -> lookup p st = Some (bits, f) -> 0 <= i < bits ->
  (forall w j, 0 <= j < 64 -> Z.testbit w (i mod 64) = f i -> Z.testbit (g w) j = if j =? i mod 64 then v else Z.testbit w j) ->
  exists m', bit_rmw g m p i = Some m' /\ agrees L m' (with_bit p i v st) /\ keep L m m'.
Proof.
  intros g v m st p bits f i A E Hi G. destruct (get_bit m st p bits f i A E Hi) as [R T].
  pose proof A as (O & H). pose proof (lookup_in _ _ _ E) as HE.
  assert (IN : In (blk (p, (bits, f))) (map blk st ++ L)) by (apply in_or_app; left; apply in_map; exact HE).
  set (a := p + 8 * (i / 64)) in *.
  exists (setc m a (g (cell m a))).
  assert (AB : p <= a /\ a + 8 <= p + 8 * ((bits + 63) / 64)) by (unfold a; lia).
  split; [|split; [split|]].
  - unfold bit_rmw. fold a. rewrite R.
    apply (put_ok m (map blk st ++ L) (blk (p, (bits, f)))); auto; unfold blk; cbn [fst snd]; lia.
  - rewrite with_bit_blk. exact O.
  - intros x Hx. unfold with_bit in Hx. apply in_map_iff in Hx. destruct Hx as (y & Ey & Hy).
    destruct (H y Hy) as [By Cy]. pose proof O as [_ W]. pose proof (nodup_fst _ _ W) as ND.
    destruct (Z.eqb_spec (fst y) p) as [Ep|Np].
    + assert (Yp : y = (p, (bits, f))) by (apply (same_ptr st); auto).
      subst y x. unfold holds. cbn [fst snd] in *. split; [exact By|]. intros k Hk.
      destruct (Z.eq_dec (k / 64) (i / 64)) as [Q|Q].
      * rewrite Q. fold a. rewrite setc_same. rewrite G by (auto; lia). rewrite <- (Cy k Hk), Q. fold a.
        destruct (Z.eqb_spec k i) as [->|Nk]; [rewrite Z.eqb_refl; reflexivity|].
        replace (k mod 64 =? i mod 64) with false by (symmetry; apply Z.eqb_neq; lia). reflexivity.
      * rewrite setc_other by (unfold a; lia). rewrite (Cy k Hk).
        destruct (Z.eqb_spec k i) as [->|Nk]; [congruence|reflexivity].
    + subst x. split; [exact By|]. intros k Hk. rewrite setc_other; [apply Cy; exact Hk|].
      destruct W as (_ & W2 & _).
      assert (Q : apart (blk y) (blk (p, (bits, f)))).
      { apply W2; [apply in_or_app; left; apply in_map; exact Hy|exact IN|]. intros Q. apply Np.
        apply (f_equal fst) in Q. exact Q. }
      unfold apart, blk in Q. cbn [fst snd] in Q. clear - Q Hk AB. lia.
  - intros x b Hx Hb. rewrite setc_other; [reflexivity|].
    pose proof O as [_ W]. pose proof (wf_split _ _ (blk (p, (bits, f))) x W ltac:(apply in_map; exact HE) Hx) as Q.
    unfold apart, blk in Q. cbn [fst snd] in Q. clear - Q Hb AB. lia.
Qed.

Lemma malloc_ok : forall m size l, own m l -> 0 < size -> exists p m', malloc ask junk m size = (p, m') /\
  ((p = 0 /\ own m' l /\ cell m' = cell m /\ ~ generous ask) \/ (0 < p /\ own m' ((p, size) :: l) /\ keep l m m')).
Proof.
  intros m size l O S. unfold malloc. rewrite (proj2 (Z.eqb_neq size 0)) by lia. pose proof O as [P W]. destruct (ask (tick m) m size) as [p|] eqn:E.
  - eexists _, _. split; [reflexivity|]. right. destruct (Honest _ _ _ _ S (own_live _ _ O) E) as [Hp K].
    assert (K' : forall x, In x l -> apart (p, size) x) by (intros x Hx; apply K, (Permutation_in _ (Permutation_sym P)), Hx).
    split; [exact Hp|]. split; [split|].
    + cbn [live]. constructor. exact P.
    + destruct W as (A & B & C). split; [|split].
      * cbn [map fst]. constructor; [|exact A]. intros Hi. apply in_map_iff in Hi. destruct Hi as (x & Ex & Hx). pose proof (K' x Hx) as Q. destruct (C x Hx) as [C1 C2].
        unfold apart in Q. cbn [fst snd] in Q. lia.
      * intros x y [<- | Hx] [<- | Hy] N; [contradiction|apply K', Hy|apply apart_sym, K', Hx|apply B; assumption].
      * intros x [<- | Hx]; [cbn [fst snd]; lia|apply C, Hx].
    + intros x a Hx Ha. cbn [cell]. pose proof (K' x Hx) as Q. unfold apart in Q. cbn [fst snd] in Q.
      destruct (Z.leb_spec p a), (Z.ltb_spec a (p + size)); cbn [andb]; try reflexivity. lia.
  - eexists _, _. split; [reflexivity|]. left. split; [reflexivity|]. split; [exact O|]. split; [reflexivity|]. intros G. exact (G _ _ _ E).
Qed.

Lemma zalloc_zero : forall m size p m', zalloc ask m size = (p, m') -> p <> 0 -> forall a, p <= a < p + size -> cell m' a = 0.
Proof.
  intros m size p m' E Hp a Ha. unfold zalloc in E. destruct (size =? 0); [congruence|].
  destruct (ask (tick m) m size) as [q|]; [|congruence]. injection E as <- <-. cbn [cell].
  replace (q <=? a) with true by (symmetry; apply Z.leb_le; lia).
  replace (a <? q + size) with true by (symmetry; apply Z.ltb_lt; lia). reflexivity.
Qed.

Lemma keep_app : forall a b m m', keep (a ++ b) m m' -> keep b m m'.
Proof. intros a b m m' K x i Hx Hi. apply (K x i); [apply in_or_app; auto|exact Hi]. Qed.

Lemma new_ok : forall m st p m' z bits (sure : Prop), agrees L m st -> 0 < bits <= largest -> (sure -> generous ask) ->
  ((p = 0 /\ own m' (map blk st ++ L) /\ cell m' = cell m /\ ~ generous ask) \/
   (0 < p /\ own m' ((p, 8 * ((bits + 63) / 64)) :: map blk st ++ L) /\ keep (map blk st ++ L) m m')) ->
  (z = true -> p <> 0 -> forall a, p <= a < p + 8 * ((bits + 63) / 64) -> cell m' a = 0) ->
  exists st', meets sure st (New z bits) (Ptr p) st' /\ agrees L m' st' /\ keep L m m'.
Proof.
  intros m st p m' z bits sure (O & H) Hb G [(-> & O' & C & NG) | (Hp & O' & K)] Z0.
  - exists st. split; [left; split; [reflexivity|]; split; [reflexivity|]; intros S; exfalso; auto|].
    split; [split; [exact O'|]|intros x a _ _; rewrite C; reflexivity].
    intros x Hx. destruct (H x Hx) as [B D]. split; [exact B|]. rewrite C. exact D.
  - exists ((p, (bits, fun i => Z.testbit (cell m' (p + 8 * (i / 64))) (i mod 64))) :: st). split; [|split; [split|]].
    + right. eexists p, _. split; [reflexivity|]. split; [exact Hp|]. split; [|split; [exact Hb|split; [reflexivity|]]].
      * apply lookup_none. intros x Hx Ex. destruct O' as [_ W]. destruct W as (N & _). cbn [map fst] in N.
        apply NoDup_cons_iff in N. destruct N as [N _]. apply N. rewrite <- Ex. change (fst x) with (fst (blk x)).
        apply in_map. apply in_or_app. left. apply in_map. exact Hx.
      * intros E i Hi. cbv beta. rewrite (Z0 E ltac:(lia)) by lia. apply Z.bits_0.
    + exact O'.
    + intros x [<-|Hx]; [split; [exact Hb|reflexivity]|].
      destruct (H x Hx) as [B D]. split; [exact B|]. intros i Hi. rewrite <- (D i Hi).
      rewrite (K (blk x)); [reflexivity|apply in_or_app; left; apply in_map; exact Hx|]. unfold blk. cbn [fst snd]. lia.
    + exact (keep_app _ _ _ _ K).
Qed.

Lemma without_perm : forall p x st, NoDup (map fst st) -> In (p, x) st -> Permutation st ((p, x) :: without p st).
Proof.
  induction st as [|[q y] st IH]; intros N H; [destruct H|]. cbn [map fst] in N. apply NoDup_cons_iff in N. destruct N as [N1 N2].
  unfold without. cbn [filter fst]. destruct (Z.eqb_spec q p) as [->|Nq]; cbn [negb].
  - destruct H as [H|H]; [|exfalso; apply N1; apply (in_map fst) in H; exact H]. injection H as ->.
    assert (E : filter (fun x : bitmap => negb (fst x =? p)) st = st).
    { clear - N1. induction st as [|[r z] st IH]; [reflexivity|]. cbn [filter fst]. cbn [map fst In] in N1.
      destruct (Z.eqb_spec r p) as [->|]; [exfalso; auto|]. cbn [negb]. f_equal. apply IH. auto. }
    replace (filter _ st) with st by (symmetry; exact E). reflexivity.
  - destruct H as [H|H]; [congruence|]. etransitivity; [apply perm_skip; exact (IH N2 H)|]. apply perm_swap.
Qed.

Lemma step_ok : forall m st op, agrees L m st -> allowed st op = true ->
  exists r m' st', bstep ask junk m op = Some (r, m') /\ meets (generous ask) st op r st' /\ agrees L m' st' /\ keep L m m'.
Proof.
  intros m st op A Al. destruct op as [z bits|p|p i|p i|p i|p i]; cbn [allowed] in Al.
  - apply andb_prop in Al. destruct Al as [A1 A2]. apply Z.leb_le in A1. apply Z.ltb_lt in A2.
    pose proof (request_size bits (conj A1 A2)) as RS.
    assert (C : (bits = 0 \/ largest < bits) \/ 0 < bits <= largest) by (unfold largest; lia).
    destruct C as [C|C].
    + assert (RZ : w64 (8 * bits_to_long bits) = 0).
      { rewrite RS. destruct (Z.leb_spec bits largest); [|reflexivity]. destruct C as [->|C]; [reflexivity|lia]. }
      exists (Ptr 0), m, st. split; [|split; [left; auto|split; [exact A|intros x a _ _; reflexivity]]].
      cbn [bstep]. unfold bm_zalloc, bm_alloc. rewrite RZ. destruct z; reflexivity.
    + assert (RZ : w64 (8 * bits_to_long bits) = 8 * ((bits + 63) / 64)).
      { rewrite RS. destruct (Z.leb_spec bits largest); [reflexivity|lia]. }
      pose proof A as (O & _).
      destruct z.
      * destruct (zalloc_ok ask Honest m (8 * ((bits + 63) / 64)) _ O ltac:(lia)) as (p & m' & E & D).
        destruct (new_ok m st p m' true bits (generous ask) A C (fun g => g) D) as (st' & M & A' & K).
        { intros _ Hp. exact (zalloc_zero _ _ _ _ E Hp). }
        exists (Ptr p), m', st'. split; [|auto]. cbn [bstep]. unfold bm_zalloc. rewrite RZ, E. reflexivity.
      * destruct (malloc_ok m (8 * ((bits + 63) / 64)) _ O ltac:(lia)) as (p & m' & E & D).
        destruct (new_ok m st p m' false bits (generous ask) A C (fun g => g) D) as (st' & M & A' & K).
        { discriminate. }
        exists (Ptr p), m', st'. split; [|auto]. cbn [bstep]. unfold bm_alloc. rewrite RZ, E. reflexivity.
  - cbn [bstep]. destruct (Z.eqb_spec p 0) as [->|Np]; cbn [orb] in Al.
    + exists Done, m, st. split; [reflexivity|]. split; [split; reflexivity|]. split; [exact A|intros x a _ _; reflexivity].
    + destruct (lookup p st) as [x|] eqn:E; [|discriminate]. pose proof A as (O & H). pose proof O as [_ W].
      pose proof (without_perm p x st (nodup_fst _ _ W) (lookup_in _ _ _ E)) as P.
      assert (O1 : own m ((p, 8 * ((fst x + 63) / 64)) :: map blk (without p st) ++ L)).
      { apply (own_perm m (map blk st ++ L)); [|exact O]. apply (Permutation_map blk) in P.
        change ((p, 8 * ((fst x + 63) / 64)) :: map blk (without p st) ++ L) with (map blk ((p, x) :: without p st) ++ L).
        apply Permutation_app_tail. exact P. }
      destruct (free_ok _ _ _ _ O1) as (m' & F & O2 & C).
      exists Done, m', (without p st). unfold bm_free. rewrite F. split; [reflexivity|].
      split; [split; [reflexivity|rewrite (proj2 (Z.eqb_neq p 0) Np); reflexivity]|].
      split; [split; [exact O2|]|intros y a _ _; rewrite C; reflexivity].
      intros y Hy. unfold without in Hy. apply filter_In in Hy. destruct (H y (proj1 Hy)) as [B D].
      split; [exact B|]. rewrite C. exact D.
  - unfold owns in Al. destruct (lookup p st) as [[bits f]|] eqn:E; [|discriminate]. apply andb_prop in Al.
    destruct Al as [A1 A2]. apply Z.leb_le in A1. apply Z.ltb_lt in A2.
    destruct (rmw_ok (fun w => Z.lor w (BIT i)) true m st p bits f i A E (conj A1 A2)) as (m' & R & A' & K).
    { intros w j Hj _. rewrite Z.lor_spec, BIT_bits by lia. destruct (j =? i mod 64); [apply orb_true_r|apply orb_false_r]. }
    exists Done, m', (with_bit p i true st). cbn [bstep]. unfold heap_set. rewrite R. split; [reflexivity|]. split; [split; reflexivity|auto].
  - unfold owns in Al. destruct (lookup p st) as [[bits f]|] eqn:E; [|discriminate]. apply andb_prop in Al.
    destruct Al as [A1 A2]. apply Z.leb_le in A1. apply Z.ltb_lt in A2.
    destruct (rmw_ok (fun w => Z.land w (not64 (BIT i))) false m st p bits f i A E (conj A1 A2)) as (m' & R & A' & K).
    { intros w j Hj _. rewrite Z.land_spec. unfold not64, w64. rewrite Z.mod_pow2_bits_low by lia.
      rewrite Z.lnot_spec, BIT_bits by lia. destruct (j =? i mod 64); [apply andb_false_r|apply andb_true_r]. }
    exists Done, m', (with_bit p i false st). cbn [bstep]. unfold heap_clr. rewrite R. split; [reflexivity|]. split; [split; reflexivity|auto].
  - unfold owns in Al. destruct (lookup p st) as [[bits f]|] eqn:E; [|discriminate]. apply andb_prop in Al.
    destruct Al as [A1 A2]. apply Z.leb_le in A1. apply Z.ltb_lt in A2.
    destruct (rmw_ok (fun w => Z.lxor w (BIT i)) (negb (f i)) m st p bits f i A E (conj A1 A2)) as (m' & R & A' & K).
    { intros w j Hj T. rewrite Z.lxor_spec, BIT_bits by lia. destruct (Z.eqb_spec j (i mod 64)) as [->|];
      [rewrite T; apply xorb_true_r|apply xorb_false_r]. }
    exists Done, m', (with_bit p i (negb (f i)) st). cbn [bstep]. unfold heap_flip. rewrite R. split; [reflexivity|].
    split; [exists bits, f; auto|auto].
  - unfold owns in Al. destruct (lookup p st) as [[bits f]|] eqn:E; [|discriminate]. apply andb_prop in Al.
    destruct Al as [A1 A2]. apply Z.leb_le in A1. apply Z.ltb_lt in A2.
    destruct (get_bit m st p bits f i A E (conj A1 A2)) as [R T].
    exists (Bit (f i)), m, st. cbn [bstep]. unfold heap_test. rewrite R. rewrite BIT_test, T.
    split; [reflexivity|]. split; [exists bits, f; auto|]. split; [exact A|intros x a _ _; reflexivity].
Qed.
End Proofs.

(** ** C138 *)
(** Any history of calls either runs without a fault and as the specification says, or contains a
    call that the client was not allowed to make; until then exactly the client's bitmaps and the
    blocks of others are live, and the others' contents are untouched. *)
Theorem C138_history_partial : forall ask junk L ops m, honest ask -> own m L ->
  exists done rest rs m' st', ops = done ++ rest /\
    bruns ask junk m done = Some (rs, m') /\ history (generous ask) [] done rs st' /\
    own m' (map blk st' ++ L) /\ keep L m m' /\
    match rest with [] => True | op :: _ => allowed st' op = false end.
Proof.
  intros ask junk L ops m Ho O.
  assert (G : forall ops m st, agrees L m st -> exists done rest rs m' st', ops = done ++ rest /\
    bruns ask junk m done = Some (rs, m') /\ history (generous ask) st done rs st' /\
    agrees L m' st' /\ keep L m m' /\ match rest with [] => True | op :: _ => allowed st' op = false end).
  { clear ops m O. induction ops as [|op ops IH]; intros m st A.
    - exists [], [], [], m, st. split; [reflexivity|]. split; [reflexivity|]. split; [constructor|]. split; [exact A|].
      split; [intros x a _ _; reflexivity|exact Logic.I].
    - destruct (allowed st op) eqn:Al.
      + destruct (step_ok ask junk L Ho m st op A Al) as (r & m1 & st1 & E & M & A1 & K1).
        destruct (IH m1 st1 A1) as (d & rest & rs & m' & st' & E1 & R & H & A' & K' & X).
        exists (op :: d), rest, (r :: rs), m', st'. split; [cbn [app]; rewrite E1; reflexivity|].
        split; [cbn [bruns]; rewrite E; cbn [fst snd]; rewrite R; reflexivity|].
        split; [econstructor; eauto|]. split; [exact A'|]. split; [|exact X].
        intros x a Hx Ha. rewrite (K' x a Hx Ha). apply (K1 x a Hx Ha).
      + exists [], (op :: ops), [], m, st. split; [reflexivity|]. split; [reflexivity|]. split; [constructor|]. split; [exact A|].
        split; [intros x a _ _; reflexivity|exact Al]. }
  destruct (G ops m []) as (d & rest & rs & m' & st' & E & R & H & (A' & _) & K & X).
  { split; [exact O|intros x []]. }
  exists d, rest, rs, m', st'. auto 8.
Qed.

(** A request for one of the 63 largest sizes is refused although the allocator never fails: the
    size computation wraps and the allocator is not asked. *)
Theorem C138_largest : forall ask junk m z bits, largest < bits < 2 ^ 32 ->
  bstep ask junk m (New z bits) = Some (Ptr 0, m).
Proof.
  intros ask junk m z bits Hb. pose proof (request_size bits ltac:(unfold largest in Hb; lia)) as R.
  replace (bits <=? largest) with false in R by (symmetry; apply Z.leb_gt; lia).
  cbn [bstep]. unfold bm_zalloc, bm_alloc. rewrite R. destruct z; reflexivity.
Qed.

(** an allocator that always places blocks behind all others *)
Definition top (l : list (Z * Z)) : Z := fold_right (fun x t => Z.max (fst x + snd x) t) 8 l.
Definition bump (t : nat) (m : rmem) (size : Z) : option Z := Some (top (live m)).
Lemma bump_honest : honest bump /\ generous bump.
Proof.
  assert (T : forall l x, In x l -> fst x + snd x <= top l) by (induction l as [|y l IH]; [intros x []|intros x [<-|H]; unfold top in *; cbn [fold_right]; [lia|specialize (IH x H); lia]]).
  assert (T8 : forall l, 8 <= top l) by (induction l as [|y l IH]; unfold top in *; cbn [fold_right]; lia).
  split; [|intros t m size; discriminate]. intros t m size p Hs W E. injection E as <-. split; [specialize (T8 (live m)); lia|].
  intros x Hx. unfold apart. cbn [fst snd]. right. apply T. exact Hx.
Qed.
(** So an allocator with memory to spare does not mean that every bitmap can be had. *)
Theorem C138_largest_refuted : exists ask junk m z bits, honest ask /\ generous ask /\ own m [] /\ 0 < bits < 2 ^ 32 /\
  bstep ask junk m (New z bits) = Some (Ptr 0, m).
Proof.
  exists bump, (fun _ _ => 0), {| live := []; cell := fun _ => 0; tick := 0 |}, true, (2 ^ 32 - 1).
  split; [exact (proj1 bump_honest)|]. split; [exact (proj2 bump_honest)|]. split.
  { split; [constructor|]. split; [constructor|]. split; intros x; intros; contradiction. }
  split; [lia|]. apply C138_largest. unfold largest. lia.
Qed.
Example C138_ex : honest bump /\ own {| live := []; cell := fun _ => 0; tick := 0 |} [] /\
  option_map fst (bruns bump (fun _ a => a) {| live := []; cell := fun _ => 0; tick := 0 |}
    [New true 65; New false 100; Set_ 8 64; Test 8 64; Test 8 63; Flip 8 64; Test 8 64; Test 24 4; Clr 24 4; Test 24 4; Free 8; Free 24; Free 0])
  = Some [Ptr 8; Ptr 24; Done; Bit true; Bit false; Done; Bit false; Bit true; Done; Bit false; Done; Done; Done] /\
  bruns bump (fun _ a => a) {| live := []; cell := fun _ => 0; tick := 0 |} [New true 64; Set_ 8 64] = None /\
  largest < 2 ^ 32 - 1 < 2 ^ 32.
Proof.
  split; [exact (proj1 bump_honest)|]. split.
  { split; [constructor|]. split; [constructor|]. split; intros x; intros; contradiction. }
  split; [vm_compute; reflexivity|]. split; [vm_compute; reflexivity|]. unfold largest. lia.
Qed.

Print Assumptions C138_history_partial.
Print Assumptions C138_largest.
Print Assumptions C138_largest_refuted.
