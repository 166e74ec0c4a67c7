(** * Ownership that passes at barriers keeps the calls sequential *)
From Coq Require Import Lia.
From Verif Require Import Lib AtomicModel AtomicSpec AtomicProofs FenceModel FenceSpec.

(** ** Buffers *)
Definition latest (buf : buffer) (w : Z) : option Z := fold_left (fun o x => if fst x =? w then Some (snd x) else o) buf None.
Lemma latest_from : forall buf w o, fold_left (fun o x => if fst x =? w then Some (snd x) else o) buf o = match latest buf w with Some v => Some v | None => o end.
Proof.
  unfold latest. induction buf as [|x buf IH]; intros w o; [reflexivity|]. cbn [fold_left]. rewrite IH. rewrite (IH w (if fst x =? w then Some (snd x) else None)).
  destruct (fold_left _ buf None); [reflexivity|]. destruct (fst x =? w); reflexivity.
Qed.
Lemma latest_app : forall a b w, latest (a ++ b) w = match latest b w with Some v => Some v | None => latest a w end.
Proof. intros. unfold latest at 1. rewrite fold_left_app. apply latest_from. Qed.
Lemma latest_cons : forall x b w, latest (x :: b) w = match latest b w with Some v => Some v | None => if fst x =? w then Some (snd x) else None end.
Proof. intros. exact (latest_app [x] b w). Qed.
Lemma latest_none : forall b w, latest b w = None <-> ~ In w (map fst b).
Proof.
  induction b as [|x b IH]; intros w; [split; [intros _ []|reflexivity]|]. rewrite latest_cons. cbn [map In]. destruct (latest b w) eqn:E.
  - split; [discriminate|]. intros N. exfalso. destruct (In_dec Z.eq_dec w (map fst b)) as [i|n]; [apply N; right; exact i|]. apply IH in n. congruence.
  - apply IH in E. destruct (Z.eqb_spec (fst x) w) as [e|n]; [split; [discriminate|intros N; exfalso; apply N; left; exact e]|]. split; [intros _ [H|H]; [exact (n H)|exact (E H)]|reflexivity].
Qed.
Definition in_range (n : Z) (buf : buffer) : Prop := forall w v, In (w, v) buf -> 0 <= w < n /\ u64v v.
Lemma set_word_spec : forall m w v, 0 <= w < zlen m -> zlen (set_word m (w, v)) = zlen m /\ forall u, rd (set_word m (w, v)) u = if u =? w then Some v else rd m u.
Proof. intros m w v H. unfold set_word. cbn [fst snd]. destruct (wr_spec _ m w v H) as (m' & -> & L & R). split; [exact L|exact R]. Qed.
Lemma view_spec : forall buf m, in_range (zlen m) buf -> zlen (view m buf) = zlen m /\ forall u, rd (view m buf) u = match latest buf u with Some v => Some v | None => rd m u end.
Proof.
  induction buf as [|[w v] buf IH]; intros m R; [split; reflexivity|]. cbn [view fold_left]. fold (view (set_word m (w, v)) buf).
  destruct (set_word_spec m w v) as (L & S); [apply (R w v); left; reflexivity|].
  destruct (IH (set_word m (w, v))) as (L' & S'); [intros w' v' I; rewrite L; apply (R w' v'); right; exact I|].
  split; [lia|]. intros u. rewrite S', latest_cons, S. destruct (latest buf u); [reflexivity|]. cbn [fst snd]. rewrite (Z.eqb_sym w u). destruct (u =? w); reflexivity.
Qed.
Lemma view_words : forall buf m, in_range (zlen m) buf -> Forall u64v m -> Forall u64v (view m buf).
Proof.
  induction buf as [|[w v] buf IH]; intros m R F; [exact F|]. cbn [view fold_left]. fold (view (set_word m (w, v)) buf).
  destruct (R w v (or_introl eq_refl)) as (Rw & Rv). destruct (set_word_spec m w v Rw) as (L & _). apply IH; [intros w' v' I; rewrite L; apply (R w' v'); right; exact I|].
  unfold set_word. cbn [fst snd]. destruct (wr m w v) as [m'|] eqn:E; [|exact F]. apply (wr_words _ _ _ _ F Rv E).
Qed.
(** moving a store to memory does not change what its thread sees *)
Lemma pick_ok : forall weak k buf w v buf', pick_next weak k buf = Some ((w, v), buf') ->
  In (w, v) buf /\ (forall x, In x buf' -> In x buf) /\ forall u, latest buf u = match latest buf' u with Some y => Some y | None => if w =? u then Some v else None end.
Proof.
  intros weak k buf w v buf' E.
  assert (F : forall b, (match b with [] => None | x :: buf => Some (x, buf) end) = Some ((w, v), buf') -> In (w, v) b /\ (forall x, In x buf' -> In x b) /\
    forall u, latest b u = match latest buf' u with Some y => Some y | None => if w =? u then Some v else None end).
  { intros b Eb. destruct b as [|x b]; [discriminate Eb|]. injection Eb as -> ->. split; [left; reflexivity|]. split; [intros x I; right; exact I|]. intros u. rewrite latest_cons. reflexivity. }
  unfold pick_next in E. destruct weak; [|exact (F _ E)]. destruct (nth_error buf k) as [x|] eqn:En; [|exact (F _ E)].
  remember (skipn (S k) buf) as rest eqn:Er.
  destruct (existsb (fun y => fst y =? fst x) (firstn k buf)) eqn:Ex; [exact (F _ E)|]. injection E as -> <-.
  assert (S : buf = firstn k buf ++ (w, v) :: rest).
  { subst rest. clear - En. revert k En. induction buf as [|y buf IH]; intros [|k] En; try discriminate En; [injection En as ->; reflexivity|]. cbn. f_equal. apply IH. exact En. }
  split; [rewrite S; apply in_elt|]. split; [intros x I; rewrite S; apply in_app_or in I; apply in_or_app; destruct I as [I|I]; [left; exact I|right; right; exact I]|].
  intros u. rewrite S at 1. rewrite !latest_app, latest_cons. cbn [fst snd]. destruct (latest rest u); [reflexivity|].
  destruct (Z.eqb_spec w u) as [->|n]; [|destruct (latest (firstn k buf) u); reflexivity].
  assert (N : latest (firstn k buf) u = None).
  { apply latest_none. intros I. apply in_map_iff in I. destruct I as ([a b] & Ea & I). cbn in Ea. subst a.
    rewrite <- not_true_iff_false in Ex. apply Ex. apply existsb_exists. exists (u, b). split; [exact I|apply Z.eqb_refl]. }
  rewrite N. reflexivity.
Qed.

(** ** One access is an access to the thread's view of memory *)
Lemma atspec_local : forall op f g, f (opw op) = g (opw op) -> snd (atspec op f) = snd (atspec op g) /\ fst (atspec op f) (opw op) = fst (atspec op g) (opw op).
Proof.
  intros op f g E. destruct op as [w|w v|k md w v|w old v|w old v|w v|b|b|b|b val|b|b|b|b|b val]; cbn [opw] in E; cbn [atspec fst snd opw]; unfold setb, bitv, upd; rewrite ?E, ?Z.eqb_refl; split; try reflexivity;
    destruct (g w =? old); rewrite ?Z.eqb_refl; first [reflexivity | exact E].
Qed.
Lemma atspec_other : forall op f u, u <> opw op -> fst (atspec op f) u = f u.
Proof.
  intros op f u N. destruct op as [w|w v|k md w v|w old v|w old v|w v|b|b|b|b val|b|b|b|b|b val]; cbn [opw] in N; cbn [atspec fst]; unfold setb, upd; try reflexivity;
    try (destruct (Z.eqb_spec u w) as [e|_]; [contradiction|reflexivity]); try (destruct (Z.eqb_spec u (b / 64)) as [e|_]; [contradiction|reflexivity]);
    destruct (f w =? old); try reflexivity; destruct (Z.eqb_spec u w) as [e|_]; try contradiction; reflexivity.
Qed.
Lemma op_word : forall n op, op_ok n op -> 0 <= opw op < n.
Proof. intros n op O. destruct op; cbn [op_ok opw] in *; try lia; (split; [apply Z.div_pos; lia|apply Z.div_lt_upper_bound; lia]). Qed.
(** a plain first reading does not change memory, and what it can report is not the report of a barrier *)
Lemma read_same : forall m op p m' r, builtin op p = false -> (forall w v, op <> AWrite w v) -> astep m op p = Some (m', r) -> m' = m /\ match r with inr v => ~ fence op v | inl _ => True end.
Proof.
  intros m op p m' r B N E. destruct op as [w|w v|k md w v|w old v|w old v|w v|b|b|b|b val|b|b|b|b|b val]; cbn [builtin] in B; try discriminate B; cbn [astep] in E.
  - destruct (rd m w); [|discriminate E]. injection E as <- <-. split; [reflexivity|intros []].
  - contradiction (N w v eq_refl).
  - destruct p; try discriminate B; (destruct (rd m w); [|discriminate E]; injection E as <- <-; split; [reflexivity|exact Logic.I]).
  - destruct (rd m (wordof b)); [|discriminate E]. injection E as <- <-. split; [reflexivity|intros []].
  - destruct p; try discriminate B; (destruct (rd m (wordof b)) as [x|]; [|discriminate E]; destruct (Z.land x (BITM b) =? 0); injection E as <- <-; split; try reflexivity; try exact Logic.I; cbn [fence]; discriminate).
  - destruct p; try discriminate B; (destruct (rd m (wordof b)) as [x|]; [|discriminate E]; destruct (negb (Z.land x (BITM b) =? 0)); injection E as <- <-; split; try reflexivity; try exact Logic.I; cbn [fence]; discriminate).
Qed.
(** what one access does, with the thread's view agreeing with [g] *)
Lemma bstep_ok : forall m buf op p g, Forall u64v m -> in_range (zlen m) buf -> agrees (view m buf) g -> op_ok (zlen m) op ->
  exists m' buf' r, bstep m buf op p = Some (m', buf', r) /\ Forall u64v m' /\ zlen m' = zlen m /\
    match r with
    | inl _ => m' = m /\ buf' = buf
    | inr v => v = snd (atspec op g) /\ in_range (zlen m) buf' /\ agrees (view m' buf') (fst (atspec op g)) /\
        (forall u, u <> opw op -> rd m' u = rd m u) /\
        ((buf = [] /\ buf' = []) \/ (m' = m /\ buf' = buf /\ ~ fence op v) \/ (exists x, op = AWrite (opw op) x /\ m' = m /\ buf' = buf ++ [(opw op, x)]))
    end.
Proof.
  intros m buf op p g W R A O. destruct (view_spec buf m R) as (LV & SV). pose proof (view_words _ _ R W) as WV.
  assert (ST : forall w v, op = AWrite w v -> exists m' buf' r, bstep m buf op p = Some (m', buf', r) /\ Forall u64v m' /\ zlen m' = zlen m /\
    match r with
    | inl _ => m' = m /\ buf' = buf
    | inr v => v = snd (atspec op g) /\ in_range (zlen m) buf' /\ agrees (view m' buf') (fst (atspec op g)) /\
        (forall u, u <> opw op -> rd m' u = rd m u) /\
        ((buf = [] /\ buf' = []) \/ (m' = m /\ buf' = buf /\ ~ fence op v) \/ (exists x, op = AWrite (opw op) x /\ m' = m /\ buf' = buf ++ [(opw op, x)]))
    end).
  { intros w v ->. cbn [op_ok] in O. destruct O as (Ow & Ov). cbn [bstep]. assert (C : ((0 <=? w) && (w <? zlen m))%bool = true) by (apply andb_true_iff; split; [apply Z.leb_le|apply Z.ltb_lt]; lia).
    rewrite C. exists m, (buf ++ [(w, v)]), (inr RVoid). split; [reflexivity|]. split; [exact W|]. split; [reflexivity|]. split; [reflexivity|].
    assert (R' : in_range (zlen m) (buf ++ [(w, v)])). { intros w' v' I. apply in_app_or in I. destruct I as [I|[I|[]]]; [exact (R _ _ I)|]. injection I as <- <-. split; assumption. }
    split; [exact R'|]. split; [|split; [reflexivity|right; right; exists v; repeat split; reflexivity]].
    destruct (view_spec _ m R') as (LV' & SV'). intros u Hu. rewrite SV', latest_app. cbn [atspec fst]. unfold upd. cbn. rewrite (Z.eqb_sym w u). destruct (u =? w); [reflexivity|].
    rewrite <- SV. apply A. lia. }
  assert (G : (forall w v, op <> AWrite w v) \/ exists w v, op = AWrite w v) by (destruct op; try (left; intros ? ?; discriminate); right; do 2 eexists; reflexivity).
  destruct G as [G|(w & v & G)]; [|exact (ST w v G)].
  assert (D : bstep m buf op p = if builtin op p then match buf with [] => let* (m, r) := astep m op p in Some (m, [], r) | _ => Some (m, buf, inl p) end
                                 else let* (_, r) := astep (view m buf) op p in Some (m, buf, r)).
  { destruct op; try reflexivity. contradiction (G w v eq_refl). }
  rewrite D. clear D. destruct (builtin op p) eqn:Bi.
  - destruct buf as [|x buf].
    + change (view m []) with m in *. destruct (astep_ok m g W A op p O) as (m' & r & E & W' & L & K). rewrite E. exists m', [], r. split; [reflexivity|]. split; [exact W'|]. split; [exact L|].
      destruct r as [q|v]; [subst m'; split; reflexivity|]. destruct K as (-> & K). split; [reflexivity|]. split; [intros ? ? []|]. split; [exact K|]. split; [|left; split; reflexivity].
      intros u N. destruct (Z_lt_ge_dec u 0) as [Hu|Hu]; [|destruct (Z_lt_ge_dec u (zlen m)) as [Hv|Hv]].
      * transitivity (@None Z); [apply rd_none_iff; lia|symmetry; apply rd_none_iff; lia].
      * rewrite K by lia. rewrite A by lia. rewrite atspec_other by exact N. reflexivity.
      * transitivity (@None Z); [apply rd_none_iff; lia|symmetry; apply rd_none_iff; lia].
    + exists m, (x :: buf), (inl p). split; [reflexivity|]. split; [exact W|]. split; [reflexivity|]. split; reflexivity.
  - assert (O' : op_ok (zlen (view m buf)) op) by (rewrite LV; exact O).
    destruct (astep_ok (view m buf) g WV A op p O') as (m' & r & E & W' & L & K). rewrite E. exists m, buf, r. split; [reflexivity|]. split; [exact W|]. split; [reflexivity|].
    destruct (read_same _ _ _ _ _ Bi G E) as (-> & F). destruct r as [q|v]; [split; reflexivity|]. destruct K as (-> & K). split; [reflexivity|]. split; [exact R|]. split; [exact K|]. split; [reflexivity|].
    right. left. split; [reflexivity|]. split; [reflexivity|exact F].
Qed.

(** ** The invariant *)
Section Own.
Variables (c : client) (n : Z) (f0 : Z -> Z) (sync : Z -> bool) (own : ownership).
Hypothesis CO : forall l f t op, issued c l -> explains f0 l f -> c t (proj t l) = Some op -> op_ok n op.
Hypothesis RE : respects sync own c f0.
Definition binv (s : bsys) : Prop :=
  Forall u64v (bmem s) /\ zlen (bmem s) = n /\ (forall t, in_range n (bbuf s t)) /\ (forall t, bhist s t = proj t (blog s)) /\ issued c (blog s) /\
  exists f, explains f0 (blog s) f /\
    (forall w, 0 <= w < n -> sync w = true -> rd (bmem s) w = Some (f w)) /\
    (forall w t, 0 <= w < n -> sync w = false -> own (blog s) w = Some t -> rd (view (bmem s) (bbuf s t)) w = Some (f w)) /\
    (forall w, 0 <= w < n -> sync w = false -> own (blog s) w = None -> rd (bmem s) w = Some (f w)) /\
    (forall t w v, In (w, v) (bbuf s t) -> sync w = false /\ own (blog s) w = Some t).
Definition value_at (m : list Z) (w : Z) : Z := match rd m w with Some v => v | None => 0 end.
Lemma agrees_self : forall m, agrees m (value_at m).
Proof. intros m w H. unfold value_at. destruct (rd_some _ m w H) as (x & ->). reflexivity. Qed.
Lemma not_pending : forall (buf : buffer) w, (forall v, ~ In (w, v) buf) -> latest buf w = None.
Proof. intros buf w N. apply latest_none. intros I. apply in_map_iff in I. destruct I as ([a b] & E & I). cbn in E. subst a. exact (N _ I). Qed.
Lemma go_inv : forall weak s t, binv s -> exists s', bmove weak c s (Go t) = Some s' /\ binv s'.
Proof.
  intros weak s t (W & L & R & H & IS & f & X & BS & BO & BN & BP). cbn [bmove]. destruct (c t (bhist s t)) as [op|] eqn:Ec.
  2:{ exists s. split; [reflexivity|]. split; [exact W|]. split; [exact L|]. split; [exact R|]. split; [exact H|]. split; [exact IS|]. exists f. repeat (split; [assumption|]). assumption. }
  rewrite H in Ec. pose proof (CO _ _ _ _ IS X Ec) as O. destruct (RE _ _ _ _ IS X Ec) as (RA & RH).
  set (g := value_at (view (bmem s) (bbuf s t))).
  assert (Rt : in_range (zlen (bmem s)) (bbuf s t)) by (rewrite L; apply R).
  destruct (view_spec _ _ Rt) as (LV & SV).
  pose proof (op_word _ _ O) as Ow.
  (* the thread sees the right value of the word it is about to touch *)
  assert (EG : g (opw op) = f (opw op)).
  { unfold g, value_at. destruct (sync (opw op)) eqn:Es.
    - rewrite SV, not_pending, (BS _ Ow Es); [reflexivity|]. intros v I. destruct (BP _ _ _ I) as (Ef & _). congruence.
    - rewrite (BO _ t Ow Es RA). reflexivity. }
  destruct (bstep_ok (bmem s) (bbuf s t) op (bpc s t) g W Rt (agrees_self _)) as (m' & buf' & r & -> & W' & L' & K); [rewrite L; exact O|].
  destruct r as [p|v].
  - destruct K as (-> & ->). eexists. split; [reflexivity|]. unfold binv. cbn [bmem bbuf bhist bpc blog]. split; [exact W|]. split; [exact L|].
    assert (TB : forall u, tset (bbuf s) t (bbuf s t) u = bbuf s u) by (intros u; unfold tset; destruct (Nat.eqb_spec u t) as [->|]; reflexivity).
    split; [intros u; rewrite TB; apply R|]. split; [exact H|]. split; [exact IS|]. exists f. split; [exact X|]. split; [exact BS|]. split; [intros w u; rewrite TB; apply BO|]. split; [exact BN|].
    intros u w x; rewrite TB; apply BP.
  - destruct K as (Ev & R' & A' & MO & CASES). destruct (atspec_local op g f EG) as (E1 & E2). rewrite E1 in Ev. subst v.
    eexists. split; [reflexivity|]. unfold binv. cbn [bmem bbuf bhist bpc blog]. split; [exact W'|]. split; [lia|].
    assert (TO : forall u, u <> t -> tset (bbuf s) t buf' u = bbuf s u) by (intros u N; unfold tset; destruct (Nat.eqb_spec u t); [contradiction|reflexivity]).
    assert (TT : tset (bbuf s) t buf' t = buf') by (unfold tset; rewrite Nat.eqb_refl; reflexivity).
    split; [intros u; destruct (Nat.eq_dec u t) as [->|N]; [rewrite TT, <- L; exact R'|rewrite TO by exact N; apply R]|].
    split. { intros u. rewrite proj_snoc. unfold tset. destruct (Nat.eqb_spec u t) as [->|N]; [rewrite Nat.eqb_refl, H; reflexivity|]. destruct (Nat.eqb_spec t u) as [->|]; [contradiction N; reflexivity|]. rewrite app_nil_r. apply H. }
    split; [apply is_snoc; [exact IS|exact Ec]|].
    exists (fst (atspec op f)). split; [apply explains_snoc; exact X|].
    (* what thread t sees afterwards *)
    assert (V' : forall w, 0 <= w < n -> rd (view m' buf') w = Some (fst (atspec op g) w)) by (intros w Hw; apply A'; destruct (view_spec buf' m') as (LL & _); [rewrite L'; exact R'|lia]).
    assert (SV' : forall w, rd (view m' buf') w = match latest buf' w with Some v => Some v | None => rd m' w end) by (apply view_spec; rewrite L'; exact R').
    assert (KEEP : forall w, 0 <= w < n -> w <> opw op -> fst (atspec op f) w = f w) by (intros; apply atspec_other; assumption).
    assert (NSB : forall w v, In (w, v) buf' -> sync w = false).
    { intros w v I. destruct CASES as [(_ & ->)|[(_ & -> & _)|(x & Eo & _ & ->)]]; [destruct I|exact (proj1 (BP _ _ _ I))|]. apply in_app_or in I. destruct I as [I|[I|[]]]; [exact (proj1 (BP _ _ _ I))|].
      injection I as <- _. destruct (sync (opw op)) eqn:Es; [|reflexivity]. exfalso. apply RA. rewrite Eo. exact Logic.I. }
    assert (OTHER : forall w u, 0 <= w < n -> w <> opw op -> latest (bbuf s u) w = None -> rd (view m' (bbuf s u)) w = rd (bmem s) w).
    { intros w u Hw N LN. destruct (view_spec (bbuf s u) m') as (_ & S2); [rewrite L', L; apply R|]. rewrite S2, LN. apply MO. exact N. }
    (* memory after a barrier of t *)
    assert (FEN : fence op (snd (atspec op f)) -> buf' = [] /\ bbuf s t = []).
    { intros F. destruct CASES as [(A & ->)|[(_ & _ & N)|(x & Eo & _ & _)]]; [split; [reflexivity|exact A]|contradiction|]. rewrite Eo in F. destruct F. }
    split; [|split; [|split]].
    + intros w Hw Sw. assert (LN : latest buf' w = None) by (apply not_pending; intros v I; rewrite (NSB _ _ I) in Sw; discriminate Sw).
      specialize (V' w Hw). rewrite SV', LN in V'. rewrite V'. f_equal. destruct (Z.eq_dec w (opw op)) as [->|N]; [exact E2|]. rewrite !atspec_other by exact N.
      assert (G : Some (g w) = Some (f w)).
      { unfold g. rewrite <- (agrees_self (view (bmem s) (bbuf s t)) w) by lia. rewrite SV, not_pending; [apply BS; assumption|]. intros v I. rewrite (proj1 (BP _ _ _ I)) in Sw. discriminate Sw. }
      injection G as ->. reflexivity.
    + (* owned afterwards by u *)
      intros w u Hw Sw Ou.
      assert (TV : own (blog s) w = Some t -> rd (view m' buf') w = Some (fst (atspec op f) w)).
      { intros Ot. rewrite (V' w Hw). f_equal. destruct (Z.eq_dec w (opw op)) as [->|N]; [exact E2|]. rewrite !atspec_other by exact N.
        pose proof (BO _ _ Hw Sw Ot) as B. rewrite (agrees_self (view (bmem s) (bbuf s t)) w) in B by lia. injection B as B. unfold g. rewrite B. reflexivity. }
      destruct (RH w) as [Eq|[None0|(Ot & F)]].
      * rewrite Eq in Ou. destruct (Nat.eq_dec u t) as [->|N]; [rewrite TT; exact (TV Ou)|]. rewrite TO by exact N.
        assert (NW : w <> opw op) by (intros ->; rewrite Sw in RA; congruence).
        destruct (view_spec (bbuf s u) m') as (_ & S2); [rewrite L', L; apply R|]. destruct (view_spec (bbuf s u) (bmem s)) as (_ & S1); [rewrite L; apply R|].
        rewrite S2, MO by exact NW. rewrite <- S1. rewrite (BO _ _ Hw Sw Ou). rewrite KEEP by assumption. reflexivity.
      * assert (NW : w <> opw op) by (intros ->; rewrite Sw in RA; congruence).
        assert (LN : forall u', latest (bbuf s u') w = None) by (intros u'; apply not_pending; intros v I; destruct (BP _ _ _ I) as (_ & Q); congruence).
        rewrite KEEP by assumption. rewrite <- (BN _ Hw Sw None0). destruct (Nat.eq_dec u t) as [->|N]; [|rewrite TO by exact N; apply OTHER; [exact Hw|exact NW|apply LN]].
        rewrite TT, SV'. assert (LB : latest buf' w = None).
        { destruct CASES as [(_ & ->)|[(_ & -> & _)|(x & _ & _ & ->)]]; [reflexivity|apply LN|]. rewrite latest_app, LN. cbn. destruct (Z.eqb_spec (opw op) w) as [e|_]; [congruence|reflexivity]. }
        rewrite LB. apply MO. exact NW.
      * destruct (FEN F) as (-> & B0). specialize (TV Ot). change (view m' []) with m' in TV. destruct (Nat.eq_dec u t) as [->|N]; [rewrite TT; exact TV|]. rewrite TO by exact N.
        destruct (view_spec (bbuf s u) m') as (_ & S2); [rewrite L', L; apply R|]. rewrite S2, not_pending; [exact TV|]. intros v I. destruct (BP _ _ _ I) as (_ & Q). congruence.
    + (* owned by nobody afterwards *)
      intros w Hw Sw On. destruct (RH w) as [Eq|[None0|(Ot & F)]].
      * rewrite Eq in On. assert (NW : w <> opw op) by (intros ->; rewrite Sw in RA; congruence). rewrite MO, KEEP by assumption. apply BN; assumption.
      * assert (NW : w <> opw op) by (intros ->; rewrite Sw in RA; congruence). rewrite MO, KEEP by assumption. apply BN; assumption.
      * destruct (FEN F) as (-> & B0). specialize (V' w Hw). change (view m' []) with m' in V'. rewrite V'. f_equal. destruct (Z.eq_dec w (opw op)) as [->|N]; [exact E2|]. rewrite !atspec_other by exact N.
        pose proof (BO _ _ Hw Sw Ot) as B. rewrite (agrees_self (view (bmem s) (bbuf s t)) w) in B by lia. injection B as B. unfold g. rewrite B. reflexivity.
    + intros u w v I. destruct (Nat.eq_dec u t) as [->|N].
      * rewrite TT in I. split; [exact (NSB _ _ I)|]. assert (OW : own (blog s) w = Some t).
        { destruct CASES as [(_ & ->)|[(_ & -> & _)|(x & Eo & _ & ->)]]; [destruct I|exact (proj2 (BP _ _ _ I))|]. apply in_app_or in I. destruct I as [I|[I|[]]]; [exact (proj2 (BP _ _ _ I))|].
          injection I as <- _. destruct (sync (opw op)) eqn:Es; [|exact RA]. exfalso. apply RA. rewrite Eo. exact Logic.I. }
        destruct (RH w) as [Eq|[None0|(Ot & F)]]; [congruence|congruence|]. destruct (FEN F) as (-> & _). destruct I.
      * rewrite TO in I by exact N. destruct (BP _ _ _ I) as (Sw & Ow'). split; [exact Sw|]. destruct (RH w) as [Eq|[None0|(Ot & F)]]; congruence.
Qed.
Lemma drain_inv : forall weak s t k, binv s -> exists s', bmove weak c s (Drain t k) = Some s' /\ binv s' /\ blog s' = blog s.
Proof.
  intros weak s t k (W & L & R & H & IS & f & X & BS & BO & BN & BP). cbn [bmove]. destruct (pick_next weak k (bbuf s t)) as [[[w v] buf']|] eqn:E.
  2:{ exists s. split; [reflexivity|]. split; [|reflexivity]. split; [exact W|]. split; [exact L|]. split; [exact R|]. split; [exact H|]. split; [exact IS|]. exists f. repeat (split; [assumption|]). assumption. }
  destruct (pick_ok _ _ _ _ _ _ E) as (I & SUB & LT). destruct (R t _ _ I) as (Rw & Rv). destruct (BP _ _ _ I) as (Sw & Ow).
  destruct (wr_spec _ (bmem s) w v) as (m' & Em & L' & RD); [lia|]. rewrite Em. eexists. split; [reflexivity|]. split; [|reflexivity]. unfold binv. cbn [bmem bbuf bhist bpc blog].
  split; [apply (wr_words _ _ _ _ W Rv Em)|]. split; [lia|].
  assert (TO : forall u, u <> t -> tset (bbuf s) t buf' u = bbuf s u) by (intros u N; unfold tset; destruct (Nat.eqb_spec u t); [contradiction|reflexivity]).
  assert (TT : tset (bbuf s) t buf' t = buf') by (unfold tset; rewrite Nat.eqb_refl; reflexivity).
  assert (R' : forall u, in_range n (tset (bbuf s) t buf' u)). { intros u. destruct (Nat.eq_dec u t) as [->|N]; [rewrite TT; intros a b J; apply (R t), SUB, J|rewrite TO by exact N; apply R]. }
  split; [exact R'|]. split; [exact H|]. split; [exact IS|]. exists f. split; [exact X|]. split; [|split; [|split]].
  - intros u Hu Su. rewrite RD. destruct (Z.eqb_spec u w) as [->|]; [congruence|]. apply BS; assumption.
  - intros u a Hu Su Oa. pose proof (BO _ _ Hu Su Oa) as B. destruct (view_spec (bbuf s a) (bmem s)) as (_ & S1); [rewrite L; apply R|]. rewrite S1 in B.
    destruct (view_spec (tset (bbuf s) t buf' a) m') as (_ & S2); [rewrite L', L; apply R'|]. rewrite S2, RD. destruct (Nat.eq_dec a t) as [->|N].
    + rewrite TT. rewrite LT in B. destruct (latest buf' u); [exact B|]. rewrite (Z.eqb_sym u w). destruct (w =? u); exact B.
    + rewrite TO by exact N. destruct (latest (bbuf s a) u); [exact B|]. destruct (Z.eqb_spec u w) as [->|]; [congruence|exact B].
  - intros u Hu Su On. rewrite RD. destruct (Z.eqb_spec u w) as [->|]; [congruence|]. apply BN; assumption.
  - intros a u x J. destruct (Nat.eq_dec a t) as [->|N]; [rewrite TT in J; apply (BP t u x), SUB, J|rewrite TO in J by exact N; exact (BP _ _ _ J)].
Qed.
Lemma brun_inv : forall weak sched s, binv s -> exists s', brun weak c sched s = Some s' /\ binv s'.
Proof.
  intros weak. induction sched as [|[t|t k] sched IH]; intros s I; [exists s; split; [reflexivity|exact I]| |]; cbn [brun].
  - destruct (go_inv weak s t I) as (s1 & -> & I1). exact (IH _ I1).
  - destruct (drain_inv weak s t k I) as (s1 & -> & I1 & _). exact (IH _ I1).
Qed.
End Own.
Lemma binit_inv : forall c m f sync own, Forall u64v m -> agrees m f -> binv c (zlen m) f sync own (binit m).
Proof.
  intros c m f sync own W A. split; [exact W|]. split; [reflexivity|]. split; [intros t w v []|]. split; [reflexivity|]. split; [apply is_nil|].
  exists f. split; [apply ex_nil|]. cbn [binit bmem bbuf blog view fold_left]. split; [intros w Hw _; apply A, Hw|]. split; [intros w t Hw _ _; apply A, Hw|]. split; [intros w Hw _ _; apply A, Hw|intros t w v []].
Qed.
