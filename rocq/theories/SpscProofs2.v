From Coq Require Import Lia Permutation.
From Verif Require Import Lib Mem FifoModel FifoSpec FifoProofs SpscModel SpscSpec SpscProofs.

Definition psrc (o : op) : list Z := match o with OIn src _ => src | OPut e => e | _ => [] end.
Section Inv.
Variables es cp : Z.
Definition pcount (qs : nat -> list Z) (since : nat) (n : Z) (o : op) : Prop :=
  match o with
  | OIn src len => n = Z.min len (cp - pending es (qs since))
  | OPut e => n = 1 /\ pending es (qs since) <> cp /\ zlen e = es
  | _ => False
  end.
Definition Pinv (f : fifo) (o : option op) (qs : nat -> list Z) (L : nat) (p : ppc) : Prop :=
  match p with
  | PIdle => True
  | PCopy since todo n => exists op, o = Some op /\ (since <= L)%nat /\ 0 <= n <= fifo_unused f /\ n * es <= zlen (psrc op) /\
      (forall a v, In (a, v) todo -> exists i, 0 <= i < n * es /\ a = addr f (f_in f) i /\ rd (psrc op) i = Some v) /\
      (forall i, 0 <= i < n * es -> exists v, rd (psrc op) i = Some v /\ (In (addr f (f_in f) i, v) todo \/ rd (f_data f) (addr f (f_in f) i) = Some v)) /\
      pcount qs since n op
  end.
Definition ccount (qs : nat -> list Z) (since : nat) (n adv : Z) (o : op) : Prop :=
  match o with
  | OOut len => n = Z.min len (pending es (qs since)) /\ adv = n
  | OPeek len => n = Z.min len (pending es (qs since)) /\ adv = 0
  | OGet => n = 1 /\ adv = 1 /\ pending es (qs since) <> 0
  | OPeek1 => n = 1 /\ adv = 0 /\ pending es (qs since) <> 0
  | OHoming => n = 0 /\ adv = pending es (qs since)
  | _ => False
  end.
Definition Cinv (f : fifo) (o : option op) (qs : nat -> list Z) (L : nat) (p : cpc) : Prop :=
  match p with
  | CIdle => True
  | CCopy since todo buff n adv => exists op, o = Some op /\ (since <= L)%nat /\ 0 <= n <= fifo_valid f /\ 0 <= adv <= fifo_valid f /\ zlen buff = n * es /\
      (forall a k, In (a, k) todo -> 0 <= k < n * es /\ a = addr f (f_out f) k) /\
      (forall k, 0 <= k < n * es -> In (addr f (f_out f) k, k) todo \/ rd buff k = rd (f_data f) (addr f (f_out f) k)) /\
      ccount qs since n adv op
  end.
Lemma addr_same : forall f f' c i, f_mask f' = f_mask f -> f_esize f' = f_esize f -> addr f' c i = addr f c i.
Proof. intros f f' c i M E. unfold addr, cap. rewrite M, E. reflexivity. Qed.
(** what the steps of the other thread leave *)
Lemma Pinv_stable : forall f f' o qs qs' L L' p, Pinv f o qs L p ->
  f_mask f' = f_mask f -> f_esize f' = f_esize f -> f_in f' = f_in f -> f_data f' = f_data f -> fifo_unused f <= fifo_unused f' ->
  (L <= L')%nat -> (forall i, (i <= L)%nat -> qs' i = qs i) -> Pinv f' o qs' L' p.
Proof.
  intros f f' o qs qs' L L' p I M E N D U HL Q. destruct p as [|since todo n]; [exact I|]. destruct I as (op & Eo & Hs & Hn & Hz & A & B & C). exists op. split; [exact Eo|]. split; [lia|]. split; [lia|]. split; [exact Hz|].
  split; [|split].
  - intros a v Hin. destruct (A a v Hin) as (i & Hi & Ea & Er). exists i. rewrite N, (addr_same f f') by assumption. auto.
  - intros i Hi. rewrite N, D, (addr_same f f') by assumption. apply B. exact Hi.
  - unfold pcount in *. destruct op; try exact C; rewrite Q by lia; exact C.
Qed.
Lemma Cinv_stable : forall f f' o qs qs' L L' p, f_esize f = es -> Cinv f o qs L p ->
  f_mask f' = f_mask f -> f_esize f' = f_esize f -> f_out f' = f_out f -> fifo_valid f <= fifo_valid f' ->
  (forall k, 0 <= k < fifo_valid f * es -> rd (f_data f') (addr f (f_out f) k) = rd (f_data f) (addr f (f_out f) k)) ->
  (L <= L')%nat -> (forall i, (i <= L)%nat -> qs' i = qs i) -> 1 <= es -> Cinv f' o qs' L' p.
Proof.
  intros f f' o qs qs' L L' p ES I M E N V D HL Q P. destruct p as [|since todo buff n adv]; [exact I|]. destruct I as (op & Eo & Hs & Hn & Ha & Hz & A & B & C). exists op. split; [exact Eo|]. split; [lia|]. split; [lia|]. split; [lia|]. split; [exact Hz|].
  split; [|split].
  - intros a k Hin. destruct (A a k Hin) as (Hk & Ea). rewrite N, (addr_same f f') by assumption. auto.
  - intros k Hk. rewrite N, (addr_same f f') by assumption. rewrite D by nia. apply B. exact Hk.
  - unfold ccount in *. destruct op; try exact C; rewrite Q by lia; exact C.
Qed.
End Inv.
Definition after (es cp : Z) (qs : nat -> list Z) (f f' : fifo) (L since : nat) (o : op) (v : result) : Prop :=
  (since <= L)%nat /\ during es cp (qs since) (contents f) o = (v, contents f') /\
  (forall t, instant {| e_prod := t; e_op := o; e_ret := v; e_since := since |} -> since = L) /\ (fetches o -> zlen (snd v) = fst v * es).
Lemma query_ok : forall f o r, wf f -> query f o = Some r -> forall q0, during (f_esize f) (cap f) q0 (contents f) o = (r, contents f) /\ ~ fetches o.
Proof.
  intros f o r W H q0. pose proof (wf_cap f W) as (C & E & D & S). pose proof (wf_valid f W) as V. pose proof (pending_contents f W) as P. unfold query in H. destruct o; try discriminate H; injection H as <-; (split; [|intros []]); cbn [during queue_step common_step]; rewrite P.
  - reflexivity.
  - unfold fifo_check_empty. pose proof (wf_in f W) as I. pose proof (wf_out f W) as O. do 3 f_equal. destruct (Z.eqb_spec (fifo_valid f) 0) as [Z|N]; destruct (Z.eqb_spec (f_in f) (f_out f)) as [Z'|N']; try reflexivity; exfalso.
    + apply N'. rewrite (in_eq f W), Z. rewrite Z.add_0_r. apply w64_small. exact O.
    + apply N. unfold fifo_valid. rewrite Z', Z.sub_diag. reflexivity.
  - unfold fifo_check_full. change (fifo_len f) with (fifo_valid f). do 3 f_equal. unfold cap in *. destruct (Z.gtb_spec (fifo_valid f) (f_mask f)); destruct (Z.eqb_spec (fifo_valid f) (f_mask f + 1)); try reflexivity; lia.
Qed.
Lemma full_ok : forall f, wf f -> fifo_check_full f = (fifo_valid f =? cap f).
Proof.
  intros f W. pose proof (wf_valid f W) as V. unfold fifo_check_full. change (fifo_len f) with (fifo_valid f). unfold cap in *. destruct (Z.gtb_spec (fifo_valid f) (f_mask f)); destruct (Z.eqb_spec (fifo_valid f) (f_mask f + 1)); try reflexivity; lia.
Qed.
Lemma empty_ok : forall f, wf f -> fifo_check_empty f = (fifo_valid f =? 0).
Proof.
  intros f W. pose proof (wf_in f W) as I. pose proof (wf_out f W) as O. unfold fifo_check_empty. destruct (Z.eqb_spec (fifo_valid f) 0) as [Z|N]; destruct (Z.eqb_spec (f_in f) (f_out f)) as [Z'|N']; try reflexivity; exfalso.
  - apply N'. rewrite (in_eq f W), Z. rewrite Z.add_0_r. apply w64_small. exact O.
  - apply N. unfold fifo_valid. rewrite Z', Z.sub_diag. reflexivity.
Qed.
Ltac nofetch := match goal with |- fetches _ -> _ => intros [] end.
Ltac noinst := match goal with |- forall t, instant _ -> _ => intros ? [] end.
(** ** The producer's steps *)
Lemma pstep_ok : forall f qs L p o k, wf f -> qs L = contents f -> p_op o -> op_ok (f_esize f) o -> Pinv (f_esize f) (cap f) f (Some o) qs L p ->
  exists f' r, pstep f p o L k = Some (f', r) /\ wf f' /\ f_mask f' = f_mask f /\ f_esize f' = f_esize f /\ f_out f' = f_out f /\ fifo_valid f <= fifo_valid f' /\
    (forall i, 0 <= i < fifo_valid f * f_esize f -> rd (f_data f') (addr f (f_out f) i) = rd (f_data f) (addr f (f_out f) i)) /\
    match r with
    | inl p' => contents f' = contents f /\ Pinv (f_esize f) (cap f) f' (Some o) qs L p'
    | inr (v, since) => after (f_esize f) (cap f) qs f f' L since o v
    end.
Proof.
  intros f qs L p o k W HQ HO OK I. pose proof (wf_cap f W) as (C & E & D & S). pose proof (wf_valid f W) as V. pose proof (wf_unused f W) as U. pose proof (pending_contents f W) as P.
  assert (QR : forall r, query f o = Some r -> after (f_esize f) (cap f) qs f f L L o r).
  { intros r Hr. pose proof (query_ok f o r W Hr) as Q. split; [lia|]. split; [apply (Q (qs L))|]. split; [reflexivity|]. intros F. exfalso. exact (proj2 (Q (qs L)) F). }
  destruct p as [|since todo n].
  - assert (QC : (exists r, query f o = Some r /\ pstep f PIdle o L k = Some (f, inr (r, L))) \/ (exists src len, o = OIn src len) \/ exists e, o = OPut e).
    { destruct o; try contradiction; [right; left; eauto|right; right; eauto| | |]; left; eexists; (split; [reflexivity|reflexivity]). }
    destruct QC as [(r & Hr & ->)|[(src & len & ->)|(e & ->)]].
    + exists f, (inr (r, L)). split; [reflexivity|]. split; [exact W|]. do 3 (split; [reflexivity|]). split; [lia|]. split; [reflexivity|]. apply QR. exact Hr.
    + destruct OK as (Hlen & Hsrc). cbn [pstep]. set (n := Z.min len (fifo_unused f)). assert (HN : 0 <= n <= fifo_unused f) by lia.
      assert (HZ : n * f_esize f <= zlen src) by (assert (n <= len) by lia; nia). destruct (in_plan_ok f W src n ltac:(lia) HZ) as (todo & Et & Lt & Rt).
      rewrite Et. exists f, (inl (PCopy L todo n)). split; [reflexivity|]. split; [exact W|]. do 3 (split; [reflexivity|]). split; [lia|]. split; [reflexivity|]. split; [reflexivity|].
      exists (OIn src len). split; [reflexivity|]. split; [lia|]. split; [exact HN|]. split; [exact HZ|]. split; [|split].
      * intros a v Hin. apply In_rd in Hin as (i & Hi & Er). rewrite Lt in Hi. destruct (Rt i Hi) as (v' & R1 & R2). exists i. split; [exact Hi|]. rewrite R2 in Er. injection Er as <- <-. split; [reflexivity|exact R1].
      * intros i Hi. destruct (Rt i Hi) as (v & R1 & R2). exists v. split; [exact R1|]. left. eapply rd_in. exact R2.
      * cbn [pcount]. rewrite HQ, P, <- U. reflexivity.
    + cbn [op_ok] in OK. cbn [pstep]. rewrite (full_ok f W). destruct (Z.eqb_spec (fifo_valid f) (cap f)) as [F|F].
      * exists f, (inr ((0, []), L)). split; [reflexivity|]. split; [exact W|]. do 3 (split; [reflexivity|]). split; [lia|]. split; [reflexivity|]. split; [lia|]. split; [|split; [reflexivity|nofetch]].
        cbn [during]. rewrite HQ, P. destruct (Z.eqb_spec (fifo_valid f) (cap f)); [reflexivity|lia].
      * destruct (put_plan_ok f W e OK) as (Lt & Rt). set (todo := combine (cell f (f_in f)) e) in *. exists f, (inl (PCopy L todo 1)). split; [reflexivity|]. split; [exact W|]. do 3 (split; [reflexivity|]). split; [lia|]. split; [reflexivity|]. split; [reflexivity|].
        exists (OPut e). split; [reflexivity|]. split; [lia|]. split; [lia|]. split; [cbn [psrc]; lia|]. rewrite Z.mul_1_l. split; [|split].
        -- intros a v Hin. apply In_rd in Hin as (i & Hi & Er). rewrite Lt in Hi. destruct (Rt i Hi) as (v' & R1 & R2). exists i. split; [exact Hi|]. rewrite R2 in Er. injection Er as <- <-. split; [reflexivity|exact R1].
        -- intros i Hi. destruct (Rt i Hi) as (v & R1 & R2). exists v. split; [exact R1|]. left. eapply rd_in. exact R2.
        -- cbn [pcount]. rewrite HQ, P. auto.
  - destruct I as (o' & Eo & Hs & Hn & Hz & A & B & Cn). injection Eo as <-. cbn [pstep]. pose proof (pick_perm _ k todo) as PP. destruct (pick k todo) as [[[a v] rest]|].
    + destruct (A a v) as (i & Hi & -> & Rv). { eapply Permutation_in; [symmetry; exact PP|]. left. reflexivity. }
      destruct (store_byte f i v W ltac:(nia)) as (d & Ed & Ld & W' & Cd & Rd & Kd). rewrite Ed. exists (set_data f d), (inl (PCopy since rest n)). split; [reflexivity|]. split; [exact W'|]. do 3 (split; [reflexivity|]). split; [reflexivity|]. split; [exact Kd|]. split; [exact Cd|].
      exists o. split; [reflexivity|]. split; [exact Hs|]. split; [exact Hn|]. split; [exact Hz|]. cbn [set_data f_in f_data]. split; [|split; [|exact Cn]].
      * intros a' v' Hin. destruct (A a' v') as (j & Hj & Ea & Rj). { eapply Permutation_in; [symmetry; exact PP|]. right. exact Hin. } exists j. split; [exact Hj|]. split; [exact Ea|exact Rj].
      * intros j Hj. destruct (B j Hj) as (w & Rw & Or). exists w. split; [exact Rw|]. change (addr (set_data f d) (f_in f) j) with (addr f (f_in f) j). rewrite Rd. destruct (Z.eqb_spec (addr f (f_in f) j) (addr f (f_in f) i)) as [X|X].
        -- right. apply (addr_inj f W) in X; [|nia|nia]. subst j. congruence.
        -- destruct Or as [Or|Or]; [|right; exact Or]. left. eapply Permutation_in in Or; [|exact PP]. destruct Or as [Or|Or]; [|exact Or]. exfalso. congruence.
    + subst todo. assert (HD : forall i, 0 <= i < n * f_esize f -> rd (f_data f) (addr f (f_in f) i) = rd (psrc o) i). { intros i Hi. destruct (B i Hi) as (v & Rv & [[]|R]). congruence. }
      destruct (publish f n (psrc o) W Hn Hz HD) as (W' & V' & C'). eexists _, _. split; [reflexivity|]. split; [exact W'|]. do 3 (split; [reflexivity|]). split; [lia|]. split; [reflexivity|]. cbv beta iota.
      split; [exact Hs|]. split; [|split; [|destruct o; try contradiction; nofetch]].
      * rewrite C'. destruct o; try contradiction; cbn [pcount psrc during] in *.
        -- rewrite <- Cn. reflexivity.
        -- destruct Cn as (-> & N & Le). destruct (Z.eqb_spec (pending (f_esize f) (qs since)) (cap f)); [contradiction|]. rewrite firstn_all2 by (unfold zlen in *; lia). reflexivity.
      * intros t IN. destruct o; try contradiction. cbn in IN, Cn. lia.
Qed.
(** ** The consumer's steps *)
Lemma begin_read_ok : forall f qs L o todo n adv, wf f -> 0 <= n <= fifo_valid f -> 0 <= adv <= fifo_valid f -> zlen todo = n * f_esize f ->
  (forall i, 0 <= i < n * f_esize f -> rd todo i = Some (addr f (f_out f) i, i)) -> ccount (f_esize f) qs L n adv o -> Cinv (f_esize f) f (Some o) qs L (begin_read L todo n adv).
Proof.
  intros f qs L o todo n adv W Hn Ha Lt Rt CC. exists o. split; [reflexivity|]. split; [lia|]. split; [exact Hn|]. split; [exact Ha|]. split; [unfold zlen in *; rewrite repeat_length; exact Lt|]. split; [|split; [|exact CC]].
  - intros a k Hin. apply In_rd in Hin as (i & Hi & Er). rewrite Lt in Hi. rewrite (Rt i Hi) in Er. injection Er as <- <-. auto.
  - intros k Hk. left. eapply rd_in. apply Rt. exact Hk.
Qed.
Lemma cstep_ok : forall f qs L p o k, wf f -> qs L = contents f -> c_op o -> op_ok (f_esize f) o -> Cinv (f_esize f) f (Some o) qs L p ->
  exists f' r, cstep f p o L k = Some (f', r) /\ wf f' /\ f_mask f' = f_mask f /\ f_esize f' = f_esize f /\ f_in f' = f_in f /\ f_data f' = f_data f /\ fifo_unused f <= fifo_unused f' /\
    match r with
    | inl p' => f' = f /\ Cinv (f_esize f) f' (Some o) qs L p'
    | inr (v, since) => after (f_esize f) (cap f) qs f f' L since o v
    end.
Proof.
  intros f qs L p o k W HQ HO OK I. pose proof (wf_cap f W) as (C & E & D & S). pose proof (wf_valid f W) as V. pose proof (wf_unused f W) as U. pose proof (pending_contents f W) as P.
  assert (QR : forall r, query f o = Some r -> after (f_esize f) (cap f) qs f f L L o r).
  { intros r Hr. pose proof (query_ok f o r W Hr) as Q. split; [lia|]. split; [apply (Q (qs L))|]. split; [reflexivity|]. intros F. exfalso. exact (proj2 (Q (qs L)) F). }
  assert (BR : forall p', Cinv (f_esize f) f (Some o) qs L p' -> cstep f CIdle o L k = Some (f, inl p') -> p = CIdle ->
    exists f' r, cstep f p o L k = Some (f', r) /\ wf f' /\ f_mask f' = f_mask f /\ f_esize f' = f_esize f /\ f_in f' = f_in f /\ f_data f' = f_data f /\ fifo_unused f <= fifo_unused f' /\
    match r with inl p' => f' = f /\ Cinv (f_esize f) f' (Some o) qs L p' | inr (v, since) => after (f_esize f) (cap f) qs f f' L since o v end).
  { intros p' Ci Ei ->. exists f, (inl p'). split; [exact Ei|]. split; [exact W|]. do 4 (split; [reflexivity|]). split; [lia|]. split; [reflexivity|exact Ci]. }
  assert (RR : forall v, after (f_esize f) (cap f) qs f f L L o v -> cstep f CIdle o L k = Some (f, inr (v, L)) -> p = CIdle ->
    exists f' r, cstep f p o L k = Some (f', r) /\ wf f' /\ f_mask f' = f_mask f /\ f_esize f' = f_esize f /\ f_in f' = f_in f /\ f_data f' = f_data f /\ fifo_unused f <= fifo_unused f' /\
    match r with inl p' => f' = f /\ Cinv (f_esize f) f' (Some o) qs L p' | inr (v, since) => after (f_esize f) (cap f) qs f f' L since o v end).
  { intros v Af Ei ->. exists f, (inr (v, L)). split; [exact Ei|]. split; [exact W|]. do 4 (split; [reflexivity|]). split; [lia|]. exact Af. }
  destruct (get_plan_ok f W) as (GL & GR). assert (GL' : zlen (combine (cell f (f_out f)) (zseq 0 (Z.to_nat (f_esize f)))) = 1 * f_esize f) by (rewrite Z.mul_1_l; exact GL). clear GL. assert (GR' : forall i, 0 <= i < 1 * f_esize f -> rd (combine (cell f (f_out f)) (zseq 0 (Z.to_nat (f_esize f)))) i = Some (addr f (f_out f) i, i)) by (intros i Hi; apply GR; lia). clear GR.
  destruct p as [|since todo buff n adv].
  - destruct o; try contradiction; cbn [op_ok] in OK.
    + destruct (out_plan_ok f W (Z.min len (fifo_valid f)) ltac:(lia)) as (LL & RL). eapply BR; [|reflexivity|reflexivity]. apply begin_read_ok; try assumption; try lia. cbn [ccount]. rewrite HQ, P. auto.
    + destruct (out_plan_ok f W (Z.min len (fifo_valid f)) ltac:(lia)) as (LL & RL). eapply BR; [|reflexivity|reflexivity]. apply begin_read_ok; try assumption; try lia. cbn [ccount]. rewrite HQ, P. auto.
    + destruct (fifo_check_empty f) eqn:EM; pose proof EM as EM'; rewrite (empty_ok f W) in EM'.
      * apply Z.eqb_eq in EM'. eapply RR; [|cbn [cstep]; rewrite EM; reflexivity|reflexivity]. split; [lia|]. split; [|split; [reflexivity|reflexivity]]. cbn [during]. rewrite HQ, P, EM'. reflexivity.
      * apply Z.eqb_neq in EM'. eapply BR; [|cbn [cstep]; rewrite EM; reflexivity|reflexivity]. apply begin_read_ok; try assumption; try lia. cbn [ccount]. rewrite HQ, P. auto.
    + destruct (fifo_check_empty f) eqn:EM; pose proof EM as EM'; rewrite (empty_ok f W) in EM'.
      * apply Z.eqb_eq in EM'. eapply RR; [|cbn [cstep]; rewrite EM; reflexivity|reflexivity]. split; [lia|]. split; [|split; [reflexivity|reflexivity]]. cbn [during]. rewrite HQ, P, EM'. reflexivity.
      * apply Z.eqb_neq in EM'. eapply BR; [|cbn [cstep]; rewrite EM; reflexivity|reflexivity]. apply begin_read_ok; try assumption; try lia. cbn [ccount]. rewrite HQ, P. auto.
    + eapply BR; [|reflexivity|reflexivity]. exists OHoming. split; [reflexivity|]. split; [lia|]. split; [lia|]. split; [lia|]. split; [reflexivity|]. split; [intros ? ? []|]. split; [intros; lia|]. cbn [ccount]. rewrite HQ, P. auto.
    + eapply RR; [apply QR; reflexivity|reflexivity|reflexivity].
    + eapply RR; [apply QR; reflexivity|reflexivity|reflexivity].
    + eapply RR; [apply QR; reflexivity|reflexivity|reflexivity].
  - clear BR RR QR. destruct I as (o' & Eo & Hs & Hn & Ha & Hz & A & B & Cn). injection Eo as <-. cbn [cstep]. pose proof (pick_perm _ k todo) as PP. destruct (pick k todo) as [[[a i] rest]|].
    + destruct (A a i) as (Hi & ->). { eapply Permutation_in; [symmetry; exact PP|]. left. reflexivity. }
      destruct (rd_some _ (f_data f) _ (addr_range f W (f_out f) i)) as [v Ev]. rewrite Ev. destruct (wr_spec _ buff i v ltac:(lia)) as (b & Eb & Lb & Rb). rewrite Eb.
      exists f, (inl (CCopy since rest b n adv)). split; [reflexivity|]. split; [exact W|]. do 4 (split; [reflexivity|]). split; [lia|]. split; [reflexivity|].
      exists o. split; [reflexivity|]. split; [exact Hs|]. split; [exact Hn|]. split; [exact Ha|]. split; [lia|]. split; [|split; [|exact Cn]].
      * intros a' k' Hin. apply A. eapply Permutation_in; [symmetry; exact PP|]. right. exact Hin.
      * intros j Hj. rewrite Rb. destruct (Z.eqb_spec j i) as [->|X]; [right; congruence|]. destruct (B j Hj) as [Or|Or]; [|right; exact Or]. left. eapply Permutation_in in Or; [|exact PP]. destruct Or as [Or|Or]; [|exact Or]. exfalso. congruence.
    + subst todo. assert (HB : buff = firstn (Z.to_nat (n * f_esize f)) (contents f)).
      { pose proof (contents_zlen f W) as CZ. apply rd_ext. intros j. assert (LS : zlen (firstn (Z.to_nat (n * f_esize f)) (contents f)) = n * f_esize f) by (unfold zlen in *; rewrite firstn_length; nia).
        destruct (Z_lt_dec j 0); [|destruct (Z_lt_dec j (n * f_esize f))].
        - transitivity (@None Z); [|symmetry]; apply rd_none_iff; lia.
        - rewrite rd_firstn by lia. rewrite (view f W) by nia. destruct (B j ltac:(lia)) as [[]|R]. exact R.
        - transitivity (@None Z); [|symmetry]; apply rd_none_iff; lia. }
      destruct (consume f adv W Ha) as (W' & V' & C'). eexists _, _. split; [reflexivity|]. split; [exact W'|]. do 4 (split; [reflexivity|]). split. { rewrite (wf_unused _ W'). change (cap (set_out f (w64 (f_out f + adv)))) with (cap f). lia. } cbv beta iota.
      split; [exact Hs|]. split; [|split].
      * rewrite C', HB. destruct o; try contradiction; cbn [ccount during] in *; unfold take, drop.
        -- destruct Cn as (-> & ->). reflexivity.
        -- destruct Cn as (-> & ->). reflexivity.
        -- destruct Cn as (-> & -> & N). rewrite Z.mul_1_l. destruct (Z.eqb_spec (pending (f_esize f) (qs since)) 0); [contradiction|reflexivity].
        -- destruct Cn as (-> & -> & N). rewrite Z.mul_1_l. destruct (Z.eqb_spec (pending (f_esize f) (qs since)) 0); [contradiction|reflexivity].
        -- destruct Cn as (-> & ->). reflexivity.
      * intros t IN. destruct o; try contradiction; cbn in IN, Cn; lia.
      * intros _. exact Hz.
Qed.
