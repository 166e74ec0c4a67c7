From Verif Require Import Lib BitsModel CreateModel CreateSpec CreateProofs BitsSpec BitsProps.

Lemma keep_refl l m m' : cell m' = cell m -> keep l m m'.
Proof. intros E x a _ _. rewrite E. reflexivity. Qed.
Lemma keep_trans l m1 m2 m3 : keep l m1 m2 -> keep l m2 m3 -> keep l m1 m3.
Proof. intros A B x a Hx Ha. rewrite (B x a Hx Ha). apply (A x a Hx Ha). Qed.
Lemma keep_incl l l' m m' : (forall x, In x l' -> In x l) -> keep l m m' -> keep l' m m'.
Proof. intros I K x a Hx Ha. apply (K x a); auto. Qed.
Lemma keep_tail y l m m' : keep (y :: l) m m' -> keep l m m'.
Proof. apply keep_incl. cbn; auto. Qed.
(** A store into one block leaves the others alone. *)
Lemma keep_setc l m a v b s : (forall x, In x l -> apart (b, s) x) -> b <= a < b + s -> keep l m (setc m a v).
Proof. intros D Ha x c Hx Hc. apply setc_other. pose proof (D x Hx) as Q. unfold apart in Q. cbn [fst snd] in Q. lia. Qed.

Section Proofs2.
Variable ask : nat -> rmem -> Z -> option Z.
Hypothesis Honest : honest ask.

Lemma algo_destroy_ok k h arr ns L m n : own m (nblk k ns ++ base k h arr (zlen ns) L) -> stored m arr ns -> cell m (h + NODES) = arr -> cell m (h + SIZE) = zlen ns ->
  (length ns <= n)%nat -> exists m', algo_destroy n m h = Some m' /\ own m' L /\ cell m' = cell m.
Proof.
  intros O S A Sz F. unfold algo_destroy. destruct (free_up_ok k h arr (zlen ns) L ns [] m n O S A Sz eq_refl F) as (m1 & E1 & O1 & C1).
  change (zlen []) with 0 in E1. rewrite E1.
  rewrite (get_ok _ _ (h, head_size k) _ O1); [|cbn; auto|cbn [fst]; unfold NODES; lia|cbn [fst snd]; rewrite hs; unfold NODES; lia]. rewrite C1, A.
  destruct (free_ok _ _ _ _ O1) as (m2 & E2 & O2 & C2). rewrite E2.
  destruct (free_ok _ _ _ _ O2) as (m3 & E3 & O3 & C3). exists m3. rewrite C3, C2. auto.
Qed.

(** The 64-bit product of the size of the arrays is exact, or 0. *)
Definition fits (size : Z) : Prop := 2 <= size /\ (size < 2 ^ 61 \/ w64 (8 * size) = 0).
Lemma array_ok m L size : own m L -> fits size -> exists p m', zalloc_array ask m size 8 = (p, m') /\
  ((p = 0 /\ own m' L /\ cell m' = cell m /\ ~ (generous ask /\ size < 2 ^ 61)) \/ (0 < p /\ own m' ((p, 8 * size) :: L) /\ keep L m m')).
Proof.
  intros O [S1 S2]. unfold zalloc_array. destruct (Z_lt_ge_dec size (2 ^ 61)) as [Hs | Hs].
  - unfold w64. rewrite Z.mod_small by lia. destruct (zalloc_ok ask Honest m (8 * size) L O) as (p & m' & E & H); [lia|]. exists p, m'. split; [exact E|].
    destruct H as [(H1 & H2 & H3 & H4) | H]; [left; tauto|right; exact H].
  - destruct S2 as [S2 | S2]; [lia|]. rewrite S2. unfold zalloc. rewrite Z.eqb_refl. exists 0, m. split; [reflexivity|]. left. repeat (split; [auto|]). lia.
Qed.

Lemma algo_create_ok k m L size : own m L -> fits size -> exists r m', algo_create ask k m size = Some (r, m') /\
  ((r = 0 /\ own m' L /\ keep L m m' /\ ~ (generous ask /\ size < 2 ^ 61)) \/
   (0 < r /\ exists arr ns, zlen ns = size /\ own m' (nblk k ns ++ base k r arr size L) /\ stored m' arr ns /\ cell m' (r + NODES) = arr /\ keep L m m')).
Proof.
  intros O Hs. unfold algo_create. pose proof (hs k) as HS.
  destruct (zalloc_ok ask Honest m (head_size k) L O) as (h & m1 & E1 & [(-> & O1 & C1 & G) | (Hh & O1 & K1)]); [rewrite HS; lia| |]; rewrite E1.
  { rewrite Z.eqb_refl. exists 0, m1. split; [reflexivity|]. left. split; [reflexivity|]. split; [exact O1|]. split; [apply keep_refl, C1|tauto]. }
  rewrite (proj2 (Z.eqb_neq h 0)) by lia. pose proof (wf_cons _ _ (proj2 O1)) as (WL & DL & _).
  assert (I : exists m2, (match k with LRU => init_list m1 (h + OWN) | LFU => let* m := put m1 (h + OWN) 0 in put m (h + OWN + 8) 0 end) = Some m2 /\
    own m2 ((h, head_size k) :: L) /\ keep L m1 m2).
  { assert (P : forall m0 o v, own m0 ((h, head_size k) :: L) -> 168 <= o <= 176 -> put m0 (h + o) v = Some (setc m0 (h + o) v) /\ keep L m0 (setc m0 (h + o) v)).
    { intros m0 o v O0 Ho. split; [apply (put_ok _ _ (h, head_size k) _ _ O0); [cbn; auto|cbn [fst]; lia|cbn [fst snd]; lia]|].
      apply (keep_setc _ _ _ _ h (head_size k)); [exact DL|lia]. }
    destruct k; unfold init_list, OWN; rewrite <- ?Z.add_assoc; cbn [Z.add Pos.add Pos.succ Pos.add_carry].
    - destruct (P m1 168 (h + 168) O1 ltac:(lia)) as [P1 P2]. rewrite P1. destruct (P (setc m1 (h + 168) (h + 168)) 176 (h + 168) O1 ltac:(lia)) as [P3 P4]. rewrite P3.
      eexists. split; [reflexivity|]. split; [exact O1|]. apply (keep_trans _ _ _ _ P2 P4).
    - destruct (P m1 168 0 O1 ltac:(lia)) as [P1 P2]. rewrite P1. destruct (P (setc m1 (h + 168) 0) 176 0 O1 ltac:(lia)) as [P3 P4]. rewrite P3.
      eexists. split; [reflexivity|]. split; [exact O1|]. apply (keep_trans _ _ _ _ P2 P4). }
  destruct I as (m2 & E2 & O2 & K2). rewrite E2. clear E2.
  destruct (array_ok m2 _ size O2 Hs) as (arr & m3 & E3 & [(-> & O3 & C3 & G) | (Ha & O3 & K3)]); rewrite E3.
  { rewrite (put_ok _ _ (h, head_size k) _ _ O3); [|cbn; auto|cbn [fst]; unfold NODES; lia|cbn [fst snd]; unfold NODES; lia]. rewrite Z.eqb_refl.
    destruct (free_ok (setc m3 (h + NODES) 0) _ _ _ O3) as (m4 & E4 & O4 & C4). rewrite E4. exists 0, m4. split; [reflexivity|]. left. split; [reflexivity|]. split; [exact O4|].
    split; [|exact G]. apply (keep_trans _ _ m1); [exact K1|]. apply (keep_trans _ _ m2); [exact K2|]. apply (keep_trans _ _ m3); [apply keep_refl, C3|].
    apply (keep_trans _ _ (setc m3 (h + NODES) 0)); [apply (keep_setc _ _ _ _ h (head_size k)); [exact DL|unfold NODES; lia]|apply keep_refl, C4]. }
  pose proof (wf_cons _ _ (proj2 O3)) as (_ & DA & _).
  rewrite (put_ok _ _ (h, head_size k) _ _ O3); [|cbn; auto|cbn [fst]; unfold NODES; lia|cbn [fst snd]; unfold NODES; lia].
  rewrite (proj2 (Z.eqb_neq arr 0)) by lia. set (m4 := setc m3 (h + NODES) arr).
  assert (K4 : keep L m m4).
  { apply (keep_trans _ _ m1); [exact K1|]. apply (keep_trans _ _ m2); [exact K2|]. apply (keep_trans _ _ m3); [apply (keep_tail _ _ _ _ K3)|].
    apply (keep_setc _ _ _ _ h (head_size k)); [exact DL|unfold NODES; lia]. }
  destruct (create_nodes_ok ask Honest k h arr size L (Z.to_nat size) m4 []) as (ns & m5 & E5 & O5 & S5 & A5 & Q1 & Q2 & K5).
  - exact O3.
  - intros i Hi. cbn in Hi. lia.
  - apply setc_same.
  - change (zlen []) with 0. destruct Hs as [Hs _]. lia.
  - change (zlen []) with 0 in E5. rewrite E5. destruct (Z.eqb_spec (zlen ns) size) as [Es | Ns].
    + exists h, m5. split; [reflexivity|]. right. split; [lia|]. exists arr, ns. repeat (split; [assumption|]).
      apply (keep_trans _ _ m4); [exact K4|]. apply (keep_tail _ _ _ _ K5).
    + destruct (free_down_ok k h arr size L ns m5 O5 S5 A5 Q1) as (m6 & E6 & O6 & C6). unfold zlen. rewrite Nat2Z.id, E6.
      rewrite (get_ok _ _ (h, head_size k) _ O6); [|cbn; auto|cbn [fst]; unfold NODES; lia|cbn [fst snd]; unfold NODES; lia]. rewrite C6, A5.
      destruct (free_ok _ _ _ _ O6) as (m7 & E7 & O7 & C7). rewrite E7.
      destruct (free_ok _ _ _ _ O7) as (m8 & E8 & O8 & C8). rewrite E8. exists 0, m8. split; [reflexivity|]. left. split; [reflexivity|]. split; [exact O8|].
      split; [|intros [G _]; apply Ns, Q2, G]. apply (keep_trans _ _ m4); [exact K4|]. apply (keep_trans _ _ m5); [apply (keep_tail _ _ _ _ K5)|].
      apply keep_refl. rewrite C8, C7, C6. reflexivity.
Qed.

(** ** Numbering and linking the nodes *)
Section Link.
Variables (k : algo) (h tag arr : Z) (ns : list Z) (L : list (Z * Z)).
Definition all := (tag, 8 * zlen ns) :: nblk k ns ++ base k h arr (zlen ns) L.
Definition okptr (q : Z) : Prop := q = h + FREED \/ exists p, In p ns /\ q = p + N_LIST.

Lemma all_h : In (h, head_size k) all.
Proof. right. apply in_h. Qed.
Lemma all_arr : In (arr, 8 * zlen ns) all.
Proof. right. apply in_arr. Qed.
Lemma all_node p : In p ns -> In (p, node_size k) all.
Proof. intros H. right. apply in_or_app. left. unfold nblk. apply (in_map (fun p => (p, node_size k))), H. Qed.
Lemma wf_tail a b : wf (a ++ b) -> wf b.
Proof. induction a as [|z a IH]; [auto|]. intros W. cbn [app] in W. apply wf_cons in W. apply IH, W. Qed.
(** A cell of the array, a protected cell of the head or of the rest is not a cell the loop writes. *)
Definition safe (a : Z) : Prop := a = h + TAGHASH \/ a = h + NODES \/ a = h + SIZE \/ (arr <= a < arr + 8 * zlen ns) \/ exists x, In x L /\ fst x <= a < fst x + snd x.
Lemma safe_ne m a p : own m all -> safe a -> In p ns -> a <> p + N_INDEX /\ a <> p + N_LIST /\ a <> p + N_LIST + 8 /\ a <> h + FREED /\ a <> h + FREED + 8.
Proof.
  intros [_ W] Sa Hp. unfold all in W. apply wf_cons in W. destruct W as (W & _). pose proof (hs k) as HS.
  assert (NZ : 88 <= node_size k) by (destruct k; cbn; lia).
  assert (Dp : forall x, In x (base k h arr (zlen ns) L) -> apart (p, node_size k) x).
  { intros x Hx. apply (wf_split _ _ _ _ W); [apply (in_map (fun p => (p, node_size k))), Hp|exact Hx]. }
  pose proof (wf_tail _ _ W) as WB. unfold base in WB. apply wf_cons in WB. destruct WB as (WB & Da & _). apply wf_cons in WB. destruct WB as (_ & Dh & _).
  unfold N_INDEX, N_LIST, FREED. destruct Sa as [-> | [-> | [-> | [Sa | (x & Hx & Sa)]]]].
  1-3: (pose proof (Dp (h, head_size k) ltac:(cbn; auto)) as Q; unfold apart in Q; cbn [fst snd] in Q; unfold TAGHASH, NODES, SIZE; lia).
  - pose proof (Dp (arr, 8 * zlen ns) ltac:(cbn; auto)) as Q. pose proof (Da (h, head_size k) ltac:(cbn; auto)) as Q2. unfold apart in Q, Q2. cbn [fst snd] in Q, Q2. lia.
  - pose proof (Dp x ltac:(cbn; auto)) as Q. pose proof (Dh x Hx) as Q2. unfold apart in Q, Q2. cbn [fst snd] in Q, Q2. lia.
Qed.
Lemma link_nodes_ok : forall n m i, own m all -> stored m arr ns -> cell m (h + NODES) = arr -> okptr (cell m (h + FREED + 8)) -> (i + n = length ns)%nat ->
  exists m', link_nodes n m h (Z.of_nat i) = Some m' /\ own m' all /\ forall a, safe a -> cell m' a = cell m a.
Proof.
  pose proof (hs k) as HS. assert (NZ : 88 <= node_size k) by (destruct k; cbn; lia).
  induction n as [|n IH]; intros m i O S A Q F; [exists m; cbn; auto|]. cbn [link_nodes].
  rewrite (get_ok _ _ (h, head_size k) _ O); [|apply all_h|cbn [fst]; unfold NODES; lia|cbn [fst snd]; unfold NODES; lia]. rewrite A.
  rewrite (get_ok _ _ (arr, 8 * zlen ns) _ O); [|apply all_arr|cbn [fst]; lia|cbn [fst snd]; unfold zlen; lia]. rewrite S by lia.
  set (p := nth i ns 0). assert (Hp : In p ns) by (apply nth_In; lia). pose proof (all_node p Hp) as Ip.
  rewrite (put_ok _ _ (p, node_size k) _ _ O Ip); [|cbn [fst]; unfold N_INDEX; lia|cbn [fst snd]; unfold N_INDEX; lia].
  set (m1 := setc m (p + N_INDEX) (Z.of_nat i)). unfold add_list.
  rewrite (get_ok m1 _ (h, head_size k) _ O); [|apply all_h|cbn [fst]; unfold FREED; lia|cbn [fst snd]; unfold FREED; lia].
  assert (Dn : p + N_INDEX <> h + FREED + 8).
  { destruct O as [_ W]. unfold all in W. apply wf_cons in W. destruct W as (W & _).
    pose proof (wf_split _ _ (p, node_size k) (h, head_size k) W) as K. specialize (K ltac:(apply (in_map (fun p => (p, node_size k))), Hp) ltac:(cbn; auto)). unfold apart in K. cbn [fst snd] in K. unfold N_INDEX, FREED. lia. }
  assert (Q1 : okptr (cell m1 (h + FREED + 8))) by (unfold m1; rewrite setc_other by congruence; exact Q).
  set (q := cell m1 (h + FREED + 8)) in *.
  rewrite (put_ok m1 _ (h, head_size k) _ _ O); [|apply all_h|cbn [fst]; unfold FREED; lia|cbn [fst snd]; unfold FREED; lia].
  set (m2 := setc m1 (h + FREED + 8) (p + N_LIST)).
  assert (Pq : put m2 q (p + N_LIST) = Some (setc m2 q (p + N_LIST))).
  { destruct Q1 as [-> | (p' & Hp' & ->)].
    - apply (put_ok m2 _ (h, head_size k) _ _ O); [apply all_h|cbn [fst]; unfold FREED; lia|cbn [fst snd]; unfold FREED; lia].
    - apply (put_ok m2 _ (p', node_size k) _ _ O (all_node p' Hp')); [cbn [fst]; unfold N_LIST; lia|cbn [fst snd]; unfold N_LIST; lia]. }
  rewrite Pq. set (m3 := setc m2 q (p + N_LIST)).
  rewrite (put_ok m3 _ (p, node_size k) _ _ O Ip); [|cbn [fst]; unfold N_LIST; lia|cbn [fst snd]; unfold N_LIST; lia].
  set (m4 := setc m3 (p + N_LIST) (h + FREED)).
  rewrite (put_ok m4 _ (p, node_size k) _ _ O Ip); [|cbn [fst]; unfold N_LIST; lia|cbn [fst snd]; unfold N_LIST; lia].
  set (m5 := setc m4 (p + N_LIST + 8) q).
  assert (Sf : forall a, safe a -> cell m5 a = cell m a).
  { intros a Sa. destruct (safe_ne m a p O Sa Hp) as (N1 & N2 & N3 & N4 & N5).
    assert (N6 : a <> q) by (destruct Q1 as [-> | (p' & Hp' & ->)]; [exact N4|apply (safe_ne m a p' O Sa Hp')]).
    unfold m5, m4, m3, m2, m1. rewrite !setc_other by assumption. reflexivity. }
  destruct (IH m5 (Datatypes.S i)) as (m' & E' & O' & S').
  - exact O.
  - intros j Hj. rewrite Sf; [apply S, Hj|]. right; right; right; left. unfold zlen. lia.
  - rewrite Sf; [exact A|]. right; left; reflexivity.
  - right. exists p. split; [exact Hp|]. assert (K1 : h + FREED + 8 <> p + N_LIST /\ h + FREED + 8 <> p + N_LIST + 8).
    { destruct O as [_ W]. unfold all in W. apply wf_cons in W. destruct W as (W & _).
      pose proof (wf_split _ _ (p, node_size k) (h, head_size k) W) as K. specialize (K ltac:(apply (in_map (fun p => (p, node_size k))), Hp) ltac:(cbn; auto)). unfold apart in K. cbn [fst snd] in K. unfold N_LIST, FREED. lia. }
    assert (K2 : h + FREED + 8 <> q).
    { destruct Q1 as [-> | (p' & Hp' & ->)]; [lia|]. destruct O as [_ W]. unfold all in W. apply wf_cons in W. destruct W as (W & _).
      pose proof (wf_split _ _ (p', node_size k) (h, head_size k) W) as K. specialize (K ltac:(apply (in_map (fun p => (p, node_size k))), Hp') ltac:(cbn; auto)). unfold apart in K. cbn [fst snd] in K. unfold N_LIST, FREED. lia. }
    unfold m5, m4, m3. rewrite !setc_other by tauto. apply setc_same.
  - lia.
  - replace (Z.of_nat i + 1) with (Z.of_nat (Datatypes.S i)) by lia. exists m'. split; [exact E'|]. split; [exact O'|]. intros a Sa. rewrite (S' a Sa). apply Sf, Sa.
Qed.
End Link.

(** ** The public functions *)
Lemma create_ok ops_ok algorithm vals m L size maxpend : own m L -> 0 <= size <= 2 ^ 63 ->
  exists r m', cache_create ask ops_ok algorithm vals m size maxpend = Some (r, m') /\
  ((r = 0 /\ own m' L /\ keep L m m' /\ (ops_ok = true -> algorithm <> None -> 2 <= size <= 2 ^ 60 -> ~ generous ask)) \/
   (0 < r /\ 2 <= size /\ exists k tag arr ns, algorithm = Some k /\ own m' (blocks k r tag arr ns ++ L) /\ intact m' r tag arr ns /\
      is_pow2 (zlen ns) /\ size <= zlen ns < 2 * size /\ keep L m m')).
Proof.
  intros O Hs. unfold cache_create. destruct ops_ok; cbn [negb]; [|exists 0, m; split; [reflexivity|]; left; repeat (split; [auto using keep_refl|]); discriminate].
  destruct (Z_lt_ge_dec size 2) as [H2 | H2].
  { unfold pow2_roundup_dynamic. rewrite (proj2 (Z.ltb_lt size 2) H2). rewrite (proj2 (Z.ltb_lt size 2) H2).
    exists 0, m. split; [reflexivity|]. left. repeat (split; [auto using keep_refl|]). lia. }
  destruct (C17_roundup size ltac:(lia)) as (sz & E & (j & Hj & Ej) & Hz & Min). rewrite E. rewrite (proj2 (Z.ltb_ge sz 2)) by lia.
  assert (J1 : 1 <= j) by (destruct (Z.eq_dec j 0) as [-> | ]; [cbn in Ej; lia|lia]).
  assert (Up : sz < 2 * size).
  { destruct (Z_lt_ge_dec sz (2 * size)) as [|C]; [assumption|]. exfalso. assert (2 ^ j = 2 * 2 ^ (j - 1)) by (rewrite <- Z.pow_succ_r by lia; f_equal; lia).
    specialize (Min (2 ^ (j - 1)) ltac:(exists (j - 1); split; [lia|reflexivity])). lia. }
  assert (Ft : fits sz).
  { split; [lia|]. destruct (Z_lt_ge_dec sz (2 ^ 61)) as [|C]; [left; assumption|]. right. unfold w64.
    assert (61 <= j) by (apply Z.nlt_ge; intros C2; assert (2 ^ j < 2 ^ 61) by (apply Z.pow_lt_mono_r; lia); lia).
    assert (E2 : 8 * sz = 2 ^ (j - 61) * 2 ^ 64) by (rewrite Ej; change 8 with (2 ^ 3); rewrite <- !Z.pow_add_r by lia; f_equal; lia). rewrite E2. apply Z_mod_mult. }
  assert (Sm : size <= 2 ^ 60 -> sz < 2 ^ 61) by lia.
  destruct algorithm as [k|]; [|exists 0, m; split; [reflexivity|]; left; repeat (split; [auto using keep_refl|]); contradiction].
  pose proof (hs k) as HS.
  destruct (algo_create_ok k m L sz O Ft) as (h & m1 & E1 & [(-> & O1 & K1 & G) | (Hh & arr & ns & Zn & O1 & S1 & A1 & K1)]); rewrite E1.
  { rewrite Z.eqb_refl. exists 0, m1. split; [reflexivity|]. left. repeat (split; [assumption || reflexivity|]). intros _ _ B Gn. apply G. split; [exact Gn|lia]. }
  rewrite (proj2 (Z.eqb_neq h 0)) by lia. destruct vals as [[[va vg] vo] vp].
  set (B1 := nblk k ns ++ base k h arr sz L) in *. pose proof O1 as [_ W1].
  assert (Dh : forall x, In x L -> apart (h, head_size k) x). { pose proof (wf_tail _ _ W1) as W. unfold base in W. apply wf_cons in W. destruct W as (W & _). apply wf_cons in W. apply W. }
  assert (Dha : apart (arr, 8 * sz) (h, head_size k)). { pose proof (wf_tail _ _ W1) as W. unfold base in W. apply wf_cons in W. apply W. cbn; auto. }
  assert (P : forall m0 B o v, own m0 B -> In (h, head_size k) B -> 0 <= o <= 176 -> put m0 (h + o) v = Some (setc m0 (h + o) v)).
  { intros m0 B o v O0 I0 Ho. apply (put_ok _ _ (h, head_size k) _ _ O0 I0); cbn [fst snd]; lia. }
  (* protected cells *)
  assert (KL : forall m0 o v, 0 <= o <= 176 -> keep L m0 (setc m0 (h + o) v)) by (intros m0 o v Ho; apply (keep_setc _ _ _ _ h (head_size k)); [exact Dh|lia]).
  assert (KS : forall m0 o v, 0 <= o <= 176 -> stored m0 arr ns -> stored (setc m0 (h + o) v) arr ns).
  { intros m0 o v Ho. apply stored_ext. intros i Hi. apply setc_other. unfold apart in Dha. cbn [fst snd] in Dha. unfold zlen in Zn. lia. }
  assert (Ih : In (h, head_size k) B1) by apply in_h.
  rewrite (P m1 B1 8 _ O1 Ih) by lia. set (m2 := setc m1 (h + 8) vg).
  replace (put m2 h va) with (put m2 (h + 0) va) by (f_equal; lia). rewrite (P m2 B1 0 _ O1 Ih) by lia. set (m3 := setc m2 (h + 0) va).
  unfold SIZE, MAXPEND, OPS, PDATA, TAGHASH, USING, FREED, CHANGING, NODES in *.
  rewrite (P m3 B1 96 _ O1 Ih) by lia. set (m4 := setc m3 (h + 96) sz).
  rewrite (P m4 B1 104 _ O1 Ih) by lia. set (m5 := setc m4 (h + 104) maxpend).
  rewrite (P m5 B1 32 _ O1 Ih) by lia. set (m6 := setc m5 (h + 32) vo).
  rewrite (P m6 B1 40 _ O1 Ih) by lia. set (m7 := setc m6 (h + 40) vp).
  assert (K7 : keep L m m7).
  { apply (keep_trans _ _ m1); [exact K1|]. repeat (eapply keep_trans; [|apply KL; lia]). apply keep_refl. reflexivity. }
  assert (S7 : stored m7 arr ns) by (unfold m7, m6, m5, m4, m3, m2; repeat (apply KS; [lia|]); exact S1).
  assert (A7 : cell m7 (h + 24) = arr) by (unfold m7, m6, m5, m4, m3, m2; rewrite !setc_other by lia; exact A1).
  assert (Z7 : cell m7 (h + 96) = sz) by (unfold m7, m6, m5, m4; rewrite !setc_other by lia; apply setc_same).
  assert (O7 : own m7 B1) by exact O1. clearbody m7. clear m6 m5 m4 m3 m2.
  destruct (array_ok m7 B1 sz O7 Ft) as (tag & m8 & E8 & [(-> & O8 & C8 & G) | (Ht & O8 & K8)]); rewrite E8.
  { rewrite (P m8 B1 16 _ O8 Ih) by lia. rewrite Z.eqb_refl.
    destruct (algo_destroy_ok k h arr ns L (setc m8 (h + 16) 0) (Z.to_nat sz)) as (m9 & E9 & O9 & C9).
    - rewrite Zn. exact O8.
    - apply KS; [lia|]. intros i Hi. rewrite C8. apply S7, Hi.
    - unfold NODES. rewrite setc_other by lia. rewrite C8. exact A7.
    - unfold SIZE. rewrite setc_other by lia. rewrite C8, Zn. exact Z7.
    - unfold zlen in Zn. lia.
    - rewrite E9. exists 0, m9. split; [reflexivity|]. left. split; [reflexivity|]. split; [exact O9|]. split.
      + apply (keep_trans _ _ m7); [exact K7|]. apply (keep_trans _ _ m8); [apply keep_refl, C8|].
        apply (keep_trans _ _ (setc m8 (h + 16) 0)); [apply KL; lia|apply keep_refl, C9].
      + intros _ _ B Gn. apply G. split; [exact Gn|lia]. }
  set (B2 := (tag, 8 * sz) :: B1) in *. assert (Ih2 : In (h, head_size k) B2) by (right; exact Ih).
  assert (S8 : stored m8 arr ns). { revert S7. apply stored_ext. intros i Hi. apply (K8 (arr, 8 * sz)); [apply in_arr|]. cbn [fst snd]. unfold zlen in Zn. lia. }
  assert (A8 : cell m8 (h + 24) = arr) by (rewrite <- A7; apply (K8 (h, head_size k)); [exact Ih|cbn [fst snd]; lia]).
  assert (Z8 : cell m8 (h + 96) = sz) by (rewrite <- Z7; apply (K8 (h, head_size k)); [exact Ih|cbn [fst snd]; lia]).
  assert (KL8 : keep L m m8). { apply (keep_trans _ _ m7); [exact K7|]. revert K8. apply keep_incl. intros x Hx. apply in_or_app. right. cbn; auto. }
  rewrite (P m8 B2 16 _ O8 Ih2) by lia. rewrite (proj2 (Z.eqb_neq tag 0)) by lia. unfold init_list. rewrite <- !Z.add_assoc. cbn [Z.add Pos.add Pos.succ Pos.add_carry].
  set (m9 := setc m8 (h + 16) tag).
  rewrite (P m9 B2 48 _ O8 Ih2) by lia. set (m10 := setc m9 (h + 48) (h + 48)).
  rewrite (P m10 B2 56 _ O8 Ih2) by lia. set (m11 := setc m10 (h + 56) (h + 48)).
  rewrite (P m11 B2 64 _ O8 Ih2) by lia. set (m12 := setc m11 (h + 64) (h + 64)).
  rewrite (P m12 B2 72 _ O8 Ih2) by lia. set (m13 := setc m12 (h + 72) (h + 64)).
  rewrite (P m13 B2 80 _ O8 Ih2) by lia. set (m14 := setc m13 (h + 80) (h + 80)).
  rewrite (P m14 B2 88 _ O8 Ih2) by lia. set (m15 := setc m14 (h + 88) (h + 80)).
  assert (K15 : keep L m m15).
  { apply (keep_trans _ _ m8); [exact KL8|]. repeat (eapply keep_trans; [|apply KL; lia]). apply keep_refl. reflexivity. }
  assert (S15 : stored m15 arr ns) by (unfold m15, m14, m13, m12, m11, m10, m9; repeat (apply KS; [lia|]); exact S8).
  assert (A15 : cell m15 (h + 24) = arr) by (unfold m15, m14, m13, m12, m11, m10, m9; rewrite !setc_other by lia; exact A8).
  assert (Z15 : cell m15 (h + 96) = sz) by (unfold m15, m14, m13, m12, m11, m10, m9; rewrite !setc_other by lia; exact Z8).
  assert (T15 : cell m15 (h + 16) = tag) by (unfold m15, m14, m13, m12, m11, m10; rewrite !setc_other by lia; apply setc_same).
  assert (F15 : cell m15 (h + 72) = h + 64) by (unfold m15, m14; rewrite !setc_other by lia; apply setc_same).
  assert (O15 : own m15 B2) by exact O8. clearbody m15. clear m14 m13 m12 m11 m10 m9.
  destruct (link_nodes_ok k h tag arr ns L (Z.to_nat sz) m15 0) as (m16 & E16 & O16 & F16).
  - unfold all. rewrite Zn. exact O15.
  - exact S15.
  - exact A15.
  - left. unfold FREED. rewrite <- Z.add_assoc. exact F15.
  - unfold zlen in Zn. lia.
  - change (Z.of_nat 0) with 0 in E16. rewrite E16. exists h, m16. split; [reflexivity|]. right. split; [lia|]. split; [lia|]. exists k, tag, arr, ns.
    split; [reflexivity|]. split; [|split; [split; [|split; [|split]]|split; [|split]]].
    + revert O16. apply own_perm. unfold all, blocks, base, nblk. cbn [app]. constructor. rewrite <- app_assoc. reflexivity.
    + rewrite F16; [exact T15|]. left. reflexivity.
    + rewrite F16; [exact A15|]. right; left. reflexivity.
    + rewrite F16; [rewrite Z15; symmetry; exact Zn|]. right; right; left. reflexivity.
    + revert S15. apply stored_ext. intros i Hi. apply F16. right; right; right; left. unfold zlen. lia.
    + rewrite Zn. exists j. auto.
    + rewrite Zn. lia.
    + apply (keep_trans _ _ m15); [exact K15|]. intros x a Hx Ha. apply F16. right; right; right; right. exists x. auto.
Qed.
Lemma destroy_ok k m h tag arr ns L n : own m (blocks k h tag arr ns ++ L) -> intact m h tag arr ns -> (length ns <= n)%nat ->
  exists m', cache_destroy n m h = Some m' /\ own m' L /\ cell m' = cell m.
Proof.
  intros O (T & A & Z0 & S) F. unfold cache_destroy. pose proof (hs k) as HS.
  assert (O' : own m ((tag, 8 * zlen ns) :: nblk k ns ++ base k h arr (zlen ns) L)).
  { revert O. apply own_perm. unfold blocks, base, nblk. cbn [app]. constructor. rewrite <- app_assoc. reflexivity. }
  rewrite (get_ok _ _ (h, head_size k) _ O'); [|right; apply in_h|cbn [fst]; unfold TAGHASH; lia|cbn [fst snd]; unfold TAGHASH; lia].
  unfold TAGHASH. rewrite T. destruct (free_ok _ _ _ _ O') as (m1 & E1 & O1 & C1). rewrite E1.
  destruct (algo_destroy_ok k h arr ns L m1 n O1) as (m2 & E2 & O2 & C2).
  - intros i Hi. rewrite C1. apply S, Hi.
  - rewrite C1. exact A.
  - rewrite C1. exact Z0.
  - exact F.
  - exists m2. rewrite C2, C1. auto.
Qed.
End Proofs2.
