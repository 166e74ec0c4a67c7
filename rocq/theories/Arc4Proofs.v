(** * Proofs about the ARC4 model *)
From Verif Require Import Lib Arc4Model Arc4Spec.

Definition agree (bx : list Z) (S : farr) : Prop :=
  zlen bx = 256 /\ forall i, 0 <= i < 256 -> rd bx i = Some (S i) /\ 0 <= S i < 256.

Definition finj (S : farr) : Prop :=
  forall a b, 0 <= a < 256 -> 0 <= b < 256 -> S a = S b -> a = b.

Lemma agree_wr : forall bx S i v,
  agree bx S -> 0 <= i < 256 -> 0 <= v < 256 ->
  exists bx', wr bx i v = Some bx' /\ agree bx' (fset S i v).
Proof.
  intros bx S i v [L A] Hi Hv.
  destruct (wr_spec Z bx i v) as (bx' & E & L' & R); [lia|].
  exists bx'. split; [exact E|]. split; [lia|].
  intros k Hk. rewrite R. unfold fset. destruct (Z.eqb_spec k i); [auto|].
  exact (A k Hk).
Qed.

Lemma agree_ext : forall bx S S', agree bx S -> (forall i, 0 <= i < 256 -> S i = S' i) -> agree bx S'.
Proof.
  intros bx S S' [L A] H. split; [exact L|]. intros i Hi. rewrite <- H by exact Hi. auto.
Qed.

Lemma agree_swap : forall bx S i j,
  agree bx S -> 0 <= i < 256 -> 0 <= j < 256 ->
  exists bx1 bx2, wr bx j (S i) = Some bx1 /\ wr bx1 i (S j) = Some bx2 /\ agree bx2 (fswap S i j).
Proof.
  intros bx S i j A Hi Hj. pose proof A as [_ B].
  destruct (agree_wr bx S j (S i) A Hj (proj2 (B i Hi))) as (bx1 & E1 & A1).
  destruct (agree_wr bx1 _ i (S j) A1 Hi (proj2 (B j Hj))) as (bx2 & E2 & A2).
  exists bx1, bx2. repeat split; auto; try (apply A2).
  - eapply agree_ext in A2; [apply A2; eassumption|].
    intros k _. unfold fswap, fset. destruct (Z.eqb_spec k i), (Z.eqb_spec k j); subst; auto.
  - eapply agree_ext in A2; [apply A2; eassumption|].
    intros k _. unfold fswap, fset. destruct (Z.eqb_spec k i), (Z.eqb_spec k j); subst; auto.
  - eapply agree_ext in A2; [apply A2; eassumption|].
    intros k _. unfold fswap, fset. destruct (Z.eqb_spec k i), (Z.eqb_spec k j); subst; auto.
Qed.

Lemma fswap_l : forall S i j, fswap S i j i = S j.
Proof. intros. unfold fswap, fset. destruct (Z.eqb_spec i j); [subst; auto|]. rewrite Z.eqb_refl. auto. Qed.
Lemma fswap_r : forall S i j, fswap S i j j = S i.
Proof. intros. unfold fswap, fset. rewrite Z.eqb_refl. auto. Qed.

Lemma finj_swap : forall S i j, 0 <= i < 256 -> 0 <= j < 256 -> finj S -> finj (fswap S i j).
Proof.
  intros S i j Hi Hj F a b Ha Hb. unfold fswap, fset.
  destruct (Z.eqb_spec a j), (Z.eqb_spec b j), (Z.eqb_spec a i), (Z.eqb_spec b i); intros E;
    repeat match goal with H : _ = _ |- _ => first [subst; progress auto | apply F in H; [|assumption..]] end;
    try congruence; try lia.
  all: try (apply F in E; [|assumption..]); try congruence; try lia.
Qed.

Lemma mod256 : forall x, 0 <= x mod 256 < 256.
Proof. intros. apply Z.mod_pos_bound. lia. Qed.

Lemma arc4_loop_prga : forall data bx S i j,
  data <> [] -> agree bx S ->
  let pa := (i + 1) mod 256 in
  let pb := (j + S pa) mod 256 in
  exists ctx S' i' j',
    prga (length data) S i j = (fst (prga (length data) S i j), (S', i', j')) /\
    arc4_loop bx pa pb (S pa) (S pb) data
      = Some (xor_bytes data (fst (prga (length data) S i j)), ctx) /\
    agree (box ctx) S' /\ proa ctx = (i' + 1) mod 256 /\ prob ctx = j' /\
    (0 <= i' < 256) /\ (0 <= j' < 256) /\ (finj S -> finj S').
Proof.
  induction data as [|d data IH]; intros bx S i j Hne A pa pb; [congruence|clear Hne].
  assert (Hpa : 0 <= pa < 256) by apply mod256.
  assert (Hpb : 0 <= pb < 256) by apply mod256.
  destruct (agree_swap bx S pa pb A Hpa Hpb) as (bx1 & bx2 & E1 & E2 & A2).
  cbn [arc4_loop]. rewrite E1, E2. 
  set (S2 := fswap S pa pb) in *.
  pose proof A2 as [L2 B2].
  change (w8 (pa + 1)) with ((pa + 1) mod 256).
  destruct (B2 ((pa + 1) mod 256) (mod256 _)) as [R1 _]. rewrite R1.
  set (tx := S2 ((pa + 1) mod 256)).
  change (w8 (pb + tx)) with ((pb + tx) mod 256).
  destruct (B2 ((pb + tx) mod 256) (mod256 _)) as [R2 _]. rewrite R2.
  change (w8 (S pa + S pb)) with ((S pa + S pb) mod 256).
  destruct (B2 ((S pa + S pb) mod 256) (mod256 _)) as [R3 _]. rewrite R3.
  cbn [length prga]. fold pa. fold pb. fold S2.
  rewrite !fswap_l, !fswap_r, !(Z.add_comm (S pb) (S pa)). fold S2.
  destruct data as [|d' data].
  - cbn [length prga]. eexists. exists S2, pa, pb.
    split; [reflexivity|]. split; [reflexivity|]. cbn [box proa prob].
    repeat split; auto; try apply A2; try assumption; try lia.
    apply finj_swap; assumption.
  - destruct (IH bx2 S2 pa pb) as (ctx & S' & i' & j' & P & E & A' & Q1 & Q2 & Q3 & Q4 & Q5);
      [discriminate|exact A2|].
    fold tx in E. rewrite E. rewrite P.
    exists ctx, S', i', j'. split; [reflexivity|].
    split; [reflexivity|]. repeat split; auto; try apply A'; try assumption; try lia.
    intros F. apply Q5. apply finj_swap; assumption.
Qed.

(** Relation between a context between two calls and a textbook state. *)
Definition rel (ctx : arc4_ctx) (st : farr * Z * Z) : Prop :=
  let '(T, i, j) := st in
  agree (box ctx) T /\ proa ctx = (i + 1) mod 256 /\ prob ctx = j /\
  0 <= i < 256 /\ 0 <= j < 256.

Lemma arc4_trans_prga : forall ctx S i j data,
  rel ctx (S, i, j) ->
  exists ctx',
    arc4_trans ctx data = Some (xor_bytes data (fst (prga (length data) S i j)), ctx') /\
    rel ctx' (snd (prga (length data) S i j)) /\
    (finj S -> finj (fst (fst (snd (prga (length data) S i j))))).
Proof.
  intros ctx S i j data (A & Ea & Eb & Hi & Hj).
  destruct data as [|d data].
  - exists ctx. cbn. repeat split; auto; try apply A; try assumption; try lia.
  - unfold arc4_trans. rewrite Ea, Eb. pose proof A as [_ B].
    destruct (B ((i + 1) mod 256) (mod256 _)) as [R1 _]. rewrite R1.
    change (w8 (j + S ((i + 1) mod 256))) with ((j + S ((i + 1) mod 256)) mod 256).
    destruct (B ((j + S ((i + 1) mod 256)) mod 256) (mod256 _)) as [R2 _]. rewrite R2.
    destruct (arc4_loop_prga (d :: data) (box ctx) S i j) as (ctx' & S' & i' & j' & P & E & A' & Q);
      [discriminate|exact A|].
    rewrite E. exists ctx'. split; [reflexivity|]. rewrite P. cbn [fst snd rel].
    destruct Q as (Q1 & Q2 & Q3 & Q4 & Q5).
    repeat split; try apply A'; try assumption; try lia.
Qed.

Lemma prga_app : forall n m S i j,
  let '(k1, (S1, i1, j1)) := prga n S i j in
  let '(k2, st2) := prga m S1 i1 j1 in
  prga (n + m) S i j = (k1 ++ k2, st2).
Proof.
  induction n as [|n IH]; intros m S i j.
  - cbn [prga Nat.add]. destruct (prga m S i j). reflexivity.
  - cbn [prga Nat.add].
    set (i1 := (i + 1) mod 256). set (j1 := (j + S i1) mod 256). set (S1 := fswap S i1 j1).
    specialize (IH m S1 i1 j1). destruct (prga n S1 i1 j1) as [k1 [[S2 i2] j2]].
    destruct (prga m S2 i2 j2) as [k2 st2]. rewrite IH. reflexivity.
Qed.

Lemma prga_length : forall n S i j, length (fst (prga n S i j)) = n.
Proof.
  induction n as [|n IH]; intros S i j; [reflexivity|].
  cbn [prga]. specialize (IH (fswap S ((i + 1) mod 256) ((j + S ((i + 1) mod 256)) mod 256))
    ((i + 1) mod 256) ((j + S ((i + 1) mod 256)) mod 256)).
  destruct (prga n _ _ _). cbn [fst length] in *. lia.
Qed.

Lemma xor_app : forall a1 a2 b1 b2, length a1 = length b1 ->
  xor_bytes (a1 ++ a2) (b1 ++ b2) = xor_bytes a1 b1 ++ xor_bytes a2 b2.
Proof.
  unfold xor_bytes. induction a1 as [|x a1 IH]; intros a2 [|y b1] b2 H; cbn in H; try discriminate.
  - reflexivity.
  - cbn. f_equal. apply IH. lia.
Qed.

Lemma xor_bytes_length : forall a b, length a = length b -> length (xor_bytes a b) = length a.
Proof.
  intros. unfold xor_bytes. rewrite map_length, combine_length. lia.
Qed.

Lemma xor_bytes_twice : forall a b, length a = length b -> xor_bytes (xor_bytes a b) b = a.
Proof.
  unfold xor_bytes. induction a as [|x a IH]; intros [|y b] H; cbn in H; try discriminate; [reflexivity|].
  cbn. rewrite Z.lxor_assoc, Z.lxor_nilpotent, Z.lxor_0_r. f_equal. apply IH. lia.
Qed.

Lemma arc4_chunks_prga : forall chunks ctx S i j,
  rel ctx (S, i, j) ->
  exists ctx',
    arc4_trans_chunks ctx chunks
      = Some (xor_bytes (concat chunks) (fst (prga (length (concat chunks)) S i j)), ctx') /\
    rel ctx' (snd (prga (length (concat chunks)) S i j)) /\
    (finj S -> finj (fst (fst (snd (prga (length (concat chunks)) S i j))))).
Proof.
  induction chunks as [|c cs IH]; intros ctx S i j R.
  - exists ctx. cbn. auto.
  - cbn [arc4_trans_chunks concat].
    destruct (arc4_trans_prga ctx S i j c R) as (ctx1 & E1 & R1 & F1). rewrite E1.
    pose proof (prga_app (length c) (length (concat cs)) S i j) as PA.
    pose proof (prga_length (length c) S i j) as PL.
    destruct (prga (length c) S i j) as [k1 [[S1 i1] j1]] eqn:P1. cbn [fst snd] in *.
    destruct (IH ctx1 S1 i1 j1 R1) as (ctx2 & E2 & R2 & F2). rewrite E2.
    destruct (prga (length (concat cs)) S1 i1 j1) as [k2 st2] eqn:P2. cbn [fst snd] in *.
    rewrite app_length, PA. cbn [fst snd].
    exists ctx2. split; [|split; [exact R2|auto]].
    rewrite xor_app by lia. reflexivity.
Qed.

(** ** Key setup *)
Lemma ksa_loop : forall n count j key bx S,
  agree bx S -> key <> [] -> bytes key ->
  0 <= count -> count + Z.of_nat n <= 256 -> 
  exists bx',
    arc4_setkey_loop n count j key bx = Some bx' /\
    agree bx' (ksa n count j (fun i => nth (Z.to_nat i) key 0) (zlen key) S) /\
    (finj S -> finj (ksa n count j (fun i => nth (Z.to_nat i) key 0) (zlen key) S)).
Proof.
  induction n as [|n IH]; intros count j key bx S A Hk HB H0 H1.
  - exists bx. cbn. auto.
  - cbn [arc4_setkey_loop ksa]. pose proof A as [_ B].
    assert (Hc : 0 <= count < 256) by lia.
    destruct (B count Hc) as [R1 _]. rewrite R1.
    assert (Kl : 0 < zlen key) by (destruct key; [congruence|rewrite zlen_cons; pose proof (zlen_nonneg Z key); lia]).
    pose proof (Z.mod_pos_bound count (zlen key) Kl) as Km.
    destruct (rd_some Z key (count mod zlen key) Km) as [kv Ekv]. rewrite Ekv.
    assert (Nk : nth (Z.to_nat (count mod zlen key)) key 0 = kv).
    { unfold rd in Ekv. destruct (Z.ltb_spec (count mod zlen key) 0); [lia|].
      apply nth_error_nth. exact Ekv. }
    rewrite Nk.
    change (w8 (j + (kv + S count))) with ((j + (kv + S count)) mod 256).
    replace (j + (kv + S count)) with (j + S count + kv) by lia.
    set (j1 := (j + S count + kv) mod 256).
    assert (Hj1 : 0 <= j1 < 256) by apply mod256. clearbody j1.
    destruct (B j1 Hj1) as [R2 _]. rewrite R2.
    destruct (agree_swap bx S j1 count A Hj1 Hc) as (bx1 & bx2 & E1 & E2 & A2).
    rewrite E1, E2.
    assert (A3 : agree bx2 (fswap S count j1)).
    { eapply agree_ext; [exact A2|]. intros k _. unfold fswap, fset.
      destruct (Z.eqb_spec k count), (Z.eqb_spec k j1); congruence. }
    destruct (IH (count + 1) j1 key bx2 (fswap S count j1) A3 Hk HB) as (bx' & E & A' & F');
      [lia|lia|].
    rewrite E. exists bx'. split; [reflexivity|]. split; [exact A'|].
    intros F. apply F'. apply finj_swap; assumption.
Qed.

Lemma rd_zseq : forall n a i, 0 <= i < Z.of_nat n -> rd (zseq a n) i = Some (a + i).
Proof.
  induction n as [|n IH]; intros a i Hi; [lia|].
  unfold rd in *. destruct (Z.ltb_spec i 0); [lia|]. cbn [zseq].
  destruct (Z.eq_dec i 0) as [->|Hn]; [cbn; f_equal; lia|].
  replace (Z.to_nat i) with (Datatypes.S (Z.to_nat (i - 1))) by lia. cbn [nth_error].
  specialize (IH (a + 1) (i - 1)). destruct (Z.ltb_spec (i - 1) 0); [lia|].
  rewrite IH by lia. f_equal. lia.
Qed.

Lemma zseq_length : forall n a, length (zseq a n) = n.
Proof. induction n; intros; cbn; [reflexivity|]. rewrite IHn. reflexivity. Qed.

Lemma agree_init : agree (zseq 0 256) (fun i => i).
Proof.
  split; [unfold zlen; rewrite zseq_length; reflexivity|].
  intros i Hi. rewrite rd_zseq by lia. split; [f_equal; lia|lia].
Qed.

Lemma arc4_setkey_rel : forall ctx key,
  key <> [] -> bytes key ->
  exists ctx', arc4_setkey ctx key = Some ctx' /\ rel ctx' (rc4_init key, 0, 0) /\
    finj (rc4_init key).
Proof.
  intros ctx key Hk HB. unfold rc4_init.
  destruct (ksa_loop 256 0 0 key (zseq 0 256) (fun i => i) agree_init Hk HB)
    as (bx & E & A & F); [lia|lia|].
  set (T := ksa _ _ _ _ _ _) in *. clearbody T.
  exists {| box := bx; proa := 1; prob := 0 |}. split.
  - unfold arc4_setkey. destruct key as [|k0 key]; [congruence|]. rewrite E. reflexivity.
  - split.
    + unfold rel. cbn [box proa prob]. split; [exact A|]. repeat split; lia.
    + apply F. intros a b _ _ Hab. exact Hab.
Qed.

(** ** Permutation *)
Lemma nodup_of_inj : forall bx S, agree bx S -> finj S -> NoDup bx.
Proof.
  intros bx S [L A] F. rewrite NoDup_nth_error. intros a b Ha Hab.
  assert (La : 0 <= Z.of_nat a < 256) by (unfold zlen in L; lia).
  destruct (A _ La) as [Ra _].
  unfold rd in Ra. destruct (Z.ltb_spec (Z.of_nat a) 0); [lia|]. rewrite Nat2Z.id in Ra.
  assert (Lb : (b < length bx)%nat).
  { destruct (nth_error bx b) eqn:Eb; [apply nth_error_Some; congruence|congruence]. }
  assert (Lb' : 0 <= Z.of_nat b < 256) by (unfold zlen in L; lia).
  destruct (A _ Lb') as [Rb _].
  unfold rd in Rb. destruct (Z.ltb_spec (Z.of_nat b) 0); [lia|]. rewrite Nat2Z.id in Rb.
  assert (E : S (Z.of_nat a) = S (Z.of_nat b)) by congruence.
  apply F in E; lia.
Qed.

Lemma agree_bytes : forall bx S, agree bx S -> bytes bx.
Proof.
  intros bx S [L A]. apply Forall_forall. intros x Hx.
  apply In_nth_error in Hx as [n Hn].
  assert (Ln : (n < length bx)%nat) by (apply nth_error_Some; congruence).
  assert (Lz : 0 <= Z.of_nat n < 256) by (unfold zlen in L; lia).
  destruct (A _ Lz) as [R V]. unfold rd in R.
  destruct (Z.ltb_spec (Z.of_nat n) 0); [lia|]. rewrite Nat2Z.id in R. unfold byte. congruence.
Qed.

Lemma perm256_of_agree : forall bx S, agree bx S -> finj S -> perm256 bx.
Proof.
  intros bx S A F. pose proof (nodup_of_inj _ _ A F) as ND. pose proof (agree_bytes _ _ A) as BY.
  split; [|split; [|split; assumption]].
  - destruct A as [L _]. unfold zlen in L. lia.
  - assert (I : incl (zseq 0 256) bx).
    { apply NoDup_length_incl; [exact ND| |].
      - rewrite zseq_length. destruct A as [L _]. unfold zlen in L. lia.
      - intros x Hx. unfold bytes in BY. rewrite Forall_forall in BY.
        apply zseq_in. apply BY in Hx. unfold byte in Hx. cbn. lia. }
    intros v Hv. apply I. apply zseq_in. cbn. lia.
Qed.
