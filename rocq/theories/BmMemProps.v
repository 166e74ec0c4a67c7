(** * C135: a Boyer-Moore search context and its block *)
From Verif Require Import Lib TextModel TextSpec TextProps KmpMemModel KmpMemProofs KmpMemProps SundayMemSpec SundayMemProofs BmMemModel BmMemProofs.
Local Ltac Zify.zify_post_hook ::= Z.div_mod_to_equations.

Section Prepare.
Variables up low : Z -> Z.
Variable got : Z.
Variable pattern : list Z.
Variable flags : Z.
Let len := zlen pattern.
Let gs := bm_gsize len.
Let pat := stored up (Z.testbit flags 0) pattern.
(** the state before the tables are computed *)
Lemma before_tables : 0 < got -> 0 < len < 2 ^ 32 -> got + (1064 + gs + len) <= 2 ^ 64 -> u64 flags ->
  exists m, inv got len (1064 + gs + len) (got + 1064 + gs) flags m /\ bytes_at m (got + 1064 + gs) pat /\ forall fuel, bm_prepare_m up low fuel got pattern flags = do m <- bm_prefix_m low fuel m got; Ok (Some m).
Proof.
  intros Hg Hl Hm Hf. assert (G0 : 0 <= gs < 2 ^ 32) by (unfold gs, bm_gsize, w32; apply Z.mod_pos_bound; lia). unfold bm_prepare_m. fold len. fold gs. rewrite (proj2 (Z.eqb_neq got 0)) by lia. assert (Es : w64 (B_SIZE + gs + len) = 1064 + gs + len) by (unfold B_SIZE, w64; apply Z.mod_small; lia). rewrite Es. set (size := 1064 + gs + len) in *. set (m0 := zeroed got size).
  assert (D0 : is_block m0 got size) by (intros x; apply zeroed_dom).
  assert (IB : forall m a n, is_block m got size -> got <= a -> a + Z.of_nat n <= got + size -> inb m a n) by (intros m a n D A B x Hx; apply D; lia).
  assert (DC : forall m m' a n, changed m m' a n -> is_block m got size -> is_block m' got size) by (intros m m' a n [_ C] D x; rewrite <- (D x), (C x); tauto).
  destruct (store 8 m0 (got + K_FLAGS) flags) as (m1 & E1 & C1 & V1); [apply IB; [exact D0|unfold K_FLAGS; lia|unfold K_FLAGS, size; lia]|change (256 ^ Z.of_nat 8) with (2 ^ 64); exact Hf|]. rewrite E1. cbn [bind]. pose proof (DC _ _ _ _ C1 D0) as D1. pose proof (stn_bytes _ _ _ _ _ (zeroed_bytes got size) E1) as B1.
  rewrite (w32_id len) by lia. destruct (store 4 m1 (got + B_LEN) len) as (m2 & E2 & C2 & V2); [apply IB; [exact D1|unfold B_LEN; lia|unfold B_LEN, size; lia]|change (256 ^ Z.of_nat 4) with (2 ^ 32); lia|]. rewrite E2. cbn [bind]. pose proof (DC _ _ _ _ C2 D1) as D2. pose proof (stn_bytes _ _ _ _ _ B1 E2) as B2.
  change (got + B_SIZE + gs) with (got + 1064 + gs). destruct (store 8 m2 (got + B_PATTERN) (got + 1064 + gs)) as (m3 & E3 & C3 & V3); [apply IB; [exact D2|unfold B_PATTERN; lia|unfold B_PATTERN, size; lia]|change (256 ^ Z.of_nat 8) with (2 ^ 64); unfold size in Hm; lia|]. rewrite E3. cbn [bind]. pose proof (DC _ _ _ _ C3 D2) as D3. pose proof (stn_bytes _ _ _ _ _ B2 E3) as B3.
  destruct (copy_stored up (Z.testbit flags 0) pattern m3 (got + 1064 + gs)) as (m4 & E4 & C4 & V4); [apply IB; [exact D3|lia|unfold size, len, zlen; lia]|]. rewrite E4. cbn [bind]. pose proof (DC _ _ _ _ C4 D3) as D4. pose proof (copy_bytes _ _ _ _ _ _ B3 E4) as B4.
  exists m4. split; [|split; [exact V4|reflexivity]]. split; [exact D4|]. rewrite !(keep_ldn _ _ _ _ _ _ C4) by (unfold K_FLAGS, B_LEN, B_PATTERN; lia). split.
  { rewrite (keep_ldn _ _ _ _ _ _ C3), (keep_ldn _ _ _ _ _ _ C2) by (unfold K_FLAGS, B_LEN, B_PATTERN; lia). exact V1. }
  split; [rewrite (keep_ldn _ _ _ _ _ _ C3) by (unfold B_LEN, B_PATTERN; lia); exact V2|]. split; [exact V3|exact B4].
Qed.
End Prepare.
(** Every pattern of 1 to 2^30 - 1 bytes and every text, byte 255 included: from creation to release all accesses are inside the block (or
    the text), the search ends, what it reports is an occurrence, and the block goes back to its allocator. *)
Theorem C135_lifecycle : forall up low alloc algo got pattern flags f text,
  0 < got -> 0 < zlen pattern < 2 ^ 30 -> got + (1064 + 5 * zlen pattern) <= 2 ^ 64 -> u64 flags -> u64 alloc -> u64 algo -> u64 f ->
  (forall c, 0 <= c < 256 -> 0 <= low c < 256) -> Forall (fun c => 0 <= c < 256) text -> zlen text + zlen pattern < 2 ^ 32 - 1 ->
  let icase := Z.testbit flags 0 in let where_ := got + 1064 + 4 * zlen pattern in
  exists m m' r, bm_create up low (length pattern) alloc algo got pattern flags = Ok (Some m) /\
    is_block m got (1064 + 5 * zlen pattern) /\ bm_get m got = Ok where_ /\ bm_get_len m got = Ok (zlen pattern) /\ bytes_at m where_ (stored up icase pattern) /\
    bm_linear up (S (length text)) (length pattern) m got f text (zlen text) = Ok (m', r) /\ changed m m' (got + K_NEXT) 8 /\ bm_destroy m' got = Ok (alloc, got) /\
    (r = UINT_MAX \/ (0 <= r /\ occurs (map (ch up icase) text) (stored up icase pattern) (Z.to_nat r))).
Proof.
  intros up low alloc algo got pattern flags f text Hg Hl Hm Hfl Ha Hal Hf Hlow HT H32 icase where_. set (len := zlen pattern) in *. assert (Eg : bm_gsize len = 4 * len) by (unfold bm_gsize; apply w32_id; lia).
  destruct (before_tables up low got pattern flags Hg) as (m0 & I0 & P0 & EP); [fold len; lia|fold len; rewrite Eg; lia|exact Hfl|]. fold len in I0, P0. rewrite Eg in I0, P0. fold icase in P0. fold where_ in I0, P0. replace (1064 + 4 * len + len) with (1064 + 5 * len) in I0 by lia.
  destruct (prefix_inv got len (1064 + 5 * len) where_ flags ltac:(lia) ltac:(lia) ltac:(unfold where_; lia) ltac:(unfold where_; lia) ltac:(lia) low m0 (length pattern) Hlow I0 ltac:(unfold len, zlen; lia)) as (m1 & E1 & I1 & R1 & G1). unfold reg in R1.
  assert (P1 : bytes_at m1 where_ (stored up icase pattern)) by (intros i b Hb; pose proof (rd_pos _ _ _ Hb); destruct R1 as [R1 _]; rewrite R1 by (unfold where_; lia); apply P0, Hb).
  destruct I1 as (D1 & F1 & L1 & Q1 & Y1). unfold bm_create. rewrite EP, E1. cbn [bind].
  destruct (store 8 m1 (got + K_ALGO) algo) as (m2 & E2 & C2 & V2); [intros x Hx; apply D1; unfold K_ALGO in *; lia|exact Hal|]. rewrite E2. cbn [bind].
  destruct (store 8 m2 (got + K_ALLOC) alloc) as (m3 & E3 & C3 & V3); [apply (inb_changed _ _ _ _ _ _ C2); intros x Hx; apply D1; unfold K_ALLOC in *; lia|exact Ha|]. rewrite E3. cbn [bind].
  assert (D3 : is_block m3 got (1064 + 5 * len)) by (intros x; rewrite <- (D1 x); destruct C2 as [_ C2], C3 as [_ C3]; rewrite (C3 x), (C2 x); tauto).
  destruct (store 8 m3 (got + K_NEXT) f) as (m4 & E4 & C4 & V4); [intros x Hx; apply D3; unfold K_NEXT in *; lia|exact Hf|].
  assert (K3 : forall a n, got + 16 <= a -> ldn n m3 a = ldn n m1 a) by (intros a n H; rewrite (keep_ldn _ _ _ _ _ _ C3), (keep_ldn _ _ _ _ _ _ C2) by (unfold K_ALGO, K_ALLOC; lia); reflexivity).
  assert (K4 : forall a n, got + 32 <= a -> ldn n m4 a = ldn n m1 a) by (intros a n H; rewrite (keep_ldn _ _ _ _ _ _ C4) by (unfold K_NEXT; lia); apply K3; lia).
  assert (A3 : ldn 8 m3 (got + K_ALGO) = Ok algo) by (rewrite (keep_ldn _ _ _ _ _ _ C3) by (unfold K_ALGO, K_ALLOC; lia); exact V2).
  assert (F4 : ldn 8 m4 (got + K_FLAGS) = Ok flags) by (rewrite (keep_ldn _ _ _ _ _ _ C4), K3 by (unfold K_FLAGS, K_NEXT; lia); exact F1).
  assert (P3 : bytes_at m3 where_ (stored up icase pattern)) by (intros i b Hb; pose proof (rd_pos _ _ _ Hb); destruct C2 as [C2 _], C3 as [C3 _]; rewrite C3, C2 by (unfold where_, K_ALGO, K_ALLOC; lia); apply P1, Hb).
  assert (P4 : bytes_at m4 where_ (stored up icase pattern)) by (intros i b Hb; pose proof (rd_pos _ _ _ Hb); destruct C4 as [C4 _]; rewrite C4 by (unfold where_, K_NEXT; lia); apply P3, Hb).
  assert (Lp : zlen (stored up icase pattern) = len) by (unfold stored, zlen; rewrite map_length; reflexivity).
  destruct (words_exist m4 (got + B_BAD) (fun _ => True) 256) as (bad & Lb & Wb & _).
  { intros i Hi. rewrite K4 by (unfold B_BAD; lia). destruct (ldn_ok 4 m1 (got + B_BAD + 4 * i)) as [v Ev]; [intros x Hx; apply D1; unfold B_BAD in Hx; lia|]. exists v. split; [exact Ev|exact I]. }
  destruct (words_exist m4 (got + B_GOOD) (fun v => 1 <= v <= zlen (stored up icase pattern)) (length pattern)) as (good & Lgd & Wg & Gg).
  { intros i Hi. rewrite K4 by (unfold B_GOOD; lia). rewrite Lp. apply G1. exact Hi. }
  destruct (bfind_m up got where_ m4 (stored up icase pattern) bad good icase P4) with (flags := flags) (text := text) (datalen := zlen text) (fuel := S (length text)) (cf := length pattern) as (r & Er & Em).
  { rewrite K4 by (unfold B_PATTERN; lia). exact Q1. }
  { rewrite K4 by (unfold B_LEN; lia). rewrite Lp. exact L1. }
  { exact Wb. } { exact Wg. } { unfold zlen. rewrite Lb. reflexivity. } { rewrite Lp. unfold zlen at 1. rewrite Lgd. reflexivity. } { exact Gg. } { lia. } { exact F4. } { reflexivity. } { lia. } { unfold zlen; lia. } { exact HT. } { unfold stored. rewrite map_length. lia. } { unfold zlen. rewrite Nat2Z.id. reflexivity. }
  exists m3, m4, r. split; [reflexivity|]. split; [exact D3|]. split; [unfold bm_get; rewrite A3; cbn [bind]; rewrite K3 by (unfold B_PATTERN; lia); exact Q1|]. split; [unfold bm_get_len; rewrite A3; cbn [bind]; rewrite K3 by (unfold B_LEN; lia); exact L1|]. split; [exact P3|].
  split; [unfold bm_linear; rewrite A3; cbn [bind]; rewrite E4; cbn [bind]; rewrite Em; reflexivity|]. split; [exact C4|]. split.
  { unfold bm_destroy. rewrite (keep_ldn _ _ _ _ (got + K_ALGO) 8 C4) by (unfold K_ALGO, K_NEXT; lia). rewrite A3. cbn [bind]. rewrite (keep_ldn _ _ _ _ (got + K_ALLOC) 8 C4) by (unfold K_ALLOC, K_NEXT; lia). rewrite V3. reflexivity. }
  destruct (Z.eq_dec r UINT_MAX) as [E|N]; [left; exact E|]. right. assert (NE : stored up icase pattern <> []) by (intros X; rewrite X in Lp; unfold zlen in Lp; cbn in Lp; lia).
  destruct (C39_bm_sound_partial up icase {| bpat := stored up icase pattern; bbad := bad; bgood := good |} text (zlen text) 0 r NE) as [O1 O2]; [lia|lia|cbn [bpat]; lia|exact Er|exact N|]. split; [exact O1|]. unfold zlen in O2. rewrite Nat2Z.id, firstn_all in O2. exact O2.
Qed.
(** Without memory nothing is touched and NULL is the answer. *)
Theorem C135_null : forall up low fuel alloc algo pattern flags, bm_create up low fuel alloc algo 0 pattern flags = Ok None.
Proof. reflexivity. Qed.
(** From 2^30 bytes on the size of the table wraps around, and computing it writes behind the block. *)
Theorem C135_large_refuted : forall up low got pattern flags, 0 < got -> 2 ^ 30 <= zlen pattern < 2 ^ 32 -> got + (1064 + w32 (4 * zlen pattern) + zlen pattern) <= 2 ^ 64 -> u64 flags ->
  (forall c, 0 <= c < 256 -> 0 <= low c < 256) -> bm_prepare_m up low (length pattern) got pattern flags = Fault.
Proof.
  intros up low got pattern flags Hg Hl Hm Hf Hlow. set (len := zlen pattern) in *. destruct (before_tables up low got pattern flags Hg) as (m0 & I0 & _ & EP); [fold len; lia|exact Hm|exact Hf|]. fold len in I0. assert (G : 0 <= bm_gsize len /\ bm_gsize len < 3 * len) by (unfold bm_gsize, w32; lia).
  rewrite EP. rewrite (prefix_fault got len (1064 + bm_gsize len + len) (got + 1064 + bm_gsize len) flags ltac:(lia) ltac:(lia) ltac:(lia) ltac:(lia) low m0 (length pattern) ltac:(lia) ltac:(lia) Hlow I0 ltac:(unfold len, zlen; lia)). reflexivity.
Qed.
(** An empty pattern makes preparation read behind the block. *)
Theorem C135_empty_refuted : exists got flags, bm_prepare_m toupper tolower 5 got [] flags = Fault.
Proof. exists 4096, 0. vm_compute. reflexivity. Qed.
Definition bm_ex (pattern text : list Z) : res Z :=
  do r <- bm_prepare_m toupper tolower 10 4096 pattern 0; match r with None => Stuck | Some m => bm_find_m toupper 20 10 m 4096 text (zlen text) end.
(** byte 255 does no harm here *)
Example C135_ex : bm_ex [97; 255; 98] [255; 97; 97; 255; 98] = Ok 2 /\ bm_ex [255] [97; 255] = Ok 1.
Proof. split; vm_compute; reflexivity. Qed.
Lemma tolower_byte c : 0 <= c < 256 -> 0 <= tolower c < 256.
Proof. intros Hc. unfold tolower. destruct ((65 <=? c) && (c <=? 90)) eqn:Ec; [|exact Hc]. apply andb_true_iff in Ec. destruct Ec as [E1 E2]. apply Z.leb_le in E1, E2. lia. Qed.
Example C135_hyps : exists m m' r, bm_create toupper tolower 2 7 8 4096 [97; 255] 1 = Ok (Some m) /\ bm_linear toupper 4 2 m 4096 9 [98; 65; 255] 3 = Ok (m', r) /\ bm_destroy m' 4096 = Ok (7, 4096).
Proof.
  destruct (C135_lifecycle toupper tolower 7 8 4096 [97; 255] 1 9 [98; 65; 255]) as (m & m' & r & E & _ & _ & _ & _ & E2 & _ & E3 & _);
    [lia|split; reflexivity|discriminate|unfold u64; lia|unfold u64; lia|unfold u64; lia|unfold u64; lia|exact tolower_byte|repeat constructor; lia|reflexivity|].
  exists m, m', r. split; [exact E|]. split; [exact E2|exact E3].
Qed.
Example C135_large_hyps : zlen (repeat 97 (Z.to_nat (2 ^ 30))) = 2 ^ 30 /\ 4096 + (1064 + w32 (4 * 2 ^ 30) + 2 ^ 30) <= 2 ^ 64.
Proof. split; [unfold zlen; rewrite repeat_length, Z2Nat.id; [reflexivity|discriminate]|discriminate]. Qed.
Print Assumptions C135_lifecycle.
Print Assumptions C135_large_refuted.
Print Assumptions C135_empty_refuted.
Print Assumptions C135_null.
