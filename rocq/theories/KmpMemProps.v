(** * C131: a text search context stays inside its block, and goes back to its allocator *)
From Verif Require Import Lib TextModel TextSpec KmpProofs TextProps KmpMemModel KmpMemProofs.
Local Ltac Zify.zify_post_hook ::= Z.div_mod_to_equations.

Definition folded (up : Z -> Z) (icase : bool) (pattern : list Z) : list Z := if icase then map (fun c => schar (up c)) pattern else pattern.
Lemma folded_len up icase pattern : zlen (folded up icase pattern) = zlen pattern.
Proof. unfold folded, zlen. destruct icase; [rewrite map_length|]; reflexivity. Qed.
Lemma folded_length up icase pattern : length (folded up icase pattern) = length pattern.
Proof. unfold folded. destruct icase; [apply map_length|reflexivity]. Qed.
Lemma folded_rd up icase pattern i c : (icase = false -> forall p, In p pattern -> -128 <= p < 128) -> rd (folded up icase pattern) i = Some c ->
  exists d, rd pattern i = Some d /\ schar (if icase then up d else d) = c.
Proof.
  intros H E. unfold folded, rd in *. destruct (i <? 0); [discriminate|]. destruct icase.
  - rewrite nth_error_map in E. destruct (nth_error pattern (Z.to_nat i)) as [d|]; [|discriminate]. exists d. split; [reflexivity|]. cbn in E. congruence.
  - exists c. split; [exact E|]. apply schar_id. apply H; [reflexivity|]. apply (nth_error_In _ _ E).
Qed.
Lemma zeroed_dom base size x : zeroed base size x <> None <-> base <= x < base + size.
Proof. unfold zeroed. destruct (Z.leb_spec base x), (Z.ltb_spec x (base + size)); cbn [andb]; split; intros; try lia; try congruence; discriminate. Qed.
Lemma zeroed_ld n : forall base size a, base <= a -> a + Z.of_nat n <= base + size -> ldn n (zeroed base size) a = Ok 0.
Proof.
  induction n as [|n IH]; intros base size a H1 H2; cbn [ldn]; [reflexivity|]. unfold zeroed at 1. rewrite (proj2 (Z.leb_le base a)), (proj2 (Z.ltb_lt a (base + size))) by lia. cbn [andb]. rewrite IH by lia. reflexivity.
Qed.
Section Prepare.
Variable up : Z -> Z.
Variable got : Z.
Variable pattern : list Z.
Variable flags : Z.
Let len := zlen pattern.
Let ps := w32 (4 * len).
(** what the block holds before the table is computed, for any length below 2^32 *)
Lemma before_prefix : 0 < got -> 0 < len < 2 ^ 32 -> got + (48 + ps + len) <= 2 ^ 64 -> u64 flags ->
  exists m, (forall fuel, kmp_prepare_m up fuel got pattern flags = (do m <- kmp_prefix_m fuel fuel m got 1 0; Ok (Some m))) /\
    (forall x, m x <> None <-> got <= x < got + (48 + ps + len)) /\ ldn 8 m (got + K_FLAGS) = Ok flags /\ ldn 8 m (got + K_PATTERN) = Ok (got + 48 + ps) /\ ldn 4 m (got + K_LEN) = Ok len /\
    (forall i c, rd pattern i = Some c -> exists b, ldn 1 m (got + 48 + ps + i) = Ok b /\ schar b = schar (if Z.testbit flags 0 then up c else c)) /\
    (forall a n, got + 44 <= a -> a + Z.of_nat n <= got + 48 + ps -> ldn n m a = Ok 0).
Proof.
  intros Hg Hl Hs Hfl. assert (L0 : 0 <= len) by (unfold len, zlen; lia). assert (P0 : 0 <= ps < 2 ^ 32) by (unfold ps, w32; apply Z.mod_pos_bound; lia).
  assert (Ek : kmp_size len = 48 + ps + len) by (unfold kmp_size, K_SIZE, w64; fold ps; apply Z.mod_small; lia).
  pose (m0 := zeroed got (48 + ps + len)). assert (D0 : forall x, m0 x <> None <-> got <= x < got + (48 + ps + len)) by (intros x; apply zeroed_dom).
  destruct (store 8 m0 (got + K_FLAGS) flags) as (m1 & E1 & C1 & V1); [intros x Hx; apply D0; unfold K_FLAGS in Hx; lia|exact Hfl|].
  assert (D1 : forall x, m1 x <> None <-> got <= x < got + (48 + ps + len)) by (intros x; rewrite (proj2 C1 x); apply D0).
  destruct (store 4 m1 (got + K_LEN) len) as (m2 & E2 & C2 & V2); [intros x Hx; apply D1; unfold K_LEN in Hx; lia|change (256 ^ Z.of_nat 4) with (2 ^ 32); lia|].
  assert (D2 : forall x, m2 x <> None <-> got <= x < got + (48 + ps + len)) by (intros x; rewrite (proj2 C2 x); apply D1).
  destruct (store 8 m2 (got + K_PATTERN) (got + K_SIZE + ps)) as (m3 & E3 & C3 & V3); [intros x Hx; apply D2; unfold K_PATTERN in Hx; lia|change (256 ^ Z.of_nat 8) with (2 ^ 64); unfold K_SIZE; lia|].
  assert (D3 : forall x, m3 x <> None <-> got <= x < got + (48 + ps + len)) by (intros x; rewrite (proj2 C3 x); apply D2).
  destruct (copy_ok up got (Z.testbit flags 0) pattern m3 (got + K_SIZE + ps)) as (m4 & E4 & C4 & V4); [intros x Hx; apply D3; unfold K_SIZE, len, zlen in *; lia|].
  exists m4. unfold K_FLAGS, K_LEN, K_PATTERN, K_SIZE in *. fold len in E4. split; [|split; [|split; [|split; [|split; [|split]]]]].
  - intros fuel. unfold kmp_prepare_m. fold len. cbn zeta. rewrite (proj2 (Z.eqb_neq got 0)) by lia. rewrite Ek. fold m0. fold ps. unfold K_FLAGS, K_LEN, K_PATTERN, K_SIZE. rewrite E1. cbn [bind]. rewrite (w32_id len) by lia. rewrite E2. cbn [bind]. rewrite E3. cbn [bind]. rewrite V3. cbn [bind]. rewrite E4. reflexivity.
  - intros x. rewrite (proj2 C4 x). apply D3.
  - rewrite (keep_ldn _ _ _ _ _ _ C4) by lia. rewrite (keep_ldn _ _ _ _ _ _ C3) by lia. rewrite (keep_ldn _ _ _ _ _ _ C2) by lia. exact V1.
  - rewrite (keep_ldn _ _ _ _ _ _ C4) by lia. exact V3.
  - rewrite (keep_ldn _ _ _ _ _ _ C4) by lia. rewrite (keep_ldn _ _ _ _ _ _ C3) by lia. exact V2.
  - exact V4.
  - intros a n Ha Hn. rewrite (keep_ldn _ _ _ _ _ _ C4) by lia. rewrite (keep_ldn _ _ _ _ _ _ C3) by lia. rewrite (keep_ldn _ _ _ _ _ _ C2) by lia. rewrite (keep_ldn _ _ _ _ _ _ C1) by lia. unfold m0. apply zeroed_ld; lia.
Qed.
Lemma prepare_m fuel tab : 0 < got -> 0 < len < 2 ^ 30 -> got + (48 + 5 * len) <= 2 ^ 64 -> u64 flags -> (length pattern <= fuel)%nat ->
  (Z.testbit flags 0 = false -> forall p, In p pattern -> -128 <= p < 128) ->
  kmp_prefix (length pattern - 1) (folded up (Z.testbit flags 0) pattern) (repeat 0 (length pattern)) 1 0 = Some tab ->
  exists m, kmp_prepare_m up fuel got pattern flags = Ok (Some m) /\ fields got m (folded up (Z.testbit flags 0) pattern) flags /\ table got m tab.
Proof.
  intros Hg Hl Hs Hfl Hf HC E. assert (Eps : ps = 4 * len) by (unfold ps; apply w32_id; unfold len, zlen in *; lia).
  destruct (before_prefix Hg ltac:(lia) ltac:(lia) Hfl) as (m & E1 & D & V1 & V2 & V3 & V4 & V5). rewrite Eps in *.
  assert (HF : fields got m (folded up (Z.testbit flags 0) pattern) flags).
  { constructor; rewrite ?folded_len; fold len; [intros x; rewrite D; lia|exact V1|exact V2|exact V3|]. intros i c Hi. destruct (folded_rd _ _ _ _ _ HC Hi) as (d & Hd & <-). apply V4, Hd. }
  assert (HT : table got m (repeat 0 (length pattern))).
  { intros i v Hi. pose proof (rd_pos _ _ _ Hi) as Hp. unfold zlen in Hp. rewrite repeat_length in Hp. assert (v = 0). { unfold rd in Hi. destruct (i <? 0); [discriminate|]. apply nth_error_In, repeat_spec in Hi. exact Hi. } subst v. split; [|lia]. apply V5; unfold K_TABLE, len, zlen in *; lia. }
  assert (HL : zlen (repeat 0 (length pattern)) = zlen (folded up (Z.testbit flags 0) pattern)) by (rewrite folded_len; unfold zlen; rewrite repeat_length; reflexivity).
  destruct (prefix_m up got (folded up (Z.testbit flags 0) pattern) flags fuel) with (n := (length pattern - 1)%nat) (fuel := fuel) (m := m) (tab := repeat 0 (length pattern)) (index := 1) (k := 0) (tab' := tab) as (m' & P1 & P2 & P3 & _); try assumption.
  - rewrite folded_len. exact (proj2 Hl).
  - rewrite folded_length. exact Hf.
  - lia.
  - lia.
  - rewrite folded_len. unfold zlen. lia.
  - exists m'. rewrite E1, P1. split; [reflexivity|]. split; assumption.
Qed.

(** ** A pattern of 2^30 bytes or more *)
Definition entries (m : bmem) (n : Z) : Prop := forall i, 0 <= i < n -> exists v, ldn 4 m (got + K_TABLE + 4 * i) = Ok v /\ 0 <= v <= i.
Lemma pat_rd_ns m i : pat_rd m got i <> Stuck.
Proof. unfold pat_rd. pose proof (ldn_not_stuck 8 m (got + K_PATTERN)). destruct (ldn 8 m (got + K_PATTERN)) as [p| |]; cbn [bind]; try congruence. pose proof (ldn_not_stuck 1 m (p + i)). destruct (ldn 1 m (p + i)); cbn [bind]; congruence. Qed.
Lemma back_ns m c n : entries m n -> n < 2 ^ 32 -> forall fuel k, 0 <= k <= n -> k <= Z.of_nat fuel -> kmp_back_m fuel m got c k = Fault \/ exists r, kmp_back_m fuel m got c k = Ok r /\ 0 <= r <= k.
Proof.
  intros HE Hn. induction fuel as [|fuel IH]; intros k Hk Hf; cbn [kmp_back_m].
  - assert (k = 0) by lia. subst k. right. exists 0. split; [reflexivity|lia].
  - destruct (Z.eqb_spec k 0) as [->|N]; [right; exists 0; split; [reflexivity|lia]|]. pose proof (pat_rd_ns m k). destruct (pat_rd m got k) as [p| |]; cbn [bind]; [|left; reflexivity|congruence].
    destruct (p =? c); [right; exists k; split; [reflexivity|lia]|]. destruct (HE (k - 1) ltac:(lia)) as (v & E & Hv). rewrite w32_id by lia. unfold tab_rd. rewrite E. cbn [bind]. destruct (IH v ltac:(lia) ltac:(lia)) as [H1|(r & H1 & H2)]; [left; exact H1|right; exists r; split; [exact H1|lia]].
Qed.
Lemma prefix_faults bf : forall fuel m index k, 0 <= k < index -> index <= len -> len < 2 ^ 32 -> len <= Z.of_nat bf -> len - index <= Z.of_nat fuel -> entries m index -> ldn 4 m (got + K_LEN) = Ok len ->
  (forall x, m x <> None -> x < got + K_TABLE + 4 * len - 1) -> kmp_prefix_m fuel bf m got index k = Fault.
Proof.
  assert (G : forall m index, 0 < index -> entries m index -> (forall x, m x <> None -> x < got + K_TABLE + 4 * len - 1) -> index <> len).
  { intros m index Hi HE HD ->. destruct (HE (len - 1) ltac:(lia)) as (v & E & _). assert (N : m (got + K_TABLE + 4 * (len - 1) + 3) <> None).
    { cbn [ldn] in E. destruct (m (got + K_TABLE + 4 * (len - 1))); [|discriminate]. destruct (m (got + K_TABLE + 4 * (len - 1) + 1)); [|discriminate]. destruct (m (got + K_TABLE + 4 * (len - 1) + 1 + 1)); [|discriminate].
      replace (got + K_TABLE + 4 * (len - 1) + 1 + 1 + 1) with (got + K_TABLE + 4 * (len - 1) + 3) in E by lia. destruct (m (got + K_TABLE + 4 * (len - 1) + 3)); [discriminate|]. discriminate. }
    apply HD in N. lia. }
  induction fuel as [|fuel IH]; intros m index k Hk Hi Hl Hb Hf HE HL HD; pose proof (G m index ltac:(lia) HE HD) as Ni; [exfalso; lia|].
  cbn [kmp_prefix_m]. rewrite HL. cbn [bind]. rewrite (proj2 (Z.ltb_lt index len)) by lia.
  pose proof (pat_rd_ns m index). destruct (pat_rd m got index) as [c| |]; cbn [bind]; [|reflexivity|congruence].
  unfold kmp_step_m. destruct (back_ns m c index HE ltac:(lia) bf k ltac:(lia) ltac:(lia)) as [->|(r & -> & Hr)]; cbn [bind]; [reflexivity|].
  pose proof (pat_rd_ns m r). destruct (pat_rd m got r) as [p| |]; cbn [bind]; [|reflexivity|congruence].
  set (k' := if p =? c then w32 (r + 1) else r). assert (Hk' : 0 <= k' <= index) by (unfold k'; rewrite w32_id by lia; destruct (p =? c); lia).
  unfold tab_wr. pose proof (stn_not_stuck 4 m (got + K_TABLE + 4 * index) k'). destruct (stn 4 m (got + K_TABLE + 4 * index) k') as [m1| |] eqn:E1; cbn [bind]; [|reflexivity|congruence].
  apply stn_inv in E1. destruct E1 as (_ & M2 & M3 & M4). assert (CH : changed m m1 (got + K_TABLE + 4 * index) 4) by (split; assumption). change (256 ^ Z.of_nat 4) with (2 ^ 32) in M4. rewrite Z.mod_small in M4 by lia. rewrite (w32_id (index + 1)) by lia. apply IH; try lia.
  - intros i Hii. destruct (Z.eq_dec i index) as [->|N]; [exists k'; split; [exact M4|lia]|]. rewrite (keep_ldn _ _ _ _ _ _ CH) by (unfold K_TABLE; lia). apply HE. lia.
  - rewrite (keep_ldn _ _ _ _ _ _ CH) by (unfold K_TABLE, K_LEN; lia). exact HL.
  - intros x Hx. apply HD. intros E0. apply Hx, M3, E0.
Qed.
End Prepare.

(** A context from creation to destruction: the block that is asked for has 48 bytes, a table entry of four bytes and one
    byte per character of the pattern, and no access leaves it; pattern_get and pattern_len give back the (upper-cased)
    pattern; any number of linear searches find the leftmost match; and destroy frees the block with the allocator that
    made it. Without memory create reports it. *)
Fixpoint linears (up : Z -> Z) (fuel bf : nat) (m : bmem) (ctx f : Z) (datas : list (list Z)) : res (bmem * list (Z * Z)) :=
  match datas with
  | [] => Ok (m, [])
  | d :: datas => do r <- ts_linear up fuel bf m ctx f d; do s <- linears up fuel bf (fst r) ctx f datas; Ok (fst s, snd r :: snd s)
  end.
(** the offset and the position that a search in [text] has to give *)
Definition first_match (up : Z -> Z) (icase : bool) (pattern text : list Z) (start : nat) (r : Z * Z) : Prop :=
  let T := map (ch up icase) text in let P := map (ch up icase) pattern in
  (exists j, r = (Z.of_nat (j + length pattern), Z.of_nat j) /\ leftmost T P start j) \/ (r = (Z.of_nat start, UINT_MAX) /\ absent T P start).
Definition patterns_ok (up : Z -> Z) (icase : bool) (pattern : list Z) : Prop :=
  if icase then forall p, In p pattern -> schar (up p) = up p else forall p, In p pattern -> -128 <= p < 128.
Record ready (up : Z -> Z) (got alloc algo flags : Z) (pattern tab : list Z) (m : bmem) : Prop := {
  r_fields : fields got m (folded up (Z.testbit flags 0) pattern) flags;
  r_table : table got m tab;
  r_algo : ldn 8 m (got + K_ALGO) = Ok algo;
  r_alloc : ldn 8 m (got + K_ALLOC) = Ok alloc
}.
Lemma fields_keep up got icase pattern tab flags m m' a : fields got m (folded up icase pattern) flags -> table got m tab -> changed m m' a 8 -> (a = got + K_ALLOC \/ a = got + K_ALGO \/ a = got + K_NEXT) -> fields got m' (folded up icase pattern) flags /\ table got m' tab.
Proof.
  intros HF HT CH Ha. assert (L0 : 0 <= zlen (folded up icase pattern)) by (unfold zlen; lia). unfold K_ALLOC, K_ALGO, K_NEXT in Ha. split.
  - constructor; unfold K_FLAGS, K_PATTERN, K_LEN in *.
    + intros x. rewrite (proj2 CH x). apply (f_dom _ _ _ _ HF).
    + rewrite (keep_ldn _ _ _ _ _ _ CH) by lia. apply (f_flags _ _ _ _ HF).
    + rewrite (keep_ldn _ _ _ _ _ _ CH) by lia. apply (f_pattern _ _ _ _ HF).
    + rewrite (keep_ldn _ _ _ _ _ _ CH) by lia. apply (f_len _ _ _ _ HF).
    + intros i c Hi. pose proof (rd_pos _ _ _ Hi). rewrite (keep_ldn _ _ _ _ _ _ CH) by lia. apply (f_pat _ _ _ _ HF i c Hi).
  - intros i v Hi. pose proof (rd_pos _ _ _ Hi). rewrite (keep_ldn _ _ _ _ _ _ CH) by (unfold K_TABLE; lia). apply HT, Hi.
Qed.
Lemma folded_ch up icase pattern : patterns_ok up icase pattern -> folded up icase pattern = map (ch up icase) pattern.
Proof. intros H. unfold folded, ch, patterns_ok in *. destruct icase; [apply map_ext_in; exact H|symmetry; apply map_id]. Qed.
Theorem C131_lifecycle : forall up alloc algo got pattern flags fuel f,
  pattern <> [] -> zlen pattern < 2 ^ 30 -> (length pattern <= fuel)%nat -> 0 < got -> got + kmp_size (zlen pattern) <= 2 ^ 64 ->
  u64 flags -> u64 alloc -> u64 algo -> u64 f -> patterns_ok up (Z.testbit flags 0) pattern ->
  kmp_size (zlen pattern) = 48 + 5 * zlen pattern /\
  exists m, ts_create up fuel alloc algo got pattern flags = Ok (Some m) /\
    (forall x, m x <> None <-> got <= x < got + kmp_size (zlen pattern)) /\
    ts_pattern_len m got = Ok (zlen pattern) /\
    (exists p, ts_pattern_get m got = Ok p /\ forall i c, nth_error pattern i = Some c -> exists b, m (p + Z.of_nat i) = Some b /\ schar b = ch up (Z.testbit flags 0) c) /\
    (forall next text start n, source next text -> zlen text < 2 ^ 32 -> (start <= length text)%nat -> (length text < n)%nat ->
      exists r, kmp_find_m up n fuel m got next (Z.of_nat start) = Ok r /\ first_match up (Z.testbit flags 0) pattern text start r) /\
    (forall datas n, (forall d, In d datas -> zlen d < 2 ^ 32 /\ (length d < n)%nat) ->
      exists m' rs, linears up n fuel m got f datas = Ok (m', rs) /\ Forall2 (fun d r => first_match up (Z.testbit flags 0) pattern d 0 r) datas rs /\ ts_destroy m' got = Ok (alloc, got)).
Proof.
  intros up alloc algo got pattern flags fuel f NP H30 Hf Hg Hs Hfl Hal Hag Hff HC. set (icase := Z.testbit flags 0) in *. assert (L1 : 0 < zlen pattern) by (unfold zlen; destruct pattern; [congruence|cbn [length]; lia]). assert (L0 : 0 <= zlen pattern) by lia.
  assert (Es : kmp_size (zlen pattern) = 48 + 5 * zlen pattern) by (unfold kmp_size, K_SIZE, w64; rewrite (w32_id (4 * zlen pattern)) by lia; rewrite Z.mod_small by lia; lia).
  split; [exact Es|]. rewrite Es in *.
  assert (HC1 : icase = true -> forall p, In p pattern -> schar (up p) = up p) by (unfold patterns_ok in HC; intros E; rewrite E in HC; exact HC).
  assert (HC2 : icase = false -> forall p, In p pattern -> -128 <= p < 128) by (unfold patterns_ok in HC; intros E; rewrite E in HC; exact HC).
  assert (Ep : exists tab, kmp_prefix (length pattern - 1) (folded up icase pattern) (repeat 0 (length pattern)) 1 0 = Some tab /\ kmp_prepare up icase pattern = Some {| kpat := folded up icase pattern; klen := zlen pattern; ktab := tab |}).
  { destruct (prepare_ok up icase pattern NP H30 HC1) as (tab & E & _). unfold kmp_prepare in E |- *. destruct (2 ^ 30 <=? zlen pattern); [discriminate|]. fold (folded up icase pattern) in E |- *. destruct (kmp_prefix (length pattern - 1) (folded up icase pattern) (repeat 0 (length pattern)) 1 0) as [t|]; [|discriminate]. exists t. split; reflexivity. }
  destruct Ep as (tab & Ep & Ek). destruct (prepare_m up got pattern flags fuel tab Hg (conj L1 H30) Hs Hfl Hf HC2 Ep) as (m0 & E0 & F0 & T0).
  assert (Hd0 : forall x, m0 x <> None <-> got <= x < got + (48 + 5 * zlen pattern)) by (intros x; rewrite (f_dom _ _ _ _ F0); rewrite folded_len; tauto).
  destruct (store 8 m0 (got + K_ALGO) algo) as (m1 & E1 & C1 & V1); [intros x Hx; apply Hd0; unfold K_ALGO in Hx; lia|exact Hag|]. destruct (fields_keep _ _ _ _ _ _ _ _ _ F0 T0 C1 ltac:(tauto)) as [F1 T1].
  assert (Hd1 : forall x, m1 x <> None <-> got <= x < got + (48 + 5 * zlen pattern)) by (intros x; rewrite (proj2 C1 x); apply Hd0).
  destruct (store 8 m1 (got + K_ALLOC) alloc) as (m & E2 & C2 & V2); [intros x Hx; apply Hd1; unfold K_ALLOC in Hx; lia|exact Hal|]. destruct (fields_keep _ _ _ _ _ _ _ _ _ F1 T1 C2 ltac:(tauto)) as [F2 T2].
  assert (HR : ready up got alloc algo flags pattern tab m). { constructor; [exact F2|exact T2| |exact V2]. rewrite (keep_ldn _ _ _ _ _ _ C2) by (unfold K_ALLOC, K_ALGO; lia). exact V1. }
  assert (Find : forall m next text start n, ready up got alloc algo flags pattern tab m -> source next text -> zlen text < 2 ^ 32 -> (start <= length text)%nat -> (length text < n)%nat ->
    exists r, kmp_find_m up n fuel m got next (Z.of_nat start) = Ok r /\ first_match up icase pattern text start r).
  { clear - NP H30 HC1 Ek Hf. intros m next text start n HR HS Ht Hst Hn. destruct (C38_first up icase pattern text next start n NP H30 Ht HS HC1 Hst Hn) as (k & K1 & K2). rewrite Ek in K1. injection K1 as <-. rewrite <- (folded_len up icase pattern) in K2.
    destruct K2 as [(j & K2 & K3)|[K2 K3]]; (eexists; split; [apply (find_m up got m (folded up icase pattern) flags tab fuel next n _ _ (r_fields _ _ _ _ _ _ _ _ HR) (r_table _ _ _ _ _ _ _ _ HR) ltac:(rewrite folded_len; exact H30) ltac:(rewrite folded_length; exact Hf) K2)|]).
    - left. exists j. split; [reflexivity|exact K3].
    - right. split; [reflexivity|exact K3]. }
  exists m. split; [|split; [|split; [|split; [|split]]]].
  - unfold ts_create. rewrite E0. cbn [bind]. rewrite E1. cbn [bind]. rewrite E2. reflexivity.
  - intros x. rewrite (proj2 C2 x). apply Hd1.
  - unfold ts_pattern_len. rewrite (r_algo _ _ _ _ _ _ _ _ HR). cbn [bind]. rewrite (f_len _ _ _ _ F2), folded_len. reflexivity.
  - exists (got + 48 + 4 * zlen pattern). unfold ts_pattern_get. rewrite (r_algo _ _ _ _ _ _ _ _ HR). cbn [bind]. rewrite (f_pattern _ _ _ _ F2), folded_len. split; [reflexivity|]. intros i c Hi.
    assert (Hr : rd (folded up icase pattern) (Z.of_nat i) = Some (ch up icase c)). { unfold rd. rewrite (proj2 (Z.ltb_ge (Z.of_nat i) 0)) by lia. rewrite Nat2Z.id, (folded_ch up icase pattern HC), nth_error_map, Hi. reflexivity. }
    destruct (f_pat _ _ _ _ F2 _ _ Hr) as (b & B1 & B2). rewrite folded_len in B1. cbn [ldn] in B1. destruct (m (got + 48 + 4 * zlen pattern + Z.of_nat i)) as [b'|]; [|discriminate]. cbn [bind] in B1. injection B1 as B1. exists b'. split; [reflexivity|]. replace b' with b by lia. exact B2.
  - intros next text start n HS Ht Hst Hn. apply (Find m next text start n HR HS Ht Hst Hn).
  - intros datas n. clear - HR Find Hff Hs Hg. revert m HR. induction datas as [|d datas IH]; intros m HR Hd; cbn [linears].
    + exists m, []. split; [reflexivity|]. split; [constructor|]. unfold ts_destroy. rewrite (r_algo _ _ _ _ _ _ _ _ HR). cbn [bind]. rewrite (r_alloc _ _ _ _ _ _ _ _ HR). reflexivity.
    + destruct (store 8 m (got + K_NEXT) f) as (m1 & E1 & C1 & V1); [intros x Hx; apply (f_dom _ _ _ _ (r_fields _ _ _ _ _ _ _ _ HR)); unfold K_NEXT, zlen in *; lia|exact Hff|].
      assert (HR1 : ready up got alloc algo flags pattern tab m1).
      { destruct (fields_keep _ _ _ _ _ _ _ _ _ (r_fields _ _ _ _ _ _ _ _ HR) (r_table _ _ _ _ _ _ _ _ HR) C1 ltac:(tauto)) as [F1 T1]. constructor; [exact F1|exact T1| |]; rewrite (keep_ldn _ _ _ _ _ _ C1) by (unfold K_NEXT, K_ALGO, K_ALLOC; lia); [apply (r_algo _ _ _ _ _ _ _ _ HR)|apply (r_alloc _ _ _ _ _ _ _ _ HR)]. }
      destruct (Hd d (or_introl eq_refl)) as [Hd1 Hd2]. destruct (Find m1 (linear_next d) d 0%nat n HR1 (linear_source d) Hd1 ltac:(lia) Hd2) as (r & R1 & R2). change (Z.of_nat 0) with 0 in R1.
      destruct (IH m1 HR1 (fun d' H => Hd d' (or_intror H))) as (m' & rs & I1 & I2 & I3). exists m', (r :: rs). unfold ts_linear. rewrite (r_algo _ _ _ _ _ _ _ _ HR). cbn [bind]. rewrite E1. cbn [bind]. rewrite R1. cbn [bind fst snd]. rewrite I1. cbn [bind fst snd]. split; [reflexivity|]. split; [constructor; assumption|exact I3].
Qed.
Example C131_no_memory : forall up fuel alloc algo pattern flags, ts_create up fuel alloc algo 0 pattern flags = Ok None.
Proof. reflexivity. Qed.
(** From 2^30 bytes on the size of the table wraps: every such pattern makes [kmp_prepare] write outside of its block
    (for all allocators that find the memory asked for). *)
Theorem C131_large_refuted : forall up alloc algo got pattern flags fuel,
  2 ^ 30 <= zlen pattern < 2 ^ 32 -> zlen pattern <= Z.of_nat fuel -> 0 < got -> got + kmp_size (zlen pattern) <= 2 ^ 64 -> u64 flags ->
  ts_create up fuel alloc algo got pattern flags = Fault.
Proof.
  intros up alloc algo got pattern flags fuel Hl Hf Hg Hs Hfl. assert (P0 : 0 <= w32 (4 * zlen pattern) < 2 ^ 32) by (unfold w32; apply Z.mod_pos_bound; lia).
  assert (Ek : kmp_size (zlen pattern) = 48 + w32 (4 * zlen pattern) + zlen pattern) by (unfold kmp_size, K_SIZE, w64; apply Z.mod_small; lia). rewrite Ek in Hs.
  destruct (before_prefix up got pattern flags Hg ltac:(lia) Hs Hfl) as (m & E1 & D & V1 & V2 & V3 & V4 & V5). unfold ts_create. rewrite E1.
  rewrite (prefix_faults up got pattern fuel fuel m 1 0); [reflexivity|lia|lia|lia|lia|lia| |exact V3|].
  - intros i Hi. assert (i = 0) by lia. subst i. exists 0. split; [|lia]. apply V5; unfold K_TABLE; lia.
  - intros x Hx. apply D in Hx. unfold K_TABLE. unfold w32 in Hx. lia.
Qed.
Example C131_large_example : let pattern := repeat 97 (Z.to_nat (2 ^ 30)) in
  2 ^ 30 <= zlen pattern < 2 ^ 32 /\ 4096 + kmp_size (zlen pattern) <= 2 ^ 64 /\ kmp_size (zlen pattern) = 48 + 2 ^ 30 /\
  forall alloc algo, ts_create toupper (Z.to_nat (2 ^ 30)) alloc algo 4096 pattern 0 = Fault.
Proof.
  cbv zeta. assert (E : zlen (repeat 97 (Z.to_nat (2 ^ 30))) = 2 ^ 30) by (unfold zlen; rewrite repeat_length; rewrite Z2Nat.id; [reflexivity|lia]). 
  split; [rewrite E; lia|]. split; [rewrite E; discriminate|]. split; [rewrite E; reflexivity|]. intros alloc algo. apply C131_large_refuted; [rewrite E; lia|rewrite E, Z2Nat.id; lia|lia|rewrite E; discriminate|split; [lia|reflexivity]].
Qed.
(** The empty pattern, too: the context has no room for a character, and the first search reads one. *)
Theorem C131_empty_refuted : exists got data, (do r <- ts_create toupper 5 7 8 got [] 0; match r with None => Stuck | Some m => do x <- ts_linear toupper 5 5 m got 9 data; Ok (snd x) end) = Fault.
Proof. exists 4096, [97]. vm_compute. reflexivity. Qed.
Example C131_example : patterns_ok toupper true [97; 66] /\
  (do r <- ts_create toupper 5 7 8 4096 [97; 66] 1; match r with None => Stuck | Some m => do x <- linears toupper 10 5 m 4096 9 [[65; 97; 98; 65; 66]; [66; 66]]; do d <- ts_destroy (fst x) 4096; Ok (snd x, d) end) = Ok ([(3, 1); (0, UINT_MAX)], (7, 4096)).
Proof. split; [|vm_compute; reflexivity]. intros p [<-|[<-|[]]]; vm_compute; reflexivity. Qed.
Print Assumptions C131_lifecycle.
Print Assumptions C131_large_refuted.
Print Assumptions C131_empty_refuted.
