(** * C134: a Sunday search context and its block *)
From Verif Require Import Lib TextModel TextSpec SundayProofs TextProps KmpMemModel KmpMemProofs KmpMemProps SundayMemModel SundayMemSpec SundayMemProofs.
Local Ltac Zify.zify_post_hook ::= Z.div_mod_to_equations.

Lemma stored_len up icase pattern : zlen (stored up icase pattern) = zlen pattern.
Proof. unfold stored, zlen. rewrite map_length. reflexivity. Qed.
Section Prepare.
Variables up low : Z -> Z.
Variable got : Z.
Variable pattern : list Z.
Variable flags : Z.
Let len := zlen pattern.
Let pat := stored up (Z.testbit flags 0) pattern.
(** the state before the second loop *)
Lemma before_second : 0 < len < 2 ^ 32 -> u64 flags -> exists m, is_block m got (1056 + len) /\ bytes m /\ bytes_at m (got + S_PATTERN) pat /\ words_at m (got + S_TABLE) (repeat (w32 (len + 1)) 255) /\
  ldn 4 m (got + S_LEN) = Ok len /\ ldn 8 m (got + K_FLAGS) = Ok flags /\
  forall fuel, sunday_prepare_m up low fuel got pattern flags = if got =? 0 then Ok None else do m <- sunday_prefix_m low fuel m got 0; Ok (Some m).
Proof.
  intros Hl Hf. unfold sunday_prepare_m. fold len. assert (Es : sunday_size len = 1056 + len) by (unfold sunday_size, S_SIZE, w64; apply Z.mod_small; lia). rewrite Es. set (m0 := zeroed got (1056 + len)).
  assert (D0 : is_block m0 got (1056 + len)) by (intros x; apply zeroed_dom).
  assert (IB : forall m a n, is_block m got (1056 + len) -> got <= a -> a + Z.of_nat n <= got + (1056 + len) -> inb m a n) by (intros m a n D A B x Hx; apply D; lia).
  assert (DC : forall m m' a n, changed m m' a n -> is_block m got (1056 + len) -> is_block m' got (1056 + len)) by (intros m m' a n [_ C] D x; rewrite <- (D x), (C x); tauto).
  destruct (store 8 m0 (got + K_FLAGS) flags) as (m1 & E1 & C1 & V1); [apply IB; [exact D0|unfold K_FLAGS; lia|unfold K_FLAGS; lia]|change (256 ^ Z.of_nat 8) with (2 ^ 64); exact Hf|]. rewrite E1. cbn [bind]. pose proof (DC _ _ _ _ C1 D0) as D1. pose proof (stn_bytes _ _ _ _ _ (zeroed_bytes got (1056 + len)) E1) as B1.
  rewrite (w32_id len) by lia. destruct (store 4 m1 (got + S_LEN) len) as (m2 & E2 & C2 & V2); [apply IB; [exact D1|unfold S_LEN; lia|unfold S_LEN; lia]|change (256 ^ Z.of_nat 4) with (2 ^ 32); lia|]. rewrite E2. cbn [bind]. pose proof (DC _ _ _ _ C2 D1) as D2. pose proof (stn_bytes _ _ _ _ _ B1 E2) as B2.
  destruct (copy_stored up (Z.testbit flags 0) pattern m2 (got + S_PATTERN)) as (m3 & E3 & C3 & V3); [apply IB; [exact D2|unfold S_PATTERN; lia|unfold S_PATTERN, len, zlen; lia]|]. rewrite E3. cbn [bind]. pose proof (DC _ _ _ _ C3 D2) as D3. pose proof (copy_bytes _ _ _ _ _ _ B2 E3) as B3.
  assert (L3 : ldn 4 m3 (got + S_LEN) = Ok len) by (rewrite (keep_ldn _ _ _ _ _ _ C3) by (unfold S_LEN, S_PATTERN; lia); exact V2).
  assert (F3 : ldn 8 m3 (got + K_FLAGS) = Ok flags) by (rewrite (keep_ldn _ _ _ _ _ _ C3) by (unfold K_FLAGS, S_PATTERN; lia); rewrite (keep_ldn _ _ _ _ _ _ C2) by (unfold K_FLAGS, S_LEN; lia); exact V1).
  destruct (fill_ok up got len 255 m3 0) as (m4 & E4 & C4 & B4 & V4); [lia|apply IB; [exact D3|unfold S_TABLE; lia|unfold S_TABLE; lia]|exact L3|exact B3|]. rewrite E4. cbn [bind].
  exists m4. split; [apply (DC _ _ _ _ C4 D3)|]. split; [exact B4|]. split; [intros i b Hb; pose proof (rd_pos _ _ _ Hb); destruct C4 as [C4 _]; rewrite C4 by (unfold S_TABLE, S_PATTERN; lia); apply V3, Hb|]. split.
  { intros i v Hv. pose proof (rd_pos _ _ _ Hv) as Hi. unfold zlen in Hi. rewrite repeat_length in Hi. apply rd_in, repeat_spec in Hv. subst v. apply V4. lia. }
  split; [rewrite (keep_ldn _ _ _ _ _ _ C4) by (unfold S_LEN, S_TABLE; lia); exact L3|]. split; [rewrite (keep_ldn _ _ _ _ _ _ C4) by (unfold K_FLAGS, S_TABLE; lia); exact F3|]. reflexivity.
Qed.
End Prepare.
(** the fields of the search context proper, 32 bytes, are written when the context is created *)
Lemma create_rest up low alloc algo got pattern flags fuel m : sunday_prepare_m up low fuel got pattern flags = Ok (Some m) -> is_block m got (1056 + zlen pattern) -> u64 alloc -> u64 algo ->
  exists m', sunday_create up low fuel alloc algo got pattern flags = Ok (Some m') /\ changed m m' got 16 /\ ldn 8 m' (got + K_ALGO) = Ok algo /\ sunday_destroy m' got = Ok (alloc, got).
Proof.
  intros E D Ha Hg. unfold sunday_create. rewrite E. cbn [bind]. assert (P0 : 0 <= zlen pattern) by (unfold zlen; lia).
  destruct (store 8 m (got + K_ALGO) algo) as (m1 & E1 & C1 & V1); [intros x Hx; apply D; unfold K_ALGO in *; lia|exact Hg|]. rewrite E1. cbn [bind].
  destruct (store 8 m1 (got + K_ALLOC) alloc) as (m2 & E2 & C2 & V2); [apply (inb_changed _ _ _ _ _ _ C1); intros x Hx; apply D; unfold K_ALLOC in *; lia|exact Ha|]. rewrite E2. cbn [bind].
  assert (A : ldn 8 m2 (got + K_ALGO) = Ok algo) by (rewrite (keep_ldn _ _ _ _ _ _ C2) by (unfold K_ALGO, K_ALLOC; lia); exact V1).
  exists m2. split; [reflexivity|]. split; [apply (changed_trans _ m1); [apply (changed_sub _ _ _ _ _ _ C1)|apply (changed_sub _ _ _ _ _ _ C2)]; unfold K_ALGO, K_ALLOC; lia|]. split; [exact A|]. unfold sunday_destroy. rewrite A. cbn [bind]. rewrite V2. reflexivity.
Qed.
(** A pattern without byte 255, a text without it and with a readable byte behind it: from creation to release, every access
    is inside the block (or the text), the search reports the first occurrence, and the block goes back to its allocator.
    Missing: byte 255, in the pattern or the text, and texts that fill their memory (below and C39). *)
Theorem C134_lifecycle_partial : forall up low alloc algo got pattern flags f mem datalen,
  0 < got -> pattern <> [] -> u64 flags -> u64 alloc -> u64 algo -> u64 f -> 0 <= datalen < zlen mem -> zlen mem + zlen pattern < 2 ^ 32 - 1 ->
  Forall good_byte mem -> Forall good_byte pattern -> let icase := Z.testbit flags 0 in
  (icase = true -> forall b, good_byte b -> good_byte (up b) /\ good_byte (low (up b)) /\ (b = up b \/ b = low (up b))) ->
  exists m m' r, sunday_create up low (length pattern) alloc algo got pattern flags = Ok (Some m) /\
    is_block m got (1056 + zlen pattern) /\ sunday_get m got = Ok (got + 1056) /\ sunday_get_len m got = Ok (zlen pattern) /\ bytes_at m (got + 1056) (stored up icase pattern) /\
    sunday_linear up (S (Z.to_nat datalen)) (length pattern) m got f mem datalen = Ok (m', r) /\ changed m m' (got + K_NEXT) 8 /\ sunday_destroy m' got = Ok (alloc, got) /\
    let T := map (ch up icase) (firstn (Z.to_nat datalen) mem) in let P := map (ch up icase) pattern in
    ((exists j, r = Z.of_nat j /\ leftmost T P 0 j) \/ (r = UINT_MAX /\ absent T P 0)).
Proof.
  intros up low alloc algo got pattern flags f mem datalen Hg Hne Hfl Ha Hal Hf Hd H32 Gm Gp icase Hcase. pose proof (C39_sunday_partial up low icase pattern mem datalen 0 Hne ltac:(lia) ltac:(lia) H32 Gm Gp Hcase) as (s & Es & R). cbn zeta in R.
  assert (Hl : 0 < zlen pattern < 2 ^ 32) by (destruct pattern; [contradiction|unfold zlen in *; cbn [length] in *; lia]). destruct (before_second up low got pattern flags Hl Hfl) as (m0 & D0 & B0 & P0 & W0 & L0 & F0 & EP). fold icase in P0.
  unfold sunday_prepare in Es. assert (Ep : (if icase then map (fun c => w8 (up c)) pattern else pattern) = stored up icase pattern).
  { unfold stored, w8. destruct icase; [reflexivity|]. rewrite <- (map_id pattern) at 1. apply map_ext_in. intros c Hc. rewrite Forall_forall in Gp. specialize (Gp c Hc). unfold good_byte in Gp. rewrite Z.mod_small; lia. }
  rewrite Ep in Es. destruct (sunday_prefix low icase (zlen pattern) (stored up icase pattern) 0 (repeat (w32 (zlen pattern + 1)) 255)) as [tab|] eqn:Et; [|discriminate Es]. injection Es as <-. set (pat := stored up icase pattern) in *.
  assert (Lp : zlen pat = zlen pattern) by apply stored_len. assert (Lp' : length pat = length pattern) by (unfold pat, stored; apply map_length).
  destruct (prefix_short low got flags pat ltac:(lia) pat [] (length pattern) m0 (repeat (w32 (zlen pattern + 1)) 255) tab) as (m1 & E1 & C1 & W1); [reflexivity|lia|reflexivity|intros x Hx; apply D0; unfold S_TABLE in Hx; lia|exact P0|exact W0|rewrite Lp; exact L0|exact F0|rewrite Lp; exact Et|].
  assert (D1 : is_block m1 got (1056 + zlen pattern)) by (intros x; rewrite <- (D0 x); destruct C1 as [_ C1]; rewrite (C1 x); tauto).
  assert (Eprep : sunday_prepare_m up low (length pattern) got pattern flags = Ok (Some m1)) by (rewrite EP; rewrite (proj2 (Z.eqb_neq got 0)) by lia; change (zlen (@nil Z)) with 0 in E1; rewrite E1; reflexivity).
  destruct (create_rest up low alloc algo got pattern flags _ m1 Eprep D1 Ha Hal) as (m2 & E2 & C2 & A2 & Z2).
  assert (D2 : is_block m2 got (1056 + zlen pattern)) by (intros x; rewrite <- (D1 x); destruct C2 as [_ C2]; rewrite (C2 x); tauto).
  assert (P2 : bytes_at m2 (got + S_PATTERN) pat).
  { intros i b Hb. pose proof (rd_pos _ _ _ Hb). destruct C2 as [C2 _], C1 as [C1 _]. rewrite C2 by (unfold S_PATTERN; lia). rewrite C1 by (unfold S_PATTERN, S_TABLE; lia). apply P0, Hb. }
  assert (L2 : ldn 4 m2 (got + S_LEN) = Ok (zlen pattern)) by (rewrite (keep_ldn _ _ _ _ _ _ C2) by (unfold S_LEN; lia); rewrite (keep_ldn _ _ _ _ _ _ C1) by (unfold S_LEN, S_TABLE; lia); exact L0).
  assert (F2 : ldn 8 m2 (got + K_FLAGS) = Ok flags) by (rewrite (keep_ldn _ _ _ _ _ _ C2) by (unfold K_FLAGS; lia); rewrite (keep_ldn _ _ _ _ _ _ C1) by (unfold K_FLAGS, S_TABLE; lia); exact F0).
  assert (W2 : words_at m2 (got + S_TABLE) tab) by (intros i v Hv; pose proof (rd_pos _ _ _ Hv); rewrite (keep_ldn _ _ _ _ _ _ C2) by (unfold S_TABLE; lia); apply W1, Hv).
  destruct (store 8 m2 (got + K_NEXT) f) as (m3 & E3 & C3 & V3); [intros x Hx; apply D2; unfold K_NEXT in *; lia|exact Hf|].
  assert (P3 : bytes_at m3 (got + S_PATTERN) pat) by (intros i b Hb; pose proof (rd_pos _ _ _ Hb); destruct C3 as [C3 _]; rewrite C3 by (unfold S_PATTERN, K_NEXT; lia); apply P2, Hb).
  assert (L3 : ldn 4 m3 (got + S_LEN) = Ok (zlen pat)) by (rewrite (keep_ldn _ _ _ _ _ _ C3) by (unfold S_LEN, K_NEXT; lia); rewrite Lp; exact L2).
  assert (F3 : ldn 8 m3 (got + K_FLAGS) = Ok flags) by (rewrite (keep_ldn _ _ _ _ _ _ C3) by (unfold K_FLAGS, K_NEXT; lia); exact F2).
  assert (W3 : words_at m3 (got + S_TABLE) tab) by (intros i v Hv; pose proof (rd_pos _ _ _ Hv); rewrite (keep_ldn _ _ _ _ _ _ C3) by (unfold S_TABLE, K_NEXT; lia); apply W2, Hv).
  assert (BT : Forall (fun v => 0 <= v <= zlen pat + 1) tab).
  { rewrite <- Lp in Et. apply (prefix_bound low icase (zlen pat) pat 0 (repeat (w32 (zlen pat + 1)) 255) tab); [lia|lia|lia| |exact Et]. rewrite Forall_forall. intros v Hv. apply repeat_spec in Hv. subst v. unfold zlen in *. rewrite w32_id by lia. lia. }
  assert (GO : forall r, sunday_find up icase {| spat := pat; stab := tab |} mem datalen 0 = Some r -> sunday_linear up (S (Z.to_nat datalen)) (length pattern) m2 got f mem datalen = Ok (m3, r)).
  { intros r Er. unfold sunday_linear. rewrite A2. cbn [bind]. rewrite E3. cbn [bind]. assert (H1 : zlen pat + datalen + 1 < 2 ^ 32) by lia. assert (H2 : (length pat <= length pattern)%nat) by lia.
    rewrite (find_m up got m3 pat tab icase P3 L3 W3 flags mem datalen (S (Z.to_nat datalen)) (length pattern) r F3 eq_refl H1 (proj1 Hd) BT H2 eq_refl Er). reflexivity. }
  assert (Z3 : sunday_destroy m3 got = Ok (alloc, got)).
  { revert Z2. unfold sunday_destroy. rewrite (keep_ldn _ _ _ _ (got + K_ALGO) 8 C3) by (unfold K_ALGO, K_NEXT; lia). rewrite (keep_ldn _ _ _ _ (got + K_ALLOC) 8 C3) by (unfold K_ALLOC, K_NEXT; lia). trivial. }
  assert (COMMON : forall r, sunday_find up icase {| spat := pat; stab := tab |} mem datalen 0 = Some r -> ((exists j, r = Z.of_nat j /\ leftmost (map (ch up icase) (firstn (Z.to_nat datalen) mem)) (map (ch up icase) pattern) 0 j) \/ (r = UINT_MAX /\ absent (map (ch up icase) (firstn (Z.to_nat datalen) mem)) (map (ch up icase) pattern) 0)) ->
    exists m m' r, sunday_create up low (length pattern) alloc algo got pattern flags = Ok (Some m) /\ is_block m got (1056 + zlen pattern) /\ sunday_get m got = Ok (got + 1056) /\ sunday_get_len m got = Ok (zlen pattern) /\ bytes_at m (got + 1056) pat /\
    sunday_linear up (S (Z.to_nat datalen)) (length pattern) m got f mem datalen = Ok (m', r) /\ changed m m' (got + K_NEXT) 8 /\ sunday_destroy m' got = Ok (alloc, got) /\
    ((exists j, r = Z.of_nat j /\ leftmost (map (ch up icase) (firstn (Z.to_nat datalen) mem)) (map (ch up icase) pattern) 0 j) \/ (r = UINT_MAX /\ absent (map (ch up icase) (firstn (Z.to_nat datalen) mem)) (map (ch up icase) pattern) 0))).
  { intros r Er H. exists m2, m3, r. split; [exact E2|]. split; [exact D2|]. split; [unfold sunday_get; rewrite A2; reflexivity|]. split; [unfold sunday_get_len; rewrite A2; exact L2|]. split; [exact P2|]. split; [apply GO, Er|]. split; [exact C3|]. split; [exact Z3|exact H]. }
  destruct R as [(j & Ej & Hj)|(Ej & Hj)]; apply (COMMON _ Ej); [left; exists j; split; [reflexivity|exact Hj]|right; split; [reflexivity|exact Hj]].
Qed.
(** A pattern of at least four bytes, whatever they are: preparation stays inside the block, and keeps all of the pattern but
    its first four bytes. *)
Theorem C134_long : forall up low got pattern flags, 0 < got -> 4 <= zlen pattern < 2 ^ 32 -> u64 flags -> (forall c, 0 <= c < 256 -> 0 <= low c < 256) ->
  exists m, sunday_prepare_m up low (length pattern) got pattern flags = Ok (Some m) /\ is_block m got (1056 + zlen pattern) /\ ldn 4 m (got + S_LEN) = Ok (zlen pattern) /\
    forall i b, 4 <= i -> rd (stored up (Z.testbit flags 0) pattern) i = Some b -> m (got + 1056 + i) = Some b.
Proof.
  intros up low got pattern flags Hg Hl Hf Hlow. destruct (before_second up low got pattern flags ltac:(lia) Hf) as (m0 & D0 & B0 & P0 & W0 & L0 & F0 & EP).
  destruct (prefix_long low got flags (zlen pattern) Hl Hlow (length pattern) m0 0) as (m1 & E1 & C1); [lia|unfold zlen; lia|intros x Hx; apply D0; unfold S_TABLE in Hx; lia|intros x Hx; apply D0; unfold S_PATTERN in Hx; lia|exact L0|exact F0|exact B0|].
  exists m1. split; [rewrite EP, (proj2 (Z.eqb_neq got 0)) by lia; rewrite E1; reflexivity|]. destruct C1 as [C1 C1']. split; [intros x; rewrite <- (D0 x), (C1' x); tauto|]. split; [rewrite (ldn_ext 4 m0 m1); [exact L0|intros x Hx; apply C1; unfold S_LEN, S_TABLE in *; lia]|].
  intros i b Hi Hb. pose proof (rd_pos _ _ _ Hb). rewrite C1 by (unfold S_TABLE; lia). apply (P0 i b Hb).
Qed.
(** Without memory nothing is touched and NULL is the answer. *)
Theorem C134_null : forall up low fuel alloc algo pattern flags, sunday_create up low fuel alloc algo 0 pattern flags = Ok None.
Proof. reflexivity. Qed.
(** Every shorter pattern with a byte 255 is a write behind the block. *)
Theorem C134_short_refuted : forall up low got pattern flags, 0 < got -> zlen pattern < 4 -> Forall (fun c => 0 <= c < 256) pattern -> In 255 pattern -> u64 flags -> Z.testbit flags 0 = false ->
  sunday_prepare_m up low (length pattern) got pattern flags = Fault.
Proof.
  intros up low got pattern flags Hg Hl HB HI Hf Hi. assert (H0 : 0 < zlen pattern) by (destruct pattern; [destruct HI|unfold zlen; cbn [length]; lia]). destruct (before_second up low got pattern flags ltac:(lia) Hf) as (m0 & D0 & B0 & P0 & W0 & L0 & F0 & EP). rewrite EP, (proj2 (Z.eqb_neq got 0)) by lia. rewrite Hi in P0.
  assert (Ep : stored up false pattern = pattern) by (unfold stored; rewrite <- (map_id pattern) at 2; apply map_ext_in; intros c Hc; rewrite Forall_forall in HB; apply Z.mod_small, HB, Hc). rewrite Ep in P0.
  assert (E : sunday_prefix_m low (length pattern) m0 got (zlen (@nil Z)) = Fault).
  { apply (prefix_overrun low got flags pattern Hl Hi HB pattern [] (length pattern) m0); [reflexivity|lia|exact HI|intros x Hx; apply D0; unfold S_TABLE in Hx; lia| |exact P0|exact L0|exact F0]. destruct (m0 (got + S_PATTERN + zlen pattern)) eqn:E; [|reflexivity]. exfalso. assert (N : m0 (got + S_PATTERN + zlen pattern) <> None) by congruence. apply D0 in N. unfold S_PATTERN in N. lia. }
  change (zlen (@nil Z)) with 0 in E. rewrite E. reflexivity.
Qed.
(** a pattern of five bytes, and whether it is found *)
Definition ex_find (fuel : nat) (pattern text : list Z) (datalen : Z) : res Z :=
  do r <- sunday_prepare_m toupper tolower 10 4096 pattern 0; match r with None => Stuck | Some m => sunday_find_m toupper fuel 10 m 4096 text datalen end.
(** Byte 255 in a longer pattern overwrites the beginning of the pattern, which is then not found in itself. *)
Theorem C134_overwritten_refuted : exists pattern text, occurs text pattern 0 /\ ex_find 20 pattern text (zlen text) = Ok UINT_MAX.
Proof. exists [97; 98; 99; 255; 100], [97; 98; 99; 255; 100]. split; vm_compute; reflexivity. Qed.
(** Byte 255 in the text reads a shift from the pattern: an occurrence is missed, *)
Theorem C134_text_refuted : exists pattern text j, ~ In 255 pattern /\ occurs text pattern j /\ ex_find 20 pattern (text ++ [0]) (zlen text) = Ok UINT_MAX.
Proof. exists [97; 97; 97; 97], [98; 98; 98; 98; 255; 97; 97; 97; 97], 5%nat. split; [cbn; lia|]. split; vm_compute; reflexivity. Qed.
(** or the search never ends. *)
Definition hang_text : list Z := [1; 1; 1; 1; 255; 1; 1; 1; 1; 1].
Theorem C134_hang_refuted : exists pattern, ~ In 255 pattern /\ forall fuel, ex_find fuel pattern hang_text 9 = Stuck.
Proof.
  exists [0; 0; 0; 0]. split; [cbn; lia|]. intros fuel. unfold ex_find.
  assert (V : match sunday_prepare_m toupper tolower 10 4096 [0; 0; 0; 0] 0 with Ok (Some m) => ldn 8 m (4096 + K_FLAGS) = Ok 0 /\ sunday_cmp_m toupper 10 m 4096 false hang_text 0 0 = Ok 0 /\ ldn 4 m (4096 + S_LEN) = Ok 4 /\ stab_rd m 4096 255 = Ok 0 | _ => False end) by (vm_compute; repeat split; reflexivity).
  destruct (sunday_prepare_m toupper tolower 10 4096 [0; 0; 0; 0] 0) as [[m1|]| |]; [|destruct V|destruct V|destruct V]. cbn [bind]. destruct V as (V1 & V2 & V3 & V4). unfold sunday_find_m. rewrite V1. cbn [bind]. change (9 =? 0) with false. cbv iota. change (Z.testbit 0 0) with false.
  assert (L : forall fuel, sunday_scan_m toupper fuel 10 m1 4096 false hang_text 9 0 = Stuck).
  { induction fuel0 as [|n IH]; cbn [sunday_scan_m]; rewrite V3; cbn [bind]; change (w32 (4 + 0) <=? 9) with true; cbv iota; [reflexivity|]. rewrite V2. cbn [bind]. change (0 =? 4) with false. change (9 <=? 4) with false. cbv iota. change (rd hang_text (0 + 4)) with (Some 255). cbv iota. rewrite V4. cbn [bind]. change (w32 (0 + 0)) with 0. exact IH. }
  rewrite L. reflexivity.
Qed.
Example C134_ex : ex_find 20 [97; 98; 97] [98; 97; 97; 98; 97; 0] 5 = Ok 2.
Proof. vm_compute. reflexivity. Qed.
Example C134_hyps : exists m m' r, sunday_create toupper tolower 3 7 8 4096 [97; 98; 97] 1 = Ok (Some m) /\ sunday_linear toupper 6 3 m 4096 9 [98; 65; 97; 66; 65; 0] 5 = Ok (m', r) /\ sunday_destroy m' 4096 = Ok (7, 4096).
Proof.
  destruct (C134_lifecycle_partial toupper tolower 7 8 4096 [97; 98; 97] 1 9 [98; 65; 97; 66; 65; 0] 5) as (m & m' & r & E & _ & _ & _ & _ & E2 & _ & E3 & _);
    [lia|discriminate|unfold u64; lia|unfold u64; lia|unfold u64; lia|unfold u64; lia|split; [lia|reflexivity]|reflexivity| | | |].
  - repeat constructor; unfold good_byte; lia.
  - repeat constructor; unfold good_byte; lia.
  - intros _. apply C39_sunday_case.
  - exists m, m', r. split; [exact E|]. split; [exact E2|exact E3].
Qed.
Example C134_short_ex : sunday_prepare_m toupper tolower 2 4096 [97; 255] 0 = Fault.
Proof. apply (C134_short_refuted toupper tolower 4096 [97; 255] 0); [lia|reflexivity|repeat constructor; lia|cbn; tauto|unfold u64; lia|reflexivity]. Qed.
Print Assumptions C134_lifecycle_partial.
Print Assumptions C134_long.
Print Assumptions C134_short_refuted.
Print Assumptions C134_overwritten_refuted.
Print Assumptions C134_text_refuted.
Print Assumptions C134_hang_refuted.
Print Assumptions C134_null.
