(** * C136: Boyer-Moore finds the first occurrence, byte 255 included *)
From Verif Require Import Lib TextModel TextSpec TextProps KmpMemModel KmpMemProofs KmpMemProps SundayMemSpec SundayMemProofs BmProofs BmMemModel BmMemProofs BmMemProps BmFirstProofs.
Local Ltac Zify.zify_post_hook ::= Z.div_mod_to_equations.

(** The last byte of the pattern (after folding) stands nowhere else in it: the search reports the first occurrence, or UINT_MAX if there is
    none, for all bytes in pattern and text.  Missing: other patterns, for which it is false (C39_bm_misses_refuted, C136_misses_refuted). *)
Theorem C136_first_partial : forall up low alloc algo got pattern flags f text front last,
  0 < got -> 0 < zlen pattern < 2 ^ 30 -> got + (1064 + 5 * zlen pattern) <= 2 ^ 64 -> u64 flags -> u64 alloc -> u64 algo -> u64 f ->
  (forall c, 0 <= c < 256 -> 0 <= low c < 256) -> Forall (fun c => 0 <= c < 256) text -> Forall (fun c => 0 <= c < 256) pattern -> zlen text + zlen pattern < 2 ^ 32 - 1 ->
  let icase := Z.testbit flags 0 in (icase = true -> forall b, 0 <= b < 256 -> 0 <= up b < 256 /\ (b = up b \/ b = low (up b))) ->
  map (ch up icase) pattern = front ++ [last] -> ~ In last front ->
  exists m m' r, bm_create up low (length pattern) alloc algo got pattern flags = Ok (Some m) /\ bm_linear up (S (length text)) (length pattern) m got f text (zlen text) = Ok (m', r) /\
    let T := map (ch up icase) text in let P := map (ch up icase) pattern in
    ((exists j, r = Z.of_nat j /\ leftmost T P 0 j) \/ (r = UINT_MAX /\ absent T P 0)).
Proof.
  intros up low alloc algo got pattern flags f text front last Hg Hl Hm Hfl Ha Hal Hf Hlow HT HPB H32 icase HC EL NL. set (len := zlen pattern) in *. assert (Eg : bm_gsize len = 4 * len) by (unfold bm_gsize; apply w32_id; lia).
  assert (ES : stored up icase pattern = map (ch up icase) pattern).
  { unfold stored, ch. apply map_ext_in. intros a Hin. rewrite Forall_forall in HPB. specialize (HPB a Hin). destruct icase; [destruct (HC eq_refl a HPB) as [Hu _]|]; apply Z.mod_small; assumption. }
  destruct (before_tables up low got pattern flags Hg) as (m0 & I0 & P0 & EP); [fold len; lia|fold len; rewrite Eg; lia|exact Hfl|]. fold len in I0, P0. rewrite Eg in I0, P0. fold icase in P0. rewrite ES in P0. set (pat := map (ch up icase) pattern) in *. set (where_ := got + 1064 + 4 * len) in *. replace (1064 + 4 * len + len) with (1064 + 5 * len) in I0 by lia.
  assert (Lp : zlen pat = len) by (unfold pat, len, zlen; rewrite map_length; reflexivity).
  assert (BP : Forall (fun c => 0 <= c < 256) pat) by (rewrite <- ES; unfold stored; apply Forall_forall; intros x Hx; apply in_map_iff in Hx; destruct Hx as (y & <- & _); lia).
  rewrite <- Lp in I0. destruct (prefix_full got (1064 + 5 * zlen pat) where_ flags pat low ltac:(lia) ltac:(lia) ltac:(unfold where_; lia) Hlow BP m0 (length pattern) I0 P0 ltac:(rewrite Lp; unfold len, zlen; lia)) as (m1 & E1 & I1 & R1 & G1 & B1 & Z1). unfold reg in R1. rewrite Lp in *.
  assert (P1 : bytes_at m1 where_ pat) by (intros i b Hb; pose proof (rd_pos _ _ _ Hb); destruct R1 as [R1 _]; rewrite R1 by (unfold where_; lia); apply P0, Hb).
  destruct I1 as (D1 & F1 & L1 & Q1 & Y1). unfold bm_create. rewrite EP, E1. cbn [bind].
  destruct (store 8 m1 (got + K_ALGO) algo) as (m2 & E2 & C2 & V2); [intros x Hx; apply D1; unfold K_ALGO in *; lia|exact Hal|]. rewrite E2. cbn [bind].
  destruct (store 8 m2 (got + K_ALLOC) alloc) as (m3 & E3 & C3 & V3); [apply (inb_changed _ _ _ _ _ _ C2); intros x Hx; apply D1; unfold K_ALLOC in *; lia|exact Ha|]. rewrite E3. cbn [bind].
  destruct (store 8 m3 (got + K_NEXT) f) as (m4 & E4 & C4 & V4); [apply (inb_changed _ _ _ _ _ _ C3), (inb_changed _ _ _ _ _ _ C2); intros x Hx; apply D1; unfold K_NEXT in *; lia|exact Hf|].
  assert (K3 : forall a n, got + 16 <= a -> ldn n m3 a = ldn n m1 a) by (intros a n H; rewrite (keep_ldn _ _ _ _ _ _ C3), (keep_ldn _ _ _ _ _ _ C2) by (unfold K_ALGO, K_ALLOC; lia); reflexivity).
  assert (K4 : forall a n, got + 32 <= a -> ldn n m4 a = ldn n m1 a) by (intros a n H; rewrite (keep_ldn _ _ _ _ _ _ C4) by (unfold K_NEXT; lia); apply K3; lia).
  assert (A3 : ldn 8 m3 (got + K_ALGO) = Ok algo) by (rewrite (keep_ldn _ _ _ _ _ _ C3) by (unfold K_ALGO, K_ALLOC; lia); exact V2).
  assert (F4 : ldn 8 m4 (got + K_FLAGS) = Ok flags) by (rewrite (keep_ldn _ _ _ _ _ _ C4), K3 by (unfold K_FLAGS, K_NEXT; lia); exact F1).
  assert (P4 : bytes_at m4 where_ pat) by (intros i b Hb; pose proof (rd_pos _ _ _ Hb); destruct C2 as [C2 _], C3 as [C3 _], C4 as [C4 _]; rewrite C4, C3, C2 by (unfold where_, K_NEXT, K_ALGO, K_ALLOC; lia); apply P1, Hb).
  destruct (words_exist m4 (got + B_BAD) (fun _ => True) 256) as (bad & Lb & Wb & _).
  { intros i Hi. rewrite K4 by (unfold B_BAD; lia). destruct (B1 i ltac:(lia)) as (d & Ed & _). exists d. split; [exact Ed|exact I]. }
  destruct (words_exist m4 (got + B_GOOD) (fun v => 1 <= v <= zlen pat) (length pattern)) as (good & Lgd & Wg & Gg).
  { intros i Hi. rewrite K4 by (unfold B_GOOD; lia). rewrite Lp. apply G1. exact Hi. }
  assert (ZB : zlen bad = 256) by (unfold zlen; rewrite Lb; reflexivity). assert (ZG : zlen good = zlen pat) by (rewrite Lp; unfold zlen at 1; rewrite Lgd; reflexivity).
  destruct (bfind_m up got where_ m4 pat bad good icase P4) with (flags := flags) (text := text) (datalen := zlen text) (fuel := S (length text)) (cf := length pattern) as (r & Er & Em).
  { rewrite K4 by (unfold B_PATTERN; lia). exact Q1. }
  { rewrite K4 by (unfold B_LEN; lia). rewrite Lp. exact L1. }
  { exact Wb. } { exact Wg. } { exact ZB. } { exact ZG. } { exact Gg. } { lia. } { exact F4. } { reflexivity. } { lia. } { unfold zlen; lia. } { exact HT. } { unfold pat. rewrite map_length. lia. } { unfold zlen. rewrite Nat2Z.id. reflexivity. }
  exists m3, m4, r. split; [reflexivity|]. split; [unfold bm_linear; rewrite A3; cbn [bind]; rewrite E4; cbn [bind]; rewrite Em; reflexivity|]. cbv zeta.
  assert (NE : pat <> []) by (intros X; rewrite X in Lp; unfold zlen in Lp; cbn in Lp; lia). assert (Lpn : Z.of_nat (length pat) = len) by exact Lp.
  destruct (find_first up icase pat text bad good (zlen text)) as [(j & Ej & Hj)|(Ej & Hj)].
  { unfold zlen; lia. } { exact HT. } { lia. } { exact NE. } { exact ZB. }
  { intros t d Rd. pose proof (rd_pos _ _ _ Rd) as Ht. rewrite ZB in Ht. pose proof (Wb _ _ Rd) as Ed. rewrite K4 in Ed by (unfold B_BAD; lia). destruct (B1 t Ht) as (d' & Ed' & Bd & Hd). rewrite Ed in Ed'. injection Ed' as <-. rewrite Lp in *. split; [lia|]. intros k q Hk N Eq.
    assert (Lk : (k < length pat)%nat) by (rewrite <- (rev_length pat); apply nth_error_Some; congruence).
    assert (NQ : rd pat (len - 1 - Z.of_nat k) = Some q).
    { unfold rd. rewrite (proj2 (Z.ltb_ge _ _)) by lia. replace (Z.to_nat (len - 1 - Z.of_nat k)) with (length pat - S k)%nat by lia. assert (RL := rev_length pat). rewrite (nth_error_nth' (rev pat) 0) in N by lia. rewrite (nth_error_nth' pat 0) by lia. rewrite rev_nth in N by lia. exact N. }
    specialize (Hd (len - 1 - Z.of_nat k) q ltac:(lia) NQ). assert (HH : hits flags low q t).
    { unfold hits. fold icase. rewrite Eq. unfold ch. destruct icase; [|left; reflexivity]. destruct (HC eq_refl t Ht) as (_ & [H|H]); [left; exact H|right; split; [reflexivity|exact H]]. }
    specialize (Hd HH). lia. }
  { split; [exact ZG|]. split.
    - destruct (rd_some _ good 0) as (v & Rv); [lia|]. pose proof (Wg _ _ Rv) as Ev. rewrite K4 in Ev by (unfold B_GOOD; lia). rewrite Z.add_0_r, Z1 in Ev. injection Ev as <-. exact Rv.
    - intros i d Rd. rewrite Forall_forall in Gg. apply Gg, (rd_in _ _ _ _ Rd). }
  { assert (RV : rev pat = last :: rev front) by (rewrite EL, rev_app_distr; reflexivity). rewrite RV. intros k q q' Hk N N'. injection N' as <-. destruct k as [|k]; [lia|]. cbn [nth_error] in N. apply nth_error_In, in_rev in N. intros ->. exact (NL N). }
  { reflexivity. } { lia. }
  - left. exists j. split; [rewrite Er in Ej; injection Ej as ->; reflexivity|exact Hj].
  - right. split; [rewrite Er in Ej; injection Ej as ->; reflexivity|exact Hj].
Qed.
(** "aa" in "baa" *)
Theorem C136_misses_refuted : exists pattern text j, occurs text pattern j /\ bm_ex pattern text = Ok UINT_MAX.
Proof. exists [97; 97], [98; 97; 97], 1%nat. split; vm_compute; reflexivity. Qed.
Example C136_first_hyps : exists m m' r, bm_create toupper tolower 3 7 8 4096 [97; 255; 98] 1 = Ok (Some m) /\ bm_linear toupper 6 3 m 4096 9 [255; 65; 97; 255; 66] 5 = Ok (m', r) /\
  leftmost [255; 65; 65; 255; 66] [65; 255; 66] 0 2.
Proof.
  destruct (C136_first_partial toupper tolower 7 8 4096 [97; 255; 98] 1 9 [255; 65; 97; 255; 66] [65; 255] 66) as (m & m' & r & E & E2 & _);
    [lia|split; reflexivity|discriminate|unfold u64; lia|unfold u64; lia|unfold u64; lia|unfold u64; lia|exact tolower_byte|repeat constructor; lia|repeat constructor; lia|reflexivity| |reflexivity|intros [|[|[]]]; discriminate|].
  - intros _ b Hb. unfold toupper, tolower. destruct ((97 <=? b) && (b <=? 122)) eqn:Eb; [|split; [exact Hb|left; reflexivity]]. apply andb_true_iff in Eb. destruct Eb as [B1 B2]. apply Z.leb_le in B1, B2. split; [lia|]. right. rewrite (proj2 (Z.leb_le 65 (b - 32))), (proj2 (Z.leb_le (b - 32) 90)) by lia. cbn [andb]. lia.
  - exists m, m', r. split; [exact E|]. split; [exact E2|]. split; [lia|]. split; [reflexivity|]. intros i Hi. destruct i as [|[|i]]; [discriminate|discriminate|lia].
Qed.
Print Assumptions C136_first_partial.
Print Assumptions C136_misses_refuted.
