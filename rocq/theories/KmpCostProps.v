(** * C128: searching a stream with KMP *)
From Verif Require Import Lib TextModel TextSpec KmpProofs TextProps KmpCostModel.
Ltac Zify.zify_post_hook ::= Z.div_mod_to_equations.

(** ** Specification: a stream hands out its blocks one after the other, whatever is asked for *)
Definition stream (bs : list (list Z)) (hist : list Z) (consumed : Z) : list Z := nth (length hist) bs [].
(** every request (newest first) names the number of bytes handed out before it *)
Fixpoint asked (bs : list (list Z)) (hist : list Z) : Prop :=
  match hist with [] => True | c :: h => c = zlen (concat (firstn (length h) bs)) /\ asked bs h end.
(** the bytes a source has handed out *)
Fixpoint given (next : list Z -> Z -> list Z) (hist : list Z) : Z :=
  match hist with [] => 0 | c :: h => zlen (next h c) + given next h end.

(** ** Comparisons *)
Definition falling (tab : list Z) : Prop := forall i v, rd tab i = Some v -> 0 <= v <= i.
Lemma rd_pos {A} (l : list A) i v : rd l i = Some v -> 0 <= i < zlen l.
Proof. intros H. unfold rd in H. destruct (Z.ltb_spec i 0); [discriminate|]. assert (nth_error l (Z.to_nat i) <> None) by congruence. apply nth_error_Some in H1. unfold zlen. lia. Qed.
Lemma back_cost pat tab c : falling tab -> forall fuel m n m' n', 0 <= m -> kmp_back_c fuel pat tab c m n = Some (m', n') ->
  0 <= m' <= m /\ n <= n' /\ n' + m' <= n + m + (if m' =? 0 then 0 else 1).
Proof.
  intros F. induction fuel as [|fuel IH]; intros m n m' n' Hm E; cbn [kmp_back_c] in E; (destruct (Z.eqb_spec m 0) as [E0|E0]; [injection E as <- <-; cbn [Z.eqb]; lia|]);
    (destruct (rd pat m) as [p|]; [|discriminate]); (destruct (p =? c); [injection E as <- <-; destruct (Z.eqb_spec m 0); lia|]); [discriminate|].
  destruct (rd tab (m - 1)) as [v|] eqn:Ev; [|discriminate]. pose proof (F _ _ Ev). destruct (IH v (n + 1) m' n' ltac:(lia) E) as (I1 & I2 & I3). destruct (m' =? 0); lia.
Qed.
Lemma step_cost pat tab c m n m' n' : falling tab -> 0 <= m -> kmp_step_c pat tab c m n = Some (m', n') -> 0 <= m' <= m + 1 /\ n <= n' /\ n' + m' <= n + m + 3.
Proof.
  intros F Hm E. unfold kmp_step_c in E. destruct (kmp_back_c (length pat) pat tab c m n) as [[m1 n1]|] eqn:Eb; [|discriminate]. destruct (back_cost pat tab c F _ _ _ _ _ Hm Eb) as (I1 & I2 & I3).
  destruct (rd pat m1) as [p|]; [|discriminate]. injection E as <- <-. destruct (p =? c); destruct (m1 =? 0); lia.
Qed.
Lemma falling_wr tab i v tab' : falling tab -> 0 <= v <= i -> wr tab i v = Some tab' -> falling tab'.
Proof.
  intros F Hv E j w Ej. destruct (wr_inv _ _ _ _ _ E) as (R & L & RW). rewrite RW in Ej. destruct (Z.eqb_spec j i) as [->|N]; [injection Ej as <-; exact Hv|exact (F j w Ej)].
Qed.
Lemma prefix_cost pat : forall r tab index m n tab' n', falling tab -> 0 <= m < index -> kmp_prefix_c r pat tab index m n = Some (tab', n') ->
  falling tab' /\ n' <= n + m + 3 * Z.of_nat r.
Proof.
  induction r as [|r IH]; intros tab index m n tab' n' F Hm E; cbn [kmp_prefix_c] in E; [injection E as <- <-; split; [exact F|lia]|].
  destruct (rd pat index) as [c|]; [|discriminate]. destruct (kmp_step_c pat tab c m n) as [[m1 n1]|] eqn:Es; [|discriminate].
  destruct (step_cost pat tab c m n m1 n1 F ltac:(lia) Es) as (I1 & I2 & I3). destruct (wr tab index m1) as [t1|] eqn:Ew; [|discriminate].
  destruct (IH t1 (index + 1) m1 n1 tab' n') as [J1 J2]; [eapply falling_wr; [exact F| |exact Ew]; lia|lia|exact E|]. split; [exact J1|lia].
Qed.
Lemma falling_zero k : falling (repeat 0 k).
Proof. intros i v E. pose proof (rd_pos _ _ _ E). pose proof (rd_in _ _ _ _ E) as I. apply repeat_spec in I. lia. Qed.
(** ** Streams *)
(** the same blocks by position *)
Fixpoint pnext (bs : list (list Z)) (c : Z) : list Z :=
  match bs with [] => [] | b :: r => if c <? zlen b then skipn (Z.to_nat c) b else pnext r (c - zlen b) end.
Lemma pnext_source : forall bs, source (pnext bs) (concat bs).
Proof.
  induction bs as [|b bs IH]; intros c Hc; cbn [pnext concat].
  - split; [exists []; destruct (Z.to_nat c); reflexivity|]. change (zlen []) with 0. lia.
  - destruct (Z.ltb_spec c (zlen b)) as [L|L].
    + split; [exists (concat bs); rewrite skipn_app; replace (Z.to_nat c - length b)%nat with O by (unfold zlen in L; lia); reflexivity|].
      intros _ C. apply (f_equal (@length Z)) in C. rewrite skipn_length in C. cbn [length] in C. unfold zlen in L. lia.
    + destruct (IH (c - zlen b) ltac:(lia)) as [[rest E] N]. split.
      * exists rest. rewrite <- E. rewrite skipn_app. rewrite (skipn_all2 b) by (unfold zlen in L; lia). cbn [app]. f_equal. unfold zlen. lia.
      * rewrite zlen_app. intros H. apply N. lia.
Qed.
Lemma pnext_start : forall bs i, Forall (fun b => b <> []) bs -> pnext bs (zlen (concat (firstn i bs))) = nth i bs [].
Proof.
  induction bs as [|b bs IH]; intros i F; [destruct i; reflexivity|]. inversion F as [|? ? Nb F']; subst. destruct i as [|i]; cbn [firstn concat pnext nth].
  - change (zlen []) with 0. destruct (Z.ltb_spec 0 (zlen b)) as [|L]; [reflexivity|]. destruct b; [contradiction|]. unfold zlen in L. cbn [length] in L. lia.
  - rewrite zlen_app. pose proof (zlen_nonneg _ (concat (firstn i bs))). destruct (Z.ltb_spec (zlen b + zlen (concat (firstn i bs))) (zlen b)); [lia|]. replace (zlen b + zlen (concat (firstn i bs)) - zlen b) with (zlen (concat (firstn i bs))) by lia. apply IH, F'.
Qed.
Lemma firstn_step : forall (bs : list (list Z)) i, zlen (concat (firstn (S i) bs)) = zlen (concat (firstn i bs)) + zlen (nth i bs []).
Proof.
  induction bs as [|b bs IH]; intros i; [destruct i; reflexivity|]. destruct i as [|i].
  - cbn [firstn concat nth]. rewrite app_nil_r. change (zlen []) with 0. lia.
  - cbn [nth]. change (firstn (S (S i)) (b :: bs)) with (b :: firstn (S i) bs). change (firstn (S i) (b :: bs)) with (b :: firstn i bs). cbn [concat]. rewrite !zlen_app, IH. lia.
Qed.
Lemma firstn_total : forall (bs : list (list Z)) i, zlen (concat (firstn i bs)) <= zlen (concat bs).
Proof. intros bs i. rewrite <- (firstn_skipn i bs) at 2. rewrite concat_app, zlen_app. pose proof (zlen_nonneg _ (concat (skipn i bs))). lia. Qed.
Section Cost.
Variable up : Z -> Z.
Variable icase : bool.
Lemma prepare_cost pattern k n : kmp_prepare_c up icase pattern = Some (k, n) -> falling (ktab k) /\ n <= 3 * zlen pattern /\ klen k = zlen pattern.
Proof.
  unfold kmp_prepare_c. destruct (2 ^ 30 <=? zlen pattern); [discriminate|]. destruct (kmp_prefix_c _ _ _ 1 0 0) as [[tab n0]|] eqn:E; [|discriminate]. intros Q. injection Q as <- <-.
  destruct (prefix_cost _ _ _ _ _ _ _ _ (falling_zero _) (conj (Z.le_refl 0) Z.lt_0_1) E) as [F C]. cbn [ktab klen]. split; [exact F|]. split; [unfold zlen; lia|reflexivity].
Qed.
Variable k : kmp.
Hypothesis Hk : falling (ktab k).
Lemma block_cost : forall block consumed index m n r n', 0 <= m -> kmp_block_c up icase k block consumed index m n = Some (r, n') ->
  match r with
  | inl m' => 0 <= m' /\ n' + m' <= n + m + 3 * zlen block
  | inr off => exists used, 0 < used <= zlen block /\ off = w32 (consumed + index + used) /\ n' <= n + m + 3 * used
  end.
Proof.
  induction block as [|t block IH]; intros consumed index m n r n' Hm E; cbn [kmp_block_c] in E; [injection E as <- <-; change (zlen []) with 0; lia|].
  destruct (kmp_step_c _ _ _ m n) as [[m1 n1]|] eqn:Es; [|discriminate]. destruct (step_cost _ _ _ _ _ _ _ Hk Hm Es) as (I1 & I2 & I3). rewrite zlen_cons. pose proof (zlen_nonneg _ block).
  destruct (m1 =? klen k).
  - injection E as <- <-. exists 1. split; [lia|]. split; [reflexivity|lia].
  - specialize (IH consumed (index + 1) m1 n1 r n' ltac:(lia) E). destruct r as [m'|off]; [lia|]. destruct IH as (used & U1 & U2 & U3). exists (used + 1). split; [lia|]. split; [rewrite U2; f_equal; lia|lia].
Qed.
Lemma loop_given next : forall fuel hist offset consumed m n o r h n', 0 <= m -> kmp_loop_c up icase fuel k next hist offset consumed m n = Some (o, r, h, n') ->
  n' <= n + m + 3 * (given next h - given next hist).
Proof.
  induction fuel as [|fuel IH]; intros hist offset consumed m n o r h n' Hm E; [discriminate|]. cbn [kmp_loop_c] in E.
  destruct (Z.eqb_spec (zlen (next hist consumed)) 0) as [E0|E0]; [injection E as <- <- <- <-; cbn [given]; lia|].
  destruct (kmp_block_c _ _ k _ consumed 0 m n) as [[[m1|off] n1]|] eqn:Eb; [| |discriminate]; pose proof (block_cost _ _ _ _ _ _ _ Hm Eb) as B; cbn beta iota in B.
  - specialize (IH _ _ _ _ _ _ _ _ _ (proj1 B) E). cbn [given] in IH. lia.
  - injection E as <- <- <- <-. destruct B as (used & U1 & U2 & U3). cbn [given]. lia.
Qed.
(** over a text of [B] bytes *)
Lemma loop_text next B : (forall c, 0 <= c <= B -> c + zlen (next c) <= B) -> B < 2 ^ 32 -> forall fuel hist offset consumed m n o r h n', 0 <= m -> 0 <= offset <= consumed -> consumed <= B ->
  n + m <= 3 * consumed -> kmp_loop_c up icase fuel k (fun _ => next) hist offset consumed m n = Some (o, r, h, n') ->
  n' <= 3 * B /\ (r = UINT_MAX \/ offset <= o <= B /\ n' <= 3 * o).
Proof.
  intros HB HL. induction fuel as [|fuel IH]; intros hist offset consumed m n o r h n' Hm Ho Hc Hn E; [discriminate|]. cbn [kmp_loop_c] in E.
  pose proof (HB consumed ltac:(lia)) as Hb. pose proof (zlen_nonneg _ (next consumed)) as Hz.
  destruct (Z.eqb_spec (zlen (next consumed)) 0) as [E0|E0]; [injection E as <- <- <- <-; split; [lia|left; reflexivity]|].
  destruct (kmp_block_c _ _ k _ consumed 0 m n) as [[[m1|off] n1]|] eqn:Eb; [| |discriminate]; pose proof (block_cost _ _ _ _ _ _ _ Hm Eb) as Bk; cbn beta iota in Bk.
  - rewrite w32_small in E by lia. apply (IH _ _ _ _ _ _ _ _ _ (proj1 Bk)) in E; [exact E|lia|lia|lia].
  - injection E as <- <- <- <-. destruct Bk as (used & U1 & U2 & U3). rewrite w32_small in U2 by lia. split; [lia|]. right. lia.
Qed.
Lemma all_cost next B : (forall c, 0 <= c <= B -> c + zlen (next c) <= B) -> B < 2 ^ 32 -> forall fuel offset n l n', 0 <= offset <= B -> n <= 3 * offset -> kmp_all_c up icase fuel k next offset n = Some (l, n') -> n' <= 3 * B.
Proof.
  intros HB HL. induction fuel as [|fuel IH]; intros offset n l n' Ho Hn E; [discriminate|]. cbn [kmp_all_c] in E.
  destruct (kmp_find_c up icase (S fuel) k (fun _ => next) [] offset n) as [[[[o r] h] n1]|] eqn:Ef; [|discriminate]. unfold kmp_find_c in Ef.
  assert (CD : n1 <= 3 * B /\ (r = UINT_MAX \/ offset <= o <= B /\ n1 <= 3 * o)) by (eapply (loop_text next B HB HL); [apply Z.le_refl| | | |exact Ef]; lia). destruct CD as [C D].
  destruct (Z.eqb_spec r UINT_MAX) as [Er|Er]; [injection E as <- <-; exact C|]. destruct D as [D|[D1 D2]]; [contradiction|].
  destruct (kmp_all_c up icase fuel k next o n1) as [[l1 n2]|] eqn:Ea; [|discriminate]. injection E as <- <-. apply (IH o n1 l1 n2); [lia|exact D2|exact Ea].
Qed.

(** ** The same results as TextModel *)
Lemma back_same pat tab c : forall fuel m n, option_map fst (kmp_back_c fuel pat tab c m n) = kmp_back fuel pat tab c m.
Proof.
  induction fuel as [|fuel IH]; intros m n; cbn [kmp_back_c kmp_back]; (destruct (m =? 0); [reflexivity|]); (destruct (rd pat m) as [p|]; [|reflexivity]); (destruct (p =? c); [reflexivity|]); [reflexivity|].
  destruct (rd tab (m - 1)); [apply IH|reflexivity].
Qed.
Lemma step_same pat tab c m n : option_map fst (kmp_step_c pat tab c m n) = kmp_step pat tab c m.
Proof. unfold kmp_step_c, kmp_step. rewrite <- (back_same pat tab c (length pat) m n). destruct (kmp_back_c _ pat tab c m n) as [[m1 n1]|]; [|reflexivity]. cbn [option_map fst]. destruct (rd pat m1); reflexivity. Qed.
Lemma prefix_same pat : forall r tab index m n, option_map fst (kmp_prefix_c r pat tab index m n) = kmp_prefix r pat tab index m.
Proof.
  induction r as [|r IH]; intros tab index m n; [reflexivity|]. cbn [kmp_prefix_c kmp_prefix]. destruct (rd pat index) as [c|]; [|reflexivity]. rewrite <- (step_same pat tab c m n).
  destruct (kmp_step_c pat tab c m n) as [[m1 n1]|]; [|reflexivity]. cbn [option_map fst]. destruct (wr tab index m1); [apply IH|reflexivity].
Qed.
Lemma prepare_same pattern : option_map fst (kmp_prepare_c up icase pattern) = kmp_prepare up icase pattern.
Proof.
  unfold kmp_prepare_c, kmp_prepare. destruct (2 ^ 30 <=? zlen pattern); [reflexivity|]. rewrite <- (prefix_same _ _ _ 1 0 0). destruct (kmp_prefix_c _ _ _ 1 0 0) as [[tab n]|]; reflexivity.
Qed.
Lemma block_same : forall block consumed index m n, option_map fst (kmp_block_c up icase k block consumed index m n) = kmp_block up icase k block consumed index m.
Proof.
  induction block as [|t block IH]; intros consumed index m n; [reflexivity|]. cbn [kmp_block_c kmp_block]. rewrite <- (step_same _ _ _ m n). destruct (kmp_step_c _ _ _ m n) as [[m1 n1]|]; [|reflexivity]. cbn [option_map fst].
  destruct (m1 =? klen k); [reflexivity|apply IH].
Qed.
Definition ends (x : Z * Z * list Z * Z) : Z * Z := fst (fst x).
Lemma loop_same next nx (G : list Z -> Z -> Prop) : (forall h c, G h c -> next h c = nx c) -> (forall h c, G h c -> zlen (nx c) <> 0 -> G (c :: h) (w32 (c + zlen (nx c)))) ->
  forall fuel hist offset consumed m n, G hist consumed -> option_map ends (kmp_loop_c up icase fuel k next hist offset consumed m n) = kmp_loop up icase fuel k nx offset consumed m.
Proof.
  intros G1 G2. induction fuel as [|fuel IH]; intros hist offset consumed m n Hg; [reflexivity|]. cbn [kmp_loop_c kmp_loop]. rewrite (G1 _ _ Hg). destruct (Z.eqb_spec (zlen (nx consumed)) 0) as [E|E]; [reflexivity|].
  rewrite <- (block_same _ _ _ _ n). destruct (kmp_block_c _ _ k _ consumed 0 m n) as [[[m1|off] n1]|]; [|reflexivity|reflexivity]. cbn [option_map fst]. apply IH, G2; assumption.
Qed.
Lemma all_same next : forall fuel offset n, option_map fst (kmp_all_c up icase fuel k next offset n) = kmp_all up icase fuel k next offset.
Proof.
  induction fuel as [|fuel IH]; intros offset n; [reflexivity|]. cbn [kmp_all_c kmp_all]. unfold kmp_find. rewrite <- (loop_same (fun _ => next) next (fun _ _ => True) ltac:(reflexivity) ltac:(auto) _ [] _ _ 0 n Logic.I).
  unfold kmp_find_c. destruct (kmp_loop_c _ _ (S fuel) k _ [] offset offset 0 n) as [[[[o r] h] n1]|]; [|reflexivity]. cbn [option_map ends fst].
  destruct (r =? UINT_MAX); [reflexivity|]. rewrite <- (IH o n1). destruct (kmp_all_c up icase fuel k next o n1) as [[l n2]|]; reflexivity.
Qed.

Lemma stream_hist bs : Forall (fun b => b <> []) bs -> zlen (concat bs) < 2 ^ 32 -> forall fuel hist offset consumed m n o r h n', 0 <= m -> asked bs hist -> consumed = zlen (concat (firstn (length hist) bs)) -> (length hist <= length bs)%nat ->
  kmp_loop_c up icase fuel k (stream bs) hist offset consumed m n = Some (o, r, h, n') ->
  asked bs h /\ (o = offset /\ r = UINT_MAX /\ length h = S (length bs) \/ (0 < length h <= length bs)%nat /\ zlen (concat (firstn (length h - 1) bs)) < o <= zlen (concat (firstn (length h) bs))).
Proof.
  intros Nb HL. induction fuel as [|fuel IH]; intros hist offset consumed m n o r h n' Hm Ha Hc Hl E; [discriminate|]. cbn [kmp_loop_c] in E. change (stream bs hist consumed) with (nth (length hist) bs []) in E.
  pose proof (firstn_step bs (length hist)) as St. pose proof (firstn_total bs (S (length hist))) as To. pose proof (zlen_nonneg _ (concat (firstn (length hist) bs))) as Z0.
  assert (Hn : length hist = length bs \/ zlen (nth (length hist) bs []) <> 0 /\ (length hist < length bs)%nat).
  { destruct (Nat.eq_dec (length hist) (length bs)); [auto|]. right. split; [|lia]. rewrite Forall_forall in Nb. specialize (Nb (nth (length hist) bs []) ltac:(apply nth_In; lia)). destruct (nth (length hist) bs []); [contradiction|]. unfold zlen. cbn [length]. lia. }
  destruct (Z.eqb_spec (zlen (nth (length hist) bs [])) 0) as [E0|E0].
  - injection E as <- <- <- <-. split; [split; assumption|]. left. split; [reflexivity|]. split; [reflexivity|]. cbn [length]. destruct Hn as [->|[N _]]; [reflexivity|contradiction].
  - destruct Hn as [Hn|[_ Hn]]; [rewrite Hn, nth_overflow in E0 by lia; contradiction E0; reflexivity|].
    destruct (kmp_block_c _ _ k _ consumed 0 m n) as [[[m1|off] n1]|] eqn:Eb; [| |discriminate]; pose proof (block_cost _ _ _ _ _ _ _ Hm Eb) as Bk; cbn beta iota in Bk.
    + pose proof (zlen_nonneg _ (nth (length hist) bs [])). rewrite w32_small in E by lia. apply (IH _ _ _ _ _ _ _ _ _ (proj1 Bk)) in E; [exact E|split; assumption|cbn [length]; lia|cbn [length]; lia].
    + injection E as <- <- <- <-. split; [split; assumption|]. right. destruct Bk as (used & U1 & U2 & U3). cbn [length]. replace (S (length hist) - 1)%nat with (length hist) by lia. rewrite w32_small in U2 by lia. lia.
Qed.
End Cost.

(** The comparisons of a search are at most three times the bytes handed out, whatever the source of blocks does; those of
    the preparation three times the length of the pattern. *)
Theorem C128_cost : forall up icase pattern k n0 next fuel offset o r h n,
  kmp_prepare_c up icase pattern = Some (k, n0) -> kmp_find_c up icase fuel k next [] offset 0 = Some (o, r, h, n) ->
  n0 <= 3 * zlen pattern /\ n <= 3 * given next h.
Proof.
  intros up icase pattern k n0 next fuel offset o r h n Ep Ef. destruct (prepare_cost up icase pattern k n0 Ep) as (F & C & _). split; [exact C|].
  pose proof (loop_given up icase k F next _ _ _ _ _ _ _ _ _ _ (Z.le_refl 0) Ef) as L. cbn [given] in L. lia.
Qed.
(** Also when the text is searched again from every match on, all matches together cost at most three comparisons per byte. *)
Theorem C128_all_cost : forall up icase pattern text next fuel,
  pattern <> [] -> zlen pattern < 2 ^ 30 -> zlen text < 2 ^ 32 -> source next text ->
  (icase = true -> forall p, In p pattern -> schar (up p) = up p) -> (length text < fuel)%nat ->
  exists k n0 l n, kmp_prepare_c up icase pattern = Some (k, n0) /\ kmp_all_c up icase fuel k next 0 0 = Some (l, n) /\
    enumerates (map (ch up icase) text) (map (ch up icase) pattern) 0 l /\ n <= 3 * zlen text.
Proof.
  intros up icase pattern text next fuel NP LP LT HS HC F. destruct (C38_enumerates up icase pattern text next fuel NP LP LT HS HC F) as (k & l & Ek & El & En).
  rewrite <- prepare_same in Ek. destruct (kmp_prepare_c up icase pattern) as [[k' n0]|] eqn:Ep; [|discriminate]. cbn in Ek. injection Ek as ->. exists k, n0.
  rewrite <- (all_same up icase k next fuel 0 0) in El. destruct (kmp_all_c up icase fuel k next 0 0) as [[l' n]|] eqn:Ea; [|discriminate]. cbn in El. injection El as ->. exists l, n.
  split; [reflexivity|]. split; [reflexivity|]. split; [exact En|]. destruct (prepare_cost up icase pattern k n0 Ep) as (Fl & _).
  apply (all_cost up icase k Fl next (zlen text)) with (fuel := fuel) (offset := 0) (n := 0) (l := l); [|exact LT|pose proof (zlen_nonneg _ text); lia|lia|exact Ea].
  intros c Hc. destruct (HS c (proj1 Hc)) as [[rest E] _]. apply (f_equal (@zlen Z)) in E. rewrite zlen_app in E. pose proof (zlen_nonneg _ rest). unfold zlen in E at 1. rewrite skipn_length in E. unfold zlen in *. lia.
Qed.
(** A stream, whose blocks can be had only once: each is asked for once, in order, under its position, up to the block with
    the end of the first match, and the first match of the whole stream is found, also across blocks. *)
Theorem C128_stream : forall up icase pattern bs fuel,
  pattern <> [] -> zlen pattern < 2 ^ 30 -> Forall (fun b => b <> []) bs -> zlen (concat bs) < 2 ^ 32 ->
  (icase = true -> forall p, In p pattern -> schar (up p) = up p) -> (length (concat bs) < fuel)%nat ->
  let T := map (ch up icase) (concat bs) in let P := map (ch up icase) pattern in
  exists k n0, kmp_prepare_c up icase pattern = Some (k, n0) /\
  ((exists j h n, kmp_find_c up icase fuel k (stream bs) [] 0 0 = Some (Z.of_nat (j + length pattern), Z.of_nat j, h, n) /\ leftmost T P 0 j /\
      asked bs h /\ (0 < length h <= length bs)%nat /\ zlen (concat (firstn (length h - 1) bs)) < Z.of_nat (j + length pattern) <= zlen (concat (firstn (length h) bs))) \/
   (exists h n, kmp_find_c up icase fuel k (stream bs) [] 0 0 = Some (0, UINT_MAX, h, n) /\ absent T P 0 /\ asked bs h /\ length h = S (length bs))).
Proof.
  intros up icase pattern bs fuel NP LP Nb LT HC F T P.
  destruct (C38_first up icase pattern (concat bs) (pnext bs) 0 fuel NP LP LT (pnext_source bs) HC ltac:(lia) F) as (k & Ek & R).
  rewrite <- prepare_same in Ek. destruct (kmp_prepare_c up icase pattern) as [[k' n0]|] eqn:Ep; [|discriminate]. cbn in Ek. injection Ek as ->. exists k, n0. split; [reflexivity|].
  destruct (prepare_cost up icase pattern k n0 Ep) as (Fl & _). unfold kmp_find in R. change (Z.of_nat 0) with 0 in R.
  assert (Sm : option_map ends (kmp_find_c up icase fuel k (stream bs) [] 0 0) = kmp_loop up icase fuel k (pnext bs) 0 0 0).
  { unfold kmp_find_c. apply (loop_same up icase k (stream bs) (pnext bs) (fun h c => c = zlen (concat (firstn (length h) bs)))).
    - intros h c ->. symmetry. apply pnext_start, Nb.
    - intros h c ->. intros _. rewrite pnext_start by exact Nb. cbn [length]. rewrite <- firstn_step. pose proof (firstn_total bs (S (length h))). pose proof (zlen_nonneg _ (concat (firstn (S (length h)) bs))). apply w32_small. lia.
    - reflexivity. }
  rewrite <- Sm in R. destruct (kmp_find_c up icase fuel k (stream bs) [] 0 0) as [[[[o r] h] n]|] eqn:Ef; [|destruct R as [(j & R & _)|[R _]]; discriminate R].
  pose proof Ef as Ef'. unfold kmp_find_c in Ef'. destruct (stream_hist up icase k Fl bs Nb LT _ [] _ _ _ _ _ _ _ _ (Z.le_refl 0) Logic.I eq_refl (Nat.le_0_l _) Ef') as [As Fi]. cbn [option_map ends fst] in R.
  destruct R as [(j & R & L)|[R A]]; injection R as -> ->.
  - left. exists j, h, n. split; [reflexivity|]. split; [exact L|]. split; [exact As|]. destruct Fi as [(Fo & _)|[F1 F2]]; [|split; assumption].
    exfalso. clear - Fo NP. destruct pattern; [contradiction|]. cbn [length] in Fo. lia.
  - right. exists h, n. split; [reflexivity|]. split; [exact A|]. split; [exact As|]. destruct Fi as [(_ & _ & Fl')|[F1 F2]]; [exact Fl'|]. exfalso. pose proof (zlen_nonneg _ (concat (firstn (length h - 1) bs))). lia.
Qed.
(** "aab" in the stream "a", "aa", "baab": found at 1 in the third block, asked for under 0, 1 and 3 *)
Example C128_case : match kmp_prepare_c toupper false [97; 97; 98] with
  | Some (k, n0) => n0 = 3 /\ kmp_find_c toupper false 20 k (stream [[97]; [97; 97]; [98; 97; 97; 98]]) [] 0 0 = Some (4, 1, [3; 1; 0], 8)
  | None => False end.
Proof. vm_compute. split; reflexivity. Qed.
Print Assumptions C128_cost.
Print Assumptions C128_all_cost.
Print Assumptions C128_stream.
