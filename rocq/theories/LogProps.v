(** * C99, C100: formatted output into a buffer, logging *)
From Coq Require Import String.
From Verif Require Import Lib LogModel LogSpec.
Ltac Zify.zify_post_hook ::= Z.div_mod_to_equations.

Lemma zlen_app' : forall A (a b : list A), zlen (a ++ b) = zlen a + zlen b.
Proof. intros. unfold zlen. rewrite app_length. lia. Qed.
Lemma puts_spec : forall t (p m q : list Z) off, List.length m = List.length t -> off = zlen p ->
  puts (p ++ m ++ q) off t = Some (p ++ t ++ q).
Proof.
  induction t as [|c t IH]; intros p m q off L E; destruct m as [|x m]; cbn [List.length] in L; try discriminate; cbn [puts].
  - reflexivity.
  - cbn [app]. rewrite (wr_app_len _ p x (m ++ q) off c E).
    replace (p ++ c :: m ++ q) with ((p ++ [c]) ++ m ++ q) by (rewrite <- app_assoc; reflexivity).
    rewrite IH; [|lia|rewrite zlen_app'; unfold zlen at 2; cbn; lia]. rewrite <- app_assoc. reflexivity.
Qed.
Lemma split3 : forall (b : list Z) off n, 0 <= off -> 0 <= n -> off + n <= zlen b ->
  exists p m q, b = p ++ m ++ q /\ zlen p = off /\ zlen m = n.
Proof.
  intros b off n H1 H2 H3. exists (firstn (Z.to_nat off) b), (firstn (Z.to_nat n) (skipn (Z.to_nat off) b)), (skipn (Z.to_nat n) (skipn (Z.to_nat off) b)).
  rewrite !firstn_skipn. split; [reflexivity|]. unfold zlen in *. rewrite !firstn_length, skipn_length. lia.
Qed.

(** ** C99 *)
(** What a call stores and returns, when the C library produced the text: the text, or as much of it
    as leaves room for the terminator; nothing else in memory changes. *)
Theorem C99_vscnprintf : forall p m q text, zlen text < 2 ^ 31 -> 0 < zlen m < 2 ^ 64 ->
  let t := firstn (Z.to_nat (zlen m - 1)) text in
  exists rest, zlen t + 1 + zlen rest = zlen m /\
    vscnprintf (p ++ m ++ q) (zlen p) (zlen m) (Some text) = Some (p ++ (t ++ 0 :: rest) ++ q, zlen t).
Proof.
  intros p m q text Ht Hm t. unfold vscnprintf, vsnprintf. destruct (Z.eqb_spec (zlen m) 0); [lia|].
  destruct (Z.leb_spec (2 ^ 31) (zlen text)); [lia|]. fold t.
  assert (Lt : zlen t = Z.min (zlen text) (zlen m - 1)) by (unfold t, zlen in *; rewrite firstn_length; lia).
  destruct (split3 m 0 (zlen t + 1)) as (e & m1 & rest & Em & Le & Lm); try (unfold zlen in *; lia).
  assert (e = []) as -> by (destruct e; [reflexivity|unfold zlen in Le; cbn in Le; lia]). cbn [app] in Em.
  exists rest. assert (Lr : zlen t + 1 + zlen rest = zlen m) by (rewrite Em, zlen_app'; lia). split; [exact Lr|].
  replace (p ++ m ++ q) with (p ++ m1 ++ (rest ++ q)) by (rewrite Em, <- app_assoc; reflexivity).
  rewrite puts_spec; [|rewrite app_length; unfold zlen in *; cbn [List.length]; lia|reflexivity].
  assert (W : w64 (zlen text) = zlen text) by (unfold w64, zlen in *; apply Z.mod_small; lia). rewrite W.
  assert (R : p ++ (t ++ [0]) ++ rest ++ q = p ++ (t ++ 0 :: rest) ++ q) by (rewrite <- !app_assoc; reflexivity). rewrite R.
  destruct (Z.ltb_spec (zlen text) (zlen m)).
  - do 2 f_equal. lia.
  - do 2 f_equal. unfold to_int. assert (W2 : w32 (zlen m - 1) = zlen m - 1) by (unfold w32; apply Z.mod_small; lia).
    rewrite W2. destruct (Z.ltb_spec (zlen m - 1) (2 ^ 31)); lia.
Qed.
Theorem C99_empty : forall b off text, vscnprintf b off 0 text = Some (b, 0).
Proof. reflexivity. Qed.
(** When the C library reports an error, the caller is told that the buffer was filled. *)
Theorem C99_error : forall b off size, 0 < size <= 2 ^ 31 -> vscnprintf b off size None = Some (b, size - 1).
Proof.
  intros b off size H. unfold vscnprintf, vsnprintf. destruct (Z.eqb_spec size 0); [lia|].
  change (w64 (-1)) with (2 ^ 64 - 1). destruct (Z.ltb_spec (2 ^ 64 - 1) size); [lia|].
  unfold to_int. assert (W2 : w32 (size - 1) = size - 1) by (unfold w32; apply Z.mod_small; lia).
  rewrite W2. destruct (Z.ltb_spec (size - 1) (2 ^ 31)); [reflexivity|lia].
Qed.
Theorem C99_error_refuted : exists b size n, zlen b = size /\ vscnprintf b 0 size None = Some (b, n) /\ 0 < n /\ rd b n <> Some 0.
Proof. exists [9; 9; 9], 3, 2. repeat split; vm_compute; congruence. Qed.
Example C99_ex : vscnprintf [9; 9; 9; 9; 9; 9] 1 4 (Some (str "ab")) = Some ([9; 97; 98; 0; 9; 9], 2) /\
  vscnprintf [9; 9; 9; 9; 9; 9] 1 4 (Some (str "abcdef")) = Some ([9; 97; 98; 99; 0; 9], 3).
Proof. vm_compute. auto. Qed.

(** ** C100 *)
(** *** The level *)
Lemma tags_cons : forall c cs rest, tags (c :: cs) ++ rest = 1 :: c :: tags cs ++ rest.
Proof. reflexivity. Qed.
Lemma level_loop_spec : forall cs rest lv fuel, (List.length (tags cs ++ rest) < fuel)%nat -> cstring cs -> cstring rest -> untagged rest ->
  level_loop fuel lv (tags cs ++ rest) = Some (last (map (fun c => c - 48) (filter is_digit cs)) lv, rest).
Proof.
  induction cs as [|c cs IH]; intros rest lv fuel F C R U; (destruct fuel as [|fuel]; [lia|]).
  - cbn [tags flat_map app filter map last] in *. cbn [level_loop]. destruct rest as [|x rest]; [reflexivity|].
    unfold log_get_level. destruct rest as [|y rest]; [reflexivity|].
    destruct (Z.eqb_spec x SOH) as [E|E]; [exfalso; apply (U y rest); unfold SOH in E; congruence|]. reflexivity.
  - rewrite tags_cons in *. cbn [level_loop log_get_level]. change (1 =? SOH) with true. cbv iota zeta.
    apply Forall_cons_iff in C. destruct C as [Nc C]. destruct (Z.eqb_spec c 0); [contradiction|]. cbn [skipn].
    rewrite IH; try assumption; [|cbn [List.length] in F; lia]. f_equal. f_equal.
    replace ((48 <=? c) && (c <=? 57)) with (is_digit c).
    2:{ unfold is_digit. f_equal. destruct (Z.ltb_spec c 58), (Z.leb_spec c 57); try reflexivity; lia. }
    cbn [filter]. destruct (is_digit c); [|reflexivity]. cbn [map].
    destruct (map (fun c => c - 48) (filter is_digit cs)) eqn:E; [reflexivity|]. cbn [last].
    clear. revert z. induction l as [|y l IH]; intros z; [reflexivity|]. cbn [last] in *. apply IH.
Qed.
(** Every format string is a run of tags and an untagged rest; the level is the last digit. *)
Theorem C100_level : forall s fin, cstring s -> exists cs rest, s = tags cs ++ rest /\ untagged rest /\
  bfdev_log_level s (Some fin) = Some (asked cs, Some rest).
Proof.
  intros s fin C.
  assert (D : forall n s, (List.length s <= n)%nat -> exists cs rest, s = tags cs ++ rest /\ untagged rest).
  { clear. induction n as [|n IH]; intros s L.
    - destruct s; [|cbn in L; lia]. exists [], []. split; [reflexivity|]. intros c t. discriminate.
    - destruct s as [|x [|y s]].
      + exists [], []. split; [reflexivity|]. intros c t. discriminate.
      + exists [], [x]. split; [reflexivity|]. intros c t. discriminate.
      + destruct (Z.eq_dec x 1) as [-> |N].
        * destruct (IH s) as (cs & rest & -> & U); [cbn in L; lia|]. exists (y :: cs), rest. auto.
        * exists [], (x :: y :: s). split; [reflexivity|]. intros c t E. congruence. }
  destruct (D (List.length s) s (le_n _)) as (cs & rest & -> & U). exists cs, rest. split; [reflexivity|]. split; [exact U|].
  apply Forall_app in C. destruct C as [C1 C2].
  assert (C3 : cstring cs).
  { clear - C1. induction cs as [|c cs IH]; [constructor|]. cbn [tags flat_map app] in C1.
    apply Forall_cons_iff in C1. destruct C1 as [_ C1]. apply Forall_cons_iff in C1. destruct C1 as [H C1]. constructor; [exact H|apply IH; exact C1]. }
  unfold bfdev_log_level. rewrite level_loop_spec by (try assumption; lia). reflexivity.
Qed.
(** The end of the tags is reported only to callers whose pointer was not null before. *)
Theorem C100_endptr_refuted : exists s rest, cstring s /\ s = tags [54] ++ rest /\ untagged rest /\
  bfdev_log_level s None = Some (6, None).
Proof.
  exists [1; 54; 104; 105], [104; 105]. split; [repeat constructor; lia|]. split; [reflexivity|].
  split; [intros c t; discriminate|]. vm_compute. reflexivity.
Qed.

(** *** The message *)
Definition holds (msg : message) (lv : Z) (t : list Z) : Prop :=
  zlen (buff msg) = 512 /\ level msg = lv /\ mlen msg = zlen t /\ zlen t <= 511 /\ exists q, buff msg = t ++ q.
Lemma cut_app : forall (t x : list Z), zlen t <= 511 -> cut (t ++ x) = t ++ firstn (Z.to_nat (511 - zlen t)) x.
Proof.
  intros t x H. unfold cut, zlen in *. rewrite firstn_app. rewrite firstn_all2 by lia. do 2 f_equal. lia.
Qed.
Lemma cut_cut : forall t x, cut (cut t ++ x) = cut (t ++ x).
Proof.
  intros t x. unfold cut. destruct (le_lt_dec (List.length t) 511).
  - rewrite (firstn_all2 t) by assumption. reflexivity.
  - rewrite !firstn_app, firstn_length. replace (511 - Nat.min 511 (List.length t))%nat with 0%nat by lia.
    replace (511 - List.length t)%nat with 0%nat by lia. rewrite firstn_firstn. f_equal. 
Qed.
Lemma zlen_cut : forall t, zlen (cut t) <= 511.
Proof. intros t. unfold cut, zlen. rewrite firstn_length. lia. Qed.
Lemma step : forall msg lv t x, holds msg lv t -> zlen x < 2 ^ 31 ->
  exists msg', log_scnprintf msg (Some x) = Some msg' /\ holds msg' lv (cut (t ++ x)) /\
    rd (buff msg') (zlen (cut (t ++ x))) = Some 0.
Proof.
  intros msg lv t x (Lb & El & Em & Lt & q & Eb) Hx. unfold log_scnprintf.
  assert (Z0 : 0 <= zlen t) by (unfold zlen; lia).
  assert (Lq : zlen q = 512 - zlen t) by (rewrite Eb, zlen_app' in Lb; lia).
  assert (W : w64 (BUFF_SIZE - mlen msg) = zlen q) by (rewrite Em, Lq; unfold BUFF_SIZE, w64; apply Z.mod_small; lia).
  rewrite W, Em, Eb. destruct (C99_vscnprintf t q [] x Hx ltac:(lia)) as (rest & Lr & E). rewrite app_nil_r in E. rewrite E.
  clear E. set (y := firstn (Z.to_nat (zlen q - 1)) x) in *. rewrite app_nil_r.
  assert (Ey : cut (t ++ x) = t ++ y). { rewrite cut_app by assumption. unfold y. do 2 f_equal. lia. }
  assert (Ly : 0 <= zlen y) by (unfold zlen; lia). assert (Lr0 : 0 <= zlen rest) by (unfold zlen; lia).
  eexists. split; [reflexivity|]. rewrite Ey. split.
  - unfold holds. cbn [buff level mlen]. rewrite !zlen_app'. split.
    + replace (zlen (0 :: rest)) with (1 + zlen rest) by (unfold zlen; cbn [List.length]; lia). lia.
    + split; [exact El|]. split; [unfold w64; rewrite Z.mod_small; lia|]. split; [lia|].
      exists (0 :: rest). rewrite <- app_assoc. reflexivity.
  - cbn [buff]. rewrite app_assoc. apply rd_app_len. reflexivity.
Qed.
Lemma rd_tables : forall lv, 0 <= lv <= 8 -> exists n c, rd level_name lv = Some n /\ rd level_color lv = Some c /\
  str "[" ++ n ++ str "] " = tag_text lv /\ [27] ++ str "[" ++ two_digits c ++ str "m" = color_text lv.
Proof.
  intros lv H. assert (In lv (zseq 0 9)) as I by (apply zseq_in; lia).
  cbn [zseq In] in I. repeat (destruct I as [<- |I]; [eexists _, _; repeat split; vm_compute; reflexivity|]). destruct I.
Qed.
Lemma text_short : forall lv, zlen (tag_text lv) < 2 ^ 31 /\ zlen (color_text lv) < 2 ^ 31.
Proof. intros lv. unfold tag_text, color_text. destruct lv as [|[[p|p|]|[p|p|]|]|]; try destruct p; try (vm_compute; auto); destruct p; vm_compute; auto. Qed.

(** Everything about one call. The text handed on is the tag, the colour, the formatted rest of the
    format string and the colour reset, cut after 511 characters; it is terminated inside the buffer. *)
Theorem C100_log : forall render junk sent l cs rest text, zlen junk = 512 -> cstring cs -> cstring rest -> untagged rest ->
  render rest = Some text -> zlen text < 2 ^ 31 ->
  let l' := match l with Some l => l | None => log_default end in
  let lv := handled l' (asked cs) in 0 <= default_level l' <= 8 ->
  if lv <=? record_level l' then
    exists b, bfdev_log_core render junk sent l (tags cs ++ rest) = Some (delivered l' lv b (zlen (cut (line l' lv text))), sent) /\
      zlen b = 512 /\ firstn (Z.to_nat (zlen (cut (line l' lv text)))) b = cut (line l' lv text) /\
      rd b (zlen (cut (line l' lv text))) = Some 0
  else bfdev_log_core render junk sent l (tags cs ++ rest) = Some ([], 0).
Proof.
  intros render junk sent l cs rest text Lj Cs Cr U Er Lt l' lv Dl. unfold bfdev_log_core, bfdev_log_level.
  rewrite level_loop_spec by (try assumption; lia). change (last (map (fun c => c - 48) (filter is_digit cs)) LEVEL_DEFAULT) with (asked cs). rewrite Er. unfold log_emit. fold l'.
  assert (A : 0 <= asked cs).
  { unfold asked. assert (F : Forall (fun c => 0 <= c) (map (fun c => c - 48) (filter is_digit cs))).
    { apply Forall_map. apply Forall_forall. intros x Hx. apply filter_In in Hx. destruct Hx as [_ Hx].
      unfold is_digit in Hx. apply andb_true_iff in Hx. destruct Hx as [Hx _]. apply Z.leb_le in Hx. lia. }
    revert F. generalize (map (fun c => c - 48) (filter is_digit cs)). intros q F. induction F as [|x q Hx Hq IH]; [cbn; lia|].
    cbn [last]. destruct q; [exact Hx|exact IH]. }
  replace (if LEVEL_DEFAULT <=? asked cs then default_level l' else asked cs) with lv.
  2:{ unfold lv, handled, LEVEL_DEFAULT. destruct (Z.ltb_spec (asked cs) 8), (Z.leb_spec 8 (asked cs)); try reflexivity; lia. }
  assert (Hlv : 0 <= lv <= 8) by (unfold lv, handled; destruct (Z.ltb_spec (asked cs) 8); lia).
  destruct (Z.leb_spec lv (record_level l')), (Z.ltb_spec (record_level l') lv); try lia; [|reflexivity].
  destruct (rd_tables lv Hlv) as (n & c & En & Ec & Tn & Tc). destruct (text_short lv) as [Sn Sc].
  set (m0 := {| level := lv; buff := junk; mlen := 0 |}).
  assert (Hm0 : holds m0 lv (cut [])).
  { unfold holds, m0. cbn [buff level mlen cut firstn]. repeat split; try exact Lj; try (unfold zlen; cbn; lia). exists junk. reflexivity. }
  unfold line. set (f1 := if Z.testbit (flags l') 1 then tag_text lv else []).
  set (f0 := if Z.testbit (flags l') 0 then color_text lv else []). set (f2 := if Z.testbit (flags l') 0 then reset_text else []).
  assert (S1 : exists m1, log_level l' m0 = Some m1 /\ holds m1 lv (cut f1)).
  { unfold log_level, level_test, f1. destruct (Z.testbit (flags l') 1); cbn [negb].
    - change (level m0) with lv. rewrite En, Tn. destruct (step m0 lv _ (tag_text lv) Hm0 Sn) as (m1 & E1 & H1 & _).
      rewrite cut_cut in H1. cbn [app] in H1. eauto.
    - eauto. }
  destruct S1 as (m1 & -> & H1).
  assert (S2 : exists m2, log_color_prefix l' m1 = Some m2 /\ holds m2 lv (cut (f1 ++ f0))).
  { unfold log_color_prefix, color_test, f0. destruct (Z.testbit (flags l') 0); cbn [negb].
    - assert (El : level m1 = lv) by apply H1. rewrite El, Ec, Tc. destruct (step m1 lv _ (color_text lv) H1 Sc) as (m2 & E2 & H2 & _).
      rewrite cut_cut in H2. eauto.
    - rewrite app_nil_r. eauto. }
  destruct S2 as (m2 & -> & H2).
  destruct (step m2 lv _ text H2 Lt) as (m3 & -> & H3 & Z3). rewrite cut_cut in H3, Z3.
  assert (S4 : exists m4, log_color_suffix l' m3 = Some m4 /\ holds m4 lv (cut (((f1 ++ f0) ++ text) ++ f2)) /\
             rd (buff m4) (zlen (cut (((f1 ++ f0) ++ text) ++ f2))) = Some 0).
  { unfold log_color_suffix, color_test, f2. destruct (Z.testbit (flags l') 0); cbn [negb].
    - change ([27] ++ str "[0m") with reset_text. destruct (step m3 lv _ reset_text H3 ltac:(vm_compute; reflexivity)) as (m4 & E4 & H4 & Z4).
      rewrite cut_cut in H4, Z4. eauto.
    - rewrite app_nil_r. eauto. }
  destruct S4 as (m4 & -> & H4 & Z4).
  assert (As : f1 ++ f0 ++ text ++ f2 = ((f1 ++ f0) ++ text) ++ f2) by (rewrite !app_assoc; reflexivity). rewrite As.
  set (t := cut (((f1 ++ f0) ++ text) ++ f2)) in *. destruct H4 as (Lb & El & Em & Lt4 & q & Eb).
  exists (buff m4). split; [|split; [exact Lb|split; [|exact Z4]]].
  - unfold delivered. rewrite El, Em. destruct (custom l'); [reflexivity|]. unfold generic_log_write, LEVEL_WARNING. rewrite El, Em.
    destruct (Z.ltb_spec 4 lv), (Z.leb_spec lv 4); try lia; reflexivity.
  - rewrite Eb. unfold zlen. rewrite Nat2Z.id. rewrite firstn_app, Nat.sub_diag, firstn_all. cbn [firstn]. apply app_nil_r.
Qed.
Example C100_ex :
  let l := {| default_level := 5; record_level := 6; flags := 3; custom := true |} in
  let render := fun _ : list Z => Some (str "hello") in
  zlen (repeat 7 512) = 512 /\ cstring [54] /\ cstring (str "%s") /\ untagged (str "%s") /\ 0 <= default_level l <= 8 /\
  match bfdev_log_core render (repeat 7 512) 1 (Some l) (tags [54] ++ str "%s") with
  | Some ([Written 6 b n], 1) => n = zlen (cut (line l 6 (str "hello"))) /\ firstn (Z.to_nat n) b = str "[info] " ++ [27] ++ str "[92mhello" ++ [27] ++ str "[0m"
  | _ => False
  end /\
  bfdev_log_core render (repeat 7 512) 1 (Some l) (tags [55] ++ str "%s") = Some ([], 0) /\
  bfdev_log_core render (repeat 7 512) 1 None (str "%s") = Some ([Output Stdout (str "[default] " ++ [27] ++ str "[39mhello" ++ [27] ++ str "[0m")], 1).
Proof.
  cbv zeta. split; [reflexivity|]. split; [repeat constructor; lia|]. split; [repeat constructor; cbv; discriminate|].
  split; [intros c t; discriminate|]. split; [cbn; lia|]. split; [vm_compute; auto|]. split; vm_compute; reflexivity.
Qed.
(** A message that fills the buffer loses the reset of the colour. *)
Theorem C100_reset_refuted : exists render junk text b, render (str "%s") = Some text /\ zlen text < 2 ^ 31 /\ zlen junk = 512 /\
  bfdev_log_core render junk 1 None (str "%s") = Some ([Output Stdout b], 1) /\
  firstn 15 b = str "[default] " ++ [27] ++ str "[39m" /\ skipn (List.length b - 4) b <> reset_text.
Proof.
  exists (fun _ => Some (repeat 120 600)), (repeat 0 512), (repeat 120 600), (str "[default] " ++ [27] ++ str "[39m" ++ repeat 120 496).
  split; [reflexivity|]. split; [vm_compute; reflexivity|]. split; [reflexivity|]. split; [vm_compute; reflexivity|].
  split; [vm_compute; reflexivity|]. vm_compute. discriminate.
Qed.
(** When formatting fails, uninitialised memory is written out. *)
Theorem C100_error_refuted : exists render junk b, render (str "%ls") = None /\ zlen junk = 512 /\
  bfdev_log_core render junk 1 None (str "%ls") = Some ([Output Stdout b], 1) /\ zlen b = 511 /\ rd b 500 = rd junk 500.
Proof.
  exists (fun _ => None), (map (fun x => x mod 251) (zseq 0 512)). eexists.
  split; [reflexivity|]. split; [vm_compute; reflexivity|]. split; [vm_compute; reflexivity|]. split; vm_compute; reflexivity.
Qed.
(** A default level beyond the table is read out of bounds when the record level admits it. *)
Theorem C100_default_refuted : exists l, bfdev_log_core (fun t => Some t) (repeat 0 512) 1 (Some l) (str "x") = None.
Proof. exists {| default_level := 9; record_level := 9; flags := 2; custom := false |}. vm_compute. reflexivity. Qed.

Print Assumptions C99_vscnprintf.
Print Assumptions C99_empty.
Print Assumptions C99_error.
Print Assumptions C99_error_refuted.
Print Assumptions C100_level.
Print Assumptions C100_endptr_refuted.
Print Assumptions C100_log.
Print Assumptions C100_reset_refuted.
Print Assumptions C100_error_refuted.
Print Assumptions C100_default_refuted.
