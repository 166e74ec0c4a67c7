(** * C38, C39: text searching *)
From Verif Require Import Lib TextModel TextSpec KmpProofs SundayProofs BmProofs.

(** ** C38.  With case ignored ([up] being the C library's toupper) the strings are compared after mapping; [ch up icase] is that mapping.
    What toupper makes of the pattern's characters has to be a char again. *)
Theorem C38_first : forall up icase pattern text next start fuel,
  pattern <> [] -> zlen pattern < 2 ^ 30 -> zlen text < 2 ^ 32 -> source next text ->
  (icase = true -> forall p, In p pattern -> schar (up p) = up p) ->
  (start <= length text)%nat -> (length text < fuel)%nat ->
  let T := map (ch up icase) text in let P := map (ch up icase) pattern in
  exists k, kmp_prepare up icase pattern = Some k /\
  ((exists j, kmp_find up icase fuel k next (Z.of_nat start) = Some (Z.of_nat (j + length pattern), Z.of_nat j) /\ leftmost T P start j) \/
   (kmp_find up icase fuel k next (Z.of_nat start) = Some (Z.of_nat start, UINT_MAX) /\ absent T P start)).
Proof.
  intros up icase pattern text next start fuel NP LP LT HS HC Hs F. cbv zeta. destruct (prepare_ok up icase pattern NP LP HC) as (tab & -> & Ht). eexists. split; [reflexivity|].
  destruct (find_ok (map (ch up icase) pattern) tab text up icase next ltac:(rewrite map_length; destruct pattern; [contradiction NP; reflexivity|cbn; lia]) Ht HS LT fuel start Hs ltac:(lia)) as [(j & -> & L & _)|[-> A]].
  - left. exists j. rewrite map_length. split; [reflexivity|exact L].
  - right. split; [reflexivity|exact A].
Qed.
Theorem C38_enumerates : forall up icase pattern text next fuel,
  pattern <> [] -> zlen pattern < 2 ^ 30 -> zlen text < 2 ^ 32 -> source next text ->
  (icase = true -> forall p, In p pattern -> schar (up p) = up p) -> (length text < fuel)%nat ->
  exists k l, kmp_prepare up icase pattern = Some k /\ kmp_all up icase fuel k next 0 = Some l /\ enumerates (map (ch up icase) text) (map (ch up icase) pattern) 0 l.
Proof.
  intros up icase pattern text next fuel NP LP LT HS HC F. destruct (prepare_ok up icase pattern NP LP HC) as (tab & -> & Ht).
  destruct (all_ok (map (ch up icase) pattern) tab text up icase next ltac:(rewrite map_length; destruct pattern; [contradiction NP; reflexivity|cbn; lia]) Ht HS LT fuel 0%nat ltac:(lia) ltac:(lia)) as (l & E & En).
  eexists. exists l. split; [reflexivity|]. split; [exact E|exact En].
Qed.
(** the linear buffer is such a source *)
Theorem C38_linear : forall data, source (linear_next data) data.
Proof. apply linear_source. Qed.
(** "aabaab" in "aabaaabaabaab": positions 4 and, without overlap, none further; and "ab" ignoring case *)
Definition toupper (c : Z) : Z := if (97 <=? c) && (c <=? 122) then c - 32 else c.
Definition tolower (c : Z) : Z := if (65 <=? c) && (c <=? 90) then c + 32 else c.
Example C38_case : let data := [97;97;98;97;97;97;98;97;97;98;97;97;98] in
  match kmp_prepare toupper false [97;97;98;97;97;98] with Some k => kmp_all toupper false 20 k (linear_next data) 0 = Some [4] | None => False end.
Proof. vm_compute. reflexivity. Qed.
Example C38_case_icase : (forall p, In p [97; 66] -> schar (toupper p) = toupper p) /\
  match kmp_prepare toupper true [97; 66] with Some k => kmp_all toupper true 20 k (linear_next [65;97;98;65;66]) 0 = Some [1; 3] | None => False end.
Proof. split; [|vm_compute; reflexivity]. intros p [<-|[<-|[]]]; vm_compute; reflexivity. Qed.
(** the empty pattern, which the claim leaves out, makes the search read beside the table *)
Theorem C38_empty_refuted : exists k, kmp_prepare toupper false [] = Some k /\ kmp_find toupper false 20 k (linear_next [97]) 0 = None.
Proof. eexists. split; [reflexivity|]. vm_compute. reflexivity. Qed.

(** ** C39.  Sunday: right when a readable byte follows the text and neither it, the text nor the pattern contain the byte 255.
    Missing: exact-size texts and the byte 255 (refuted below). *)
Theorem C39_sunday_partial : forall up low icase pattern mem datalen offset,
  pattern <> [] -> 0 <= offset <= datalen -> datalen < zlen mem -> zlen mem + zlen pattern < 2 ^ 32 - 1 ->
  Forall good_byte mem -> Forall good_byte pattern ->
  (icase = true -> forall b, good_byte b -> good_byte (up b) /\ good_byte (low (up b)) /\ (b = up b \/ b = low (up b))) ->
  exists s, sunday_prepare up low icase pattern = Some s /\
  let T := map (ch up icase) (firstn (Z.to_nat datalen) mem) in let P := map (ch up icase) pattern in
  (exists j, sunday_find up icase s mem datalen offset = Some (Z.of_nat j) /\ leftmost T P (Z.to_nat offset) j) \/
  (sunday_find up icase s mem datalen offset = Some UINT_MAX /\ absent T P (Z.to_nat offset)).
Proof. intros. apply sunday_ok; assumption. Qed.
Example C39_sunday_case : forall b, good_byte b -> good_byte (toupper b) /\ good_byte (tolower (toupper b)) /\ (b = toupper b \/ b = tolower (toupper b)).
Proof.
  intros b B. unfold good_byte, toupper, tolower in *. destruct (Z.leb_spec 97 b); destruct (Z.leb_spec b 122); cbn [andb]; (destruct (Z.leb_spec 65 (b - 32)) + idtac); (destruct (Z.leb_spec (b - 32) 90) + idtac); cbn [andb]; (destruct (Z.leb_spec 65 b) + idtac); (destruct (Z.leb_spec b 90) + idtac); cbn [andb]; lia.
Qed.
Example C39_sunday_case_run : match sunday_prepare toupper tolower false [97; 98; 97] with Some s => sunday_find toupper false s [98; 97; 97; 98; 97; 0] 5 0 = Some 2 | None => False end.
Proof. vm_compute. reflexivity. Qed.
(** the byte 255 in the pattern writes beyond the table, in the text it reads beyond it *)
Theorem C39_sunday_255_refuted : sunday_prepare toupper tolower false [255] = None /\
  exists s, sunday_prepare toupper tolower false [97] = Some s /\ sunday_find toupper false s [98; 255; 0] 2 0 = None.
Proof. split; [vm_compute; reflexivity|]. eexists. split; [reflexivity|]. vm_compute. reflexivity. Qed.
(** a text that fills its memory: the byte after its end is read *)
Theorem C39_sunday_end_refuted : exists s, sunday_prepare toupper tolower false [97] = Some s /\ sunday_find toupper false s [98; 98; 98] 3 0 = None.
Proof. eexists. split; [reflexivity|]. vm_compute. reflexivity. Qed.
(** Boyer-Moore: what is reported is an occurrence inside the text, whatever the tables.  Missing: it may fail to report one, and the byte 255. *)
Theorem C39_bm_sound_partial : forall up icase b mem datalen offset r,
  bpat b <> [] -> 0 <= offset -> datalen <= zlen mem -> zlen mem + zlen (bpat b) < 2 ^ 32 - 1 ->
  bm_find up icase b mem datalen offset = Some r -> r <> UINT_MAX ->
  offset <= r /\ occurs (map (ch up icase) (firstn (Z.to_nat datalen) mem)) (bpat b) (Z.to_nat r).
Proof. exact bm_find_sound. Qed.
(** Boyer-Moore is right for every pattern whose last byte stands nowhere else in it, if neither text nor pattern contain the byte 255,
    even where the text fills its memory.  Missing: other patterns (refuted below). *)
Theorem C39_bm_partial : forall up low icase pattern mem datalen offset front last,
  map (ch up icase) pattern = front ++ [last] -> ~ In last front ->
  0 <= offset <= datalen -> datalen <= zlen mem -> zlen pattern < 2 ^ 30 -> zlen mem + zlen pattern < 2 ^ 32 - 1 ->
  Forall good_byte mem -> Forall good_byte pattern ->
  (icase = true -> forall b, good_byte b -> good_byte (up b) /\ good_byte (low (up b)) /\ (b = up b \/ b = low (up b))) ->
  exists s, bm_prepare up low icase pattern = Some s /\
  let T := map (ch up icase) (firstn (Z.to_nat datalen) mem) in let P := map (ch up icase) pattern in
  (exists j, bm_find up icase s mem datalen offset = Some (Z.of_nat j) /\ leftmost T P (Z.to_nat offset) j) \/
  (bm_find up icase s mem datalen offset = Some UINT_MAX /\ absent T P (Z.to_nat offset)).
Proof. intros. eapply bm_ok; eassumption. Qed.
Example C39_bm_case : map (ch toupper true) [97; 97; 66] = [65; 65] ++ [66] /\ ~ In 66 [65; 65] /\
  match bm_prepare toupper tolower true [97; 97; 66] with Some b => bm_find toupper true b [98; 97; 98; 97; 65; 97; 98] 7 0 = Some 4 | None => False end.
Proof. split; [reflexivity|]. split; [intros [|[|[]]]; discriminate|]. vm_compute. reflexivity. Qed.
(** "aa" in "baa" is not found *)
Theorem C39_bm_misses_refuted : exists b, bm_prepare toupper tolower false [97; 97] = Some b /\ bm_find toupper false b [98; 97; 97] 3 0 = Some UINT_MAX /\ occurs [98; 97; 97] (bpat b) 1.
Proof. eexists. split; [vm_compute; reflexivity|]. split; vm_compute; reflexivity. Qed.
Theorem C39_bm_255_refuted : bm_prepare toupper tolower false [255; 97] = None /\ exists b, bm_prepare toupper tolower false [97; 98] = Some b /\ bm_find toupper false b [98; 255] 2 0 = None.
Proof. split; [vm_compute; reflexivity|]. eexists. split; [vm_compute; reflexivity|]. vm_compute. reflexivity. Qed.
(** going on with [bfdev_textsearch_next]: both algorithms report the first match again for ever, so the matches are not enumerated *)
Lemma nexts_same find r : find 0 = Some (r, 0) -> forall n, ts_nexts find n 0 = Some (repeat r n).
Proof. intros E. induction n as [|n IH]; [reflexivity|]. cbn [ts_nexts]. rewrite E. cbn [repeat]. rewrite IH. reflexivity. Qed.
Theorem C39_next_refuted : exists pattern text s b,
  sunday_prepare toupper tolower false pattern = Some s /\ bm_prepare toupper tolower false pattern = Some b /\
  (forall n, ts_find (sunday_algo toupper false s (text ++ [0]) (zlen text)) n = Some (repeat 0 (S n)) /\
             ts_find (bm_algo toupper false b text (zlen text)) n = Some (repeat 0 (S n))) /\
  enumerates text pattern 0 [0; 2].
Proof.
  exists [97; 98], [97; 98; 97; 98]. eexists. eexists. split; [vm_compute; reflexivity|]. split; [vm_compute; reflexivity|]. split.
  - intros n. split; apply nexts_same; vm_compute; reflexivity.
  - change [0; 2] with [Z.of_nat 0; Z.of_nat 2]. apply en_cons.
    + split; [lia|]. split; [reflexivity|]. intros i Hi. lia.
    + apply en_cons; [split; [cbn; lia|]; split; [reflexivity|]; intros i Hi; cbn in Hi; lia|].
      apply en_nil. intros i Hi O. cbn in Hi. unfold occurs in O. rewrite skipn_all2 in O by (cbn; lia). discriminate O.
Qed.
Print Assumptions C38_first.
Print Assumptions C38_enumerates.
Print Assumptions C39_sunday_partial.
Print Assumptions C39_bm_sound_partial.
Print Assumptions C39_bm_partial.
Print Assumptions C39_next_refuted.
Print Assumptions C39_bm_misses_refuted.
