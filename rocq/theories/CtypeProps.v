(** Character classification (C91).  The specification lists the classes as
    ranges of codes: ISO C's "C" locale on the ASCII half, ISO 8859-1 on the
    other. *)
From Coq Require Import ZArith List Bool Lia.
From Verif Require Import CtypeModel.
Import ListNotations.
Local Open Scope Z_scope.

(* ---- specification ---- *)

Definition within (c : Z) (rs : list (Z * Z)) : bool :=
  existsb (fun r => (fst r <=? c) && (c <=? snd r)) rs.

Definition upper_codes := [(65, 90); (192, 214); (216, 222)].
Definition lower_codes := [(97, 122); (223, 246); (248, 255)].
Definition digit_codes := [(48, 57)].
Definition xdigit_codes := [(48, 57); (65, 70); (97, 102)].
Definition space_codes := [(9, 13); (32, 32); (160, 160)].
Definition blank_codes := [(9, 9); (32, 32)].
Definition cntrl_codes := [(0, 31); (127, 127)].
Definition punct_codes :=
  [(33, 47); (58, 64); (91, 96); (123, 126); (161, 191); (215, 215); (247, 247)].
Definition alpha_codes := upper_codes ++ lower_codes.
Definition alnum_codes := alpha_codes ++ digit_codes.
Definition graph_codes := [(33, 126); (161, 255)].
Definition print_codes := [(32, 126); (160, 255)].

(* ---- the 256 codes are all there is ---- *)

Definition codes : list Z := map Z.of_nat (seq 0 256).

Lemma uchar_codes c : In (uchar c) codes.
Proof.
  unfold uchar, codes. pose proof (Z.mod_pos_bound c 256 eq_refl).
  apply in_map_iff. exists (Z.to_nat (c mod 256)). split; [lia |].
  apply in_seq. lia.
Qed.

Lemma uchar_idem c : uchar (uchar c) = uchar c.
Proof. unfold uchar. apply Z.mod_mod; lia. Qed.

Lemma by_codes (f g : Z -> bool) :
  (forall c, f c = f (uchar c)) ->
  forallb (fun c => Bool.eqb (f c) (g c)) codes = true ->
  forall c, f c = g (uchar c).
Proof.
  intros Hf Hall c. rewrite Hf.
  rewrite forallb_forall in Hall.
  apply eqb_prop, Hall, uchar_codes.
Qed.

Lemma dynamic_uchar fl c : dynamic fl c = dynamic fl (uchar c).
Proof. unfold dynamic. now rewrite uchar_idem. Qed.

Ltac table := apply by_codes; [apply dynamic_uchar | vm_compute; reflexivity].

(** Every run-time predicate but two is exactly its class, for every int. *)
Theorem C91_dynamic c :
  isupper_dynamic c = within (uchar c) upper_codes /\
  islower_dynamic c = within (uchar c) lower_codes /\
  isdigit_dynamic c = within (uchar c) digit_codes /\
  isspace_dynamic c = within (uchar c) space_codes /\
  iscntrl_dynamic c = within (uchar c) cntrl_codes /\
  ispunct_dynamic c = within (uchar c) punct_codes /\
  isalpha_dynamic c = within (uchar c) alpha_codes /\
  isalnum_dynamic c = within (uchar c) alnum_codes /\
  isgraph_dynamic c = within (uchar c) graph_codes /\
  isprint_dynamic c = within (uchar c) print_codes /\
  isascii_dynamic c = within (uchar c) [(0, 127)].
Proof.
  repeat split; revert c;
    match goal with |- forall c, ?f c = within _ ?rs =>
      apply (by_codes f (fun c => within c rs));
      [intros; apply dynamic_uchar | vm_compute; reflexivity] end.
Qed.

Example C91_dynamic_ex :
  isupper_dynamic 65 = true /\ isupper_dynamic (-64) = true /\ isdigit_dynamic 32 = false.
Proof. vm_compute. auto. Qed.

Print Assumptions C91_dynamic.

(** The classes nest and exclude each other as ISO C asks, for every int. *)
Theorem C91_classes c :
  isalnum_dynamic c = isalpha_dynamic c || isdigit_dynamic c /\
  isalpha_dynamic c = isupper_dynamic c || islower_dynamic c /\
  isupper_dynamic c && islower_dynamic c = false /\
  isgraph_dynamic c = isalnum_dynamic c || ispunct_dynamic c /\
  isalnum_dynamic c && ispunct_dynamic c = false /\
  isprint_dynamic c && iscntrl_dynamic c = false /\
  (isascii_dynamic c = true -> isprint_dynamic c = negb (iscntrl_dynamic c)).
Proof.
  assert (H : forallb (fun c =>
     Bool.eqb (isalnum_dynamic c) (isalpha_dynamic c || isdigit_dynamic c) &&
     Bool.eqb (isalpha_dynamic c) (isupper_dynamic c || islower_dynamic c) &&
     Bool.eqb (isupper_dynamic c && islower_dynamic c) false &&
     Bool.eqb (isgraph_dynamic c) (isalnum_dynamic c || ispunct_dynamic c) &&
     Bool.eqb (isalnum_dynamic c && ispunct_dynamic c) false &&
     Bool.eqb (isprint_dynamic c && iscntrl_dynamic c) false &&
     implb (isascii_dynamic c) (Bool.eqb (isprint_dynamic c) (negb (iscntrl_dynamic c))))
     codes = true) by (vm_compute; reflexivity).
  rewrite forallb_forall in H. specialize (H _ (uchar_codes c)).
  unfold isalnum_dynamic, isalpha_dynamic, isdigit_dynamic, isupper_dynamic,
    islower_dynamic, isgraph_dynamic, ispunct_dynamic, isprint_dynamic,
    iscntrl_dynamic, isascii_dynamic in *.
  rewrite <- !dynamic_uchar in H.
  rewrite !andb_true_iff in H. destruct H as [[[[[[A B] C] D] E] F] G].
  apply eqb_prop in A, B, C, D, E, F.
  repeat (split; [assumption |]).
  intros Hasc. rewrite Hasc in G. now apply eqb_prop in G.
Qed.

Example C91_classes_ex : isascii_dynamic 97 = true /\ isprint_dynamic 97 = true.
Proof. vm_compute. auto. Qed.

Print Assumptions C91_classes.

(** isxdigit and isblank are right everywhere but at '0', HT and VT. *)
Theorem C91_xdigit_blank_partial c :
  (uchar c <> 48 -> isxdigit_dynamic c = within (uchar c) xdigit_codes) /\
  (uchar c <> 9 -> uchar c <> 11 -> isblank_dynamic c = within (uchar c) blank_codes).
Proof.
  assert (H : forallb (fun c =>
     ((c =? 48) || Bool.eqb (isxdigit_dynamic c) (within c xdigit_codes)) &&
     ((c =? 9) || (c =? 11) || Bool.eqb (isblank_dynamic c) (within c blank_codes)))
     codes = true) by (vm_compute; reflexivity).
  rewrite forallb_forall in H. specialize (H _ (uchar_codes c)).
  unfold isxdigit_dynamic, isblank_dynamic in *. rewrite <- !dynamic_uchar in H.
  rewrite andb_true_iff, !orb_true_iff, !Z.eqb_eq in H.
  destruct H as [HX HB]. split.
  - intros. destruct HX as [HX | HX]; [congruence | now apply eqb_prop].
  - intros. destruct HB as [[HB | HB] | HB]; try congruence. now apply eqb_prop.
Qed.

Example C91_xdigit_blank_ex :
  uchar 70 <> 48 /\ isxdigit_dynamic 70 = true /\ isblank_dynamic 32 = true.
Proof. vm_compute. repeat split; congruence. Qed.

Print Assumptions C91_xdigit_blank_partial.

(** '0' is not a hexadecimal digit. *)
Theorem C91_xdigit_refuted :
  exists c, isxdigit_dynamic c <> within (uchar c) xdigit_codes /\ isdigit_dynamic c = true.
Proof. exists 48. vm_compute. split; congruence. Qed.

Print Assumptions C91_xdigit_refuted.

(** The horizontal tab is not blank, the vertical tab is. *)
Theorem C91_blank_refuted :
  (exists c, within (uchar c) blank_codes = true /\ isblank_dynamic c = false) /\
  (exists c, within (uchar c) blank_codes = false /\ isblank_dynamic c = true).
Proof. split; [exists 9 | exists 11]; vm_compute; auto. Qed.

Print Assumptions C91_blank_refuted.

(** The compile-time versions: the subtraction is signed, so the codes below the
    first of a class belong to it as well.  Their exact extension, for every
    int. *)
Theorem C91_const c :
  isdigit_const c = within (uchar c) [(0, 57)] /\
  isupper_const c = within (uchar c) [(0, 90)] /\
  islower_const c = within (uchar c) [(0, 122)] /\
  isgraph_const c = within (uchar c) [(0, 126)] /\
  isprint_const c = within (uchar c) [(0, 126)] /\
  isalpha_const c = within (uchar c) [(0, 90); (96, 122)] /\
  isalnum_const c = within (uchar c) [(0, 90); (96, 122)] /\
  ispunct_const c = within (uchar c) [(91, 95); (123, 126)] /\
  isxdigit_const c = within (uchar c) [(0, 70); (96, 102)] /\
  ascii_const c = within (uchar c) [(0, 127)].
Proof.
  repeat split; revert c;
    match goal with |- forall c, ?f c = within _ ?rs =>
      apply (by_codes f (fun c => within c rs));
      [intros; unfold isalnum_const, ispunct_const, isalnum_const, isxdigit_const,
         isgraph_const, isalpha_const, isdigit_const, ascii_const, isupper_const,
         islower_const, isprint_const; now rewrite ?uchar_idem
      | vm_compute; reflexivity] end.
Qed.

Example C91_const_ex : isdigit_const 32 = true /\ isupper_const 98 = false.
Proof. vm_compute. auto. Qed.

Print Assumptions C91_const.

(** Only two are right, and only for arguments that fit an unsigned char. *)
Theorem C91_const_right c : 0 <= c <= 255 ->
  isblank_const c = within c blank_codes /\
  iscntrl_const c = within c cntrl_codes /\
  ascii_const c = within c [(0, 127)].
Proof.
  intros Hc. unfold isblank_const, iscntrl_const, ascii_const, uchar, within.
  rewrite Z.mod_small by lia. simpl.
  repeat split; apply eq_true_iff_eq;
    rewrite ?orb_true_iff, ?andb_true_iff, ?Z.leb_le, ?Z.ltb_lt, ?Z.eqb_eq; lia.
Qed.

Example C91_const_right_ex : isblank_const 9 = true /\ iscntrl_const 127 = true.
Proof. vm_compute. auto. Qed.

Print Assumptions C91_const_right.

(** The answer of a macro depends on whether the compiler knows its argument. *)
Theorem C91_known_refuted :
  (exists c, isdigit true c <> isdigit false c /\ 0 <= c <= 127) /\
  (exists c, isupper true c <> isupper false c /\ 0 <= c <= 127) /\
  (exists c, islower true c <> islower false c /\ 0 <= c <= 127) /\
  (exists c, isalpha true c <> isalpha false c /\ 0 <= c <= 127) /\
  (exists c, isalnum true c <> isalnum false c /\ 0 <= c <= 127) /\
  (exists c, isspace true c <> isspace false c /\ 0 <= c <= 127) /\
  (exists c, isprint true c <> isprint false c /\ 0 <= c <= 127) /\
  (exists c, isgraph true c <> isgraph false c /\ 0 <= c <= 127) /\
  (exists c, ispunct true c <> ispunct false c /\ 0 <= c <= 127) /\
  (exists c, isxdigit true c <> isxdigit false c /\ 0 <= c <= 127) /\
  (exists c, isblank true c <> isblank false c /\ 0 <= c <= 127).
Proof.
  split; [exists 32 |]. { vm_compute. intuition congruence. }
  split; [exists 32 |]. { vm_compute. intuition congruence. }
  split; [exists 65 |]. { vm_compute. intuition congruence. }
  split; [exists 48 |]. { vm_compute. intuition congruence. }
  split; [exists 32 |]. { vm_compute. intuition congruence. }
  split; [exists 0 |]. { vm_compute. intuition congruence. }
  split; [exists 10 |]. { vm_compute. intuition congruence. }
  split; [exists 32 |]. { vm_compute. intuition congruence. }
  split; [exists 33 |]. { vm_compute. intuition congruence. }
  split; [exists 48 |]. { vm_compute. intuition congruence. }
  exists 9. vm_compute. intuition congruence.
Qed.

Print Assumptions C91_known_refuted.

(** For ASCII arguments that are not below the class both ways agree: the part
    of the claim that holds. *)
Theorem C91_known_partial k c : 0 <= c <= 127 ->
  (48 <= c -> isdigit k c = within c digit_codes) /\
  (65 <= c -> isupper k c = within c upper_codes) /\
  (97 <= c -> islower k c = within c lower_codes) /\
  (33 <= c -> isgraph k c = within c graph_codes) /\
  (32 <= c -> isprint k c = within c print_codes) /\
  (9 <= c -> isspace k c = within c space_codes) /\
  (97 <= c -> isalpha k c = within c alpha_codes) /\
  (97 <= c -> isxdigit k c = within c xdigit_codes) /\
  iscntrl k c = within c cntrl_codes.
Proof.
  intros Hc.
  assert (H : forallb (fun c => forallb (fun k =>
    (127 <? c) ||
    (((c <? 48) || Bool.eqb (isdigit k c) (within c digit_codes)) &&
    ((c <? 65) || Bool.eqb (isupper k c) (within c upper_codes)) &&
    ((c <? 97) || Bool.eqb (islower k c) (within c lower_codes)) &&
    ((c <? 33) || Bool.eqb (isgraph k c) (within c graph_codes)) &&
    ((c <? 32) || Bool.eqb (isprint k c) (within c print_codes)) &&
    ((c <? 9) || Bool.eqb (isspace k c) (within c space_codes)) &&
    ((c <? 97) || Bool.eqb (isalpha k c) (within c alpha_codes)) &&
    ((c <? 97) || Bool.eqb (isxdigit k c) (within c xdigit_codes)) &&
    Bool.eqb (iscntrl k c) (within c cntrl_codes))) [true; false]) codes = true)
    by (vm_compute; reflexivity).
  rewrite forallb_forall in H. specialize (H _ (uchar_codes c)).
  assert (Hu : uchar c = c) by (unfold uchar; apply Z.mod_small; lia).
  rewrite Hu in H. rewrite forallb_forall in H.
  specialize (H k ltac:(destruct k; simpl; auto)).
  rewrite orb_true_iff, !andb_true_iff, !orb_true_iff, !Z.ltb_lt in H.
  destruct H as [H | H]; [lia |].
  destruct H as [[[[[[[[H1 H2] H3] H4] H5] H6] H7] H8] H9].
  repeat split; try (apply eqb_prop; assumption); intros Hl;
    match goal with
    | H : _ < ?b \/ Bool.eqb ?x ?y = true |- ?x = ?y =>
        destruct H; [lia | now apply eqb_prop] end.
Qed.

Example C91_known_ex : 0 <= 57 <= 127 /\ isdigit true 57 = true /\ isdigit false 58 = false.
Proof. vm_compute. intuition congruence. Qed.

Print Assumptions C91_known_partial.

(** Case conversion with the "C" locale of the C library: letters change to
    their other case, and everything else is unchanged. *)
Definition c_isupper (c : Z) : bool := within c [(65, 90)].
Definition c_islower (c : Z) : bool := within c [(97, 122)].

Theorem C91_case c : 0 <= c <= 255 ->
  tolower c_isupper c = Some (if c_isupper c then c + 32 else c) /\
  toupper c_islower c = Some (if c_islower c then c - 32 else c).
Proof.
  intros Hc.
  assert (H : forallb (fun c =>
     match tolower c_isupper c, toupper c_islower c with
     | Some l, Some u => (l =? (if c_isupper c then c + 32 else c)) &&
                         (u =? (if c_islower c then c - 32 else c))
     | _, _ => false end) codes = true) by (vm_compute; reflexivity).
  rewrite forallb_forall in H. specialize (H _ (uchar_codes c)).
  assert (Hu : uchar c = c) by (unfold uchar; apply Z.mod_small; lia).
  rewrite Hu in H.
  destruct (tolower c_isupper c), (toupper c_islower c); try discriminate.
  rewrite andb_true_iff, !Z.eqb_eq in H. destruct H; subst; auto.
Qed.

Example C91_case_ex : tolower c_isupper 65 = Some 97 /\ toupper c_islower 97 = Some 65.
Proof. vm_compute. auto. Qed.

Print Assumptions C91_case.

(** EOF is not left alone, unlike with the functions of the C library. *)
Theorem C91_eof_refuted : exists c, c = -1 /\
  tolower c_isupper c = Some 255 /\ toupper c_islower c = Some 255.
Proof. exists (-1). vm_compute. auto. Qed.

Print Assumptions C91_eof_refuted.

Theorem C91_toascii c : toascii c = c mod 128.
Proof.
  unfold toascii, uchar. change 127 with (Z.ones 7). rewrite Z.land_ones by lia.
  change (2 ^ 7) with 128. rewrite <- (Znumtheory.Zmod_div_mod 128 256); lia || auto.
  exists 2. reflexivity.
Qed.

Example C91_toascii_ex : toascii 193 = 65.
Proof. reflexivity. Qed.

Print Assumptions C91_toascii.
