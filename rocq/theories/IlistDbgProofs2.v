(** * The debug calls on any links, and the links any history leaves *)
From Verif Require Import Lib Ptr ListModel ListSpec ListProofs IlistModel IlistSpec IlistDbgModel IlistDbgSpec IlistDbgProofs.

(** Every link is answered by the link back. *)
Definition wound (m : mem) (D : list Z) : Prop :=
  within m D /\ (forall q n, In q D -> m q NEXT = Some n -> m n PREV = Some q) /\ (forall q p, In q D -> m q PREV = Some p -> m p NEXT = Some q).
Lemma wound_off D D' m m' : same_off D m m' -> (forall q, In q D' -> ~ In q D) -> wound m D' -> wound m' D'.
Proof.
  intros S H (W & A & B). split; [exact (within_off D D' m m' S H W)|]. split; intros q n Hq E; rewrite S in E by (apply H, Hq); destruct (W q Hq) as (x & y & Ex & Ix & Ey & Iy).
  - rewrite Ex in E. injection E as <-. rewrite S by (apply H, Ix). apply A; assumption.
  - rewrite Ey in E. injection E as <-. rewrite S by (apply H, Iy). apply B; assumption.
Qed.
Lemma wound_whole m D h : wound m D -> In h D -> whole m h.
Proof.
  intros (W & A & B) Hh. destruct (check_answers m h D (length D) W Hh (Nat.le_refl _)) as (b & E & Hb). apply Hb. destruct b; [reflexivity|]. exfalso.
  assert (G : forall fuel p n, In p D -> m p NEXT = Some n -> check_from fuel m h p n <> Ret false).
  { induction fuel as [|fuel IH]; intros p n Hp En; [discriminate|]. cbn [check_from].
    assert (L : linked m p n) by (split; [exact En|apply A; assumption]). rewrite (proj2 (integrity_true m p n) L). cbn [andb]. destruct (negb (n =? h)); [|discriminate].
    assert (Hn : In n D) by (destruct (W p Hp) as (x & y & Ex & Ix & _); rewrite Ex in En; injection En as <-; exact Ix).
    unfold ld. destruct (m n NEXT) as [n'|] eqn:En'; [|discriminate]. apply IH; assumption. }
  unfold check_list, ld in E. destruct (m h NEXT) as [n|] eqn:En; [|discriminate]. revert E. apply G; assumption.
Qed.
Ltac upd_cases := unfold upd; repeat match goal with |- context [?a =? ?b] => destruct (Z.eqb_spec a b) end; cbn [andb]; try congruence.
(** Linking a node that is alone keeps the links wound. *)
Lemma add_prev_wound m D a x : wound m D -> In a D -> In x D -> m x NEXT = Some x -> exists m', list_add_prev m a x = Some m' /\ wound m' D /\ same_off D m m'.
Proof.
  intros (W & A & B) Ha Hx Ex. pose proof (A x x Hx Ex) as Px. unfold list_add_prev, ld. destruct (W a Ha) as (n & p & En & In' & Ep & Ip). rewrite Ep.
  pose proof (B a p Ha Ep) as Np.
  unfold list_insert. stw. stw. stw. stw. eexists. split; [reflexivity|]. split; [|offs]. split; [assumption|].
  assert (FN : forall q, upd (upd (upd (upd m p NEXT x) a PREV x) x PREV p) x NEXT a q NEXT = if q =? x then Some a else if q =? p then Some x else m q NEXT).
  { intros q. unfold upd. change (NEXT =? NEXT) with true. change (NEXT =? PREV) with false. rewrite !andb_true_r, !andb_false_r. reflexivity. }
  assert (FP : forall q, upd (upd (upd (upd m p NEXT x) a PREV x) x PREV p) x NEXT a q PREV = if q =? x then Some p else if q =? a then Some x else m q PREV).
  { intros q. unfold upd. change (PREV =? NEXT) with false. change (PREV =? PREV) with true. rewrite !andb_true_r, !andb_false_r. reflexivity. }
  split; intros q y Hq E.
  - rewrite FN in E. rewrite FP. destruct (Z.eqb_spec q x) as [-> | Hqx].
    + injection E as <-. destruct (Z.eqb_spec a x) as [-> | Hax]; [congruence|]. rewrite Z.eqb_refl. reflexivity.
    + destruct (Z.eqb_spec q p) as [-> | Hqp]; [injection E as <-; rewrite Z.eqb_refl; reflexivity|].
      pose proof (A q y Hq E) as Py. destruct (Z.eqb_spec y x) as [-> | Hyx]; [congruence|]. destruct (Z.eqb_spec y a) as [-> | Hya]; [congruence|exact Py].
  - rewrite FP in E. rewrite FN. destruct (Z.eqb_spec q x) as [-> | Hqx].
    + injection E as <-. destruct (Z.eqb_spec p x) as [-> | Hax]; [congruence|]. rewrite Z.eqb_refl. reflexivity.
    + destruct (Z.eqb_spec q a) as [-> | Hqa]; [injection E as <-; rewrite Z.eqb_refl; reflexivity|].
      pose proof (B q y Hq E) as Ny. destruct (Z.eqb_spec y x) as [-> | Hyx]; [congruence|]. destruct (Z.eqb_spec y p) as [-> | Hyp]; [congruence|exact Ny].
Qed.
(** Unlinking any node keeps them wound. *)
Lemma del_init_wound m D x : wound m D -> In x D -> exists m', list_del_init m x = Some m' /\ wound m' D /\ same_off D m m'.
Proof.
  intros (W & A & B) Hx. unfold list_del_init, list_deluf, ld. destruct (W x Hx) as (n & p & En & In' & Ep & Ip). rewrite Ep, En.
  pose proof (A x n Hx En) as Pn. pose proof (B x p Hx Ep) as Np. stw.
  assert (E1 : upd m p NEXT n x NEXT = Some n) by (unfold upd; destruct (Z.eqb_spec x p); cbn [andb]; [reflexivity|exact En]).
  assert (E2 : upd m p NEXT n x PREV = Some p) by (unfold upd; change (PREV =? NEXT) with false; rewrite andb_false_r; exact Ep).
  rewrite E1, E2. stw. unfold list_head_init. stw. stw. eexists. split; [reflexivity|]. split; [|offs]. split; [assumption|].
  assert (FN : forall q, upd (upd (upd (upd m p NEXT n) n PREV p) x PREV x) x NEXT x q NEXT = if q =? x then Some x else if q =? p then Some n else m q NEXT).
  { intros q. unfold upd. change (NEXT =? NEXT) with true. change (NEXT =? PREV) with false. rewrite !andb_true_r, !andb_false_r. reflexivity. }
  assert (FP : forall q, upd (upd (upd (upd m p NEXT n) n PREV p) x PREV x) x NEXT x q PREV = if q =? x then Some x else if q =? n then Some p else m q PREV).
  { intros q. unfold upd. change (PREV =? NEXT) with false. change (PREV =? PREV) with true. rewrite !andb_true_r, !andb_false_r. reflexivity. }
  split; intros q y Hq E.
  - rewrite FN in E. rewrite FP. destruct (Z.eqb_spec q x) as [-> | Hqx]; [injection E as <-; rewrite Z.eqb_refl; reflexivity|].
    destruct (Z.eqb_spec q p) as [-> | Hqp].
    + injection E as <-. destruct (Z.eqb_spec n x) as [-> | Hnx]; [congruence|]. rewrite Z.eqb_refl. reflexivity.
    + pose proof (A q y Hq E) as Py. destruct (Z.eqb_spec y x) as [-> | Hyx]; [congruence|]. destruct (Z.eqb_spec y n) as [-> | Hyn]; [congruence|exact Py].
  - rewrite FP in E. rewrite FN. destruct (Z.eqb_spec q x) as [-> | Hqx]; [injection E as <-; rewrite Z.eqb_refl; reflexivity|].
    destruct (Z.eqb_spec q n) as [-> | Hqn].
    + injection E as <-. destruct (Z.eqb_spec p x) as [-> | Hnx]; [congruence|]. rewrite Z.eqb_refl. reflexivity.
    + pose proof (B q y Hq E) as Py. destruct (Z.eqb_spec y x) as [-> | Hyx]; [congruence|]. destruct (Z.eqb_spec y p) as [-> | Hyn]; [congruence|exact Py].
Qed.

Lemma idx_in U p : In p (map IDX U) -> In (of_idx p) U.
Proof. rewrite in_map_iff. intros (q & <- & H). unfold of_idx, IDX. replace (q + 16 - 16) with q by lia. exact H. Qed.
Lemma find_in cmp m h U inode first : within m (map IDX U) -> forall fuel w prev next prev' w', In w U -> ilist_find cmp fuel m h inode first w prev = Some (next, prev', w') -> In next (h :: U) /\ In w' U.
Proof.
  intros W. induction fuel as [|fuel IH]; intros w prev next prev' w' Hw E; [discriminate|]. cbn [ilist_find] in E.
  destruct (cmp inode w <? 0); [injection E as <- <- <-; cbn; auto|]. unfold ld in E. destruct (W (IDX w)) as (n & p & En & In' & _); [apply in_map; exact Hw|]. rewrite En in E.
  pose proof (idx_in U n In') as Hn. destruct (of_idx n =? first); [injection E as <- <- <-; cbn; auto|]. exact (IH _ _ _ _ _ Hn E).
Qed.

Section Calls.
Variables (h : Z) (U : list Z).
Hypothesis AP : apart h U.
Lemma off12 q : In q (map IDX U) -> ~ In q (h :: U).
Proof. rewrite in_map_iff. intros (p & <- & Hp) H. destruct AP as (_ & _ & _ & A). exact (A p (IDX p) Hp H eq_refl). Qed.
Lemma off21 q : In q (h :: U) -> ~ In q (map IDX U).
Proof. intros H1 H2. exact (off12 q H2 H1). Qed.

(** [keeps P]: the plain calls preserve [P], a condition on each of the two kinds of links. *)
Lemma add_no_wild cmp fuel m n m' : no_wild m h U -> In n U -> ilist_add cmp fuel m h n = Some m' -> no_wild m' h U.
Proof.
  intros [W1 W2] Hn E. unfold ilist_add in E. destruct (list_check_empty m n) as [e1|]; [|discriminate]. destruct (list_check_empty m (IDX n)) as [e2|]; [|discriminate].
  destruct (negb e1 || negb e2); [injection E as <-; split; assumption|]. unfold ilist_head_empty, list_check_empty, ilist_first, ld in E.
  destruct (W1 h) as (f & p & Ef & If & _); [cbn; auto|]. rewrite Ef in E. destruct (Z.eqb_spec f h) as [Efh | Hf]; [subst f|].
  - destruct (add_prev_within m (h :: U) h n W1) as (m1 & E1 & Wm & So); [cbn; auto|cbn; auto|]. rewrite E1 in E. injection E as <-. split; [exact Wm|]. exact (within_off _ _ _ _ So off12 W2).
  - assert (Hf' : In f U) by (destruct If; [congruence|assumption]). destruct (ilist_find cmp fuel m h n f f NULL) as [[[next prev] w]|] eqn:Ed; [|discriminate].
    destruct (find_in cmp m h U n f W2 fuel f NULL next prev w Hf' Ed) as [Hnx Hw].
    assert (G : forall m1, no_wild m1 h U -> list_add_prev m1 next n = Some m' -> no_wild m' h U).
    { intros m1 [V1 V2] E1. destruct (add_prev_within m1 (h :: U) next n V1 Hnx) as (m2 & E2 & Wm & So); [cbn; auto|]. rewrite E2 in E1. injection E1 as <-. split; [exact Wm|]. exact (within_off _ _ _ _ So off12 V2). }
    destruct ((prev =? NULL) || negb (cmp prev n =? 0)); [|exact (G m (conj W1 W2) E)].
    destruct (add_prev_within m (map IDX U) (IDX w) (IDX n) W2) as (m1 & E1 & Wm & So); [apply in_map; exact Hw|apply in_map; exact Hn|]. rewrite E1 in E.
    apply (G m1); [|exact E]. split; [|exact Wm]. exact (within_off _ _ _ _ So off21 W1).
Qed.
Lemma del_no_wild m n : no_wild m h U -> In n U -> exists m', ilist_del m h n = Some m' /\ no_wild m' h U.
Proof.
  intros [W1 W2] Hn. unfold ilist_del, ilist_node_empty, list_check_empty, ld. assert (Hi : In (IDX n) (map IDX U)) by (apply in_map; exact Hn).
  destruct (W2 (IDX n) Hi) as (x & y & Ex & Ix & Ey & Iy). rewrite Ex.
  assert (G : forall m1, no_wild m1 h U -> exists m', list_del_init m1 n = Some m' /\ no_wild m' h U).
  { intros m1 [V1 V2]. destruct (del_init_within m1 (h :: U) n V1) as (m2 & E2 & Wm & So); [cbn; auto|]. exists m2. split; [exact E2|]. split; [exact Wm|]. exact (within_off _ _ _ _ So off12 V2). }
  destruct (negb (x =? IDX n)); [|apply G; split; assumption].
  destruct (W1 n) as (a & b & Ea & _); [cbn; auto|]. rewrite Ea.
  assert (G2 : forall m1, no_wild m1 h U -> exists m', match list_del_init m1 (IDX n) with Some m2 => list_del_init m2 n | None => None end = Some m' /\ no_wild m' h U).
  { intros m1 [V1 V2]. destruct (del_init_within m1 (map IDX U) (IDX n) V2 Hi) as (m2 & E2 & Wm & So). rewrite E2. apply G. split; [|exact Wm]. exact (within_off _ _ _ _ So off21 V1). }
  destruct (negb (a =? h)); [|apply G2; split; assumption].
  pose proof (in_map IDX _ _ (idx_in U x Ix)) as Hox. destruct (W2 _ Hox) as (c & d & Ec & _). rewrite Ec.
  destruct (c =? IDX (of_idx x)); [|apply G2; split; assumption].
  destruct (add_within m (map IDX U) (IDX n) (IDX n) W2 Hi Hi) as (m1 & E1 & Wm & So). rewrite E1. apply G2. split; [|exact Wm]. exact (within_off _ _ _ _ So off21 W1).
Qed.
(** What the check of the head answers. *)
Lemma check_head_answers m fuel : no_wild m h U -> (length U < fuel)%nat ->
  exists ok lg, check_head fuel m h = Ret (ok, lg) /\ (ok = true <-> whole m h) /\ (lg = false <-> sound m h).
Proof.
  intros [W1 W2] Hf. unfold check_head. destruct (check_answers m h (h :: U) fuel W1) as (b & Eb & Hb); [cbn; auto|cbn [length]; lia|]. rewrite Eb.
  destruct b.
  - assert (Wh : whole m h) by (apply Hb; reflexivity). unfold ilist_head_empty, list_check_empty, ilist_first, ld. destruct (W1 h) as (f & p & Ef & If & _); [cbn; auto|]. rewrite Ef.
    destruct (Z.eqb_spec f h) as [Efh | Hfh]; [subst f|].
    + exists true, false. split; [reflexivity|]. split; [tauto|]. split; [|reflexivity]. intros _. split; [exact Wh|]. intros f Ef' Hne. congruence.
    + assert (Hf' : In f U) by (destruct If; [congruence|assumption]). destruct (check_answers m (IDX f) (map IDX U) fuel W2) as (c & Ec & Hc); [apply in_map; exact Hf'|rewrite map_length; lia|].
      rewrite Ec. exists true, (negb c). split; [reflexivity|]. split; [tauto|]. rewrite negb_false_iff, Hc. split.
      * intros H. split; [exact Wh|]. intros f' Ef' _. rewrite Ef in Ef'. injection Ef' as <-. exact H.
      * intros [_ H]. exact (H f Ef Hfh).
  - exists false, true. split; [reflexivity|]. split; [exact Hb|]. split; [discriminate|]. intros [H _]. apply Hb in H. discriminate.
Qed.
(** A call between the checks. *)
Lemma checked_ok m fuel f : no_wild m h U -> (length U < fuel)%nat ->
  (forall m' e, f m = Some (m', e) -> no_wild m' h U /\ (e = true -> m' = m)) ->
  (~ whole m h -> checked fuel h f m = Some (m, true)) /\
  (whole m h -> option_map fst (checked fuel h f m) = option_map fst (f m)) /\
  (forall m' b, checked fuel h f m = Some (m', b) -> b = false <-> sound m h /\ sound m' h).
Proof.
  intros W Hf Hw. unfold checked. destruct (check_head_answers m fuel W Hf) as (ok & lg & E & Ho & Hl). rewrite E. split; [|split].
  - intros N. destruct ok; [exfalso; apply N, Ho; reflexivity|]. destruct lg; [reflexivity|]. exfalso. apply N. apply Hl. reflexivity.
  - intros H. apply Ho in H. subst ok. destruct (f m) as [[m' e]|] eqn:Ef; [|reflexivity]. cbn [fst snd]. destruct (Hw m' e eq_refl) as [Wm _]. destruct e; [reflexivity|].
    destruct (check_head_answers m' fuel Wm Hf) as (ok' & lg' & E' & _). rewrite E'. reflexivity.
  - intros m' b. destruct ok.
    + destruct (f m) as [[m1 e]|] eqn:Ef; [|discriminate]. cbn [fst snd]. destruct (Hw m1 e eq_refl) as [Wm He]. destruct e.
      * intros Eq. injection Eq as <- <-. rewrite (He eq_refl). rewrite Hl. tauto.
      * destruct (check_head_answers m1 fuel Wm Hf) as (ok' & lg' & E' & _ & Hl'). rewrite E'. intros Eq. injection Eq as <- <-. rewrite orb_false_iff, Hl, Hl'. tauto.
    + intros Eq. injection Eq as <- <-. rewrite Hl. tauto.
Qed.
(** The links of both kinds stay wound whatever is added and deleted. *)
Definition wound2 (m : mem) : Prop := wound m (h :: U) /\ wound m (map IDX U).
Lemma wound2_no_wild m : wound2 m -> no_wild m h U.
Proof. intros [[A _] [B _]]. split; assumption. Qed.
Lemma wound2_sound m : wound2 m -> sound m h.
Proof.
  intros [A B]. split; [apply (wound_whole m (h :: U)); [exact A|cbn; auto]|]. intros f Ef Hne. apply (wound_whole m (map IDX U)); [exact B|]. apply in_map.
  destruct A as (W & _). destruct (W h) as (x & y & Ex & Ix & _); [cbn; auto|]. rewrite Ef in Ex. injection Ex as <-. destruct Ix; [congruence|assumption].
Qed.
Lemma add_wound2 cmp fuel m n m' : wound2 m -> In n U -> ilist_add cmp fuel m h n = Some m' -> wound2 m'.
Proof.
  intros [A B] Hn E. unfold ilist_add in E. unfold list_check_empty at 1 2, ld in E. destruct (m n NEXT) as [x|] eqn:Ex; [|discriminate]. destruct (m (IDX n) NEXT) as [y|] eqn:Ey; [|discriminate].
  destruct (Z.eqb_spec x n) as [-> | Hx]; [|injection E as <-; split; assumption]. destruct (Z.eqb_spec y (IDX n)) as [-> | Hy]; [|injection E as <-; split; assumption]. cbn [negb orb] in E.
  unfold ilist_head_empty, list_check_empty, ilist_first, ld in E. destruct (proj1 A h) as (f & p & Ef & If & _); [cbn; auto|]. rewrite Ef in E. destruct (Z.eqb_spec f h) as [Efh | Hf]; [subst f|].
  - destruct (add_prev_wound m (h :: U) h n A) as (m1 & E1 & Wm & So); [cbn; auto|cbn; auto|exact Ex|]. rewrite E1 in E. injection E as <-. split; [exact Wm|]. exact (wound_off _ _ _ _ So off12 B).
  - assert (Hf' : In f U) by (destruct If; [congruence|assumption]). destruct (ilist_find cmp fuel m h n f f NULL) as [[[next prev] w]|] eqn:Ed; [|discriminate].
    destruct (find_in cmp m h U n f (proj1 B) fuel f NULL next prev w Hf' Ed) as [Hnx Hw].
    assert (G : forall m1, wound2 m1 -> m1 n NEXT = Some n -> list_add_prev m1 next n = Some m' -> wound2 m').
    { intros m1 [V1 V2] En E1. destruct (add_prev_wound m1 (h :: U) next n V1 Hnx) as (m2 & E2 & Wm & So); [cbn; auto|exact En|]. rewrite E2 in E1. injection E1 as <-. split; [exact Wm|]. exact (wound_off _ _ _ _ So off12 V2). }
    destruct ((prev =? NULL) || negb (cmp prev n =? 0)); [|exact (G m (conj A B) Ex E)].
    destruct (add_prev_wound m (map IDX U) (IDX w) (IDX n) B) as (m1 & E1 & Wm & So); [apply in_map; exact Hw|apply in_map; exact Hn|exact Ey|]. rewrite E1 in E.
    apply (G m1); [| |exact E]; [split; [|exact Wm]; exact (wound_off _ _ _ _ So off21 A)|]. rewrite So; [exact Ex|apply off21; cbn; auto].
Qed.
Lemma del_wound2 m n : wound2 m -> In n U -> exists m', ilist_del m h n = Some m' /\ wound2 m'.
Proof.
  intros [A B] Hn. unfold ilist_del, ilist_node_empty, list_check_empty, ld. assert (Hi : In (IDX n) (map IDX U)) by (apply in_map; exact Hn).
  destruct (proj1 B (IDX n) Hi) as (x & y & Ex & Ix & Ey & Iy). rewrite Ex.
  assert (G : forall m1, wound2 m1 -> exists m', list_del_init m1 n = Some m' /\ wound2 m').
  { intros m1 [V1 V2]. destruct (del_init_wound m1 (h :: U) n V1) as (m2 & E2 & Wm & So); [cbn; auto|]. exists m2. split; [exact E2|]. split; [exact Wm|]. exact (wound_off _ _ _ _ So off12 V2). }
  destruct (Z.eqb_spec x (IDX n)) as [Hx|Hx]; cbn [negb]; [apply G; split; assumption|].
  destruct (proj1 A n) as (a & b & Ea & _); [cbn; auto|]. rewrite Ea.
  assert (G2 : forall m1, wound2 m1 -> exists m', match list_del_init m1 (IDX n) with Some m2 => list_del_init m2 n | None => None end = Some m' /\ wound2 m').
  { intros m1 [V1 V2]. destruct (del_init_wound m1 (map IDX U) (IDX n) V2 Hi) as (m2 & E2 & Wm & So). rewrite E2. apply G. split; [|exact Wm]. exact (wound_off _ _ _ _ So off21 V1). }
  destruct (negb (a =? h)); [|apply G2; split; assumption].
  replace (IDX (of_idx x)) with x by (unfold IDX, of_idx; lia). destruct (proj1 B x Ix) as (c & d & Ec & _). rewrite Ec.
  destruct (Z.eqb_spec c x) as [-> | Hc]; [|apply G2; split; assumption].
  exfalso. destruct B as (_ & B1 & _). pose proof (B1 _ _ Hi Ex) as P1. pose proof (B1 _ _ Ix Ec) as P2. congruence.
Qed.
End Calls.
