(** * The walk of the debug build: it always ends, and it passes exactly whole lists *)
From Verif Require Import Lib Ptr ListModel ListSpec ListProofs IlistModel IlistSpec IlistDbgModel IlistDbgSpec.

(** A path whose links agree in both directions cannot run back into itself, only into its start. *)
Lemma path_new m h l n : NoDup (h :: l) -> seg m h l n -> n <> h -> ~ In n l.
Proof.
  intros Hd Hs Hn Hi. apply in_split in Hi. destruct Hi as (a & b & ->).
  apply seg_app in Hs. destruct Hs as [Ha Hb].
  assert (La : forall l a x, seg m a l x -> m x PREV = Some (last l a)).
  { clear. induction l as [|y l IH]; intros a x H; cbn [seg] in H; [apply H|]. destruct H as [_ H]. rewrite (IH _ _ H). f_equal. destruct l as [|z l]; [reflexivity|]. cbn [last]. clear. revert z. induction l as [|w l IH]; intros z; [reflexivity|]. cbn [last] in *. apply IH. }
  pose proof (La _ _ _ Ha) as E1. pose proof (La _ _ _ Hb) as E2. rewrite E1 in E2. injection E2 as E2.
  assert (I1 : In (last a h) (h :: a)) by (clear; revert h; induction a as [|y a IH]; intros h; [cbn; auto|]; destruct a as [|z a]; [cbn; auto|]; right; change (last (y :: z :: a) h) with (last (z :: a) h); replace (last (z :: a) h) with (last (z :: a) y) by (clear; revert z; induction a as [|w a IH]; intros z; [reflexivity|]; cbn [last] in *; apply IH); apply IH).
  assert (I2 : In (last b n) (n :: b)) by (clear; revert n; induction b as [|y a IH]; intros h; [cbn; auto|]; destruct a as [|z a]; [cbn; auto|]; right; change (last (y :: z :: a) h) with (last (z :: a) h); replace (last (z :: a) h) with (last (z :: a) y) by (clear; revert z; induction a as [|w a IH]; intros z; [reflexivity|]; cbn [last] in *; apply IH); apply IH).
  rewrite <- E2 in I2. change (h :: a ++ n :: b) with ((h :: a) ++ n :: b) in Hd. revert Hd I1 I2. generalize (last a h) as x. generalize (h :: a) as u. generalize (n :: b) as v. clear.
  intros v u x. induction u as [|y u IH]; intros Hd H1 H2; [destruct H1|]. apply NoDup_cons_iff in Hd. destruct Hd as [Hy Hd]. destruct H1 as [-> | H1]; [apply Hy, in_or_app; auto|apply IH; assumption].
Qed.
Lemma path_nodup m h l : forall n, seg m h l n -> ~ In h l -> NoDup (h :: l).
Proof.
  induction l as [|x l IH] using rev_ind; intros n Hs Hh; [constructor; [intros []|constructor]|].
  apply seg_app in Hs. destruct Hs as [Hs _]. assert (H0 : ~ In h l) by (intros H; apply Hh, in_or_app; auto).
  pose proof (IH x Hs H0) as Hd. assert (Hx : x <> h) by (intros ->; apply Hh, in_or_app; right; left; reflexivity).
  pose proof (path_new m h l x Hd Hs Hx) as Hn. apply NoDup_cons_iff in Hd. destruct Hd as [H1 H2]. constructor; [exact Hh|].
  clear - H2 Hn. apply (Permutation_NoDup (l := x :: l)); [apply Permutation_cons_append|constructor; assumption].
Qed.
Lemma integrity_true m p n : integrity_check m p n = Ret true <-> linked m p n.
Proof.
  unfold integrity_check, ld, linked. destruct (m p NEXT) as [a|]; [|split; [discriminate|intros [H _]; discriminate]].
  destruct (Z.eqb_spec a n) as [-> | Ha]; cbn [negb]; [|split; [discriminate|intros [H _]; congruence]].
  destruct (m n PREV) as [b|]; [|split; [discriminate|intros [_ H]; discriminate]].
  destruct (Z.eqb_spec b p) as [-> | Hb]; split; try discriminate; try (intros [_ H]; congruence); auto.
Qed.
Lemma integrity_no_spin m p n : integrity_check m p n <> Spin.
Proof. unfold integrity_check. destruct (ld m p NEXT); [|discriminate]. destruct (negb _); [discriminate|]. destruct (ld m n PREV); discriminate. Qed.
(** A passed walk has gone around. *)
Lemma check_from_true fuel m h : forall p n, check_from fuel m h p n = Ret true -> exists l, seg m p l h /\ ~ In h l.
Proof.
  induction fuel as [|fuel IH]; intros p n H; [discriminate|]. cbn [check_from] in H.
  destruct (integrity_check m p n) as [| |s] eqn:E; try discriminate. destruct s; cbn [andb] in H; [|discriminate].
  apply integrity_true in E. destruct (Z.eqb_spec n h) as [-> | Hn]; cbn [negb] in H; [exists []; split; [exact E|intros []]|].
  unfold ld in H. destruct (m n NEXT) as [n'|] eqn:En; [|discriminate]. destruct (IH _ _ H) as (l & Hl & Hi). exists (n :: l). split; [split; assumption|].
  intros [-> | Hx]; [apply Hn; reflexivity|exact (Hi Hx)].
Qed.
Lemma check_true fuel m h : check_list fuel m h = Ret true -> whole m h.
Proof.
  unfold check_list. destruct (ld m h NEXT) as [n|]; [|discriminate]. intros H. apply check_from_true in H. destruct H as (l & Hs & Hi). exists l. split; [|exact Hs].
  exact (path_nodup m h l h Hs Hi).
Qed.
(** A whole list passes. *)
Lemma check_from_whole m h : forall l fuel p, seg m p l h -> ~ In h l -> (length l < fuel)%nat -> exists n, m p NEXT = Some n /\ check_from fuel m h p n = Ret true.
Proof.
  induction l as [|x l IH]; intros fuel p Hs Hi Hf; cbn [seg] in Hs; (destruct fuel as [|fuel]; [cbn [length] in Hf; lia|]).
  - exists h. split; [apply Hs|]. cbn [check_from]. rewrite (proj2 (integrity_true m p h) Hs). rewrite Z.eqb_refl. reflexivity.
  - destruct Hs as [H1 H2]. exists x. split; [apply H1|]. cbn [check_from]. rewrite (proj2 (integrity_true m p x) H1).
    destruct (Z.eqb_spec x h) as [-> | Hx]; [exfalso; apply Hi; cbn; auto|]. cbn [andb negb].
    destruct (IH fuel x H2) as (n & En & Ec); [intros H; apply Hi; cbn; auto|cbn [length] in Hf; lia|]. unfold ld. rewrite En. exact Ec.
Qed.
(** The walk never spins: [D] holds every object that can be reached. *)
Lemma check_from_ends m h D : In h D -> (forall q n, In q D -> m q NEXT = Some n -> m n PREV <> None -> In n D) ->
  forall fuel l p, NoDup (h :: l) -> incl (h :: l) D -> (forall n, linked m p n -> seg m h l n) -> In p D -> (length D < fuel + length (h :: l))%nat ->
  forall n, check_from fuel m h p n <> Spin.
Proof.
  intros HD K. induction fuel as [|fuel IH]; intros l p Hd Hi Hs Hp Hf n.
  - exfalso. pose proof (NoDup_incl_length Hd Hi). lia.
  - cbn [check_from]. destruct (integrity_check m p n) as [| |s] eqn:E; [discriminate|exfalso; revert E; apply integrity_no_spin|].
    destruct s; cbn [andb]; [|discriminate]. apply integrity_true in E. destruct (Z.eqb_spec n h) as [_|Hn]; cbn [negb]; [discriminate|].
    destruct (ld m n NEXT) as [n'|]; [|discriminate].
    assert (Hn' : In n D) by (apply (K p n Hp); [apply E|rewrite (proj2 E); discriminate]).
    pose proof (Hs n E) as Hsn. pose proof (path_new m h l n Hd Hsn Hn) as Hnl.
    assert (Hdd : NoDup (h :: l ++ [n])).
    { apply (Permutation_NoDup (l := n :: h :: l)); [change (h :: l ++ [n]) with ((h :: l) ++ [n]); apply Permutation_cons_append|]. constructor; [intros [H | H]; [congruence|contradiction]|exact Hd]. }
    apply (IH (l ++ [n]) n).
    + exact Hdd.
    + intros y [<- | Hy]; [apply Hi; cbn; auto|]. apply in_app_or in Hy. destruct Hy as [Hy | [<- | []]]; [apply Hi; cbn; auto|exact Hn'].
    + intros z Hz. apply seg_app. split; [exact Hsn|exact Hz].
    + exact Hn'.
    + cbn [length] in *. rewrite app_length. cbn [length]. lia.
Qed.
Lemma check_ends m h D fuel : In h D -> (forall q n, In q D -> m q NEXT = Some n -> m n PREV <> None -> In n D) -> (length D <= fuel)%nat -> check_list fuel m h <> Spin.
Proof.
  intros HD K Hf. unfold check_list. destruct (ld m h NEXT) as [n|] eqn:En; [|discriminate].
  apply (check_from_ends m h D HD K fuel [] h); [constructor; [intros []|constructor]| | |exact HD|cbn [length]; lia].
  - intros y [<- | []]. exact HD.
  - intros z Hz. exact Hz.
Qed.
Lemma whole_passes m h D fuel : In h D -> (forall q n, In q D -> m q NEXT = Some n -> m n PREV <> None -> In n D) -> (length D <= fuel)%nat -> whole m h -> check_list fuel m h = Ret true.
Proof.
  intros HD K Hf (l & Hd & Hs).
  assert (Hin : forall l p, In p D -> seg m p l h -> incl l D).
  { clear - K. induction l as [|x l IH]; intros p Hp H y Hy; [destruct Hy|]. cbn [seg] in H. destruct H as [H1 H2].
    assert (Hx : In x D) by (apply (K p x Hp); [apply H1|rewrite (proj2 H1); discriminate]). destruct Hy as [<- | Hy]; [exact Hx|exact (IH x Hx H2 y Hy)]. }
  assert (Hl : (length (h :: l) <= length D)%nat) by (apply NoDup_incl_length; [exact Hd|]; intros y [<- | Hy]; [exact HD|exact (Hin l h HD Hs y Hy)]).
  cbn [length] in Hl. apply NoDup_cons_iff in Hd. destruct (check_from_whole m h l fuel h Hs (proj1 Hd)) as (n & En & Ec); [lia|].
  unfold check_list, ld. rewrite En. exact Ec.
Qed.
(** Without wild pointers the walk answers. *)
Lemma check_from_answers m h D : within m D -> forall fuel p n, In p D -> In n D -> check_from fuel m h p n <> Fault.
Proof.
  intros W. induction fuel as [|fuel IH]; intros p n Hp Hn; [discriminate|]. cbn [check_from]. unfold integrity_check, ld.
  destruct (W p Hp) as (a & b & Ea & Ia & _). rewrite Ea. destruct (W n Hn) as (c & d & Ec & Ic & Ed & _).
  destruct (negb (a =? n)); cbn [andb]; [discriminate|]. rewrite Ed. destruct ((d =? p) && negb (n =? h)); [|discriminate]. rewrite Ec. apply IH; assumption.
Qed.
Lemma check_answers m h D fuel : within m D -> In h D -> (length D <= fuel)%nat -> exists b, check_list fuel m h = Ret b /\ (b = true <-> whole m h).
Proof.
  intros W HD Hf.
  assert (K : forall q n, In q D -> m q NEXT = Some n -> m n PREV <> None -> In n D) by (intros q n Hq E _; destruct (W q Hq) as (a & b & Ea & Ia & _); rewrite Ea in E; injection E as <-; exact Ia).
  pose proof (check_ends m h D fuel HD K Hf) as NS. pose proof (whole_passes m h D fuel HD K Hf) as P.
  assert (NF : check_list fuel m h <> Fault).
  { unfold check_list, ld. destruct (W h HD) as (a & b & Ea & Ia & _). rewrite Ea. apply (check_from_answers m h D W); assumption. }
  destruct (check_list fuel m h) as [| |b] eqn:E; [congruence|congruence|]. exists b. split; [reflexivity|]. split; [intros ->; apply (check_true fuel); exact E|].
  intros H. specialize (P H). congruence.
Qed.
(** Stores of good links into good objects leave no wild pointers. *)
Lemma st_within m D p f v : within m D -> In p D -> In v D -> f = NEXT \/ f = PREV -> st m p f v = Some (upd m p f v) /\ within (upd m p f v) D.
Proof.
  intros W Hp Hv Hf. split.
  - destruct (W p Hp) as (a & b & Ea & _ & Eb & _). destruct Hf as [-> | ->]; eapply st_some; eassumption.
  - intros q Hq. destruct (W q Hq) as (a & b & Ea & Ia & Eb & Ib).
    assert (G : forall g x, m q g = Some x -> In x D -> exists y, upd m p f v q g = Some y /\ In y D).
    { intros g x Ex Ix. unfold upd. destruct ((q =? p) && (g =? f)); eauto. }
    destruct (G NEXT a Ea Ia) as (y & Ey & Iy). destruct (G PREV b Eb Ib) as (z & Ez & Iz). exists y, z. auto.
Qed.
Definition same_off (D : list Z) (m m' : mem) : Prop := forall q g, ~ In q D -> m' q g = m q g.
Lemma same_off_trans D m1 m2 m3 : same_off D m1 m2 -> same_off D m2 m3 -> same_off D m1 m3.
Proof. intros A B q g H. rewrite (B q g H). apply A, H. Qed.
Lemma upd_off D m p f v : In p D -> same_off D m (upd m p f v).
Proof. intros H q g Hq. apply upd_other. left. intros ->. contradiction. Qed.
Ltac stw := match goal with
  | W : within ?m ?D |- context [st ?m ?p ?f ?v] =>
    let E := fresh "E" in let W' := fresh "W" in
    destruct (st_within m D p f v W) as [E W']; [assumption|assumption|auto|]; rewrite E; clear E
  end.
Ltac offs := repeat (eapply same_off_trans; [|apply upd_off; assumption]); intros ? ? ?; reflexivity.
Lemma insert_within m D p n x : within m D -> In p D -> In n D -> In x D ->
  exists m', list_insert m p n x = Some m' /\ within m' D /\ same_off D m m'.
Proof.
  intros W Hp Hn Hx. unfold list_insert. stw. stw. stw. stw. eexists. split; [reflexivity|]. split; [assumption|]. offs.
Qed.
Lemma add_prev_within m D a x : within m D -> In a D -> In x D -> exists m', list_add_prev m a x = Some m' /\ within m' D /\ same_off D m m'.
Proof. intros W Ha Hx. unfold list_add_prev, ld. destruct (W a Ha) as (n & p & _ & _ & Ep & Ip). rewrite Ep. apply insert_within; assumption. Qed.
Lemma add_within m D a x : within m D -> In a D -> In x D -> exists m', list_add m a x = Some m' /\ within m' D /\ same_off D m m'.
Proof. intros W Ha Hx. unfold list_add, ld. destruct (W a Ha) as (n & p & En & In' & _). rewrite En. apply insert_within; assumption. Qed.
Lemma del_init_within m D x : within m D -> In x D -> exists m', list_del_init m x = Some m' /\ within m' D /\ same_off D m m'.
Proof.
  intros W Hx. unfold list_del_init, list_deluf, ld. destruct (W x Hx) as (n & p & En & In' & Ep & Ip). rewrite Ep, En. stw.
  destruct (W0 x Hx) as (n' & p' & En' & In'' & Ep' & Ip'). rewrite En', Ep'. stw. unfold list_head_init. stw. stw. eexists. split; [reflexivity|]. split; [assumption|]. offs.
Qed.
Lemma within_off D D' m m' : same_off D m m' -> (forall q, In q D' -> ~ In q D) -> within m D' -> within m' D'.
Proof. intros S H W q Hq. destruct (W q Hq) as (n & p & En & In' & Ep & Ip). exists n, p. rewrite !S by (apply H, Hq). auto. Qed.
