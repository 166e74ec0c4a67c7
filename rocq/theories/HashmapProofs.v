(** * Hash maps: proofs about the table *)
From Verif Require Import Lib BitsModel BitsProofs BitsProps BitmapProofs BloomModel BloomProps RespoolProps Ptr ListProofs SlistModel SlistSpec SlistProofs HashmapModel HashmapSpec.

(** ** Several hlists side by side *)
Definition flat (L : list (Z * list Z)) : list Z := flat_map (fun p => fst p :: snd p) L.
Definition lists (m : mem) (L : list (Z * list Z)) : Prop := NoDup (flat L) /\ Forall (fun p => hlist m (fst p) (snd p)) L.
Lemma flat_app A B : flat (A ++ B) = flat A ++ flat B. Proof. apply flat_map_app. Qed.
Lemma flat_perm A B : Permutation A B -> Permutation (flat A) (flat B).
Proof. intros H. apply Permutation_flat_map, H. Qed.
Lemma lists_perm m A B : Permutation A B -> lists m A -> lists m B.
Proof.
  intros P [D F]. split; [apply (Permutation_NoDup (flat_perm _ _ P) D)|]. rewrite Forall_forall in *. intros p Hp. apply F. apply (Permutation_in _ (Permutation_sym P)), Hp.
Qed.
Lemma lists_app m A B : lists m (A ++ B) -> lists m A /\ lists m B.
Proof.
  intros [D F]. rewrite flat_app in D. apply Forall_app in F. split; split; try tauto; [apply (nodup_l _ _ D)|apply (nodup_r _ _ D)].
Qed.
Lemma in_flat L p x : In p L -> In x (fst p :: snd p) -> In x (flat L).
Proof. intros H1 H2. apply in_flat_map. exists p. split; assumption. Qed.
Lemma lists_step m m' h l l' S R : lists m ((h, l) :: R) -> hlist m' h l' -> only S m m' -> (forall x, In x S -> x = h \/ In x l \/ In x l') -> NoDup (flat ((h, l') :: R)) -> lists m' ((h, l') :: R).
Proof.
  intros [D F] H O HS D'. split; [exact D'|]. inversion_clear F. constructor; [exact H|]. rewrite Forall_forall in *. intros [k t] Hp. apply (hlist_other m m' _ _ S O); [|apply (H1 (k, t)), Hp].
  intros x Hx Hs. pose proof (in_flat R (k, t) x Hp Hx) as G. change (NoDup ((h :: l) ++ flat R)) in D. change (NoDup ((h :: l') ++ flat R)) in D'. destruct (HS x Hs) as [->|[C|C]].
  - apply (nodup_disj _ _ D h); [left; reflexivity|exact G].
  - apply (nodup_disj _ _ D x); [right; exact C|exact G].
  - apply (nodup_disj _ _ D' x); [right; exact C|exact G].
Qed.
Lemma lists_hd m h l R : lists m ((h, l) :: R) -> hlist m h l /\ lists m R.
Proof. intros H. split; [destruct H as [_ F]; inversion F; assumption|]. apply (lists_app m [(h, l)] R), H. Qed.
Lemma last_hl (h : Z) l1 : last l1 h = h \/ In (last l1 h) l1.
Proof. destruct (last_in l1 h) as [E|E]; [left; symmetry; exact E|right; exact E]. Qed.
Lemma lists_add m h l R n : lists m ((h, l) :: R) -> has m n LINK -> has m n PPREV -> n <> NULL -> ~ In n (flat ((h, l) :: R)) ->
  exists m', hlist_head_add m h n = Some m' /\ lists m' ((h, n :: l) :: R).
Proof.
  intros H H1 H2 Nz Ni. destruct (lists_hd _ _ _ _ H) as [Hl _]. destruct (hlist_head_add_ok m h l n Hl H1 H2 Nz) as (m' & E & H' & O); [intros C; apply Ni; cbn [flat flat_map fst snd] in *; apply in_or_app; left; exact C|]. exists m'. split; [exact E|].
  apply (lists_step m m' h l (n :: l) _ R H H' O); [intros x [<-|[<-|Hx]]; [left; reflexivity|right; right; left; reflexivity|right; left; exact Hx]|].
  destruct H as [D _]. change (NoDup (h :: l ++ flat R)) in D. change (NoDup (h :: n :: l ++ flat R)). change (~ In n (h :: l ++ flat R)) in Ni. apply NoDup_cons_iff in D. destruct D as [D1 D2]. constructor; [intros [C|C]; [apply Ni; left; symmetry; exact C|contradiction]|]. constructor; [intros C; apply Ni; right; exact C|exact D2].
Qed.
Lemma nodup_drop (h : Z) l1 x l2 r : NoDup (h :: (l1 ++ x :: l2) ++ r) -> NoDup (h :: (l1 ++ l2) ++ r) /\ ~ In x (h :: (l1 ++ l2) ++ r).
Proof.
  intros D. assert (E : h :: (l1 ++ x :: l2) ++ r = (h :: l1) ++ x :: (l2 ++ r)) by (cbn [app]; rewrite <- app_assoc; reflexivity). rewrite E in D. apply NoDup_remove in D. assert (E' : h :: (l1 ++ l2) ++ r = (h :: l1) ++ l2 ++ r) by (cbn [app]; rewrite <- app_assoc; reflexivity). rewrite E'. exact D.
Qed.
Lemma lists_del m h l1 x l2 R : lists m ((h, l1 ++ x :: l2) :: R) -> (exists m', hlist_del m x = Some m' /\ lists m' ((h, l1 ++ l2) :: R)) /\ exists m', hlist_del_init m x = Some m' /\ lists m' ((h, l1 ++ l2) :: R).
Proof.
  intros H. destruct (lists_hd _ _ _ _ H) as [Hl _]. assert (D : NoDup (flat ((h, l1 ++ l2) :: R))) by (destruct H as [D _]; apply (nodup_drop h l1 x l2 (flat R)), D).
  assert (G : forall y, In y (last l1 h :: x :: l2) -> y = h \/ In y (l1 ++ x :: l2) \/ In y (l1 ++ l2)).
  { intros y [<-|Hy]; [destruct (last_hl h l1) as [->|C]; [left; reflexivity|right; left; apply in_or_app; left; exact C]|right; left; apply in_or_app; right; exact Hy]. }
  split; [destruct (hlist_del_ok _ _ _ _ _ Hl) as (m' & E & H' & _ & _ & O)|destruct (hlist_del_init_ok _ _ _ _ _ Hl) as (m' & E & H' & _ & _ & O)]; exists m'; (split; [exact E|]); apply (lists_step m m' h (l1 ++ x :: l2) _ _ R H H' O G D).
Qed.
Lemma lists_replace m h l1 x l2 n R : lists m ((h, l1 ++ x :: l2) :: R) -> has m n LINK -> has m n PPREV -> n <> NULL -> ~ In n (flat ((h, l1 ++ x :: l2) :: R)) ->
  exists m', hlist_replace m x n = Some m' /\ lists m' ((h, l1 ++ n :: l2) :: R).
Proof.
  intros H H1 H2 Nz Ni. destruct (lists_hd _ _ _ _ H) as [Hl _]. destruct (hlist_replace_ok m h l1 x l2 n Hl H1 H2 Nz) as (m' & E & H' & _ & _ & O); [intros C; apply Ni; cbn [flat flat_map fst snd] in *; apply in_or_app; left; exact C|]. exists m'. split; [exact E|].
  apply (lists_step m m' h (l1 ++ x :: l2) _ _ R H H' O).
  - intros y [<-|[<-|Hy]]; [destruct (last_hl h l1) as [->|C]; [left; reflexivity|right; left; apply in_or_app; left; exact C]|right; right; apply in_or_app; right; left; reflexivity|right; left; apply in_or_app; right; right; exact Hy].
  - destruct H as [D _]. destruct (nodup_drop h l1 x l2 (flat R) D) as [D' _]. assert (Nn : ~ In n (h :: (l1 ++ l2) ++ flat R)).
    { intros C. apply Ni. change (In n (h :: (l1 ++ x :: l2) ++ flat R)). destruct C as [C|C]; [left; exact C|right]. rewrite !in_app_iff in *. cbn [In]. tauto. }
    change (NoDup (h :: (l1 ++ n :: l2) ++ flat R)). assert (P : Permutation (n :: h :: (l1 ++ l2) ++ flat R) (h :: (l1 ++ n :: l2) ++ flat R)).
    { eapply Permutation_trans; [apply perm_swap|]. apply perm_skip. rewrite <- !app_assoc. apply (Permutation_middle l1 (l2 ++ flat R) n). }
    apply (Permutation_NoDup P). constructor; assumption.
Qed.

(** ** The bucket array *)
Lemma zseq_app : forall n1 n2 a, zseq a (n1 + n2) = zseq a n1 ++ zseq (a + Z.of_nat n1) n2.
Proof. induction n1 as [|n1 IH]; intros n2 a; cbn [Nat.add zseq app]; [f_equal; lia|]. f_equal. rewrite IH. f_equal. f_equal. lia. Qed.
Definition bucket (base : Z) (b : Z -> list Z) (i : Z) : Z * list Z := (head_at base i, b i).
Definition table (base cap : Z) (b : Z -> list Z) : list (Z * list Z) := map (bucket base b) (zseq 0 (Z.to_nat cap)).
Definition contents (cap : Z) (b : Z -> list Z) : list Z := flat_map b (zseq 0 (Z.to_nat cap)).
Definition setb (b : Z -> list Z) (i : Z) (l : list Z) : Z -> list Z := fun j => if j =? i then l else b j.
Lemma zseq_pull cap i : 0 <= i < cap -> zseq 0 (Z.to_nat cap) = zseq 0 (Z.to_nat i) ++ i :: zseq (i + 1) (Z.to_nat (cap - i - 1)).
Proof.
  intros H. replace (Z.to_nat cap) with (Z.to_nat i + S (Z.to_nat (cap - i - 1)))%nat by lia. rewrite zseq_app. cbn [zseq]. do 2 f_equal; [lia|]. f_equal. lia.
Qed.
Lemma table_pull base cap b i : 0 <= i < cap -> exists R T, Permutation (table base cap b) (bucket base b i :: R) /\ Permutation (contents cap b) (b i ++ T) /\
  forall l, Permutation (table base cap (setb b i l)) ((head_at base i, l) :: R) /\ Permutation (contents cap (setb b i l)) (l ++ T).
Proof.
  intros H. unfold table, contents. rewrite (zseq_pull cap i H). set (A := zseq 0 (Z.to_nat i)). set (B := zseq (i + 1) (Z.to_nat (cap - i - 1))).
  exists (map (bucket base b) A ++ map (bucket base b) B), (flat_map b A ++ flat_map b B).
  assert (NA : forall x, In x A -> x <> i) by (intros x Hx; apply zseq_in in Hx; lia). assert (NB : forall x, In x B -> x <> i) by (intros x Hx; apply zseq_in in Hx; lia).
  assert (P : forall (f : Z -> list Z), Permutation (flat_map f A ++ f i ++ flat_map f B) (f i ++ flat_map f A ++ flat_map f B)) by (intros f; rewrite !app_assoc; apply Permutation_app_tail, Permutation_app_comm).
  split; [|split].
  - rewrite map_app. cbn [map]. apply Permutation_sym, Permutation_middle.
  - rewrite flat_map_app. cbn [flat_map]. apply P.
  - intros l. assert (E : forall x, x <> i -> setb b i l x = b x) by (intros x Hx; unfold setb; rewrite (proj2 (Z.eqb_neq _ _) Hx); reflexivity). assert (Ei : setb b i l i = l) by (unfold setb; rewrite Z.eqb_refl; reflexivity). split.
    + rewrite map_app. cbn [map]. unfold bucket at 2. rewrite Ei. rewrite (map_ext_in (bucket base (setb b i l)) (bucket base b) A) by (intros x Hx; unfold bucket; rewrite E by (apply NA, Hx); reflexivity). rewrite (map_ext_in (bucket base (setb b i l)) (bucket base b) B) by (intros x Hx; unfold bucket; rewrite E by (apply NB, Hx); reflexivity). apply Permutation_sym, Permutation_middle.
    + rewrite flat_map_app. cbn [flat_map]. rewrite Ei. assert (FA : flat_map (setb b i l) A = flat_map b A) by (rewrite !flat_map_concat_map; f_equal; apply map_ext_in; intros x Hx; apply E, NA, Hx). assert (FB : flat_map (setb b i l) B = flat_map b B) by (rewrite !flat_map_concat_map; f_equal; apply map_ext_in; intros x Hx; apply E, NB, Hx). rewrite FA, FB. rewrite !app_assoc. apply Permutation_app_tail, Permutation_app_comm.
Qed.
Lemma in_contents cap b x : In x (contents cap b) <-> exists i, 0 <= i < cap /\ In x (b i).
Proof.
  unfold contents. rewrite in_flat_map. split; intros (i & H1 & H2); exists i; split; try exact H2; apply zseq_in in H1 || apply zseq_in; lia.
Qed.
Lemma flat_table base cap b x : In x (flat (table base cap b)) <-> (exists i, 0 <= i < cap /\ x = head_at base i) \/ In x (contents cap b).
Proof.
  unfold flat. rewrite in_flat_map, in_contents. split.
  - intros (p & Hp & Hx). unfold table in Hp. apply in_map_iff in Hp. destruct Hp as (i & <- & Hi). apply zseq_in in Hi. cbn [bucket fst snd] in Hx. destruct Hx as [<-|Hx]; [left|right]; exists i; (split; [lia|]); [reflexivity|exact Hx].
  - intros [(i & Hi & ->)|(i & Hi & Hx)]; exists (bucket base b i); (split; [apply in_map, zseq_in; lia|]); [left; reflexivity|right; exact Hx].
Qed.
Lemma in_array_head p n q : in_array p n q = true <-> exists i, 0 <= i < n /\ q = head_at p i.
Proof.
  unfold in_array, head_at. rewrite !andb_true_iff, Z.leb_le, Z.ltb_lt, Z.eqb_eq. split.
  - intros ((H1 & H2) & H3). exists ((q - p) / 8). apply Z.div_exact in H3; [|lia]. split; lia.
  - intros (i & Hi & ->). replace (p + 8 * i - p) with (i * 8) by lia. rewrite Z.mod_mul by lia. lia.
Qed.
Lemma hashtbl_init_ok : forall n m base i, (forall j, i <= j < i + Z.of_nat n -> has m (head_at base j) LINK) ->
  exists m', hashtbl_init n m base i = Some m' /\ (forall j, i <= j < i + Z.of_nat n -> m' (head_at base j) LINK = Some NULL) /\
  (forall q g, (forall j, i <= j < i + Z.of_nat n -> q <> head_at base j) \/ g <> LINK -> m' q g = m q g).
Proof.
  induction n as [|n IH]; intros m base i H; cbn [hashtbl_init]; [exists m; split; [reflexivity|]; split; [intros; lia|reflexivity]|].
  unfold hlist_head_init. rewrite st_ex by (apply H; lia). destruct (IH (upd m (head_at base i) LINK NULL) base (i + 1)) as (m' & E & H1 & H2); [intros j Hj; apply upd_ex, H; lia|]. exists m'. split; [exact E|]. split.
  - intros j Hj. destruct (Z.eq_dec j i) as [->|N]; [|apply H1; lia]. rewrite H2; [apply upd_same|]. left. intros j Hj' C. unfold head_at in C. lia.
  - intros q g Hq. rewrite H2; [|destruct Hq as [Hq|Hq]; [left; intros j Hj; apply Hq; lia|right; exact Hq]]. apply upd_other. destruct Hq as [Hq|Hq]; [left; apply Hq; lia|right; exact Hq].
Qed.

(** ** Stores keep fields *)
Ltac hchase := repeat match goal with
  | H : (let* _ := ?e in _) = Some _ |- _ => let E := fresh "E" in destruct e eqn:E; [|discriminate H]
  | H : (if ?c then _ else _) = Some _ |- _ => destruct c
  | H : st _ _ _ _ = Some _ |- _ => apply st_keeps in H
  | H : Some _ = Some _ |- _ => injection H as <-
  end.
Lemma keeps_hadd m h n m' : hlist_head_add m h n = Some m' -> keeps m m'.
Proof. unfold hlist_head_add. intros H. hchase; chain. Qed.
Lemma keeps_hdel m n m' : hlist_del m n = Some m' -> keeps m m'.
Proof. unfold hlist_del, hlist_deluf. intros H. hchase; chain. Qed.
Lemma keeps_hdeli m n m' : hlist_del_init m n = Some m' -> keeps m m'.
Proof. unfold hlist_del_init, hlist_deluf, hlist_node_init. intros H. hchase; chain. Qed.
Lemma keeps_hrep m a n m' : hlist_replace m a n = Some m' -> keeps m m'.
Proof. unfold hlist_replace. intros H. hchase; chain. Qed.
Lemma keeps_hinit : forall n m b i m', hashtbl_init n m b i = Some m' -> keeps m m'.
Proof. induction n as [|n IH]; intros m b i m'; cbn [hashtbl_init]; [intros E; injection E as <-; apply keeps_refl|]. unfold hlist_head_init. destruct (st m (head_at b i) LINK NULL) as [m1|] eqn:E; [|discriminate]. intros H. apply (keeps_trans _ m1); [apply (st_keeps _ _ _ _ _ E)|apply (IH _ _ _ _ H)]. Qed.

(** ** Searching one bucket *)
Lemma search_ok m test : forall l h fuel, hpath m h l -> (length l <= fuel)%nat ->
  exists r, search fuel m test (hd NULL l) = Some r /\ ((r = NULL /\ forall x, In x l -> test x = false) \/ (r <> NULL /\ In r l /\ test r = true)).
Proof.
  induction l as [|x l IH]; intros h fuel H Hf; cbn [hd].
  - exists NULL. split; [destruct fuel; reflexivity|]. left. split; [reflexivity|]. intros x [].
  - cbn [hpath length] in *. destruct H as (_ & Nx & _ & H). destruct fuel as [|fuel]; [lia|]. cbn [search]. rewrite (proj2 (Z.eqb_neq _ _) Nx). destruct (test x) eqn:Ex.
    + exists x. split; [reflexivity|]. right. split; [exact Nx|]. split; [left; reflexivity|exact Ex].
    + destruct (IH x fuel H ltac:(lia)) as (r & E & D). assert (N : ld m x LINK = Some (hd NULL l)) by (apply hpath_rest in H; apply H). rewrite N. exists r. split; [exact E|]. destruct D as [[-> D]|(D1 & D2 & D3)]; [left; split; [reflexivity|]; intros y [<-|Hy]; [exact Ex|apply D, Hy]|right; split; [exact D1|split; [right; exact D2|exact D3]]].
Qed.

(** ** The index of a bucket *)
Lemma idx_head_id base bits i : 1 <= bits < 64 -> 0 <= i < 2 ^ bits -> idx_head base (2 ^ bits) i = head_at base i.
Proof.
  intros Hb Hi. unfold idx_head. f_equal. assert (E : ilog2 (2 ^ bits) = bits).
  { pose proof (Z.pow_le_mono_r 2 1 bits ltac:(lia) ltac:(lia)) as P1. pose proof (Z.pow_lt_mono_r 2 bits 64 ltac:(lia) ltac:(lia) ltac:(lia)) as P2. change (2 ^ 1) with 2 in P1.
    unfold ilog2. rewrite (proj2 (Z.ltb_ge _ _)) by lia. unfold fls. rewrite (proj2 (Z.eqb_neq _ _)) by lia. rewrite flsuf_log2 by lia. rewrite Z.log2_pow2 by lia. lia. }
  rewrite E. apply Z.bits_inj'. intros j Hj. rewrite Z.land_spec, LOW_MASK_bits by (try lia; rewrite Z.mod_small by lia; lia). rewrite Z.mod_small by lia. destruct (Z.ltb_spec j bits); [apply andb_true_r|]. rewrite andb_false_r. symmetry. destruct (Z.eq_dec i 0) as [->|]; [apply Z.bits_0|]. apply Z.bits_above_log2; [lia|]. apply Z.log2_lt_pow2; [lia|]. eapply Z.lt_le_trans; [apply Hi|]. apply Z.pow_le_mono_r; lia.
Qed.
