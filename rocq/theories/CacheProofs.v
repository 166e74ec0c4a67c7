(** * Caches: families of lists, the table of tags, the fields of nodes *)
From Verif Require Import Lib BitsModel BloomModel BloomProps RespoolProps Ptr ListModel ListSpec ListProofs ListProofs2 SlistModel SlistSpec SlistProofs HashmapModel HashmapSpec HashmapProofs HashmapProps.
From Verif Require Import CacheModel CacheSpec.

(** ** Permutations by counting *)
Definition cnt1 (x z : Z) : nat := if Z.eq_dec x z then 1%nat else 0%nat.
Definition cntl (l : list Z) (z : Z) : nat := count_occ Z.eq_dec l z.
Lemma cntl_cons x l z : cntl (x :: l) z = (cnt1 x z + cntl l z)%nat.
Proof. unfold cntl, cnt1. cbn [count_occ]. destruct (Z.eq_dec x z); reflexivity. Qed.
Lemma cntl_app a b z : cntl (a ++ b) z = (cntl a z + cntl b z)%nat.
Proof. apply count_occ_app. Qed.
Lemma cntl_nil z : cntl [] z = 0%nat. Proof. reflexivity. Qed.
Lemma perm_cnt a b : Permutation a b <-> forall z, cntl a z = cntl b z.
Proof. apply Permutation_count_occ. Qed.
Lemma cntl_rev l z : cntl (rev l) z = cntl l z.
Proof. symmetry. apply perm_cnt, Permutation_rev. Qed.
Ltac psolve := repeat match goal with H : Permutation _ _ |- _ => rewrite perm_cnt in H end; apply perm_cnt; let z := fresh "z" in intros z;
  repeat match goal with H : forall z, cntl _ z = cntl _ z |- _ => specialize (H z) end;
  repeat (rewrite ?cntl_cons, ?cntl_app, ?cntl_nil, ?cntl_rev in *); lia.

(** ** Disjoint rings *)
Definition rls (m : mem) (L : list (Z * list Z)) : Prop := NoDup (flat L) /\ Forall (fun p => ring m (fst p) (snd p)) L.
Lemma rls_perm m A B : Permutation A B -> rls m A -> rls m B.
Proof.
  intros P [D F]. split; [apply (Permutation_NoDup (flat_perm _ _ P) D)|]. rewrite Forall_forall in *. intros p Hp. apply F. apply (Permutation_in _ (Permutation_sym P)), Hp.
Qed.
Lemma rls_frame m m' S R : frame S m m' -> (forall x, In x S -> ~ In x (flat R)) -> Forall (fun p => ring m (fst p) (snd p)) R -> Forall (fun p => ring m' (fst p) (snd p)) R.
Proof.
  intros F N H. rewrite Forall_forall in *. intros p Hp. apply (ring_other m m' _ _ S F); [|apply H, Hp]. intros x Hx C. apply (N x C), (in_flat R p x Hp Hx).
Qed.
(** [m'] has other rings at the front, on the same addresses *)
Lemma rls_swap m m' A B R S : rls m (A ++ R) -> Permutation (flat A) (flat B) -> frame S m m' -> incl S (flat A) -> Forall (fun p => ring m' (fst p) (snd p)) B -> rls m' (B ++ R).
Proof.
  intros [D F] P Fr I HB. rewrite flat_app in D. apply Forall_app in F. destruct F as [_ F]. split.
  - rewrite flat_app. apply (Permutation_NoDup (l := flat A ++ flat R)); [|exact D]. apply Permutation_app_tail, P.
  - apply Forall_app. split; [exact HB|]. apply (rls_frame m m' S R Fr); [|exact F]. intros x Hx C. apply (nodup_disj _ _ D x (I x Hx) C).
Qed.
Ltac unflat := cbn [flat flat_map fst snd app] in *.
Ltac isolve := let y := fresh "y" in intros y ?; unflat; repeat (rewrite ?in_app_iff in *; cbn [In] in * ); tauto.
Lemma rls_move m a l1 x l2 b s R : rls m ((a, l1 ++ x :: l2) :: (b, s) :: R) -> exists m', list_move m b x = Some m' /\ rls m' ((a, l1 ++ l2) :: (b, x :: s) :: R).
Proof.
  intros H. pose proof H as [D F]. inversion_clear F as [|? ? Ha F']. inversion_clear F' as [|? ? Hb _]. cbn [fst snd] in *. change (NoDup ((a :: l1 ++ x :: l2) ++ (b :: s) ++ flat R)) in D.
  destruct (move_across m a l1 x l2 b s Ha Hb) as (m' & E & R1 & R2 & Fr); [intros y H1 H2; apply (nodup_disj _ _ D y H2); apply in_or_app; left; exact H1|]. exists m'. split; [exact E|].
  apply (rls_swap m m' [(a, l1 ++ x :: l2); (b, s)] [(a, l1 ++ l2); (b, x :: s)] R (a :: b :: l1 ++ x :: l2 ++ s) H); [unflat; psolve|exact Fr|isolve|constructor; [exact R1|constructor; [exact R2|constructor]]].
Qed.
Lemma rls_same m a l1 x l2 R : rls m ((a, l1 ++ x :: l2) :: R) -> exists m', list_move m a x = Some m' /\ rls m' ((a, x :: l1 ++ l2) :: R).
Proof.
  intros H. pose proof H as [D F]. inversion_clear F as [|? ? Ha _]. cbn [fst snd] in *.
  destruct (move_same m a l1 x l2 Ha) as (m' & E & R1 & Fr). exists m'. split; [exact E|].
  apply (rls_swap m m' [(a, l1 ++ x :: l2)] [(a, x :: l1 ++ l2)] R (a :: l1 ++ x :: l2) H); [unflat; psolve|exact Fr|isolve|constructor; [exact R1|constructor]].
Qed.
Lemma rls_own m a l1 x l2 R : rls m ((a, l1 ++ x :: l2) :: R) -> exists m', list_del_init m x = Some m' /\ rls m' ((a, l1 ++ l2) :: (x, []) :: R).
Proof.
  intros H. pose proof H as [D F]. inversion_clear F as [|? ? Ha _]. cbn [fst snd] in *.
  destruct (del_init_at m a l1 x l2 Ha) as (m' & E & R1 & R2 & Fr). exists m'. split; [exact E|].
  apply (rls_swap m m' [(a, l1 ++ x :: l2)] [(a, l1 ++ l2); (x, [])] R (a :: l1 ++ x :: l2) H); [unflat; psolve|exact Fr|isolve|constructor; [exact R1|constructor; [exact R2|constructor]]].
Qed.
(** a node that is alone *)
Lemma del_alone m x : ring m x [] -> exists m', list_del m x = Some m' /\ node m' x /\ frame [x] m m'.
Proof.
  intros [_ [H1 H2]]. unfold list_del, list_deluf, ld. rewrite H2, H1. rewrite (st_some _ _ _ _ _ H1). rewrite upd_same. rewrite (upd_other m x NEXT x x PREV) by (right; discriminate). rewrite H2.
  rewrite (st_some (upd m x NEXT x) x PREV x x) by (rewrite upd_other by (right; discriminate); exact H2).
  rewrite (st_some (upd (upd m x NEXT x) x PREV x) x NEXT POISON_LIST1 x) by (rewrite upd_other by (right; discriminate); apply upd_same).
  rewrite (st_some _ x PREV POISON_LIST2 x) by (rewrite upd_other by (right; discriminate); apply upd_same).
  eexists. split; [reflexivity|]. split; [split; eexists; [rewrite upd_other by (right; discriminate); apply upd_same|apply upd_same]|].
  intros q g Hq. rewrite !upd_other; [reflexivity| | | |]; (destruct Hq as [Hq|[Hq Hr]]; [left; intros ->; apply Hq; left; reflexivity|right; assumption]).
Qed.
Lemma rls_alone m x b s R : rls m ((x, []) :: (b, s) :: R) -> exists m', list_move m b x = Some m' /\ rls m' ((b, x :: s) :: R).
Proof.
  intros H. pose proof H as [D F]. inversion_clear F as [|? ? Ha F']. inversion_clear F' as [|? ? Hb _]. cbn [fst snd] in *. change (NoDup (x :: (b :: s) ++ flat R)) in D. apply NoDup_cons_iff in D. destruct D as [Nx D].
  unfold list_move. destruct (del_alone m x Ha) as (m1 & E1 & N1 & F1). rewrite E1. assert (Nx' : ~ In x (b :: s)) by (intros C; apply Nx, in_or_app; left; exact C).
  assert (Hb1 : ring m1 b s) by (apply (ring_other m m1 b s [x] F1); [intros y Hy [<-|[]]; contradiction|exact Hb]).
  destruct (add_ring m1 b s x Hb1 N1 Nx') as (m2 & E2 & R2 & F2). exists m2. split; [exact E2|].
  apply (rls_swap m m2 [(x, []); (b, s)] [(b, x :: s)] R (x :: b :: s) H); [unflat; psolve| |isolve|constructor; [exact R2|constructor]].
  apply (frame_trans _ m m1 m2); [apply (frame_incl [x]); [intros y [<-|[]]; left; reflexivity|exact F1]|exact F2].
Qed.
Lemma rls_hd m a l R : rls m ((a, l) :: R) -> ring m a l.
Proof. intros [_ F]. inversion F; assumption. Qed.
Lemma rls_add m a l R n : rls m ((a, l) :: R) -> node m n -> ~ In n (flat ((a, l) :: R)) -> exists m', list_add m a n = Some m' /\ rls m' ((a, n :: l) :: R).
Proof.
  intros H Hn Ni. pose proof (rls_hd _ _ _ _ H) as Ha. destruct (add_ring m a l n Ha Hn) as (m' & E & R1 & Fr); [intros C; apply Ni; change (In n ((a :: l) ++ flat R)); apply in_or_app; left; exact C|]. exists m'. split; [exact E|].
  destruct H as [D F]. inversion_clear F as [|? ? _ F']. split.
  - apply (Permutation_NoDup (l := n :: flat ((a, l) :: R))); [unflat; psolve|]. constructor; assumption.
  - constructor; [exact R1|]. apply (rls_frame m m' (n :: a :: l) R Fr); [|exact F']. intros x Hx C. destruct Hx as [<-|Hx]; [apply Ni; change (In n ((a :: l) ++ flat R)); apply in_or_app; right; exact C|].
    change (NoDup ((a :: l) ++ flat R)) in D. apply (nodup_disj _ _ D x Hx C).
Qed.
(** idle nodes are alone *)
Definition own (l : list Z) : list (Z * list Z) := map (fun n => (n, [])) l.
Lemma flat_own l : flat (own l) = l.
Proof. induction l as [|x l IH]; [reflexivity|]. cbn. f_equal. exact IH. Qed.
Lemma own_app a b : own (a ++ b) = own a ++ own b. Proof. apply map_app. Qed.
Lemma own_pull l1 x l2 : Permutation (own (l1 ++ x :: l2)) ((x, []) :: own (l1 ++ l2)).
Proof. rewrite !own_app. cbn [own map]. fold (own l2). apply Permutation_sym, Permutation_middle. Qed.

(** ** The fields of nodes *)
Section Fields.
Variable U : list Z.
Definition fields (m : mem) (stt rf tg dt : Z -> Z) : Prop := forall n, In n U -> m n STATUS = Some (stt n) /\ m n REFCNT = Some (rf n) /\ m n TAG = Some (tg n) /\ m n DATA = Some (dt n).
Lemma put_at_same f n v : put_at f n v n = v. Proof. unfold put_at. rewrite Z.eqb_refl. reflexivity. Qed.
Lemma put_at_other f n v x : x <> n -> put_at f n v x = f x. Proof. intros H. unfold put_at. rewrite (proj2 (Z.eqb_neq _ _) H). reflexivity. Qed.
Lemma set_status m stt rf tg dt n v : fields m stt rf tg dt -> In n U -> exists m', st m n STATUS v = Some m' /\ fields m' (put_at stt n v) rf tg dt.
Proof.
  intros H Hn; destruct (H _ Hn) as (H1 & H2 & H3 & H4). rewrite (st_some _ _ _ _ _ H1). eexists. split; [reflexivity|]. intros x Hx. destruct (H x Hx) as (G1 & G2 & G3 & G4).
  destruct (Z.eq_dec x n) as [->|N]; [rewrite put_at_same|rewrite put_at_other by exact N]; repeat split; (apply upd_same || (rewrite upd_other by (right; discriminate); assumption) || (rewrite upd_other by (left; exact N); assumption)).
Qed.
Lemma set_refs m stt rf tg dt n v : fields m stt rf tg dt -> In n U -> exists m', st m n REFCNT v = Some m' /\ fields m' stt (put_at rf n v) tg dt.
Proof.
  intros H Hn; destruct (H _ Hn) as (H1 & H2 & H3 & H4). rewrite (st_some _ _ _ _ _ H2). eexists. split; [reflexivity|]. intros x Hx. destruct (H x Hx) as (G1 & G2 & G3 & G4).
  destruct (Z.eq_dec x n) as [->|N]; [rewrite put_at_same|rewrite put_at_other by exact N]; repeat split; (apply upd_same || (rewrite upd_other by (right; discriminate); assumption) || (rewrite upd_other by (left; exact N); assumption)).
Qed.
Lemma set_tag m stt rf tg dt n v : fields m stt rf tg dt -> In n U -> exists m', st m n TAG v = Some m' /\ fields m' stt rf (put_at tg n v) dt.
Proof.
  intros H Hn; destruct (H _ Hn) as (H1 & H2 & H3 & H4). rewrite (st_some _ _ _ _ _ H3). eexists. split; [reflexivity|]. intros x Hx. destruct (H x Hx) as (G1 & G2 & G3 & G4).
  destruct (Z.eq_dec x n) as [->|N]; [rewrite put_at_same|rewrite put_at_other by exact N]; repeat split; (apply upd_same || (rewrite upd_other by (right; discriminate); assumption) || (rewrite upd_other by (left; exact N); assumption)).
Qed.
Lemma set_data m stt rf tg dt n v : fields m stt rf tg dt -> In n U -> exists m', st m n DATA v = Some m' /\ fields m' stt rf tg (put_at dt n v).
Proof.
  intros H Hn; destruct (H _ Hn) as (H1 & H2 & H3 & H4). rewrite (st_some _ _ _ _ _ H4). eexists. split; [reflexivity|]. intros x Hx. destruct (H x Hx) as (G1 & G2 & G3 & G4).
  destruct (Z.eq_dec x n) as [->|N]; [rewrite put_at_same|rewrite put_at_other by exact N]; repeat split; (apply upd_same || (rewrite upd_other by (right; discriminate); assumption) || (rewrite upd_other by (left; exact N); assumption)).
Qed.
End Fields.

(** ** The table of tags *)
Section Table.
Variables (base size : Z) (hash : Z -> Z) (U : list Z) (bits : Z).
Hypothesis HS : 1 <= bits < 60 /\ size = 2 ^ bits.
Hypothesis DU : forall q, in_array base size q = true -> ~ In q U.
Hypothesis NU : ~ In NULL U.
Lemma size_lt : 2 <= size < 2 ^ 64.
Proof. destruct HS as [H ->]. split; [apply (Z.pow_le_mono_r 2 1); lia|apply Z.pow_lt_mono_r; lia]. Qed.
Definition hinv (m : mem) (tg : Z -> Z) (l : list Z) : Prop :=
  (forall n, In n U -> has m n LINK /\ has m n PPREV) /\ incl l U /\
  exists b, lists m (table base size b) /\ Permutation l (contents size b) /\ forall i x, 0 <= i < size -> In x (b i) -> hashtbl_index size (hash (tg x)) = Some i.
Lemma hinv_perm m tg l l' : Permutation l l' -> hinv m tg l -> hinv m tg l'.
Proof. intros P (H1 & H2 & b & H3 & H4 & H5). split; [exact H1|]. split; [intros x Hx; apply H2, (Permutation_in _ (Permutation_sym P)), Hx|]. exists b. split; [exact H3|]. split; [|exact H5]. apply (Permutation_trans (Permutation_sym P) H4). Qed.
Lemma hinv_tag m tg tg' l : (forall x, In x l -> tg' x = tg x) -> hinv m tg l -> hinv m tg' l.
Proof.
  intros E (H1 & H2 & b & H3 & H4 & H5). split; [exact H1|]. split; [exact H2|]. exists b. split; [exact H3|]. split; [exact H4|]. intros i x Hi Hx. rewrite E; [apply H5; assumption|]. apply (Permutation_in _ (Permutation_sym H4)), in_contents. exists i. split; assumption.
Qed.
Lemma hinv_add m tg l n : hinv m tg l -> In n U -> ~ In n l -> exists m', hashtbl_add m base size n (hash (tg n)) = Some m' /\ hinv m' tg (n :: l).
Proof.
  intros (H1 & H2 & b & H3 & H4 & H5) Hn Ni. destruct (C53_index size (hash (tg n)) size_lt) as (i & Ei & Hi). unfold hashtbl_add. rewrite Ei. destruct (table_pull base size b i Hi) as (Q & T & PT & PC & PS). destruct (H1 n Hn) as [F1 F2].
  destruct (lists_add m (head_at base i) (b i) Q n (lists_perm _ _ _ PT H3) F1 F2) as (m' & E & L').
  - intros ->. contradiction.
  - intros C. apply (Permutation_in _ (flat_perm _ _ (Permutation_sym PT))), flat_table in C. destruct C as [C|C]; [apply in_array_head in C; apply (DU n C Hn)|]. apply Ni, (Permutation_in _ (Permutation_sym H4)), C.
  - exists m'. split; [exact E|]. pose proof (keeps_hadd _ _ _ _ E) as K. split; [intros x Hx; destruct (H1 x Hx); split; apply K; assumption|]. split; [intros x [<-|Hx]; [exact Hn|apply H2, Hx]|].
    destruct (PS (n :: b i)) as [P1 P3]. exists (setb b i (n :: b i)). split; [apply (lists_perm _ _ _ (Permutation_sym P1)), L'|]. split; [psolve|].
    intros j x Hj Hx. unfold setb in Hx. destruct (Z.eqb_spec j i) as [->|N]; [destruct Hx as [<-|Hx]; [exact Ei|apply H5; assumption]|apply H5; assumption].
Qed.
Lemma hinv_del m tg l l' n : hinv m tg l -> Permutation l (n :: l') -> exists m', hashtbl_del m n = Some m' /\ hinv m' tg l'.
Proof.
  intros (H1 & H2 & b & H3 & H4 & H5) P. assert (Hn : In n l) by (apply (Permutation_in _ (Permutation_sym P)); left; reflexivity). pose proof (Permutation_in _ H4 Hn) as C. apply in_contents in C. destruct C as (i & Hi & Hx). apply in_split in Hx. destruct Hx as (l1 & l2 & Eb).
  destruct (table_pull base size b i Hi) as (Q & T & PT & PC & PS). pose proof (lists_perm _ _ _ PT H3) as L1. unfold bucket in L1. rewrite Eb in L1. destruct (lists_del m (head_at base i) l1 n l2 Q L1) as [_ (m' & E & L')].
  unfold hashtbl_del. exists m'. split; [exact E|]. pose proof (keeps_hdeli _ _ _ E) as K. split; [intros x Hx; destruct (H1 x Hx); split; apply K; assumption|]. split; [intros x Hx; apply H2, (Permutation_in _ (Permutation_sym P)); right; exact Hx|].
  destruct (PS (l1 ++ l2)) as [P1 P3]. exists (setb b i (l1 ++ l2)). split; [apply (lists_perm _ _ _ (Permutation_sym P1)), L'|]. split; [rewrite Eb in PC; clear - H4 PC P P3; psolve|].
  intros j x Hj Hx. unfold setb in Hx. destruct (Z.eqb_spec j i) as [->|N]; [|apply H5; assumption]. apply H5; [exact Hj|]. rewrite Eb. rewrite in_app_iff in *. cbn [In]. tauto.
Qed.
Lemma hinv_nodup m tg l : hinv m tg l -> NoDup l.
Proof.
  intros (_ & _ & b & [D _] & P & _). apply (Permutation_NoDup (Permutation_sym P)). unfold table, contents in *. clear P. induction (zseq 0 (Z.to_nat size)) as [|i r IH]; [constructor|].
  cbn [map flat flat_map bucket fst snd] in *. apply NoDup_cons_iff in D. destruct D as [_ D]. apply nodup_join; [apply (nodup_l _ _ D)|apply IH, (nodup_r _ _ D)|].
  intros x H1 H2. apply (nodup_disj _ _ D x H1). apply in_flat_map in H2. destruct H2 as (j & Hj & Hx). apply in_flat_map. exists (bucket base b j). split; [apply in_map, Hj|right; exact Hx].
Qed.
Lemma hinv_init m tg : (forall n, In n U -> has m n LINK /\ has m n PPREV) -> (forall j, 0 <= j < size -> m (head_at base j) LINK = Some NULL) -> hinv m tg [].
Proof.
  intros H1 H2. split; [exact H1|]. split; [intros x []|]. exists (fun _ => []). split; [|split].
  - split; [unfold table; rewrite flat_nils; apply nodup_heads|]. apply Forall_forall. intros p Hp. unfold table in Hp. apply in_map_iff in Hp. destruct Hp as (i & <- & Hi). apply zseq_in in Hi. cbn [bucket fst snd]. split; [repeat constructor; intros []|]. cbn [hpath]. apply H2. pose proof size_lt. lia.
  - unfold contents. induction (zseq 0 (Z.to_nat size)); [constructor|exact IHl].
  - intros i x _ [].
Qed.
(** the walk along the bucket of a tag *)
Lemma hinv_bucket m tg l t : hinv m tg l -> exists i b, hashtbl_index size (hash t) = Some i /\ ld m (idx_head base size i) LINK = Some (hd NULL b) /\ hpath m (idx_head base size i) b /\ incl b l /\ NoDup b /\ forall x, In x l -> tg x = t -> In x b.
Proof.
  intros HI. pose proof (hinv_nodup _ _ _ HI) as ND. destruct HI as (H1 & H2 & b & H3 & H4 & H5). destruct (C53_index size (hash t) size_lt) as (i & Ei & Hi). assert (HH : hlist m (head_at base i) (b i)) by (destruct H3 as [_ F]; rewrite Forall_forall in F; apply (F (bucket base b i)), in_map, zseq_in; lia). destruct HH as [Hd Hh].
  assert (Eh : idx_head base size i = head_at base i) by (destruct HS as [? Es]; rewrite Es; apply idx_head_id; lia).
  exists i, (b i). rewrite Eh. split; [exact Ei|]. split; [apply (proj1 (proj1 (hpath_rest _ _ _) Hh))|]. split; [exact Hh|]. split; [intros x Hx; apply (Permutation_in _ (Permutation_sym H4)), in_contents; exists i; split; assumption|]. split; [apply NoDup_cons_iff in Hd; apply Hd|].
  intros x Hx Et. pose proof (Permutation_in _ H4 Hx) as C. apply in_contents in C. destruct C as (j & Hj & Hxj). pose proof (H5 j x Hj Hxj) as G. rewrite Et, Ei in G. injection G as <-. exact Hxj.
Qed.
End Table.
