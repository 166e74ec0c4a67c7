(** * Binary heaps: positions *)
From Verif Require Import Lib Ptr Tree RbProofs RbInsert HeapModel HeapProofs HeapSpec.
Ltac Zify.zify_post_hook ::= Z.div_mod_to_equations.

Lemma bits_length d i : length (bits d i) = d.
Proof. induction d as [|d IH]; cbn [bits length]; [reflexivity|]. rewrite IH. reflexivity. Qed.
Lemma bits_snoc d i (b : bool) : 0 <= i -> bits (S d) (2 * i + Z.b2z b) = bits d i ++ [if b then R else L].
Proof.
  intros Hi. assert (T1 : forall k, 0 <= k -> Z.testbit (2 * i + Z.b2z b) (Z.succ k) = Z.testbit i k) by (intros k Hk; apply Z.testbit_succ_r; exact Hk).
  induction d as [|d IH]; cbn [bits app].
  - change (Z.of_nat 0) with 0. rewrite Z.testbit_0_r. reflexivity.
  - cbn [bits] in IH. rewrite Nat2Z.inj_succ, T1 by lia. f_equal. exact IH.
Qed.
Lemma path_step i (b : bool) : 1 <= i -> path (2 * i + Z.b2z b) = path i ++ [if b then R else L].
Proof.
  intros Hi. unfold path. assert (E1 : Z.log2 (2 * i + Z.b2z b) = Z.succ (Z.log2 i)).
  { destruct b; cbn [Z.b2z]; [apply Z.log2_succ_double; lia|rewrite Z.add_0_r; apply Z.log2_double; lia]. }
  rewrite E1, Z2Nat.inj_succ by apply Z.log2_nonneg. apply bits_snoc. lia.
Qed.
Lemma path_half i : 2 <= i -> exists b : bool, i = 2 * (i / 2) + Z.b2z b /\ path i = path (i / 2) ++ [if b then R else L].
Proof.
  intros Hi. exists (Z.odd i). assert (E1 : i = 2 * (i / 2) + Z.b2z (Z.odd i)). { rewrite <- Z.div2_div. apply Z.div2_odd. }
  split; [exact E1|]. rewrite E1 at 1. apply path_step. lia.
Qed.
Lemma pos_ind (P : Z -> Prop) : (forall i, 1 <= i -> (forall j, 1 <= j < i -> P j) -> P i) -> forall i, 1 <= i -> P i.
Proof.
  intros H i Hi. assert (G : forall n j, 1 <= j -> (Z.to_nat j <= n)%nat -> P j); [|apply (G (Z.to_nat i)); lia].
  induction n as [|n IH]; intros j Hj Hn; [lia|]. apply H; [exact Hj|]. intros j' Hj'. apply IH; lia.
Qed.
Lemma path_inj : forall i, 1 <= i -> forall j, 1 <= j -> path i = path j -> i = j.
Proof.
  apply (pos_ind (fun i => forall j, 1 <= j -> path i = path j -> i = j)). intros i Hi IH j Hj He.
  destruct (Z.eq_dec i 1) as [->|Ni]; [destruct (Z.eq_dec j 1) as [->|Nj]; [reflexivity|]|destruct (Z.eq_dec j 1) as [->|Nj]].
  - destruct (path_half j ltac:(lia)) as (b & _ & E1). rewrite E1 in He. change (path 1) with (@nil dir) in He. destruct (path (j / 2)); discriminate He.
  - destruct (path_half i ltac:(lia)) as (b & _ & E1). rewrite E1 in He. change (path 1) with (@nil dir) in He. destruct (path (i / 2)); discriminate He.
  - destruct (path_half i ltac:(lia)) as (b & Ei & E1), (path_half j ltac:(lia)) as (b' & Ej & E2). rewrite E1, E2 in He. apply app_inj_tail in He. destruct He as [H1 H2].
    assert (b = b') by (destruct b, b'; congruence). subst b'. apply IH in H1; lia.
Qed.
Lemma path_surj p : exists i, 1 <= i /\ path i = p.
Proof.
  induction p as [|d p IH] using rev_ind; [exists 1; split; [lia|reflexivity]|]. destruct IH as (i & Hi & <-). exists (2 * i + Z.b2z (match d with L => false | R => true end)).
  split; [destruct d; cbn [Z.b2z]; lia|]. rewrite path_step by exact Hi. destruct d; reflexivity.
Qed.
(** The proper prefixes of a path lead to smaller positions. *)
Lemma path_prefix : forall i, 1 <= i -> forall p q, path i = p ++ q -> q <> [] -> exists j, 1 <= j < i /\ path j = p.
Proof.
  apply (pos_ind (fun i => forall p q, path i = p ++ q -> q <> [] -> exists j, 1 <= j < i /\ path j = p)). intros i Hi IH p q He Hq.
  destruct (Z.eq_dec i 1) as [->|Ni]. { change (path 1) with (@nil dir) in He. destruct p, q; try discriminate; congruence. }
  destruct (path_half i ltac:(lia)) as (b & Ei & E1). rewrite E1 in He. destruct (exists_last Hq) as (q' & d & ->). rewrite app_assoc in He. apply app_inj_tail in He. destruct He as [He _].
  destruct q' as [|x q']; [exists (i / 2); rewrite app_nil_r in He; split; [lia|exact He]|]. destruct (IH (i / 2) ltac:(lia) p (x :: q') He ltac:(discriminate)) as (j & Hj & Ej). exists j. split; [lia|exact Ej].
Qed.

Definition occ {A} (t : tree A) (p : list dir) : Prop := at_path t p <> None.
Fixpoint kpath {A} (k : ctx A) : list dir := match k with [] => [] | F d _ _ _ :: k => kpath k ++ [d] end.
Lemma at_plug {A} (k : ctx A) : forall (t : tree A) q, at_path (plug k t) (kpath k ++ q) = at_path t q.
Proof.
  induction k as [|[d x a s] k IH]; intros t q; cbn [plug kpath app]; [reflexivity|]. rewrite <- app_assoc. cbn [app]. rewrite IH. destruct d; reflexivity.
Qed.
Lemma occ_plug {A} (k : ctx A) : forall t t' : tree A, (forall q, occ t' q <-> occ t q) -> forall q, occ (plug k t') q <-> occ (plug k t) q.
Proof.
  induction k as [|[d x a s] k IH]; intros t t' H q; cbn [plug]; [apply H|]. apply IH. intros [|[|] p]; destruct d; cbn [up]; unfold occ in *; cbn [at_path]; try tauto; try (split; discriminate); apply H.
Qed.
Lemma occ_add {A} (k : ctx A) : forall (t t' : tree A) p, (forall q, occ t' q <-> occ t q \/ q = p) -> forall q, occ (plug k t') q <-> occ (plug k t) q \/ q = kpath k ++ p.
Proof.
  induction k as [|[d x a s] k IH]; intros t t' p H q; cbn [plug kpath app]; [apply H|]. rewrite <- app_assoc. cbn [app]. apply IH. clear q. intros [|c q]; destruct d; cbn [up]; unfold occ in *; cbn [at_path].
  - split; [left; exact H0|discriminate].
  - split; [left; exact H0|discriminate].
  - destruct c; [rewrite H; split; (intros [X|X]; [left; exact X|right; congruence])|split; [intros X; left; exact X|intros [X|X]; [exact X|discriminate X]]].
  - destruct c; [split; [intros X; left; exact X|intros [X|X]; [exact X|discriminate X]]|rewrite H; split; (intros [X|X]; [left; exact X|right; congruence])].
Qed.
Lemma leaf_occ {A} (x : A) n q : occ (T x E n E) q <-> occ (@E A) q \/ q = [].
Proof. unfold occ. destruct q as [|[|] q]; cbn [at_path]; split; try (intros [H|H]; [exact H|discriminate H]); intros H; try discriminate H; try (right; reflexivity); try (left; exact H); congruence. Qed.
Lemma find_path {A} p : forall (t : tree A) a, at_path t p = Some a -> exists k x l r, t = plug k (T x l a r) /\ kpath k = p.
Proof.
  induction p as [|d p IH]; intros [|x l b r] a H; try discriminate; cbn [at_path] in H.
  - injection H as <-. exists [], x, l, r. split; reflexivity.
  - destruct d; apply IH in H; destruct H as (k & y & l' & r' & -> & Hk); [exists (k ++ [F L x b r])|exists (k ++ [F R x b l])]; exists y, l', r'; (split; [rewrite plug_app; reflexivity|]).
    + clear - Hk. revert p Hk. induction k as [|[d z c s] k IH]; intros p Hk; cbn [kpath app] in *; [subst; reflexivity|]. subst p. rewrite (IH _ eq_refl). reflexivity.
    + clear - Hk. revert p Hk. induction k as [|[d z c s] k IH]; intros p Hk; cbn [kpath app] in *; [subst; reflexivity|]. subst p. rewrite (IH _ eq_refl). reflexivity.
Qed.
Lemma in_path {A} (t : tree A) a : In a (inorder t) <-> exists p, at_path t p = Some a.
Proof.
  induction t as [|x l IHl b r IHr]; cbn [inorder]; [split; [intros []|intros [p H]; destruct p; discriminate H]|]. rewrite in_app_iff. cbn [In]. rewrite IHl, IHr. split.
  - intros [[p H]|[<-|[p H]]]; [exists (L :: p)|exists []|exists (R :: p)]; try exact H; reflexivity.
  - intros [[|[|] p] H]; cbn [at_path] in H; [injection H as ->; tauto|left; eauto|right; right; eauto].
Qed.
Lemma path_unique {A} (t : tree A) a : (cnt a t <= 1)%nat -> forall p q, at_path t p = Some a -> at_path t q = Some a -> p = q.
Proof.
  induction t as [|x l IHl b r IHr]; cbn [cnt]; intros H p q Hp Hq; [destruct p; discriminate|].
  assert (K : forall (u : tree A) p', at_path u p' = Some a -> (cnt a u > 0)%nat) by (intros u p' Hu; apply cnt_pos_in, in_path; eauto).
  destruct p as [|[|] p], q as [|[|] q]; cbn [at_path] in Hp, Hq; try reflexivity;
    repeat match goal with X : Some _ = Some _ |- _ => injection X as ->; rewrite ind_refl in H end;
    repeat match goal with X : at_path _ _ = Some a |- _ => pose proof (K _ _ X); revert X end; intros; try lia; f_equal; [apply IHl|apply IHr]; try assumption; lia.
Qed.

(** A complete tree has no right child without a left one. *)
Fixpoint lefty {A} (t : tree A) : Prop := match t with E => True | T _ l _ r => (r <> E -> l <> E) /\ lefty l /\ lefty r end.
Lemma occ_nil {A} (t : tree A) : occ t [] <-> t <> E.
Proof. unfold occ. destruct t; cbn [at_path]; split; congruence. Qed.
Lemma complete_lefty {A} (t : tree A) c : complete t c -> lefty t.
Proof.
  intros HC. assert (G : forall (u : tree A) k, t = plug k u -> lefty u); [|apply (G t []); reflexivity].
  induction u as [|x l IHl a r IHr]; intros k E0; cbn [lefty]; [exact I|]. split; [|split; [apply (IHl (F L x a r :: k)), E0|apply (IHr (F R x a l :: k)), E0]].
  intros Hr. destruct (path_surj (kpath k)) as (i & Hi & Ei). rewrite <- occ_nil in *. unfold occ in *.
  assert (H1 : at_pos t (2 * i + 1) <> None). { change 1 with (Z.b2z true). unfold at_pos. rewrite (path_step i true Hi), Ei, E0, at_plug. exact Hr. }
  apply HC in H1; [|lia]. assert (H2 : at_pos t (2 * i + Z.b2z false) <> None) by (apply HC; cbn [Z.b2z]; lia). unfold at_pos in H2. rewrite (path_step i false Hi), Ei, E0, at_plug in H2. exact H2.
Qed.
Lemma lefty_sub {A} (k : ctx A) : forall t : tree A, lefty (plug k t) -> lefty t.
Proof. induction k as [|[[|] x a s] k IH]; intros t H; cbn [plug] in H; [exact H| |]; apply IH in H; cbn [up lefty] in H; tauto. Qed.

(** The loops follow paths. *)
Section Rt.
Variable rt : Z.
Notation rep := (rep U).
Notation tree_at := (tree_at U rt).
Definition oz (o : option Z) : Z := match o with Some a => a | None => 0 end.
Lemma walk_ok m d i : forall (t : utree) par, cnt 0 t = 0%nat -> rep m par t -> hp_walk d m (addr t) i = Some (oz (at_path t (bits d i))).
Proof.
  induction d as [|d IH]; intros t par H0 H; cbn [hp_walk bits].
  - destruct t; reflexivity.
  - destruct t as [|x l a r]; [reflexivity|]. cbn [addr cnt Tree.rep] in *. assert (N : a <> NULL) by (intros ->; unfold NULL in H0; rewrite ind_refl in H0; lia). rewrite (proj2 (Z.eqb_neq _ _) N).
    destruct H as (H1 & H2 & H3 & _ & H5 & H6). unfold ld. rewrite H2, H3. destruct (Z.testbit i (Z.of_nat d)); cbn [at_path]; [apply (IH r a)|apply (IH l a)]; try assumption; lia.
Qed.
Lemma parent_loop_ok m d i : forall (k : uctx) (u : utree), tree_at m (plug k u) -> (forall p q, bits d i = p ++ q -> q <> [] -> occ u p) ->
  exists k' u', hp_parent_loop d m i (cpar k) (loc rt k, lfield k) = Some (cpar k', (loc rt k', lfield k')) /\ plug k' u' = plug k u /\ kpath k' = kpath k ++ bits d i.
Proof.
  induction d as [|d IH]; intros k u HT Hp; cbn [hp_parent_loop bits].
  - exists k, u. rewrite app_nil_r. repeat split.
  - pose proof HT as HF. apply tree_at_focus in HF. destruct HF as (Hk & Hr & D). unfold ld. cbn [fst snd].
    assert (HL : m (loc rt k) (lfield k) = Some (addr u)) by (destruct k as [|[? ? ? ?] ?]; cbn [crep loc lfield] in *; tauto). rewrite HL.
    assert (Hu : occ u []) by (apply (Hp [] (bits (S d) i)); [reflexivity|discriminate]). destruct u as [|x l a r]; [destruct Hu; reflexivity|]. cbn [addr].
    cbn [bits] in Hp. destruct (Z.testbit i (Z.of_nat d)).
    + destruct (IH (F R x a l :: k) r HT) as (k' & u' & E1 & E2 & E3).
      { intros p q Hb Hq. specialize (Hp (R :: p) q). cbn [app] in Hp. rewrite Hb in Hp. apply (Hp eq_refl Hq). }
      exists k', u'. split; [exact E1|]. split; [exact E2|]. rewrite E3. cbn [kpath]. rewrite <- app_assoc. reflexivity.
    + destruct (IH (F L x a r :: k) l HT) as (k' & u' & E1 & E2 & E3).
      { intros p q Hb Hq. specialize (Hp (L :: p) q). cbn [app] in Hp. rewrite Hb in Hp. apply (Hp eq_refl Hq). }
      exists k', u'. split; [exact E1|]. split; [exact E2|]. rewrite E3. cbn [kpath]. rewrite <- app_assoc. reflexivity.
Qed.
End Rt.
