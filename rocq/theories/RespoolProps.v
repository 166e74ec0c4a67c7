(** * Resource pools: proofs *)
From Verif Require Import Lib Ptr ListModel ListSpec ListProofs ListProofs2 RespoolModel RespoolSpec.
From Coq Require Import Permutation.

Definition keeps (m m' : mem) : Prop := forall q g, (exists x, m q g = Some x) -> exists x, m' q g = Some x.
Lemma keeps_node m m' n : keeps m m' -> node m n -> node m' n.
Proof. intros K [H1 H2]. split; apply K; assumption. Qed.
Lemma keeps_refl m : keeps m m. Proof. intros q g H; exact H. Qed.
Lemma keeps_trans a b c : keeps a b -> keeps b c -> keeps a c. Proof. intros H1 H2 q g H. apply H2, H1, H. Qed.
Lemma st_keeps m p f v m' : st m p f v = Some m' -> keeps m m'.
Proof. intros H. apply st_inv in H. destruct H as [_ ->]. intros q g. apply upd_ex. Qed.
Ltac chase := repeat match goal with
  | H : (let* _ := ?e in _) = Some _ |- _ => let E := fresh "E" in destruct e eqn:E; [|discriminate H]
  | H : st _ _ _ _ = Some _ |- _ => apply st_keeps in H
  | H : Some _ = Some _ |- _ => injection H as <-
  end.
Ltac chain := first [assumption | eapply keeps_trans; [eassumption|chain]].
Lemma keeps_add m h n m' : list_add m h n = Some m' -> keeps m m'.
Proof. unfold list_add, list_insert. intros H. chase. chain. Qed.
Lemma keeps_del m n m' : list_del m n = Some m' -> keeps m m'.
Proof. unfold list_del, list_deluf. intros H. chase. chain. Qed.
Lemma keeps_init m n m' : list_head_init m n = Some m' -> keeps m m'.
Proof. unfold list_head_init. intros H. chase. chain. Qed.

Lemma without_mid (x : Z) A B : ~ In x (A ++ B) -> without x (A ++ x :: B) = A ++ B.
Proof.
  intros H. unfold without. rewrite filter_app. cbn [filter]. rewrite Z.eqb_refl. cbn [negb]. rewrite <- filter_app. 
  assert (G : forall l, ~ In x l -> filter (fun y => negb (y =? x)) l = l); [|apply G, H]. clear. induction l as [|y l IH]; intros H; [reflexivity|]. cbn [filter]. destruct (Z.eqb_spec y x) as [->|N]; [exfalso; apply H; left; reflexivity|]. cbn [negb]. f_equal. apply IH. intros C. apply H. right. exact C.
Qed.
Lemma del_ring m h l x : ring m h l -> In x l -> exists m', list_del m x = Some m' /\ ring m' h (without x l) /\ keeps m m' /\ ~ In x (h :: without x l).
Proof.
  intros R Hx. apply in_split in Hx. destruct Hx as (A & B & ->). destruct (del_at m h A x B R) as (m' & E & R' & _). exists m'. pose proof (ring_notin _ _ _ _ _ R) as N.
  rewrite without_mid by (intros C; apply N; right; exact C). repeat split; try assumption; try apply R'. apply (keeps_del _ _ _ E).
Qed.

Section Pool.
Variable free : Z -> bool.
Variables (h : Z) (m0 : mem).
Notation apply_op := (apply_op free). Notation apply_ops := (apply_ops free). Notation history := (history free).

Lemma find_ok f m : forall l a fuel, ~ In h l -> seg m a l h -> (length l <= fuel)%nat ->
  find_from fuel m f h (hd h l) = Some (match first_match f l with Some n => n | None => NULL end).
Proof.
  induction l as [|x l IH]; intros a fuel Hh Hs Hf.
  - cbn [hd]. destruct fuel; cbn [find_from]; rewrite Z.eqb_refl; reflexivity.
  - cbn [hd length] in *. destruct fuel as [|fuel]; [lia|]. cbn [find_from]. destruct (Z.eqb_spec h x) as [->|Hx]; [exfalso; apply Hh; cbn; auto|]. cbn [first_match find]. destruct (f x =? 0); [reflexivity|].
    cbn [seg] in Hs. destruct Hs as [_ Hs]. assert (N : m x NEXT = Some (hd h l)) by (destruct l; cbn [seg hd] in *; apply Hs).
    unfold ld. rewrite N. apply (IH x fuel); [intros C; apply Hh; cbn; auto|exact Hs|lia].
Qed.
Theorem C68_find m l f fuel : ring m h l -> (length l <= fuel)%nat -> pool_find fuel m f h = Some (match first_match f l with Some n => n | None => NULL end).
Proof. intros R Hf. unfold pool_find, ld. rewrite (ring_next _ _ _ R). destruct R as [Hd Hs]. inversion_clear Hd. apply (find_ok f m l h); assumption. Qed.

(** Memory given back: only the fields of the node. *)
Lemma release_other m n q g : q <> n -> release free m n q g = m q g.
Proof. intros H. unfold release. destruct (free n); [|reflexivity]. rewrite (proj2 (Z.eqb_neq _ _) H). reflexivity. Qed.
Lemma release_ring m n l : ring m h l -> ~ In n (h :: l) -> ring (release free m n) h l.
Proof.
  intros [D R] N. split; [exact D|]. revert R. apply seg_frame; intros x Hx; apply release_other; intros ->; apply N; [exact Hx|]. apply in_app_iff in Hx. cbn in *. tauto.
Qed.
Lemma release_node m n x : node m x -> x <> n -> node (release free m n) x.
Proof. intros [H1 H2] N. unfold node. rewrite !release_other by exact N. split; assumption. Qed.
Definition emptied (m : mem) (l : list Z) : mem := fun q g => if existsb (fun x => (x =? q) && free x) l then None else m q g.
Lemma release_from_ok m1 : forall l fuel m a, ~ In h l -> NoDup l -> seg m1 a l h -> (forall x, In x (h :: l) -> m x NEXT = m1 x NEXT) -> (exists x, m1 h NEXT = Some x) -> (length l <= fuel)%nat ->
  exists m', (let* tmp := ld m (hd h l) NEXT in release_from free fuel m h (hd h l) tmp) = Some (m', l) /\ forall q g, m' q g = emptied m l q g.
Proof.
  induction l as [|x l IH]; intros fuel m a Hh HD Hs He [y Hy] Hf.
  - cbn [hd]. unfold ld. rewrite (He h) by (left; reflexivity). rewrite Hy. exists m. destruct fuel; cbn [release_from]; rewrite Z.eqb_refl; split; reflexivity.
  - cbn [hd length] in *. destruct fuel as [|fuel]; [lia|]. cbn [seg] in Hs. destruct Hs as [_ Hs]. assert (N : m1 x NEXT = Some (hd h l)) by (destruct l; cbn [seg hd] in *; apply Hs).
    unfold ld at 1. rewrite (He x) by (right; left; reflexivity). rewrite N. cbn [release_from]. destruct (Z.eqb_spec x h) as [->|Nx]; [exfalso; apply Hh; left; reflexivity|]. apply NoDup_cons_iff in HD. destruct HD as [D1 D2].
    destruct (IH fuel (release free m x) x) as (m' & E & G); try assumption; try lia; eauto.
    + intros C. apply Hh. right. exact C.
    + intros z Hz. rewrite release_other; [apply He; destruct Hz as [<-|Hz]; [left; reflexivity|right; right; exact Hz]|]. intros ->. destruct Hz as [Hz|Hz]; [congruence|contradiction].
    + destruct (ld (release free m x) (hd h l) NEXT) as [t|]; [|discriminate E]. rewrite E. exists m'. split; [reflexivity|]. intros q g. rewrite G. unfold emptied, release. cbn [existsb]. destruct (Z.eqb_spec x q) as [->|Nq]; cbn [andb orb].
      * destruct (free q); cbn [orb]; [rewrite Z.eqb_refl; destruct (existsb _ l); reflexivity|reflexivity].
      * destruct (existsb _ l); [reflexivity|]. destruct (free x); [|reflexivity]. rewrite (proj2 (Z.eqb_neq q x)) by congruence. reflexivity.
Qed.
(** Each resource in the pool is released once, the newest first; nothing else is touched. *)
Theorem C68_release_all m l fuel : ring m h l -> (length l <= fuel)%nat ->
  exists m', pool_release_all free fuel m h = Some (m', l) /\ forall q g, m' q g = if existsb (fun x => (x =? q) && free x) l then None else m q g.
Proof.
  intros R Hf. unfold pool_release_all. unfold ld at 1. rewrite (ring_next _ _ _ R). pose proof R as [D S]. apply NoDup_cons_iff in D. destruct D as [D1 D2].
  apply (release_from_ok m l fuel m h); try assumption; [reflexivity|]. rewrite (ring_next _ _ _ R). eauto.
Qed.

(** ** Histories *)
Definition exec (fuel : nat) (m : mem) (o : op) : option (mem * Z * list Z) :=
  match o with
  | Insert n => let* m := pool_insert m h n in Some (m, 0, [])
  | Remove n => let* m := pool_remove m h n in Some (m, 0, [])
  | Release n => let* (m, log) := pool_release free m h n in Some (m, 0, log)
  | FindRemove f => let* (m, n) := pool_find_remove fuel m f h in Some (m, n, [])
  | FindRelease f => pool_find_release free fuel m f h
  | Clear => let* (m, log) := pool_release_all free fuel m h in let* m := pool_init m h in Some (m, 0, log)
  end.
Fixpoint run (fuel : nat) (m : mem) (ops : list op) : option (mem * list Z * list Z) :=
  match ops with [] => Some (m, [], []) | o :: ops => let* (m, r, log) := exec fuel m o in let* (m, rs, logs) := run fuel m ops in Some (m, r :: rs, log ++ logs) end.
(** Memory the client has. *)
Definition nd (n : Z) : Prop := node m0 n /\ n <> h /\ n <> NULL.
Definition inv (m : mem) (p : pool) : Prop := ring m h (held p) /\ node m h /\ (forall n, nd n -> ~ In n (gone p) -> node m n) /\ ~ In NULL (held p).
Lemma inv_drop m m' p n : inv m p -> ring m' h (without n (held p)) -> keeps m m' -> inv m' (drop n p).
Proof.
  intros (R & Nh & HN & H0) R' K. split; [exact R'|]. split; [apply (keeps_node _ _ _ K Nh)|]. split; [intros x H1 H2; apply (keeps_node _ _ _ K), HN; assumption|]. intros C. apply filter_In in C. tauto.
Qed.
Lemma inv_give m p n : inv m (drop n p) -> ~ In n (h :: without n (held p)) -> inv (release free m n) (give free n p).
Proof.
  intros (R & Nh & HN & H0) Nn. split; [apply release_ring; assumption|]. split; [apply release_node; [exact Nh|intros ->; apply Nn; left; reflexivity]|]. split; [|exact H0]. cbn [give gone drop] in *. intros x H1 H2.
  unfold release. destruct (free n) eqn:Ef; [|apply HN; assumption]. cbn [app In] in H2. destruct (HN x H1 ltac:(tauto)) as [N1 N2]. unfold node. rewrite (proj2 (Z.eqb_neq x n)) by (intros ->; tauto). split; assumption.
Qed.
Lemma first_in f l n : first_match f l = Some n -> In n l.
Proof. intros H. apply find_some in H. apply H. Qed.
Lemma step_ok fuel m p o : inv m p -> allowed nd o p -> (length (held p) <= fuel)%nat -> exists m' log, exec fuel m o = Some (m', snd (apply_op o p), log) /\ inv m' (fst (apply_op o p)) /\ released (fst (apply_op o p)) = released p ++ log.
Proof.
  intros HI Ha Hf. pose proof HI as (R & Nh & HN & H0). destruct o as [n|n|n|f|f|]; cbn [exec allowed RespoolSpec.apply_op fst snd] in *.
  - destruct Ha as ((A1 & A2 & A3) & A4 & A5). assert (Nn : ~ In n (h :: held p)) by (intros [C|C]; [congruence|contradiction]). destruct (add_ring m h (held p) n R (HN n ltac:(split; auto) A4) Nn) as (m' & E & R' & _). unfold pool_insert. rewrite E. exists m', []. split; [reflexivity|]. pose proof (keeps_add _ _ _ _ E) as K. split; [|cbn [released]; rewrite app_nil_r; reflexivity].
    split; [exact R'|]. split; [apply (keeps_node _ _ _ K Nh)|]. split; [intros x H1 H2; apply (keeps_node _ _ _ K), HN; assumption|]. cbn [held In]. intros [C|C]; [congruence|contradiction].
  - destruct (del_ring m h (held p) n R Ha) as (m' & E & R' & K & _). unfold pool_remove. rewrite E. exists m', []. split; [reflexivity|]. split; [apply (inv_drop m); assumption|cbn [drop released]; rewrite app_nil_r; reflexivity].
  - destruct (del_ring m h (held p) n R Ha) as (m' & E & R' & K & Nn). unfold pool_release. rewrite E. exists (release free m' n), [n]. split; [reflexivity|]. split; [|reflexivity]. apply inv_give; [apply (inv_drop m); assumption|exact Nn].
  - unfold pool_find_remove. rewrite (C68_find m (held p) f fuel R Hf). destruct (first_match f (held p)) as [n|] eqn:Ef; cbn [fst snd].
    + apply first_in in Ef. assert (n <> NULL) by (intros ->; contradiction). rewrite (proj2 (Z.eqb_neq _ _) H). cbn [negb]. destruct (del_ring m h (held p) n R Ef) as (m' & E & R' & K & _). rewrite E. exists m', []. split; [reflexivity|]. split; [apply (inv_drop m); assumption|cbn [drop released]; rewrite app_nil_r; reflexivity].
    + rewrite Z.eqb_refl. cbn [negb]. exists m, []. split; [reflexivity|]. split; [exact HI|rewrite app_nil_r; reflexivity].
  - unfold pool_find_release. rewrite (C68_find m (held p) f fuel R Hf). destruct (first_match f (held p)) as [n|] eqn:Ef; cbn [fst snd].
    + apply first_in in Ef. assert (n <> NULL) by (intros ->; contradiction). rewrite (proj2 (Z.eqb_neq _ _) H). cbn [negb]. destruct (del_ring m h (held p) n R Ef) as (m' & E & R' & K & Nn). rewrite E. exists (release free m' n), [n]. split; [reflexivity|]. split; [|reflexivity]. apply inv_give; [apply (inv_drop m); assumption|exact Nn].
    + rewrite Z.eqb_refl. cbn [negb]. exists m, []. split; [reflexivity|]. split; [exact HI|rewrite app_nil_r; reflexivity].
  - destruct (C68_release_all m (held p) fuel R Hf) as (m1 & E & G). rewrite E.
    assert (K : forall x, ~ In x (filter free (held p)) -> node m x -> node m1 x).
    { intros x Hx [N1 N2]. unfold node. rewrite !G. destruct (existsb _ (held p)) eqn:Ex; [|split; assumption]. exfalso. apply existsb_exists in Ex. destruct Ex as (y & Y1 & Y2). apply andb_prop in Y2. destruct Y2 as [Y2 Y3]. apply Z.eqb_eq in Y2. subst y. apply Hx, filter_In. split; assumption. }
    assert (Nh1 : node m1 h). { apply K; [|exact Nh]. intros C. apply filter_In in C. destruct R as [D _]. apply NoDup_cons_iff in D. tauto. }
    destruct (init_ring m1 h Nh1) as (m' & E' & R' & _). unfold pool_init. rewrite E'. exists m', (held p). split; [reflexivity|]. split; [|reflexivity]. apply keeps_init in E'.
    split; [exact R'|]. split; [apply (keeps_node _ _ _ E' Nh1)|]. split; [|intros []]. cbn [gone]. intros x H1 H2. rewrite in_app_iff in H2. apply (keeps_node _ _ _ E'), K; [tauto|]. apply HN; tauto.
Qed.
Lemma held_len o p : (length (held (fst (apply_op o p))) <= S (length (held p)))%nat.
Proof.
  assert (W : forall n l, (length (without n l) <= length l)%nat). { intros n l. unfold without. induction l as [|x l IH]; cbn [filter length]; [lia|]. destruct (negb (x =? n)); cbn [length]; lia. }
  destruct o as [n|n|n|f|f|]; cbn [RespoolSpec.apply_op fst held drop give length]; try lia; try (pose proof (W n (held p)); lia); destruct (first_match f (held p)) as [n|]; cbn [fst held drop give]; try lia; pose proof (W n (held p)); lia.
Qed.
Lemma run_ok fuel ops : forall m p, inv m p -> history nd ops p -> (length (held p) + length ops <= fuel)%nat ->
  exists m' log, run fuel m ops = Some (m', snd (apply_ops ops p), log) /\ inv m' (fst (apply_ops ops p)) /\ released (fst (apply_ops ops p)) = released p ++ log.
Proof.
  induction ops as [|o ops IH]; intros m p HI HH Hf; cbn [run RespoolSpec.apply_ops RespoolSpec.history length] in *.
  - exists m, []. split; [reflexivity|]. split; [exact HI|]. rewrite app_nil_r. reflexivity.
  - destruct HH as [Ha Hh]. destruct (step_ok fuel m p o HI Ha ltac:(lia)) as (m1 & log & E & HI1 & L1). rewrite E. pose proof (held_len o p) as HL. destruct (apply_op o p) as [p1 r] eqn:Eo. cbn [fst snd] in *.
    destruct (IH m1 p1 HI1 Hh ltac:(lia)) as (m2 & logs & E2 & HI2 & L2). rewrite E2. destruct (apply_ops ops p1) as [p2 rs]. cbn [fst snd] in *. exists m2, (log ++ logs). split; [reflexivity|]. split; [exact HI2|]. rewrite L2, L1, app_assoc. reflexivity.
Qed.
Definition empty : pool := {| held := []; released := []; gone := [] |}.
(** Any history from an initialised pool: the replies, the releases and their order are those of the abstract pool,
    and the pool holds exactly what it should, the newest first. *)
Theorem C68_history fuel ops : ring m0 h [] -> history nd ops empty -> (length ops <= fuel)%nat ->
  exists m', run fuel m0 ops = Some (m', snd (apply_ops ops empty), released (fst (apply_ops ops empty))) /\ ring m' h (held (fst (apply_ops ops empty))).
Proof.
  intros R HH Hf. destruct (run_ok fuel ops m0 empty) as (m' & log & E & HI & L); try assumption.
  - split; [exact R|]. split; [apply (ring_nodes m0 h [] R); left; reflexivity|]. split; [intros n [H _] _; exact H|intros []].
  - exists m'. rewrite L. split; [exact E|apply HI].
Qed.
(** Nothing is released twice for one insertion, and after [Clear] everything inserted and not removed has been
    released: insertions = removals + releases + still held, for every node. *)
Fixpoint removals (n : Z) (ops : list op) (p : pool) : Z :=
  match ops with
  | [] => 0
  | o :: ops => (match o with Remove x => if x =? n then 1 else 0 | FindRemove f => match first_match f (held p) with Some x => if x =? n then 1 else 0 | None => 0 end | _ => 0 end) + removals n ops (fst (apply_op o p))
  end.
Definition occ (n : Z) (l : list Z) : Z := Z.of_nat (count_occ Z.eq_dec l n).
Lemma occ_app n a b : occ n (a ++ b) = occ n a + occ n b.
Proof. unfold occ. rewrite count_occ_app. lia. Qed.
Lemma occ_cons n x l : occ n (x :: l) = (if x =? n then 1 else 0) + occ n l.
Proof. unfold occ. cbn [count_occ]. destruct (Z.eq_dec x n) as [->|N]; [rewrite Z.eqb_refl|rewrite (proj2 (Z.eqb_neq _ _) N)]; lia. Qed.
Lemma occ_without n x l : NoDup l -> In x l -> occ n (without x l) = occ n l - (if x =? n then 1 else 0).
Proof.
  intros D H. apply in_split in H. destruct H as (A & B & ->). rewrite without_mid; [|apply NoDup_remove_2 in D; exact D]. rewrite !occ_app, occ_cons. lia.
Qed.
Lemma balance n ops : forall p, NoDup (held p) -> history nd ops p -> 
  let p' := fst (apply_ops ops p) in occ n (held p) + occ n (released p) + puts n ops = removals n ops p + occ n (released p') + occ n (held p').
Proof.
  induction ops as [|o ops IH]; intros p D HH; cbv zeta in *; cbn [RespoolSpec.apply_ops RespoolSpec.history removals fst] in *.
  - unfold puts. cbn [filter length]. lia.
  - destruct HH as [Ha Hh]. assert (Dw : forall x, NoDup (without x (held p))) by (intros x; apply NoDup_filter, D).
    assert (Pu : puts n (o :: ops) = (match o with Insert x => if x =? n then 1 else 0 | _ => 0 end) + puts n ops) by (unfold puts; cbn [filter]; destruct o; try reflexivity; destruct (n0 =? n); cbn [length]; lia).
    rewrite Pu. clear Pu.
    assert (K : NoDup (held (fst (apply_op o p))) /\ occ n (held p) + occ n (released p) + (match o with Insert x => if x =? n then 1 else 0 | _ => 0 end) =
      (match o with Remove x => if x =? n then 1 else 0 | FindRemove f => match first_match f (held p) with Some x => if x =? n then 1 else 0 | None => 0 end | _ => 0 end) + occ n (held (fst (apply_op o p))) + occ n (released (fst (apply_op o p)))).
    { destruct o as [x|x|x|f|f|]; cbn [RespoolSpec.apply_op fst held released drop give allowed] in *.
      - split; [constructor; tauto|]. rewrite occ_cons. lia.
      - split; [apply Dw|]. rewrite occ_without by assumption. lia.
      - split; [apply Dw|]. rewrite occ_without by assumption. rewrite occ_app, occ_cons. change (occ n []) with 0. lia.
      - destruct (first_match f (held p)) as [x|] eqn:Ef; cbn [fst held released drop]; [|split; [exact D|lia]]. apply first_in in Ef. split; [apply Dw|]. rewrite occ_without by assumption. lia.
      - destruct (first_match f (held p)) as [x|] eqn:Ef; cbn [fst held released give]; [|split; [exact D|lia]]. apply first_in in Ef. split; [apply Dw|]. rewrite occ_without by assumption. rewrite occ_app, occ_cons. change (occ n []) with 0. lia.
      - split; [constructor|]. rewrite occ_app. change (occ n []) with 0. lia. }
    destruct K as [K1 K2]. specialize (IH (fst (apply_op o p)) K1 Hh). destruct (apply_op o p) as [p1 r]. cbn [fst] in *. destruct (apply_ops ops p1) as [p2 rs]. cbn [fst] in *. lia.
Qed.
Theorem C68_once ops n : history nd ops empty -> puts n ops = removals n ops empty + occ n (released (fst (apply_ops ops empty))) + occ n (held (fst (apply_ops ops empty))).
Proof. intros H. pose proof (balance n ops empty (NoDup_nil _) H) as B. cbv zeta in B. cbn [held released empty] in B. change (occ n []) with 0 in B. lia. Qed.
End Pool.

Definition ex_mem : mem := fun a f => if (f =? NEXT) || (f =? PREV) then (if a =? 7 then Some 7 else if (10 <=? a) && (a <? 100) then Some 0 else None) else None.
Definition ex_ops : list op := [Insert 10; Insert 20; Insert 30; Insert 40; Insert 50; Remove 30; FindRelease (fun x => x mod 20); FindRemove (fun x => x - 10); Insert 30; Release 50; Insert 60; Clear; Insert 70].
Example C68_example : ring ex_mem 7 [] /\ history (fun x => x =? 40) (nd 7 ex_mem) ex_ops empty /\
  option_map (fun r => (snd (fst r), snd r)) (run (fun x => x =? 40) 7 20 ex_mem ex_ops) = Some ([0; 0; 0; 0; 0; 0; 40; 10; 0; 0; 0; 0; 0], [40; 50; 60; 30; 20]).
Proof.
  split; [split; [repeat constructor; intros []|split; reflexivity]|]. split; [|vm_compute; reflexivity].
  assert (G : forall n, 10 <= n < 100 -> nd 7 ex_mem n).
  { intros n Hn. split; [|split; [lia|unfold NULL; lia]]. unfold node, ex_mem. cbn. destruct (Z.eqb_spec n 7); [lia|]. destruct (Z.leb_spec 10 n), (Z.ltb_spec n 100); try lia. cbn. eauto. }
  unfold ex_ops. cbn [history]. repeat split; try exact I; try (apply G; lia); try (vm_compute; tauto); vm_compute; intuition discriminate.
Qed.
(** "After release_all the pool is empty" is false: the list still holds every node released. *)
Theorem C68_empty_refuted : exists free m h l fuel m' log, ring m h l /\ l <> [] /\ (forall n, free n = false) /\ pool_release_all free fuel m h = Some (m', log) /\ log = l /\ pool_check_empty m' h = Some false /\
  exists m'', pool_release_all free fuel m' h = Some (m'', l).
Proof.
  destruct (run (fun _ => false) 7 20 ex_mem [Insert 10; Insert 20]) as [[[m r] log]|] eqn:E; [|vm_compute in E; discriminate].
  assert (R : ring m 7 [20; 10]). { split; [repeat constructor; cbn; lia|]. vm_compute in E. injection E as <- _ _. cbn [seg]. unfold linked. vm_compute. repeat split. }
  exists (fun _ => false), m, 7, [20; 10], 5%nat. destruct (C68_release_all (fun _ => false) 7 m [20; 10] 5 R ltac:(cbn; lia)) as (m' & E1 & G). cbn [existsb andb orb] in G.
  assert (Gm : forall q g, m' q g = m q g) by (intros q g; rewrite G, !andb_false_r; reflexivity).
  assert (R' : ring m' 7 [20; 10]) by (apply (ring_other m m' 7 _ []); [intros q g _; apply Gm|intros x _ []|exact R]).
  exists m', [20; 10]. split; [exact R|]. split; [discriminate|]. split; [reflexivity|]. split; [exact E1|]. split; [reflexivity|]. split; [apply (check_empty_ok m' 7 _ R')|].
  destruct (C68_release_all (fun _ => false) 7 m' [20; 10] 5 R' ltac:(cbn; lia)) as (m'' & E2 & _). eauto.
Qed.
Print Assumptions C68_find.
Print Assumptions C68_release_all.
Print Assumptions C68_history.
Print Assumptions C68_once.
Print Assumptions C68_empty_refuted.
