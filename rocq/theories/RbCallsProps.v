(** * C129: a red-black tree survives any comparison function, with few calls *)
From Coq Require Import Sorting.Sorted.
From Verif Require Import Lib Ptr Tree TiterModel TiterProofs RbModel RbProofs RbRotate RbSpec RbInsert RbErase RbRemove RbRemove2 RbDelete RbFrame RbOps RbOps2 RbHistSpec RbProps RbCallsModel RbCallsProofs.

(** ** Specification *)
Inductive rop := RIns (n : Z) | RDel (n : Z) | RRep (o n : Z) | RFind (key : Z).
Section Spec.
Variable orc : list (Z * Z) -> Z -> Z -> Z.
Variable cached : bool.
(** [moved l o r l']: operation [o] on a tree with the nodes [l], in order, may reply [r] and leave [l'] *)
Inductive moved : list Z -> rop -> Z -> list Z -> Prop :=
| m_in l1 l2 n : moved (l1 ++ l2) (RIns n) 1 (l1 ++ n :: l2)
| m_refused l n x h : In x l -> orc h n x = 0 -> moved l (RIns n) 0 l
| m_del l1 n l2 : moved (l1 ++ n :: l2) (RDel n) (match l1 with [] => if cached then hd 0 l2 else 0 | _ => 0 end) (l1 ++ l2)
| m_rep l1 o n l2 : moved (l1 ++ o :: l2) (RRep o n) 0 (l1 ++ n :: l2)
| m_found l key x h : In x l -> orc h key x = 0 -> moved l (RFind key) x l
| m_missing l key : moved l (RFind key) 0 l.
(** calls that an operation on a tree of [n] nodes may make *)
Definition calls (o : rop) (n : Z) : Z := match o with RIns _ | RFind _ => 2 * Z.log2 (n + 1) | _ => 0 end.
Inductive session : list Z -> list (rop * Z * Z) -> list Z -> Prop :=
| s_nil l : session l [] l
| s_cons l o r c l1 evs l2 : moved l o r l1 -> 0 <= c <= calls o (zlen l) -> session l1 evs l2 -> session l ((o, r, c) :: evs) l2.
(** What a client has to observe, whatever the replies; it decides by the replies so far, newest first. *)
Definition lawful (node : Z -> Prop) (o : rop) (l : list Z) : Prop :=
  match o with RIns n => node n /\ ~ In n l | RDel n => In n l | RRep a n => In a l /\ node n /\ ~ In n l | RFind _ => True end.
Fixpoint obeys (node : Z -> Prop) (client : list Z -> rop) (steps : nat) (replies : list Z) (l : list Z) : Prop :=
  match steps with O => True | S steps => lawful node (client replies) l /\ forall r l', moved l (client replies) r l' -> obeys node client steps (r :: replies) l' end.
End Spec.


(** ** Helpers *)
Fixpoint idx (z : Z) (l : list Z) : Z := match l with [] => 0 | x :: l => if x =? z then 0 else 1 + idx z l end.
Lemma idx_pos z : forall l, 0 <= idx z l.
Proof. induction l as [|x l IH]; cbn [idx]; [lia|]. destruct (x =? z); lia. Qed.
Lemma by_pos f : comparison (fun x y => f x - f y).
Proof. split; intros; lia. Qed.
Lemma by_pos_sorted f : forall l c, NoDup l -> (forall z, In z l -> f z = c + idx z l) -> sorted (fun x y => f x - f y) l.
Proof.
  induction l as [|x l IH]; intros c ND H0; [constructor|]. inversion ND as [|? ? N1 N2]; subst.
  assert (Hy : forall y, In y l -> f y = (c + 1) + idx y l).
  { intros y Hi. rewrite (H0 y (or_intror Hi)). cbn [idx]. destruct (Z.eqb_spec x y) as [->|]; [contradiction|lia]. }
  constructor; [apply (IH (c + 1) N2 Hy)|]. apply Forall_forall. intros y Hi. rewrite (H0 x (or_introl eq_refl)), (Hy y Hi). cbn [idx]. rewrite Z.eqb_refl. pose proof (idx_pos y l). lia.
Qed.
Lemma sorted_map f (g : Z -> Z) : forall l, sorted (fun x y => f (g x) - f (g y)) l -> sorted (fun x y => f x - f y) (map g l).
Proof.
  induction l as [|x l IH]; intros H0; [constructor|]. apply StronglySorted_inv in H0. destruct H0 as [H1 H2]. cbn [map]. constructor; [apply IH, H1|]. apply Forall_forall. intros y Hy. apply in_map_iff in Hy. destruct Hy as (z & <- & Hz). rewrite Forall_forall in H2. apply H2, Hz.
Qed.
Section Grow.
Variable orc : list (Z * Z) -> Z -> Z -> Z.
Variable m : mem.
Lemma find_grows key fuel tr tr' x rt : find_o orc fuel tr m rt key = Some (x, tr') -> exists q, tr' = q ++ tr.
Proof.
  unfold find_o. destruct (ld m rt NODE) as [node|]; [|discriminate]. revert tr node. induction fuel as [|fuel IH]; intros tr node H0; [discriminate|]. cbn [find_loop_o] in H0.
  destruct (node =? NULL); [injection H0 as _ <-; exists []; reflexivity|]. destruct (orc tr key node =? 0); [injection H0 as _ <-; exists [(key, node)]; reflexivity|].
  destruct (if orc tr key node >? 0 then ld m node LEFT else ld m node RIGHT) as [next|]; [|discriminate]. apply IH in H0. destruct H0 as [q ->]. exists (q ++ [(key, node)]). rewrite <- app_assoc. reflexivity.
Qed.
Lemma parent_grows n fuel tr tr' p rt : rb_parent_o orc fuel tr m rt n = Some (p, tr') -> exists q, tr' = q ++ tr.
Proof.
  unfold rb_parent_o. destruct (ld m rt NODE) as [node|]; [|discriminate]. destruct (node =? NULL); [intros H0; injection H0 as _ <-; exists []; reflexivity|].
  generalize (rt, NODE) true. revert tr. induction fuel as [|fuel IH]; intros tr lp lm H0; [discriminate|]. cbn [parent_loop_o] in H0. destruct (ld m (fst lp) (snd lp)) as [cur|]; [|discriminate].
  destruct (orc tr n cur =? 0); [injection H0 as _ <-; exists [(n, cur)]; reflexivity|]. destruct (if orc tr n cur <? 0 then ((cur, LEFT), lm) else ((cur, RIGHT), false)) as [lp' lm'].
  destruct (ld m (fst lp') (snd lp')) as [next|]; [|discriminate]. destruct (negb (next =? NULL)); [|injection H0 as _ <-; exists [(n, cur)]; reflexivity].
  apply IH in H0. destruct H0 as [q ->]. exists (q ++ [(n, cur)]). rewrite <- app_assoc. reflexivity.
Qed.
End Grow.

(** ** Running a client *)
Section Run.
Variable orc : list (Z * Z) -> Z -> Z -> Z.
Variable cached : bool.
Variable rt : Z.
Definition exec_o (fuel : nat) (tr : list (Z * Z)) (m : mem) (o : rop) : option (mem * Z * list (Z * Z)) :=
  match o with
  | RIns n => let* (m, b, tr) := (if cached then cached_insert_o orc fuel tr m rt n else insert_o orc fuel tr m rt n) in Some (m, if b then 1 else 0, tr)
  | RDel n => if cached then let* (m, r) := cached_delete dummy_callbacks fuel m rt n in Some (m, r, tr) else let* m := delete dummy_callbacks fuel m rt n in Some (m, 0, tr)
  | RRep o n => let* m := (if cached then cached_replace m rt o n else replace m rt o n) in Some (m, 0, tr)
  | RFind key => let* (x, tr) := find_o orc fuel tr m rt key in Some (m, x, tr)
  end.
Fixpoint run_o (fuel : nat) (tr : list (Z * Z)) (m : mem) (client : list Z -> rop) (steps : nat) (replies : list Z) : option (mem * list (rop * Z * Z)) :=
  match steps with
  | O => Some (m, [])
  | S steps =>
    let o := client replies in
    let* (m, r, tr') := exec_o fuel tr m o in
    let* (m, evs) := run_o fuel tr' m client steps (r :: replies) in
    Some (m, (o, r, zlen tr' - zlen tr) :: evs)
  end.

Notation holds := (holds rt cached).
Notation St := (St rt (fun _ _ => True)).
Lemma step_del fuel m l n : (length l < fuel)%nat -> holds m l -> In n l ->
  exists m' r l', exec_o fuel [] m (RDel n) = Some (m', r, []) /\ moved orc cached l (RDel n) r l' /\ holds m' l' /\ dom m m'.
Proof.
  intros Hf HH Hin. pose proof HH as [(t & HT & _ & Hi) _]. assert (ND : NoDup l) by (rewrite <- Hi; apply (at_nodup V rt m t HT)).
  pose (f := fun z => idx z l).
  destruct (RbProps.step_ok (fun x y => f x - f y) (by_pos f) rt cached fuel m l (Del n) Hf HH (by_pos_sorted f l 0 ND ltac:(unfold f; lia)) Hin) as (m' & E1 & E2 & _ & E3).
  apply in_split in Hin. destruct Hin as (l1 & l2 & ->). cbn [exec spec fst snd] in E1, E2. rewrite del_split in E2 by exact ND.
  exists m', (match l1 with [] => if cached then hd 0 l2 else 0 | _ => 0 end), (l1 ++ l2).
  split; [|split; [constructor|split; assumption]]. cbn [exec_o].
  assert (Er : (if cached && (hd 0 (l1 ++ n :: l2) =? n) then hd 0 (tl (l1 ++ n :: l2)) else 0) = (match l1 with [] => if cached then hd 0 l2 else 0 | _ => 0 end)).
  { destruct l1 as [|a l1]; cbn [app hd tl]; [rewrite Z.eqb_refl; destruct cached; reflexivity|]. destruct (Z.eqb_spec a n) as [->|Na]; [|destruct cached; reflexivity].
    exfalso. cbn [app] in ND. inversion ND as [|? ? N1 _]. apply N1, in_or_app. right. left. reflexivity. }
  rewrite Er in E1. destruct cached.
  - destruct (cached_delete dummy_callbacks fuel m rt n) as [[m1 r1]|]; [|discriminate]. injection E1 as -> ->. reflexivity.
  - destruct (delete dummy_callbacks fuel m rt n) as [m1|]; [|discriminate]. injection E1 as -> _. destruct l1; reflexivity.
Qed.
Lemma step_rep fuel m l a n : (length l < fuel)%nat -> holds m l -> In a l -> good_node rt m n -> ~ In n l ->
  exists m' l', exec_o fuel [] m (RRep a n) = Some (m', 0, []) /\ moved orc cached l (RRep a n) 0 l' /\ holds m' l' /\ dom m m'.
Proof.
  intros Hf HH Hin Hg Hn. pose proof HH as [(t & HT & _ & Hi) _]. assert (ND : NoDup l) by (rewrite <- Hi; apply (at_nodup V rt m t HT)).
  pose (f := fun z => idx (if z =? n then a else z) l).
  assert (F1 : sorted (fun x y => f x - f y) l).
  { apply (by_pos_sorted f l 0 ND). intros z Hz. unfold f. destruct (Z.eqb_spec z n) as [->|]; [contradiction|lia]. }
  assert (F2 : sorted (fun x y => f x - f y) (sub a n l)).
  { unfold sub. apply sorted_map. apply (by_pos_sorted (fun x => f (if x =? a then n else x)) l 0 ND). intros z Hz. unfold f. destruct (Z.eqb_spec z a) as [->|]; [rewrite Z.eqb_refl; lia|]. destruct (Z.eqb_spec z n) as [->|]; [contradiction|lia]. }
  destruct (RbProps.step_ok (fun x y => f x - f y) (by_pos f) rt cached fuel m l (Rep a n) Hf HH F1 (conj Hin (conj Hg (conj Hn F2)))) as (m' & E1 & E2 & _ & E3).
  apply in_split in Hin. destruct Hin as (l1 & l2 & ->). cbn [exec spec fst snd] in E1, E2. rewrite sub_split in E2 by exact ND.
  exists m', (l1 ++ n :: l2). split; [|split; [constructor|split; assumption]]. cbn [exec_o]. destruct (if cached then cached_replace m rt a n else replace m rt a n) as [m1|]; [|discriminate]. injection E1 as ->. reflexivity.
Qed.
Lemma step_find fuel tr m l key : (length l < fuel)%nat -> holds m l ->
  exists r tr', exec_o fuel tr m (RFind key) = Some (m, r, tr') /\ moved orc cached l (RFind key) r l /\ 0 <= zlen tr' - zlen tr <= 2 * Z.log2 (zlen l + 1).
Proof.
  intros Hf [(t & HT & Hrb & Hi) _]. assert (Hsz : size t = length l) by (rewrite size_inorder, Hi; reflexivity).
  destruct (find_any orc rt m key fuel tr t ltac:(lia) HT) as (x & tr' & E1 & E2 & E3). destruct (find_grows orc m key fuel tr tr' x rt E1) as [q Eq].
  exists x, tr'. cbn [exec_o]. rewrite E1. split; [reflexivity|]. split; [destruct E3 as [->|[E3 [h E4]]]; [constructor|econstructor; [rewrite <- Hi; exact E3|exact E4]]|].
  pose proof (height_log t Hrb) as H. rewrite Hsz in H. rewrite Eq in *. unfold zlen. rewrite app_length in *. lia.
Qed.
Lemma step_ins fuel tr m l n : (length l < fuel)%nat -> holds m l -> good_node rt m n -> ~ In n l ->
  exists m' r l' tr', exec_o fuel tr m (RIns n) = Some (m', r, tr') /\ moved orc cached l (RIns n) r l' /\ holds m' l' /\ dom m m' /\ 0 <= zlen tr' - zlen tr <= 2 * Z.log2 (zlen l + 1).
Proof.
  intros Hf [(t & HT & Hrb & Hi) HLm] (Hn & N0 & N1) Hni. assert (Hsz : size t = length l) by (rewrite size_inorder, Hi; reflexivity).
  assert (Hc : cnt n t = 0%nat) by (apply cnt_zero_in; rewrite Hi; exact Hni).
  destruct (rb_parent_any orc rt m n fuel tr t ltac:(lia) HT) as (p & tr' & E1 & E2 & E3). destruct (parent_grows orc m n fuel tr tr' p rt E1) as [q Eq].
  assert (HC : 0 <= zlen tr' - zlen tr <= 2 * Z.log2 (zlen l + 1)).
  { pose proof (height_log t Hrb) as H. rewrite Hsz in H. rewrite Eq in *. unfold zlen. rewrite app_length in *. lia. }
  cbn [exec_o]. destruct p as [p|].
  - destruct E3 as (k & lm & -> & E3 & Hlm). assert (Hl : l = before k ++ after k) by (rewrite <- Hi, E3, inorder_plug; reflexivity). rewrite E3 in *.
    destruct (link_fixup rt dummy_callbacks (fun _ _ => True) (fun _ _ _ _ H => H) dummy_local fuel m k n ltac:(lia) HT Hrb Hn N0 N1 Hc (cb_rot _ _ _ _ (dummy_ok rt)) I) as (m1 & L1 & K1 & _ & Hfx).
    assert (ND' : cnt rt (plug k (T false E n E)) = 0%nat).
    { destruct HT as (_ & _ & D). specialize (D rt). rewrite ind_refl in D. rewrite cnt_plug in *. cbn [cnt cntk] in *. rewrite (ind_ne rt n) by congruence. lia. }
    destruct cached eqn:Ec.
    + specialize (HLm eq_refl).
      assert (L1m : m1 rt LEFTMOST = Some (hd 0 l)) by (destruct K1 as [_ K1]; rewrite K1; [exact HLm|reflexivity|exact ND'|intros [_ E0]; discriminate E0]).
      pose (m2 := if lm then upd m1 rt LEFTMOST n else m1).
      assert (E2m : (if lm then st m1 rt LEFTMOST n else Some m1) = Some m2) by (unfold m2; destruct lm; [apply (st_some _ _ _ _ _ L1m)|reflexivity]).
      destruct (Hfx m2) as (m' & t' & F1 & F2 & F3 & F4 & F5).
      { intros a f Hn2. unfold m2. destruct lm; [|reflexivity]. apply upd_other. destruct (Z.eq_dec a rt); [right; tauto|left; assumption]. }
      exists m', 1, (before k ++ n :: after k), tr'. unfold cached_insert_o. rewrite E1. unfold cached_insert_node. rewrite L1, E2m, F1. split; [reflexivity|]. split; [rewrite Hl; constructor|]. split; [|split; [|exact HC]].
      * split; [exists t'; split; [apply F2|tauto]|]. intros _. destruct F5 as [_ F5]. rewrite F5; [|reflexivity|exact ND'|intros [_ E0]; discriminate E0]. rewrite hd_cons_app. unfold m2.
        destruct (before k) as [|b bs] eqn:Eb; [rewrite (proj2 Hlm eq_refl); apply upd_same|]. destruct lm; [discriminate (proj1 Hlm eq_refl)|]. rewrite L1m, Hl. reflexivity.
      * apply (dom_trans _ m1); [apply K1|]. apply (dom_trans _ m2); [|apply F5]. unfold m2. destruct lm; [|apply dom_refl].
        intros a f. unfold upd. destruct ((a =? rt) && (f =? LEFTMOST)) eqn:B; [|tauto]. apply andb_true_iff in B. destruct B as [B1 B2]. apply Z.eqb_eq in B1, B2. subst. rewrite L1m. split; discriminate.
    + destruct (Hfx m1) as (m' & t' & F1 & F2 & F3 & F4 & F5); [reflexivity|].
      exists m', 1, (before k ++ n :: after k), tr'. unfold insert_o. rewrite E1. unfold insert_node. rewrite L1, F1. split; [reflexivity|]. split; [rewrite Hl; constructor|]. split; [|split; [|exact HC]].
      * split; [exists t'; split; [apply F2|tauto]|discriminate].
      * apply (dom_trans _ m1); [apply K1|apply F5].
  - destruct E3 as (x & h & E3 & E4). exists m, 0, l, tr'. split; [unfold cached_insert_o, insert_o; rewrite E1; destruct cached; reflexivity|].
    split; [econstructor; [rewrite <- Hi; exact E3|exact E4]|]. split; [split; [exists t; tauto|exact HLm]|]. split; [apply dom_refl|exact HC].
Qed.
Lemma exec_tr fuel tr m o m' r : match o with RDel _ | RRep _ _ => True | _ => False end -> exec_o fuel [] m o = Some (m', r, []) -> exec_o fuel tr m o = Some (m', r, tr).
Proof.
  destruct o as [n|n|a n|key]; intros T; try destruct T; cbn [exec_o]; intros H0.
  - destruct cached; [destruct (cached_delete dummy_callbacks fuel m rt n) as [[m1 r1]|]|destruct (delete dummy_callbacks fuel m rt n) as [m1|]]; try discriminate; injection H0 as -> ->; reflexivity.
  - destruct (if cached then cached_replace m rt a n else replace m rt a n); try discriminate; injection H0 as -> ->; reflexivity.
Qed.
Lemma step_any fuel tr m l o : (length l < fuel)%nat -> holds m l -> lawful (good_node rt m) o l ->
  exists m' r l' tr', exec_o fuel tr m o = Some (m', r, tr') /\ moved orc cached l o r l' /\ holds m' l' /\ dom m m' /\ 0 <= zlen tr' - zlen tr <= calls o (zlen l).
Proof.
  intros Hf HH HL. destruct o as [n|n|a n|key]; cbn [lawful calls] in *.
  - destruct HL as [H1 H2]. apply (step_ins fuel tr m l n Hf HH H1 H2).
  - destruct (step_del fuel m l n Hf HH HL) as (m' & r & l' & E1 & E2 & E3 & E4). exists m', r, l', tr. split; [apply exec_tr; [exact I|exact E1]|]. split; [exact E2|]. split; [exact E3|]. split; [exact E4|lia].
  - destruct HL as (H1 & H2 & H3). destruct (step_rep fuel m l a n Hf HH H1 H2 H3) as (m' & l' & E1 & E2 & E3 & E4). exists m', 0, l', tr. split; [apply exec_tr; [exact I|exact E1]|]. split; [exact E2|]. split; [exact E3|]. split; [exact E4|lia].
  - destruct (step_find fuel tr m l key Hf HH) as (r & tr' & E1 & E2 & E3). exists m, r, l, tr'. split; [exact E1|]. split; [exact E2|]. split; [exact HH|]. split; [apply dom_refl|exact E3].
Qed.
Lemma moved_length l o r l' : moved orc cached l o r l' -> (length l' <= S (length l))%nat.
Proof. intros M. destruct M; rewrite ?app_length; cbn [length]; lia. Qed.
Lemma obeys_dom m m' client : dom m m' -> forall steps replies l, obeys orc cached (good_node rt m) client steps replies l -> obeys orc cached (good_node rt m') client steps replies l.
Proof.
  intros D. induction steps as [|steps IH]; intros replies l H0; [exact I|]. cbn [obeys] in *. destruct H0 as [H1 H2]. split; [|intros r l' M; apply IH, H2, M].
  destruct (client replies) as [n|n|a n|key]; cbn [lawful] in *; try exact H1; [destruct H1 as [A B]; split; [apply (good_dom rt _ _ _ D A)|exact B]|]. destruct H1 as (A & B & C). split; [exact A|]. split; [apply (good_dom rt _ _ _ D B)|exact C].
Qed.
Lemma run_any client fuel : forall steps tr m l replies, (length l + steps < fuel)%nat -> holds m l -> obeys orc cached (good_node rt m) client steps replies l ->
  exists m' evs l', run_o fuel tr m client steps replies = Some (m', evs) /\ session orc cached l evs l' /\ holds m' l'.
Proof.
  induction steps as [|steps IH]; intros tr m l replies Hf HH HO; cbn [run_o obeys] in *; [exists m, [], l; split; [reflexivity|]; split; [constructor|exact HH]|].
  destruct HO as [H1 H2]. destruct (step_any fuel tr m l (client replies) ltac:(lia) HH H1) as (m1 & r & l1 & tr1 & E1 & E2 & E3 & E4 & E5). rewrite E1. pose proof (moved_length _ _ _ _ E2) as ML.
  destruct (IH tr1 m1 l1 (r :: replies) ltac:(lia) E3) as (m' & evs & l' & F1 & F2 & F3); [apply (obeys_dom m m1 client E4), H2, E2|].
  rewrite F1. exists m', ((client replies, r, zlen tr1 - zlen tr) :: evs), l'. split; [reflexivity|]. split; [|exact F3]. econstructor; eassumption.
Qed.
End Run.

(** Any client that only inserts nodes that are not in the tree and deletes or replaces nodes that are, with a comparison
    function that may answer anything at any time: no operation goes wrong; the nodes are exactly those inserted and not
    deleted or replaced since; an insertion is refused, and a search answers a node, only when the function said "equal";
    an operation on n nodes makes at most 2 log2(n + 1) calls; the tree is a red-black tree at the end (and so at any
    time), its loops visit every node once, and the cached first node is the first one. *)
Theorem C129_any : forall orc cached rt client steps fuel m,
  rt <> 0 -> m rt NODE = Some NULL -> (cached = true -> m rt LEFTMOST = Some NULL) -> (steps < fuel)%nat ->
  obeys orc cached (good_node rt m) client steps [] [] ->
  exists m' evs t l, run_o orc cached rt fuel [] m client steps [] = Some (m', evs) /\ session orc cached [] evs l /\
    tree_at V rt m' t /\ redblack t /\ inorder t = l /\
    (exists p, in_first m' fuel rt = Some p /\ visit (in_next m' fuel) fuel p = Some l) /\
    (exists p, in_last m' fuel rt = Some p /\ visit (in_prev m' fuel) fuel p = Some (rev l)) /\
    (cached = true -> m' rt LEFTMOST = Some (hd 0 l)).
Proof.
  intros orc cached rt client steps fuel m Hr H1 H2 Hf HO.
  destruct (run_any orc cached rt client fuel steps [] m [] [] Hf) as (m' & evs & l & E1 & E2 & [(t & A1 & A2 & A3) A4]); [|exact HO|].
  - split; [|exact H2]. exists E. split; [|split; [|reflexivity]].
    + split; [exact H1|]. split; [exact I|]. intros z. cbn [cntk cnt]. destruct (Z.eq_dec z 0) as [->|N]; [rewrite ind_refl, ind_ne by congruence; lia|]. rewrite (ind_ne z 0 N). unfold ind. destruct (z =? rt); lia.
    + unfold redblack. cbn [black nored2 bal]. conj; try exact I. exists 0%nat. reflexivity.
  - exists m', evs, t, l. assert (Hs : (size t < fuel)%nat).
    { rewrite size_inorder, A3. assert (SL : forall l0 evs l1, session orc cached l0 evs l1 -> (length l1 <= length l0 + length evs)%nat) by (induction 1; [lia|]; pose proof (moved_length _ _ _ _ _ _ H); cbn [length]; lia).
      assert (LE : forall steps tr m replies m' evs, run_o orc cached rt fuel tr m client steps replies = Some (m', evs) -> length evs = steps).
      { clear. induction steps as [|steps IH]; intros tr m replies m' evs H0; cbn [run_o] in H0; [injection H0 as _ <-; reflexivity|]. destruct (exec_o _ _ _ _ _ _ _) as [[[m1 r] tr1]|]; [|discriminate].
        destruct (run_o _ _ _ _ _ _ _ steps _) as [[m2 evs2]|] eqn:E0; [|discriminate]. injection H0 as _ <-. cbn [length]. rewrite (IH _ _ _ _ _ E0). reflexivity. }
      specialize (SL _ _ _ E2). rewrite (LE _ _ _ _ _ _ E1) in SL. cbn [length] in SL. lia. }
    split; [exact E1|]. split; [exact E2|]. split; [exact A1|]. split; [exact A2|]. split; [exact A3|]. split; [rewrite <- A3; apply (inorder_visit V rt m' t A1 fuel Hs)|]. split; [rewrite <- A3; apply (reverse_visit V rt m' t A1 fuel Hs)|exact A4].
Qed.
(** [bfdev_rb_find_last] on any such tree: a node that was said to be equal, or a free link of the tree. *)
Theorem C129_find_last_any : forall orc rt m t fuel key tr,
  tree_at V rt m t -> redblack t -> (size t < fuel)%nat ->
  exists tr', Z.of_nat (length tr') <= Z.of_nat (length tr) + 2 * Z.log2 (Z.of_nat (size t) + 1) /\
  ((exists a lk h, find_last_o orc fuel tr m rt key = Some (a, a, lk, None, tr') /\ In a (inorder t) /\ orc h key a = 0 /\ ld m (fst lk) (snd lk) = Some a) \/
   (exists (k : bctx) lm, find_last_o orc fuel tr m rt key = Some (NULL, cpar k, (loc rt k, lfield k), Some lm, tr') /\ t = plug k E /\ (lm = true <-> before k = []))).
Proof.
  intros orc rt m t fuel key tr HT Hrb Hf. pose proof (height_log t Hrb) as Hh. pose proof HT as (H1 & _ & D). unfold find_last_o, ld. rewrite H1. destruct t as [|x l a r].
  - exists tr. split; [cbn; lia|]. right. exists [], true. cbn. conj; try reflexivity; split; reflexivity.
  - assert (Na : (addr (T x l a r) =? NULL) = false).
    { apply Z.eqb_neq. cbn [addr]. intros ->. specialize (D NULL). cbn [cnt] in D. unfold NULL in D. rewrite !ind_refl in D. lia. }
    rewrite Na. destruct (find_last_loop_any orc rt m key fuel tr [] (T x l a r) true) as (tr' & I1 & I2); [discriminate|lia|exact HT|split; reflexivity|].
    exists tr'. split; [lia|]. destruct I2 as [(k' & y & l' & b & r' & h & E1 & E2 & E3)|(k' & lm' & E1 & E2 & E5)].
    + left. exists b, (loc rt k', lfield k'), h. cbn [loc lfield] in E1. cbn [plug] in E2. conj; [exact E1| |exact E3|].
      * rewrite E2, inorder_plug. cbn [inorder]. apply in_or_app. right. apply in_or_app. left. apply in_or_app. right. left. reflexivity.
      * cbn [fst snd]. rewrite E2 in HT. apply tree_at_focus in HT. destruct HT as (Hk & _ & _). apply (crep_loc V rt m k' b Hk).
    + right. exists k', lm'. conj; [exact E1|symmetry; exact E2|exact E5].
Qed.
(** When the function always answers the same, these are the functions of C56. *)
Theorem C129_same : forall cmp m fuel tr rt n,
  option_map fst (insert_o (fun _ => cmp) fuel tr m rt n) = insert dummy_callbacks fuel m cmp rt n /\
  option_map fst (cached_insert_o (fun _ => cmp) fuel tr m rt n) = cached_insert dummy_callbacks fuel m cmp rt n /\
  option_map fst (find_o (fun _ => cmp) fuel tr m rt n) = find fuel m rt (cmp n) /\
  option_map fst (find_last_o (fun _ => cmp) fuel tr m rt n) = find_last fuel m rt (cmp n).
Proof.
  intros cmp m fuel tr rt n. split; [apply insert_same|]. split; [apply cached_insert_same|]. split; [apply find_same|]. unfold find_last_o, find_last. destruct (ld m rt NODE) as [x|]; [|reflexivity]. destruct (x =? NULL); [reflexivity|apply find_last_loop_same].
Qed.

(** ** A concrete run: the function says "greater" and "less" in turns *)
Definition ex_orc (tr : list (Z * Z)) (_ _ : Z) : Z := if Nat.even (length tr) then 1 else -1.
Definition ex_client (replies : list Z) : rop :=
  nth (length replies) [RIns 10; RIns 20; RIns 30; RIns 40; RIns 50; RDel 20; RRep 10 60; RFind 5] (RFind 0).
Lemma ex_moved cached l o r l' : moved ex_orc cached l o r l' ->
  match o with
  | RIns n => forall z, In z l' <-> z = n \/ In z l
  | RRep a n => forall z, z <> a -> (In z l' <-> z = n \/ In z l)
  | RDel n => forall z, z <> n -> (In z l' <-> In z l)
  | RFind _ => l' = l
  end.
Proof.
  assert (N : forall h n x, ex_orc h n x <> 0) by (intros h n x; unfold ex_orc; destruct (Nat.even (length h)); discriminate).
  intros M. destruct M as [l1 l2 n|l n x h H1 H2|l1 n l2|l1 a n l2|l key x h H1 H2|l key]; try (exfalso; apply (N _ _ _ H2)); try reflexivity; intros z; rewrite ?in_app_iff; cbn [In]; rewrite ?in_app_iff; intuition congruence.
Qed.
Example C129_obeys : obeys ex_orc true (good_node 7 ex_mem) ex_client 8 [] [].
Proof.
  assert (G : forall n, 10 <= n -> good_node 7 ex_mem n).
  { intros n Hn. split; [|lia]. intros f Hf. unfold ex_mem. destruct (Z.eqb_spec n 7); [lia|]. cbn [andb]. destruct (Z.leb_spec 10 n), (Z.leb_spec 0 f), (Z.ltb_spec f 4); cbn [andb]; try lia. discriminate. }
  cbn [obeys]. split; [split; [apply G; discriminate|intros []]|]. intros r1 l1 M1. apply ex_moved in M1. cbn in M1.
  split; [split; [apply G; discriminate|rewrite M1; intuition discriminate]|]. intros r2 l2 M2. apply ex_moved in M2. cbn in M2.
  split; [split; [apply G; discriminate|rewrite M2, M1; intuition discriminate]|]. intros r3 l3 M3. apply ex_moved in M3. cbn in M3.
  split; [split; [apply G; discriminate|rewrite M3, M2, M1; intuition discriminate]|]. intros r4 l4 M4. apply ex_moved in M4. cbn in M4.
  split; [split; [apply G; discriminate|rewrite M4, M3, M2, M1; intuition discriminate]|]. intros r5 l5 M5. apply ex_moved in M5. cbn in M5.
  split; [cbn; rewrite M5, M4, M3, M2; tauto|]. intros r6 l6 M6. apply ex_moved in M6. cbn in M6.
  split; [cbn; rewrite !M6, M5, M4, M3, M2, M1 by discriminate; split; [tauto|split; [apply G; discriminate|rewrite M5, M4, M3, M2, M1; intuition discriminate]]|]. intros r7 l7 M7.
  split; [exact I|]. intros r8 l8 M8. exact I.
Qed.
Example C129_example : option_map snd (run_o ex_orc true 7 20 [] ex_mem ex_client 8 []) =
  Some [(RIns 10, 1, 0); (RIns 20, 1, 1); (RIns 30, 1, 1); (RIns 40, 1, 2); (RIns 50, 1, 3); (RDel 20, 0, 0); (RRep 10 60, 0, 0); (RFind 5, 0, 3)].
Proof. vm_compute. reflexivity. Qed.
Print Assumptions C129_any.
Print Assumptions C129_find_last_any.
Print Assumptions C129_same.
