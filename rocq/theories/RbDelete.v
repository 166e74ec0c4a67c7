(** * Red-black trees: deletion *)
From Verif Require Import Lib Ptr Tree TiterModel RbModel RbProofs RbRotate RbSpec RbInsert RbErase RbRemove RbRemove2.

Lemma left_spine (r : btree) : r <> E -> exists kr cs s b, Forall leftf kr /\ r = plug kr (T cs E s b).
Proof.
  induction r as [|c l IHl a w _]; intros H; [congruence|]. destruct l as [|cl ll q lr].
  - exists [], c, a, w. split; [constructor|reflexivity].
  - destruct IHl as (kr & cs & s & b & H1 & ->); [discriminate|]. exists (kr ++ [F L c a w]), cs, s, b. split.
    + apply Forall_app. split; [exact H1|]. constructor; [reflexivity|constructor].
    + rewrite plug_app. reflexivity.
Qed.
Lemma before_left (k : bctx) : Forall leftf k -> before k = [].
Proof. induction 1 as [|[d x a s] k H _ IH]; [reflexivity|]. cbn [leftf] in H. subst d. exact IH. Qed.
Lemma redblack_addr kr d c a a' (s : btree) k t : redblack (plug (kr ++ F d c a s :: k) t) <-> redblack (plug (kr ++ F d c a' s :: k) t).
Proof.
  rewrite !redblack_plug. rewrite (cgood_addr kr d c a a' s k), (pblack_addr kr d c a a' s k).
  assert ((exists n, bal t n /\ cbal (kr ++ F d c a s :: k) n) <-> (exists n, bal t n /\ cbal (kr ++ F d c a' s :: k) n)).
  { split; intros (n & H1 & H2); exists n; (split; [exact H1|]); apply (cbal_addr kr d c a a' s k n); exact H2. }
  tauto.
Qed.

Section Rt.
Variable rt : Z.
Variable cb : callbacks.
Variable Q : mem -> tree unit -> Prop.
Hypothesis ok : cb_ok rt cb Q.
Notation tree_at := (tree_at V rt).
Notation St := (St rt Q).

Lemma cpar_nz m k t : k <> [] -> St m (plug k t) -> (cpar k =? NULL) = false.
Proof.
  intros Hk HS. pose proof (st_apart _ _ _ _ _ HS) as D. apply Z.eqb_neq. intros E0. pose proof (cpar_in k Hk) as H. rewrite E0 in H.
  specialize (D NULL). rewrite ind_refl in D. lia.
Qed.
Lemma remove_ok fuel m k c l n r : (size (plug k (T c l n r)) < fuel)%nat -> St m (plug k (T c l n r)) -> redblack (plug k (T c l n r)) ->
  exists m' t' reb, remove cb fuel m rt n = Some (m', reb) /\ St m' t' /\ inorder t' = before k ++ inorder l ++ inorder r ++ after k /\
    (reb = NULL /\ redblack t' \/ exists K, K <> [] /\ t' = plug K E /\ reb = cpar K /\ cgood K /\ cbal K 1).
Proof.
  intros Hf HS Hrb. destruct l as [|cl ll q lr] eqn:El; [destruct r as [|cr rl w rr] eqn:Er|].
  - destruct (remove_leaf rt cb Q ok fuel m k c n HS) as (m' & H1 & H2). exists m', (plug k E). rewrite H1.
    pose proof (cut_leaf k c n Hrb) as Hc. destruct c.
    + exists (cpar k). split; [reflexivity|]. split; [exact H2|]. split; [rewrite inorder_plug; reflexivity|]. destruct Hc as [->|(A & B & C)].
      * left. split; [reflexivity|]. cbn [plug]. unfold redblack. cbn [black nored2 bal]. conj; try exact I. exists 0%nat. reflexivity.
      * right. exists k. tauto.
    + exists NULL. split; [reflexivity|]. split; [exact H2|]. split; [rewrite inorder_plug; reflexivity|]. left. split; [reflexivity|exact Hc].
  - rewrite <- Er in *. assert (Hr : r <> E) by (subst; discriminate). destruct (remove_right rt cb Q ok fuel m k c r n Hr HS) as (m' & H1 & H2).
    destruct (cut_right k c n r Hr Hrb) as [-> Hc]. exists m', (plug k (paint (Some true) r)), NULL. split; [exact H1|]. split; [exact H2|].
    split; [rewrite inorder_plug, inorder_paint; reflexivity|]. left. tauto.
  - rewrite <- El in *. assert (Hl : l <> E) by (subst; discriminate). clear El. destruct r as [|cr rl w rr] eqn:Er.
    + destruct (remove_left rt cb Q ok fuel m k c l n Hl HS) as (m' & H1 & H2). destruct (cut_left k c n l Hl Hrb) as [-> Hc].
      exists m', (plug k (paint (Some true) l)), NULL. split; [exact H1|]. split; [exact H2|].
      split; [rewrite inorder_plug, inorder_paint; reflexivity|]. left. tauto.
    + rewrite <- Er in *. assert (Hr : r <> E) by (subst; discriminate). clear Er. destruct (left_spine r Hr) as (kr & cs & s & b & HL & ->).
      set (K := kr ++ F R c s l :: k).
      assert (Hrb1 : redblack (plug K (T cs E s b))).
      { unfold K. rewrite (redblack_addr kr R c s n l k). rewrite plug_app. exact Hrb. }
      assert (HRm : exists m' reb, remove cb fuel m rt n = Some (m', reb) /\ St m' (plug K (paint (Some true) b)) /\ reb = if nilb b && cs then cpar K else NULL).
      { unfold K. destruct kr as [|fr kr].
        - destruct (remove_child rt cb Q ok fuel m k c l n cs s b Hl HS) as (m' & H1 & H2). exists m', (if nilb b && cs then s else NULL). split; [exact H1|]. split; [exact H2|reflexivity].
        - assert (Hf2 : (length (fr :: kr) < fuel)%nat).
          { pose proof (size_plug k (T c l n (plug (fr :: kr) (T cs E s b)))) as Z1. pose proof (size_plug (fr :: kr) (T cs E s b)) as Z2. cbn [size] in *. lia. }
          destruct (remove_far rt cb Q ok fuel m k c l n (fr :: kr) cs s b Hl ltac:(discriminate) HL Hf2 HS) as (m' & H1 & H2).
          exists m', (if nilb b && cs then cpar (fr :: kr) else NULL). split; [exact H1|]. split; [rewrite plug_app; exact H2|]. rewrite cpar_app by discriminate. reflexivity. }
      destruct HRm as (m' & reb & H1 & H2 & H3). exists m', (plug K (paint (Some true) b)), reb. split; [exact H1|]. split; [exact H2|]. split.
      { unfold K. rewrite plug_app. cbn [plug up]. rewrite inorder_plug. cbn [inorder]. rewrite !inorder_plug, inorder_paint. cbn [inorder]. rewrite (before_left kr HL). cbn [app]. rewrite <- !app_assoc. cbn [app]. rewrite <- ?app_assoc. reflexivity. }
      assert (HK : K <> []) by (unfold K; destruct kr; discriminate).
      destruct b as [|cb' bl t br].
      * cbn [nilb andb paint] in *. pose proof (cut_leaf K cs s Hrb1) as Hc. destruct cs.
        -- right. exists K. destruct Hc as [Hc|(A & B & C)]; [congruence|]. tauto.
        -- left. tauto.
      * cbn [nilb andb] in H3. left. split; [exact H3|]. eapply cut_right; [|exact Hrb1]. discriminate.
Qed.

Theorem unlink_ok fuel m t n : (size t < fuel)%nat -> St m t -> redblack t -> In n (inorder t) ->
  exists m' t' l1 l2, (let* mr := remove cb fuel m rt n in let '(m, rebalance) := mr in if negb (rebalance =? NULL) then erase cb fuel m rt rebalance else Some m) = Some m' /\
    St m' t' /\ redblack t' /\ inorder t = l1 ++ n :: l2 /\ inorder t' = l1 ++ l2.
Proof.
  intros Hf HS Hrb Hin. destruct (find_ctx n t) as (k & c & l & r & ->); [apply cnt_pos_in, Hin|].
  destruct (remove_ok fuel m k c l n r Hf HS Hrb) as (m1 & t1 & reb & -> & HS1 & Ei & H).
  assert (Eo : inorder (plug k (T c l n r)) = (before k ++ inorder l) ++ n :: (inorder r ++ after k)).
  { rewrite inorder_plug. cbn [inorder]. rewrite <- !app_assoc. reflexivity. }
  destruct H as [[-> Hr]|(K & HK & -> & -> & Hg & Hc)].
  - cbn [negb Z.eqb NULL]. exists m1, t1, (before k ++ inorder l), (inorder r ++ after k). conj; try assumption; [reflexivity|]. rewrite Ei, <- app_assoc. reflexivity.
  - pose proof (cpar_nz m1 K E HK HS1) as NZ. rewrite NZ. cbn [negb]. unfold erase.
    assert (Sz : (length K <= size (plug k (T c l n r)))%nat).
    { pose proof (size_plug K (@E bool)) as Z1. rewrite (size_inorder (plug K E)) in Z1. rewrite Ei in Z1. cbn [size] in Z1. rewrite size_inorder, Eo. rewrite !app_length in *. cbn [length] in *. rewrite ?app_length in *. lia. }
    destruct K as [|[d cp p s] K]; [congruence|]. cbn [length] in Sz.
    destruct (erase_loop_ok rt cb Q ok fuel m1 K d cp p s E 0%nat ltac:(lia) HS1 I I Hg eq_refl Hc) as (m' & t' & H1 & H2 & H3 & H4).
    cbn [addr cpar] in *. unfold NULL. rewrite H1. exists m', t', (before k ++ inorder l), (inorder r ++ after k). conj; try assumption; [reflexivity|]. rewrite H4, Ei, <- app_assoc. reflexivity.
Qed.
End Rt.
