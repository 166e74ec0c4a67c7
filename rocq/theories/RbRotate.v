(** * Red-black trees: what the rotations do to the tree *)
From Verif Require Import Lib Ptr Tree TiterModel RbModel RbProofs.

Section Rt.
Variable rt : Z.
Notation rep := (rep V).
Notation crep := (crep V rt).
Notation apart := (apart rt).
Notation tree_at := (tree_at V rt).
Definition top (oc : option bool) (cx cy : bool) := match oc with Some _ => cx | None => cy end.

Lemma left_rotate_ok cb m (k : bctx) cx l n cy b s c oc occ :
  tree_at m (plug k (T cx l n (T cy b s c))) ->
  exists m1, tree_at m1 (plug k (T (top oc cx cy) (T (ocol oc cx) l n (paint occ b)) s c)) /\ rest4 m m1 /\
    left_rotate cb m rt n (zo oc) (zo occ) = (let* m' := rotate cb m1 n s in Some (m', addr b)).
Proof.
  intros H. apply tree_at_focus in H. destruct H as (Hk & Ht & D). cbn [addr Tree.rep] in *.
  destruct Ht as (H1 & H2 & H3 & H4 & Hl & H5 & H6 & H7 & H8 & Hb & Hc). unfold Tree.apart in D.
  assert (n <> s) by apz rt D. assert (loc rt k <> n) by apz rt D. assert (loc rt k <> s) by apz rt D.
  assert (Nb : (addr b =? NULL) = match b with E => true | _ => false end).
  { destruct b as [|x bl q br]; [reflexivity|]. cbn [addr]. apply Z.eqb_neq. apz rt D. }
  unfold V in H4, H8.
  pose (m0 := upd (upd (upd (upd m n RIGHT (addr b)) s LEFT n) s PARENT (cpar k)) n PARENT s).
  pose (m1 := match oc with None => m0 | Some x => upd (upd m0 s COLOR (zc cx)) n COLOR (zc x) end).
  pose (m2 := match b with E => m1 | T _ _ q _ => let m1 := match occ with None => m1 | Some x => upd m1 q COLOR (zc x) end in upd m1 q PARENT n end).
  exists (upd m2 (loc rt k) (lfield k) s).
  assert (Hk2 : crep m2 k n).
  { unfold m2, m1, m0. destruct b as [|x bl q br], oc, occ; frame rt D. }
  assert (Dk : forall z, (ind z 0 + ind z rt + cntk z k <= 1)%nat) by (intros z; specialize (D z); lia).
  split; [|split].
  - apply tree_at_focus. split; [|split].
    + cbn [addr]. apply (crep_relink V V_frame rt m2 k n); [intros z; specialize (Dk z); lia|exact Hk2].
    + cbn [Tree.rep addr]. unfold V. unfold m2, m1, m0.
      destruct b as [|x bl q br]; [|cbn [Tree.rep] in Hb; destruct Hb as (B1 & B2 & B3 & B4 & B5 & B6);
        assert (q <> n) by apz rt D; assert (q <> s) by apz rt D; assert (loc rt k <> q) by apz rt D; unfold V in B4];
      destruct oc, occ; cbn [paint addr top ocol]; cbn [Tree.rep];
      repeat match goal with |- _ /\ _ => split end; unfold V; upz rt D; frame rt D; try reflexivity; try exact I.
    + intros z. specialize (D z). cbn [cnt] in *. rewrite cnt_paint. lia.
  - assert (F : lfield k < 4) by (destruct k as [|[[|] ? ? ?] ?]; reflexivity).
    apply rest4_upd; [exact F|]. unfold m2, m1, m0. destruct b as [|x bl q br], oc, occ; repeat (apply rest4_upd; [reflexivity|]); apply rest4_refl.
  - unfold left_rotate, rotate_set, ld. rewrite H3. rewrite H6. stz. stz. upz rt D. rewrite H1. stz. stz. fold m0.
    rewrite !zo_nset. rewrite Nb.
    assert (E1 : (if match oc with Some _ => false | None => true end then Some m0 else
       (let* c := m0 n COLOR in (let* m3 := st m0 s COLOR c in st m3 n COLOR (zo oc)))) = Some m1).
    { unfold m1. destruct oc as [x|]; [|reflexivity]. assert (E0 : m0 n COLOR = Some (zc cx)) by (unfold m0; upz rt D; assumption).
      rewrite E0. unfold m0. stz. stz. reflexivity. }
    rewrite E1.
    assert (E2 : (if match b with E => true | T _ _ _ _ => false end then Some m1 else
        (let* m3 := (if match occ with Some _ => false | None => true end then Some m1 else st m1 (addr b) COLOR (zo occ)) in st m3 (addr b) PARENT n)) = Some m2).
    { unfold m2. destruct b as [|x bl q br]; [reflexivity|]. cbn [Tree.rep] in Hb. destruct Hb as (B1 & B2 & B3 & B4 & B5 & B6). unfold V in B4. cbn [addr].
      unfold m1, m0. destruct occ as [y|], oc; repeat stz; reflexivity. }
    rewrite E2. rewrite (child_change_ok rt m2 k n s Dk); [|apz rt D|apz rt D|exact Hk2]. reflexivity.
Qed.
Lemma right_rotate_ok cb m (k : bctx) cx n c cy l s b oc occ :
  tree_at m (plug k (T cx (T cy l s b) n c)) ->
  exists m1, tree_at m1 (plug k (T (top oc cx cy) l s (T (ocol oc cx) (paint occ b) n c))) /\ rest4 m m1 /\
    right_rotate cb m rt n (zo oc) (zo occ) = (let* m' := rotate cb m1 n s in Some (m', addr b)).
Proof.
  intros H. apply tree_at_focus in H. destruct H as (Hk & Ht & D). cbn [addr Tree.rep] in *.
  destruct Ht as (H1 & H2 & H3 & H4 & (H5 & H6 & H7 & H8 & Hl & Hb) & Hc). unfold Tree.apart in D.
  assert (n <> s) by apz rt D. assert (loc rt k <> n) by apz rt D. assert (loc rt k <> s) by apz rt D.
  assert (Nb : (addr b =? NULL) = match b with E => true | _ => false end).
  { destruct b as [|x bl q br]; [reflexivity|]. cbn [addr]. apply Z.eqb_neq. apz rt D. }
  unfold V in H4, H8.
  pose (m0 := upd (upd (upd (upd m n LEFT (addr b)) s RIGHT n) s PARENT (cpar k)) n PARENT s).
  pose (m1 := match oc with None => m0 | Some x => upd (upd m0 s COLOR (zc cx)) n COLOR (zc x) end).
  pose (m2 := match b with E => m1 | T _ _ q _ => let m1 := match occ with None => m1 | Some x => upd m1 q COLOR (zc x) end in upd m1 q PARENT n end).
  exists (upd m2 (loc rt k) (lfield k) s).
  assert (Hk2 : crep m2 k n).
  { unfold m2, m1, m0. destruct b as [|x bl q br], oc, occ; frame rt D. }
  assert (Dk : forall z, (ind z 0 + ind z rt + cntk z k <= 1)%nat) by (intros z; specialize (D z); lia).
  split; [|split].
  - apply tree_at_focus. split; [|split].
    + cbn [addr]. apply (crep_relink V V_frame rt m2 k n); [intros z; specialize (Dk z); lia|exact Hk2].
    + cbn [Tree.rep addr]. unfold V. unfold m2, m1, m0.
      destruct b as [|x bl q br]; [|cbn [Tree.rep] in Hb; destruct Hb as (B1 & B2 & B3 & B4 & B5 & B6);
        assert (q <> n) by apz rt D; assert (q <> s) by apz rt D; assert (loc rt k <> q) by apz rt D; unfold V in B4];
      destruct oc, occ; cbn [paint addr top ocol]; cbn [Tree.rep];
      repeat match goal with |- _ /\ _ => split end; unfold V; upz rt D; frame rt D; try reflexivity; try exact I.
    + intros z. specialize (D z). cbn [cnt] in *. rewrite cnt_paint. lia.
  - assert (F : lfield k < 4) by (destruct k as [|[[|] ? ? ?] ?]; reflexivity).
    apply rest4_upd; [exact F|]. unfold m2, m1, m0. destruct b as [|x bl q br], oc, occ; repeat (apply rest4_upd; [reflexivity|]); apply rest4_refl.
  - unfold right_rotate, rotate_set, ld. rewrite H2. rewrite H7. stz. stz. upz rt D. rewrite H1. stz. stz. fold m0.
    rewrite !zo_nset. rewrite Nb.
    assert (E1 : (if match oc with Some _ => false | None => true end then Some m0 else
       (let* c := m0 n COLOR in (let* m3 := st m0 s COLOR c in st m3 n COLOR (zo oc)))) = Some m1).
    { unfold m1. destruct oc as [x|]; [|reflexivity]. assert (E0 : m0 n COLOR = Some (zc cx)) by (unfold m0; upz rt D; assumption).
      rewrite E0. unfold m0. stz. stz. reflexivity. }
    rewrite E1.
    assert (E2 : (if match b with E => true | T _ _ _ _ => false end then Some m1 else
        (let* m3 := (if match occ with Some _ => false | None => true end then Some m1 else st m1 (addr b) COLOR (zo occ)) in st m3 (addr b) PARENT n)) = Some m2).
    { unfold m2. destruct b as [|x bl q br]; [reflexivity|]. cbn [Tree.rep] in Hb. destruct Hb as (B1 & B2 & B3 & B4 & B5 & B6). unfold V in B4. cbn [addr].
      unfold m1, m0. destruct occ as [y|], oc; repeat stz; reflexivity. }
    rewrite E2. rewrite (child_change_ok rt m2 k n s Dk); [|apz rt D|apz rt D|exact Hk2]. reflexivity.
Qed.

(** Setting the colour of a member. *)
Lemma st_color m (k : bctx) c l a r c' : tree_at m (plug k (T c l a r)) ->
  exists m', st m a COLOR (zc c') = Some m' /\ tree_at m' (plug k (T c' l a r)) /\ rest4 m m'.
Proof.
  intros H. apply tree_at_focus in H. destruct H as (Hk & Ht & D). cbn [addr Tree.rep] in *. unfold Tree.apart in D.
  destruct Ht as (H1 & H2 & H3 & H4 & Hl & Hr). unfold V in H4. exists (upd m a COLOR (zc c')). split; [apply (st_some _ _ _ _ _ H4)|].
  split; [|apply rest4_upd; [reflexivity|apply rest4_refl]]. apply tree_at_focus. cbn [addr]. split; [frame rt D|]. split.
  - cbn [Tree.rep]. repeat match goal with |- _ /\ _ => split end; unfold V; upz rt D; frame rt D. reflexivity.
  - intros z. specialize (D z). cbn [cnt] in *. lia.
Qed.
End Rt.
