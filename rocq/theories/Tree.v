(** * Binary trees made of nodes with parent, left and right pointers
    Used for the heap (include/bfdev/heap.h) and the red-black tree (include/bfdev/rbtree.h). A tree of
    addresses describes what the memory holds; a context is a path from a subtree up to the root. *)
From Verif Require Import Lib Ptr.

(** rbtree.h:27-32 struct bfdev_rb_node, heap.h struct bfdev_heap_node: the first three members *)
Definition PARENT : Z := 0.
Definition LEFT : Z := 1.
Definition RIGHT : Z := 2.
(** rbtree.h:34-36 struct bfdev_rb_root and heap.h struct bfdev_heap_root: the pointer to the root node *)
Definition NODE : Z := 0.

Definition ind (z a : Z) : nat := if z =? a then 1%nat else 0%nat.
Lemma ind_refl a : ind a a = 1%nat.
Proof. unfold ind. rewrite Z.eqb_refl. reflexivity. Qed.
Lemma ind_ne a b : a <> b -> ind a b = 0%nat.
Proof. intros H. unfold ind. destruct (Z.eqb_spec a b); congruence. Qed.
Lemma ind_sym a b : ind a b = ind b a.
Proof. unfold ind. rewrite Z.eqb_sym. reflexivity. Qed.

(** The payload [A] is what a node holds besides its links (a colour, or nothing). *)
Inductive tree (A : Type) := E | T (x : A) (l : tree A) (a : Z) (r : tree A).
Arguments E {A}. Arguments T {A}.
Inductive dir := L | R.
Definition opp (d : dir) := match d with L => R | R => L end.
Definition side (d : dir) := match d with L => LEFT | R => RIGHT end.
(** One step of a path: a node, the side on which the path continues downwards, and its other subtree. *)
Inductive frame (A : Type) := F (d : dir) (x : A) (a : Z) (s : tree A).
Arguments F {A}.
Definition ctx A := list (frame A).

Section Shape.
Context {A : Type}.
Definition addr (t : tree A) : Z := match t with E => 0 | T _ _ a _ => a end.
Fixpoint size (t : tree A) : nat := match t with E => 0 | T _ l _ r => S (size l + size r) end.
Fixpoint inorder (t : tree A) : list Z := match t with E => [] | T _ l a r => inorder l ++ a :: inorder r end.
Fixpoint preorder (t : tree A) : list Z := match t with E => [] | T _ l a r => a :: preorder l ++ preorder r end.
Fixpoint postorder (t : tree A) : list Z := match t with E => [] | T _ l a r => postorder l ++ postorder r ++ [a] end.
(** How many times an address occurs. *)
Fixpoint cnt (z : Z) (t : tree A) : nat := match t with E => 0 | T _ l a r => ind z a + cnt z l + cnt z r end.
Fixpoint cntk (z : Z) (k : ctx A) : nat := match k with [] => 0 | F _ _ a s :: k => ind z a + cnt z s + cntk z k end.
Definition up (f : frame A) (t : tree A) : tree A := match f with F L x a s => T x t a s | F R x a s => T x s a t end.
Fixpoint plug (k : ctx A) (t : tree A) : tree A := match k with [] => t | f :: k => plug k (up f t) end.
Definition cpar (k : ctx A) : Z := match k with [] => 0 | F _ _ a _ :: _ => a end.
Fixpoint before (k : ctx A) : list Z := match k with [] => [] | F L _ _ _ :: k => before k | F R _ a s :: k => before k ++ inorder s ++ [a] end.
Fixpoint after (k : ctx A) : list Z := match k with [] => [] | F R _ _ _ :: k => after k | F L _ a s :: k => a :: inorder s ++ after k end.

Lemma inorder_plug k t : inorder (plug k t) = before k ++ inorder t ++ after k.
Proof.
  revert t. induction k as [|[[|] x a s] k IH]; intros t; cbn [plug before after up]; [rewrite app_nil_r; reflexivity| |];
    rewrite IH; cbn [inorder]; rewrite <- ?app_assoc; cbn; rewrite <- ?app_assoc; reflexivity.
Qed.
Lemma cnt_plug z k t : cnt z (plug k t) = (cntk z k + cnt z t)%nat.
Proof.
  revert t. induction k as [|[[|] x a s] k IH]; intros t; cbn [plug cntk up]; [reflexivity| |]; rewrite IH; cbn [cnt]; lia.
Qed.
Lemma plug_app k1 k2 t : plug (k1 ++ k2) t = plug k2 (plug k1 t).
Proof. revert t. induction k1 as [|f k1 IH]; intros t; [reflexivity|]. apply IH. Qed.
Lemma size_plug k t : (length k + size t <= size (plug k t))%nat.
Proof.
  revert t. induction k as [|[[|] x a s] k IH]; intros t; cbn [plug length up]; [lia| |];
    [specialize (IH (T x t a s))|specialize (IH (T x s a t))]; cbn [size] in IH; lia.
Qed.
Lemma size_plug_eq k t t' : size t = size t' -> size (plug k t) = size (plug k t').
Proof. revert t t'. induction k as [|[[|] x a s] k IH]; intros t t' H; cbn [plug up]; [exact H| |]; apply IH; cbn [size]; lia. Qed.
Lemma cnt_inorder z t : cnt z t = count_occ Z.eq_dec (inorder t) z.
Proof.
  induction t as [|x l IHl a r IHr]; [reflexivity|]. cbn [cnt inorder]. rewrite count_occ_app, IHl, IHr. cbn [count_occ].
  unfold ind. destruct (Z.eq_dec a z), (Z.eqb_spec z a); subst; try congruence; lia.
Qed.
Lemma cnt_pos_in z t : (cnt z t > 0)%nat <-> In z (inorder t).
Proof. rewrite cnt_inorder. symmetry. apply count_occ_In. Qed.
Lemma cnt_zero_in z t : cnt z t = 0%nat <-> ~ In z (inorder t).
Proof. rewrite cnt_inorder. symmetry. apply count_occ_not_In. Qed.
Lemma size_inorder t : size t = length (inorder t).
Proof. induction t as [|x l IHl a r IHr]; [reflexivity|]. cbn [size inorder]. rewrite app_length. cbn [length]. lia. Qed.
(** Every member of a tree is at the end of a path. *)
Lemma find_ctx a t : (cnt a t > 0)%nat -> exists k x l r, t = plug k (T x l a r).
Proof.
  induction t as [|x l IHl b r IHr]; cbn [cnt]; [lia|]. intros H. destruct (Z.eq_dec a b) as [->|N]; [exists [], x, l, r; reflexivity|].
  rewrite (ind_ne _ _ N) in H. destruct (cnt a l) eqn:C.
  - destruct IHr as (k & y & l' & r' & ->); [lia|]. exists (k ++ [F R x b l]), y, l', r'. rewrite plug_app. reflexivity.
  - destruct IHl as (k & y & l' & r' & ->); [lia|]. exists (k ++ [F L x b r]), y, l', r'. rewrite plug_app. reflexivity.
Qed.
End Shape.

(** ** What the memory holds *)
Section Rep.
Context {A : Type}.
(** The payload of a node is stored in the fields after the links. *)
Variable V : mem -> Z -> A -> Prop.
Hypothesis V_frame : forall m m' a x, (forall f, 3 <= f -> m' a f = m a f) -> V m a x -> V m' a x.
(** The address of the root object. *)
Variable rt : Z.

Fixpoint rep (m : mem) (par : Z) (t : tree A) : Prop :=
  match t with
  | E => True
  | T x l a r => m a PARENT = Some par /\ m a LEFT = Some (addr l) /\ m a RIGHT = Some (addr r) /\ V m a x /\ rep m a l /\ rep m a r
  end.
(** The path [k] leads from the root object to the pointer [h]. *)
Fixpoint crep (m : mem) (k : ctx A) (h : Z) : Prop :=
  match k with
  | [] => m rt NODE = Some h
  | F d x a s :: k =>
    m a PARENT = Some (cpar k) /\ m a (side d) = Some h /\ m a (side (opp d)) = Some (addr s) /\ V m a x /\ rep m a s /\ crep m k a
  end.
(** No address occurs twice, none is null, and the root object is none of them. *)
Definition apart (k : ctx A) (t : tree A) : Prop := forall z, (ind z 0 + ind z rt + cntk z k + cnt z t <= 1)%nat.

Lemma V_upd m a x b f v : b <> a \/ f < 3 -> V m a x -> V (upd m b f v) a x.
Proof.
  intros H. apply V_frame. intros g Hg. apply upd_other. destruct H as [H|H]; [left; congruence|right; lia].
Qed.
Lemma rep_upd m a f v par t : cnt a t = 0%nat -> rep m par t -> rep (upd m a f v) par t.
Proof.
  revert par. induction t as [|x l IHl b r IHr]; intros par H; cbn [rep cnt] in *; [auto|].
  assert (N : b <> a) by (intros ->; rewrite ind_refl in H; lia). intros (H1 & H2 & H3 & H4 & H5 & H6).
  rewrite !upd_other by (left; exact N). repeat split; try assumption; [apply V_upd; [left; congruence|assumption]|apply IHl; [lia|assumption]|apply IHr; [lia|assumption]].
Qed.
Lemma crep_upd m a f v k h : ind a rt = 0%nat -> cntk a k = 0%nat -> crep m k h -> crep (upd m a f v) k h.
Proof.
  intros Hr. revert h. induction k as [|[d x b s] k IH]; intros h H; cbn [crep cntk] in *.
  - intros H1. rewrite upd_other; [exact H1|]. left. intros <-. rewrite ind_refl in Hr. discriminate.
  - assert (N : b <> a) by (intros ->; rewrite ind_refl in H; lia). intros (H1 & H2 & H3 & H4 & H5 & H6).
    rewrite !upd_other by (left; exact N). repeat split; try assumption; [apply V_upd; [left; congruence|assumption]|apply rep_upd; [lia|assumption]|apply IH; [lia|assumption]].
Qed.
(** The location of the pointer at the end of the path. *)
Definition loc (k : ctx A) : Z := match k with [] => rt | F _ _ a _ :: _ => a end.
Definition lfield (k : ctx A) : Z := match k with [] => NODE | F d _ _ _ :: _ => side d end.
Lemma side_ne d : side d <> side (opp d).
Proof. destruct d; discriminate. Qed.
Lemma side_par d : side d <> PARENT.
Proof. destruct d; discriminate. Qed.
Lemma side_lt d : side d < 3.
Proof. destruct d; reflexivity. Qed.
Lemma crep_relink m k h h' : (forall z, ind z rt + cntk z k <= 1)%nat -> crep m k h -> crep (upd m (loc k) (lfield k) h') k h'.
Proof.
  destruct k as [|[d x a s] k]; cbn [crep loc lfield cntk]; intros D.
  - intros _. apply upd_same.
  - intros (H1 & H2 & H3 & H4 & H5 & H6). assert (Da := D a). rewrite ind_refl in Da.
    rewrite upd_same. rewrite !upd_other by (right; pose proof (side_par d); pose proof (side_ne d); congruence).
    repeat split; try assumption; [apply V_upd; [right; apply side_lt|assumption]|apply rep_upd; [lia|assumption]|apply crep_upd; [lia|lia|assumption]].
Qed.
Lemma rep_ext m m' par t : (forall a f, (cnt a t > 0)%nat -> m' a f = m a f) -> rep m par t -> rep m' par t.
Proof.
  revert par. induction t as [|x l IHl b r IHr]; intros par H; cbn [rep cnt] in *; [auto|]. intros (H1 & H2 & H3 & H4 & H5 & H6).
  rewrite !H by (rewrite ind_refl; lia). repeat split; try assumption.
  - revert H4. apply V_frame. intros f _. apply H. rewrite ind_refl. lia.
  - apply IHl; [|assumption]. intros. apply H. lia.
  - apply IHr; [|assumption]. intros. apply H. lia.
Qed.
(** Going down and up between a whole tree and a focussed subtree. *)
Lemma focus m k t : crep m k (addr t) /\ rep m (cpar k) t <-> m rt NODE = Some (addr (plug k t)) /\ rep m 0 (plug k t).
Proof.
  revert t. induction k as [|[[|] x a s] k IH]; intros t; [cbn [crep cpar plug]; tauto| |]; cbn [crep cpar plug side opp]; rewrite <- IH; cbn [up rep addr]; tauto.
Qed.
Lemma apart_plug k t : apart k t <-> apart [] (plug k t).
Proof. unfold apart. split; intros H z; specialize (H z); cbn [cntk] in *; rewrite ?cnt_plug in *; lia. Qed.
(** [t] is the tree at the root object [rt]. *)
Definition tree_at (m : mem) (t : tree A) : Prop := m rt NODE = Some (addr t) /\ rep m 0 t /\ apart [] t.
Lemma tree_at_focus m k t : tree_at m (plug k t) <-> crep m k (addr t) /\ rep m (cpar k) t /\ apart k t.
Proof. unfold tree_at. rewrite (apart_plug k t). pose proof (focus m k t). tauto. Qed.
End Rep.

(** Solves [cnt a t = 0], [cntk a k = 0], [ind a b = 0] and [a <> b] from an [apart]-like bound [D : forall z, ... <= 1]. *)
Ltac apart_at D z := let H := fresh "D" in pose proof (D z) as H; cbn [cnt cntk plug up addr] in H; rewrite ?ind_refl in H.
