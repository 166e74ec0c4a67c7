(** * Specification of red-black trees *)
From Verif Require Import Lib Ptr Tree RbModel RbProofs.

(** All paths from the root of [t] to a leaf pass [n] black nodes. *)
Fixpoint bal (t : btree) (n : nat) : Prop :=
  match t with E => n = 0%nat | T c l _ r => exists n', bal l n' /\ bal r n' /\ n = ((if c then 1 else 0) + n')%nat end.
(** No red node has a red child. *)
Fixpoint nored2 (t : btree) : Prop :=
  match t with E => True | T c l _ r => (c = false -> black l /\ black r) /\ nored2 l /\ nored2 r end.
Definition redblack (t : btree) : Prop := black t /\ nored2 t /\ exists n, bal t n.

(** The tree without its colours. *)
Fixpoint shape (t : btree) : tree unit := match t with E => E | T _ l a r => T tt (shape l) a (shape r) end.

Section Contract.
Variable rt : Z.
(** What is asked of the callbacks: they keep the links and colours, and an invariant [Q] of the other
    fields. [Q] speaks of the shape of the tree only. *)
Record cb_ok (cb : callbacks) (Q : mem -> tree unit -> Prop) : Prop := {
  q_rest : forall m m' t, rest4 m m' -> Q m t -> Q m' t;
  rot_l : forall m t k l n b s c, tree_at V rt m t -> shape t = plug k (T tt (T tt l n b) s c) -> Q m (plug k (T tt l n (T tt b s c))) ->
    exists m', rotate cb m n s = Some m' /\ same4 m m' /\ Q m' (shape t);
  rot_r : forall m t k l n b s c, tree_at V rt m t -> shape t = plug k (T tt l s (T tt b n c)) -> Q m (plug k (T tt (T tt l s b) n c)) ->
    exists m', rotate cb m n s = Some m' /\ same4 m m' /\ Q m' (shape t);
  (* a node with at most one child was unlinked *)
  prop_one : forall m t k (old new : tree unit) a, tree_at V rt m t -> shape t = plug k new -> old = T tt new a E \/ old = T tt E a new ->
    Q m (plug k old) -> exists m', propagate cb m (cpar k) NULL = Some m' /\ same4 m m' /\ Q m' (shape t);
  (* a node was replaced by its right child *)
  copy_child : forall m t k l n s b, tree_at V rt m t -> shape t = plug k (T tt l n (T tt E s b)) -> Q m (shape t) ->
    exists m1, copy cb m n s = Some m1 /\ same4 m m1 /\
    forall m2 t2, tree_at V rt m2 t2 -> shape t2 = plug k (T tt l s b) -> rest4 m1 m2 ->
      exists m3, propagate cb m2 s NULL = Some m3 /\ same4 m2 m3 /\ Q m3 (shape t2);
  (* a node was replaced by the leftmost node of its right subtree *)
  copy_far : forall m t k l n kr s b y, tree_at V rt m t -> shape t = plug k (T tt l n (plug kr (T tt E s b))) -> Q m (shape t) ->
    kr <> [] -> Forall (fun f => match f with F d _ _ _ => d = L end) kr -> y = addr (plug kr (T tt E s b)) ->
    exists m2 m3, copy cb (upd (upd (upd m (cpar kr) LEFT (addr b)) s RIGHT y) y PARENT s) n s = Some m2 /\ propagate cb m2 (cpar kr) s = Some m3 /\
    same4 (upd (upd (upd m (cpar kr) LEFT (addr b)) s RIGHT y) y PARENT s) m3 /\
    forall m4 t4, tree_at V rt m4 t4 -> shape t4 = plug k (T tt l s (plug kr b)) -> rest4 m3 m4 ->
      exists m5, propagate cb m4 s NULL = Some m5 /\ same4 m4 m5 /\ Q m5 (shape t4)
}.
(** What an insertion asks of the callbacks: the rotations as above, but the node [z] that is being inserted is
    never the lowered node nor one of the two children that it gets. *)
Record rot_ok (z : Z) (cb : callbacks) (Q : mem -> tree unit -> Prop) : Prop := {
  z_rest : forall m m' t, rest4 m m' -> Q m t -> Q m' t;
  z_rot_l : forall m t k l n b s c, tree_at V rt m t -> shape t = plug k (T tt (T tt l n b) s c) -> Q m (plug k (T tt l n (T tt b s c))) ->
    n <> z -> addr l <> z -> addr b <> z -> exists m', rotate cb m n s = Some m' /\ same4 m m' /\ Q m' (shape t);
  z_rot_r : forall m t k l n b s c, tree_at V rt m t -> shape t = plug k (T tt l s (T tt b n c)) -> Q m (plug k (T tt (T tt l s b) n c)) ->
    n <> z -> addr b <> z -> addr c <> z -> exists m', rotate cb m n s = Some m' /\ same4 m m' /\ Q m' (shape t)
}.
Lemma cb_rot z cb Q : cb_ok cb Q -> rot_ok z cb Q.
Proof. intros H. split; [apply (q_rest _ _ H)|intros; eapply (rot_l _ _ H); eassumption|intros; eapply (rot_r _ _ H); eassumption]. Qed.
End Contract.
