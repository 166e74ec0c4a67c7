(** * Specification of the B+tree: an ordered map, as the list of its entries from the greatest key to the least *)
From Verif Require Import Lib BtreeModel.

(** An allocator answers NULL or the address of memory that is no node yet (the nodes there are were its earlier answers). *)
Definition allocator (al : nat -> heap -> Z) : Prop :=
  forall k h, (forall n, h n <> None -> exists j h', (j < k)%nat /\ n = al j h') ->
  al k h = NULL \/ 0 < al k h /\ h (al k h) = None.
Definition may_fail (al : nat -> heap -> Z) : Prop := exists k h, al k h = NULL.

Definition bmap := list (Z * Z).
Definition above (k : Z) (m : bmap) : bmap := filter (fun e => k <? fst e) m.
Definition below (k : Z) (m : bmap) : bmap := filter (fun e => fst e <? k) m.
Definition get (k : Z) (m : bmap) : option Z := option_map snd (find (fun e => fst e =? k) m).
Definition put (k v : Z) (m : bmap) : bmap := above k m ++ (k, v) :: below k m.
Definition del (k : Z) (m : bmap) : bmap := above k m ++ below k m.
Definition value_or_null (o : option Z) : Z := match o with Some v => v | None => NULL end.
Definition report (k : Z) (o : option (Z * Z)) : bres := match o with Some (k', v) => RAt v k' | None => RAt NULL k end.
Fixpoint last_of (m : bmap) : option (Z * Z) := match m with [] => None | [e] => Some e | _ :: r => last_of r end.

Section Step.
Variable full : Prop.
Variable clash : option (Z -> Z -> Z).
Variable remove : option (Z -> Z).
(** what the client's [remove] says about a value: NULL lets it go *)
Definition verdict (v : Z) : Z := match remove with Some f => f v | None => NULL end.
Inductive bstep (m : bmap) : bop -> bres -> bmap -> Prop :=
| step_lookup k : bstep m (BLookup k) (RVal (value_or_null (get k m))) m
| update_hit k v : get k m <> None -> bstep m (BUpdate k v) (RCode 0) (put k v m)
| update_miss k v : get k m = None -> bstep m (BUpdate k v) (RCode (- ENOENT)) m
| insert_null k : bstep m (BInsert k NULL) (RCode (- EINVAL)) m
| insert_new k v : v <> NULL -> get k m = None -> bstep m (BInsert k v) (RCode 0) (put k v m)
| insert_full k v : v <> NULL -> get k m = None -> full -> bstep m (BInsert k v) (RCode (- ENOMEM)) m
| insert_clash k v old : v <> NULL -> get k m = Some old -> bstep m (BInsert k v) (RCode match clash with Some f => f old v | None => - EALREADY end) m
| remove_hit k v : get k m = Some v -> verdict v = NULL -> bstep m (BRemove k) (RVal v) (del k m)
| remove_refused k v : get k m = Some v -> verdict v <> NULL -> bstep m (BRemove k) (RVal (verdict v)) m
| remove_miss k : get k m = None -> bstep m (BRemove k) (RVal NULL) m
| step_first : bstep m BFirst (report 0 (hd_error m)) m
| step_last : bstep m BLast (report 0 (last_of m)) m
| step_next k : bstep m (BNext k) (report k (hd_error (below k m))) m
| step_prev k : bstep m (BPrev k) (report k (last_of (above k m))) m
| step_release n : bstep m (BRelease n) (RList (map snd m)) [].

(** What a client may do: keys and values are words; values are not null; key 0 is not updated, removed or looked before
    unless it is there; a key that is not there is not removed if it is the address of some value; "last" is not asked of
    an empty tree, "next" only of keys that are there; the values to be released can be removed (see the refutations). *)
Definition ballowed (m : bmap) (o : bop) : Prop :=
  match o with
  | BLookup k => u64 k
  | BUpdate k v => u64 k /\ v <> NULL /\ (k <> 0 \/ get k m <> None)
  | BInsert k v => u64 k
  | BRemove k => u64 k /\ (get k m <> None \/ k <> 0 /\ forall e, In e m -> snd e <> k)
  | BFirst => True
  | BLast => m <> []
  | BNext k => get k m <> None
  | BPrev k => u64 k /\ k <> 0
  | BRelease n => (length m <= n)%nat /\ forall e, In e m -> verdict (snd e) = NULL
  end.
Inductive reach : list (bop * bres) -> bmap -> Prop :=
| reach_nil : reach [] []
| reach_step h m o r m' : reach h m -> bstep m o r m' -> reach (h ++ [(o, r)]) m'.
(** A client that keeps to the rules. *)
Definition polite (prog : list (bop * bres) -> bop) : Prop := forall h m, reach h m -> ballowed m (prog h).
End Step.
