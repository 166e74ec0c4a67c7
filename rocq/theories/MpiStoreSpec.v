(** * Specification: variables that hold integers *)
From Verif Require Import Lib MpiSpec MpiStoreModel.

Definition set_var (v : list Z) (i x : Z) : list Z := firstn (Z.to_nat i) v ++ x :: skipn (S (Z.to_nat i)) v.
Definition is_var (v : list Z) (i : Z) : Prop := 0 <= i < zlen v.
Definition get_var (v : list Z) (i : Z) : Z := nth (Z.to_nat i) v 0.

(** The client names existing objects, hands over words, and does not import zero as negative. *)
Definition proper (v : list Z) (op : mop) : Prop :=
  match op with
  | Seti i vi => is_var v i /\ u64 vi
  | SetTo i j | Cmp i j => is_var v i /\ is_var v j
  | Import i buffer sign => is_var v i /\ Forall u64 buffer /\ (val buffer = 0 -> sign = true)
  | Data i => is_var v i
  end.

(** An assignment succeeds, or memory ran out and nothing happened. *)
Definition assigns (failed : bool) (v : list Z) (i x : Z) (r : mres) (v' : list Z) : Prop :=
  (r = Code 0 /\ v' = set_var v i x) \/ (failed = true /\ r = Code (- ENOMEM) /\ v' = v).

(** What a call returns and does to the integers. *)
Definition does (failed : bool) (v : list Z) (op : mop) (r : mres) (v' : list Z) : Prop :=
  match op with
  | Seti i vi => assigns failed v i vi r v'
  | SetTo i j => assigns failed v i (get_var v j) r v'
  | Import i buffer sign => assigns failed v i (if sign then val buffer else - val buffer) r v'
  | Data i => v' = v /\ exists l sign, r = Words l sign /\ l <> [] /\ Forall u64 l /\
      get_var v i = (if sign then val l else - val l) /\ (sign = true <-> 0 <= get_var v i) /\ (l = [0] \/ last l 0 <> 0)
  | Cmp i j => v' = v /\ r = Code (zcmp (get_var v i) (get_var v j))
  end.

Inductive trace (fails : nat -> bool) : nat -> list Z -> list mop -> list mres -> list Z -> Prop :=
| trace_nil n v : trace fails n v [] [] v
| trace_cons n v op r v1 ops rs v2 : does (fails n) v op r v1 -> trace fails (S n) v1 ops rs v2 ->
    trace fails n v (op :: ops) (r :: rs) v2.
