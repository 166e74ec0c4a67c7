(** * Specification: bounded queue and overwriting ring of elements

    The abstract state is only the sequence of pending bytes (elements of [es] bytes in a
    row); no counters, masks or storage positions. *)
From Verif Require Import Lib.

(** User-level operations; [src] is the caller's source buffer. *)
Inductive op :=
| OIn (src : list Z) (len : Z)
| OOut (len : Z)
| OPeek (len : Z)
| OPut (e : list Z)
| OGet
| OPeek1
| OReset
| OHoming
| OLen
| OEmpty
| OFull.

(** What the caller must respect: 64-bit counts, a source buffer that holds [len]
    elements, an element of [es] bytes. *)
Definition op_ok (es : Z) (o : op) : Prop :=
  match o with
  | OIn src len => 0 <= len < 2 ^ 64 /\ len * es <= zlen src
  | OOut len | OPeek len => 0 <= len < 2 ^ 64
  | OPut e => zlen e = es
  | _ => True
  end.

Definition take {A} (n : Z) (l : list A) : list A := firstn (Z.to_nat n) l.
Definition drop {A} (n : Z) (l : list A) : list A := skipn (Z.to_nat n) l.
Definition b2z (b : bool) : Z := if b then 1 else 0.

Section Queue.
  Variables es cap : Z.

  (** Number of pending elements. *)
  Definition pending (q : list Z) : Z := zlen q / es.

  (** Operations common to the queue and the ring. Result: ((return value, bytes
      delivered to the caller), new contents). *)
  Definition common_step (q : list Z) (o : op) : (Z * list Z) * list Z :=
    match o with
    | OOut len => let n := Z.min len (pending q) in ((n, take (n * es) q), drop (n * es) q)
    | OPeek len => let n := Z.min len (pending q) in ((n, take (n * es) q), q)
    | OGet => if pending q =? 0 then ((0, []), q) else ((1, take es q), drop es q)
    | OPeek1 => if pending q =? 0 then ((0, []), q) else ((1, take es q), q)
    | OReset | OHoming => ((0, []), [])
    | OLen => ((pending q, []), q)
    | OEmpty => ((b2z (pending q =? 0), []), q)
    | OFull => ((b2z (pending q =? cap), []), q)
    | OIn _ _ | OPut _ => ((0, []), q)
    end.

  (** Bounded queue: what does not fit is refused. *)
  Definition queue_step (q : list Z) (o : op) : (Z * list Z) * list Z :=
    match o with
    | OIn src len =>
      let n := Z.min len (cap - pending q) in ((n, []), q ++ take (n * es) src)
    | OPut e => if pending q =? cap then ((0, []), q) else ((1, []), q ++ e)
    | _ => common_step q o
    end.

  (** Overwriting ring: at most [cap] elements of one call are taken; the oldest elements
      are dropped so that [cap] remain. *)
  Definition newest (q : list Z) : list Z := drop (zlen q - cap * es) q.
  Definition ring_step (q : list Z) (o : op) : (Z * list Z) * list Z :=
    match o with
    | OIn src len =>
      let n := Z.min len cap in ((n, []), newest (q ++ take (n * es) src))
    | OPut e => ((b2z (pending q =? cap), []), newest (q ++ e))
    | _ => common_step q o
    end.
End Queue.

Fixpoint arun {S} (step : S -> op -> (Z * list Z) * S) (s : S) (ops : list op)
  : list (Z * list Z) * S :=
  match ops with
  | [] => ([], s)
  | o :: ops' =>
    let (r, s') := step s o in
    let (rs, s'') := arun step s' ops' in (r :: rs, s'')
  end.
