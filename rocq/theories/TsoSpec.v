(** * Specification of a stream between one producer and one consumer that hear of each other late *)
From Verif Require Import Lib FifoModel FifoSpec SpscModel TsoModel.
Section Stream.
Variables es cap : Z.
(** A call of the producer that has sent [tot] elements and knows that [seen] were taken: its reply and the bytes it sends. *)
Definition p_call (tot seen : Z) (o : op) : result * list Z :=
  match o with
  | OIn src len => let n := Z.min len (cap - (tot - seen)) in ((n, []), take (n * es) src)
  | OPut e => if tot - seen =? cap then ((0, []), []) else ((1, []), e)
  | OLen => ((tot - seen, []), [])
  | OEmpty => ((b2z (tot - seen =? 0), []), [])
  | OFull => ((b2z (tot - seen =? cap), []), [])
  | _ => ((0, []), [])
  end.
(** A call of the consumer that has taken [pos] elements of the stream [st] and knows that [seen] were sent: its reply and how many it takes. *)
Definition c_call (st : list Z) (pos seen : Z) (o : op) : result * Z :=
  match o with
  | OOut len => let n := Z.min len (seen - pos) in ((n, take (n * es) (drop (pos * es) st)), n)
  | OPeek len => let n := Z.min len (seen - pos) in ((n, take (n * es) (drop (pos * es) st)), 0)
  | OGet => if seen - pos =? 0 then ((0, []), 0) else ((1, take es (drop (pos * es) st)), 1)
  | OPeek1 => if seen - pos =? 0 then ((0, []), 0) else ((1, take es (drop (pos * es) st)), 0)
  | OHoming => ((0, []), seen - pos)
  | OLen => ((seen - pos, []), 0)
  | OEmpty => ((b2z (seen - pos =? 0), []), 0)
  | OFull => ((b2z (seen - pos =? cap), []), 0)
  | _ => ((0, []), 0)
  end.
(** [p_run h st tot seen]: the calls [h] have made the stream [st] of [tot] elements; the last one knew of [seen] *)
Inductive p_run (q0 : list Z) (n0 : Z) : list (op * result) -> list Z -> Z -> Z -> Prop :=
| p_start : p_run q0 n0 [] q0 n0 0
| p_next h st tot c c' o r bs : p_run q0 n0 h st tot c -> c <= c' -> 0 <= tot - c' <= cap -> p_call tot c' o = (r, bs) ->
    p_run q0 n0 (h ++ [(o, r)]) (st ++ bs) (tot + zlen bs / es) c'.
(** [c_run st h pos seen]: the calls [h] have taken [pos] elements; the last one knew of [seen] *)
Inductive c_run (st : list Z) : list (op * result) -> Z -> Z -> Prop :=
| c_start : c_run st [] 0 0
| c_next h pos c c' o r adv : c_run st h pos c -> c <= c' -> 0 <= pos -> 0 <= c' - pos <= cap -> c' * es <= zlen st -> c_call st pos c' o = (r, adv) ->
    c_run st (h ++ [(o, r)]) (pos + adv) c'.
End Stream.
(** bytes of the element buffer that the producer has still to change: in its buffer or not stored yet *)
Fixpoint pending_bytes (pb : list store) : list Z := match pb with [] => [] | SData a _ :: pb => a :: pending_bytes pb | SIn _ :: pb => pending_bytes pb end.
