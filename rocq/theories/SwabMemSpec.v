(** * Where each byte of an object comes from, independent of values and of the processor *)
From Verif Require Import Lib SwabMemModel.

(** Byte [k] of a swapped object is byte [origin op k] of the old one: the names of swab.h. *)
Definition origin (op : swap_op) (k : Z) : Z :=
  match op with
  | Swab16 => 1 - k
  | Swab32 => 3 - k
  | Swab64 => 7 - k
  | Swahb32 | Swahb64 => if Z.even k then k + 1 else k - 1
  | Swahw32 => (k + 2) mod 4
  | Swahw64 => 4 * (k / 4) + (k + 2) mod 4
  | Swahl64 => (k + 4) mod 8
  end.

(** The sizes in bytes of the objects. *)
Definition op_bytes (op : swap_op) : Z :=
  match op with Swab16 => 2 | Swab32 | Swahb32 | Swahw32 => 4 | _ => 8 end.

(** [m'] is [m] with the bytes of the object at [p] rearranged and every other byte kept. *)
Definition rearranged (op : swap_op) (m m' : list Z) (p : Z) : Prop :=
  length m' = length m /\
  (forall k, 0 <= k < op_bytes op -> rd m' (p + k) = rd m (p + origin op k)) /\
  (forall i, ~ (p <= i < p + op_bytes op) -> rd m' i = rd m i).

(** A hook that does what its name says. *)
Definition word_swap_hook (h : hook) : Prop :=
  forall m p, bytes m -> 0 <= p -> p + 8 <= zlen m -> exists m', h m p = Some m' /\ rearranged Swahw64 m m' p.
