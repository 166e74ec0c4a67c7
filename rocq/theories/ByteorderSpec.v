(** * Specification vocabulary for byte order, independent of the model *)
From Verif Require Import Lib.

(** The widths of the fixed-size types. *)
Definition width (w : Z) : Prop := w = 16 \/ w = 32 \/ w = 64.

(** Byte [k] of the value [v], counted from the least significant. *)
Definition byte_of (v k : Z) : Z := (v / 256 ^ k) mod 256.

(** [n] bytes of memory at [p] hold [v], least significant byte first / last. *)
Definition holds_le (m : list Z) (p n v : Z) : Prop := forall k, 0 <= k < n -> rd m (p + k) = Some (byte_of v k).
Definition holds_be (m : list Z) (p n v : Z) : Prop := forall k, 0 <= k < n -> rd m (p + k) = Some (byte_of v (n - 1 - k)).

(** Outside [p, p+n) the memory is unchanged. *)
Definition same_but {A} (m m' : list A) (p n : Z) : Prop :=
  length m' = length m /\ forall i, ~ (p <= i < p + n) -> rd m' i = rd m i.

(** Bit [k mod 8] of byte [k / 8] of memory: how a byte stream numbers bits. *)
Definition stream_bit (m : list Z) (k : Z) : bool :=
  match rd m (k / 8) with Some b => Z.testbit b (k mod 8) | None => false end.
(** The same numbering when every group of eight bytes is a big-endian word. *)
Definition be_position (k : Z) : Z := 8 * (8 * (k / 64) + (7 - k mod 64 / 8)) + k mod 8.

(** Exactly bit [k] of the stream becomes [x]. *)
Definition stream_updated (m m' : list Z) (k : Z) (x : bool) : Prop :=
  length m' = length m /\
  forall i, 0 <= i < 8 * zlen m -> stream_bit m' i = if i =? k then x else stream_bit m i.
