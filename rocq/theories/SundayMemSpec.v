(** * Specification: what lies in the block of a Sunday search context *)
From Verif Require Import Lib KmpMemModel.
(** The bytes that should be stored for a pattern. *)
Definition stored (up : Z -> Z) (icase : bool) (pattern : list Z) : list Z := map (fun c => (if icase then up c else c) mod 256) pattern.
(** The memory is the block of [size] bytes at [base], no more and no less. *)
Definition is_block (m : bmem) (base size : Z) : Prop := forall x, m x <> None <-> base <= x < base + size.
(** The bytes [l] are at [a]. *)
Definition bytes_at (m : bmem) (a : Z) (l : list Z) : Prop := forall i b, rd l i = Some b -> m (a + i) = Some b.
(** The little endian numbers of four bytes [l] are at [a]. *)
Definition words_at (m : bmem) (a : Z) (l : list Z) : Prop := forall i v, rd l i = Some v -> ldn 4 m (a + 4 * i) = Ok v.
