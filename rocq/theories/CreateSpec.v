(** * Specification: who owns which blocks *)
From Coq Require Export Permutation.
From Verif Require Import Lib CreateModel.

(** Distinct live blocks are apart, and none is empty or at address 0. *)
Definition apart (x y : Z * Z) : Prop := fst x + snd x <= fst y \/ fst y + snd y <= fst x.
Definition wf (l : list (Z * Z)) : Prop :=
  NoDup (map fst l) /\ (forall x y, In x l -> In y l -> x <> y -> apart x y) /\ (forall x, In x l -> 0 < fst x /\ 0 < snd x).
(** Exactly the blocks [l] are live. *)
Definition own (m : rmem) (l : list (Z * Z)) : Prop := Permutation (live m) l /\ wf l.
(** An allocator hands out memory nobody uses, or nothing. *)
Definition honest (ask : nat -> rmem -> Z -> option Z) : Prop :=
  forall t m size p, 0 < size -> wf (live m) -> ask t m size = Some p -> 0 < p /\ forall x, In x (live m) -> apart (p, size) x.
Definition generous (ask : nat -> rmem -> Z -> option Z) : Prop := forall t m size, ask t m size <> None.
(** The contents of the blocks [l] did not change. *)
Definition keep (l : list (Z * Z)) (m m' : rmem) : Prop :=
  forall x a, In x l -> fst x <= a < fst x + snd x -> cell m' a = cell m a.
(** The array at [arr] holds [ns]. *)
Definition stored (m : rmem) (arr : Z) (ns : list Z) : Prop :=
  forall i, (i < length ns)%nat -> cell m (arr + 8 * Z.of_nat i) = nth i ns 0.
(** The blocks of a cache of algorithm [k] with nodes [ns]. *)
Definition blocks (k : algo) (h tag arr : Z) (ns : list Z) : list (Z * Z) :=
  (tag, 8 * zlen ns) :: map (fun p => (p, node_size k)) ns ++ [(arr, 8 * zlen ns); (h, head_size k)].
(** What a cache needs of its memory to be destroyed. *)
Definition intact (m : rmem) (h tag arr : Z) (ns : list Z) : Prop :=
  cell m (h + 16) = tag /\ cell m (h + 24) = arr /\ cell m (h + 96) = zlen ns /\ stored m arr ns.
