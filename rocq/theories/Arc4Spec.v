(** * RC4, textbook definition (arrays as total functions), independent of the model *)
From Verif Require Import Lib.

Definition farr := Z -> Z.
Definition fset (S : farr) (i v : Z) : farr := fun k => if k =? i then v else S k.
Definition fswap (S : farr) (i j : Z) : farr := fset (fset S i (S j)) j (S i).

(** key scheduling *)
Fixpoint ksa (n : nat) (i j : Z) (key : farr) (klen : Z) (S : farr) : farr :=
  match n with
  | O => S
  | S n' =>
    let j := (j + S i + key (i mod klen)) mod 256 in
    ksa n' (i + 1) j key klen (fswap S i j)
  end.

Definition rc4_init (key : list Z) : farr :=
  ksa 256 0 0 (fun i => nth (Z.to_nat i) key 0) (zlen key) (fun i => i).

(** pseudo-random generation: [n] key-stream bytes and the final state *)
Fixpoint prga (n : nat) (S : farr) (i j : Z) : list Z * (farr * Z * Z) :=
  match n with
  | O => ([], (S, i, j))
  | S n' =>
    let i := (i + 1) mod 256 in
    let j := (j + S i) mod 256 in
    let S := fswap S i j in
    let k := S ((S i + S j) mod 256) in
    let (ks, st) := prga n' S i j in
    (k :: ks, st)
  end.

Definition xor_bytes (a b : list Z) : list Z :=
  map (fun p => Z.lxor (fst p) (snd p)) (combine a b).

Definition rc4_stream (key : list Z) (n : nat) : list Z :=
  fst (prga n (rc4_init key) 0 0).

Definition rc4_crypt (key msg : list Z) : list Z :=
  xor_bytes msg (rc4_stream key (length msg)).

(** "is a permutation of 0..255" *)
Definition perm256 (l : list Z) : Prop :=
  length l = 256%nat /\ (forall v, 0 <= v < 256 -> In v l) /\ NoDup l /\ bytes l.
