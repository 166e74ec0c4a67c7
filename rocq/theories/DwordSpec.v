(** * Specification vocabulary for double words *)
From Verif Require Import Lib.

(** Value of a (high, low) pair. *)
Definition dval (p : Z * Z) : Z := fst p * 2 ^ 64 + snd p.
Definition dword (p : Z * Z) : Prop := u64 (fst p) /\ u64 (snd p).
