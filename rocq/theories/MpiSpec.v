(** * Specification vocabulary for multi precision integers *)
From Verif Require Import Lib MpiModel.

(** The natural number a limb array stands for. *)
Fixpoint val (l : list Z) : Z :=
  match l with [] => 0 | x :: t => x + 2 ^ 64 * val t end.
(** Limbs are words and the top limb is not zero. *)
Definition normal (l : list Z) : Prop := Forall u64 l /\ last l 1 <> 0.
(** The integer a signed object stands for, and its canonical form. *)
Definition ival (m : mpi) : Z := if plus m then val (limbs m) else - val (limbs m).
Definition wf (m : mpi) : Prop := normal (limbs m).
(** Well formed, and zero is not negative. *)
Definition canonical (m : mpi) : Prop := wf m /\ (limbs m = [] -> plus m = true).
(** The three-way result of comparing two integers. *)
Definition zcmp (x y : Z) : Z := if x <? y then -1 else if x =? y then 0 else 1.

(** The situations in which the limb loops of [mpa_add] / [mpa_sub] lose a carry / borrow: a
    limb of the second operand is all ones at a position that receives a carry / borrow.
    These follow schoolbook addition of the limb sequences (shorter operand cut off). *)
Fixpoint carry_into_max (a b : list Z) (c : Z) : bool :=
  match a, b with
  | x :: a, y :: b => ((y =? 2 ^ 64 - 1) && (c =? 1)) || carry_into_max a b ((x + y + c) / 2 ^ 64)
  | _, _ => false
  end.
Fixpoint borrow_into_max (a b : list Z) (c : Z) : bool :=
  match a, b with
  | x :: a, y :: b => ((y =? 2 ^ 64 - 1) && (c =? 1)) || borrow_into_max a b (if x <? y + c then 1 else 0)
  | _, _ => false
  end.
(** Adding the word [vi] carries out of the two lowest limbs. *)
Definition carry_twice (a : list Z) (vi : Z) : bool :=
  match a with x :: y :: _ => (2 ^ 64 <=? x + vi) && (y =? 2 ^ 64 - 1) | _ => false end.
(** When unsigned addition / subtraction of limb arrays goes wrong ([al]: which operand is also the
    destination). *)
Definition add_loses (al : alias) (a b : list Z) : bool :=
  match a, b with
  | [], _ | _, [] => false
  | _, [y] => isA al && carry_twice a y
  | _, _ => carry_into_max a b 0
  end.
Definition sub_loses (a b : list Z) : bool :=
  match b with [] | [_] => false | _ => borrow_into_max a b 0 end.
(** Multiplication adds the first operand with the defective [mpa_add] for every limb of the
    second, beyond the lowest, that is 1. This can only go wrong if the first operand has an
    all-ones limb beyond its lowest. *)
Definition mul_safe (a b : list Z) : Prop :=
  Forall (fun y => y <> 1) (tl b) \/ Forall (fun x => x <> 2 ^ 64 - 1) (tl a).
(** The two magnitudes with the one of more limbs first, as the exported functions order them. *)
Definition longer (a b : list Z) : list Z * list Z := if zlen a <? zlen b then (b, a) else (a, b).
(** No operand is read after its storage was released: either nothing moves, or no operand is the
    destination, or only the first is and the second has no more limbs. *)
Definition no_stale (moved : bool) (al : alias) (a b : list Z) : Prop :=
  moved = false \/ al = Distinct \/ (al = DestA /\ zlen b <= zlen a).
(** When signed addition / subtraction goes wrong. *)
Definition signed_loses (al : alias) (a b : list Z) (same : bool) : bool :=
  if same then
    (if zlen a <? zlen b then add_loses (swapal al) b a else add_loses al a b)
  else if val b <? val a then sub_loses a b else if val a <? val b then sub_loses b a else false.
(** The difference of two signed numbers does not reorder its operands. *)
Definition signed_sub_loses (al : alias) (a b : list Z) (same : bool) : bool :=
  if same then (if val b <? val a then sub_loses a b else if val a <? val b then sub_loses b a else false)
  else add_loses al a b.
