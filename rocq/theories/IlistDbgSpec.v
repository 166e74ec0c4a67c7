(** * Specification of the debug checks of the index list *)
From Verif Require Import Lib Ptr ListModel ListSpec IlistModel.

(** The list of [h] is whole: it goes around some distinct nodes, in both directions. *)
Definition whole (m : mem) (h : Z) : Prop := exists l, ring m h l.
(** The objects [D] are all there, and their links lead to objects of [D] - maybe to the wrong ones. *)
Definition within (m : mem) (D : list Z) : Prop :=
  forall q, In q D -> exists n p, m q NEXT = Some n /\ In n D /\ m q PREV = Some p /\ In p D.
(** A head and nodes [U] with arbitrarily wrong links, but no wild pointers. *)
Definition no_wild (m : mem) (h : Z) (U : list Z) : Prop := within m (h :: U) /\ within m (map IDX U).
(** Both lists of the head are whole. *)
Definition sound (m : mem) (h : Z) : Prop := whole m h /\ forall f, m h NEXT = Some f -> f <> h -> whole m (IDX f).
