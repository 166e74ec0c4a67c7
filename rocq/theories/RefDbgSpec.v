(** * Specification: what is a misuse of a counter of references
    [z]: references there are, an integer without bounds, negative after too many were given back. *)
From Verif Require Import Lib RefcntModel RefcntSpec RefDbgModel.
Definition misuse (z : Z) (a : ract) : list saturation :=
  match a with
  | AGet _ n => if z =? 0 then [ADD_UAF] else if z <? 0 then [ADD_LEAK] else []
  | APut _ n => if z =? 0 then [SUB_UAF] else if z <? 0 then [SUB_LEAK] else if z <? n then [SUB_OVF] else []
  | _ => []
  end.
Definition count_after (z : Z) (a : ract) : Z := match a with AGet _ n => z + n | APut _ n => z - n | _ => z end.
Fixpoint misuses (z : Z) (s : list ract) : list saturation :=
  match s with [] => [] | a :: s => misuse z a ++ misuses (count_after z a) s end.
(** takes and returns of positive numbers, and the count stays inside intptr_t *)
Fixpoint countable (z : Z) (s : list ract) : Prop :=
  match s with
  | [] => True
  | a :: s => (match a with AGet _ n | APut _ n => 0 < n < 2 ^ 63 | AGive _ _ _ => True | _ => False end) /\ - 2 ^ 63 <= count_after z a < 2 ^ 63 /\ countable (count_after z a) s
  end.
(** nobody takes from nothing or gives back more than there is *)
Fixpoint well_used (z : Z) (s : list ract) : Prop :=
  match s with
  | [] => True
  | a :: s => (match a with AGet _ _ => 0 < z | APut _ n => 0 < z /\ n <= z | _ => True end) /\ well_used (count_after z a) s
  end.
