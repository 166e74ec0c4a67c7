(** * Model of the loops of include/bfdev/bitwalk.h:255-309 with a body that may change the bitmap, and of the searches for common bits
    The searches are those of BitwalkModel (out of line).  [body i m]: what the body does to memory in the round of index [i]; it does not
    assign the index itself. *)
From Verif Require Import Lib BitsModel BitwalkModel.

Section Loop.
Variables (bits invert bitmap : Z) (body : Z -> list Z -> list Z).
(** the condition, the body and the step; the indices of the rounds and the memory at the end *)
Fixpoint walkb (fuel : nat) (step : list Z -> Z -> option Z) (index : Z) (m : list Z) : option (list Z * list Z) :=
  if index <? bits then
    match fuel with
    | O => None
    | S fuel' =>
      let m := body index m in
      let* i := step m index in
      let* (l, m) := walkb fuel' step i m in Some (index :: l, m)
    end
  else Some ([], m).
Definition fuelb : nat := S (Z.to_nat bits).
(** the steps: index = find_next(bitmap, bits, index + 1), index = find_prev(bitmap, bits, index - 1); unsigned int *)
Definition step_up (m : list Z) (index : Z) : option Z := comp_find_next m bits invert false bitmap None (w32 (index + 1)).
Definition step_down (m : list Z) (index : Z) : option Z := comp_find_prev m bits invert false bitmap None (w32 (index - 1)).
(** bitwalk.h:255-263 [bfdev_for_each_bit], [bfdev_for_each_zero] *)
Definition loop_all (m : list Z) := let* i := comp_find_first m bits invert false bitmap in walkb fuelb step_up i m.
(** bitwalk.h:265-273 [.._reverse] *)
Definition loop_reverse (m : list Z) := let* i := comp_find_last m bits invert false bitmap in walkb fuelb step_down i m.
(** bitwalk.h:275-281 [.._form]: from the index as it is *)
Definition loop_form (index : Z) (m : list Z) := walkb fuelb step_up index m.
(** bitwalk.h:283-289 [.._reverse_form] *)
Definition loop_reverse_form (index : Z) (m : list Z) := walkb fuelb step_down index m.
(** bitwalk.h:291-299 [.._continue] *)
Definition loop_continue (index : Z) (m : list Z) := let* i := step_up m index in walkb fuelb step_up i m.
(** bitwalk.h:301-309 [.._reverse_continue] *)
Definition loop_reverse_continue (index : Z) (m : list Z) := let* i := step_down m index in walkb fuelb step_down i m.
End Loop.
(** bitwalk.h:214-231 [bfdev_find_next_and_bit] for a constant length in 1..64; the out-of-line search with two maps is [comp_find_next] *)
Definition find_next_and_small (w1 w2 bits offset : Z) : Z :=
  if bits <=? offset then bits
  else let v := Z.land (Z.land w1 w2) (BIT_RANGE (bits - 1) offset) in if v =? 0 then bits else if negb (v =? 0) then ffsuf v else bits.
(** bitwalk.h:235-252 [bfdev_find_prev_and_bit] *)
Definition find_prev_and_small (w1 w2 bits offset : Z) : Z :=
  if bits <=? offset then bits
  else let v := Z.land (Z.land w1 w2) (LOW_MASK (offset + 1)) in if v =? 0 then bits else if negb (v =? 0) then flsuf v else bits.
