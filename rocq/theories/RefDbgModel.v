(** * Model of the checks of include/bfdev/refcount.h under BFDEV_DEBUG_REFCNT
    The checks come after the atomic access and after *oldp was stored, look only at local variables and call bfdev_refcnt_report
    (src/refcount.c:14-54), which prints one message and changes nothing.  So a debug build makes the steps of RefcntModel, and each call that
    returns (an entry of [rlog]) adds at most one message.  bfdev_atomic_t is intptr_t: additions that leave its range are
    undefined ([None]). *)
From Verif Require Import Lib RefcntModel.

(** refcount.h:24-33 *)
Inductive saturation := ADD_UAF | ADD_LEAK | ADD_OVF | SUB_UAF | SUB_LEAK | SUB_OVF | ADDNZ_LEAK | ADDNZ_OVF.
(** the value of a word as intptr_t *)
Definition sg (x : Z) : Z := if x <? 2 ^ 63 then x else x - 2 ^ 64.
(** a sum of type intptr_t *)
Definition ssum (x : Z) : option Z := if (- 2 ^ 63 <=? x) && (x <? 2 ^ 63) then Some x else None.
(** what a call reports; None: undefined behaviour *)
Definition dcheck (e : rev) : option (option saturation) :=
  match e with
  (* refcount.h:72-79 *)
  | RGet _ n old =>
    let prev := sg old in
    if prev =? 0 then Some (Some ADD_UAF)
    else if prev <? 0 then Some (Some ADD_LEAK)
    else let* x := ssum (prev + sg n) in if x <? 0 then Some (Some ADD_OVF) else Some None
  (* refcount.h:92-102 *)
  | RPut _ n old _ =>
    let prev := sg old in
    if prev =? sg n then Some None
    else if prev =? 0 then Some (Some SUB_UAF)
    else if prev <? 0 then Some (Some SUB_LEAK)
    else let* x := ssum (prev - sg n) in if x <? 0 then Some (Some SUB_OVF) else Some None
  (* refcount.h:121-126 *)
  | RAddnz _ n old _ =>
    let prev := sg old in
    if prev <? 0 then Some (Some ADDNZ_LEAK)
    else let* x := ssum (prev - sg n) in if x <? 0 then Some (Some ADDNZ_OVF) else Some None
  end.
(** the messages of all calls that have returned, in order *)
Fixpoint dmessages (l : list rev) : option (list saturation) :=
  match l with
  | [] => Some []
  | e :: l => let* r := dcheck e in let* rest := dmessages l in Some (match r with Some x => x :: rest | None => rest end)
  end.
