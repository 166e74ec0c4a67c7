(** * Model of src/notifier.c and include/bfdev/notifier.h (notification chains)
    A chain node starts with its index-list node (notifier.h:46-52), so both have one address; the chain is its list
    head (notifier.h:35-37). [prio n] is the priority of a node, [entry n] whether its callback is set. What a callback
    returns may depend on all calls before it: [orc past n]. Callbacks do not register or unregister nodes themselves. *)
From Verif Require Import Lib Ptr ListModel IlistModel.
Section Chain.
Variable prio : Z -> Z.
Variable entry : Z -> bool.
Variable orc : list Z -> Z -> Z.
(** notifier.h:22-29 *)
Definition REMOVE : Z := 1.
Definition STOP : Z := 2.
(** notifier.c:13-23 [notifier_chain_cmp]; bfdev_cmp (macro.h:31-33) has only two answers *)
Definition chain_cmp (a b : Z) : Z := if prio a >? prio b then 1 else -1.
(** notifier.h:64-68 *)
Definition chain_init (m : mem) (head : Z) : option mem := ilist_head_init m head.
(** notifier.c:53-63 [bfdev_notifier_register] *)
Definition register (fuel : nat) (m : mem) (head n : Z) : option (mem * Z) :=
  if negb (entry n) then Some (m, - EINVAL) else
  let* m := ilist_node_init m n in
  let* m := ilist_add chain_cmp fuel m head n in Some (m, 0).
(** notifier.c:65-69 [bfdev_notifier_unregister] *)
Definition unregister (m : mem) (head n : Z) : option mem := ilist_del m head n.
(** notifier.c:25-51 [bfdev_notifier_call] with the loop of list.h; [called] counts *called_num, an unsigned int *)
Fixpoint call_from (fuel : nat) (m : mem) (head : Z) (past : list Z) (ret num called pos tmp : Z) : option (mem * list Z * Z * Z) :=
  if pos =? head then Some (m, past, ret, called) else
  match fuel with
  | O => None
  | S fuel =>
    if num =? 0 then Some (m, past, ret, called) else
    let num := num - 1 in
    let ret := orc past pos in
    let past := past ++ [pos] in
    let called := w32 (called + 1) in
    let* (m, ret) := (if negb (Z.land ret REMOVE =? 0) then let* m := ilist_del m head pos in Some (m, Z.land ret (Z.lnot REMOVE)) else Some (m, ret)) in
    if negb (Z.land ret STOP =? 0) then Some (m, past, ret, called) else
    let* tmp' := ld m tmp NEXT in
    call_from fuel m head past ret num called tmp tmp'
  end.
Definition call (fuel : nat) (m : mem) (head : Z) (past : list Z) (num called : Z) : option (mem * list Z * Z * Z) :=
  let* pos := ld m head NEXT in
  let* tmp := ld m pos NEXT in
  call_from fuel m head past 0 num called pos tmp.
End Chain.
(** What a client does with one chain; the results it sees. *)
Section Run.
Variable prio : Z -> Z.
Variable entry : Z -> bool.
Variable orc : list Z -> Z -> Z.
Inductive nop := NRegister (n : Z) | NUnregister (n : Z) | NCall (num : Z).
Definition apply_nop (fuel : nat) (head : Z) (s : mem * list Z) (o : nop) : option (mem * list Z * list Z) :=
  let (m, past) := s in
  match o with
  | NRegister n => let* (m, r) := register prio entry fuel m head n in Some (m, past, [r])
  | NUnregister n => let* m := unregister m head n in Some (m, past, [])
  | NCall num => let* (x, c) := call orc fuel m head past num 0 in let '(m, past, r) := x in Some (m, past, [r; c])
  end.
Fixpoint run_nops (fuel : nat) (head : Z) (s : mem * list Z) (ops : list nop) : option (mem * list Z * list (list Z)) :=
  match ops with
  | [] => Some (s, [])
  | o :: ops => let* (s, out) := apply_nop fuel head s o in let* (s, outs) := run_nops fuel head s ops in Some (s, out :: outs)
  end.
End Run.
