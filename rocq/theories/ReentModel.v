(** * Model of bfdev_notifier_call (src/notifier.c) with callbacks that change the chain they are called from
    As NotifierModel.v, but a callback may, before it answers, register and unregister nodes of the same chain: [act past n] lists what the
    callback of [n] does when [past] are the calls before it.  Callbacks do not call the chain again. *)
From Verif Require Import Lib Ptr ListModel IlistModel NotifierModel.
Inductive act1 := AReg (n : Z) | AUnreg (n : Z).
Section Chain.
Variable prio : Z -> Z.
Variable entry : Z -> bool.
Variable orc : list Z -> Z -> Z.
Variable act : list Z -> Z -> list act1.
(** notifier.c:53-69 called from inside a callback *)
Definition do_act (fuel : nat) (head : Z) (m : mem) (a : act1) : option mem :=
  match a with
  | AReg n => let* (m, _) := register prio entry fuel m head n in Some m
  | AUnreg n => unregister m head n
  end.
Fixpoint do_acts (fuel : nat) (head : Z) (m : mem) (l : list act1) : option mem :=
  match l with [] => Some m | a :: l => let* m := do_act fuel head m a in do_acts fuel head m l end.
(** notifier.c:25-51 [bfdev_notifier_call]; the loop is that of list.h bfdev_list_for_each_entry_safe, which knows the successor [tmp] of [pos]
    before the body runs; [afuel] bounds the search of a registration inside a callback *)
Fixpoint rcall_from (afuel fuel : nat) (m : mem) (head : Z) (past : list Z) (ret num called pos tmp : Z) : option (mem * list Z * Z * Z) :=
  if pos =? head then Some (m, past, ret, called) else
  match fuel with
  | O => None
  | S fuel =>
    if num =? 0 then Some (m, past, ret, called) else
    let num := num - 1 in
    let* m := do_acts afuel head m (act past pos) in
    let ret := orc past pos in
    let past := past ++ [pos] in
    let called := w32 (called + 1) in
    let* (m, ret) := (if negb (Z.land ret REMOVE =? 0) then let* m := ilist_del m head pos in Some (m, Z.land ret (Z.lnot REMOVE)) else Some (m, ret)) in
    if negb (Z.land ret STOP =? 0) then Some (m, past, ret, called) else
    let* tmp' := ld m tmp NEXT in
    rcall_from afuel fuel m head past ret num called tmp tmp'
  end.
Definition rcall (afuel fuel : nat) (m : mem) (head : Z) (past : list Z) (num called : Z) : option (mem * list Z * Z * Z) :=
  let* pos := ld m head NEXT in
  let* tmp := ld m pos NEXT in
  rcall_from afuel fuel m head past 0 num called pos tmp.
(** What a client does with one chain; the results it sees. *)
Definition apply_rop (fuel : nat) (head : Z) (s : mem * list Z) (o : nop) : option (mem * list Z * list Z) :=
  let (m, past) := s in
  match o with
  | NCall num => let* (x, c) := rcall fuel fuel m head past num 0 in let '(m, past, r) := x in Some (m, past, [r; c])
  | _ => apply_nop prio entry orc fuel head s o
  end.
Fixpoint run_rops (fuel : nat) (head : Z) (s : mem * list Z) (ops : list nop) : option (mem * list Z * list (list Z)) :=
  match ops with
  | [] => Some (s, [])
  | o :: ops => let* (s, out) := apply_rop fuel head s o in let* (s, outs) := run_rops fuel head s ops in Some (s, out :: outs)
  end.
End Chain.
