(** * Model of src/ilist.c compiled with BFDEV_DEBUG_ILIST: every call first walks the lists, and walks them again at the end *)
From Verif Require Import Lib Ptr ListModel IlistModel.

(** What a walk does: it reads an object that is not there, it is still walking when the fuel is gone, or it returns. *)
Inductive walk (A : Type) := Fault | Spin | Ret (a : A).
Arguments Fault {A}. Arguments Spin {A}. Arguments Ret {A} a.

(** src/ilist.c:15-38 [ilist_integrity_check]; [false] comes with a message in the log (its text is not modelled) *)
Definition integrity_check (m : mem) (prev next : Z) : walk bool :=
  match ld m prev NEXT with
  | None => Fault
  | Some a => if negb (a =? next) then Ret false else
      match ld m next PREV with
      | None => Fault
      | Some b => Ret (b =? prev)
      end
  end.
(** ilist.c:46-51: the check of one pair, then the loop *)
Fixpoint check_from (fuel : nat) (m : mem) (head prev next : Z) : walk bool :=
  match fuel with
  | O => Spin
  | S fuel =>
    match integrity_check m prev next with
    | Fault => Fault
    | Spin => Spin
    | Ret success =>
      if success && negb (next =? head) then
        match ld m next NEXT with
        | None => Fault
        | Some n => check_from fuel m head next n
        end
      else Ret success
    end
  end.
(** ilist.c:40-54 [ilist_list_check] *)
Definition check_list (fuel : nat) (m : mem) (head : Z) : walk bool :=
  match ld m head NEXT with
  | None => Fault
  | Some n => check_from fuel m head head n
  end.
(** ilist.c:56-66 [ilist_head_check]: the result, and whether a message was logged. The result of the second walk is
    dropped, as in the code. *)
Definition check_head (fuel : nat) (m : mem) (head : Z) : walk (bool * bool) :=
  match check_list fuel m head with
  | Fault => Fault
  | Spin => Spin
  | Ret false => Ret (false, true)
  | Ret true =>
    match ilist_head_empty m head, ilist_first m head with
    | Some true, _ => Ret (true, false)
    | Some false, Some first =>
      match check_list fuel m (IDX first) with
      | Fault => Fault
      | Spin => Spin
      | Ret good => Ret (true, negb good)
      end
    | _, _ => Fault
    end
  end.
(** ilist.c:76-79, 112-114 and 122-125, 140-142: the checks around a call [f]. The result is the memory and whether a
    message was logged; [None] if the call or a check faults or spins. The early return of ilist.c:82-84 leaves before the
    last check; [f] says so with [true]. *)
Definition checked (fuel : nat) (head : Z) (f : mem -> option (mem * bool)) (m : mem) : option (mem * bool) :=
  match check_head fuel m head with
  | Ret (false, b) => Some (m, b)
  | Ret (true, b) =>
    let* r := f m in
    if snd r then Some (fst r, b)
    else match check_head fuel (fst r) head with
         | Ret (_, b') => Some (fst r, b || b')
         | _ => None
         end
  | _ => None
  end.
(** ilist.c:81-84: the node is in use *)
Definition busy (m : mem) (inode : Z) : option bool :=
  let* e1 := list_check_empty m inode in
  let* e2 := list_check_empty m (IDX inode) in
  Some (negb e1 || negb e2).
(** ilist.c:69-115 [bfdev_ilist_add] with BFDEV_DEBUG_ILIST; between the checks stands the code of the plain build *)
Definition dilist_add (cmp : Z -> Z -> Z) (fuel : nat) (m : mem) (head inode : Z) : option (mem * bool) :=
  checked fuel head (fun m => let* b := busy m inode in let* m' := ilist_add cmp fuel m head inode in Some (m', b)) m.
(** ilist.c:117-143 [bfdev_ilist_del] with BFDEV_DEBUG_ILIST *)
Definition dilist_del (fuel : nat) (m : mem) (head inode : Z) : option (mem * bool) :=
  checked fuel head (fun m => let* m' := ilist_del m head inode in Some (m', false)) m.
(** a history of calls, and whether any of them logged a message *)
Fixpoint dilist_run (fuel : nat) (cmp : Z -> Z -> Z) (head : Z) (m : mem) (ops : list iop) : option (mem * bool) :=
  match ops with
  | [] => Some (m, false)
  | op :: r =>
    let* q := match op with IAdd n => dilist_add cmp fuel m head n | IDel n => dilist_del fuel m head n end in
    let* s := dilist_run fuel cmp head (fst q) r in
    Some (fst s, snd q || snd s)
  end.
