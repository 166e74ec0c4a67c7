(** * Model of src/fsm.c and include/bfdev/fsm.h (hierarchical state machine with a stack)
    States and transitions are constant tables, found by address; [None] is an invalid address, NULL is 0. The client's
    callbacks are an arbitrary function of the calls made before: [orc past call] is what [call] returns. The stack of
    type bfdev_array_t (modelled in ArrayModel) is a list of state addresses, the top last; [room past] says whether
    bfdev_array_push gets its memory. Callbacks do not call back into the same machine. *)
From Verif Require Import Lib.
Definition NULL : Z := 0.
Definition EFAULT : Z := 14.
(** fsm.h:37-42 *)
Definition CHANGED : Z := 0.
Definition NOCHANGE : Z := 1.
Definition SELFLOOP : Z := 2.
Definition FINISH : Z := 3.
(** fsm.h:49-60 struct bfdev_fsm_transition; guard and action: whether the pointer is set *)
Record trans := { t_type : Z; t_next : Z; t_cross : bool; t_stack : Z; t_guard : bool; t_action : bool }.
(** fsm.h:62-73 struct bfdev_fsm_state; [s_trans] holds the addresses trans, trans + 1, ..., trans + tnum - 1 *)
Record state := { s_enter : bool; s_exit : bool; s_exception : bool; s_trans : list Z; s_parent : Z; s_entry : Z }.
(** fsm.h:88-93 struct bfdev_fsm *)
Record fsm := { state0 : Z; state1 : Z; error : Z; stack : list Z; count : Z }.
(** The calls of client functions, with their arguments: a guard of a transition, the exception of a state, the exit
    and enter functions of a state, the action of a transition from a state to a state. *)
Inductive call := Guard (t : Z) | Exception (s : Z) | Exit (s : Z) | Action (t s n : Z) | Enter (s : Z).

(** fsm.h:110-115 *)
Definition init (s err : Z) : fsm := {| state0 := s; state1 := NULL; error := err; stack := []; count := 0 |}.
(** fsm.h:117-123 *)
Definition reset (f : fsm) (s : Z) : fsm := {| state0 := s; state1 := state1 f; error := error f; stack := []; count := 0 |}.
(** fsm.h:131-140 *)
Definition curr (f : fsm) : Z := if Z.land (count f) 1 =? 0 then state0 f else state1 f.
(** fsm.h:148-157 *)
Definition prev (f : fsm) : Z := if Z.land (w32 (count f - 1)) 1 =? 0 then state0 f else state1 f.
(** fsm.c:10-19 *)
Definition push_state (f : fsm) (s : Z) : fsm :=
  let c := w32 (count f + 1) in
  if Z.land c 1 =? 0 then {| state0 := s; state1 := state1 f; error := error f; stack := stack f; count := c |}
  else {| state0 := state0 f; state1 := s; error := error f; stack := stack f; count := c |}.
Definition set_stack (f : fsm) (l : list Z) : fsm := {| state0 := state0 f; state1 := state1 f; error := error f; stack := l; count := count f |}.

Section Machine.
Variable sts : Z -> option state.
Variable trn : Z -> option trans.
Variable orc : list call -> call -> Z.
Variable room : list call -> bool.
Variable type : Z.
(** fsm.h:165-175 *)
Definition finished (f : fsm) : option bool := let* s := sts (curr f) in Some ((zlen (s_trans s) =? 0) && negb (s_exception s)).
(** fsm.h:184-196 [bfdev_fsm_cond] *)
Definition cond (past : list call) (t : Z) : option (bool * list call) :=
  let* tr := trn t in
  if negb (t_type tr =? type) then Some (false, past) else
  if negb (t_guard tr) then Some (true, past) else Some (orc past (Guard t) =? 0, past ++ [Guard t]).
(** fsm.c:27-31, the loop over the transitions *)
Fixpoint scan (past : list call) (ts : list Z) : option (option Z * list call) :=
  match ts with
  | [] => Some (None, past)
  | t :: ts => let* r := cond past t in if fst r then Some (Some t, snd r) else scan (snd r) ts
  end.
(** fsm.c:21-38 [fsm_find_transition] *)
Definition find_transition (past : list call) (s : Z) : option (option Z * list call) :=
  let* st := sts s in
  let* r := scan past (s_trans st) in
  match fst r with
  | Some t => Some r
  | None => if s_exception st then
              let t := orc (snd r) (Exception s) in Some (if t =? NULL then None else Some t, snd r ++ [Exception s])
            else Some r
  end.
(** fsm.c:40-54 [bfdev_fsm_error] *)
Definition fsm_error (f : fsm) (past : list call) : option (fsm * list call * Z) :=
  let f := push_state f (error f) in
  if error f =? NULL then Some (f, past, 0) else
  let* st := sts (error f) in
  if s_enter st then Some (f, past ++ [Enter (error f)], orc past (Enter (error f))) else Some (f, past, 0).
(** fsm.c:111-112 *)
Fixpoint descend (fuel : nat) (s : Z) : option Z :=
  match fuel with O => None | S fuel => let* st := sts s in if s_entry st =? NULL then Some s else descend fuel (s_entry st) end.
(** array.c:55-72,97-101 [bfdev_array_pop]: the address of the lowest popped entry, read by the caller *)
Definition pop (f : fsm) (n : Z) : option (fsm * Z) :=
  if zlen (stack f) <? n then None else
  let* s := rd (stack f) (zlen (stack f) - n) in Some (set_stack f (firstn (Z.to_nat (zlen (stack f) - n)) (stack f)), s).
(** fsm.c:56-175, the loop with [next] = [cur] not NULL *)
Fixpoint loop (fuel : nat) (f : fsm) (past : list call) (cur : Z) : option (fsm * list call * Z) :=
  match fuel with
  | O => None
  | S fuel =>
    let* (found, past) := find_transition past cur in
    let* st := sts cur in
    match found with
    | None => if s_parent st =? NULL then Some (f, past, NOCHANGE) else loop fuel f past (s_parent st)
    | Some t =>
      let* tr := trn t in
      let popping := (t_next tr =? NULL) && (t_stack tr <? 0) in
      if popping && (t_stack tr <=? - 2 ^ 31) then None else (* the negation of INT_MIN is undefined *)
      match (if popping then pop f (- t_stack tr) else Some (f, t_next tr)) with
      | None => Some (f, past, - EOVERFLOW)
      | Some (f, next) =>
        if next =? NULL then
          let* (f, past, retval) := fsm_error f past in Some (f, past, if retval =? 0 then - ENOENT else retval)
        else
        let* next := descend fuel next in
        let* nst := sts next in
        let exits := negb (cur =? next) && (t_stack tr <=? 0) && s_exit st in
        let retval := if exits then orc past (Exit cur) else 0 in
        let past := if exits then past ++ [Exit cur] else past in
        if negb (retval =? 0) then Some (f, past, retval) else
        let retval := if t_action tr then orc past (Action t cur next) else 0 in
        let past := if t_action tr then past ++ [Action t cur next] else past in
        if negb (retval =? 0) then Some (f, past, retval) else
        let enters := negb (cur =? next) && (0 <=? t_stack tr) && s_enter nst in
        let retval := if enters then orc past (Enter next) else 0 in
        let past := if enters then past ++ [Enter next] else past in
        if negb (retval =? 0) then Some (f, past, retval) else
        let f := push_state f next in
        if next =? error f then Some (f, past, - EFAULT) else
        if cur =? next then Some (f, past, SELFLOOP) else
        if (zlen (s_trans nst) =? 0) && negb (s_exception nst) then Some (f, past, FINISH) else
        if (0 <? t_stack tr) && negb (room past) then Some (f, past, - ENOMEM) else
        let f := if 0 <? t_stack tr then set_stack f (stack f ++ [cur]) else f in
        if t_cross tr then loop fuel f past next else Some (f, past, CHANGED)
      end
    end
  end.
(** fsm.c:56-63 [bfdev_fsm_handle] *)
Definition handle (fuel : nat) (f : fsm) (past : list call) : option (fsm * list call * Z) :=
  if curr f =? NULL then Some (f, past, - EINVAL) else loop fuel f past (curr f).
End Machine.
