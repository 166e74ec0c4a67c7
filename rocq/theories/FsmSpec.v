(** * State machines: what a client sees
    Only the data types of FsmModel are used. *)
From Verif Require Import Lib FsmModel.
Section Spec.
Variable sts : Z -> option state.
Variable trn : Z -> option trans.
Variable orc : list call -> call -> Z.
Variable type : Z.
(** A transition is for this event, or not; a guard is asked only for this event's transitions and says yes by 0. *)
Inductive accepts (p : list call) (t : Z) : list call -> Prop :=
| acc_plain tr : trn t = Some tr -> t_type tr = type -> t_guard tr = false -> accepts p t p
| acc_guard tr : trn t = Some tr -> t_type tr = type -> t_guard tr = true -> orc p (Guard t) = 0 -> accepts p t (p ++ [Guard t]).
Inductive refuses (p : list call) (t : Z) : list call -> Prop :=
| ref_type tr : trn t = Some tr -> t_type tr <> type -> refuses p t p
| ref_guard tr : trn t = Some tr -> t_type tr = type -> t_guard tr = true -> orc p (Guard t) <> 0 -> refuses p t (p ++ [Guard t]).
Inductive all_refuse : list call -> list Z -> list call -> Prop :=
| ar_nil p : all_refuse p [] p
| ar_cons p t p1 ts p2 : refuses p t p1 -> all_refuse p1 ts p2 -> all_refuse p (t :: ts) p2.
(** State [s] reacts with transition [t]: its first accepting one, or what its exception function answers if none. *)
Inductive reacts (p : list call) (s : Z) : Z -> list call -> Prop :=
| re_first st l1 t l2 p1 p2 : sts s = Some st -> s_trans st = l1 ++ t :: l2 -> all_refuse p l1 p1 -> accepts p1 t p2 -> reacts p s t p2
| re_exception st p1 : sts s = Some st -> all_refuse p (s_trans st) p1 -> s_exception st = true -> orc p1 (Exception s) <> NULL -> reacts p s (orc p1 (Exception s)) (p1 ++ [Exception s]).
Inductive ignores (p : list call) (s : Z) : list call -> Prop :=
| ig_plain st p1 : sts s = Some st -> all_refuse p (s_trans st) p1 -> s_exception st = false -> ignores p s p1
| ig_exception st p1 : sts s = Some st -> all_refuse p (s_trans st) p1 -> s_exception st = true -> orc p1 (Exception s) = NULL -> ignores p s (p1 ++ [Exception s]).
(** [a] is [s] or an ancestor, and all below it ignore the event. *)
Inductive climbs : list call -> Z -> Z -> list call -> Prop :=
| cl_here p s : climbs p s s p
| cl_up p s p1 st a p2 : ignores p s p1 -> sts s = Some st -> s_parent st <> NULL -> climbs p1 (s_parent st) a p2 -> climbs p s a p2.
(** The state a composite state is entered at. *)
Inductive entry_of : Z -> Z -> Prop :=
| en_leaf s st : sts s = Some st -> s_entry st = NULL -> entry_of s s
| en_down s st n : sts s = Some st -> s_entry st <> NULL -> entry_of (s_entry st) n -> entry_of s n.
(** The functions to call on the way from [s] to [n] by [t]: exit, action, enter. *)
Definition plan (s : Z) (st : state) (t : Z) (tr : trans) (n : Z) (nst : state) : list call :=
  (if negb (s =? n) && (t_stack tr <=? 0) && s_exit st then [Exit s] else []) ++
  (if t_action tr then [Action t s n] else []) ++
  (if negb (s =? n) && (0 <=? t_stack tr) && s_enter nst then [Enter n] else []).
(** They are called in this order; the first that does not return 0 ends it. *)
Inductive performs : list call -> list call -> list call -> Z -> Prop :=
| pe_done p : performs p [] p 0
| pe_fail p c l : orc p c <> 0 -> performs p (c :: l) (p ++ [c]) (orc p c)
| pe_next p c l p' r : orc p c = 0 -> performs (p ++ [c]) l p' r -> performs p (c :: l) p' r.
(** Where [t] leads: its next state, or, if it has none and pops [n] states, the lowest of the states popped. *)
Inductive leads (stk : list Z) (tr : trans) : Z -> list Z -> Prop :=
| le_next : t_next tr <> NULL -> leads stk tr (t_next tr) stk
| le_none : t_next tr = NULL -> 0 <= t_stack tr -> leads stk tr NULL stk
| le_pop low n l : t_next tr = NULL -> t_stack tr = - n -> 0 < n < 2 ^ 31 -> stk = low ++ l -> zlen l = n -> forall s l', l = s :: l' -> leads stk tr s low.
Definition underflows (stk : list Z) (tr : trans) : Prop := t_next tr = NULL /\ - 2 ^ 31 < t_stack tr < 0 /\ zlen stk < - t_stack tr.
Definition final (st : state) : Prop := s_trans st = [] /\ s_exception st = false.
End Spec.

(** ** Handling one event *)
Section Handles.
Variable sts : Z -> option state.
Variable trn : Z -> option trans.
Variable orc : list call -> call -> Z.
Variable room : list call -> bool.
Variable type : Z.
(** The machine has gone to state [n], with stack [stk]. *)
Definition moved (f f' : fsm) (n : Z) (stk : list Z) : Prop := curr f' = n /\ prev f' = curr f /\ error f' = error f /\ stack f' = stk.
Definition stays (f f' : fsm) (stk : list Z) : Prop := curr f' = curr f /\ prev f' = prev f /\ error f' = error f /\ stack f' = stk.
(** State [a], the nearest of [s] and its ancestors that reacts, reacts with [t] leading to [n]; [p'] after the calls planned. *)
Definition fired (f : fsm) (p : list call) (s a t : Z) (tr : trans) (n : Z) (nst : state) (stk : list Z) (p' : list call) (r : Z) : Prop :=
  exists p1 p2 n0 st, climbs sts trn orc type p s a p1 /\ reacts sts trn orc type p1 a t p2 /\ trn t = Some tr /\ leads (stack f) tr n0 stk /\ n0 <> NULL /\
    entry_of sts n0 n /\ sts a = Some st /\ sts n = Some nst /\ performs orc p2 (plan a st t tr n nst) p' r.
Inductive handles : fsm -> list call -> Z -> fsm -> list call -> Z -> Prop :=
(** nobody reacts: nothing happens *)
| ha_ignored f p s a p1 p2 st : climbs sts trn orc type p s a p1 -> ignores sts trn orc type p1 a p2 -> sts a = Some st -> s_parent st = NULL -> handles f p s f p2 NOCHANGE
| ha_underflow f p s a p1 t p2 tr : climbs sts trn orc type p s a p1 -> reacts sts trn orc type p1 a t p2 -> trn t = Some tr -> underflows (stack f) tr -> handles f p s f p2 (- EOVERFLOW)
(** a transition that leads nowhere: the error state is entered *)
| ha_nowhere f p s a p1 t p2 tr stk f' p' r : climbs sts trn orc type p s a p1 -> reacts sts trn orc type p1 a t p2 -> trn t = Some tr -> leads (stack f) tr NULL stk ->
    moved f f' (error f) stk ->
    (error f = NULL /\ p' = p2 /\ r = 0 \/ exists est, error f <> NULL /\ sts (error f) = Some est /\ performs orc p2 (if s_enter est then [Enter (error f)] else []) p' r) ->
    handles f p s f' p' (if r =? 0 then - ENOENT else r)
(** a function fails: its value is returned, the state stays *)
| ha_fails f p s a t tr n nst stk p' r f' : fired f p s a t tr n nst stk p' r -> r <> 0 -> stays f f' stk -> handles f p s f' p' r
(** the machine goes to state [n] *)
| ha_error f p s a t tr n nst stk p' f' : fired f p s a t tr n nst stk p' 0 -> moved f f' n stk -> n = error f -> handles f p s f' p' (- EFAULT)
| ha_self f p s a t tr n nst stk p' f' : fired f p s a t tr n nst stk p' 0 -> moved f f' n stk -> n <> error f -> n = a -> handles f p s f' p' SELFLOOP
| ha_finish f p s a t tr n nst stk p' f' : fired f p s a t tr n nst stk p' 0 -> moved f f' n stk -> n <> error f -> n <> a -> final nst -> handles f p s f' p' FINISH
| ha_memory f p s a t tr n nst stk p' f' : fired f p s a t tr n nst stk p' 0 -> moved f f' n stk -> n <> error f -> n <> a -> ~ final nst -> t_stack tr > 0 -> room p' = false -> handles f p s f' p' (- ENOMEM)
| ha_changed f p s a t tr n nst stk p' f' : fired f p s a t tr n nst stk p' 0 -> n <> error f -> n <> a -> ~ final nst -> t_cross tr = false ->
    moved f f' n (if 0 <? t_stack tr then stk ++ [a] else stk) -> handles f p s f' p' CHANGED
(** a crossing transition: the new state handles the event as well *)
| ha_cross f p s a t tr n nst stk p1 f1 f' p' r : fired f p s a t tr n nst stk p1 0 -> n <> error f -> n <> a -> ~ final nst -> t_cross tr = true ->
    moved f f1 n (if 0 <? t_stack tr then stk ++ [a] else stk) -> handles f1 p1 n f' p' r -> handles f p s f' p' r.
End Handles.
