(** * Specification: what a skip list promises whatever its comparison functions answer *)
From Verif Require Import Lib Ptr ListModel SkiplistModel SkiplistSpec SkipCallsModel.

(** none of the calls [cs] (the newest first), made after [tr], was answered 0 *)
Definition never_zero (orc : list call -> call -> Z) (tr cs : list call) : Prop := forall cs1 c cs2, cs = cs1 ++ c :: cs2 -> orc (cs2 ++ tr) c <> 0.
(** the calls show keys of nodes of the list, and are no more than there are nodes *)
Definition shown (ask : Z -> call) (cs : list call) (s : list entry) : Prop :=
  (length cs <= length s)%nat /\ forall c, In c cs -> exists e, In e s /\ c = ask (e_key e).
Definition cmp_with (new : Z) : Z -> call := fun k => CCmp k new.
Definition find_with (pdata : Z) : Z -> call := fun k => CFind k pdata.
(** one operation after the calls [tr], its result, its calls, and the nodes of the list afterwards; a new node is somewhere *)
Inductive cstep (orc : list call -> call -> Z) (levels : Z) (full : Prop) (tr : list call) (s : sstate) : cop -> sres -> list call -> sstate -> Prop :=
| c_insert k rand n L R cs : st_list s = L ++ R -> n <> NULL -> ~ In n (map e_node (st_list s)) -> shown (cmp_with k) cs (st_list s) ->
  cstep orc levels full tr s (OInsert k rand) (RCode 0) cs {| st_list := L ++ {| e_node := n; e_key := k; e_height := random_level levels rand |} :: R; st_ok := st_ok s |}
| c_full k rand : full ->
  cstep orc levels full tr s (OInsert k rand) (RCode (- ENOMEM)) [] {| st_list := st_list s; st_ok := st_ok s && (random_level levels rand <=? tallest (st_list s)) |}
| c_find_one p e cs : In e (st_list s) -> orc (cs ++ tr) (CFind (e_key e) p) = 0 -> never_zero orc tr cs -> shown (find_with p) (CFind (e_key e) p :: cs) (st_list s) ->
  cstep orc levels full tr s (OFind p) (RNode (e_node e)) (CFind (e_key e) p :: cs) s
| c_find_none p cs : never_zero orc tr cs -> shown (find_with p) cs (st_list s) -> cstep orc levels full tr s (OFind p) (RNode NULL) cs s
| c_del_one p L e R cs : st_list s = L ++ e :: R -> orc (cs ++ tr) (CFind (e_key e) p) = 0 -> never_zero orc tr cs -> shown (find_with p) (CFind (e_key e) p :: cs) (st_list s) ->
  cstep orc levels full tr s (ODel p) RUnit (CFind (e_key e) p :: cs) {| st_list := L ++ R; st_ok := st_ok s |}
| c_del_none p cs : never_zero orc tr cs -> shown (find_with p) cs (st_list s) -> cstep orc levels full tr s (ODel p) RUnit cs s
| c_each i : cstep orc levels full tr s (OEach i) (RList (level i (st_list s))) [] s
| c_back i : cstep orc levels full tr s (OBack i) (RList (rev (level i (st_list s)))) [] s
| c_reset : cstep orc levels full tr s OReset (RList (map e_key (st_list s))) [] {| st_list := []; st_ok := true |}.
(** The only rule left: no search after an insertion that failed at a new height (C54_refuted), and levels that exist. *)
Definition callowed (levels : Z) (s : sstate) (o : cop) : Prop :=
  match o with OFind _ | ODel _ => st_ok s = true | OEach i | OBack i => 0 <= i < levels | _ => True end.
Inductive creach (orc : list call -> call -> Z) (levels : Z) : list (cop * sres) -> list call -> sstate -> Prop :=
| creach_nil : creach orc levels [] [] {| st_list := []; st_ok := true |}
| creach_step h tr s o r cs s' : creach orc levels h tr s -> cstep orc levels True tr s o r cs s' -> creach orc levels (h ++ [(o, r)]) (cs ++ tr) s'.
Definition cpolite (orc : list call -> call -> Z) (levels : Z) (prog : list (cop * sres) -> list call -> cop) : Prop := forall h tr s, creach orc levels h tr s -> callowed levels s (prog h tr).
