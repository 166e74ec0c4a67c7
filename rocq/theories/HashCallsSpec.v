(** * Specification: what a hash map promises whatever the user's functions answer *)
From Verif Require Import Lib Ptr SlistModel HashmapModel HashmapSpec HashCallsModel.

(** none of the calls [cs] (the newest first), made after [tr], was answered 0 *)
Fixpoint never_zero (orc : list hcall -> hcall -> Z) (tr cs : list hcall) : Prop :=
  match cs with [] => True | c :: cs => orc (cs ++ tr) c <> 0 /\ never_zero orc tr cs end.
(** different nodes of the map *)
Definition some_of (p s : list Z) : Prop := NoDup p /\ incl p s.
(** Before a node is put into a map of the nodes [s], after the calls [t], the user's [extend] may be asked (it is shown the
    right count) and decides; if the table is extended, the hash of every node is asked for once, then that of the new node. *)
Inductive grown (orc : list hcall -> hcall -> Z) (t : list hcall) (s : list Z) (n : Z) : list hcall -> Prop :=
| grown_no : grown orc t s n []
| grown_refused h : h_used h = w64 (zlen s) -> orc t (CExtend h) = 0 -> grown orc t s n [CExtend h]
| grown_self q : Permutation s q -> grown orc t s n (CHashNode n :: map CHashNode q)
| grown_asked h q : h_used h = w64 (zlen s) -> orc t (CExtend h) <> 0 -> Permutation s q -> grown orc t s n (CHashNode n :: map CHashNode q ++ [CExtend h]).
(** There was no memory for a larger table: nothing or [extend] has been asked. *)
Inductive not_grown (orc : list hcall -> hcall -> Z) (t : list hcall) (s : list Z) : list hcall -> Prop :=
| not_grown_self : not_grown orc t s []
| not_grown_asked h : h_used h = w64 (zlen s) -> orc t (CExtend h) <> 0 -> not_grown orc t s [CExtend h].
(** After a node was taken out, which leaves [s]: the same for [shrink]; if there is no memory the table stays as it is. *)
Inductive shrunk (orc : list hcall -> hcall -> Z) (t : list hcall) (s : list Z) : list hcall -> Prop :=
| shrunk_no : shrunk orc t s []
| shrunk_asked h : h_used h = w64 (zlen s) -> shrunk orc t s [CShrink h]
| shrunk_self q : Permutation s q -> shrunk orc t s (map CHashNode q)
| shrunk_yes h q : h_used h = w64 (zlen s) -> orc t (CShrink h) <> 0 -> Permutation s q -> shrunk orc t s (map CHashNode q ++ [CShrink h]).
(** The calls about the nodes [p] of the map came after [t], and all were answered with something else than 0. *)
Definition all_other (orc : list hcall -> hcall -> Z) (ask : Z -> hcall) (t : list hcall) (p s : list Z) : Prop :=
  some_of p s /\ never_zero orc t (map ask p).
(** ... and then one about [e], which was answered 0. *)
Definition met (orc : list hcall -> hcall -> Z) (ask : Z -> hcall) (t : list hcall) (e : Z) (p s : list Z) : Prop :=
  some_of (e :: p) s /\ never_zero orc t (map ask p) /\ orc (map ask p ++ t) (ask e) = 0.
Definition eq_with (n : Z) : Z -> hcall := fun x => CEqual n x.
Definition find_with (k : Z) : Z -> hcall := fun x => CFind x k.
(** One operation after the calls [tr]: its result, its calls (the newest first), and the nodes of the map afterwards. *)
Inductive astep (orc : list hcall -> hcall -> Z) (full : Prop) (tr : list hcall) (s : list Z) : hop -> hres -> list hcall -> list Z -> Prop :=
| a_add_old n e p : met orc (eq_with n) (CHashNode n :: tr) e p s ->
  astep orc full tr s (HInsert n ADD) (RPair (- EEXIST) e) (CEqual n e :: map (eq_with n) p ++ [CHashNode n]) s
| a_set_old n st e p s' : st = SET \/ st = UPDATE -> met orc (eq_with n) (CHashNode n :: tr) e p s -> Permutation s (e :: s') ->
  astep orc full tr s (HInsert n st) (RPair 0 e) (CEqual n e :: map (eq_with n) p ++ [CHashNode n]) (n :: s')
| a_update_none n p : all_other orc (eq_with n) (CHashNode n :: tr) p s ->
  astep orc full tr s (HInsert n UPDATE) (RPair (- ENOENT) NULL) (map (eq_with n) p ++ [CHashNode n]) s
| a_put_new n st p g : st = ADD \/ st = SET -> all_other orc (eq_with n) (CHashNode n :: tr) p s -> grown orc (map (eq_with n) p ++ CHashNode n :: tr) s n g ->
  astep orc full tr s (HInsert n st) (RPair 0 NULL) (g ++ map (eq_with n) p ++ [CHashNode n]) (n :: s)
| a_put_full n st p g : st = ADD \/ st = SET -> all_other orc (eq_with n) (CHashNode n :: tr) p s -> not_grown orc (map (eq_with n) p ++ CHashNode n :: tr) s g -> full ->
  astep orc full tr s (HInsert n st) (RPair (- ENOMEM) NULL) (g ++ map (eq_with n) p ++ [CHashNode n]) s
| a_append_new n g : grown orc (CHashNode n :: tr) s n g -> astep orc full tr s (HInsert n APPEND) (RPair 0 NULL) (g ++ [CHashNode n]) (n :: s)
| a_append_full n g : not_grown orc (CHashNode n :: tr) s g -> full -> astep orc full tr s (HInsert n APPEND) (RPair (- ENOMEM) NULL) (g ++ [CHashNode n]) s
| a_del_one k e p s' g : met orc (find_with k) (CHashKey k :: tr) e p s -> Permutation s (e :: s') -> shrunk orc (CFind e k :: map (find_with k) p ++ CHashKey k :: tr) s' g ->
  astep orc full tr s (HDel k) (RPair 0 e) (g ++ CFind e k :: map (find_with k) p ++ [CHashKey k]) s'
| a_del_none k p : all_other orc (find_with k) (CHashKey k :: tr) p s ->
  astep orc full tr s (HDel k) (RPair (- ENOENT) NULL) (map (find_with k) p ++ [CHashKey k]) s
| a_find_one k e p : met orc (find_with k) (CHashKey k :: tr) e p s ->
  astep orc full tr s (HFind k) (RNode e) (CFind e k :: map (find_with k) p ++ [CHashKey k]) s
| a_find_none k p : all_other orc (find_with k) (CHashKey k :: tr) p s ->
  astep orc full tr s (HFind k) (RNode NULL) (map (find_with k) p ++ [CHashKey k]) s
| a_each l : Permutation s l -> astep orc full tr s HEach (RList l) [] s
| a_release : astep orc full tr s HRelease RUnit [] [].
(** What a client must respect: it never inserts a node that is there. (With ADD, equality might deny a node itself.) *)
Definition fresh_node (U s : list Z) (o : hop) : Prop := match o with HInsert n _ => In n U /\ ~ In n s | _ => True end.
(** The nodes after operations with these results and calls, from the empty map. *)
Inductive areach (orc : list hcall -> hcall -> Z) : list (hop * hres) -> list hcall -> list Z -> Prop :=
| areach_nil : areach orc [] [] []
| areach_step past tr s o r cs s' : areach orc past tr s -> astep orc True tr s o r cs s' -> areach orc (past ++ [(o, r)]) (cs ++ tr) s'.
(** A client that keeps to the rule. *)
Definition apolite (orc : list hcall -> hcall -> Z) (U : list Z) (prog : list (hop * hres) -> list hcall -> hop) : Prop :=
  forall past tr s, areach orc past tr s -> fresh_node U s (prog past tr).
