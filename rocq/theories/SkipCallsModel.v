(** * Skip lists with a comparison function that may answer anything
    The functions of SkiplistModel that call the client, with all calls recorded (the newest first). The answer to a call may
    depend on all calls before it. *)
From Verif Require Import Lib Ptr ListModel SkiplistModel.

(** a call of cmp with the key of a node and the new key, or of find with the key of a node and the client's pdata *)
Inductive call := CCmp (key new : Z) | CFind (key pdata : Z).
Section Calls.
(** the allocator's answer, as in SkiplistModel *)
Variable al : mem -> Z -> Z.
(** the answer to a call after the calls in the list *)
Variable orc : list call -> call -> Z.
Variable fuel : nat.

(** skiplist.c:41-49, 84-92, list.h:474-476: one level; [ask] makes the call from the key of the node *)
Fixpoint scan_from_o (n : nat) (tr : list call) (m : mem) (ask : Z -> call) (count pos last walk : Z) (retval : option Z) : option (Z * Z * option Z * list call) :=
  if last =? pos then Some (last, walk, retval, tr) else
  match n with
  | O => None
  | S n =>
    let walk := pos - 8 - 16 * count in
    let* key := ld m walk KEY in
    let r := orc tr (ask key) in
    let tr := ask key :: tr in
    if r >=? 0 then Some (pos, walk, Some r, tr)
    else let* pos := ld m pos NEXT in scan_from_o n tr m ask count pos last walk (Some r)
  end.
Definition scan_o (tr : list call) (m : mem) (ask : Z -> call) (count pos last walk : Z) (retval : option Z) : option (Z * Z * option Z * list call) :=
  let* pos := ld m pos NEXT in scan_from_o fuel tr m ask count pos last walk retval.
(** skiplist.c:40-60, the loop of [skipnode_find]: (node, *plev) and the calls *)
Fixpoint find_down_o (n : nat) (tr : list call) (m : mem) (ask : Z -> call) (pos last walk : Z) (retval : option Z) : option (Z * Z * list call) :=
  match n with
  | O => Some (NULL, 0, tr)
  | S n =>
    let level := Z.of_nat n in
    let* (x, tr) := scan_o tr m ask level pos last walk retval in
    let (y, retval) := x in
    let (last, walk) := y in
    let* r := retval in
    if r =? 0 then Some (walk, level + 1, tr)
    else let* pos := ld m last PREV in find_down_o n tr m ask (pos - 16) (last - 16) walk retval
  end.
(** skiplist.c:25-61 [skipnode_find] *)
Definition skipnode_find_o (tr : list call) (m : mem) (h : skip) (ask : Z -> call) : option (Z * Z * list call) :=
  if s_curr h =? 0 then Some (NULL, 0, tr) else
  find_down_o (Z.to_nat (s_curr h)) tr m ask (hcell (s_head h) (s_curr h - 1)) (hcell (s_head h) (s_curr h - 1)) 0 None.
(** skiplist.c:83-97, the loop of [bfdev_skiplist_insert] *)
Fixpoint insert_down_o (n : nat) (tr : list call) (m : mem) (ask : Z -> call) (node level pos last walk : Z) (retval : option Z) : option (mem * list call) :=
  match n with
  | O => Some (m, tr)
  | S n =>
    let count := Z.of_nat n in
    let* (x, tr) := scan_o tr m ask count pos last walk retval in
    let (y, retval) := x in
    let (last, walk) := y in
    let* pos := ld m last PREV in
    let* m := (if count <? level then list_add m pos (cell node count) else Some m) in
    insert_down_o n tr m ask node level (pos - 16) (last - 16) walk retval
  end.
(** skiplist.c:63-101 [bfdev_skiplist_insert] *)
Definition skip_insert_o (tr : list call) (m : mem) (h : skip) (key : Z) (rand : nat -> Z) : option (mem * skip * Z * list call) :=
  let level := random_level (s_levels h) rand in
  let h := {| s_head := s_head h; s_curr := Z.max (s_curr h) level; s_levels := s_levels h |} in
  let node := al m (8 + 16 * level) in
  if node =? NULL then Some (m, h, - ENOMEM, tr) else
  let m := alloc_node m node level in
  let* m := st m node KEY key in
  let top := hcell (s_head h) (s_curr h - 1) in
  let* (m, tr) := insert_down_o (Z.to_nat (s_curr h)) tr m (fun k => CCmp k key) node level top top 0 None in
  Some (m, h, 0, tr).
(** skiplist.c:103-122 [bfdev_skiplist_delete] *)
Definition skip_delete_o (tr : list call) (m : mem) (h : skip) (pdata : Z) : option (mem * skip * list call) :=
  let* (x, tr) := skipnode_find_o tr m h (fun k => CFind k pdata) in
  let (node, level) := x in
  if node =? NULL then Some (m, h, tr) else
  let* (m, h) := del_down (Z.to_nat level) m h node in
  let* m := free_node m node in Some (m, h, tr).
(** skiplist.c:124-131 [bfdev_skiplist_find] *)
Definition skip_find_o (tr : list call) (m : mem) (h : skip) (pdata : Z) : option (Z * list call) :=
  let* (x, tr) := skipnode_find_o tr m h (fun k => CFind k pdata) in Some (fst x, tr).

(** What a client does, and what it sees (the calls of its functions included) *)
Inductive cop := OInsert (key : Z) (rand : nat -> Z) | OFind (pdata : Z) | ODel (pdata : Z) | OEach (level : Z) | OBack (level : Z) | OReset.
Definition apply_cop (tr : list call) (m : mem) (h : skip) (o : cop) : option (mem * skip * sres * list call) :=
  match o with
  | OInsert k r => let* (x, tr) := skip_insert_o tr m h k r in Some (fst x, RCode (snd x), tr)
  | OFind p => let* (n, tr) := skip_find_o tr m h p in Some (m, h, RNode n, tr)
  | ODel p => let* (x, tr) := skip_delete_o tr m h p in Some (x, RUnit, tr)
  | OEach i => let* l := skip_each fuel m h i in Some (m, h, RList l, tr)
  | OBack i => let* l := skip_each_reverse fuel m h i in Some (m, h, RList l, tr)
  | OReset => let* (x, log) := skip_reset fuel m h in Some (x, RList log, tr)
  end.
Fixpoint run_cops (n : nat) (prog : list (cop * sres) -> list call -> cop) (tr : list call) (m : mem) (h : skip) (past : list (cop * sres)) : option (mem * skip * list (cop * sres) * list call) :=
  match n with
  | O => Some (m, h, past, tr)
  | S n => let o := prog past tr in let* (x, tr) := apply_cop tr m h o in run_cops n prog tr (fst (fst x)) (snd (fst x)) (past ++ [(o, snd x)])
  end.
End Calls.
