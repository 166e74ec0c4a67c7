(** * Model of the registries of algorithms, src/textsearch/textsearch.c and src/cache/cache.c
    The two are the same code with other names. An algorithm is the address of its object, whose first member is the link
    of the registry's list; [name a] is its name ([None] for a null pointer) and [complete a] says that none of the
    callbacks that are tested is null; both do not change while it is registered. *)
From Verif Require Import Lib Ptr ListModel.

Section Registry.
Variable name : Z -> option (list Z).
Variable complete : Z -> bool.
Fixpoint same (a b : list Z) : bool :=
  match a, b with [], [] => true | x :: a, y :: b => (x =? y) && same a b | _, _ => false end.
(** textsearch.c:18-21, cache.c:20-23: the loop, [pos] is the current element; a null name is dereferenced by strcmp *)
Fixpoint find_walk (fuel : nat) (m : mem) (head pos : Z) (key : list Z) : option (option Z) :=
  if pos =? head then Some None else
  match fuel with
  | O => None
  | S fuel =>
    let* n := name pos in
    if same n key then Some (Some pos) else
    let* next := ld m pos NEXT in find_walk fuel m head next key
  end.
(** textsearch.c:13-24 [textsearch_algorithm_find], cache.c:15-26 [cache_algorithm_find] *)
Definition algorithm_find (fuel : nat) (m : mem) (head : Z) (key : list Z) : option (option Z) :=
  let* first := ld m head NEXT in find_walk fuel m head first key.
(** textsearch.c:31-34, cache.c:33-36 *)
Fixpoint exist_walk (fuel : nat) (m : mem) (head pos algo : Z) : option bool :=
  if pos =? head then Some false else
  match fuel with
  | O => None
  | S fuel =>
    if pos =? algo then Some true else
    let* next := ld m pos NEXT in exist_walk fuel m head next algo
  end.
(** textsearch.c:26-37 [textsearch_algorithm_exist], cache.c:28-39 [cache_algorithm_exist] *)
Definition algorithm_exist (fuel : nat) (m : mem) (head algo : Z) : option bool :=
  let* first := ld m head NEXT in exist_walk fuel m head first algo.
(** textsearch.c:58-72 [bfdev_textsearch_register], cache.c:369-383 [bfdev_cache_register] *)
Definition register (fuel : nat) (m : mem) (head algo : Z) : option (mem * Z) :=
  match name algo with
  | None => Some (m, - EINVAL)
  | Some n =>
    if negb (complete algo) then Some (m, - EINVAL) else
    let* found := algorithm_find fuel m head n in
    match found with
    | Some _ => Some (m, - EALREADY)
    | None => let* m := list_add m head algo in Some (m, - ENOERR)
    end
  end.
(** textsearch.c:74-83 [bfdev_textsearch_unregister], cache.c:385-394 [bfdev_cache_unregister] *)
Definition unregister (fuel : nat) (m : mem) (head algo : Z) : option (mem * Z) :=
  let* there := algorithm_exist fuel m head algo in
  if there then let* m := list_del m algo in Some (m, - ENOERR) else Some (m, - ENOENT).
(** textsearch.c:39-56 [bfdev_textsearch_create], cache.c:303-325: which algorithm's [prepare] or [create] is called *)
Definition choose := algorithm_find.

(** ** Histories *)
Inductive rop := Register (a : Z) | Unregister (a : Z) | Choose (key : list Z).
Inductive rres := Code (c : Z) | Chosen (a : option Z).
Definition exec (fuel : nat) (m : mem) (head : Z) (o : rop) : option (mem * rres) :=
  match o with
  | Register a => let* (m, c) := register fuel m head a in Some (m, Code c)
  | Unregister a => let* (m, c) := unregister fuel m head a in Some (m, Code c)
  | Choose key => let* r := choose fuel m head key in Some (m, Chosen r)
  end.
Fixpoint run (fuel : nat) (m : mem) (head : Z) (l : list rop) : option (mem * list rres) :=
  match l with
  | [] => Some (m, [])
  | o :: l => let* (m, r) := exec fuel m head o in let* (m, rs) := run fuel m head l in Some (m, r :: rs)
  end.
End Registry.
