(** * Model of src/respool.c and include/bfdev/respool.h (resource pool)
    A node starts with its list head (respool.h:34-37), so a node and its list head have one address; the pool is its
    list head (respool.h:30-32). The release function of a node is the client's; [free n] says whether it gives the
    memory of the node back. Its calls are recorded by the node in the log. *)
From Verif Require Import Lib Ptr ListModel.
Section Pool.
Variable free : Z -> bool.
Definition release (m : mem) (n : Z) : mem := if free n then fun q g => if q =? n then None else m q g else m.
(** respool.h:48-58 *)
Definition pool_init (m : mem) (pool : Z) : option mem := list_head_init m pool.
Definition pool_check_empty (m : mem) (pool : Z) : option bool := list_check_empty m pool.
(** respool.h:60-65 [bfdev_respool_insert] *)
Definition pool_insert (m : mem) (pool n : Z) : option mem := list_add m pool n.
(** respool.h:67-72 [bfdev_respool_remove] *)
Definition pool_remove (m : mem) (pool n : Z) : option mem := list_del m n.
(** respool.c:10-22 [bfdev_respool_find]; the client's function answers 0 for a match *)
Fixpoint find_from (fuel : nat) (m : mem) (find : Z -> Z) (pool walk : Z) : option Z :=
  if pool =? walk then Some NULL else
  match fuel with
  | O => None
  | S fuel => if find walk =? 0 then Some walk else let* next := ld m walk NEXT in find_from fuel m find pool next
  end.
Definition pool_find (fuel : nat) (m : mem) (find : Z -> Z) (pool : Z) : option Z := let* walk := ld m pool NEXT in find_from fuel m find pool walk.
(** respool.c:24-30 [bfdev_respool_release] *)
Definition pool_release (m : mem) (pool n : Z) : option (mem * list Z) := let* m := list_del m n in Some (release m n, [n]).
(** respool.c:32-43 [bfdev_respool_find_remove] *)
Definition pool_find_remove (fuel : nat) (m : mem) (find : Z -> Z) (pool : Z) : option (mem * Z) :=
  let* n := pool_find fuel m find pool in
  if negb (n =? NULL) then let* m := list_del m n in Some (m, n) else Some (m, n).
(** respool.c:45-58 [bfdev_respool_find_release] *)
Definition pool_find_release (fuel : nat) (m : mem) (find : Z -> Z) (pool : Z) : option (mem * Z * list Z) :=
  let* n := pool_find fuel m find pool in
  if negb (n =? NULL) then let* m := list_del m n in Some (release m n, n, [n]) else Some (m, n, []).
(** respool.c:60-67 [bfdev_respool_release_all] with the loop of list.h:493-496 *)
Fixpoint release_from (fuel : nat) (m : mem) (pool node tmp : Z) : option (mem * list Z) :=
  if node =? pool then Some (m, []) else
  match fuel with
  | O => None
  | S fuel =>
    let m := release m node in
    let* tmp' := ld m tmp NEXT in
    let* (m, log) := release_from fuel m pool tmp tmp' in Some (m, node :: log)
  end.
Definition pool_release_all (fuel : nat) (m : mem) (pool : Z) : option (mem * list Z) :=
  let* node := ld m pool NEXT in
  let* tmp := ld m node NEXT in
  release_from fuel m pool node tmp.
End Pool.
