(** * Specification of hash maps: a multiset of nodes with keys *)
From Verif Require Import Lib Ptr SlistModel HashmapModel.
From Coq Require Export Permutation.
(** The user's operations agree on what the key of a node is. *)
Record lawful (ops : hops) (key : Z -> Z) : Prop := {
  law_hash : forall n, hash_node ops n = hash_key ops (key n);
  law_equal : forall a b, equal ops a b = 0 <-> key a = key b;
  law_find : forall n k, find ops n k = 0 <-> key n = k }.
(** An allocator answers NULL or the address of memory in which there is nothing yet. *)
Definition allocator (al : mem -> Z -> Z) : Prop :=
  forall m size, al m size = NULL \/ forall q, in_array (al m size) (size / 8) q = true -> q <> NULL /\ m q LINK = None.
(** There was no memory for the next larger table (61 bits: the size in bytes overflows). *)
Definition refused (al : mem -> Z -> Z) (m : mem) (h : hmap) : Prop :=
  let bits := Z.max 4 (h_bits h + 1) in bits = 61 \/ al m (8 * 2 ^ bits) = NULL.
(** What one operation does to the nodes [s] held (their order does not matter). [full] says that there was no memory. *)
Inductive hstep (key : Z -> Z) (full : Prop) (s : list Z) : hop -> hres -> list Z -> Prop :=
| add_old n e : In e s -> key e = key n -> hstep key full s (HInsert n ADD) (RPair (- EEXIST) e) s
| set_old n st e s' : st = SET \/ st = UPDATE -> Permutation s (e :: s') -> key e = key n -> hstep key full s (HInsert n st) (RPair 0 e) (n :: s')
| update_none n : (forall e, In e s -> key e <> key n) -> hstep key full s (HInsert n UPDATE) (RPair (- ENOENT) NULL) s
| put_new n st : st = ADD \/ st = SET -> (forall e, In e s -> key e <> key n) -> hstep key full s (HInsert n st) (RPair 0 NULL) (n :: s)
| append_new n : hstep key full s (HInsert n APPEND) (RPair 0 NULL) (n :: s)
| put_full n st : st = ADD \/ st = SET -> (forall e, In e s -> key e <> key n) -> full -> hstep key full s (HInsert n st) (RPair (- ENOMEM) NULL) s
| append_full n : full -> hstep key full s (HInsert n APPEND) (RPair (- ENOMEM) NULL) s
| del_one k e s' : Permutation s (e :: s') -> key e = k -> hstep key full s (HDel k) (RPair 0 e) s'
| del_none k : (forall e, In e s -> key e <> k) -> hstep key full s (HDel k) (RPair (- ENOENT) NULL) s
| find_one k e : In e s -> key e = k -> hstep key full s (HFind k) (RNode e) s
| find_none k : (forall e, In e s -> key e <> k) -> hstep key full s (HFind k) (RNode NULL) s
| each_all l : Permutation s l -> hstep key full s HEach (RList l) s
| release_all : hstep key full s HRelease RUnit [].
(** Nodes [U] may be used; a node must not be inserted twice (ADD may meet itself). *)
Definition hallowed (U s : list Z) (o : hop) : Prop :=
  match o with HInsert n ADD => In n U | HInsert n _ => In n U /\ ~ In n s | _ => True end.
(** The states that a sequence of operations and results may lead to, from the empty map. *)
Inductive reach (key : Z -> Z) : list (hop * hres) -> list Z -> Prop :=
| reach_nil : reach key [] []
| reach_step h s o r s' : reach key h s -> hstep key True s o r s' -> reach key (h ++ [(o, r)]) s'.
(** A client that keeps to the rules. *)
Definition polite (key : Z -> Z) (U : list Z) (prog : list (hop * hres) -> hop) : Prop := forall h s, reach key h s -> hallowed U s (prog h).
(** Node structures exist before they are used. *)
Definition nodes_exist (m : mem) (U : list Z) : Prop := NoDup U /\ ~ In NULL U /\ forall n, In n U -> (exists x, m n LINK = Some x) /\ exists x, m n PPREV = Some x.
