(** * Model of src/llist.c and include/bfdev/llist.h on the machine with store buffers of FenceModel.v
    The code of the lock-free list as the sequence of accesses it makes, each one a call of AtomicModel: READ_ONCE and plain loads are [ARead], plain
    stores are [AWrite] and go through the store buffer of their thread, bfdev_try_cmpxchg is [ATry], bfdev_xchg is [AXchg].
    Memory is an array of words; a node is named by the number of its link word, NULL is 0.  [ehome] says to which node a word belongs. *)
From Verif Require Import Lib AtomicModel.
From Verif Require LlistModel.

(** what a client does between the calls, and the calls *)
Inductive hop :=
| HLoad (w : Z)            (* the client loads a word of a node it holds *)
| HStore (w v : Z)         (* the client stores to a word of a node it holds *)
| HAdd (b : list Z)        (* the client links the nodes of [b] one to the next and calls bfdev_llist_split, llist.c:10-25; llist_add (llist.h:42-46) is a batch of one *)
| HDestroy                 (* the client calls bfdev_llist_destroy (llist.h:52-56) and follows the links of what it got *)
| HDel.                    (* bfdev_llist_del, llist.c:27-43 *)
Inductive hres := LVal (v : Z) | LStored | LAdded (was_empty : bool) | LGot (l : list Z) | LDel (x : Z).
Record env := {
  ehead : Z;                                       (* the word head->next *)
  ehome : Z -> Z;                                  (* the node of a word *)
  emine : nat -> list Z;                           (* the nodes a thread starts with *)
  econs : option nat;                              (* [Some k]: only [k] takes nodes out, with destroy and del; [None]: anyone may, with destroy *)
  eprog : nat -> list hres -> option hop           (* what a thread does next, from the replies it got *)
}.
(** where a thread is: before which access *)
Inductive task :=
| TFree
| TLoad (w : Z) | TStore (w v : Z)
| TLink (b rest : list Z)        (* the client links the batch: [rest] begins with the node whose link is stored next *)
| TRead (b : list Z)             (* llist.c:16 entry = READ_ONCE(head->next) *)
| TWrite (b : list Z) (e : Z)    (* llist.c:18 end->next = entry *)
| TCas (b : list Z) (e : Z)      (* llist.c:19-22 *)
| TXchg                          (* llist.h:55 *)
| TWalk (p : Z) (acc : list Z)   (* the client reads p->next *)
| TDel                           (* llist.c:32 *)
| TNext (e : Z)                  (* llist.c:36, entry is not NULL *)
| TTake (e n : Z).               (* llist.c:37-40 *)
Record local := { ltask : task; lheld : list Z; lres : list hres }.
Definition link (b rest : list Z) : task := match rest with _ :: _ :: _ => TLink b rest | _ => TRead b end.
Definition may_take (E : env) (t : nat) : bool := match econs E with None => true | Some k => Nat.eqb k t end.
Definition may_del (E : env) (t : nat) : bool := match econs E with None => false | Some k => Nat.eqb k t end.
(** the task a thread goes on with; a client that asks for what it may not do does nothing *)
Definition begin (E : env) (t : nat) (s : local) : task :=
  match ltask s with
  | TFree =>
    match eprog E t (lres s) with
    | None => TFree
    | Some (HLoad w) => if LlistModel.mem_z (ehome E w) (lheld s) then TLoad w else TFree
    | Some (HStore w v) => if LlistModel.mem_z (ehome E w) (lheld s) && (0 <=? v) && (v <? 2 ^ 64) then TStore w v else TFree
    | Some (HAdd b) =>
      match b with
      | [] => TFree
      | _ => if forallb (fun x => LlistModel.mem_z x (lheld s)) b && LlistModel.distinct b then link b b else TFree
      end
    | Some HDestroy => if may_take E t then TXchg else TFree
    | Some HDel => if may_del E t then TDel else TFree
    end
  | k => k
  end.
(** the access of a task *)
Definition access (E : env) (k : task) : option aop :=
  match k with
  | TFree => None
  | TLoad w => Some (ARead w)
  | TStore w v => Some (AWrite w v)
  | TLink b (x :: y :: _) => Some (AWrite x y)
  | TLink b _ => None
  | TRead b => Some (ARead (ehead E))
  | TWrite b e => Some (AWrite (last b 0) e)
  | TCas b e => Some (ATry (ehead E) e (hd 0 b))
  | TXchg => Some (AXchg (ehead E) 0)
  | TWalk p _ => Some (ARead p)
  | TDel => Some (ARead (ehead E))
  | TNext e => Some (ARead e)
  | TTake e n => Some (ATry (ehead E) e n)
  end.
Definition goto (s : local) (k : task) : local := {| ltask := k; lheld := lheld s; lres := lres s |}.
Definition done (s : local) (held : list Z) (r : hres) : local := {| ltask := TFree; lheld := held; lres := lres s ++ [r] |}.
(** the client at p: the end of the list, or read p->next *)
Definition walk (t : nat) (s : local) (p : Z) (acc : list Z) : local * list LlistModel.ev :=
  if p =? 0 then (done s (lheld s ++ acc) (LGot acc), [LlistModel.EWalk t acc]) else (goto s (TWalk p acc), []).
(** llist.c:34-36 the top of the loop of del *)
Definition del_top (t : nat) (s : local) (e : Z) : local * list LlistModel.ev :=
  if e =? 0 then (done s (lheld s) (LDel 0), [LlistModel.EPopNone t]) else (goto s (TNext e), []).
(** what a thread makes of the reply to the access of task [k], and what it has done with it *)
Definition after (E : env) (t : nat) (s : local) (k : task) (r : ret) : local * list LlistModel.ev :=
  match k, r with
  | TLoad w, RVal v => (done s (lheld s) (LVal v), [])
  | TStore w v, _ => (done s (lheld s) LStored, [])
  | TLink b (x :: rest), _ => (goto s (link b rest), [])
  | TRead b, RVal e => (goto s (TWrite b e), [])
  | TWrite b e, _ => (goto s (TCas b e), [])
  | TCas b e, RTry true _ => (done s (LlistModel.minus (lheld s) b) (LAdded (e =? 0)), [LlistModel.EAdd t b (e =? 0)])
  | TCas b e, RTry false v => (goto s (TWrite b v), [])
  | TXchg, RVal p => let '(s, l) := walk t s p [] in (s, LlistModel.ETake t p :: l)
  | TWalk p acc, RVal v => walk t s v (acc ++ [p])
  | TDel, RVal e => del_top t s e
  | TNext e, RVal n => (goto s (TTake e n), [])
  | TTake e n, RTry true _ => (done s (lheld s ++ [e]) (LDel e), [LlistModel.EPop t e])
  | TTake e n, RTry false v => del_top t s v
  | _, _ => (s, [])
  end.
Definition lstep (E : env) (t : nat) (s : local) (x : aop * ret) : local := fst (after E t s (begin E t s) (snd x)).
Definition linit (E : env) (t : nat) : local := {| ltask := TFree; lheld := emine E t; lres := [] |}.
Definition local_of (E : env) (t : nat) (h : list (aop * ret)) : local := fold_left (lstep E t) h (linit E t).
(** the threads as clients of the machine *)
Definition list_client (E : env) : client := fun t h => access E (begin E t (local_of E t h)).
(** what happened, in the order of the log *)
Definition estep (E : env) (a : (nat -> local) * list LlistModel.ev) (x : nat * aop * ret) : (nat -> local) * list LlistModel.ev :=
  let '(t, op, r) := x in let '(s, l) := after E t (fst a t) (begin E t (fst a t)) r in (tset (fst a) t s, snd a ++ l).
Definition events (E : env) (l : list (nat * aop * ret)) : list LlistModel.ev := snd (fold_left (estep E) l (linit E, [])).
