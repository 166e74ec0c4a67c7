(** * Specification: data that passes from thread to thread by atomic operations
    A log is explained ([explains], AtomicSpec) when its calls, one after the other, give the replies they gave. *)
From Verif Require Import Lib AtomicModel AtomicSpec.
Definition log := list (nat * aop * ret).
(** the word a call concerns *)
Definition opw (op : aop) : Z :=
  match op with
  | ARead w | AWrite w _ | ARmw _ _ w _ | ACas w _ _ | ATry w _ _ | AXchg w _ => w
  | BClr b | BSet b | BFlip b | BChange b _ | BTest b | BTestClr b | BTestSet b | BTestFlip b | BTestChange b _ => b / 64
  end.
(** calls that certainly went through a barrier *)
Definition fence (op : aop) (r : ret) : Prop :=
  match op, r with
  | ARead _, _ | AWrite _ _, _ | BTest _, _ => False
  | BTestSet _, RBool v => v = false
  | BTestClr _, RBool v => v = true
  | _, _ => True
  end.
Definition is_store (op : aop) : Prop := match op with AWrite _ _ => True | _ => False end.
(** ** Ownership.  [own l w]: who may touch word [w] after the calls [l]; [sync w]: the word is used to synchronise and touched by anyone,
    but not with plain stores.  Ownership may begin at any time for a word nobody owns, and end at a barrier of its owner. *)
Definition ownership := log -> Z -> option nat.
Definition handover (own : ownership) (l : log) (t : nat) (op : aop) (r : ret) : Prop :=
  forall w, own (l ++ [(t, op, r)]) w = own l w \/ own l w = None \/ (own l w = Some t /\ fence op r).
Definition respects (sync : Z -> bool) (own : ownership) (c : client) (f0 : Z -> Z) : Prop :=
  forall l f t op, issued c l -> explains f0 l f -> c t (proj t l) = Some op ->
    (if sync (opw op) then ~ is_store op else own l (opw op) = Some t) /\ handover own l t op (snd (atspec op f)).

(** ** Words behind locks: the lock of [w] is bit [guard w] of a lock word *)
Definition disciplined (sync : Z -> bool) (guard : Z -> Z) (c : client) : Prop :=
  (forall w, sync w = false -> polite (guard w) c) /\
  (forall t h op, c t h = Some op -> if sync (opw op) then ~ is_store op else holds (guard (opw op)) h = true).
(** the same with a lock that is given back by a plain store of 0 to its word *)
Fixpoint plain_holds_from (b : Z) (h : list (aop * ret)) (held : bool) : bool :=
  match h with
  | [] => held
  | (BTestSet b', RBool false) :: h => plain_holds_from b h (if b' =? b then true else held)
  | (AWrite w _, _) :: h => plain_holds_from b h (if w =? b / 64 then false else held)
  | _ :: h => plain_holds_from b h held
  end.
Definition plain_holds (b : Z) (h : list (aop * ret)) : bool := plain_holds_from b h false.
Definition plain_disciplined (b : Z) (c : client) : Prop := forall t h op, c t h = Some op ->
  op = BTestSet b \/ (plain_holds b h = true /\ (op = AWrite (b / 64) 0 \/ opw op <> b / 64)).

(** ** A counter of references: word [rc].  Every thread starts with [start t] references; it may take more while it has some, and give back what it has. *)
Fixpoint refs (rc : Z) (h : list (aop * ret)) (n : Z) : Z :=
  match h with
  | [] => n
  | (ARmw KAdd _ w k, _) :: h => refs rc h (if w =? rc then n + k else n)
  | (ARmw KSub _ w k, _) :: h => refs rc h (if w =? rc then n - k else n)
  | _ :: h => refs rc h n
  end.
(** this thread was told that it gave back the last one (bfdev_refcnt_fetch_sub_test: old value = number given back) *)
Definition told_last (rc : Z) (h : list (aop * ret)) : bool :=
  existsb (fun x => match x with (ARmw KSub MOld w k, RVal old) => (w =? rc) && (old =? k) | _ => false end) h.
Definition counted (rc : Z) (writer : Z -> nat) (start : nat -> Z) (c : client) : Prop := forall t h op, c t h = Some op ->
  match op with
  | ARead w => w = rc \/ told_last rc h = true \/ (writer w = t /\ 0 < refs rc h (start t))
  | ARmw KAdd _ w k => (w = rc /\ told_last rc h = false /\ 0 < refs rc h (start t) /\ 0 < k) \/ (w <> rc /\ (told_last rc h = true \/ (writer w = t /\ 0 < refs rc h (start t))))
  | ARmw KSub md w k => (w = rc /\ md = MOld /\ 0 < k <= refs rc h (start t)) \/ (w <> rc /\ (told_last rc h = true \/ (writer w = t /\ 0 < refs rc h (start t))))
  | _ => opw op <> rc /\ (told_last rc h = true \/ (writer (opw op) = t /\ 0 < refs rc h (start t)))
  end.
Definition total_refs (rc : Z) (start : nat -> Z) (ts : list nat) (l : log) : Z :=
  fold_right Z.add 0 (map (fun t => refs rc (proj t l) (start t)) ts).
