(** * Specification: calls one after the other, except that plain loads of words used to synchronise may report an earlier value *)
From Verif Require Import Lib AtomicModel AtomicSpec FenceSpec.
(** replies that can come from a plain load alone *)
Definition peeks (op : aop) (r : ret) : Prop :=
  match op, r with
  | ARead _, _ | BTest _, _ => True
  | BTestSet _, RBool v => v = true
  | BTestClr _, RBool v => v = false
  | _, _ => False
  end.
(** [lex l f P]: after the calls [l] memory is [f]; [P t g]: memory was [g] at some time since the last barrier of [t].  Every call reports what it does to memory as it is, but a
    plain load of a word used to synchronise may report what it would have reported to memory as it was at some time since the last barrier of its thread. *)
Inductive lex (sync : Z -> bool) (f0 : Z -> Z) : log -> (Z -> Z) -> (nat -> (Z -> Z) -> Prop) -> Prop :=
| lex_nil : lex sync f0 [] f0 (fun _ g => g = f0)
| lex_now l f P t op : lex sync f0 l f P ->
    lex sync f0 (l ++ [(t, op, snd (atspec op f))]) (fst (atspec op f)) (fun u g => g = fst (atspec op f) \/ (P u g /\ (u = t -> ~ fence op (snd (atspec op f)))))
| lex_early l f P t op g : lex sync f0 l f P -> sync (opw op) = true -> P t g -> peeks op (snd (atspec op g)) ->
    lex sync f0 (l ++ [(t, op, snd (atspec op g))]) f P.
(** what a call may report next *)
Definition may_report (sync : Z -> bool) (f : Z -> Z) (P : nat -> (Z -> Z) -> Prop) (t : nat) (op : aop) (r : ret) : Prop :=
  r = snd (atspec op f) \/ (sync (opw op) = true /\ peeks op r /\ exists g, P t g /\ r = snd (atspec op g)).
(** ownership also begins at a barrier *)
Definition strict_handover (own : ownership) (l : log) (t : nat) (op : aop) (r : ret) : Prop :=
  forall w, own (l ++ [(t, op, r)]) w = own l w \/
    (fence op r /\ ((own l w = None /\ own (l ++ [(t, op, r)]) w = Some t) \/ (own l w = Some t /\ own (l ++ [(t, op, r)]) w = None))).
Definition respects_early (sync : Z -> bool) (own : ownership) (c : client) (f0 : Z -> Z) : Prop :=
  forall l f P t op, issued c l -> lex sync f0 l f P -> c t (proj t l) = Some op ->
    (if sync (opw op) then ~ is_store op else own l (opw op) = Some t) /\ forall r, may_report sync f P t op r -> strict_handover own l t op r.
