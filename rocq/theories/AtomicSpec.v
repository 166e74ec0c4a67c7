(** * Specification of the atomic operations: each call takes effect at once *)
From Verif Require Import Lib AtomicModel.
(** memory as a function; bits by number inside a word *)
Definition upd (f : Z -> Z) (w v : Z) : Z -> Z := fun u => if u =? w then v else f u.
Definition arith (k : kind) (x v : Z) : Z :=
  match k with KAdd => (x + v) mod 2 ^ 64 | KSub => (x - v) mod 2 ^ 64 | KAnd => Z.land x v | KOr => Z.lor x v | KXor => Z.lxor x v end.
Definition bitv (f : Z -> Z) (b : Z) : bool := Z.testbit (f (b / 64)) (b mod 64).
Definition setb (f : Z -> Z) (b : Z) (v : bool) : Z -> Z :=
  upd f (b / 64) (if v then Z.setbit (f (b / 64)) (b mod 64) else Z.clearbit (f (b / 64)) (b mod 64)).
Definition atspec (op : aop) (f : Z -> Z) : (Z -> Z) * ret :=
  match op with
  | ARead w => (f, RVal (f w))
  | AWrite w v => (upd f w v, RVoid)
  | ARmw k md w v => (upd f w (arith k (f w) v), match md with MVoid => RVoid | MOld => RVal (f w) | MNew => RVal (arith k (f w) v) end)
  | ACas w old v => (if f w =? old then upd f w v else f, RVal (f w))
  | ATry w old v => (if f w =? old then upd f w v else f, RTry (f w =? old) (f w))
  | AXchg w v => (upd f w v, RVal (f w))
  | BClr b => (setb f b false, RVoid)
  | BSet b => (setb f b true, RVoid)
  | BFlip b => (setb f b (negb (bitv f b)), RVoid)
  | BChange b v => (setb f b v, RVoid)
  | BTest b => (f, RBool (bitv f b))
  | BTestClr b => (setb f b false, RBool (bitv f b))
  | BTestSet b => (setb f b true, RBool (bitv f b))
  | BTestFlip b => (setb f b (negb (bitv f b)), RBool (bitv f b))
  | BTestChange b v => (setb f b v, RBool (bitv f b))
  end.
(** the calls, one after the other, report what the log says and lead from one memory to the other *)
Inductive explains : (Z -> Z) -> list (nat * aop * ret) -> (Z -> Z) -> Prop :=
| ex_nil f : explains f [] f
| ex_cons f t op r l f' f'' : atspec op f = (f', r) -> explains f' l f'' -> explains f ((t, op, r) :: l) f''.
(** the calls of one thread *)
Fixpoint proj (t : nat) (l : list (nat * aop * ret)) : list (aop * ret) :=
  match l with
  | [] => []
  | (u, op, r) :: l => if Nat.eqb u t then (op, r) :: proj t l else proj t l
  end.
(** operands inside a memory of [n] words *)
Definition u64v (v : Z) : Prop := 0 <= v < 2 ^ 64.
Definition op_ok (n : Z) (op : aop) : Prop :=
  match op with
  | ARead w => 0 <= w < n
  | AWrite w v | ARmw _ _ w v | AXchg w v => 0 <= w < n /\ u64v v
  | ACas w old v | ATry w old v => 0 <= w < n /\ u64v old /\ u64v v
  | BClr b | BSet b | BFlip b | BChange b _ | BTest b | BTestClr b | BTestSet b | BTestFlip b | BTestChange b _ => 0 <= b < 64 * n
  end.
Definition client_ok (n : Z) (c : client) : Prop := forall t h op, c t h = Some op -> op_ok n op.
Definition agrees (m : list Z) (f : Z -> Z) : Prop := forall w, 0 <= w < zlen m -> rd m w = Some (f w).
(** every call in the log was the one its thread wanted to make *)
Inductive issued (c : client) : list (nat * aop * ret) -> Prop :=
| is_nil : issued c []
| is_snoc l t op r : issued c l -> c t (proj t l) = Some op -> issued c (l ++ [(t, op, r)]).

(** ** A lock made of one bit: test_set takes it when it reports false, clr or test_clr gives it back *)
Fixpoint holds_from (b : Z) (h : list (aop * ret)) (held : bool) : bool :=
  match h with
  | [] => held
  | (BTestSet b', RBool false) :: h => holds_from b h (if b' =? b then true else held)
  | (BClr b', _) :: h | (BTestClr b', _) :: h => holds_from b h (if b' =? b then false else held)
  | _ :: h => holds_from b h held
  end.
Definition holds (b : Z) (h : list (aop * ret)) : bool := holds_from b h false.
(** a thread that only tests and takes the lock, and gives it back only while it holds it; everything else is free, also the other
    bits of the same word *)
Definition lock_op (b : Z) (held : bool) (op : aop) : Prop :=
  match op with
  | ARead _ => True
  | AWrite w _ | ARmw _ _ w _ | AXchg w _ | ACas w _ _ | ATry w _ _ => w <> b / 64
  | BTest _ | BTestSet _ => True
  | BClr b' | BTestClr b' => b' = b -> held = true
  | BSet b' | BFlip b' | BChange b' _ | BTestFlip b' | BTestChange b' _ => b' <> b
  end.
Definition polite (b : Z) (c : client) : Prop := forall t h op, c t h = Some op -> lock_op b (holds b h) op.

(** ** Counters *)
(** the calls that may change word [w] are additions and subtractions; the sum of what they add *)
Definition count_op (w : Z) (op : aop) : Prop :=
  match op with
  | ARead _ | BTest _ => True
  | ARmw (KAdd | KSub) _ _ _ => True
  | ARmw _ _ w' _ | AWrite w' _ | AXchg w' _ | ACas w' _ _ | ATry w' _ _ => w' <> w
  | BClr b | BSet b | BFlip b | BChange b _ | BTestClr b | BTestSet b | BTestFlip b | BTestChange b _ => b / 64 <> w
  end.
Fixpoint total (w : Z) (l : list (nat * aop * ret)) : Z :=
  match l with
  | [] => 0
  | (_, ARmw KAdd _ w' v, _) :: l => (if w' =? w then v else 0) + total w l
  | (_, ARmw KSub _ w' v, _) :: l => total w l - (if w' =? w then v else 0)
  | _ :: l => total w l
  end.
(** what the calls on word [w] reported, in order *)
Fixpoint reports (w : Z) (l : list (nat * aop * ret)) : list Z :=
  match l with
  | [] => []
  | (_, ARmw _ _ w' _, RVal x) :: l | (_, AXchg w' _, RVal x) :: l => if w' =? w then x :: reports w l else reports w l
  | _ :: l => reports w l
  end.
(** what was given to exchanges on word [w] *)
Fixpoint given (w : Z) (l : list (nat * aop * ret)) : list Z :=
  match l with
  | [] => []
  | (_, AXchg w' v, _) :: l => if w' =? w then v :: given w l else given w l
  | _ :: l => given w l
  end.
Definition ticket_op (w : Z) (op : aop) : Prop :=
  match op with
  | ARmw KAdd MOld w' v => w' = w -> v = 1
  | ARmw _ _ w' _ | AXchg w' _ => w' <> w
  | _ => count_op w op
  end.
Definition xchg_op (w : Z) (op : aop) : Prop :=
  match op with
  | AXchg _ _ => True
  | ARmw _ _ w' _ => w' <> w
  | _ => count_op w op
  end.
