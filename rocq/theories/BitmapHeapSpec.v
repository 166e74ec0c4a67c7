(** * Specification: a client owns bitmaps, each a number of bits with a value *)
From Verif Require Import Lib BitmapHeapModel.

(** Pointer, number of bits, values of the bits. *)
Definition bitmap := (Z * (Z * (Z -> bool)))%type.
Fixpoint lookup (p : Z) (st : list bitmap) : option (Z * (Z -> bool)) :=
  match st with
  | [] => None
  | (q, x) :: st => if q =? p then Some x else lookup p st
  end.
Definition without (p : Z) (st : list bitmap) : list bitmap := filter (fun x => negb (fst x =? p)) st.
Definition with_bit (p i : Z) (v : bool) (st : list bitmap) : list bitmap :=
  map (fun x : bitmap => if fst x =? p then (p, (fst (snd x), fun k => if k =? i then v else snd (snd x) k)) else x) st.

(** What the client must respect: it names its own bitmaps, and bits inside them. *)
Definition owns (st : list bitmap) (p i : Z) : bool :=
  match lookup p st with Some (bits, _) => (0 <=? i) && (i <? bits) | None => false end.
Definition allowed (st : list bitmap) (op : bop) : bool :=
  match op with
  | New _ bits => (0 <=? bits) && (bits <? 2 ^ 32)
  | Free p => (p =? 0) || (match lookup p st with Some _ => true | None => false end)
  | Set_ p i | Clr p i | Flip p i | Test p i => owns st p i
  end.

(** The largest bitmap the library can create, 64 bits below 2^32. *)
Definition largest : Z := 2 ^ 32 - 64.

(** What each call returns and does; [sure] says that the allocator never fails. *)
Definition meets (sure : Prop) (st : list bitmap) (op : bop) (r : bres) (st' : list bitmap) : Prop :=
  match op with
  | New z bits =>
      (r = Ptr 0 /\ st' = st /\ (sure -> bits = 0 \/ largest < bits)) \/
      (exists p f, r = Ptr p /\ 0 < p /\ lookup p st = None /\ 0 < bits <= largest /\
        st' = (p, (bits, f)) :: st /\ (z = true -> forall i, 0 <= i < bits -> f i = false))
  | Free p => r = Done /\ st' = (if p =? 0 then st else without p st)
  | Set_ p i => r = Done /\ st' = with_bit p i true st
  | Clr p i => r = Done /\ st' = with_bit p i false st
  | Flip p i => exists bits f, lookup p st = Some (bits, f) /\ r = Done /\ st' = with_bit p i (negb (f i)) st
  | Test p i => exists bits f, lookup p st = Some (bits, f) /\ r = Bit (f i) /\ st' = st
  end.

(** A history of calls, each allowed when it is made. *)
Inductive history (sure : Prop) : list bitmap -> list bop -> list bres -> list bitmap -> Prop :=
| history_nil st : history sure st [] [] st
| history_cons st op r st1 ops rs st2 : allowed st op = true -> meets sure st op r st1 ->
    history sure st1 ops rs st2 -> history sure st (op :: ops) (r :: rs) st2.

(** The memory a bitmap occupies. *)
Definition blk (x : bitmap) : Z * Z := (fst x, 8 * ((fst (snd x) + 63) / 64)).
