(** * Specification for the dynamic array: a client that keeps a sequence *)
From Verif Require Import Lib ArrayModel.
(** an element is the sequence of its bytes by offset; None: the client has not stored anything there *)
Notation elem := (option (Z -> Z)).
(** the calls, each with what the allocator would answer *)
Inductive aop := Push (ans : option (Z -> Z)) (vs : list (Z -> Z)) | Pop (n : Z) | Resize (ans : option (Z -> Z)) (n : Z) | Reserve (ans : option (Z -> Z)) (n : Z) | Reset | Release.
(** storing the bytes [v] (of [c] bytes) at [p] in the block *)
Definition store (c : Z) (d : target) (p : Z) (v : Z -> Z) : target :=
  match d with Live n m => Live n (fun k => if (p <=? k) && (k <? p + c) then v (k - p) else m k) | d => d end.
Fixpoint store_all (c : Z) (d : target) (p : Z) (vs : list (Z -> Z)) : target :=
  match vs with [] => d | v :: vs => store_all c (store c d p v) (p + c) vs end.
(** one call: the array and the sequence the client believes in, which depends on the returned value only *)
Definition step (st : arr * list elem) (o : aop) : res (arr * list elem) :=
  let (a, l) := st in
  match o with
  | Push ans vs =>
    match push ans a (zlen vs) with
    | Ok (a, Some p) => Ok (set_data a (store_all (cells a) (data a) p vs), l ++ map Some vs)
    | Ok (a, None) => Ok (a, l)
    | Abort => Abort | Undef => Undef
    end
  | Pop n => let (a, p) := pop a n in Ok (a, if zlen l <? n then l else firstn (length l - Z.to_nat n) l)
  | Resize ans n =>
    match resize ans a n with
    | Ok (a, r) => Ok (a, if r =? 0 then firstn (Z.to_nat n) l ++ repeat None (Z.to_nat n - length l) else l)
    | Abort => Abort | Undef => Undef
    end
  | Reserve ans n => match reserve ans a n with Ok (a, _) => Ok (a, l) | Abort => Abort | Undef => Undef end
  | Reset => Ok (reset a, [])
  | Release => match release a with Ok a => Ok (a, []) | Abort => Abort | Undef => Undef end
  end.
Fixpoint run (st : arr * list elem) (os : list aop) : res (arr * list elem) :=
  match os with [] => Ok st | o :: os => match step st o with Ok st => run st os | Abort => Abort | Undef => Undef end end.
(** the array holds the sequence *)
Definition contains (a : arr) (l : list elem) : Prop :=
  index a = zlen l /\
  forall i v, nth_error l i = Some (Some v) -> exists n m, data a = Live n m /\ cells a * (Z.of_nat i + 1) <= n /\ forall k, 0 <= k < cells a -> m (cells a * Z.of_nat i + k) = v k.
(** the number of elements a call may need *)
Definition needs (len : Z) (o : aop) : Z :=
  match o with Push _ vs => len + zlen vs | Resize _ n => n | Reserve _ n => len + n | Pop n => 0 | _ => 0 end.
