(** * Model of src/array.c and include/bfdev/array.h (dynamic array) *)
From Verif Require Import Lib BitsModel.
(** a call can finish, stop the program (BFDEV_BUG_ON: log and abort, bug.h:16-20) or be undefined *)
Inductive res (A : Type) := Ok (a : A) | Abort | Undef.
Arguments Ok {A} a. Arguments Abort {A}. Arguments Undef {A}.
(** what array->data points to: nothing, an allocated block of [n] bytes with contents [m], or released memory *)
Inductive target := Null | Live (n : Z) (m : Z -> Z) | Dangling.
(** array.h:31-37 struct bfdev_array *)
Record arr := { capacity : Z; index : Z; cells : Z; data : target }.
(** array.h:55-59 *)
Definition arr_init (cells : Z) : arr := {| capacity := 0; index := 0; cells := cells; data := Null |}.
Definition set_index (a : arr) (i : Z) : arr := {| capacity := capacity a; index := i; cells := cells a; data := data a |}.
Definition set_data (a : arr) (d : target) : arr := {| capacity := capacity a; index := index a; cells := cells a; data := d |}.
(** array.c:12-22 [array_reqsize].  bfdev_max (minmax.h:29-33) gives both operands the type of the first, and
    BFDEV_ARRAY_MSIZE is an int: count is converted to int. *)
Definition to_int (x : Z) : Z := let y := w32 x in if y <? 2 ^ 31 then y else y - 2 ^ 32.
Definition reqsize (a : arr) (count : Z) : option Z :=
  let request := w64 (Z.max 32 (to_int count)) in pow2_roundup_dynamic (w64 (request * cells a)).
(** array.c:24-39 [array_resize].  [ans] is what the allocator answers: no memory, or a block whose bytes beyond those
    preserved are given; size 0 follows bfdev_realloc (allocator.c:76-97). *)
Definition do_resize (ans : option (Z -> Z)) (a : arr) (size : Z) : res (arr * Z) :=
  match data a with
  | Dangling => Undef
  | Null =>
    if size =? 0 then Ok (a, - ENOMEM) else
    match ans with
    | None => Ok (a, - ENOMEM)
    | Some g => if cells a =? 0 then Undef else Ok ({| capacity := size / cells a; index := index a; cells := cells a; data := Live size g |}, 0)
    end
  | Live n m =>
    if size =? 0 then Ok (set_data a Dangling, - ENOMEM) else
    match ans with
    | None => Ok (a, - ENOMEM)
    | Some g => if cells a =? 0 then Undef else
                Ok ({| capacity := size / cells a; index := index a; cells := cells a; data := Live size (fun k => if k <? Z.min n size then m k else g k) |}, 0)
    end
  end.
(** array.c:41-53 [array_apply] *)
Definition apply (ans : option (Z -> Z)) (a : arr) (count : Z) : res (arr * Z) :=
  if count <=? capacity a then Ok (a, 0) else
  match reqsize a count with
  | None => Undef
  | Some reqsize => if reqsize <? w64 (count * cells a) then Abort else do_resize ans a reqsize
  end.
(** array.h:108-112 [bfdev_array_offset]; a pointer is the offset from data, NULL is None (data NULL only with offset 0) *)
Definition offset (a : arr) (index : Z) : Z := w64 (cells a * index).
Definition pointer (a : arr) (off : Z) : option Z := match data a with Null => None | _ => Some off end.
(** array.c:55-72 [array_peek]: the new index as well *)
Definition do_peek (a : arr) (num : Z) : option (Z * option Z) :=
  if index a <? num then None else let index := index a - num in Some (index, pointer a (offset a index)).
(** array.c:74-95 [bfdev_array_push] *)
Definition push (ans : option (Z -> Z)) (a : arr) (num : Z) : res (arr * option Z) :=
  let count := index a + num in
  if 2 ^ 64 <=? count then Ok (a, None) else
  match apply ans a count with
  | Ok (a, retval) =>
    if retval =? 0 then let i := index a in let a := set_index a count in Ok (a, pointer a (offset a i)) else Ok (a, None)
  | Abort => Abort
  | Undef => Undef
  end.
(** array.c:97-101 [bfdev_array_pop] *)
Definition pop (a : arr) (num : Z) : arr * option Z := match do_peek a num with None => (a, None) | Some (i, p) => (set_index a i, p) end.
(** array.c:103-107 [bfdev_array_peek] *)
Definition peek (a : arr) (num : Z) : option Z := match do_peek a num with None => None | Some (_, p) => p end.
(** array.h:122-129 [bfdev_array_data] *)
Definition data_at (a : arr) (i : Z) : option Z := if index a <=? i then None else pointer a (offset a i).
(** array.c:109-121 [bfdev_array_resize] *)
Definition resize (ans : option (Z -> Z)) (a : arr) (num : Z) : res (arr * Z) :=
  match apply ans a num with
  | Ok (a, retval) => if retval =? 0 then Ok (set_index a num, 0) else Ok (a, retval)
  | Abort => Abort
  | Undef => Undef
  end.
(** array.c:123-134 [bfdev_array_reserve] *)
Definition reserve (ans : option (Z -> Z)) (a : arr) (num : Z) : res (arr * Z) :=
  let count := index a + num in
  if 2 ^ 64 <=? count then Ok (a, - EOVERFLOW) else apply ans a count.
(** array.h:68-72 [bfdev_array_reset] *)
Definition reset (a : arr) : arr := set_index a 0.
(** array.c:136-147 [bfdev_array_release]; releasing released memory is undefined *)
Definition release (a : arr) : res arr :=
  match data a with Dangling => Undef | _ => Ok {| capacity := 0; index := 0; cells := cells a; data := Null |} end.
