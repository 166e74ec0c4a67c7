(** * The swaps of include/bfdev/swab.h applied to memory, on either processor

    [big] is the byte order of the processor.  Memory is a list of bytes, and an object of
    [w] bits at address [p] is read and written as ByteorderModel does it.  Simplification:
    alignment is not checked, the objects may lie anywhere. *)
From Verif Require Import Lib BitsModel ByteorderModel.

(** The eight operations of swab.h, each with a value, a pointer and an in-place form. *)
Inductive swap_op := Swab16 | Swab32 | Swab64 | Swahb32 | Swahw32 | Swahb64 | Swahw64 | Swahl64.

(** The types of the arguments (swab.h:265, 279, 293, 321, 335, 349, 363, 377). *)
Definition op_width (op : swap_op) : Z :=
  match op with
  | Swab16 => 16
  | Swab32 | Swahb32 | Swahw32 => 32
  | Swab64 | Swahb64 | Swahw64 | Swahl64 => 64
  end.

(** swab.h:158-194 and 214-258, the value forms. *)
Definition op_value (op : swap_op) (v : Z) : Z :=
  match op with
  | Swab16 => swab16 v | Swab32 => swab32 v | Swab64 => swab64 v
  | Swahb32 => swahb32 v | Swahw32 => swahw32 v
  | Swahb64 => swahb64 v | Swahw64 => swahw64 v | Swahl64 => swahl64 v
  end.

(** swab.h:264-384 [bfdev_swab16p], [bfdev_swab32p], [bfdev_swab64p], [bfdev_swahb32p],
    [bfdev_swahw32p], [bfdev_swahb64p], [bfdev_swahw64p], [bfdev_swahl64p]: the swapped value
    of [*p].  [bfdev_swabp] (306-314) is one of them by the width of a long.  No header of the
    repository defines the [bfdev_arch_*p] hooks. *)
Definition swap_p (big : bool) (op : swap_op) (m : list Z) (p : Z) : option Z :=
  let* v := get_type big (op_width op) m p in Some (op_value op v).

(** The in-place hook an architecture header may define. *)
Definition hook := list Z -> Z -> option (list Z).

(** swab.h:390-510 [bfdev_swab16s], [bfdev_swab32s], [bfdev_swab64s], [bfdev_swahb32s],
    [bfdev_swahw32s], [bfdev_swahb64s], [bfdev_swahw64s], [bfdev_swahl64s]: [*p = ...p(p)].
    [arch] is the macro [bfdev_arch_swahw64s] if it is defined.  Lines 491 and 505 both test
    and call this one, the latter in [bfdev_swahl64s].  The other hooks are left out.
    [bfdev_swabs] (432-440) is [bfdev_swab32s] or [bfdev_swab64s] by the width of a long. *)
Definition swap_s (arch : option hook) (big : bool) (op : swap_op) (m : list Z) (p : Z) : option (list Z) :=
  let generic := let* v := swap_p big op m p in set_type big (op_width op) m p v in
  match op, arch with
  | Swahw64, Some h => h m p
  | Swahl64, Some h => h m p
  | _, _ => generic
  end.

(** A caller that applies several operations to the same object, one after the other. *)
Fixpoint swap_all (arch : option hook) (big : bool) (ops : list swap_op) (m : list Z) (p : Z) : option (list Z) :=
  match ops with
  | [] => Some m
  | op :: ops => let* m := swap_s arch big op m p in swap_all arch big ops m p
  end.

(** swab.h:512-546 [bfdev_swab16_array] and its siblings on memory: [count] objects of the
    operation's width, the pointer advancing by one object. *)
Fixpoint swap_run (big : bool) (op : swap_op) (m : list Z) (p : Z) (count : nat) : option (list Z) :=
  match count with
  | O => Some m
  | S count => let* m := swap_s None big op m p in swap_run big op m (p + op_width op / 8) count
  end.
