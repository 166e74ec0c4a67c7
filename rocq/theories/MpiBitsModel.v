(** * Model of the bitwise operations of src/mpi.c

    The bitmap functions of src/bitmap.c work on pointers, so here the destination's limbs and
    the operands' limbs are laid out in one memory: first the destination array, then the operands
    that are other objects. An operand that is the destination object starts at 0. Allocation
    failure is not modelled (as in MpiModel.v). *)
From Verif Require Import Lib MpiModel BitmapModel.

(** The memory after mpi_resize gave the destination the limbs [d], and where the operands start. *)
Definition layout (al : alias) (d a b : list Z) : list Z :=
  d ++ (if isA al then [] else a) ++ (if isB al then [] else b).
Definition posA (al : alias) (d : list Z) : Z := if isA al then 0 else zlen d.
Definition posB (al : alias) (d a : list Z) : Z :=
  if isB al then 0 else zlen d + (if isA al then 0 else zlen a).
(** The destination's limbs. *)
Definition taken (n : Z) (m : list Z) : list Z := firstn (Z.to_nat n) m.

(** src/mpi.c:35-40 [mpa_copy] inside one memory (limb by limb; with equal pointers, where the C
    standard leaves memcpy undefined, nothing changes) *)
Fixpoint copy_limbs (n : nat) (m : list Z) (ps pa : Z) : option (list Z) :=
  match n with
  | O => Some m
  | S n' => let* x := rd m pa in let* m := wr m ps x in copy_limbs n' m (ps + 1) (pa + 1)
  end.

(** src/mpi.c:946-974 [mpi_and]; the bit count is an unsigned int (bitmap.h:111-113) *)
Definition mpi_and (junk : Z) (al : alias) (d a b : list Z) : option (list Z) :=
  let length := Z.min (zlen a) (zlen b) in
  if length =? 0 then Some (mpi_seti 0)
  else
    let d := resize junk (dest0 al d a b) length in
    let* p := comp_and (layout al d a b) 0 (posA al d) (posB al d a) (w32 (length * 64)) in
    Some (relocation (taken length (fst p))).

(** src/mpi.c:984-1008 in [mpi_or] and 1023-1047 in [mpi_xor]: the same but for the bitmap
    function [comp]; lines 980-982 and 1019-1021 only declare. *)
Definition merge (comp : list Z -> Z -> Z -> Z -> Z -> option (list Z)) (junk : Z) (al : alias)
    (d a b : list Z) : option (list Z) :=
  let cnta := zlen a in
  let cntb := zlen b in
  let top := Z.max cnta cntb in
  let d := resize junk (dest0 al d a b) top in
  let pa := posA al d in
  let pb := posB al d a in
  let* m := comp (layout al d a b) 0 pa pb (w32 (Z.min cnta cntb * 64)) in
  let '(pa, cnta, cntb) := if cnta <? cntb then (pb, cntb, cnta) else (pa, cnta, cntb) in
  let* m := copy_limbs (Z.to_nat (cnta - cntb)) m cntb (pa + cntb) in
  Some (taken top m).
(** src/mpi.c:976-1013 [mpi_or]; a limb popped by mpi_relocation trips BFDEV_BUG_ON ([None]) *)
Definition mpi_or (junk : Z) (al : alias) (d a b : list Z) : option (list Z) :=
  if Z.max (zlen a) (zlen b) =? 0 then Some (mpi_seti 0)
  else
    let* r := merge comp_or junk al d a b in
    if zlen (relocation r) =? zlen r then Some r else None.
(** src/mpi.c:1015-1052 [mpi_xor] *)
Definition mpi_xor (junk : Z) (al : alias) (d a b : list Z) : option (list Z) :=
  if Z.max (zlen a) (zlen b) =? 0 then Some (mpi_seti 0)
  else let* r := merge comp_xor junk al d a b in Some (relocation r).

(** src/mpi.c:1054-1088 [mpi_shli]; [own]: dest == va. BFDEV_BITS_TO_LONG is 64-bit here
    (math.h:46-48), the shift and the bit count are passed as unsigned int (bitmap.h:153-155). *)
Definition mpi_shli (junk : Z) (own : bool) (d a : list Z) (shift : Z) : option (list Z) :=
  if shift =? 0 then Some (if own then a else mpi_set a)
  else if zlen a =? 0 then Some (mpi_seti 0)
  else
    let cnta := zlen a in
    let rem := w64 (shift + 63) / 64 in
    let length := w64 (cnta + rem) in
    let d := resize junk (if own then a else d) length in
    let* d := (if own then Some d else mpa_copy (Z.to_nat cnta) d (Ext a) 0 0) in
    let* d := mpa_zero (Z.to_nat rem) d cnta in
    let* d := comp_shl d 0 0 (w32 shift) (w32 (length * 64)) in
    Some (relocation d).
(** src/mpi.c:1090-1115 [mpi_shri] *)
Definition mpi_shri (junk : Z) (own : bool) (d a : list Z) (shift : Z) : option (list Z) :=
  if shift =? 0 then Some (if own then a else mpi_set a)
  else if zlen a =? 0 then Some (mpi_seti 0)
  else
    let length := zlen a in
    let d := resize junk (if own then a else d) length in
    let al := if own then DestA else Distinct in
    let* m := comp_shr (layout al d a []) 0 (posA al d) (w32 shift) (w32 (length * 64)) in
    Some (relocation (taken length m)).

(** src/mpi.c:1561-1574 *)
Definition bfdev_mpi_and (junk : Z) (al : alias) (d : list Z) (va vb : mpi) : option mpi :=
  let* l := mpi_and junk al d (limbs va) (limbs vb) in Some (Mpi l true).
(** src/mpi.c:1576-1589 *)
Definition bfdev_mpi_or (junk : Z) (al : alias) (d : list Z) (va vb : mpi) : option mpi :=
  let* l := mpi_or junk al d (limbs va) (limbs vb) in Some (Mpi l true).
(** src/mpi.c:1591-1604 *)
Definition bfdev_mpi_xor (junk : Z) (al : alias) (d : list Z) (va vb : mpi) : option mpi :=
  let* l := mpi_xor junk al d (limbs va) (limbs vb) in Some (Mpi l true).
(** src/mpi.c:1606-1619 *)
Definition bfdev_mpi_shli (junk : Z) (own : bool) (d : list Z) (va : mpi) (shift : Z) : option mpi :=
  let* l := mpi_shli junk own d (limbs va) shift in Some (Mpi l (plus va)).
(** src/mpi.c:1621-1634 *)
Definition bfdev_mpi_shri (junk : Z) (own : bool) (d : list Z) (va : mpi) (shift : Z) : option mpi :=
  let* l := mpi_shri junk own d (limbs va) shift in Some (Mpi l (plus va)).
