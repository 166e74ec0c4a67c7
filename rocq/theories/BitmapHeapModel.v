(** * Bitmaps from an allocator: creation, single bits and release

    src/bitmap.c:343-363 with the bit operations of include/bfdev/asm-generic/bitops.h, over
    the live blocks and 8-byte cells of CreateModel: every access must lie in a live block and
    every release must name the start of one, [None] otherwise. *)
From Verif Require Import Lib BitsModel BitmapModel CreateModel.

Section Heap.
(** The allocator's answer to the n-th request, and what fresh memory happens to hold. *)
Variable ask : nat -> rmem -> Z -> option Z.
Variable junk : nat -> Z -> Z.

(** src/allocator.c:40-56 [bfdev_malloc]: no call for size 0. *)
Definition malloc (m : rmem) (size : Z) : Z * rmem :=
  if size =? 0 then (0, m) else
  match ask (tick m) m size with
  | None => (0, {| live := live m; cell := cell m; tick := S (tick m) |})
  | Some p => (p, {| live := (p, size) :: live m; cell := fun a => if (p <=? a) && (a <? p + size) then junk (tick m) a else cell m a; tick := S (tick m) |})
  end.
(** src/bitmap.c:343-349 [bfdev_bitmap_alloc] through allocator.h:95-100 [bfdev_malloc_array]. *)
Definition bm_alloc (m : rmem) (bits : Z) : Z * rmem := malloc m (w64 (8 * bits_to_long bits)).
(** src/bitmap.c:351-357 [bfdev_bitmap_zalloc] through allocator.h:107-112. *)
Definition bm_zalloc (m : rmem) (bits : Z) : Z * rmem := zalloc ask m (w64 (8 * bits_to_long bits)).
(** src/bitmap.c:359-363 [bfdev_bitmap_free]. *)
Definition bm_free (m : rmem) (p : Z) : option rmem := free m p.

(** asm-generic/bitops.h:17-45 [bfdev_arch_bit_clr], [bfdev_arch_bit_set], [bfdev_arch_bit_flip]:
    read the word [addr + BFDEV_BITS_WORD(bit)], change it and write it back. *)
Definition bit_rmw (f : Z -> Z) (m : rmem) (p bit : Z) : option rmem :=
  let a := p + 8 * (bit / 64) in
  let* w := get m a in put m a (f w).
Definition heap_clr (m : rmem) (p bit : Z) := bit_rmw (fun w => Z.land w (not64 (BIT bit))) m p bit.
Definition heap_set (m : rmem) (p bit : Z) := bit_rmw (fun w => Z.lor w (BIT bit)) m p bit.
Definition heap_flip (m : rmem) (p bit : Z) := bit_rmw (fun w => Z.lxor w (BIT bit)) m p bit.
(** asm-generic/bitops.h:60-68 [bfdev_arch_bit_test]. *)
Definition heap_test (m : rmem) (p bit : Z) : option bool :=
  let* w := get m (p + 8 * (bit / 64)) in Some (negb (Z.land w (BIT bit) =? 0)).

(** The calls of a client and what they return. *)
Inductive bop := New (zeroed : bool) (bits : Z) | Free (p : Z) | Set_ (p bit : Z) | Clr (p bit : Z) | Flip (p bit : Z) | Test (p bit : Z).
Inductive bres := Ptr (p : Z) | Done | Bit (b : bool).
Definition bstep (m : rmem) (op : bop) : option (bres * rmem) :=
  match op with
  | New z bits => let '(p, m) := if z then bm_zalloc m bits else bm_alloc m bits in Some (Ptr p, m)
  | Free p => let* m := bm_free m p in Some (Done, m)
  | Set_ p i => let* m := heap_set m p i in Some (Done, m)
  | Clr p i => let* m := heap_clr m p i in Some (Done, m)
  | Flip p i => let* m := heap_flip m p i in Some (Done, m)
  | Test p i => let* b := heap_test m p i in Some (Bit b, m)
  end.
Fixpoint bruns (m : rmem) (ops : list bop) : option (list bres * rmem) :=
  match ops with
  | [] => Some ([], m)
  | op :: ops => let* x := bstep m op in let* y := bruns (snd x) ops in Some (fst x :: fst y, snd y)
  end.
End Heap.
