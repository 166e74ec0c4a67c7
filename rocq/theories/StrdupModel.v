(** * Model of src/libc/strdup.c (copies of strings)
    The source is the list of the bytes that can be read from the pointer on; the copy is a block whose bytes are not set
    at first ([None]). An access outside is [None] as a result. The C library functions are the ones of the standard. *)
From Verif Require Import Lib.

(** port/string.h:100-107 [bfport_strlen]: the terminator has to be there *)
Fixpoint strlen (s : list Z) : option Z :=
  match s with [] => None | c :: s => if c =? 0 then Some 0 else let* n := strlen s in Some (n + 1) end.
(** port/string.h:109-116 [bfport_strnlen]: looks at [len] bytes at most *)
Fixpoint strnlen (s : list Z) (len : nat) : option Z :=
  match len with
  | O => Some 0
  | S len => match s with [] => None | c :: s => if c =? 0 then Some 0 else let* n := strnlen s len in Some (n + 1) end
  end.
(** port/string.h:82-89 [bfport_strcpy]: copies up to the terminator, to index [i] of the block *)
Fixpoint strcpy (b : list (option Z)) (i : Z) (s : list Z) : option (list (option Z)) :=
  match s with
  | [] => None
  | c :: s => let* b := wr b i (Some c) in if c =? 0 then Some b else strcpy b (i + 1) s
  end.
(** port/string.h:91-98 [bfport_strncpy]: writes [len] bytes, zeros after the terminator *)
Fixpoint strncpy (b : list (option Z)) (i : Z) (s : list Z) (len : nat) : option (list (option Z)) :=
  match len with
  | O => Some b
  | S len =>
    match s with
    | [] => None
    | c :: r => let* b := wr b i (Some c) in strncpy b (i + 1) (if c =? 0 then s else r) len
    end
  end.
Definition block (size : Z) : list (option Z) := repeat None (Z.to_nat size).
(** strdup.c:10-27 [bfdev_strdup]; [ok]: the allocator has the memory; [None] for a null pointer, as argument and inside *)
Definition strdup (ok : bool) (string : option (list Z)) : option (option (list (option Z))) :=
  match string with
  | None => Some None
  | Some s =>
    let* length := strlen s in
    if ok then let* b := strcpy (block (length + 1)) 0 s in Some (Some b) else Some None
  end.
(** strdup.c:29-46 [bfdev_strndup] *)
Definition strndup (ok : bool) (string : option (list Z)) (len : nat) : option (option (list (option Z))) :=
  match string with
  | None => Some None
  | Some s =>
    let* length := strnlen s len in
    if ok then let* b := strncpy (block (length + 1)) 0 s len in Some (Some b) else Some None
  end.
