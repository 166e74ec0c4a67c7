(** * Model of src/argv.c and src/scnprintf.c *)
From Verif Require Import Lib.
(** argv.c:10 ARGV_SEPARA: blank, tab, carriage return, newline *)
Definition is_sep (c : Z) : bool := (c =? 32) || (c =? 9) || (c =? 13) || (c =? 10).
(** bfport_strspn(.., ARGV_SEPARA) (the C library's strspn) on the memory from the pointer on; None: no end within it *)
Fixpoint strspn (l : list Z) : option Z :=
  match l with
  | [] => None
  | c :: l => if is_sep c then let* n := strspn l in Some (n + 1) else Some 0
  end.
(** bfport_strcspn(.., ARGV_SEPARA) *)
Fixpoint strcspn (l : list Z) : option Z :=
  match l with
  | [] => None
  | c :: l => if (c =? 0) || is_sep c then Some 0 else let* n := strcspn l in Some (n + 1)
  end.
(** argv.c:12-33 [bfdev_argv_count] on the memory from [args] on; [argc] counted so far *)
Fixpoint argv_count (fuel : nat) (args : list Z) (argc : Z) : option Z :=
  match fuel with
  | O => None
  | S fuel =>
    let* offset := strspn args in
    let* c := rd args offset in
    if c =? 0 then Some argc else
    let args := skipn (Z.to_nat offset) args in
    let argc := w32 (argc + 1) in
    let* offset := strcspn args in
    let* c := rd args offset in
    if c =? 0 then Some argc else argv_count fuel (skipn (Z.to_nat offset) args) argc
  end.
(** argv.c:52-57: [n] words left; [block] is the copy of the string, [pos] the position of the pointer in it.
    The positions stored in argv and the block. *)
Fixpoint argv_loop (n : nat) (block : list Z) (pos : Z) : option (list Z * list Z) :=
  match n with
  | O => Some ([], block)
  | S n =>
    let* o := strspn (skipn (Z.to_nat pos) block) in
    let pos := pos + o in
    let* o := strcspn (skipn (Z.to_nat pos) block) in
    let* block := wr block (pos + o) 0 in
    let* (argv, block) := argv_loop n block (pos + o + 1) in
    Some (pos :: argv, block)
  end.
(** argv.c:35-65 [bfdev_argv_split] after a successful allocation (a failing one returns NULL): argc, the size of the
    vector in front of the block ([count] of line 43), the pointers as positions in the block, the block.
    [args] holds the string with its terminator. *)
Definition argv_split (args : list Z) : option (Z * Z * list Z * list Z) :=
  let* argc := argv_count (S (length args)) args 0 in
  let count := w32 (w32 (argc + 1) * 8) in
  let* (argv, block) := argv_loop (Z.to_nat argc) args 0 in
  Some (argc, count, argv, block).

(** scnprintf.c:10-23 [bfdev_vscnprintf].  [len] is the int the formatter returns. *)
Definition int_of (x : Z) : Z := (x + 2 ^ 31) mod 2 ^ 32 - 2 ^ 31.
Definition scnprintf (size len : Z) : Z :=
  if size =? 0 then 0 else
  if w64 len <? size then len else int_of (size - 1).
