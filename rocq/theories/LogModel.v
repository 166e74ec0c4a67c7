(** * Model of src/scnprintf.c, src/log/log.c, color.c, level.c and include/port/log.h

    Strings are lists of character codes without the terminator. What the C library makes of a
    format string and its arguments is a parameter: the whole text, or [None] when vsnprintf
    reports an error by a negative result. *)
From Coq Require Import String Ascii.
From Verif Require Import Lib.

(** A string literal as character codes (no model of code). *)
Definition str (s : string) : list Z := map (fun c => Z.of_N (N_of_ascii c)) (list_ascii_of_string s).

(** Storing a list of characters at a position (no model of code: used by [vsnprintf]). *)
Fixpoint puts (b : list Z) (off : Z) (t : list Z) : option (list Z) :=
  match t with
  | [] => Some b
  | c :: t => let* b := wr b off c in puts b (off + 1) t
  end.
(** The C library's vsnprintf (include/bfdev/port/stdio.h:50-57) on the buffer at [off]: at most
    size - 1 characters and a terminator are stored and the untruncated length is returned. On an
    error the result is negative and, as a simplification, the buffer is left as it was. *)
Definition vsnprintf (b : list Z) (off size : Z) (text : option (list Z)) : option (list Z * Z) :=
  match text with
  | Some t =>
    if 2 ^ 31 <=? zlen t then Some (b, -1)
    else let* b := puts b off (firstn (Z.to_nat (size - 1)) t ++ [0]) in Some (b, zlen t)
  | None => Some (b, -1)
  end.
(** The value of a long expression converted to int. *)
Definition to_int (x : Z) : Z := let y := w32 x in if y <? 2 ^ 31 then y else y - 2 ^ 32.
(** src/scnprintf.c:10-23 [bfdev_vscnprintf] (25-36 [bfdev_scnprintf] only passes its arguments on);
    the comparison of int and size_t is done in size_t *)
Definition vscnprintf (b : list Z) (off size : Z) (text : option (list Z)) : option (list Z * Z) :=
  if size =? 0 then Some (b, 0)
  else
    let* r := vsnprintf b off size text in
    let '(b, len) := r in
    if w64 len <? size then Some (b, len) else Some (b, to_int (size - 1)).

(** include/bfdev/level.h:14-34 *)
Definition SOH : Z := 1.
Definition LEVEL_WARNING : Z := 4.
Definition LEVEL_DEFAULT : Z := 8.
(** include/bfdev/log.h:20-22 *)
Definition BUFF_SIZE : Z := 512.

(** include/bfdev/log.h:40-47; [custom]: a write function was given *)
Record log := { default_level : Z; record_level : Z; flags : Z; custom : bool }.
(** src/log/log.c:11-17 *)
Definition log_default : log := {| default_level := LEVEL_DEFAULT; record_level := LEVEL_DEFAULT; flags := 3; custom := false |}.
(** include/bfdev/log.h:32-38 and 66-76: bit 0 is colour, bit 1 is level *)
Definition color_test (l : log) : bool := Z.testbit (flags l) 0.
Definition level_test (l : log) : bool := Z.testbit (flags l) 1.

(** src/log/level.c:6-17 *)
Definition level_name : list (list Z) :=
  [str "emerg"; str "alert"; str "crit"; str "error"; str "warning"; str "notice"; str "info"; str "debug"; str "default"].
(** src/log/color.c:6-31 *)
Definition level_color : list Z := [90 + 1; 30 + 1; 30 + 5; 30 + 3; 30 + 4; 90 + 6; 90 + 2; 90 + 0; 30 + 9].

(** include/bfdev/log.h:49-53, the buffer being [BUFF_SIZE] characters *)
Record message := { level : Z; buff : list Z; mlen : Z }.

(** src/log/log.c:22-34 [log_vscnprintf], 36-47 [log_scnprintf] *)
Definition log_scnprintf (msg : message) (text : option (list Z)) : option message :=
  let* r := vscnprintf (buff msg) (mlen msg) (w64 (BUFF_SIZE - mlen msg)) text in
  let '(b, append) := r in
  Some {| level := level msg; buff := b; mlen := w64 (mlen msg + append) |}.

(** "%d" for the two-digit numbers of [level_color] (the C library's part) *)
Definition two_digits (n : Z) : list Z := [48 + n / 10; 48 + n mod 10].
(** src/log/color.c:33-40 [log_color_prefix] *)
Definition log_color_prefix (l : log) (msg : message) : option message :=
  if negb (color_test l) then Some msg
  else let* c := rd level_color (level msg) in
       log_scnprintf msg (Some ([27] ++ str "[" ++ two_digits c ++ str "m")).
(** src/log/color.c:42-49 [log_color_suffix] *)
Definition log_color_suffix (l : log) (msg : message) : option message :=
  if negb (color_test l) then Some msg
  else log_scnprintf msg (Some ([27] ++ str "[0m")).
(** src/log/level.c:19-26 [log_level] *)
Definition log_level (l : log) (msg : message) : option message :=
  if negb (level_test l) then Some msg
  else let* n := rd level_name (level msg) in
       log_scnprintf msg (Some (str "[" ++ n ++ str "] ")).

(** src/log/log.c:52-59 [log_get_level]; the string ends where the list ends *)
Definition log_get_level (s : list Z) : Z :=
  match s with
  | c :: v :: _ => if c =? SOH then v else 0
  | _ => 0
  end.
(** src/log/log.c:67-80: the level and the rest of the string *)
Fixpoint level_loop (fuel : nat) (lv : Z) (s : list Z) : option (Z * list Z) :=
  match fuel with
  | O => None
  | S fuel =>
    match s with
    | [] => Some (lv, s)
    | _ =>
      let value := log_get_level s in
      if value =? 0 then Some (lv, s)
      else level_loop fuel (if (48 <=? value) && (value <=? 57) then value - 48 else lv) (skipn 2 s)
    end
  end.
(** src/log/log.c:61-86 [bfdev_log_level]; [fin] is what *endptr holds before the call ([None]: a null
    pointer). The result is the level and *endptr afterwards. *)
Definition bfdev_log_level (s : list Z) (fin : option (list Z)) : option (Z * option (list Z)) :=
  let* r := level_loop (S (List.length s)) LEVEL_DEFAULT s in
  let '(lv, rest) := r in
  Some (lv, match fin with Some _ => Some rest | None => None end).

(** What reaches the outside. *)
Inductive file := Stdout | Stderr.
Inductive event :=
  | Written (lv : Z) (b : list Z) (len : Z)   (* the log's own write function is given the message *)
  | Flushed (f : file)
  | Output (f : file) (text : list Z).

(** include/port/log.h:18-32 [generic_log_write]; [sent] is what fwrite returns *)
Definition generic_log_write (sent : Z) (msg : message) : list event * Z :=
  let text := firstn (Z.to_nat (mlen msg)) (buff msg) in
  if LEVEL_WARNING <? level msg then ([Output Stdout text], sent)
  else ([Flushed Stdout; Output Stderr text], sent).

(** src/log/log.c:88-95 [log_prefix], 97-103 [log_suffix], 105-145 [log_emit]. [junk] is the
    uninitialised buffer, [sent] the result of the write function or of fwrite. *)
Definition log_emit (junk : list Z) (sent : Z) (l : option log) (lv : Z) (text : option (list Z)) : option (list event * Z) :=
  let l := match l with Some l => l | None => log_default end in
  let lv := if LEVEL_DEFAULT <=? lv then default_level l else lv in
  if record_level l <? lv then Some ([], 0)
  else
    let msg := {| level := lv; buff := junk; mlen := 0 |} in
    let* msg := log_level l msg in
    let* msg := log_color_prefix l msg in
    let* msg := log_scnprintf msg text in
    let* msg := log_color_suffix l msg in
    if custom l then Some ([Written (level msg) (buff msg) (mlen msg)], sent)
    else Some (generic_log_write sent msg).

(** src/log/log.c:147-155 [bfdev_vlog_core], 157-168 [bfdev_log_core]. [render] is what the C library
    makes of a format string with the arguments of this call. *)
Definition bfdev_log_core (render : list Z -> option (list Z)) (junk : list Z) (sent : Z)
    (l : option log) (fmt : list Z) : option (list event * Z) :=
  let* r := bfdev_log_level fmt (Some fmt) in
  match r with
  | (lv, Some fmt) => log_emit junk sent l lv (render fmt)
  | (_, None) => None
  end.
