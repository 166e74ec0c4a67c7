(** * Specification vocabulary for formatted output and logging *)
From Coq Require Import String.
From Verif Require Import Lib LogModel.

(** A format string made of the level tags [cs] followed by [rest]. *)
Definition tags (cs : list Z) : list Z := flat_map (fun c => [1; c]) cs.
(** [rest] has no tag in front. *)
Definition untagged (rest : list Z) : Prop := forall c t, rest <> 1 :: c :: t.
(** C strings have no terminator inside. *)
Definition cstring (s : list Z) : Prop := Forall (fun c => c <> 0) s.
(** The level the tags ask for: the last digit, 8 ("default") if there is none. *)
Definition is_digit (c : Z) : bool := (48 <=? c) && (c <? 58).
Definition asked (cs : list Z) : Z := last (map (fun c => c - 48) (filter is_digit cs)) 8.
(** The level under which a message is handled: levels from 8 on stand for the log's default. *)
Definition handled (l : log) (lv : Z) : Z := if lv <? 8 then lv else default_level l.

(** What is put before and after a message. *)
Definition tag_text (lv : Z) : list Z :=
  str (match lv with
       | 0 => "[emerg] " | 1 => "[alert] " | 2 => "[crit] " | 3 => "[error] " | 4 => "[warning] "
       | 5 => "[notice] " | 6 => "[info] " | 7 => "[debug] " | _ => "[default] "
       end)%string.
Definition color_text (lv : Z) : list Z :=
  27 :: str (match lv with
       | 0 => "[91m" | 1 => "[31m" | 2 => "[35m" | 3 => "[33m" | 4 => "[34m"
       | 5 => "[96m" | 6 => "[92m" | 7 => "[90m" | _ => "[39m"
       end)%string.
Definition reset_text : list Z := 27 :: str "[0m".
Definition line (l : log) (lv : Z) (text : list Z) : list Z :=
  (if Z.testbit (flags l) 1 then tag_text lv else []) ++
  (if Z.testbit (flags l) 0 then color_text lv else []) ++
  text ++
  (if Z.testbit (flags l) 0 then reset_text else []).
(** The first 511 characters. *)
Definition cut (t : list Z) : list Z := firstn 511 t.

(** How the message [b] of [n] characters gets out: to the log's own function, or to standard error
    for warnings and worse (after flushing standard output), to standard output otherwise. *)
Definition delivered (l : log) (lv : Z) (b : list Z) (n : Z) : list event :=
  if custom l then [Written lv b n]
  else if lv <=? 4 then [Flushed Stdout; Output Stderr (firstn (Z.to_nat n) b)]
  else [Output Stdout (firstn (Z.to_nat n) b)].
