(** * Model of src/ratelimit.c, src/tokenbucket.c and include/bfdev/time.h *)
From Verif Require Import Lib.
(** types.h:53 [bfdev_time_t] is a signed 64-bit number; a sum outside this range is undefined behaviour ([None]) *)
Definition i64 (x : Z) : bool := (- 2 ^ 63 <=? x) && (x <? 2 ^ 63).
Definition ck (x : Z) : option Z := if i64 x then Some x else None.
(** time.h:16 [bfdev_time_add] *)
Definition time_add (time delta : Z) : option Z := ck (time + delta).
(** time.h:17 [bfdev_time_sub] *)
Definition time_sub (time delta : Z) : option Z := ck (time - delta).
(** time.h:24-31 [bfdev_time_compare]; macro.h [bfdev_cmp] answers BFDEV_BT (1) or BFDEV_LT (-1), BFDEV_EQ is 0 *)
Definition time_compare (va vb : Z) : Z := if va =? vb then 0 else if vb <? va then 1 else -1.
(** time.h:38-42 [bfdev_time_after] *)
Definition time_after (va vb : Z) : bool := 0 <? time_compare va vb.
(** time.h:49-53 [bfdev_time_before] *)
Definition time_before (va vb : Z) : bool := time_compare va vb <? 0.
(** time.h:60-64 [bfdev_time_after_equal] *)
Definition time_after_equal (va vb : Z) : bool := 0 <=? time_compare va vb.
(** time.h:71-75 [bfdev_time_before_equal] *)
Definition time_before_equal (va vb : Z) : bool := time_compare va vb <=? 0.

(** ratelimit.h:25-32 struct bfdev_ratelimit *)
Record rlimit := { rl_interval : Z; rl_burst : Z; rl_begin : Z; rl_passed : Z; rl_missed : Z }.
(** ratelimit.h:34-49 [bfdev_ratelimit_init] *)
Definition rl_init (interval burst : Z) : rlimit :=
  {| rl_interval := interval; rl_burst := burst; rl_begin := 0; rl_passed := 0; rl_missed := 0 |}.
(** ratelimit.h:51-57 [bfdev_ratelimit_reset] *)
Definition rl_reset (l : rlimit) : rlimit :=
  {| rl_interval := rl_interval l; rl_burst := rl_burst l; rl_begin := 0; rl_passed := 0; rl_missed := 0 |}.
(** ratelimit.c:11-36 [bfdev_ratelimit] *)
Definition ratelimit (l : rlimit) (current : Z) : option (rlimit * bool) :=
  if rl_interval l =? 0 then Some (l, true) else
  let begin := if rl_begin l =? 0 then current else rl_begin l in
  let* deadline := time_add begin (rl_interval l) in
  let '(begin, passed) := if time_after current deadline then (current, 0) else (begin, rl_passed l) in
  if passed <? rl_burst l then
    Some ({| rl_interval := rl_interval l; rl_burst := rl_burst l; rl_begin := begin; rl_passed := w32 (passed + 1); rl_missed := rl_missed l |}, true)
  else
    Some ({| rl_interval := rl_interval l; rl_burst := rl_burst l; rl_begin := begin; rl_passed := passed; rl_missed := w32 (rl_missed l + 1) |}, false).

(** tokenbucket.h:17-25 struct bfdev_tokenbucket *)
Record bucket := { tb_interval : Z; tb_capacity : Z; tb_last : Z; tb_current : Z; tb_passed : Z; tb_missed : Z }.
(** tokenbucket.h:27-42 [bfdev_tokenbucket_init] *)
Definition tb_init (interval capacity : Z) : bucket :=
  {| tb_interval := interval; tb_capacity := capacity; tb_last := 0; tb_current := 0; tb_passed := 0; tb_missed := 0 |}.
(** tokenbucket.h:44-48 [bfdev_tokenbucket_update] *)
Definition tb_update (l : bucket) (current : Z) : bucket :=
  {| tb_interval := tb_interval l; tb_capacity := tb_capacity l; tb_last := current; tb_current := tb_current l; tb_passed := tb_passed l; tb_missed := tb_missed l |}.
(** tokenbucket.h:50-57 [bfdev_tokenbucket_reset] *)
Definition tb_reset (l : bucket) : bucket :=
  {| tb_interval := tb_interval l; tb_capacity := tb_capacity l; tb_last := 0; tb_current := 0; tb_passed := 0; tb_missed := 0 |}.
(** tokenbucket.c:11-38 [bfdev_tokenbucket]; the quotient of signed numbers rounds towards zero and is then converted to a 32-bit unsigned number,
    [generate * interval] is computed in 64-bit signed arithmetic, the sum of tokens in 32-bit unsigned arithmetic *)
Definition tokenbucket (l : bucket) (current : Z) : option (bucket * bool) :=
  if tb_interval l =? 0 then Some (l, true) else
  let '(tokens, last) := if tb_last l =? 0 then (tb_capacity l, current) else (tb_current l, tb_last l) in
  let* d := time_sub current last in
  let* q := ck (Z.quot d (tb_interval l)) in
  let generate := w32 q in
  let* g := ck (generate * tb_interval l) in
  let* last := time_add g last in
  let tokens := Z.min (w32 (tokens + generate)) (tb_capacity l) in
  if tokens =? 0 then
    Some ({| tb_interval := tb_interval l; tb_capacity := tb_capacity l; tb_last := last; tb_current := 0; tb_passed := tb_passed l; tb_missed := w32 (tb_missed l + 1) |}, false)
  else
    Some ({| tb_interval := tb_interval l; tb_capacity := tb_capacity l; tb_last := last; tb_current := tokens - 1; tb_passed := w32 (tb_passed l + 1); tb_missed := tb_missed l |}, true).
