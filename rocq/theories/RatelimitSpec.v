(** * What a user of the rate limiter and of the token bucket relies on *)
From Verif Require Import Lib.
(** [windows interval ts ws]: the calls at times [ts] fall into the windows [ws]: a window is opened by its first call and contains
    the calls up to the first one that comes more than [interval] later, which opens the next window *)
Inductive windows (interval : Z) : list Z -> list (list Z) -> Prop :=
| W_nil : windows interval [] []
| W_cons t w rest ws : Forall (fun u => u <= t + interval) w -> (forall u r, rest = u :: r -> t + interval < u) ->
    windows interval rest ws -> windows interval (t :: w ++ rest) ((t :: w) :: ws).
(** the first [burst] calls of a window are admitted, the others are not *)
Definition admit (burst : Z) (w : list Z) : list bool := map (fun k => Z.of_nat k <? burst) (seq 0 (length w)).
(** number of admissions of calls at a time within [lo, hi] *)
Fixpoint admitted (lo hi : Z) (ts : list Z) (answers : list bool) : Z :=
  match ts, answers with
  | t :: ts', a :: answers' => (if a && (lo <=? t) && (t <=? hi) then 1 else 0) + admitted lo hi ts' answers'
  | _, _ => 0
  end.
Definition count (b : bool) (l : list bool) : Z := Z.of_nat (count_occ Bool.bool_dec l b).
(** a clock that never runs backwards *)
Fixpoint monotone (now : Z) (ts : list Z) : Prop :=
  match ts with [] => True | t :: ts' => now <= t /\ monotone t ts' end.
Fixpoint last_of (now : Z) (ts : list Z) : Z := match ts with [] => now | t :: ts' => last_of t ts' end.
(** what happens to a token bucket *)
Inductive tb_event := Call (t : Z) | Update (t : Z).
Definition at_time (e : tb_event) : Z := match e with Call t => t | Update t => t end.
(** an ideal bucket: every [interval] one more token arrives, unless the bucket is full *)
Definition tick (capacity tokens : Z) : Z := if tokens <? capacity then tokens + 1 else tokens.
Definition filled (capacity : Z) (n : Z) (tokens : Z) : Z := Nat.iter (Z.to_nat n) (tick capacity) tokens.
(** ideal bucket after events; state: moment of the latest token and number of tokens; [None]: not used yet *)
Definition ideal_step (interval capacity : Z) (s : option (Z * Z)) (e : tb_event) : option (Z * Z) * list bool :=
  match e, s with
  | Update t, None => (Some (t, 0), [])
  | Update t, Some (_, tokens) => (Some (t, tokens), [])
  | Call t, None => if 0 <? capacity then (Some (t, capacity - 1), [true]) else (Some (t, 0), [false])
  | Call t, Some (latest, tokens) =>
    let n := (t - latest) / interval in
    let tokens := filled capacity n tokens in
    if 0 <? tokens then (Some (latest + n * interval, tokens - 1), [true]) else (Some (latest + n * interval, tokens), [false])
  end.
Fixpoint ideal (interval capacity : Z) (s : option (Z * Z)) (es : list tb_event) : list bool :=
  match es with
  | [] => []
  | e :: es' => let '(s', a) := ideal_step interval capacity s e in a ++ ideal interval capacity s' es'
  end.
