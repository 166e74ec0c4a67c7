(** * Model of include/bfdev/once.h: code that is to run once
    Every expansion of the macros has a static flag of its own; expansions are numbered ("sites") and the flags are a function
    from sites.  [bfdev_unlikely] is the identity on truth values and left out. *)
From Verif Require Import Lib.

(** a reached expansion: its site, the condition, and what the function does, as the expansions it reaches itself *)
Inductive call := Call (site : Z) (cond : bool) (body : list call).
Definition flags := Z -> bool.
Definition raise (st : flags) (s : Z) : flags := fun x => if x =? s then true else st x.
(** what happened at a reached expansion: site, condition, was the function called *)
Definition event : Type := Z * bool * bool.

(** once.h:15-26 [BFDEV_DO_ONCE_DONE]: the flag and the value of the expression *)
Definition do_once_done (st : flags) (site : Z) (cond : bool) : flags * bool :=
  if cond && negb (st site) then (raise st site, true) else (st, false).
(** once.h:28-33 [BFDEV_DO_ONCE_ON], once.h:35-36 [BFDEV_DO_ONCE] (condition true): flags, events in the order in which the
    flags were consulted, value of the expression *)
Fixpoint do_once_on (c : call) (st : flags) : flags * list event * bool :=
  match c with
  | Call site cond body =>
    let (st, done) := do_once_done st site cond in
    let '(st, log) := (if done then
      (fix all (l : list call) (st : flags) : flags * list event :=
         match l with
         | [] => (st, [])
         | c :: l => let '(st, log, _) := do_once_on c st in let (st, log') := all l st in (st, log ++ log')
         end) body st else (st, [])) in
    (st, (site, cond, done) :: log, cond)
  end.
(** a program: expansions reached one after the other, with the values seen *)
Fixpoint run_once (l : list call) (st : flags) : flags * list event * list bool :=
  match l with
  | [] => (st, [], [])
  | c :: l => let '(st, log, v) := do_once_on c st in let '(st, log', vs) := run_once l st in (st, log ++ log', v :: vs)
  end.

(** ** Threads: one step is one access to a flag; the compiler is taken to keep the order of the two accesses *)
Inductive opc := OIdle | OSet (site : Z).   (* about to evaluate the test; past the test, about to set the flag *)
(** each thread decides on its next expansion from those it has passed *)
Definition oclient := nat -> list event -> option (Z * bool).
Record osys := { oflags : flags; ohist : nat -> list event; opcs : nat -> opc; olog : list (nat * event) }.
Definition oset {A} (f : nat -> A) (t : nat) (v : A) : nat -> A := fun u => if Nat.eqb u t then v else f u.
(** the call is over, with or without calling the function *)
Definition finish (s : osys) (fl : flags) (t : nat) (e : event) : osys :=
  {| oflags := fl; ohist := oset (ohist s) t (ohist s t ++ [e]); opcs := oset (opcs s) t OIdle; olog := olog s ++ [(t, e)] |}.
(** once.h:20-23, the test and the assignment as separate accesses *)
Definition ostep (c : oclient) (s : osys) (t : nat) : osys :=
  match opcs s t with
  | OSet site => finish s (raise (oflags s) site) t (site, true, true)
  | OIdle =>
    match c t (ohist s t) with
    | None => s
    | Some (site, cond) =>
      if cond && negb (oflags s site) then {| oflags := oflags s; ohist := ohist s; opcs := oset (opcs s) t (OSet site); olog := olog s |}
      else finish s (oflags s) t (site, cond, false)
    end
  end.
Definition orun (c : oclient) (sched : list nat) (s : osys) : osys := fold_left (ostep c) sched s.
Definition oinit : osys := {| oflags := fun _ => false; ohist := fun _ => []; opcs := fun _ => OIdle; olog := [] |}.
