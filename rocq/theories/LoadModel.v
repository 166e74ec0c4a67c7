(** * Loads that are satisfied early, on the machine with store buffers
    The machine of FenceModel.v, whose loads happened in program order, with loads that the processor may perform before earlier
    accesses of its thread, in any order, also to the same word: [EPeek t w] fetches word [w] ahead of time, and the plain load that follows later may
    take the value fetched ([EEarly]) instead of the current one.  A __sync builtin is a full barrier: no load that follows it
    takes a value fetched before it.  A load never takes a value fetched before an earlier store of its own thread to the same word.
    Loads that depend on earlier ones through their address are not kept in order. *)
From Verif Require Import Lib AtomicModel FenceModel.

Record esys := { ebase : bsys; epre : nat -> buffer }.
Inductive emove := EGo (t : nat) | EDrain (t k : nat) | EPeek (t : nat) (w : Z) | EEarly (t i : nat).
(** the word a call loads from *)
Definition load_word (op : aop) : option Z :=
  match op with
  | ARead w | AXchg w _ => Some w
  | BTest b | BTestClr b | BTestSet b => Some (wordof b)
  | _ => None
  end.
(** what is still fetched after an access of a call *)
Definition keep (op : aop) (p : pc) (buf pre : buffer) : buffer :=
  match op with
  | AWrite w _ => filter (fun x => negb (fst x =? w)) pre
  | _ => if builtin op p then match buf with [] => [] | _ => pre end else pre
  end.
Definition estep_early (c : client) (s : esys) (t i : nat) : option esys :=
  let b := ebase s in
  match c t (bhist b t), nth_error (epre s t) i with
  | Some op, Some (w, v) =>
    match load_word op with
    | Some u =>
      if (u =? w) && negb (builtin op (bpc b t)) then
        let* (_, r) := astep (set_word (view (bmem b) (bbuf b t)) (w, v)) op (bpc b t) in
        match r with
        | inl p => Some {| ebase := {| bmem := bmem b; bbuf := bbuf b; bhist := bhist b; bpc := tset (bpc b) t p; blog := blog b |}; epre := epre s |}
        | inr x => Some {| ebase := {| bmem := bmem b; bbuf := bbuf b; bhist := tset (bhist b) t (bhist b t ++ [(op, x)]); bpc := tset (bpc b) t PIdle; blog := blog b ++ [(t, op, x)] |}; epre := epre s |}
        end
      else Some s
    | None => Some s
    end
  | _, _ => Some s
  end.
Definition emove_step (weak : bool) (c : client) (s : esys) (x : emove) : option esys :=
  let b := ebase s in
  match x with
  | EGo t =>
    let* b' := bmove weak c b (Go t) in
    match c t (bhist b t) with
    | None => Some {| ebase := b'; epre := epre s |}
    | Some op => Some {| ebase := b'; epre := tset (epre s) t (keep op (bpc b t) (bbuf b t) (epre s t)) |}
    end
  | EDrain t k => let* b' := bmove weak c b (Drain t k) in Some {| ebase := b'; epre := epre s |}
  | EPeek t w =>
    match rd (view (bmem b) (bbuf b t)) w with
    | Some v => Some {| ebase := b; epre := tset (epre s) t (epre s t ++ [(w, v)]) |}
    | None => Some s
    end
  | EEarly t i => estep_early c s t i
  end.
Fixpoint erun (weak : bool) (c : client) (sched : list emove) (s : esys) : option esys :=
  match sched with
  | [] => Some s
  | x :: sched => let* s := emove_step weak c s x in erun weak c sched s
  end.
Definition einit (m : list Z) : esys := {| ebase := binit m; epre := fun _ => [] |}.
