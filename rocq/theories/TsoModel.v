(** * The flat FIFO shared by two threads on a machine with store buffers
    The threads and their accesses are those of SpscModel, but a store first goes into a buffer of the thread (x86-TSO): the thread itself sees it at
    once, the other when it is moved to memory, which happens at any time later.  [weak = false]: in the order of the stores.
    [weak = true]: in any order that keeps the order of the stores to one location.  Loads happen in program order. *)
From Verif Require Import Lib Mem FifoModel FifoSpec SpscModel.

(** the producer's stores: a byte of the element buffer, the counter [in] *)
Inductive store := SData (a v : Z) | SIn (v : Z).
(** what a thread sees of its own counter: its latest store to it, from the buffer if it is still there *)
Definition own_in (f : fifo) (pb : list store) : Z := fold_left (fun x s => match s with SIn v => v | SData _ _ => x end) pb (f_in f).
Definition own_out (f : fifo) (cb : list Z) : Z := last cb (f_out f).
Definition pview (f : fifo) (pb : list store) : fifo := set_in f (own_in f pb).
Definition cview (f : fifo) (cb : list Z) : fifo := set_out f (own_out f cb).

(** one access of the producer (fifo.c:140-151, fifo.h:243-264, 366-379) *)
Definition tpstep (f : fifo) (pb : list store) (p : ppc) (o : op) (k : nat) : option (list store * (ppc + result)) :=
  match p with
  | PIdle =>
    match o with
    | OIn src len => let n := Z.min len (fifo_unused (pview f pb)) in let* todo := in_plan (pview f pb) src n in Some (pb, inl (PCopy 0 todo n))
    | OPut e => if fifo_check_full (pview f pb) then Some (pb, inr (0, [])) else Some (pb, inl (PCopy 0 (combine (cell (pview f pb) (own_in f pb)) e) 1))
    | _ => let* r := query (pview f pb) o in Some (pb, inr r)
    end
  | PCopy _ todo n =>
    match pick k todo with
    | Some ((a, v), todo) => Some (pb ++ [SData a v], inl (PCopy 0 todo n))
    | None => Some (pb ++ [SIn (w64 (own_in f pb + n))], inr (n, []))
    end
  end.
(** one access of the consumer (fifo.c:117-138, fifo.h:225-264, 309-350); a peek does not store [out] *)
Definition tcstep (f : fifo) (cb : list Z) (p : cpc) (o : op) (k : nat) : option (list Z * (cpc + result)) :=
  match p with
  | CIdle =>
    match o with
    | OOut len => let n := Z.min len (fifo_valid (cview f cb)) in Some (cb, inl (begin_read 0 (out_plan (cview f cb) n) n n))
    | OPeek len => let n := Z.min len (fifo_valid (cview f cb)) in Some (cb, inl (begin_read 0 (out_plan (cview f cb) n) n 0))
    | OGet => if fifo_check_empty (cview f cb) then Some (cb, inr (0, [])) else Some (cb, inl (begin_read 0 (combine (cell (cview f cb) (own_out f cb)) (zseq 0 (Z.to_nat (f_esize f)))) 1 1))
    | OPeek1 => if fifo_check_empty (cview f cb) then Some (cb, inr (0, [])) else Some (cb, inl (begin_read 0 (combine (cell (cview f cb) (own_out f cb)) (zseq 0 (Z.to_nat (f_esize f)))) 1 0))
    | OHoming => Some (cb, inl (CCopy 0 [] [] 0 (fifo_valid (cview f cb))))
    | _ => let* r := query (cview f cb) o in Some (cb, inr r)
    end
  | CCopy _ todo buff n adv =>
    match pick k todo with
    | Some ((a, i), todo) => let* v := rd (f_data f) a in let* buff := wr buff i v in Some (cb, inl (CCopy 0 todo buff n adv))
    | None => Some (match o with OPeek _ | OPeek1 => cb | _ => cb ++ [w64 (own_out f cb + adv)] end, inr (n, buff))
    end
  end.
(** ** Stores reach memory *)
Definition same_place (s t : store) : bool :=
  match s, t with SData a _, SData b _ => a =? b | SIn _, SIn _ => true | _, _ => false end.
(** the [k]-th store in the buffer goes first, unless an older one is to the same place *)
Definition pick_store (k : nat) (pb : list store) : option (store * list store) :=
  match nth_error pb k with
  | Some s => if existsb (same_place s) (firstn k pb) then pick 0 pb else Some (s, firstn k pb ++ skipn (S k) pb)
  | None => pick 0 pb
  end.
Definition pflush (weak : bool) (k : nat) (f : fifo) (pb : list store) : option (fifo * list store) :=
  match (if weak then pick_store k pb else pick 0 pb) with
  | None => Some (f, pb)
  | Some (SData a v, pb) => let* d := wr (f_data f) a v in Some (set_data f d, pb)
  | Some (SIn v, pb) => Some (set_in f v, pb)
  end.
Definition cflush (f : fifo) (cb : list Z) : fifo * list Z :=
  match cb with [] => (f, cb) | v :: cb => (set_out f v, cb) end.
(** ** Runs *)
Inductive actor := Prod | Cons | FlushP | FlushC.
Record tsys := { tf : fifo; tpb : list store; tcb : list Z; tp : ppc; tc : cpc; thp : list (op * result); thc : list (op * result) }.
Definition tstep (weak : bool) (cp cc : client) (s : tsys) (x : actor * nat) : option tsys :=
  match fst x with
  | Prod =>
    match cp (thp s) with
    | None => Some s
    | Some o =>
      let* (pb, r) := tpstep (tf s) (tpb s) (tp s) o (snd x) in
      Some (match r with
            | inl p => {| tf := tf s; tpb := pb; tcb := tcb s; tp := p; tc := tc s; thp := thp s; thc := thc s |}
            | inr v => {| tf := tf s; tpb := pb; tcb := tcb s; tp := PIdle; tc := tc s; thp := thp s ++ [(o, v)]; thc := thc s |}
            end)
    end
  | Cons =>
    match cc (thc s) with
    | None => Some s
    | Some o =>
      let* (cb, r) := tcstep (tf s) (tcb s) (tc s) o (snd x) in
      Some (match r with
            | inl p => {| tf := tf s; tpb := tpb s; tcb := cb; tp := tp s; tc := p; thp := thp s; thc := thc s |}
            | inr v => {| tf := tf s; tpb := tpb s; tcb := cb; tp := tp s; tc := CIdle; thp := thp s; thc := thc s ++ [(o, v)] |}
            end)
    end
  | FlushP =>
    let* (f, pb) := pflush weak (snd x) (tf s) (tpb s) in
    Some {| tf := f; tpb := pb; tcb := tcb s; tp := tp s; tc := tc s; thp := thp s; thc := thc s |}
  | FlushC =>
    let (f, cb) := cflush (tf s) (tcb s) in
    Some {| tf := f; tpb := tpb s; tcb := cb; tp := tp s; tc := tc s; thp := thp s; thc := thc s |}
  end.
Fixpoint trun (weak : bool) (cp cc : client) (sched : list (actor * nat)) (s : tsys) : option tsys :=
  match sched with
  | [] => Some s
  | x :: sched => let* s := tstep weak cp cc s x in trun weak cp cc sched s
  end.
Definition tinit (f : fifo) : tsys := {| tf := f; tpb := []; tcb := []; tp := PIdle; tc := CIdle; thp := []; thc := [] |}.
