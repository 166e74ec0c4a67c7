(** * Model of the flat FIFO (src/fifo.c, include/bfdev/fifo.h) shared by two threads without a lock
    One thread, the producer, puts elements in; another, the consumer, takes them out.  One step is one access of one thread to a word or
    byte that the other may change: a reading of the other's counter, the storing of the own counter, or one byte of the
    element buffer.  [mask], [esize] and [data] never change, and each counter is written by one thread only, so the readings of those are
    no steps.  Memory is taken to be sequentially consistent and the accesses to happen in program order, except for the bytes of a
    copy, which may go in any order.  (The code has no barriers: that is an assumption about compiler and machine.) *)
From Verif Require Import Lib Mem FifoModel FifoSpec.

(** where a thread is inside a call; [since] is the length of the log when it made its first access *)
Inductive ppc := PIdle | PCopy (since : nat) (todo : list (Z * Z)) (n : Z).     (* (position, byte) still to be stored *)
Inductive cpc := CIdle | CCopy (since : nat) (todo : list (Z * Z)) (buff : list Z) (n adv : Z).  (* (position, index in the caller's buffer) *)
Definition result := (Z * list Z)%type.

(** fifo.c:12-28 FIFO_GENERIC_COPY: the positions that the two memcpy touch, for the bytes of the caller's buffer in order *)
Definition positions (f : fifo) (len offset : Z) : list Z :=
  let '(offset, len, llen) := copy_plan f len offset in
  zseq offset (Z.to_nat llen) ++ zseq 0 (Z.to_nat (w64 (len - llen))).
(** fifo.c:40-48 [fifo_in_copy]: the stores; [None] if the source is too short *)
Definition in_plan (f : fifo) (src : list Z) (len : Z) : option (list (Z * Z)) :=
  let '(_, blen, llen) := copy_plan f len (f_in f) in
  let* a := rdn src 0 llen in
  let* b := rdn src llen (w64 (blen - llen)) in
  Some (combine (positions f len (f_in f)) (a ++ b)).
(** fifo.c:30-38 [fifo_out_copy]: the loads *)
Definition out_plan (f : fifo) (len : Z) : list (Z * Z) :=
  let p := positions f len (f_out f) in combine p (zseq 0 (length p)).
(** the element of an array access [data[index & mask]] (fifo.h:316-319, 342-346, 370-374) *)
Definition cell (f : fifo) (index : Z) : list Z := zseq (Z.land index (f_mask f) * f_esize f) (Z.to_nat (f_esize f)).

(** any of the bytes that are left may be next *)
Fixpoint pick {A} (k : nat) (l : list A) : option (A * list A) :=
  match l with
  | [] => None
  | x :: r =>
    match k with
    | O => Some (x, r)
    | S k => match pick k r with Some (y, r') => Some (y, x :: r') | None => Some (x, r) end
    end
  end.
(** fifo.h:243-264: what either thread may ask *)
Definition query (f : fifo) (o : op) : option result :=
  match o with
  | OLen => Some (fifo_len f, [])
  | OEmpty => Some (b2z (fifo_check_empty f), [])
  | OFull => Some (b2z (fifo_check_full f), [])
  | _ => None
  end.
(** one access of the producer *)
Definition pstep (f : fifo) (p : ppc) (o : op) (now k : nat) : option (fifo * (ppc + (result * nat))) :=
  match p with
  | PIdle =>
    match o with
    (* fifo.c:140-149: reads [out] *)
    | OIn src len => let n := Z.min len (fifo_unused f) in let* todo := in_plan f src n in Some (f, inl (PCopy now todo n))
    (* fifo.h:368-374: reads [out] *)
    | OPut e => if fifo_check_full f then Some (f, inr ((0, []), now)) else Some (f, inl (PCopy now (combine (cell f (f_in f)) e) 1))
    | _ => let* r := query f o in Some (f, inr (r, now))
    end
  | PCopy since todo n =>
    match pick k todo with
    | Some ((a, v), todo) => let* d := wr (f_data f) a v in Some (set_data f d, inl (PCopy since todo n))
    (* fifo.c:148, fifo.h:375: stores [in] *)
    | None => Some (set_in f (w64 (f_in f + n)), inr ((n, []), since))
    end
  end.
(** one access of the consumer; [adv] is what [out] is advanced by, 0 for a peek *)
Definition begin_read (now : nat) (todo : list (Z * Z)) (n adv : Z) : cpc := CCopy now todo (repeat 0 (length todo)) n adv.
Definition cstep (f : fifo) (p : cpc) (o : op) (now k : nat) : option (fifo * (cpc + (result * nat))) :=
  match p with
  | CIdle =>
    match o with
    (* fifo.c:117-138: reads [in] *)
    | OOut len => let n := Z.min len (fifo_valid f) in Some (f, inl (begin_read now (out_plan f n) n n))
    | OPeek len => let n := Z.min len (fifo_valid f) in Some (f, inl (begin_read now (out_plan f n) n 0))
    (* fifo.h:340-346, 313-319: reads [in] *)
    | OGet => if fifo_check_empty f then Some (f, inr ((0, []), now)) else Some (f, inl (begin_read now (combine (cell f (f_out f)) (zseq 0 (Z.to_nat (f_esize f)))) 1 1))
    | OPeek1 => if fifo_check_empty f then Some (f, inr ((0, []), now)) else Some (f, inl (begin_read now (combine (cell f (f_out f)) (zseq 0 (Z.to_nat (f_esize f)))) 1 0))
    (* fifo.h:233-237 [bfdev_fifo_homing]: reads [in] *)
    | OHoming => Some (f, inl (CCopy now [] [] 0 (fifo_valid f)))
    | _ => let* r := query f o in Some (f, inr (r, now))
    end
  | CCopy since todo buff n adv =>
    match pick k todo with
    | Some ((a, i), todo) => let* v := rd (f_data f) a in let* buff := wr buff i v in Some (f, inl (CCopy since todo buff n adv))
    (* fifo.c:135, fifo.h:347, 236: stores [out] (a peek only returns) *)
    | None => Some (set_out f (w64 (f_out f + adv)), inr ((n, buff), since))
    end
  end.
(** ** The two threads: each decides on its next call from its own calls and their results *)
Definition client := list (op * result) -> option op.
Record entry := { e_prod : bool; e_op : op; e_ret : result; e_since : nat }.
Record sys := { sf : fifo; sp : ppc; sc : cpc; hp : list (op * result); hc : list (op * result); slog : list entry }.
Definition sstep (cp cc : client) (s : sys) (x : bool * nat) : option sys :=
  let (t, k) := x in
  if t then
    match cp (hp s) with
    | None => Some s
    | Some o =>
      let* (f, r) := pstep (sf s) (sp s) o (length (slog s)) k in
      match r with
      | inl p => Some {| sf := f; sp := p; sc := sc s; hp := hp s; hc := hc s; slog := slog s |}
      | inr (v, since) => Some {| sf := f; sp := PIdle; sc := sc s; hp := hp s ++ [(o, v)]; hc := hc s; slog := slog s ++ [{| e_prod := true; e_op := o; e_ret := v; e_since := since |}] |}
      end
    end
  else
    match cc (hc s) with
    | None => Some s
    | Some o =>
      let* (f, r) := cstep (sf s) (sc s) o (length (slog s)) k in
      match r with
      | inl p => Some {| sf := f; sp := sp s; sc := p; hp := hp s; hc := hc s; slog := slog s |}
      | inr (v, since) => Some {| sf := f; sp := sp s; sc := CIdle; hp := hp s; hc := hc s ++ [(o, v)]; slog := slog s ++ [{| e_prod := false; e_op := o; e_ret := v; e_since := since |}] |}
      end
    end.
Fixpoint srun (cp cc : client) (sched : list (bool * nat)) (s : sys) : option sys :=
  match sched with
  | [] => Some s
  | x :: sched => let* s := sstep cp cc s x in srun cp cc sched s
  end.
Definition sinit (f : fifo) : sys := {| sf := f; sp := PIdle; sc := CIdle; hp := []; hc := []; slog := [] |}.
