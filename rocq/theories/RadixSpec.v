(** * Specification of the radix array: a map from offsets to cells *)
From Verif Require Import Lib RadixModel.

(** An allocator answers NULL or the address of memory apart from all nodes there are (those were its earlier answers). *)
Definition allocator (al : nat -> heap -> Z) : Prop :=
  forall k h, (forall n, h n <> None -> exists j h', (j < k)%nat /\ n = al j h') ->
  al k h = NULL \/ 0 < al k h /\ forall n, h n <> None -> NODE <= Z.abs (al k h - n).
Definition may_fail (al : nat -> heap -> Z) : Prop := exists k h, al k h = NULL.

(** [st_cell]: the address of the cell of each allocated offset; [st_data]: what the client last stored there, if it did;
    [st_ok]: no allocation has failed since the last release. *)
Record rstate := { st_cell : Z -> option Z; st_data : Z -> option Z; st_ok : bool }.
Definition empty : rstate := {| st_cell := fun _ => None; st_data := fun _ => None; st_ok := true |}.
Definition live (s : rstate) (o : Z) : Prop := st_cell s o <> None.
Definition put {A} (f : Z -> A) (o : Z) (x : A) : Z -> A := fun i => if i =? o then x else f i.
Definition add (s : rstate) (o c : Z) : rstate :=
  {| st_cell := put (st_cell s) o (Some c); st_data := match st_cell s o with Some _ => st_data s | None => put (st_data s) o None end; st_ok := st_ok s |}.
Definition drop (s : rstate) (o : Z) : rstate := {| st_cell := put (st_cell s) o None; st_data := put (st_data s) o None; st_ok := st_ok s |}.
Definition broken (s : rstate) : rstate := {| st_cell := st_cell s; st_data := st_data s; st_ok := false |}.

(** Cells of one block of 256 offsets are laid out like an array, blocks do not overlap. *)
Definition start (o c : Z) : Z := c - o mod 256.
Definition apart (o c o' c' : Z) : Prop := if o / 256 =? o' / 256 then c - c' = o - o' else 256 <= Z.abs (start o c - start o' c').
Definition fits (s : rstate) (o c : Z) : Prop := 0 < start o c /\ forall o' c', st_cell s o' = Some c' -> apart o c o' c'.

Definition first_from (s : rstate) (lo hi o c : Z) : Prop := lo <= o < hi /\ st_cell s o = Some c /\ forall i, lo <= i < o -> ~ live s i.
Definition last_below (s : rstate) (hi o c : Z) : Prop := o < hi /\ st_cell s o = Some c /\ forall i, o < i < hi -> ~ live s i.

Section Step.
Variable full : Prop.
Inductive alloc_step (s : rstate) (o : Z) : Z -> rstate -> Prop :=
| alloc_ok c : fits s o c -> alloc_step s o c (add s o c)
| alloc_full : full -> (forall i, live s i -> i / 256 <> o / 256) -> alloc_step s o NULL (broken s).
(** one cell every 256 offsets *)
Inductive charge_steps (s : rstate) (o last : Z) : Z -> rstate -> Prop :=
| charge_done : last <= o -> charge_steps s o last 0 s
| charge_one c s1 code s' : o < last -> c <> NULL -> alloc_step s o c s1 -> charge_steps s1 (o + 256) last code s' -> charge_steps s o last code s'
| charge_full s' : o < last -> alloc_step s o NULL s' -> charge_steps s o last (- ENOMEM) s'.
Inductive rstep (s : rstate) : rop -> rres -> rstate -> Prop :=
| step_alloc o c s' : alloc_step s o c s' -> rstep s (RAlloc o) (RPtr c) s'
| free_live o : live s o -> rstep s (RFree o) (RCode 0) (drop s o)
| free_other o i : ~ live s o -> live s i -> i / 256 = o / 256 -> rstep s (RFree o) (RCode 0) s
| free_none o c : (forall i, live s i -> i / 256 <> o / 256) -> c = - ENOENT \/ o < 256 /\ c = 0 -> rstep s (RFree o) (RCode c) s
| step_find o : rstep s (RFind o) (RPtr match st_cell s o with Some c => c | None => NULL end) s
| charge_over o size : 2 ^ 64 <= o + size -> rstep s (RCharge o size) (RCode (- EOVERFLOW)) s
| charge_all o size code s' : o + size < 2 ^ 64 -> charge_steps s o (o + size) code s' -> rstep s (RCharge o size) (RCode code) s'
| step_release : rstep s RRelease RUnit empty
| step_store o v : live s o -> rstep s (RStore o v) RUnit {| st_cell := st_cell s; st_data := put (st_data s) o (Some v); st_ok := st_ok s |}
| step_load o v : (forall x, st_data s o = Some x -> v = x) -> rstep s (RLoad o) (RPtr v) s
| first_low o c : first_from s 0 256 o c -> rstep s RFirst (RAt (Some (c, o))) s
| first_none : (forall i, live s i -> 256 <= i) -> rstep s RFirst (RAt None) s
| last_one o c : last_below s (2 ^ 63) o c -> rstep s RLast (RAt (Some (c, o))) s
| last_none : (forall i, ~ live s i) -> rstep s RLast (RAt None) s
| next_one o o' c x : live s o -> first_from s (o + 1) (2 ^ 63) o' c -> (o' / 2 ^ 13 = o / 2 ^ 13 -> x = o') -> rstep s (RNext o) (RAt (Some (c, x))) s
| next_none o : ~ live s o \/ (forall i, live s i -> i <= o) -> rstep s (RNext o) (RAt None) s
| prev_one o o' c x : live s o -> last_below s o o' c -> (o' / 2 ^ 13 = o / 2 ^ 13 -> x = o') -> rstep s (RPrev o) (RAt (Some (c, x))) s
| prev_none o : ~ live s o \/ (forall i, live s i -> o <= i) -> rstep s (RPrev o) (RAt None) s.

(** Offsets that may be searched for: below 2^63 and either not above some allocated offset or of a length the capacity
    test gets right (see the refutations). *)
Definition clear (s : rstate) (o : Z) : Prop :=
  0 <= o < 2 ^ 63 /\ (o < 256 \/ Z.log2 o mod 5 <> 3 \/ exists i, live s i /\ o <= i).
Definition rallowed (s : rstate) (o : rop) : Prop :=
  match o with
  | RAlloc o => 0 <= o < 2 ^ 63
  | RFree o | RFind o => clear s o
  | RCharge o size => 0 <= o /\ 0 <= size /\ (o + size <= 2 ^ 63 \/ 2 ^ 64 <= o + size)
  | RStore o v => live s o /\ o mod 8 = 0 /\ u64 v
  | RLoad o => live s o /\ o mod 8 = 0
  | RLast => st_ok s = true
  | RNext o => clear s o /\ st_ok s = true
  | RPrev o => clear s o /\ st_ok s = true /\ (live s o -> o < 256 \/ exists i, live s i /\ i < o)
  | _ => True
  end.
Inductive reach : list (rop * rres) -> rstate -> Prop :=
| reach_nil : reach [] empty
| reach_step h s o r s' : reach h s -> rstep s o r s' -> reach (h ++ [(o, r)]) s'.
(** A client that keeps to the rules. *)
Definition polite (prog : list (rop * rres) -> rop) : Prop := forall h s, reach h s -> rallowed s (prog h).
End Step.
