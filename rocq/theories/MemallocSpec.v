(** * Specification for the pool allocator: a client with several live blocks *)
From Coq Require Import Sorting.Permutation.
From Verif Require Import Lib MemallocModel.
(** a live block: its address, the size asked for, and the bytes the client has stored and may rely on *)
Record block := { ptr : Z; req : Z; held : Z -> option Z }.
Inductive op := Malloc (size : Z) | Free (i : nat) | Realloc (i : nat) (size : Z) | Store (i : nat) (k v : Z).
Definition asked (o : op) : Z := match o with Malloc s => s | Realloc _ s => s | _ => 0 end.
Fixpoint set_nth {A} (i : nat) (x : A) (l : list A) : list A :=
  match l, i with [], _ => [] | _ :: l, O => x :: l | y :: l, S i => y :: set_nth i x l end.
Fixpoint del_nth {A} (i : nat) (l : list A) : list A :=
  match l, i with [], _ => [] | _ :: l, O => l | y :: l, S i => y :: del_nth i l end.
Section Client.
Variable find : heap -> Z -> option (option Z).
(** one call; a block number that is not live, or an offset outside the block, is not a call.  None: the library misbehaved *)
Definition step (st : heap * list block) (o : op) : option (heap * list block) :=
  let (h, live) := st in
  match o with
  | Malloc size =>
    let* (h, p) := alloc find h size in
    Some (h, if p =? 0 then live else {| ptr := p; req := size; held := fun _ => None |} :: live)
  | Free i =>
    match nth_error live i with
    | None => Some st
    | Some b => let* h := free h (ptr b) in Some (h, del_nth i live)
    end
  | Realloc i size =>
    match nth_error live i with
    | None => Some st
    | Some b =>
      let* (h, p) := realloc find h (ptr b) size in
      Some (h, if p =? 0 then live else set_nth i {| ptr := p; req := size; held := fun k => if (k <? req b) && (k <? size) then held b k else None |} live)
    end
  | Store i k v =>
    match nth_error live i with
    | None => Some st
    | Some b =>
      if (0 <=? k) && (k <? req b)
      then Some (set_dat h (fun a => if a =? ptr b + k then v else dat h a), set_nth i {| ptr := ptr b; req := req b; held := fun j => if j =? k then Some v else held b j |} live)
      else Some st
    end
  end.
Fixpoint run (st : heap * list block) (os : list op) : option (heap * list block) :=
  match os with [] => Some st | o :: os => let* st := step st o in run st os end.
End Client.
(** the header word of a chunk: the size, and the lowest bit when the chunk is in use *)
Definition size_of (h : heap) (a : Z) : Z := usz h a - usz h a mod 2.
Definition is_free (h : heap) (a : Z) : bool := usz h a mod 2 =? 0.
(** chunk after chunk from [a]: where the last one ends, if there is no gap *)
Fixpoint walk (h : heap) (a : Z) (bl : list Z) : option Z :=
  match bl with [] => Some a | x :: bl => if x =? a then walk h (a + 40 + size_of h a) bl else None end.
Definition total (h : heap) (l : list Z) : Z := fold_right (fun a t => size_of h a + t) 0 l.
(** the three policies: [fits] are the chunks large enough *)
Definition fits (h : heap) (size : Z) (n : Z) : Prop := In n (frees h) /\ size <= size_of h n.
