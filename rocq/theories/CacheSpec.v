(** * Specification of caches
    The nodes of a cache are free, being filled (pending), in use (busy), or idle: filled, not in use, and candidates for
    eviction. *)
From Verif Require Import Lib Ptr CacheModel.
From Coq Require Export Permutation Sorted.

Record cs := { s_free : list Z; s_pend : list Z; s_busy : list Z; s_idle : list Z;
               s_tag : Z -> Z; s_refs : Z -> Z; s_uses : Z -> Z;
               s_dirty : bool; s_starving : bool; s_changed : Z; s_starve : Z; s_hits : Z; s_misses : Z }.
Definition live (s : cs) : list Z := s_pend s ++ s_busy s ++ s_idle s.
Definition absent (s : cs) (t : Z) : Prop := forall n, In n (live s) -> s_tag s n <> t.
Definition put_at (f : Z -> Z) (n v : Z) : Z -> Z := fun x => if x =? n then v else f x.
Definition move (s : cs) (free pend busy idle : list Z) (tag refs uses : Z -> Z) : cs :=
  {| s_free := free; s_pend := pend; s_busy := busy; s_idle := idle; s_tag := tag; s_refs := refs; s_uses := uses;
     s_dirty := s_dirty s; s_starving := s_starving s; s_changed := s_changed s; s_starve := s_starve s; s_hits := s_hits s; s_misses := s_misses s |}.
Definition note (s : cs) (dirty starving : bool) (changed starve hits misses : Z) : cs :=
  {| s_free := s_free s; s_pend := s_pend s; s_busy := s_busy s; s_idle := s_idle s; s_tag := s_tag s; s_refs := s_refs s; s_uses := s_uses s;
     s_dirty := dirty; s_starving := starving; s_changed := changed; s_starve := starve; s_hits := hits; s_misses := misses |}.
(** Counters are 64-bit words. *)
Definition hit (s : cs) : cs := note s (s_dirty s) (s_starving s) (s_changed s) (s_starve s) (w64 (s_hits s + 1)) (s_misses s).
Definition miss (s : cs) (dirty starving : bool) : cs := note s dirty starving (s_changed s) (s_starve s) (s_hits s) (w64 (s_misses s + 1)).
Definition calm (s : cs) : cs := note s (s_dirty s) false (s_changed s) (s_starve s) (s_hits s) (s_misses s).
Definition stats (s : cs) : list Z :=
  [Z.b2z (s_dirty s) + 2 * Z.b2z (s_starving s); zlen (s_pend s) + zlen (s_busy s); zlen (s_pend s); s_changed s; s_starve s; s_hits s; s_misses s].
(** The nodes of [l] and their number of uses may lead to the eviction of a node. *)
Definition policy := list Z -> (Z -> Z) -> Z -> Prop.
(** Idle nodes are listed from the most recently released on. *)
Definition lru : policy := fun l _ v => exists l', l = l' ++ [v].
Definition lfu : policy := fun l uses v => In v l /\ forall x, In x l -> uses v <= uses x.

Section Step.
Variables (maxpend : Z) (all : list Z) (victim : policy).
Inductive cstep (s : cs) : cop -> cres -> cs -> Prop :=
| find_hit t n : In n (s_busy s ++ s_idle s) -> s_tag s n = t -> cstep s (CFind t) (RNode n) s
| find_miss t : (forall n, In n (s_busy s ++ s_idle s) -> s_tag s n <> t) -> cstep s (CFind t) (RNode NULL) s
| obtain_starved t fl : s_starving s = true ->
    cstep s (CObtain t fl) (RNode NULL) (note s (s_dirty s) true (s_changed s) (w64 (s_starve s + 1)) (s_hits s) (s_misses s))
| obtain_pending t fl n : s_starving s = false -> In n (s_pend s) -> s_tag s n = t -> Z.testbit fl UNCOMMITTED = false -> cstep s (CObtain t fl) (RNode NULL) (hit s)
| obtain_early t fl n : s_starving s = false -> In n (s_pend s) -> s_tag s n = t -> Z.testbit fl UNCOMMITTED = true ->
    cstep s (CObtain t fl) (RNode n) (move (hit s) (s_free s) (s_pend s) (s_busy s) (s_idle s) (s_tag s) (put_at (s_refs s) n (s_refs s n + 1)) (s_uses s))
| obtain_busy t fl l1 n l2 : s_starving s = false -> s_busy s = l1 ++ n :: l2 -> s_tag s n = t ->
    cstep s (CObtain t fl) (RNode n) (move (hit s) (s_free s) (s_pend s) (n :: l1 ++ l2) (s_idle s) (s_tag s) (put_at (s_refs s) n (s_refs s n + 1)) (put_at (s_uses s) n (w64 (s_uses s n + 1))))
| obtain_idle t fl l1 n l2 : s_starving s = false -> s_idle s = l1 ++ n :: l2 -> s_tag s n = t ->
    cstep s (CObtain t fl) (RNode n) (move (hit s) (s_free s) (s_pend s) (n :: s_busy s) (l1 ++ l2) (s_tag s) (put_at (s_refs s) n 1) (put_at (s_uses s) n (w64 (s_uses s n + 1))))
| miss_only t fl : s_starving s = false -> absent s t -> Z.testbit fl CHANGE = false -> cstep s (CObtain t fl) (RNode NULL) (miss s (s_dirty s) false)
| miss_starving t fl : s_starving s = false -> absent s t -> Z.testbit fl CHANGE = true -> s_free s = [] -> s_idle s = [] -> cstep s (CObtain t fl) (RNode NULL) (miss s true true)
| miss_full t fl : s_starving s = false -> absent s t -> Z.testbit fl CHANGE = true -> s_free s <> [] \/ s_idle s <> [] -> maxpend <= zlen (s_pend s) ->
    cstep s (CObtain t fl) (RNode NULL) (miss s true false)
| miss_free t fl n l : s_starving s = false -> absent s t -> Z.testbit fl CHANGE = true -> zlen (s_pend s) < maxpend -> s_free s = n :: l ->
    cstep s (CObtain t fl) (RNode n) (move (miss s true false) l (n :: s_pend s) (s_busy s) (s_idle s) (put_at (s_tag s) n t) (put_at (s_refs s) n 1) (put_at (s_uses s) n 0))
| miss_evict t fl l1 n l2 : s_starving s = false -> absent s t -> Z.testbit fl CHANGE = true -> zlen (s_pend s) < maxpend -> s_free s = [] -> s_idle s = l1 ++ n :: l2 -> victim (s_idle s) (s_uses s) n ->
    cstep s (CObtain t fl) (RNode n) (move (miss s true false) [] (n :: s_pend s) (s_busy s) (l1 ++ l2) (put_at (s_tag s) n t) (put_at (s_refs s) n 1) (put_at (s_uses s) n 0))
| put_one n : In n (s_busy s) -> 1 < s_refs s n ->
    cstep s (CPut n) (RInt (s_refs s n - 1)) (move s (s_free s) (s_pend s) (s_busy s) (s_idle s) (s_tag s) (put_at (s_refs s) n (s_refs s n - 1)) (s_uses s))
| put_last l1 n l2 : s_busy s = l1 ++ n :: l2 -> s_refs s n = 1 ->
    cstep s (CPut n) (RInt 0) (move (calm s) (s_free s) (s_pend s) (l1 ++ l2) (n :: s_idle s) (s_tag s) (put_at (s_refs s) n 0) (s_uses s))
| put_not n : ~ In n (s_busy s) -> cstep s (CPut n) (RInt (w64 (- EINVAL))) s
| set_idle l1 n l2 t : s_idle s = l1 ++ n :: l2 ->
    cstep s (CSet n t) (RInt 0) (move s (s_free s) (s_pend s) (s_busy s) (n :: l1 ++ l2) (put_at (s_tag s) n t) (s_refs s) (put_at (s_uses s) n (w64 (s_uses s n + 1))))
| set_not n t : ~ In n (s_idle s) -> cstep s (CSet n t) (RInt (- EBUSY)) s
| del_idle l1 n l2 : s_idle s = l1 ++ n :: l2 ->
    cstep s (CDel n) (RInt 0) (move s (n :: s_free s) (s_pend s) (s_busy s) (l1 ++ l2) (s_tag s) (s_refs s) (s_uses s))
| del_not n : ~ In n (s_idle s) -> cstep s (CDel n) (RInt (- EBUSY)) s
| commit : cstep s CCommit RUnit (move (note s (s_dirty s) (s_starving s) (w64 (s_changed s + zlen (s_pend s))) (s_starve s) (s_hits s) (s_misses s))
                                  (s_free s) [] (rev (s_pend s) ++ s_busy s) (s_idle s) (s_tag s) (s_refs s) (s_uses s))
| cleared : cstep s CReset RUnit (move (note s false false (s_changed s) 0 0 0) (rev all) [] [] [] (s_tag s) (fun _ => 0) (fun _ => 0))
| stat : cstep s CStat (RStat (stats s)) s.
(** What a client must keep to: put, rename and delete only nodes that it got and that were not given back since; do not
    rename a node to the tag of another one; do not clear the cache while a node is pending or in use; do not hold a node
    2^63 times. *)
Definition callowed (s : cs) (o : cop) : Prop :=
  match o with
  | CObtain t _ => forall n, In n (live s) -> s_tag s n = t -> s_refs s n < 2 ^ 63 - 1
  | CPut n | CDel n => In n (live s)
  | CSet n t => In n (live s) /\ forall x, In x (live s) -> x <> n -> s_tag s x <> t
  | CReset => s_pend s = [] /\ s_busy s = []
  | _ => True
  end.
Definition fresh : cs := {| s_free := rev all; s_pend := []; s_busy := []; s_idle := []; s_tag := fun _ => 0; s_refs := fun _ => 0; s_uses := fun _ => 0;
  s_dirty := false; s_starving := false; s_changed := 0; s_starve := 0; s_hits := 0; s_misses := 0 |}.
(** The states that a sequence of allowed operations and results may lead to. *)
Inductive reach : list (cop * cres) -> cs -> Prop :=
| reach_nil : reach [] fresh
| reach_step h s o r s' : reach h s -> callowed s o -> cstep s o r s' -> reach (h ++ [(o, r)]) s'.
(** A client that keeps to the rules. *)
Definition polite (prog : list (cop * cres) -> cop) : Prop := forall h s, reach h s -> callowed s (prog h).
End Step.
(** The user's functions: [c_find] tells whether the data stored for a tag is that of another tag. *)
Definition lawful (cf : conf) (dat : Z -> Z) : Prop := forall t t', c_find cf (dat t) t' = 0 <-> t = t'.
(** The memory that bfdev_cache_create works on: [c_size] nodes, a power of two (cache.c:316-318), with cleared fields and
    lists, an array of empty heads. *)
Definition ready (cf : conf) (hm lm nm : mem) : Prop :=
  let heads := map (fun i => c_taghash cf + 8 * i) (zseq 0 (Z.to_nat (c_size cf))) in
  (exists b, 1 <= b < 60 /\ c_size cf = 2 ^ b) /\ zlen (c_nodes cf) = c_size cf /\ 0 <= c_maxpend cf /\
  NoDup (c_using cf :: c_freed cf :: c_changing cf :: c_nodes cf) /\ NoDup (heads ++ c_nodes cf) /\ ~ In NULL (c_nodes cf) /\
  (forall p f, In p (c_using cf :: c_freed cf :: c_changing cf :: c_nodes cf) -> 0 <= f < 2 -> exists x, lm p f = Some x) /\
  (forall h, In h heads -> hm h 0 = Some NULL) /\
  (forall p f, In p (c_nodes cf) -> 0 <= f < 2 -> exists x, hm p f = Some x) /\
  (forall p f, In p (c_nodes cf) -> 0 <= f < 4 -> nm p f = Some 0).
(** ** The life of one node, from what a client did and saw
    [l_tag] is the tag it holds, [l_pend] whether it is pending, [l_refs] how often it is held, [l_uses] how often it was
    used since it got its tag, [l_last] the position of the operation that last released it. *)
Record life := { l_tag : option Z; l_pend : bool; l_refs : Z; l_uses : Z; l_last : nat }.
Definition same_tag (o : option Z) (t : Z) : bool := match o with Some x => x =? t | None => false end.
Definition life_step (n : Z) (i : nat) (l : life) (e : cop * cres) : life :=
  match e with
  | (CObtain t _, RNode x) =>
      if negb (x =? n) then l else
      if negb (same_tag (l_tag l) t) then {| l_tag := Some t; l_pend := true; l_refs := 1; l_uses := 0; l_last := l_last l |} else
      {| l_tag := l_tag l; l_pend := l_pend l; l_refs := l_refs l + 1; l_uses := if l_pend l then l_uses l else w64 (l_uses l + 1); l_last := l_last l |}
  | (CPut x, RInt r) =>
      if negb (x =? n) || (2 ^ 63 <=? r) then l else
      {| l_tag := l_tag l; l_pend := l_pend l; l_refs := l_refs l - 1; l_uses := l_uses l; l_last := if r =? 0 then i else l_last l |}
  | (CSet x t, RInt r) =>
      if negb (x =? n) || negb (r =? 0) then l else
      {| l_tag := Some t; l_pend := l_pend l; l_refs := l_refs l; l_uses := w64 (l_uses l + 1); l_last := i |}
  | (CDel x, RInt r) =>
      if negb (x =? n) || negb (r =? 0) then l else
      {| l_tag := None; l_pend := l_pend l; l_refs := l_refs l; l_uses := l_uses l; l_last := l_last l |}
  | (CCommit, _) => {| l_tag := l_tag l; l_pend := false; l_refs := l_refs l; l_uses := l_uses l; l_last := l_last l |}
  | (CReset, _) => {| l_tag := None; l_pend := false; l_refs := 0; l_uses := 0; l_last := l_last l |}
  | _ => l
  end.
Fixpoint lives (n : Z) (i : nat) (l : life) (h : list (cop * cres)) : life := match h with [] => l | e :: h => lives n (S i) (life_step n i l e) h end.
Definition life_of (h : list (cop * cres)) (n : Z) : life := lives n 0 {| l_tag := None; l_pend := false; l_refs := 0; l_uses := 0; l_last := 0 |} h.
