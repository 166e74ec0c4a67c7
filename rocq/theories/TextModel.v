(** * Model of text searching: include/bfdev/textsearch.h, src/textsearch/{linear,kmp,sunday,bm}.c *)
From Verif Require Import Lib.

(** [next_block] (textsearch.h:78-80): the bytes from position [consumed] on, the empty list being the return value 0.
    textsearch/linear.c:10-23 [linear_next] *)
Definition linear_next (data : list Z) (consumed : Z) : list Z :=
  if consumed <? zlen data then skipn (Z.to_nat consumed) data else [].
Definition UINT_MAX : Z := 2 ^ 32 - 1.

(** ** Knuth-Morris-Pratt, kmp.c *)
(** kmp.c:9-14 without the search context *)
Record kmp := { kpat : list Z; klen : Z; ktab : list Z }.
(** conversion to char *)
Definition schar (v : Z) : Z := (v + 128) mod 256 - 128.
Section Kmp.
(** the C library's toupper and the flag BFDEV_TS_IGCASE *)
Variable up : Z -> Z.
Variable icase : bool.
(** kmp.c:42 find_pattern() *)
Definition ch (c : Z) : Z := if icase then up c else c.
(** kmp.c:83-84 and 59-60: the inner loop *)
Fixpoint kmp_back (fuel : nat) (pat tab : list Z) (c match_ : Z) : option Z :=
  if match_ =? 0 then Some 0 else
  let* p := rd pat match_ in
  if p =? c then Some match_ else
  match fuel with O => None | S fuel => let* m := rd tab (match_ - 1) in kmp_back fuel pat tab c m end.
(** kmp.c:83-87 and 59-63 *)
Definition kmp_step (pat tab : list Z) (c match_ : Z) : option Z :=
  let* match_ := kmp_back (length pat) pat tab c match_ in
  let* p := rd pat match_ in
  Some (if p =? c then match_ + 1 else match_).
(** kmp.c:82-90: the loop of [kmp_compute_prefix] from [index] on, [n] rounds left *)
Fixpoint kmp_prefix (n : nat) (pat tab : list Z) (index match_ : Z) : option (list Z) :=
  match n with
  | O => Some tab
  | S n =>
    let* c := rd pat index in
    let* match_ := kmp_step pat tab c match_ in
    let* tab := wr tab index match_ in
    kmp_prefix n pat tab (index + 1) match_
  end.
(** kmp.c:93-116: prepare.  Failing allocations are left out.  A length of 2^30 or more makes [prefix_size] wrap, so
    that table and pattern overlap: None. *)
Definition kmp_prepare (pattern : list Z) : option kmp :=
  if 2 ^ 30 <=? zlen pattern then None else
  let pat := if icase then map (fun c => schar (up c)) pattern else pattern in
  let* tab := kmp_prefix (length pattern - 1) pat (repeat 0 (length pattern)) 1 0 in
  Some {| kpat := pat; klen := zlen pattern; ktab := tab |}.
(** kmp.c:58-69: the bytes of one block from [index] on: either the number matched at the end of the block or the
    new offset *)
Fixpoint kmp_block (k : kmp) (block : list Z) (consumed index match_ : Z) : option (Z + Z) :=
  match block with
  | [] => Some (inl match_)
  | t :: block =>
    let* match_ := kmp_step (kpat k) (ktab k) (ch t) match_ in
    if match_ =? klen k then Some (inr (w32 (consumed + index + 1))) else kmp_block k block consumed (index + 1) match_
  end.
(** kmp.c:53-72; the new offset and the result *)
Fixpoint kmp_loop (fuel : nat) (k : kmp) (next : Z -> list Z) (offset consumed match_ : Z) : option (Z * Z) :=
  match fuel with
  | O => None
  | S fuel =>
    let block := next consumed in
    if zlen block =? 0 then Some (offset, UINT_MAX) else
    let* r := kmp_block k block consumed 0 match_ in
    match r with
    | inr off => Some (off, w32 (off - klen k))
    | inl match_ => kmp_loop fuel k next offset (w32 (consumed + zlen block)) match_
    end
  end.
(** kmp.c:39-75: [find] with tss->offset = [offset] *)
Definition kmp_find (fuel : nat) (k : kmp) (next : Z -> list Z) (offset : Z) : option (Z * Z) := kmp_loop fuel k next offset offset 0.
(** The client: find (textsearch.h:145-154) and then next (168-176) until nothing is found *)
Fixpoint kmp_all (fuel : nat) (k : kmp) (next : Z -> list Z) (offset : Z) : option (list Z) :=
  match fuel with
  | O => None
  | S f =>
    let* (offset, r) := kmp_find fuel k next offset in
    if r =? UINT_MAX then Some [] else let* l := kmp_all f k next offset in Some (r :: l)
  end.
End Kmp.

(** ** Sunday, sunday.c.  The text lies in memory [mem]; [length] bytes of it are the text, reads beyond the memory are None. *)
Record sunday := { spat : list Z; stab : list Z }.
Section Sunday.
Variables up low : Z -> Z.
Variable icase : bool.
(** sunday.c:83-92 (84-93): [sunday_compute_prefix], second loop.  The table has UINT8_MAX = 255 entries. *)
Fixpoint sunday_prefix (len : Z) (pat : list Z) (index : Z) (tab : list Z) : option (list Z) :=
  match pat with
  | [] => Some tab
  | p :: pat =>
    let* tab := wr tab p (w32 (len - index)) in
    let* tab := if icase then wr tab (low p) (w32 (len - index)) else Some tab in
    sunday_prefix len pat (index + 1) tab
  end.
(** sunday.c:78-117: prepare; the pattern is uint8_t *)
Definition sunday_prepare (pattern : list Z) : option sunday :=
  let pat := if icase then map (fun c => w8 (up c)) pattern else pattern in
  let len := zlen pattern in
  let* tab := sunday_prefix len pat 0 (repeat (w32 (len + 1)) 255) in
  Some {| spat := pat; stab := tab |}.
(** sunday.c:59-62: the comparison loop: number of equal bytes *)
Fixpoint sunday_cmp (pat mem : list Z) (pos : Z) : option Z :=
  match pat with
  | [] => Some 0
  | p :: pat =>
    let* t := rd mem pos in
    if p =? (if icase then up t else t) then let* n := sunday_cmp pat mem (pos + 1) in Some (n + 1) else Some 0
  end.
(** sunday.c:58-71: the loop over the shifts in one block; inl: the shift at its end, inr: a match *)
Fixpoint sunday_scan (fuel : nat) (s : sunday) (mem : list Z) (length shift : Z) : option (Z + Z) :=
  let len := zlen (spat s) in
  if len + shift <=? length then
    match fuel with
    | O => None
    | S fuel =>
      let* index := sunday_cmp (spat s) mem shift in
      if index =? len then Some (inr shift) else
      if length <=? len then Some (inl shift) else
      let* t := rd mem (shift + len) in
      let* d := rd (stab s) t in
      sunday_scan fuel s mem length (w32 (shift + d))
    end
  else Some (inl shift).
(** sunday.c:39-77 (find) over linear data: [mem] from the current offset on; the block that follows the first is always empty *)
Definition sunday_find (s : sunday) (mem : list Z) (datalen offset : Z) : option Z :=
  if offset <? datalen then
    let* r := sunday_scan (S (Z.to_nat datalen)) s (skipn (Z.to_nat offset) mem) (datalen - offset) 0 in
    match r with inr shift => Some (w32 (offset + shift)) | inl _ => Some UINT_MAX end
  else Some UINT_MAX.
End Sunday.

(** ** Boyer-Moore, bm.c *)
Record bm := { bpat : list Z; bbad : list Z; bgood : list Z }.
(** bm.c:80-96 [subpattern]; int arithmetic; [g], [x] and [y] as in the loop, None for an access outside the pattern *)
Fixpoint subpattern_loop (fuel : nat) (pat : list Z) (index j g x y : Z) : option bool :=
  match fuel with
  | O => None
  | S fuel =>
    if y =? 0 then Some false else
    let* a := rd pat x in
    let* b := rd pat y in
    let x := x - 1 in let y := y - 1 in
    if a =? b then
      if y <? 0 then Some true else
      let g := g - 1 in
      if g =? 0 then let* c := rd pat (index - 1) in let* d := rd pat (j - 1) in Some (negb (c =? d)) else
      subpattern_loop fuel pat index j g x y
    else Some false
  end.
Definition subpattern (pat : list Z) (index j g : Z) : option bool := subpattern_loop (S (length pat)) pat index j g (index + g - 1) (j + g - 1).
Section Bm.
Variables up low : Z -> Z.
Variable icase : bool.
(** bm.c:106-112 *)
Fixpoint bm_bad (len : Z) (n : nat) (pat : list Z) (index : Z) (tab : list Z) : option (list Z) :=
  match n, pat with
  | S n, p :: pat =>
    let* tab := wr tab p (w32 (len - index - 1)) in
    let* tab := if icase then wr tab (low p) (w32 (len - index - 1)) else Some tab in
    bm_bad len n pat (index + 1) tab
  | _, _ => Some tab
  end.
(** bm.c:119-124: [n] bounds the number of rounds *)
Fixpoint bm_inner (n : nat) (pat : list Z) (index start count : Z) (good : list Z) : option (list Z) :=
  if count <? 1 - start then Some good else
  match n with
  | O => None
  | S n =>
    let* b := subpattern pat index count start in
    if b then wr good count (w32 (zlen pat - start - count)) else bm_inner n pat index start (count - 1) good
  end.
(** bm.c:118-125 *)
Fixpoint bm_outer (n : nat) (pat : list Z) (index start : Z) (good : list Z) : option (list Z) :=
  match n with
  | O => Some good
  | S n => let* good := bm_inner (S (length pat)) pat index start (index - 1) good in bm_outer n pat (index - 1) (start + 1) good
  end.
(** bm.c:98-151: prepare, for a non-empty pattern; the pattern is uint8_t *)
Definition bm_prepare (pattern : list Z) : option bm :=
  let pat := if icase then map (fun c => w8 (up c)) pattern else pattern in
  let len := zlen pat in
  let* bad := bm_bad len (length pat - 1) pat 0 (repeat len 255) in
  let* good := wr (repeat len (length pat)) 0 1 in
  let* good := bm_outer (length pat - 1) pat (len - 1) 1 good in
  Some {| bpat := pat; bbad := bad; bgood := good |}.
(** bm.c:61-64: number of bytes equal, from the last one; [rpat] is the reversed pattern *)
Fixpoint bm_cmp (rpat mem : list Z) (pos : Z) : option Z :=
  match rpat with
  | [] => Some 0
  | p :: rpat => let* t := rd mem pos in if p =? (if icase then up t else t) then let* n := bm_cmp rpat mem (pos - 1) in Some (n + 1) else Some 0
  end.
(** bm.c:60-72 *)
Fixpoint bm_scan (fuel : nat) (b : bm) (mem : list Z) (length shift : Z) : option (Z + Z) :=
  if shift <? length then
    match fuel with
    | O => None
    | S fuel =>
      let* index := bm_cmp (List.rev (bpat b)) mem shift in
      if index =? zlen (bpat b) then Some (inr shift) else
      let* t := rd mem (shift - index) in
      let* d := rd (bbad b) t in
      let* g := rd (bgood b) index in
      let bad_shift := w32 (shift - index + d) in
      let good_shift := w32 (shift + g) in
      bm_scan fuel b mem length (Z.max bad_shift good_shift)
    end
  else Some (inl shift).
(** bm.c:40-78 over linear data *)
Definition bm_find (b : bm) (mem : list Z) (datalen offset : Z) : option Z :=
  if offset <? datalen then
    let* r := bm_scan (S (Z.to_nat datalen)) b (skipn (Z.to_nat offset) mem) (datalen - offset) (w32 (zlen (bpat b) - 1)) in
    match r with inr shift => Some (w32 (offset + shift - zlen (bpat b) + 1)) | inl _ => Some UINT_MAX end
  else Some UINT_MAX.
End Bm.
(** textsearch.h:142-176 [bfdev_textsearch_find] and [bfdev_textsearch_next] over an algorithm that takes the offset of the state
    and leaves a new one: the results of one find and [n] nexts.  sunday.c:38-80 and bm.c:40-78 leave the offset alone. *)
Fixpoint ts_nexts (find : Z -> option (Z * Z)) (n : nat) (offset : Z) : option (list Z) :=
  match n with
  | O => Some []
  | S n => let* (r, offset) := find offset in let* l := ts_nexts find n offset in Some (r :: l)
  end.
Definition ts_find (find : Z -> option (Z * Z)) (n : nat) : option (list Z) := ts_nexts find (S n) 0.
Definition sunday_algo (up : Z -> Z) (icase : bool) (s : sunday) (mem : list Z) (datalen offset : Z) : option (Z * Z) :=
  let* r := sunday_find up icase s mem datalen offset in Some (r, offset).
Definition bm_algo (up : Z -> Z) (icase : bool) (b : bm) (mem : list Z) (datalen offset : Z) : option (Z * Z) :=
  let* r := bm_find up icase b mem datalen offset in Some (r, offset).
