(** * Model of src/textsearch/kmp.c with its requests for blocks and its comparisons
    As TextModel, but [next_block] may depend on the requests made before (a stream), newest first in [hist], and every
    comparison of a pattern character with another character is counted in [n]. *)
From Verif Require Import Lib TextModel.

Section Kmp.
Variable up : Z -> Z.
Variable icase : bool.
(** kmp.c:83-84 and 59-60: the inner loop *)
Fixpoint kmp_back_c (fuel : nat) (pat tab : list Z) (c match_ n : Z) : option (Z * Z) :=
  if match_ =? 0 then Some (0, n) else
  let* p := rd pat match_ in
  let n := n + 1 in
  if p =? c then Some (match_, n) else
  match fuel with O => None | S fuel => let* m := rd tab (match_ - 1) in kmp_back_c fuel pat tab c m n end.
(** kmp.c:83-87 and 59-63 *)
Definition kmp_step_c (pat tab : list Z) (c match_ n : Z) : option (Z * Z) :=
  let* (match_, n) := kmp_back_c (length pat) pat tab c match_ n in
  let* p := rd pat match_ in
  Some (if p =? c then match_ + 1 else match_, n + 1).
(** kmp.c:82-90: the loop of [kmp_compute_prefix] from [index] on, [r] rounds left *)
Fixpoint kmp_prefix_c (r : nat) (pat tab : list Z) (index match_ n : Z) : option (list Z * Z) :=
  match r with
  | O => Some (tab, n)
  | S r =>
    let* c := rd pat index in
    let* (match_, n) := kmp_step_c pat tab c match_ n in
    let* tab := wr tab index match_ in
    kmp_prefix_c r pat tab (index + 1) match_ n
  end.
(** kmp.c:93-116: prepare, as in TextModel *)
Definition kmp_prepare_c (pattern : list Z) : option (kmp * Z) :=
  if 2 ^ 30 <=? zlen pattern then None else
  let pat := if icase then map (fun c => schar (up c)) pattern else pattern in
  let* (tab, n) := kmp_prefix_c (length pattern - 1) pat (repeat 0 (length pattern)) 1 0 0 in
  Some ({| kpat := pat; klen := zlen pattern; ktab := tab |}, n).
(** kmp.c:58-69 *)
Fixpoint kmp_block_c (k : kmp) (block : list Z) (consumed index match_ n : Z) : option ((Z + Z) * Z) :=
  match block with
  | [] => Some (inl match_, n)
  | t :: block =>
    let* (match_, n) := kmp_step_c (kpat k) (ktab k) (ch up icase t) match_ n in
    if match_ =? klen k then Some (inr (w32 (consumed + index + 1)), n) else kmp_block_c k block consumed (index + 1) match_ n
  end.
(** kmp.c:53-72; the new offset, the result, the requests and the comparisons *)
Fixpoint kmp_loop_c (fuel : nat) (k : kmp) (next : list Z -> Z -> list Z) (hist : list Z) (offset consumed match_ n : Z) : option (Z * Z * list Z * Z) :=
  match fuel with
  | O => None
  | S fuel =>
    let block := next hist consumed in
    let hist := consumed :: hist in
    if zlen block =? 0 then Some (offset, UINT_MAX, hist, n) else
    let* (r, n) := kmp_block_c k block consumed 0 match_ n in
    match r with
    | inr off => Some (off, w32 (off - klen k), hist, n)
    | inl match_ => kmp_loop_c fuel k next hist offset (w32 (consumed + zlen block)) match_ n
    end
  end.
(** kmp.c:39-75: [find] with tss->offset = [offset] *)
Definition kmp_find_c (fuel : nat) (k : kmp) (next : list Z -> Z -> list Z) (hist : list Z) (offset n : Z) : option (Z * Z * list Z * Z) :=
  kmp_loop_c fuel k next hist offset offset 0 n.
(** The client: find (textsearch.h:145-154) and then next (168-176) until nothing is found; results and comparisons *)
Fixpoint kmp_all_c (fuel : nat) (k : kmp) (next : Z -> list Z) (offset n : Z) : option (list Z * Z) :=
  match fuel with
  | O => None
  | S f =>
    let* (offset, r, _, n) := kmp_find_c fuel k (fun _ => next) [] offset n in
    if r =? UINT_MAX then Some ([], n) else let* (l, n) := kmp_all_c f k next offset n in Some (r :: l, n)
  end.
End Kmp.
