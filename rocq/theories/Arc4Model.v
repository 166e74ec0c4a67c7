(** * Model of src/crypto/arc4.c (and include/bfdev/arc4.h:19-25) *)
From Verif Require Import Lib.

(** include/bfdev/arc4.h:21-25 [struct bfdev_arc4_ctx]. *)
Record arc4_ctx := { box : list Z; proa : Z; prob : Z }.

(** arc4.c:25-45, the loop, with its locals. [data] is the rest of the input; the
    result is the bytes stored through [*buff++] and the final context.
    [size] is the length of [data], at least 1 here (checked at line 52). *)
Fixpoint arc4_loop (bx : list Z) (pa pb vx vy : Z) (data : list Z)
  : option (list Z * arc4_ctx) :=
  match data with
  | [] => None  (* not entered: size >= 1 at every iteration *)
  | d :: data' =>
    let* bx := wr bx pb vx in                      (* line 26 *)
    let vx := w8 (vx + vy) in                      (* line 27 *)
    let* bx := wr bx pa vy in                      (* line 28 *)
    let pa := w8 (pa + 1) in                       (* line 29 *)
    let* tx := rd bx pa in                         (* line 31 *)
    let tb := w8 (pb + tx) in                      (* line 32 *)
    let* ty := rd bx tb in                         (* line 33 *)
    let* kv := rd bx vx in                         (* line 34 *)
    let out := Z.lxor d kv in
    match data' with
    | [] => Some ([out], {| box := bx; proa := pa; prob := pb |})
    | _ =>
      let* (outs, ctx) := arc4_loop bx pa tb tx ty data' in
      Some (out :: outs, ctx)
    end
  end.

(** arc4.c:10-23: prologue of [arc4_transform]; arc4.c:48-56 [bfdev_arc4_trans]. *)
Definition arc4_trans (ctx : arc4_ctx) (data : list Z) : option (list Z * arc4_ctx) :=
  match data with
  | [] => Some ([], ctx)                           (* line 52 *)
  | _ =>
    let* vx := rd (box ctx) (proa ctx) in          (* line 21 *)
    let pb := w8 (prob ctx + vx) in                (* line 22 *)
    let* vy := rd (box ctx) pb in                  (* line 23 *)
    arc4_loop (box ctx) (proa ctx) pb vx vy data
  end.

(** arc4.c:75-80: the key loop, [n] iterations left, starting at [count]. *)
Fixpoint arc4_setkey_loop (n : nat) (count loop : Z) (key bx : list Z) : option (list Z) :=
  match n with
  | O => Some bx
  | S n' =>
    let* value := rd bx count in
    let* k := rd key (count mod zlen key) in
    let loop := w8 (loop + (k + value)) in
    let* x := rd bx loop in
    let* bx := wr bx count x in
    let* bx := wr bx loop value in
    arc4_setkey_loop n' (count + 1) loop key bx
  end.

(** arc4.c:58-81 [bfdev_arc4_setkey]; [key] is the key of length [klen].
    BFDEV_ARC4_KSIZE = 256 (include/bfdev/arc4.h:17). *)
Definition arc4_setkey (ctx : arc4_ctx) (key : list Z) : option arc4_ctx :=
  match key with
  | [] => Some ctx                                 (* line 65 *)
  | _ =>
    let* bx := arc4_setkey_loop 256 0 0 key (zseq 0 256) in
    Some {| box := bx; proa := 1; prob := 0 |}
  end.

(** A sequence of trans calls on the chunks of a message (calling convention of
    include/bfdev/arc4.h:27-38; the loop is the caller's). *)
Fixpoint arc4_trans_chunks (ctx : arc4_ctx) (chunks : list (list Z))
  : option (list Z * arc4_ctx) :=
  match chunks with
  | [] => Some ([], ctx)
  | c :: cs =>
    let* (o, ctx) := arc4_trans ctx c in
    let* (os, ctx) := arc4_trans_chunks ctx cs in
    Some (o ++ os, ctx)
  end.
