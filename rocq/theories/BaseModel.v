(** * Model of src/crypto/base64.c and src/crypto/base32.c

    Buffers: the source text is a list of bytes; the encoder's output is the
    list of bytes stored through [*buff++] in order (every store of the encoder
    is to the next position, so the written list determines the buffer);
    the decoder's output buffer is a list written through checked stores, because
    the decoder also does read-modify-write on it. *)
From Verif Require Import Lib.

(** src/crypto/base64.c:10-20 [base64_encode_table] (character codes). *)
Definition base64_encode_table : list Z :=
  [65; 66; 67; 68; 69; 70; 71; 72;
   73; 74; 75; 76; 77; 78; 79; 80;
   81; 82; 83; 84; 85; 86; 87; 88;
   89; 90; 97; 98; 99; 100; 101; 102;
   103; 104; 105; 106; 107; 108; 109; 110;
   111; 112; 113; 114; 115; 116; 117; 118;
   119; 120; 121; 122; 48; 49; 50; 51;
   52; 53; 54; 55; 56; 57; 43; 47].

(** src/crypto/base64.c:22-41 [base64_decode_table]: designated initialisers;
    every other entry is 0xff (line 24). *)
Definition base64_decode_inits : list (Z * Z) :=
  [(65, 0); (66, 1); (67, 2); (68, 3); (69, 4); (70, 5); (71, 6); (72, 7);
   (73, 8); (74, 9); (75, 10); (76, 11); (77, 12); (78, 13); (79, 14); (80, 15);
   (81, 16); (82, 17); (83, 18); (84, 19); (85, 20); (86, 21); (87, 22); (88, 23);
   (89, 24); (90, 25); (97, 26); (98, 27); (99, 28); (100, 29); (101, 30); (102, 31);
   (103, 32); (104, 33); (105, 34); (106, 35); (107, 36); (108, 37); (109, 38); (110, 39);
   (111, 40); (112, 41); (113, 42); (114, 43); (115, 44); (116, 45); (117, 46); (118, 47);
   (119, 48); (120, 49); (121, 50); (122, 51); (48, 52); (49, 53); (50, 54); (51, 55);
   (52, 56); (53, 57); (54, 58); (55, 59); (56, 60); (57, 61); (43, 62); (47, 63)].

(** src/crypto/base32.c:10-16 [base32_encode_table]. *)
Definition base32_encode_table : list Z :=
  [65; 66; 67; 68; 69; 70; 71; 72;
   73; 74; 75; 76; 77; 78; 79; 80;
   81; 82; 83; 84; 85; 86; 87; 88;
   89; 90; 50; 51; 52; 53; 54; 55].

(** src/crypto/base32.c:18-29 [base32_decode_table]. *)
Definition base32_decode_inits : list (Z * Z) :=
  [(65, 0); (66, 1); (67, 2); (68, 3); (69, 4); (70, 5); (71, 6); (72, 7);
   (73, 8); (74, 9); (75, 10); (76, 11); (77, 12); (78, 13); (79, 14); (80, 15);
   (81, 16); (82, 17); (83, 18); (84, 19); (85, 20); (86, 21); (87, 22); (88, 23);
   (89, 24); (90, 25); (50, 26); (51, 27); (52, 28); (53, 29); (54, 30); (55, 31)].

(** C designated-initialiser semantics for the two 256-entry tables
    (base64.c:22-41, base32.c:18-29): the listed entry, 0xff otherwise. *)
Definition decode_lookup (inits : list (Z * Z)) (c : Z) : Z :=
  match find (fun p => fst p =? c) inits with
  | Some (_, v) => v
  | None => 255
  end.

(** base64.c:47-55: one iteration of the main loop. [prev] and [data] coincide
    at the head of every iteration, so they are the three bytes [a b c]. *)
Definition base64_enc3 (a b c : Z) : option (list Z) :=
  let* x0 := rd base64_encode_table (Z.shiftr a 2) in
  let* x1 := rd base64_encode_table (Z.lor (Z.shiftl (Z.land a 3) 4) (Z.shiftr b 4)) in
  let* x2 := rd base64_encode_table (Z.lor (Z.shiftl (Z.land b 15) 2) (Z.shiftr c 6)) in
  let* x3 := rd base64_encode_table (Z.land c 63) in
  Some [x0; x1; x2; x3].

(** base64.c:76-90: final switch, emitting the last character and padding. *)
Definition base64_finish (bstate : Z) (prev : list Z) : option (list Z) :=
  if bstate =? 1 then
    let* p := hd_error prev in
    let* x := rd base64_encode_table (Z.shiftl (Z.land p 3) 4) in
    Some [x; 61; 61]
  else if bstate =? 2 then
    let* p := hd_error prev in
    let* x := rd base64_encode_table (Z.shiftl (Z.land p 15) 2) in
    Some [x; 61]
  else Some [].

(** base64.c:57-74: the state-machine loop over the at most two remaining bytes,
    with the two read pointers [prev] and [data]. *)
Fixpoint base64_tail (bstate : Z) (prev data : list Z) : option (list Z) :=
  match data with
  | [] => base64_finish bstate prev
  | d :: data' =>
    if bstate =? 0 then
      let* x := rd base64_encode_table (Z.shiftr d 2) in
      let* r := base64_tail 1 prev data' in
      Some (x :: r)
    else if bstate =? 1 then
      let* p := hd_error prev in
      let* x := rd base64_encode_table (Z.lor (Z.shiftl (Z.land p 3) 4) (Z.shiftr d 4)) in
      let* r := base64_tail 2 (tl prev) data' in
      Some (x :: r)
    else
      let* p := hd_error prev in
      let* x := rd base64_encode_table (Z.lor (Z.shiftl (Z.land p 15) 2) (Z.shiftr d 6)) in
      let* q := hd_error (tl prev) in
      let* y := rd base64_encode_table (Z.land q 63) in
      let* r := base64_tail 0 (tl (tl prev)) data' in
      Some (x :: y :: r)
  end.

(** base64.c:43-91 / 133-137 [bfdev_base64_encode]. *)
Fixpoint base64_encode (data : list Z) : option (list Z) :=
  match data with
  | a :: b :: c :: rest =>
    let* x := base64_enc3 a b c in
    let* r := base64_encode rest in
    Some (x ++ r)
  | _ => base64_tail 0 data data
  end.

(** base64.c:109-127: the switch of the decoder. [pos] is the index of [*buff]. *)
Definition base64_dec_store (buff : list Z) (pos bstate decode : Z) : option (list Z * Z) :=
  let st := Z.land bstate 3 in
  if st =? 0 then
    let* buff := wr buff pos (w8 (Z.shiftl decode 2)) in
    Some (buff, pos)
  else if st =? 1 then
    let* o := rd buff pos in
    let* buff := wr buff pos (Z.lor o (Z.land (Z.shiftr decode 4) 3)) in
    let* buff := wr buff (pos + 1) (w8 (Z.shiftl decode 4)) in
    Some (buff, pos + 1)
  else if st =? 2 then
    let* o := rd buff pos in
    let* buff := wr buff pos (Z.lor o (Z.land (Z.shiftr decode 2) 15)) in
    let* buff := wr buff (pos + 1) (w8 (Z.shiftl decode 6)) in
    Some (buff, pos + 1)
  else
    let* o := rd buff pos in
    let* buff := wr buff pos (Z.lor o decode) in
    Some (buff, pos + 1).

(** base64.c:93-131 [base64_decode]: returns the return code and the buffer;
    [None] is an access outside [buff]. *)
Fixpoint base64_decode_loop (buff : list Z) (pos bstate : Z) (data : list Z)
  : option (Z * list Z) :=
  match data with
  | [] => Some (- ENOERR, buff)
  | d :: data' =>
    let decode := decode_lookup base64_decode_inits d in
    if decode =? 255 then
      if d =? 61 then Some (- ENOERR, buff)
      else Some (- EINVAL, buff)
    else
      let* (buff, pos) := base64_dec_store buff pos bstate decode in
      base64_decode_loop buff pos (w32 (bstate + 1)) data'
  end.

(** base64.c:139-143 [bfdev_base64_decode]. *)
Definition base64_decode (buff data : list Z) : option (Z * list Z) :=
  base64_decode_loop buff 0 0 data.

(** include/bfdev/base64.h:20-34 (size_t wrap-around not modelled: sizes of
    objects that fit in memory). *)
Definition base64_encode_length (size : Z) : Z := (size + 3 - 1) / 3 * 4.
Definition base64_decode_length (size : Z) : Z := (size + 4 - 1) / 4 * 3.

(** ** base32 *)

(** base32.c:38-47: one iteration of the main loop on five bytes. *)
Definition base32_enc5 (a b c d e : Z) : option (list Z) :=
  let* x0 := rd base32_encode_table (Z.shiftr a 3) in
  let* x1 := rd base32_encode_table (Z.lor (Z.shiftl (Z.land a 7) 2) (Z.shiftr b 6)) in
  let* x2 := rd base32_encode_table (Z.land (Z.shiftr b 1) 31) in
  let* x3 := rd base32_encode_table (Z.lor (Z.shiftl (Z.land b 1) 4) (Z.shiftr c 4)) in
  let* x4 := rd base32_encode_table (Z.lor (Z.shiftl (Z.land c 15) 1) (Z.shiftr d 7)) in
  let* x5 := rd base32_encode_table (Z.land (Z.shiftr d 2) 31) in
  let* x6 := rd base32_encode_table (Z.lor (Z.shiftl (Z.land d 3) 3) (Z.shiftr e 5)) in
  let* x7 := rd base32_encode_table (Z.land e 31) in
  Some [x0; x1; x2; x3; x4; x5; x6; x7].

(** base32.c:80-113: final switch. *)
Definition base32_finish (bstate : Z) (prev : list Z) : option (list Z) :=
  if bstate =? 1 then
    let* p := hd_error prev in
    let* x := rd base32_encode_table (Z.shiftl (Z.land p 7) 2) in
    Some [x; 61; 61; 61; 61; 61; 61]
  else if bstate =? 2 then
    let* p := hd_error prev in
    let* x := rd base32_encode_table (Z.shiftl (Z.land p 1) 4) in
    Some [x; 61; 61; 61; 61]
  else if bstate =? 3 then
    let* p := hd_error prev in
    let* x := rd base32_encode_table (Z.shiftl (Z.land p 15) 1) in
    Some [x; 61; 61; 61]
  else if bstate =? 4 then
    let* p := hd_error prev in
    let* x := rd base32_encode_table (Z.shiftl (Z.land p 3) 3) in
    Some [x; 61]
  else Some [].

(** base32.c:49-78: state-machine loop over the at most four remaining bytes. *)
Fixpoint base32_tail (bstate : Z) (prev data : list Z) : option (list Z) :=
  match data with
  | [] => base32_finish bstate prev
  | d :: data' =>
    if bstate =? 0 then
      let* x := rd base32_encode_table (Z.shiftr d 3) in
      let* r := base32_tail 1 prev data' in
      Some (x :: r)
    else if bstate =? 1 then
      let* p := hd_error prev in
      let* x := rd base32_encode_table (Z.lor (Z.shiftl (Z.land p 7) 2) (Z.shiftr d 6)) in
      let* q := hd_error (tl prev) in
      let* y := rd base32_encode_table (Z.land (Z.shiftr q 1) 31) in
      let* r := base32_tail 2 (tl prev) data' in
      Some (x :: y :: r)
    else if bstate =? 2 then
      let* p := hd_error prev in
      let* x := rd base32_encode_table (Z.lor (Z.shiftl (Z.land p 1) 4) (Z.shiftr d 4)) in
      let* r := base32_tail 3 (tl prev) data' in
      Some (x :: r)
    else if bstate =? 3 then
      let* p := hd_error prev in
      let* x := rd base32_encode_table (Z.lor (Z.shiftl (Z.land p 15) 1) (Z.shiftr d 7)) in
      let* q := hd_error (tl prev) in
      let* y := rd base32_encode_table (Z.land (Z.shiftr q 2) 31) in
      let* r := base32_tail 4 (tl prev) data' in
      Some (x :: y :: r)
    else
      let* p := hd_error prev in
      let* x := rd base32_encode_table (Z.lor (Z.shiftl (Z.land p 3) 3) (Z.shiftr d 5)) in
      let* q := hd_error (tl prev) in
      let* y := rd base32_encode_table (Z.land q 31) in
      let* r := base32_tail 0 (tl (tl prev)) data' in
      Some (x :: y :: r)
  end.

(** base32.c:31-114 / 174-178 [bfdev_base32_encode]. *)
Fixpoint base32_encode (data : list Z) : option (list Z) :=
  match data with
  | a :: b :: c :: d :: e :: rest =>
    let* x := base32_enc5 a b c d e in
    let* r := base32_encode rest in
    Some (x ++ r)
  | _ => base32_tail 0 data data
  end.

(** base32.c:132-168: the switch of the decoder. *)
Definition base32_dec_store (buff : list Z) (pos bstate decode : Z) : option (list Z * Z) :=
  let st := Z.land bstate 7 in
  if st =? 0 then
    let* buff := wr buff pos (w8 (Z.shiftl decode 3)) in
    Some (buff, pos)
  else if st =? 1 then
    let* o := rd buff pos in
    let* buff := wr buff pos (Z.lor o (Z.land (Z.shiftr decode 2) 7)) in
    let* buff := wr buff (pos + 1) (w8 (Z.shiftl decode 6)) in
    Some (buff, pos + 1)
  else if st =? 2 then
    let* o := rd buff pos in
    let* buff := wr buff pos (w8 (Z.lor o (Z.shiftl (Z.land decode 31) 1))) in
    Some (buff, pos)
  else if st =? 3 then
    let* o := rd buff pos in
    let* buff := wr buff pos (Z.lor o (Z.land (Z.shiftr decode 4) 1)) in
    let* buff := wr buff (pos + 1) (w8 (Z.shiftl decode 4)) in
    Some (buff, pos + 1)
  else if st =? 4 then
    let* o := rd buff pos in
    let* buff := wr buff pos (Z.lor o (Z.land (Z.shiftr decode 1) 15)) in
    let* buff := wr buff (pos + 1) (w8 (Z.shiftl decode 7)) in
    Some (buff, pos + 1)
  else if st =? 5 then
    let* o := rd buff pos in
    let* buff := wr buff pos (w8 (Z.lor o (Z.shiftl (Z.land decode 31) 2))) in
    Some (buff, pos)
  else if st =? 6 then
    let* o := rd buff pos in
    let* buff := wr buff pos (Z.lor o (Z.land (Z.shiftr decode 3) 3)) in
    let* buff := wr buff (pos + 1) (w8 (Z.shiftl decode 5)) in
    Some (buff, pos + 1)
  else
    let* o := rd buff pos in
    let* buff := wr buff pos (Z.lor o (Z.land decode 31)) in
    Some (buff, pos + 1).

(** base32.c:116-172 [base32_decode]. *)
Fixpoint base32_decode_loop (buff : list Z) (pos bstate : Z) (data : list Z)
  : option (Z * list Z) :=
  match data with
  | [] => Some (- ENOERR, buff)
  | d :: data' =>
    let decode := decode_lookup base32_decode_inits d in
    if decode =? 255 then
      if d =? 61 then Some (- ENOERR, buff)
      else Some (- EINVAL, buff)
    else
      let* (buff, pos) := base32_dec_store buff pos bstate decode in
      base32_decode_loop buff pos (w32 (bstate + 1)) data'
  end.

(** base32.c:180-184 [bfdev_base32_decode]. *)
Definition base32_decode (buff data : list Z) : option (Z * list Z) :=
  base32_decode_loop buff 0 0 data.

(** include/bfdev/base32.h:20-34. *)
Definition base32_encode_length (size : Z) : Z := (size + 5 - 1) / 5 * 8.
Definition base32_decode_length (size : Z) : Z := (size + 8 - 1) / 8 * 5.
