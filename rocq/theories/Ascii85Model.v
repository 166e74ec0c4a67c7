(** * Model of src/crypto/ascii85.c *)
From Verif Require Import Lib.

(** [bfdev_unaligned_get_be32] (include/bfdev/unaligned.h:150-155) at [mem + pos]. *)
Definition get_be32 (mem : list Z) (pos : Z) : option Z :=
  let* a := rd mem pos in
  let* b := rd mem (pos + 1) in
  let* c := rd mem (pos + 2) in
  let* d := rd mem (pos + 3) in
  Some (a * 2 ^ 24 + b * 2 ^ 16 + c * 2 ^ 8 + d).

(** [bfdev_unaligned_set_be32] (include/bfdev/unaligned.h:174-179). *)
Definition set_be32 (buff : list Z) (pos v : Z) : option (list Z) :=
  let* buff := wr buff pos (v / 2 ^ 24 mod 256) in
  let* buff := wr buff (pos + 1) (v / 2 ^ 16 mod 256) in
  let* buff := wr buff (pos + 2) (v / 2 ^ 8 mod 256) in
  wr buff (pos + 3) (v mod 256).

(** ascii85.c:23-34 and 41-52: the characters stored for one value; 'z' = 122,
    '!' = 33. The five stores go to increasing positions [index .. index+4]. *)
Definition ascii85_group (value : Z) : list Z :=
  if value =? 0 then [122]
  else
    let d4 := 33 + value mod 85 in let value := value / 85 in
    let d3 := 33 + value mod 85 in let value := value / 85 in
    let d2 := 33 + value mod 85 in let value := value / 85 in
    let d1 := 33 + value mod 85 in let value := value / 85 in
    let d0 := 33 + value mod 85 in
    [d0; d1; d2; d3; d4].

(** ascii85.c:19-53: main loop and tail; [n] bounds the number of groups (fuel,
    [None] if exhausted). [mem] is the readable memory behind the pointer [data]
    (the tail reads four bytes whatever [size] is, line 38). The result is the text
    stored to [buff]; [*plen] is its length (line 55).
    BFDEV_BIT_HIGH_MASK(k) = ULONG_MAX << k (include/bfdev/bits.h:52-55). *)
Fixpoint ascii85_encode_loop (n : nat) (mem : list Z) (pos size : Z) : option (list Z) :=
  if size >=? 4 then
    match n with
    | O => None
    | S n' =>
      let* value := get_be32 mem pos in
      let* r := ascii85_encode_loop n' mem (pos + 4) (size - 4) in
      Some (ascii85_group value ++ r)
    end
  else if size =? 0 then Some []
  else
    let* value := get_be32 mem pos in
    let value := w32 (Z.land value (w64 (Z.shiftl (2 ^ 64 - 1) ((4 - size) * 8)))) in
    Some (ascii85_group value).

(** ascii85.c:13-56, 98-102 [bfdev_ascii85_encode]. *)
Definition ascii85_encode (mem : list Z) (size : Z) : option (list Z) :=
  ascii85_encode_loop (Z.to_nat size) mem 0 size.

(** ascii85.c:73-76 range check of one character. *)
Definition ascii85_char_ok (c : Z) : bool := (33 <=? c) && (c <=? 117).

(** ascii85.c:78-82: value of five characters in uint32_t arithmetic. *)
Definition ascii85_value (c0 c1 c2 c3 c4 : Z) : Z :=
  let v := w32 (c0 - 33) in let v := w32 (v * 85) in
  let v := w32 (v + (c1 - 33)) in let v := w32 (v * 85) in
  let v := w32 (v + (c2 - 33)) in let v := w32 (v * 85) in
  let v := w32 (v + (c3 - 33)) in let v := w32 (v * 85) in
  w32 (v + (c4 - 33)).

(** ascii85.c:67 memset of four bytes. *)
Definition zero4 (buff : list Z) (pos : Z) : option (list Z) := set_be32 buff pos 0.

(** ascii85.c:65-96 the decoding loop. Result: return code, buffer, and [*plen] when
    it was stored. [n] is fuel ([None] if exhausted, or on an access outside [buff]). *)
Fixpoint ascii85_decode_loop (n : nat) (buff data : list Z) (index : Z)
  : option (Z * list Z * option Z) :=
  match data with
  | [] => Some (- ENOERR, buff, Some index)
  | c :: rest =>
    match n with
    | O => None
    | S n' =>
      let* (buff, data) :=
        if c =? 122 then
          let* buff := zero4 buff index in Some (buff, rest)
        else Some (buff, data) in
      match data with
      | c0 :: c1 :: c2 :: c3 :: c4 :: data' =>
        if forallb ascii85_char_ok [c0; c1; c2; c3; c4] then
          let* buff := set_be32 buff index (ascii85_value c0 c1 c2 c3 c4) in
          ascii85_decode_loop n' buff data' (index + 4)
        else Some (- EINVAL, buff, None)
      | _ => Some (- EPROTO, buff, None)
      end
    end
  end.

(** ascii85.c:104-108 [bfdev_ascii85_decode]. *)
Definition ascii85_decode (buff data : list Z) : option (Z * list Z * option Z) :=
  ascii85_decode_loop (length data) buff data 0.

(** include/bfdev/ascii85.h:23-40. *)
Definition ascii85_encode_length (size : Z) : Z := (size + 4 - 1) / 4 * 5.
Definition ascii85_decode_length (size : Z) : Z := (size + 5 - 1) / 5 * 4.
