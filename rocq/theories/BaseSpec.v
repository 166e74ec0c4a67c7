(** * Specification of base64 / base32 (RFC 4648), independent of the model

    A byte string is read as a stream of bits, most significant first; the stream is
    cut into groups of 6 (base64) or 5 (base32) bits, the last group being filled
    with zero bits; each group is a character of the alphabet; '=' fills the text up
    to a multiple of 4 (base64) or 8 (base32) characters. *)
From Verif Require Import Lib.

(** [w] bits of [x], most significant first. *)
Definition bits_of (w : nat) (x : Z) : list bool :=
  map (fun i => Z.testbit x (Z.of_nat i)) (rev (seq 0 w)).

(** value of a bit group, most significant bit first *)
Definition val_of (l : list bool) : Z := fold_left (fun a b => 2 * a + Z.b2z b) l 0.

Definition bitstream (w : nat) (l : list Z) : list bool := flat_map (bits_of w) l.

(** Groups of six bits, zero filled at the end. *)
Fixpoint sextets (l : list bool) : list Z :=
  match l with
  | a :: b :: c :: d :: e :: f :: r => val_of [a; b; c; d; e; f] :: sextets r
  | [] => []
  | _ => [val_of (firstn 6 (l ++ repeat false 6))]
  end.

Fixpoint quintets (l : list bool) : list Z :=
  match l with
  | a :: b :: c :: d :: e :: r => val_of [a; b; c; d; e] :: quintets r
  | [] => []
  | _ => [val_of (firstn 5 (l ++ repeat false 5))]
  end.

(** Groups of eight bits, an incomplete last group being dropped. *)
Fixpoint octets (l : list bool) : list Z :=
  match l with
  | a :: b :: c :: d :: e :: f :: g :: h :: r =>
    val_of [a; b; c; d; e; f; g; h] :: octets r
  | _ => []
  end.

(** The alphabets, RFC 4648 tables 1 and 3, as character codes. *)
Definition alpha64 (v : Z) : Z :=
  if v <? 26 then 65 + v            (* A..Z *)
  else if v <? 52 then 97 + (v - 26) (* a..z *)
  else if v <? 62 then 48 + (v - 52) (* 0..9 *)
  else if v =? 62 then 43            (* + *)
  else 47.                           (* / *)

Definition alpha32 (v : Z) : Z :=
  if v <? 26 then 65 + v             (* A..Z *)
  else 50 + (v - 26).                (* 2..7 *)

Definition equals_sign : Z := 61.

(** number of '=' needed to reach a multiple of [g] characters *)
Definition padding (g n : nat) : nat := ((g - n mod g) mod g)%nat.

Definition spec64_encode (data : list Z) : list Z :=
  let t := map alpha64 (sextets (bitstream 8 data)) in
  t ++ repeat equals_sign (padding 4 (length t)).

Definition spec32_encode (data : list Z) : list Z :=
  let t := map alpha32 (quintets (bitstream 8 data)) in
  t ++ repeat equals_sign (padding 8 (length t)).

(** The part of a text that a decoder looks at: everything before the first '='. *)
Fixpoint body (text : list Z) : list Z :=
  match text with
  | [] => []
  | c :: r => if c =? equals_sign then [] else c :: body r
  end.

(** value of a character, if it belongs to the alphabet of size [n] *)
Definition char_value (alpha : Z -> Z) (n : nat) (c : Z) : option Z :=
  find (fun v => alpha v =? c) (zseq 0 n).

Definition in_alphabet (alpha : Z -> Z) (n : nat) (c : Z) : Prop :=
  exists v, 0 <= v < Z.of_nat n /\ alpha v = c.

Definition value_or_0 (alpha : Z -> Z) (n : nat) (c : Z) : Z :=
  match char_value alpha n c with Some v => v | None => 0 end.

(** decoding of the body *)
Definition spec64_decode (text : list Z) : list Z :=
  octets (bitstream 6 (map (value_or_0 alpha64 64) (body text))).

Definition spec32_decode (text : list Z) : list Z :=
  octets (bitstream 5 (map (value_or_0 alpha32 32) (body text))).
