(** * Model of src/mpi.c: multi precision integers
    An array of limbs (BFDEV_MPI_TYPE, 64 bits) is a [list Z], least significant limb first.
    The raw "mpa" loops read their operands through a source: another array ([Ext]) or the
    destination array itself ([Own]), so that overlapping operands behave as in C: each read
    happens when the C code performs it. Memory allocation is assumed to succeed. [None] is
    undefined behaviour or a failed BFDEV_BUG_ON. *)
From Verif Require Import Lib BitsModel DwordModel.

(** Where an operand pointer points (src/mpi.c passes plain pointers). *)
Inductive src := Ext (l : list Z) | Own.
Definition rds (s : src) (d : list Z) (i : Z) : option Z :=
  match s with Ext l => rd l i | Own => rd d i end.

Definition b2z (b : bool) : Z := if b then 1 else 0.
(** include/bfdev/macro.h [bfdev_cmp], with BFDEV_BT = 1, BFDEV_EQ = 0, BFDEV_LT = -1 *)
Definition bcmp (c : bool) : Z := if c then 1 else -1.

(** src/mpi.c:42-53 [mpa_cmpi] *)
Definition mpa_cmpi (a : list Z) (vi length : Z) : option Z :=
  if 1 <? length then Some 1
  else let* x := rd a 0 in
       if negb (x =? vi) then Some (bcmp (vi <? x)) else Some 0.

(** src/mpi.c:64-77, the loop of [mpa_cmp] *)
Fixpoint cmp_down (n : nat) (a b : list Z) (pa pb : Z) : option Z :=
  match n with
  | O => Some 0
  | S n' => let* x := rd a pa in let* y := rd b pb in
            if negb (x =? y) then Some (bcmp (y <? x)) else cmp_down n' a b (pa - 1) (pb - 1)
  end.
(** src/mpi.c:55-78 [mpa_cmp]; [pa], [pb] are the start positions *)
Definition mpa_cmp (a b : list Z) (pa pb lena lenb : Z) : option Z :=
  if negb (lena =? lenb) then Some (bcmp (lenb <? lena))
  else cmp_down (Z.to_nat lena) a b (pa + lena - 1) (pb + lenb - 1).

(** src/mpi.c:91-94: the sum limb is stored before *ptra is read again *)
Fixpoint addi_loop (n : nat) (d : list Z) (s : src) (ps pa c : Z) : option (list Z * Z) :=
  match n with
  | O => Some (d, c)
  | S n' => let* x := rds s d pa in
            let* d := wr d ps (w64 (x + c)) in
            let* v := rd d ps in
            let* x := rds s d pa in
            addi_loop n' d s (ps + 1) (pa + 1) (b2z (v <? x))
  end.
(** src/mpi.c:80-97 [mpa_addi] (length >= 1) *)
Definition mpa_addi (d : list Z) (s : src) (ps pa vi length : Z) : option (list Z * Z) :=
  let* x := rds s d pa in
  let value := w64 (x + vi) in
  let c := b2z (value <? x) in
  let* d := wr d ps value in
  addi_loop (Z.to_nat (length - 1)) d s (ps + 1) (pa + 1) c.

(** src/mpi.c:106-113 *)
Fixpoint add_loop (n : nat) (d : list Z) (sa sb : src) (ps pa pb c : Z) : option (list Z * Z) :=
  match n with
  | O => Some (d, c)
  | S n' => let* x := rds sa d pa in let* y := rds sb d pb in
            let value := w64 (x + y + c) in
            let* d := wr d ps value in
            add_loop n' d sa sb (ps + 1) (pa + 1) (pb + 1) (b2z (value <? x))
  end.
(** src/mpi.c:120-124 *)
Fixpoint add_tail (n : nat) (d : list Z) (s : src) (ps pa c : Z) : option (list Z * Z) :=
  match n with
  | O => Some (d, c)
  | S n' => let* x := rds s d pa in
            let value := w64 (x + c) in
            let* d := wr d ps value in
            add_tail n' d s (ps + 1) (pa + 1) (b2z (value <? x))
  end.
(** src/mpi.c:99-127 [mpa_add] *)
Definition mpa_add (d : list Z) (sa sb : src) (ps pa pb cnta cntb c : Z) : option (list Z * Z) :=
  let m := Z.min cnta cntb in
  let* r := add_loop (Z.to_nat m) d sa sb ps pa pb c in
  let '(d, c) := r in
  let cnta := cnta - m in let cntb := cntb - m in
  let '(cnta, s, pa) := if cnta =? 0 then (cntb, sb, pb + m) else (cnta, sa, pa + m) in
  add_tail (Z.to_nat cnta) d s (ps + m) pa c.

(** src/mpi.c:140-144 and 165-169 *)
Fixpoint sub_tail (n : nat) (d : list Z) (s : src) (ps pa c : Z) : option (list Z * Z) :=
  match n with
  | O => Some (d, c)
  | S n' => let* x := rds s d pa in
            let value := w64 (x - c) in
            let* d := wr d ps value in
            sub_tail n' d s (ps + 1) (pa + 1) (b2z (x <? value))
  end.
(** src/mpi.c:129-147 [mpa_subi] *)
Definition mpa_subi (d : list Z) (s : src) (ps pa vi length : Z) : option (list Z * Z) :=
  let* x := rds s d pa in
  let value := w64 (x - vi) in
  let c := b2z (x <? value) in
  let* d := wr d ps value in
  sub_tail (Z.to_nat (length - 1)) d s (ps + 1) (pa + 1) c.
(** src/mpi.c:156-163 *)
Fixpoint sub_loop (n : nat) (d : list Z) (sa sb : src) (ps pa pb c : Z) : option (list Z * Z) :=
  match n with
  | O => Some (d, c)
  | S n' => let* x := rds sa d pa in let* y := rds sb d pb in
            let value := w64 (x - y - c) in
            let* d := wr d ps value in
            sub_loop n' d sa sb (ps + 1) (pa + 1) (pb + 1) (b2z (x <? value))
  end.
(** src/mpi.c:149-172 [mpa_sub] *)
Definition mpa_sub (d : list Z) (sa sb : src) (ps pa pb cnta cntb c : Z) : option (list Z * Z) :=
  let m := Z.min cnta cntb in
  let* r := sub_loop (Z.to_nat m) d sa sb ps pa pb c in
  let '(d, c) := r in
  sub_tail (Z.to_nat (cnta - m)) d sa (ps + m) (pa + m) c.

(** src/mpi.c:174-189 [mpa_muli] *)
Fixpoint mpa_muli (n : nat) (d : list Z) (s : src) (ps pa vi c : Z) : option (list Z * Z) :=
  match n with
  | O => Some (d, c)
  | S n' => let* x := rds s d pa in
            let '(vhigh, vlow) := umul_ppmm x vi in
            let vlow := w64 (vlow + c) in
            let c := w64 (b2z (vlow <? c) + vhigh) in
            let* d := wr d ps vlow in
            mpa_muli n' d s (ps + 1) (pa + 1) vi c
  end.
(** src/mpi.c:191-209 [mpa_maci] *)
Fixpoint mpa_maci (n : nat) (d : list Z) (s : src) (ps pa vi c : Z) : option (list Z * Z) :=
  match n with
  | O => Some (d, c)
  | S n' => let* x := rds s d pa in
            let '(vhigh, vlow) := umul_ppmm x vi in
            let vlow := w64 (vlow + c) in
            let c := w64 (b2z (vlow <? c) + vhigh) in
            let* y := rd d ps in
            let vlow := w64 (y + vlow) in
            let c := w64 (c + b2z (vlow <? y)) in
            let* d := wr d ps vlow in
            mpa_maci n' d s (ps + 1) (pa + 1) vi c
  end.
(** src/mpi.c:211-229 [mpa_msui] *)
Fixpoint mpa_msui (n : nat) (d : list Z) (s : src) (ps pa vi c : Z) : option (list Z * Z) :=
  match n with
  | O => Some (d, c)
  | S n' => let* x := rds s d pa in
            let '(vhigh, vlow) := umul_ppmm x vi in
            let vlow := w64 (vlow + c) in
            let c := w64 (b2z (vlow <? c) + vhigh) in
            let* y := rd d ps in
            let vlow := w64 (y - vlow) in
            let c := w64 (c + b2z (y <? vlow)) in
            let* d := wr d ps vlow in
            mpa_msui n' d s (ps + 1) (pa + 1) vi c
  end.

(** src/mpi.c:29-33 [mpa_zero] *)
Fixpoint mpa_zero (n : nat) (d : list Z) (ps : Z) : option (list Z) :=
  match n with
  | O => Some d
  | S n' => let* d := wr d ps 0 in mpa_zero n' d (ps + 1)
  end.
(** src/mpi.c:35-40 [mpa_copy] (memcpy, limb by limb) *)
Fixpoint mpa_copy (n : nat) (d : list Z) (s : src) (ps pa : Z) : option (list Z) :=
  match n with
  | O => Some d
  | S n' => let* x := rds s d pa in let* d := wr d ps x in mpa_copy n' d s (ps + 1) (pa + 1)
  end.

(** src/mpi.c:261-273, the loop of [mpa_mul] *)
Fixpoint mul_loop (n : nat) (d : list Z) (sa sb : src) (ps index cnta : Z) : option (list Z) :=
  match n with
  | O => Some d
  | S n' =>
    let* value := rds sb d index in
    let* r := if 1 <? value then mpa_maci (Z.to_nat cnta) d sa ps 0 value 0
              else if negb (value =? 0) then mpa_add d Own sa ps ps 0 cnta cnta 0
              else Some (d, 0) in
    let '(d, c) := r in
    let* d := wr d (ps + cnta) c in
    mul_loop n' d sa sb (ps + 1) (index + 1) cnta
  end.
(** src/mpi.c:231-274 [mpa_mul], destination at the start of its array *)
Definition mpa_mul (d : list Z) (sa sb : src) (cnta cntb : Z) : option (list Z) :=
  let* value := rds sb d 0 in
  let* r := if 1 <? value then mpa_muli (Z.to_nat cnta) d sa 0 0 value 0
            else if negb (value =? 0) then let* d := mpa_copy (Z.to_nat cnta) d sa 0 0 in Some (d, 0)
            else let* d := mpa_zero (Z.to_nat cnta) d 0 in Some (d, 0) in
  let '(d, c) := r in
  let* d := wr d cnta c in
  mul_loop (Z.to_nat (cntb - 1)) d sa sb 1 1 cnta.

(** src/mpi.c:297-301; [n] limbs remain, the next one read is n - 1 *)
Fixpoint divmodi_loop (n : nat) (d : list Z) (s : src) (vi r : Z) : option (list Z * Z) :=
  match n with
  | O => Some (d, r)
  | S n' => let* x := rds s d (Z.of_nat n') in
            let* p := dw_udiv r x vi in
            let '(_, q0, r) := p in
            let* d := wr d (Z.of_nat n') q0 in
            divmodi_loop n' d s vi r
  end.
(** src/mpi.c:276-304 [mpa_divmodi] *)
Definition mpa_divmodi (d : list Z) (s : src) (vi length : Z) : option (list Z * Z) :=
  let* x := rds s d (length - 1) in
  if vi <=? x then divmodi_loop (Z.to_nat length) d s vi 0
  else let* d := wr d (length - 1) 0 in divmodi_loop (Z.to_nat (length - 1)) d s vi x.
(** src/mpi.c:324-327 *)
Fixpoint modi_loop (n : nat) (a : list Z) (vi r : Z) : option Z :=
  match n with
  | O => Some r
  | S n' => let* x := rd a (Z.of_nat n') in
            let* p := dw_udiv r x vi in
            modi_loop n' a vi (snd p)
  end.
(** src/mpi.c:306-330 [mpa_modi] *)
Definition mpa_modi (a : list Z) (vi length : Z) : option Z :=
  let* x := rd a (length - 1) in
  if vi <=? x then modi_loop (Z.to_nat length) a vi 0 else modi_loop (Z.to_nat (length - 1)) a vi x.

(** src/mpi.c:389-398: the correction of an estimated quotient digit; answers (quot, value).
    The C loop runs at most three times for a normalised divisor; [fuel] bounds it and [None] is
    exhaustion. *)
Fixpoint fix_quot (fuel : nat) (quot rem v1 value dhigh dlow n0 : Z) : option Z :=
  match fuel with
  | O => None
  | S f =>
    if (rem <? v1) || ((v1 =? rem) && (n0 <? value)) then
      let quot := w64 (quot - 1) in
      let rem := w64 (rem + dhigh) in
      if rem <? dhigh then Some quot
      else fix_quot f quot rem (w64 (v1 - b2z (value <? dlow))) (w64 (value - dlow)) dhigh dlow n0
    else Some quot
  end.
(** src/mpi.c:369-410; the divisor [b] has [cntb] limbs, [pa] is the position of the
    partial remainder in the dividend array [d], [qs] collects ptrs[index] (lowest first). *)
Fixpoint divrem_loop (index : nat) (d b : list Z) (cntb value : Z) (qs : list Z)
  : option (list Z * list Z) :=
  match index with
  | O => Some (d, qs)
  | S index' =>
    let pa := Z.of_nat index' in
    let* v2 := rd d (pa + cntb) in
    let* dhigh := rd b (cntb - 1) in
    let* dlow := rd b (cntb - 2) in
    let* quot :=
      if value =? dhigh then Some (2 ^ 64 - 1)
      else
        let* n1 := rd d (pa + cntb - 1) in
        let* p := dw_udiv value n1 dhigh in
        let '(_, q0, rem) := p in
        let '(v1, vl) := umul_ppmm dlow q0 in
        let* n0 := rd d (pa + cntb - 2) in
        fix_quot 8 q0 rem v1 vl dhigh dlow n0 in
    let* r := mpa_msui (Z.to_nat cntb) d (Ext b) pa 0 quot 0 in
    let '(d, carry) := r in
    let* r :=
      if negb (v2 =? carry) then
        let* p := mpa_add d Own (Ext b) pa pa 0 cntb cntb 0 in
        Some (fst p, w64 (quot - 1))
      else Some (d, quot) in
    let '(d, quot) := r in
    let* value := rd d (pa + cntb - 1) in
    divrem_loop index' d b cntb value (quot :: qs)
  end.
(** src/mpi.c:332-413 [mpa_divrem]: (dividend array, quotient limbs, limb) *)
Definition mpa_divrem (d b : list Z) (cnta cntb : Z) : option (list Z * list Z * bool) :=
  let index := cnta - cntb in
  let* value := rd d (index + cntb - 1) in
  let* dhigh := rd b (cntb - 1) in
  let* go :=
    if dhigh <=? value then
      if dhigh <? value then Some true
      else let* c := mpa_cmp d b index 0 (cntb - 1) (cntb - 1) in Some (0 <=? c)
    else Some false in
  let* r :=
    if go : bool then
      let* p := mpa_sub d Own (Ext b) index index 0 cntb cntb 0 in
      if snd p =? 0 then Some (fst p) else None
    else Some d in
  let* value := rd r (index + cntb - 1) in
  let* p := divrem_loop (Z.to_nat index) r b cntb value [] in
  Some (p, go).

(** ** Unsigned integers *)

(** src/mpi.c:422-439 [mpi_relocation]: zero limbs are popped from the top *)
Fixpoint relocation (l : list Z) : list Z :=
  match l with
  | [] => []
  | x :: t => match relocation t with
              | [] => if x =? 0 then [] else [x]
              | t' => x :: t'
              end
  end.
(** src/array.c:109-121 [bfdev_array_resize]: new cells hold whatever the memory held, here the
    arbitrary value [junk]. *)
Definition resize (junk : Z) (d : list Z) (n : Z) : list Z :=
  firstn (Z.to_nat n) d ++ repeat junk (Z.to_nat n - length d).

(** src/mpi.c:482-498 [mpi_seti] *)
Definition mpi_seti (vi : Z) : list Z := if vi =? 0 then [] else [vi].
(** src/mpi.c:500-513 [mpi_set] with 462-480 [mpi_copy] *)
Definition mpi_set (a : list Z) : list Z := relocation a.

(** src/mpi.c:515-531 [mpi_cmpi] *)
Definition mpi_cmpi (a : list Z) (vi : Z) : option Z :=
  if zlen a =? 0 then Some (if vi =? 0 then 0 else -1) else mpa_cmpi a vi (zlen a).
(** src/mpi.c:533-555 [mpi_cmp] *)
Definition mpi_cmp (a b : list Z) : option Z :=
  if zlen a =? 0 then Some (if zlen b =? 0 then 0 else -1)
  else if zlen b =? 0 then Some 1 else mpa_cmp a b 0 0 (zlen a) (zlen b).

(** Which operands are the destination object itself. *)
Inductive alias := Distinct | DestA | DestB | DestAB.
Definition isA (al : alias) : bool := match al with DestA | DestAB => true | _ => false end.
Definition isB (al : alias) : bool := match al with DestB | DestAB => true | _ => false end.
Definition swapal (al : alias) : alias :=
  match al with DestA => DestB | DestB => DestA | x => x end.
(** What the destination array holds before the call. *)
Definition dest0 (al : alias) (d a b : list Z) : list Z :=
  match al with DestA | DestAB => a | DestB => b | Distinct => d end.
Definition srcof (own : bool) (l : list Z) : src := if own then Own else Ext l.

(** In the functions below, [junk] is the content of fresh memory and [moved] tells whether
    mpi_resize moves the destination's storage when it has to grow (src/array.c:41-53). ptrb is
    loaded before the resize: when vb is the destination and the storage moved, reading through
    it is undefined ([None]). *)
Definition stale (moved : bool) (al : alias) (b : list Z) (n : Z) : bool :=
  isB al && moved && (zlen b <? n).

(** src/mpi.c:557-583 [mpi_addi]; [own]: dest == va *)
Definition mpi_addi (junk : Z) (own : bool) (d a : list Z) (vi : Z) : option (list Z) :=
  if zlen a =? 0 then Some (mpi_seti vi)
  else
    let length := zlen a in
    let d := resize junk (if own then a else d) (length + 1) in
    let* r := mpa_addi d (srcof own a) 0 0 vi length in
    let '(d, c) := r in
    let* d := wr d length c in
    Some (relocation d).
(** src/mpi.c:585-621 [mpi_add]. mpi_set on the destination itself changes nothing. *)
Definition mpi_add (junk : Z) (moved : bool) (al : alias) (d a b : list Z) : option (list Z) :=
  if zlen a =? 0 then Some (if isB al then b else mpi_set b)
  else if zlen b =? 0 then Some (if isA al then a else mpi_set a)
  else if zlen b =? 1 then let* y := rd b 0 in mpi_addi junk (isA al) (dest0 al d a b) a y
  else
    let length := Z.max (zlen a) (zlen b) in
    let d := resize junk (dest0 al d a b) (length + 1) in
    if stale moved al b (length + 1) then None
    else
      let* r := mpa_add d (srcof (isA al) a) (srcof (isB al) b) 0 0 0 (zlen a) (zlen b) 0 in
      let '(d, c) := r in
      let* d := wr d length c in
      Some (relocation d).
(** src/mpi.c:623-648 [mpi_subi] *)
Definition mpi_subi (junk : Z) (own : bool) (d a : list Z) (vi : Z) : option (list Z) :=
  let length := zlen a in
  if length =? 0 then None
  else
    let d := resize junk (if own then a else d) length in
    let* r := mpa_subi d (srcof own a) 0 0 vi length in
    let '(d, c) := r in
    if c =? 0 then Some (relocation d) else None.
(** src/mpi.c:650-684 [mpi_sub] *)
Definition mpi_sub (junk : Z) (moved : bool) (al : alias) (d a b : list Z) : option (list Z) :=
  if zlen b =? 0 then Some (if isA al then a else mpi_set a)
  else if zlen b =? 1 then let* y := rd b 0 in mpi_subi junk (isA al) (dest0 al d a b) a y
  else if zlen a <? zlen b then None
  else
    let d := resize junk (dest0 al d a b) (zlen a) in
    if stale moved al b (zlen a) then None
    else
      let* r := mpa_sub d (srcof (isA al) a) (srcof (isB al) b) 0 0 0 (zlen a) (zlen b) 0 in
      let '(d, c) := r in
      if c =? 0 then Some (relocation d) else None.
(** src/mpi.c:686-712 [mpi_muli] *)
Definition mpi_muli (junk : Z) (own : bool) (d a : list Z) (vi : Z) : option (list Z) :=
  let length := zlen a in
  if (length =? 0) || (vi =? 0) then Some []
  else
    let d := resize junk (if own then a else d) (length + 1) in
    let* r := mpa_muli (Z.to_nat length) d (srcof own a) 0 0 vi 0 in
    let '(d, c) := r in
    let* d := wr d length c in
    Some (relocation d).
(** src/mpi.c:714-761 [mpi_mul]; the scratch buffer is used only when both operands are the
    destination *)
Definition mpi_mul (junk : Z) (moved : bool) (al : alias) (d a b : list Z) : option (list Z) :=
  if zlen a =? 0 then Some []
  else if zlen b =? 0 then Some []
  else if zlen b =? 1 then let* y := rd b 0 in mpi_muli junk (isA al) (dest0 al d a b) a y
  else
    let '(al, d) := match al with DestAB => (Distinct, []) | _ => (al, dest0 al d a b) end in
    let d := resize junk d (zlen a + zlen b) in
    if stale moved al b (zlen a + zlen b) then None
    else
      let* d := mpa_mul d (srcof (isA al) a) (srcof (isB al) b) (zlen a) (zlen b) in
      Some (relocation d).

(** src/mpi.c:763-803 [mpi_divi]: return code, quotient and remainder ([own]: quot == va;
    quot != rem) *)
Definition mpi_divi (junk : Z) (own : bool) (q r a : list Z) (vi : Z) : option (Z * list Z * list Z) :=
  if vi =? 0 then Some (- EOVERFLOW, q, r)
  else if zlen a =? 0 then Some (0, [], [])
  else
    let d := resize junk (if own then a else q) (zlen a) in
    let* p := mpa_divmodi d (srcof own a) vi (zlen a) in
    let '(d, value) := p in
    Some (0, relocation d, mpi_seti value).
(** src/mpi.c:805-828 [mpi_modi] *)
Definition mpi_modi (r a : list Z) (vi : Z) : option (Z * list Z) :=
  if vi =? 0 then Some (- EOVERFLOW, r)
  else if zlen a =? 0 then Some (0, [])
  else let* value := mpa_modi a vi (zlen a) in Some (0, mpi_seti value).
(** src/mpi.c:830-905 [mpi_div] for pairwise distinct quot, rem, va, vb; the quotient array is
    rebuilt from the digits the loop stores. *)
Definition mpi_div (junk : Z) (q r a b : list Z) : option (Z * list Z * list Z) :=
  if zlen b =? 0 then Some (- EOVERFLOW, q, r)
  else if zlen b =? 1 then let* y := rd b 0 in mpi_divi junk false q r a y
  else if zlen a =? 0 then Some (0, [], [])
  else
    let* p := mpa_divrem (mpi_set a) b (zlen a) (zlen b) in
    let '((d, qs), limb) := p in
    let qs := qs ++ (if limb : bool then [1] else []) in
    if zlen (relocation qs) =? zlen qs
    then Some (0, qs, relocation (firstn (Z.to_nat (zlen b)) d)) else None.
(** src/mpi.c:907-944 [mpi_mod], distinct arguments *)
Definition mpi_mod (r a b : list Z) : option (Z * list Z) :=
  if zlen b =? 0 then Some (- EOVERFLOW, r)
  else if zlen b =? 1 then let* y := rd b 0 in mpi_modi r a y
  else if zlen a =? 0 then Some (0, [])
  else
    let* p := mpa_divrem (mpi_set a) b (zlen a) (zlen b) in
    Some (0, relocation (firstn (Z.to_nat (zlen b)) (fst (fst p)))).

(** ** Signed integers, the exported interface *)

(** include/bfdev/mpi.h struct bfdev_mpi: the limbs and the sign ([plus]) *)
Record mpi := Mpi { limbs : list Z; plus : bool }.

(** src/mpi.c:1126-1142 *)
Definition bfdev_mpi_cmp (a b : mpi) : option Z :=
  if negb (eqb (plus a) (plus b)) then Some (bcmp (plus a))
  else
    let* diff := mpi_cmp (limbs a) (limbs b) in
    if 0 <? diff then Some (bcmp (plus a))
    else if diff <? 0 then Some (bcmp (negb (plus a)))
    else Some 0.
(** src/mpi.c:1144-1151 *)
Definition bfdev_mpi_cmpi (a : mpi) (vi : Z) : option Z :=
  if negb (plus a) then Some (-1) else mpi_cmpi (limbs a) vi.

(** The destination's sign is stored after the limbs; when an operand is the destination the C
    code reads that operand's sign afterwards, which mpi_add/mpi_sub/mpi_mul leave unchanged, so
    the sign read is the operand's own in every case. *)

(** src/mpi.c:1153-1204 *)
Definition bfdev_mpi_add (junk : Z) (moved : bool) (al : alias) (d : list Z) (va vb : mpi) : option mpi :=
  let '(va, vb, al) := if zlen (limbs va) <? zlen (limbs vb) then (vb, va, swapal al) else (va, vb, al) in
  let a := limbs va in let b := limbs vb in
  if eqb (plus va) (plus vb) then
    let* r := mpi_add junk moved al d a b in Some (Mpi r (plus va))
  else
    let* diff := mpi_cmp a b in
    if diff =? 1 then let* r := mpi_sub junk moved al d a b in Some (Mpi r (plus va))
    else if diff =? -1 then let* r := mpi_sub junk moved (swapal al) d b a in Some (Mpi r (plus vb))
    else Some (Mpi [] true).
(** src/mpi.c:1253-1296 *)
Definition bfdev_mpi_sub (junk : Z) (moved : bool) (al : alias) (d : list Z) (va vb : mpi) : option mpi :=
  let a := limbs va in let b := limbs vb in
  if negb (eqb (plus va) (plus vb)) then
    let* r := mpi_add junk moved al d a b in Some (Mpi r (plus va))
  else
    let* diff := mpi_cmp a b in
    if diff =? 1 then let* r := mpi_sub junk moved al d a b in Some (Mpi r (plus va))
    else if diff =? -1 then let* r := mpi_sub junk moved (swapal al) d b a in Some (Mpi r (negb (plus vb)))
    else Some (Mpi [] true).
(** src/mpi.c:1206-1251; [vi - *value] dereferences NULL for an empty array *)
Definition bfdev_mpi_addi (junk : Z) (own : bool) (d : list Z) (va : mpi) (vi : Z) : option mpi :=
  let a := limbs va in
  if plus va then let* r := mpi_addi junk own d a vi in Some (Mpi r true)
  else
    let* diff := bfdev_mpi_cmpi va vi in
    if diff =? -1 then let* x := rd a 0 in Some (Mpi (mpi_seti (w64 (vi - x))) true)
    else if diff =? 1 then let* r := mpi_subi junk own d a vi in Some (Mpi r false)
    else Some (Mpi [] true).
(** src/mpi.c:1298-1343 *)
Definition bfdev_mpi_subi (junk : Z) (own : bool) (d : list Z) (va : mpi) (vi : Z) : option mpi :=
  let a := limbs va in
  if negb (plus va) then let* r := mpi_addi junk own d a vi in Some (Mpi r false)
  else
    let* diff := mpi_cmpi a vi in
    if diff =? -1 then let* x := rd a 0 in Some (Mpi (mpi_seti (w64 (vi - x))) false)
    else if diff =? 1 then let* r := mpi_subi junk own d a vi in Some (Mpi r (plus va))
    else Some (Mpi [] true).
(** src/mpi.c:1345-1366 *)
Definition bfdev_mpi_mul (junk : Z) (moved : bool) (al : alias) (d : list Z) (va vb : mpi) : option mpi :=
  let '(va, vb, al) := if zlen (limbs va) <? zlen (limbs vb) then (vb, va, swapal al) else (va, vb, al) in
  let* r := mpi_mul junk moved al d (limbs va) (limbs vb) in
  Some (Mpi r (negb (xorb (plus va) (plus vb)))).
(** src/mpi.c:1368-1381 *)
Definition bfdev_mpi_muli (junk : Z) (own : bool) (d : list Z) (va : mpi) (vi : Z) : option mpi :=
  let* r := mpi_muli junk own d (limbs va) vi in Some (Mpi r (plus va)).
(** src/mpi.c:1383-1432, distinct arguments: return code, quotient, remainder. On an error the
    signs are left alone. *)
Definition bfdev_mpi_div (junk : Z) (q r va vb : mpi) : option (Z * mpi * mpi) :=
  let* diff := mpi_cmp (limbs va) (limbs vb) in
  if diff =? -1 then Some (0, Mpi [] true, Mpi (mpi_set (limbs va)) (plus va))
  else if diff =? 1 then
    let* p := mpi_div junk (limbs q) (limbs r) (limbs va) (limbs vb) in
    let '(ret, ql, rl) := p in
    if ret =? 0 then Some (0, Mpi ql (negb (xorb (plus va) (plus vb))), Mpi rl (plus va))
    else Some (ret, Mpi ql (plus q), Mpi rl (plus r))
  else Some (0, Mpi (mpi_seti 1) (negb (xorb (plus va) (plus vb))), Mpi [] true).
(** src/mpi.c:1434-1483; [own]: quot == va (rem is distinct from both) *)
Definition bfdev_mpi_divi (junk : Z) (own : bool) (q r va : mpi) (vi : Z) : option (Z * mpi * mpi) :=
  let* diff := mpi_cmpi (limbs va) vi in
  if diff =? -1 then Some (0, Mpi [] true, Mpi (mpi_set (limbs va)) (plus va))
  else if diff =? 1 then
    let* p := mpi_divi junk own (limbs q) (limbs r) (limbs va) vi in
    let '(ret, ql, rl) := p in
    if ret =? 0 then Some (0, Mpi ql (plus va), Mpi rl (plus va))
    else Some (ret, Mpi ql (plus q), Mpi rl (plus r))
  else Some (0, Mpi (mpi_seti 1) (plus va), Mpi [] true).
(** src/mpi.c:1523-1559; rem != va, or rem == va with [r] = [va] *)
Definition bfdev_mpi_modi (r va : mpi) (vi : Z) : option (Z * mpi) :=
  let* diff := mpi_cmpi (limbs va) vi in
  if diff =? -1 then Some (0, Mpi (mpi_set (limbs va)) (plus va))
  else if diff =? 1 then
    let* p := mpi_modi (limbs r) (limbs va) vi in
    let '(ret, rl) := p in
    if ret =? 0 then Some (0, Mpi rl (plus va)) else Some (ret, Mpi rl (plus r))
  else Some (0, Mpi [] true).
(** src/mpi.c:1485-1521, distinct arguments *)
Definition bfdev_mpi_mod (r va vb : mpi) : option (Z * mpi) :=
  let* diff := mpi_cmp (limbs va) (limbs vb) in
  if diff =? -1 then Some (0, Mpi (mpi_set (limbs va)) (plus va))
  else if diff =? 1 then
    let* p := mpi_mod (limbs r) (limbs va) (limbs vb) in
    let '(ret, rl) := p in
    if ret =? 0 then Some (0, Mpi rl (plus va)) else Some (ret, Mpi rl (plus r))
  else Some (0, Mpi [] true).
(** src/mpi.c:1689-1701 *)
Definition bfdev_mpi_seti (vi : Z) : mpi := Mpi (mpi_seti vi) true.
(** src/mpi.c:1717-1730 *)
Definition bfdev_mpi_import (buffer : list Z) (sign : bool) : mpi := Mpi (mpi_set buffer) sign.
(** src/mpi.c:1636-1650; bfdev_bit_test and friends take the bit as a 32-bit number
    (include/bfdev/bitops.h:57-90) *)
Definition bfdev_mpi_btesti (a : mpi) (bit : Z) : option bool :=
  if zlen (limbs a) <=? bit / 64 then Some false
  else let* w := rd (limbs a) (w32 bit / 64) in Some (Z.testbit w (bit mod 64)).
(** src/mpi.c:1652-1668 with 441-460 [mpi_extend] *)
Definition bfdev_mpi_bseti (a : mpi) (bit : Z) : option mpi :=
  let l := limbs a in
  let l := l ++ repeat 0 (Z.to_nat (bit / 64 + 1) - length l) in
  let* w := rd l (w32 bit / 64) in
  let* l := wr l (w32 bit / 64) (Z.lor w (Z.shiftl 1 (bit mod 64))) in
  Some (Mpi l (plus a)).
(** src/mpi.c:1670-1687 *)
Definition bfdev_mpi_bclri (a : mpi) (bit : Z) : option mpi :=
  let l := limbs a in
  if zlen l <=? bit / 64 then Some a
  else
    let* w := rd l (w32 bit / 64) in
    let* l := wr l (w32 bit / 64) (Z.land w (not64 (Z.shiftl 1 (bit mod 64)))) in
    Some (Mpi (relocation l) (plus a)).
