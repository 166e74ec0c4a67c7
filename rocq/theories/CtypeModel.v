(** Character classification: include/bfdev/ctype.h and the table of
    src/libc/ctype.c.

    Characters are [int]s; a cast to [unsigned char] is reduction modulo 256.
    Arithmetic of the constant versions is signed [int] arithmetic: the
    operands stay between -128 and 255, so it never overflows and is plain
    integer arithmetic. *)
From Coq Require Import ZArith List Bool.
Import ListNotations.
Local Open Scope Z_scope.

(** (unsigned char)c.  Cast used throughout include/bfdev/ctype.h:44-127. *)
Definition uchar (c : Z) : Z := c mod 256.

(** include/bfdev/ctype.h:14-35: the flags. *)
Definition UPPER : Z := 1.
Definition LOWER : Z := 2.
Definition CNTRL : Z := 4.
Definition PUNCT : Z := 8.
Definition BLANK : Z := 16.
Definition DIGIT : Z := 32.
Definition HEXDG : Z := 64.
Definition SPACE : Z := 128.
Definition HDSPA : Z := 256.
Definition ASCII : Z := 512.
(** An entry of the table without any flag, src/libc/ctype.c:148. *)
Definition none : Z := 0.

Notation "a .| b" := (Z.lor a b) (at level 40, left associativity).

(** src/libc/ctype.c:11-257: bfdev_ctype_table, four entries to a line, in the
    order of the codes (the C source names the code of each entry up to 159 and
    lists the rest by position). *)
Definition ctype_table : list Z := [
  ASCII .| CNTRL; ASCII .| CNTRL; ASCII .| CNTRL; ASCII .| CNTRL; (* 0 *)
  ASCII .| CNTRL; ASCII .| CNTRL; ASCII .| CNTRL; ASCII .| CNTRL; (* 4 *)
  ASCII .| CNTRL; ASCII .| CNTRL .| SPACE; ASCII .| CNTRL .| SPACE; ASCII .| CNTRL .| SPACE .| BLANK; (* 8 *)
  ASCII .| CNTRL .| SPACE; ASCII .| CNTRL .| SPACE; ASCII .| CNTRL; ASCII .| CNTRL; (* 12 *)
  ASCII .| CNTRL; ASCII .| CNTRL; ASCII .| CNTRL; ASCII .| CNTRL; (* 16 *)
  ASCII .| CNTRL; ASCII .| CNTRL; ASCII .| CNTRL; ASCII .| CNTRL; (* 20 *)
  ASCII .| CNTRL; ASCII .| CNTRL; ASCII .| CNTRL; ASCII .| CNTRL; (* 24 *)
  ASCII .| CNTRL; ASCII .| CNTRL; ASCII .| CNTRL; ASCII .| CNTRL; (* 28 *)
  ASCII .| SPACE .| HDSPA .| BLANK; ASCII .| PUNCT; ASCII .| PUNCT; ASCII .| PUNCT; (* 32 *)
  ASCII .| PUNCT; ASCII .| PUNCT; ASCII .| PUNCT; ASCII .| PUNCT; (* 36 *)
  ASCII .| PUNCT; ASCII .| PUNCT; ASCII .| PUNCT; ASCII .| PUNCT; (* 40 *)
  ASCII .| PUNCT; ASCII .| PUNCT; ASCII .| PUNCT; ASCII .| PUNCT; (* 44 *)
  ASCII .| DIGIT; ASCII .| DIGIT .| HEXDG; ASCII .| DIGIT .| HEXDG; ASCII .| DIGIT .| HEXDG; (* 48 *)
  ASCII .| DIGIT .| HEXDG; ASCII .| DIGIT .| HEXDG; ASCII .| DIGIT .| HEXDG; ASCII .| DIGIT .| HEXDG; (* 52 *)
  ASCII .| DIGIT .| HEXDG; ASCII .| DIGIT .| HEXDG; ASCII .| PUNCT; ASCII .| PUNCT; (* 56 *)
  ASCII .| PUNCT; ASCII .| PUNCT; ASCII .| PUNCT; ASCII .| PUNCT; (* 60 *)
  ASCII .| PUNCT; ASCII .| UPPER .| HEXDG; ASCII .| UPPER .| HEXDG; ASCII .| UPPER .| HEXDG; (* 64 *)
  ASCII .| UPPER .| HEXDG; ASCII .| UPPER .| HEXDG; ASCII .| UPPER .| HEXDG; ASCII .| UPPER; (* 68 *)
  ASCII .| UPPER; ASCII .| UPPER; ASCII .| UPPER; ASCII .| UPPER; (* 72 *)
  ASCII .| UPPER; ASCII .| UPPER; ASCII .| UPPER; ASCII .| UPPER; (* 76 *)
  ASCII .| UPPER; ASCII .| UPPER; ASCII .| UPPER; ASCII .| UPPER; (* 80 *)
  ASCII .| UPPER; ASCII .| UPPER; ASCII .| UPPER; ASCII .| UPPER; (* 84 *)
  ASCII .| UPPER; ASCII .| UPPER; ASCII .| UPPER; ASCII .| PUNCT; (* 88 *)
  ASCII .| PUNCT; ASCII .| PUNCT; ASCII .| PUNCT; ASCII .| PUNCT; (* 92 *)
  ASCII .| PUNCT; ASCII .| LOWER .| HEXDG; ASCII .| LOWER .| HEXDG; ASCII .| LOWER .| HEXDG; (* 96 *)
  ASCII .| LOWER .| HEXDG; ASCII .| LOWER .| HEXDG; ASCII .| LOWER .| HEXDG; ASCII .| LOWER; (* 100 *)
  ASCII .| LOWER; ASCII .| LOWER; ASCII .| LOWER; ASCII .| LOWER; (* 104 *)
  ASCII .| LOWER; ASCII .| LOWER; ASCII .| LOWER; ASCII .| LOWER; (* 108 *)
  ASCII .| LOWER; ASCII .| LOWER; ASCII .| LOWER; ASCII .| LOWER; (* 112 *)
  ASCII .| LOWER; ASCII .| LOWER; ASCII .| LOWER; ASCII .| LOWER; (* 116 *)
  ASCII .| LOWER; ASCII .| LOWER; ASCII .| LOWER; ASCII .| PUNCT; (* 120 *)
  ASCII .| PUNCT; ASCII .| PUNCT; ASCII .| PUNCT; ASCII .| CNTRL; (* 124 *)
  none; none; none; none; (* 128 *)
  none; none; none; none; (* 132 *)
  none; none; none; none; (* 136 *)
  none; none; none; none; (* 140 *)
  none; none; none; none; (* 144 *)
  none; none; none; none; (* 148 *)
  none; none; none; none; (* 152 *)
  none; none; none; none; (* 156 *)
  SPACE .| HDSPA; PUNCT; PUNCT; PUNCT; (* 160 *)
  PUNCT; PUNCT; PUNCT; PUNCT; (* 164 *)
  PUNCT; PUNCT; PUNCT; PUNCT; (* 168 *)
  PUNCT; PUNCT; PUNCT; PUNCT; (* 172 *)
  PUNCT; PUNCT; PUNCT; PUNCT; (* 176 *)
  PUNCT; PUNCT; PUNCT; PUNCT; (* 180 *)
  PUNCT; PUNCT; PUNCT; PUNCT; (* 184 *)
  PUNCT; PUNCT; PUNCT; PUNCT; (* 188 *)
  UPPER; UPPER; UPPER; UPPER; (* 192 *)
  UPPER; UPPER; UPPER; UPPER; (* 196 *)
  UPPER; UPPER; UPPER; UPPER; (* 200 *)
  UPPER; UPPER; UPPER; UPPER; (* 204 *)
  UPPER; UPPER; UPPER; UPPER; (* 208 *)
  UPPER; UPPER; UPPER; PUNCT; (* 212 *)
  UPPER; UPPER; UPPER; UPPER; (* 216 *)
  UPPER; UPPER; UPPER; LOWER; (* 220 *)
  LOWER; LOWER; LOWER; LOWER; (* 224 *)
  LOWER; LOWER; LOWER; LOWER; (* 228 *)
  LOWER; LOWER; LOWER; LOWER; (* 232 *)
  LOWER; LOWER; LOWER; LOWER; (* 236 *)
  LOWER; LOWER; LOWER; LOWER; (* 240 *)
  LOWER; LOWER; LOWER; PUNCT; (* 244 *)
  LOWER; LOWER; LOWER; LOWER; (* 248 *)
  LOWER; LOWER; LOWER; LOWER (* 252 *)
].

(** include/bfdev/ctype.h:42-45: bfdev_isalpha_const. *)
Definition isalpha_const (c : Z) : bool := Z.lor (uchar c) 32 - 97 <? 26.
(** include/bfdev/ctype.h:48-51: bfdev_isdigit_const. *)
Definition isdigit_const (c : Z) : bool := uchar c - 48 <? 10.
(** include/bfdev/ctype.h:54-57: bfdev_isblank_const. *)
Definition isblank_const (c : Z) : bool := (c =? 32) || (c =? 9).
(** include/bfdev/ctype.h:60-63: bfdev_iscntrl_const. *)
Definition iscntrl_const (c : Z) : bool := (uchar c <? 32) || (c =? 127).
(** include/bfdev/ctype.h:66-69: bfdev_isgraph_const. *)
Definition isgraph_const (c : Z) : bool := uchar c - 33 <? 94.
(** include/bfdev/ctype.h:72-75: bfdev_islower_const. *)
Definition islower_const (c : Z) : bool := uchar c - 97 <? 26.
(** include/bfdev/ctype.h:78-81: bfdev_isprint_const. *)
Definition isprint_const (c : Z) : bool := uchar c - 32 <? 95.
(** include/bfdev/ctype.h:84-87: bfdev_isspace_const. *)
Definition isspace_const (c : Z) : bool := (c =? 32) || (uchar c - 9 <? 5).
(** include/bfdev/ctype.h:90-93: bfdev_isupper_const. *)
Definition isupper_const (c : Z) : bool := uchar c - 65 <? 26.
(** include/bfdev/ctype.h:96-99: bfdev_isalnum_const. *)
Definition isalnum_const (c : Z) : bool := isalpha_const c || isdigit_const c.
(** include/bfdev/ctype.h:102-105: bfdev_ispunct_const. *)
Definition ispunct_const (c : Z) : bool := isgraph_const c && negb (isalnum_const c).
(** include/bfdev/ctype.h:108-111: bfdev_isxdigit_const. *)
Definition isxdigit_const (c : Z) : bool :=
  isdigit_const c || (Z.lor (uchar c) 32 - 97 <? 6).
(** include/bfdev/ctype.h:114-117: bfdev_ascii_const.  The macro bfdev_isascii
    (lines 217-222) asks for bfdev_isascii_const, which does not exist. *)
Definition ascii_const (c : Z) : bool := uchar c <=? 127.

(** include/bfdev/ctype.h:119-125: BFDEV_CTYPE_DYNAMIC. *)
Definition dynamic (flags c : Z) : bool :=
  negb (Z.land (nth (Z.to_nat (uchar c)) ctype_table 0) flags =? 0).

(** include/bfdev/ctype.h:127-129: BFDEV_CTYPE_ALPHA. *)
Definition ALPHA : Z := UPPER .| LOWER.
(** include/bfdev/ctype.h:131-134: BFDEV_CTYPE_ALNUM. *)
Definition ALNUM : Z := UPPER .| LOWER .| DIGIT.
(** include/bfdev/ctype.h:136-139: BFDEV_CTYPE_GRAPH. *)
Definition GRAPH : Z := PUNCT .| UPPER .| LOWER .| DIGIT.
(** include/bfdev/ctype.h:141-145: BFDEV_CTYPE_PRINT. *)
Definition PRINT : Z := PUNCT .| UPPER .| LOWER .| DIGIT .| HDSPA.

(** include/bfdev/ctype.h:147-159: the instances of BFDEV_CTYPE_DYNAMIC. *)
Definition isupper_dynamic : Z -> bool := dynamic UPPER.
Definition islower_dynamic : Z -> bool := dynamic LOWER.
Definition iscntrl_dynamic : Z -> bool := dynamic CNTRL.
Definition ispunct_dynamic : Z -> bool := dynamic PUNCT.
Definition isblank_dynamic : Z -> bool := dynamic BLANK.
Definition isdigit_dynamic : Z -> bool := dynamic DIGIT.
Definition isxdigit_dynamic : Z -> bool := dynamic HEXDG.
Definition isspace_dynamic : Z -> bool := dynamic SPACE.
Definition isascii_dynamic : Z -> bool := dynamic ASCII.
Definition isalpha_dynamic : Z -> bool := dynamic ALPHA.
Definition isalnum_dynamic : Z -> bool := dynamic ALNUM.
Definition isgraph_dynamic : Z -> bool := dynamic GRAPH.
Definition isprint_dynamic : Z -> bool := dynamic PRINT.

(** include/bfdev/ctype.h:161-250: the macros bfdev_isupper etc.  [known] is
    __builtin_constant_p of the argument. *)
Definition choose (const dyn : Z -> bool) (known : bool) (c : Z) : bool :=
  if known then const c else dyn c.
Definition isupper := choose isupper_const isupper_dynamic.
Definition islower := choose islower_const islower_dynamic.
Definition iscntrl := choose iscntrl_const iscntrl_dynamic.
Definition ispunct := choose ispunct_const ispunct_dynamic.
Definition isblank := choose isblank_const isblank_dynamic.
Definition isdigit := choose isdigit_const isdigit_dynamic.
Definition isxdigit := choose isxdigit_const isxdigit_dynamic.
Definition isspace := choose isspace_const isspace_dynamic.
Definition isalpha := choose isalpha_const isalpha_dynamic.
Definition isalnum := choose isalnum_const isalnum_dynamic.
Definition isgraph := choose isgraph_const isgraph_dynamic.
Definition isprint := choose isprint_const isprint_dynamic.

(** include/bfdev/ctype.h:252-256: bfdev_toascii. *)
Definition toascii (c : Z) : Z := Z.land (uchar c) 127.

(** include/bfdev/ctype.h:258-264: bfdev_tolower.  It calls the C library's
    [isupper], a parameter here; the C standard leaves that call undefined
    unless [c] is EOF (-1) or fits an unsigned char. *)
Definition tolower (libc_isupper : Z -> bool) (c : Z) : option Z :=
  if (c <? -1) || (255 <? c) then None
  else Some (if libc_isupper c then Z.lor (uchar c) 32 else uchar c).

(** include/bfdev/ctype.h:266-272: bfdev_toupper. *)
Definition toupper (libc_islower : Z -> bool) (c : Z) : option Z :=
  if (c <? -1) || (255 <? c) then None
  else Some (if libc_islower c then Z.land (uchar c) 95 else uchar c).
