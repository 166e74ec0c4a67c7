(** * Model of src/bcd.c and include/bfdev/bcd.h *)
From Verif Require Import Lib.

(** src/bcd.c:9-32 [bfdev_bcd2bin_table]: designated initialisers, others UINT8_MAX. *)
Definition bcd2bin_inits : list (Z * Z) :=
  [(0, 0); (1, 1); (2, 2); (3, 3); (4, 4); (5, 5); (6, 6); (7, 7); (8, 8); (9, 9);
   (16, 10); (17, 11); (18, 12); (19, 13); (20, 14); (21, 15); (22, 16); (23, 17); (24, 18); (25, 19);
   (32, 20); (33, 21); (34, 22); (35, 23); (36, 24); (37, 25); (38, 26); (39, 27); (40, 28); (41, 29);
   (48, 30); (49, 31); (50, 32); (51, 33); (52, 34); (53, 35); (54, 36); (55, 37); (56, 38); (57, 39);
   (64, 40); (65, 41); (66, 42); (67, 43); (68, 44); (69, 45); (70, 46); (71, 47); (72, 48); (73, 49);
   (80, 50); (81, 51); (82, 52); (83, 53); (84, 54); (85, 55); (86, 56); (87, 57); (88, 58); (89, 59);
   (96, 60); (97, 61); (98, 62); (99, 63); (100, 64); (101, 65); (102, 66); (103, 67); (104, 68); (105, 69);
   (112, 70); (113, 71); (114, 72); (115, 73); (116, 74); (117, 75); (118, 76); (119, 77); (120, 78); (121, 79);
   (128, 80); (129, 81); (130, 82); (131, 83); (132, 84); (133, 85); (134, 86); (135, 87); (136, 88); (137, 89);
   (144, 90); (145, 91); (146, 92); (147, 93); (148, 94); (149, 95); (150, 96); (151, 97); (152, 98); (153, 99)].

(** src/bcd.c:34-57 [bfdev_bin2bcd_table]. *)
Definition bin2bcd_inits : list (Z * Z) :=
  [(0, 0); (1, 1); (2, 2); (3, 3); (4, 4); (5, 5); (6, 6); (7, 7); (8, 8); (9, 9);
   (10, 16); (11, 17); (12, 18); (13, 19); (14, 20); (15, 21); (16, 22); (17, 23); (18, 24); (19, 25);
   (20, 32); (21, 33); (22, 34); (23, 35); (24, 36); (25, 37); (26, 38); (27, 39); (28, 40); (29, 41);
   (30, 48); (31, 49); (32, 50); (33, 51); (34, 52); (35, 53); (36, 54); (37, 55); (38, 56); (39, 57);
   (40, 64); (41, 65); (42, 66); (43, 67); (44, 68); (45, 69); (46, 70); (47, 71); (48, 72); (49, 73);
   (50, 80); (51, 81); (52, 82); (53, 83); (54, 84); (55, 85); (56, 86); (57, 87); (58, 88); (59, 89);
   (60, 96); (61, 97); (62, 98); (63, 99); (64, 100); (65, 101); (66, 102); (67, 103); (68, 104); (69, 105);
   (70, 112); (71, 113); (72, 114); (73, 115); (74, 116); (75, 117); (76, 118); (77, 119); (78, 120); (79, 121);
   (80, 128); (81, 129); (82, 130); (83, 131); (84, 132); (85, 133); (86, 134); (87, 135); (88, 136); (89, 137);
   (90, 144); (91, 145); (92, 146); (93, 147); (94, 148); (95, 149); (96, 150); (97, 151); (98, 152); (99, 153)].

(** C designated-initialiser semantics of the two tables (bcd.c:11, 36: default UINT8_MAX). *)
Definition table_at (inits : list (Z * Z)) (i : Z) : Z :=
  match find (fun p => fst p =? i) inits with Some (_, v) => v | None => 255 end.

(** bcd.h:37-47 [bfdev_bcd2bin_dynamic], [bfdev_bin2bcd_dynamic]; the index is uint8_t. *)
Definition bcd2bin_dynamic (b : Z) : Z := table_at bcd2bin_inits (w8 b).
Definition bin2bcd_dynamic (b : Z) : Z := table_at bin2bcd_inits (w8 b).

(** bcd.h:19-25 constant-expression macros, on a uint8_t argument (int arithmetic). *)
Definition bcd2bin_const (b : Z) : Z := Z.land b 15 + Z.shiftr b 4 * 10.
Definition bin2bcd_const (b : Z) : Z := Z.shiftl (b / 10) 4 + b mod 10.
