(** * C29, C78: matrices *)
From Verif Require Import Lib MpiModel MatrixModel MatrixSpec MatrixProofs.

(** Sum and difference, whatever the aliasing. *)
Theorem C29_add : forall junk al dest va vb, wfm va -> wfm vb -> row va = row vb -> col va = col vb ->
  (al = DestAB -> va = vb) ->
  exists r, matrix_addsub Z.add true junk al dest va vb = Some (0, r) /\ wfm r /\ row r = row va /\ col r = col va /\
    forall i j, 0 <= i < row va -> 0 <= j < col va -> entry r i j = (entry va i j + entry vb i j) mod 2 ^ 64.
Proof. intros. apply matrix_addsub_ok; assumption. Qed.
Theorem C29_sub : forall junk al dest va vb, wfm va -> wfm vb -> row va = row vb -> col va = col vb ->
  (al = DestAB -> va = vb) ->
  exists r, matrix_addsub Z.sub true junk al dest va vb = Some (0, r) /\ wfm r /\ row r = row va /\ col r = col va /\
    forall i j, 0 <= i < row va -> 0 <= j < col va -> entry r i j = (entry va i j - entry vb i j) mod 2 ^ 64.
Proof. intros. apply matrix_addsub_ok; assumption. Qed.
(** Product, whatever the aliasing. *)
Theorem C29_mul : forall al dest va vb, wfm va -> wfm vb -> col va = row vb -> row va * col vb < 2 ^ 32 ->
  exists r, matrix_mul true true al dest va vb = Some (0, r) /\ wfm r /\ row r = row va /\ col r = col vb /\
    forall i j, 0 <= i < row va -> 0 <= j < col vb -> entry r i j = product_entry va vb i j.
Proof. exact matrix_mul_ok. Qed.
(** Wrong dimensions are refused and failing allocations reported, leaving the destination. *)
Theorem C29_errors : forall op ok ok2 junk dest va vb,
  (row va <> row vb \/ col va <> col vb -> matrix_addsub op ok junk Distinct dest va vb = Some (- EINVAL, dest)) /\
  (col va <> row vb -> matrix_mul ok ok2 Distinct dest va vb = Some (- EINVAL, dest)) /\
  (row va = row vb -> col va = col vb -> matrix_addsub op false junk Distinct dest va vb = Some (- ENOMEM, dest)) /\
  (col va = row vb -> matrix_mul false ok2 Distinct dest va vb = Some (- ENOMEM, dest)).
Proof.
  intros. unfold matrix_addsub, matrix_mul. split; [|split; [|split]].
  - intros H. destruct (Z.eqb_spec (row va) (row vb)), (Z.eqb_spec (col va) (col vb)); cbn [negb orb]; try reflexivity.
    destruct H; contradiction.
  - intros H. destruct (Z.eqb_spec (col va) (row vb)); [contradiction|]. reflexivity.
  - intros -> ->. rewrite !Z.eqb_refl. reflexivity.
  - intros ->. rewrite Z.eqb_refl. reflexivity.
Qed.
Example C29_case : let a := Matrix 2 3 [1; 2; 3; 4; 5; 6] in let b := Matrix 3 2 [7; 8; 9; 10; 11; 2 ^ 64 - 1] in
  wfm a /\ wfm b /\ matrix_mul true true DestB a a b = Some (0, Matrix 2 2 [58; 25; 139; 76]) /\
  matrix_addsub Z.add true 5 DestAB a a a = Some (0, Matrix 2 3 [2; 4; 6; 8; 10; 12]).
Proof.
  cbv zeta. unfold wfm. cbn [row col cells]. split; [|split; [|split; reflexivity]].
  - split; [lia|]. split; [lia|]. split; [lia|]. split; [reflexivity|]. repeat constructor; unfold u64; lia.
  - split; [lia|]. split; [lia|]. split; [lia|]. split; [reflexivity|]. repeat constructor; unfold u64; lia.
Qed.

(** Transposition never writes the destination's cells: it only sets the dimensions. *)
Theorem C29_trans_writes_nothing : forall junk dest src ret d s,
  matrix_trans true junk dest src = Some (ret, d, s) ->
  cells d = resize junk (cells dest) (w32 (col src * row src)).
Proof.
  intros junk dest src ret d s H. unfold matrix_trans in H. cbn [negb] in H.
  destruct (trans_rows _ _ _ _ _ _); [|discriminate]. injection H as <- <- <-. reflexivity.
Qed.
Theorem C29_trans_refuted : exists src d s, wfm src /\
  matrix_trans true 0 (Matrix 0 0 []) src = Some (0, d, s) /\ entry d 1 0 <> entry src 0 1 /\ s <> src.
Proof.
  exists (Matrix 2 2 [1; 2; 3; 4]), (Matrix 2 2 [0; 0; 0; 0]), (Matrix 2 2 [0; 0; 0; 0]).
  split; [|split; [reflexivity|split; [discriminate|discriminate]]].
  unfold wfm. cbn [row col cells]. repeat split; try lia. repeat constructor; unfold u64; lia.
Qed.

(** ** C78: storing and fetching cells *)
Theorem C78_import : forall var buffer r c, 0 <= r -> 0 <= c -> r * c < 2 ^ 32 -> zlen buffer = r * c -> Forall u64 buffer ->
  matrix_import true var buffer r c = Some (0, Matrix r c buffer) /\ wfm (Matrix r c buffer).
Proof.
  intros var buffer r c Hr Hc H L U. unfold matrix_import. cbn [negb]. rewrite w32_small by nia.
  rewrite L, Z.ltb_irrefl. split.
  - replace (Z.to_nat (r * c)) with (length buffer) by (unfold zlen in L; lia). rewrite firstn_all. reflexivity.
  - unfold wfm. cbn [row col cells]. auto.
Qed.
(** The number of cells is computed in 32 bits: 65536 x 65536 is accepted with no cell at all. *)
Theorem C78_import_refuted : exists r, matrix_import true (Matrix 0 0 []) [] 65536 65536 = Some (0, r) /\
  row r = 65536 /\ col r = 65536 /\ cells r = [].
Proof. exists (Matrix 65536 65536 []). repeat split. Qed.
(** The accessor answers the cell at row * col, so any cell it should answer is the wrong one
    unless the product happens to be its index, and whole rows are refused. *)
Theorem C78_data_partial : forall m r c, wfm m -> 0 <= r < row m -> 0 <= c < col m -> r <= col m ->
  matrix_data m r c = Some (r * col m + c) <-> (r * col m + c = r * c).
Proof.
  intros m r c (A & B & C & L & U) Hr Hc Le. unfold matrix_data.
  destruct (Z.ltb_spec (col m) r); [lia|]. destruct (Z.ltb_spec (col m) c); [lia|]. cbn [orb].
  rewrite w32_small by nia. rewrite L. destruct (Z.leb_spec (row m * col m) (r * c)).
  - split; [discriminate|]. nia.
  - split; [intros E; injection E; lia|intros ->; reflexivity].
Qed.
(** In a 3 x 1 matrix, column 1 (which does not exist) is answered and row 2 (which does) refused. *)
Theorem C78_data_refuted : exists m, wfm m /\ matrix_data m 0 1 = Some 0 /\ matrix_data m 2 0 = None.
Proof.
  exists (Matrix 3 1 [7; 8; 9]). split; [|split; reflexivity].
  unfold wfm. cbn [row col cells]. repeat split; try lia. repeat constructor; unfold u64; lia.
Qed.
Print Assumptions C29_add.
Print Assumptions C29_sub.
Print Assumptions C29_mul.
Print Assumptions C29_errors.
Print Assumptions C29_trans_writes_nothing.
Print Assumptions C29_trans_refuted.
Print Assumptions C78_import.
Print Assumptions C78_import_refuted.
Print Assumptions C78_data_partial.
Print Assumptions C78_data_refuted.
