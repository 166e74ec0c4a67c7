(** * Properties of ARC4 (C06, C07) *)
From Verif Require Import Lib Arc4Model Arc4Spec Arc4Proofs.

(** C06. Key setup followed by any sequence of trans calls is textbook RC4 of the
    concatenated message, whatever the previous contents of the context. *)
Theorem arc4_is_rc4 : forall ctx key chunks,
  key <> [] -> bytes key ->
  exists ctx0 ctx1,
    arc4_setkey ctx key = Some ctx0 /\
    arc4_trans_chunks ctx0 chunks = Some (rc4_crypt key (concat chunks), ctx1).
Proof.
  intros ctx key chunks Hk HB.
  destruct (arc4_setkey_rel ctx key Hk HB) as (ctx0 & E0 & R & _).
  destruct (arc4_chunks_prga chunks ctx0 (rc4_init key) 0 0 R) as (ctx1 & E1 & _).
  exists ctx0, ctx1. auto.
Qed.
Print Assumptions arc4_is_rc4.
(** The classic test vector: key "Key", message "Plaintext" cut as 3 + 0 + 6 bytes. *)
Example arc4_is_rc4_ex :
  let key := [75; 101; 121] in
  key <> [] /\ bytes key /\
  (let* c := arc4_setkey {| box := []; proa := 0; prob := 0 |} key in
   option_map fst (arc4_trans_chunks c [[80; 108; 97]; []; [105; 110; 116; 101; 120; 116]]))
    = Some [187; 243; 22; 232; 217; 64; 175; 10; 211].
Proof.
  cbv zeta. split; [discriminate|]. split; [repeat constructor; unfold byte; lia|].
  vm_compute. reflexivity.
Qed.

(** C06. Decrypting with the same key (any chunking on either side) gives the message back. *)
Theorem arc4_decrypt_inverts : forall ctx ctx' key chunks1 chunks2 cipher c0 c0' c1,
  key <> [] -> bytes key ->
  arc4_setkey ctx key = Some c0 ->
  arc4_trans_chunks c0 chunks1 = Some (cipher, c1) ->
  arc4_setkey ctx' key = Some c0' ->
  concat chunks2 = cipher ->
  exists c1', arc4_trans_chunks c0' chunks2 = Some (concat chunks1, c1').
Proof.
  intros ctx ctx' key chunks1 chunks2 cipher c0 c0' c1 Hk HB E0 E1 E0' Hc.
  destruct (arc4_is_rc4 ctx key chunks1 Hk HB) as (d0 & d1 & D0 & D1).
  destruct (arc4_is_rc4 ctx' key chunks2 Hk HB) as (e0 & e1 & F0 & F1).
  rewrite E0 in D0. injection D0 as <-. rewrite E0' in F0. injection F0 as <-.
  rewrite E1 in D1. injection D1 as Hci _. exists e1. rewrite F1. f_equal. f_equal.
  rewrite Hc, Hci. unfold rc4_crypt, rc4_stream.
  pose proof (prga_length (length (concat chunks1)) (rc4_init key) 0 0) as L.
  rewrite xor_bytes_length by (symmetry; exact L).
  apply xor_bytes_twice. symmetry. exact L.
Qed.
Print Assumptions arc4_decrypt_inverts.
Example arc4_decrypt_inverts_ex :
  let key := [1; 2; 3; 4; 5] in
  (let* c0 := arc4_setkey {| box := []; proa := 9; prob := 9 |} key in
   let* (cipher, c1) := arc4_trans_chunks c0 [[10; 20]; [30]] in
   option_map fst (arc4_trans_chunks c0 [cipher])) = Some [10; 20; 30].
Proof. vm_compute. reflexivity. Qed.

(** C07. At every point of every history the box is a permutation of 0..255 and the
    indices are bytes, so that the next call is defined. *)
Theorem arc4_state_permutation : forall ctx key chunks c0 out c1,
  key <> [] -> bytes key ->
  arc4_setkey ctx key = Some c0 ->
  arc4_trans_chunks c0 chunks = Some (out, c1) ->
  perm256 (box c1) /\ byte (proa c1) /\ byte (prob c1).
Proof.
  intros ctx key chunks c0 out c1 Hk HB E0 E1.
  destruct (arc4_setkey_rel ctx key Hk HB) as (d0 & D0 & R & F).
  rewrite E0 in D0. injection D0 as <-.
  destruct (arc4_chunks_prga chunks c0 (rc4_init key) 0 0 R) as (d1 & D1 & R1 & F1).
  rewrite E1 in D1. injection D1 as _ <-. specialize (F1 F).
  destruct (prga (length (concat chunks)) (rc4_init key) 0 0) as [ks [[T i] j]].
  cbn [fst snd rel] in *. destruct R1 as (A & Ea & Eb & Hi & Hj).
  split; [eapply perm256_of_agree; eauto|].
  rewrite Ea, Eb. unfold byte. split; [apply mod256|lia].
Qed.
Print Assumptions arc4_state_permutation.

(** C07. No call ever reads or writes outside the box. *)
Theorem arc4_never_out_of_bounds : forall ctx key chunks,
  key <> [] -> bytes key ->
  exists c0 out c1, arc4_setkey ctx key = Some c0 /\
    arc4_trans_chunks c0 chunks = Some (out, c1).
Proof.
  intros. destruct (arc4_is_rc4 ctx key chunks) as (c0 & c1 & E0 & E1); auto.
  exists c0, (rc4_crypt key (concat chunks)), c1. auto.
Qed.
Print Assumptions arc4_never_out_of_bounds.
