(** * Properties of base64 and base32 (C01, C02, C03) *)
From Verif Require Import Lib BaseModel BaseSpec BaseProofs.

(** C01. The encoder produces exactly the RFC 4648 text. *)
Theorem base64_encode_rfc : forall data,
  bytes data -> base64_encode data = Some (spec64_encode data).
Proof. exact base64_encode_correct. Qed.
Print Assumptions base64_encode_rfc.
Example base64_encode_rfc_ex :
  bytes [77; 97; 110; 0; 255] /\
  base64_encode [77; 97; 110; 0; 255] = Some [84; 87; 70; 117; 65; 80; 56; 61].
Proof. split; [repeat constructor; unfold byte; lia | vm_compute; reflexivity]. Qed.

(** C01. Encoding then decoding gives back the data, in any buffer of the advertised
    size, leaves the bytes after the advertised size alone, and the text has the
    advertised length. *)
Theorem base64_roundtrip : forall data buff,
  bytes data ->
  base64_decode_length (base64_encode_length (zlen data)) <= zlen buff ->
  exists text buff',
    base64_encode data = Some text /\
    zlen text = base64_encode_length (zlen data) /\
    base64_decode buff text = Some (0, buff') /\
    firstn (length data) buff' = data /\
    zlen buff' = zlen buff /\
    skipn (Z.to_nat (base64_decode_length (zlen text))) buff'
      = skipn (Z.to_nat (base64_decode_length (zlen text))) buff.
Proof.
  intros data buff HB HL. exists (spec64_encode data).
  pose proof (spec64_length data) as L. rewrite <- L in HL.
  destruct (base64_decode_correct buff (spec64_encode data) (spec64_bytes data) HL)
    as (ret & buff' & E & Z1 & S1 & OK & _).
  destruct (OK (spec64_valid data)) as [-> F].
  rewrite (spec64_roundtrip data HB) in F.
  exists buff'. rewrite base64_encode_correct by exact HB. auto 10.
Qed.
Print Assumptions base64_roundtrip.
Example base64_roundtrip_ex :
  bytes [1; 2; 3; 255] /\
  base64_decode_length (base64_encode_length (zlen [1; 2; 3; 255])) <= zlen (repeat 7 8) /\
  base64_decode (repeat 7 8) [65; 81; 73; 68; 47; 119; 61; 61]
    = Some (0, [1; 2; 3; 255; 0; 7; 7; 7]).
Proof.
  split; [repeat constructor; unfold byte; lia|].
  split; [vm_compute; discriminate | vm_compute; reflexivity].
Qed.

(** C02. On any text, with a buffer of the advertised size, the decoder stays inside the
    advertised part of the buffer; it answers -EINVAL exactly when some character before
    the first '=' is outside the alphabet, and otherwise 0 with the decoded bytes. *)
Theorem base64_decode_total : forall buff text,
  bytes text -> base64_decode_length (zlen text) <= zlen buff ->
  exists ret buff',
    base64_decode buff text = Some (ret, buff') /\
    zlen buff' = zlen buff /\
    skipn (Z.to_nat (base64_decode_length (zlen text))) buff'
      = skipn (Z.to_nat (base64_decode_length (zlen text))) buff /\
    (Forall (in_alphabet alpha64 64) (body text) ->
       ret = 0 /\ firstn (length (spec64_decode text)) buff' = spec64_decode text) /\
    (~ Forall (in_alphabet alpha64 64) (body text) -> ret = -22).
Proof. exact base64_decode_correct. Qed.
Print Assumptions base64_decode_total.
Example base64_decode_total_ex :
  bytes [65; 81; 42] /\ base64_decode_length (zlen [65; 81; 42]) <= zlen (repeat 0 3) /\
  base64_decode (repeat 0 3) [65; 81; 42] = Some (-22, [1; 0; 0]) /\
  base64_decode (repeat 0 3) [65; 81; 61; 42] = Some (0, [1; 0; 0]).
Proof.
  split; [repeat constructor; unfold byte; lia|].
  split; [vm_compute; discriminate | split; vm_compute; reflexivity].
Qed.

Corollary base64_decode_rejects_iff : forall buff text ret buff',
  bytes text -> base64_decode_length (zlen text) <= zlen buff ->
  base64_decode buff text = Some (ret, buff') ->
  (ret = - EINVAL <-> Exists (fun c => ~ in_alphabet alpha64 64 c) (body text)).
Proof.
  intros buff text ret buff' HB HL E.
  destruct (base64_decode_correct buff text HB HL) as (ret2 & b2 & E2 & _ & _ & OK & BAD).
  rewrite E in E2. injection E2 as -> ->.
  destruct (forallb (valid alpha64 64) (body text)) eqn:F.
  - apply forallb_valid in F. destruct (OK F) as [-> _]. split; [discriminate|].
    intros X. exfalso. rewrite Forall_forall in F. apply Exists_exists in X as (c & Hc & Hn). auto.
  - assert (N : ~ Forall (in_alphabet alpha64 64) (body text)).
    { intros H. apply forallb_valid in H. congruence. }
    rewrite (BAD N). split; [intros _|reflexivity].
    apply Exists_exists. clear - F. induction (body text) as [|c t IH]; [discriminate|].
    cbn [forallb] in F. unfold valid at 1 in F.
    destruct (char_value alpha64 64 c) eqn:E.
    + cbn [andb] in F. destruct (IH F) as (d & Hd & Hn). exists d. split; [right; exact Hd|exact Hn].
    + exists c. split; [left; reflexivity|]. apply char_value_none. exact E.
Qed.
Print Assumptions base64_decode_rejects_iff.

(** C03. The same for base32. *)
Theorem base32_encode_rfc : forall data,
  bytes data -> base32_encode data = Some (spec32_encode data).
Proof. exact base32_encode_correct. Qed.
Print Assumptions base32_encode_rfc.
Example base32_encode_rfc_ex :
  bytes [102; 111; 111; 98; 97; 114] /\
  base32_encode [102; 111; 111; 98; 97; 114]
    = Some [77; 90; 88; 87; 54; 89; 84; 66; 79; 73; 61; 61; 61; 61; 61; 61].
Proof. split; [repeat constructor; unfold byte; lia | vm_compute; reflexivity]. Qed.

Theorem base32_roundtrip : forall data buff,
  bytes data ->
  base32_decode_length (base32_encode_length (zlen data)) <= zlen buff ->
  exists text buff',
    base32_encode data = Some text /\
    zlen text = base32_encode_length (zlen data) /\
    base32_decode buff text = Some (0, buff') /\
    firstn (length data) buff' = data /\
    zlen buff' = zlen buff /\
    skipn (Z.to_nat (base32_decode_length (zlen text))) buff'
      = skipn (Z.to_nat (base32_decode_length (zlen text))) buff.
Proof.
  intros data buff HB HL. exists (spec32_encode data).
  pose proof (spec32_length data) as L. rewrite <- L in HL.
  destruct (base32_decode_correct buff (spec32_encode data) (spec32_bytes data) HL)
    as (ret & buff' & E & Z1 & S1 & OK & _).
  destruct (OK (spec32_valid data)) as [-> F].
  rewrite (spec32_roundtrip data HB) in F.
  exists buff'. rewrite base32_encode_correct by exact HB. auto 10.
Qed.
Print Assumptions base32_roundtrip.
Example base32_roundtrip_ex :
  bytes [1; 255] /\
  base32_decode_length (base32_encode_length (zlen [1; 255])) <= zlen (repeat 7 6) /\
  base32_decode (repeat 7 6) [65; 72; 55; 81; 61; 61; 61; 61] = Some (0, [1; 255; 0; 7; 7; 7]).
Proof.
  split; [repeat constructor; unfold byte; lia|].
  split; [vm_compute; discriminate | vm_compute; reflexivity].
Qed.

Theorem base32_decode_total : forall buff text,
  bytes text -> base32_decode_length (zlen text) <= zlen buff ->
  exists ret buff',
    base32_decode buff text = Some (ret, buff') /\
    zlen buff' = zlen buff /\
    skipn (Z.to_nat (base32_decode_length (zlen text))) buff'
      = skipn (Z.to_nat (base32_decode_length (zlen text))) buff /\
    (Forall (in_alphabet alpha32 32) (body text) ->
       ret = 0 /\ firstn (length (spec32_decode text)) buff' = spec32_decode text) /\
    (~ Forall (in_alphabet alpha32 32) (body text) -> ret = -22).
Proof. exact base32_decode_correct. Qed.
Print Assumptions base32_decode_total.
Example base32_decode_total_ex :
  bytes [65; 49] /\ base32_decode_length (zlen [65; 49]) <= zlen (repeat 0 5) /\
  base32_decode (repeat 0 5) [65; 49] = Some (-22, [0; 0; 0; 0; 0]).
Proof.
  split; [repeat constructor; unfold byte; lia|].
  split; [vm_compute; discriminate | vm_compute; reflexivity].
Qed.
