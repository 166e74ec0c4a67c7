(** * Message digests: theorems (C32) *)
From Verif Require Import Lib BitsModel BitsProofs DigestModel DigestSpec DigestProofs DigestProofs2 DigestProofs3.

(** C32, MD5: starting from any content of the block buffer, any sequence of updates followed by finish yields the
    digest RFC 1321 defines of the concatenated data. *)
Theorem C32_md5 : forall garbage chunks, length garbage = 64%nat -> Forall bytes chunks -> zlen (concat chunks) < 2 ^ 61 ->
  (let* c := updates md5_update (md5_init garbage) chunks in md5_finish c) = Some (MD5 (concat chunks)).
Proof.
  intros g l G B S. destruct (updates_ok md5_transform_block md5_iv md5_update (md5_update_ok md5_iv) l (md5_init g) []) as (c & -> & Gc); [apply good_init, G|exact S|]. cbn [app] in Gc.
  unfold md5_finish. rewrite (md5_finalize_ok _ _ _ Gc S). unfold MD5. f_equal.
  destruct (digest_ext le_bytes md5_transform_block md5_compress md5_iv (concat l) 4) as [-> _].
  - apply le_bytes_ok.
  - apply Forall_concat, B.
  - split; [reflexivity|]. repeat constructor; unfold u32; lia.
  - intros h b O [Bb Lb]. apply md5_block_ok; assumption.
  - apply flat_map_ext. apply le32_bytes_ok.
Qed.
(** The work area of the SHA transforms is an uninitialised local: [stk] gives its content in each update call and
    [fin] in the finish call. *)
Lemma sha_all (transform : list Z -> (Z -> Z) -> list Z -> list Z * (Z -> Z)) n w compress iv garbage stk fin chunks :
  (forall h g1 g2 d, fst (transform h g1 d) = fst (transform h g2 d)) ->
  (forall h b g, okd n h -> byte64 b -> fst (transform h g b) = compress h b /\ okd n (compress h b)) -> okd n iv ->
  length garbage = 64%nat -> Forall bytes chunks -> zlen (concat chunks) < 2 ^ 61 ->
  (let* c := updates (fun c d => sha_update transform (stk c d) c d) {| dg := iv; blk := garbage; cnt := 0 |} chunks in sha_finish transform fin c w)
  = Some (flat_map (be_bytes 4) (firstn w (digest be_bytes compress iv (concat chunks)))).
Proof.
  intros I X O G B S. set (f := fun d b => fst (transform d (fun _ => 0) b)).
  assert (If : forall d g b, fst (transform d g b) = f d b) by (intros; apply I).
  destruct (updates_ok f iv (fun c d => sha_update transform (stk c d) c d) (fun c msg data => sha_update_ok transform f If (stk c data) iv c msg data) chunks {| dg := iv; blk := garbage; cnt := 0 |} []) as (c & -> & Gc); [apply good_init, G|exact S|]. cbn [app] in Gc.
  unfold sha_finish. rewrite (sha_finalize_ok transform f If fin _ _ _ Gc S). f_equal.
  destruct (digest_ext be_bytes f compress iv (concat chunks) n) as [-> _].
  - apply be_bytes_ok.
  - apply Forall_concat, B.
  - exact O.
  - intros h b Oh Bb. apply (X h b (fun _ => 0) Oh Bb).
  - apply flat_map_ext. apply be32_bytes_ok.
Qed.
Lemma okd_firstn n l : okd n l -> firstn n l = l.
Proof. intros [L _]. rewrite <- L. apply firstn_all. Qed.
Lemma sha1_x h b g : okd 5 h -> byte64 b -> fst (sha1_transform h g b) = sha1_compress h b /\ okd 5 (sha1_compress h b).
Proof. intros O [B L]. apply sha1_ok; assumption. Qed.
Lemma sha2_x h b g : okd 8 h -> byte64 b -> fst (sha2_transform h g b) = sha2_compress h b /\ okd 8 (sha2_compress h b).
Proof. intros O [B L]. apply sha2_ok; assumption. Qed.
Lemma iv1 : okd 5 sha1_iv.
Proof. split; [reflexivity|]. repeat constructor; unfold u32; lia. Qed.
Lemma iv256 : sha256_iv = dg (sha256_init []) /\ okd 8 sha256_iv.
Proof. assert (E : sha256_iv = dg (sha256_init [])) by (vm_compute; reflexivity). split; [exact E|]. rewrite E. split; [reflexivity|]. repeat constructor; unfold u32; lia. Qed.
Lemma iv224 : sha224_iv = dg (sha224_init []) /\ okd 8 sha224_iv.
Proof. assert (E : sha224_iv = dg (sha224_init [])) by (vm_compute; reflexivity). split; [exact E|]. rewrite E. split; [reflexivity|]. repeat constructor; unfold u32; lia. Qed.
Lemma okd_digest n compress iv msg : okd n iv -> bytes msg -> (forall h b, okd n h -> byte64 b -> okd n (compress h b)) -> okd n (digest be_bytes compress iv msg).
Proof. intros O B X. apply (digest_ext be_bytes compress compress iv msg n be_bytes_ok B O). intros h b Oh Bb. split; [reflexivity|apply X; assumption]. Qed.

Opaque sha1_compress sha2_compress sha1_transform sha2_transform digest sha256_iv sha224_iv.
(** C32, SHA-1: the digest of FIPS 180-4 of the concatenated data *)
Theorem C32_sha1 : forall garbage stk fin chunks, length garbage = 64%nat -> Forall bytes chunks -> zlen (concat chunks) < 2 ^ 61 ->
  (let* c := updates (fun c d => sha1_update (stk c d) c d) (sha1_init garbage) chunks in sha1_finish fin c) = Some (SHA1 (concat chunks)).
Proof.
  intros g stk fin l G B S. change (sha1_init g) with {| dg := sha1_iv; blk := g; cnt := 0 |}. unfold sha1_update, sha1_finish, SHA1.
  etransitivity; [exact (sha_all sha1_transform 5 5 sha1_compress sha1_iv g stk fin l sha1_indep sha1_x iv1 G B S)|].
  rewrite okd_firstn; [reflexivity|]. apply okd_digest; [apply iv1|apply Forall_concat, B|]. intros h b Oh Bb. apply (sha1_x h b (fun _ => 0) Oh Bb).
Qed.
(** C32, SHA-256 *)
Theorem C32_sha256 : forall garbage stk fin chunks, length garbage = 64%nat -> Forall bytes chunks -> zlen (concat chunks) < 2 ^ 61 ->
  (let* c := updates (fun c d => sha2_update (stk c d) c d) (sha256_init garbage) chunks in sha256_finish fin c) = Some (SHA256 (concat chunks)).
Proof.
  intros g stk fin l G B S. destruct iv256 as [E O]. unfold SHA256. unfold sha256_init. change [0x6a09e667; 0xbb67ae85; 0x3c6ef372; 0xa54ff53a; 0x510e527f; 0x9b05688c; 0x1f83d9ab; 0x5be0cd19] with (dg (sha256_init [])). rewrite <- E. unfold sha2_update, sha256_finish.
  etransitivity; [exact (sha_all sha2_transform 8 8 sha2_compress sha256_iv g stk fin l sha2_indep sha2_x O G B S)|].
  rewrite okd_firstn; [reflexivity|]. apply okd_digest; [exact O|apply Forall_concat, B|]. intros h b Oh Bb. apply (sha2_x h b (fun _ => 0) Oh Bb).
Qed.
(** C32, SHA-224 *)
Theorem C32_sha224 : forall garbage stk fin chunks, length garbage = 64%nat -> Forall bytes chunks -> zlen (concat chunks) < 2 ^ 61 ->
  (let* c := updates (fun c d => sha2_update (stk c d) c d) (sha224_init garbage) chunks in sha224_finish fin c) = Some (SHA224 (concat chunks)).
Proof.
  intros g stk fin l G B S. destruct iv224 as [E O]. unfold SHA224. unfold sha224_init. change [0xc1059ed8; 0x367cd507; 0x3070dd17; 0xf70e5939; 0xffc00b31; 0x68581511; 0x64f98fa7; 0xbefa4fa4] with (dg (sha224_init [])). rewrite <- E. unfold sha2_update, sha224_finish.
  exact (sha_all sha2_transform 8 7 sha2_compress sha224_iv g stk fin l sha2_indep sha2_x O G B S).
Qed.

(** "abc" in two pieces, with a buffer and a work area full of junk *)
Example abc := [[97; 98]; []; [99]].
Example C32_hyps : length (repeat 7 64) = 64%nat /\ Forall bytes abc /\ zlen (concat abc) < 2 ^ 61.
Proof. split; [reflexivity|split; [repeat constructor; unfold byte; lia|vm_compute; reflexivity]]. Qed.
Example C32_md5_abc : (let* c := updates md5_update (md5_init (repeat 7 64)) abc in md5_finish c) =
  Some [0x90; 0x01; 0x50; 0x98; 0x3c; 0xd2; 0x4f; 0xb0; 0xd6; 0x96; 0x3f; 0x7d; 0x28; 0xe1; 0x7f; 0x72].
Proof. vm_compute. reflexivity. Qed.
Example C32_sha1_abc : (let* c := updates (fun c d => sha1_update (fun i => zlen d + i) c d) (sha1_init (repeat 7 64)) abc in sha1_finish (fun i => i) c) =
  Some [0xa9; 0x99; 0x3e; 0x36; 0x47; 0x06; 0x81; 0x6a; 0xba; 0x3e; 0x25; 0x71; 0x78; 0x50; 0xc2; 0x6c; 0x9c; 0xd0; 0xd8; 0x9d].
Proof. vm_compute. reflexivity. Qed.
Example C32_sha256_abc : (let* c := updates (fun c d => sha2_update (fun i => i) c d) (sha256_init (repeat 7 64)) abc in sha256_finish (fun i => i) c) =
  Some [0xba; 0x78; 0x16; 0xbf; 0x8f; 0x01; 0xcf; 0xea; 0x41; 0x41; 0x40; 0xde; 0x5d; 0xae; 0x22; 0x23; 0xb0; 0x03; 0x61; 0xa3; 0x96; 0x17; 0x7a; 0x9c; 0xb4; 0x10; 0xff; 0x61; 0xf2; 0x00; 0x15; 0xad].
Proof. vm_compute. reflexivity. Qed.
Example C32_sha224_abc : (let* c := updates (fun c d => sha2_update (fun i => i) c d) (sha224_init (repeat 7 64)) abc in sha224_finish (fun i => i) c) =
  Some [0x23; 0x09; 0x7d; 0x22; 0x34; 0x05; 0xd8; 0x22; 0x86; 0x42; 0xa4; 0x77; 0xbd; 0xa2; 0x55; 0xb3; 0x2a; 0xad; 0xbc; 0xe4; 0xbd; 0xa0; 0xb3; 0xf7; 0xe3; 0x6c; 0x9d; 0xa7].
Proof. vm_compute. reflexivity. Qed.
Print Assumptions C32_md5.
Print Assumptions C32_sha1.
Print Assumptions C32_sha224.
Print Assumptions C32_sha256.
