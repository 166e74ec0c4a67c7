(** * Jenkins hash: theorems (C33) *)
From Verif Require Import Lib BitsModel BitsProofs DigestSpec JhashModel JhashSpec JhashProofs.

(** C33: both mixing functions are bijections of the 96-bit states. *)
Lemma bij_ext f g : (forall x, word3 x -> g x = f x) -> bijective3 f -> bijective3 g.
Proof.
  intros E (U & h & Uh & L & R). split; [intros x X; rewrite E by exact X; apply U, X|]. exists h. split; [exact Uh|]. split; intros x X.
  - rewrite E by exact X. apply L, X.
  - rewrite E by (apply Uh, X). apply R, X.
Qed.
Theorem C33_mix_reversible : bijective3 mix /\ bijective3 final.
Proof. split; [apply (bij_ext lookup3_mix); [apply mix_ok|apply mix_bij]|apply (bij_ext lookup3_final); [apply final_ok|apply final_bij]]. Qed.
(** C33: the hash reads only the key, whatever follows it in memory, and is Jenkins' lookup3 hash of the key bytes, its
    length and the seed. *)
Theorem C33_value : forall key rest seed, jhash (key ++ rest) (zlen key) seed = Some (hashlittle key seed).
Proof. intros key rest seed. unfold jhash, hashlittle. rewrite jhash_state_ok. destruct (lookup3 key seed) as [[a b] c]. reflexivity. Qed.
(** C33: two keys of the same length that differ inside a single block (any block) never reach the same internal
    state, hence can only collide in the projection to the last word. *)
Theorem C33_no_collision : forall j p x y s rest seed, length p = (12 * j)%nat -> bytes x -> bytes y -> length x = length y ->
  (length x = 12%nat \/ (length x < 12)%nat /\ s = []) -> x <> y ->
  jhash_state (p ++ x ++ s ++ rest) (zlen (p ++ x ++ s)) seed <> jhash_state (p ++ y ++ s ++ rest) (zlen (p ++ y ++ s)) seed.
Proof.
  intros j p x y s rest seed Lp Bx By L S N E. apply N. clear N.
  replace (p ++ x ++ s ++ rest) with ((p ++ x ++ s) ++ rest) in E by (rewrite <- !app_assoc; reflexivity). replace (p ++ y ++ s ++ rest) with ((p ++ y ++ s) ++ rest) in E by (rewrite <- !app_assoc; reflexivity).
  rewrite !jhash_state_ok in E. injection E as E. unfold lookup3 in E.
  assert (Z0 : zlen (p ++ x ++ s) = zlen (p ++ y ++ s)) by (unfold zlen; rewrite !app_length, L; reflexivity). rewrite Z0 in E. eapply absorb_diff; [exact Lp|exact Bx|exact By|exact L|exact S| |exact E]. cbn [word3]. split; [|split]; apply Z.mod_pos_bound; lia.
Qed.
(** known values of lookup3's own test: "" and "Four score and seven years ago" *)
Example four_score : list Z := [70; 111; 117; 114; 32; 115; 99; 111; 114; 101; 32; 97; 110; 100; 32; 115; 101; 118; 101; 110; 32; 121; 101; 97; 114; 115; 32; 97; 103; 111].
Example C33_known : hashlittle [] 0 = 0xdeadbeef /\ hashlittle four_score 0 = 0x17770551 /\ hashlittle four_score 1 = 0xcd628161 /\ jhash (four_score ++ [9]) 30 1 = Some 0xcd628161.
Proof. vm_compute. auto. Qed.
Example C33_no_collision_hyps : length (firstn 24 four_score) = (12 * 2)%nat /\ bytes [1; 2] /\ length [1; 2] = length [2; 1] /\ [1; 2] <> [2; 1].
Proof. repeat split; try congruence. repeat constructor; unfold byte; lia. Qed.
Print Assumptions C33_mix_reversible.
Print Assumptions C33_value.
Print Assumptions C33_no_collision.
