(** * Proofs about word splitting *)
From Verif Require Import Lib ArgvModel ArgvSpec.
Lemma is_sep_ok c : is_sep c = true <-> blank c.
Proof. unfold is_sep, blank. rewrite !orb_true_iff, !Z.eqb_eq. tauto. Qed.
Lemma is_sep_no c : is_sep c = false <-> ~ blank c.
Proof. rewrite <- is_sep_ok. destruct (is_sep c); split; congruence. Qed.
Lemma blank0 : ~ blank 0.
Proof. unfold blank. lia. Qed.
Lemma strspn_ok : forall g c l, gap g -> ~ blank c -> strspn (g ++ c :: l) = Some (zlen g).
Proof.
  induction g as [|b g IH]; intros c l G C; cbn [app strspn].
  - apply is_sep_no in C. rewrite C. reflexivity.
  - apply Forall_cons_iff in G. destruct G as [B G]. apply is_sep_ok in B. rewrite B, IH by assumption. f_equal. unfold zlen. cbn [length]. lia.
Qed.
Lemma strcspn_ok : forall w c l, Forall (fun c => c <> 0 /\ ~ blank c) w -> (c = 0 \/ blank c) -> strcspn (w ++ c :: l) = Some (zlen w).
Proof.
  induction w as [|b w IH]; intros c l W C; cbn [app strcspn].
  - destruct C as [->|C]; [reflexivity|]. apply is_sep_ok in C. rewrite C, orb_true_r. reflexivity.
  - apply Forall_cons_iff in W. destruct W as [[B1 B2] W]. apply is_sep_no in B2. rewrite B2, (proj2 (Z.eqb_neq _ _) B1). cbn [orb]. rewrite IH by assumption. f_equal. unfold zlen. cbn [length]. lia.
Qed.
Lemma skipn_len A (p q : list A) : skipn (Z.to_nat (zlen p)) (p ++ q) = q.
Proof. unfold zlen. rewrite Nat2Z.id, skipn_app, skipn_all, Nat.sub_diag. reflexivity. Qed.
Lemma splits_blank b s ws : blank b -> splits s ws -> splits (b :: s) ws.
Proof.
  intros B [g G|g w G W|g w c rest ws' G W C R].
  - apply sp_end. constructor; assumption.
  - apply (sp_last (b :: g) w); [constructor; assumption|exact W].
  - apply (sp_cons (b :: g) w c rest ws'); [constructor; assumption|exact W|exact C|exact R].
Qed.
Lemma word_hd w : word w -> exists c w', w = c :: w' /\ c <> 0 /\ ~ blank c.
Proof. intros [N F]. destruct w as [|c w']; [contradiction N; reflexivity|]. apply Forall_cons_iff in F. exists c, w'. split; [reflexivity|]. apply F. Qed.
Lemma strspn_word g w l : gap g -> word w -> strspn (g ++ w ++ l) = Some (zlen g).
Proof. intros G W. destruct (word_hd _ W) as (c & w' & -> & _ & C2). cbn [app]. apply strspn_ok; assumption. Qed.
Lemma blank_nz b : blank b -> b <> 0.
Proof. unfold blank. lia. Qed.
Lemma count_ok : forall s ws, splits s ws -> forall fuel argc, (length s < fuel)%nat -> 0 <= argc -> argc + zlen ws < 2 ^ 32 -> argv_count fuel (s ++ [0]) argc = Some (argc + zlen ws).
Proof.
  assert (M : forall n s ws, (length s <= n)%nat -> splits s ws -> forall fuel argc, (length s < fuel)%nat -> 0 <= argc -> argc + zlen ws < 2 ^ 32 -> argv_count fuel (s ++ [0]) argc = Some (argc + zlen ws)).
  2: { intros s ws S. apply (M (length s) s ws); [lia|exact S]. }
  induction n as [|n IH]; intros s ws Ln Sp fuel argc F A B; (destruct fuel as [|fuel]; [lia|]).
  - destruct s; [|cbn in Ln; lia]. assert (E : ws = []). { inversion Sp; [reflexivity| |]; subst; exfalso; [match goal with H : word ?w |- _ => destruct (word_hd _ H) as (x & y & -> & _) end|match goal with H : word ?w |- _ => destruct (word_hd _ H) as (x & y & -> & _) end]; match goal with H : _ ++ _ = [] |- _ => apply app_eq_nil in H; destruct H; discriminate end. }
    subst ws. cbn. f_equal. unfold zlen. cbn. lia.
  - cbn [argv_count]. destruct Sp as [g G|g w G W|g w b rest ws G W Bb R].
    + rewrite (strspn_ok g 0 []) by (assumption || apply blank0). rewrite rd_app_len by reflexivity. cbn. f_equal. unfold zlen. cbn. lia.
    + destruct (word_hd _ W) as (c & w' & Ew & C1 & C2). rewrite <- app_assoc. rewrite Ew. cbn [app]. rewrite strspn_ok by assumption. rewrite rd_app_len by reflexivity. rewrite (proj2 (Z.eqb_neq _ _) C1). rewrite skipn_len. change (c :: w' ++ [0]) with ((c :: w') ++ [0]). rewrite <- Ew. rewrite strcspn_ok by (apply W || (left; reflexivity)). rewrite rd_app_len by reflexivity. cbn. unfold zlen in B. cbn in B. rewrite w32_small by (unfold u32; lia). reflexivity.
    + destruct (word_hd _ W) as (c & w' & Ew & C1 & C2). rewrite <- !app_assoc. cbn [app]. rewrite Ew. cbn [app]. rewrite strspn_ok by assumption. rewrite rd_app_len by reflexivity. rewrite (proj2 (Z.eqb_neq _ _) C1). rewrite skipn_len.
      change (c :: w' ++ b :: rest ++ [0]) with ((c :: w') ++ b :: rest ++ [0]). rewrite <- Ew. rewrite strcspn_ok by (apply W || (right; exact Bb)). rewrite rd_app_len by reflexivity. rewrite (proj2 (Z.eqb_neq _ _) (blank_nz _ Bb)). rewrite skipn_len.
      assert (zlen (w :: ws) = zlen ws + 1) by (unfold zlen; cbn [length]; lia). assert (0 <= zlen ws) by (unfold zlen; lia).
      rewrite !app_length in Ln, F. cbn [length] in Ln, F. assert (length w = S (length w')) by (rewrite Ew; reflexivity).
      change (b :: rest ++ [0]) with ((b :: rest) ++ [0]). rewrite w32_small by (unfold u32; lia). rewrite (IH (b :: rest) ws); [f_equal; lia|cbn [length]; lia|apply splits_blank; assumption|cbn [length]; lia|lia|lia].
Qed.
Lemma cstring_pre pre mem p w : cstring mem p w -> cstring (pre ++ mem) (zlen pre + p) w.
Proof. intros [P [rest E]]. split; [unfold zlen; lia|]. exists rest. rewrite <- E. unfold zlen. rewrite Z2Nat.inj_add, Nat2Z.id by lia. rewrite skipn_app, skipn_all2 by lia. cbn [app]. f_equal. lia. Qed.
Lemma skipn_len2 A (p q : list A) k : 0 <= k -> skipn (Z.to_nat (zlen p + k)) (p ++ q) = skipn (Z.to_nat k) q.
Proof. intros H. unfold zlen. rewrite Z2Nat.inj_add, Nat2Z.id by lia. rewrite skipn_app, skipn_all2 by lia. cbn [app]. f_equal. lia. Qed.
Lemma loop_ok : forall s ws, splits s ws -> forall pre, exists argv tail, argv_loop (length ws) (pre ++ s ++ [0]) (zlen pre) = Some (argv, pre ++ tail) /\ length tail = S (length s) /\ Forall2 (cstring (pre ++ tail)) argv ws /\ Forall (fun p => zlen pre <= p) argv.
Proof.
  induction 1 as [g G|g w G W|g w b rest ws G W Bb R IH]; intros pre.
  - exists [], (g ++ [0]). cbn. split; [reflexivity|]. split; [rewrite app_length; cbn; lia|]. split; constructor.
  - cbn [length argv_loop]. rewrite skipn_len. rewrite <- app_assoc. rewrite strspn_word by assumption.
    replace (pre ++ g ++ w ++ [0]) with ((pre ++ g) ++ w ++ [0]) by (rewrite !app_assoc; reflexivity). replace (zlen pre + zlen g) with (zlen (pre ++ g)) by (unfold zlen; rewrite app_length; lia). rewrite skipn_len, strcspn_ok by (apply W || (left; reflexivity)).
    replace ((pre ++ g) ++ w ++ [0]) with ((pre ++ g ++ w) ++ 0 :: []) by (rewrite !app_assoc; reflexivity). rewrite wr_app_len by (unfold zlen; rewrite !app_length; lia). cbn [argv_loop].
    exists [zlen (pre ++ g)], (g ++ w ++ [0]). split; [f_equal; f_equal; rewrite !app_assoc; reflexivity|]. split; [rewrite !app_length; cbn; lia|]. split.
    + constructor; [|constructor]. split; [unfold zlen; lia|]. exists []. rewrite app_assoc. rewrite skipn_len. reflexivity.
    + constructor; [unfold zlen; rewrite app_length; lia|constructor].
  - cbn [length argv_loop]. rewrite skipn_len. rewrite <- !app_assoc. cbn [app]. rewrite strspn_word by assumption.
    replace (pre ++ g ++ w ++ b :: rest ++ [0]) with ((pre ++ g) ++ w ++ b :: rest ++ [0]) by (rewrite !app_assoc; reflexivity). replace (zlen pre + zlen g) with (zlen (pre ++ g)) by (unfold zlen; rewrite app_length; lia). rewrite skipn_len, strcspn_ok by (apply W || (right; exact Bb)).
    replace ((pre ++ g) ++ w ++ b :: rest ++ [0]) with ((pre ++ g ++ w) ++ b :: rest ++ [0]) by (rewrite !app_assoc; reflexivity). rewrite wr_app_len by (unfold zlen; rewrite !app_length; lia).
    replace ((pre ++ g ++ w) ++ 0 :: rest ++ [0]) with ((pre ++ g ++ w ++ [0]) ++ rest ++ [0]) by (rewrite <- !app_assoc; reflexivity).
    replace (zlen (pre ++ g) + zlen w + 1) with (zlen (pre ++ g ++ w ++ [0])) by (unfold zlen; rewrite !app_length; cbn [length]; lia).
    destruct (IH (pre ++ g ++ w ++ [0])) as (argv & tail & -> & Lt & F & Fp). exists (zlen (pre ++ g) :: argv), (g ++ w ++ 0 :: tail). replace (pre ++ g ++ w ++ 0 :: tail) with ((pre ++ g ++ w ++ [0]) ++ tail) by (rewrite <- !app_assoc; reflexivity).
    split; [reflexivity|]. split; [rewrite !app_length; cbn [length]; rewrite Lt; lia|]. split.
    + constructor; [|exact F]. split; [unfold zlen; lia|]. exists tail. replace ((pre ++ g ++ w ++ [0]) ++ tail) with ((pre ++ g) ++ w ++ 0 :: tail) by (rewrite <- !app_assoc; reflexivity). rewrite skipn_len. reflexivity.
    + constructor; [unfold zlen; rewrite app_length; lia|]. eapply Forall_impl; [|exact Fp]. intros p Hp. unfold zlen in *. rewrite !app_length in Hp. lia.
Qed.
Lemma splits_exists : forall s, Forall (fun c => c <> 0) s -> exists ws, splits s ws.
Proof.
  induction s as [|c s IH]; intros F; [exists []; apply sp_end; constructor|]. apply Forall_cons_iff in F. destruct F as [C F]. destruct (IH F) as [ws Sp].
  destruct (is_sep c) eqn:E; [apply is_sep_ok in E; exists ws; apply splits_blank; assumption|]. apply is_sep_no in E.
  assert (W1 : word [c]) by (split; [discriminate|]; constructor; [split; assumption|constructor]).
  assert (W2 : forall w, word w -> word (c :: w)) by (intros w [_ W]; split; [discriminate|]; constructor; [split; assumption|exact W]).
  assert (G0 : gap []) by constructor.
  destruct Sp as [g G|g w G W|g w b rest ws G W Bb R]; destruct g as [|x g].
  - exists [[c]]. apply (sp_last [] [c]); assumption.
  - apply Forall_cons_iff in G. destruct G as [X G]. exists [[c]]. apply (sp_cons [] [c] x g []); try assumption. apply sp_end, G.
  - exists [c :: w]. apply (sp_last [] (c :: w)); auto.
  - apply Forall_cons_iff in G. destruct G as [X G]. exists [[c]; w]. apply (sp_cons [] [c] x (g ++ w) [w]); try assumption. apply sp_last; assumption.
  - exists ((c :: w) :: ws). apply (sp_cons [] (c :: w) b rest ws); auto.
  - apply Forall_cons_iff in G. destruct G as [X G]. exists ([c] :: w :: ws). apply (sp_cons [] [c] x (g ++ w ++ b :: rest) (w :: ws)); try assumption. apply sp_cons; assumption.
Qed.
Lemma splits_len s ws : splits s ws -> 2 * zlen ws <= zlen s + 1.
Proof.
  unfold zlen. induction 1 as [g G|g w G [W _]|g w b rest ws G [W _] Bb R IH]; [cbn; lia| |].
  - destruct w; [contradiction W; reflexivity|]. rewrite app_length. cbn [length]. lia.
  - destruct w; [contradiction W; reflexivity|]. rewrite !app_length. cbn [length]. lia.
Qed.
