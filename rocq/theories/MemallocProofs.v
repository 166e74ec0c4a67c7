(** * Proofs about the pool allocator: the invariant *)
From Coq Require Import Sorting.Permutation.
From Verif Require Import Lib MemallocModel BitsProofs.
Ltac Zify.zify_post_hook ::= Z.div_mod_to_equations.
(** ** Header words *)
Definition even (s : Z) : Prop := 0 <= s < 2 ^ 64 /\ s mod 2 = 0.
Lemma land_high x k : 0 <= x < 2 ^ 64 -> 0 <= k <= 64 -> Z.land x (Z.shiftl (Z.ones (64 - k)) k) = 2 ^ k * (x / 2 ^ k).
Proof.
  intros H Hk. replace (2 ^ k * (x / 2 ^ k)) with (Z.shiftl (Z.shiftr x k) k) by (rewrite Z.shiftl_mul_pow2, Z.shiftr_div_pow2 by lia; apply Z.mul_comm).
  apply Z.bits_inj'. intros i Hi. rewrite Z.land_spec, !Z.shiftl_spec by lia. destruct (Z_lt_ge_dec i k) as [L|L]; [rewrite !(Z.testbit_neg_r _ (i - k)) by lia; apply andb_false_r|]. rewrite Z.shiftr_spec by lia. replace (i - k + k) with i by lia.
  destruct (Z_lt_ge_dec (i - k) (64 - k)) as [L2|L2]; [rewrite Z.ones_spec_low by lia; apply andb_true_r|]. rewrite Z.ones_spec_high by lia. rewrite andb_false_r. symmetry. apply (testbit_small x 64); lia.
Qed.
Lemma mask_ok x : 0 <= x < 2 ^ 64 -> Z.land x MASK = x - x mod 2.
Proof. intros H. change MASK with (Z.shiftl (Z.ones (64 - 1)) 1). rewrite land_high by lia. change (2 ^ 1) with 2. lia. Qed.
Lemma lor_b2z y b : 0 <= y -> y mod 2 = 0 -> Z.lor y (Z.b2z b) = y + Z.b2z b.
Proof.
  intros Y E. assert (L : Z.land y (Z.b2z b) = 0).
  { apply Z.bits_inj'. intros i Hi. rewrite Z.land_spec, Z.bits_0. destruct (Z.eq_dec i 0) as [->|N]; [rewrite Z.bit0_odd; replace y with (2 * (y / 2)) by lia; rewrite Z.odd_mul; reflexivity|]. destruct b; [|rewrite Z.bits_0; apply andb_false_r]. cbn [Z.b2z]. rewrite (Z.bits_above_log2 1 i) by (cbn; lia). apply andb_false_r. }
  rewrite <- Z.lxor_lor by exact L. symmetry. apply Z.add_nocarry_lxor. exact L.
Qed.
Lemma land1 x : Z.land x 1 = x mod 2.
Proof. change 1 with (Z.ones 1). rewrite Z.land_ones by lia. reflexivity. Qed.
Lemma b2z_lt b : 0 <= Z.b2z b <= 1.
Proof. destruct b; cbn; lia. Qed.
Section Word.
Variables (s : Z) (b : bool).
Hypothesis Hs : even s.
Lemma word_range : 0 <= s + Z.b2z b < 2 ^ 64.
Proof. destruct Hs. pose proof (b2z_lt b). assert (s <> 2 ^ 64 - 1) by (intros ->; discriminate). lia. Qed.
Lemma word_mod : (s + Z.b2z b) mod 2 = Z.b2z b.
Proof. destruct Hs. pose proof (b2z_lt b). lia. Qed.
Lemma get_size_ok : get_size (s + Z.b2z b) = s.
Proof. unfold get_size. rewrite mask_ok by apply word_range. rewrite word_mod. lia. Qed.
Lemma get_used_ok : get_used (s + Z.b2z b) = b.
Proof. unfold get_used. rewrite land1, word_mod. destruct b; reflexivity. Qed.
Lemma set_used_ok b' : set_used (s + Z.b2z b) b' = s + Z.b2z b'.
Proof. unfold set_used. fold (get_size (s + Z.b2z b)). rewrite get_size_ok. destruct Hs. apply lor_b2z; lia. Qed.
Lemma set_size_ok s' : even s' -> set_size (s + Z.b2z b) s' = s' + Z.b2z b.
Proof. intros [R E]. unfold set_size. rewrite land1, word_mod, mask_ok, E, Z.sub_0_r, Z.lor_comm by exact R. apply lor_b2z; lia. Qed.
Lemma pnode_ok : pnode s b = s + Z.b2z b.
Proof. destruct Hs as [R E]. unfold pnode. rewrite mask_ok, E, Z.sub_0_r by exact R. apply lor_b2z; lia. Qed.
End Word.
Lemma align_up_ok v : 0 <= v < 2 ^ 64 -> 0 <= align_up v < 2 ^ 64 /\ align_up v mod 32 = 0 /\ (v <= 2 ^ 64 - 32 -> v <= align_up v < v + 32).
Proof.
  intros H. unfold align_up, ALIGN. assert (R : 0 <= w64 (v + (32 - 1)) < 2 ^ 64) by apply w64_range. set (x := w64 (v + (32 - 1))) in *.
  assert (E : Z.land x (2 ^ 64 - 32) = 32 * (x / 32)) by exact (land_high x 5 R ltac:(lia)).
  rewrite E. split; [lia|]. split; [rewrite Z.mul_comm; apply Z_mod_mult|]. intros V. assert (Ex : x = v + 31) by (unfold x; rewrite w64_small by (unfold u64; lia); lia). lia.
Qed.
(** ** Sequences *)
Lemma ldel_ok x l r : ~ In x l -> ldel x (l ++ x :: r) = Some (l ++ r).
Proof. induction l as [|y l IH]; intros N; cbn [app ldel]; [rewrite Z.eqb_refl; reflexivity|]. rewrite (proj2 (Z.eqb_neq _ _)) by (intros ->; apply N; left; reflexivity). rewrite IH by (intros H; apply N; right; exact H). reflexivity. Qed.
Lemma ladd_ok x n l r : ~ In x l -> ladd x n (l ++ x :: r) = Some (l ++ x :: n :: r).
Proof. induction l as [|y l IH]; intros N; cbn [app ladd]; [rewrite Z.eqb_refl; reflexivity|]. rewrite (proj2 (Z.eqb_neq _ _)) by (intros ->; apply N; left; reflexivity). rewrite IH by (intros H; apply N; right; exact H). reflexivity. Qed.
Lemma lnext_ok x l r : ~ In x l -> lnext x (l ++ x :: r) = Some (match r with [] => None | z :: _ => Some z end).
Proof. induction l as [|y l IH]; intros N; cbn [app lnext]; [rewrite Z.eqb_refl; reflexivity|]. rewrite (proj2 (Z.eqb_neq _ _)) by (intros ->; apply N; left; reflexivity). apply IH. intros H. apply N. right. exact H. Qed.
Lemma lprev_nil p x r : lprev p x (x :: r) = Some p.
Proof. cbn. rewrite Z.eqb_refl. reflexivity. Qed.
Lemma lprev_ok x y l r : ~ In x (l ++ [y]) -> forall p, lprev p x ((l ++ [y]) ++ x :: r) = Some (Some y).
Proof.
  induction l as [|z l IH]; intros N p; cbn [app lprev] in *.
  - rewrite (proj2 (Z.eqb_neq _ _)) by (intros ->; apply N; left; reflexivity). rewrite Z.eqb_refl. reflexivity.
  - rewrite (proj2 (Z.eqb_neq _ _)) by (intros ->; apply N; left; reflexivity). apply IH. intros H. apply N. right. exact H.
Qed.
Lemma ldel_perm x l : In x l -> exists l', ldel x l = Some l' /\ Permutation l (x :: l').
Proof.
  induction l as [|y l IH]; intros H; [destruct H|]. cbn [ldel]. destruct (Z.eqb_spec y x) as [->|N]; [exists l; split; [reflexivity|apply Permutation_refl]|].
  destruct H as [H|H]; [contradiction|]. destruct (IH H) as (l' & -> & P). exists (y :: l'). split; [reflexivity|]. rewrite P. apply perm_swap.
Qed.
(** ** Chunks *)
Notation chunk := (Z * Z * bool)%type.
Definition ca (c : chunk) : Z := fst (fst c).
Definition cz (c : chunk) : Z := snd (fst c).
Definition cu (c : chunk) : bool := snd c.
Definition cfree (c : chunk) : bool := negb (cu c).
(** chunk after chunk from [a] to [e] *)
Fixpoint tiles (a e : Z) (cs : list chunk) : Prop :=
  match cs with
  | [] => a = e
  | c :: cs => ca c = a /\ 0 <= cz c /\ tiles (a + HDR + cz c) e cs
  end.
(** no free chunk follows a free chunk ([b]: one precedes) *)
Fixpoint noadj (b : bool) (cs : list chunk) : Prop :=
  match cs with
  | [] => True
  | c :: cs => (b = true -> cu c = true) /\ noadj (cfree c) cs
  end.
Definition lastfree (b : bool) (cs : list chunk) : bool := fold_left (fun _ c => cfree c) cs b.
Fixpoint sumfree (cs : list chunk) : Z := match cs with [] => 0 | c :: cs => (if cu c then 0 else cz c) + sumfree cs end.
Lemma tiles_app : forall l a e r, tiles a e (l ++ r) <-> exists m, tiles a m l /\ tiles m e r.
Proof.
  induction l as [|c l IH]; intros a e r; cbn [app tiles].
  - split; [intros H; exists a; split; [reflexivity|exact H]|intros (m & <- & H); exact H].
  - rewrite IH. split; [intros (A & B & m & C & D); exists m; tauto|intros (m & (A & B & C) & D); split; [exact A|]; split; [exact B|]; exists m; tauto].
Qed.
Lemma tiles_le : forall cs a e, tiles a e cs -> a <= e.
Proof. induction cs as [|c cs IH]; intros a e T; cbn in T; [lia|]. destruct T as (_ & Z0 & T). apply IH in T. unfold HDR in T. lia. Qed.
Lemma tiles_in : forall cs a e c, tiles a e cs -> In c cs -> a <= ca c /\ 0 <= cz c /\ ca c + HDR + cz c <= e.
Proof.
  induction cs as [|d cs IH]; intros a e c T H; [destruct H|]. cbn in T. destruct T as (A & Z0 & T). destruct H as [->|H].
  - split; [lia|]. split; [exact Z0|]. apply tiles_le in T. lia.
  - specialize (IH _ _ _ T H). unfold HDR in *. lia.
Qed.
Lemma tiles_split l c r a e : tiles a e (l ++ c :: r) -> tiles a (ca c) l /\ 0 <= cz c /\ tiles (ca c + HDR + cz c) e r.
Proof. rewrite tiles_app. cbn [tiles]. intros (m & A & <- & C & D). tauto. Qed.
Lemma tiles_join l c r a e : tiles a (ca c) l -> 0 <= cz c -> tiles (ca c + HDR + cz c) e r -> tiles a e (l ++ c :: r).
Proof. intros A B C. apply tiles_app. exists (ca c). cbn. tauto. Qed.
Lemma noadj_app : forall l b r, noadj b (l ++ r) <-> noadj b l /\ noadj (lastfree b l) r.
Proof. induction l as [|c l IH]; intros b r; cbn [app noadj lastfree fold_left]; [tauto|]. fold (lastfree (cfree c) l). rewrite IH. tauto. Qed.
Lemma sumfree_app : forall l r, sumfree (l ++ r) = sumfree l + sumfree r.
Proof. induction l as [|c l IH]; intros r; cbn [app sumfree]; [lia|]. rewrite IH. lia. Qed.
Lemma sumfree_bound : forall cs a e, tiles a e cs -> 0 <= sumfree cs /\ sumfree cs + HDR * zlen cs <= e - a.
Proof. induction cs as [|c cs IH]; intros a e T; cbn [tiles sumfree] in *; [unfold zlen; cbn; lia|]. destruct T as (_ & Z0 & T). specialize (IH _ _ T). unfold zlen, HDR in *. cbn [length]. destruct (cu c); lia. Qed.
Lemma lastfree_snoc b l c : lastfree b (l ++ [c]) = cfree c.
Proof. unfold lastfree. rewrite fold_left_app. reflexivity. Qed.
(** the heap holds the chunks [cs] up to [e]; [d] is what the available size exceeds that of the free chunks by *)
Definition good (u : Z -> Z) (b : Z) (c : chunk) : Prop := u (ca c) = cz c + Z.b2z (cu c) /\ even (cz c) /\ (ca c - b) mod 8 = 0.
Record rep (h : heap) (cs : list chunk) (e d : Z) : Prop := {
  r_base : 0 < base h; r_top : base h + psize h <= 2 ^ 64; r_end : e <= base h + psize h; r_d : 0 <= d <= base h + psize h - e;
  r_blocks : blocks h = map ca cs; r_tiles : tiles (base h) e cs; r_good : Forall (good (usz h) (base h)) cs;
  r_free : Permutation (frees h) (map ca (filter cfree cs)); r_avail : avail h = sumfree cs + d; r_adj : noadj false cs }.
Lemma good_upd u b a v cs : Forall (good u b) cs -> Forall (fun c => ca c <> a) cs -> Forall (good (fun x => if x =? a then v else u x) b) cs.
Proof. intros G N. rewrite Forall_forall in *. intros c H. specialize (G c H). specialize (N c H). unfold good in *. rewrite (proj2 (Z.eqb_neq _ _) N). exact G. Qed.
Lemma tiles_before l a m : tiles a m l -> Forall (fun c => ca c <= m - HDR) l.
Proof. intros T. apply Forall_forall. intros c H. pose proof (tiles_in _ _ _ _ T H). lia. Qed.
Lemma tiles_after l a m : tiles a m l -> Forall (fun c => a <= ca c) l.
Proof. intros T. apply Forall_forall. intros c H. pose proof (tiles_in _ _ _ _ T H). lia. Qed.
Lemma not_in_addr (P : chunk -> Prop) x l : Forall P l -> (forall c, P c -> ca c <> x) -> ~ In x (map ca l).
Proof. intros F N H. apply in_map_iff in H. destruct H as (c & E & H). rewrite Forall_forall in F. exact (N c (F c H) E). Qed.
Section Rep.
Variables (h : heap) (cs : list chunk) (e d : Z).
Hypothesis R : rep h cs e d.
Lemma rep_pool c : In c cs -> in_pool h (ca c) = true.
Proof. intros H. pose proof (tiles_in _ _ _ _ (r_tiles _ _ _ _ R) H) as (A & B & C). pose proof (r_end _ _ _ _ R). unfold in_pool. rewrite andb_true_iff, !Z.leb_le. lia. Qed.
Lemma rep_hdr c : In c cs -> get_hdr h (ca c) = Some (cz c + Z.b2z (cu c)).
Proof. intros H. unfold get_hdr. rewrite rep_pool by exact H. f_equal. pose proof (r_good _ _ _ _ R) as G. rewrite Forall_forall in G. apply (G c H). Qed.
Lemma rep_even c : In c cs -> even (cz c).
Proof. intros H. pose proof (r_good _ _ _ _ R) as G. rewrite Forall_forall in G. apply (G c H). Qed.
Lemma free_in n : In n (frees h) -> exists l s r, cs = l ++ (n, s, false) :: r.
Proof.
  intros H. assert (H1 : In n (map ca (filter cfree cs))) by (eapply Permutation_in; [apply (r_free _ _ _ _ R)|exact H]). apply in_map_iff in H1. destruct H1 as ([[a s] u] & E & F). apply filter_In in F. destruct F as [F U]. apply in_split in F. destruct F as (l & r & ->). unfold ca in E. cbn in E. subst a. unfold cfree, cu in U. cbn in U. destruct u; [discriminate|]. exists l, s, r. reflexivity.
Qed.
End Rep.
(** ** The fit policies *)
Definition find_ok (find : heap -> Z -> option (option Z)) : Prop := forall h cs e d size, rep h cs e d ->
  exists r, find h size = Some r /\ match r with None => True | Some n => exists l s rr, cs = l ++ (n, s, false) :: rr /\ size <= s end.
Lemma rep_size h cs e d l n s rr : rep h cs e d -> cs = l ++ (n, s, false) :: rr -> get_hdr h n = Some (s + Z.b2z false) /\ get_size (s + Z.b2z false) = s.
Proof.
  intros R ->. assert (I : In (n, s, false) (l ++ (n, s, false) :: rr)) by (apply in_or_app; right; left; reflexivity). split; [exact (rep_hdr _ _ _ _ R _ I)|]. apply get_size_ok. exact (rep_even _ _ _ _ R _ I).
Qed.
Lemma first_ok : find_ok first_fit.
Proof.
  intros h cs e d size R. unfold first_fit. assert (S : forall x, In x (frees h) -> In x (frees h)) by auto. revert S. generalize (frees h) at 1 3. induction l as [|n l IH]; intros S; cbn [first_from]; [exists None; split; [reflexivity|exact I]|].
  destruct (free_in _ _ _ _ R n (S n (or_introl eq_refl))) as (l1 & s & rr & E). destruct (rep_size _ _ _ _ _ _ _ _ R E) as [-> Gs]. rewrite Gs. destruct (Z.leb_spec size s) as [L|L]; [exists (Some n); split; [reflexivity|]; exists l1, s, rr; split; [exact E|exact L]|]. apply IH. intros x X. apply S. right. exact X.
Qed.
Lemma best_ok : find_ok best_fit.
Proof.
  intros h cs e d size R. unfold best_fit. assert (S : forall x, In x (frees h) -> In x (frees h)) by auto. revert S. generalize (2 ^ 64 - 1). assert (B : match @None Z with None => True | Some n => exists l s rr, cs = l ++ (n, s, false) :: rr /\ size <= s end) by exact I. revert B. generalize (@None Z). generalize (frees h) at 1 3.
  induction l as [|n l IH]; intros b B bs S; cbn [best_from]; [exists b; split; [reflexivity|exact B]|].
  destruct (free_in _ _ _ _ R n (S n (or_introl eq_refl))) as (l1 & s & rr & E). destruct (rep_size _ _ _ _ _ _ _ _ R E) as [-> Gs]. rewrite Gs. assert (S' : forall x, In x l -> In x (frees h)) by (intros x X; apply S; right; exact X).
  destruct (Z.leb_spec size s) as [L|L]; [|apply IH; assumption]. destruct (s =? size); [exists (Some n); split; [reflexivity|]; exists l1, s, rr; split; [exact E|exact L]|]. destruct (bs <=? s); [apply IH; assumption|]. apply IH; [|assumption]. exists l1, s, rr. split; [exact E|exact L].
Qed.
Lemma worst_ok : find_ok worst_fit.
Proof.
  intros h cs e d size R. unfold worst_fit. assert (S : forall x, In x (frees h) -> In x (frees h)) by auto. revert S. generalize 0. assert (B : match @None Z with None => True | Some n => exists l s rr, cs = l ++ (n, s, false) :: rr /\ size <= s end) by exact I. revert B. generalize (@None Z). generalize (frees h) at 1 3.
  induction l as [|n l IH]; intros b B bs S; cbn [worst_from]; [exists b; split; [reflexivity|exact B]|].
  destruct (free_in _ _ _ _ R n (S n (or_introl eq_refl))) as (l1 & s & rr & E). destruct (rep_size _ _ _ _ _ _ _ _ R E) as [-> Gs]. rewrite Gs. assert (S' : forall x, In x l -> In x (frees h)) by (intros x X; apply S; right; exact X).
  destruct (Z.leb_spec size s) as [L|L]; [|apply IH; assumption]. destruct (s =? avail h); [exists (Some n); split; [reflexivity|]; exists l1, s, rr; split; [exact E|exact L]|]. destruct (s <=? bs); [apply IH; assumption|]. apply IH; [|assumption]. exists l1, s, rr. split; [exact E|exact L].
Qed.
