(** * C133: a hash map survives any functions of the user's *)
From Verif Require Import Lib BitsModel BloomModel BloomProps RespoolProps Ptr ListProofs SlistModel SlistSpec SlistProofs HashmapModel HashmapSpec HashmapProofs HashmapProps HashCallsModel HashCallsSpec HashCallsProofs.

Section Map.
Variables (orc : list hcall -> hcall -> Z) (has_extend has_shrink : bool) (al : mem -> Z -> Z) (fuel : nat) (U : list Z).
Hypothesis AL : allocator al.
Hypothesis FU : (length U <= fuel)%nat.
(** Whatever the user's functions answer, no operation goes wrong; the map holds the nodes that were put in and not taken
    out; what is found, replaced or taken out is a node for which equality has just answered 0. *)
Theorem C133_step : forall m h s o tr, any_inv U m h s -> fresh_node U s o -> exists m' h' r cs s', apply_o orc has_extend has_shrink al fuel m h o tr = Some (m', h', r, cs ++ tr) /\
  astep orc (refused al m h) tr s o r cs s' /\ any_inv U m' h' s' /\ (r = RPair (- ENOMEM) NULL -> m' = m /\ h' = h).
Proof.
  intros m h s o tr HI HA. destruct o as [n st|k|k| |]; cbn [apply_o].
  - destruct HA as [Hn Ns]. unfold insert_o, find_node_o. destruct (is_append st) eqn:Ea.
    + destruct st; try discriminate Ea. cbn [is_update]. rewrite Z.eqb_refl. cbn [negb]. destruct (insert_new_any orc has_extend al fuel U AL FU m h s n (orc tr (CHashNode n)) (CHashNode n :: tr) HI Hn Ns) as [(g & E & R & G)|(m' & h' & g & E & HI' & G)]; rewrite E; cbn [fst snd].
      * exists m, h, (RPair (- ENOMEM) NULL), (g ++ [CHashNode n]), s. split; [rewrite <- app_assoc; reflexivity|]. split; [apply a_append_full; assumption|]. split; [exact HI|]. auto.
      * exists m', h', (RPair 0 NULL), (g ++ [CHashNode n]), (n :: s). split; [rewrite <- app_assoc; reflexivity|]. split; [apply a_append_new, G|]. split; [exact HI'|]. discriminate.
    + destruct (find_in_any orc fuel U FU m h s (eq_with n) (orc tr (CHashNode n)) (CHashNode n :: tr) HI) as [(p & E & A)|(e & p & Ne & E & M)]; change (fun walk => CEqual n walk) with (eq_with n); rewrite E.
      * rewrite Z.eqb_refl. cbn [negb]. destruct (is_update st) eqn:Eu.
        -- destruct st; try discriminate Eu. cbn [fst snd]. exists m, h, (RPair (- ENOENT) NULL), (map (eq_with n) p ++ [CHashNode n]), s. split; [rewrite <- app_assoc; reflexivity|]. split; [apply a_update_none, A|]. split; [exact HI|]. discriminate.
        -- assert (Hst : st = ADD \/ st = SET) by (destruct st; try discriminate; auto). destruct (insert_new_any orc has_extend al fuel U AL FU m h s n (orc tr (CHashNode n)) (map (eq_with n) p ++ CHashNode n :: tr) HI Hn Ns) as [(g & E2 & R & G)|(m' & h' & g & E2 & HI' & G)]; rewrite E2; cbn [fst snd].
           ++ exists m, h, (RPair (- ENOMEM) NULL), (g ++ map (eq_with n) p ++ [CHashNode n]), s. split; [rewrite <- !app_assoc; reflexivity|]. split; [apply a_put_full; assumption|]. split; [exact HI|]. auto.
           ++ exists m', h', (RPair 0 NULL), (g ++ map (eq_with n) p ++ [CHashNode n]), (n :: s). split; [rewrite <- !app_assoc; reflexivity|]. split; [apply a_put_new; assumption|]. split; [exact HI'|]. discriminate.
      * rewrite (proj2 (Z.eqb_neq _ _) Ne). cbn [negb]. destruct (is_add st) eqn:Ed.
        -- destruct st; try discriminate Ed. cbn [fst snd]. exists m, h, (RPair (- EEXIST) e), (CEqual n e :: map (eq_with n) p ++ [CHashNode n]), s. split; [cbn [app]; rewrite <- app_assoc; reflexivity|]. split; [apply a_add_old, M|]. split; [exact HI|]. discriminate.
        -- assert (Hst : st = SET \/ st = UPDATE) by (destruct st; try discriminate; auto). assert (D2 : In e s) by (apply M; left; reflexivity). apply in_split in D2. destruct D2 as (s1 & s2 & Es). assert (PE : Permutation s (e :: s1 ++ s2)) by (rewrite Es; apply Permutation_sym, Permutation_middle).
           destruct (replace_any U m h _ e n _ HI PE Hn Ns) as (m' & E2 & HI'). rewrite E2. cbn [fst snd]. exists m', h, (RPair 0 e), (CEqual n e :: map (eq_with n) p ++ [CHashNode n]), (n :: s1 ++ s2). split; [cbn [app]; rewrite <- app_assoc; reflexivity|]. split; [apply a_set_old; assumption|]. split; [exact HI'|]. discriminate.
  - unfold del_o, find_key_o. destruct (find_in_any orc fuel U FU m h s (find_with k) (orc tr (CHashKey k)) (CHashKey k :: tr) HI) as [(p & E & A)|(e & p & Ne & E & M)]; change (fun walk => CFind walk k) with (find_with k); rewrite E.
    + rewrite Z.eqb_refl. cbn [fst snd]. exists m, h, (RPair (- ENOENT) NULL), (map (find_with k) p ++ [CHashKey k]), s. split; [rewrite <- app_assoc; reflexivity|]. split; [apply a_del_none, A|]. split; [exact HI|]. discriminate.
    + rewrite (proj2 (Z.eqb_neq _ _) Ne). assert (D2 : In e s) by (apply M; left; reflexivity). apply in_split in D2. destruct D2 as (s1 & s2 & Es). assert (PE : Permutation s (e :: s1 ++ s2)) by (rewrite Es; apply Permutation_sym, Permutation_middle).
      destruct (remove_any fuel U FU m h _ e _ HI PE) as (m1 & E1 & HI1). rewrite E1. set (h1 := {| h_buckets := _ |}) in *. assert (N0 : h_capacity h1 <> 0).
      { intros Ec. change (h_capacity h = 0) in Ec. pose proof HI as (_ & _ & _ & _ & _ & b0 & _ & HC0). rewrite Ec in HC0. apply Permutation_sym, Permutation_nil in HC0. rewrite Es in HC0. destruct s1; discriminate. }
      destruct (shrink_any orc has_shrink al fuel U AL FU m1 h1 (s1 ++ s2) (CFind e k :: map (find_with k) p ++ CHashKey k :: tr) HI1 N0) as (m' & h' & z & g & E2 & HI' & G).
      change (find_with k e :: map (find_with k) p ++ CHashKey k :: tr) with (CFind e k :: map (find_with k) p ++ CHashKey k :: tr).
      destruct (need_shrink_o orc has_shrink h1 (CFind e k :: map (find_with k) p ++ CHashKey k :: tr)) as [need tr1]. rewrite E2. cbn [fst snd].
      exists m', h', (RPair 0 e), (g ++ CFind e k :: map (find_with k) p ++ [CHashKey k]), (s1 ++ s2). split; [rewrite <- app_assoc; cbn [app]; rewrite <- app_assoc; reflexivity|]. split; [apply a_del_one; assumption|]. split; [exact HI'|]. discriminate.
  - unfold lookup_o, find_key_o. destruct (find_in_any orc fuel U FU m h s (find_with k) (orc tr (CHashKey k)) (CHashKey k :: tr) HI) as [(p & E & A)|(e & p & Ne & E & M)]; change (fun walk => CFind walk k) with (find_with k); rewrite E.
    + exists m, h, (RNode NULL), (map (find_with k) p ++ [CHashKey k]), s. split; [rewrite <- app_assoc; reflexivity|]. split; [apply a_find_none, A|]. split; [exact HI|]. discriminate.
    + exists m, h, (RNode e), (CFind e k :: map (find_with k) p ++ [CHashKey k]), s. split; [cbn [app]; rewrite <- app_assoc; reflexivity|]. split; [apply a_find_one, M|]. split; [exact HI|]. discriminate.
  - pose proof HI as (_ & _ & _ & SH & _ & b & HL & HC). unfold for_each. assert (Hc : 0 <= h_capacity h) by (destruct SH as [(-> & _)|(Hb & -> & _)]; [lia|apply Z.pow_nonneg; lia]). rewrite (visit_any fuel U FU m h s b HI HL HC (Z.to_nat (h_capacity h)) 0) by lia. exists m, h, (RList (contents (h_capacity h) b)), [], s. split; [reflexivity|]. split; [apply a_each, HC|]. split; [exact HI|discriminate].
  - eexists _, _, _, [], []. split; [reflexivity|]. split; [apply a_release|]. split; [|discriminate]. pose proof HI as (NE & _ & _ & _ & HD & _). split; [|split; [intros x []|]].
    + destruct NE as (D & N & NE). split; [exact D|]. split; [exact N|]. intros x Hx. unfold free_array. destruct (in_array (h_buckets h) (h_capacity h) x) eqn:E; [exfalso; apply (HD x E Hx)|]. rewrite andb_false_r. apply NE, Hx.
    + cbn [h_used h_bits h_capacity h_buckets]. split; [reflexivity|]. split; [left; auto|]. split; [intros q Hq; apply in_array_head in Hq; destruct Hq as (j & Hj & _); lia|]. exists (fun _ => []). split; [split; [constructor|constructor]|]. apply Permutation_refl.
Qed.
Lemma any_init m : nodes_exist m U -> any_inv U m hm_init [].
Proof.
  intros NE. split; [exact NE|]. split; [intros x []|]. split; [reflexivity|]. split; [left; auto|]. split; [intros q Hq; apply in_array_head in Hq; destruct Hq as (j & Hj & _); cbn in Hj; lia|]. exists (fun _ => []). split; [split; [constructor|constructor]|]. apply Permutation_refl.
Qed.
Lemma astep_weaken P tr s o r cs s' : astep orc P tr s o r cs s' -> astep orc True tr s o r cs s'.
Proof. intros H. destruct H; [eapply a_add_old|eapply a_set_old|eapply a_update_none|eapply a_put_new|eapply a_put_full|eapply a_append_new|eapply a_append_full|eapply a_del_one|eapply a_del_none|eapply a_find_one|eapply a_find_none|eapply a_each|eapply a_release]; eauto. Qed.
Lemma run_any prog : apolite orc U prog -> forall n m h past tr s, any_inv U m h s -> areach orc past tr s ->
  exists m' h' past' tr' s', run_o orc has_extend has_shrink al fuel n prog m h past tr = Some (m', h', past', tr') /\ any_inv U m' h' s' /\ areach orc past' tr' s' /\ length past' = (length past + n)%nat.
Proof.
  intros HP. induction n as [|n IH]; intros m h past tr s HI HR; cbn [run_o]; [exists m, h, past, tr, s; split; [reflexivity|]; split; [exact HI|]; split; [exact HR|lia]|].
  destruct (C133_step m h s (prog past tr) tr HI (HP past tr s HR)) as (m1 & h1 & r & cs & s1 & E & HS & HI1 & _). rewrite E.
  destruct (IH m1 h1 (past ++ [(prog past tr, r)]) (cs ++ tr) s1 HI1) as (m' & h' & past' & tr' & s' & E' & HI' & HR' & Hl); [apply (areach_step orc past tr s (prog past tr) r cs s1 HR), (astep_weaken _ _ _ _ _ _ _ HS)|].
  exists m', h', past', tr', s'. split; [exact E'|]. split; [exact HI'|]. split; [exact HR'|]. rewrite Hl, app_length. cbn [length]. lia.
Qed.
End Map.
(** Any client that never inserts a node that is there, deciding from what it and the user's functions saw, is never stuck. *)
Theorem C133_any : forall orc has_extend has_shrink al fuel U prog m n, allocator al -> (length U <= fuel)%nat -> nodes_exist m U -> apolite orc U prog ->
  exists m' h' past tr s l, run_o orc has_extend has_shrink al fuel n prog m hm_init [] [] = Some (m', h', past, tr) /\ areach orc past tr s /\ length past = n /\ NoDup s /\ h_used h' = w64 (zlen s) /\
  for_each fuel m' h' = Some l /\ Permutation s l.
Proof.
  intros orc he hs al fuel U prog m n AL FU NE HP. destruct (run_any orc he hs al fuel U AL FU prog HP n m hm_init [] [] []) as (m' & h' & past & tr & s & E & HI & HR & Hl); [apply (any_init fuel U FU), NE|apply areach_nil|].
  destruct (C133_step orc he hs al fuel U AL FU m' h' s HEach tr HI I) as (m2 & h2 & r & cs & s2 & E2 & HS & _). cbn [apply_o] in E2. destruct (for_each fuel m' h') as [l|] eqn:El; [|discriminate E2]. injection E2 as _ _ Er _. subst r. inversion HS; subst.
  exists m', h', past, tr, s2, l. split; [exact E|]. split; [exact HR|]. split; [exact Hl|]. split; [apply (nodup_any U m' h' s2 HI)|]. split; [apply HI|]. split; [exact El|assumption].
Qed.

(** ** The same functions *)
Section Same.
Variables (ops : hops) (al : mem -> Z -> Z) (fuel : nat).
Let orc := orc_of ops.
Lemma search_same m ask test : (forall w, test w = (orc [] (ask w) =? 0)) -> forall n walk tr, option_map fst (search_o orc n m ask walk tr) = search n m test walk.
Proof.
  intros H. induction n as [|n IH]; intros walk tr; cbn [search_o search]; destruct (walk =? NULL); try reflexivity. rewrite H. change (orc tr (ask walk)) with (orc [] (ask walk)). destruct (orc [] (ask walk) =? 0); [reflexivity|]. destruct (ld m walk LINK) as [next|]; [|reflexivity]. apply IH.
Qed.
Lemma find_node_same m h node hash tr : option_map fst (find_node_o orc fuel m h node hash tr) = find_node ops fuel m h node hash.
Proof. unfold find_node_o, find_in_o, find_node. destruct (h_buckets h =? NULL); [reflexivity|]. destruct (hashtbl_index (h_capacity h) hash); [|reflexivity]. destruct (ld m _ LINK); [|reflexivity]. apply search_same. reflexivity. Qed.
Lemma find_key_same m h key hash tr : option_map fst (find_key_o orc fuel m h key hash tr) = find_key ops fuel m h key hash.
Proof. unfold find_key_o, find_in_o, find_key. destruct (h_buckets h =? NULL); [reflexivity|]. destruct (hashtbl_index (h_capacity h) hash); [|reflexivity]. destruct (ld m _ LINK); [|reflexivity]. apply search_same. reflexivity. Qed.
Lemma move_from_same : forall n m nb ncap walk tmp tr, option_map fst (move_from_o orc n m nb ncap walk tmp tr) = move_from ops n m nb ncap walk tmp.
Proof.
  induction n as [|n IH]; intros m nb ncap walk tmp tr; cbn [move_from_o move_from]; destruct (walk =? NULL); try reflexivity. change (orc tr (CHashNode walk)) with (hash_node ops walk). destruct (hlist_del m walk) as [m1|]; [|reflexivity]. destruct (hashtbl_add m1 nb ncap walk (hash_node ops walk)) as [m2|]; [|reflexivity]. destruct (if tmp =? NULL then Some tmp else ld m2 tmp LINK); [|reflexivity]. apply IH.
Qed.
Lemma move_all_same : forall n m h nb ncap i tr, option_map fst (move_all_o orc fuel n m h nb ncap i tr) = move_all ops fuel n m h nb ncap i.
Proof.
  induction n as [|n IH]; intros m h nb ncap i tr; cbn [move_all_o move_all]; [reflexivity|]. destruct (ld m (idx_head (h_buckets h) (h_capacity h) i) LINK) as [walk|]; [|reflexivity]. destruct (if walk =? NULL then Some 0 else ld m walk LINK) as [tmp|]; [|reflexivity].
  rewrite <- (move_from_same fuel m nb ncap walk tmp tr). destruct (move_from_o orc fuel m nb ncap walk tmp tr) as [[m1 tr1]|]; [|reflexivity]. apply IH.
Qed.
Lemma rehash_same m h nbits tr : option_map fst (rehash_o orc al fuel m h nbits tr) = rehash ops al fuel m h nbits.
Proof.
  unfold rehash_o, rehash. destruct (64 <=? nbits); [reflexivity|]. destruct ((if w64 (8 * 2 ^ nbits) =? 0 then NULL else al m (w64 (8 * 2 ^ nbits))) =? NULL); [reflexivity|]. destruct (hashtbl_init _ _ _ 0) as [m1|]; [|reflexivity].
  rewrite <- (move_all_same _ m1 h _ (2 ^ nbits) 0 tr). destruct (move_all_o _ _ _ m1 _ _ _ _ tr) as [[m2 tr2]|]; reflexivity.
Qed.
Lemma insert_new_same m h n tr : option_map fst (insert_new_o orc (given (extend ops)) al fuel m h n (hash_node ops n) tr) = insert_new ops al fuel m h n.
Proof.
  unfold insert_new_o, insert_new. assert (N : need_extend ops h = fst (need_extend_o orc (given (extend ops)) h tr)).
  { unfold need_extend, need_extend_o, given, orc, orc_of. destruct (h_capacity h =? 0); [reflexivity|]. destruct (extend ops) as [f|]; [|reflexivity]. cbn [fst]. destruct (f h); reflexivity. }
  rewrite N. destruct (need_extend_o orc (given (extend ops)) h tr) as [need tr1]. cbn [fst]. destruct need.
  - unfold hm_extend_o, hm_extend. rewrite <- (rehash_same m h _ tr1). destruct (rehash_o orc al fuel m h _ tr1) as [[[[m1 h1] r] tr2]|]; [|reflexivity]. cbn [option_map fst]. destruct (negb (r =? 0)); [reflexivity|]. unfold put_o. change (orc tr2 (CHashNode n)) with (hash_node ops n). destruct (hashtbl_add m1 _ _ n _); reflexivity.
  - cbn [negb Z.eqb]. unfold put_o. destruct (hashtbl_add m _ _ n _); reflexivity.
Qed.
(** With functions that only look at their arguments, the operations are those of HashmapModel.v. *)
Theorem C133_same : forall m h o tr, option_map fst (apply_o orc (given (extend ops)) (given (shrink ops)) al fuel m h o tr) = apply_hop ops al fuel m h o.
Proof.
  intros m h o tr. destruct o as [n st|k|k| |]; cbn [apply_o apply_hop].
  - unfold insert_o, insert. change (orc tr (CHashNode n)) with (hash_node ops n).
    assert (F : (if is_append st then Some NULL else find_node ops fuel m h n (hash_node ops n)) = option_map fst (if is_append st then Some (NULL, CHashNode n :: tr) else find_node_o orc fuel m h n (hash_node ops n) (CHashNode n :: tr))) by (destruct (is_append st); [reflexivity|symmetry; apply find_node_same]).
    rewrite F. destruct (if is_append st then Some (NULL, CHashNode n :: tr) else _) as [[found tr1]|]; [|reflexivity]. cbn [option_map fst]. destruct (negb (found =? NULL)).
    + destruct (is_add st); [reflexivity|]. destruct (hlist_replace m found n); reflexivity.
    + destruct (is_update st); [reflexivity|]. rewrite <- (insert_new_same m h n tr1). destruct (insert_new_o _ _ _ _ m h n _ tr1) as [[[[m1 h1] r] tr2]|]; reflexivity.
  - unfold del_o, del. change (orc tr (CHashKey k)) with (hash_key ops k). rewrite <- (find_key_same m h k (hash_key ops k) (CHashKey k :: tr)). destruct (find_key_o orc fuel m h k _ _) as [[found tr1]|]; [|reflexivity]. cbn [option_map fst]. destruct (found =? NULL); [reflexivity|].
    destruct (hashtbl_del m found) as [m1|]; [|reflexivity]. set (h1 := {| h_buckets := _ |}).
    assert (N : need_shrink ops h1 = fst (need_shrink_o orc (given (shrink ops)) h1 tr1)).
    { unfold need_shrink, need_shrink_o, given, orc, orc_of. destruct (shrink ops) as [f|]; [|reflexivity]. cbn [fst]. destruct (f h1); reflexivity. }
    rewrite N. destruct (need_shrink_o orc (given (shrink ops)) h1 tr1) as [need tr2]. cbn [fst]. destruct need; [|reflexivity]. unfold hm_shrink_o, hm_shrink. rewrite <- (rehash_same m1 h1 _ tr2). destruct (rehash_o orc al fuel m1 h1 _ tr2) as [[[[m2 h2] r] tr3]|]; reflexivity.
  - unfold lookup_o, lookup. change (orc tr (CHashKey k)) with (hash_key ops k). rewrite <- (find_key_same m h k (hash_key ops k) (CHashKey k :: tr)). destruct (find_key_o orc fuel m h k _ _) as [[found tr1]|]; reflexivity.
  - destruct (for_each fuel m h); reflexivity.
  - reflexivity.
Qed.
End Same.

(** Functions that answer by how many calls there were: every hash is another, equality holds at every third call. *)
Definition ex_orc (tr : list hcall) (c : hcall) : Z :=
  let t := Z.of_nat (length tr) in
  match c with CHashKey _ | CHashNode _ => t / 13 | CEqual _ _ | CFind _ _ => t mod 3 | CExtend h => if h_used h =? 1 then 1 else 0 | CShrink _ => 0 end.
Definition ex_plan : list hop := [HInsert 101 ADD; HInsert 102 ADD; HInsert 103 APPEND; HInsert 108 SET; HDel 5; HFind 5; HEach].
(** the client inserts no node twice *)
Definition was_put (n : Z) (e : hop * hres) : bool := match fst e with HInsert k _ => k =? n | _ => false end.
Definition ex_client (past : list (hop * hres)) (_ : list hcall) : hop :=
  match nth (length past) ex_plan HEach with
  | HInsert n st => if existsb (was_put n) past then HEach else HInsert n st
  | o => o
  end.
Lemma areach_put orc past tr s : areach orc past tr s -> forall x, In x s -> existsb (was_put x) past = true.
Proof.
  induction 1 as [|past tr s o r cs s' H IH HS]; intros x Hx; [destruct Hx|]. rewrite existsb_app. apply orb_true_iff.
  assert (K : In x s -> existsb (was_put x) past = true \/ existsb (was_put x) [(o, r)] = true) by (intros C; left; apply IH, C).
  assert (N : was_put x (o, r) = true -> existsb (was_put x) past = true \/ existsb (was_put x) [(o, r)] = true) by (intros C; right; cbn [existsb]; rewrite C; reflexivity).
  destruct HS; try (apply K, Hx); try (destruct Hx as [<-|Hx]; [apply N, Z.eqb_refl|]); try (apply K, Hx); try (destruct Hx; fail);
  match goal with P : Permutation s (_ :: s') |- _ => apply K, (Permutation_in _ (Permutation_sym P)); right; exact Hx end.
Qed.
Lemma C133_polite orc : apolite orc ex_U ex_client.
Proof.
  intros past tr s H. unfold ex_client. assert (P : forall o, In o (HEach :: ex_plan) -> match o with HInsert n _ => In n ex_U | _ => True end) by (intros o [<-|Ho]; [exact I|]; cbn [ex_plan In] in Ho; unfold ex_U; decompose [or] Ho; subst; cbn [In]; tauto).
  assert (Q : In (nth (length past) ex_plan HEach) (HEach :: ex_plan)) by (destruct (nth_in_or_default (length past) ex_plan HEach) as [C|C]; [right; exact C|left; symmetry; exact C]). specialize (P _ Q).
  destruct (nth (length past) ex_plan HEach) as [n st|k|k| |]; try exact I. destruct (existsb (was_put n) past) eqn:E; [exact I|]. split; [exact P|]. intros C. rewrite (areach_put _ _ _ _ H n C) in E. discriminate.
Qed.
Example C133_ex : exists m' h' past tr s l, run_o ex_orc true true ex_al 5 7 ex_client ex_m hm_init [] [] = Some (m', h', past, tr) /\ areach ex_orc past tr s /\ length past = 7%nat /\ NoDup s /\ h_used h' = w64 (zlen s) /\ for_each 5 m' h' = Some l /\ Permutation s l.
Proof. apply (C133_any ex_orc true true ex_al 5 ex_U ex_client ex_m 7); [apply C52_law|cbn; lia|apply C52_law|apply C133_polite]. Qed.
Example C133_run : option_map (fun r => (snd (fst r), snd r)) (run_o ex_orc true true ex_al 5 7 ex_client ex_m hm_init [] []) = Some
  ([(HInsert 101 ADD, RPair 0 0); (HInsert 102 ADD, RPair (- EEXIST) 101); (HInsert 103 APPEND, RPair 0 0); (HInsert 108 SET, RPair 0 103);
    (HDel 5, RPair 0 101); (HFind 5, RNode 0); (HEach, RList [108])],
   [CHashKey 5; CShrink {| h_buckets := 20000; h_bits := 5; h_capacity := 32; h_used := 1 |}; CFind 101 5; CFind 108 5; CHashKey 5; CEqual 108 103;
    CHashNode 108; CHashNode 103; CHashNode 101; CExtend {| h_buckets := 10000; h_bits := 4; h_capacity := 16; h_used := 1 |};
    CHashNode 103; CEqual 102 101; CHashNode 102; CHashNode 101; CHashNode 101]).
Proof. vm_compute. reflexivity. Qed.
Print Assumptions C133_step.
Print Assumptions C133_any.
Print Assumptions C133_same.
