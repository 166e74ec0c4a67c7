(** * C64, C65: caches *)
From Verif Require Import Lib BitsModel BloomModel BloomProps RespoolProps Ptr ListModel ListSpec ListProofs ListProofs2 SlistModel SlistSpec HashmapModel HashmapProofs Tree HeapModel.
From Verif Require Import CacheModel CacheSpec CacheProofs CacheOps CacheHist CacheLaws.
Ltac Zify.zify_post_hook ::= Z.div_mod_to_equations.

Lemma heads_ok cf hm lm nm : ready cf hm lm nm -> exists bits, (1 <= bits < 60 /\ c_size cf = 2 ^ bits) /\ NoDup (c_nodes cf) /\ zlen (c_nodes cf) = c_size cf /\ (forall q, in_array (c_taghash cf) (c_size cf) q = true -> ~ In q (c_nodes cf)) /\ ~ In NULL (c_nodes cf) /\ 0 <= c_maxpend cf.
Proof.
  intros HR. destruct HR as ((b & Hb & Es) & H1 & H2 & H3 & H4 & H5 & _). exists b. split; [split; assumption|]. split; [apply nodup_r in H4; exact H4|]. split; [exact H1|]. split; [|split; assumption].
  intros q Hq Hn. apply (nodup_disj _ _ H4 q); [|exact Hn]. apply in_array_head in Hq. destruct Hq as (i & Hi & ->). apply in_map_iff. exists i. split; [reflexivity|]. apply zseq_in. lia.
Qed.

Section All.
Variables (cf : conf) (al : algo) (fuel : nat) (dat : Z -> Z) (rep : mem -> list Z -> (Z -> Z) -> Prop) (victim : policy) (hm lm am nm am' : mem).
Hypothesis LA : laws al (c_nodes cf) rep victim.
Hypothesis LW : lawful cf dat.
Hypothesis HR : ready cf hm lm nm.
Hypothesis FU : (length (c_nodes cf) <= fuel)%nat.
Hypothesis HE : a_reset al am = Some am'.
Hypothesis HA : rep am' [] (fun _ => 0).
Variable prog : list (cop * cres) -> cop.
Hypothesis HP : polite (c_maxpend cf) (c_nodes cf) victim prog.
Notation here := (here cf dat rep victim).
Lemma begin : exists k, create cf al hm lm am nm = Some k /\ here k [] (fresh (c_nodes cf)).
Proof.
  destruct (heads_ok cf hm lm nm HR) as (b & HS & ND & LU & DU & NU & HM). destruct HR as (_ & _ & _ & H3 & H4 & _ & H6 & H7 & H8 & H9).
  destruct (create_ok cf al fuel dat rep b HS ND DU FU HM hm lm am nm am' H3) as (k & E & I'); try assumption.
  - intros p Hp. split; apply H6; (exact Hp || (unfold NEXT, PREV; lia)).
  - intros j Hj. apply (H7 (head_at (c_taghash cf) j)). apply in_map_iff. exists j. split; [reflexivity|]. apply zseq_in. lia.
  - intros n Hn. split; apply H8; (exact Hn || (unfold LINK, PPREV; lia)).
  - exists k. split; [exact E|]. split; [apply reach_nil|]. split; [exact I'|]. constructor; [intros n []|reflexivity|intros n []|reflexivity|intros n []|intros n []|constructor].
Qed.
Theorem session_ok n : exists k h s, session cf al fuel dat n prog hm lm am nm = Some (k, h) /\ here k h s /\ length h = n.
Proof.
  destruct (heads_ok cf hm lm nm HR) as (b & HS & ND & LU & DU & NU & HM). destruct begin as (k0 & E0 & H0). unfold session. rewrite E0. destruct (run_ok cf al fuel dat rep victim b LA LW HS ND LU DU NU FU HM prog HP n k0 [] _ H0) as (k & h & s & E & H & L). exists k, h, s. split; [exact E|]. split; [exact H|]. cbn [length] in L. lia.
Qed.
Theorem last_session n k' h t fl v : session cf al fuel dat (S n) prog hm lm am nm = Some (k', h ++ [(CObtain t fl, RNode v)]) -> v <> NULL -> l_tag (life_of h v) <> Some t ->
  exists k s, here k h s /\ In v (c_nodes cf) /\ l_refs (life_of h v) = 0 /\ (forall x, x <> NULL -> l_tag (life_of h x) <> Some t) /\
  (l_tag (life_of h v) <> None -> (forall x, In x (c_nodes cf) -> l_tag (life_of h x) <> None) /\ In v (s_idle s) /\ victim (s_idle s) (s_uses s) v).
Proof.
  intros E Nv Nt. destruct (heads_ok cf hm lm nm HR) as (b & HS & ND & LU & DU & NU & HM). destruct begin as (k0 & E0 & H0). unfold session in E. rewrite E0 in E.
  destruct (last_ok cf al fuel dat rep victim b LA LW HS ND LU DU NU FU HM prog HP n k0 _ k' h _ H0 E) as (k & s & s' & H1 & _ & C). cbn [fst snd] in C. exists k, s. split; [exact H1|]. apply (taken cf dat rep victim ND k h s t fl v s' H1 C Nv Nt).
Qed.
(** What holds at any time in the life of a cache, whatever the algorithm. *)
Theorem always n : exists k h s, session cf al fuel dat n prog hm lm am nm = Some (k, h) /\ length h = n /\ reach (c_maxpend cf) (c_nodes cf) victim h s /\
  (forall l, NoDup l -> ~ In NULL l -> (forall x, In x l -> l_tag (life_of h x) <> None) -> zlen l <= c_size cf) /\
  (forall a b t, a <> NULL -> b <> NULL -> l_tag (life_of h a) = Some t -> l_tag (life_of h b) = Some t -> a = b).
Proof.
  destruct (heads_ok cf hm lm nm HR) as (b & HS & ND & LU & DU & NU & HM). destruct (session_ok n) as (k & h & s & E & H & L). exists k, h, s. split; [exact E|]. split; [exact L|]. split; [apply H|]. split.
  - intros l. apply (at_most cf dat rep victim LU k h s l H).
  - intros a c t. apply (one_tag cf dat rep victim k h s a c t H).
Qed.
End All.

(** ** Least recently used *)
Definition lru_ready (cf : conf) (h : Z) (am : mem) : Prop := ~ In h (c_nodes cf) /\ forall p f, In p (h :: c_nodes cf) -> 0 <= f < 2 -> exists x, am p f = Some x.
Lemma lru_ready_ok cf h am : lru_ready cf h am -> lru_mem h (c_nodes cf) am.
Proof. intros [_ H]. split; [split; apply H; (left; reflexivity) || (unfold NEXT, PREV; lia)|intros n Hn; split; apply H; (right; exact Hn) || (unfold NEXT, PREV; lia)]. Qed.
(** Every session of a client that keeps to the rules succeeds and shows only what the specification of a cache allows; at
    every time at most [c_size] nodes hold a tag and no tag is held twice. *)
Theorem C64_session_partial cf h fuel dat hm lm am nm prog : lawful cf dat -> ready cf hm lm nm -> lru_ready cf h am -> (length (c_nodes cf) <= fuel)%nat -> polite (c_maxpend cf) (c_nodes cf) lru prog ->
  forall n, exists k past s, session cf (lru_algo h) fuel dat n prog hm lm am nm = Some (k, past) /\ length past = n /\ reach (c_maxpend cf) (c_nodes cf) lru past s /\
  (forall l, NoDup l -> ~ In NULL l -> (forall x, In x l -> l_tag (life_of past x) <> None) -> zlen l <= c_size cf) /\
  (forall a b t, a <> NULL -> b <> NULL -> l_tag (life_of past a) = Some t -> l_tag (life_of past b) = Some t -> a = b).
Proof.
  intros LW HR HL FU HP n. pose proof HL as [Nh _]. destruct (lru_reset_ok h (c_nodes cf) am (lru_ready_ok _ _ _ HL)) as (am' & E & HA). apply (always cf (lru_algo h) fuel dat (lru_rep h (c_nodes cf)) lru hm lm am nm am' (lru_laws h (c_nodes cf) Nh) LW HR FU E HA prog HP n).
Qed.
(** A request that gives a node a tag it did not have takes a node that nobody holds; nodes that hold another tag are taken
    only when every node holds a tag, and then the one that was released first. *)
Theorem C64_victim_partial cf h fuel dat hm lm am nm prog : lawful cf dat -> ready cf hm lm nm -> lru_ready cf h am -> (length (c_nodes cf) <= fuel)%nat -> polite (c_maxpend cf) (c_nodes cf) lru prog ->
  forall n k past t fl v, session cf (lru_algo h) fuel dat (S n) prog hm lm am nm = Some (k, past ++ [(CObtain t fl, RNode v)]) -> v <> NULL -> l_tag (life_of past v) <> Some t ->
  In v (c_nodes cf) /\ l_refs (life_of past v) = 0 /\ (forall x, x <> NULL -> l_tag (life_of past x) <> Some t) /\
  (l_tag (life_of past v) <> None -> (forall x, In x (c_nodes cf) -> l_tag (life_of past x) <> None) /\
     forall x, In x (c_nodes cf) -> l_refs (life_of past x) = 0 -> x = v \/ (l_last (life_of past v) < l_last (life_of past x))%nat).
Proof.
  intros LW HR HL FU HP n k past t fl v E Nv Nt. pose proof HL as [Nh _]. destruct (lru_reset_ok h (c_nodes cf) am (lru_ready_ok _ _ _ HL)) as (am' & Er & HA). destruct (heads_ok cf hm lm nm HR) as (b & _ & _ & _ & _ & NU & _).
  destruct (last_session cf (lru_algo h) fuel dat (lru_rep h (c_nodes cf)) lru hm lm am nm am' (lru_laws h (c_nodes cf) Nh) LW HR FU Er HA prog HP n k past t fl v E Nv Nt) as (k1 & s & H & A & B & C & D). split; [exact A|]. split; [exact B|]. split; [exact C|]. intros Nn. destruct (D Nn) as (D1 & D2 & l' & D3). split; [exact D1|].
  intros x Ux Rx. assert (Hx : In x (s_idle s)) by (apply (idle_refs cf dat (lru_rep h (c_nodes cf)) lru k1 past s x H); [intros ->; contradiction|apply D1, Ux|exact Rx]). destruct H as (_ & _ & K). pose proof (n_sort _ _ _ _ K) as SS. rewrite D3 in SS, Hx. apply in_app_iff in Hx. destruct Hx as [Hx|[Hx|[]]]; [right|left; congruence].
  clear - SS Hx. induction l' as [|a l' IH]; [destruct Hx|]. cbn [app] in SS. inversion_clear SS as [|? ? S1 F]. destruct Hx as [<-|Hx]; [|apply IH; assumption]. rewrite Forall_forall in F. apply F, in_or_app. right. left. reflexivity.
Qed.
(** ** Least frequently used *)
Definition lfu_ready (cf : conf) (rt : Z) (am : mem) : Prop := ~ In rt (c_nodes cf) /\ rt <> NULL /\ (forall f, 0 <= f < 2 -> exists v, am rt f = Some v) /\ forall n f, In n (c_nodes cf) -> 0 <= f < 4 -> exists v, am n f = Some v.
Theorem C65_session cf rt fuel fuel' dat hm lm am nm prog : lawful cf dat -> ready cf hm lm nm -> lfu_ready cf rt am -> (length (c_nodes cf) <= fuel)%nat -> (length (c_nodes cf) <= fuel')%nat -> polite (c_maxpend cf) (c_nodes cf) lfu prog ->
  forall n, exists k past s, session cf (lfu_algo rt (c_nodes cf) fuel') fuel dat n prog hm lm am nm = Some (k, past) /\ length past = n /\ reach (c_maxpend cf) (c_nodes cf) lfu past s /\
  (forall l, NoDup l -> ~ In NULL l -> (forall x, In x l -> l_tag (life_of past x) <> None) -> zlen l <= c_size cf) /\
  (forall a b t, a <> NULL -> b <> NULL -> l_tag (life_of past a) = Some t -> l_tag (life_of past b) = Some t -> a = b).
Proof.
  intros LW HR (L1 & L2 & L3) FU FU' HP n. destruct (heads_ok cf hm lm nm HR) as (b & [Hb Es] & _ & LU & _ & NU & _). assert (LU' : zlen (c_nodes cf) < 2 ^ 60) by (rewrite LU, Es; apply Z.pow_lt_mono_r; lia).
  destruct (lfu_reset_ok rt (c_nodes cf) fuel' L1 L2 FU' am L3) as (am' & E & HA). apply (always cf (lfu_algo rt (c_nodes cf) fuel') fuel dat (lfu_rep rt (c_nodes cf)) lfu hm lm am nm am' (lfu_laws rt (c_nodes cf) fuel' L1 NU L2 FU' LU') LW HR FU E HA prog HP n).
Qed.
(** The node taken from another tag has a minimal number of uses (a 64-bit counter) among the nodes that nobody holds. *)
Theorem C65_victim cf rt fuel fuel' dat hm lm am nm prog : lawful cf dat -> ready cf hm lm nm -> lfu_ready cf rt am -> (length (c_nodes cf) <= fuel)%nat -> (length (c_nodes cf) <= fuel')%nat -> polite (c_maxpend cf) (c_nodes cf) lfu prog ->
  forall n k past t fl v, session cf (lfu_algo rt (c_nodes cf) fuel') fuel dat (S n) prog hm lm am nm = Some (k, past ++ [(CObtain t fl, RNode v)]) -> v <> NULL -> l_tag (life_of past v) <> Some t ->
  In v (c_nodes cf) /\ l_refs (life_of past v) = 0 /\ (forall x, x <> NULL -> l_tag (life_of past x) <> Some t) /\
  (l_tag (life_of past v) <> None -> (forall x, In x (c_nodes cf) -> l_tag (life_of past x) <> None) /\
     forall x, In x (c_nodes cf) -> l_refs (life_of past x) = 0 -> l_uses (life_of past v) <= l_uses (life_of past x)).
Proof.
  intros LW HR (L1 & L2 & L3) FU FU' HP n k past t fl v E Nv Nt. destruct (heads_ok cf hm lm nm HR) as (b & [Hb Es] & _ & LU & _ & NU & _). assert (LU' : zlen (c_nodes cf) < 2 ^ 60) by (rewrite LU, Es; apply Z.pow_lt_mono_r; lia).
  destruct (lfu_reset_ok rt (c_nodes cf) fuel' L1 L2 FU' am L3) as (am' & Er & HA).
  destruct (last_session cf (lfu_algo rt (c_nodes cf) fuel') fuel dat (lfu_rep rt (c_nodes cf)) lfu hm lm am nm am' (lfu_laws rt (c_nodes cf) fuel' L1 NU L2 FU' LU') LW HR FU Er HA prog HP n k past t fl v E Nv Nt) as (k1 & s & H & A & B & C & D). split; [exact A|]. split; [exact B|]. split; [exact C|]. intros Nn. destruct (D Nn) as (D1 & D2 & D3 & D4). split; [exact D1|].
  intros x Ux Rx. assert (Hx : In x (s_idle s)) by (apply (idle_refs cf dat (lfu_rep rt (c_nodes cf)) lfu k1 past s x H); [intros ->; contradiction|apply D1, Ux|exact Rx]). destruct H as (_ & _ & K).
  rewrite (n_uses _ _ _ _ K v), (n_uses _ _ _ _ K x) by (apply in_live; tauto). apply D4, Hx.
Qed.

(** ** Cases that meet the hypotheses: a cache of two nodes *)
Definition ex_conf : conf := {| c_using := 10; c_freed := 20; c_changing := 30; c_taghash := 1000; c_size := 2; c_maxpend := 1; c_nodes := [100; 200]; c_hash := fun t => t; c_find := fun d t => if d =? t then 0 else 1 |}.
Definition zeros (n : Z) : mem := fun _ f => if (0 <=? f) && (f <? n) then Some 0 else None.
Lemma zeros_some n p f : 0 <= f < n -> zeros n p f = Some 0.
Proof. intros H. unfold zeros. rewrite (proj2 (Z.leb_le 0 f)), (proj2 (Z.ltb_lt f n)) by lia. reflexivity. Qed.
Lemma ex_lawful : lawful ex_conf (fun t => t).
Proof. intros t t'. cbn [c_find ex_conf]. destruct (Z.eqb_spec t t'); split; congruence || discriminate || auto. Qed.
Lemma ex_ready : ready ex_conf (zeros 2) (zeros 2) (zeros 4).
Proof.
  split; [exists 1; split; [lia|reflexivity]|]. split; [reflexivity|]. split; [cbn; lia|]. split; [repeat constructor; cbn; intuition discriminate|]. split; [repeat constructor; cbn; intuition discriminate|]. split; [cbn; intuition discriminate|]. split; [intros p f _ H; exists 0; apply zeros_some, H|].
  split; [reflexivity|]. split; [intros p f _ H; exists 0; apply zeros_some, H|intros p f _ H; apply zeros_some, H].
Qed.
(** The client asks for one tag after the other, commits, and releases. *)
Definition ex_prog (tags : list Z) (h : list (cop * cres)) : cop :=
  if (1000 <=? length h)%nat then CStat else
  match rev h with
  | (CObtain _ _, RNode x) :: _ => if x =? NULL then CStat else CCommit
  | (CCommit, _) :: (CObtain _ _, RNode x) :: _ => if x =? NULL then CStat else CPut x
  | _ => CObtain (nth (Nat.div (length h) 3) tags 0) 1
  end.
Lemma refs_len mp U vi h s : reach mp U vi h s -> forall n, s_refs s n <= Z.of_nat (length h).
Proof.
  induction 1 as [|h s o r s' R IH Ha C]; intros n; [cbn; lia|]. rewrite app_length. cbn [length]. pose proof (IH n) as IHn. destruct C; kred; try lia; unfold put_at; destruct (n =? _); try lia; rewrite ?IH; try lia; match goal with |- s_refs s ?x + 1 <= _ => specialize (IH x); lia | |- s_refs s ?x - 1 <= _ => specialize (IH x); lia end.
Qed.
Lemma got_live mp U vi s t fl x s' : cstep mp U vi s (CObtain t fl) (RNode x) s' -> x <> NULL -> In x (live s').
Proof.
  intros C N. inversion C; subst; try congruence; apply in_live; kred; cbn [In]; tauto.
Qed.
Lemma ex_polite mp U vi tags : polite mp U vi (ex_prog tags).
Proof.
  intros h s R. unfold ex_prog. destruct (Nat.leb_spec 1000 (length h)) as [_|HL]; [exact I|]. pose proof (refs_len _ _ _ _ _ R) as RL.
  assert (OB : forall t fl, callowed s (CObtain t fl)) by (intros t fl n _ _; specialize (RL n); lia).
  destruct R as [|h s0 o r s R0 Ha C]; [apply OB|]. rewrite rev_app_distr. cbn [rev app]. destruct o; try apply OB; [destruct r; try apply OB; destruct (_ =? NULL); exact I|].
  destruct R0 as [|h s1 o r0 s0 R1 Ha1 C1]; [apply OB|]. rewrite rev_app_distr. cbn [rev app]. destruct o; try apply OB; destruct r0; try apply OB. destruct (Z.eqb_spec n NULL) as [E|N]; [exact I|]. cbn [callowed]. pose proof (got_live _ _ _ _ _ _ _ _ C1 N) as Hl. inversion C; subst. apply in_live in Hl. apply in_live. kred. rewrite in_app_iff, <- in_rev. tauto.
Qed.
Lemma ex_lru : lru_ready ex_conf 50 (zeros 2).
Proof. split; [cbn; intuition discriminate|]. intros p f _ H. exists 0. apply zeros_some, H. Qed.
Lemma ex_lfu : lfu_ready ex_conf 50 (zeros 4).
Proof. split; [cbn; intuition discriminate|]. split; [discriminate|]. split; [intros f H; exists 0; apply zeros_some; lia|intros p f _ H; exists 0; apply zeros_some, H]. Qed.
(** Tags 1, 2, 1, 3: the node of tag 2 goes to tag 3, with both algorithms. *)
Example C64_session_ex : forall n, exists k past s, session ex_conf (lru_algo 50) 2 (fun t => t) n (ex_prog [1; 2; 1; 3]) (zeros 2) (zeros 2) (zeros 2) (zeros 4) = Some (k, past) /\ length past = n /\ reach 1 [100; 200] lru past s.
Proof. intros n. destruct (C64_session_partial ex_conf 50 2 (fun t => t) (zeros 2) (zeros 2) (zeros 2) (zeros 4) (ex_prog [1; 2; 1; 3]) ex_lawful ex_ready ex_lru (le_n _) (ex_polite _ _ _ _) n) as (k & past & s & H1 & H2 & H3 & _). exists k, past, s. auto. Qed.
Definition ex_past : list (cop * cres) :=
  [(CObtain 1 1, RNode 200); (CCommit, RUnit); (CPut 200, RInt 0); (CObtain 2 1, RNode 100); (CCommit, RUnit); (CPut 100, RInt 0); (CObtain 1 1, RNode 200); (CCommit, RUnit); (CPut 200, RInt 0)].
Lemma ex_lru_run : option_map snd (session ex_conf (lru_algo 50) 2 (fun t => t) 10 (ex_prog [1; 2; 1; 3]) (zeros 2) (zeros 2) (zeros 2) (zeros 4)) = Some (ex_past ++ [(CObtain 3 1, RNode 100)]).
Proof. vm_compute. reflexivity. Qed.
Example C64_victim_ex : l_refs (life_of ex_past 100) = 0 /\ l_tag (life_of ex_past 100) = Some 2 /\ (l_last (life_of ex_past 100) < l_last (life_of ex_past 200))%nat.
Proof.
  destruct (session ex_conf (lru_algo 50) 2 (fun t => t) 10 (ex_prog [1; 2; 1; 3]) (zeros 2) (zeros 2) (zeros 2) (zeros 4)) as [[k p]|] eqn:E; [|pose proof ex_lru_run as X; rewrite E in X; discriminate]. assert (p = ex_past ++ [(CObtain 3 1, RNode 100)]) as -> by (pose proof ex_lru_run as X; rewrite E in X; cbn [option_map snd] in X; congruence).
  destruct (C64_victim_partial ex_conf 50 2 (fun t => t) (zeros 2) (zeros 2) (zeros 2) (zeros 4) (ex_prog [1; 2; 1; 3]) ex_lawful ex_ready ex_lru (le_n _) (ex_polite _ _ _ _) 9 k ex_past 3 1 100 E) as (_ & H1 & _ & H2); [discriminate|discriminate|]. split; [exact H1|]. split; [reflexivity|]. destruct H2 as [_ H2]; [discriminate|]. destruct (H2 200) as [H|H]; [right; left; reflexivity|reflexivity|discriminate|exact H].
Qed.
Lemma ex_lfu_run : option_map snd (session ex_conf (lfu_algo 50 [100; 200] 2) 2 (fun t => t) 10 (ex_prog [1; 2; 1; 3]) (zeros 2) (zeros 2) (zeros 4) (zeros 4)) = Some (ex_past ++ [(CObtain 3 1, RNode 100)]).
Proof. vm_compute. reflexivity. Qed.
Example C65_session_ex : forall n, exists k past s, session ex_conf (lfu_algo 50 [100; 200] 2) 2 (fun t => t) n (ex_prog [1; 2; 1; 3]) (zeros 2) (zeros 2) (zeros 4) (zeros 4) = Some (k, past) /\ length past = n /\ reach 1 [100; 200] lfu past s.
Proof. intros n. destruct (C65_session ex_conf 50 2 2 (fun t => t) (zeros 2) (zeros 2) (zeros 4) (zeros 4) (ex_prog [1; 2; 1; 3]) ex_lawful ex_ready ex_lfu (le_n _) (le_n _) (ex_polite _ _ _ _) n) as (k & past & s & H1 & H2 & H3 & _). exists k, past, s. auto. Qed.
Example C65_victim_ex : l_uses (life_of ex_past 100) = 0 /\ l_uses (life_of ex_past 200) = 1 /\ l_uses (life_of ex_past 100) <= l_uses (life_of ex_past 200).
Proof.
  destruct (session ex_conf (lfu_algo 50 [100; 200] 2) 2 (fun t => t) 10 (ex_prog [1; 2; 1; 3]) (zeros 2) (zeros 2) (zeros 4) (zeros 4)) as [[k p]|] eqn:E; [|pose proof ex_lfu_run as X; rewrite E in X; discriminate]. assert (p = ex_past ++ [(CObtain 3 1, RNode 100)]) as -> by (pose proof ex_lfu_run as X; rewrite E in X; cbn [option_map snd] in X; congruence).
  split; [reflexivity|]. split; [reflexivity|]. destruct (C65_victim ex_conf 50 2 2 (fun t => t) (zeros 2) (zeros 2) (zeros 4) (zeros 4) (ex_prog [1; 2; 1; 3]) ex_lawful ex_ready ex_lfu (le_n _) (le_n _) (ex_polite _ _ _ _) 9 k ex_past 3 1 100 E) as (_ & _ & _ & H2); [discriminate|discriminate|]. destruct H2 as [_ H2]; [discriminate|]. apply (H2 200); [right; left; reflexivity|reflexivity].
Qed.

(** ** Clearing a cache in use
    [bfdev_cache_reset] forgets the nodes in use but not their reference counts. After a reset with a node in use, a node
    got once and released once is still in use for the cache, for ever, and is never handed out again. *)
Definition script (l : list cop) (h : list (cop * cres)) : cop := nth (length h) l CStat.
Theorem C64_reset_refuted : exists cf h dat hm lm am nm prog k past n, lawful cf dat /\ ready cf hm lm nm /\ lru_ready cf h am /\
  session cf (lru_algo h) 2 dat 6 prog hm lm am nm = Some (k, past ++ [(CReset, RUnit); (CObtain 1 1, RNode n); (CCommit, RUnit); (CPut n, RInt 1)]) /\ l_refs (life_of (past ++ [(CReset, RUnit); (CObtain 1 1, RNode n); (CCommit, RUnit); (CPut n, RInt 1)]) n) = 0.
Proof.
  destruct (session ex_conf (lru_algo 50) 2 (fun t => t) 6 (script [CObtain 1 1; CCommit; CReset; CObtain 1 1; CCommit; CPut 200]) (zeros 2) (zeros 2) (zeros 2) (zeros 4)) as [[k p]|] eqn:E; [|vm_compute in E; discriminate].
  exists ex_conf, 50, (fun t => t), (zeros 2), (zeros 2), (zeros 2), (zeros 4), (script [CObtain 1 1; CCommit; CReset; CObtain 1 1; CCommit; CPut 200]), k, [(CObtain 1 1, RNode 200); (CCommit, RUnit)], 200.
  split; [apply ex_lawful|]. split; [apply ex_ready|]. split; [apply ex_lru|]. split; [|reflexivity]. rewrite E. f_equal. f_equal. assert (X : option_map snd (Some (k, p)) = option_map snd (session ex_conf (lru_algo 50) 2 (fun t => t) 6 (script [CObtain 1 1; CCommit; CReset; CObtain 1 1; CCommit; CPut 200]) (zeros 2) (zeros 2) (zeros 2) (zeros 4))) by (rewrite E; reflexivity). vm_compute in X. injection X as ->. reflexivity.
Qed.
Print Assumptions C64_session_partial.
Print Assumptions C64_victim_partial.
Print Assumptions C64_reset_refuted.
Print Assumptions C65_session.
Print Assumptions C65_victim.
