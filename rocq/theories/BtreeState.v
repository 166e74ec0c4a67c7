(** * B+tree proofs: the heap around a tree, and the way down to a node *)
From Verif Require Import Lib BtreeModel BtreeCells BtreeFill BtreeTower BtreeSpec.
Ltac Zify.zify_post_hook ::= Z.div_mod_to_equations.

(** the heap holds the nodes of [T] and besides them the nodes [X] *)
Definition owned (h : heap) (T : list (list node)) (X : list Z) : Prop :=
  NoDup (addrs T) /\ (forall a, In a (addrs T) -> ~ In a X) /\ (forall a, h a <> None <-> In a (addrs T) \/ In a X).
Definition born (al : nat -> heap -> Z) (s : root) : Prop := forall n, b_heap s n <> None -> exists j h', (j < b_clock s)%nat /\ n = al j h'.
Definition same_on (X : list Z) (h h' : heap) : Prop := forall a, In a X -> h' a = h a.
Definition top (T : list (list node)) : list node := hd [] T.

Lemma same_refl : forall X h, same_on X h h.
Proof. intros X h a _. reflexivity. Qed.
Lemma same_trans : forall X h1 h2 h3, same_on X h1 h2 -> same_on X h2 h3 -> same_on X h1 h3.
Proof. intros X h1 h2 h3 A B a I. rewrite B, A by exact I. reflexivity. Qed.
Lemma kids_keys : forall es b x, In x (kids b es) -> In (klo x, kad x) es.
Proof. induction es as [|e r IH]; intros b x I; [destruct I|]. destruct I as [<-|I]; [left; destruct e; reflexivity|right; apply (IH _ _ I)]. Qed.
Lemma KL_keys : forall B x, In x (KL B) -> In (klo x, kad x) (FE B).
Proof.
  induction B as [|n B IH]; intros x I; [destruct I|]. rewrite KL_cons in I. cbn [FE flat_map]. apply in_or_app. apply in_app_or in I. destruct I as [I|I]; [left; apply (kids_keys _ _ _ I)|right; apply IH, I].
Qed.

Lemma born_sub : forall al s s', born al s -> (forall a, b_heap s' a <> None -> b_heap s a <> None) -> (b_clock s <= b_clock s')%nat -> born al s'.
Proof. intros al s s' Bo E L n Hn. destruct (Bo n (E n Hn)) as (j & h' & A & ->). exists j, h'. split; [lia|reflexivity]. Qed.

Section State.
Variable K H : Z.
Hypothesis KH : K - 2 * H = 0.
Hypothesis HK : 4 <= K < 2 ^ 31.
Local Notation tower := (tower K H).
Local Notation node_ok := (node_ok K).
Local Notation Jn := (Jn H).
Local Notation cells := (cells K).
Local Notation HK' := (HK2 K HK).
Local Notation HH := (H2 K H KH HK).

(** what lies left and right of the node responsible for [k] *)
Lemma around : forall h B1 n B2 k, Forall (node_ok h) (B1 ++ n :: B2) -> chain (2 ^ 64) (map head (B1 ++ n :: B2)) -> lo n <= k < up n ->
  Forall (fun e => k < fst e) (FE B1) /\ Forall (fun e => fst e < k) (FE B2) /\ chain (lo n) (KL B2).
Proof.
  intros h B1 n B2 k F C Hk. rewrite map_app in C. cbn [map] in C. pose proof (chain_mid _ _ _ _ C) as (_ & _ & C1 & C2). unfold klo, kup, head in C1, C2. cbn [fst snd] in C1, C2. apply Forall_app in F. destruct F as [F1 F2]. inversion F2 as [|? ? _ F3]; subst.
  assert (CH : chain (lo n) (map head B2)). { clear - C. revert C. generalize (2 ^ 64) as b. induction (map head B1) as [|x l IH]; intros b C; cbn [app chain] in C; [apply C|]. destruct C as (_ & _ & C). apply (IH _ C). }
  split; [|split; [|apply (chain_KL K h); assumption]]; rewrite Forall_forall in *; intros e He; apply in_flat_map in He; destruct He as (m & Hm & He).
  - pose proof (C1 _ (in_map head _ _ Hm)) as G. cbn [head fst snd] in G. destruct (F1 m Hm) as (_ & _ & _ & _ & _ & _ & L & _). rewrite Forall_forall in L. specialize (L e He). lia.
  - pose proof (C2 _ (in_map head _ _ Hm)) as G. cbn [head fst snd] in G. destruct (F3 m Hm) as (_ & _ & _ & _ & _ & D & _). pose proof (desc_below _ _ D) as L. rewrite Forall_forall in L. specialize (L e He). cbn beta in L. lia.
Qed.
Lemma owned_same : forall h h' r B T B' T' X, owned h (B :: T) X -> tower h r (B :: T) -> tower h' r (B' :: T') -> addrs (B' :: T') = addrs (B :: T) -> (forall a, ~ In a (addrs (B :: T)) -> h' a = h a) -> owned h' (B' :: T') X.
Proof.
  intros h h' r B T B' T' X (O1 & O2 & O3) W W' E F. split; [rewrite E; exact O1|]. split; [rewrite E; exact O2|]. intros a. rewrite E. destruct (in_dec Z.eq_dec a (addrs (B :: T))) as [I|N].
  - split; [intros _; left; exact I|]. intros _. rewrite <- E in I. apply (tower_some K H _ _ _ _ W' I).
  - rewrite (F a N). apply O3.
Qed.
Variable al : nat -> heap -> Z.
(** the first half of every operation at a level: the node responsible for the key, and the place of the key there *)
Lemma round_start : forall T B s level key k sz X, tower (b_heap s) (b_node s) (B :: T) -> Forall (Jn sz) B -> owned (b_heap s) (B :: T) X -> born al s -> b_height s = level + zlen T -> 0 <= k < 2 ^ 64 ->
  (forall h', (forall a, ~ In a (addrs T) -> h' a = b_heap s a) -> deref h' key = Some k) ->
  exists h' B1 n B2 T' e1 e2, find_parent K s key level = Some (with_heap s h', adr n) /\ tower h' (b_node s) ((B1 ++ n :: B2) :: T') /\ Forall (Jn sz) (B1 ++ n :: B2) /\ owned h' ((B1 ++ n :: B2) :: T') X /\ born al (with_heap s h') /\
    lowered B (B1 ++ n :: B2) /\ addrs T' = addrs T /\ length T' = length T /\ (forall a, ~ In a (addrs T) -> h' a = b_heap s a) /\ deref h' key = Some k /\
    lo n <= k < up n /\ ent n = e1 ++ e2 /\ Forall (fun e => k < fst e) e1 /\ (forall x r, e2 = x :: r -> fst x <= k) /\ Forall (fun e => fst e <= k) e2 /\ node_ok h' n /\
    find_index K h' (adr n) key = Some (zlen e1) /\ (forall i, 0 <= i <= zlen (ent n) -> fill_index K h' (adr n) i = Some (zlen (ent n))).
Proof.
  intros T B s level key k sz X W Jb Ow Bo Hh Hk De. pose proof Ow as (O1 & O2 & O3). destruct (down_ok K H KH HK T B _ _ key k W O1 Hk De) as (h' & B' & T' & n & D & W' & L & In' & Cn & EA & EL & Fr).
  pose proof (lowered_Jn H sz _ _ L Jb) as Jb'. pose proof (lowered_adr _ _ L) as LA. assert (EA' : addrs (B' :: T') = addrs (B :: T)) by (rewrite !addrs_cons, EA, LA; reflexivity).
  assert (SUB : forall a, In a (addrs T) -> In a (addrs (B :: T))) by (intros a Ha; rewrite addrs_cons; apply in_or_app; right; exact Ha).
  assert (Ow' : owned h' (B' :: T') X). { apply (owned_same (b_heap s) h' (b_node s) B T); try assumption. intros a Na. apply Fr. intros C. apply Na, SUB, C. }
  pose proof (proj1 W') as F. rewrite Forall_forall in F. pose proof (F n In') as On. pose proof On as (P & C & Ln & L0 & LU & Dn & Gn & Vn). destruct (desc_find _ _ k Dn) as (e1 & e2 & E & F1 & F2 & F3).
  apply in_split in In'. destruct In' as (B1 & B2 & ->). exists h', B1, n, B2, T', e1, e2. split.
  { unfold find_parent. replace (Z.to_nat (b_height s - level)) with (length T) by (unfold zlen in Hh; lia). rewrite D. reflexivity. }
  split; [exact W'|]. split; [exact Jb'|]. split; [exact Ow'|]. split.
  { apply (born_sub al s); [exact Bo| |cbn; lia]. cbn [with_heap b_heap]. intros a Ha. apply O3. rewrite <- EA'. apply Ow', Ha. }
  assert (De' : deref h' key = Some k) by (apply De, Fr).
  split; [exact L|]. split; [exact EA|]. split; [exact EL|]. split; [exact Fr|]. split; [exact De'|]. split; [exact Cn|]. split; [exact E|]. split; [exact F1|]. split; [exact F2|]. split; [exact F3|]. split; [exact On|]. split.
  - rewrite E in C, Ln. apply (find_ok K HK' h' (adr n) e1 e2 key k); try assumption. lia.
  - intros i Hi. apply (fill_ok K HK'); assumption.
Qed.
Lemma alloc_ok : forall s, allocator al -> born al s ->
  (exists s', node_alloc K al s = (s', 0) /\ may_fail al /\ b_heap s' = b_heap s /\ b_node s' = b_node s /\ b_height s' = b_height s /\ born al s') \/
  (exists s' a, node_alloc K al s = (s', a) /\ 0 < a /\ b_heap s a = None /\ cells (b_heap s') a (slot []) /\ only (b_heap s) (b_heap s') a /\ b_node s' = b_node s /\ b_height s' = b_height s /\ born al s').
Proof.
  intros s AL Bo. unfold node_alloc. destruct (AL (b_clock s) (b_heap s) Bo) as [E|[E1 E2]].
  - left. rewrite E. unfold NULL. cbn [Z.eqb]. eexists. split; [reflexivity|]. cbn [b_heap b_node b_height]. split; [exists (b_clock s), (b_heap s); exact E|]. repeat (split; [reflexivity|]). apply (born_sub al s); [exact Bo|auto|cbn; lia].
  - right. destruct (Z.eqb_spec (al (b_clock s) (b_heap s)) NULL) as [C|_]; [unfold NULL in C; lia|]. eexists. exists (al (b_clock s) (b_heap s)). split; [reflexivity|]. cbn [b_heap b_node b_height]. split; [exact E1|]. split; [exact E2|]. split; [apply fresh_cells, HK'|].
    split; [intros x Nx; apply hset_other, Nx|]. repeat (split; [reflexivity|]). intros n Hn. cbn [b_heap b_clock] in *. destruct (Z.eq_dec n (al (b_clock s) (b_heap s))) as [->|Nn]; [exists (b_clock s), (b_heap s); split; [lia|reflexivity]|].
    rewrite hset_other in Hn by exact Nn. destruct (Bo n Hn) as (j & h' & L & ->). exists j, h'. split; [lia|reflexivity].
Qed.
End State.
