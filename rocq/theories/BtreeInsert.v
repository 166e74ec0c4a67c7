(** * B+tree proofs: insertion *)
From Coq Require Import Permutation.
From Verif Require Import Lib BtreeModel BtreeCells BtreeFill BtreeTower BtreeSpec BtreeState.
Ltac Zify.zify_post_hook ::= Z.div_mod_to_equations.

(** [B'] has one entry more than [B] *)
Definition added (B B' : list node) (k v : Z) : Prop :=
  (exists F1 F2, FE B = F1 ++ F2 /\ FE B' = F1 ++ (k, v) :: F2 /\ Forall (fun e => k < fst e) F1 /\ Forall (fun e => fst e < k) F2) /\
  (forall P c s b Q, KL B = P ++ (c, s, b) :: Q -> s < k < b -> KL B' = P ++ (v, k, b) :: (c, s, k) :: Q).
Lemma added_eq : forall A B B' k v, FE A = FE B -> KL A = KL B -> added A B' k v -> added B B' k v.
Proof. intros A B B' k v E1 E2 [G1 G2]. unfold added. rewrite <- E1, <- E2. split; assumption. Qed.
Lemma chain_tail : forall P Q b, chain b (P ++ Q) -> exists b', chain b' Q.
Proof. induction P as [|x P IH]; intros Q b C; [exists b; exact C|]. destruct C as (_ & _ & C). apply (IH _ _ C). Qed.

Section Insert.
Variable K H : Z.
Hypothesis KH : K - 2 * H = 0.
Hypothesis HK : 4 <= K < 2 ^ 31.
Variable al : nat -> heap -> Z.
Hypothesis AL : allocator al.
Variable clash : option (Z -> Z -> Z).
Local Notation tower := (tower K H).
Local Notation node_ok := (node_ok K).
Local Notation Jn := (Jn H).
Local Notation cells := (cells K).
Local Notation HK' := (HK2 K HK).
Local Notation HH := (H2 K H KH HK).

Lemma add_kids : forall h B1 n B2 k v e1 e2, Forall (node_ok h) (B1 ++ n :: B2) -> chain (2 ^ 64) (map head (B1 ++ n :: B2)) -> lo n <= k < up n -> ent n = e1 ++ e2 -> Forall (fun e => k < fst e) e1 -> Forall (fun e => fst e < k) e2 ->
  added (B1 ++ n :: B2) (B1 ++ {| adr := adr n; lo := lo n; up := up n; ent := e1 ++ (k, v) :: e2 |} :: B2) k v.
Proof.
  intros h B1 n B2 k v e1 e2 F C Hk E F1 F2. destruct (around K h B1 n B2 k F C Hk) as (A1 & A2 & A3). split.
  - exists (FE B1 ++ e1), (e2 ++ FE B2). rewrite !FE_app. cbn [FE flat_map ent]. fold (FE B2). rewrite E, <- !app_assoc. cbn [app]. split; [reflexivity|]. split; [reflexivity|]. split; apply Forall_app; split; assumption.
  - pose proof (chain_KL K h _ _ F C) as CK. intros P c s b Q. rewrite !KL_app, !KL_cons. cbn [up ent]. rewrite KL_app, KL_cons in CK. rewrite E, !kids_app in *. cbn [kids fst snd]. rewrite <- !app_assoc in *. rewrite app_assoc in CK |- *. intros EQ Hs.
    set (L := KL B1 ++ kids (up n) e1) in *. assert (GL : Forall (fun x => k < klo x) L).
    { unfold L. apply Forall_app. rewrite !Forall_forall in *. split; intros x Hx; [apply (A1 _ (KL_keys _ _ Hx))|apply (F1 _ (kids_keys _ _ _ Hx))]. }
    destruct (app_mid _ _ _ _ _ _ (eq_sym EQ)) as [(q & -> & EQ')|(q & EL & _)].
    2:{ rewrite EL in GL. apply Forall_app in GL. destruct GL as [_ GL]. inversion GL as [|? ? G _]; subst. unfold klo in G. cbn [fst snd] in G. lia. }
    destruct e2 as [|[s' c'] e2].
    + cbn [kids app] in EQ'. exfalso. pose proof (chain_all _ _ A3) as G. rewrite EQ' in G. apply Forall_app in G. destruct G as [_ G]. inversion G as [|? ? G' _]; subst. unfold kup in G'. cbn [snd] in G'. lia.
    + cbn [kids fst snd app] in EQ' |- *. inversion F2 as [|? ? F3 _]; subst. cbn [fst] in F3. destruct q as [|y q]; cbn [app] in EQ'.
      * injection EQ' as <- <- <- <-. unfold L. rewrite <- !app_assoc. cbn [app bot fst]. reflexivity.
      * exfalso. destruct (chain_tail _ _ _ CK) as (b' & CT). cbn [kids fst snd app chain] in CT. destruct CT as (_ & _ & CT). apply chain_all in CT. injection EQ' as _ EQ'. rewrite EQ' in CT. apply Forall_app in CT. destruct CT as [_ CT]. inversion CT as [|? ? G' _]; subst. unfold kup, klo in G'. cbn [fst snd] in G'. lia.
Qed.
Lemma desc_insert : forall e1 e2 b k v, desc b (e1 ++ e2) -> k < b -> Forall (fun e => k < fst e) e1 -> Forall (fun e => fst e < k) e2 -> desc b (e1 ++ (k, v) :: e2).
Proof.
  intros e1 e2 b k v D Hb F1 F2. rewrite desc_app in *. destruct D as [D1 D2]. split; [exact D1|]. cbn [desc fst]. split; [apply bot_gt; assumption|]. destruct e2 as [|x r]; [exact I|]. destruct D2 as [_ D2]. inversion F2; subst. split; assumption.
Qed.
Lemma fit_ok : forall h r B1 n B2 T e1 e2 k v sz X key, tower h r ((B1 ++ n :: B2) :: T) -> Forall (Jn sz) (B1 ++ n :: B2) -> owned h ((B1 ++ n :: B2) :: T) X -> lo n <= k < up n -> v <> 0 -> H <= sz v ->
  ent n = e1 ++ e2 -> Forall (fun e => k < fst e) e1 -> Forall (fun e => fst e < k) e2 -> zlen (ent n) < K -> (forall h', only h h' (adr n) -> deref h' key = Some k) ->
  exists h1 h2 h' B', shift_up K (Z.to_nat (zlen (ent n) - zlen e1)) h (adr n) (zlen (ent n)) = Some h1 /\ deref h1 key = Some k /\ set_key h1 (adr n) (zlen e1) k = Some h2 /\ set_value K h2 (adr n) (zlen e1) v = Some h' /\
    tower h' r (B' :: T) /\ Forall (Jn sz) B' /\ owned h' (B' :: T) X /\ only h h' (adr n) /\ added (B1 ++ n :: B2) B' k v.
Proof.
  intros h r B1 n B2 T e1 e2 k v sz X key W Jb Ow Hk Hv Hs E F1 F2 L De. pose proof (proj1 W) as F. pose proof (tower_chain _ _ _ _ _ _ W) as C. pose proof Ow as (O1 & O2 & O3).
  assert (In' : In n (B1 ++ n :: B2)) by (apply in_or_app; right; left; reflexivity). assert (On : node_ok h n) by (rewrite Forall_forall in F; apply F, In'). destruct On as (P & Cn & Ln & L0 & LU & Dn & Gn & Vn).
  rewrite E in Cn, L. destruct (insert_cells K HK' h (adr n) e1 e2 key k v Cn L De) as (h1 & h2 & h' & S1 & S2 & S3 & S4 & C' & O'). exists h1, h2, h'. set (n' := {| adr := adr n; lo := lo n; up := up n; ent := e1 ++ (k, v) :: e2 |}). exists (B1 ++ n' :: B2).
  rewrite E. split; [exact S1|]. split; [exact S2|]. split; [exact S3|]. split; [exact S4|].
  assert (On' : node_ok h' n').
  { split; [exact P|]. split; [exact C'|]. cbn [n' lo up ent]. rewrite E in *. rewrite Forall_app in *. split; [rewrite zlen_app, zlen_cons in *; lia|]. split; [exact L0|]. split; [exact LU|]. split; [apply desc_insert; try assumption; lia|]. destruct Gn, Vn. split; apply Forall_app; (split; [assumption|constructor; [cbn [fst snd]; lia|assumption]]). }
  assert (W' : tower h' r ((B1 ++ n' :: B2) :: T)). { apply (grow_bottom K H KH HK T B1 n n' B2 h h' r W O1 O' On' eq_refl). left. cbn [n' ent]. rewrite E, !zlen_app, zlen_cons. lia. }
  assert (EA : addrs ((B1 ++ n' :: B2) :: T) = addrs ((B1 ++ n :: B2) :: T)) by (rewrite !addrs_cons, !map_app; reflexivity).
  split; [exact W'|]. split.
  { apply Forall_app in Jb. destruct Jb as [J1 J2]. inversion J2 as [|? ? J3 J4]; subst. apply Forall_app. split; [exact J1|]. constructor; [|exact J4]. unfold BtreeTower.Jn in *. cbn [n' ent]. rewrite E in J3. rewrite map_app in *. cbn [map snd]. apply J_ins; [apply HH|exact J3|exact Hs]. }
  split; [|split; [exact O'|apply (add_kids h); assumption]].
  refine (owned_same K H h h' r _ T _ T X Ow W W' EA _). intros a Na. apply O'. intros ->. apply Na. rewrite addrs_cons. apply in_or_app. left. apply in_map, In'.
Qed.

(** ** One round *)
Definition virt (base : list (Z * Z)) : list node := [{| adr := 0; lo := 0; up := 2 ^ 64; ent := base |}].
Definition upper (base : list (Z * Z)) (T : list (list node)) : list node := match T with [] => virt base | B :: _ => B end.
(** a tree about to grow: what the new root will hold *)
Definition base_ok (h : heap) (r : Z) (X : list Z) (sz : Z -> Z) (k : Z) (base : list (Z * Z)) : Prop :=
  base = [] /\ r = 0 \/
  exists c es, base = [(bot (2 ^ 64) es, c)] /\ r = c /\ In c X /\ 0 < c /\ cells h c (slot es) /\ es <> [] /\ ok_ent K 0 (2 ^ 64) es /\ H <= sz c /\ bot (2 ^ 64) es < k.
Definition start (s : root) (T : list (list node)) (base : list (Z * Z)) (sz : Z -> Z) (X : list Z) (k : Z) : Prop :=
  match T with [] => base_ok (b_heap s) (b_node s) X sz k base | B :: _ => tower (b_heap s) (b_node s) T /\ Forall (Jn sz) B end.
Definition stays (s s' : root) (T T' : list (list node)) (sz : Z -> Z) : Prop :=
  match T with [] => T' = [] /\ b_node s' = b_node s | B :: _ => tower (b_heap s') (b_node s') T' /\ Forall (Jn sz) (top T') /\ lowered B (top T') end.
Definition verdict_on (old v : Z) : Z := match clash with Some f => f old v | None => - EALREADY end.
Definition pre (s : root) (T : list (list node)) (base : list (Z * Z)) (level : Z) (key : kref) (k v : Z) (sz : Z -> Z) (X : list Z) : Prop :=
  1 <= level /\ b_height s = level - 1 + zlen T /\ start s T base sz X k /\ owned (b_heap s) T X /\ born al s /\ 0 <= k < 2 ^ 64 /\ v <> 0 /\ H <= sz v /\ (forall h', same_on X (b_heap s) h' -> deref h' key = Some k).
Definition outcome (full : Prop) (s : root) (T : list (list node)) (base : list (Z * Z)) (level : Z) (k v : Z) (sz : Z -> Z) (X : list Z) (s' : root) (code : Z) : Prop :=
  exists T', born al s' /\ same_on X (b_heap s) (b_heap s') /\ owned (b_heap s') T' X /\ b_height s' = level - 1 + zlen T' /\
    (code = 0 /\ tower (b_heap s') (b_node s') T' /\ Forall (Jn sz) (top T') /\ added (upper base T) (top T') k v \/
     stays s s' T T' sz /\ (code = - ENOMEM /\ may_fail al /\ full /\ Forall (fun e => fst e <> k) (FE (upper base T)) \/ exists old, In (k, old) (FE (top T)) /\ code = verdict_on old v)).
Definition full_for (B : list node) (k : Z) : Prop := exists B3 n, lowered B B3 /\ chain (2 ^ 64) (map head B3) /\ In n B3 /\ lo n <= k < up n /\ K <= zlen (ent n).
Definition split_state (s : root) (B : list node) (level k : Z) (sz : Z -> Z) (X : list Z) (s' : root) : Prop :=
  full_for B k /\ exists B' T', tower (b_heap s') (b_node s') (B' :: T') /\ Forall (Jn sz) B' /\ owned (b_heap s') (B' :: T') X /\ born al s' /\ same_on X (b_heap s) (b_heap s') /\ b_height s' = level + zlen T' /\
    FE B' = FE B /\ KL B' = KL B /\ Forall (fun e => fst e <> k) (FE B) /\ ~ full_for B' k.

Lemma in_mid : forall (B1 : list node) n B2, In n (B1 ++ n :: B2).
Proof. intros. apply in_or_app. right. left. reflexivity. Qed.
Lemma nodes_frame : forall h h' B, (forall a, In a (map adr B) -> h' a = h a) -> Forall (node_ok h) B -> Forall (node_ok h') B.
Proof. intros h h' B E F. rewrite Forall_forall in *. intros n Hn. apply (node_frame K h); [apply E, in_map, Hn|apply F, Hn]. Qed.
Lemma halves : forall es : list (Z * Z), zlen es = K -> exists ea hk hv eb, es = (ea ++ [(hk, hv)]) ++ eb /\ zlen ea = H - 1 /\ zlen eb = H.
Proof.
  intros es L. pose proof HH. destruct (firstn (Z.to_nat H) es) as [|[hk hv] ea _] eqn:E using rev_ind.
  - apply (f_equal (@length _)) in E. rewrite firstn_length in E. unfold zlen in L. cbn [length] in E. lia.
  - exists ea, hk, hv, (skipn (Z.to_nat H) es). rewrite <- E, firstn_skipn. split; [reflexivity|]. apply (f_equal (@length _)) in E. rewrite firstn_length, app_length in E. unfold zlen in *. cbn [length] in E. rewrite skipn_length. lia.
Qed.
Lemma not_full : forall B1 na nb B2 k, k < up na -> (B2 = [] \/ lo nb <= k) -> zlen (ent na) < K -> zlen (ent nb) < K -> ~ full_for (B1 ++ na :: nb :: B2) k.
Proof.
  intros B1 na nb B2 k Hu Hl La Lb (B5 & m & L & C & Im & Hm & Lm). apply Forall2_app_inv_l in L. destruct L as (C1 & R & L1 & L2 & ->). inversion L2 as [|? a' ? R' (Q1 & Q2 & Q3 & Q4) L3]; subst. inversion L3 as [|? b' ? C2 (P1 & P2 & P3 & P4) L4]; subst.
  rewrite map_app in C. cbn [map] in C. pose proof (chain_mid _ _ _ _ C) as (_ & _ & G1 & _). change (map head C1 ++ head a' :: head b' :: map head C2) with (map head C1 ++ [head a'] ++ head b' :: map head C2) in C. rewrite app_assoc in C. pose proof (chain_mid _ _ _ _ C) as (_ & _ & _ & G2). unfold kup, klo, head in G1, G2. cbn [fst snd] in G1, G2.
  rewrite Forall_forall in G1, G2. apply in_app_or in Im. destruct Im as [Im|[->|[->|Im]]].
  - specialize (G1 _ (in_map head _ _ Im)). cbn [head fst snd] in G1. lia.
  - rewrite Q3 in Lm. lia.
  - rewrite P3 in Lm. lia.
  - specialize (G2 _ (in_map head _ _ Im)). cbn [head fst snd] in G2. destruct Hl as [->|Hl]; [inversion L4; subst; destruct Im|]. lia.
Qed.
Lemma keys_kids : forall es b k v, In (k, v) es -> exists x, In x (kids b es) /\ klo x = k.
Proof. induction es as [|e r IH]; intros b k v I; [destruct I|]. destruct I as [->|I]; [eexists; split; [left; reflexivity|reflexivity]|]. destruct (IH (fst e) k v I) as (x & Hx & E). exists x. split; [right; exact Hx|exact E]. Qed.
Lemma keys_KL : forall B k v, In (k, v) (FE B) -> exists x, In x (KL B) /\ klo x = k.
Proof.
  induction B as [|n B IH]; intros k v I; [destruct I|]. cbn [FE flat_map] in I. rewrite KL_cons. apply in_app_or in I. destruct I as [I|I]; [destruct (keys_kids _ (up n) _ _ I) as (x & Hx & E)|destruct (IH _ _ I) as (x & Hx & E)]; exists x; (split; [apply in_or_app; auto|exact E]).
Qed.
(** a key strictly inside the interval of a node is no key of the level above *)
Lemma key_between : forall U B1 n B2 k v, KL U = map head (B1 ++ n :: B2) -> chain (2 ^ 64) (map head (B1 ++ n :: B2)) -> lo n < k < up n -> ~ In (k, v) (FE U).
Proof.
  intros U B1 n B2 k v E C Hk I. destruct (keys_KL _ _ _ I) as (x & Hx & Ex). rewrite E in Hx. rewrite map_app in C, Hx. cbn [map] in C, Hx. pose proof (chain_mid _ _ _ _ C) as (_ & _ & G1 & G2). rewrite Forall_forall in G1, G2. unfold kup, klo, head in *. cbn [fst snd] in *.
  apply in_app_or in Hx. destruct Hx as [Hx|[<-|Hx]]; [specialize (G1 _ Hx); lia|cbn [fst snd] in Ex; lia|]. specialize (G2 _ Hx). apply in_split in Hx. destruct Hx as (Y1 & Y2 & EY). rewrite EY in C. destruct (chain_tail _ _ _ C) as (b' & C'). cbn [chain] in C'. destruct C' as (_ & _ & C'). destruct (chain_tail _ _ _ C') as (b'' & C''). cbn [chain] in C''. unfold klo, kup in C''. lia.
Qed.

Definition split_part (rec : root -> Z -> kref -> Z -> option (root * Z)) (s : root) (level node fill : Z) : option (root * option Z) :=
  let (s, newn) := node_alloc K al s in
  if newn =? NULL then Some (s, Some (- ENOMEM)) else
  let* (s, retval) := rec s (level + 1) (Slot node (w32 (fill / 2 - 1))) newn in
  if negb (retval =? 0) then let* s := node_free s newn in Some (s, Some retval) else
  let* h := split_from K (Z.to_nat (fill / 2)) (b_heap s) newn node 0 (fill / 2) in
  let* h := (if Z.odd fill then let* h := migrate K h newn (fill / 2) node (fill - 1) in clear_index K h node (fill - 1) else Some h) in
  Some (with_heap s h, None).
Definition spec (rec : root -> Z -> kref -> Z -> option (root * Z)) (T : list (list node)) : Prop :=
  forall base s level key k v sz X, pre s T base level key k v sz X -> exists s' code, rec s level key v = Some (s', code) /\ outcome True s T base level k v sz X s' code.
Lemma split_part_ok : forall rec s B1 n B2 T level k sz X, spec rec T -> 1 <= level -> b_height s = level + zlen T -> tower (b_heap s) (b_node s) ((B1 ++ n :: B2) :: T) -> Forall (Jn sz) (B1 ++ n :: B2) -> owned (b_heap s) ((B1 ++ n :: B2) :: T) X -> born al s ->
  lo n <= k < up n -> K <= zlen (ent n) ->
  exists s' r, split_part rec s level (adr n) (zlen (ent n)) = Some (s', r) /\ born al s' /\ same_on X (b_heap s) (b_heap s') /\
  match r with
  | Some code => code = - ENOMEM /\ may_fail al /\ exists T', owned (b_heap s') ((B1 ++ n :: B2) :: T') X /\ b_height s' = level + zlen T' /\ tower (b_heap s') (b_node s') ((B1 ++ n :: B2) :: T')
  | None => exists B' T', tower (b_heap s') (b_node s') (B' :: T') /\ Forall (Jn sz) B' /\ owned (b_heap s') (B' :: T') X /\ b_height s' = level + zlen T' /\ FE B' = FE (B1 ++ n :: B2) /\ KL B' = KL (B1 ++ n :: B2) /\ ~ full_for B' k
  end.
Proof.
  intros rec s B1 n B2 T level k sz X SP Hl Hh W Jb Ow Bo Hk Hf. pose proof (proj1 W) as F. pose proof (tower_chain _ _ _ _ _ _ W) as C. pose proof Ow as (O1 & O2 & O3). destruct (nodup_tail _ _ O1) as (ND1 & ND2 & ND3).
  set (B3 := B1 ++ n :: B2) in *. assert (In' : In n B3) by apply in_mid. assert (On : node_ok (b_heap s) n) by (rewrite Forall_forall in F; apply F, In'). destruct On as (P & Cn & Ln & L0 & LU & Dn & Gn & Vn).
  assert (EF : zlen (ent n) = K) by lia. unfold split_part. rewrite EF. clear Hf.
  assert (EK : K / 2 = H) by lia. assert (OK : Z.odd K = false). { replace K with (2 * H) by lia. rewrite Z.odd_mul. reflexivity. } rewrite EK, OK.
  destruct (alloc_ok K HK al s AL Bo) as [(s1 & E1 & MF & Eh & En & Ehh & Bo1)|(s1 & newn & E1 & Pn & Fr & Cnew & On1 & En & Ehh & Bo1)]; rewrite E1.
  - unfold NULL. cbn [Z.eqb]. eexists. eexists. split; [reflexivity|]. split; [exact Bo1|]. rewrite Eh. split; [apply same_refl|]. split; [reflexivity|]. split; [exact MF|]. exists T. rewrite En, Ehh. split; [exact Ow|]. split; [exact Hh|exact W].
  - destruct (Z.eqb_spec newn NULL) as [N|_]; [unfold NULL in N; lia|].
    destruct (halves (ent n) EF) as (ea & hk & hv & eb & Ee & Lea & Leb). set (es := ea ++ [(hk, hv)]) in *. assert (Les : zlen es = H) by (unfold es; rewrite zlen_app, zlen_cons, zlen_nil; lia).
    assert (Nnew : ~ In newn (addrs (B3 :: T)) /\ ~ In newn X). { split; intros I; (apply (proj2 (O3 newn)); [|exact Fr]); auto. } destruct Nnew as [NnT NnX].
    assert (NnB : ~ In newn (map adr B3)) by (intros I; apply NnT; rewrite addrs_cons; apply in_or_app; left; exact I). assert (Nnn : newn <> adr n) by (intros ->; apply NnB, in_map, In').
    assert (SUBT : forall a, In a (addrs T) -> In a (addrs (B3 :: T))) by (intros a Ha; rewrite addrs_cons; apply in_or_app; right; exact Ha).
    assert (SUBB : forall a, In a (map adr B3) -> In a (addrs (B3 :: T))) by (intros a Ha; rewrite addrs_cons; apply in_or_app; left; exact Ha).
    set (X1 := newn :: map adr B3 ++ X). assert (IX1 : forall a, In a (map adr B3) -> In a X1) by (intros a Ha; right; apply in_or_app; left; exact Ha). assert (IX2 : forall a, In a X -> In a X1) by (intros a Ha; right; apply in_or_app; right; exact Ha).
    assert (Cn1 : cells (b_heap s1) (adr n) (slot (ent n))) by (apply (cells_frame K (b_heap s)); [apply On1; congruence|exact Cn]).
    assert (Hhk : bot (up n) (ent n) < hk < up n /\ bot (up n) es = hk).
    { rewrite Ee in Dn |- *. unfold es in *. rewrite <- app_assoc in *. cbn [app] in *. rewrite !desc_app, !bot_app in *. cbn [desc bot fst] in *. destruct Dn as (D1 & D2 & D3). pose proof (bot_le _ _ D1). split; [|reflexivity]. split; [|lia]. destruct eb as [|e r]; [rewrite zlen_nil in Leb; pose proof HH; lia|]. cbn [desc bot] in *. destruct D3 as [D3 D4]. pose proof (bot_le _ _ D4). lia. }
    destruct Hhk as [Hhk Ehk]. assert (Lbot : lo n <= bot (up n) (ent n)) by (apply bot_ge; [lia|exact Gn]).
    set (base0 := match T with [] => [(bot (2 ^ 64) (ent n), adr n)] | _ => [] end). set (l := match T with [] => bot (2 ^ 64) (ent n) | _ => lo n end).
    assert (ST : exists sz1, start s1 T base0 sz1 X1 hk /\ (forall a, a = newn \/ a = adr n -> sz1 a = H) /\ (forall m, In m B3 -> m = n \/ T <> [] /\ sz1 (adr m) = zlen (ent m))).
    { destruct T as [|U T].
      - exists (fun _ => H). split; [|split; [reflexivity|]].
        + right. exists (adr n), (ent n). destruct W as [_ (m & EB & W1 & W2 & W3)]. assert (m = n). { destruct B1 as [|x B1]; unfold B3 in EB; cbn [app] in EB; [congruence|]. apply (f_equal (@length _)) in EB. cbn [length] in EB. rewrite app_length in EB. cbn in EB. lia. } subst m.
          split; [reflexivity|]. split; [congruence|]. split; [apply IX1, in_map, In'|]. split; [exact P|]. split; [exact Cn1|]. split; [intros Q; rewrite Q, zlen_nil in EF; lia|]. rewrite W2, W3 in *. split; [repeat split; assumption|]. split; [lia|]. apply Hhk.
        + intros m Hm. left. destruct W as [_ (m0 & EB & _)]. rewrite EB in Hm, In'. destruct Hm as [<-|[]], In' as [<-|[]]. reflexivity.
      - destruct W as (_ & W1 & W2 & W3 & (sz0 & W4 & W4') & W5). exists (fun a => if (a =? newn) || (a =? adr n) then H else sz0 a). split; [|split].
        + cbn [start]. split.
          * rewrite En. apply (tower_frame K H _ (b_heap s)); [|exact W5]. intros a Ha. apply On1. intros ->. apply NnT, SUBT, Ha.
          * eapply Forall_impl; [|exact W4']. intros u. apply (Jn_mono K H KH HK). intros e _. destruct ((snd e =? newn) || (snd e =? adr n)); [right; lia|left; lia].
        + intros a [-> | ->]; rewrite Z.eqb_refl, ?orb_true_r; reflexivity.
        + intros m Hm. destruct (Z.eqb_spec (adr m) newn) as [E|_]; [exfalso; apply NnB; rewrite <- E; apply in_map, Hm|]. destruct (Z.eqb_spec (adr m) (adr n)) as [E|_]; cbn [orb]; [left|right; split; [discriminate|apply W4, Hm]].
          unfold B3 in Hm, ND1. rewrite map_app in ND1. cbn [map] in ND1. apply NoDup_remove_2 in ND1. apply in_app_or in Hm. destruct Hm as [Hm|[Hm|Hm]]; [|congruence|]; exfalso; apply ND1; rewrite <- E; apply in_or_app; [left|right]; apply in_map, Hm. }
    destruct ST as (sz1 & ST & SZ1 & SZ2).
    assert (OW1 : owned (b_heap s1) T X1).
    { split; [exact ND2|]. split.
      - intros a Ha [<-|I]; [apply NnT, SUBT, Ha|]. apply in_app_or in I. destruct I as [I|I]; [apply (ND3 a I Ha)|apply (O2 a (SUBT _ Ha) I)].
      - intros a. destruct (Z.eq_dec a newn) as [->|N]; [split; [intros _; right; left; reflexivity|intros _; apply (cells_some K _ _ _ Cnew)]|]. rewrite (On1 a N), O3, addrs_cons, in_app_iff. unfold X1. cbn [In]. rewrite in_app_iff. clear - N. split; [tauto|]. intros [I|[I|[I|I]]]; auto; congruence. }
    destruct (SP base0 s1 (level + 1) (Slot (adr n) (w32 (H - 1))) hk newn sz1 X1) as (s2 & code & R & T2 & Bo2 & Sm2 & Ow2 & Hh2 & Res).
    { split; [lia|]. split; [rewrite Ehh; lia|]. split; [exact ST|]. split; [exact OW1|]. split; [exact Bo1|]. split; [lia|]. split; [lia|]. split; [rewrite SZ1 by auto; lia|]. intros h' Sm. cbn [deref]. assert (Cn2 : cells h' (adr n) (slot (ent n))) by (apply (cells_frame K (b_heap s1)); [apply Sm, IX1, in_map, In'|exact Cn1]).
      pose proof HH. rewrite w32_small by (unfold u32; lia). rewrite (get_key_ok K HK' _ _ _ _ Cn2) by lia. rewrite Ee. unfold es. rewrite <- app_assoc. cbn [app]. rewrite <- Lea, slot_mid. reflexivity. }
    rewrite R. pose proof Ow2 as (P1 & P2 & P3).
    assert (FX : forall a, In a (map adr B3) \/ In a X -> b_heap s2 a = b_heap s a). { intros a Ha. rewrite (Sm2 a) by (destruct Ha; auto). apply On1. intros ->. destruct Ha; auto. }
    assert (KT : (T = [] /\ B1 = [] /\ B2 = [] /\ lo n = 0 /\ up n = 2 ^ 64 /\ l = bot (up n) (ent n) \/ l = lo n) /\ KL (upper base0 T) = map head B1 ++ (adr n, l, up n) :: map head B2).
    { unfold l, base0. destruct T as [|U T].
      - destruct W as [_ (m & EB & W1 & W2 & W3)]. unfold B3 in EB. destruct B1 as [|x B1]; cbn [app] in EB; [|apply (f_equal (@length _)) in EB; cbn [length] in EB; rewrite app_length in EB; cbn in EB; lia]. injection EB as -> ->. rewrite W3. split; [left; auto 10|reflexivity].
      - split; [right; reflexivity|]. destruct W as (_ & _ & W2 & _). cbn [upper]. rewrite W2. unfold B3. rewrite map_app. reflexivity. }
    destruct KT as [LT KT]. assert (Hl1 : lo n <= l < hk). { destruct LT as [(_ & _ & _ & _ & _ & LT)|LT]; rewrite LT; lia. }
    destruct Res as [(-> & W2 & J2 & AD)|(ST2 & [(-> & MF & _ & _)|(old & IO & _)])].
    + (* the new child is in its place *)
      cbn [negb Z.eqb]. assert (Cn2 : cells (b_heap s2) (adr n) (slot (es ++ eb))) by (rewrite <- Ee; apply (cells_frame K (b_heap s)); [apply FX; left; apply in_map, In'|exact Cn]).
      assert (Cw2 : cells (b_heap s2) newn (slot [])) by (apply (cells_frame K (b_heap s1)); [apply Sm2; left; reflexivity|exact Cnew]).
      destruct (split_cells K HK' (b_heap s2) newn (adr n) es eb Cw2 Cn2 Nnn ltac:(lia) ltac:(rewrite zlen_app; lia)) as (h3 & S3 & Ca & Cb & Fr3). rewrite EK in S3. rewrite S3. eexists. exists None. split; [reflexivity|].
      set (na := {| adr := newn; lo := hk; up := up n; ent := es |}). set (nb := {| adr := adr n; lo := l; up := hk; ent := eb |}). set (B4 := B1 ++ na :: nb :: B2).
      assert (PB : Permutation (map adr B4) (newn :: map adr B3)). { unfold B4, B3. rewrite !map_app. cbn [map na nb adr]. apply Permutation_sym, Permutation_middle. }
      assert (FR3 : forall a, ~ In a (newn :: map adr B3) -> h3 a = b_heap s2 a). { intros a Na. apply Fr3; intros ->; apply Na; [left; reflexivity|right; apply in_map, In']. }
      assert (KB : forall m, In m B4 -> m = na \/ m = nb \/ (In m B3 /\ m <> n)).
      { unfold B3, B4. intros m Hm. apply in_app_or in Hm. assert (G : ~ In n B1 /\ ~ In n B2). { unfold B3 in ND1. rewrite map_app in ND1. cbn [map] in ND1. apply NoDup_remove_2 in ND1. split; intros I; apply ND1, in_or_app; [left|right]; apply in_map, I. }
        destruct Hm as [Hm|[<-|[<-|Hm]]]; auto; right; right; (split; [apply in_or_app; cbn [In]; auto|intros ->; tauto]). }
      assert (F4 : Forall (node_ok h3) B4).
      { rewrite Forall_forall. intros m Hm. destruct (KB m Hm) as [->|[->|[Hm' Nm]]].
        - split; [exact Pn|]. split; [exact Ca|]. cbn [na lo up ent]. split; [lia|]. split; [lia|]. split; [exact LU|]. rewrite Ee in Dn, Gn, Vn. rewrite desc_app in Dn. apply Forall_app in Gn. apply Forall_app in Vn. split; [apply Dn|]. split; [|apply Vn].
          rewrite <- Ehk. destruct Dn as [Dn _]. clear - Dn. revert Dn. generalize (up n) as b. induction es as [|e r IH]; intros b D; [constructor|]. destruct D as [D1 D2]. constructor; [cbn [bot]; apply bot_le, D2|]. cbn [bot]. apply IH, D2.
        - split; [exact P|]. split; [exact Cb|]. cbn [nb lo up ent]. split; [lia|]. split; [lia|]. split; [lia|]. rewrite Ee in Dn, Vn. rewrite desc_app, Ehk in Dn. apply Forall_app in Vn. split; [apply Dn|]. split; [|apply Vn].
          assert (GB : Forall (fun e => bot (up n) (ent n) <= fst e) eb). { rewrite Ee, bot_app, Ehk. destruct Dn as [_ Dn]. clear - Dn. revert Dn. generalize hk as b. induction eb as [|e r IH]; intros b D; [constructor|]. destruct D as [D1 D2]. constructor; [cbn [bot]; apply bot_le, D2|]. cbn [bot]. apply IH, D2. }
          eapply Forall_impl; [|exact GB]. cbn beta. intros e He. destruct LT as [(_ & _ & _ & _ & _ & LT)|LT]; rewrite LT; lia.
        - apply (node_frame K (b_heap s)); [|rewrite Forall_forall in F; apply F, Hm']. rewrite Fr3; [apply FX; left; apply in_map, Hm'|intros Q; apply NnB; rewrite <- Q; apply in_map, Hm'|].
          intros Q. apply Nm. unfold B3 in Hm', ND1. rewrite map_app in ND1. cbn [map] in ND1. apply NoDup_remove_2 in ND1. apply in_app_or in Hm'. destruct Hm' as [Hm'|[Hm'|Hm']]; [|congruence|]; exfalso; apply ND1; rewrite <- Q; apply in_or_app; [left|right]; apply in_map, Hm'. }
      assert (NX1 : forall a, In a (addrs T2) -> ~ In a (newn :: map adr B3) /\ ~ In a X). { intros a Ha. split; intros I; apply (P2 a Ha); [destruct I as [<-|I]; [left; reflexivity|apply IX1, I]|apply IX2, I]. }
      assert (W3 : tower h3 (b_node s2) (B4 :: T2)).
      { destruct T2 as [|U2 T2]; [destruct W2|]. split; [exact F4|]. split; [|split; [|split; [|split]]].
        - rewrite Forall_forall. intros m Hm. pose proof HH as HH2. destruct (KB m Hm) as [->|[->|[Hm' Nm]]]; [cbn [na ent]; intros Q; rewrite Q, zlen_nil in Les; lia|cbn [nb ent]; intros Q; rewrite Q, zlen_nil in Leb; lia|].
          destruct T as [|U T]; [destruct (SZ2 m Hm') as [E|[E _]]; [contradiction|congruence]|]. destruct W as (_ & W1 & _). rewrite Forall_forall in W1. apply W1, Hm'.
        - destruct AD as [_ AD]. cbn [top hd] in AD. rewrite (AD _ _ _ _ _ KT ltac:(lia)). unfold B4. rewrite map_app. reflexivity.
        - unfold B4. rewrite app_length. cbn [length]. lia.
        - exists sz1. split; [|exact J2]. intros m Hm. destruct (KB m Hm) as [->|[->|[Hm' Nm]]]; [cbn [na adr ent]; rewrite SZ1; auto|cbn [nb adr ent]; rewrite SZ1; auto|]. destruct (SZ2 m Hm') as [E|[_ E]]; [contradiction|exact E].
        - apply (tower_frame K H _ (b_heap s2)); [|exact W2]. intros a Ha. apply FR3, NX1, Ha. }
      assert (OW3 : owned h3 (B4 :: T2) X).
      { split; [|split].
        - rewrite addrs_cons. apply (Permutation_NoDup (Permutation_sym (Permutation_app_tail (addrs T2) PB))). cbn [app]. constructor.
          + intros I. apply in_app_or in I. destruct I as [I|I]; [apply NnB, I|apply (proj1 (NX1 _ I)); left; reflexivity].
          + clear - ND1 P1 NX1. revert ND1 NX1. generalize (map adr B3) as L. induction L as [|x L IH]; intros ND1 NX1; cbn [app]; [exact P1|]. inversion ND1; subst. constructor; [|apply IH; [assumption|intros a Ha; destruct (NX1 a Ha) as [Q1 Q2]; split; [|exact Q2]; intros [Q|Q]; apply Q1; [left; exact Q|right; right; exact Q]]].
            intros I. apply in_app_or in I. destruct I as [I|I]; [contradiction|]. apply (proj1 (NX1 _ I)). right. left. reflexivity.
        - intros a. rewrite addrs_cons. intros I. apply in_app_or in I. destruct I as [I|I]; [|apply NX1, I]. apply (Permutation_in _ PB) in I. destruct I as [<-|I]; [exact NnX|apply O2, SUBB, I].
        - intros a. destruct (in_dec Z.eq_dec a (addrs (B4 :: T2))) as [I|N]; [split; [intros _; left; exact I|intros _; apply (tower_some K H _ _ _ _ W3 I)]|]. rewrite FR3.
          + rewrite P3. split; [|intros [Q|Q]; [contradiction|right; apply IX2, Q]]. rewrite addrs_cons in N. intros [Q|Q]; [exfalso; apply N, in_or_app; right; exact Q|]. right. unfold X1 in Q. destruct Q as [<-|Q]; [exfalso; apply N, in_or_app; left; apply (Permutation_in _ (Permutation_sym PB)); left; reflexivity|]. apply in_app_or in Q. destruct Q as [Q|Q]; [|exact Q]. exfalso. apply N, in_or_app. left. apply (Permutation_in _ (Permutation_sym PB)). right. exact Q.
          + intros Q. apply N. rewrite addrs_cons. apply in_or_app. left. apply (Permutation_in _ (Permutation_sym PB)), Q. }
      cbn [with_heap b_heap b_node b_height]. split.
      { apply (born_sub al s2); [exact Bo2| |cbn; lia]. cbn [with_heap b_heap]. intros a Ha. apply OW3 in Ha. apply P3. rewrite addrs_cons in Ha. destruct Ha as [Ha|Ha]; [|right; apply IX2, Ha]. apply in_app_or in Ha. destruct Ha as [Ha|Ha]; [|left; exact Ha]. right. apply (Permutation_in _ PB) in Ha. destruct Ha as [<-|Ha]; [left; reflexivity|apply IX1, Ha]. }
      split. { intros a Ha. rewrite FR3; [apply FX; right; exact Ha|]. intros [<-|I]; [contradiction|]. apply (O2 a (SUBB _ I) Ha). }
      exists B4, T2. split; [exact W3|]. split.
      { unfold B4. unfold B3 in Jb. apply Forall_app in Jb. destruct Jb as [Q1 Q2]. apply Forall_cons_iff in Q2. destruct Q2 as [Q3 Q4]. apply Forall_app. split; [exact Q1|]. unfold BtreeTower.Jn in *. rewrite Ee, map_app in Q3. destruct (J_half H HH _ _ Q3 ltac:(unfold zlen; rewrite map_length; exact Les) ltac:(unfold zlen; rewrite map_length; exact Leb)) as [Q5 Q6]. constructor; [exact Q5|constructor; [exact Q6|exact Q4]]. }
      split; [exact OW3|]. split; [lia|]. unfold B4, B3. rewrite !FE_app, !KL_app, !KL_cons. cbn [FE flat_map na nb ent up]. rewrite Ee, kids_app, Ehk, <- !app_assoc. split; [reflexivity|]. split; [reflexivity|].
      apply not_full; cbn [na nb up ent lo]; [lia| |pose proof HH; lia|pose proof HH; lia]. destruct LT as [(_ & _ & LT & _)|LT]; [left; exact LT|right; lia].
    + (* no memory above *)
      change (- ENOMEM =? 0) with false. cbn [negb]. unfold node_free. destruct (Z.eqb_spec newn NULL) as [N|_]; [unfold NULL in N; lia|]. assert (Sn : b_heap s2 newn <> None) by (apply P3; right; left; reflexivity). destruct (b_heap s2 newn) as [bb|] eqn:Eb; [|congruence].
      eexists. eexists. split; [reflexivity|]. cbn [with_heap b_heap b_node b_height]. split. { apply (born_sub al s2); [exact Bo2| |cbn; lia]. cbn [with_heap b_heap]. intros a. destruct (Z.eq_dec a newn) as [->|N]; [rewrite hset_same; congruence|rewrite hset_other by exact N; auto]. }
      split. { intros a Ha. rewrite hset_other by (intros ->; contradiction). apply FX. right. exact Ha. }
      split; [reflexivity|]. split; [exact MF|]. exists T2.
      assert (NX1 : forall a, In a (addrs T2) -> a <> newn /\ ~ In a (map adr B3) /\ ~ In a X). { intros a Ha. split; [intros ->; apply (P2 newn Ha); left; reflexivity|]. split; intros I; apply (P2 a Ha); auto. }
      split; [|split; [lia|]].
      * split; [|split].
        -- rewrite addrs_cons. clear - ND1 P1 NX1. revert ND1 NX1. generalize (map adr B3) as L. induction L as [|x L IH]; intros ND1 NX1; cbn [app]; [exact P1|]. inversion ND1; subst. constructor; [|apply IH; [assumption|intros a Ha; destruct (NX1 a Ha) as (Q1 & Q2 & Q3); split; [exact Q1|split; [|exact Q3]]; intros Q; apply Q2; right; exact Q]].
           intros I. apply in_app_or in I. destruct I as [I|I]; [contradiction|]. destruct (NX1 _ I) as (_ & Q & _). apply Q. left. reflexivity.
        -- intros a. rewrite addrs_cons. intros I. apply in_app_or in I. destruct I as [I|I]; [apply O2, SUBB, I|apply NX1, I].
        -- intros a. rewrite addrs_cons, in_app_iff. destruct (Z.eq_dec a newn) as [->|N].
           ++ rewrite hset_same. split; [congruence|]. intros [[Q|Q]|Q]; [contradiction| |contradiction]. exfalso. apply (proj1 (NX1 _ Q)). reflexivity.
           ++ rewrite hset_other by exact N. rewrite P3. unfold X1. cbn [In]. rewrite in_app_iff. clear - N. split; [|tauto]. intros [I|[I|[I|I]]]; auto; congruence.
      * assert (F5 : Forall (node_ok (hset (b_heap s2) newn None)) B3). { apply (nodes_frame (b_heap s)); [|exact F]. intros a Ha. rewrite hset_other by (intros ->; contradiction). apply FX. left. exact Ha. }
        destruct T as [|U T].
        -- destruct ST2 as [-> EN2]. destruct W as [_ W]. rewrite EN2, En. split; [exact F5|exact W].
        -- destruct ST2 as (W2 & _ & LW). destruct T2 as [|U2 T2]; [destruct W2|]. cbn [top hd] in LW. destruct W as (_ & W1 & W2' & W3 & (sz0 & W4 & W4') & W5). split; [exact F5|]. split; [exact W1|]. split; [rewrite (lowered_KL _ _ LW); exact W2'|]. split; [exact W3|]. split; [exists sz0; split; [exact W4|apply (lowered_Jn H _ _ _ LW W4')]|].
           apply (tower_frame K H _ (b_heap s2)); [|exact W2]. intros a Ha. apply hset_other. apply (NX1 a Ha).
    + (* the separating key is not in use *)
      exfalso. destruct T as [|U T]; [destruct IO|]. destruct W as (_ & _ & W2' & _). cbn [top hd] in IO. apply (key_between U B1 n B2 hk old W2' C); [lia|exact IO].
Qed.

Lemma round_ok : forall rec B T s level key k v sz X, (full_for B k -> forall T', length T' = length T -> spec rec T') -> pre s (B :: T) [] level key k v sz X ->
  exists s' r, insert_round K al clash rec s level key v = Some (s', r) /\
  match r with Some code => outcome (full_for B k) s (B :: T) [] level k v sz X s' code | None => split_state s B level k sz X s' end.
Proof.
  intros rec B T s level key k v sz X SP (Hl & Hh & [W Jb] & Ow & Bo & Hk & Hv & Hs & De). rewrite zlen_cons in Hh. pose proof Ow as (O1 & O2 & O3).
  destruct (round_start K H KH HK al T B s level key k sz X W Jb Ow Bo ltac:(lia) Hk) as (h' & B1 & n & B2 & T' & e1 & e2 & FP & W' & Jb' & Ow' & Bo' & LW & EA & EL & Fr & De' & Cn & Ee & F1 & F2 & F3 & On & FI & FL).
  { intros h' E. apply De. intros a Ha. apply E. intros I. apply (O2 a); [rewrite addrs_cons; apply in_or_app; right; exact I|exact Ha]. }
  unfold insert_round. rewrite FP. cbn [with_heap b_heap]. rewrite FI. pose proof (zlen_app _ e1 e2) as LA. pose proof (zlen_nonneg _ e1) as N1. pose proof (zlen_nonneg _ e2) as N2. rewrite FL by (rewrite Ee; lia).
  set (s0 := with_heap s h'). pose proof On as (P & Cl & Ln & L0 & LU & Dn & Gn & Vn).
  assert (SM : same_on X (b_heap s) h'). { intros a Ha. apply Fr. intros I. apply (O2 a); [rewrite addrs_cons; apply in_or_app; right; exact I|exact Ha]. }
  pose proof (lowered_FE _ _ LW) as EFE. pose proof (lowered_KL _ _ LW) as EKL. pose proof (tower_chain _ _ _ _ _ _ W') as CH. pose proof Ow' as (O1' & O2' & O3').
  assert (CMP : exists same, (if zlen e1 <? zlen (ent n) then match cmp_key h' (adr n) (zlen e1) key with Some c => Some (c =? 0) | None => None end else Some false) = Some same /\
    (same = true -> exists old r, e2 = (k, old) :: r) /\ (same = false -> Forall (fun e => fst e < k) e2)).
  { destruct e2 as [|[s2 c2] r].
    - exists false. rewrite Ee, app_nil_r, Z.ltb_irrefl. split; [reflexivity|]. split; [discriminate|constructor].
    - rewrite zlen_cons in LA. pose proof (zlen_nonneg _ r). destruct (Z.ltb_spec (zlen e1) (zlen (ent n))) as [_|G]; [|rewrite Ee in G; lia]. unfold cmp_key. rewrite (get_key_ok K HK' _ _ _ _ Cl) by (rewrite Ee in Ln; lia). rewrite De', Ee, slot_mid. cbn [fst]. eexists. split; [reflexivity|].
      pose proof (F2 _ _ eq_refl) as G. cbn [fst] in G. unfold key_find. destruct (Z.ltb_spec s2 k) as [Lt|Ge].
      + split; [discriminate|]. intros _. constructor; [exact Lt|]. rewrite Ee, desc_app in Dn. cbn [desc fst] in Dn. destruct Dn as (_ & _ & D3). eapply Forall_impl; [|apply (desc_below _ _ D3)]. cbn beta. intros. lia.
      + destruct (Z.ltb_spec k s2); [lia|]. split; [|discriminate]. intros _. exists c2, r. f_equal. f_equal. lia. }
  destruct CMP as (same & CMP & CT & CF). rewrite CMP. destruct same.
  - (* present *)
    destruct (CT eq_refl) as (old & r & ->). rewrite zlen_cons in LA. pose proof (zlen_nonneg _ r).
    assert (OC : forall code, code = verdict_on old v -> outcome (full_for B k) s (B :: T) [] level k v sz X s0 code).
    { intros code EC. exists ((B1 ++ n :: B2) :: T'). split; [exact Bo'|]. split; [exact SM|]. split; [exact Ow'|]. split; [cbn [s0 with_heap b_height]; rewrite zlen_cons; unfold zlen in *; lia|]. right. split; [split; [exact W'|split; [exact Jb'|exact LW]]|]. right. exists old. split; [|exact EC].
      cbn [top hd]. rewrite <- EFE, FE_app. apply in_or_app. right. cbn [FE flat_map]. apply in_or_app. left. rewrite Ee. apply in_or_app. right. left. reflexivity. }
    unfold verdict_on in OC. destruct clash as [f|].
    + rewrite (get_value_ok K HK' _ _ _ _ Cl) by (rewrite Ee in Ln; lia). rewrite Ee, slot_mid. cbn [snd]. eexists. eexists. split; [reflexivity|]. cbn beta iota. apply OC. reflexivity.
    + eexists. eexists. split; [reflexivity|]. cbn beta iota. apply OC. reflexivity.
  - pose proof (CF eq_refl) as F4. destruct (Z.eqb_spec (zlen (ent n)) K) as [EK|NK]; cbn [negb].
    + (* full *)
      change (exists s' r, split_part rec s0 level (adr n) (zlen (ent n)) = Some (s', r) /\ match r with Some code => outcome (full_for B k) s (B :: T) [] level k v sz X s' code | None => split_state s B level k sz X s' end).
      assert (FF : full_for B k). { exists (B1 ++ n :: B2), n. split; [exact LW|]. split; [exact CH|]. split; [apply in_mid|]. split; [exact Cn|]. lia. }
      assert (AB : Forall (fun e => fst e <> k) (FE B)).
      { rewrite <- EFE, FE_app. cbn [FE flat_map]. fold (FE B2). destruct (around K h' B1 n B2 k (proj1 W') CH Cn) as (A1 & A2 & _). rewrite Ee, !Forall_app. split; [|split; [split|]]; (eapply Forall_impl; [|eassumption]); cbn beta; intros; lia. }
      destruct (split_part_ok rec s0 B1 n B2 T' level k sz X (SP FF T' EL) Hl ltac:(cbn [s0 with_heap b_height]; unfold zlen in *; lia) W' Jb' Ow' Bo' Cn ltac:(lia)) as (s' & r & E & Bo2 & Sm2 & Res). exists s', r. split; [exact E|]. pose proof (same_trans _ _ _ _ SM Sm2) as SM2. destruct r as [code|].
      * destruct Res as (-> & MF & T2 & Ow2 & Hh2 & W2). exists ((B1 ++ n :: B2) :: T2). split; [exact Bo2|]. split; [exact SM2|]. split; [exact Ow2|]. split; [rewrite zlen_cons; lia|]. right. split; [split; [exact W2|split; [exact Jb'|exact LW]]|]. left. split; [reflexivity|]. split; [exact MF|]. split; [exact FF|exact AB].
      * destruct Res as (B4 & T4 & W4 & J4 & Ow4 & Hh4 & E4 & E5 & NF). split; [exact FF|]. exists B4, T4. rewrite E4, E5, EFE, EKL. auto 20.
    + (* room *)
      destruct (fit_ok h' (b_node s) B1 n B2 T' e1 e2 k v sz X key W' Jb' Ow' Cn Hv Hs Ee F1 F4 ltac:(lia)) as (h1 & h2 & h3 & B4 & S1 & S2 & S3 & S4 & W4 & J4 & Ow4 & On4 & AD).
      { intros h1 O. apply De. intros a Ha. rewrite O; [apply SM, Ha|]. intros ->. apply (O2' (adr n)); [rewrite addrs_cons, map_app; apply in_or_app; left; apply in_or_app; right; left; reflexivity|exact Ha]. }
      cbn [s0 with_heap b_heap]. rewrite S1, S2, S3, S4. eexists. eexists. split; [reflexivity|]. cbn beta iota. exists (B4 :: T'). cbn [s0 with_heap b_heap b_node b_height]. split.
      { apply (born_sub al s0); [exact Bo'| |cbn; lia]. cbn [s0 with_heap b_heap]. intros a. destruct (Z.eq_dec a (adr n)) as [->|N]; [intros _; apply (cells_some K _ _ _ Cl)|rewrite (On4 a N); auto]. }
      split. { intros a Ha. rewrite On4; [apply SM, Ha|]. intros ->. apply (O2' (adr n)); [rewrite addrs_cons, map_app; apply in_or_app; left; apply in_or_app; right; left; reflexivity|exact Ha]. }
      split; [exact Ow4|]. split; [rewrite zlen_cons; unfold zlen in *; lia|]. left. split; [reflexivity|]. split; [exact W4|]. split; [exact J4|]. cbn [upper top hd]. apply (added_eq (B1 ++ n :: B2)); assumption.
Qed.
Lemma loop_ok : forall rec B T s level key k v sz X, (full_for B k -> forall T', length T' = length T -> spec rec T') -> pre s (B :: T) [] level key k v sz X ->
  exists s' code, insert_loop K al clash 2 rec s level key v = Some (s', code) /\ outcome (full_for B k) s (B :: T) [] level k v sz X s' code.
Proof.
  intros rec B T s level key k v sz X SP PR. cbn [insert_loop]. destruct (round_ok rec B T s level key k v sz X SP PR) as (s1 & r & E & Res). rewrite E. destruct r as [code|].
  - exists s1, code. split; [reflexivity|]. destruct Res as (T' & Q1 & Q2 & Q3 & Q4 & [Q5|(Q5 & [(Q6 & Q7 & Q8 & Q9)|Q6])]); exists T'; (split; [exact Q1|]); (split; [exact Q2|]); (split; [exact Q3|]); (split; [exact Q4|]); [left; exact Q5|right; split; [exact Q5|left; auto]|right; split; [exact Q5|right; exact Q6]].
  - destruct Res as (FF & B' & T' & W & J' & Ow & Bo & SM & Hh & EF & EK & AB & NF). destruct PR as (Hl & _ & _ & _ & _ & Hk & Hv & Hs & De).
    destruct (round_ok rec B' T' s1 level key k v sz X (fun FF' => False_ind _ (NF FF'))) as (s2 & r & E2 & Res).
    { split; [exact Hl|]. split; [rewrite zlen_cons; lia|]. split; [split; assumption|]. split; [exact Ow|]. split; [exact Bo|]. split; [exact Hk|]. split; [exact Hv|]. split; [exact Hs|]. intros h' Sm. apply De. apply (same_trans _ _ _ _ SM Sm). }
    rewrite E2. destruct r as [code|]; [|destruct Res as (FF' & _); contradiction]. exists s2, code. split; [reflexivity|]. destruct Res as (T2 & Q1 & Q2 & Q3 & Q4 & [(Q5 & Q6 & Q7 & Q8)|(_ & [(_ & _ & Q8 & _)|(old & Q6 & _)])]).
    + exists T2. split; [exact Q1|]. split; [apply (same_trans _ _ _ _ SM Q2)|]. split; [exact Q3|]. split; [exact Q4|]. left. split; [exact Q5|]. split; [exact Q6|]. split; [exact Q7|]. cbn [upper] in *. apply (added_eq B'); assumption.
    + contradiction.
    + exfalso. cbn [top hd] in Q6. rewrite EF in Q6. rewrite Forall_forall in AB. apply (AB _ Q6). reflexivity.
Qed.

Lemma full_small : forall n k, zlen (ent n) < K -> ~ full_for [n] k.
Proof. intros n k L (B3 & m & LW & _ & I & _ & G). inversion LW as [|? n' ? R (Q1 & Q2 & Q3 & Q4) L']; subst. inversion L'; subst. destruct I as [<-|[]]. rewrite Q3 in G. lia. Qed.
Lemma extend_ok : forall s base k sz X, base_ok (b_heap s) (b_node s) X sz k base -> owned (b_heap s) [] X -> born al s ->
  (exists s', btree_extend K al s = Some (s', - ENOMEM) /\ may_fail al /\ b_heap s' = b_heap s /\ b_node s' = b_node s /\ b_height s' = b_height s /\ born al s') \/
  (exists s' a, btree_extend K al s = Some (s', 0) /\ b_height s' = b_height s + 1 /\ born al s' /\ same_on X (b_heap s) (b_heap s') /\
     let n := {| adr := a; lo := 0; up := 2 ^ 64; ent := base |} in zlen base < K /\ tower (b_heap s') (b_node s') [[n]] /\ Forall (Jn sz) [n] /\ owned (b_heap s') [[n]] X).
Proof.
  intros s base k sz X BA (O1 & O2 & O3) Bo. unfold btree_extend. destruct (alloc_ok K HK al s AL Bo) as [(s1 & E1 & MF & Eh & En & Ehh & Bo1)|(s1 & newn & E1 & Pn & Fr & Cnew & On1 & En & Ehh & Bo1)]; rewrite E1.
  - left. unfold NULL. cbn [Z.eqb]. exists s1. auto 10.
  - right. destruct (Z.eqb_spec newn NULL) as [N|_]; [unfold NULL in N; lia|]. assert (NX : ~ In newn X) by (intros I; apply (proj2 (O3 newn)); [right; exact I|exact Fr]).
    assert (CO : exists h, (if b_node s1 =? NULL then Some (b_heap s1) else let* index := fill_index K (b_heap s1) (b_node s1) 0 in let* k := get_key (b_heap s1) (b_node s1) (w32 (index - 1)) in let* h := set_key (b_heap s1) newn 0 k in set_value K h newn 0 (b_node s1)) = Some h /\
      cells h newn (slot base) /\ only (b_heap s1) h newn /\ ok_ent K 0 (2 ^ 64) base /\ zlen base < K /\ J H (map (fun e => sz (snd e)) base)).
    { rewrite En. destruct BA as [[-> ->]|(c & es & -> & -> & Ic & Pc & Cc & Ne & Oc & Sc & Kc)].
      - unfold NULL. cbn [Z.eqb]. eexists. split; [reflexivity|]. split; [exact Cnew|]. split; [apply only_refl|]. split; [split; [rewrite zlen_nil; lia|repeat split; try lia; constructor]|]. split; [rewrite zlen_nil; lia|]. apply J_big; [apply HH|constructor].
      - destruct (Z.eqb_spec c NULL) as [N|_]; [unfold NULL in N; lia|]. destruct Oc as (Ln & _ & _ & Dn & Gn & Vn). assert (Cc1 : cells (b_heap s1) c (slot es)) by (apply (cells_frame K (b_heap s)); [apply On1; intros ->; contradiction|exact Cc]).
        rewrite (fill_ok K HK' (b_heap s1) c es 0 Cc1 Vn Ln) by (pose proof (zlen_nonneg _ es); lia). destruct es as [|[sk sv] ei _] using rev_ind; [congruence|]. rewrite bot_app in *. cbn [bot fst] in *. rewrite zlen_app, zlen_cons, zlen_nil in *. pose proof (zlen_nonneg _ ei). replace (zlen ei + (0 + 1) - 1) with (zlen ei) by lia. rewrite w32_small by (unfold u32; lia).
        rewrite (get_key_ok K HK' _ _ _ _ Cc1) by lia. rewrite slot_mid. cbn [fst]. destruct (set_both K HK' (b_heap s1) newn _ 0 sk c Cnew ltac:(lia)) as (h1 & h2 & S1 & S2 & C2 & O2' & _). rewrite S1, S2. eexists. split; [reflexivity|]. split; [|split; [exact O2'|]].
        + refine (cells_ext K _ _ _ _ _ C2). intros i Hi. unfold fput. destruct (Z.eqb_spec i 0) as [->|Ni]; [rewrite slot_0; reflexivity|]. rewrite !slot_over; rewrite ?zlen_cons, ?zlen_nil; try lia. reflexivity.
        + apply Forall_app in Gn. destruct Gn as [_ Gn]. apply Forall_cons_iff in Gn. destruct Gn as [Gn _]. cbn [fst] in Gn. rewrite desc_app in Dn. destruct Dn as [Dn1 Dn2]. cbn [desc fst] in Dn2. destruct Dn2 as [Dn2 _]. pose proof (bot_le _ _ Dn1). split; [|split; [rewrite zlen_cons, zlen_nil; lia|]].
          * split; [rewrite zlen_cons, zlen_nil; lia|]. split; [lia|]. split; [lia|]. cbn [desc fst]. split; [split; [lia|exact I]|]. split; (constructor; [cbn [fst snd]; lia|constructor]).
          * apply J_big; [apply HH|]. constructor; [exact Sc|constructor]. }
    destruct CO as (h & E & Cb & Oh & Ob & Lb & Jb). rewrite E. eexists. exists newn. split; [reflexivity|]. cbn [b_heap b_node b_height]. split; [lia|]. split.
    { apply (born_sub al s1); [exact Bo1| |cbn; lia]. cbn [b_heap]. intros a. destruct (Z.eq_dec a newn) as [->|N]; [intros _; apply (cells_some K _ _ _ Cnew)|rewrite (Oh a N); auto]. }
    split. { intros a Ha. rewrite Oh by (intros ->; contradiction). apply On1. intros ->. contradiction. }
    cbv zeta. split; [exact Lb|]. split; [|split].
    + split; [constructor; [|constructor]|eexists; split; [reflexivity|]; auto]. split; [exact Pn|]. split; [exact Cb|exact Ob].
    + constructor; [exact Jb|constructor].
    + split; [constructor; [intros []|constructor]|]. split; [intros a [<-|[]]; exact NX|]. intros a. cbn [addrs concat map app In adr]. destruct (Z.eq_dec a newn) as [->|N]; [split; [auto|intros _; apply (cells_some K _ _ _ Cb)]|]. rewrite (Oh a N), (On1 a N), O3. cbn [addrs concat map In]. clear - N. split; [tauto|]. intros [[I|[]]|I]; [congruence|auto].
Qed.
Lemma insert_ok : forall fuel T, (length T < fuel)%nat -> spec (insert_level K al clash fuel) T.
Proof.
  induction fuel as [|fuel IH]; intros T LT; [lia|]. intros base s level key k v sz X PR. cbn [insert_level]. pose proof PR as (Hl & Hh & ST & Ow & Bo & Hk & Hv & Hs & De). destruct T as [|B T].
  - rewrite zlen_nil in Hh. destruct (Z.ltb_spec (b_height s) level) as [_|G]; [|lia]. destruct (extend_ok s base k sz X ST Ow Bo) as [(s1 & E & MF & E1 & E2 & E3 & Bo1)|(s1 & a & E & E3 & Bo1 & Sm & Lb & W & Jb & Ow1)]; rewrite E.
    + change (- ENOMEM =? 0) with false. cbn [negb]. exists s1, (- ENOMEM). split; [reflexivity|]. exists []. split; [exact Bo1|]. rewrite E1. split; [apply same_refl|]. split; [exact Ow|]. split; [rewrite zlen_nil; lia|]. right. split; [split; [reflexivity|exact E2]|]. left. split; [reflexivity|]. split; [exact MF|]. split; [exact I|].
      cbn [upper virt FE flat_map ent app]. rewrite app_nil_r. destruct ST as [[-> _]|(c & es & -> & _ & _ & _ & _ & _ & _ & _ & Kc)]; [constructor|]. constructor; [cbn [fst]; lia|constructor].
    + cbn [negb Z.eqb]. set (n := {| adr := a; lo := 0; up := 2 ^ 64; ent := base |}) in *. destruct (loop_ok (insert_level K al clash fuel) [n] [] s1 level key k v sz X) as (s' & code & R & T' & Q1 & Q2 & Q3 & Q4 & Q5).
      * intros FF. exfalso. apply (full_small n k); [exact Lb|exact FF].
      * split; [exact Hl|]. split; [rewrite zlen_cons, zlen_nil; lia|]. split; [split; assumption|]. split; [exact Ow1|]. split; [exact Bo1|]. split; [exact Hk|]. split; [exact Hv|]. split; [exact Hs|]. intros h' Sm'. apply De. apply (same_trans _ _ _ _ Sm Sm').
      * exists s', code. split; [exact R|]. exists T'. split; [exact Q1|]. split; [apply (same_trans _ _ _ _ Sm Q2)|]. split; [exact Q3|]. split; [exact Q4|].
        destruct Q5 as [(C0 & Q6 & Q7 & Q8)|(_ & [(_ & _ & FF & _)|(old & IO & _)])]; [left; split; [exact C0|]; split; [exact Q6|]; split; [exact Q7|]; apply (added_eq [n]); [reflexivity|reflexivity|exact Q8]| |].
        -- exfalso. apply (full_small n k); [exact Lb|exact FF].
        -- exfalso. cbn [top hd FE flat_map n ent app] in IO. rewrite app_nil_r in IO. destruct ST as [[-> _]|(c & es & -> & _ & _ & _ & _ & _ & _ & _ & Kc)]; [destruct IO|]. destruct IO as [IO|[]]. apply (f_equal fst) in IO. cbn [fst] in IO. lia.
  - rewrite zlen_cons in Hh. pose proof (zlen_nonneg _ T). destruct (Z.ltb_spec (b_height s) level) as [G|_]; [lia|]. cbn [negb Z.eqb].
    destruct (loop_ok (insert_level K al clash fuel) B T s level key k v sz X) as (s' & code & R & OC); [intros _ T' EL; apply IH; cbn [length] in LT; lia|exact PR|]. exists s', code. split; [exact R|].
    destruct OC as (T' & Q1 & Q2 & Q3 & Q4 & [Q5|(Q5 & [(Q6 & Q7 & Q8 & Q9)|Q6])]); exists T'; (split; [exact Q1|]); (split; [exact Q2|]); (split; [exact Q3|]); (split; [exact Q4|]); [left; exact Q5|right; split; [exact Q5|left; auto]|right; split; [exact Q5|right; exact Q6]].
Qed.
End Insert.
