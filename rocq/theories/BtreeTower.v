(** * B+tree proofs: the levels of a tree *)
From Verif Require Import Lib BtreeModel BtreeCells BtreeFill.
Ltac Zify.zify_post_hook ::= Z.div_mod_to_equations.

(** A node with the interval of keys it is responsible for, and its entries (key, value) *)
Record node := { adr : Z; lo : Z; up : Z; ent : list (Z * Z) }.
Definition head (n : node) : Z * Z * Z := (adr n, lo n, up n).
Definition kad (x : Z * Z * Z) : Z := fst (fst x).
Definition klo (x : Z * Z * Z) : Z := snd (fst x).
Definition kup (x : Z * Z * Z) : Z := snd x.
(** keys descend strictly below [b] *)
Fixpoint desc (b : Z) (es : list (Z * Z)) : Prop := match es with [] => True | e :: r => fst e < b /\ desc (fst e) r end.
Fixpoint bot (b : Z) (es : list (Z * Z)) : Z := match es with [] => b | e :: r => bot (fst e) r end.
(** the values with their intervals *)
Fixpoint kids (b : Z) (es : list (Z * Z)) : list (Z * Z * Z) := match es with [] => [] | e :: r => (snd e, fst e, b) :: kids (fst e) r end.
Definition KL (U : list node) : list (Z * Z * Z) := flat_map (fun u => kids (up u) (ent u)) U.
Definition FE (B : list node) : list (Z * Z) := flat_map ent B.
Definition addrs (T : list (list node)) : list Z := map adr (concat T).

Lemma bot_app : forall e1 e2 b, bot b (e1 ++ e2) = bot (bot b e1) e2.
Proof. induction e1 as [|e r IH]; intros e2 b; cbn [bot app]; auto. Qed.
Lemma kids_app : forall e1 e2 b, kids b (e1 ++ e2) = kids b e1 ++ kids (bot b e1) e2.
Proof. induction e1 as [|e r IH]; intros e2 b; cbn [bot app kids]; [reflexivity|]. rewrite IH. reflexivity. Qed.
Lemma kids_length : forall es b, length (kids b es) = length es.
Proof. induction es as [|e r IH]; intros b; cbn [kids length]; auto. Qed.
Lemma KL_app : forall A B, KL (A ++ B) = KL A ++ KL B.
Proof. intros. apply flat_map_app. Qed.
Lemma KL_cons : forall n B, KL (n :: B) = kids (up n) (ent n) ++ KL B.
Proof. reflexivity. Qed.
Lemma FE_app : forall A B, FE (A ++ B) = FE A ++ FE B.
Proof. intros. apply flat_map_app. Qed.
Lemma KL_length : forall B, length (KL B) = length (FE B).
Proof. induction B as [|n B IH]; [reflexivity|]. cbn [KL FE flat_map]. rewrite !app_length, kids_length. f_equal. exact IH. Qed.
Lemma desc_mono : forall es b b', b <= b' -> desc b es -> desc b' es.
Proof. intros [|e r] b b' L D; cbn [desc] in *; [exact I|]. destruct D. split; [lia|assumption]. Qed.
Lemma desc_app : forall e1 e2 b, desc b (e1 ++ e2) <-> desc b e1 /\ desc (bot b e1) e2.
Proof. induction e1 as [|e r IH]; intros e2 b; cbn [bot app desc]; [tauto|]. rewrite IH. tauto. Qed.
Lemma desc_below : forall es b, desc b es -> Forall (fun e => fst e < b) es.
Proof.
  induction es as [|e r IH]; intros b D; [constructor|]. destruct D as [D1 D2]. constructor; [exact D1|]. eapply Forall_impl; [|apply (IH _ D2)]. cbn beta. intros; lia.
Qed.
Lemma bot_le : forall es b, desc b es -> bot b es <= b.
Proof. induction es as [|e r IH]; intros b D; cbn [bot]; [lia|]. destruct D as [D1 D2]. specialize (IH _ D2). lia. Qed.
Lemma bot_gt : forall es b k, k < b -> Forall (fun e => k < fst e) es -> k < bot b es.
Proof. induction es as [|e r IH]; intros b k L F; cbn [bot]; [exact L|]. inversion F; subst. apply IH; assumption. Qed.
Lemma bot_ge : forall es b k, k <= b -> Forall (fun e => k <= fst e) es -> k <= bot b es.
Proof. induction es as [|e r IH]; intros b k L F; cbn [bot]; [exact L|]. inversion F; subst. apply IH; assumption. Qed.
Lemma desc_find : forall es b k, desc b es -> exists e1 e2, es = e1 ++ e2 /\ Forall (fun e => k < fst e) e1 /\ (forall x r, e2 = x :: r -> fst x <= k) /\ Forall (fun e => fst e <= k) e2.
Proof.
  induction es as [|e r IH]; intros b k D.
  - exists [], []. split; [reflexivity|]. split; [constructor|]. split; [discriminate|constructor].
  - destruct D as [D1 D2]. destruct (Z_le_dec (fst e) k) as [L|L].
    + exists [], (e :: r). split; [reflexivity|]. split; [constructor|]. split; [intros x q [= <- <-]; exact L|]. constructor; [exact L|]. eapply Forall_impl; [|apply (desc_below _ _ D2)]. cbn beta. intros; lia.
    + destruct (IH _ k D2) as (e1 & e2 & -> & F & G & G'). exists (e :: e1), e2. split; [reflexivity|]. split; [constructor; [lia|exact F]|]. split; assumption.
Qed.

(** intervals from the greatest to the least, disjoint *)
Fixpoint chain (b : Z) (L : list (Z * Z * Z)) : Prop := match L with [] => True | x :: r => klo x < kup x /\ kup x <= b /\ chain (klo x) r end.
Lemma chain_mono : forall L b b', b <= b' -> chain b L -> chain b' L.
Proof. intros [|x r] b b' Hb C; cbn [chain] in *; [exact I|]. destruct C as (C1 & C2 & C3). split; [exact C1|]. split; [lia|exact C3]. Qed.
Lemma chain_all : forall L b, chain b L -> Forall (fun y => kup y <= b) L.
Proof.
  induction L as [|x r IH]; intros b C; [constructor|]. destruct C as (C1 & C2 & C3). constructor; [exact C2|]. eapply Forall_impl; [|apply (IH _ C3)]. cbn beta. intros; lia.
Qed.
Lemma chain_mid : forall A x Z b, chain b (A ++ x :: Z) -> klo x < kup x /\ kup x <= b /\ Forall (fun y => kup x <= klo y) A /\ Forall (fun y => kup y <= klo x) Z.
Proof.
  induction A as [|y A IH]; intros x Z b C; cbn [app chain] in C; destruct C as (C1 & C2 & C3).
  - split; [exact C1|]. split; [exact C2|]. split; [constructor|]. apply chain_all, C3.
  - destruct (IH _ _ _ C3) as (I1 & I2 & I3 & I4). split; [exact I1|]. split; [lia|]. split; [constructor; [lia|exact I3]|exact I4].
Qed.
Lemma chain_kids : forall es t b l Z, desc t es -> Forall (fun e => l <= fst e) es -> l <= t -> t <= b -> chain l Z -> chain b (kids t es ++ Z).
Proof.
  induction es as [|e r IH]; intros t b l Z D F L1 L2 C; cbn [kids app].
  - apply (chain_mono _ l); [lia|exact C].
  - destruct D as [D1 D2]. inversion F; subst. cbn [chain klo kup fst snd]. split; [exact D1|]. split; [exact L2|]. apply (IH _ _ l); try assumption; lia.
Qed.
Lemma desc_glue : forall es t b l Z, desc t es -> Forall (fun e => l <= fst e) es -> l <= t -> t <= b -> desc l Z -> desc b (es ++ Z).
Proof.
  induction es as [|e r IH]; intros t b l Z D F L1 L2 C; cbn [app].
  - apply (desc_mono _ l); [lia|exact C].
  - destruct D as [D1 D2]. inversion F; subst. cbn [desc]. split; [lia|]. apply (IH (fst e) (fst e) l); try assumption; lia.
Qed.
Lemma split_unique : forall X (P : X -> Prop) A x Z A' x' Z', A ++ x :: Z = A' ++ x' :: Z' -> P x -> P x' -> Forall (fun y => ~ P y) A -> Forall (fun y => ~ P y) A' -> A = A' /\ x = x' /\ Z = Z'.
Proof.
  intros X P. induction A as [|y A IH]; intros x Z A' x' Z' E Px Px' F F'; destruct A' as [|y' A']; cbn [app] in E.
  - injection E as <- <-. auto.
  - injection E as -> ->. inversion F'; contradiction.
  - injection E as <- <-. inversion F; contradiction.
  - injection E as <- E. inversion F; inversion F'; subst. destruct (IH _ _ _ _ _ E) as (-> & -> & ->); auto.
Qed.
Definition inside (k : Z) (x : Z * Z * Z) : Prop := klo x <= k < kup x.
Lemma chain_unique : forall b k A x Z A' x' Z', chain b (A ++ x :: Z) -> A ++ x :: Z = A' ++ x' :: Z' -> inside k x -> inside k x' -> A = A' /\ x = x' /\ Z = Z'.
Proof.
  intros b k A x Z A' x' Z' C E Ix Ix'. pose proof (chain_mid _ _ _ _ C) as (_ & _ & F & _). rewrite E in C. pose proof (chain_mid _ _ _ _ C) as (_ & _ & F' & _).
  apply (split_unique _ (inside k)); try assumption; (eapply Forall_impl; [|eassumption]); unfold inside in *; cbn beta; intros; lia.
Qed.

Definition lowered (B B' : list node) : Prop := Forall2 (fun n n' => adr n' = adr n /\ up n' = up n /\ ent n' = ent n /\ lo n' <= lo n) B B'.
Lemma lowered_refl : forall B, lowered B B.
Proof. induction B; constructor; auto. repeat split; lia. Qed.
Lemma lowered_trans : forall A B C, lowered A B -> lowered B C -> lowered A C.
Proof.
  intros A B C L. revert C. induction L as [|x y A B (E1 & E2 & E3 & E4) L IH]; intros C M; inversion M as [|? z ? C' (F1 & F2 & F3 & F4) M']; subst; constructor; [|apply IH, M']. repeat split; try congruence; lia.
Qed.
Lemma lowered_KL : forall B B', lowered B B' -> KL B' = KL B.
Proof. induction 1 as [|n n' B B' (E1 & E2 & E3 & _) L IH]; [reflexivity|]. rewrite !KL_cons, E2, E3, IH. reflexivity. Qed.
Lemma lowered_FE : forall B B', lowered B B' -> FE B' = FE B.
Proof. induction 1 as [|n n' B B' (E1 & E2 & E3 & _) L IH]; [reflexivity|]. cbn [FE flat_map]. rewrite E3. f_equal. exact IH. Qed.
Lemma lowered_adr : forall B B', lowered B B' -> map adr B' = map adr B.
Proof. induction 1 as [|n n' B B' (E1 & E2 & E3 & _) L IH]; [reflexivity|]. cbn [map]. rewrite E1. f_equal. exact IH. Qed.
Lemma lowered_forall : forall (P : list (Z * Z) -> Prop) B B', lowered B B' -> Forall (fun n => P (ent n)) B -> Forall (fun n => P (ent n)) B'.
Proof. intros P B B' L. induction L as [|n n' B B' (E1 & E2 & E3 & _) L IH]; intros F; [constructor|]. inversion F; subst. constructor; [rewrite E3; assumption|auto]. Qed.
Lemma lowered_length : forall B B', lowered B B' -> length B' = length B.
Proof. induction 1; cbn [length]; auto. Qed.

Section Tower.
Variable K H : Z.
Hypothesis KH : K - 2 * H = 0.
Hypothesis HK : 4 <= K < 2 ^ 31.
Lemma HK2 : 2 <= K < 2 ^ 31.
Proof. lia. Qed.
Lemma H2 : 2 <= H.
Proof. lia. Qed.

Definition ok_ent (l u : Z) (es : list (Z * Z)) : Prop := zlen es <= K /\ 0 <= l /\ u <= 2 ^ 64 /\ desc u es /\ Forall (fun e => l <= fst e) es /\ Forall (fun e => snd e <> 0) es.
Definition node_ok (h : heap) (n : node) : Prop := 0 < adr n /\ cells K h (adr n) (slot (ent n)) /\ ok_ent (lo n) (up n) (ent n).
Definition Jn (sz : Z -> Z) (n : node) : Prop := J H (map (fun e => sz (snd e)) (ent n)).
Fixpoint tower (h : heap) (r : Z) (T : list (list node)) : Prop :=
  match T with
  | [] => False
  | B :: T' =>
    Forall (node_ok h) B /\
    match T' with
    | [] => exists n, B = [n] /\ adr n = r /\ lo n = 0 /\ up n = 2 ^ 64
    | U :: _ =>
      Forall (fun n => ent n <> []) B /\ KL U = map head B /\ (2 <= length B)%nat /\
      (exists sz, (forall n, In n B -> sz (adr n) = zlen (ent n)) /\ Forall (Jn sz) U) /\ tower h r T'
    end
  end.

Lemma lowered_Jn : forall sz B B', lowered B B' -> Forall (Jn sz) B -> Forall (Jn sz) B'.
Proof. intros sz B B' L. apply (lowered_forall (fun es => J H (map (fun e => sz (snd e)) es)) _ _ L). Qed.
Lemma node_frame : forall h h' n, h' (adr n) = h (adr n) -> node_ok h n -> node_ok h' n.
Proof. intros h h' n E (P & C & O). split; [exact P|]. split; [|exact O]. apply (cells_frame K h); assumption. Qed.
Lemma addrs_cons : forall B T, addrs (B :: T) = map adr B ++ addrs T.
Proof. intros. unfold addrs. cbn [concat]. apply map_app. Qed.
Lemma tower_frame : forall T h h' r, (forall a, In a (addrs T) -> h' a = h a) -> tower h r T -> tower h' r T.
Proof.
  induction T as [|B T IH]; intros h h' r E W; [exact W|]. rewrite addrs_cons in E. destruct W as [F W]. split.
  - rewrite Forall_forall in *. intros n Hn. apply (node_frame h); [|apply F, Hn]. apply E, in_or_app. left. apply in_map, Hn.
  - destruct T as [|U T]; [exact W|]. destruct W as (W1 & W2 & W3 & W4 & W5). repeat (split; [assumption|]). apply (IH h); [|exact W5]. intros a Ha. apply E, in_or_app. right. exact Ha.
Qed.
Lemma tower_some : forall T h r a, tower h r T -> In a (addrs T) -> h a <> None /\ 0 < a.
Proof.
  induction T as [|B T IH]; intros h r a W I; [contradiction|]. rewrite addrs_cons in I. destruct W as [F W]. apply in_app_or in I. destruct I as [I|I].
  - apply in_map_iff in I. destruct I as (n & <- & Hn). rewrite Forall_forall in F. destruct (F n Hn) as (P & C & _). split; [apply (cells_some K h _ _ C)|exact P].
  - destruct T as [|U T]; [contradiction|]. destruct W as (_ & _ & _ & _ & W5). apply (IH h r a W5 I).
Qed.
Lemma chain_KL : forall h U b, Forall (node_ok h) U -> chain b (map head U) -> chain b (KL U).
Proof.
  intros h. induction U as [|u U IH]; intros b F C; [exact I|]. inversion F as [|? ? N F']; subst. destruct N as (_ & _ & _ & _ & _ & D & G & _). cbn [map chain] in C. destruct C as (C1 & C2 & C3). unfold klo, kup, head in *. cbn [fst snd] in *.
  rewrite KL_cons. apply (chain_kids _ _ _ (lo u)); try assumption; try lia. apply IH; assumption.
Qed.
Lemma desc_FE : forall h U b, Forall (node_ok h) U -> chain b (map head U) -> desc b (FE U).
Proof.
  intros h. induction U as [|u U IH]; intros b F C; [exact I|]. inversion F as [|? ? N F']; subst. destruct N as (_ & _ & _ & _ & _ & D & G & _). cbn [map chain] in C. destruct C as (C1 & C2 & C3). unfold klo, kup, head in *. cbn [fst snd] in *.
  cbn [FE flat_map]. apply (desc_glue _ (up u) _ (lo u)); try assumption; try lia. apply IH; assumption.
Qed.
Lemma tower_chain : forall T B h r, tower h r (B :: T) -> chain (2 ^ 64) (map head B).
Proof.
  induction T as [|U T IH]; intros B h r [F W].
  - destruct W as (n & -> & E1 & E2 & E3). cbn [map chain]. unfold klo, kup, head. cbn [fst snd]. lia.
  - destruct W as (W1 & W2 & W3 & W4 & W5). rewrite <- W2. apply (chain_KL h); [apply W5|apply (IH _ _ _ W5)].
Qed.
Lemma tower_desc : forall T B h r, tower h r (B :: T) -> desc (2 ^ 64) (FE B).
Proof. intros T B h r W. apply (desc_FE h); [apply W|apply (tower_chain _ _ _ _ W)]. Qed.
Lemma bottom_nonempty : forall T B U h r, tower h r (B :: U :: T) -> Forall (fun n => ent n <> []) U.
Proof.
  intros T B U h r W. destruct W as (_ & _ & W2 & W3 & _ & W5). destruct T as [|V T].
  - destruct W5 as [_ (n & -> & _)]. constructor; [|constructor]. intros E. apply (f_equal (@length _)) in W2. rewrite map_length, KL_length in W2. cbn [FE flat_map] in W2. rewrite E in W2. cbn in W2. lia.
  - apply W5.
Qed.
(** two nodes at least in every level but the uppermost *)
Lemma below_two : forall T B U h r, tower h r (B :: U :: T) -> (2 <= length (FE U))%nat.
Proof. intros T B U h r W. destruct W as (_ & _ & W2 & W3 & _ & W5). apply (f_equal (@length _)) in W2. rewrite map_length, KL_length in W2. lia. Qed.

Lemma Jn_mono : forall sz sz' n, (forall e, In e (ent n) -> sz (snd e) <= sz' (snd e) \/ H <= sz' (snd e)) -> Jn sz n -> Jn sz' n.
Proof.
  intros sz sz' n G. unfold Jn. apply J_mono; [exact H2|]. revert G. induction (ent n) as [|e r IH]; intros G; cbn [map]; constructor; [apply G; left; reflexivity|]. apply IH. intros x Hx. apply G. right. exact Hx.
Qed.
(** another node in the place of [u]: for the levels above only its address, its bounds and its size count *)
Lemma grow_bottom : forall T U1 u u' U2 h h' r, tower h r ((U1 ++ u :: U2) :: T) -> NoDup (addrs ((U1 ++ u :: U2) :: T)) -> only h h' (adr u) -> node_ok h' u' -> head u' = head u -> zlen (ent u) <= zlen (ent u') \/ H <= zlen (ent u') ->
  tower h' r ((U1 ++ u' :: U2) :: T).
Proof.
  intros T U1 u u' U2 h h' r [F W] ND O N EH EL. rewrite addrs_cons, map_app in ND. cbn [map] in ND. rewrite <- app_assoc in ND. cbn [app] in ND. pose proof (NoDup_remove_2 _ _ _ ND) as NI.
  injection EH as Ea El Eu. assert (NE : ent u <> [] -> ent u' <> []) by (intros A B; rewrite B in EL; destruct (ent u); [contradiction|rewrite zlen_nil, zlen_cons in EL; pose proof (zlen_nonneg _ l); lia]). split.
  - rewrite Forall_app in *. destruct F as [F1 F2]. inversion F2 as [|? ? _ F3]; subst. split; [|constructor; [exact N|]]; rewrite Forall_forall in *; intros x Hx; apply (node_frame h); auto; apply O; intros E; apply NI; rewrite <- E; apply in_or_app; [left|right; apply in_or_app; left]; apply in_map, Hx.
  - destruct T as [|V T].
    + destruct W as (n & E & W). destruct U1 as [|x U1]; [|apply (f_equal (@length _)) in E; rewrite app_length in E; cbn in E; lia]. injection E as -> ->. exists u'. split; [reflexivity|]. destruct W as (W1 & W2 & W3). repeat split; congruence.
    + destruct W as (W1 & W2 & W3 & (sz & W4 & W4') & W5). split; [|split; [|split; [|split]]].
      * rewrite Forall_app in *. destruct W1 as [F1 F2]. inversion F2; subst. split; [exact F1|]. constructor; [auto|assumption].
      * rewrite W2, !map_app. cbn [map]. unfold head. rewrite Ea, El, Eu. reflexivity.
      * rewrite app_length in *. cbn [length] in *. exact W3.
      * exists (fun a => if a =? adr u then zlen (ent u') else sz a). split.
        -- intros n Hn. apply in_app_or in Hn. destruct Hn as [Hn|[<-|Hn]].
           ++ destruct (Z.eqb_spec (adr n) (adr u)) as [E|_]; [|apply W4, in_or_app; left; exact Hn]. exfalso. apply NI. rewrite <- E. apply in_or_app. left. apply in_map, Hn.
           ++ rewrite Ea, Z.eqb_refl. reflexivity.
           ++ destruct (Z.eqb_spec (adr n) (adr u)) as [E|_]; [|apply W4, in_or_app; right; right; exact Hn]. exfalso. apply NI. rewrite <- E. apply in_or_app. right. apply in_or_app. left. apply in_map, Hn.
        -- eapply Forall_impl; [|exact W4']. intros x. apply Jn_mono. intros e _. destruct (Z.eqb_spec (snd e) (adr u)) as [E|_]; [|left; lia]. rewrite E, (W4 u) by (apply in_or_app; right; left; reflexivity). exact EL.
      * apply (tower_frame _ h); [|exact W5]. intros a Ha. apply O. intros E. apply NI. rewrite <- E. apply in_or_app. right. apply in_or_app. right. exact Ha.
Qed.
Lemma swap_bottom : forall T U1 u u' U2 h h' r, tower h r ((U1 ++ u :: U2) :: T) -> NoDup (addrs ((U1 ++ u :: U2) :: T)) -> only h h' (adr u) -> node_ok h' u' -> head u' = head u -> zlen (ent u') = zlen (ent u) ->
  tower h' r ((U1 ++ u' :: U2) :: T).
Proof. intros. eapply grow_bottom; try eassumption. left. lia. Qed.

(** ** Down the tree *)
Lemma down_snoc : forall n h r key, down K (S n) h r key = match down K n h r key with Some (h1, a) => step_down K h1 a key | None => None end.
Proof.
  induction n as [|n IH]; intros h r key.
  - cbn [down]. destruct (step_down K h r key) as [[h1 a]|]; reflexivity.
  - change (down K (S (S n)) h r key) with (match step_down K h r key with Some (h1, a) => down K (S n) h1 a key | None => None end). change (down K (S n) h r key) with (match step_down K h r key with Some (h1, a) => down K n h1 a key | None => None end).
    destruct (step_down K h r key) as [[h1 a]|]; [apply IH|reflexivity].
Qed.
Lemma slot_fput : forall e1 x y e2 i, 0 <= i -> fput (slot (e1 ++ x :: e2)) (zlen e1) y i = slot (e1 ++ y :: e2) i.
Proof.
  intros e1 x y e2 i Hi. unfold fput. destruct (Z.eqb_spec i (zlen e1)) as [->|N]; [rewrite slot_mid; reflexivity|]. destruct (Z_lt_dec i (zlen e1)); [rewrite !slot_app_l by lia; reflexivity|].
  rewrite !slot_app_r by lia. rewrite !slot_S by lia. reflexivity.
Qed.
Lemma step_ok : forall h u key k, node_ok h u -> ent u <> [] -> lo u <= k < up u -> deref h key = Some k ->
  (exists e1 s c e2, ent u = e1 ++ (s, c) :: e2 /\ Forall (fun e => k < fst e) e1 /\ s <= k /\ step_down K h (adr u) key = Some (h, c)) \/
  (exists e1 s c h', ent u = e1 ++ [(s, c)] /\ Forall (fun e => k < fst e) e1 /\ k < s /\
     step_down K h (adr u) key = Some (h', c) /\ cells K h' (adr u) (slot (e1 ++ [(k, c)])) /\ only h h' (adr u)).
Proof.
  intros h u key k (P & C & L & L0 & LU & D & G & V) N Hk De. destruct (desc_find _ _ k D) as (e1 & e2 & E & F1 & F2 & _). unfold step_down. pose proof (zlen_nonneg _ e1) as N1.
  rewrite E in C, L. rewrite (find_ok K HK2 h (adr u) e1 e2 key k C De L ltac:(lia) F1 F2). rewrite zlen_app in L. destruct e2 as [|[s c] e2].
  - right. rewrite app_nil_r in *. assert (exists e0 s c, e1 = e0 ++ [(s, c)]) as (e0 & s & c & ->). { destruct e1 as [|[s c] e0] using rev_ind; [congruence|]. exists e0, s, c. reflexivity. }
    rewrite zlen_app, zlen_cons, zlen_nil in *. pose proof (zlen_nonneg _ e0) as N0. apply Forall_app in F1. destruct F1 as [F0 F1]. inversion F1 as [|? ? F1' _]; subst. cbn [fst] in F1'.
    assert (EL : (if zlen e0 + (0 + 1) =? K then Some true else match get_value K h (adr u) (zlen e0 + (0 + 1)) with Some v => Some (v =? NULL) | None => None end) = Some true).
    { destruct (Z.eqb_spec (zlen e0 + (0 + 1)) K); [reflexivity|]. rewrite (get_value_ok K HK2 h (adr u) _ _ C) by lia. rewrite slot_over by (rewrite zlen_app, zlen_cons, zlen_nil; lia). reflexivity. }
    rewrite EL. clear EL. rewrite De. rewrite w32_small by (unfold u32; lia). replace (zlen e0 + (0 + 1) - 1) with (zlen e0) by lia.
    destruct (set_key_ok K HK2 h (adr u) _ (zlen e0) k C ltac:(lia)) as (h' & E1 & C1 & O1). rewrite E1. rewrite (get_value_ok K HK2 h' (adr u) _ (zlen e0) C1) by lia.
    exists e0, s, c, h'. split; [exact E|]. split; [exact F0|]. split; [exact F1'|]. rewrite slot_mid in *. cbn [snd] in *. unfold fput at 1. rewrite Z.eqb_refl. cbn [snd]. split; [reflexivity|]. split; [|exact O1].
    refine (cells_ext K _ _ _ _ _ C1). intros i Hi. apply slot_fput. lia.
  - left. rewrite zlen_cons in L. pose proof (zlen_nonneg _ e2) as N2. destruct (Z.eqb_spec (zlen e1) K); [lia|]. rewrite (get_value_ok K HK2 h (adr u) _ _ C) by lia. rewrite slot_mid. cbn [snd]. unfold NULL.
    rewrite E in V. apply Forall_app in V. destruct V as [_ V]. inversion V as [|? ? V' _]; subst. cbn [snd] in V'. destruct (Z.eqb_spec c 0); [contradiction|]. rewrite (get_value_ok K HK2 h (adr u) _ _ C) by lia. rewrite slot_mid.
    exists e1, s, c, e2. split; [exact E|]. split; [exact F1|]. split; [apply (F2 _ _ eq_refl)|reflexivity].
Qed.
Lemma map_split : forall X Y (f : X -> Y) l A y Z, A ++ y :: Z = map f l -> exists A' x Z', l = A' ++ x :: Z' /\ A = map f A' /\ y = f x /\ Z = map f Z'.
Proof.
  intros X Y f l A y Z E. symmetry in E. apply map_eq_app in E. destruct E as (A' & l' & -> & E1 & E2). apply map_eq_cons in E2. destruct E2 as (x & Z' & -> & E2 & E3). exists A', x, Z'. auto.
Qed.
Lemma nodup_tail : forall B T, NoDup (addrs (B :: T)) -> NoDup (map adr B) /\ NoDup (addrs T) /\ forall a, In a (map adr B) -> ~ In a (addrs T).
Proof.
  intros B T. rewrite addrs_cons. generalize (map adr B) as l, (addrs T) as l'. induction l as [|x l IH]; intros l' ND; cbn [app] in ND.
  - split; [constructor|]. split; [exact ND|]. intros a [].
  - inversion ND as [|? ? NI ND']; subst. destruct (IH _ ND') as (I1 & I2 & I3). split; [constructor; [intros C; apply NI, in_or_app; left; exact C|exact I1]|]. split; [exact I2|]. intros a [<-|Ha]; [intros C; apply NI, in_or_app; right; exact C|apply I3, Ha].
Qed.
Lemma down_ok : forall T B h r key k, tower h r (B :: T) -> NoDup (addrs (B :: T)) -> 0 <= k < 2 ^ 64 -> (forall h', (forall a, ~ In a (addrs T) -> h' a = h a) -> deref h' key = Some k) ->
  exists h' B' T' n, down K (length T) h r key = Some (h', adr n) /\ tower h' r (B' :: T') /\ lowered B B' /\ In n B' /\ lo n <= k < up n /\ addrs T' = addrs T /\ length T' = length T /\ (forall a, ~ In a (addrs T) -> h' a = h a).
Proof.
  induction T as [|U T IH]; intros B h r key k W ND Hk De.
  - pose proof W as [F (n & -> & E1 & E2 & E3)]. exists h, [n], [], n. split; [rewrite E1; reflexivity|]. split; [exact W|]. split; [apply lowered_refl|]. split; [left; reflexivity|]. split; [lia|]. auto.
  - pose proof W as (F & W1 & W2 & W3 & (sz & W4 & W4') & W5). destruct (nodup_tail _ _ ND) as (ND1 & ND2 & ND3). destruct (nodup_tail _ _ ND2) as (ND4 & ND5 & ND6). assert (SUB : forall a, In a (addrs T) -> In a (addrs (U :: T))) by (intros a Ha; rewrite addrs_cons; apply in_or_app; right; exact Ha).
    destruct (IH U h r key k W5 ND2 Hk) as (h1 & U' & T' & u & D1 & TW & LW & Iu & Cu & EA & EL & FR). { intros h' E. apply De. intros a Na. apply E. intros C. apply Na, SUB, C. }
    pose proof (bottom_nonempty _ _ _ _ _ W) as NE. pose proof (lowered_forall (fun es => es <> []) _ _ LW NE) as NE'. rewrite Forall_forall in NE'. specialize (NE' u Iu).
    pose proof (lowered_KL _ _ LW) as EK. pose proof (lowered_Jn sz _ _ LW W4') as JU. pose proof (proj1 TW) as FU. pose proof FU as FU'. rewrite Forall_forall in FU'. pose proof (FU' u Iu) as Ou.
    assert (De1 : deref h1 key = Some k). { apply De. intros a Na. apply FR. intros C. apply Na, SUB, C. }
    assert (FB : Forall (node_ok h1) B). { rewrite Forall_forall in *. intros n Hn. apply (node_frame h); [|apply F, Hn]. apply FR. intros C. apply (ND3 (adr n)); [apply in_map, Hn|apply SUB, C]. }
    assert (EA' : addrs (U' :: T') = addrs (U :: T)) by (rewrite !addrs_cons, EA, (lowered_adr _ _ LW); reflexivity).
    cbn [length]. rewrite down_snoc, D1. apply in_split in Iu. destruct Iu as (U1 & U2 & ->). rewrite KL_app, KL_cons in EK.
    destruct (step_ok h1 u key k Ou NE' Cu De1) as [(e1 & s & c & e2 & E & F1 & Hs & St)|(e1 & s & c & h2 & E & F1 & Hs & St & C2 & O2)]; rewrite St; rewrite E, kids_app in EK; cbn [kids fst snd] in EK.
    + rewrite W2, <- !app_assoc in EK. cbn [app] in EK. rewrite app_assoc in EK. destruct (map_split _ _ _ _ _ _ _ EK) as (B1 & n & B2 & -> & _ & En & _). injection En as Ea Es Eu.
      exists h1, (B1 ++ n :: B2), ((U1 ++ u :: U2) :: T'), n. split; [rewrite <- Ea; reflexivity|]. split; [|split; [apply lowered_refl|split; [apply in_or_app; right; left; reflexivity|split; [|split; [exact EA'|split; [cbn [length]; congruence|]]]]]].
      * split; [exact FB|]. split; [exact W1|]. split; [rewrite (lowered_KL _ _ LW); exact W2|]. split; [exact W3|]. split; [exists sz; split; assumption|exact TW].
      * split; [lia|]. rewrite <- Eu. apply bot_gt; [lia|exact F1].
      * intros a Na. apply FR. intros C. apply Na, SUB, C.
    + rewrite W2, <- !app_assoc in EK. cbn [app] in EK. rewrite app_assoc in EK. destruct (map_split _ _ _ _ _ _ _ EK) as (B1 & n & B2 & -> & EB1 & En & EB2). injection En as Ea Es Eu.
      set (n' := {| adr := adr n; lo := k; up := up n; ent := ent n |}). set (u' := {| adr := adr u; lo := lo u; up := up u; ent := e1 ++ [(k, c)] |}).
      assert (Iu : In (adr u) (addrs (U :: T))). { rewrite <- EA', addrs_cons, map_app. apply in_or_app. left. apply in_or_app. right. left. reflexivity. }
      assert (Ku : k < bot (up u) e1) by (apply bot_gt; [lia|exact F1]).
      assert (Ou' : node_ok h2 u').
      { destruct Ou as (O1 & _ & L & L0 & LU & D & G & V). rewrite E in *. split; [exact O1|]. split; [exact C2|]. unfold u'. cbn [lo up ent]. split; [rewrite zlen_app, zlen_cons in *; exact L|]. split; [exact L0|]. split; [exact LU|]. rewrite desc_app in *. apply Forall_app in G. apply Forall_app in V. split; [|split; apply Forall_app].
        - split; [apply D|]. cbn [desc fst]. split; [exact Ku|exact I].
        - split; [apply G|]. constructor; [cbn [fst]; lia|constructor].
        - split; [apply V|]. destruct V as [_ V]. inversion V; subst. constructor; [assumption|constructor]. }
      exists h2, (B1 ++ n' :: B2), ((U1 ++ u' :: U2) :: T'), n'. assert (ON : forall a, ~ In a (addrs (U :: T)) -> h2 a = h1 a) by (intros a Na; apply O2; intros ->; contradiction).
      split; [rewrite Ea; reflexivity|]. split; [|split; [|split; [apply in_or_app; right; left; reflexivity|split; [cbn [n' lo up]; rewrite <- Eu; lia|split; [|split; [cbn [length]; congruence|]]]]]].
      * split; [|split; [|split; [|split; [|split]]]].
        -- rewrite Forall_app in *. destruct FB as [FB1 FB2]. inversion FB2 as [|? ? On FB3]; subst. assert (FR2 : forall x, In x (B1 ++ n :: B2) -> node_ok h1 x -> node_ok h2 x).
           { intros x Hx. apply node_frame, ON. intros C. apply (ND3 (adr x)); [apply in_map, Hx|exact C]. }
           split; [|constructor]; [rewrite Forall_forall in *; intros x Hx; apply FR2; [apply in_or_app; left; exact Hx|apply FB1, Hx]| |rewrite Forall_forall in *; intros x Hx; apply FR2; [apply in_or_app; right; right; exact Hx|apply FB3, Hx]].
           destruct (FR2 n ltac:(apply in_or_app; right; left; reflexivity) On) as (Q1 & Q2 & Q3 & Q4 & Q5 & Q6 & Q7 & Q8). split; [exact Q1|]. split; [exact Q2|]. cbn [n' lo up ent]. split; [exact Q3|]. split; [lia|]. split; [exact Q5|]. split; [exact Q6|]. split; [|exact Q8].
           eapply Forall_impl; [|exact Q7]. cbn beta. intros. lia.
        -- rewrite Forall_app in *. destruct W1 as [V1 V2]. inversion V2; subst. split; [exact V1|]. constructor; assumption.
        -- rewrite KL_app, KL_cons. cbn [u' up ent]. rewrite kids_app. cbn [kids fst snd]. rewrite map_app. cbn [map]. rewrite <- EB1, <- EB2. unfold head. cbn [n' adr lo up]. rewrite <- Ea, <- Eu, <- !app_assoc. reflexivity.
        -- rewrite app_length in *. cbn [length] in *. exact W3.
        -- exists sz. split.
           ++ intros x Hx. apply in_app_or in Hx. destruct Hx as [Hx|[<-|Hx]]; [apply W4, in_or_app; left; exact Hx| |apply W4, in_or_app; right; right; exact Hx]. cbn [n' adr ent]. apply W4, in_or_app. right. left. reflexivity.
           ++ rewrite Forall_app in *. destruct JU as [J1 J2]. inversion J2 as [|? ? J3 J4]; subst. split; [exact J1|]. constructor; [|exact J4]. unfold Jn in *. rewrite E in J3. cbn [u' ent]. rewrite map_app in *. cbn [map snd] in *. exact J3.
        -- refine (swap_bottom _ _ u u' _ h1 h2 r TW _ O2 Ou' eq_refl _); [rewrite EA'; exact ND2|]. cbn [u' ent]. rewrite E, !zlen_app, !zlen_cons. reflexivity.
      * apply Forall2_app; [apply lowered_refl|]. constructor; [|apply lowered_refl]. cbn [n' adr lo up ent]. repeat split. lia.
      * rewrite <- EA', !addrs_cons, !map_app. reflexivity.
      * intros a Na. rewrite ON by exact Na. apply FR. intros C. apply Na, SUB, C.
Qed.
End Tower.
