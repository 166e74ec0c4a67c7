(** * B+tree proofs: removal *)
From Coq Require Import Permutation.
From Verif Require Import Lib BtreeModel BtreeCells BtreeFill BtreeTower BtreeSpec BtreeState BtreeInsert.
Ltac Zify.zify_post_hook ::= Z.div_mod_to_equations.

(** the same children, their intervals reach further up *)
Definition grown (L L' : list (Z * Z * Z)) : Prop := Forall2 (fun x y => kad y = kad x /\ klo y = klo x /\ kup x <= kup y) L L'.
(** the same nodes, responsible for more *)
Definition wider (B B' : list node) : Prop := Forall2 (fun n n' => adr n' = adr n /\ ent n' = ent n /\ lo n' <= lo n /\ up n <= up n') B B'.
Lemma grown_refl : forall L, grown L L.
Proof. induction L; constructor; auto. repeat split; lia. Qed.
Lemma grown_trans : forall A B C, grown A B -> grown B C -> grown A C.
Proof. intros A B C G. revert C. induction G as [|x y A B (E1 & E2 & E3) G IH]; intros C M; inversion M as [|? z ? C' (F1 & F2 & F3) M']; subst; constructor; [|apply IH, M']. repeat split; try congruence; lia. Qed.
Lemma grown_kids : forall es b b', b <= b' -> grown (kids b es) (kids b' es).
Proof. intros [|e r] b b' L; cbn [kids]; [constructor|]. constructor; [|apply grown_refl]. unfold kad, klo, kup. cbn [fst snd]. auto. Qed.
Lemma wider_refl : forall B, wider B B.
Proof. induction B; constructor; auto. repeat split; lia. Qed.
Lemma wider_FE : forall B B', wider B B' -> FE B' = FE B.
Proof. induction 1 as [|n n' B B' (E1 & E2 & E3 & _) L IH]; [reflexivity|]. cbn [FE flat_map]. rewrite E2. f_equal. exact IH. Qed.
Lemma wider_adr : forall B B', wider B B' -> map adr B' = map adr B.
Proof. induction 1 as [|n n' B B' (E1 & E2 & E3 & _) L IH]; [reflexivity|]. cbn [map]. rewrite E1. f_equal. exact IH. Qed.
Lemma wider_KL : forall B B', wider B B' -> grown (KL B) (KL B').
Proof. induction 1 as [|n n' B B' (E1 & E2 & E3 & E4) L IH]; [constructor|]. rewrite !KL_cons, E2. apply Forall2_app; [apply grown_kids, E4|exact IH]. Qed.
Lemma wider_Jn : forall H sz B B', wider B B' -> Forall (Jn H sz) B -> Forall (Jn H sz) B'.
Proof. intros H sz B B'. induction 1 as [|n n' B B' (E1 & E2 & E3 & E4) L IH]; intros F; [constructor|]. apply Forall_cons_iff in F. destruct F as [F1 F2]. constructor; [unfold Jn; rewrite E2; exact F1|apply IH, F2]. Qed.
Lemma lowered_wider : forall B B', lowered B B' -> wider B B'.
Proof. induction 1 as [|n n' B B' (E1 & E2 & E3 & E4) L IH]; constructor; [|exact IH]. rewrite E2. repeat split; try assumption. lia. Qed.

Lemma node_unique : forall b k A x Z A' x' Z', chain b (map head (A ++ x :: Z)) -> A ++ x :: Z = A' ++ x' :: Z' -> lo x <= k < up x -> lo x' <= k < up x' -> A = A' /\ x = x' /\ Z = Z'.
Proof.
  intros b k A x Z A' x' Z' C E Hx Hx'.
  assert (G : forall P y Q, chain b (map head (P ++ y :: Q)) -> lo y <= k < up y -> Forall (fun z => ~ (lo z <= k < up z)) P).
  { intros P y Q C0 Hy. rewrite map_app in C0. cbn [map] in C0. pose proof (chain_mid _ _ _ _ C0) as (_ & _ & F & _). rewrite Forall_forall in *. intros z Hz. specialize (F _ (in_map head _ _ Hz)). unfold kup, klo, head in F. cbn [fst snd] in F. lia. }
  apply (split_unique _ (fun z => lo z <= k < up z)); try assumption; [apply (G _ x Z C Hx)|]. rewrite E in C. apply (G _ x' Z' C Hx').
Qed.
Lemma ent_unique : forall (k : Z) (e1 : list (Z * Z)) x e2 f1 f2, e1 ++ x :: e2 = f1 ++ f2 -> Forall (fun e => k < fst e) e1 -> fst x <= k -> Forall (fun e => k < fst e) f1 -> (forall y r, f2 = y :: r -> fst y <= k) -> f1 = e1 /\ f2 = x :: e2.
Proof.
  intros k e1 x e2 f1 f2 E F1 Hx G1 G2. destruct f2 as [|y f2].
  - exfalso. rewrite app_nil_r in E. rewrite <- E in G1. apply Forall_app in G1. destruct G1 as [_ G1]. inversion G1; subst. lia.
  - specialize (G2 _ _ eq_refl). destruct (split_unique _ (fun e : Z * Z => fst e <= k) _ _ _ _ _ _ E Hx G2) as (-> & -> & ->); auto; (eapply Forall_impl; [|eassumption]); cbn beta; intros; lia.
Qed.
Lemma FE_KL : forall B, FE B = map (fun x => (klo x, kad x)) (KL B).
Proof.
  assert (G : forall es b, map (fun x => (klo x, kad x)) (kids b es) = es) by (induction es as [|[s c] r IH]; intros b; cbn [kids map]; [reflexivity|]; rewrite IH; reflexivity).
  induction B as [|n B IH]; [reflexivity|]. rewrite KL_cons, map_app, G, <- IH. reflexivity.
Qed.

Section Remove.
Variable K H : Z.
Hypothesis KH : K - 2 * H = 0.
Hypothesis HK : 4 <= K < 2 ^ 31.
Variable al : nat -> heap -> Z.
Local Notation tower := (tower K H).
Local Notation node_ok := (node_ok K).
Local Notation Jn := (Jn H).
Local Notation cells := (cells K).
Local Notation HK' := (HK2 K HK).
Local Notation HH := (H2 K H KH HK).

(** the child responsible for [k] is the one at the index found *)
Lemma kid_at : forall h V1 p V2 k p1 p2 A x Z, Forall (node_ok h) (V1 ++ p :: V2) -> chain (2 ^ 64) (map head (V1 ++ p :: V2)) -> lo p <= k < up p -> ent p = p1 ++ p2 -> Forall (fun e => k < fst e) p1 -> (forall y r, p2 = y :: r -> fst y <= k) ->
  KL (V1 ++ p :: V2) = A ++ x :: Z -> inside k x ->
  exists p3, p2 = (klo x, kad x) :: p3 /\ kup x = bot (up p) p1 /\ A = KL V1 ++ kids (up p) p1 /\ Z = kids (klo x) p3 ++ KL V2.
Proof.
  intros h V1 p V2 k p1 p2 A x Z F C Hk E F1 F2 EQ [Ix1 Ix2]. destruct (around K h V1 p V2 k F C Hk) as (A1 & A2 & A3). pose proof (chain_KL K h _ _ F C) as CK. rewrite KL_app, KL_cons in EQ, CK. rewrite E, !kids_app, <- !app_assoc in EQ, CK. rewrite app_assoc in EQ, CK.
  set (L := KL V1 ++ kids (up p) p1) in *. assert (GL : Forall (fun y => k < klo y) L).
  { unfold L. apply Forall_app. rewrite !Forall_forall in *. split; intros y Hy; [apply (A1 _ (KL_keys _ _ Hy))|apply (F1 _ (kids_keys _ _ _ Hy))]. }
  destruct (app_mid _ _ _ _ _ _ (eq_sym EQ)) as [(q & -> & EQ')|(q & EL & _)].
  2:{ rewrite EL in GL. apply Forall_app in GL. destruct GL as [_ GL]. inversion GL as [|? ? G _]; subst. lia. }
  destruct p2 as [|[s' c'] p3].
  + cbn [kids app] in EQ'. exfalso. pose proof (chain_all _ _ A3) as G. rewrite EQ' in G. apply Forall_app in G. destruct G as [_ G]. inversion G as [|? ? G' _]; subst. lia.
  + cbn [kids fst snd app] in EQ'. pose proof (F2 _ _ eq_refl) as F3. cbn [fst] in F3. destruct q as [|y q]; cbn [app] in EQ'.
    * injection EQ' as <- <-. exists p3. unfold klo, kad, kup. cbn [fst snd]. rewrite app_nil_r. auto.
    * exfalso. destruct (chain_tail _ _ _ CK) as (b' & CT). cbn [kids fst snd app chain] in CT. destruct CT as (_ & _ & CT). apply chain_all in CT. injection EQ' as _ EQ'. rewrite EQ' in CT. apply Forall_app in CT. destruct CT as [_ CT]. inversion CT as [|? ? G' _]; subst. unfold klo at 1 in G'. cbn [fst snd] in G'. lia.
Qed.
(** every level but the uppermost has more entries than nodes *)
Lemma count : forall T U h r, tower h r (U :: T) -> T <> [] -> (S (length U) <= length (FE U))%nat.
Proof.
  induction T as [|V T IH]; intros U h r W NT; [congruence|]. destruct W as (F & W1 & W2 & W3 & (sz & W4 & W4') & W5). pose proof HH as HH2.
  destruct (Exists_dec (fun v => (2 <= length (ent v))%nat) V) as [EX|NE]; [intros v; apply le_dec| |].
  - apply Exists_exists in EX. destruct EX as (v & Iv & Lv). rewrite Forall_forall in W4'. destruct (W4' v Iv) as (_ & E & _). assert (L2 : 2 <= zlen (map (fun e => sz (snd e)) (ent v))) by (unfold zlen; rewrite map_length; lia). specialize (E L2).
    assert (G : Exists (fun e => 2 <= sz (snd e)) (ent v)). { clear - E HH2. induction (ent v) as [|e l IH]; cbn [map ex] in E; [lia|]. destruct (Z_le_dec 2 (sz (snd e))); [left; exact l0|right; apply IH; lia]. }
    apply Exists_exists in G. destruct G as (e & Ie & Le). assert (Iu : exists u, In u U /\ adr u = snd e).
    { destruct e as [ek ev]. destruct (keys_kids (ent v) (up v) ek ev Ie) as (x & _ & _). assert (Ix : exists x, In x (kids (up v) (ent v)) /\ kad x = ev). { clear - Ie. revert Ie. generalize (up v) as b. induction (ent v) as [|e l IH]; intros b I; [destruct I|]. destruct I as [->|I]; [eexists; split; [left; reflexivity|reflexivity]|]. destruct (IH (fst e) I) as (x & Hx & Ex). exists x. split; [right; exact Hx|exact Ex]. }
      destruct Ix as (y & Iy & Ey). assert (IK : In y (KL V)) by (apply in_flat_map; exists v; auto). rewrite W2 in IK. apply in_map_iff in IK. destruct IK as (u & <- & Iu). exists u. split; [exact Iu|exact Ey]. }
    destruct Iu as (u & Iu & Eu). rewrite <- Eu, (W4 u Iu) in Le. clear - W1 Iu Le. induction U as [|w U IH]; [destruct Iu|]. inversion W1 as [|? ? Nw W1']; subst. cbn [FE flat_map length]. rewrite app_length. fold (FE U). destruct Iu as [->|Iu].
    + assert (length U <= length (FE U))%nat. { clear - W1'. induction U as [|x U IH]; [cbn; lia|]. inversion W1' as [|? ? Nx W]; subst. cbn [FE flat_map length]. rewrite app_length. fold (FE U). specialize (IH W). destruct (ent x); [congruence|cbn [length]; lia]. } unfold zlen in Le. lia.
    + specialize (IH W1' Iu). destruct (ent w); [congruence|cbn [length]; lia].
  - exfalso. assert (LV : (length (FE V) <= length V)%nat). { clear - NE. induction V as [|v V IH]; [cbn; lia|]. cbn [FE flat_map length]. rewrite app_length. fold (FE V). assert (~ (2 <= length (ent v))%nat) by (intros Q; apply NE; left; exact Q). assert (~ Exists (fun v => (2 <= length (ent v))%nat) V) by (intros Q; apply NE; right; exact Q). specialize (IH H0). lia. }
    pose proof (f_equal (@length _) W2) as EL. rewrite map_length, KL_length in EL. destruct T as [|V' T].
    + destruct W5 as [_ (m & -> & _)]. cbn [length] in LV. lia.
    + specialize (IH V h r W5 ltac:(discriminate)). lia.
Qed.

(** what removing an entry at a level leaves, [L1] and [F1] being the children and the entries then *)
Definition left_over (s : root) (L1 : list (Z * Z * Z)) (level : Z) (sz : Z -> Z) (X : list Z) (s' : root) : Prop :=
  exists T1, born al s' /\ same_on X (b_heap s) (b_heap s') /\ owned (b_heap s') T1 X /\ b_height s' = level - 1 + zlen T1 /\
    match T1 with
    | [] => 2 <= level /\ exists x, L1 = [x] /\ b_node s' = kad x
    | B' :: _ => tower (b_heap s') (b_node s') T1 /\ Forall (Jn sz) B' /\ grown L1 (KL B') /\ (2 <= level -> (2 <= length L1)%nat)
    end.
(** the nodes [Bm] under what is left above them *)
Lemma rebuild : forall h r T1 Bm level sz L1, 1 <= level -> L1 = map head Bm -> Forall (node_ok h) Bm -> Forall (fun m => ent m <> []) Bm -> (forall m, In m Bm -> sz (adr m) = zlen (ent m)) ->
  match T1 with
  | [] => 2 <= level + 1 /\ exists x, L1 = [x] /\ r = kad x
  | B' :: _ => tower h r T1 /\ Forall (Jn sz) B' /\ grown L1 (KL B') /\ (2 <= level + 1 -> (2 <= length L1)%nat)
  end -> exists B'', tower h r (B'' :: T1) /\ wider Bm B''.
Proof.
  intros h r T1 Bm level sz L1 Hl -> F NE SZ Q. destruct T1 as [|U T1].
  - destruct Q as (_ & x & EX & ->). destruct Bm as [|m [|? ?]]; try discriminate. injection EX as <-. exists [{| adr := adr m; lo := 0; up := 2 ^ 64; ent := ent m |}]. inversion F as [|? ? (P & C & L & L0 & LU & D & G & V) _]; subst. split.
    + split; [|eexists; split; [reflexivity|]; auto]. constructor; [|constructor]. split; [exact P|]. split; [exact C|]. cbn [lo up ent]. split; [exact L|]. split; [lia|]. split; [lia|]. split; [apply (desc_mono _ (up m)); assumption|]. split; [|exact V]. eapply Forall_impl; [|exact G]. cbn beta. intros; lia.
    + constructor; [|constructor]. cbn [adr lo up ent]. repeat split; lia.
  - destruct Q as (W & JU & G & LL). specialize (LL ltac:(lia)). rewrite map_length in LL. pose proof (chain_all _ _ (chain_KL K h _ _ (proj1 W) (tower_chain _ _ _ _ _ _ W))) as CA.
    assert (EX : exists B'', KL U = map head B'' /\ wider Bm B'' /\ Forall (node_ok h) B'').
    { clear W JU LL SZ. revert G CA. generalize (KL U) as L'. induction Bm as [|m Bm IH]; intros L' G CA; inversion G as [|? y ? L2 (Q1 & Q2 & Q3) G']; subst; [exists []; split; [reflexivity|]; split; constructor|]. apply Forall_cons_iff in F. destruct F as [Fm F]. apply Forall_cons_iff in NE. destruct NE as [_ NE]. apply Forall_cons_iff in CA. destruct CA as [Cy CA].
      destruct (IH F NE L2 G' CA) as (B'' & E1 & E2 & E3). unfold kad, klo, kup, head in *. cbn [fst snd] in *. exists ({| adr := adr m; lo := lo m; up := snd y; ent := ent m |} :: B''). split; [|split].
      - cbn [map]. rewrite E1. f_equal. unfold head. cbn [adr lo up]. destruct y as [[ya yl] yu]. cbn [fst snd] in *. subst. reflexivity.
      - constructor; [|exact E2]. cbn [adr lo up ent]. repeat split; lia.
      - constructor; [|exact E3]. destruct Fm as (P & C & L & L0 & LU & D & Gm & V). split; [exact P|]. split; [exact C|]. cbn [lo up ent]. split; [exact L|]. split; [exact L0|]. split; [exact Cy|]. split; [apply (desc_mono _ (up m)); assumption|]. split; assumption. }
    destruct EX as (B'' & E1 & E2 & E3). exists B''. split; [|exact E2]. split; [exact E3|]. split; [|split; [exact E1|split; [|split; [|exact W]]]].
    + clear - E2 NE. induction E2 as [|n n' B B' (E1 & E2' & E3 & E4) L IH]; [constructor|]. apply Forall_cons_iff in NE. destruct NE as [N1 N2]. constructor; [rewrite E2'; exact N1|apply IH, N2].
    + apply wider_adr in E2. apply (f_equal (@length _)) in E2. rewrite !map_length in E2. lia.
    + exists sz. split; [|exact JU]. clear - E2 SZ. induction E2 as [|n n' B B' (E1 & E2' & E3 & E4) L IH]; intros x I; [destruct I|]. destruct I as [<-|I]; [rewrite E1, E2'; apply SZ; left; reflexivity|]. apply IH; [|exact I]. intros m Hm. apply SZ. right. exact Hm.
Qed.

Definition key_form (key : kref) (k : Z) (u : node) (e1 : list (Z * Z)) (sk : Z) (e2 : list (Z * Z)) : Prop := key = Val k \/ key = Slot (adr u) (zlen e1) /\ k = sk /\ e2 <> [].
Definition rspec (rec : root -> Z -> kref -> option (root * Z)) (n : nat) : Prop :=
  forall s level key k sz X U1 u U2 T0 e1 sk c e2, S (length T0) = n -> 2 <= level -> b_height s = level + zlen T0 -> tower (b_heap s) (b_node s) ((U1 ++ u :: U2) :: T0) -> Forall (Jn sz) U1 -> Forall (Jn sz) U2 ->
  owned (b_heap s) ((U1 ++ u :: U2) :: T0) X -> born al s -> (2 <= length (FE (U1 ++ u :: U2)))%nat -> ent u = e1 ++ (sk, c) :: e2 -> lo u <= k < up u -> Forall (fun e => k < fst e) e1 -> sk <= k -> key_form key k u e1 sk e2 ->
  J H (map (fun e => sz (snd e)) (e1 ++ e2)) -> strong H (map (fun e => sz (snd e)) (e1 ++ e2)) ->
  exists s' v, rec s level key = Some (s', v) /\ left_over s (KL U1 ++ kids (up u) (e1 ++ e2) ++ KL U2) level sz X s'.
Definition final (s : root) (Bm : list node) (level : Z) (X : list Z) (s' : root) : Prop :=
  exists B'' T1, born al s' /\ same_on X (b_heap s) (b_heap s') /\ owned (b_heap s') (B'' :: T1) X /\ b_height s' = level + zlen T1 /\ tower (b_heap s') (b_node s') (B'' :: T1) /\ wider Bm B''.
Lemma climb : forall (rec : root -> Z -> kref -> option (root * Z)) s s1 v level key sz X x Bm, 1 <= level -> rec s (level + 1) key = Some (s1, v) -> left_over s (map head Bm) (level + 1) sz (x :: map adr Bm ++ X) s1 -> Forall (node_ok (b_heap s)) Bm -> Forall (fun m => ent m <> []) Bm -> (forall m, In m Bm -> sz (adr m) = zlen (ent m)) ->
  NoDup (x :: map adr Bm) -> 0 < x -> (forall a, In a (x :: map adr Bm) -> ~ In a X) ->
  exists s2, (let* (s, _) := rec s (level + 1) key in node_free s x) = Some s2 /\ final s Bm level X s2.
Proof.
  intros rec s s1 v level key sz X x Bm Hl E (T1 & Bo & Sm & Ow & Hh & Q) F NE SZ ND Px DX. rewrite E. unfold node_free. destruct (Z.eqb_spec x NULL) as [N|_]; [unfold NULL in N; lia|]. pose proof Ow as (O1 & O2 & O3).
  assert (Sx : b_heap s1 x <> None) by (apply O3; right; left; reflexivity). destruct (b_heap s1 x) as [bb|] eqn:Eb; [|congruence]. eexists. split; [reflexivity|].
  inversion ND as [|? ? NI ND']; subst. set (h2 := hset (b_heap s1) x None). assert (F2 : Forall (node_ok h2) Bm).
  { apply (nodes_frame K (b_heap s)); [|exact F]. intros a Ha. unfold h2. rewrite hset_other by (intros ->; contradiction). apply Sm. right. apply in_or_app. left. exact Ha. }
  assert (FT : forall a, In a (addrs T1) -> h2 a = b_heap s1 a). { intros a Ha. apply hset_other. intros ->. apply (O2 x Ha). left. reflexivity. }
  destruct (rebuild h2 (b_node s1) T1 Bm level sz (map head Bm) Hl eq_refl F2 NE SZ) as (B'' & W2 & WD).
  { destruct T1 as [|U T1]; [exact Q|]. destruct Q as (Q1 & Q2). split; [|exact Q2]. apply (tower_frame K H _ (b_heap s1)); [exact FT|exact Q1]. }
  exists B'', T1. cbn [with_heap b_heap b_node b_height]. fold h2. split.
  { apply (born_sub al s1); [exact Bo| |cbn; lia]. cbn [with_heap b_heap]. unfold h2. intros a. destruct (Z.eq_dec a x) as [->|N]; [rewrite hset_same; congruence|rewrite hset_other by exact N; auto]. }
  split. { intros a Ha. unfold h2. rewrite hset_other by (intros ->; apply (DX x); [left; reflexivity|exact Ha]). apply Sm. right. apply in_or_app. right. exact Ha. }
  split; [|split; [lia|split; [exact W2|exact WD]]]. unfold owned. rewrite addrs_cons, (wider_adr _ _ WD). split; [|split].
  - clear - ND' O1 O2. assert (G : forall a, In a (addrs T1) -> ~ In a (map adr Bm)) by (intros a Ha I; apply (O2 a Ha); right; apply in_or_app; left; exact I). clear O2. revert ND' G. generalize (map adr Bm) as L. induction L as [|y L IH]; intros ND' G; cbn [app]; [exact O1|]. inversion ND' as [|? ? Ny NL]; subst. constructor.
    + intros I. apply in_app_or in I. destruct I as [I|I]; [contradiction|]. apply (G y I). left. reflexivity.
    + apply IH; [exact NL|]. intros a Ha I. apply (G a Ha). right. exact I.
  - intros a I. apply in_app_or in I. destruct I as [I|I]; [apply DX; right; exact I|]. intros IX. apply (O2 a I). right. apply in_or_app. right. exact IX.
  - intros a. unfold h2. rewrite in_app_iff. destruct (Z.eq_dec a x) as [->|N].
    + rewrite hset_same. split; [congruence|]. intros [[I|I]|I]; exfalso; [apply NI, I|apply (O2 x I); left; reflexivity|apply (DX x); [left; reflexivity|exact I]].
    + rewrite hset_other by exact N. rewrite O3. cbn [In]. rewrite in_app_iff. clear - N. split; [|tauto]. intros [I|[I|[I|I]]]; auto; congruence.
Qed.
Lemma settle : forall s s0 L1 Bm level sz X s2, final s Bm level X s2 -> same_on X (b_heap s0) (b_heap s) -> Forall (Jn sz) Bm -> grown L1 (KL Bm) -> (2 <= level -> (2 <= length L1)%nat) -> left_over s0 L1 level sz X s2.
Proof.
  intros s s0 L1 Bm level sz X s2 (B'' & T1 & Bo & Sm & Ow & Hh & W & WD) Sm0 Jm G LL. exists (B'' :: T1). split; [exact Bo|]. split; [apply (same_trans _ _ _ _ Sm0 Sm)|]. split; [exact Ow|]. split; [rewrite zlen_cons; lia|]. split; [exact W|]. split; [apply (wider_Jn H sz _ _ WD Jm)|]. split; [|exact LL].
  apply (grown_trans _ _ _ G (wider_KL _ _ WD)).
Qed.
Lemma strong_mono : forall xs ys, Forall2 (fun x y => x <= y) xs ys -> strong H xs -> strong H ys.
Proof.
  intros xs ys F S N. assert (E : ex xs <= ex ys). { clear - F. induction F; cbn [ex]; lia. } assert (xs <> []) by (intros ->; inversion F; subst; congruence). specialize (S H0). lia.
Qed.
Lemma sizes_mono : forall (sz sz' : Z -> Z) (es : list (Z * Z)), (forall a, sz a <= sz' a) -> Forall2 (fun x y => x <= y) (map (fun e => sz (snd e)) es) (map (fun e => sz' (snd e)) es).
Proof. intros sz sz' es G. induction es; constructor; auto. Qed.

Lemma desc_above : forall e1 x e2 b, desc b (e1 ++ x :: e2) -> Forall (fun e => fst x < fst e) e1.
Proof. induction e1 as [|e r IH]; intros x e2 b D; [constructor|]. destruct D as [_ D]. constructor; [|apply (IH _ _ _ D)]. apply desc_below in D. rewrite Forall_forall in D. apply D, in_or_app. right. left. reflexivity. Qed.
Lemma owned_dom : forall h h' T T' X X', owned h T X -> addrs T' = addrs T -> (forall a, h' a <> None <-> h a <> None) -> (forall a, In a X' <-> In a X) -> owned h' T' X'.
Proof.
  intros h h' T T' X X' (O1 & O2 & O3) E D EX. unfold owned. rewrite E. split; [exact O1|]. split; [intros a Ha I; apply (O2 a Ha), EX, I|]. intros a. rewrite D, O3, EX. reflexivity.
Qed.
Lemma cells_two : forall h p q1 x1 x2 q2 v1 v2, cells h p (slot (q1 ++ x1 :: x2 :: q2)) -> zlen (q1 ++ x1 :: x2 :: q2) <= K ->
  exists h1 h2, set_value K h p (zlen q1) v1 = Some h1 /\ set_value K h1 p (zlen q1 + 1) v2 = Some h2 /\ cells h2 p (slot (q1 ++ (fst x1, v1) :: (fst x2, v2) :: q2)) /\ only h h2 p.
Proof.
  intros h p q1 x1 x2 q2 v1 v2 C L. rewrite zlen_app, !zlen_cons in L. pose proof (zlen_nonneg _ q1). pose proof (zlen_nonneg _ q2).
  destruct (set_value_ok K HK' h p _ (zlen q1) v1 C ltac:(lia)) as (h1 & E1 & C1 & O1). rewrite slot_mid in C1. apply (cells_ext K _ _ _ (slot (q1 ++ (fst x1, v1) :: x2 :: q2))) in C1; [|intros i Hi; apply slot_fput; lia].
  change (q1 ++ (fst x1, v1) :: x2 :: q2) with (q1 ++ [(fst x1, v1)] ++ x2 :: q2) in C1. rewrite app_assoc in C1.
  destruct (set_value_ok K HK' h1 p _ (zlen q1 + 1) v2 C1 ltac:(lia)) as (h2 & E2 & C2 & O2). assert (EZ : zlen q1 + 1 = zlen (q1 ++ [(fst x1, v1)])) by (rewrite zlen_app, zlen_cons, zlen_nil; lia). rewrite EZ, slot_mid in C2. apply (cells_ext K _ _ _ (slot ((q1 ++ [(fst x1, v1)]) ++ (fst x2, v2) :: q2))) in C2; [|intros i Hi; apply slot_fput; lia].
  rewrite <- app_assoc in C2. exists h1, h2. split; [exact E1|]. split; [exact E2|]. split; [exact C2|]. apply (only_trans _ _ _ _ O1 O2).
Qed.
Definition glued (l r : node) : node := {| adr := adr l; lo := lo r; up := up l; ent := ent l ++ ent r |}.
Lemma merge_ok : forall rec s level sz0 X V1 p V2 T0 q1 q2 C1 l r C2, rspec rec (S (length T0)) -> 1 <= level -> b_height s = level + 1 + zlen T0 -> tower (b_heap s) (b_node s) ((V1 ++ p :: V2) :: T0) -> Forall (Jn sz0) (V1 ++ p :: V2) ->
  owned (b_heap s) ((V1 ++ p :: V2) :: T0) (map adr (C1 ++ l :: r :: C2) ++ X) -> born al s -> NoDup (map adr (C1 ++ l :: r :: C2)) -> (forall a, In a (map adr (C1 ++ l :: r :: C2)) -> ~ In a X) ->
  ent p = q1 ++ (lo l, adr l) :: (lo r, adr r) :: q2 -> map head C1 = KL V1 ++ kids (up p) q1 -> up l = bot (up p) q1 -> up r = lo l -> map head C2 = kids (lo r) q2 ++ KL V2 ->
  Forall (node_ok (b_heap s)) (C1 ++ l :: r :: C2) -> Forall (fun m => ent m <> []) (C1 ++ l :: r :: C2) -> zlen (ent l) + zlen (ent r) <= K -> sz0 (adr l) + sz0 (adr r) - 1 = zlen (ent l) + zlen (ent r) -> 1 <= sz0 (adr r) -> (forall m, In m (C1 ++ C2) -> sz0 (adr m) = zlen (ent m)) ->
  exists s2, rebalance_merge K rec s level (adr l) (zlen (ent l)) (adr r) (zlen (ent r)) (adr p) (zlen q1) = Some s2 /\ final s (C1 ++ glued l r :: C2) level X s2.
Proof.
  intros rec s level sz0 X V1 p V2 T0 q1 q2 C1 l r C2 SP Hl Hh W JV Ow Bo ND DX Ep EC1 Eu Er EC2 F NE LK ES ES' SZ. pose proof Ow as (O1 & O2 & O3).
  assert (Il : In (adr l) (map adr (C1 ++ l :: r :: C2))) by (rewrite map_app; apply in_or_app; right; left; reflexivity). assert (Ir : In (adr r) (map adr (C1 ++ l :: r :: C2))) by (rewrite map_app; apply in_or_app; right; right; left; reflexivity).
  assert (Ip : In (adr p) (addrs ((V1 ++ p :: V2) :: T0))) by (rewrite addrs_cons, map_app; apply in_or_app; left; apply in_or_app; right; left; reflexivity).
  assert (Nap : forall a, In a (map adr (C1 ++ l :: r :: C2)) -> a <> adr p). { intros a Ha ->. apply (O2 _ Ip), in_or_app. left. exact Ha. }
  assert (Nlr : adr l <> adr r /\ forall a, In a (map adr (C1 ++ C2)) -> a <> adr l /\ a <> adr r).
  { clear - ND. rewrite !map_app in *. cbn [map] in *. pose proof (NoDup_remove_2 _ _ _ ND) as N1. change (map adr C1 ++ adr l :: adr r :: map adr C2) with (map adr C1 ++ [adr l] ++ adr r :: map adr C2) in ND. rewrite app_assoc in ND. pose proof (NoDup_remove_2 _ _ _ ND) as N2. rewrite <- app_assoc in N2. cbn [app] in N2. split; [intros E; apply N1, in_or_app; right; left; congruence|]. intros a Ha. split; intros ->; [apply N1|apply N2]; apply in_app_or in Ha; apply in_or_app; cbn [In]; tauto. }
  destruct Nlr as [Nlr NC]. pose proof (proj1 (Forall_app _ _ _) F) as [FC1 FR]. inversion FR as [|? ? Ol FR']; subst. inversion FR' as [|? ? Or FC2]; subst.
  pose proof (proj1 (Forall_app _ _ _) NE) as [_ NR]. inversion NR as [|? ? NEl NR']; subst. inversion NR' as [|? ? NEr _]; subst.
  destruct Ol as (Pl & Cl & Ll & L0l & LUl & Dl & Gl & Vl). destruct Or as (Pr & Cr & Lr & L0r & LUr & Dr & Gr & Vr). assert (Op : node_ok (b_heap s) p) by (pose proof (proj1 W) as G; rewrite Forall_forall in G; apply G, in_mid). destruct Op as (Pp & Cp & Lp & L0p & LUp & Dp & Gp & Vp).
  unfold rebalance_merge. destruct (append_cells K HK' (b_heap s) (adr l) (ent l) (adr r) (ent r) Cl Cr Nlr ltac:(lia)) as (h1 & E1 & C1l & Oh1). rewrite E1.
  assert (Cp1 : cells h1 (adr p) (slot (ent p))) by (apply (cells_frame K (b_heap s)); [apply Oh1; intros E; apply (Nap (adr l) Il); congruence|exact Cp]). rewrite Ep in Cp1, Lp.
  destruct (cells_two h1 (adr p) q1 _ _ q2 (adr r) (adr l) Cp1 Lp) as (h2 & h3 & E2 & E3 & C3 & Oh3). cbn [fst] in C3. rewrite E2, E3.
  set (p' := {| adr := adr p; lo := lo p; up := up p; ent := q1 ++ (lo l, adr r) :: (lo r, adr l) :: q2 |}).
  assert (Op' : node_ok h3 p').
  { split; [exact Pp|]. split; [exact C3|]. cbn [p' lo up ent]. rewrite Ep in Dp, Gp, Vp. split; [rewrite zlen_app, !zlen_cons in *; exact Lp|]. split; [exact L0p|]. split; [exact LUp|]. rewrite desc_app in *. cbn [desc fst] in *. split; [exact Dp|]. rewrite Forall_app in Gp, Vp. destruct Gp as [G1 G2], Vp as [V1' V2']. apply Forall_cons_iff in G2. destruct G2 as [G2 G3]. apply Forall_cons_iff in G3. destruct G3 as [G3 G4]. apply Forall_cons_iff in V2'. destruct V2' as [V3 V4]. apply Forall_cons_iff in V4. destruct V4 as [V4 V5]. cbn [fst snd] in *.
    split; apply Forall_app; (split; [assumption|]); repeat (constructor; [cbn [fst snd]; assumption|]); assumption. }
  assert (W1 : tower h1 (b_node s) ((V1 ++ p :: V2) :: T0)). { apply (tower_frame K H _ (b_heap s)); [|exact W]. intros a Ha. apply Oh1. intros ->. apply (O2 _ Ha), in_or_app. left. exact Il. }
  assert (W3 : tower h3 (b_node s) ((V1 ++ p' :: V2) :: T0)). { apply (swap_bottom K H KH HK T0 V1 p p' V2 h1 h3 _ W1 O1 Oh3 Op' eq_refl). cbn [p' ent]. rewrite Ep, !zlen_app, !zlen_cons. reflexivity. }
  set (s3 := with_heap s h3). set (X' := adr r :: map adr (C1 ++ glued l r :: C2) ++ X).
  assert (DOM : forall a, h3 a <> None <-> b_heap s a <> None).
  { intros a. destruct (Z.eq_dec a (adr p)) as [->|Np]; [split; intros _; [apply (cells_some K _ _ _ Cp)|apply (cells_some K _ _ _ C3)]|]. rewrite (Oh3 a Np). destruct (Z.eq_dec a (adr l)) as [->|Nl]; [split; intros _; [apply (cells_some K _ _ _ Cl)|apply (cells_some K _ _ _ C1l)]|]. rewrite (Oh1 a Nl). reflexivity. }
  assert (EX : forall a, In a X' <-> In a (map adr (C1 ++ l :: r :: C2) ++ X)). { intros a. unfold X'. cbn [In]. rewrite !in_app_iff, !map_app, !in_app_iff. cbn [map In glued adr]. clear. tauto. }
  assert (Ow3 : owned h3 ((V1 ++ p' :: V2) :: T0) X'). { apply (owned_dom (b_heap s) h3 _ _ _ _ Ow); [rewrite !addrs_cons, !map_app; reflexivity|exact DOM|exact EX]. }
  assert (Bo3 : born al s3). { apply (born_sub al s); [exact Bo| |cbn; lia]. cbn [s3 with_heap b_heap]. intros a. apply DOM. }
  set (sz' := fun a => if a =? adr l then zlen (ent l) + zlen (ent r) else sz0 a). assert (MO : forall a, sz0 a <= sz' a). { intros a. unfold sz'. destruct (Z.eqb_spec a (adr l)) as [->|_]; lia. }
  pose proof (proj1 (Forall_app _ _ _) JV) as [JV1 JR]. apply Forall_cons_iff in JR. destruct JR as [JP JV2].
  assert (JV' : forall V, Forall (Jn sz0) V -> Forall (Jn sz') V). { intros V G. eapply Forall_impl; [|exact G]. intros n. apply (Jn_mono K H KH HK). intros e _. left. apply MO. }
  assert (JS : J H (map (fun e => sz' (snd e)) (q1 ++ (lo r, adr l) :: q2)) /\ strong H (map (fun e => sz' (snd e)) (q1 ++ (lo r, adr l) :: q2))).
  { unfold BtreeTower.Jn in JP. rewrite Ep, map_app in JP. cbn [map snd] in JP. destruct (J_merge H _ _ _ _ JP) as [M1 M2]. rewrite ES in M1, M2.
    assert (FM : Forall2 (fun x y => x <= y) (map (fun e => sz0 (snd e)) q1 ++ zlen (ent l) + zlen (ent r) :: map (fun e => sz0 (snd e)) q2) (map (fun e => sz' (snd e)) (q1 ++ (lo r, adr l) :: q2))).
    { rewrite map_app. apply Forall2_app; [apply sizes_mono, MO|]. cbn [map snd]. constructor; [unfold sz'; rewrite Z.eqb_refl; lia|apply sizes_mono, MO]. }
    split; [|apply (strong_mono _ _ FM M2)]. apply (J_mono H HH _ _) with (2 := M1). clear - FM. induction FM; constructor; auto. }
  assert (Hp : lo p <= lo l < up p /\ lo r < lo l).
  { rewrite Ep in Dp, Gp. rewrite Forall_app in Gp. destruct Gp as [_ Gp]. apply Forall_cons_iff in Gp. destruct Gp as [Gp _]. rewrite desc_app in Dp. cbn [desc fst] in *. destruct Dp as (D1 & D2 & D3 & _). pose proof (bot_le _ _ D1). lia. }
  destruct Hp as [Hp Hlr].
  destruct (SP s3 (level + 1) (Slot (adr p) (zlen q1)) (lo l) sz' X' V1 p' V2 T0 q1 (lo l) (adr r) ((lo r, adr l) :: q2)) as (s4 & v & RE & LO); try assumption; try reflexivity.
  - lia.
  - apply JV', JV1.
  - apply JV', JV2.
  - rewrite FE_app. cbn [FE flat_map p' ent]. rewrite !app_length. cbn [length]. lia.
  - rewrite Ep in Dp. apply (desc_above _ _ _ _ Dp).
  - right. split; [reflexivity|]. split; [reflexivity|discriminate].
  - apply JS.
  - apply JS.
  - assert (EL : KL V1 ++ kids (up p') (q1 ++ (lo r, adr l) :: q2) ++ KL V2 = map head (C1 ++ glued l r :: C2)). { rewrite map_app. cbn [map]. rewrite EC1, EC2. cbn [p' up]. rewrite kids_app. cbn [kids fst snd]. unfold head, glued. cbn [adr lo up]. rewrite Eu, <- !app_assoc. reflexivity. }
    rewrite EL in LO. destruct (climb rec s3 s4 v level (Slot (adr p) (zlen q1)) sz' X (adr r) (C1 ++ glued l r :: C2) Hl RE LO) as (s5 & E5 & FI).
    + assert (FR3 : forall m, In m (C1 ++ C2) -> node_ok (b_heap s) m -> node_ok h3 m). { intros m Hm. apply (node_frame K (b_heap s)). rewrite Oh3, Oh1; [reflexivity|apply NC, in_map, Hm|]. apply Nap. rewrite map_app in *. apply in_app_or in Hm. apply in_or_app. destruct Hm as [Hm|Hm]; [left; apply in_map, Hm|right; right; right; apply in_map, Hm]. }
      cbn [s3 with_heap b_heap]. apply Forall_app. split; [|constructor].
      * rewrite Forall_forall in *. intros m Hm. apply FR3; [apply in_or_app; left; exact Hm|apply FC1, Hm].
      * split; [exact Pl|]. cbn [glued adr lo up ent]. split; [apply (cells_frame K h1); [apply Oh3, (Nap _ Il)|exact C1l]|]. split; [rewrite zlen_app; lia|]. split; [lia|]. split; [lia|]. split; [apply (desc_glue _ (up l) _ (lo l)); try assumption; try (apply Z.le_refl)|].
        -- clear - Gl Dl NEl. destruct (ent l) as [|e es]; [congruence|]. destruct Dl as [D _]. apply Forall_cons_iff in Gl. lia.
        -- rewrite <- Er. exact Dr.
        -- split; apply Forall_app; (split; [|assumption]); [|exact Vl]. eapply Forall_impl; [|exact Gl]. cbn beta. intros; lia.
      * rewrite Forall_forall in *. intros m Hm. apply FR3; [apply in_or_app; right; exact Hm|apply FC2, Hm].
    + apply Forall_app in NE. destruct NE as [NE1 NE2]. apply Forall_cons_iff in NE2. destruct NE2 as [_ NE2]. apply Forall_cons_iff in NE2. destruct NE2 as [_ NE2]. apply Forall_app. split; [exact NE1|]. constructor; [|exact NE2]. cbn [glued ent]. destruct (ent l); [congruence|discriminate].
    + intros m Hm. unfold sz'. apply in_app_or in Hm. destruct Hm as [Hm|[<-|Hm]].
      * destruct (Z.eqb_spec (adr m) (adr l)) as [E|_]; [exfalso; apply (proj1 (NC (adr m) ltac:(apply in_map, in_or_app; left; exact Hm))); exact E|]. apply SZ, in_or_app. left. exact Hm.
      * cbn [glued adr ent]. rewrite Z.eqb_refl, zlen_app. reflexivity.
      * destruct (Z.eqb_spec (adr m) (adr l)) as [E|_]; [exfalso; apply (proj1 (NC (adr m) ltac:(apply in_map, in_or_app; right; exact Hm))); exact E|]. apply SZ, in_or_app. right. exact Hm.
    + assert (PM : Permutation (map adr (C1 ++ l :: r :: C2)) (adr r :: map adr (C1 ++ glued l r :: C2))). { rewrite !map_app. cbn [map glued adr]. change (map adr C1 ++ adr l :: adr r :: map adr C2) with (map adr C1 ++ [adr l] ++ adr r :: map adr C2). rewrite app_assoc. apply Permutation_sym. etransitivity; [|apply Permutation_middle]. rewrite <- app_assoc. reflexivity. }
      apply (Permutation_NoDup PM ND).
    + exact Pr.
    + intros a Ha. apply DX. destruct Ha as [<-|Ha]; [exact Ir|]. rewrite map_app in *. cbn [map glued adr] in *. apply in_app_or in Ha. apply in_or_app. cbn [In] in *. tauto.
    + exists s5. split; [exact E5|]. destruct FI as (B'' & T1 & Q1 & Q2 & Q3). exists B'', T1. split; [exact Q1|]. split; [|exact Q3]. intros a Ha. rewrite (Q2 a Ha). cbn [s3 with_heap b_heap]. rewrite Oh3, Oh1; [reflexivity| |]; intros ->; [apply (DX (adr l) Il Ha)|]. apply (O2 _ Ip), in_or_app. right. exact Ha.
Qed.

Lemma desc_bot : forall es b, desc b es -> Forall (fun e => bot b es <= fst e) es.
Proof. induction es as [|e r IH]; intros b D; [constructor|]. destruct D as [_ D]. cbn [bot]. constructor; [apply bot_le, D|apply IH, D]. Qed.
Lemma kids_split : forall es b A x Z, kids b es = A ++ x :: Z -> exists p1 p3, es = p1 ++ (klo x, kad x) :: p3 /\ A = kids b p1 /\ kup x = bot b p1 /\ Z = kids (klo x) p3.
Proof.
  induction es as [|[s c] r IH]; intros b A x Z E; cbn [kids fst snd] in E; [destruct A; discriminate|]. destruct A as [|y A]; cbn [app] in E.
  - injection E as <- <-. exists [], r. auto.
  - injection E as <- E. destruct (IH _ _ _ _ E) as (p1 & p3 & -> & -> & E3 & ->). exists ((s, c) :: p1), p3. auto.
Qed.
Lemma KL_split : forall V A x Z, KL V = A ++ x :: Z -> exists V1 p V2 p1 p3, V = V1 ++ p :: V2 /\ ent p = p1 ++ (klo x, kad x) :: p3 /\ A = KL V1 ++ kids (up p) p1 /\ kup x = bot (up p) p1 /\ Z = kids (klo x) p3 ++ KL V2.
Proof.
  induction V as [|v V IH]; intros A x Z E; [destruct A; discriminate|]. rewrite KL_cons in E. destruct (app_mid _ _ _ _ _ _ (eq_sym E)) as [(q & -> & E')|(q & E' & ->)].
  - destruct (IH _ _ _ E') as (V1 & p & V2 & p1 & p3 & -> & E1 & -> & E2 & E3). exists (v :: V1), p, V2, p1, p3. rewrite KL_cons, <- app_assoc. auto.
  - destruct (kids_split _ _ _ _ _ E') as (p1 & p3 & E1 & -> & E2 & ->). exists [], v, V, p1, p3. auto.
Qed.
Lemma left_grown : forall s L L1 level sz X s', grown L L1 -> left_over s L1 level sz X s' -> left_over s L level sz X s'.
Proof.
  intros s L L1 level sz X s' G (T1 & Q1 & Q2 & Q3 & Q4 & Q5). exists T1. split; [exact Q1|]. split; [exact Q2|]. split; [exact Q3|]. split; [exact Q4|]. destruct T1 as [|B T1].
  - destruct Q5 as (Hl & x & -> & E). split; [exact Hl|]. inversion G as [|y ? ? R (G1 & _) G2]; subst. inversion G2; subst. exists y. split; [reflexivity|congruence].
  - destruct Q5 as (Q5 & Q6 & Q7 & Q8). split; [exact Q5|]. split; [exact Q6|]. split; [apply (grown_trans _ _ _ G Q7)|]. intros Hl. specialize (Q8 Hl). assert (EL : length L = length L1) by (clear - G; induction G; cbn [length]; auto). lia.
Qed.
Lemma J_ext : forall (f g : Z -> Z) (es : list (Z * Z)), (forall e, In e es -> f (snd e) = g (snd e)) -> map (fun e => f (snd e)) es = map (fun e => g (snd e)) es.
Proof. intros f g es E. apply map_ext_in, E. Qed.

Definition cut_tail (rec : root -> Z -> kref -> option (root * Z)) (s : root) (level : Z) (key : kref) (node last : Z) : option root :=
  if last <? K / 2 then
    if level <? b_height s then remove_rebalance K rec s level key node last
    else if last =? 1 then btree_shrink K s else Some s
  else Some s.
Section Tail.
Variable rec : root -> Z -> kref -> option (root * Z).
Variables (s0 : root) (h2 : heap) (level k : Z) (key : kref) (sz : Z -> Z) (X : list Z) (B1 B2 : list node) (n : node) (T : list (list node)) (e1 e2 : list (Z * Z)) (x : Z * Z).
Let B := B1 ++ n :: B2.
Let n' := {| adr := adr n; lo := lo n; up := up n; ent := e1 ++ e2 |}.
Let s := with_heap s0 h2.
Let L1 := KL B1 ++ kids (up n) (e1 ++ e2) ++ KL B2.
Hypothesis SP : T <> [] -> rspec rec (length T).
Hypothesis Hl : 1 <= level.
Hypothesis Hh : b_height s0 = level + zlen T.
Hypothesis W : tower (b_heap s0) (b_node s0) (B :: T).
Hypothesis Ow : owned (b_heap s0) (B :: T) X.
Hypothesis Bo : born al s0.
Hypothesis On2 : only (b_heap s0) h2 (adr n).
Hypothesis Nn' : node_ok h2 n'.
Hypothesis JB1 : Forall (Jn sz) B1.
Hypothesis JB2 : Forall (Jn sz) B2.
Hypothesis JE : J H (map (fun e => sz (snd e)) (e1 ++ e2)).
Hypothesis SE : strong H (map (fun e => sz (snd e)) (e1 ++ e2)).
Hypothesis En : ent n = e1 ++ x :: e2.
Hypothesis Hk : lo n <= k < up n.
Hypothesis De : forall h', h' (adr n) = h2 (adr n) -> deref h' key = Some k.
Hypothesis Ke : e1 ++ e2 = [] -> key = Val k.
Hypothesis TWO : 2 <= level -> (2 <= length (FE B))%nat.

Lemma tl_in : In (adr n) (addrs (B :: T)).
Proof. rewrite addrs_cons. unfold B. rewrite map_app. apply in_or_app. left. apply in_or_app. right. left. reflexivity. Qed.
Lemma tl_X : ~ In (adr n) X.
Proof. apply Ow, tl_in. Qed.
Lemma tl_same : same_on X (b_heap s0) h2.
Proof. intros a Ha. apply On2. intros ->. apply (tl_X Ha). Qed.
Lemma tl_nodup : NoDup (map adr B) /\ NoDup (addrs T) /\ (forall a, In a (map adr B) -> ~ In a (addrs T)) /\ ~ In (adr n) (map adr B1) /\ ~ In (adr n) (map adr B2).
Proof.
  destruct Ow as (O1 & _). destruct (nodup_tail _ _ O1) as (ND1 & ND2 & ND3). split; [exact ND1|]. split; [exact ND2|]. split; [exact ND3|]. unfold B in ND1. rewrite map_app in ND1. cbn [map] in ND1. apply NoDup_remove_2 in ND1. rewrite in_app_iff in ND1. tauto.
Qed.
Lemma tl_dom : forall a, h2 a <> None <-> b_heap s0 a <> None.
Proof.
  intros a. destruct (Z.eq_dec a (adr n)) as [->|N]; [|rewrite (On2 a N); reflexivity]. split; intros _; [|apply (cells_some K _ _ _ (proj1 (proj2 Nn')))]. apply (tower_some K H _ _ _ _ W tl_in).
Qed.
Lemma tl_born : born al s.
Proof. apply (born_sub al s0); [exact Bo| |cbn; lia]. intros a. apply tl_dom. Qed.
Lemma tl_nodes : Forall (node_ok h2) (B1 ++ n' :: B2).
Proof.
  pose proof (proj1 W) as F. unfold B in F. apply Forall_app in F. destruct F as [F1 F2]. apply Forall_cons_iff in F2. destruct F2 as [_ F2]. destruct tl_nodup as (_ & _ & _ & N1 & N2). apply Forall_app. split; [|constructor; [exact Nn'|]].
  - apply (nodes_frame K (b_heap s0)); [|exact F1]. intros a Ha. apply On2. intros ->. contradiction.
  - apply (nodes_frame K (b_heap s0)); [|exact F2]. intros a Ha. apply On2. intros ->. contradiction.
Qed.
Lemma tl_owned : owned h2 ((B1 ++ n' :: B2) :: T) X.
Proof. apply (owned_dom (b_heap s0) h2 _ _ _ X Ow); [rewrite !addrs_cons; unfold B; rewrite !map_app; reflexivity|apply tl_dom|reflexivity]. Qed.
Lemma tl_length : length L1 = (length (FE B) - 1)%nat.
Proof. unfold L1, B. rewrite FE_app. cbn [FE flat_map]. fold (FE B2). rewrite En, !app_length, !KL_length, kids_length, app_length. cbn [length]. lia. Qed.
Lemma tl_KL : KL (B1 ++ n' :: B2) = L1.
Proof. unfold L1. rewrite KL_app, KL_cons. reflexivity. Qed.
Lemma tl_J : Forall (Jn sz) (B1 ++ n' :: B2).
Proof. apply Forall_app. split; [exact JB1|]. constructor; [exact JE|exact JB2]. Qed.
(** nothing to be done above *)
Lemma tl_stay : tower h2 (b_node s0) ((B1 ++ n' :: B2) :: T) -> (2 <= level -> (2 <= length L1)%nat) -> left_over s0 L1 level sz X s.
Proof.
  intros W2 LL. exists ((B1 ++ n' :: B2) :: T). split; [exact tl_born|]. split; [exact tl_same|]. split; [exact tl_owned|]. split; [cbn [s with_heap b_height]; rewrite zlen_cons; lia|]. split; [exact W2|]. split; [exact tl_J|]. split; [rewrite tl_KL; apply grown_refl|exact LL].
Qed.
Lemma tl_big : H <= zlen (e1 ++ e2) -> left_over s0 L1 level sz X s.
Proof.
  intros L. pose proof HH as HH2. apply tl_stay; [apply (grow_bottom K H KH HK T B1 n n' B2 (b_heap s0) h2 _ W (proj1 Ow) On2 Nn' eq_refl); right; exact L|].
  intros _. unfold L1. rewrite !app_length, kids_length. unfold zlen in L. lia.
Qed.
Lemma tl_root : T = [] -> zlen (e1 ++ e2) < H -> exists s', (if zlen (e1 ++ e2) =? 1 then btree_shrink K s else Some s) = Some s' /\ left_over s0 L1 level sz X s'.
Proof.
  intros ET L. assert (EB : B1 = [] /\ B2 = [] /\ adr n = b_node s0 /\ lo n = 0 /\ up n = 2 ^ 64).
  { rewrite ET in W. destruct W as [_ (m & EB & W1 & W2 & W3)]. unfold B in EB. destruct B1 as [|y C1]; cbn [app] in EB; [|apply (f_equal (@length _)) in EB; cbn [length] in EB; rewrite app_length in EB; cbn in EB; lia]. injection EB as -> ->. auto. }
  destruct EB as (EB1 & EB2 & Er & El & Eu). pose proof tl_length as LL.
  assert (ST : (2 <= level -> (2 <= length L1)%nat) -> left_over s0 L1 level sz X s). { intros G. apply tl_stay; [|exact G]. rewrite ET, EB1, EB2. split; [constructor; [exact Nn'|constructor]|]. exists n'. auto. }
  assert (LE : length L1 = length (e1 ++ e2)) by (unfold L1; rewrite EB1, EB2, !app_length, kids_length, app_length; cbn [KL flat_map length]; lia).
  destruct (Z.eqb_spec (zlen (e1 ++ e2)) 1) as [E1|N1].
  - unfold btree_shrink. cbn [s with_heap b_height b_heap b_node b_clock]. destruct (Z.ltb_spec (b_height s0) 2) as [Lh|Gh]; [exists s; split; [reflexivity|]; apply ST; intros; rewrite ET, zlen_nil in Hh; lia|].
    assert (EE : exists s1 c1, e1 ++ e2 = [(s1, c1)]). { clear - E1. destruct (e1 ++ e2) as [|[s1 c1] [|? l]]; [rewrite zlen_nil in E1; lia|exists s1, c1; reflexivity|]. rewrite !zlen_cons in E1. pose proof (zlen_nonneg _ l). lia. }
    destruct EE as (s1 & c1 & EE). rewrite <- Er. destruct Nn' as (P & C & _). unfold n' in C, P. cbn [adr ent] in C, P. rewrite (get_value_ok K HK' _ _ _ 0 C) by lia. rewrite EE, slot_0. cbn [snd]. unfold node_free. cbn [b_heap].
    destruct (Z.eqb_spec (adr n) NULL) as [Q|_]; [unfold NULL in Q; lia|]. assert (Sn : exists bb, h2 (adr n) = Some bb) by (destruct C as (bb & Eb & _); exists bb; exact Eb). destruct Sn as (bb & Eb). rewrite Eb. eexists. split; [reflexivity|]. exists []. cbn [with_heap b_heap b_node b_height].
    pose proof tl_owned as (_ & _ & O3). rewrite ET, EB1, EB2 in O3. split; [|split; [|split; [|split]]].
    + apply (born_sub al s); [exact tl_born| |cbn; lia]. cbn [s with_heap b_heap]. intros a. destruct (Z.eq_dec a (adr n)) as [->|N]; [rewrite hset_same; congruence|rewrite hset_other by exact N; auto].
    + intros a Ha. rewrite hset_other by (intros ->; apply (tl_X Ha)). apply tl_same, Ha.
    + split; [constructor|]. split; [intros a []|]. intros a. destruct (Z.eq_dec a (adr n)) as [->|N]; [rewrite hset_same; split; [congruence|]; intros [[]|Q]; exfalso; apply (tl_X Q)|]. rewrite hset_other by exact N. rewrite O3. cbn [addrs concat map app In n' adr]. clear - N. split; [intros [[Q|[]]|Q]; [congruence|auto]|tauto].
    + rewrite zlen_nil. rewrite ET, zlen_nil in Hh. lia.
    + rewrite ET, zlen_nil in Hh. split; [lia|]. exists (c1, s1, up n). split; [|reflexivity]. unfold L1. rewrite EB1, EB2, EE. reflexivity.
  - exists s. split; [reflexivity|]. apply ST. intros Hl2. specialize (TWO Hl2). unfold zlen in N1. lia.
Qed.
Lemma tl_upper : forall V T0, T = V :: T0 -> exists sz0, (forall m, In m B -> sz0 (adr m) = zlen (ent m)) /\ Forall (Jn sz0) V /\ KL V = map head B1 ++ head n :: map head B2 /\ Forall (fun m => ent m <> []) B1 /\ Forall (fun m => ent m <> []) B2 /\
  tower h2 (b_node s0) T /\ owned h2 T (map adr (B1 ++ n' :: B2) ++ X) /\ (2 <= level -> (2 <= length L1)%nat) /\ (2 <= length (FE V))%nat.
Proof.
  intros V T0 ET. destruct tl_nodup as (ND1 & ND2 & ND3 & _). pose proof (below_two K H) as TW. pose proof W as W'. rewrite ET in W'. specialize (TW _ _ _ _ _ W'). destruct W' as (F & W1 & W2 & W3 & (sz0 & W4 & W4') & W5). exists sz0. split; [exact W4|]. split; [exact W4'|]. split; [rewrite W2; unfold B; rewrite map_app; reflexivity|].
  unfold B in W1. apply Forall_app in W1. destruct W1 as [W1a W1b]. apply Forall_cons_iff in W1b. destruct W1b as [_ W1b]. split; [exact W1a|]. split; [exact W1b|]. split.
  { rewrite ET. apply (tower_frame K H _ (b_heap s0)); [|exact W5]. intros a Ha. apply On2. intros ->. apply (ND3 (adr n)); [|rewrite ET; exact Ha]. unfold B. apply in_map, in_mid. }
  split.
  { destruct tl_owned as (O1 & O2 & O3). rewrite addrs_cons in O2. split; [exact ND2|]. split.
    - intros a Ha I. apply in_app_or in I. destruct I as [I|I]; [apply (ND3 a); [|exact Ha]; unfold B; rewrite map_app in *; exact I|]. apply (O2 a); [apply in_or_app; right; exact Ha|exact I].
    - intros a. rewrite O3, addrs_cons, !in_app_iff. tauto. }
  split; [|exact TW]. intros _. rewrite tl_length. pose proof (count T B _ _ W ltac:(rewrite ET; discriminate)). unfold B in *. rewrite app_length in *. cbn [length] in *. lia.
Qed.
Lemma tl_drop : forall V T0, T = V :: T0 -> e1 ++ e2 = [] -> exists s', (let* (s, _) := rec s (level + 1) key in node_free s (adr n)) = Some s' /\ left_over s0 L1 level sz X s'.
Proof.
  intros V T0 ET EE. destruct (tl_upper V T0 ET) as (sz0 & SZ & JV & EK & NE1 & NE2 & W2 & Ow2 & LL & TW). destruct tl_nodup as (ND1 & ND2 & ND3 & NI1 & NI2). rewrite ET in W2, Ow2.
  destruct (KL_split _ _ _ _ EK) as (V1 & p & V2 & p1 & p3 & EV & Ep & EA & Eu & EZ). change (klo (head n)) with (lo n) in Ep, EZ. change (kad (head n)) with (adr n) in Ep. change (kup (head n)) with (up n) in Eu. rewrite EV in *.
  assert (Op : node_ok h2 p) by (pose proof (proj1 W2) as G; rewrite Forall_forall in G; apply G, in_mid). destruct Op as (Pp & Cp & Lp & L0p & LUp & Dp & Gp & Vp). rewrite Ep in Dp, Gp. rewrite desc_app in Dp. destruct Dp as [Dp1 Dp2]. apply Forall_app in Gp. destruct Gp as [_ Gp]. apply Forall_cons_iff in Gp. destruct Gp as [Gp _]. cbn [fst] in Gp. pose proof (bot_le _ _ Dp1) as BL.
  apply Forall_app in JV. destruct JV as [JV1 JV2]. apply Forall_cons_iff in JV2. destruct JV2 as [JP JV2].
  assert (S1 : sz0 (adr n) = 1). { rewrite SZ by (unfold B; apply in_mid). rewrite En. destruct (app_eq_nil _ _ EE) as [-> ->]. reflexivity. }
  unfold BtreeTower.Jn in JP. rewrite Ep, map_app in JP. cbn [map snd] in JP. rewrite S1 in JP. destruct (J_drop H _ _ JP) as [JD SD]. rewrite <- map_app in JD, SD.
  set (X' := adr n :: map adr (B1 ++ B2) ++ X).
  assert (OwX : owned h2 ((V1 ++ p :: V2) :: T0) X'). { apply (owned_dom h2 h2 _ _ _ X' Ow2); [reflexivity|reflexivity|]. intros a. unfold X'. cbn [In]. rewrite !map_app, !in_app_iff. cbn [map In n' adr]. clear. tauto. }
  destruct (SP ltac:(rewrite ET; discriminate) s (level + 1) key k sz0 X' V1 p V2 T0 p1 (lo n) (adr n) p3) as (s4 & v & RE & LO); try assumption.
  - rewrite ET. reflexivity.
  - lia.
  - cbn [s with_heap b_height]. rewrite ET, zlen_cons in Hh. lia.
  - exact tl_born.
  - lia.
  - eapply Forall_impl; [|apply (desc_bot _ _ Dp1)]. cbn beta. intros; lia.
  - lia.
  - left. apply Ke, EE.
  - assert (GR : grown (map head (B1 ++ B2)) (KL V1 ++ kids (up p) (p1 ++ p3) ++ KL V2)).
    { rewrite map_app, EA, EZ, kids_app, <- !app_assoc. apply Forall2_app; [apply grown_refl|]. apply Forall2_app; [apply grown_refl|]. apply Forall2_app; [apply grown_kids; lia|apply grown_refl]. }
    pose proof (left_grown _ _ _ _ _ _ _ GR LO) as LO'. destruct (climb rec s s4 v level key sz0 X (adr n) (B1 ++ B2) Hl RE LO') as (s5 & E5 & FI).
    + pose proof tl_nodes as G. apply Forall_app in G. destruct G as [G1 G2]. apply Forall_cons_iff in G2. apply Forall_app. split; [exact G1|apply G2].
    + apply Forall_app. split; assumption.
    + intros m Hm. apply SZ. unfold B. apply in_app_or in Hm. apply in_or_app. cbn [In]. tauto.
    + unfold B in ND1. rewrite map_app in *. cbn [map] in ND1. constructor; [rewrite in_app_iff; tauto|]. apply (NoDup_remove_1 _ _ _ ND1).
    + apply Nn'.
    + intros a Ha. apply Ow. rewrite addrs_cons. apply in_or_app. left. unfold B. rewrite map_app in *. cbn [map]. destruct Ha as [<-|Ha]; [apply in_or_app; right; left; reflexivity|]. apply in_app_or in Ha. apply in_or_app. cbn [In]. tauto.
    + exists s5. split; [exact E5|]. apply (settle s s0 L1 (B1 ++ B2) level sz X s5 FI); [exact tl_same|apply Forall_app; split; assumption| |exact LL]. unfold L1. rewrite EE, KL_app. apply grown_refl.
Qed.
Lemma tl_keep : forall V T0 sz0 h3 V1 p V2 T3 p1 p3, T = V :: T0 -> (forall m, In m B -> sz0 (adr m) = zlen (ent m)) -> Forall (fun m => ent m <> []) B1 -> Forall (fun m => ent m <> []) B2 -> (2 <= level -> (2 <= length L1)%nat) ->
  tower h3 (b_node s0) ((V1 ++ p :: V2) :: T3) -> Forall (Jn sz0) (V1 ++ p :: V2) -> owned h3 ((V1 ++ p :: V2) :: T3) (map adr (B1 ++ n' :: B2) ++ X) -> born al (with_heap s h3) -> length T3 = length T0 -> (forall a, In a (map adr (B1 ++ n' :: B2) ++ X) -> h3 a = h2 a) ->
  ent p = p1 ++ (lo n, adr n) :: p3 -> up n = bot (up p) p1 -> map head B1 = KL V1 ++ kids (up p) p1 -> map head B2 = kids (lo n) p3 ++ KL V2 -> e1 ++ e2 <> [] ->
  (forall C1 l, B1 = C1 ++ [l] -> p1 <> [] -> H <= zlen (ent l)) -> (forall r C2, B2 = r :: C2 -> p3 <> [] -> H <= zlen (ent r)) -> left_over s0 L1 level sz X (with_heap s h3).
Proof.
  intros V T0 sz0 h3 V1 p V2 T3 p1 p3 ET SZ NE1 NE2 LL W3 JV Ow3 Bo3 EL Fr Ep Eu E1 E2 NE HL HR. destruct tl_nodup as (ND1 & ND2 & ND3 & NI1 & NI2). pose proof Ow3 as (O1 & O2 & O3).
  exists ((B1 ++ n' :: B2) :: (V1 ++ p :: V2) :: T3). cbn [s with_heap b_heap b_node b_height]. split; [exact Bo3|]. split. { intros a Ha. rewrite Fr by (apply in_or_app; right; exact Ha). apply tl_same, Ha. }
  split.
  { unfold owned. rewrite (addrs_cons (B1 ++ n' :: B2)). assert (EB : map adr (B1 ++ n' :: B2) = map adr B) by (unfold B; rewrite !map_app; reflexivity). split; [|split].
    - rewrite EB. clear - ND1 O1 O2 EB. rewrite EB in O2. assert (G : forall a, In a (addrs ((V1 ++ p :: V2) :: T3)) -> ~ In a (map adr B)) by (intros a Ha I; apply (O2 a Ha), in_or_app; left; exact I). clear O2 EB. revert ND1 G. generalize (map adr B) as L. induction L as [|y L IH]; intros ND' G; cbn [app]; [exact O1|]. inversion ND' as [|? ? Ny NL]; subst. constructor.
      + intros I. apply in_app_or in I. destruct I as [I|I]; [contradiction|]. apply (G y I). left. reflexivity.
      + apply IH; [exact NL|]. intros a Ha I. apply (G a Ha). right. exact I.
    - intros a I IX. apply in_app_or in I. destruct I as [I|I]; [|apply (O2 a I), in_or_app; right; exact IX]. rewrite EB in I. destruct Ow as (_ & Q & _). apply (Q a); [rewrite addrs_cons; apply in_or_app; left; exact I|exact IX].
    - intros a. rewrite O3, !in_app_iff. tauto. }
  split. { rewrite !zlen_cons. rewrite ET, zlen_cons in Hh. unfold zlen in *. lia. }
  split; [|split; [exact tl_J|split; [rewrite tl_KL; apply grown_refl|exact LL]]].
  split; [apply (nodes_frame K h2); [|exact tl_nodes]; intros a Ha; apply Fr, in_or_app; left; exact Ha|]. split; [apply Forall_app; split; [exact NE1|constructor; [exact NE|exact NE2]]|]. split.
  { rewrite KL_app, KL_cons, Ep, kids_app, map_app, E1. cbn [map kids fst snd]. rewrite E2. unfold head at 1. cbn [n' adr lo up]. rewrite Eu, <- !app_assoc. reflexivity. }
  split. { pose proof W as W'. rewrite ET in W'. destruct W' as (_ & _ & _ & Q & _). unfold B in Q. rewrite app_length in *. exact Q. }
  split; [|exact W3]. exists (fun a => if a =? adr n then zlen (e1 ++ e2) else sz0 a). split.
  { intros m Hm. apply in_app_or in Hm. destruct Hm as [Hm|[<-|Hm]].
    - destruct (Z.eqb_spec (adr m) (adr n)) as [E|_]; [exfalso; apply NI1; rewrite <- E; apply in_map, Hm|]. apply SZ. unfold B. apply in_or_app. left. exact Hm.
    - cbn [n' adr ent]. rewrite Z.eqb_refl. reflexivity.
    - destruct (Z.eqb_spec (adr m) (adr n)) as [E|_]; [exfalso; apply NI2; rewrite <- E; apply in_map, Hm|]. apply SZ. unfold B. apply in_or_app. right. right. exact Hm. }
  set (sz1 := fun a => if a =? adr n then zlen (e1 ++ e2) else sz0 a).
  assert (S1 : forall a, In a (map adr B1) \/ In a (map adr B2) -> sz1 a = sz0 a). { intros a Ha. unfold sz1. destruct (Z.eqb_spec a (adr n)) as [->|_]; [tauto|reflexivity]. }
  assert (AB : forall L C, map head C = L -> map adr C = map kad L) by (intros L C <-; rewrite map_map; reflexivity).
  assert (KE : forall es b e, In e es -> In (snd e) (map kad (kids b es))). { induction es as [|y r IH]; intros b e I; [destruct I|]. cbn [kids map]. destruct I as [<-|I]; [left; reflexivity|right; apply IH, I]. }
  assert (KF : forall C e v, In v C -> In e (ent v) -> In (snd e) (map kad (KL C))). { intros C e v Iv Ie. apply in_split in Iv. destruct Iv as (Y1 & Y2 & ->). rewrite KL_app, KL_cons, !map_app. apply in_or_app. right. apply in_or_app. left. apply KE, Ie. }
  apply AB in E1. apply AB in E2. rewrite map_app in E1, E2. apply Forall_app in JV. destruct JV as [JV1 JV2]. apply Forall_cons_iff in JV2. destruct JV2 as [JP JV2]. apply Forall_app. split; [|constructor].
  - rewrite Forall_forall in *. intros v Hv. unfold BtreeTower.Jn. rewrite (J_ext sz1 sz0); [apply JV1, Hv|]. intros e He. apply S1. left. rewrite E1. apply in_or_app. left. apply (KF _ _ v); assumption.
  - unfold BtreeTower.Jn in *. rewrite Ep, map_app in *. cbn [map snd] in *. rewrite (J_ext sz1 sz0 p1), (J_ext sz1 sz0 p3); [|intros e He; apply S1; right; rewrite E2; apply in_or_app; left; apply KE, He|intros e He; apply S1; left; rewrite E1; apply in_or_app; right; apply KE, He].
    apply (J_low H HH _ (sz0 (adr n))); [exact JP| | |].
    + unfold sz1. rewrite Z.eqb_refl. destruct (e1 ++ e2) as [|y q]; [congruence|]. rewrite zlen_cons. pose proof (zlen_nonneg _ q). lia.
    + intros A' a EA. destruct p1 as [|[sl cl] p0 _] using rev_ind; [destruct A'; discriminate|]. rewrite map_app in EA. cbn [map snd] in EA. apply app_inj_tail in EA. destruct EA as [_ <-]. rewrite kids_app, !map_app, app_assoc in E1. cbn [kids map] in E1. destruct B1 as [|l C1 _] eqn:EB1 using rev_ind.
      * exfalso. apply (f_equal (@length _)) in E1. rewrite !app_length in E1. cbn in E1. lia.
      * rewrite map_app in E1. cbn [map] in E1. apply app_inj_tail in E1. destruct E1 as [_ E1]. unfold kad in E1. cbn [fst snd] in E1. rewrite <- E1, SZ by (unfold B; apply in_or_app; left; apply in_or_app; right; left; reflexivity). apply (HL C1 l eq_refl). destruct p0; discriminate.
    + intros z Z' EZ. destruct p3 as [|[sr cr] p4]; [discriminate|]. cbn [map snd] in EZ. injection EZ as <- _. cbn [kids map app fst snd] in E2. destruct B2 as [|r C2] eqn:EB2; [discriminate|]. cbn [map] in E2. injection E2 as E2 _. unfold kad in E2. cbn [fst] in E2. rewrite <- E2, SZ by (unfold B; apply in_or_app; right; right; left; reflexivity). apply (HR r C2 eq_refl). discriminate.
  - rewrite Forall_forall in *. intros v Hv. unfold BtreeTower.Jn. rewrite (J_ext sz1 sz0); [apply JV2, Hv|]. intros e He. apply S1. right. rewrite E2. apply in_or_app. right. apply (KF _ _ v); assumption.
Qed.
Lemma tl_reb : forall V T0, T = V :: T0 -> e1 ++ e2 <> [] -> zlen (e1 ++ e2) < H -> exists s', remove_rebalance K rec s level key (adr n) (zlen (e1 ++ e2)) = Some s' /\ left_over s0 L1 level sz X s'.
Proof.
  intros V T0 ET NE LT. destruct (tl_upper V T0 ET) as (sz0 & SZ & JV & EK & NE1 & NE2 & W2 & Ow2 & LL & TW). destruct tl_nodup as (ND1 & ND2 & ND3 & NI1 & NI2). rewrite ET in W2, Ow2. pose proof HH as HH2.
  assert (PN : 1 <= zlen (e1 ++ e2)) by (clear - NE; destruct (e1 ++ e2) as [|y q]; [congruence|]; rewrite zlen_cons; pose proof (zlen_nonneg _ q); lia).
  unfold remove_rebalance. destruct (Z.eqb_spec (zlen (e1 ++ e2)) 0) as [Q|_]; [lia|].
  assert (LB : 0 <= lo n /\ up n <= 2 ^ 64) by (destruct Nn' as (_ & _ & _ & Q1 & Q2 & _); split; assumption).
  assert (XN : forall a, In a (map adr (B1 ++ n' :: B2)) -> ~ In a X). { intros a Ha. destruct tl_owned as (_ & Q & _). apply Q. rewrite addrs_cons. apply in_or_app. left. exact Ha. }
  destruct (round_start K H KH HK al T0 V s (level + 1) key k sz0 (map adr (B1 ++ n' :: B2) ++ X)) as (h3 & V1 & p & V2 & T3 & p1 & p2 & FP & W3 & JV3 & Ow3 & Bo3 & LW & EA & EL & Fr & Dk & Hp & Ep & F1 & F2 & F3 & Op & FI & FL); try assumption.
  - exact tl_born.
  - cbn [s with_heap b_height]. rewrite ET, zlen_cons in Hh. lia.
  - lia.
  - intros h' Q. apply De. apply Q. intros I. apply (ND3 (adr n)); [unfold B; apply in_map, in_mid|]. rewrite ET, addrs_cons. apply in_or_app. right. exact I.
  - rewrite FP. cbn [s with_heap b_heap b_node b_height b_clock]. rewrite FI.
    assert (FrX : forall a, In a (map adr (B1 ++ n' :: B2) ++ X) -> h3 a = h2 a). { intros a Ha. apply Fr. intros I. destruct Ow2 as (_ & Q & _). apply (Q a); [rewrite addrs_cons; apply in_or_app; right; exact I|exact Ha]. }
    assert (EK3 : KL (V1 ++ p :: V2) = map head B1 ++ head n :: map head B2) by (rewrite (lowered_KL _ _ LW); exact EK).
    destruct (kid_at h3 V1 p V2 k p1 p2 _ (head n) _ (proj1 W3) (tower_chain _ _ _ _ _ _ W3) Hp Ep F1 F2 EK3) as (p3 & EP2 & Eu & E1 & E2); [exact Hk|]. change (klo (head n)) with (lo n) in EP2, E2. change (kad (head n)) with (adr n) in EP2. change (kup (head n)) with (up n) in Eu. rewrite EP2 in Ep.
    assert (N3 : Forall (node_ok h3) (B1 ++ n' :: B2)) by (apply (nodes_frame K h2); [|exact tl_nodes]; intros a Ha; apply FrX, in_or_app; left; exact Ha).
    assert (SM3 : same_on X (b_heap s0) h3). { intros a Ha. rewrite FrX by (apply in_or_app; right; exact Ha). apply tl_same, Ha. }
    assert (NEA : Forall (fun m => ent m <> []) (B1 ++ n' :: B2)) by (apply Forall_app; split; [exact NE1|constructor; [exact NE|exact NE2]]).
    assert (SN : sz0 (adr n) = zlen (e1 ++ e2) + 1). { rewrite SZ by (unfold B; apply in_mid). rewrite En, !zlen_app, zlen_cons. lia. }
    assert (ND' : NoDup (map adr (B1 ++ n' :: B2))) by (unfold B in ND1; rewrite map_app in *; exact ND1).
    assert (Hh3 : b_height (with_heap s h3) = level + 1 + zlen T3). { cbn [s with_heap b_height]. rewrite ET, zlen_cons in Hh. unfold zlen in *. lia. }
    assert (SP3 : rspec rec (S (length T3))). { rewrite EL. assert (Q := SP ltac:(rewrite ET; discriminate)). rewrite ET in Q. exact Q. }
    assert (NES : map (fun e => sz (snd e)) (e1 ++ e2) <> []) by (clear - NE; destruct (e1 ++ e2); [congruence|discriminate]).
    assert (ZLS : zlen (map (fun e => sz (snd e)) (e1 ++ e2)) < H) by (unfold zlen in *; rewrite map_length; exact LT).
    pose proof Op as (Pp & Cp & Lp & L0p & LUp & Dp & Gp & Vp).
    assert (Lp1 : zlen p1 + 1 + zlen p3 <= K) by (rewrite Ep, zlen_app, zlen_cons in Lp; lia). pose proof (zlen_nonneg _ p1). pose proof (zlen_nonneg _ p3).
    match goal with |- context [if zlen p1 =? 0 then Some None else ?q] => set (left_part := q) end.
    assert (LEFT : exists try : option root, (if zlen p1 =? 0 then Some None else left_part) = Some try /\ (try = None -> forall C1 l, B1 = C1 ++ [l] -> p1 <> [] -> H <= zlen (ent l)) /\ (forall s', try = Some s' -> left_over s0 L1 level sz X s')).
    { destruct (Z.eqb_spec (zlen p1) 0) as [Z0|NZ].
      { exists None. split; [reflexivity|]. split; [|discriminate]. intros _ C1 l _ Q. exfalso. apply Q. clear - Z0. destruct p1; [reflexivity|]. rewrite zlen_cons in Z0. pose proof (zlen_nonneg _ p1). lia. }
      assert (EP1 : exists p0 sl cl, p1 = p0 ++ [(sl, cl)]). { clear - NZ. destruct p1 as [|[sl cl] p0 _] using rev_ind; [rewrite zlen_nil in NZ; congruence|]. exists p0, sl, cl. reflexivity. }
      destruct EP1 as (p0 & sl & cl & EP1). pose proof E1 as E1'. rewrite EP1, kids_app, app_assoc in E1'. cbn [kids fst snd] in E1'.
      assert (EB1 : exists C1 l, B1 = C1 ++ [l] /\ map head C1 = KL V1 ++ kids (up p) p0 /\ head l = (cl, sl, bot (up p) p0)).
      { symmetry in E1'. destruct (map_split _ _ _ _ _ _ _ E1') as (C1 & l & Z' & Q1 & Q2 & Q3 & Q4). destruct Z'; [|discriminate]. exists C1, l. auto. }
      destruct EB1 as (C1 & l & EB1 & EC1 & Hd). unfold head in Hd. injection Hd as Al Lol Upl.
      assert (EPP : ent p = p0 ++ (lo l, adr l) :: (lo n, adr n) :: p3) by (rewrite Ep, EP1, <- app_assoc, Lol, Al; reflexivity).
      assert (Z1 : zlen p1 - 1 = zlen p0) by (rewrite EP1, zlen_app, zlen_cons, zlen_nil; lia).
      assert (Ol : node_ok h3 l). { rewrite EB1, <- app_assoc in N3. rewrite Forall_forall in N3. apply N3, in_mid. } pose proof Ol as (Pl & Cl & Ll & L0l & LUl & Dl & Gl & Vl).
      unfold left_part. cbn [with_heap b_heap]. rewrite Z1. rewrite (get_value_ok K HK' h3 (adr p) _ (zlen p0) Cp) by (pose proof (zlen_nonneg _ p0); lia). rewrite EPP, slot_mid. cbn [snd].
      rewrite (fill_ok K HK' h3 (adr l) (ent l) 0 Cl Vl Ll) by (pose proof (zlen_nonneg _ (ent l)); lia).
      destruct (Z.leb_spec (zlen (e1 ++ e2) + zlen (ent l)) K) as [FIT|BIG].
      2:{ exists None. split; [reflexivity|]. split; [|discriminate]. intros _ D1 l' Q _. rewrite EB1 in Q. apply app_inj_tail in Q. destruct Q as [_ <-]. lia. }
      assert (EBB : B1 ++ n' :: B2 = C1 ++ l :: n' :: B2) by (rewrite EB1, <- app_assoc; reflexivity).
      destruct (merge_ok rec (with_heap s h3) level sz0 X V1 p V2 T3 p0 p3 C1 l n' B2) as (s2 & E3 & FN); try assumption.
      + cbn [with_heap b_heap]. rewrite <- EBB. exact Ow3.
      + rewrite <- EBB. exact ND'.
      + rewrite <- EBB. exact XN.
      + cbn [n' up]. rewrite Eu, EP1, bot_app. cbn [bot fst]. symmetry. exact Lol.
      + rewrite <- EBB. exact N3.
      + rewrite <- EBB. exact NEA.
      + cbn [n' ent]. lia.
      + cbn [n' ent adr]. rewrite SN, (SZ l) by (unfold B; rewrite EB1; apply in_or_app; left; apply in_mid). lia.
      + cbn [n' adr]. lia.
      + intros m Hm. apply SZ. unfold B. rewrite EB1. apply in_app_or in Hm. rewrite !in_app_iff. cbn [In]. tauto.
      + change (adr n') with (adr n) in E3. change (zlen (ent n')) with (zlen (e1 ++ e2)) in E3. rewrite E3. exists (Some s2). split; [reflexivity|]. split; [discriminate|]. intros s' Q. injection Q as <-.
        assert (JB1' := JB1). rewrite EB1 in JB1'. apply Forall_app in JB1'. destruct JB1' as [JC1 JL]. apply Forall_cons_iff in JL. destruct JL as [JL _]. assert (NEl : ent l <> []). { rewrite EB1 in NE1. apply Forall_app in NE1. destruct NE1 as [_ Q]. apply Forall_cons_iff in Q. apply Q. }
        apply (settle (with_heap s h3) s0 L1 (C1 ++ glued l n' :: B2) level sz X s2 FN SM3).
        * apply Forall_app. split; [exact JC1|]. constructor; [|exact JB2]. unfold BtreeTower.Jn. cbn [glued ent n']. rewrite map_app. apply (J_glue_r H HH); try assumption. clear - NEl. destruct (ent l); [congruence|discriminate].
        * unfold L1. rewrite EB1, !KL_app, !KL_cons. cbn [KL flat_map]. fold (KL B2). cbn [glued ent up n']. rewrite app_nil_r, (kids_app (ent l)), <- !app_assoc. apply Forall2_app; [apply grown_refl|]. apply Forall2_app; [apply grown_refl|]. apply Forall2_app; [|apply grown_refl]. apply grown_kids.
          assert (up n = lo l) by (rewrite Eu, EP1, bot_app; cbn [bot fst]; symmetry; exact Lol). rewrite H2. apply bot_ge; [|exact Gl]. clear - Gl Dl NEl. destruct (ent l) as [|e es]; [congruence|]. destruct Dl as [D _]. apply Forall_cons_iff in Gl. lia.
        * exact LL. }
    destruct LEFT as (try & ETRY & HL & HS). rewrite ETRY. clear left_part ETRY. destruct try as [s'|]; [exists s'; split; [reflexivity|apply HS, eq_refl]|]. specialize (HL eq_refl). clear HS.
    assert (KEEP : (forall r C2, B2 = r :: C2 -> p3 <> [] -> H <= zlen (ent r)) -> left_over s0 L1 level sz X (with_heap s h3)).
    { intros HR. apply (tl_keep V T0 sz0 h3 V1 p V2 T3 p1 p3); assumption. }
    cbn [with_heap b_heap]. rewrite FL by (rewrite Ep, zlen_app, zlen_cons; lia). rewrite Ep, zlen_app, zlen_cons. destruct (Z.ltb_spec (zlen p1 + 1) (zlen p1 + (zlen p3 + 1))) as [L3|G3].
    2:{ exists (with_heap s h3). split; [reflexivity|]. apply KEEP. intros r C2 _ Q. exfalso. apply Q. clear - G3. destruct p3; [reflexivity|]. rewrite zlen_cons in G3. pose proof (zlen_nonneg _ p3). lia. }
    assert (EP3 : exists sr cr p4, p3 = (sr, cr) :: p4). { clear - L3. destruct p3 as [|[sr cr] p4]; [rewrite zlen_nil in L3; lia|]. exists sr, cr, p4. reflexivity. }
    destruct EP3 as (sr & cr & p4 & EP3). pose proof E2 as E2'. rewrite EP3 in E2'. cbn [kids fst snd app] in E2'.
    assert (EB2 : exists r C2, B2 = r :: C2 /\ map head C2 = kids sr p4 ++ KL V2 /\ head r = (cr, sr, lo n)). { clear - E2'. destruct B2 as [|r C2]; [discriminate|]. assert (Q1 := f_equal (hd (0, 0, 0)) E2'). assert (Q2 := f_equal (@tl _) E2'). exists r, C2. split; [reflexivity|]. split; [exact Q2|exact Q1]. }
    destruct EB2 as (r & C2 & EB2 & EC2 & Hd). unfold head in Hd. injection Hd as Ar Lor Upr.
    assert (EPP : ent p = p1 ++ (lo n, adr n) :: (lo r, adr r) :: p4) by (rewrite Ep, EP3, Lor, Ar; reflexivity).
    assert (EPQ : ent p = (p1 ++ [(lo n, adr n)]) ++ (lo r, adr r) :: p4) by (rewrite EPP, <- app_assoc; reflexivity).
    assert (Or : node_ok h3 r). { rewrite EB2 in N3. rewrite Forall_forall in N3. apply N3. apply in_or_app. right. right. left. reflexivity. } pose proof Or as (Pr & Cr & Lr & L0r & LUr & Dr & Gr & Vr).
    rewrite (get_value_ok K HK' h3 (adr p) _ (zlen p1 + 1) Cp) by lia. replace (zlen p1 + 1) with (zlen (p1 ++ [(lo n, adr n)])) by (rewrite zlen_app, zlen_cons, zlen_nil; lia). rewrite EPQ, slot_mid. cbn [snd].
    rewrite (fill_ok K HK' h3 (adr r) (ent r) 0 Cr Vr Lr) by (pose proof (zlen_nonneg _ (ent r)); lia).
    destruct (Z.leb_spec (zlen (e1 ++ e2) + zlen (ent r)) K) as [FIT|BIG].
    2:{ exists (with_heap s h3). split; [reflexivity|]. apply KEEP. intros r' D2 Q _. rewrite EB2 in Q. injection Q as <- _. lia. }
    destruct (merge_ok rec (with_heap s h3) level sz0 X V1 p V2 T3 p1 p4 B1 n' r C2) as (s2 & E3 & FN); try assumption.
    + rewrite <- EB2. exact Ow3.
    + rewrite <- EB2. exact ND'.
    + rewrite <- EB2. exact XN.
    + rewrite EC2, Lor. reflexivity.
    + rewrite <- EB2. exact N3.
    + rewrite <- EB2. exact NEA.
    + cbn [n' adr ent]. rewrite SN, (SZ r) by (unfold B; rewrite EB2; apply in_or_app; right; right; left; reflexivity). lia.
    + rewrite (SZ r) by (unfold B; rewrite EB2; apply in_or_app; right; right; left; reflexivity). assert (Q : ent r <> []) by (rewrite EB2 in NE2; apply Forall_cons_iff in NE2; apply NE2). clear - Q. destruct (ent r) as [|y q]; [congruence|]. rewrite zlen_cons. pose proof (zlen_nonneg _ q). lia.
    + intros m Hm. apply SZ. unfold B. rewrite EB2. apply in_app_or in Hm. rewrite !in_app_iff. cbn [In]. tauto.
    + change (adr n') with (adr n) in E3. change (zlen (ent n')) with (zlen (e1 ++ e2)) in E3. rewrite E3. exists s2. split; [reflexivity|].
      assert (JB2' := JB2). rewrite EB2 in JB2'. apply Forall_cons_iff in JB2'. destruct JB2' as [JR JC2]. assert (NEr : ent r <> []) by (rewrite EB2 in NE2; apply Forall_cons_iff in NE2; apply NE2).
      apply (settle (with_heap s h3) s0 L1 (B1 ++ glued n' r :: C2) level sz X s2 FN SM3).
      * apply Forall_app. split; [exact JB1|]. constructor; [|exact JC2]. unfold BtreeTower.Jn. cbn [glued ent n']. rewrite map_app. apply (J_glue_l H HH); try assumption. clear - NEr. destruct (ent r); [congruence|discriminate].
      * unfold L1. rewrite EB2, !KL_app, !KL_cons. cbn [glued ent up n']. rewrite (kids_app (e1 ++ e2)), <- !app_assoc. apply Forall2_app; [apply grown_refl|]. apply Forall2_app; [apply grown_refl|]. apply Forall2_app; [|apply grown_refl]. apply grown_kids.
        rewrite Upr. destruct Nn' as (_ & _ & _ & _ & _ & _ & G & _). cbn [n' lo up ent] in G. apply bot_ge; [lia|exact G].
      * exact LL.
Qed.
Lemma tail_ok : exists s', cut_tail rec s level key (adr n) (zlen (e1 ++ e2)) = Some s' /\ left_over s0 L1 level sz X s'.
Proof.
  unfold cut_tail. assert (EH : K / 2 = H) by (clear - KH; lia). rewrite EH. destruct (Z.ltb_spec (zlen (e1 ++ e2)) H) as [LT|GE].
  - cbn [s with_heap b_height]. assert (CT : T = [] \/ exists V T0, T = V :: T0) by (clear; destruct T as [|V T0]; [left; reflexivity|right; exists V, T0; reflexivity]). destruct CT as [ET|(V & T0 & ET)].
    + rewrite Hh, ET, zlen_nil. destruct (Z.ltb_spec level (level + 0)) as [Q|_]; [lia|]. apply (tl_root ET LT).
    + assert (Q : level <? b_height s0 = true) by (rewrite Hh, ET, zlen_cons; pose proof (zlen_nonneg _ T0); apply Z.ltb_lt; lia). rewrite Q. assert (CE : e1 ++ e2 = [] \/ e1 ++ e2 <> []) by (clear; destruct (e1 ++ e2); [left; reflexivity|right; discriminate]). destruct CE as [EE|NE].
      * unfold remove_rebalance. rewrite EE, zlen_nil. cbn [Z.eqb]. apply (tl_drop V T0 ET EE).
      * apply (tl_reb V T0 ET NE LT).
  - exists s. split; [reflexivity|]. apply (tl_big GE).
Qed.
End Tail.

(** ** Removing the entry found *)
Lemma lowered_split : forall U1 u U2 B, lowered (U1 ++ u :: U2) B -> exists B1 n B2, B = B1 ++ n :: B2 /\ lowered U1 B1 /\ lowered U2 B2 /\ adr n = adr u /\ up n = up u /\ ent n = ent u /\ lo n <= lo u.
Proof.
  induction U1 as [|x U1 IH]; intros u U2 B L; cbn [app] in L; inversion L as [|? y ? B' Q L']; subst.
  - exists [], y, B'. split; [reflexivity|]. split; [constructor|]. split; [exact L'|]. tauto.
  - destruct (IH _ _ _ L') as (B1 & n & B2 & -> & L1 & L2 & Q2). exists (y :: B1), n, B2. split; [reflexivity|]. split; [constructor; assumption|]. auto.
Qed.
Lemma left_same : forall s s1 L level sz X s', same_on X (b_heap s) (b_heap s1) -> left_over s1 L level sz X s' -> left_over s L level sz X s'.
Proof. intros s s1 L level sz X s' Sm (T1 & Q1 & Q2 & Q3). exists T1. split; [exact Q1|]. split; [apply (same_trans _ _ _ _ Sm Q2)|exact Q3]. Qed.
(** the part of [remove_level] that removes *)
Definition cut (rec : root -> Z -> kref -> option (root * Z)) (s : root) (level : Z) (key : kref) (node index last : Z) : option root :=
  let* h := shift_down K (Z.to_nat (last - index)) (b_heap s) node index in
  let* h := clear_index K h node (Z.max index last) in
  cut_tail rec (with_heap s h) level key node last.
Lemma cut_ok : forall rec s level key k sz X B1 n B2 T e1 sk c e2, (T <> [] -> rspec rec (length T)) -> 1 <= level -> b_height s = level + zlen T -> tower (b_heap s) (b_node s) ((B1 ++ n :: B2) :: T) -> owned (b_heap s) ((B1 ++ n :: B2) :: T) X -> born al s ->
  Forall (Jn sz) B1 -> Forall (Jn sz) B2 -> J H (map (fun e => sz (snd e)) (e1 ++ e2)) -> strong H (map (fun e => sz (snd e)) (e1 ++ e2)) -> ent n = e1 ++ (sk, c) :: e2 -> lo n <= k < up n -> key_form key k n e1 sk e2 -> (2 <= level -> (2 <= length (FE (B1 ++ n :: B2)))%nat) ->
  exists s', cut rec s level key (adr n) (zlen e1) (w32 (zlen (ent n) - 1)) = Some s' /\ left_over s (KL B1 ++ kids (up n) (e1 ++ e2) ++ KL B2) level sz X s'.
Proof.
  intros rec s level key k sz X B1 n B2 T e1 sk c e2 SP Hl Hh W Ow Bo J1 J2 JE SE En Hk KF TWO.
  assert (On : node_ok (b_heap s) n) by (pose proof (proj1 W) as G; rewrite Forall_forall in G; apply G, in_mid). destruct On as (Pn & Cn & Ln & L0 & LU & Dn & Gn & Vn). rewrite En in *.
  destruct (remove_cells K HK' (b_heap s) (adr n) e1 (sk, c) e2 Cn Ln) as (EL & h1 & h2 & E1 & E2 & C2 & O2). cbv zeta in EL, E1, E2. unfold cut. rewrite E1, E2, EL.
  assert (D2 : desc (up n) (e1 ++ e2)). { rewrite desc_app in *. destruct Dn as [D1 D2]. split; [exact D1|]. destruct D2 as [D2 D3]. apply (desc_mono _ _ _ ltac:(apply Z.lt_le_incl, D2) D3). }
  assert (G2 : Forall (fun e => lo n <= fst e) (e1 ++ e2)) by (apply Forall_app in Gn; destruct Gn as [Q1 Q2]; apply Forall_cons_iff in Q2; apply Forall_app; split; [exact Q1|apply Q2]).
  assert (V2 : Forall (fun e => snd e <> 0) (e1 ++ e2)) by (apply Forall_app in Vn; destruct Vn as [Q1 Q2]; apply Forall_cons_iff in Q2; apply Forall_app; split; [exact Q1|apply Q2]).
  assert (N2 : node_ok h2 {| adr := adr n; lo := lo n; up := up n; ent := e1 ++ e2 |}). { split; [exact Pn|]. split; [exact C2|]. cbn [lo up ent]. split; [|auto]. rewrite zlen_app, zlen_cons in Ln. rewrite zlen_app. lia. }
  assert (KK : exists k2, lo n <= k2 < up n /\ (forall h', h' (adr n) = h2 (adr n) -> deref h' key = Some k2) /\ (e1 ++ e2 = [] -> key = Val k2)).
  { destruct KF as [->|(-> & -> & NE)]; [exists k; split; [exact Hk|]; split; [reflexivity|reflexivity]|]. destruct e2 as [|[k2 c2] e2]; [congruence|]. exists k2. split; [|split].
    - apply Forall_app in G2. destruct G2 as [_ G2]. apply Forall_cons_iff in G2. destruct G2 as [G2 _]. apply desc_below in D2. apply Forall_app in D2. destruct D2 as [_ D2]. apply Forall_cons_iff in D2. destruct D2 as [D2 _]. cbn [fst] in *. lia.
    - intros h' E. cbn [deref]. apply (cells_frame K h2 h') in C2; [|exact E]. rewrite (get_key_ok K HK' _ _ _ _ C2); [rewrite slot_mid; reflexivity|]. rewrite zlen_app, !zlen_cons in Ln. pose proof (zlen_nonneg _ e1). pose proof (zlen_nonneg _ e2). lia.
    - intros Q. destruct e1; discriminate. }
  destruct KK as (k2 & Hk2 & De & Ke). apply (tail_ok rec s h2 level k2 key sz X B1 B2 n T e1 e2 (sk, c)); assumption.
Qed.
Lemma remove_step : forall remove fuel s level key, b_height s <? level = false -> remove_level K remove (S fuel) s level key =
  let* (s, node) := find_parent K s key level in
  let* index := find_index K (b_heap s) node key in
  let* fill := fill_index K (b_heap s) node index in
  let* (early, value) := (if level =? 1 then
      let* c := cmp_key (b_heap s) node index key in
      if negb (c =? 0) then Some (Some NULL, NULL) else
      let* value := get_value K (b_heap s) node index in
      match remove with
      | Some f => let r := f value in if r =? NULL then Some (None, value) else Some (Some r, value)
      | None => Some (None, value)
      end
    else Some (None, NULL)) in
  match early with
  | Some r => Some (s, r)
  | None => let* s := cut (remove_level K remove fuel) s level key node index (w32 (fill - 1)) in Some (s, value)
  end.
Proof.
  intros remove fuel s level key E. cbn [remove_level]. rewrite E. destruct (find_parent K s key level) as [[s1 node]|]; [|reflexivity]. destruct (find_index K (b_heap s1) node key) as [index|]; [|reflexivity]. destruct (fill_index K (b_heap s1) node index) as [fill|]; [|reflexivity].
  match goal with |- match ?q with _ => _ end = _ => destruct q as [[[r|] value]|] end; try reflexivity. unfold cut. destruct (shift_down K (Z.to_nat (w32 (fill - 1) - index)) (b_heap s1) node index) as [h|]; [|reflexivity]. destruct (clear_index K h node (Z.max index (w32 (fill - 1)))) as [h'|]; reflexivity.
Qed.
Lemma remove_ok : forall remove fuel n, (n <= fuel)%nat -> rspec (remove_level K remove fuel) n.
Proof.
  intros remove. induction fuel as [|fuel IH]; intros m LF; intros s level key k sz X U1 u U2 T0 e1 sk c e2 Hm Hl Hh W JU1 JU2 Ow Bo TWO Eu Hk F1 Fs KF JE SE; [lia|].
  pose proof (zlen_nonneg _ T0). rewrite remove_step by (apply Z.ltb_ge; lia).
  assert (On : node_ok (b_heap s) u) by (pose proof (proj1 W) as G; rewrite Forall_forall in G; apply G, in_mid). pose proof On as (Pn & Cn & Ln & L0 & LU & Dn & Gn & Vn).
  destruct (nodup_tail _ _ (proj1 Ow)) as (ND1 & ND2 & ND3).
  assert (Nu : ~ In (adr u) (addrs T0)) by (apply ND3, in_map, in_mid).
  destruct (round_start K H KH HK al T0 (U1 ++ u :: U2) s level key k (fun _ => H) X) as (h1 & B1 & n & B2 & T' & f1 & f2 & FP & W1 & _ & Ow1 & Bo1 & LW & EA & EL & Fr & Dk & Hp & Ep & G1 & G2 & G3 & Op & FI & FL); try assumption.
  - apply Forall_forall. intros x _. unfold BtreeTower.Jn. apply (J_big H HH). apply Forall_forall. intros y Hy. apply in_map_iff in Hy. destruct Hy as (? & <- & _). lia.
  - lia.
  - intros h' Q. destruct KF as [->|(-> & -> & NE)]; [reflexivity|]. cbn [deref]. apply (cells_frame K _ h') in Cn; [|apply Q, Nu]. rewrite Eu in Cn, Ln. rewrite zlen_app, zlen_cons in Ln. pose proof (zlen_nonneg _ e1). pose proof (zlen_nonneg _ e2). rewrite (get_key_ok K HK' _ _ _ _ Cn) by lia. rewrite slot_mid. reflexivity.
  - destruct (lowered_split _ _ _ _ LW) as (B1' & n' & B2' & EB & LW1 & LW2 & An & Un & Enn & Lon).
    destruct (node_unique (2 ^ 64) k B1 n B2 B1' n' B2' (tower_chain _ _ _ _ _ _ W1) EB Hp ltac:(lia)) as (<- & <- & <-). clear EB. rewrite Enn, Eu in Ep.
    destruct (ent_unique k e1 (sk, c) e2 f1 f2 Ep F1 Fs G1 G2) as (-> & ->). rewrite FP. cbn [with_heap b_heap]. rewrite FI, FL by (rewrite Enn, Eu, zlen_app, zlen_cons; pose proof (zlen_nonneg _ e1); pose proof (zlen_nonneg _ e2); lia).
    destruct (Z.eqb_spec level 1) as [Q|_]; [lia|].
    destruct (cut_ok (remove_level K remove fuel) (with_heap s h1) level key k sz X B1 n B2 T' e1 sk c e2) as (s' & E & LO); try assumption; cbn [with_heap b_heap b_node b_height].
    + intros _. apply IH. rewrite EL. lia.
    + lia.
    + unfold zlen in *. rewrite EL. exact Hh.
    + apply (lowered_Jn H sz _ _ LW1 JU1).
    + apply (lowered_Jn H sz _ _ LW2 JU2).
    + rewrite Enn. exact Eu.
    + destruct KF as [->|(-> & -> & NE)]; [left; reflexivity|right]. rewrite An. auto.
    + intros _. rewrite (lowered_FE _ _ LW). exact TWO.
    + rewrite E. exists s', NULL. split; [reflexivity|]. rewrite Un, (lowered_KL _ _ LW1), (lowered_KL _ _ LW2) in LO. apply (left_same s (with_heap s h1)); [|exact LO].
      intros a Ha. apply Fr. intros I. destruct Ow as (_ & O2 & _). apply (O2 a); [rewrite addrs_cons; apply in_or_app; right; exact I|exact Ha].
Qed.

(** ** A tree and its entries *)
Definition shape (s : root) (m : list (Z * Z)) : Prop :=
  exists B T, tower (b_heap s) (b_node s) (B :: T) /\ owned (b_heap s) (B :: T) [] /\ born al s /\ b_height s = 1 + zlen T /\ FE B = m.
Lemma Jn_const : forall B, Forall (Jn (fun _ => H)) B.
Proof. intros B. apply Forall_forall. intros x _. unfold BtreeTower.Jn. apply (J_big H HH). apply Forall_forall. intros y Hy. apply in_map_iff in Hy. destruct Hy as (? & <- & _). lia. Qed.
Lemma grown_FE : forall L L', grown L L' -> map (fun x => (klo x, kad x)) L' = map (fun x => (klo x, kad x)) L.
Proof. induction 1 as [|x y L L' (E1 & E2 & _) G IH]; [reflexivity|]. cbn [map]. rewrite E1, E2, IH. reflexivity. Qed.
Lemma kids_FE : forall es b, map (fun x => (klo x, kad x)) (kids b es) = es.
Proof. induction es as [|[x y] r IH]; intros b; [reflexivity|]. cbn [kids map]. rewrite IH. reflexivity. Qed.
(** what is found at the leaf for [k] *)
Lemma leaf_start : forall s m k, shape s m -> 0 <= k < 2 ^ 64 -> exists h1 B1 n B2 T e1 e2, find_parent K s (Val k) 1 = Some (with_heap s h1, adr n) /\ tower h1 (b_node s) ((B1 ++ n :: B2) :: T) /\ owned h1 ((B1 ++ n :: B2) :: T) [] /\ born al (with_heap s h1) /\ b_height s = 1 + zlen T /\ shape (with_heap s h1) m /\
  m = FE B1 ++ (e1 ++ e2) ++ FE B2 /\ ent n = e1 ++ e2 /\ lo n <= k < up n /\ Forall (fun e => k < fst e) (FE B1) /\ Forall (fun e => fst e < k) (FE B2) /\ Forall (fun e => k < fst e) e1 /\ (forall x r, e2 = x :: r -> fst x <= k) /\ node_ok h1 n /\
  find_index K h1 (adr n) (Val k) = Some (zlen e1) /\ fill_index K h1 (adr n) (zlen e1) = Some (zlen (ent n)).
Proof.
  intros s m k (B & T & W & Ow & Bo & Hh & Em) Hk. destruct (round_start K H KH HK al T B s 1 (Val k) k (fun _ => H) []) as (h1 & B1 & n & B2 & T' & f1 & f2 & FP & W1 & _ & Ow1 & Bo1 & LW & EA & EL & Fr & Dk & Hp & Ep & G1 & G2 & G3 & Op & FI & FL); try assumption.
  - apply Jn_const.
  - reflexivity.
  - assert (Hh' : b_height s = 1 + zlen T') by (unfold zlen in *; rewrite EL; exact Hh). destruct (around K h1 B1 n B2 k (proj1 W1) (tower_chain _ _ _ _ _ _ W1) Hp) as (A1 & A2 & A3).
    assert (EM : m = FE (B1 ++ n :: B2)) by (rewrite (lowered_FE _ _ LW); symmetry; exact Em).
    exists h1, B1, n, B2, T', f1, f2. split; [exact FP|]. split; [exact W1|]. split; [exact Ow1|]. split; [exact Bo1|]. split; [exact Hh'|]. split; [exists (B1 ++ n :: B2), T'; cbn [with_heap b_heap b_node b_height]; auto|]. split; [rewrite EM, FE_app; cbn [FE flat_map]; rewrite Ep; reflexivity|].
    split; [exact Ep|]. split; [exact Hp|]. split; [exact A1|]. split; [exact A2|]. split; [exact G1|]. split; [exact G2|]. split; [exact Op|]. split; [exact FI|]. apply FL. rewrite Ep, zlen_app. pose proof (zlen_nonneg _ f1). pose proof (zlen_nonneg _ f2). lia.
Qed.
End Remove.
