(** * Lock-free list on store buffers: who owns a node, and that the code respects it *)
From Coq Require Import Lia.
From Verif Require Import Lib AtomicModel AtomicSpec AtomicProofs FenceModel FenceSpec FenceProofs LlistFenceModel LlistFenceSpec.
From Verif Require LlistModel LlistSpec LlistProofs.

Fixpoint linked (f : Z -> Z) (b : list Z) : Prop := match b with x :: r => match r with y :: _ => f x = y /\ linked f r | [] => True end | [] => True end.
Lemma linked_ext : forall f g b, (forall x, In x b -> g x = f x) -> linked f b -> linked g b.
Proof.
  induction b as [|x b IH]; intros H L; [exact L|]. cbn [linked] in *. destruct b as [|y b]; [exact Logic.I|]. destruct L as (L1 & L2).
  split; [rewrite H by (left; reflexivity); exact L1|]. apply IH; [intros z Hz; apply H; right; exact Hz|exact L2].
Qed.
Lemma linked_snoc : forall f d x y, linked f (d ++ [x]) -> f x = y -> linked f (d ++ [x; y]).
Proof.
  induction d as [|z d IH]; intros x y L E; cbn [app linked] in *; [split; [exact E|exact Logic.I]|].
  destruct d as [|z' d]; cbn [app] in *; [destruct L as (L & _); split; [exact L|split; [exact E|exact Logic.I]]|]. destruct L as (L1 & L2). split; [exact L1|]. apply IH; assumption.
Qed.
Lemma chain_ext : forall f g l p, (forall x, In x l -> g x = f x) -> chain f p l -> chain g p l.
Proof.
  induction l as [|x l IH]; intros p H C; [exact C|]. cbn [chain] in *. destruct C as (-> & C). split; [reflexivity|]. rewrite H by (left; reflexivity). apply IH; [intros z Hz; apply H; right; exact Hz|exact C].
Qed.
Lemma chain_hd : forall f p l, chain f p l -> hd 0 l = p.
Proof. intros f p [|x l] C; cbn [chain] in C; [symmetry; exact C|]. destruct C as (-> & _). reflexivity. Qed.
Lemma linked_chain : forall f b s, b <> [] -> linked f b -> chain f (f (last b 0)) s -> chain f (hd 0 b) (b ++ s).
Proof.
  induction b as [|x b IH]; intros s N L C; [congruence|]. cbn [hd app chain]. split; [reflexivity|]. destruct b as [|y b]; [exact C|].
  destruct L as (L1 & L2). rewrite L1. apply (IH s); [discriminate|exact L2|exact C].
Qed.
(** nodes of the chain lead to nodes of the chain *)
Lemma chain_next : forall f l p x, chain f p l -> In x l -> f x = 0 \/ In (f x) l.
Proof.
  induction l as [|y l IH]; intros p x C I; [destruct I|]. destruct C as (-> & C). destruct I as [<-|I].
  - destruct l as [|z l]; [left; exact C|]. destruct C as (-> & _). right; right; left; reflexivity.
  - destruct (IH _ x C I) as [Z|K]; [left; exact Z|right; right; exact K].
Qed.
Lemma last_in : forall (b : list Z), b <> [] -> In (last b 0) b.
Proof. induction b as [|x b IH]; intros N; [congruence|]. destruct b as [|y b]; [left; reflexivity|]. right. apply IH. discriminate. Qed.

Record gst := { gl : nat -> local; gstk : list Z; gwho : Z -> option nat; gpend : nat -> list Z; gev : list LlistModel.ev }.
(** the stack, the owners and the chains not walked yet, after one more call *)
Definition gstep (E : env) (g : gst) (x : nat * aop * ret) : gst :=
  let '(t, op, r) := x in
  let k := begin E t (gl g t) in
  let s := fst (after E t (gl g t) k r) in
  let ev := gev g ++ snd (after E t (gl g t) k r) in
  match k, r with
  | TCas b _, RTry true _ => {| gl := tset (gl g) t s; gstk := b ++ gstk g; gwho := fun x => if LlistModel.mem_z x b then econs E else gwho g x; gpend := gpend g; gev := ev |}
  | TXchg, RVal p => {| gl := tset (gl g) t s; gstk := []; gwho := fun x => if LlistModel.mem_z x (gstk g) then Some t else gwho g x; gpend := if p =? 0 then gpend g else tset (gpend g) t (gstk g); gev := ev |}
  | TWalk p acc, RVal v => {| gl := tset (gl g) t s; gstk := gstk g; gwho := gwho g; gpend := if v =? 0 then tset (gpend g) t [] else gpend g; gev := ev |}
  | TTake e n, RTry true _ => {| gl := tset (gl g) t s; gstk := tl (gstk g); gwho := gwho g; gpend := gpend g; gev := ev |}
  | _, _ => {| gl := tset (gl g) t s; gstk := gstk g; gwho := gwho g; gpend := gpend g; gev := ev |}
  end.
Definition ginit (E : env) (who : Z -> option nat) : gst := {| gl := linit E; gstk := []; gwho := who; gpend := fun _ => []; gev := [] |}.
Definition ghost (E : env) (who : Z -> option nat) (l : log) : gst := fold_left (gstep E) l (ginit E who).

Section Inv.
Variables (n : Z) (E : env) (f0 : Z -> Z).
Hypothesis EO : env_ok n E f0.
Definition ptr (e : Z) : Prop := e = 0 \/ is_node E e.
Definition batch_ok (b held : list Z) : Prop := b <> [] /\ NoDup b /\ incl b held.
(** what holds of a thread that is at task [k] *)
Definition ti (t : nat) (f : Z -> Z) (stk : list Z) (k : task) (held pend : list Z) : Prop :=
  match k with
  | TFree => pend = []
  | TLoad w => pend = [] /\ In (ehome E w) held
  | TStore w v => pend = [] /\ In (ehome E w) held /\ u64v v
  | TLink b rest => pend = [] /\ batch_ok b held /\ exists x y r d, rest = x :: y :: r /\ b = d ++ rest /\ linked f (d ++ [x])
  | TRead b => pend = [] /\ batch_ok b held /\ linked f b
  | TWrite b e => pend = [] /\ batch_ok b held /\ linked f b /\ ptr e
  | TCas b e => pend = [] /\ batch_ok b held /\ linked f b /\ ptr e /\ f (last b 0) = e
  | TXchg => pend = [] /\ may_take E t = true
  | TWalk p acc => exists rest, pend = acc ++ p :: rest /\ chain f (f p) rest
  | TDel => pend = [] /\ may_del E t = true
  | TNext e => pend = [] /\ may_del E t = true /\ In e stk
  | TTake e n => pend = [] /\ may_del E t = true /\ In e stk /\ f e = n
  end.
Lemma ti_frame : forall t f g stk stk' k held pend, ti t f stk k held pend ->
  (forall x, In x held \/ In x pend -> g x = f x) -> (may_del E t = true -> incl stk stk' /\ forall x, In x stk -> g x = f x) -> ti t g stk' k held pend.
Proof.
  intros t f g stk stk' k held pend T H D. assert (LB : forall b, incl b held -> linked f b -> linked g b) by (intros b I; apply linked_ext; intros x Hx; apply H; left; apply I, Hx).
  destruct k; cbn [ti] in *; try exact T.
  - destruct T as (P & B & x & y & r & d & E1 & E2 & L). split; [exact P|]. split; [exact B|]. exists x, y, r, d. split; [exact E1|]. split; [exact E2|]. apply LB; [|exact L].
    intros z Hz. apply B. subst b rest. apply in_or_app. apply in_app_or in Hz. destruct Hz as [Hz|[<-|[]]]; [left; exact Hz|right; left; reflexivity].
  - destruct T as (P & B & L). split; [exact P|]. split; [exact B|]. apply LB; [apply B|exact L].
  - destruct T as (P & B & L & K). split; [exact P|]. split; [exact B|]. split; [apply LB; [apply B|exact L]|exact K].
  - destruct T as (P & B & L & K & Q). split; [exact P|]. split; [exact B|]. split; [apply LB; [apply B|exact L]|]. split; [exact K|]. rewrite H; [exact Q|]. left. apply B. apply last_in. apply B.
  - destruct T as (rest & P & C). exists rest. split; [exact P|]. rewrite H by (right; rewrite P; apply in_or_app; right; left; reflexivity).
    apply (chain_ext f); [|exact C]. intros x Hx. apply H. right. rewrite P. apply in_or_app. right; right; exact Hx.
  - destruct T as (P & M & I). split; [exact P|]. split; [exact M|]. apply (D M), I.
  - destruct T as (P & M & I & Q). split; [exact P|]. split; [exact M|]. split; [apply (D M), I|]. rewrite (proj2 (D M)) by exact I. exact Q.
Qed.
Lemma ti_begin : forall t f stk s pend, ti t f stk (ltask s) (lheld s) pend -> ti t f stk (begin E t s) (lheld s) pend.
Proof.
  intros t f stk s pend T. unfold begin. destruct (ltask s); try exact T. cbn [ti] in T. destruct (eprog E t (lres s)) as [[w|w v|b| |]|]; cbn [ti]; [| | | | |exact T].
  - destruct (LlistModel.mem_z (ehome E w) (lheld s)) eqn:M; [|exact T]. split; [exact T|]. apply LlistProofs.mem_z_in, M.
  - destruct (LlistModel.mem_z (ehome E w) (lheld s)) eqn:M; [|exact T]. cbn [andb]. destruct (Z.leb_spec 0 v) as [V|V]; [|exact T]. cbn [andb]. destruct (Z.ltb_spec v (2 ^ 64)) as [W|W]; [|exact T].
    split; [exact T|]. split; [apply LlistProofs.mem_z_in, M|]. split; assumption.
  - destruct b as [|x b]; [exact T|]. destruct (forallb (fun x => LlistModel.mem_z x (lheld s)) (x :: b) && LlistModel.distinct (x :: b))%bool eqn:C; [|exact T].
    apply andb_true_iff in C. destruct C as (C1 & C2). rewrite forallb_forall in C1.
    assert (B : batch_ok (x :: b) (lheld s)). { split; [discriminate|]. split; [apply LlistProofs.distinct_ok, C2|]. intros y Hy. apply LlistProofs.mem_z_in, C1, Hy. }
    unfold link. destruct b as [|y b]; cbn [ti]; split; try exact T; split; try exact B; [exact Logic.I|]. exists x, y, b, []. split; [reflexivity|]. split; [reflexivity|exact Logic.I].
  - destruct (may_take E t) eqn:M; [|exact T]. split; [exact T|exact M].
  - destruct (may_del E t) eqn:M; [|exact T]. split; [exact T|exact M].
Qed.
Record inv (g : gst) (f : Z -> Z) : Prop := {
  j_head : chain f (f (ehead E)) (gstk g);
  j_stk : forall x, In x (gstk g) -> gwho g x = econs E;
  j_who : forall t x, In x (lheld (gl g t) ++ gpend g t) -> gwho g x = Some t;
  j_nd : forall t, NoDup (gstk g ++ lheld (gl g t) ++ gpend g t);
  j_snode : forall x, In x (gstk g) -> is_node E x;
  j_node : forall t x, In x (lheld (gl g t) ++ gpend g t) -> is_node E x;
  j_all : forall x, is_node E x -> In x (gstk g) \/ exists t, In x (lheld (gl g t) ++ gpend g t);
  j_task : forall t, ti t f (gstk g) (ltask (gl g t)) (lheld (gl g t)) (gpend g t);
  j_spec : exists p, LlistSpec.spec_run ([], fun _ => []) (gev g) (gstk g, p) /\ forall u, p u = gpend g u
}.
Lemma head_ptr : forall g f, inv g f -> ptr (f (ehead E)).
Proof. intros g f J. pose proof (j_head _ _ J) as C. destruct (gstk g) as [|x s] eqn:Es; [left; exact C|]. destruct C as (-> & _). right. apply (j_snode _ _ J). rewrite Es. left; reflexivity. Qed.
Lemma node_head : forall x, is_node E x -> x <> ehead E.
Proof. intros x Nx. apply (eo_word _ _ _ EO). destruct (eo_node _ _ _ EO x Nx) as (_ & _ & ->). exact Nx. Qed.
Lemma not_mine : forall g f t u x, inv g f -> u <> t -> In x (lheld (gl g u) ++ gpend g u) -> ~ In x (lheld (gl g t) ++ gpend g t).
Proof. intros g f t u x J N I K. pose proof (j_who _ _ J _ _ I) as A. pose proof (j_who _ _ J _ _ K) as B. congruence. Qed.
Lemma not_stk : forall g f t x, inv g f -> In x (lheld (gl g t) ++ gpend g t) -> ~ In x (gstk g).
Proof.
  intros g f t x J I K. pose proof (j_nd _ _ J t) as N. apply in_split in K. destruct K as (a & b & K). rewrite K in N. rewrite <- app_assoc in N. cbn [app] in N. apply NoDup_remove_2 in N.
  apply N. apply in_or_app. right. apply in_or_app. right. exact I.
Qed.
Lemma tset_same A (f : nat -> A) t v : tset f t v t = v.
Proof. unfold tset. rewrite Nat.eqb_refl. reflexivity. Qed.
Lemma tset_other A (f : nat -> A) t v u : u <> t -> tset f t v u = f u.
Proof. intros H. unfold tset. rewrite (proj2 (Nat.eqb_neq _ _) H). reflexivity. Qed.
(** a step of [t] that moves no node *)
Lemma step_private : forall g f f' t s' ev, inv g f -> lheld s' = lheld (gl g t) -> f' (ehead E) = f (ehead E) ->
  (forall x, is_node E x -> ~ In x (lheld (gl g t)) -> f' x = f x) -> ti t f' (gstk g) (ltask s') (lheld s') (gpend g t) ->
  (ev = [] \/ (ev = [LlistModel.EPopNone t] /\ gstk g = [])) ->
  inv {| gl := tset (gl g) t s'; gstk := gstk g; gwho := gwho g; gpend := gpend g; gev := gev g ++ ev |} f'.
Proof.
  intros g f f' t s' ev J H FH FN T EV. assert (HU : forall u, lheld (tset (gl g) t s' u) = lheld (gl g u)).
  { intros u. destruct (Nat.eq_dec u t) as [->|N]; [rewrite tset_same; exact H|rewrite tset_other by exact N; reflexivity]. }
  assert (FS : forall x, In x (gstk g) -> f' x = f x). { intros x I. apply FN; [apply (j_snode _ _ J), I|]. intros K. apply (not_stk g f t x J); [apply in_or_app; left; exact K|exact I]. }
  constructor; cbn [gl gstk gwho gpend gev]; try (intros u; rewrite HU); try (apply J).
  - rewrite FH. apply (chain_ext f); [exact FS|apply (j_head _ _ J)].
  - intros x Nx. destruct (j_all _ _ J x Nx) as [I|(v & I)]; [left; exact I|right; exists v; rewrite HU; exact I].
  - destruct (Nat.eq_dec u t) as [->|N].
    + rewrite tset_same. rewrite <- H at 1. exact T.
    + rewrite tset_other by exact N. apply (ti_frame u f f' (gstk g)); [apply (j_task _ _ J)| |intros _; split; [apply incl_refl|exact FS]].
      intros x I. assert (I' : In x (lheld (gl g u) ++ gpend g u)) by (apply in_or_app; exact I). apply FN; [apply (j_node _ _ J u), I'|]. intros K.
      apply (not_mine g f t u x J N I'). apply in_or_app. left; exact K.
  - destruct (j_spec _ _ J) as (p & R & P). destruct EV as [->|(-> & Z)]; [rewrite app_nil_r; exists p; split; assumption|]. exists p. split; [|exact P].
    apply (LlistSpec.spec_snoc _ _ (gstk g, p)); [exact R|]. split; [exact Z|reflexivity].
Qed.
End Inv.
