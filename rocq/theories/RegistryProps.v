(** * C90: registries of algorithms *)
From Verif Require Import Lib Ptr ListModel ListSpec ListProofs RegistryModel.

(** ** Specification: a map from names to algorithms *)
Section Spec.
Variable name : Z -> option (list Z).
Variable complete : Z -> bool.
Definition registry := list Z -> option Z.
Definition nothing : registry := fun _ => None.
Inductive step (R : registry) : rop -> rres -> registry -> Prop :=
| reg_null a : name a = None \/ complete a = false -> step R (Register a) (Code (- EINVAL)) R
| reg_taken a n b : name a = Some n -> complete a = true -> R n = Some b -> step R (Register a) (Code (- EALREADY)) R
| reg_new a n R' : name a = Some n -> complete a = true -> R n = None -> R' n = Some a -> (forall k, k <> n -> R' k = R k) ->
    step R (Register a) (Code 0) R'
| unreg_there a n R' : R n = Some a -> R' n = None -> (forall k, k <> n -> R' k = R k) -> step R (Unregister a) (Code 0) R'
| unreg_missing a : (forall n, R n <> Some a) -> step R (Unregister a) (Code (- ENOENT)) R
| step_choose key : step R (Choose key) (Chosen (R key)) R.
Inductive steps : registry -> list rop -> list rres -> registry -> Prop :=
| steps_nil R : steps R [] [] R
| steps_cons R o r R1 l rs R2 : step R o r R1 -> steps R1 l rs R2 -> steps R (o :: l) (r :: rs) R2.
End Spec.

(** ** Proof *)
Section Proof.
Variable name : Z -> option (list Z).
Variable complete : Z -> bool.
Variable head : Z.
Variable fuel : nat.
Lemma same_eq : forall a b, same a b = true <-> a = b.
Proof.
  induction a as [|x a IH]; intros [|y b]; cbn; try (split; (discriminate || reflexivity)). rewrite andb_true_iff, Z.eqb_eq, IH. split; [intros [-> ->]; reflexivity|intros E; injection E; auto].
Qed.
Definition named (l : list Z) : Prop := Forall (fun a => name a <> None) l /\ NoDup (map name l).
Definition look (l : list Z) : registry := fun key => find (fun a => match name a with Some n => same n key | None => false end) l.
Lemma find_walk_ok : forall l m p f key, seg m p l head -> ~ In head l -> Forall (fun a => name a <> None) l -> (length l <= f)%nat ->
  exists x, ld m p NEXT = Some x /\ find_walk name f m head x key = Some (look l key).
Proof.
  induction l as [|a l IH]; intros m p f key SG NH F L; cbn [seg] in SG.
  - destruct SG as [E _]. exists head. split; [exact E|]. destruct f; cbn [find_walk]; rewrite Z.eqb_refl; reflexivity.
  - destruct SG as [[E _] SG]. exists a. split; [exact E|]. inversion F as [|? ? Na F']; subst. destruct f as [|f]; [cbn in L; lia|]. cbn [find_walk length] in *. destruct (Z.eqb_spec a head) as [->|_]; [exfalso; apply NH; left; reflexivity|]. unfold look. cbn [find]. destruct (name a) as [n|]; [|contradiction]. destruct (same n key) eqn:S; [reflexivity|].
    destruct (IH m a f key SG ltac:(intros Q; apply NH; right; exact Q) F' ltac:(lia)) as (x & Ex & R). rewrite Ex. exact R.
Qed.
Lemma exist_walk_ok : forall l m p f a, seg m p l head -> ~ In head l -> (length l <= f)%nat ->
  exists x, ld m p NEXT = Some x /\ exist_walk f m head x a = Some (existsb (fun b => b =? a) l).
Proof.
  induction l as [|b l IH]; intros m p f a SG NH L; cbn [seg] in SG.
  - destruct SG as [E _]. exists head. split; [exact E|]. destruct f; cbn [exist_walk]; rewrite Z.eqb_refl; reflexivity.
  - destruct SG as [[E _] SG]. exists b. split; [exact E|]. destruct f as [|f]; [cbn in L; lia|]. cbn [exist_walk length existsb] in *. destruct (Z.eqb_spec b head) as [->|_]; [exfalso; apply NH; left; reflexivity|]. destruct (Z.eqb_spec b a); [reflexivity|]. cbn [orb].
    destruct (IH m b f a SG ltac:(intros Q; apply NH; right; exact Q) ltac:(lia)) as (x & Ex & R). rewrite Ex. exact R.
Qed.
Lemma look_some : forall l key a, look l key = Some a -> In a l /\ name a = Some key.
Proof. intros l key a E. unfold look in E. apply find_some in E. destruct E as [I E]. split; [exact I|]. destruct (name a) as [n|]; [|discriminate]. apply same_eq in E. congruence. Qed.
Lemma look_none : forall l key, look l key = None -> forall a, In a l -> name a <> Some key.
Proof. intros l key E a I Na. unfold look in E. apply find_none with (x := a) in E; [|exact I]. rewrite Na in E. rewrite (proj2 (same_eq key key) eq_refl) in E. discriminate. Qed.
Lemma look_in : forall l a n, NoDup (map name l) -> In a l -> name a = Some n -> look l n = Some a.
Proof.
  induction l as [|b l IH]; intros a n ND I Na; [destruct I|]. cbn [map] in ND. apply NoDup_cons_iff in ND. destruct ND as [NI ND]. unfold look. cbn [find]. destruct I as [->|I].
  - rewrite Na. rewrite (proj2 (same_eq n n) eq_refl). reflexivity.
  - destruct (name b) as [nb|] eqn:Eb; [|apply (IH a n ND I Na)]. destruct (same nb n) eqn:S; [|apply (IH a n ND I Na)]. apply same_eq in S. subst nb. exfalso. apply NI. rewrite <- Na. apply in_map, I.
Qed.
(** the memory holds the registry: the algorithms [l], and all of [U] have links *)
Definition holds (U : list Z) (m : mem) (R : registry) (l : list Z) : Prop :=
  ring m head l /\ named l /\ (forall k, R k = look l k) /\ (forall a, In a U -> node m a) /\ ~ In head U /\ incl l U.
Lemma exec_ok : forall U m R l o, holds U m R l -> (length l <= fuel)%nat -> (match o with Register a => In a U | _ => True end) ->
  exists m' r R' l', exec name complete fuel m head o = Some (m', r) /\ step name complete R o r R' /\ holds U m' R' l' /\ (length l' <= S (length l))%nat.
Proof.
  intros U m R l o HO L OU. pose proof HO as (RG & (NN & ND) & EQ & NO & NH & IN). pose proof RG as [NDR SG]. apply NoDup_cons_iff in NDR. destruct NDR as [NI NDl]. destruct o as [a|a|key]; cbn [exec].
  - unfold register. destruct (name a) as [n|] eqn:Na; [|exists m, (Code (- EINVAL)), R, l; split; [reflexivity|]; split; [apply reg_null; auto|]; split; [exact HO|lia]].
    destruct (complete a) eqn:Ca; cbn [negb]; [|exists m, (Code (- EINVAL)), R, l; split; [reflexivity|]; split; [apply reg_null; auto|]; split; [exact HO|lia]].
    unfold algorithm_find. destruct (find_walk_ok l m head fuel n SG NI NN L) as (x & Ex & W). rewrite Ex, W. destruct (look l n) as [b|] eqn:LK.
    + exists m, (Code (- EALREADY)), R, l. split; [reflexivity|]. split; [apply (reg_taken _ _ _ _ n b); [assumption|assumption|rewrite EQ; exact LK]|]. split; [exact HO|lia].
    + assert (NL : ~ In a l) by (intros I; apply (look_none _ _ LK a I Na)). assert (NA : a <> head) by (intros ->; contradiction).
      destruct (add_ring m head l a RG (NO a OU) ltac:(intros [Q|Q]; [congruence|contradiction])) as (m' & E & RG' & FR). rewrite E.
      exists m', (Code 0), (look (a :: l)), (a :: l). split; [reflexivity|]. split.
      * apply (reg_new _ _ _ _ n); [assumption|assumption|rewrite EQ; exact LK| |].
        -- unfold look. cbn [find]. rewrite Na, (proj2 (same_eq n n) eq_refl). reflexivity.
        -- intros k Nk. rewrite EQ. unfold look. cbn [find]. rewrite Na. destruct (same n k) eqn:S; [apply same_eq in S; congruence|reflexivity].
      * split; [|cbn [length]; lia]. split; [exact RG'|]. split; [split; [constructor; [congruence|exact NN]|cbn [map]; constructor; [|exact ND]]|].
        { rewrite Na. intros I. apply in_map_iff in I. destruct I as (b & Eb & Ib). apply (look_none _ _ LK b Ib Eb). }
        split; [reflexivity|]. split; [|split; [exact NH|intros b [<-|I]; [exact OU|apply IN, I]]].
        intros b Ib. destruct (in_dec Z.eq_dec b (a :: head :: l)) as [I|N]; [|apply (frame_node _ _ _ _ FR N), NO, Ib]. apply (ring_nodes _ _ _ RG'). cbn [In] in *. tauto.
  - unfold unregister, algorithm_exist. destruct (exist_walk_ok l m head fuel a SG NI L) as (x & Ex & W). rewrite Ex, W. destruct (existsb (fun b => b =? a) l) eqn:EX.
    + apply existsb_exists in EX. destruct EX as (b & Ib & Eb). apply Z.eqb_eq in Eb. subst b. pose proof Ib as Ib0. apply in_split in Ib. destruct Ib as (l1 & l2 & ->). destruct (del_at m head l1 a l2 RG) as (m' & E & RG' & P1 & P2 & FR). rewrite E.
      assert (Na : exists n, name a = Some n). { rewrite Forall_forall in NN. specialize (NN a Ib0). destruct (name a) as [n|]; [exists n; reflexivity|contradiction]. } destruct Na as [n Na].
      assert (ND' : NoDup (map name (l1 ++ l2)) /\ ~ In (name a) (map name (l1 ++ l2))). { rewrite map_app in ND |- *. cbn [map] in ND. split; [apply (NoDup_remove_1 _ _ _ ND)|apply (NoDup_remove_2 _ _ _ ND)]. } destruct ND' as [ND' NIn].
      exists m', (Code 0), (look (l1 ++ l2)), (l1 ++ l2). split; [reflexivity|]. split.
      * apply (unreg_there _ _ _ _ n); [rewrite EQ; apply look_in; assumption| |].
        -- destruct (look (l1 ++ l2) n) as [b|] eqn:LK; [|reflexivity]. exfalso. apply look_some in LK. destruct LK as [I Nb]. apply NIn. rewrite Na, <- Nb. apply in_map, I.
        -- intros k Nk. rewrite EQ. unfold look. assert (G : forall l1, find (fun a => match name a with Some n => same n k | None => false end) (l1 ++ l2) = find (fun a => match name a with Some n => same n k | None => false end) (l1 ++ a :: l2)); [|apply G]. induction l0 as [|c l0 IH]; cbn [app find].
           ++ rewrite Na. destruct (same n k) eqn:S; [apply same_eq in S; congruence|reflexivity].
           ++ destruct (match name c with Some n => same n k | None => false end); [reflexivity|exact IH].
      * split; [|rewrite !app_length; cbn [length]; lia]. split; [exact RG'|]. split; [split; [|exact ND']|]. { apply Forall_app in NN. destruct NN as [N1 N2]. inversion N2; subst. apply Forall_app. auto. }
        split; [reflexivity|]. split; [|split; [exact NH|intros b I; apply IN; apply in_app_or in I; apply in_or_app; cbn [In]; tauto]].
        intros b Ib. destruct (Z.eq_dec b a) as [->|Nb]; [split; eauto|]. destruct (in_dec Z.eq_dec b (head :: l1 ++ a :: l2)) as [I|N]; [|apply (frame_node _ _ _ _ FR N), NO, Ib]. apply (ring_nodes _ _ _ RG'). destruct I as [I|I]; [left; exact I|right]. apply in_app_or in I. apply in_or_app. cbn [In] in I. destruct I as [I|[I|I]]; [auto|congruence|auto].
    + exists m, (Code (- ENOENT)), R, l. split; [reflexivity|]. split; [|split; [exact HO|lia]]. apply unreg_missing. intros n Q. rewrite EQ in Q. apply look_some in Q. destruct Q as [I _]. assert (X : existsb (fun b => b =? a) l = true) by (apply existsb_exists; exists a; split; [exact I|apply Z.eqb_refl]). congruence.
  - unfold choose, algorithm_find. destruct (find_walk_ok l m head fuel key SG NI NN L) as (x & Ex & W). rewrite Ex, W. exists m, (Chosen (look l key)), R, l. split; [reflexivity|]. split; [rewrite <- EQ; constructor|]. split; [exact HO|lia].
Qed.
Lemma run_ok : forall U ops m R l, holds U m R l -> (length l + length ops <= fuel)%nat -> Forall (fun o => match o with Register a => In a U | _ => True end) ops ->
  exists m' rs R' l', run name complete fuel m head ops = Some (m', rs) /\ steps name complete R ops rs R' /\ holds U m' R' l'.
Proof.
  intros U. induction ops as [|o ops IH]; intros m R l HO L F; cbn [run].
  - exists m, [], R, l. split; [reflexivity|]. split; [constructor|exact HO].
  - inversion F as [|? ? Fo F']; subst. cbn [length] in L. destruct (exec_ok U m R l o HO ltac:(lia) Fo) as (m1 & r & R1 & l1 & E & S & HO1 & L1). rewrite E. destruct (IH m1 R1 l1 HO1 ltac:(lia) F') as (m2 & rs & R2 & l2 & E2 & S2 & HO2). rewrite E2. exists m2, (r :: rs), R2, l2. split; [reflexivity|]. split; [econstructor; eassumption|exact HO2].
Qed.
End Proof.

(** ** Every history of registrations, unregistrations and searches by name is a history of the map: at most one algorithm
    for each name, and it is the one that is found. [U] are the objects that are registered, with room for the links. *)
Theorem C90_history : forall name complete head U m ops fuel,
  ring m head [] -> (forall a, In a U -> node m a) -> ~ In head U ->
  Forall (fun o => match o with Register a => In a U | _ => True end) ops -> (length ops <= fuel)%nat ->
  exists m' rs R', run name complete fuel m head ops = Some (m', rs) /\ steps name complete nothing ops rs R' /\
    exists l, ring m' head l /\ (forall n a, R' n = Some a <-> In a l /\ name a = Some n).
Proof.
  intros name complete head U m ops fuel RG NO NH F L.
  destruct (run_ok name complete head fuel U ops m nothing []) as (m' & rs & R' & l & E & S & (RG' & (NN & ND) & EQ & _)); [|cbn [length]; lia|exact F|].
  - split; [exact RG|]. split; [split; constructor|]. split; [reflexivity|]. split; [exact NO|]. split; [exact NH|intros a []].
  - exists m', rs, R'. split; [exact E|]. split; [exact S|]. exists l. split; [exact RG'|]. intros n a. rewrite EQ. split; [apply look_some|intros [I Na]; apply look_in; assumption].
Qed.
(** three algorithms: "bm", "kmp", and a second "bm" *)
Definition ex_name (a : Z) : option (list Z) := if a =? 20 then Some [98; 109] else if a =? 30 then Some [107; 109; 112] else if a =? 40 then Some [98; 109] else None.
Definition ex_mem : mem := fun p f => if (p =? 10) then Some 10 else if (p =? 20) || (p =? 30) || (p =? 40) || (p =? 50) then Some 0 else None.
Example C90_case : ring ex_mem 10 [] /\ (forall a, In a [20; 30; 40; 50] -> node ex_mem a) /\ ~ In 10 [20; 30; 40; 50] /\
  option_map snd (run ex_name (fun _ => true) 20 ex_mem 10
    [Register 20; Register 30; Register 40; Register 50; Choose [98; 109]; Unregister 40; Unregister 20; Choose [98; 109]; Register 40; Choose [98; 109]; Choose [107; 109; 112]; Register 30]) =
  Some [Code 0; Code 0; Code (- EALREADY); Code (- EINVAL); Chosen (Some 20); Code (- ENOENT); Code 0; Chosen None; Code 0; Chosen (Some 40); Chosen (Some 30); Code (- EALREADY)].
Proof.
  split; [split; [repeat constructor; cbn; tauto|vm_compute; auto]|]. split; [|split; [cbn; lia|vm_compute; reflexivity]].
  intros a I. cbn in I. destruct I as [<-|[<-|[<-|[<-|[]]]]]; split; eexists; vm_compute; reflexivity.
Qed.
Print Assumptions C90_history.
