(** * C69, C85-C87: the radix array *)
From Verif Require Import Lib BitsModel RadixModel RadixSpec RadixProofs RadixOps RadixAlloc RadixSession.
Ltac Zify.zify_post_hook ::= Z.div_mod_to_equations.

(** ** C69: sessions behave like a map from offsets to cells
    The full statement (every 64-bit offset, [clear] dropped from [rallowed]) is false, see the refutations below. *)
Theorem C69_session_partial : forall al prog n, allocator al -> polite (may_fail al) prog ->
  exists s h st, run_ops al n radix_init prog [] = Some (s, h) /\ reach (may_fail al) h st /\ length h = n /\
    (forall o, 0 <= o < 2 ^ 63 -> live st o -> radix_find s o = st_cell st o).
Proof.
  intros al prog n AL P. destruct (run_ok al AL prog P n radix_init (fun _ _ => 0) empty []) as (s & loc & st & h & E & H & R & t & T & Lt).
  - apply rel_empty; reflexivity.
  - constructor.
  - exists s, h, st. split; [exact E|]. split; [exact H|]. split; [subst h; exact Lt|]. intros o Ho Lo. destruct (live_in _ _ _ _ _ R Lo) as [_ IN]. destruct R as (G & C & _). rewrite (find_ok _ _ _ _ _ _ G IN).
    unfold live in Lo. rewrite C in *. destruct (cell_of (view_of s loc) o); [reflexivity|contradiction].
Qed.
(** an allocator that never fails, one that fails from the fifth request on *)
Definition bump (k : nat) (_ : heap) : Z := 4096 * (1 + Z.of_nat k).
Definition four (k : nat) (h : heap) : Z := if (k <? 4)%nat then bump k h else 0.
Lemma bump_allocator : allocator bump.
Proof. intros k h H. right. unfold bump, NODE. split; [lia|]. intros n Hn. destruct (H n Hn) as (j & h2 & Hj & ->). unfold bump. lia. Qed.
Lemma four_allocator : allocator four.
Proof.
  intros k h H. unfold four, NULL. destruct (Nat.ltb_spec k 4) as [K|K]; [right|left; reflexivity]. unfold bump, NODE. split; [lia|]. intros n Hn. destruct (H n Hn) as (j & h' & Hj & ->).
  unfold four, bump. destruct (Nat.ltb_spec j 4); lia.
Qed.
Definition script (l : list rop) (h : list (rop * rres)) : rop := nth (length h) l RFirst.
Lemma script_polite : forall full l, (forall s, Forall (rallowed s) l) -> polite full (script l).
Proof.
  intros full l A h s _. unfold script. specialize (A s). destruct (nth_in_or_default (length h) l RFirst) as [Hn|Hn].
  - rewrite Forall_forall in A. apply A, Hn.
  - rewrite Hn. exact I.
Qed.
Definition ex_ops : list rop := [RAlloc 600; RAlloc 601; RAlloc (2 ^ 40 + 5); RFind 601; RFree 600; RFind 600; RFind 601; RAlloc 7; RFirst; RFree 601; RFind 601; RRelease; RFind 7].
Example C69_session_ex : allocator bump /\ polite (may_fail bump) (script ex_ops) /\
  (let* (s, h) := run_ops bump 13 radix_init (script ex_ops) [] in Some (map snd h)) =
    Some [RPtr (12288 + 88); RPtr (12288 + 89); RPtr (65536 + 5); RPtr (12288 + 89); RCode 0; RPtr 0; RPtr (12288 + 89); RPtr (4096 + 7); RAt (Some (4096 + 7, 7)); RCode 0; RPtr 0; RUnit; RPtr 0].
Proof.
  split; [exact bump_allocator|]. split; [|vm_compute; reflexivity]. apply script_polite. intros s. unfold ex_ops, clear.
  repeat (apply Forall_cons; [cbn [rallowed]; unfold clear; try exact I; try (split; [lia|right; left; vm_compute; discriminate]); try (split; [lia|left; lia]); lia|]). apply Forall_nil.
Qed.
(** When memory runs out NULL comes back and the cells there were stay. *)
Example C69_session_full_ex : allocator four /\
  (let* (s, h) := run_ops four 5 radix_init (script [RAlloc 600; RAlloc 8; RAlloc (2 ^ 40); RFind 600; RFind 8]) [] in Some (map snd h)) = Some [RPtr (12288 + 88); RPtr (4096 + 8); RPtr 0; RPtr (12288 + 88); RPtr (4096 + 8)].
Proof. split; [exact four_allocator|]. vm_compute. reflexivity. Qed.
(** What the answers of such a history mean, in words of the history alone. *)
Theorem C69_find_after_alloc : forall full h s o c s', reach full h s -> rstep full s (RAlloc o) (RPtr c) s' -> c <> NULL -> st_cell s' o = Some c /\
  (forall o' c', o' <> o -> st_cell s o' = Some c' -> st_cell s' o' = Some c' /\ apart o c o' c').
Proof.
  intros full h s o c s' _ S N. inversion S; subst. match goal with H : alloc_step _ _ _ _ _ |- _ => inversion H; subst end; [|contradiction].
  cbn [add st_cell]. unfold put. rewrite Z.eqb_refl. split; [reflexivity|]. intros o' c' No Hc. destruct (Z.eqb_spec o' o); [contradiction|]. split; [exact Hc|].
  match goal with H : fits _ _ _ |- _ => apply (proj2 H), Hc end.
Qed.
Theorem C69_gone_after_free : forall full h s o c s', reach full h s -> rstep full s (RFree o) (RCode c) s' -> st_cell s' o = None /\ forall o', o' <> o -> st_cell s' o' = st_cell s o'.
Proof.
  intros full h s o c s' _ S. inversion S; subst.
  - cbn [drop st_cell]. unfold put. rewrite Z.eqb_refl. split; [reflexivity|]. intros o' N. destruct (Z.eqb_spec o' o); [contradiction|reflexivity].
  - split; [|reflexivity]. unfold live in *. destruct (st_cell s' o); [|reflexivity]. exfalso. match goal with H : ~ _ |- _ => apply H; discriminate end.
  - split; [|reflexivity]. destruct (st_cell s' o) eqn:E; [|reflexivity]. exfalso. match goal with H : forall i, live _ i -> _ |- _ => apply (H o); [unfold live; congruence|reflexivity] end.
Qed.
Example C69_steps_ex : exists s1 s2, reach True [(RAlloc 7, RPtr 4103)] s1 /\ rstep True s1 (RAlloc 600) (RPtr 8280) s2 /\ reach True [(RAlloc 7, RPtr 4103); (RFree 7, RCode 0)] (drop s1 7).
Proof.
  exists (add empty 7 4103), (add (add empty 7 4103) 600 8280).
  assert (R1 : reach True [(RAlloc 7, RPtr 4103)] (add empty 7 4103)). { apply (reach_step True [] empty (RAlloc 7)); [constructor|]. constructor. constructor. split; [vm_compute; reflexivity|]. discriminate. }
  split; [exact R1|]. split.
  - constructor. constructor. split; [vm_compute; reflexivity|]. intros o' c'. cbn [add st_cell empty]. unfold put. destruct (Z.eqb_spec o' 7) as [->|]; [|discriminate]. intros [= <-]. vm_compute. discriminate.
  - apply (reach_step True [(RAlloc 7, RPtr 4103)] (add empty 7 4103) (RFree 7)); [exact R1|]. apply free_live. discriminate.
Qed.
(** Release frees every node, so a map that is then empty again. *)
Theorem C69_release : forall al prog n, allocator al -> polite (may_fail al) prog ->
  exists s h s', run_ops al n radix_init prog [] = Some (s, h) /\ radix_release s = Some s' /\ (forall m, r_heap s' m = None) /\ r_node s' = NULL /\ r_level s' = 0.
Proof.
  intros al prog n AL P. destruct (run_ok al AL prog P n radix_init (fun _ _ => 0) empty []) as (s & loc & st & h & E & H & R & t & T & Lt).
  - apply rel_empty; reflexivity.
  - constructor.
  - destruct R as ([I B] & _). destruct (RadixRelease.release_ok _ _ _ _ _ _ I) as (h2 & E2 & H2). unfold radix_release. eexists s, h, _. split; [exact E|]. rewrite E2. split; [reflexivity|]. cbn. auto.
Qed.
Example C69_release_ex : (let* (s, h) := run_ops bump 3 radix_init (script ex_ops) [] in let* s' := radix_release s in Some (r_level s, map (fun k => match r_heap s (bump k (r_heap s)) with Some _ => true | None => false end) (seq 0 8), map (fun k => match r_heap s' (bump k (r_heap s')) with Some _ => true | None => false end) (seq 0 20)))
  = Some (7, repeat true 8, repeat false 20).
Proof. vm_compute. reflexivity. Qed.
(** Refutations of the full statement. The capacity test of radix_parent lets offsets of one bit more than fit through:
    with 300 allocated, 2^13 + 300 is "found" as well, at the same cell; with a single block, looking up 256 reads the
    bit after the bitmap; freeing 2^13 + 300 frees the cell of 300. *)
Theorem C69_alias_refuted : exists o o', o <> o' /\ 0 <= o < 2 ^ 63 /\ 0 <= o' < 2 ^ 63 /\
  (let* (s, p) := radix_alloc bump radix_init o in let* q := radix_find s o' in Some (p, q)) = Some (12288 + 44, 12288 + 44).
Proof. exists 300, (2 ^ 13 + 300). vm_compute. repeat split; intros; discriminate. Qed.
Theorem C69_overread_refuted : exists o o', 0 <= o < 2 ^ 63 /\ 0 <= o' < 2 ^ 63 /\ (let* (s, _) := radix_alloc bump radix_init o in Some (r_level s)) = Some 0 /\ (let* (s, _) := radix_alloc bump radix_init o in radix_find s o') = None.
Proof. exists 0, 256. vm_compute. repeat split; intros; discriminate. Qed.
Theorem C69_free_refuted : exists o o1 o', o <> o' /\ 0 <= o < 2 ^ 63 /\ 0 <= o' < 2 ^ 63 /\
  (let* (s, _) := radix_alloc bump radix_init o in let* (s, _) := radix_alloc bump s o1 in let* p := radix_find s o in let* (s, c) := radix_free s o' in let* q := radix_find s o in Some (p, c, q)) = Some (12288 + 44, 0, NULL).
Proof. exists 300, 301, (2 ^ 13 + 300). vm_compute. repeat split; intros; discriminate. Qed.
(** From 2^63 on the depth needed makes a shift count of 64 or more. *)
Theorem C69_high_refuted : exists o, 0 <= o < 2 ^ 64 /\ (let* (s, p) := radix_alloc bump radix_init o in let* q := radix_find s 0 in Some q) = None.
Proof. exists (2 ^ 63). vm_compute. repeat split; intros; discriminate. Qed.

(** ** C85: iteration
    [rstep] of the session theorem says what first, last, next and previous report. Spelled out for the state reached: *)
Theorem C85_iteration_partial : forall al prog n, allocator al -> polite (may_fail al) prog ->
  exists s h st, run_ops al n radix_init prog [] = Some (s, h) /\ reach (may_fail al) h st /\
    (exists r, radix_first s = Some r /\ match r with Some (c, o) => first_from st 0 256 o c | None => forall i, live st i -> 256 <= i end) /\
    (st_ok st = true ->
      (exists r, radix_last s = Some r /\ match r with Some (c, o) => last_below st (2 ^ 63) o c | None => forall i, ~ live st i end) /\
      forall o, live st o ->
        (exists r, radix_next s o = Some r /\ match r with Some (c, x) => exists o', first_from st (o + 1) (2 ^ 63) o' c /\ (o' / 2 ^ 13 = o / 2 ^ 13 -> x = o') | None => forall i, live st i -> i <= o end) /\
        ((o < 256 \/ exists i, live st i /\ i < o) ->
         exists r, radix_prev s o = Some r /\ match r with Some (c, x) => exists o', last_below st o o' c /\ (o' / 2 ^ 13 = o / 2 ^ 13 -> x = o') | None => forall i, live st i -> o <= i end)).
Proof.
  intros al prog n AL P. destruct (run_ok al AL prog P n radix_init (fun _ _ => 0) empty []) as (s & loc & st & h & E & H & R & t & T & Lt).
  - apply rel_empty; reflexivity.
  - constructor.
  - exists s, h, st. split; [exact E|]. split; [exact H|].
    assert (CL : forall o, live st o -> clear st o). { intros o Lo. destruct (live_in _ _ _ _ _ R Lo) as [B _]. split; [exact B|]. right. right. exists o. split; [exact Lo|lia]. }
    assert (Q : forall op, rallowed st op -> exists s' r st', radix_exec al s op = Some (s', r) /\ rstep (may_fail al) st op r st').
    { intros op A. destruct (exec_ok al AL s loc st op R A) as (s' & r & st' & loc' & E1 & S1 & _). eauto. }
    split; [|intros OK; split].
    + destruct (Q RFirst I) as (s' & r & st' & E1 & S1). cbn [radix_exec] in E1. destruct (radix_first s) as [a|]; [|discriminate]. injection E1 as <- <-. exists a. split; [reflexivity|]. inversion S1; subst; assumption.
    + destruct (Q RLast OK) as (s' & r & st' & E1 & S1). cbn [radix_exec] in E1. destruct (radix_last s) as [a|]; [|discriminate]. injection E1 as <- <-. exists a. split; [reflexivity|]. inversion S1; subst; assumption.
    + intros o Lo. split.
      * destruct (Q (RNext o) (conj (CL o Lo) OK)) as (s' & r & st' & E1 & S1). cbn [radix_exec] in E1. destruct (radix_next s o) as [a|]; [|discriminate]. injection E1 as <- <-. exists a. split; [reflexivity|]. inversion S1; subst.
        -- eexists. split; eassumption.
        -- match goal with D : _ \/ _ |- _ => destruct D as [D|D]; [contradiction|exact D] end.
      * intros PB. destruct (Q (RPrev o) (conj (CL o Lo) (conj OK (fun _ => PB)))) as (s' & r & st' & E1 & S1). cbn [radix_exec] in E1. destruct (radix_prev s o) as [a|]; [|discriminate]. injection E1 as <- <-. exists a. split; [reflexivity|]. inversion S1; subst.
        -- eexists. split; eassumption.
        -- match goal with D : _ \/ _ |- _ => destruct D as [D|D]; [contradiction|exact D] end.
Qed.
Definition walk_ops : list rop := [RAlloc 3; RAlloc 600; RAlloc 700; RAlloc 4000; RFirst; RNext 3; RNext 600; RNext 700; RNext 4000; RLast; RPrev 4000; RPrev 700; RPrev 600; RPrev 3].
Example C85_iteration_ex : (let* (s, h) := run_ops bump 14 radix_init (script walk_ops) [] in Some (map snd (skipn 4 h))) =
  Some (let a := 4096 + 3 in let b := 12288 + 88 in let c := 12288 + 188 in let d := 16384 + 160 in
        [RAt (Some (a, 3)); RAt (Some (b, 600)); RAt (Some (c, 700)); RAt (Some (d, 4000)); RAt None; RAt (Some (d, 4000)); RAt (Some (c, 700)); RAt (Some (b, 600)); RAt (Some (a, 3)); RAt None]).
Proof. vm_compute. reflexivity. Qed.
(** Refutations: "first" reports nothing although a cell exists; "previous" invents a cell past the end of an empty block;
    "next" reports a wrong offset when it leaves an aligned range of 2^13. *)
Theorem C85_first_refuted : exists o, 0 <= o < 2 ^ 63 /\ (let* (s, p) := radix_alloc bump radix_init o in let* r := radix_first s in let* l := radix_last s in Some (p, r, l)) = Some (12288 + 44, None, Some (12288 + 44, o)).
Proof. exists 300. vm_compute. repeat split; intros; discriminate. Qed.
Theorem C85_prev_refuted : exists o, 0 <= o < 2 ^ 63 /\ (let* (s, p) := radix_alloc bump radix_init o in let* r := radix_prev s o in Some (p, r)) = Some (12288 + 44, Some (4096 + 256, 256)).
Proof. exists 300. vm_compute. repeat split; intros; discriminate. Qed.
Theorem C85_next_refuted : exists a b, 0 <= a < b /\ b < 2 ^ 63 /\
  (let* (s, p) := radix_alloc bump radix_init a in let* (s, q) := radix_alloc bump s b in let* r := radix_next s a in Some (q, r)) = Some (24576 + 196, Some (24576 + 196, 10180)) /\ b <> 10180.
Proof. exists 1500, 8900. vm_compute. repeat split; intros; discriminate. Qed.

(** ** C86: charging a range
    The full statement "every offset of the range has a block afterwards" is false; what holds: one cell every 256 offsets from the start. *)
Theorem C86_charge_partial : forall al prog n o size, allocator al -> polite (may_fail al) prog -> 0 <= o -> 0 <= size -> o + size <= 2 ^ 63 -> ~ may_fail al ->
  exists s h s', run_ops al n radix_init prog [] = Some (s, h) /\ radix_charge al (Z.to_nat (size / BLOCK + 1)) s o size = Some (s', 0) /\
    forall k, 0 <= k -> o + 256 * k < o + size -> exists c, radix_find s' (o + 256 * k) = Some c /\ c <> NULL.
Proof.
  intros al prog n o size AL P Ho Hs Hos NF. destruct (run_ok al AL prog P n radix_init (fun _ _ => 0) empty []) as (s & loc & st & h & E & H & R & t & T & Lt).
  - apply rel_empty; reflexivity.
  - constructor.
  - destruct (charge_spec al AL (Z.to_nat (size / BLOCK + 1)) s loc st o (o + size) R Ho Hos) as (s' & c & st' & loc' & E1 & S1 & R1); [unfold BLOCK; clear - Hs; lia|].
    assert (K : forall last st o c st', charge_steps (may_fail al) st o last c st' -> c = 0 /\ (forall i, live st i -> live st' i) /\ forall k, 0 <= k -> o + 256 * k < last -> live st' (o + 256 * k)).
    { clear - NF. intros last st o c st' S. induction S as [st o last Hl|st o last c s1 code s' Hl N A S IH|st o last s' Hl A].
      - split; [reflexivity|]. split; [auto|]. intros; lia.
      - destruct IH as (I1 & I2 & I3). split; [exact I1|]. inversion A; subst; [|contradiction].
        assert (M : forall i, live st i \/ i = o -> live s' i). { intros i Hi. apply I2. unfold live in *. cbn [add st_cell]. unfold put. destruct (Z.eqb_spec i o); [discriminate|]. destruct Hi; [assumption|contradiction]. }
        split; [intros i Hi; apply M; auto|]. intros k Hk Hb. destruct (Z.eq_dec k 0) as [->|Nk]; [apply M; right; lia|]. replace (o + 256 * k) with (o + 256 + 256 * (k - 1)) by lia. apply I3; lia.
      - exfalso. inversion A; subst; [|contradiction]. match goal with F : fits _ _ _ |- _ => destruct F as [F _]; unfold start, NULL in F end. lia. }
    destruct (K _ _ _ _ _ S1) as (-> & _ & K3). exists s, h, s'. split; [exact E|]. unfold radix_charge. destruct (Z.leb_spec (2 ^ 64) (o + size)); [lia|]. split; [exact E1|].
    intros k Hk Hb. pose proof (K3 k Hk Hb) as Lv. destruct (live_in _ _ _ _ _ R1 Lv) as [_ IN]. destruct R1 as (G & C & _). rewrite (find_ok _ _ _ _ _ _ G IN). unfold live in Lv. rewrite C in Lv.
    destruct (cell_of (view_of s' loc') (o + 256 * k)) as [c|] eqn:CE; [|contradiction]. exists c. split; [reflexivity|]. destruct G as [I B]. unfold cell_of, view_of, view in CE.
    destruct (Z.eqb_spec (loc' 0 ((o + 256 * k) / 256)) 0) as [|NZ]; [discriminate|]. destruct (r_heap s' _); [|discriminate]. destruct (BitmapSpec.mbit _ 0 _); [|discriminate]. assert (CQ : c = loc' 0 ((o + 256 * k) / 256) + (o + 256 * k) mod 256) by congruence. rewrite CQ. pose proof (loc_pos I _ _ NZ) as LP. unfold NULL. pose proof (Z.mod_pos_bound (o + 256 * k) 256 ltac:(lia)) as MB. clear - LP MB. revert LP MB. generalize ((o + 256 * k) mod 256). intros. lia.
Qed.
Example C86_charge_ex : allocator bump /\ ~ may_fail bump /\ (let* (s, c) := radix_charge bump 4 radix_init 0 600 in let* a := radix_find s 0 in let* b := radix_find s 256 in let* d := radix_find s 512 in Some (c, a, b, d)) = Some (0, 4096, 12288, 16384).
Proof. split; [exact bump_allocator|]. split; [|vm_compute; reflexivity]. intros (k & h & H). unfold bump, NULL in H. lia. Qed.
Theorem C86_charge_refuted : exists o size i, 0 <= o <= i /\ i < o + size /\
  (let* (s, c) := radix_charge bump 1 radix_init o size in Some (c, r_clock s)) = Some (0, 1%nat) /\ o / 256 <> i / 256.
Proof. exists 255, 2, 256. vm_compute. repeat split; intros; discriminate. Qed.

(** ** C87: cells of a typed array *)
Theorem C87_cells : forall cells i j, 0 < cells <= 256 -> 0 <= i -> 0 <= j -> i <> j -> i / (256 / cells) * 256 + 256 <= 2 ^ 64 -> j / (256 / cells) * 256 + 256 <= 2 ^ 64 ->
  let a := radix_offset i cells in let b := radix_offset j cells in
  a / 256 = (a + cells - 1) / 256 /\ 0 <= a < 2 ^ 64 /\ (a + cells <= b \/ b + cells <= a).
Proof.
  intros cells i j Hc Hi Hj N Bi Bj. set (num := 256 / cells) in *. assert (Hn : 1 <= num) by (unfold num; apply Z.div_le_lower_bound; lia).
  assert (Hnc : num * cells <= 256) by (unfold num; pose proof (Z.mul_div_le 256 cells ltac:(lia)); lia).
  set (f := fun x => x / num * 256 + x mod num * cells).
  assert (F : forall x, 0 <= x -> x / num * 256 + 256 <= 2 ^ 64 -> radix_offset x cells = f x /\ 0 <= f x < 2 ^ 64 /\ f x / 256 = x / num /\ (f x + cells - 1) / 256 = x / num).
  { intros x Hx Bx. pose proof (Z.mod_pos_bound x num ltac:(lia)) as M. pose proof (Z.div_pos x num ltac:(lia) ltac:(lia)) as D.
    assert (M2 : 0 <= x mod num * cells /\ x mod num * cells + cells <= 256) by (clear - M Hnc Hc; nia).
    assert (RG : 0 <= f x < 2 ^ 64) by (unfold f; clear - M2 D Bx Hc; lia).
    split; [|split; [exact RG|]].
    - unfold radix_offset. fold num. change BLOCK with 256. destruct (pow2_check cells) eqn:PC.
      + assert (E : num * cells = 256 \/ True) by auto.
        assert (PW : num * cells = 256).
        { unfold num. assert (A : all_below 257 (fun c => negb (pow2_check c) || (c =? 0) || (256 / c * c =? 256)) = true) by (vm_compute; reflexivity).
          pose proof (all_below_spec _ _ A cells ltac:(lia)) as B. cbv beta in B. rewrite PC in B. destruct (Z.eqb_spec cells 0); [lia|]. cbn in B. apply Z.eqb_eq, B. }
        replace (x * cells) with (f x); [apply w64_small; lia|]. unfold f. pose proof (Z.div_mod x num ltac:(lia)) as DM. rewrite DM at 3. rewrite <- PW. ring.
      + fold num. apply w64_small. fold (f x). lia.
    - unfold f in *. clear - M2 Hc. split; [rewrite Z.add_comm, Z.div_add by lia; rewrite Z.div_small by lia; lia|].
      replace (x / num * 256 + x mod num * cells + cells - 1) with (x mod num * cells + cells - 1 + x / num * 256) by ring. rewrite Z.div_add by lia. rewrite Z.div_small by lia. lia. }
  destruct (F i Hi Bi) as (Ei & Ri & Di & Di'). destruct (F j Hj Bj) as (Ej & Rj & Dj & Dj'). cbv zeta. rewrite Ei, Ej. split; [congruence|]. split; [exact Ri|].
  pose proof (Z.div_mod i num ltac:(lia)) as DMi. pose proof (Z.div_mod j num ltac:(lia)) as DMj. pose proof (Z.mod_pos_bound i num ltac:(lia)) as Mi. pose proof (Z.mod_pos_bound j num ltac:(lia)) as Mj.
  unfold f. destruct (Z.eq_dec (i / num) (j / num)) as [Eq|Ne].
  - rewrite Eq in *. assert (i mod num <> j mod num) by (intros Q; apply N; congruence). clear - H Hc Mi Mj. destruct (Z_lt_dec (i mod num) (j mod num)); [left|right]; nia.
  - assert (M2 : i mod num * cells + cells <= 256 /\ 0 <= i mod num * cells) by (clear - Mi Hnc Hc; nia). assert (M3 : j mod num * cells + cells <= 256 /\ 0 <= j mod num * cells) by (clear - Mj Hnc Hc; nia).
    clear - Ne M2 M3. destruct (Z_lt_dec (i / num) (j / num)); [left|right]; lia.
Qed.
Example C87_cells_ex : map (fun i => radix_offset i 24) [0; 1; 9; 10; 11; 25] = [0; 24; 216; 256; 280; 632].
Proof. vm_compute. reflexivity. Qed.
(** the index comes back for cells whose size is a power of two *)
Theorem C87_index_partial : forall k i, 0 <= k <= 8 -> 0 <= i -> i * 2 ^ k < 2 ^ 64 -> radix_index (radix_offset i (2 ^ k)) (2 ^ k) = i.
Proof.
  intros k i Hk Hi Hb. assert (P : pow2_check (2 ^ k) = true).
  { assert (A : all_below 9 (fun k => pow2_check (2 ^ k)) = true) by (vm_compute; reflexivity). apply (all_below_spec _ _ A k). lia. }
  unfold radix_offset, radix_index. rewrite P. pose proof (pow_pos k ltac:(lia)). rewrite w64_small by nia. apply Z.div_mul. lia.
Qed.
Example C87_index_ex : radix_index (radix_offset 1234567 (2 ^ 3)) (2 ^ 3) = 1234567.
Proof. vm_compute. reflexivity. Qed.
Theorem C87_index_refuted : exists i cells, 0 <= i /\ 0 < cells <= 256 /\ radix_offset i cells = 256 /\ radix_index (radix_offset i cells) cells <> i.
Proof. exists 10, 24. vm_compute. repeat split; intros; discriminate. Qed.

Print Assumptions C69_session_partial.
Print Assumptions C69_find_after_alloc.
Print Assumptions C69_gone_after_free.
Print Assumptions C69_release.
Print Assumptions C69_alias_refuted.
Print Assumptions C69_overread_refuted.
Print Assumptions C69_free_refuted.
Print Assumptions C69_high_refuted.
Print Assumptions C85_iteration_partial.
Print Assumptions C85_first_refuted.
Print Assumptions C85_prev_refuted.
Print Assumptions C85_next_refuted.
Print Assumptions C86_charge_partial.
Print Assumptions C86_charge_refuted.
Print Assumptions C87_cells.
Print Assumptions C87_index_partial.
Print Assumptions C87_index_refuted.
