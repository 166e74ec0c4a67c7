(** * C111: creating and destroying caches takes and gives back memory exactly.
    The allocator is any function that may refuse any request ([honest]: what it hands out overlaps nothing that is in use).
    [own m l]: exactly the blocks [l] are in use. *)
From Verif Require Import Lib BitsModel BitsSpec CreateModel CreateSpec CreateProofs CreateProofs2.

(** No call of bfdev_cache_create touches memory it does not own or releases anything twice; if it fails, at whatever
    request, nothing is left behind; otherwise it holds the blocks of a cache and every other block is as before.  With an
    allocator that never refuses it succeeds for every size from 2 to 2^60. *)
Theorem C111_create : forall ask, honest ask -> forall ops_ok algorithm vals m L size maxpend, own m L -> 0 <= size <= 2 ^ 63 ->
  exists r m', cache_create ask ops_ok algorithm vals m size maxpend = Some (r, m') /\
  ((r = 0 /\ own m' L /\ keep L m m' /\ (ops_ok = true -> algorithm <> None -> 2 <= size <= 2 ^ 60 -> ~ generous ask)) \/
   (0 < r /\ 2 <= size /\ exists k tag arr ns, algorithm = Some k /\ own m' (blocks k r tag arr ns ++ L) /\ intact m' r tag arr ns /\
      is_pow2 (zlen ns) /\ size <= zlen ns < 2 * size /\ keep L m m')).
Proof. exact create_ok. Qed.
(** Destruction releases each of these blocks once, touches nothing else, and leaves other blocks alone, whatever the
    client has allocated, released or written in between, as long as the cache's own pointers are intact. *)
Theorem C111_destroy : forall k m h tag arr ns L n, own m (blocks k h tag arr ns ++ L) -> intact m h tag arr ns -> (length ns <= n)%nat ->
  exists m', cache_destroy n m h = Some m' /\ own m' L /\ cell m' = cell m.
Proof. exact destroy_ok. Qed.
(** Sizes above 2^63 cannot be rounded up: the shift is undefined. *)
Theorem C111_huge_refuted : exists ask m size, honest ask /\ own m [] /\ size < 2 ^ 64 /\ cache_create ask true (Some LRU) (0, 0, 0, 0) m size 0 = None.
Proof.
  exists (fun _ _ _ => None), {| live := []; cell := fun _ => 0; tick := 0 |}, (2 ^ 64 - 1). split; [intros t m size p _ _ H; discriminate H|].
  split; [split; [reflexivity|]; split; [constructor|]; split; [intros x y []|intros x []]|]. split; [lia|]. vm_compute. reflexivity.
Qed.

(** ** A concrete allocator: behind everything in use; the request number [no] is refused *)
Definition top (l : list (Z * Z)) : Z := fold_right (fun x a => Z.max (fst x + snd x) a) 8 l.
Definition bump (no : nat) (t : nat) (m : rmem) (size : Z) : option Z := if Nat.eqb t no then None else Some (top (live m)).
Lemma bump_honest no : honest (bump no).
Proof.
  assert (T : forall l, 8 <= top l) by (induction l as [|x l IH]; cbn [top fold_right]; [lia|]; fold (top l); lia).
  assert (U : forall l x, In x l -> fst x + snd x <= top l).
  { induction l as [|y l IH]; intros x []; cbn [top fold_right]; fold (top l); [subst; lia|]. specialize (IH x H). lia. }
  intros t m size p Hs W. unfold bump. destruct (Nat.eqb t no); [discriminate|]. intros H. injection H as <-. split; [pose proof (T (live m)); lia|].
  intros x Hx. right. cbn [fst]. apply U, Hx.
Qed.
Definition empty : rmem := {| live := []; cell := fun _ => 77; tick := 0 |}.
Example empty_own : own empty [].
Proof. split; [reflexivity|]. split; [constructor|]. split; [intros x y []|intros x []]. Qed.
(** three wanted, four given: seven blocks; each of the seven requests refused in turn; creation followed by destruction *)
Example C111_case :
  (exists h m', cache_create (bump 999) true (Some LFU) (1, 2, 3, 4) empty 3 5 = Some (h, m') /\ h <> 0 /\ length (live m') = 7%nat /\
     (exists m2, cache_destroy 4 m' h = Some m2 /\ live m2 = [])) /\
  forallb (fun no => match cache_create (bump no) true (Some LRU) (1, 2, 3, 4) empty 3 5 with Some (0, m') => match live m' with [] => true | _ => false end | _ => false end) (seq 0 7) = true.
Proof. split; [|vm_compute; reflexivity]. eexists _, _. split; [vm_compute; reflexivity|]. split; [discriminate|]. split; [reflexivity|]. eexists. split; vm_compute; reflexivity. Qed.
Example C111_thm_case : exists h m', cache_create (bump 999) true (Some LRU) (1, 2, 3, 4) empty 100 5 = Some (h, m') /\ h <> 0 /\ exists n m2, cache_destroy n m' h = Some m2 /\ own m2 [].
Proof.
  destruct (C111_create (bump 999) (bump_honest 999) true (Some LRU) (1, 2, 3, 4) empty [] 100 5 empty_own ltac:(lia)) as (r & m' & E & H).
  destruct H as [(-> & _) | (Hr & _ & k & tag & arr & ns & _ & O & I & _)].
  - exfalso. apply (f_equal (option_map fst)) in E. vm_compute in E. discriminate E.
  - exists r, m'. split; [exact E|]. split; [lia|]. rewrite app_nil_r in O. destruct (C111_destroy k m' r tag arr ns [] (length ns)) as (m2 & E2 & O2 & _); [rewrite app_nil_r; exact O|exact I|lia|].
    exists (length ns), m2. auto.
Qed.

Print Assumptions C111_create.
Print Assumptions C111_destroy.
Print Assumptions C111_huge_refuted.
