(** * C48: the allocator front end *)
From Verif Require Import Lib AllocModel.
(** ** Specification: the request a call stands for, and how a call satisfies it *)
Inductive request := Allocate (size : Z) | Clear_allocate (size : Z) | Resize (block size : Z) | Release (block : Z) | Nothing.
(** what is asked for by malloc, zalloc, realloc and free of the C standard's meaning, with a size of zero or the null block *)
Definition meaning_malloc (size : Z) : request := if size =? 0 then Nothing else Allocate size.
Definition meaning_zalloc (size : Z) : request := if size =? 0 then Nothing else Clear_allocate size.
Definition meaning_free (block : Z) : request := if block =? 0 then Nothing else Release block.
Definition meaning_realloc (block size : Z) : request := if block =? 0 then meaning_malloc size else if size =? 0 then Release block else Resize block size.
(** the back end in charge: the user's operation if there is one, else the C library's *)
Definition in_charge (default : alloc) (default_ops : alloc_ops) (a : option alloc) : alloc_ops * Z :=
  match a with
  | Some {| a_ops := Some o; a_pdata := p |} => (o, p)
  | Some {| a_ops := None; a_pdata := p |} => (default_ops, p)
  | None => (match a_ops default with Some o => o | None => default_ops end, a_pdata default)
  end.
(** the calls that serve a request *)
Definition serves (o : alloc_ops) (p : Z) (r : request) (l : list call) : Prop :=
  match r with
  | Nothing => l = []
  | Allocate n => match op_alloc o with Some f => l = [User_alloc f n p] | None => l = [C_malloc n] end
  | Clear_allocate n => match op_zalloc o with Some f => l = [User_zalloc f n p] | None => exists k m, k * m = n /\ l = [C_calloc k m] end
  | Resize b n => match op_realloc o with Some f => l = [User_realloc f b n p] | None => l = [C_realloc b n] end
  | Release b => match op_free o with Some f => l = [User_free f b p] | None => l = [C_free b] end
  end.
Section Props.
Variables (default : alloc) (default_ops : alloc_ops) (answer : call -> Z).
(** the result is the answer of the one call made, NULL when there is none *)
Definition outcome (l : list call) (r : Z) : Prop := match l with [] => r = 0 | [c] => r = answer c | _ => False end.
Theorem C48_malloc : forall a size, let (o, p) := in_charge default default_ops a in
  let (l, r) := bf_malloc default default_ops answer a size in serves o p (meaning_malloc size) l /\ outcome l r.
Proof.
  intros a size. assert (E : in_charge default default_ops a = ops_of default default_ops a) by (destruct a as [[[o|] p]|]; reflexivity). rewrite E. unfold bf_malloc, meaning_malloc. destruct (ops_of default default_ops a) as [o p]. destruct (size =? 0); [split; reflexivity|]. cbn. destruct (op_alloc o); split; reflexivity.
Qed.
Theorem C48_zalloc : forall a size, let (o, p) := in_charge default default_ops a in
  let (l, r) := bf_zalloc default default_ops answer a size in serves o p (meaning_zalloc size) l /\ outcome l r.
Proof.
  intros a size. assert (E : in_charge default default_ops a = ops_of default default_ops a) by (destruct a as [[[o|] p]|]; reflexivity). rewrite E. unfold bf_zalloc, meaning_zalloc. destruct (ops_of default default_ops a) as [o p]. destruct (size =? 0); [split; reflexivity|]. cbn. destruct (op_zalloc o); (split; [|reflexivity]); [reflexivity|]. exists 1, size. split; [lia|reflexivity].
Qed.
Theorem C48_free : forall a block, let (o, p) := in_charge default default_ops a in serves o p (meaning_free block) (bf_free default default_ops a block).
Proof.
  intros a block. assert (E : in_charge default default_ops a = ops_of default default_ops a) by (destruct a as [[[o|] p]|]; reflexivity). rewrite E. unfold bf_free, meaning_free. destruct (ops_of default default_ops a) as [o p]. destruct (block =? 0); [reflexivity|]. cbn. destruct (op_free o); reflexivity.
Qed.
Theorem C48_realloc : forall a block size, let (o, p) := in_charge default default_ops a in
  let (l, r) := bf_realloc default default_ops answer a block size in serves o p (meaning_realloc block size) l /\ (block <> 0 /\ size = 0 -> r = 0) /\ (block = 0 \/ size <> 0 -> outcome l r).
Proof.
  intros a block size. pose proof (C48_malloc a size) as M. pose proof (C48_free a block) as F. assert (E : in_charge default default_ops a = ops_of default default_ops a) by (destruct a as [[[o|] p]|]; reflexivity). rewrite E in *. unfold bf_realloc, meaning_realloc. destruct (ops_of default default_ops a) as [o p] eqn:Eo.
  destruct (Z.eqb_spec block 0) as [B|B].
  - destruct (bf_malloc default default_ops answer a size) as [l r]. destruct M as [M1 M2]. split; [exact M1|]. split; [tauto|]. intros _. exact M2.
  - destruct (Z.eqb_spec size 0) as [S|S].
    + unfold meaning_free in F. rewrite (proj2 (Z.eqb_neq _ _) B) in F. split; [exact F|]. split; [reflexivity|]. intros [?|?]; contradiction.
    + cbn. destruct (op_realloc o); (split; [reflexivity|]; split; [tauto|reflexivity]).
Qed.
(** arrays: right as long as the product is representable *)
Theorem C48_array_partial : forall a nr size, 0 <= nr -> 0 <= size -> nr * size < 2 ^ 64 ->
  bf_malloc_array default default_ops answer a nr size = bf_malloc default default_ops answer a (nr * size) /\
  bf_zalloc_array default default_ops answer a nr size = bf_zalloc default default_ops answer a (nr * size) /\
  forall block, bf_realloc_array default default_ops answer a block nr size = bf_realloc default default_ops answer a block (nr * size).
Proof. intros a nr size N S L. unfold bf_malloc_array, bf_zalloc_array, bf_realloc_array. rewrite w64_small by (unfold u64; nia). rewrite (Z.mul_comm size nr). repeat split. Qed.
End Props.
(** 2^61 + 1 elements of 8 bytes: 8 bytes are asked for *)
Theorem C48_array_refuted : exists default default_ops nr size, 0 <= nr < 2 ^ 64 /\ 0 <= size < 2 ^ 64 /\ forall answer,
  fst (bf_malloc_array default default_ops answer None nr size) = [C_malloc 8] /\ 8 < nr * size.
Proof.
  exists {| a_ops := None; a_pdata := 0 |}, {| op_alloc := None; op_zalloc := None; op_realloc := None; op_free := None |}, (2 ^ 61 + 1), 8. split; [lia|]. split; [lia|]. intros answer. split; [vm_compute; reflexivity|lia].
Qed.
Example C48_case : bf_realloc {| a_ops := None; a_pdata := 0 |} {| op_alloc := None; op_zalloc := None; op_realloc := None; op_free := None |} (fun _ => 4096)
  (Some {| a_ops := Some {| op_alloc := Some 1; op_zalloc := None; op_realloc := Some 2; op_free := None |}; a_pdata := 9 |}) 64 100 = ([User_realloc 2 64 100 9], 4096).
Proof. reflexivity. Qed.
Print Assumptions C48_malloc.
Print Assumptions C48_zalloc.
Print Assumptions C48_free.
Print Assumptions C48_realloc.
Print Assumptions C48_array_partial.
Print Assumptions C48_array_refuted.
