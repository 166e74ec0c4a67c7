(** * C88: copies of strings *)
From Verif Require Import Lib StrdupModel.

(** ** Specification: memory that holds a string, and a block that holds exactly a string *)
Definition text (s : list Z) : Prop := Forall (fun c => c <> 0) s.
Definition stored (mem s : list Z) : Prop := text s /\ exists rest, mem = s ++ 0 :: rest.
Definition copy_of (s : list Z) : list (option Z) := map Some s ++ [Some 0].

Lemma strlen_ok : forall s rest, text s -> strlen (s ++ 0 :: rest) = Some (zlen s).
Proof.
  induction s as [|c s IH]; intros rest T; cbn [app strlen]; [reflexivity|]. inversion T; subst. destruct (Z.eqb_spec c 0); [contradiction|]. rewrite (IH rest ltac:(assumption)). unfold zlen. cbn [length]. f_equal. lia.
Qed.
Lemma strnlen_ok : forall s rest n, text s -> strnlen (s ++ 0 :: rest) n = Some (Z.min (zlen s) (Z.of_nat n)).
Proof.
  induction s as [|c s IH]; intros rest [|n] T; cbn [app strnlen]; try (f_equal; unfold zlen; cbn [length]; lia); [reflexivity|]. inversion T; subst. destruct (Z.eqb_spec c 0); [contradiction|]. rewrite (IH rest n ltac:(assumption)). unfold zlen. cbn [length]. f_equal. lia.
Qed.
Lemma wr_snoc : forall (p : list (option Z)) k v, (0 < k)%nat -> wr (p ++ repeat None k) (zlen p) v = Some ((p ++ [v]) ++ repeat None (k - 1)).
Proof. intros p [|k] v Hk; [lia|]. cbn [repeat]. rewrite wr_app_len by reflexivity. rewrite <- app_assoc. cbn [app]. rewrite Nat.sub_succ, Nat.sub_0_r. reflexivity. Qed.
Lemma wr_out : forall (p : list (option Z)) v, wr p (zlen p) v = None.
Proof.
  intros p v. unfold wr, zlen. destruct (Z.ltb_spec (Z.of_nat (length p)) 0); [lia|]. rewrite Nat2Z.id. induction p as [|x p IH]; cbn [length wr_nat]; [reflexivity|]. rewrite IH; [reflexivity|lia].
Qed.
Lemma strcpy_ok : forall s rest p, text s -> strcpy (p ++ repeat None (S (length s))) (zlen p) (s ++ 0 :: rest) = Some (p ++ copy_of s).
Proof.
  induction s as [|c s IH]; intros rest p T; cbn [app strcpy length].
  - rewrite wr_snoc by lia. cbn [Z.eqb Nat.sub repeat]. rewrite app_nil_r. reflexivity.
  - inversion T; subst. rewrite wr_snoc by lia. destruct (Z.eqb_spec c 0); [contradiction|]. replace (S (S (length s)) - 1)%nat with (S (length s)) by lia. replace (zlen p + 1) with (zlen (p ++ [Some c])) by (unfold zlen; rewrite app_length; cbn [length]; lia). rewrite IH by assumption. unfold copy_of. rewrite <- app_assoc. reflexivity.
Qed.
(** zeros are written as long as there is room *)
Lemma pad_ok : forall n rest p k, strncpy (p ++ repeat None k) (zlen p) (0 :: rest) n = if (n <=? k)%nat then Some (p ++ repeat (Some 0) n ++ repeat None (k - n)) else None.
Proof.
  induction n as [|n IH]; intros rest p k; cbn [strncpy].
  - rewrite Nat.sub_0_r. reflexivity.
  - destruct k as [|k]; cbn [repeat].
    + rewrite app_nil_r, wr_out. reflexivity.
    + change (None :: repeat None k) with (repeat (@None Z) (S k)). rewrite wr_snoc by lia. cbn [Z.eqb]. replace (zlen p + 1) with (zlen (p ++ [Some 0])) by (unfold zlen; rewrite app_length; cbn [length]; lia). replace (S k - 1)%nat with k by lia. rewrite IH. change (S n <=? S k)%nat with (n <=? k)%nat. destruct (n <=? k)%nat; [|reflexivity]. rewrite <- app_assoc. reflexivity.
Qed.
Lemma strncpy_ok : forall s rest p k n, text s -> strncpy (p ++ repeat None k) (zlen p) (s ++ 0 :: rest) n =
  if (n <=? k)%nat then Some (p ++ map Some (firstn n s) ++ repeat (Some 0) (n - length s) ++ repeat None (k - n)) else None.
Proof.
  induction s as [|c s IH]; intros rest p k n T.
  - cbn [app]. rewrite pad_ok, firstn_nil. cbn [map app length]. rewrite Nat.sub_0_r. reflexivity.
  - inversion T; subst. destruct n as [|n]; cbn [app strncpy].
    + rewrite Nat.sub_0_r. reflexivity.
    + destruct k as [|k].
      * rewrite app_nil_r, wr_out. reflexivity.
      * rewrite wr_snoc by lia. destruct (Z.eqb_spec c 0); [contradiction|]. replace (zlen p + 1) with (zlen (p ++ [Some c])) by (unfold zlen; rewrite app_length; cbn [length]; lia). replace (S k - 1)%nat with k by lia. rewrite IH by assumption. change (S n <=? S k)%nat with (n <=? k)%nat. destruct (n <=? k)%nat; [|reflexivity]. rewrite <- app_assoc. reflexivity.
Qed.
(** ** The copy holds the string and nothing else; without memory or without a string there is none *)
Theorem C88_strdup : forall mem s ok, stored mem s -> strdup ok (Some mem) = Some (if ok then Some (copy_of s) else None).
Proof.
  intros mem s ok (T & rest & ->). unfold strdup. rewrite (strlen_ok s rest T). destruct ok; [|reflexivity]. pose proof (strcpy_ok s rest [] T) as E. cbn [app] in E. change (zlen []) with 0 in E. unfold block. replace (Z.to_nat (zlen s + 1)) with (S (length s)) by (unfold zlen; lia). rewrite E. reflexivity.
Qed.
Theorem C88_null : forall ok len, strdup ok None = Some None /\ strndup ok None len = Some None.
Proof. auto. Qed.
(** what strndup should make *)
Definition prefix_copy (s : list Z) (len : nat) : list (option Z) := copy_of (firstn len s).
(** ** strndup is right only for one length: the string's own, with the terminator. For a smaller one the copy has no
    terminator, for a greater one strncpy fills up memory behind the block. *)
Theorem C88_strndup_exact : forall mem s len, stored mem s ->
  (strndup true (Some mem) len = Some (Some (prefix_copy s len)) <-> len = S (length s)).
Proof.
  intros mem s len (T & rest & ->). unfold strndup. rewrite (strnlen_ok s rest len T). pose proof (strncpy_ok s rest [] (Z.to_nat (Z.min (zlen s) (Z.of_nat len) + 1)) len T) as E. cbn [app] in E. change (zlen []) with 0 in E. unfold block. rewrite E. unfold prefix_copy, copy_of. split.
  - destruct (Nat.leb_spec len (Z.to_nat (Z.min (zlen s) (Z.of_nat len) + 1))) as [L|L]; [|discriminate]. intros Q. injection Q as Q. apply app_inv_head in Q. unfold zlen in *. destruct (Nat.leb_spec len (length s)).
    + replace (len - length s)%nat with O in Q by lia. cbn [repeat app] in Q. replace (Z.to_nat (Z.min (Z.of_nat (length s)) (Z.of_nat len) + 1) - len)%nat with 1%nat in Q by lia. discriminate.
    + lia.
  - intros ->. replace (Z.to_nat (Z.min (zlen s) (Z.of_nat (S (length s))) + 1)) with (S (length s)) by (unfold zlen; lia). rewrite Nat.leb_refl, Nat.sub_diag. replace (S (length s) - length s)%nat with 1%nat by lia. rewrite firstn_all2 by lia. reflexivity.
Qed.
Theorem C88_strndup_overflow : forall mem s len, stored mem s -> (S (length s) < len)%nat -> strndup true (Some mem) len = None.
Proof.
  intros mem s len (T & rest & ->) L. unfold strndup. rewrite (strnlen_ok s rest len T). pose proof (strncpy_ok s rest [] (Z.to_nat (Z.min (zlen s) (Z.of_nat len) + 1)) len T) as E. cbn [app] in E. change (zlen []) with 0 in E. unfold block. rewrite E. destruct (Nat.leb_spec len (Z.to_nat (Z.min (zlen s) (Z.of_nat len) + 1))); [unfold zlen in *; lia|reflexivity].
Qed.
Theorem C88_strndup_open : forall mem s len, stored mem s -> (len <= length s)%nat -> strndup true (Some mem) len = Some (Some (map Some (firstn len s) ++ [None])).
Proof.
  intros mem s len (T & rest & ->) L. unfold strndup. rewrite (strnlen_ok s rest len T). pose proof (strncpy_ok s rest [] (Z.to_nat (Z.min (zlen s) (Z.of_nat len) + 1)) len T) as E. cbn [app] in E. change (zlen []) with 0 in E. unfold block. rewrite E. replace (Z.to_nat (Z.min (zlen s) (Z.of_nat len) + 1)) with (S len) by (unfold zlen; lia). destruct (Nat.leb_spec len (S len)); [|lia]. replace (len - length s)%nat with O by lia. replace (S len - len)%nat with 1%nat by lia. reflexivity.
Qed.
Theorem C88_strndup_refuted : exists mem s len, stored mem s /\ strndup true (Some mem) len = None.
Proof. exists [97; 0], [97], 8%nat. split; [split; [repeat constructor; discriminate|exists []; reflexivity]|]. vm_compute. reflexivity. Qed.
Theorem C88_strndup_open_refuted : exists mem s len, stored mem s /\ strndup true (Some mem) len = Some (Some [Some 97; Some 98; None]).
Proof. exists [97; 98; 99; 0], [97; 98; 99], 2%nat. split; [split; [repeat constructor; discriminate|exists []; reflexivity]|]. vm_compute. reflexivity. Qed.
Example C88_case : strdup true (Some [97; 98; 0; 55]) = Some (Some [Some 97; Some 98; Some 0]) /\ strndup true (Some [97; 98; 0; 55]) 3 = Some (Some [Some 97; Some 98; Some 0]) /\ stored [97; 98; 0; 55] [97; 98].
Proof. split; [reflexivity|]. split; [reflexivity|]. split; [repeat constructor; discriminate|exists [55]; reflexivity]. Qed.
Print Assumptions C88_strdup.
Print Assumptions C88_null.
Print Assumptions C88_strndup_exact.
Print Assumptions C88_strndup_overflow.
Print Assumptions C88_strndup_open.
Print Assumptions C88_strndup_refuted.
Print Assumptions C88_strndup_open_refuted.
