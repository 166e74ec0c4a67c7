(** * Memory of linked structures
    A pointer to an object is its address; an object has numbered fields holding words (or
    pointers). A field that is not there (NULL, poison or freed memory) is [None], and so is
    every access to it. *)
From Verif Require Import Lib.

Definition mem := Z -> Z -> option Z.
Definition ld (m : mem) (p f : Z) : option Z := m p f.
Definition upd (m : mem) (p f v : Z) : mem := fun q g => if (q =? p) && (g =? f) then Some v else m q g.
Definition st (m : mem) (p f v : Z) : option mem := match m p f with Some _ => Some (upd m p f v) | None => None end.
Definition NULL : Z := 0.

Lemma upd_same m p f v : upd m p f v p f = Some v.
Proof. unfold upd. rewrite !Z.eqb_refl. reflexivity. Qed.
Lemma upd_other m p f v q g : q <> p \/ g <> f -> upd m p f v q g = m q g.
Proof. intros H. unfold upd. destruct (Z.eqb_spec q p), (Z.eqb_spec g f); cbn; try reflexivity. subst. destruct H; contradiction. Qed.
Lemma st_some m p f v x : m p f = Some x -> st m p f v = Some (upd m p f v).
Proof. intros H. unfold st. rewrite H. reflexivity. Qed.
Lemma st_inv m p f v m' : st m p f v = Some m' -> (exists x, m p f = Some x) /\ m' = upd m p f v.
Proof. unfold st. destruct (m p f) eqn:E; [|discriminate]. intros H. injection H as <-. eauto. Qed.
(** A field is present after any sequence of stores iff it was before. *)
Lemma upd_dom m p f v q g : (exists x, m p f = Some x) -> ((exists x, upd m p f v q g = Some x) <-> exists x, m q g = Some x).
Proof.
  intros [x0 H]. unfold upd. destruct (Z.eqb_spec q p), (Z.eqb_spec g f); cbn; try tauto. subst. split; eauto.
Qed.
