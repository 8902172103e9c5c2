(** Facts about [Base]. *)
From Verif Require Export Base.
From Coq Require Import Strings.Byte.

Lemma b2n_lt b : b2n b < 256.
Proof. unfold b2n. destruct b; vm_compute; reflexivity. Qed.

Lemma n2b_b2n b : n2b (b2n b) = b.
Proof. destruct b; vm_compute; reflexivity. Qed.

Lemma b2n_n2b n : b2n (n2b n) = n mod 256.
Proof.
  unfold b2n, n2b.
  assert (H : n mod 256 < 256) by (apply N.mod_lt; lia).
  destruct (Byte.of_N (n mod 256)) eqn:E.
  - now apply Byte.to_of_N.
  - apply Byte.of_N_None_iff in E. lia.
Qed.

Lemma b2n_inj a b : b2n a = b2n b -> a = b.
Proof. intros H. rewrite <- (n2b_b2n a), <- (n2b_b2n b). now rewrite H. Qed.

Lemma bytes_eqb_spec a b : reflect (a = b) (bytes_eqb a b).
Proof.
  revert b; induction a as [|x a IH]; intros [|y b]; cbn [bytes_eqb]; try (constructor; congruence).
  destruct (Byte.eqb x y) eqn:E; cbn [andb].
  - apply Byte.byte_dec_bl in E. subst y.
    destruct (IH b); constructor; congruence.
  - constructor. intros Heq. inversion Heq; subst.
    rewrite Byte.byte_dec_lb in E by reflexivity. discriminate.
Qed.

Lemma bytes_eqb_true a b : bytes_eqb a b = true <-> a = b.
Proof. destruct (bytes_eqb_spec a b); split; congruence. Qed.

Lemma bytes_eqb_refl a : bytes_eqb a a = true.
Proof. now apply bytes_eqb_true. Qed.

Lemma bytes_eqb_false a b : bytes_eqb a b = false <-> a <> b.
Proof. destruct (bytes_eqb_spec a b); split; congruence. Qed.

Lemma bytes_eq_dec (a b : bytes) : {a = b} + {a <> b}.
Proof. destruct (bytes_eqb_spec a b); [left|right]; assumption. Qed.

Lemma rbind_ok {A B} (m : res A) (k : A -> res B) b :
  rbind m k = Ok b -> exists a, m = Ok a /\ k a = Ok b.
Proof. destruct m; cbn; intros H; try discriminate. eauto. Qed.

Lemma rmap_ok {A B} (f : A -> B) (m : res A) b :
  rmap f m = Ok b -> exists a, m = Ok a /\ b = f a.
Proof. destruct m; cbn; intros H; try discriminate. inversion H; eauto. Qed.

Lemma guard_ok b e u : guard b e = Ok u -> b = true.
Proof. destruct b; cbn; congruence. Qed.

Lemma upd_length {A} (l : list A) i a : length (upd l i a) = length l.
Proof. revert i; induction l as [|x l IH]; intros [|i]; cbn; auto. Qed.

Lemma upd_nth_eq {A} (l : list A) i a : (i < length l)%nat -> nth_error (upd l i a) i = Some a.
Proof.
  revert i; induction l as [|x l IH]; intros [|i]; cbn; intros H; try lia; auto.
  apply IH; lia.
Qed.

Lemma upd_nth_neq {A} (l : list A) i j a : i <> j -> nth_error (upd l i a) j = nth_error l j.
Proof.
  revert i j; induction l as [|x l IH]; intros [|i] [|j]; cbn; intros H; try congruence; auto.
Qed.

Lemma upd_nth {A} (l : list A) i j a :
  nth_error (upd l i a) j =
  if (i =? j)%nat then (if (i <? length l)%nat then Some a else None) else nth_error l j.
Proof.
  destruct (Nat.eqb_spec i j) as [->|Hne].
  - destruct (Nat.ltb_spec j (length l)).
    + now apply upd_nth_eq.
    + apply nth_error_None. rewrite upd_length. lia.
  - now apply upd_nth_neq.
Qed.

Lemma index_ok {A} (l : list A) i a : index l i = Ok a <-> nth_error l i = Some a.
Proof. unfold index. destruct (nth_error l i); split; congruence. Qed.

Lemma set_index_ok {A} (l : list A) i a l' :
  set_index l i a = Ok l' <-> (i < length l)%nat /\ l' = upd l i a.
Proof.
  unfold set_index. destruct (Nat.ltb_spec i (length l)); split; intros H1.
  - inversion H1; auto.
  - destruct H1; congruence.
  - discriminate.
  - lia.
Qed.

Lemma nth_error_ext {A} (l1 l2 : list A) :
  (forall i, nth_error l1 i = nth_error l2 i) -> l1 = l2.
Proof.
  revert l2; induction l1 as [|x l1 IH]; intros [|y l2] H; auto.
  - specialize (H 0%nat); discriminate.
  - specialize (H 0%nat); discriminate.
  - f_equal.
    + specialize (H 0%nat); cbn in H; congruence.
    + apply IH. intros i. apply (H (S i)).
Qed.

Lemma lenN_app {A} (a b : list A) : lenN (a ++ b) = lenN a + lenN b.
Proof. unfold lenN. rewrite app_length. lia. Qed.
