(** Small facts used everywhere: sets as lists, loops, array access. *)
From Verif Require Export Tree CodecFacts2.

(** Break up a successful computation. *)
Lemma Ok_inj {A} (a b : A) : Ok a = Ok b -> a = b.
Proof. congruence. Qed.
Ltac rinv1 :=
  match goal with
  | H : rbind ?m ?k = Ok ?b |- _ =>
      let x := fresh "v" in let E := fresh "E" in apply rbind_ok in H; destruct H as (x & E & H)
  | H : guard _ _ = Ok ?u |- _ => apply guard_ok in H; try clear u
  | H : Ok _ = Ok _ |- _ => apply Ok_inj in H
  | H : Err _ = Ok _ |- _ => discriminate H
  | H : Panic _ = Ok _ |- _ => discriminate H
  | H : Hang = Ok _ |- _ => discriminate H
  | H : (let (_, _) := ?x in _) = Ok _ |- _ => destruct x eqn:?
  end.
Ltac rinv := repeat rinv1.

Lemma memN_In x l : memN x l = true <-> In x l.
Proof.
  unfold memN. rewrite existsb_exists. split.
  - intros (y & Hy & E). apply N.eqb_eq in E. now subst.
  - intros H. exists x. split; auto. apply N.eqb_refl.
Qed.
Lemma memN_false x l : memN x l = false <-> ~ In x l.
Proof. rewrite <- memN_In. destruct (memN x l); split; congruence. Qed.
Lemma memB_In x l : memB x l = true <-> In x l.
Proof.
  unfold memB. rewrite existsb_exists. split.
  - intros (y & Hy & E). apply bytes_eqb_true in E. now subst.
  - intros H. exists x. split; auto. apply bytes_eqb_refl.
Qed.
Lemma memB_false x l : memB x l = false <-> ~ In x l.
Proof. rewrite <- memB_In. destruct (memB x l); split; congruence. Qed.

(** ** Array access *)
Lemma getN_ok {A} (t : list A) x a : getN t x = Ok a <-> nth_error t (N.to_nat x) = Some a.
Proof.
  unfold getN. destruct (N.ltb_spec x (lenN t)).
  - apply index_ok.
  - split; [discriminate|]. intros E. assert (nth_error t (N.to_nat x) <> None) by congruence.
    apply nth_error_Some in H0. unfold lenN in H. lia.
Qed.
Lemma getN_in {A} (t : list A) x : x < lenN t -> exists a, getN t x = Ok a.
Proof.
  intros H. unfold lenN in H. destruct (nth_error t (N.to_nat x)) as [a|] eqn:E.
  - exists a. now apply getN_ok.
  - apply nth_error_None in E. lia.
Qed.
Lemma getN_lt {A} (t : list A) x a : getN t x = Ok a -> x < lenN t.
Proof. unfold getN. destruct (N.ltb_spec x (lenN t)); congruence. Qed.
Lemma getN_out {A} (t : list A) x : lenN t <= x -> getN t x = Panic "index out of range".
Proof. unfold getN. intros H. destruct (N.ltb_spec x (lenN t)); [lia|reflexivity]. Qed.

Lemma setN_ok {A} (t : list A) x a t' : setN t x a = Ok t' <-> x < lenN t /\ t' = upd t (N.to_nat x) a.
Proof.
  unfold setN. destruct (N.ltb_spec x (lenN t)); split; intros H1.
  - apply Ok_inj in H1. auto.
  - destruct H1; congruence.
  - discriminate.
  - lia.
Qed.
Lemma setN_in {A} (t : list A) x a : x < lenN t -> setN t x a = Ok (upd t (N.to_nat x) a).
Proof. intros H. now apply setN_ok. Qed.
Lemma lenN_upd {A} (t : list A) i a : lenN (upd t i a) = lenN t.
Proof. unfold lenN. now rewrite upd_length. Qed.
Lemma setN_len {A} (t : list A) x a t' : setN t x a = Ok t' -> lenN t' = lenN t.
Proof. intros H. apply setN_ok in H. destruct H as [_ ->]. apply lenN_upd. Qed.
Lemma getN_setN {A} (t : list A) x a t' y : setN t x a = Ok t' ->
  getN t' y = if y =? x then Ok a else getN t y.
Proof.
  intros H. apply setN_ok in H. destruct H as [Hx ->]. unfold getN. rewrite lenN_upd.
  unfold index. rewrite upd_nth. destruct (N.eqb_spec y x) as [->|Hne].
  - rewrite (proj2 (N.ltb_lt _ _) Hx), Nat.eqb_refl. unfold lenN in Hx.
    assert (E : (N.to_nat x <? length t)%nat = true) by lia. rewrite E. reflexivity.
  - assert (E : (N.to_nat x =? N.to_nat y)%nat = false) by lia. rewrite E. reflexivity.
Qed.

(** ** Loops *)
Lemma foldM_app {S A} (f : S -> A -> res S) s l1 l2 :
  foldM f s (l1 ++ l2) = let! s' := foldM f s l1 in foldM f s' l2.
Proof.
  revert s; induction l1 as [|a l1 IH]; intros s; cbn; [reflexivity|].
  destruct (f s a); cbn; auto.
Qed.
Lemma foldM_inv {S A} (f : S -> A -> res S) (P : S -> Prop) l :
  (forall s a s', In a l -> P s -> f s a = Ok s' -> P s') ->
  forall s s', P s -> foldM f s l = Ok s' -> P s'.
Proof.
  induction l as [|a l IH]; cbn; intros Hf s s' Hs H.
  - apply Ok_inj in H. now subst.
  - rinv. eapply IH; [intros; eapply Hf; eauto| |exact H]. eapply Hf; eauto.
Qed.
Lemma foldM_ok {S A} (f : S -> A -> res S) (P : S -> Prop) l :
  (forall s a, In a l -> P s -> exists s', f s a = Ok s' /\ P s') ->
  forall s, P s -> exists s', foldM f s l = Ok s' /\ P s'.
Proof.
  induction l as [|a l IH]; cbn; intros Hf s Hs; [eauto|].
  destruct (Hf s a (or_introl eq_refl) Hs) as (s' & E & Hs'). rewrite E. cbn. apply IH; auto.
Qed.

Lemma upto_In n x : In x (upto n) <-> x < n.
Proof.
  unfold upto. rewrite in_map_iff. split.
  - intros (k & <- & Hk). apply in_seq in Hk. lia.
  - intros H. exists (N.to_nat x). split; [lia|]. apply in_seq. lia.
Qed.

Lemma rmap_fst_combine {A B} (l : list (A * B)) : combine (map fst l) (map snd l) = l.
Proof. induction l as [|[a b] l IH]; cbn; congruence. Qed.

(** [no_crash] of sequences *)
Lemma no_crash_bind {A B} (m : res A) (k : A -> res B) :
  no_crash m -> (forall a, m = Ok a -> no_crash (k a)) -> no_crash (rbind m k).
Proof. destruct m; cbn; auto. Qed.
Lemma no_crash_guard b e : no_crash (guard b e).
Proof. destruct b; exact I. Qed.
Lemma no_crash_foldM {S A} (f : S -> A -> res S) (P : S -> Prop) l :
  (forall s a, In a l -> P s -> no_crash (f s a) /\ (forall s', f s a = Ok s' -> P s')) ->
  forall s, P s -> no_crash (foldM f s l).
Proof.
  induction l as [|a l IH]; cbn; intros Hf s Hs; [exact I|].
  apply no_crash_bind; [apply Hf; auto|]. intros s' E. apply IH; [auto|]. eapply Hf; eauto.
Qed.
