(** The private keys of nodes that a commit makes blank are kept. *)
From Verif Require Import GroupFacts RemovedFacts HoldFacts JoinFacts CommitTreeFacts ObtainedFacts AgreementFacts EpochFacts TreeFacts.
From Verif Require Export SpecStale.

(** Nothing changes at the positions where the tree has a blank node. *)
Definition blank_alike (t : ratchetTree) (p q : privTree) : Prop :=
  length q = length p /\ forall i, (forall n, nth_error t i <> Some (Some n)) -> nth_error q i = nth_error p i.
Lemma alike_refl t p : blank_alike t p p.
Proof. split; auto. Qed.
Lemma alike_trans t p q r : blank_alike t p q -> blank_alike t q r -> blank_alike t p r.
Proof. intros [L1 H1] [L2 H2]. split; [congruence|]. intros i Hi. now rewrite H2, H1. Qed.
Lemma alike_set t p x n key q : getN t x = Ok (Some n) -> setN p x key = Ok q -> blank_alike t p q.
Proof.
  intros H S. apply getN_ok in H. apply setN_ok in S. destruct S as [Hx ->]. split; [apply upd_length|]. intros i Hi.
  rewrite upd_nth. destruct (Nat.eqb_spec (N.to_nat x) i) as [<-|]; [|reflexivity]. now apply Hi in H.
Qed.

Section WithCrypto.
Context {C : crypto}.

Lemma derive_alike cs t l : forall p s q s', derivePath cs t p s l = Ok (q, s') -> blank_alike t p q.
Proof.
  induction l as [|x l IH]; intros p s q s' H; cbn [derivePath] in H.
  - apply Ok_inj in H. injection H as -> _. apply alike_refl.
  - apply rbind_ok in H. destruct H as (s1 & _ & H). apply rbind_ok in H. destruct H as ([n|] & Ho & H); [|discriminate].
    apply rbind_ok in H. destruct H as (key & _ & H). apply rbind_ok in H. destruct H as (p1 & Hp & H).
    eapply alike_trans; [eapply alike_set; eauto|eauto].
Qed.
Lemma decrypt_alike cs t ctx li me up p z q : decryptPathSecrets cs t ctx li me up p = Ok (z, q) -> blank_alike t p q.
Proof.
  unfold decryptPathSecrets. cbv zeta. intros H. apply rbind_ok in H. destruct H as (fdp & _ & H). apply rbind_ok in H. destruct H as ([] & _ & H).
  destruct (position _ fdp) as [i|]; [|discriminate]. apply rbind_ok in H. destruct H as (upn & _ & H).
  destruct (if _ <? _ then _ else _) as [cp|]; [|discriminate]. apply rbind_ok in H. destruct H as (res & _ & H). apply rbind_ok in H. destruct H as ([] & _ & H).
  apply rbind_ok in H. destruct H as ([[ri np]|] & _ & H); [|discriminate]. apply rbind_ok in H. destruct H as (ct & _ & H).
  apply rbind_ok in H. destruct H as (s & _ & H). apply rbind_ok in H. destruct H as ([n|] & Ho & H); [|discriminate].
  apply rbind_ok in H. destruct H as (key & _ & H). apply rbind_ok in H. destruct H as (p1 & Hp & H). apply rbind_ok in H. destruct H as ([p2 s'] & Hd & H).
  apply rbind_ok in H. destruct H as (zz & _ & H). apply Ok_inj in H. injection H as _ ->.
  eapply alike_trans; [eapply alike_set; eauto|eapply derive_alike; eauto].
Qed.
Lemma loop_alike cs t : forall f p s x q, processPathSecretLoop f cs t p s x = Ok q -> blank_alike t p q.
Proof.
  induction f as [|f IH]; intros p s x q H; cbn [processPathSecretLoop] in H; (destruct (parent _ x) as [x'|]; [|apply Ok_inj in H; subst q; apply alike_refl]);
    apply rbind_ok in H; destruct H as (s1 & _ & H); apply rbind_ok in H; destruct H as ([n|] & Ho & H); try discriminate;
    apply rbind_ok in H; destruct H as (key & _ & H); apply rbind_ok in H; destruct H as (p1 & Hp & H); try discriminate.
  eapply alike_trans; [eapply alike_set; eauto|eauto].
Qed.
Lemma secret_alike cs t p s x q : processPathSecret cs t p s x = Ok q -> blank_alike t p q.
Proof.
  unfold processPathSecret. intros H. apply rbind_ok in H; destruct H as ([n|] & Ho & H); try discriminate.
  apply rbind_ok in H; destruct H as (key & _ & H); apply rbind_ok in H; destruct H as (p1 & Hp & H).
  eapply alike_trans; [eapply alike_set; eauto|eapply loop_alike; eauto].
Qed.

Lemma carry_nth n m p q i : carryPriv n m p = Ok q -> nth_error q i = if (i <? Nat.min n m)%nat then nth_error p i else if (i <? m)%nat then Some None else None.
Proof.
  unfold carryPriv. cbv zeta. destruct (Nat.ltb_spec (length p) (Nat.min n m)) as [|Hl]; [discriminate|]. intros H. apply Ok_inj in H. subst q.
  assert (L : length (firstn (Nat.min n m) p) = Nat.min n m) by (rewrite firstn_length; lia).
  destruct (Nat.ltb_spec i (Nat.min n m)) as [Hi|Hi].
  - rewrite nth_error_app1 by lia. clear -Hi. revert p i Hi. induction (Nat.min n m) as [|k IH]; intros [|x p] [|i] Hi; cbn; auto; try lia. apply IH. lia.
  - rewrite nth_error_app2 by lia. rewrite L. destruct (Nat.ltb_spec i m) as [Hm|Hm].
    + apply nth_error_repeat. lia.
    + apply nth_error_None. rewrite repeat_length. lia.
Qed.

Lemma keys_after g raw now ac c g' : obtained g -> accepts_commit g raw now ac c g' ->
  length (gr_privTree g') = length (gr_value g') /\
  forall i, (forall n, nth_error (gr_value g') i <> Some (Some n)) -> 
    nth_error (gr_privTree g') i = if (i <? length (gr_value g'))%nat then match nth_error (gr_privTree g) i with Some k => Some k | None => Some None end else None.
Proof.
  intros O A. pose proof (obtained_sane g O) as Sa. destruct (sane_consistent _ Sa) as [Pr Hlen].
  apply accepts_commit_inv in A. destruct A as [_ H]. apply processCommit_ok in H. destruct H as (c' & proposals & senders & h & t & Hb & Hck & Ha & Hf).
  destruct (finishCommit_ok _ _ _ _ _ _ _ _ _ Hf) as (priv & nh & h1 & t1 & th & cs & priv1 & ctx & it & psk & es & ini & Ec & _ & Hp & Hne & ->).
  unfold gr_value. cbn [gr_heap gr_tree gr_privTree]. rewrite length_deref.
  assert (Lp : length priv = length t).
  { unfold carryPriv in Ec. cbv zeta in Ec. destruct (Nat.ltb_spec (length (gr_privTree g)) (Nat.min (length (gr_tree g)) (length t))); [discriminate|]. apply Ok_inj in Ec. subst priv.
    rewrite app_length, firstn_length, repeat_length. lia. }
  assert (X : length t1 = length t /\ blank_alike (deref h1 t1) priv priv1).
  { destruct (c_path c') as [up|].
    - apply processPath_all in Hp. destruct Hp as (Hm & _ & Hd). split; [|eapply decrypt_alike; eauto].
      eapply mergeH_length; eauto.
    - destruct Hp as (-> & -> & _ & _ & ->). split; [reflexivity|apply alike_refl]. }
  destruct X as [Lt [L1 X]]. split; [congruence|]. intros i Hi. rewrite (X i Hi), (carry_nth _ _ _ _ i Ec), Lt, <- Hlen.
  destruct (Nat.ltb_spec i (Nat.min (length (gr_privTree g)) (length t))) as [H1|H1].
  - destruct (Nat.ltb_spec i (length t)); [|lia]. destruct (nth_error (gr_privTree g) i) eqn:E; [reflexivity|]. apply nth_error_None in E. lia.
  - destruct (Nat.ltb_spec i (length t)); [|reflexivity]. assert (E : nth_error (gr_privTree g) i = None) by (apply nth_error_None; lia). now rewrite E.
Qed.

Theorem blanked_keys_kept g raw now ac c g' i key : obtained g -> accepts_commit g raw now ac c g' -> has_key g i key -> blank_node g' i -> has_key g' i key.
Proof.
  intros O A H B. destruct (keys_after _ _ _ _ _ _ O A) as [_ X]. unfold has_key, blank_node in *. rewrite X by (intros n; congruence).
  assert (i < length (gr_value g'))%nat by (apply nth_error_Some; congruence). destruct (Nat.ltb_spec i (length (gr_value g'))); [|lia]. now rewrite H.
Qed.
Theorem tidy_after g raw now ac c g' : obtained g -> accepts_commit g raw now ac c g' ->
  tidy g' <-> forall i key, has_key g i key -> ~ blank_node g' i.
Proof.
  intros O A. split.
  - intros T i key H B. destruct (T i key (blanked_keys_kept _ _ _ _ _ _ _ _ O A H B)) as (n & E). unfold blank_node in B. congruence.
  - intros T i key H. destruct (keys_after _ _ _ _ _ _ O A) as [L X]. unfold has_key in *.
    destruct (nth_error (gr_value g') i) as [[n|]|] eqn:E; [now exists n| |]; exfalso; rewrite X in H by (intros n; congruence).
    + assert (i < length (gr_value g'))%nat by (apply nth_error_Some; congruence). destruct (Nat.ltb_spec i (length (gr_value g'))); [|lia].
      destruct (nth_error (gr_privTree g) i) as [[k|]|] eqn:Ek; try discriminate. exact (T i k Ek E).
    + apply nth_error_None in E. destruct (Nat.ltb_spec i (length (gr_value g'))); [lia|discriminate].
Qed.

Theorem created_tidy gid kpp rnd g : createGroup gid kpp rnd = Ok g -> tidy g.
Proof.
  intros H. apply created_rfc in H. destruct H as (E & _ & _ & _ & _ & _ & Ep & _). intros i key. unfold has_key. rewrite E, Ep.
  destruct i as [|[|i]]; cbn; [|discriminate..]. intros _. now eexists.
Qed.
Theorem joined_tidy w kpp now g : groupFromWelcome w kpp now = Ok g -> tidy g.
Proof.
  intros H. apply groupFromWelcome_inv in H. destruct H as (ref & s & _ & _ & _ & H). apply groupFromSecrets_inv in H.
  destruct H as (psk & gi & raw & t & signer & epoch & init & interim & me & priv & _ & _ & _ & _ & _ & _ & _ & _ & _ & _ & _ & _ & Eme & -> & priv0 & Ep0 & Epr).
  destruct (load t) as [h pt] eqn:El. destruct (load_value t h pt El) as (V & P & L).
  unfold tidy, has_key, gr_value. cbn [gr_heap gr_tree gr_privTree fst snd]. rewrite V.
  destruct (findLeafFrom_same_key _ _ _ _ Eme) as (l & Hl & _). apply getLeaf_some in Hl.
  assert (A : blank_alike t (repeat None (length t)) priv).
  { eapply alike_trans; [eapply alike_set; [apply getN_ok; exact Hl|exact Ep0]|].
    destruct (gs_pathSecret s); [eapply secret_alike; eauto|]. apply Ok_inj in Epr. subst priv0. apply alike_refl. }
  intros i key H. destruct (nth_error t i) as [[n|]|] eqn:E; [now exists n| |]; exfalso; rewrite (proj2 A) in H by (intros n; congruence);
    apply nth_error_In, repeat_spec in H; discriminate.
Qed.
End WithCrypto.
