(** Proofs that invitations do not renew the secrets (C127). *)
From Verif Require Export SpecCopied OutcomeFacts EpochFacts ReadsFacts.

Section WithCrypto.
Context {C : crypto}.

Definition keyless (g : group) : Prop := forall key, ~ In (Some key) (gr_privTree g).
Lemma index_In {A} (l : list A) i a : index l i = Ok a -> In a l.
Proof. unfold index. destruct (nth_error l i) as [x|] eqn:E; [|discriminate]. intros H. apply Ok_inj in H. subst. eapply nth_error_In; eauto. Qed.
Lemma getN_In {A} (t : list A) x a : getN t x = Ok a -> In a t.
Proof. unfold getN. destruct (x <? lenN t); [apply index_In|discriminate]. Qed.
Lemma findPriv_none (priv : privTree) : (forall key, ~ In (Some key) priv) -> forall r i x, findPriv priv i r = Ok (Some x) -> False.
Proof.
  intros K r. induction r as [|ni r IH]; intros i x H; cbn [findPriv] in H; [discriminate|].
  apply rbind_ok in H. destruct H as (p & Hp & H). apply getN_In in Hp. destruct p as [key|]; [exact (K key Hp)|eapply IH; eauto].
Qed.
Lemma decrypt_needs_key cs t ctx li me up priv z p : (forall key, ~ In (Some key) priv) -> decryptPathSecrets cs t ctx li me up priv = Ok (z, p) -> False.
Proof.
  intros K H. unfold decryptPathSecrets in H.
  apply rbind_ok in H. destruct H as (fdp & _ & H). apply rbind_ok in H. destruct H as (? & _ & H).
  destruct (position _ fdp) as [i|]; [|discriminate]. apply rbind_ok in H. destruct H as (upn & _ & H).
  destruct (if _ <? _ then _ else _) as [cn|]; [|discriminate]. apply rbind_ok in H. destruct H as (res & _ & H).
  apply rbind_ok in H. destruct H as (? & _ & H). apply rbind_ok in H. destruct H as (found & Hf & H).
  destruct found as [fd|]; [|discriminate]. eapply findPriv_none; eauto.
Qed.
Lemma keyless_commit g raw now ac c g' : keyless g -> accepts_commit g raw now ac c g' -> c_path c = None /\ keyless g'.
Proof.
  intros K A. pose proof (accepts_commit_inv _ _ _ _ _ _ A) as [_ Ep]. pose proof A as (_ & Hb & _).
  apply processCommit_ok in Ep. destruct Ep as (c' & proposals & senders & h & t & Hb' & _ & _ & Hf). assert (c' = c) by congruence. subst c'.
  destruct (finishCommit_ok _ _ _ _ _ _ _ _ _ Hf) as (priv & nh & h1 & t1 & th & z & priv1 & ctx & it & psk & es & ini & Ec & _ & Hpp & _ & ->).
  assert (Kp : forall key, ~ In (Some key) priv) by (intros key Hin; apply (K key); eapply carryPriv_in; eauto).
  destruct (c_path c) as [up|].
  - exfalso. apply processPath_all in Hpp. destruct Hpp as (_ & _ & Hd). eapply decrypt_needs_key; eauto.
  - split; [reflexivity|]. destruct Hpp as (_ & _ & _ & _ & ->). exact Kp.
Qed.
Lemma keyless_message g raw now : keyless g -> keyless (fst (unmarshalAndProcessMessage g raw now)).
Proof.
  intros K. destruct (step_cases g raw now) as [(ac & c & A)|[_ (_ & _ & _ & _ & _ & _ & _ & E)]].
  - apply (keyless_commit _ _ _ _ _ _ K A).
  - unfold keyless. now rewrite E.
Qed.

Theorem paths_shut_out g raw now ac c up thief : copied g thief -> c_path c = Some up -> forall thief', ~ accepts_commit thief raw now ac c thief'.
Proof. intros (_ & _ & K & _) E t' A. destruct (keyless_commit _ _ _ _ _ _ K A) as [N _]. congruence. Qed.

Lemma after_app l : forall l2 g, after g (l ++ l2) = after (after g l) l2.
Proof. induction l as [|[raw now] l IH]; intros l2 g; [reflexivity|]. cbn. apply IH. Qed.
Theorem copies_follow m m' thief : crypto_ok C -> obtained m -> copied m thief -> only_invitations m m' ->
  exists l, copied m' (after thief l).
Proof.
  intros HC O Cp H.
  assert (G : obtained m' /\ exists l, copied m' (after thief l)).
  { induction H as [m|m m1 g kps rs ri rh rg g1 w raw now m2 _ IH Og Cs Ag Hrg Wk Ad Nd Hw Hm].
    - split; [exact O|]. exists []. exact Cp.
    - destruct (IH O Cp) as (O1 & l & A1 & C1 & K1 & S1). split; [eapply obtained_message; [exact O1|exact Hm]|].
      pose proof (obtained_sane _ Og) as Sa.
      destruct (createWelcome_parts _ _ _ _ _ _ _ _ _ HC (proj1 (sane_consistent _ Sa)) Hw) as (Hne & _ & e & sg & tag & joiner & W).
      set (th := after thief l) in *.
      destruct (commit_processed g kps rs ri rh rg w raw e sg tag joiner m1 now) as (m2' & P1 & P2 & _); auto; try apply Sa.
      { apply sane_consistent, obtained_sane, O1. }
      rewrite Hm in P1. apply pair_equal_spec in P1. destruct P1 as [<- _].
      assert (Ath : agree g th) by (destruct Ag as (? & ? & ? & ? & ? & ?), A1 as (? & ? & ? & ? & ? & ?); unfold agree; splits; congruence).
      destruct (commit_processed g kps rs ri rh rg w raw e sg tag joiner th now) as (th' & T1 & T2 & T3 & _ & T4 & _); auto; try apply Sa.
      exists (l ++ [(raw, now)]). rewrite after_app. fold th. cbn [after]. rewrite T1. cbn [fst].
      split; [exact (in_epoch_agree _ _ _ P2 T2)|]. split; [exact T3|]. split; [|now rewrite T4].
      pose proof (keyless_message th raw now K1) as K. rewrite T1 in K. exact K. }
  apply G.
Qed.
(** What the thief reads *)
Theorem copies_read g thief a data rs rg raw now : crypto_ok C -> obtained a -> can_sign a -> copied g thief -> same_epoch a g -> lenN rg = 4 ->
  createApplicationMessage a data rs rg = Ok raw -> unmarshalAndProcessMessage thief raw now = (thief, Ok (Some data)).
Proof.
  intros HC O Cs ((A1 & A2 & _ & _ & A3 & _) & _) (E1 & E2 & E3) L H. eapply message_outcome; eauto. unfold same_epoch. splits; congruence.
Qed.
End WithCrypto.
