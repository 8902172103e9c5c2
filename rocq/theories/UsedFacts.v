(** Proofs that members keep the keys of the messages they have read (C125). *)
From Verif Require Export AnonFacts OnceFacts.

Section WithCrypto.
Context {C : crypto}.

(** All that reading a private message depends on *)
Definition reads_same (g g' : group) : Prop :=
  gr_context g' = gr_context g /\ gr_tree g' = gr_tree g /\ gr_epochSecret g' = gr_epochSecret g /\
  forall li, getLeaf (gr_value g') li = getLeaf (gr_value g) li.
Lemma reads_refl g : reads_same g g.
Proof. unfold reads_same. splits; auto. Qed.
Lemma reads_trans a b c : reads_same a b -> reads_same b c -> reads_same a c.
Proof.
  intros (A1 & A2 & A3 & A4) (B1 & B2 & B3 & B4). unfold reads_same. splits; [congruence..|]. intros li. now rewrite B4, A4.
Qed.
Lemma getLeaf_same t t' li : same_but_unmerged t t' -> getLeaf t' li = getLeaf t li.
Proof.
  intros H. unfold getLeaf, getN, index, lenN. rewrite (same_but_unmerged_length _ _ H). destruct (_ <? _); [|reflexivity].
  pose proof (same_but_unmerged_nth t t' (N.to_nat (nodeIndexOf li)) H) as G.
  destruct (nth_error t _) as [[[l|p]|]|], (nth_error t' _) as [[[l'|p']|]|]; cbn in *; try tauto; try reflexivity; now subst.
Qed.
Lemma open_same g g' m : reads_same g g' -> openPrivateMessage g' m = openPrivateMessage g m.
Proof.
  intros (E1 & E2 & E3 & E4). unfold openPrivateMessage, messageSecret. rewrite E1, E2, E3.
  destruct (guard (bytes_eqb _ _) _); cbn [rbind]; try reflexivity.
  destruct (guard (_ =? _) _); cbn [rbind]; try reflexivity.
  destruct (deriveSecret _ _ secretLabelSenderData); cbn [rbind]; try reflexivity.
  destruct (decryptSenderData _ _ _) as [sd|?|?|]; cbn [rbind]; try reflexivity. rewrite E4. reflexivity.
Qed.

Lemma step_reads g raw now : obtained g -> (forall ac c g', ~ accepts_commit g raw now ac c g') ->
  reads_same g (fst (unmarshalAndProcessMessage g raw now)).
Proof.
  intros O Hn. destruct (step_cases g raw now) as [(ac & c & A)|[_ (E1 & _ & _ & E2 & _ & E3 & _)]]; [exfalso; eapply Hn; eauto|].
  split; [exact E1|]. split; [exact E2|]. split; [exact E3|].
  destruct (unmarshalAndProcessMessage g raw now) as [g' r] eqn:H. cbn [fst] in *. pose proof H as H0.
  apply acted_on_or in H. destruct H as [[-> _]|(ac & Hca & Hau & _ & H)]; [reflexivity|].
  destruct (fc_body (ac_content ac)) as [d|p|c] eqn:Eb.
  - destruct H as (-> & _). reflexivity.
  - unfold noData, processProposal in H. rewrite Eb in H. destruct (generateProposalRef _ _) as [ref|?|?|]; cbn [fst snd rmap] in H;
      try (assert (g' = g) as -> by congruence; reflexivity). apply pair_equal_spec in H. destruct H as [-> _]. reflexivity.
  - destruct r as [d|e|p|].
    + exfalso. apply (Hn ac c g'). splits; auto.
      unfold noData in H. destruct (processCommit g ac [] [] now) as [g1 r1]. cbn [fst snd] in H. apply pair_equal_spec in H as [<- E].
      destruct r1 as [[]|?|?|]; try discriminate. cbn in E. congruence.
    + destruct (error_outcome _ _ _ _ _ O H0) as [(_ & Hu & _) _]. intros li. now apply getLeaf_same.
    + unfold noData, processCommit in H. rewrite Eb in H.
      destruct (checkCommit _ _ _) as [[ps ss]|?|?|]; try (assert (g' = g) as -> by (cbn in H; congruence); reflexivity).
      destruct (applyH _ _ _ _) as [[h t]|?|?|]; try (assert (g' = g) as -> by (cbn in H; congruence); reflexivity).
      destruct (finishCommit _ _ _ _ _ _ _ _) as [g1|?|?|]; cbn in H; try discriminate; assert (g' = g) as -> by congruence; reflexivity.
    + unfold noData, processCommit in H. rewrite Eb in H.
      destruct (checkCommit _ _ _) as [[ps ss]|?|?|]; try (assert (g' = g) as -> by (cbn in H; congruence); reflexivity).
      destruct (applyH _ _ _ _) as [[h t]|?|?|]; try (assert (g' = g) as -> by (cbn in H; congruence); reflexivity).
      destruct (finishCommit _ _ _ _ _ _ _ _) as [g1|?|?|]; cbn in H; try discriminate; assert (g' = g) as -> by congruence; reflexivity.
Qed.
Lemma epoch_reads l : forall g, obtained g -> commits_accepted g l 0 -> reads_same g (after g l).
Proof.
  induction l as [|[raw now] l IH]; intros g O H; cbn [after]; [apply reads_refl|].
  inversion H as [|g0 raw0 now0 r0 n0 ac c g' Ha Hr En|g0 raw0 now0 r0 n0 Hn Hr]; subst; [lia|].
  eapply reads_trans; [apply (step_reads g raw now O Hn)|]. apply IH; [|exact Hr].
  destruct (unmarshalAndProcessMessage g raw now) as [g' r] eqn:E. eapply obtained_message; [exact O|exact E].
Qed.

Theorem still_readable g raw now g1 d l now' : obtained g -> unmarshalAndProcessMessage g raw now = (g1, Ok (Some d)) ->
  commits_accepted g1 l 0 -> unmarshalAndProcessMessage (after g1 l) raw now' = (after g1 l, Ok (Some d)).
Proof.
  intros O H Hl. pose proof (application_data_unchanged _ _ _ _ _ H) as ->.
  pose proof (epoch_reads l g O Hl) as R. set (g' := after g l) in *.
  unfold unmarshalAndProcessMessage in *. destruct (unmarshal getMlsMessage raw) as [[m|m|w|gi|k]|?|?|]; try discriminate.
  - exfalso. unfold noData in H. destruct (processPublicMessage g m now) as [? []]; cbn in H; discriminate.
  - unfold processPrivateMessage in *. rewrite (open_same g g' m R). destruct (openPrivateMessage g m) as [ac|?|?|]; try discriminate.
    destruct (fc_body (ac_content ac)) as [d'|p|c]; [congruence|exfalso|exfalso]; unfold noData in H.
    + destruct (processProposal g ac) as [? []]; cbn in H; discriminate.
    + destruct (processCommit g ac [] [] now) as [? []]; cbn in H; discriminate.
Qed.
Theorem sent_readable g data rs rg m l now : crypto_ok C -> obtained g -> can_sign g -> lenN rg = 4 ->
  createApplicationMessage g data rs rg = Ok m -> commits_accepted g l 0 ->
  unmarshalAndProcessMessage (after g l) m now = (after g l, Ok (Some data)).
Proof.
  intros HC O Sg L H Hl. apply (still_readable g m now g data l now O); [|exact Hl]. eapply own_messages_come_back; eauto.
Qed.
Theorem unreadable_later g raw now g1 d l n now' : obtained g -> unmarshalAndProcessMessage g raw now = (g1, Ok (Some d)) ->
  commits_accepted g1 l n -> 0 < n -> n < 2 ^ 64 ->
  exists err, unmarshalAndProcessMessage (after g1 l) raw now' = (after g1 l, Err err).
Proof.
  intros O H Hl P L. pose proof (application_data_unchanged _ _ _ _ _ H) as ->.
  eapply rejected_ever_after; eauto. apply (sane_epoch _ (obtained_sane _ O)).
Qed.
End WithCrypto.
