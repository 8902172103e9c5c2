(** Public messages arrive as they were signed. *)
From Verif Require Export AcceptFacts.

Section WithCrypto.
Context {C : crypto}.

Lemma public_delivered g g2 b rnd m tag raw : obtained g -> can_sign g -> same_epoch g g2 -> wf_body b -> (body_type b = 3 \/ tag = []) ->
  signPublicMessage (gc_cipherSuite (gr_context g)) (gr_signaturePriv g) rnd (ownContent g b) (gr_context g) = Ok m ->
  signPublicMessageMembershipTag g (mkPublicMessage (pubm_content m) (mkAuthData (ad_signature (pubm_auth m)) tag) []) = Ok raw ->
  exists m2, unmarshal getMlsMessage raw = Ok (MPublic m2) /\
    verifyPublicMessage g2 m2 = Ok (mkAuthenticatedContent 1 (ownContent g b) (mkAuthData (ad_signature (pubm_auth m)) tag)).
Proof.
  intros O (l & alg & Hl & Halg & Hp) (Hctx & Hval & Hes) Wb Ht H H2. pose proof (obtained_sane _ O) as Sa.
  destruct (cipherSuiteDescriptions (gc_cipherSuite (gr_context g))) as [d|] eqn:Hd; [|discriminate]. cbn in Halg. injection Halg as <-.
  unfold signPublicMessage, signAuthenticatedContent in H. apply rbind_ok in H as (ac & Hac & H). apply Ok_inj in H. subst m.
  apply rbind_ok in Hac as (tbs & Htbs & Hac). apply rbind_ok in Hac as (sg & Hsg & Hac). apply Ok_inj in Hac. subst ac.
  cbn [ac_content ac_auth pubm_content pubm_auth ad_signature] in *. pose proof (signed_verifies _ _ _ _ _ _ _ _ Hd Hp Hsg) as Hv.
  unfold signPublicMessageMembershipTag in H2. apply rbind_ok in H2 as (key & Hkey & H2). apply rbind_ok in H2 as (m2 & Hm2 & H2).
  unfold signMembershipTag in Hm2. cbn [pubm_content pubm_auth ownContent fc_sender sender_isMember negb] in Hm2.
  change (mkFramedContent _ _ _ _ b) with (ownContent g b) in Hm2. apply rbind_ok in Hm2 as (tbm & Htbm & Hm2). apply rbind_ok in Hm2 as (mac & Hmac & Hm2).
  apply Ok_inj in Hm2. subst m2. eexists. split.
  { apply unmarshal_mls; [|exact H2]. cbn [wf_mlsMessage]. unfold wf_publicMessage. cbn [pubm_content pubm_auth pubm_membershipTag ownContent fc_sender fc_body].
    splits; auto. unfold wf_framedContent. cbn [ownContent fc_epoch fc_sender fc_body]. splits; auto; apply Sa. }
  unfold verifyPublicMessage. rewrite Hctx, Hes, Hval. cbn [pubm_content ownContent fc_groupID fc_epoch fc_sender].
  rewrite bytes_eqb_refl, N.eqb_refl. cbn [guard rbind]. unfold own_leaf in Hl. apply getLeaf_some in Hl. rewrite Hl. cbn [rbind].
  unfold authContentVerifySignature, pubMsgAuthContent. cbn [ac_wireFormat ac_content ac_auth pubm_content pubm_auth].
  change (mkFramedContent _ _ _ _ b) with (ownContent g b). rewrite Htbs. cbn [falseOnPutErr ad_signature]. rewrite Hv. cbn [rbind guard].
  rewrite Hkey. cbn [rbind]. unfold verifyMembershipTag. cbn [pubm_content pubm_auth pubm_membershipTag].
  replace (negb (sender_isMember (fc_sender (ownContent g b)))) with false by reflexivity. rewrite Htbm. cbn [falseOnPutErr].
  unfold verifyMAC. rewrite Hmac. cbn [rbind]. rewrite bytes_eqb_refl. reflexivity.
Qed.

Theorem public_proposals g g2 p rnd m raw now : obtained g -> can_sign g -> same_epoch g g2 -> wf_proposal p ->
  signPublicMessage (gc_cipherSuite (gr_context g)) (gr_signaturePriv g) rnd (ownContent g (BProposal p)) (gr_context g) = Ok m ->
  signPublicMessageMembershipTag g m = Ok raw -> lenN (enc_authenticatedContent (pubMsgAuthContent m)) < 2 ^ 28 ->
  exists g2', unmarshalAndProcessMessage g2 raw now = (g2', Ok None) /\ same_but_pending g2 g2' /\
    gr_pending g2' = gr_pending g2 ++ [mkPendingProposal (ProposalRef (gc_cipherSuite (gr_context g)) (pubMsgAuthContent m)) p (gr_myLeafIndex g)].
Proof.
  intros O Cs Se Wp H H2 Z. pose proof (obtained_sane _ O) as Sa.
  assert (Em : m = mkPublicMessage (ownContent g (BProposal p)) (mkAuthData (ad_signature (pubm_auth m)) []) []).
  { unfold signPublicMessage, signAuthenticatedContent in H. apply rbind_ok in H as (ac & Hac & H). apply Ok_inj in H. subst m.
    apply rbind_ok in Hac as (tbs & Htbs & Hac). apply rbind_ok in Hac as (sg & Hsg & Hac). apply Ok_inj in Hac. subst ac. reflexivity. }
  assert (Ep : mkPublicMessage (pubm_content m) (mkAuthData (ad_signature (pubm_auth m)) []) [] = m) by (rewrite Em; reflexivity).
  destruct (public_delivered g g2 (BProposal p) rnd m [] raw O Cs Se Wp (or_intror eq_refl) H) as (m2 & Hm2 & Hv); [now rewrite Ep|].
  assert (Eac : mkAuthenticatedContent 1 (ownContent g (BProposal p)) (mkAuthData (ad_signature (pubm_auth m)) []) = pubMsgAuthContent m) by (rewrite Em; reflexivity).
  rewrite Eac in Hv. destruct Cs as (l & alg & _ & Halg & _).
  assert (Kn : known_suite (gc_cipherSuite (gr_context g))).
  { unfold known_suite. rewrite suite_eq. destruct (cipherSuiteDescriptions (gc_cipherSuite (gr_context g))) as [d|]; [eauto|discriminate]. }
  assert (Er : generateProposalRef (gc_cipherSuite (gr_context g)) (pubMsgAuthContent m) = Ok (ProposalRef (gc_cipherSuite (gr_context g)) (pubMsgAuthContent m))).
  { eapply gives_proposalRef; [|rewrite <- Eac; reflexivity|split; [exact Kn|exact Z]].
    rewrite <- Eac. unfold wf_authenticatedContent, wf_framedContent. cbn [ac_wireFormat ac_content ac_auth ownContent fc_epoch fc_sender fc_body].
    splits; auto; [left; reflexivity|apply Sa|apply Sa|right; reflexivity]. }
  exists (withPending g2 (gr_pending g2 ++ [mkPendingProposal (ProposalRef (gc_cipherSuite (gr_context g)) (pubMsgAuthContent m)) p (gr_myLeafIndex g)])).
  split; [|split; [unfold same_but_pending; splits; reflexivity|reflexivity]].
  unfold unmarshalAndProcessMessage. rewrite Hm2. unfold processPublicMessage. rewrite Hv.
  assert (Eb : fc_body (ac_content (pubMsgAuthContent m)) = BProposal p) by (rewrite <- Eac; reflexivity).
  rewrite Eb. unfold processProposal. rewrite Eb. destruct Se as (-> & _ & _). rewrite Er. rewrite <- Eac. reflexivity.
Qed.

(** Senders that are not members have no membership tag. *)
Lemma other_tags g m : (forall li, fc_sender (pubm_content m) <> SMember li) ->
  (forall key, verifyMembershipTag key (gr_context g) m = Ok true) /\
  (forall cs key, signMembershipTag cs key (gr_context g) m = Ok m).
Proof.
  intros H. unfold verifyMembershipTag, signMembershipTag.
  destruct (fc_sender (pubm_content m)) as [li| | |]; [destruct (H li eq_refl)| | |]; auto.
Qed.
End WithCrypto.
