(** Public messages, which the library signs but does not send, and the labels
    of secrets that it does not use itself: more of C66 and C68. *)
From Verif Require Import PublicFacts CreateSamples.

(** ** C66 *)
Theorem C66_labels_of_the_secrets_of_an_epoch :
  map (fun b => b) [secretLabelSenderData; secretLabelEncryption; secretLabelExporter; secretLabelExternal; secretLabelConfirm;
    secretLabelMembership; secretLabelResumption; secretLabelAuthentication; secretLabelInit] =
  map str ["sender data"; "encryption"; "exporter"; "external"; "confirm"; "membership"; "resumption"; "authentication"; "init"]%string.
Proof. exact eq_refl. Qed.
Print Assumptions C66_labels_of_the_secrets_of_an_epoch.

(** ** C68 *)
Theorem C68_public_messages_are_received :
  forall (C : crypto) g g2 b rnd m tag raw, obtained g -> can_sign g -> same_epoch g g2 -> wf_body b -> (body_type b = 3 \/ tag = []) ->
  signPublicMessage (gc_cipherSuite (gr_context g)) (gr_signaturePriv g) rnd (ownContent g b) (gr_context g) = Ok m ->
  signPublicMessageMembershipTag g (mkPublicMessage (pubm_content m) (mkAuthData (ad_signature (pubm_auth m)) tag) []) = Ok raw ->
  exists m2, unmarshal getMlsMessage raw = Ok (MPublic m2) /\
    verifyPublicMessage g2 m2 = Ok (mkAuthenticatedContent 1 (ownContent g b) (mkAuthData (ad_signature (pubm_auth m)) tag)).
Proof. exact @public_delivered. Qed.
Print Assumptions C68_public_messages_are_received.

Theorem C68_public_proposals_become_pending :
  forall (C : crypto) g g2 p rnd m raw now, obtained g -> can_sign g -> same_epoch g g2 -> wf_proposal p ->
  signPublicMessage (gc_cipherSuite (gr_context g)) (gr_signaturePriv g) rnd (ownContent g (BProposal p)) (gr_context g) = Ok m ->
  signPublicMessageMembershipTag g m = Ok raw -> lenN (enc_authenticatedContent (pubMsgAuthContent m)) < 2 ^ 28 ->
  exists g2', unmarshalAndProcessMessage g2 raw now = (g2', Ok None) /\ same_but_pending g2 g2' /\
    gr_pending g2' = gr_pending g2 ++ [mkPendingProposal (ProposalRef (gc_cipherSuite (gr_context g)) (pubMsgAuthContent m)) p (gr_myLeafIndex g)].
Proof. exact @public_proposals. Qed.
Print Assumptions C68_public_proposals_become_pending.

Theorem C68_senders_that_are_not_members_have_no_membership_tag :
  forall (C : crypto) g m, (forall li, fc_sender (pubm_content m) <> SMember li) ->
  (forall key, verifyMembershipTag key (gr_context g) m = Ok true) /\
  (forall cs key, signMembershipTag cs key (gr_context g) m = Ok m).
Proof. exact @other_tags. Qed.
Print Assumptions C68_senders_that_are_not_members_have_no_membership_tag.

Example C68_example_public :
  @obtained toy gb /\ @can_sign toy gb /\ same_epoch gb ga /\ gr_myLeafIndex gb <> gr_myLeafIndex ga /\
  exists m raw, @signPublicMessage toy (gc_cipherSuite (gr_context gb)) (gr_signaturePriv gb) (str "s") (ownContent gb (BProposal (PRemove 2))) (gr_context gb) = Ok m /\
    @signPublicMessageMembershipTag toy gb m = Ok raw /\ lenN raw = 95 /\ lenN (enc_authenticatedContent (pubMsgAuthContent m)) < 2 ^ 28.
Proof.
  split; [exact gb_obtained|]. split; [exact gb_signs|]. split; [repeat split; vm_compute; reflexivity|]. split; [vm_compute; discriminate|].
  eexists. eexists. split; [vm_compute; reflexivity|]. split; [vm_compute; reflexivity|]. split; vm_compute; reflexivity.
Qed.
