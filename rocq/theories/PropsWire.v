(** Property C65: the wire format is that of RFC 9420. *)
From Verif Require Import SpecWire WireSpecFacts Samples Crypto Tree CodecFacts.

(** ** C65 *)
Theorem C65_encoders_follow_the_RFC :
  writes_rfc wf_credential putCredential enc_credential /\
  writes_rfc any putHpkeCiphertext enc_hpkeCiphertext /\
  writes_rfc any putExtensionVec enc_extensions /\
  writes_rfc any putCapabilities enc_capabilities /\
  writes_rfc any putLifetime enc_lifetime /\
  writes_rfc wf_leafNode putLeafNode enc_leafNode /\
  writes_rfc any putParentNode enc_parentNode /\
  writes_rfc wf_node putNode enc_node /\
  writes_rfc wf_ratchetTree putRatchetTree enc_ratchetTree /\
  writes_rfc wf_updatePath putUpdatePath enc_updatePath /\
  writes_rfc wf_keyPackage putKeyPackage enc_keyPackage /\
  writes_rfc any putPskID enc_pskID /\
  writes_rfc any putGroupContext enc_groupContext /\
  writes_rfc any putReInit enc_reInit /\
  writes_rfc wf_proposal putProposal enc_proposal /\
  writes_rfc wf_proposalOrRef putProposalOrRef enc_proposalOrRef /\
  writes_rfc wf_commit putCommit enc_commit /\
  writes_rfc any putGroupInfo enc_groupInfo /\
  writes_rfc any putGroupSecrets enc_groupSecrets /\
  writes_rfc any putEncryptedGroupSecrets enc_encryptedGroupSecrets /\
  writes_rfc any putWelcome enc_welcome /\
  writes_rfc any putSender enc_sender /\
  writes_rfc wf_framedContent putFramedContent enc_framedContent /\
  writes_rfc wf_authenticatedContent putAuthenticatedContent enc_authenticatedContent /\
  writes_rfc wf_publicMessage putPublicMessage enc_publicMessage /\
  writes_rfc any putPrivateMessage enc_privateMessage /\
  writes_rfc wf_privateMessageContent putPrivateMessageContent enc_privateMessageContent /\
  writes_rfc any putSenderData enc_senderData /\
  writes_rfc wf_mlsMessage putMlsMessage enc_mlsMessage.
Proof. exact encoders_follow_the_rfc. Qed.
Print Assumptions C65_encoders_follow_the_RFC.

(** What is signed, authenticated, hashed, or given to the KDF *)
Theorem C65_inputs_of_primitives_follow_the_RFC :
  (forall g i, writes_rfc wf_leafNode (fun l => putLeafNodeTBS l g i) (fun l => enc_leafNodeTBS l g i)) /\
  writes_rfc wf_keyPackage putKeyPackageTBS enc_keyPackageTBS /\
  writes_rfc any putGroupInfoTBS enc_groupInfoTBS /\
  (forall w x, writes_rfc wf_framedContent (fun c => putFramedContentTBS w c x) (fun c => enc_framedContentTBS w c x)) /\
  (forall w x a, writes_rfc wf_framedContent (fun c => putAuthenticatedContentTBM w c x a) (fun c => enc_authenticatedContentTBM w c x a)) /\
  (forall w s, writes_rfc (fun c => wf_framedContent c /\ exists k, fc_body c = BCommit k)
     (fun c => putConfirmedTranscriptHashInput w c s) (fun c => enc_confirmedTranscriptHashInput w c s)) /\
  (forall i, writes_rfc (fun l => forall n, l = Some n -> wf_leafNode n) (putLeafNodeHashInput i) (enc_leafHashInput i)) /\
  (forall a b, writes_rfc any (fun p => putParentNodeHashInput p a b) (fun p => enc_parentHashTreeInput p a b)) /\
  (forall a b, writes_rfc any (putParentHashInput a b) (enc_parentHashInput a b)) /\
  (forall i n, writes_rfc any (fun p => putPskLabel p i n) (fun p => enc_pskLabel p i n)) /\
  (forall e t, writes_rfc any (fun g => putSenderDataAAD g e t) (fun g => enc_senderDataAAD g e t)) /\
  (forall e t a, writes_rfc any (fun g => putPrivateContentAAD g e t a) (fun g => enc_privateContentAAD g e t a)) /\
  (forall label, writes_rfc any (putLabelled label) (enc_labelled label)) /\
  (forall label, writes_rfc any (putRefHashInput label) (enc_refHashInput label)) /\
  (forall n label, writes_rfc any (fun c => putKdfLabel label c n) (enc_kdfLabel n label)).
Proof. exact inputs_follow_the_rfc. Qed.
Print Assumptions C65_inputs_of_primitives_follow_the_RFC.

Theorem C65_decoders_follow_the_RFC :
  reads_rfc wf_leafNode getLeafNode enc_leafNode /\
  reads_rfc wf_parentNode getParentNode enc_parentNode /\
  reads_rfc wf_ratchetTree getRatchetTree enc_ratchetTree /\
  reads_rfc wf_updatePath getUpdatePath enc_updatePath /\
  reads_rfc wf_keyPackage getKeyPackage enc_keyPackage /\
  reads_rfc wf_groupContext getGroupContext enc_groupContext /\
  reads_rfc wf_pskID getPskID enc_pskID /\
  reads_rfc wf_proposal getProposal enc_proposal /\
  reads_rfc wf_commit getCommit enc_commit /\
  reads_rfc wf_groupInfo getGroupInfo enc_groupInfo /\
  reads_rfc wf_groupSecrets getGroupSecrets enc_groupSecrets /\
  reads_rfc wf_welcome getWelcome enc_welcome /\
  reads_rfc wf_publicMessage getPublicMessage enc_publicMessage /\
  reads_rfc wf_privateMessage getPrivateMessage enc_privateMessage /\
  reads_rfc wf_senderData getSenderData enc_senderData /\
  reads_rfc wf_mlsMessage getMlsMessage enc_mlsMessage.
Proof. exact decoders_follow_the_rfc. Qed.
Print Assumptions C65_decoders_follow_the_RFC.

(** What is accepted is the prescribed encoding of the value it is taken for;
    key packages and group information must come with a signature (C04). *)
Theorem C65_accepted_bytes_follow_the_RFC :
  accepts_rfc any getCredential enc_credential /\
  accepts_rfc any getLeafNode enc_leafNode /\
  accepts_rfc any getParentNode enc_parentNode /\
  accepts_rfc any getUpdatePath enc_updatePath /\
  accepts_rfc good_keyPackage getKeyPackage enc_keyPackage /\
  accepts_rfc any getGroupContext enc_groupContext /\
  accepts_rfc any getPskID enc_pskID /\
  accepts_rfc good_proposal getProposal enc_proposal /\
  accepts_rfc good_commit getCommit enc_commit /\
  accepts_rfc good_groupInfo getGroupInfo enc_groupInfo /\
  accepts_rfc any getGroupSecrets enc_groupSecrets /\
  accepts_rfc any getWelcome enc_welcome /\
  accepts_rfc good_authenticatedContent getAuthenticatedContent enc_authenticatedContent /\
  accepts_rfc good_publicMessage getPublicMessage enc_publicMessage /\
  accepts_rfc any getPrivateMessage enc_privateMessage /\
  accepts_rfc any getSenderData enc_senderData /\
  accepts_rfc good_mlsMessage getMlsMessage enc_mlsMessage.
Proof. exact accepted_bytes_follow_the_rfc. Qed.
Print Assumptions C65_accepted_bytes_follow_the_RFC.

Example C65_example :
  enc_mlsMessage (MPrivate samplePrivate) =
    [x00; x01; x00; x02; x05; x67; x72; x6f; x75; x70; x00; x00; x00; x00; x00; x00; x00; x05; x01;
     x01; x01; x02; x02; x03; x03; x04; x05; x06] /\
  putMlsMessage (MPrivate samplePrivate) = Ok (enc_mlsMessage (MPrivate samplePrivate)) /\
  putKeyPackage sampleKP = Ok (enc_keyPackage sampleKP) /\ lenN (enc_keyPackage sampleKP) = 155 /\
  vec (repeat x00 100) = x40 :: x64 :: repeat x00 100.
Proof. splits; vm_compute; reflexivity. Qed.
