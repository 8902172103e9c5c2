(** Commits that differ in their confirmation tag only. *)
From Verif Require Export SpecAccept SpecSchedule.

Section WithCrypto.
Context {C : crypto}.

(** The content [ac] with another confirmation tag; its signature does not
    cover the tag (RFC 9420, section 6.1). *)
Definition with_tag (ac : authenticatedContent) (tag : bytes) : authenticatedContent :=
  mkAuthenticatedContent (ac_wireFormat ac) (ac_content ac) (mkAuthData (ad_signature (ac_auth ac)) tag).

(** The message of a member who knows the membership key, as all members do *)
Definition retagged (g : group) (ac : authenticatedContent) (tag : bytes) : bytes :=
  enc_mlsMessage (MPublic (mkPublicMessage (ac_content ac) (ac_auth (with_tag ac tag))
    (membership_tag (gr_context g) (gr_epochSecret g) (ac_content ac) (ac_auth (with_tag ac tag))))).

(** The state after the commit [g'], had the confirmation tag been [tag] *)
Definition after_tag (g' : group) (tag : bytes) : group :=
  mkGroup (gr_heap g') (gr_tree g') (gr_context g')
    (interim_transcript_hash (gc_cipherSuite (gr_context g')) (gc_confirmedTranscriptHash (gr_context g')) tag)
    (gr_pskSecret g') (gr_epochSecret g') (gr_initSecret g') (gr_myLeafIndex g') (gr_privTree g') (gr_signaturePriv g') (gr_pending g').
End WithCrypto.
