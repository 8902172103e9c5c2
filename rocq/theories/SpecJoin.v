(** What joining a group establishes. *)
From Verif Require Export SpecAgreement.

Section WithCrypto.
Context {C : crypto}.

(** The group information is signed with a key. *)
Definition info_signed (gi : groupInfo) (key : bytes) : Prop :=
  VerifyWithLabel (gc_cipherSuite (gi_groupContext gi)) key (str "GroupInfoTBS") (enc_groupInfoTBS gi) (gi_signature gi).

(** [g] is in the state that the Welcome gives to the owner of [kpp]: one of the
    encrypted group secrets is for the key package and is opened with its init
    key.  (A truncated group information is accepted, see C04, but it has no
    signature.) *)
Definition let_in (w : welcome) (kpp : keyPairPackage) (g : group) (gi : groupInfo) : Prop :=
  exists sec s info,
    In sec (w_secrets w) /\ egs_newMember sec = KeyPackageRef (kpp_public kpp) /\
    DecryptWithLabel (w_cipherSuite w) (kpp_initKey kpp) (str "Welcome") (w_encryptedGroupInfo w)
      (hc_kemOutput (egs_secrets sec)) (hc_ciphertext (egs_secrets sec)) (enc_groupSecrets s) /\
    gs_psks s = [] /\ gr_pskSecret g = psk_secret (w_cipherSuite w) [] /\
    (let welcomeSecret := welcome_secret (w_cipherSuite w) (gs_joinerSecret s) (gr_pskSecret g) in
     opened (w_cipherSuite w) (welcome_key (w_cipherSuite w) welcomeSecret) (welcome_nonce (w_cipherSuite w) welcomeSecret) []
       (w_encryptedGroupInfo w) = Some info) /\
    (gi_signature gi <> [] -> info = enc_groupInfo gi) /\
    gc_cipherSuite (gr_context g) = w_cipherSuite w /\ gr_context g = gi_groupContext gi /\
    gr_epochSecret g = epoch_secret (gr_context g) (gs_joinerSecret s) (gr_pskSecret g) /\
    gr_initSecret g = DeriveSecret (w_cipherSuite w) (gr_epochSecret g) (str "init") /\
    gr_interimTranscriptHash g =
      interim_transcript_hash (w_cipherSuite w) (gc_confirmedTranscriptHash (gr_context g)) (gi_confirmationTag gi).

(** The leaf of the member in the tree is encoded as [l] is. *)
Definition own_leaf_is (g : group) (l : leafNode) : Prop :=
  exists l', leaf_at (gr_value g) (gr_myLeafIndex g) = Some l' /\ enc_leafNode l' = enc_leafNode l.
End WithCrypto.
