(** Private keys that do not belong to the key package: C116. *)
From Verif Require Export SpecGroup SpecObtained SpecJoin SpecKeyPackage.

(** The package with other private keys for its leaf node *)
Definition with_private (kpp : keyPairPackage) (encryptionKey signatureKey : bytes) : keyPairPackage :=
  mkKeyPairPackage (kpp_public kpp) (kpp_initKey kpp) encryptionKey signatureKey.

(** The same group, but for private keys *)
Definition same_but_private_keys (g g' : group) : Prop :=
  gr_value g' = gr_value g /\ gr_context g' = gr_context g /\ gr_interimTranscriptHash g' = gr_interimTranscriptHash g /\
  gr_pskSecret g' = gr_pskSecret g /\ gr_epochSecret g' = gr_epochSecret g /\ gr_initSecret g' = gr_initSecret g /\
  gr_myLeafIndex g' = gr_myLeafIndex g /\ gr_pending g' = gr_pending g.

(** No signature made with [priv] verifies under [pub]. *)
Definition strangers (C : crypto) (alg : sigAlg) (pub priv : bytes) : Prop :=
  forall rnd m s, @sigSign C alg priv rnd m = Ok s -> @sigVerify C alg pub m s = Ok false.

Section WithCrypto.
Context {C : crypto}.

(** The member signs with a key that is not the one of its leaf. *)
Definition signs_as_stranger (g : group) : Prop :=
  exists l d, own_leaf g l /\ cipherSuiteDescriptions (gc_cipherSuite (gr_context g)) = Some d /\
    strangers C (sd_sig d) (ln_signatureKey l) (gr_signaturePriv g).

(** The initial key of the package opens what the Welcome has for it. *)
Definition init_key_opens (w : welcome) (kpp : keyPairPackage) : Prop :=
  exists sec s, In sec (w_secrets w) /\ egs_newMember sec = KeyPackageRef (kpp_public kpp) /\
    DecryptWithLabel (w_cipherSuite w) (kpp_initKey kpp) (str "Welcome") (w_encryptedGroupInfo w)
      (hc_kemOutput (egs_secrets sec)) (hc_ciphertext (egs_secrets sec)) (enc_groupSecrets s).
End WithCrypto.
