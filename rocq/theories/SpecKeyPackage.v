(** Key packages and the private keys that go with them. *)
From Verif Require Export SpecAgreement.

Section WithCrypto.
Context {C : crypto}.

(** The private keys of the package belong to its public keys. *)
Definition holds_private_keys (kpp : keyPairPackage) : Prop :=
  let k := kpp_public kpp in
  exists d, cipherSuiteDescriptions (kp_cipherSuite k) = Some d /\
    hpke_pair C (sd_kem d) (kp_initKey k) (kpp_initKey kpp) /\
    hpke_pair C (sd_kem d) (ln_encryptionKey (kp_leafNode k)) (kpp_encryptionKey kpp) /\
    sig_pair C (sd_sig d) (ln_signatureKey (kp_leafNode k)) (kpp_signatureKey kpp).

(** The leaf node is signed by its owner, and for no group or leaf in
    particular. *)
Definition leaf_signed_anywhere (cs : N) (l : leafNode) : Prop := forall groupID li, leaf_signed cs groupID li l.
End WithCrypto.

(** The time is between the first reading and thirty days after the second,
    but for a second lost in rounding. *)
Definition within_thirty_days (t0 t1 now : gotime) : Prop :=
  (nanos t0 < nanos now < nanos t1 + (30 * 24 * 3600 - 1) * 1000000000)%Z.
