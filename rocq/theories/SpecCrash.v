(** What a message must not do for its processing to neither panic nor hang. *)
From Verif Require Export SpecObtained SpecSound SpecTreeMath.

Section WithCrypto.
Context {C : crypto}.

(** The signature scheme of the suite takes the byte string for a public key:
    any with Ed25519, only points of the curve with ECDSA (or else the code panics). *)
Definition usable_key (d : suiteDesc) (pub : bytes) : Prop := forall m s, no_crash (sigVerify (sd_sig d) pub m s).
(** The key pairs of the KEM are derived from secrets of the KDF.  (This is so for
    the suites of which [Supported] is true.) *)
Definition derives_keys (d : suiteDesc) : Prop := seedSize (sd_kem d) = hashSize (sd_kdf d).

(** The leaf index of the member a message names as its sender, where the
    members can see it: in a public message, or in the decrypted sender data of
    a private one *)
Inductive names_sender (g : group) (raw : bytes) : N -> Prop :=
| names_public m li :
    unmarshal getMlsMessage raw = Ok (MPublic m) -> fc_sender (pubm_content m) = SMember li -> names_sender g raw li
| names_private m sds sd :
    unmarshal getMlsMessage raw = Ok (MPrivate m) ->
    deriveSecret (gc_cipherSuite (gr_context g)) (gr_epochSecret g) (str "sender data") = Ok sds ->
    decryptSenderData (gc_cipherSuite (gr_context g)) m sds = Ok sd -> names_sender g raw (sd_leafIndex sd).

(** The sender is a leaf of the tree, which may be blank. *)
Definition sender_in_tree (g : group) (raw : bytes) : Prop :=
  forall li, names_sender g raw li -> 2 * li < lenN (gr_tree g).

(** Commits remove members only, and the leaves they add find room. *)
Definition commit_fits (g : group) (raw : bytes) : Prop :=
  forall ac c li ps, carries g raw ac -> fc_body (ac_content ac) = BCommit c -> fc_sender (ac_content ac) = SMember li -> commits g li c ps ->
    (forall r s, In (PRemove r, s) ps -> leaf_at (gr_value g) r <> None) /\
    (exists n, at_most (leaf_at (gr_value g)) n /\ n + lenN (additionsOf ps) <= 2 ^ 31).

(** The signature keys that a message has verified are usable: that of the sender's
    leaf, those of the key packages that a commit adds, and that of its path. *)
Definition keys_usable (d : suiteDesc) (g : group) (raw : bytes) : Prop :=
  (forall li l, names_sender g raw li -> leaf_at (gr_value g) li = Some l -> usable_key d (ln_signatureKey l)) /\
  (forall ac c li ps, carries g raw ac -> fc_body (ac_content ac) = BCommit c -> fc_sender (ac_content ac) = SMember li -> commits g li c ps ->
    (forall k s, In (PAdd k, s) ps -> usable_key d (ln_signatureKey (kp_leafNode k))) /\
    (forall up, c_path c = Some up -> usable_key d (ln_signatureKey (up_leafNode up)))).

(** What a Welcome opens to for the owner of [kpp]: the group secrets, the group
    information and the tree in its extensions *)
Definition opens_to (w : welcome) (kpp : keyPairPackage) (gs : groupSecrets) (gi : groupInfo) (t : ratchetTree) : Prop :=
  exists ref psk raw, keyPackageRef (kpp_public kpp) = Ok ref /\ decryptGroupSecrets w ref (kpp_initKey kpp) = Ok gs /\ gs_psks gs = [] /\
    extractPSKSecret (w_cipherSuite w) [] [] = Ok psk /\ decryptGroupInfo w (gs_joinerSecret gs) psk = Ok gi /\
    findExtensionData (gi_extensions gi) 2 = Some raw /\ unmarshal getRatchetTree raw = Ok t.

(** The suite is a supported one, the signature keys in the tree are usable, the
    nodes of the tree are leaf nodes where there are leaves and parent nodes
    elsewhere, the signer and the unmerged leaves are leaves of the tree; and if
    there is a path secret, the nodes above both the signer and the leaf with the
    key of the new member are not blank. *)
Definition welcome_fits (kpp : keyPairPackage) (gs : groupSecrets) (gi : groupInfo) (t : ratchetTree) : Prop :=
  (exists d, cipherSuiteDescriptions (gc_cipherSuite (gi_groupContext gi)) = Some d /\ derives_keys d /\
     forall li l, leaf_at t li = Some l -> usable_key d (ln_signatureKey l)) /\
  exists k, shaped k t /\ designated (gi_signer gi) < leaf_count k /\
    (forall p pn u, in_tree k p -> at_path k t p = Some (NParent pn) -> In u (pn_unmergedLeaves pn) -> designated u < leaf_count k) /\
    (gs_pathSecret gs <> None -> forall me l p,
       leaf_at t me = Some l -> ln_encryptionKey l = ln_encryptionKey (kp_leafNode (kpp_public kpp)) ->
       ancestor_or_self p (leafPath k me) -> ancestor_or_self p (leafPath k (designated (gi_signer gi))) -> at_path k t p <> None).
End WithCrypto.
