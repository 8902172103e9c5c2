(** GREASE values: C117. *)
From Verif Require Import GreaseSamples.

(** ** C117 *)
(** A key package to which such values are added, anywhere in the lists of its
    capabilities and extensions, is still read. *)
Theorem C117_key_packages_with_grease_are_read :
  forall k k' raw, wf_keyPackage k -> package_greased k k' -> keyPackageBytes k' = Ok raw -> unmarshalKeyPackage raw = Ok k'.
Proof. exact greased_decodes. Qed.
Print Assumptions C117_key_packages_with_grease_are_read.

(** If both packages are signed, the one is accepted in a commit if the other
    is. *)
Theorem C117_key_packages_with_grease_are_accepted :
  forall (C : crypto) k k' ctx, package_greased k k' ->
  keyPackageVerifySignature k = Ok true -> keyPackageVerifySignature k' = Ok true ->
  keyPackageVerify k' ctx = keyPackageVerify k ctx.
Proof. exact @greased_package. Qed.
Print Assumptions C117_key_packages_with_grease_are_accepted.

(** A leaf node with such values is accepted if the one without is. *)
Theorem C117_leaf_nodes_with_grease_are_accepted :
  forall (C : crypto) l l' o o', leaf_greased l l' -> grease_listed l -> grease_listed l' ->
  is_grease (cred_type (ln_credential l)) = false ->
  memN (cred_type (ln_credential l)) (vo_supportedCreds o') = memN (cred_type (ln_credential l)) (vo_supportedCreds o) ->
  vo_signatureKeys o' = vo_signatureKeys o -> vo_encryptionKeys o' = vo_encryptionKeys o -> vo_now o' = vo_now o ->
  leafNodeVerifySignature (vo_cipherSuite o) (vo_groupID o) (vo_leafIndex o) l = Ok true ->
  leafNodeVerifySignature (vo_cipherSuite o') (vo_groupID o') (vo_leafIndex o') l' = Ok true ->
  leafNodeVerify l' o' = leafNodeVerify l o.
Proof. exact @greased_leaf. Qed.
Print Assumptions C117_leaf_nodes_with_grease_are_accepted.

(** What credential types are supported by all members does not depend on such
    values in any of the leaves. *)
Theorem C117_grease_does_not_change_the_supported_credentials :
  forall t t' creds, Forall2 node_greased t t' -> supportedCreds t = Ok creds ->
  exists creds', supportedCreds t' = Ok creds' /\ forall ct, is_grease ct = false -> memN ct creds' = memN ct creds.
Proof. exact greased_support. Qed.
Print Assumptions C117_grease_does_not_change_the_supported_credentials.

(** A ratchet tree with such values in its leaves is accepted if the one without
    is, if its signatures, tree hash and parent hashes are right. *)
Theorem C117_trees_with_grease_are_accepted :
  forall (C : crypto) t t' ctx ctx' now, Forall2 node_greased t t' ->
  gc_cipherSuite ctx' = gc_cipherSuite ctx -> gc_groupID ctx' = gc_groupID ctx ->
  (forall li l, getLeaf t li = Ok (Some l) -> is_grease (cred_type (ln_credential l)) = false) ->
  (forall li l', getLeaf t' li = Ok (Some l') ->
     leafNodeVerifySignature (gc_cipherSuite ctx) (gc_groupID ctx) li l' = Ok true /\ grease_listed l') ->
  computeRootTreeHash (gc_cipherSuite ctx) t' = Ok (gc_treeHash ctx') -> verifyParentHashes (gc_cipherSuite ctx) t' = Ok true ->
  verifyIntegrity t ctx now = Ok tt -> verifyIntegrity t' ctx' now = Ok tt.
Proof. exact @greased_trees. Qed.
Print Assumptions C117_trees_with_grease_are_accepted.

(** Dave's package with such values in all lists is read and accepted, Alice
    invites Dave, Bob accepts the commit, and Dave joins.  Trees of that leaf alone are
    accepted with and without them. *)
Example C117_example :
  wf_keyPackage (kpp_public dave) /\ package_greased (kpp_public dave) greasy /\ greasy <> kpp_public dave /\
  grease_listed (kp_leafNode (kpp_public dave)) /\ grease_listed greasyLeaf /\
  keyPackageBytes greasy = Ok greasyRaw /\ unmarshalKeyPackage greasyRaw = Ok greasy /\
  @keyPackageVerifySignature toy greasy = Ok true /\ @keyPackageVerify toy greasy (gr_context ga) = Ok tt /\
  Forall2 node_greased [Some (NLeaf (kp_leafNode (kpp_public dave)))] [Some (NLeaf greasyLeaf)] /\
  supportedCreds [Some (NLeaf (kp_leafNode (kpp_public dave)))] = Ok [1] /\ supportedCreds [Some (NLeaf greasyLeaf)] = Ok [1] /\
  @unmarshalAndProcessMessage toy gb invitedCommit clock = (gbGreasy, Ok None) /\
  @groupFromWelcome toy invitedWelcome greasyDave clock = Ok gdGreasy /\ gr_epochSecret gdGreasy = gr_epochSecret gbGreasy /\
  let t := [Some (NLeaf (kp_leafNode (kpp_public dave)))] in let t' := [Some (NLeaf greasyLeaf)] in
  @verifyIntegrity toy t (greasyContext t) clock = Ok tt /\ @verifyIntegrity toy t' (greasyContext t') clock = Ok tt.
Proof. exact grease_example. Qed.
