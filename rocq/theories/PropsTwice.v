(** Extensions of one type: C119. *)
From Verif Require Import TwiceSamples.

(** ** C119 *)
(** A member accepts a commit that adds a key package with two extensions of
    the same type, in the package and in its leaf node, which is then in their
    tree. *)
Theorem C119_repeated_extensions_are_accepted_refuted :
  exists (C : crypto) g raw now ac c g' li l k,
  crypto_ok C /\ obtained g /\ accepts_commit g raw now ac c g' /\ leaf_at (gr_value g) li = None /\ leaf_at (gr_value g') li = Some l /\ ~ once (ln_extensions l) /\
  In (PorProposal (PAdd k)) (c_proposals c) /\ ~ once (kp_extensions k).
Proof. exact repeated_extensions. Qed.
Print Assumptions C119_repeated_extensions_are_accepted_refuted.

(** The extensions of a key package make no difference to whether it is
    accepted, as long as it is signed. *)
Theorem C119_package_extensions_are_not_looked_at_refuted :
  forall (C : crypto) k k' ctx, same_package k k' -> keyPackageVerifySignature k = Ok true -> keyPackageVerifySignature k' = Ok true ->
  keyPackageVerify k' ctx = keyPackageVerify k ctx.
Proof. exact @package_extensions. Qed.
Print Assumptions C119_package_extensions_are_not_looked_at_refuted.

(** Of the extensions of a leaf node only which types there are makes a
    difference, not how often. *)
Theorem C119_repeated_leaf_extensions_are_not_noticed_refuted :
  forall (C : crypto) l l' o, same_leaf l l' -> (forall ty, In ty (map ext_type (ln_extensions l')) <-> In ty (map ext_type (ln_extensions l))) ->
  leafNodeVerifySignature (vo_cipherSuite o) (vo_groupID o) (vo_leafIndex o) l = Ok true ->
  leafNodeVerifySignature (vo_cipherSuite o) (vo_groupID o) (vo_leafIndex o) l' = Ok true ->
  leafNodeVerify l' o = leafNodeVerify l o.
Proof. exact @leaf_extensions. Qed.
Print Assumptions C119_repeated_leaf_extensions_are_not_noticed_refuted.

(** Missing: that such lists are refused. What holds is that the first counts:
    extensions added at the end of a group info, such as another ratchet tree,
    change nothing for the one who joins. *)
Theorem C119_only_the_first_ratchet_tree_counts_partial :
  forall (C : crypto) w w' kpp s now psk gi gi' more g, w_cipherSuite w' = w_cipherSuite w ->
  extractPSKSecret (w_cipherSuite w) (gs_psks s) [] = Ok psk ->
  decryptGroupInfo w (gs_joinerSecret s) psk = Ok gi -> decryptGroupInfo w' (gs_joinerSecret s) psk = Ok gi' ->
  same_info gi gi' -> gi_extensions gi' = gi_extensions gi ++ more ->
  (forall key, groupInfoVerifySignature gi key = Ok true -> groupInfoVerifySignature gi' key = Ok true) ->
  groupFromSecrets w kpp s None [] now = Ok g -> groupFromSecrets w' kpp s None [] now = Ok g.
Proof. exact @later_extensions. Qed.
Print Assumptions C119_only_the_first_ratchet_tree_counts_partial.

(** Dave's key package with one and with two extensions of type 65281, and a
    Welcome for Dave with one ratchet tree and with two. *)
Example C119_example :
  same_package onceKP twiceKP /\ once (kp_extensions onceKP) /\ ~ once (kp_extensions twiceKP) /\
  @keyPackageVerifySignature toy onceKP = Ok true /\ @keyPackageVerifySignature toy twiceKP = Ok true /\
  @keyPackageVerify toy twiceKP (gr_context ga) = Ok tt /\
  same_info info119 info119' /\ ~ once (gi_extensions info119') /\
  @groupInfoVerifySignature toy info119' (ln_signatureKey (kp_leafNode (kpp_public alice))) = Ok true /\
  @groupFromWelcome toy welcome119 dave clock = Ok joined119 /\ @groupFromWelcome toy welcome119' dave clock = Ok joined119.
Proof. exact twice_example. Qed.
