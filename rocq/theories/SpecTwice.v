(** Extensions of one type (C119). *)
From Verif Require Export SpecGroup SpecObtained Leaf.

(** No two extensions of the list have the same type. *)
Definition once (l : list extension) : Prop := NoDup (map ext_type l).

(** The same but for the extensions and the signature *)
Record same_package (k k' : keyPackage) : Prop := {
  sp_version : kp_version k' = kp_version k;
  sp_cipherSuite : kp_cipherSuite k' = kp_cipherSuite k;
  sp_initKey : kp_initKey k' = kp_initKey k;
  sp_leafNode : kp_leafNode k' = kp_leafNode k }.
Record same_leaf (l l' : leafNode) : Prop := {
  sl_encryptionKey : ln_encryptionKey l' = ln_encryptionKey l;
  sl_signatureKey : ln_signatureKey l' = ln_signatureKey l;
  sl_credential : ln_credential l' = ln_credential l;
  sl_capabilities : ln_capabilities l' = ln_capabilities l;
  sl_lifetime : ln_lifetime l' = ln_lifetime l }.
Record same_info (gi gi' : groupInfo) : Prop := {
  si_groupContext : gi_groupContext gi' = gi_groupContext gi;
  si_confirmationTag : gi_confirmationTag gi' = gi_confirmationTag gi;
  si_signer : gi_signer gi' = gi_signer gi }.
