(** The credentials of the members (C122). *)
From Verif Require Export SpecOwnLeaf Leaf.

(** The same leaf node but for the content of the credential and the signature *)
Record renamed (l l' : leafNode) : Prop := {
  rn_encryptionKey : ln_encryptionKey l' = ln_encryptionKey l;
  rn_signatureKey : ln_signatureKey l' = ln_signatureKey l;
  rn_type : cred_type (ln_credential l') = cred_type (ln_credential l);
  rn_capabilities : ln_capabilities l' = ln_capabilities l;
  rn_lifetime : ln_lifetime l' = ln_lifetime l;
  rn_extensions : ln_extensions l' = ln_extensions l }.
