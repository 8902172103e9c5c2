(** Well-formed values: the values of the Go types, in their normal form.
    Integers are within their types' range, and fields which are not
    transmitted for the value's tag hold their zero value. *)
From Verif Require Export Codec.

Definition u8 (n : N) : Prop := n < 2^8.
Definition u16 (n : N) : Prop := n < 2^16.
Definition u32 (n : N) : Prop := n < 2^32.
Definition u64 (n : N) : Prop := n < 2^64.

Definition wf_credential (c : credential) : Prop :=
  (cred_type c = 1 /\ cred_certificates c = []) \/
  (cred_type c = 2 /\ cred_identity c = []).

Definition wf_extension (e : extension) : Prop := u16 (ext_type e).

Definition wf_capabilities (c : capabilities) : Prop :=
  Forall u16 (caps_versions c) /\ Forall u16 (caps_cipherSuites c) /\
  Forall u16 (caps_extensions c) /\ Forall u16 (caps_proposals c) /\
  Forall u16 (caps_credentials c).

Definition wf_lifetime (l : lifetime) : Prop := u64 (lt_notBefore l) /\ u64 (lt_notAfter l).

Definition wf_leafNode (l : leafNode) : Prop :=
  wf_credential (ln_credential l) /\ wf_capabilities (ln_capabilities l) /\
  Forall wf_extension (ln_extensions l) /\
  ((ln_source l = 1 /\ (exists lt, ln_lifetime l = Some lt /\ wf_lifetime lt) /\ ln_parentHash l = []) \/
   (ln_source l = 2 /\ ln_lifetime l = None /\ ln_parentHash l = []) \/
   (ln_source l = 3 /\ ln_lifetime l = None)).

Definition wf_parentNode (p : parentNode) : Prop := Forall u32 (pn_unmergedLeaves p).

Definition wf_node (n : node) : Prop :=
  match n with NLeaf l => wf_leafNode l | NParent p => wf_parentNode p end.

Definition wf_optionalNode (o : option node) : Prop :=
  match o with Some n => wf_node n | None => True end.

Definition wf_updatePath (u : updatePath) : Prop := wf_leafNode (up_leafNode u).

Definition wf_keyPackage (k : keyPackage) : Prop :=
  kp_version k = 1 /\ u16 (kp_cipherSuite k) /\ wf_leafNode (kp_leafNode k) /\
  Forall wf_extension (kp_extensions k).

Definition wf_pskID (p : preSharedKeyID) : Prop :=
  match p with
  | PskExternal _ _ => True
  | PskResumption u _ e _ => (u = 1 \/ u = 2 \/ u = 3) /\ u64 e
  end.

Definition wf_groupContext (c : groupContext) : Prop :=
  gc_version c = 1 /\ u16 (gc_cipherSuite c) /\ u64 (gc_epoch c) /\ Forall wf_extension (gc_extensions c).

Definition wf_reInit (r : reInit) : Prop :=
  u16 (ri_version r) /\ u16 (ri_cipherSuite r) /\ Forall wf_extension (ri_extensions r).

Definition wf_proposal (p : proposal) : Prop :=
  match p with
  | PAdd k => wf_keyPackage k
  | PUpdate l => wf_leafNode l
  | PRemove i => u32 i
  | PPsk p => wf_pskID p
  | PReInit r => wf_reInit r
  | PExternalInit _ => True
  | PGroupContextExtensions e => Forall wf_extension e
  end.

Definition wf_proposalOrRef (p : proposalOrRef) : Prop :=
  match p with PorProposal q => wf_proposal q | PorReference _ => True end.

Definition wf_commit (c : commit) : Prop :=
  Forall wf_proposalOrRef (c_proposals c) /\
  match c_path c with Some u => wf_updatePath u | None => True end.

Definition wf_groupInfo (g : groupInfo) : Prop :=
  wf_groupContext (gi_groupContext g) /\ Forall wf_extension (gi_extensions g) /\ u32 (gi_signer g).

Definition wf_groupSecrets (g : groupSecrets) : Prop := Forall wf_pskID (gs_psks g).

Definition wf_welcome (w : welcome) : Prop := u16 (w_cipherSuite w).

Definition wf_sender (s : sender) : Prop :=
  match s with SMember i => u32 i | SExternal i => u32 i | _ => True end.

Definition wf_body (b : body) : Prop :=
  match b with BApplication _ => True | BProposal p => wf_proposal p | BCommit c => wf_commit c end.

Definition wf_framedContent (c : framedContent) : Prop :=
  u64 (fc_epoch c) /\ wf_sender (fc_sender c) /\ wf_body (fc_body c).

(** A confirmation tag is present for commits only. *)
Definition wf_authData (ct : N) (a : authData) : Prop := ct = 3 \/ ad_confirmationTag a = [].

Definition wf_authenticatedContent (a : authenticatedContent) : Prop :=
  In (ac_wireFormat a) [1; 2; 3; 4; 5] /\ wf_framedContent (ac_content a) /\
  wf_authData (body_type (fc_body (ac_content a))) (ac_auth a).

(** A membership tag is present for members only. *)
Definition wf_publicMessage (m : publicMessage) : Prop :=
  wf_framedContent (pubm_content m) /\
  wf_authData (body_type (fc_body (pubm_content m))) (pubm_auth m) /\
  match fc_sender (pubm_content m) with SMember _ => True | _ => pubm_membershipTag m = [] end.

Definition wf_privateMessage (m : privateMessage) : Prop :=
  u64 (privm_epoch m) /\ In (privm_contentType m) [1; 2; 3].

Definition wf_privateMessageContent (c : privateMessageContent) : Prop :=
  wf_body (pmc_body c) /\ wf_authData (body_type (pmc_body c)) (pmc_auth c).

Definition wf_senderData (d : senderData) : Prop :=
  u32 (sd_leafIndex d) /\ u32 (sd_generation d) /\ lenN (sd_reuseGuard d) = 4.

Definition wf_mlsMessage (m : mlsMessage) : Prop :=
  match m with
  | MPublic m => wf_publicMessage m
  | MPrivate m => wf_privateMessage m
  | MWelcome w => wf_welcome w
  | MGroupInfo g => wf_groupInfo g
  | MKeyPackage k => wf_keyPackage k
  end.

(** A ratchet tree is a full binary tree ([2^d] leaves, hence [2*2^d - 1] slots)
    which is not larger than needed: unless it has no slots at all, some slot
    beyond those of the half-size tree (slots 0 .. 2^d - 2) is not blank. *)
Definition wf_ratchetTree (t : ratchetTree) : Prop :=
  Forall wf_optionalNode t /\
  (t = [] \/ exists d, lenN t = 2 * 2 ^ d - 1 /\
                       exists i n, nth_error t i = Some (Some n) /\ 2 ^ d - 1 <= N.of_nat i).

(** The key packages and group information in it are signed: a missing
    signature is read as an empty one (C04). *)
Definition good_keyPackage (k : keyPackage) : Prop := kp_signature k <> [].
Definition good_proposal (p : proposal) : Prop := match p with PAdd k => good_keyPackage k | _ => True end.
Definition good_proposalOrRef (p : proposalOrRef) : Prop := match p with PorProposal q => good_proposal q | _ => True end.
Definition good_commit (c : commit) : Prop := Forall good_proposalOrRef (c_proposals c).
Definition good_body (b : body) : Prop :=
  match b with BApplication _ => True | BProposal p => good_proposal p | BCommit c => good_commit c end.
Definition good_groupInfo (g : groupInfo) : Prop := gi_signature g <> [].
Definition good_framedContent (c : framedContent) : Prop := good_body (fc_body c).
Definition good_authenticatedContent (a : authenticatedContent) : Prop := good_framedContent (ac_content a).
Definition good_publicMessage (m : publicMessage) : Prop := good_framedContent (pubm_content m).
Definition good_privateMessageContent (c : privateMessageContent) : Prop := good_body (pmc_body c).
Definition good_mlsMessage (m : mlsMessage) : Prop :=
  match m with
  | MPublic m => good_publicMessage m
  | MGroupInfo g => good_groupInfo g
  | MKeyPackage k => good_keyPackage k
  | MPrivate _ | MWelcome _ => True
  end.
