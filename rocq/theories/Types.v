(** The data types of the library. Unsigned integers are [N]; the bounds are in
    [Codec.v]'s readers and, for encoders, in [WellFormed.v].

    Convention for tagged structs.  Go stores a tag and one pointer per case.
    Where the tag and the non-nil pointer are always set together (every
    constructor in the code does so), the struct is a sum type here.  Where the
    code reads the tag and the payload separately ([Credential], [leafNode]) the
    tag and the payloads are kept as separate fields. *)
From Verif Require Export Wire.

(** crypto.go:26-30 Credential *)
Record credential := mkCredential {
  cred_type : N;
  cred_identity : bytes;
  cred_certificates : list bytes }.

(** crypto.go:82-85 hpkeCiphertext *)
Record hpkeCiphertext := mkHpkeCiphertext {
  hc_kemOutput : bytes;
  hc_ciphertext : bytes }.

(** tree.go:238-241 extension *)
Record extension := mkExtension {
  ext_type : N;
  ext_data : bytes }.

(** tree.go:83-89 capabilities *)
Record capabilities := mkCapabilities {
  caps_versions : list N;
  caps_cipherSuites : list N;
  caps_extensions : list N;
  caps_proposals : list N;
  caps_credentials : list N }.

(** tree.go:183-185 lifetime *)
Record lifetime := mkLifetime {
  lt_notBefore : N;
  lt_notAfter : N }.

(** tree.go:273-285 leafNode *)
Record leafNode := mkLeafNode {
  ln_encryptionKey : bytes;
  ln_signatureKey : bytes;
  ln_credential : credential;
  ln_capabilities : capabilities;
  ln_source : N;
  ln_lifetime : option lifetime;
  ln_parentHash : bytes;
  ln_extensions : list extension;
  ln_signature : bytes }.

(** tree.go:12-16 parentNode *)
Record parentNode := mkParentNode {
  pn_encryptionKey : bytes;
  pn_parentHash : bytes;
  pn_unmergedLeaves : list N }.

(** tree.go:567-571 node *)
Inductive node :=
| NLeaf (l : leafNode)
| NParent (p : parentNode).

(** tree.go:619 ratchetTree, as a value: blank nodes are [None]. *)
Definition ratchetTree := list (option node).

(** tree.go:460-463 updatePathNode *)
Record updatePathNode := mkUpdatePathNode {
  upn_encryptionKey : bytes;
  upn_encryptedPathSecret : list hpkeCiphertext }.

(** tree.go:515-518 updatePath *)
Record updatePath := mkUpdatePath {
  up_leafNode : leafNode;
  up_nodes : list updatePathNode }.

(** key_package.go:16-23 KeyPackage *)
Record keyPackage := mkKeyPackage {
  kp_version : N;
  kp_cipherSuite : N;
  kp_initKey : bytes;
  kp_leafNode : leafNode;
  kp_extensions : list extension;
  kp_signature : bytes }.

(** key_schedule.go:222-234 preSharedKeyID *)
Inductive preSharedKeyID :=
| PskExternal (id nonce : bytes)
| PskResumption (usage : N) (groupID : bytes) (epoch : N) (nonce : bytes).

(** proposal.go:160-165 reInit *)
Record reInit := mkReInit {
  ri_groupID : bytes;
  ri_version : N;
  ri_cipherSuite : N;
  ri_extensions : list extension }.

(** proposal.go:40-49 proposal *)
Inductive proposal :=
| PAdd (kp : keyPackage)
| PUpdate (l : leafNode)
| PRemove (removed : N)
| PPsk (id : preSharedKeyID)
| PReInit (ri : reInit)
| PExternalInit (kemOutput : bytes)
| PGroupContextExtensions (exts : list extension).

(** proposal.go:255-259 proposalOrRef *)
Inductive proposalOrRef :=
| PorProposal (p : proposal)
| PorReference (ref : bytes).

(** group.go:851-854 commit *)
Record commit := mkCommit {
  c_proposals : list proposalOrRef;
  c_path : option updatePath }.

(** framing.go:67-71 sender *)
Inductive sender :=
| SMember (li : N)
| SExternal (i : N)
| SNewMemberProposal
| SNewMemberCommit.

(** The [leafIndex] field of a sender: zero unless the sender is a member. *)
Definition sender_leafIndex (s : sender) : N :=
  match s with SMember li => li | _ => 0 end.

(** The content part of framedContent and privateMessageContent
    (framing.go:142-145, 703-705) with its tag. *)
Inductive body :=
| BApplication (data : bytes)
| BProposal (p : proposal)
| BCommit (c : commit).

(** framing.go:18-24 contentType *)
Definition body_type (b : body) : N :=
  match b with BApplication _ => 1 | BProposal _ => 2 | BCommit _ => 3 end.

(** framing.go:136-146 framedContent *)
Record framedContent := mkFramedContent {
  fc_groupID : bytes;
  fc_epoch : N;
  fc_sender : sender;
  fc_authenticatedData : bytes;
  fc_body : body }.

(** framing.go:343-346 framedContentAuthData *)
Record authData := mkAuthData {
  ad_signature : bytes;
  ad_confirmationTag : bytes }.

(** framing.go:263-267 authenticatedContent *)
Record authenticatedContent := mkAuthenticatedContent {
  ac_wireFormat : N;
  ac_content : framedContent;
  ac_auth : authData }.

(** framing.go:412-416 publicMessage *)
Record publicMessage := mkPublicMessage {
  pubm_content : framedContent;
  pubm_auth : authData;
  pubm_membershipTag : bytes }.

(** framing.go:505-512 privateMessage *)
Record privateMessage := mkPrivateMessage {
  privm_groupID : bytes;
  privm_epoch : N;
  privm_contentType : N;
  privm_authenticatedData : bytes;
  privm_encryptedSenderData : bytes;
  privm_ciphertext : bytes }.

(** framing.go:702-708 privateMessageContent *)
Record privateMessageContent := mkPrivateMessageContent {
  pmc_body : body;
  pmc_auth : authData }.

(** framing.go:838-842 senderData *)
Record senderData := mkSenderData {
  sd_leafIndex : N;
  sd_generation : N;
  sd_reuseGuard : bytes }.

(** key_schedule.go:10-18 groupContext *)
Record groupContext := mkGroupContext {
  gc_version : N;
  gc_cipherSuite : N;
  gc_groupID : bytes;
  gc_epoch : N;
  gc_treeHash : bytes;
  gc_confirmedTranscriptHash : bytes;
  gc_extensions : list extension }.

(** group.go:894-900 groupInfo *)
Record groupInfo := mkGroupInfo {
  gi_groupContext : groupContext;
  gi_extensions : list extension;
  gi_confirmationTag : bytes;
  gi_signer : N;
  gi_signature : bytes }.

(** group.go:1003-1007 groupSecrets *)
Record groupSecrets := mkGroupSecrets {
  gs_joinerSecret : bytes;
  gs_pathSecret : option bytes;
  gs_psks : list preSharedKeyID }.

(** group.go:1220-1223 encryptedGroupSecrets *)
Record encryptedGroupSecrets := mkEncryptedGroupSecrets {
  egs_newMember : bytes;
  egs_secrets : hpkeCiphertext }.

(** group.go:1081-1085 Welcome *)
Record welcome := mkWelcome {
  w_cipherSuite : N;
  w_secrets : list encryptedGroupSecrets;
  w_encryptedGroupInfo : bytes }.

(** framing.go:199-207 mlsMessage.  The version is not stored: the decoder only
    accepts version 1 and every encoder sets version 1. *)
Inductive mlsMessage :=
| MPublic (m : publicMessage)
| MPrivate (m : privateMessage)
| MWelcome (w : welcome)
| MGroupInfo (g : groupInfo)
| MKeyPackage (k : keyPackage).

(** framing.go:104-110 wireFormat *)
Definition wireFormatMLSPublicMessage : N := 1.
Definition wireFormatMLSPrivateMessage : N := 2.
Definition msg_wireFormat (m : mlsMessage) : N :=
  match m with
  | MPublic _ => 1 | MPrivate _ => 2 | MWelcome _ => 3 | MGroupInfo _ => 4 | MKeyPackage _ => 5
  end.
